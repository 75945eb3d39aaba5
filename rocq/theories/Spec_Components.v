(** What the inspection of a model says of one of its components, compared with the inspection of the mesh of that
    component alone. *)
From Coq Require Import String Ascii List Arith NArith ZArith Bool Lia.
From Verif Require Import Base Model_Issues Types Model_Adjacency Model_Degeneration Model_Results Spec_Colocation Spec_Maps.
Import ListNotations.
Local Open Scope string_scope.

(** What a per-component report contains for component [id]: nothing when it has no entry. *)
Definition issues_for {T} (id : uuid) (m : InspectionIssuesMap T) : list T :=
  match assoc id (im_map m) with Some r => ii_issues r | None => [] end.
Definition messages_for {T} (id : uuid) (m : InspectionIssuesMap T) : list string :=
  match assoc id (im_map m) with Some r => ii_messages r | None => [] end.

(** The same issues with the same messages, in the same order. *)
Definition as_alone {T} (id : uuid) (m : InspectionIssuesMap T) (alone : InspectionIssues T) : Prop :=
  issues_for id m = ii_issues alone /\ messages_for id m = ii_messages alone.
(** The same issues with the same messages, in the same order, then others that all satisfy [P]. *)
Definition as_alone_then {T} (P : T -> Prop) (id : uuid) (m : InspectionIssuesMap T) (alone : InspectionIssues T) : Prop :=
  exists more texts, issues_for id m = (ii_issues alone ++ more)%list /\ messages_for id m = (ii_messages alone ++ texts)%list /\
    forall x, In x more -> P x.

(** The groups of colocated points of the mesh, less those linked to a single unique vertex of the model. *)
Definition colocation_as_alone (m : Model) (c : ComponentID) (r : InspectionIssuesMap (list nat)) (alone : InspectionIssues (list nat)) : Prop :=
  group_reports (fun v => m_unique_vertex m (mkCMV c v)) (ii_issues alone) (issues_for (cid_id c) r).

(** The lists are shorter than 2^32, the number of values of [index_t]. *)
Definition short {T} (r : InspectionIssues T) : Prop := below_2_32 (List.length (ii_issues r)).
Definition curve_short (r : CurveResult) : Prop := short (cr_colocated r) /\ short (cr_edges r).
Definition surface_short (mesh : SurfaceMesh) (r : SurfaceResult) : Prop :=
  below_2_32 (List.length (ii_issues (sr_adjacency r)) + List.length (all_polygon_edges mesh)) /\ short (sr_colocated r) /\
  short (sr_edges r) /\ short (sr_polygons r) /\ short (sr_manifold_edges r) /\ short (sr_manifold_vertices r) /\ short (sr_negative r).
Definition solid_short (mesh : SolidMesh) (r : SolidResult) : Prop :=
  below_2_32 (List.length (ii_issues (so_r_adjacency r)) + List.length (all_polyhedron_facets mesh)) /\ short (so_r_colocated r) /\
  short (so_r_edges r) /\ short (so_r_polyhedra r) /\ short (so_r_manifold_vertices r) /\ short (so_r_manifold_edges r) /\
  short (so_r_manifold_facets r) /\ short (so_r_negative r).

(** An edge of the mesh (a facet) without neighbour. *)
Definition edge_without_neighbour (mesh : SurfaceMesh) (e : PolygonEdge) : Prop :=
  In e (all_polygon_edges mesh) /\ sm_adjacent mesh e = None.
Definition facet_without_neighbour (mesh : SolidMesh) (f : PolyhedronFacet) : Prop :=
  In f (all_polyhedron_facets mesh) /\ so_adjacent mesh f = None.
