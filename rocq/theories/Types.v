(** Data the inspected code reads, i.e. the parts of OpenGeode meshes and models it queries.  These types belong to
    the OpenGeode library, not to this repository; geometric or navigation queries whose implementation is
    elsewhere are function-valued fields (oracles), unconstrained unless a theorem says otherwise. *)
From Coq Require Import String Ascii List Arith NArith ZArith Bool Lia.
From Verif Require Import Base Model_Issues.
Import ListNotations.

(** A point is its coordinates. *)
Definition Point := list double.

(** [PolygonEdge], [PolygonVertex], [PolyhedronFacet], [PolyhedronVertex]: element and local index. *)
Definition PolygonEdge := (nat * nat)%type.
Definition PolygonVertex := (nat * nat)%type.
Definition PolyhedronFacet := (nat * nat)%type.
Definition PolyhedronVertex := (nat * nat)%type.

(** ** PointSet *)
Record PointSet := mkPointSet { ps_points : list Point }.

(** ** EdgedCurve: edges are pairs of vertices *)
Record EdgedCurve := mkCurve {
  ec_points : list Point;
  ec_edges : list (nat * nat);
  ec_edge_length : nat -> double;          (* EdgedCurve::edge_length *)
  ec_edge_degenerated : nat -> bool        (* EdgedCurve::is_edge_degenerated *) }.

(** ** SurfaceMesh *)
Record SurfaceMesh := mkSurface {
  sm_dimension : nat;                       (* 2 or 3 *)
  sm_points : list Point;
  sm_polygons : list (list nat);            (* vertices of each polygon *)
  sm_adjacent : PolygonEdge -> option nat;  (* polygon_adjacent *)
  sm_edges : list (nat * nat);              (* the edges stored when edges are enabled *)
  sm_polygon_degenerated : nat -> bool;     (* is_polygon_degenerated *)
  sm_minimum_height : nat -> double;        (* polygon_minimum_height *)
  sm_around_vertex : nat -> outcome (list PolygonVertex); (* polygons_around_vertex *)
  sm_vertex_on_border : nat -> bool         (* is_vertex_on_border *) }.

(** ** SolidMesh *)
Record Polyhedron := mkPolyhedron {
  ph_vertices : list nat;
  ph_facets : list (list nat);              (* vertices of each facet, oriented *)
  ph_edges : list (nat * nat)               (* polyhedron_edges_vertices *) }.

Record SolidMesh := mkSolid {
  so_points : list Point;
  so_polyhedra : list Polyhedron;
  so_adjacent : PolyhedronFacet -> option nat;   (* polyhedron_adjacent *)
  so_edges : list (nat * nat);
  so_polyhedron_degenerated : nat -> bool;
  so_minimum_height : nat -> double;
  so_volume : nat -> double;                     (* polyhedron_volume *)
  so_around_vertex : nat -> outcome (list PolyhedronVertex);  (* polyhedra_around_vertex *)
  so_around_edge : (nat * nat) -> nat -> outcome (list nat)   (* polyhedra_around_edge *) }.

(** Plain accessors of OpenGeode, total on in-range indices. *)
Definition nb_polygons (m : SurfaceMesh) : nat := List.length (sm_polygons m).
Definition polygon_vertices (m : SurfaceMesh) (p : nat) : list nat := nth p (sm_polygons m) [].
Definition nb_polygon_edges (m : SurfaceMesh) (p : nat) : nat := List.length (polygon_vertices m p).
Definition nb_polyhedra (m : SolidMesh) : nat := List.length (so_polyhedra m).
Definition polyhedron (m : SolidMesh) (p : nat) : Polyhedron :=
  nth p (so_polyhedra m) (mkPolyhedron [] [] []).
Definition polyhedron_facet_vertices (m : SolidMesh) (f : PolyhedronFacet) : list nat :=
  nth (snd f) (ph_facets (polyhedron m (fst f))) [].
(** [polygon_edge_vertex(edge, 0)] and [(edge, 1)]: vertex of the edge and the next one around the polygon *)
Definition polygon_vertex (m : SurfaceMesh) (pv : PolygonVertex) : nat :=
  nth (snd pv) (polygon_vertices m (fst pv)) 0.
Definition polygon_edge_vertex0 (m : SurfaceMesh) (e : PolygonEdge) : nat := polygon_vertex m e.
Definition polygon_edge_vertex1 (m : SurfaceMesh) (e : PolygonEdge) : nat :=
  polygon_vertex m (fst e, Nat.modulo (S (snd e)) (nb_polygon_edges m (fst e))).

(** All polygon edges / polyhedron facets in loop order [for p in Range, for e in LRange]. *)
Definition all_polygon_edges (m : SurfaceMesh) : list PolygonEdge :=
  flat_map (fun p => map (fun e => (p, e)) (Range (nb_polygon_edges m p))) (Range (nb_polygons m)).
Definition all_polyhedron_facets (m : SolidMesh) : list PolyhedronFacet :=
  flat_map (fun p => map (fun f => (p, f)) (Range (List.length (ph_facets (polyhedron m p))))) (Range (nb_polyhedra m)).

(** ** Models (BRep and Section) *)
Inductive ComponentType := CornerT | LineT | SurfaceT | BlockT | OtherT.
Definition ctype_eqb (a b : ComponentType) : bool :=
  match a, b with
  | CornerT, CornerT | LineT, LineT | SurfaceT, SurfaceT | BlockT, BlockT | OtherT, OtherT => true
  | _, _ => false
  end.
Record ComponentID := mkCID { cid_type : ComponentType; cid_id : uuid }.
Record ComponentMeshVertex := mkCMV { cmv_component : ComponentID; cmv_vertex : nat }.

Record Component (M : Type) := mkComponent {
  co_id : uuid;
  co_name : option string;
  co_active : bool;
  co_mesh : M }.
Arguments mkComponent {M} _ _ _ _.
Arguments co_id {M} _.
Arguments co_name {M} _.
Arguments co_active {M} _.
Arguments co_mesh {M} _.

(** One record for both model classes: a [Section] is 2D and has no blocks.
    Relationships are lists of (boundary, incident) and (internal, embedding) pairs. *)
Record Model := mkModel {
  m_corners : list (Component PointSet);
  m_lines : list (Component EdgedCurve);
  m_surfaces : list (Component SurfaceMesh);
  m_blocks : list (Component SolidMesh);
  m_model_boundaries : list (uuid * list uuid);   (* model boundaries and their surfaces *)
  m_cmvs : list (list ComponentMeshVertex);       (* component_mesh_vertices, by unique vertex *)
  m_unique_vertex : ComponentMeshVertex -> option nat;  (* unique_vertex, NO_ID = None *)
  m_boundary_rel : list (ComponentID * ComponentID);
  m_internal_rel : list (ComponentID * ComponentID);
  m_missing_exn : exn;                            (* what the accessors throw on an unknown id *)
  m_uuid_string : uuid -> string;                 (* uuid::string *)
  m_point_string : Point -> string;               (* Point::string, in the messages of topology checks *)
  m_cmv_string : ComponentMeshVertex -> string;   (* ComponentMeshVertex::string *)
  m_cid_string : ComponentID -> string }.         (* ComponentID::string *)

Definition nb_unique_vertices (m : Model) : nat := List.length (m_cmvs m).
Definition component_mesh_vertices (m : Model) (uv : nat) : list ComponentMeshVertex := nth uv (m_cmvs m) [].

Fixpoint find_component {M} (id : uuid) (l : list (Component M)) : option (Component M) :=
  match l with
  | [] => None
  | c :: l' => if Nat.eqb (co_id c) id then Some c else find_component id l'
  end.
Definition or_throw {A} (m : Model) (o : option A) : outcome A :=
  match o with Some a => Ok a | None => Throw (m_missing_exn m) end.
(** [model.corner(id)], ... *)
Definition get_corner (m : Model) (id : uuid) := or_throw m (find_component id (m_corners m)).
Definition get_line (m : Model) (id : uuid) := or_throw m (find_component id (m_lines m)).
Definition get_surface (m : Model) (id : uuid) := or_throw m (find_component id (m_surfaces m)).
Definition get_block (m : Model) (id : uuid) := or_throw m (find_component id (m_blocks m)).
Definition isSome {A} (o : option A) : bool := match o with Some _ => true | None => false end.

(** active components, in iteration order: [active_lines()] ... *)
Definition active {M} (l : list (Component M)) : list (Component M) := filter co_active l.

(** [Relationships] *)
Definition is_boundary (m : Model) (a b : uuid) : bool :=
  existsb (fun r => Nat.eqb (cid_id (fst r)) a && Nat.eqb (cid_id (snd r)) b) (m_boundary_rel m).
Definition is_internal (m : Model) (a b : uuid) : bool :=
  existsb (fun r => Nat.eqb (cid_id (fst r)) a && Nat.eqb (cid_id (snd r)) b) (m_internal_rel m).
Definition boundaries (m : Model) (b : uuid) : list ComponentID :=
  map fst (filter (fun r => Nat.eqb (cid_id (snd r)) b) (m_boundary_rel m)).
Definition incidences (m : Model) (a : uuid) : list ComponentID :=
  map snd (filter (fun r => Nat.eqb (cid_id (fst r)) a) (m_boundary_rel m)).
Definition embeddings (m : Model) (a : uuid) : list ComponentID :=
  map snd (filter (fun r => Nat.eqb (cid_id (fst r)) a) (m_internal_rel m)).
Definition internals (m : Model) (b : uuid) : list ComponentID :=
  map fst (filter (fun r => Nat.eqb (cid_id (snd r)) b) (m_internal_rel m)).
Definition nb_boundaries (m : Model) (b : uuid) : nat := List.length (boundaries m b).
Definition nb_incidences (m : Model) (a : uuid) : nat := List.length (incidences m a).
Definition nb_embeddings (m : Model) (a : uuid) : nat := List.length (embeddings m a).

Definition title (m : Model) (name : option string) (id : uuid) : string :=
  match name with Some n => n | None => m_uuid_string m id end.
(** Text used in messages: [name().value_or(id.string())] followed by the id. *)
Definition named (m : Model) (name : option string) (id : uuid) : string :=
  StrCat [title m name id; " ("; m_uuid_string m id; ")"]%string.

(** ** Geometry oracles *)
(** [NNSearch::ColocatedInfo] *)
Record ColocatedInfo := mkColocated {
  colocated_mapping : list nat;
  unique_points : list Point }.
Record Geometry := mkGeometry {
  g_colocated : list Point -> ColocatedInfo;   (* NNSearch(points).colocated_index_mapping(GLOBAL_EPSILON) *)
  g_inexact_equal : Point -> Point -> bool;    (* Point::inexact_equal *)
  g_point_string : Point -> string             (* Point::string *) }.

(** Measures of points: [point_point_distance], [polygon_area_sign == negative] (2D) and
    [tetrahedron_volume_sign == negative]; [edge_barycenter] is only printed. *)
Record Measures := mkMeasures {
  ms_barycenter : Point -> Point -> Point;
  ms_distance : Point -> Point -> double;
  ms_area_negative : list Point -> bool;
  ms_tetra_negative : Point -> Point -> Point -> Point -> bool }.

(** Queries of OpenGeode that search a model for elements joining given unique vertices: the components and elements
    found. *)
Record Lookup := mkLookup {
  lk_line_edges : nat * nat -> outcome (list (uuid * nat));      (* detail::line_component_mesh_edges *)
  lk_surface_polygons : list nat -> outcome (list (uuid * nat))  (* detail::surface_component_mesh_polygons *) }.
