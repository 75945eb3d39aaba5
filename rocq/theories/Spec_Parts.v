(** What the report on the meshes of a model says of one component, and the same component with other numbers or another description. *)
From Coq Require Import String Ascii List Arith NArith ZArith Bool Lia Permutation.
From Verif Require Import Base Model_Issues Types Model_Degeneration Model_Intersections Model_BRep Model_Results Spec_Cycles Spec_Colocation Spec_Degeneration Spec_Components Spec_Renumber Spec_Redescribe Spec_RedescribeSolid.
Import ListNotations.
Local Open Scope string_scope.

(** The issues reported for one line, one surface, one block. *)
Record LinePart := mkLinePart { lp_colocated : list (list nat); lp_edges : list nat }.
Record SurfacePart := mkSurfacePart {
  sp_adjacency : list (nat * nat); sp_colocated : list (list nat); sp_edges : list nat; sp_polygons : list nat;
  sp_manifold_edges : list (nat * nat); sp_manifold_vertices : list nat; sp_negative : list nat }.
Record BlockPart := mkBlockPart {
  bp_adjacency : list (nat * nat); bp_colocated : list (list nat); bp_edges : list nat; bp_polyhedra : list nat;
  bp_manifold_vertices : list nat; bp_manifold_edges : list (nat * nat); bp_manifold_facets : list (list nat); bp_negative : list nat }.
Definition section_line_part (r : SectionMeshesResult) (id : uuid) : LinePart :=
  mkLinePart (issues_for id (sc_colocation r)) (issues_for id (sd_edges (sc_degeneration r))).
Definition brep_line_part (r : BRepMeshesResult) (id : uuid) : LinePart :=
  mkLinePart (issues_for id (br_colocation r)) (issues_for id (dr_edges (br_degeneration r))).
Definition section_surface_part (r : SectionMeshesResult) (id : uuid) : SurfacePart :=
  mkSurfacePart (issues_for id (sc_adjacency r)) (issues_for id (sc_colocation r)) (issues_for id (sd_edges (sc_degeneration r)))
    (issues_for id (sd_polygons (sc_degeneration r))) (issues_for id (sn_edges (sc_manifold r))) (issues_for id (sn_vertices (sc_manifold r))) (issues_for id (sc_negative r)).
(** the polygons of a BRep have no sign *)
Definition brep_surface_part (r : BRepMeshesResult) (id : uuid) : SurfacePart :=
  mkSurfacePart (issues_for id (ba_surfaces (br_adjacency r))) (issues_for id (br_colocation r)) (issues_for id (dr_edges (br_degeneration r)))
    (issues_for id (dr_polygons (br_degeneration r))) (issues_for id (bm_edges (br_manifold r))) (issues_for id (bm_vertices (br_manifold r))) [].
Definition brep_block_part (r : BRepMeshesResult) (id : uuid) : BlockPart :=
  mkBlockPart (issues_for id (ba_blocks (br_adjacency r))) (issues_for id (br_colocation r)) (issues_for id (dr_edges (br_degeneration r)))
    (issues_for id (dr_polyhedra (br_degeneration r))) (issues_for id (bm_vertices (br_manifold r))) (issues_for id (bm_edges (br_manifold r)))
    (issues_for id (bm_facets (br_manifold r))) (issues_for id (br_negative r)).

(** [r] is the report on the meshes of [m] by an inspector that may have been used before, whatever was found to intersect. *)
Definition section_report (o : Oracles) (m : Model) (r : SectionMeshesResult) : Prop :=
  exists qs s0 b0 st x, model_queries (or_measures o) (or_geometry o) m qs (new_model_inspector s0 b0) = Ok st /\ inspect_section_meshes o m st x = Ok r.
Definition brep_report (o : Oracles) (m : Model) (r : BRepMeshesResult) : Prop :=
  exists qs s0 b0 st x, model_queries (or_measures o) (or_geometry o) m qs (new_model_inspector s0 b0) = Ok st /\ inspect_brep_meshes o m st x = Ok r.
Definition same_computations (o o' : Oracles) : Prop := or_measures o' = or_measures o /\ or_geometry o' = or_geometry o.

(** Two vertices of the component are linked to one unique vertex in the first model iff they are in the second. *)
Definition same_links (k : nat) (f : nat -> nat) (c c' : ComponentID) (m m' : Model) : Prop :=
  forall v w, v < k -> w < k ->
    (m_unique_vertex m' (mkCMV c' (f v)) = m_unique_vertex m' (mkCMV c' (f w)) <-> m_unique_vertex m (mkCMV c v) = m_unique_vertex m (mkCMV c w)).
(** The sides (facets) with a neighbour; the border is judged with the lines (surfaces) around it. *)
Definition inner_side (m : SurfaceMesh) (e : nat * nat) : bool := isSome (sm_adjacent m e).
Definition inner_facet (m : SolidMesh) (f : nat * nat) : bool := isSome (so_adjacent m f).

(** ** The same issues under the new numbers, in any order; as many groups of colocated vertices *)
Record renumbered_line_part (n : Numbering) (p p' : LinePart) : Prop := {
  rlp_colocated : List.length (lp_colocated p') = List.length (lp_colocated p);
  rlp_edges : Permutation (lp_edges p') (map (new_edge n) (lp_edges p)) }.
Record renumbered_surface_part (n : Numbering) (m m' : SurfaceMesh) (p p' : SurfacePart) : Prop := {
  rsp_adjacency : Permutation (filter (inner_side m') (sp_adjacency p')) (map (new_corner n) (filter (inner_side m) (sp_adjacency p)));
  rsp_colocated : List.length (sp_colocated p') = List.length (sp_colocated p);
  rsp_edges : Permutation (sp_edges p') (map (new_edge n) (sp_edges p));
  rsp_polygons : Permutation (sp_polygons p') (map (new_element n) (sp_polygons p));
  rsp_manifold_edges : Permutation (sp_manifold_edges p') (map (new_pair n) (sp_manifold_edges p));
  rsp_manifold_vertices : Permutation (sp_manifold_vertices p') (map (new_vertex n) (sp_manifold_vertices p));
  rsp_negative : Permutation (sp_negative p') (map (new_element n) (sp_negative p)) }.
Record renumbered_block_part (n : Numbering) (m m' : SolidMesh) (p p' : BlockPart) : Prop := {
  rbp_adjacency : Permutation (filter (inner_facet m') (bp_adjacency p')) (map (new_corner n) (filter (inner_facet m) (bp_adjacency p)));
  rbp_colocated : List.length (bp_colocated p') = List.length (bp_colocated p);
  rbp_edges : Permutation (bp_edges p') (map (new_edge n) (bp_edges p));
  rbp_polyhedra : Permutation (bp_polyhedra p') (map (new_element n) (bp_polyhedra p));
  rbp_manifold_vertices : Permutation (bp_manifold_vertices p') (map (new_vertex n) (bp_manifold_vertices p));
  rbp_manifold_edges : Permutation (map undirected (bp_manifold_edges p')) (map (new_pair n) (bp_manifold_edges p));
  rbp_manifold_facets : exists l, Permutation (bp_manifold_facets p') l /\ Forall2 (fun c c' => same_cycle (map (new_vertex n) c) c') (bp_manifold_facets p) l;
  rbp_negative : Permutation (bp_negative p') (map (new_element n) (bp_negative p)) }.
(** ** Another description of the polygons (polyhedra) *)
Record redescribed_surface_part (d : Redescription) (m m' : SurfaceMesh) (p p' : SurfacePart) : Prop := {
  dsp_adjacency : Permutation (filter (inner_side m') (sp_adjacency p')) (map (described_side d) (filter (inner_side m) (sp_adjacency p)));
  dsp_colocated : List.length (sp_colocated p') = List.length (sp_colocated p);
  dsp_edges : sp_edges p' = sp_edges p;
  dsp_polygons : sp_polygons p' = sp_polygons p;
  dsp_manifold_edges : Permutation (sp_manifold_edges p') (sp_manifold_edges p);
  dsp_manifold_vertices : sp_manifold_vertices p' = sp_manifold_vertices p }.
Record redescribed_block_part (d : SolidRedescription) (m m' : SolidMesh) (p p' : BlockPart) : Prop := {
  dbp_adjacency : Permutation (filter (inner_facet m') (bp_adjacency p')) (map (described_facet d) (filter (inner_facet m) (bp_adjacency p)));
  dbp_colocated : List.length (bp_colocated p') = List.length (bp_colocated p);
  dbp_edges : bp_edges p' = bp_edges p;
  dbp_polyhedra : bp_polyhedra p' = bp_polyhedra p;
  dbp_manifold_vertices : bp_manifold_vertices p' = bp_manifold_vertices p;
  dbp_manifold_edges : Permutation (map undirected (bp_manifold_edges p')) (map undirected (bp_manifold_edges p));
  dbp_manifold_facets : exists l, Permutation (bp_manifold_facets p') l /\ Forall2 same_cycle (bp_manifold_facets p) l }.
