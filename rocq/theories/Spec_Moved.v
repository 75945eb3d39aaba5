(** The same object elsewhere (C86): every point is replaced by its image, nothing else changes. *)
From Coq Require Import String Ascii List Arith NArith ZArith Bool Permutation.
From Verif Require Import Base Model_Issues Types Model_Colocation Model_Degeneration Model_Intersections Model_Manifold Model_Topology Model_BRep Model_Blocks
  Model_Results Spec_Rename.
Import ListNotations.
Local Open Scope string_scope.

(** ** Meshes: same elements, lengths, heights, volumes and tests of flatness *)
Definition moved_pointset (g : Point -> Point) (m : PointSet) : PointSet := mkPointSet (map g (ps_points m)).
Definition moved_curve (g : Point -> Point) (m : EdgedCurve) : EdgedCurve :=
  mkCurve (map g (ec_points m)) (ec_edges m) (ec_edge_length m) (ec_edge_degenerated m).
Definition moved_surface (g : Point -> Point) (m : SurfaceMesh) : SurfaceMesh :=
  mkSurface (sm_dimension m) (map g (sm_points m)) (sm_polygons m) (sm_adjacent m) (sm_edges m) (sm_polygon_degenerated m) (sm_minimum_height m)
    (sm_around_vertex m) (sm_vertex_on_border m).
Definition moved_solid (g : Point -> Point) (m : SolidMesh) : SolidMesh :=
  mkSolid (map g (so_points m)) (so_polyhedra m) (so_adjacent m) (so_edges m) (so_polyhedron_degenerated m) (so_minimum_height m) (so_volume m)
    (so_around_vertex m) (so_around_edge m).

(** ** Models: same components, links and relationships; [text] writes the points of the moved model *)
Definition moved_component {M} (h : M -> M) (c : Component M) : Component M := mkComponent (co_id c) (co_name c) (co_active c) (h (co_mesh c)).
Definition moved_model (g : Point -> Point) (text : Point -> string) (m : Model) : Model :=
  mkModel (map (moved_component (moved_pointset g)) (m_corners m)) (map (moved_component (moved_curve g)) (m_lines m))
    (map (moved_component (moved_surface g)) (m_surfaces m)) (map (moved_component (moved_solid g)) (m_blocks m))
    (m_model_boundaries m) (m_cmvs m) (m_unique_vertex m) (m_boundary_rel m) (m_internal_rel m) (m_missing_exn m)
    (m_uuid_string m) text (m_cmv_string m) (m_cid_string m).

(** ** What OpenGeode computes from points: the same for the moved points (texts and barycenters, which are only printed, are arbitrary) *)
Record geometry_follows (g : Point -> Point) (geo geo' : Geometry) : Prop := {
  gf_mapping : forall points, colocated_mapping (g_colocated geo' (map g points)) = colocated_mapping (g_colocated geo points);
  gf_number : forall points, List.length (unique_points (g_colocated geo' (map g points))) = List.length (unique_points (g_colocated geo points));
  gf_equal : forall p q, g_inexact_equal geo' (g p) (g q) = g_inexact_equal geo p q }.
(** [mf_none]: a point without coordinates has none once moved (it stands for the points of vertices that are not in the mesh) *)
Record measures_follow (g : Point -> Point) (ms ms' : Measures) : Prop := {
  mf_none : g [] = [];
  mf_distance : forall p q, ms_distance ms' (g p) (g q) = ms_distance ms p q;
  mf_area : forall points, ms_area_negative ms' (map g points) = ms_area_negative ms points;
  mf_volume : forall a b c d, ms_tetra_negative ms' (g a) (g b) (g c) (g d) = ms_tetra_negative ms a b c d }.
Definition moved_fused (g : Point -> Point) (s : FusedSurface) : FusedSurface := mkFused (map g (fs_points s)) (fs_polygons s).
Record topo_follows (g : Point -> Point) (tl tl' : TopoLookup) : Prop := {
  tf_edges : forall a b, tl_edges tl' a b = tl_edges tl a b;
  tf_polygon_blocks : forall l, tl_polygon_blocks tl' l = tl_polygon_blocks tl l;
  tf_inside_block : forall s b, tl_inside_block tl' s b = tl_inside_block tl s b;
  tf_box : forall p q, tl_box_contains tl' p q = tl_box_contains tl p q;
  tf_inside_closed : forall s p, tl_inside_closed tl' (moved_fused g s) (g p) = tl_inside_closed tl s p }.

(** Searches in the model go through unique vertices: they do not know points. *)
Record oracles_follow (g : Point -> Point) (o o' : Oracles) : Prop := {
  of_measures : measures_follow g (or_measures o) (or_measures o');
  of_geometry : geometry_follows g (or_geometry o) (or_geometry o');
  of_hash : or_hash o' = or_hash o;
  of_lookup : or_lookup o' = or_lookup o;
  of_topo : topo_follows g (or_topo o) (or_topo o') }.

(** ** Reports: the same issues in the same order; texts are not compared *)
Definition same_map {T} (r r' : InspectionIssuesMap T) : Prop := issues_by_component r' = issues_by_component r.
Record same_surface_report (r r' : SurfaceResult) : Prop := {
  ssr_adjacency : same_list (sr_adjacency r) (sr_adjacency r');
  ssr_colocated : same_list (sr_colocated r) (sr_colocated r');
  ssr_edges : same_list (sr_edges r) (sr_edges r');
  ssr_polygons : same_list (sr_polygons r) (sr_polygons r');
  ssr_manifold_edges : same_list (sr_manifold_edges r) (sr_manifold_edges r');
  ssr_manifold_vertices : same_list (sr_manifold_vertices r) (sr_manifold_vertices r');
  ssr_intersections : same_list (sr_intersections r) (sr_intersections r');
  ssr_negative : same_list (sr_negative r) (sr_negative r') }.
Record same_solid_report (r r' : SolidResult) : Prop := {
  sor_adjacency : same_list (so_r_adjacency r) (so_r_adjacency r');
  sor_colocated : same_list (so_r_colocated r) (so_r_colocated r');
  sor_edges : same_list (so_r_edges r) (so_r_edges r');
  sor_polyhedra : same_list (so_r_polyhedra r) (so_r_polyhedra r');
  sor_manifold_vertices : same_list (so_r_manifold_vertices r) (so_r_manifold_vertices r');
  sor_manifold_edges : same_list (so_r_manifold_edges r) (so_r_manifold_edges r');
  sor_manifold_facets : same_list (so_r_manifold_facets r) (so_r_manifold_facets r');
  sor_negative : same_list (so_r_negative r) (so_r_negative r') }.
Record same_section_meshes (r r' : SectionMeshesResult) : Prop := {
  mm_colocated_unique : same_list (ur_colocated (sc_unique_vertices r)) (ur_colocated (sc_unique_vertices r'));
  mm_different : same_list (ur_different (sc_unique_vertices r)) (ur_different (sc_unique_vertices r'));
  mm_colocation : same_map (sc_colocation r) (sc_colocation r');
  mm_adjacency : same_map (sc_adjacency r) (sc_adjacency r');
  mm_edges : same_map (sd_edges (sc_degeneration r)) (sd_edges (sc_degeneration r'));
  mm_polygons : same_map (sd_polygons (sc_degeneration r)) (sd_polygons (sc_degeneration r'));
  mm_intersections : same_list (sc_intersections r) (sc_intersections r');
  mm_manifold_vertices : same_map (sn_vertices (sc_manifold r)) (sn_vertices (sc_manifold r'));
  mm_manifold_edges : same_map (sn_edges (sc_manifold r)) (sn_edges (sc_manifold r'));
  mm_negative : same_map (sc_negative r) (sc_negative r') }.
Record same_brep_meshes (r r' : BRepMeshesResult) : Prop := {
  bmm_colocated_unique : same_list (ur_colocated (br_unique_vertices r)) (ur_colocated (br_unique_vertices r'));
  bmm_different : same_list (ur_different (br_unique_vertices r)) (ur_different (br_unique_vertices r'));
  bmm_colocation : same_map (br_colocation r) (br_colocation r');
  bmm_adjacency_surfaces : same_map (ba_surfaces (br_adjacency r)) (ba_surfaces (br_adjacency r'));
  bmm_adjacency_blocks : same_map (ba_blocks (br_adjacency r)) (ba_blocks (br_adjacency r'));
  bmm_edges : same_map (dr_edges (br_degeneration r)) (dr_edges (br_degeneration r'));
  bmm_polygons : same_map (dr_polygons (br_degeneration r)) (dr_polygons (br_degeneration r'));
  bmm_polyhedra : same_map (dr_polyhedra (br_degeneration r)) (dr_polyhedra (br_degeneration r'));
  bmm_intersections : same_list (br_intersections r) (br_intersections r');
  bmm_manifold_vertices : same_map (bm_vertices (br_manifold r)) (bm_vertices (br_manifold r'));
  bmm_manifold_edges : same_map (bm_edges (br_manifold r)) (bm_edges (br_manifold r'));
  bmm_manifold_facets : same_map (bm_facets (br_manifold r)) (bm_facets (br_manifold r'));
  bmm_model_edges : same_list (bm_model_edges (br_manifold r)) (bm_model_edges (br_manifold r'));
  bmm_model_facets : same_list (bm_model_facets (br_manifold r)) (bm_model_facets (br_manifold r'));
  bmm_negative : same_map (br_negative r) (br_negative r') }.

(** ** Intersections *)
Definition moved_segment (g : Point -> Point) (s : Segment) : Segment := (g (fst s), g (snd s)).
Definition moved_triangle (g : Point -> Point) (t : Triangle) : Triangle := let '(p0, p1, p2) := t in (g p0, g p1, g p2).
(** The predicates of OpenGeode see the moved points the way they saw the points. *)
Record predicates_follow (g : Point -> Point) (px px' : Predicates) : Prop := {
  pf_point : forall p t, px_point_triangle px' (g p) (moved_triangle g t) = px_point_triangle px p t;
  pf_segments : forall a b, px_segment_segment px' (moved_segment g a) (moved_segment g b) = px_segment_segment px a b;
  pf_triangle : forall a t, px_segment_triangle px' (moved_segment g a) (moved_triangle g t) = px_segment_triangle px a t;
  pf_index : forall p, px_index px' p = px_index px p;
  pf_polygons : forall m p q, px_polygons px' (moved_surface g m) p q = px_polygons px m p q }.

(** ** Ends: both give results related by [Q], or both raise the same exception, or both are undefined *)
Definition ends_the_same {X} (Q : X -> X -> Prop) (x y : outcome X) : Prop :=
  match x, y with Ok a, Ok b => Q a b | Throw e, Throw e' => e = e' | UB, UB => True | _, _ => False end.
(** as many complaints: in particular, valid or not alike *)
Definition same_verdict (v v' : list string) : Prop := List.length v' = List.length v.
(** reports on the topology, component by component *)
Definition same_section_topology : SectionTopology -> SectionTopology -> Prop := renamed_section_topology (fun id => id).
Definition same_brep_topology : BRepTopology -> BRepTopology -> Prop := renamed_brep_topology (fun id => id).
