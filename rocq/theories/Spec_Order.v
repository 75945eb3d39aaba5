(** Two models that only differ by the order in which their components are stored (C70), and what their reports have in
    common.  OpenGeode keeps the components of a model in hash maps: their order changes from one run to the next, or when
    a model is saved and loaded. *)
From Coq Require Import String Ascii List Arith NArith ZArith Bool Permutation.
From Verif Require Import Base Model_Issues Types Model_Degeneration Model_Intersections Model_Manifold Model_Topology Model_BRep Model_Blocks Model_Results
  Spec_Reproducible.
Import ListNotations.
Local Open Scope string_scope.

(** same components in another order, same unique vertices, same relationships *)
Record reordered (m m' : Model) : Prop := {
  ro_corners : Permutation (m_corners m) (m_corners m');
  ro_lines : Permutation (m_lines m) (m_lines m');
  ro_surfaces : Permutation (m_surfaces m) (m_surfaces m');
  ro_blocks : Permutation (m_blocks m) (m_blocks m');
  ro_boundaries : m_model_boundaries m = m_model_boundaries m';
  ro_cmvs : m_cmvs m = m_cmvs m';
  ro_unique : m_unique_vertex m = m_unique_vertex m';
  ro_boundary_rel : m_boundary_rel m = m_boundary_rel m';
  ro_internal_rel : m_internal_rel m = m_internal_rel m';
  ro_missing : m_missing_exn m = m_missing_exn m';
  ro_uuid_string : m_uuid_string m = m_uuid_string m';
  ro_point_string : m_point_string m = m_point_string m';
  ro_cmv_string : m_cmv_string m = m_cmv_string m';
  ro_cid_string : m_cid_string m = m_cid_string m' }.

(** the same entries (component, issues, messages), in another order *)
Definition reordered_map {T} (x y : InspectionIssuesMap T) : Prop :=
  im_description x = im_description y /\ Permutation (im_map x) (im_map y).
(** the same edges of the model on the same surfaces: edges in another order, and the surfaces of each in another order
    (as many messages, which name these surfaces) *)
Definition reordered_edges (x y : InspectionIssues BRepNonManifoldEdge) : Prop :=
  ii_description x = ii_description y /\
  (exists l, Permutation l (ii_issues y) /\ Forall2 (fun a b => fst a = fst b /\ Permutation (snd a) (snd b)) (ii_issues x) l) /\
  List.length (ii_messages x) = List.length (ii_messages y).

(** ** Reports on the meshes *)
Record reordered_section_meshes (r r' : SectionMeshesResult) : Prop := {
  rsm_unique_vertices : sc_unique_vertices r = sc_unique_vertices r';
  rsm_colocation : reordered_map (sc_colocation r) (sc_colocation r');
  rsm_adjacency : reordered_map (sc_adjacency r) (sc_adjacency r');
  rsm_edges : reordered_map (sd_edges (sc_degeneration r)) (sd_edges (sc_degeneration r'));
  rsm_polygons : reordered_map (sd_polygons (sc_degeneration r)) (sd_polygons (sc_degeneration r'));
  rsm_intersections : same_issues (sc_intersections r) (sc_intersections r');
  rsm_manifold_vertices : reordered_map (sn_vertices (sc_manifold r)) (sn_vertices (sc_manifold r'));
  rsm_manifold_edges : reordered_map (sn_edges (sc_manifold r)) (sn_edges (sc_manifold r'));
  rsm_negative : reordered_map (sc_negative r) (sc_negative r') }.
Record reordered_brep_meshes (r r' : BRepMeshesResult) : Prop := {
  rbm_unique_vertices : br_unique_vertices r = br_unique_vertices r';
  rbm_colocation : reordered_map (br_colocation r) (br_colocation r');
  rbm_surface_adjacency : reordered_map (ba_surfaces (br_adjacency r)) (ba_surfaces (br_adjacency r'));
  rbm_block_adjacency : reordered_map (ba_blocks (br_adjacency r)) (ba_blocks (br_adjacency r'));
  rbm_edges : reordered_map (dr_edges (br_degeneration r)) (dr_edges (br_degeneration r'));
  rbm_polygons : reordered_map (dr_polygons (br_degeneration r)) (dr_polygons (br_degeneration r'));
  rbm_polyhedra : reordered_map (dr_polyhedra (br_degeneration r)) (dr_polyhedra (br_degeneration r'));
  rbm_intersections : same_issues (br_intersections r) (br_intersections r');
  rbm_manifold_vertices : reordered_map (bm_vertices (br_manifold r)) (bm_vertices (br_manifold r'));
  rbm_manifold_edges : reordered_map (bm_edges (br_manifold r)) (bm_edges (br_manifold r'));
  rbm_manifold_facets : reordered_map (bm_facets (br_manifold r)) (bm_facets (br_manifold r'));
  rbm_model_edges : reordered_edges (bm_model_edges (br_manifold r)) (bm_model_edges (br_manifold r'));
  rbm_model_facets : same_issues (bm_model_facets (br_manifold r)) (bm_model_facets (br_manifold r'));
  rbm_negative : reordered_map (br_negative r) (br_negative r') }.

(** ** Reports on the topology: what is listed by unique vertex is equal *)
Record reordered_corners (r r' : CornersTopology) : Prop := {
  rct_not_meshed : same_issues (ct_not_meshed r) (ct_not_meshed r');
  rct_not_linked : reordered_map (ct_not_linked r) (ct_not_linked r');
  rct_multiple_corners : ct_multiple_corners r = ct_multiple_corners r';
  rct_multiple_embeddings : ct_multiple_embeddings r = ct_multiple_embeddings r';
  rct_not_internal_nor_boundary : ct_not_internal_nor_boundary r = ct_not_internal_nor_boundary r';
  rct_not_boundary_line : ct_not_boundary_line r = ct_not_boundary_line r' }.
Record reordered_section_lines (r r' : SectionLinesTopology) : Prop := {
  rsl_not_meshed : same_issues (sl_not_meshed r) (sl_not_meshed r');
  rsl_not_linked : reordered_map (sl_not_linked r) (sl_not_linked r');
  rsl_wrong_relationship : sl_wrong_relationship r = sl_wrong_relationship r';
  rsl_invalid_embeddings : sl_invalid_embeddings r = sl_invalid_embeddings r';
  rsl_single_invalid : sl_single_invalid r = sl_single_invalid r';
  rsl_several_not_corner : sl_several_not_corner r = sl_several_not_corner r' }.
Record reordered_section_surfaces (r r' : SectionSurfacesTopology) : Prop := {
  rss_not_meshed : same_issues (ss_not_meshed r) (ss_not_meshed r');
  rss_not_linked : reordered_map (ss_not_linked r) (ss_not_linked r');
  rss_invalid_embeddings : ss_invalid_embeddings r = ss_invalid_embeddings r';
  rss_not_on_border : ss_not_on_border r = ss_not_on_border r' }.
Record reordered_section_topology (r r' : SectionTopology) : Prop := {
  rst_corners : reordered_corners (st_corners r) (st_corners r');
  rst_lines : reordered_section_lines (st_lines r) (st_lines r');
  rst_surfaces : reordered_section_surfaces (st_surfaces r) (st_surfaces r');
  rst_links : st_links r = st_links r' }.
Record reordered_brep_lines (r r' : BRepLinesTopology) : Prop := {
  rbl_not_meshed : same_issues (bl_not_meshed r) (bl_not_meshed r');
  rbl_not_linked : reordered_map (bl_not_linked r) (bl_not_linked r');
  rbl_wrong_relationship : bl_wrong_relationship r = bl_wrong_relationship r';
  rbl_invalid_embeddings : bl_invalid_embeddings r = bl_invalid_embeddings r';
  rbl_single_invalid : bl_single_invalid r = bl_single_invalid r';
  rbl_several_not_corner : bl_several_not_corner r = bl_several_not_corner r';
  rbl_wrong_edges : reordered_map (bl_wrong_edges r) (bl_wrong_edges r') }.
Record reordered_brep_surfaces (r r' : BRepSurfacesTopology) : Prop := {
  rbs_not_meshed : same_issues (bs_not_meshed r) (bs_not_meshed r');
  rbs_not_linked : reordered_map (bs_not_linked r) (bs_not_linked r');
  rbs_invalid_embeddings : bs_invalid_embeddings r = bs_invalid_embeddings r';
  rbs_several_invalid : bs_several_invalid r = bs_several_invalid r';
  rbs_not_on_border : bs_not_on_border r = bs_not_on_border r';
  rbs_wrong_facets : reordered_map (bs_wrong_facets r) (bs_wrong_facets r') }.
Record reordered_brep_blocks (r r' : BRepBlocksTopology) : Prop := {
  rbb_not_meshed : same_issues (bb_not_meshed r) (bb_not_meshed r');
  rbb_not_linked : reordered_map (bb_not_linked r) (bb_not_linked r');
  rbb_wrong_boundary : same_issues (bb_wrong_boundary r) (bb_wrong_boundary r');
  rbb_not_closed : same_issues (bb_not_closed r) (bb_not_closed r');
  rbb_model_boundaries : bb_model_boundaries r = bb_model_boundaries r';
  rbb_two_blocks : bb_two_blocks r = bb_two_blocks r';
  rbb_wrong_count : bb_wrong_count r = bb_wrong_count r';
  rbb_single_invalid : bb_single_invalid r = bb_single_invalid r';
  rbb_wrong_relationship : bb_wrong_relationship r = bb_wrong_relationship r';
  rbb_multiple_invalid : bb_multiple_invalid r = bb_multiple_invalid r' }.
Record reordered_brep_topology (r r' : BRepTopology) : Prop := {
  rbt_corners : reordered_corners (bt_corners r) (bt_corners r');
  rbt_lines : reordered_brep_lines (bt_lines r) (bt_lines r');
  rbt_surfaces : reordered_brep_surfaces (bt_surfaces r) (bt_surfaces r');
  rbt_blocks : reordered_brep_blocks (bt_blocks r) (bt_blocks r');
  rbt_links : bt_links r = bt_links r' }.

(** ** Whole reports *)
Definition reordered_section (r r' : SectionResult) : Prop :=
  reordered_section_meshes (r_section_meshes r) (r_section_meshes r') /\ reordered_section_topology (r_section_topology r) (r_section_topology r').
Definition reordered_brep (r r' : BRepResult) : Prop :=
  reordered_brep_meshes (r_brep_meshes r) (r_brep_meshes r') /\ reordered_brep_topology (r_brep_topology r) (r_brep_topology r').
