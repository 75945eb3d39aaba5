(** The same model with its unique vertices numbered in another way (C75), and what its reports become. *)
From Coq Require Import String Ascii List Arith NArith ZArith Bool Permutation Sorted Mergesort.
From Verif Require Import Base Model_Issues Types Model_Degeneration Model_Intersections Model_Manifold Model_Topology Model_BRep Model_Blocks Model_Results
  Spec_Colocation Spec_Renumber.
Import ListNotations.
Local Open Scope string_scope.

(** [f] gives their new number to the unique vertices of [m]: each of them keeps its links, and each mesh vertex keeps its unique
    vertex.  Nothing else changes. *)
Record relabelled (f : nat -> nat) (m m' : Model) : Prop := {
  rl_corners : m_corners m' = m_corners m;
  rl_lines : m_lines m' = m_lines m;
  rl_surfaces : m_surfaces m' = m_surfaces m;
  rl_blocks : m_blocks m' = m_blocks m;
  rl_boundaries : m_model_boundaries m' = m_model_boundaries m;
  rl_nb : nb_unique_vertices m' = nb_unique_vertices m;
  rl_numbers : numbers (nb_unique_vertices m) f;
  rl_links : forall uv, uv < nb_unique_vertices m -> component_mesh_vertices m' (f uv) = component_mesh_vertices m uv;
  rl_unique : forall c, m_unique_vertex m' c = option_map f (m_unique_vertex m c);
  rl_range : forall c uv, m_unique_vertex m c = Some uv -> uv < nb_unique_vertices m;
  rl_boundary_rel : m_boundary_rel m' = m_boundary_rel m;
  rl_internal_rel : m_internal_rel m' = m_internal_rel m;
  rl_missing : m_missing_exn m' = m_missing_exn m;
  rl_uuid_string : m_uuid_string m' = m_uuid_string m;
  rl_point_string : m_point_string m' = m_point_string m;
  rl_cmv_string : m_cmv_string m' = m_cmv_string m;
  rl_cid_string : m_cid_string m' = m_cid_string m }.

(** Searches of OpenGeode by unique vertices find the same elements, and the others do not depend on the numbers. *)
Record relabelled_searches (f : nat -> nat) (m m' : Model) (o o' : Oracles) : Prop := {
  rls_measures : or_measures o' = or_measures o;
  rls_geometry : or_geometry o' = or_geometry o;
  rls_hash : or_hash o' = or_hash o;
  rls_line_edges : forall a b, a < nb_unique_vertices m -> b < nb_unique_vertices m ->
    lk_line_edges (or_lookup o') (f a, f b) = lk_line_edges (or_lookup o) (a, b);
  rls_surface_polygons : forall l, (forall v, In v l -> v < nb_unique_vertices m) ->
    lk_surface_polygons (or_lookup o') (map f l) = lk_surface_polygons (or_lookup o) l;
  rls_edges : forall a b, a < nb_unique_vertices m -> b < nb_unique_vertices m -> tl_edges (or_topo o') (f a) (f b) = tl_edges (or_topo o) a b;
  rls_polygon_blocks : forall l, (forall v, In v l -> v < nb_unique_vertices m) -> tl_polygon_blocks (or_topo o') (map f l) = tl_polygon_blocks (or_topo o) l;
  rls_inside_block : tl_inside_block (or_topo o') = tl_inside_block (or_topo o);
  rls_box : tl_box_contains (or_topo o') = tl_box_contains (or_topo o);
  rls_inside_closed : tl_inside_closed (or_topo o') = tl_inside_closed (or_topo o) }.
(** The search for colocated points, on the points of the unique vertices, does not depend on their order. *)
Definition blind_to_labels (geo : Geometry) (f : nat -> nat) (m m' : Model) : Prop :=
  forall l l', positioned_vertices m l -> positioned_vertices m' l' ->
    consistent (map snd l) (g_colocated geo (map snd l)) /\ consistent (map snd l') (g_colocated geo (map snd l')) /\
    forall a b a' b' i j p q, nth_error l a = Some (i, p) -> nth_error l b = Some (j, q) ->
      nth_error l' a' = Some (f i, p) -> nth_error l' b' = Some (f j, q) ->
      (same_place (g_colocated geo (map snd l')) a' b' <-> same_place (g_colocated geo (map snd l)) a b).

(** ** Reports *)
(** an edge of the model: its ends under their new numbers, smaller first if [sorted] (NO_ID last), the same surfaces *)
Definition new_end (f : nat -> nat) (o : option nat) : option nat := option_map f o.
Definition same_ends (f : nat -> nat) (e e' : BRepNonManifoldEdge) : Prop :=
  snd e' = snd e /\ (fst e' = (new_end f (fst (fst e)), new_end f (snd (fst e))) \/ fst e' = (new_end f (snd (fst e)), new_end f (fst (fst e)))).
Definition relabelled_edges (f : nat -> nat) (r r' : InspectionIssues BRepNonManifoldEdge) : Prop :=
  exists l, Permutation l (ii_issues r') /\ Forall2 (same_ends f) (ii_issues r) l.
Definition new_facet (f : nat -> nat) (x : BRepNonManifoldFacet) : BRepNonManifoldFacet := (map (new_end f) (fst x), snd x).

Record relabelled_unique_vertices (f : nat -> nat) (r r' : UniqueVerticesResult) : Prop := {
  ruv_colocated : renumbered_issues (fun g => NatSort.sort (map f g)) (ur_colocated r) (ur_colocated r');
  ruv_different : renumbered_issues f (ur_different r) (ur_different r') }.
Record relabelled_section_meshes (f : nat -> nat) (r r' : SectionMeshesResult) : Prop := {
  lsm_unique_vertices : relabelled_unique_vertices f (sc_unique_vertices r) (sc_unique_vertices r');
  lsm_colocation : sc_colocation r' = sc_colocation r;
  lsm_adjacency : sc_adjacency r' = sc_adjacency r;
  lsm_degeneration : sc_degeneration r' = sc_degeneration r;
  lsm_intersections : sc_intersections r' = sc_intersections r;
  lsm_manifold : sc_manifold r' = sc_manifold r;
  lsm_negative : sc_negative r' = sc_negative r }.
Record relabelled_brep_meshes (f : nat -> nat) (r r' : BRepMeshesResult) : Prop := {
  lbm_unique_vertices : relabelled_unique_vertices f (br_unique_vertices r) (br_unique_vertices r');
  lbm_colocation : br_colocation r' = br_colocation r;
  lbm_adjacency : br_adjacency r' = br_adjacency r;
  lbm_degeneration : br_degeneration r' = br_degeneration r;
  lbm_intersections : br_intersections r' = br_intersections r;
  lbm_vertices : bm_vertices (br_manifold r') = bm_vertices (br_manifold r);
  lbm_edges : bm_edges (br_manifold r') = bm_edges (br_manifold r);
  lbm_facets : bm_facets (br_manifold r') = bm_facets (br_manifold r);
  lbm_model_edges : relabelled_edges f (bm_model_edges (br_manifold r)) (bm_model_edges (br_manifold r'));
  lbm_model_facets : ii_issues (bm_model_facets (br_manifold r')) = map (new_facet f) (ii_issues (bm_model_facets (br_manifold r)));
  lbm_negative : br_negative r' = br_negative r }.

Record relabelled_corners (f : nat -> nat) (r r' : CornersTopology) : Prop := {
  lct_not_meshed : ct_not_meshed r' = ct_not_meshed r;
  lct_not_linked : ct_not_linked r' = ct_not_linked r;
  lct_multiple_corners : renumbered_issues f (ct_multiple_corners r) (ct_multiple_corners r');
  lct_multiple_embeddings : renumbered_issues f (ct_multiple_embeddings r) (ct_multiple_embeddings r');
  lct_neither : renumbered_issues f (ct_not_internal_nor_boundary r) (ct_not_internal_nor_boundary r');
  lct_not_boundary_line : renumbered_issues f (ct_not_boundary_line r) (ct_not_boundary_line r') }.
Record relabelled_links (f : nat -> nat) (r r' : LinkIssues) : Prop := {
  lli_not_linked : renumbered_issues f (li_not_linked r) (li_not_linked r');
  lli_inexistant : renumbered_issues f (li_inexistant r) (li_inexistant r');
  lli_nonbijective : renumbered_issues f (li_nonbijective r) (li_nonbijective r') }.
Record relabelled_section_topology (f : nat -> nat) (r r' : SectionTopology) : Prop := {
  lst_corners : relabelled_corners f (st_corners r) (st_corners r');
  lst_lines_not_meshed : sl_not_meshed (st_lines r') = sl_not_meshed (st_lines r);
  lst_lines_not_linked : sl_not_linked (st_lines r') = sl_not_linked (st_lines r);
  lst_line_relationship : renumbered_issues f (sl_wrong_relationship (st_lines r)) (sl_wrong_relationship (st_lines r'));
  lst_line_embeddings : renumbered_issues f (sl_invalid_embeddings (st_lines r)) (sl_invalid_embeddings (st_lines r'));
  lst_single_line : renumbered_issues f (sl_single_invalid (st_lines r)) (sl_single_invalid (st_lines r'));
  lst_not_corner : renumbered_issues f (sl_several_not_corner (st_lines r)) (sl_several_not_corner (st_lines r'));
  lst_surfaces_not_meshed : ss_not_meshed (st_surfaces r') = ss_not_meshed (st_surfaces r);
  lst_surfaces_not_linked : ss_not_linked (st_surfaces r') = ss_not_linked (st_surfaces r);
  lst_surface_embeddings : renumbered_issues f (ss_invalid_embeddings (st_surfaces r)) (ss_invalid_embeddings (st_surfaces r'));
  lst_not_on_border : renumbered_issues f (ss_not_on_border (st_surfaces r)) (ss_not_on_border (st_surfaces r'));
  lst_links : relabelled_links f (st_links r) (st_links r') }.
Record relabelled_brep_topology (f : nat -> nat) (r r' : BRepTopology) : Prop := {
  lbt_corners : relabelled_corners f (bt_corners r) (bt_corners r');
  lbt_lines_not_meshed : bl_not_meshed (bt_lines r') = bl_not_meshed (bt_lines r);
  lbt_lines_not_linked : bl_not_linked (bt_lines r') = bl_not_linked (bt_lines r);
  lbt_line_edges : bl_wrong_edges (bt_lines r') = bl_wrong_edges (bt_lines r);
  lbt_line_relationship : renumbered_issues f (bl_wrong_relationship (bt_lines r)) (bl_wrong_relationship (bt_lines r'));
  lbt_line_embeddings : renumbered_issues f (bl_invalid_embeddings (bt_lines r)) (bl_invalid_embeddings (bt_lines r'));
  lbt_single_line : renumbered_issues f (bl_single_invalid (bt_lines r)) (bl_single_invalid (bt_lines r'));
  lbt_not_corner : renumbered_issues f (bl_several_not_corner (bt_lines r)) (bl_several_not_corner (bt_lines r'));
  lbt_surfaces_not_meshed : bs_not_meshed (bt_surfaces r') = bs_not_meshed (bt_surfaces r);
  lbt_surfaces_not_linked : bs_not_linked (bt_surfaces r') = bs_not_linked (bt_surfaces r);
  lbt_facets : bs_wrong_facets (bt_surfaces r') = bs_wrong_facets (bt_surfaces r);
  lbt_surface_embeddings : renumbered_issues f (bs_invalid_embeddings (bt_surfaces r)) (bs_invalid_embeddings (bt_surfaces r'));
  lbt_several_surfaces : renumbered_issues f (bs_several_invalid (bt_surfaces r)) (bs_several_invalid (bt_surfaces r'));
  lbt_not_on_border : renumbered_issues f (bs_not_on_border (bt_surfaces r)) (bs_not_on_border (bt_surfaces r'));
  lbt_blocks_not_meshed : bb_not_meshed (bt_blocks r') = bb_not_meshed (bt_blocks r);
  lbt_blocks_not_linked : bb_not_linked (bt_blocks r') = bb_not_linked (bt_blocks r);
  lbt_wrong_boundary : bb_wrong_boundary (bt_blocks r') = bb_wrong_boundary (bt_blocks r);
  lbt_not_closed : bb_not_closed (bt_blocks r') = bb_not_closed (bt_blocks r);
  lbt_model_boundaries : bb_model_boundaries (bt_blocks r') = bb_model_boundaries (bt_blocks r);
  lbt_two_blocks : renumbered_issues f (bb_two_blocks (bt_blocks r)) (bb_two_blocks (bt_blocks r'));
  lbt_wrong_count : renumbered_issues f (bb_wrong_count (bt_blocks r)) (bb_wrong_count (bt_blocks r'));
  lbt_single_surface : renumbered_issues f (bb_single_invalid (bt_blocks r)) (bb_single_invalid (bt_blocks r'));
  lbt_block_relationship : renumbered_issues f (bb_wrong_relationship (bt_blocks r)) (bb_wrong_relationship (bt_blocks r'));
  lbt_multiple_surfaces : renumbered_issues f (bb_multiple_invalid (bt_blocks r)) (bb_multiple_invalid (bt_blocks r'));
  lbt_links : relabelled_links f (bt_links r) (bt_links r') }.
