(** The same model whose components got other identifiers (C76), and what its reports become. *)
From Coq Require Import String Ascii List Arith NArith ZArith Bool Permutation.
From Verif Require Import Base Model_Issues Types Model_Degeneration Model_Intersections Model_Manifold Model_Topology Model_BRep Model_Blocks Model_Results.
Import ListNotations.
Local Open Scope string_scope.

(** [f] gives each identifier another one, without loss: [g] gives the old ones back. *)
Definition one_to_one (f g : uuid -> uuid) : Prop := (forall x, g (f x) = x) /\ (forall x, f (g x) = x).

Definition new_cid (f : uuid -> uuid) (c : ComponentID) : ComponentID := mkCID (cid_type c) (f (cid_id c)).
Definition new_cmv (f : uuid -> uuid) (c : ComponentMeshVertex) : ComponentMeshVertex := mkCMV (new_cid f (cmv_component c)) (cmv_vertex c).
(** same name, activity and mesh *)
Definition new_component {M} (f : uuid -> uuid) (c : Component M) : Component M := mkComponent (f (co_id c)) (co_name c) (co_active c) (co_mesh c).
Definition new_relation (f : uuid -> uuid) (r : ComponentID * ComponentID) : ComponentID * ComponentID := (new_cid f (fst r), new_cid f (snd r)).

(** The same components, links, and relationships, under the new identifiers.  Texts (in particular those of identifiers) are
    whatever they are. *)
Record renamed (f : uuid -> uuid) (m m' : Model) : Prop := {
  rn_corners : m_corners m' = map (new_component f) (m_corners m);
  rn_lines : m_lines m' = map (new_component f) (m_lines m);
  rn_surfaces : m_surfaces m' = map (new_component f) (m_surfaces m);
  rn_blocks : m_blocks m' = map (new_component f) (m_blocks m);
  rn_boundaries : map snd (m_model_boundaries m') = map (map f) (map snd (m_model_boundaries m));
  rn_cmvs : m_cmvs m' = map (map (new_cmv f)) (m_cmvs m);
  rn_unique : forall c, m_unique_vertex m' (new_cmv f c) = m_unique_vertex m c;
  rn_boundary_rel : m_boundary_rel m' = map (new_relation f) (m_boundary_rel m);
  rn_internal_rel : m_internal_rel m' = map (new_relation f) (m_internal_rel m);
  rn_missing : m_missing_exn m' = m_missing_exn m }.

(** Searches of OpenGeode find the same elements of the renamed components (listed in the order of a hash map). *)
Definition new_key (f : uuid -> uuid) (e : uuid * nat) : uuid * nat := (f (fst e), snd e).
Record renamed_topo (f : uuid -> uuid) (tl tl' : TopoLookup) : Prop := {
  rnt_edge_surfaces : forall a b, Permutation (map (new_key f) (me_surfaces (tl_edges tl a b))) (me_surfaces (tl_edges tl' a b));
  rnt_edge_blocks : forall a b, Permutation (map (new_key f) (me_blocks (tl_edges tl a b))) (me_blocks (tl_edges tl' a b));
  rnt_polygon_blocks : forall l, Permutation (map (new_key f) (tl_polygon_blocks tl l)) (tl_polygon_blocks tl' l);
  rnt_inside_block : forall s b, tl_inside_block tl' (f s) (f b) = tl_inside_block tl s b;
  rnt_box : forall p q, tl_box_contains tl' (map f p) (map f q) = tl_box_contains tl p q;
  rnt_inside_closed : forall g p, tl_inside_closed tl' g p = tl_inside_closed tl g p }.

(** ** Reports *)
(** the same issues, in the same order *)
Definition same_list {T} (r r' : InspectionIssues T) : Prop := ii_issues r' = ii_issues r.
(** the same components, in the same order *)
Definition renamed_list (f : uuid -> uuid) (r r' : InspectionIssues uuid) : Prop := ii_issues r' = map f (ii_issues r).
(** the same issues for each component *)
Definition issues_by_component {T} (r : InspectionIssuesMap T) : list (uuid * list T) := map (fun e => (fst e, ii_issues (snd e))) (im_map r).
Definition renamed_map {T} (f : uuid -> uuid) (r r' : InspectionIssuesMap T) : Prop :=
  Permutation (map (fun e => (f (fst e), snd e)) (issues_by_component r)) (issues_by_component r').

Record renamed_corners (f : uuid -> uuid) (r r' : CornersTopology) : Prop := {
  nct_not_meshed : renamed_list f (ct_not_meshed r) (ct_not_meshed r');
  nct_not_linked : renamed_map f (ct_not_linked r) (ct_not_linked r');
  nct_multiple_corners : same_list (ct_multiple_corners r) (ct_multiple_corners r');
  nct_multiple_embeddings : same_list (ct_multiple_embeddings r) (ct_multiple_embeddings r');
  nct_neither : same_list (ct_not_internal_nor_boundary r) (ct_not_internal_nor_boundary r');
  nct_not_boundary_line : same_list (ct_not_boundary_line r) (ct_not_boundary_line r') }.
Record renamed_links (r r' : LinkIssues) : Prop := {
  nli_not_linked : same_list (li_not_linked r) (li_not_linked r');
  nli_inexistant : same_list (li_inexistant r) (li_inexistant r');
  nli_nonbijective : same_list (li_nonbijective r) (li_nonbijective r') }.
Record renamed_section_topology (f : uuid -> uuid) (r r' : SectionTopology) : Prop := {
  nst_corners : renamed_corners f (st_corners r) (st_corners r');
  nst_lines_not_meshed : renamed_list f (sl_not_meshed (st_lines r)) (sl_not_meshed (st_lines r'));
  nst_lines_not_linked : renamed_map f (sl_not_linked (st_lines r)) (sl_not_linked (st_lines r'));
  nst_line_relationship : same_list (sl_wrong_relationship (st_lines r)) (sl_wrong_relationship (st_lines r'));
  nst_line_embeddings : same_list (sl_invalid_embeddings (st_lines r)) (sl_invalid_embeddings (st_lines r'));
  nst_single_line : same_list (sl_single_invalid (st_lines r)) (sl_single_invalid (st_lines r'));
  nst_not_corner : same_list (sl_several_not_corner (st_lines r)) (sl_several_not_corner (st_lines r'));
  nst_surfaces_not_meshed : renamed_list f (ss_not_meshed (st_surfaces r)) (ss_not_meshed (st_surfaces r'));
  nst_surfaces_not_linked : renamed_map f (ss_not_linked (st_surfaces r)) (ss_not_linked (st_surfaces r'));
  nst_surface_embeddings : same_list (ss_invalid_embeddings (st_surfaces r)) (ss_invalid_embeddings (st_surfaces r'));
  nst_not_on_border : same_list (ss_not_on_border (st_surfaces r)) (ss_not_on_border (st_surfaces r'));
  nst_links : renamed_links (st_links r) (st_links r') }.
Record renamed_brep_topology (f : uuid -> uuid) (r r' : BRepTopology) : Prop := {
  nbt_corners : renamed_corners f (bt_corners r) (bt_corners r');
  nbt_lines_not_meshed : renamed_list f (bl_not_meshed (bt_lines r)) (bl_not_meshed (bt_lines r'));
  nbt_lines_not_linked : renamed_map f (bl_not_linked (bt_lines r)) (bl_not_linked (bt_lines r'));
  nbt_line_edges : renamed_map f (bl_wrong_edges (bt_lines r)) (bl_wrong_edges (bt_lines r'));
  nbt_line_relationship : same_list (bl_wrong_relationship (bt_lines r)) (bl_wrong_relationship (bt_lines r'));
  nbt_line_embeddings : same_list (bl_invalid_embeddings (bt_lines r)) (bl_invalid_embeddings (bt_lines r'));
  nbt_single_line : same_list (bl_single_invalid (bt_lines r)) (bl_single_invalid (bt_lines r'));
  nbt_not_corner : same_list (bl_several_not_corner (bt_lines r)) (bl_several_not_corner (bt_lines r'));
  nbt_surfaces_not_meshed : renamed_list f (bs_not_meshed (bt_surfaces r)) (bs_not_meshed (bt_surfaces r'));
  nbt_surfaces_not_linked : renamed_map f (bs_not_linked (bt_surfaces r)) (bs_not_linked (bt_surfaces r'));
  nbt_facets : renamed_map f (bs_wrong_facets (bt_surfaces r)) (bs_wrong_facets (bt_surfaces r'));
  nbt_surface_embeddings : same_list (bs_invalid_embeddings (bt_surfaces r)) (bs_invalid_embeddings (bt_surfaces r'));
  nbt_several_surfaces : same_list (bs_several_invalid (bt_surfaces r)) (bs_several_invalid (bt_surfaces r'));
  nbt_not_on_border : same_list (bs_not_on_border (bt_surfaces r)) (bs_not_on_border (bt_surfaces r'));
  nbt_blocks_not_meshed : renamed_list f (bb_not_meshed (bt_blocks r)) (bb_not_meshed (bt_blocks r'));
  nbt_blocks_not_linked : renamed_map f (bb_not_linked (bt_blocks r)) (bb_not_linked (bt_blocks r'));
  nbt_wrong_boundary : renamed_list f (bb_wrong_boundary (bt_blocks r)) (bb_wrong_boundary (bt_blocks r'));
  nbt_not_closed : renamed_list f (bb_not_closed (bt_blocks r)) (bb_not_closed (bt_blocks r'));
  nbt_model_boundaries : same_list (bb_model_boundaries (bt_blocks r)) (bb_model_boundaries (bt_blocks r'));
  nbt_two_blocks : same_list (bb_two_blocks (bt_blocks r)) (bb_two_blocks (bt_blocks r'));
  nbt_wrong_count : same_list (bb_wrong_count (bt_blocks r)) (bb_wrong_count (bt_blocks r'));
  nbt_single_surface : same_list (bb_single_invalid (bt_blocks r)) (bb_single_invalid (bt_blocks r'));
  nbt_block_relationship : same_list (bb_wrong_relationship (bt_blocks r)) (bb_wrong_relationship (bt_blocks r'));
  nbt_multiple_surfaces : same_list (bb_multiple_invalid (bt_blocks r)) (bb_multiple_invalid (bt_blocks r'));
  nbt_links : renamed_links (bt_links r) (bt_links r') }.

(** ** The meshes *)
(** The other searches: those in the meshes of components do not know identifiers ([Measures], [Geometry], hash order), those in
    the model find the same elements of the renamed components. *)
Definition renamed_answer (f : uuid -> uuid) (o o' : outcome (list (uuid * nat))) : Prop :=
  match o, o' with
  | Ok l, Ok l' => Permutation (map (new_key f) l) l'
  | Throw e, Throw e' => e' = e
  | UB, UB => True
  | _, _ => False
  end.
Record renamed_searches (f : uuid -> uuid) (o o' : Oracles) : Prop := {
  rns_measures : or_measures o' = or_measures o;
  rns_geometry : or_geometry o' = or_geometry o;
  rns_hash : or_hash o' = or_hash o;
  rns_line_edges : forall e, renamed_answer f (lk_line_edges (or_lookup o) e) (lk_line_edges (or_lookup o') e);
  rns_surface_polygons : forall l, renamed_answer f (lk_surface_polygons (or_lookup o) l) (lk_surface_polygons (or_lookup o') l);
  rns_topo : renamed_topo f (or_topo o) (or_topo o') }.
(** the same boxes, in trees of the renamed components *)
Record renamed_trees (f : uuid -> uuid) (t t' : Trees) : Prop := {
  rntr_uuids : tr_uuids t' = map f (tr_uuids t);
  rntr_overlaps : tr_overlaps t' = tr_overlaps t;
  rntr_self : forall i, tr_self t' i = tr_self t i;
  rntr_other : forall i j, tr_other t' i j = tr_other t i j }.
Record renamed_line_trees (f : uuid -> uuid) (t t' : LineTrees) : Prop := {
  rnlt_uuids : lt_uuids t' = map f (lt_uuids t);
  rnlt_other : forall i j, lt_other t' i j = lt_other t i j }.

Definition new_element (f : uuid -> uuid) (e : ComponentMeshElement) : ComponentMeshElement := (new_cid f (fst e), snd e).
Definition new_pair (f : uuid -> uuid) (p : ComponentMeshElement * ComponentMeshElement) := (new_element f (fst p), new_element f (snd p)).
(** the same pairs of elements, in the same order, of the renamed components *)
Definition renamed_intersections (f : uuid -> uuid) (r r' : Intersections) : Prop := ii_issues r' = map (new_pair f) (ii_issues r).
(** the same edges (facets) of the model, on the renamed components; edges in the order of a hash map *)
Definition on_renamed {K} (f : uuid -> uuid) (e : K * list uuid) : K * list uuid := (fst e, map f (snd e)).
Definition renamed_edges (f : uuid -> uuid) (r r' : InspectionIssues BRepNonManifoldEdge) : Prop :=
  Permutation (map (on_renamed f) (ii_issues r)) (ii_issues r').
Definition renamed_facets (f : uuid -> uuid) (r r' : InspectionIssues BRepNonManifoldFacet) : Prop :=
  ii_issues r' = map (on_renamed f) (ii_issues r).

Record renamed_section_meshes (f : uuid -> uuid) (r r' : SectionMeshesResult) : Prop := {
  nsm_unique_vertices : sc_unique_vertices r' = sc_unique_vertices r;
  nsm_colocation : renamed_map f (sc_colocation r) (sc_colocation r');
  nsm_adjacency : renamed_map f (sc_adjacency r) (sc_adjacency r');
  nsm_edges : renamed_map f (sd_edges (sc_degeneration r)) (sd_edges (sc_degeneration r'));
  nsm_polygons : renamed_map f (sd_polygons (sc_degeneration r)) (sd_polygons (sc_degeneration r'));
  nsm_intersections : renamed_intersections f (sc_intersections r) (sc_intersections r');
  nsm_manifold_vertices : renamed_map f (sn_vertices (sc_manifold r)) (sn_vertices (sc_manifold r'));
  nsm_manifold_edges : renamed_map f (sn_edges (sc_manifold r)) (sn_edges (sc_manifold r'));
  nsm_negative : renamed_map f (sc_negative r) (sc_negative r') }.
Record renamed_brep_meshes (f : uuid -> uuid) (r r' : BRepMeshesResult) : Prop := {
  nbm_unique_vertices : br_unique_vertices r' = br_unique_vertices r;
  nbm_colocation : renamed_map f (br_colocation r) (br_colocation r');
  nbm_adjacency_surfaces : renamed_map f (ba_surfaces (br_adjacency r)) (ba_surfaces (br_adjacency r'));
  nbm_adjacency_blocks : renamed_map f (ba_blocks (br_adjacency r)) (ba_blocks (br_adjacency r'));
  nbm_edges : renamed_map f (dr_edges (br_degeneration r)) (dr_edges (br_degeneration r'));
  nbm_polygons : renamed_map f (dr_polygons (br_degeneration r)) (dr_polygons (br_degeneration r'));
  nbm_polyhedra : renamed_map f (dr_polyhedra (br_degeneration r)) (dr_polyhedra (br_degeneration r'));
  nbm_intersections : renamed_intersections f (br_intersections r) (br_intersections r');
  nbm_manifold_vertices : renamed_map f (bm_vertices (br_manifold r)) (bm_vertices (br_manifold r'));
  nbm_manifold_edges : renamed_map f (bm_edges (br_manifold r)) (bm_edges (br_manifold r'));
  nbm_manifold_facets : renamed_map f (bm_facets (br_manifold r)) (bm_facets (br_manifold r'));
  nbm_model_edges : renamed_edges f (bm_model_edges (br_manifold r)) (bm_model_edges (br_manifold r'));
  nbm_model_facets : renamed_facets f (bm_model_facets (br_manifold r)) (bm_model_facets (br_manifold r'));
  nbm_negative : renamed_map f (br_negative r) (br_negative r') }.
