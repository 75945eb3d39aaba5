(** Two models in one (C93): the components, the unique vertices and the relationships of both, nothing shared. *)
From Coq Require Import String Ascii List Arith NArith ZArith Bool.
From Verif Require Import Base Model_Issues Types Model_Topology Spec_Colocation Spec_Topology.
Import ListNotations.
Local Open Scope string_scope.

(** Vertices are linked and relationships made between components of the model. *)
Definition closed_model (m : Model) : Prop :=
  (forall uv c, In c (component_mesh_vertices m uv) -> In (cid_id (cmv_component c)) (all_ids m)) /\
  (forall r, In r (m_boundary_rel m) \/ In r (m_internal_rel m) -> In (cid_id (fst r)) (all_ids m) /\ In (cid_id (snd r)) (all_ids m)).

(** [m] has the components of [m1], then those of [m2]; the unique vertices of [m1], then those of [m2]. *)
Record side_by_side (m1 m2 m : Model) : Prop := {
  sb_corners : m_corners m = (m_corners m1 ++ m_corners m2)%list;
  sb_lines : m_lines m = (m_lines m1 ++ m_lines m2)%list;
  sb_surfaces : m_surfaces m = (m_surfaces m1 ++ m_surfaces m2)%list;
  sb_blocks : m_blocks m = (m_blocks m1 ++ m_blocks m2)%list;
  sb_links : m_cmvs m = (m_cmvs m1 ++ m_cmvs m2)%list;
  sb_unique1 : forall c, In (cid_id (cmv_component c)) (all_ids m1) -> m_unique_vertex m c = m_unique_vertex m1 c;
  sb_unique2 : forall c, In (cid_id (cmv_component c)) (all_ids m2) ->
    m_unique_vertex m c = option_map (fun v => nb_unique_vertices m1 + v) (m_unique_vertex m2 c);
  sb_boundary_rel : m_boundary_rel m = (m_boundary_rel m1 ++ m_boundary_rel m2)%list;
  sb_internal_rel : m_internal_rel m = (m_internal_rel m1 ++ m_internal_rel m2)%list;
  sb_missing1 : m_missing_exn m1 = m_missing_exn m;
  sb_missing2 : m_missing_exn m2 = m_missing_exn m;
  sb_ids : unique_ids m;
  sb_closed1 : closed_model m1;
  sb_closed2 : closed_model m2 }.
(** Either all surfaces of both models have polygons, or each model has a surface without. *)
Definition meshed_alike (m1 m2 : Model) : Prop := all_surfaces_have_polygons m1 <-> all_surfaces_have_polygons m2.

(** ** Reports: the issues of the first, then those of the second, whose vertices are numbered from [k] *)
Definition vertices_of_both (k : nat) (r1 r2 r : InspectionIssues nat) : Prop :=
  ii_issues r = (ii_issues r1 ++ map (fun v => k + v) (ii_issues r2))%list.
Definition components_of_both (r1 r2 r : InspectionIssues uuid) : Prop := ii_issues r = (ii_issues r1 ++ ii_issues r2)%list.
Record corners_of_both (k : nat) (r1 r2 r : CornersTopology) : Prop := {
  cb_not_meshed : components_of_both (ct_not_meshed r1) (ct_not_meshed r2) (ct_not_meshed r);
  cb_multiple_corners : vertices_of_both k (ct_multiple_corners r1) (ct_multiple_corners r2) (ct_multiple_corners r);
  cb_multiple_embeddings : vertices_of_both k (ct_multiple_embeddings r1) (ct_multiple_embeddings r2) (ct_multiple_embeddings r);
  cb_neither : vertices_of_both k (ct_not_internal_nor_boundary r1) (ct_not_internal_nor_boundary r2) (ct_not_internal_nor_boundary r);
  cb_not_boundary_line : vertices_of_both k (ct_not_boundary_line r1) (ct_not_boundary_line r2) (ct_not_boundary_line r) }.
Record lines_of_both (k : nat) (r1 r2 r : SectionLinesTopology) : Prop := {
  lb_not_meshed : components_of_both (sl_not_meshed r1) (sl_not_meshed r2) (sl_not_meshed r);
  lb_relationship : vertices_of_both k (sl_wrong_relationship r1) (sl_wrong_relationship r2) (sl_wrong_relationship r);
  lb_embeddings : vertices_of_both k (sl_invalid_embeddings r1) (sl_invalid_embeddings r2) (sl_invalid_embeddings r);
  lb_single : vertices_of_both k (sl_single_invalid r1) (sl_single_invalid r2) (sl_single_invalid r);
  lb_not_corner : vertices_of_both k (sl_several_not_corner r1) (sl_several_not_corner r2) (sl_several_not_corner r) }.
Record surfaces_of_both (k : nat) (r1 r2 r : SectionSurfacesTopology) : Prop := {
  ub_not_meshed : components_of_both (ss_not_meshed r1) (ss_not_meshed r2) (ss_not_meshed r);
  ub_embeddings : vertices_of_both k (ss_invalid_embeddings r1) (ss_invalid_embeddings r2) (ss_invalid_embeddings r);
  ub_not_on_border : vertices_of_both k (ss_not_on_border r1) (ss_not_on_border r2) (ss_not_on_border r) }.
Record links_of_both (k : nat) (r1 r2 r : LinkIssues) : Prop := {
  kb_not_linked : vertices_of_both k (li_not_linked r1) (li_not_linked r2) (li_not_linked r);
  kb_inexistant : vertices_of_both k (li_inexistant r1) (li_inexistant r2) (li_inexistant r);
  kb_nonbijective : vertices_of_both k (li_nonbijective r1) (li_nonbijective r2) (li_nonbijective r) }.
Record topology_of_both (k : nat) (r1 r2 r : SectionTopology) : Prop := {
  tb_corners : corners_of_both k (st_corners r1) (st_corners r2) (st_corners r);
  tb_lines : lines_of_both k (st_lines r1) (st_lines r2) (st_lines r);
  tb_surfaces : surfaces_of_both k (st_surfaces r1) (st_surfaces r2) (st_surfaces r);
  tb_links : links_of_both k (st_links r1) (st_links r2) (st_links r) }.
(** the components with mesh vertices linked to no unique vertex, each with these vertices *)
Definition unlinked_in (r : InspectionIssuesMap nat) : list (uuid * list nat) := map (fun e => (fst e, ii_issues (snd e))) (im_map r).
Definition unlinked_of_both (r1 r2 r : InspectionIssuesMap nat) : Prop := unlinked_in r = (unlinked_in r1 ++ unlinked_in r2)%list.
