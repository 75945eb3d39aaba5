(** Section topology: whole inspections. *)
From Coq Require Import String Ascii List Arith NArith ZArith Bool Lia Sorted.
From Verif Require Import Base BaseFacts Model_Issues Types Model_Colocation Model_Topology Spec_Colocation Spec_Maps Spec_Adjacency
  Spec_Topology Proof_Maps Proof_Colocation Proof_Colocation2 Proof_Colocation3 Proof_Adjacency Proof_Manifold Proof_Degeneration Proof_Topology
  Proof_Topology2 Proof_Topology3.
Import ListNotations.
Open Scope list_scope.

Lemma section_vertex_facts : forall m uv, section_ok m ->
  (forall l e, active_at m uv LineT l -> In e (embeddings m l) -> In (cid_id e) (component_ids m SurfaceT)) /\
  below_2_32 (length (component_mesh_vertices m uv)).
Proof.
  intros m uv H. split; [intros l e; apply (so_embeddings m H uv l e)|].
  unfold component_mesh_vertices. destruct (nth_in_or_default uv (m_cmvs m) []) as [K|K]; [apply (so_bound m H _ K)|rewrite K; unfold below_2_32; cbn; lia].
Qed.

Lemma section_corners_spec : forall m, section_ok m -> exists r, section_inspect_corners_topology m = Ok r /\
  components_reported CornerT has_points nb_points0 true m (m_corners m) (ct_not_meshed r) (ct_not_linked r) /\
  lists_vertices m (several_corners m) (ii_issues (ct_multiple_corners r)) /\
  lists_vertices m (corner_with_several_embeddings m) (ii_issues (ct_multiple_embeddings r)) /\
  lists_vertices m (corner_without_relation m) (ii_issues (ct_not_internal_nor_boundary r)) /\
  lists_vertices m (corner_not_bounding_a_line m) (ii_issues (ct_not_boundary_line r)).
Proof.
  intros m H. assert (Hu := so_ids m H). assert (Hl := so_links m H). unfold section_inspect_corners_topology.
  destruct (inspect_components_spec PointSet get_corner "Corner " " is not meshed" CornerT corner_is_meshed has_points (fun p => length (ps_points p)) true m
    (m_corners m) corners_not_meshed_d corners_not_linked_d) as (nm & nl & E & C).
  - apply (unique_ids_facts m Hu).
  - intros c Hc. apply get_corner_In; assumption.
  - apply corner_meshed_iff.
  - apply (so_corner_bound m H).
  - rewrite E. cbn [bind].
    destruct (report_vertices_spec m [unique_vertex_has_multiple_corners m; corner_has_multiple_embeddings m;
               corner_is_not_internal_nor_boundary m; section_corner_is_part_of_line_but_not_boundary m]
       [several_corners m; corner_with_several_embeddings m; corner_without_relation m; corner_not_bounding_a_line m] section_corners_ds) as (rs & E' & F).
    + repeat constructor; intros uv _; [apply multiple_corners_ok|apply multiple_embeddings_ok|apply not_internal_ok|apply not_boundary_line_ok]; assumption.
    + reflexivity.
    + rewrite E'. cbn [bind]. inversion F as [|r1 P1 l1 q1 F1 G1]; subst. inversion G1 as [|r2 P2 l2 q2 F2 G2]; subst. inversion G2 as [|r3 P3 l3 q3 F3 G3]; subst.
      inversion G3 as [|r4 P4 l4 q4 F4 G4]; subst. inversion G4; subst. eexists. split; [reflexivity|]. cbn [fst snd ct_not_meshed ct_not_linked
        ct_multiple_corners ct_multiple_embeddings ct_not_internal_nor_boundary ct_not_boundary_line]. auto 8.
Qed.
Lemma section_lines_spec : forall m, section_ok m -> exists r, section_inspect_lines_topology m = Ok r /\
  components_reported LineT has_points_and_edges nb_points1 false m (m_lines m) (sl_not_meshed r) (sl_not_linked r) /\
  lists_vertices m (line_without_relation m) (ii_issues (sl_wrong_relationship r)) /\
  lists_vertices m (line_badly_embedded m) (ii_issues (sl_invalid_embeddings r)) /\
  lists_vertices m (single_line_invalid m) (ii_issues (sl_single_invalid r)) /\
  lists_vertices m (lines_without_corner m) (ii_issues (sl_several_not_corner r)).
Proof.
  intros m H. assert (Hu := so_ids m H). assert (Hl := so_links m H). unfold section_inspect_lines_topology.
  destruct (inspect_components_spec EdgedCurve get_line "Line " " is not meshed" LineT line_is_meshed has_points_and_edges (fun p => length (ec_points p)) false m
    (m_lines m) lines_not_meshed_d lines_not_linked_d) as (nm & nl & E & C).
  - apply (unique_ids_facts m Hu).
  - intros c Hc. apply get_line_In; assumption.
  - apply line_meshed_iff.
  - apply (so_line_bound m H).
  - rewrite E. cbn [bind].
    destruct (report_vertices_spec m [section_line_wrong_relationships m; section_invalid_embedded_line m;
               section_invalid_single_line m; section_lines_but_not_corner m]
       [line_without_relation m; line_badly_embedded m; single_line_invalid m; lines_without_corner m] section_lines_ds) as (rs & E' & F).
    + repeat constructor; intros uv _; destruct (section_vertex_facts m uv H) as [K1 K2];
        [apply line_relation_ok|apply embedded_line_ok|apply single_line_ok|apply lines_corner_ok]; assumption.
    + reflexivity.
    + rewrite E'. cbn [bind]. inversion F as [|r1 P1 l1 q1 F1 G1]; subst. inversion G1 as [|r2 P2 l2 q2 F2 G2]; subst. inversion G2 as [|r3 P3 l3 q3 F3 G3]; subst.
      inversion G3 as [|r4 P4 l4 q4 F4 G4]; subst. inversion G4; subst. eexists. split; [reflexivity|]. cbn. auto 8.
Qed.
Lemma section_surfaces_spec : forall m, section_ok m -> exists r, section_inspect_surfaces m = Ok r /\
  components_reported SurfaceT has_points_and_polygons nb_points2 false m (m_surfaces m) (ss_not_meshed r) (ss_not_linked r) /\
  lists_vertices m (two_surfaces_without_common_line m) (ii_issues (ss_invalid_embeddings r)) /\
  lists_vertices m (line_vertex_off_border m) (ii_issues (ss_not_on_border r)).
Proof.
  intros m H. assert (Hu := so_ids m H). assert (Hl := so_links m H). unfold section_inspect_surfaces.
  destruct (inspect_components_spec SurfaceMesh get_surface "Surface " " is not meshed" SurfaceT surface_is_meshed has_points_and_polygons
    (fun p => length (sm_points p)) false m (m_surfaces m) surfaces_not_meshed_d surfaces_not_linked_d) as (nm & nl & E & C).
  - apply (unique_ids_facts m Hu).
  - intros c Hc. apply get_surface_In; assumption.
  - apply surface_meshed_iff.
  - apply (so_surface_bound m H).
  - rewrite E. cbn [bind].
    destruct (report_vertices_spec m [section_invalid_embedded_surface m; section_line_not_on_surface_border m]
       [two_surfaces_without_common_line m; line_vertex_off_border m] section_surfaces_ds) as (rs & E' & F).
    + repeat constructor; intros uv _; [apply two_surfaces_ok|apply off_border_ok]; assumption.
    + reflexivity.
    + rewrite E'. cbn [bind]. inversion F as [|r1 P1 l1 q1 F1 G1]; subst. inversion G1 as [|r2 P2 l2 q2 F2 G2]; subst. inversion G2; subst.
      eexists. split; [reflexivity|]. cbn. auto 8.
Qed.

Lemma not_listed : forall m P l uv, lists_vertices m P l -> uv < nb_unique_vertices m -> (~ In uv l <-> ~ P uv).
Proof. intros m P l uv [_ H] Huv. rewrite H. tauto. Qed.

Lemma section_agreement : forall m uv rc rl rs, section_ok m -> uv < nb_unique_vertices m ->
  section_inspect_corners_topology m = Ok rc -> section_inspect_lines_topology m = Ok rl -> section_inspect_surfaces m = Ok rs ->
  decides (section_corner_topology_is_valid m uv)
    (~ In uv (ii_issues (ct_multiple_corners rc)) /\ ~ In uv (ii_issues (ct_multiple_embeddings rc)) /\
     ~ In uv (ii_issues (ct_not_internal_nor_boundary rc)) /\ ~ In uv (ii_issues (ct_not_boundary_line rc)) /\
     ~ embedded_corner_with_several_incidences m uv) /\
  decides (section_lines_topology_is_valid m uv)
    (~ In uv (ii_issues (sl_wrong_relationship rl)) /\ ~ In uv (ii_issues (sl_invalid_embeddings rl)) /\
     ~ In uv (ii_issues (sl_single_invalid rl)) /\ ~ In uv (ii_issues (sl_several_not_corner rl))) /\
  decides (section_vertex_surfaces_topology_is_valid m uv)
    ((exists s, active_at m uv SurfaceT s) -> ~ In uv (ii_issues (ss_invalid_embeddings rs)) /\ ~ In uv (ii_issues (ss_not_on_border rs))).
Proof.
  intros m uv rc rl rs H Huv Ec El Es. assert (Hu := so_ids m H). assert (Hl := so_links m H). destruct (section_vertex_facts m uv H) as [K1 K2].
  destruct (section_corners_spec m H) as (rc' & Ec' & _ & C1 & C2 & C3 & C4). rewrite Ec in Ec'. injection Ec' as <-.
  destruct (section_lines_spec m H) as (rl' & El' & _ & L1 & L2 & L3 & L4). rewrite El in El'. injection El' as <-.
  destruct (section_surfaces_spec m H) as (rs' & Es' & _ & S1 & S2). rewrite Es in Es'. injection Es' as <-.
  split; [|split].
  - eapply decides_ext; [apply corner_valid_ok; assumption|].
    rewrite (not_listed m _ _ uv C1 Huv), (not_listed m _ _ uv C2 Huv), (not_listed m _ _ uv C3 Huv), (not_listed m _ _ uv C4 Huv). tauto.
  - eapply decides_ext; [apply lines_valid_ok; assumption|].
    rewrite (not_listed m _ _ uv L1 Huv), (not_listed m _ _ uv L2 Huv), (not_listed m _ _ uv L3 Huv), (not_listed m _ _ uv L4 Huv). tauto.
  - eapply decides_ext; [apply surfaces_valid_ok; assumption|].
    rewrite (not_listed m _ _ uv S1 Huv), (not_listed m _ _ uv S2 Huv). tauto.
Qed.

Lemma section_links_spec : forall m, unique_ids m -> m_blocks m = [] -> exists r b,
  add_unique_vertices_with_wrong_cmv_link m cmv_exists_in_section no_links = Ok r /\
  lists_vertices m (fun uv => component_mesh_vertices m uv = []) (ii_issues (li_not_linked r)) /\
  one_entry_per_link m (fun _ c => ~ vertex_exists m c) (ii_issues (li_inexistant r)) /\
  one_entry_per_link m (linked_back_elsewhere m) (ii_issues (li_nonbijective r)) /\
  unique_vertices_are_bijectively_linked m cmv_exists_in_section = Ok b /\
  (b = true <-> bijectively_linked m) /\
  (b = true <-> ii_issues (li_not_linked r) = [] /\ ii_issues (li_inexistant r) = [] /\ ii_issues (li_nonbijective r) = []).
Proof.
  intros m Hu Hb. assert (Hex : forall c, cmv_exists_in_section m c = true <-> vertex_exists m c) by (intros c; apply cmv_exists_section_iff; assumption).
  destruct (links_ok m cmv_exists_in_section Hu Hex) as (r & H1 & H2 & H3 & H4).
  destruct (bijective_ok m cmv_exists_in_section Hu Hex) as (b & Hb' & Hp). exists r, b. repeat (split; [assumption|]).
  etransitivity; [exact Hp|]. apply (bijective_iff_empty m cmv_exists_in_section Hex); assumption.
Qed.
Lemma brep_links_spec : forall m, unique_ids m -> exists r b,
  add_unique_vertices_with_wrong_cmv_link m cmv_exists_in_brep no_links = Ok r /\
  lists_vertices m (fun uv => component_mesh_vertices m uv = []) (ii_issues (li_not_linked r)) /\
  one_entry_per_link m (fun _ c => ~ vertex_exists m c) (ii_issues (li_inexistant r)) /\
  one_entry_per_link m (linked_back_elsewhere m) (ii_issues (li_nonbijective r)) /\
  unique_vertices_are_bijectively_linked m cmv_exists_in_brep = Ok b /\
  (b = true <-> bijectively_linked m) /\
  (b = true <-> ii_issues (li_not_linked r) = [] /\ ii_issues (li_inexistant r) = [] /\ ii_issues (li_nonbijective r) = []).
Proof.
  intros m Hu. assert (Hex : forall c, cmv_exists_in_brep m c = true <-> vertex_exists m c) by (intros c; apply cmv_exists_brep_iff; assumption).
  destruct (links_ok m cmv_exists_in_brep Hu Hex) as (r & H1 & H2 & H3 & H4).
  destruct (bijective_ok m cmv_exists_in_brep Hu Hex) as (b & Hb' & Hp). exists r, b. repeat (split; [assumption|]).
  etransitivity; [exact Hp|]. apply (bijective_iff_empty m cmv_exists_in_brep Hex); assumption.
Qed.

Lemma section_valid_spec : forall m, section_ok m ->
  decides (section_topology_is_valid m)
    (0 < nb_unique_vertices m /\
     meshed_linked CornerT has_points nb_points0 m (m_corners m) /\ meshed_linked LineT has_points_and_edges nb_points1 m (m_lines m) /\
     meshed_linked SurfaceT has_points_and_polygons nb_points2 m (m_surfaces m) /\
     bijectively_linked m /\
     forall uv, uv < nb_unique_vertices m ->
       (~ several_corners m uv /\ ~ corner_with_several_embeddings m uv /\ ~ corner_without_relation m uv /\
        ~ corner_not_bounding_a_line m uv /\ ~ embedded_corner_with_several_incidences m uv) /\
       (~ line_without_relation m uv /\ ~ line_badly_embedded m uv /\ ~ single_line_invalid m uv /\ ~ lines_without_corner m uv) /\
       ((exists s, active_at m uv SurfaceT s) -> ~ two_surfaces_without_common_line m uv /\ ~ line_vertex_off_border m uv)).
Proof.
  intros m H. assert (Hu := so_ids m H). assert (Hl := so_links m H). unfold section_topology_is_valid.
  destruct (Nat.eqb_spec (nb_unique_vertices m) 0) as [E|E].
  { apply decides_bool. split; [discriminate|]. intros [K _]. lia. }
  destruct (section_meshed_components_are_linked m) eqn:F; cbn [negb].
  2:{ apply decides_bool. split; [discriminate|]. intros (_ & K1 & K2 & K3 & _). assert (K := proj2 (section_meshed_linked_iff m) (conj K1 (conj K2 K3))). congruence. }
  apply section_meshed_linked_iff in F. destruct F as (F1 & F2 & F3).
  destruct (section_links_spec m Hu (so_no_block m H)) as (_ & b & _ & _ & _ & _ & Hb & Hp & _). rewrite Hb. cbn [bind]. destruct b; cbn [negb].
  2:{ apply decides_bool. split; [discriminate|]. intros (_ & _ & _ & _ & K & _). apply Hp in K. discriminate. }
  assert (B := proj1 Hp eq_refl).
  eapply decides_ext; [apply (every_vertex_decides m _
     [(fun uv => ~ several_corners m uv /\ ~ corner_with_several_embeddings m uv /\ ~ corner_without_relation m uv /\
        ~ corner_not_bounding_a_line m uv /\ ~ embedded_corner_with_several_incidences m uv);
      (fun uv => ~ line_without_relation m uv /\ ~ line_badly_embedded m uv /\ ~ single_line_invalid m uv /\ ~ lines_without_corner m uv);
      (fun uv => (exists s, active_at m uv SurfaceT s) -> ~ two_surfaces_without_common_line m uv /\ ~ line_vertex_off_border m uv)])|].
  - intros uv _. destruct (section_vertex_facts m uv H) as [K1 K2]. repeat constructor; [apply corner_valid_ok|apply lines_valid_ok|apply surfaces_valid_ok]; assumption.
  - split.
    + intros K. repeat (split; [assumption || lia|]). intros uv Huv. specialize (K uv Huv). inversion K as [|? ? A1 Q1]; subst. inversion Q1 as [|? ? A2 Q2]; subst.
      inversion Q2 as [|? ? A3 Q3]; subst. auto.
    + intros (_ & _ & _ & _ & _ & K) uv Huv. destruct (K uv Huv) as (A1 & A2 & A3). repeat constructor; tauto.
Qed.
Lemma section_topology_spec : forall m, section_ok m -> exists rc rl rs links,
  section_inspect_corners_topology m = Ok rc /\ section_inspect_lines_topology m = Ok rl /\ section_inspect_surfaces m = Ok rs /\
  add_unique_vertices_with_wrong_cmv_link m cmv_exists_in_section no_links = Ok links /\
  inspect_section_topology m = Ok (mkSectionTopology rc rl rs links).
Proof.
  intros m H. destruct (section_corners_spec m H) as (rc & Ec & _). destruct (section_lines_spec m H) as (rl & El & _). destruct (section_surfaces_spec m H) as (rs & Es & _).
  destruct (section_links_spec m (so_ids m H) (so_no_block m H)) as (links & _ & Hk & _). exists rc, rl, rs, links. repeat (split; [assumption|]).
  unfold inspect_section_topology. rewrite Ec, El, Es, Hk. reflexivity.
Qed.
