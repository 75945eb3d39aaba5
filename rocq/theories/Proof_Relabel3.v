(** Unique vertices numbered in another way: topology reports. *)
From Coq Require Import String Ascii List Arith NArith ZArith Bool Lia Permutation.
From Verif Require Import Base BaseFacts Model_Issues Types Model_Hash Model_Manifold Model_Topology Model_BRep Model_Blocks Model_Results Spec_Colocation Spec_Topology Spec_BRep Spec_Blocks Spec_Reproducible
  Spec_Renumber Spec_Relabel Spec_Local Proof_Messages Proof_Order Proof_Colocation Proof_Colocation2 Proof_Renumber Proof_Local Proof_Local2 Proof_Relabel Proof_Relabel2 Proof_Topology4 Proof_Blocks6.
Import ListNotations.
Open Scope list_scope.

Section Frame.
Context (f : nat -> nat) (m m' : Model) (R : relabelled f m m').
Lemma header_same : forall M (filled : M -> Prop) l, Forall2 (same_header filled) l l.
Proof. intros M filled l. induction l; constructor; [unfold same_header; tauto|assumption]. Qed.
Lemma relabelled_frame : same_frame m m'.
Proof.
  constructor; try (symmetry; apply R).
  - rewrite (rl_corners _ _ _ R). apply header_same.
  - rewrite (rl_lines _ _ _ R). apply header_same.
  - rewrite (rl_surfaces _ _ _ R). apply header_same.
  - rewrite (rl_blocks _ _ _ R). apply header_same.
Qed.
Lemma relabelled_position : forall c p, has_position m' c p <-> has_position m c p.
Proof.
  intros c p. split; intros P; destruct P as [c v p I E|c v p I E|c v p I E|c v p I E]; constructor; try exact E.
  all: first [rewrite <- (rl_corners _ _ _ R)|rewrite <- (rl_lines _ _ _ R)|rewrite <- (rl_surfaces _ _ _ R)|rewrite <- (rl_blocks _ _ _ R)
    |rewrite (rl_corners _ _ _ R)|rewrite (rl_lines _ _ _ R)|rewrite (rl_surfaces _ _ _ R)|rewrite (rl_blocks _ _ _ R)]; exact I.
Qed.
Lemma relabelled_vertex : unique_ids m -> forall uv, uv < nb_unique_vertices m -> same_vertex m m' uv (f uv).
Proof.
  intros U uv B. constructor.
  - symmetry. apply (rl_links _ _ _ R uv B).
  - intros c p _. symmetry. apply relabelled_position.
  - intros s s' v I I' E _. rewrite (rl_surfaces _ _ _ R) in I'. pose proof (if_s _ (unique_ids_facts m U)) as N1.
    pose proof (find_component_In _ _ s N1 I) as F1. pose proof (find_component_In _ _ s' N1 I') as F2. replace s' with s by congruence. reflexivity.
  - intros c _. rewrite (rl_unique _ _ _ R). destruct (m_unique_vertex m c) as [w|] eqn:W; cbn [option_map]; [|split; discriminate]. split; [intros X; injection X as <-; reflexivity|].
    intros X. injection X as X. f_equal. apply (proj2 (rl_numbers _ _ _ R)); [apply (rl_range _ _ _ R _ _ W)|exact B|exact X].
Qed.
Lemma relabelled_back : forall c, m_unique_vertex m' c = option_map f (m_unique_vertex m c). Proof. apply R. Qed.
Lemma relabelled_ids : unique_ids m -> unique_ids m'.
Proof. intros U. unfold unique_ids, all_ids in *. rewrite (rl_corners _ _ _ R), (rl_lines _ _ _ R), (rl_surfaces _ _ _ R), (rl_blocks _ _ _ R). exact U. Qed.
End Frame.

Ltac rel F := repeat match type of F with Forall2 _ (_ :: _) _ => let a := fresh "a" in let A := fresh "S" in let B := fresh "F" in inversion F as [|? a ? ? A B]; subst; clear F; rename B into F
  | Forall2 _ [] _ => inversion F; subst; clear F end.
Section Stages.
Context (f : nat -> nat) (m : Model) (cmvs : list (list ComponentMeshVertex)) (back : ComponentMeshVertex -> option nat).
Notation m' := (relink m cmvs back).
Context (R : relabelled f m m') (U : unique_ids m).
Let N := rl_numbers _ _ _ R.
Let NB := rl_nb _ _ _ R.
Let BK := rl_unique _ _ _ R.
Let RG := rl_range _ _ _ R.
Let H := relabelled_frame f m m' R.
Let V := relabelled_vertex f m m' R U.
Let U' := relabelled_ids f m m' R U.
Lemma section_corners_relabelled : forall r, section_inspect_corners_topology m = Ok r -> exists r', section_inspect_corners_topology m' = Ok r' /\ relabelled_corners f r r'.
Proof.
  intros r E. unfold section_inspect_corners_topology in *. rewrite (r_components f m cmvs back BK) by reflexivity. cbn [m_corners relink].
  apply bind_Ok in E as (cs & Ec & E). apply bind_Ok in E as (rs & Er & E). rewrite Ec. cbn [bind].
  apply (report_relabelled f m m') with (checks' := [unique_vertex_has_multiple_corners m'; corner_has_multiple_embeddings m'; corner_is_not_internal_nor_boundary m'; section_corner_is_part_of_line_but_not_boundary m']) in Er;
    [|exact N|exact NB|reflexivity|reflexivity|].
  - destruct Er as (rs' & Er' & F). rewrite Er'. cbn [bind]. unfold make_corners in *. destruct rs as [|a [|b [|c [|d [|? ?]]]]]; try discriminate. injection E as <-. rel F.
    eexists. split; [reflexivity|]. constructor; [reflexivity|reflexivity|assumption..].
  - intros uv B. specialize (V uv B). repeat apply Forall2_cons; [| | | |apply Forall2_nil].
    + apply (l_multiple_corners m m' H uv _ V).
    + apply (l_multiple_embeddings m m' H uv _ V).
    + apply (l_neither m m' H uv _ V).
    + apply (l_section_corner_line m m' H uv _ V).
Qed.
Lemma brep_corners_relabelled : forall r, brep_inspect_corners_topology m = Ok r -> exists r', brep_inspect_corners_topology m' = Ok r' /\ relabelled_corners f r r'.
Proof.
  intros r E. unfold brep_inspect_corners_topology in *. rewrite (r_components f m cmvs back BK) by reflexivity. cbn [m_corners relink].
  apply bind_Ok in E as (cs & Ec & E). apply bind_Ok in E as (rs & Er & E). rewrite Ec. cbn [bind].
  apply (report_relabelled f m m') with (checks' := [unique_vertex_has_multiple_corners m'; corner_is_multiply_embedded m'; corner_is_not_internal_nor_boundary m'; brep_corner_is_part_of_line_but_not_boundary m']) in Er;
    [|exact N|exact NB|reflexivity|reflexivity|].
  - destruct Er as (rs' & Er' & F). rewrite Er'. cbn [bind]. unfold make_corners in *. destruct rs as [|a [|b [|c [|d [|? ?]]]]]; try discriminate. injection E as <-. rel F.
    eexists. split; [reflexivity|]. constructor; [reflexivity|reflexivity|assumption..].
  - intros uv B. specialize (V uv B). repeat apply Forall2_cons; [| | | |apply Forall2_nil].
    + apply (l_multiple_corners m m' H uv _ V).
    + apply (l_multiply_embedded m m' H uv _ V).
    + apply (l_neither m m' H uv _ V).
    + apply (l_brep_corner_line m m' H uv _ V).
Qed.
Lemma section_lines_relabelled : forall r, section_inspect_lines_topology m = Ok r -> exists r', section_inspect_lines_topology m' = Ok r' /\
  sl_not_meshed r' = sl_not_meshed r /\ sl_not_linked r' = sl_not_linked r /\ renumbered_issues f (sl_wrong_relationship r) (sl_wrong_relationship r') /\
  renumbered_issues f (sl_invalid_embeddings r) (sl_invalid_embeddings r') /\ renumbered_issues f (sl_single_invalid r) (sl_single_invalid r') /\
  renumbered_issues f (sl_several_not_corner r) (sl_several_not_corner r').
Proof.
  intros r E. unfold section_inspect_lines_topology in *. rewrite (r_components f m cmvs back BK) by reflexivity. cbn [m_lines relink].
  apply bind_Ok in E as (cs & Ec & E). apply bind_Ok in E as (rs & Er & E). rewrite Ec. cbn [bind].
  apply (report_relabelled f m m') with (checks' := [section_line_wrong_relationships m'; section_invalid_embedded_line m'; section_invalid_single_line m'; section_lines_but_not_corner m']) in Er;
    [|exact N|exact NB|reflexivity|reflexivity|].
  - destruct Er as (rs' & Er' & F). rewrite Er'. cbn [bind]. destruct rs as [|a [|b [|c [|d [|? ?]]]]]; try discriminate. injection E as <-. rel F.
    eexists. split; [reflexivity|]. split; [reflexivity|]. split; [reflexivity|]. auto.
  - intros uv B. specialize (V uv B). repeat apply Forall2_cons; [| | | |apply Forall2_nil].
    + apply (l_line_wrong m m' H uv _ V).
    + apply (l_section_embedded m m' H uv _ V).
    + apply (l_section_single m m' H uv _ V).
    + apply (l_no_corner m m' H uv _ V).
Qed.
Lemma section_surfaces_relabelled : forall r, section_inspect_surfaces m = Ok r -> exists r', section_inspect_surfaces m' = Ok r' /\
  ss_not_meshed r' = ss_not_meshed r /\ ss_not_linked r' = ss_not_linked r /\ renumbered_issues f (ss_invalid_embeddings r) (ss_invalid_embeddings r') /\
  renumbered_issues f (ss_not_on_border r) (ss_not_on_border r').
Proof.
  intros r E. unfold section_inspect_surfaces in *. rewrite (r_components f m cmvs back BK) by reflexivity. cbn [m_surfaces relink].
  apply bind_Ok in E as (cs & Ec & E). apply bind_Ok in E as (rs & Er & E). rewrite Ec. cbn [bind].
  apply (report_relabelled f m m') with (checks' := [section_invalid_embedded_surface m'; section_line_not_on_surface_border m']) in Er;
    [|exact N|exact NB|reflexivity|reflexivity|].
  - destruct Er as (rs' & Er' & F). rewrite Er'. cbn [bind]. destruct rs as [|a [|b [|? ?]]]; try discriminate. injection E as <-. rel F.
    eexists. split; [reflexivity|]. split; [reflexivity|]. split; [reflexivity|]. auto.
  - intros uv B. specialize (V uv B). repeat apply Forall2_cons; [| |apply Forall2_nil].
    + apply (l_section_two m m' H uv _ V).
    + apply (l_section_border m m' H uv _ V).
Qed.
Section Lookups.
Context (tl tl' : TopoLookup) (TE : forall a b, a < nb_unique_vertices m -> b < nb_unique_vertices m -> tl_edges tl' (f a) (f b) = tl_edges tl a b).
Context (TP : forall l, (forall v, In v l -> v < nb_unique_vertices m) -> tl_polygon_blocks tl' (map f l) = tl_polygon_blocks tl l).
Context (TI : tl_inside_block tl' = tl_inside_block tl) (TB : tl_box_contains tl' = tl_box_contains tl) (TC : tl_inside_closed tl' = tl_inside_closed tl).
Lemma first_edges_relabelled : forall uv, same_first_edges tl tl' m m' uv.
Proof.
  intros uv l l' I I' E _. cbn [m_lines relink] in I'. pose proof (if_l _ (unique_ids_facts m U)) as N1.
  pose proof (find_component_In _ _ l N1 I) as F1. pose proof (find_component_In _ _ l' N1 I') as F2. replace l' with l by congruence. split; [reflexivity|].
  symmetry. apply (r_mesh_edges f m cmvs back BK RG tl tl' TE).
Qed.
Lemma brep_lines_relabelled : forall r, brep_inspect_lines_topology tl m = Ok r -> exists r', brep_inspect_lines_topology tl' m' = Ok r' /\
  bl_not_meshed r' = bl_not_meshed r /\ bl_not_linked r' = bl_not_linked r /\ bl_wrong_edges r' = bl_wrong_edges r /\
  renumbered_issues f (bl_wrong_relationship r) (bl_wrong_relationship r') /\
  renumbered_issues f (bl_invalid_embeddings r) (bl_invalid_embeddings r') /\ renumbered_issues f (bl_single_invalid r) (bl_single_invalid r') /\
  renumbered_issues f (bl_several_not_corner r) (bl_several_not_corner r').
Proof.
  intros r E. unfold brep_inspect_lines_topology in *.
  rewrite (r_elements f m cmvs back BK _ get_line "Line "%string LineT line_is_meshed (fun p => List.length (ec_points p)) (fun p => List.length (ec_edges p)) true
    (line_edge_has_wrong_component_edges_around tl m) (line_edge_has_wrong_component_edges_around tl' m')); [|reflexivity|apply (r_edges_around f m cmvs back BK RG tl tl' TE)].
  cbn [m_lines relink]. apply bind_Ok in E as (cs & Ec & E). apply bind_Ok in E as (rs & Er & E). rewrite Ec. cbn [bind].
  apply (report_relabelled f m m') with (checks' := [brep_invalid_embedded_line m'; brep_line_wrong_relationships tl' m'; brep_invalid_single_line m'; brep_lines_but_not_corner m']) in Er;
    [|exact N|exact NB|reflexivity|reflexivity|].
  - destruct Er as (rs' & Er' & F). rewrite Er'. cbn [bind]. destruct rs as [|a [|b [|c [|d [|? ?]]]]]; try discriminate. injection E as <-. rel F.
    eexists. split; [reflexivity|]. split; [reflexivity|]. split; [reflexivity|]. split; [reflexivity|]. auto.
  - intros uv B. specialize (V uv B). repeat apply Forall2_cons; [| | | |apply Forall2_nil].
    + apply (l_brep_embedded m m' H uv _ V).
    + apply (l_line_wrong_brep m m' H uv _ V tl tl' (first_edges_relabelled uv)).
    + apply (l_brep_single m m' H uv _ V).
    + apply (l_no_corner m m' H uv _ V).
Qed.
Lemma brep_surfaces_relabelled : forall r, brep_inspect_surfaces_topology tl m = Ok r -> exists r', brep_inspect_surfaces_topology tl' m' = Ok r' /\
  bs_not_meshed r' = bs_not_meshed r /\ bs_not_linked r' = bs_not_linked r /\ bs_wrong_facets r' = bs_wrong_facets r /\
  renumbered_issues f (bs_invalid_embeddings r) (bs_invalid_embeddings r') /\ renumbered_issues f (bs_several_invalid r) (bs_several_invalid r') /\
  renumbered_issues f (bs_not_on_border r) (bs_not_on_border r').
Proof.
  intros r E. unfold brep_inspect_surfaces_topology in *.
  rewrite (r_elements f m cmvs back BK _ get_surface "Surface "%string SurfaceT surface_is_meshed (fun p => List.length (sm_points p)) nb_polygons (brep_blocks_are_meshed m')
    (surface_facet_has_wrong_component_facets_around tl m) (surface_facet_has_wrong_component_facets_around tl' m')); [|reflexivity|apply (r_facets_around f m cmvs back BK RG tl tl' TP)].
  cbn [m_surfaces relink]. change (brep_blocks_are_meshed m') with (brep_blocks_are_meshed m). apply bind_Ok in E as (cs & Ec & E). apply bind_Ok in E as (rs & Er & E). rewrite Ec. cbn [bind].
  apply (report_relabelled f m m') with (checks' := [brep_invalid_embedded_surface m'; brep_invalid_multiple_surfaces m'; brep_line_not_on_surface_border m']) in Er;
    [|exact N|exact NB|reflexivity|reflexivity|].
  - destruct Er as (rs' & Er' & F). rewrite Er'. cbn [bind]. destruct rs as [|a [|b [|c [|? ?]]]]; try discriminate. injection E as <-. rel F.
    eexists. split; [reflexivity|]. split; [reflexivity|]. split; [reflexivity|]. split; [reflexivity|]. auto.
  - intros uv B. specialize (V uv B). repeat apply Forall2_cons; [| | |apply Forall2_nil].
    + apply (l_brep_embedded_surface m m' H uv _ V).
    + apply (l_brep_multiple m m' H U uv _ V U').
    + apply (l_brep_border m m' H uv _ V).
Qed.
Lemma renumbered_none : forall d, renumbered_issues f (new_issues d) (new_issues d). Proof. intros d. apply perm_nil. Qed.
Lemma brep_blocks_relabelled : forall r, brep_inspect_blocks tl m = Ok r -> exists r', brep_inspect_blocks tl' m' = Ok r' /\
  bb_not_meshed r' = bb_not_meshed r /\ bb_not_linked r' = bb_not_linked r /\ bb_wrong_boundary r' = bb_wrong_boundary r /\ bb_not_closed r' = bb_not_closed r /\
  bb_model_boundaries r' = bb_model_boundaries r /\
  renumbered_issues f (bb_two_blocks r) (bb_two_blocks r') /\ renumbered_issues f (bb_wrong_count r) (bb_wrong_count r') /\
  renumbered_issues f (bb_single_invalid r) (bb_single_invalid r') /\ renumbered_issues f (bb_wrong_relationship r) (bb_wrong_relationship r') /\
  renumbered_issues f (bb_multiple_invalid r) (bb_multiple_invalid r').
Proof.
  intros r E. unfold brep_inspect_blocks in *. change (active (m_blocks m')) with (active (m_blocks m)). destruct (active (m_blocks m)) as [|b0 l0].
  - injection E as <-. eexists. split; [reflexivity|]. do 5 (split; [reflexivity|]). repeat split; apply renumbered_none.
  - apply bind_Ok in E as (nb & Enb & E). apply bind_Ok in E as (dg & Edg & E). apply bind_Ok in E as (nl & Enl & E). apply bind_Ok in E as (cl & Ecl & E). cbv zeta in E.
    apply bind_Ok in E as (rs & Er & E). apply bind_Ok in E as (bs & Ebs & E).
    rewrite (r_not_boundary m cmvs back), Enb. cbn [bind]. rewrite (r_dangling_tl m cmvs back tl tl' TI), Edg. cbn [bind].
    rewrite (foldM_eq _ _ (inspect_block_links m') (inspect_block_links m) _ _ _ _ eq_refl eq_refl (r_block_links f m cmvs back BK)), Enl. cbn [bind].
    replace (match m_model_boundaries m' with [] => Ok true | _ :: _ => brep_boundaries_are_closed m' end) with (match m_model_boundaries m with [] => Ok true | _ :: _ => brep_boundaries_are_closed m end)
      by (cbn [m_model_boundaries relink]; rewrite (r_boundaries_closed m cmvs back); reflexivity).
    rewrite Ecl. cbn [bind]. cbv zeta.
    apply (report_relabelled f m m') with (checks' := [unique_vertex_is_part_of_two_blocks_and_no_boundary_surface m'; unique_vertex_block_cmvs_count_is_incorrect m';
        brep_invalid_single_surface m' nb; surface_with_wrong_relationships_to_block m' nb dg; brep_multiple_surfaces_invalid_line m']) in Er;
      [|exact N|exact NB|reflexivity|reflexivity|].
    + destruct Er as (rs' & Er' & F). rewrite Er'. cbn [bind].
      rewrite (foldM_eq _ _ (inspect_block_closedness tl' m') (inspect_block_closedness tl m) _ _ _ _ eq_refl eq_refl (r_closedness f m cmvs back N BK RG tl tl' TB TC)), Ebs. cbn [bind].
      destruct rs as [|a [|b [|c [|d [|e [|? ?]]]]]]; try discriminate. injection E as <-. rel F.
      eexists. split; [reflexivity|]. do 5 (split; [reflexivity|]). auto.
    + intros uv B. specialize (V uv B). repeat apply Forall2_cons; [| | | | |apply Forall2_nil].
      * apply (l_two_blocks m m' H uv _ V).
      * apply (l_block_count m m' H U uv _ V U').
      * apply (l_single_surface m m' H uv _ V).
      * apply (l_wrong_surface m m' H uv _ V).
      * apply (l_multiple_line m m' H uv _ V).
Qed.
Lemma brep_topology_relabelled : blocks_ok tl m -> lookup_ok tl m -> lines_inspectable m ->
  exists r r', inspect_brep_topology tl m = Ok r /\ inspect_brep_topology tl' m' = Ok r' /\ relabelled_brep_topology f r r'.
Proof.
  intros K1 K2 K3. destruct (brep_topology_spec tl m K1 K2 K3) as (rc & rl & rs & rb & links & Ec & El & Es & Eb & Ek & E).
  destruct (brep_corners_relabelled rc Ec) as (rc' & Ec' & Rc). destruct (brep_lines_relabelled rl El) as (rl' & El' & Rl). destruct (brep_surfaces_relabelled rs Es) as (rs' & Es' & Rs).
  destruct (brep_blocks_relabelled rb Eb) as (rb' & Eb' & Rb).
  destruct (links_relabelled f m m' N NB H V cmv_exists_in_brep) with (r := links) as (links' & Ek' & Rk); [intros uv c B I; apply (exists_same_brep m m' uv (f uv) (V uv B) U U' c I)|exact Ek|].
  eexists. eexists. split; [exact E|]. split; [unfold inspect_brep_topology; cbv zeta; rewrite Ec', El', Es', Eb', Ek'; reflexivity|].
  destruct Rl as (L1 & L2 & L3 & L4 & L5 & L6 & L7). destruct Rs as (S1 & S2 & S3 & S4 & S5 & S6). destruct Rb as (B1 & B2 & B3 & B4 & B5 & B6 & B7 & B8 & B9 & B10).
  constructor; assumption.
Qed.
End Lookups.
Lemma section_topology_relabelled : section_ok m -> exists r r', inspect_section_topology m = Ok r /\ inspect_section_topology m' = Ok r' /\ relabelled_section_topology f r r'.
Proof.
  intros K. destruct (section_topology_spec m K) as (rc & rl & rs & links & Ec & El & Es & Ek & E).
  destruct (section_corners_relabelled rc Ec) as (rc' & Ec' & Rc). destruct (section_lines_relabelled rl El) as (rl' & El' & Rl). destruct (section_surfaces_relabelled rs Es) as (rs' & Es' & Rs).
  destruct (links_relabelled f m m' N NB H V cmv_exists_in_section) with (r := links) as (links' & Ek' & Rk);
    [intros uv c B I; apply (exists_same_section m m' uv (f uv) (V uv B) U U' (so_no_block _ K) (so_no_block _ K) c I)|exact Ek|].
  eexists. eexists. split; [exact E|]. split; [unfold inspect_section_topology; cbv zeta; rewrite Ec', El', Es', Ek'; reflexivity|].
  destruct Rl as (L1 & L2 & L3 & L4 & L5 & L6). destruct Rs as (S1 & S2 & S3 & S4). constructor; assumption.
Qed.
End Stages.
