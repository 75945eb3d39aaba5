(** The whole block inspection and BRep validity. *)
From Coq Require Import String Ascii List Arith NArith ZArith Bool Lia Sorted.
From Verif Require Import Base BaseFacts Model_Issues Types Model_Colocation Model_Topology Model_BRep Model_Blocks Spec_Colocation Spec_Maps Spec_Adjacency
  Spec_Topology Spec_BRep Spec_Blocks Proof_Maps Proof_Colocation Proof_Colocation2 Proof_Colocation3 Proof_Adjacency Proof_Manifold Proof_Degeneration
  Proof_Topology Proof_Topology2 Proof_Topology3 Proof_Topology4 Proof_BRep Proof_BRep2 Proof_BRep3 Proof_BRep4 Proof_BRep5 Proof_Blocks Proof_Blocks2 Proof_Blocks3
  Proof_Blocks4 Proof_Blocks5.
Import ListNotations.
Open Scope list_scope.

Lemma lists_blocks_filter : forall m (p : Component SolidMesh -> bool) (P : uuid -> Prop), unique_ids m ->
  (forall c, In c (m_blocks m) -> (p c = true <-> P (co_id c))) -> lists_blocks m P (map co_id (filter p (active (m_blocks m)))).
Proof.
  intros m p P Hu HP. split; [apply subsequence_filter|]. intros b. rewrite in_map_iff. cbn [active_ids]. rewrite in_map_iff. split.
  - intros (c & <- & Hc). apply filter_In in Hc as [Hc Pc]. split; [exists c; auto|]. apply HP; [|exact Pc]. apply filter_In in Hc. tauto.
  - intros ((c & <- & Hc) & K). exists c. split; [reflexivity|]. apply filter_In. split; [exact Hc|]. apply HP; [|exact K]. apply filter_In in Hc. tauto.
Qed.
Section Blocks.
Context (tl : TopoLookup) (m : Model) (H : brep_ok m).
Let Hu := br_ids m H.
Lemma has_mesh_iff : forall c, In c (m_blocks m) -> (block_is_meshed (co_mesh c) = true <-> block_has_mesh m (co_id c)).
Proof.
  intros c Hc. rewrite block_meshed_iff. unfold block_has_mesh. split; [intros K; exists c; auto|]. intros (d & Hd & E & K).
  assert (G := get_block_In m d Hu Hd). rewrite E, (get_block_In m c Hu Hc) in G. injection G as ->. exact K.
Qed.
Lemma blocks_meshes_spec : lists_blocks m (fun b => ~ block_has_mesh m b /\ exists b', In b' (active_ids m BlockT) /\ block_has_mesh m b') (ii_issues (inspect_blocks_meshes m)).
Proof.
  unfold inspect_blocks_meshes. set (un := filter (fun b => negb (block_is_meshed (co_mesh b))) (active (m_blocks m))). set (me := filter (fun b => block_is_meshed (co_mesh b)) (active (m_blocks m))).
  assert (ME : (exists b', In b' (active_ids m BlockT) /\ block_has_mesh m b') <-> me <> []).
  { split.
    - intros (b' & A & K) E. cbn [active_ids] in A. apply in_map_iff in A as (c & <- & Hc). apply filter_In in Hc as [Hc Ac]. apply (has_mesh_iff c Hc) in K.
      assert (Q : In c me) by (apply filter_In; split; [apply filter_In; auto|exact K]). rewrite E in Q. destruct Q.
    - intros E. destruct me as [|c me'] eqn:Q; [congruence|]. assert (Hc : In c me) by (rewrite Q; left; reflexivity). apply filter_In in Hc as [Hc K]. apply filter_In in Hc as [Hc Ac].
      exists (co_id c). split; [cbn [active_ids]; apply in_map, filter_In; auto|apply has_mesh_iff; assumption]. }
  assert (UN : lists_blocks m (fun b => ~ block_has_mesh m b) (map co_id un)).
  { apply lists_blocks_filter; [exact Hu|]. intros c Hc. apply bool_not_iff. apply has_mesh_iff, Hc. }
  assert (NIL : un = [] \/ me = [] -> lists_blocks m (fun b => ~ block_has_mesh m b /\ exists b', In b' (active_ids m BlockT) /\ block_has_mesh m b') []).
  { intros N. split; [clear; induction (component_ids m BlockT); constructor; assumption|]. intros b. split; [intros []|]. intros (A & K1 & K2). apply ME in K2. destruct N as [N|N]; [|congruence].
    assert (Q : In b (map co_id un)) by (apply (proj2 UN); auto). rewrite N in Q. destruct Q. }
  destruct un as [|u un'] eqn:EU; [destruct me; apply NIL; auto|]. destruct me as [|v me'] eqn:EM; [apply NIL; auto|]. rewrite <- EU in *.
  assert (F : forall (l : list (Component SolidMesh)) r, ii_issues (fold_left (fun r b => add_issue (co_id b) (StrCat ["Block "; named m (co_name b) (co_id b); " is not meshed."]%string) r) l r) = ii_issues r ++ map co_id l).
  { clear. induction l as [|c l IH]; intros r; cbn [fold_left map]; [rewrite app_nil_r; reflexivity|]. rewrite IH. cbn. rewrite <- app_assoc. reflexivity. }
  rewrite F. cbn [new_issues ii_issues app]. destruct UN as [U1 U2]. split; [exact U1|]. intros b. rewrite U2. assert (X : exists b', In b' (active_ids m BlockT) /\ block_has_mesh m b') by (apply ME; discriminate). tauto.
Qed.
Definition blocks_linked (r : InspectionIssuesMap nat) : Prop :=
  map_reports r (fun id vs => exists c, In c (m_blocks m) /\ co_active c = true /\ co_id c = id /\ has_points_and_polyhedra (co_mesh c) /\
    lists_exactly lt (unlinked m BlockT id (nb_points3 (co_mesh c))) vs).
Lemma NoDup_map_filter : forall A B (f : A -> B) p l, NoDup (map f l) -> NoDup (map f (filter p l)).
Proof.
  intros A B f p l. induction l as [|x l IH]; cbn [map filter]; intros N; [constructor|]. inversion N as [|? ? N1 N2]; subst. destruct (p x); [|auto]. cbn [map]. constructor; [|auto].
  intros K. apply N1. apply in_map_iff in K as (y & E & K). apply filter_In in K. apply in_map_iff. exists y. tauto.
Qed.
Lemma blocks_links_spec : exists r, foldM (inspect_block_links m) (filter (fun b => block_is_meshed (co_mesh b)) (active (m_blocks m))) (new_issues_map blocks_not_linked_d) = Ok r /\ blocks_linked r.
Proof.
  set (l := filter (fun b => block_is_meshed (co_mesh b)) (active (m_blocks m))).
  set (body := fun c : Component SolidMesh => Ok (set_description (StrCat ["Block "; named m (co_name c) (co_id c)]%string) (vertices_not_associated m (mkCID BlockT (co_id c)) (List.length (so_points (co_mesh c)))))).
  assert (IN : forall c, In c l -> In c (m_blocks m) /\ co_active c = true /\ block_is_meshed (co_mesh c) = true).
  { intros c Hc. apply filter_In in Hc as [Hc K]. apply filter_In in Hc. tauto. }
  assert (E : foldM (inspect_block_links m) l (new_issues_map blocks_not_linked_d) = foldM (fun acc c => let! r := body c in Ok (add_issues_to_map (co_id c) r acc)) l (new_issues_map blocks_not_linked_d)).
  { apply foldM_ext_in. intros acc c Hc. unfold inspect_block_links, body. rewrite (get_block_In m c Hu) by (apply IN, Hc). cbn [bind]. cbv zeta. f_equal.
    destruct (N.eqb _ 0) eqn:Z; [|reflexivity]. f_equal. unfold add_issues_to_map, nb_issues in *. cbn [set_description ii_issues]. rewrite Z. reflexivity. }
  rewrite E. apply component_loop_reports.
  - apply NoDup_map_filter, NoDup_map_filter. apply (unique_ids_facts m Hu).
  - intros c Hc. eexists. split; [reflexivity|]. cbn [set_description ii_issues]. destruct (IN c Hc) as (H1 & H2 & H3). split.
    + pose proof (vertices_not_associated_length m (mkCID BlockT (co_id c)) (length (so_points (co_mesh c)))). pose proof (br_block_bound m H c H1) as Q. unfold below_2_32, nb_points3 in *. lia.
    + exists c. repeat (split; [assumption || reflexivity|]). split; [apply block_meshed_iff, H3|]. apply vertices_not_associated_spec.
  - intros id vs (c & H1 & H2 & H3 & H4 & H5). exists c. split; [apply filter_In; split; [apply filter_In; auto|apply block_meshed_iff, H4]|]. split; [exact H3|].
    intros r Er Hr. injection Er as <-. cbn [set_description ii_issues] in Hr. pose proof (vertices_not_associated_spec m BlockT (co_id c) (length (so_points (co_mesh c)))) as S. rewrite Hr in S.
    destruct H5 as [_ H5]. destruct vs as [|v vs]; [reflexivity|]. exfalso. apply (in_nil (a := v)). apply S. rewrite H3. apply H5. left. reflexivity.
Qed.
(** closedness *)
Definition parts_of (b : uuid) : list (list uuid) := match linked_parts (length (block_surfaces m b)) m (block_surfaces m b) with Ok p => p | _ => [] end.
Definition is_false (o : outcome bool) : bool := match o with Ok false => true | _ => false end.
Definition is_some (o : outcome (option string)) : bool := match o with Ok (Some _) => true | _ => false end.
Hypothesis Hbd : below_2_32 (length (m_boundary_rel m)).
Hypothesis Hin : inside_safe tl.
Lemma closedness_loop : forall l r, (forall c, In c l -> In c (m_blocks m)) -> exists r', foldM (inspect_block_closedness tl m) l r = Ok r' /\
  ii_issues (fst r') = ii_issues (fst r) ++ map co_id (filter (fun c => is_some (inspect_block_boundaries m c)) l) /\
  ii_issues (snd r') = ii_issues (snd r) ++ map co_id (filter (fun c => is_false (block_boundaries_are_closed tl m (co_id c))) l).
Proof.
  induction l as [|c l IH]; intros [r1 r2] Hl.
  - exists (r1, r2). cbn. rewrite !app_nil_r. auto.
  - cbn [foldM filter]. unfold inspect_block_closedness at 1. assert (Hc := Hl c (or_introl eq_refl)).
    destruct (block_closed_ok m H tl (co_id c) Hin (in_map co_id _ _ Hc) Hbd) as (_ & _ & _ & x & Ex & _). rewrite Ex. cbn [bind]. cbv zeta.
    destruct (block_boundaries_ok m H c Hc) as (w & Ew & _). rewrite Ew. cbn [bind fst snd is_some is_false].
    match goal with |- context [foldM _ l ?q] => destruct (IH q) as (r' & E & E1 & E2) end; [intros d Hd; apply Hl; right; exact Hd|].
    exists r'. split; [exact E|]. cbn [fst snd] in E1, E2. rewrite E1, E2. destruct w, x; cbn [add_issue ii_issues map]; rewrite <- ?app_assoc; auto.
Qed.
Lemma closedness_spec : exists r, foldM (inspect_block_closedness tl m) (active (m_blocks m)) (new_issues wrong_boundary_d, new_issues not_closed_d) = Ok r /\
  lists_blocks m (boundary_has_free_line m) (ii_issues (fst r)) /\
  lists_blocks m (fun b => ~ counted_as_closed tl m (parts_of b)) (ii_issues (snd r)) /\
  forall b, In b (component_ids m BlockT) -> connected_parts m (block_surfaces m b) (parts_of b).
Proof.
  destruct (closedness_loop (active (m_blocks m)) (new_issues wrong_boundary_d, new_issues not_closed_d)) as (r & E & E1 & E2). { intros c Hc. apply filter_In in Hc. tauto. }
  exists r. split; [exact E|]. cbn [fst snd new_issues ii_issues app] in E1, E2. rewrite E1, E2. split; [|split].
  - apply lists_blocks_filter; [exact Hu|]. intros c Hc. destruct (block_boundaries_ok m H c Hc) as (w & -> & K). cbn [is_some]. destruct w; [split; [intros _; apply K; discriminate|reflexivity]|].
    split; [discriminate|]. intros Q. apply K in Q. congruence.
  - apply lists_blocks_filter; [exact Hu|]. intros c Hc. destruct (block_closed_ok m H tl (co_id c) Hin (in_map co_id _ _ Hc) Hbd) as (parts & Ep & _ & x & -> & K). unfold parts_of. rewrite Ep.
    destruct x; cbn [is_false]; [split; [discriminate|intros Q; destruct Q; apply K; reflexivity]|]. split; [intros _ Q; apply K in Q; discriminate|reflexivity].
  - intros b Hb. destruct (block_closed_ok m H tl b Hin Hb Hbd) as (parts & Ep & Cp & _). unfold parts_of. rewrite Ep. exact Cp.
Qed.
End Blocks.

Lemma no_active_block : forall tl m, active_ids m BlockT = [] -> brep_inspect_blocks tl m = Ok brep_blocks_default.
Proof. intros tl m E. cbn [active_ids] in E. apply map_eq_nil in E. unfold brep_inspect_blocks, active. rewrite E. reflexivity. Qed.
Lemma some_active_block : forall m, active_ids m BlockT <> [] -> exists c l, active (m_blocks m) = c :: l.
Proof. intros m E. cbn [active_ids] in E. unfold active. destruct (filter co_active (m_blocks m)) as [|c l]; [destruct E; reflexivity|eauto]. Qed.

Lemma blocks_spec : forall tl m, blocks_ok tl m -> active_ids m BlockT <> [] -> exists r, brep_inspect_blocks tl m = Ok r /\ blocks_report tl m r.
Proof.
  intros tl m K HA. assert (H := bo_brep tl m K). destruct (some_active_block m HA) as (c0 & l0 & EA). unfold brep_inspect_blocks. rewrite EA. rewrite <- EA. clear c0 l0 EA.
  destruct (find_not_boundary_ok m H) as (nb & Enb & _ & Knb & Dnb). rewrite Enb. cbn [bind].
  destruct (find_dangling_ok m 0 H tl (bo_inside_block tl m K) nb Knb) as (dl & Edl & Kdl). rewrite Edl. cbn [bind].
  destruct (blocks_links_spec m H) as (nl & Enl & Knl). rewrite Enl. cbn [bind].
  assert (MB : exists closed, (match m_model_boundaries m with [] => Ok true | _ :: _ => brep_boundaries_are_closed m end) = Ok closed /\ (closed = true <-> all_linked m (model_boundary_surfaces m))).
  { destruct (m_model_boundaries m) as [|mb mbs] eqn:E.
    - exists true. split; [reflexivity|]. split; [|reflexivity]. intros _ s t Hs. unfold model_boundary_surfaces in Hs. rewrite E in Hs. destruct Hs.
    - apply model_closed_ok; [exact H|apply (bo_surfaces tl m K)| |apply (bo_bound tl m K)]. destruct (bo_nonempty tl m K) as [Q|Q]; [congruence|exact Q]. }
  destruct MB as (closed & Ec & Kc). rewrite Ec. cbn [bind]. cbv zeta.
  destruct (report_vertices_spec m [unique_vertex_is_part_of_two_blocks_and_no_boundary_surface m; unique_vertex_block_cmvs_count_is_incorrect m;
        brep_invalid_single_surface m nb; surface_with_wrong_relationships_to_block m nb dl; brep_multiple_surfaces_invalid_line m]
      [two_blocks_apart m; block_count_wrong m; only_surface_wrong m; surface_relation_wrong tl m; fun _ => False] brep_blocks_ds) as (rs & E' & F).
  { repeat constructor; intros uv Huv.
    - apply two_blocks_ok, H.
    - apply wrong_count_ok; [exact H|apply (bo_fit tl m K)].
    - apply only_surface_ok; assumption.
    - apply (relationships_ok m uv H tl nb dl Knb Kdl).
    - rewrite multiple_surfaces_silent. exists None. split; [reflexivity|]. split; [congruence|tauto]. }
  { reflexivity. }
  rewrite E'. cbn [bind]. destruct (closedness_spec tl m H (bo_rel_bound tl m K) (bo_inside tl m K)) as (bs & Eb & B1 & B2 & B3). rewrite Eb. cbn [bind].
  inversion F as [|r1 P1 l1 q1 F1 G1]; subst. inversion G1 as [|r2 P2 l2 q2 F2 G2]; subst. inversion G2 as [|r3 P3 l3 q3 F3 G3]; subst. inversion G3 as [|r4 P4 l4 q4 F4 G4]; subst.
  inversion G4 as [|r5 P5 l5 q5 F5 G5]; subst. inversion G5; subst. eexists. split; [reflexivity|].
  constructor; cbn [bb_not_meshed bb_not_linked bb_wrong_boundary bb_not_closed bb_model_boundaries bb_two_blocks bb_wrong_count bb_single_invalid bb_wrong_relationship bb_multiple_invalid]; try assumption.
  - apply blocks_meshes_spec, H.
  - exists (parts_of m). auto.
  - destruct closed; [left; split; [apply Kc|]; reflexivity|right]. split; [|reflexivity]. intros Q. apply Kc in Q. discriminate.
  - destruct F5 as [_ F5]. destruct (ii_issues r5) as [|x l]; [reflexivity|]. exfalso. destruct (proj1 (F5 x) (or_introl eq_refl)) as [_ []].
Qed.
Lemma blocks_ub : forall tl m, brep_ok m -> inside_block_ok tl -> active_ids m BlockT <> [] -> m_model_boundaries m <> [] -> model_boundary_surfaces m = [] ->
  brep_inspect_blocks tl m = UB.
Proof.
  intros tl m H Hi HA HM HS. destruct (some_active_block m HA) as (c0 & l0 & EA). unfold brep_inspect_blocks. rewrite EA. rewrite <- EA. clear c0 l0 EA.
  destruct (find_not_boundary_ok m H) as (nb & Enb & _ & Knb & Dnb). rewrite Enb. cbn [bind]. destruct (find_dangling_ok m 0 H tl Hi nb Knb) as (dl & Edl & Kdl). rewrite Edl. cbn [bind].
  destruct (blocks_links_spec m H) as (nl & Enl & Knl). rewrite Enl. cbn [bind]. destruct (m_model_boundaries m) as [|mb mbs] eqn:E; [congruence|].
  rewrite model_closed_ub by assumption. reflexivity.
Qed.

(** ** The whole BRep *)
Lemma blocks_valid : forall m uv, brep_ok m -> counts_fit m -> decides (brep_blocks_topology_is_valid m uv) (~ two_blocks_apart m uv /\ ~ block_count_wrong m uv).
Proof.
  intros m uv H Hf. unfold brep_blocks_topology_is_valid. eapply decides_ext; [apply (all_pass_decides _ [two_blocks_apart m; block_count_wrong m])|].
  - repeat constructor; [apply two_blocks_ok, H|apply wrong_count_ok; assumption].
  - split.
    + intros K. inversion K as [|? ? K1 Q1]; subst. inversion Q1 as [|? ? K2 Q2]; subst. auto.
    + intros [K1 K2]. repeat constructor; assumption.
Qed.
Lemma brep_meshed_linked_iff : forall m, brep_meshed_components_are_linked m = true <->
  meshed_linked CornerT has_points nb_points0 m (m_corners m) /\ meshed_linked LineT has_points_and_edges nb_points1 m (m_lines m) /\
  meshed_linked SurfaceT has_points_and_polygons nb_points2 m (m_surfaces m) /\ meshed_linked BlockT has_points_and_polyhedra nb_points3 m (m_blocks m).
Proof.
  intros m. unfold brep_meshed_components_are_linked. rewrite andb_true_iff, section_meshed_linked_iff, (meshed_linked_iff _ _ _ _ _ _ _ block_meshed_iff). unfold nb_points3. tauto.
Qed.
Lemma brep_valid_spec : forall tl m, brep_ok m -> lookup_ok tl m -> lines_inspectable m -> counts_fit m ->
  decides (brep_topology_is_valid tl m)
    (0 < nb_unique_vertices m /\
     meshed_linked CornerT has_points nb_points0 m (m_corners m) /\ meshed_linked LineT has_points_and_edges nb_points1 m (m_lines m) /\
     meshed_linked SurfaceT has_points_and_polygons nb_points2 m (m_surfaces m) /\ meshed_linked BlockT has_points_and_polyhedra nb_points3 m (m_blocks m) /\
     bijectively_linked m /\ forall uv, uv < nb_unique_vertices m -> brep_vertex_fine tl m uv).
Proof.
  intros tl m H Hlo Hi Hf. assert (Hu := br_ids m H). unfold brep_topology_is_valid. destruct (Nat.eqb_spec (nb_unique_vertices m) 0) as [E|E].
  { apply decides_bool. split; [discriminate|]. intros [K _]. lia. }
  destruct (brep_meshed_components_are_linked m) eqn:F; cbn [negb].
  2:{ apply decides_bool. split; [discriminate|]. intros (_ & K1 & K2 & K3 & K4 & _). assert (K := proj2 (brep_meshed_linked_iff m) (conj K1 (conj K2 (conj K3 K4)))). congruence. }
  apply brep_meshed_linked_iff in F. destruct F as (F1 & F2 & F3 & F4).
  destruct (brep_links_spec m Hu) as (_ & b & _ & _ & _ & _ & Hb & Hp & _). rewrite Hb. cbn [bind]. destruct b; cbn [negb].
  2:{ apply decides_bool. split; [discriminate|]. intros (_ & _ & _ & _ & _ & K & _). apply Hp in K. discriminate. }
  assert (B := proj1 Hp eq_refl).
  eapply decides_ext; [apply (every_vertex_decides m _
     [(fun uv => ~ several_corners m uv /\ ~ corner_in_block_and_elsewhere m uv /\ ~ corner_without_relation m uv /\ ~ corner_unrelated_to_line m uv /\ ~ embedded_corner_bounding_several m uv);
      (fun uv => ~ line_embedding_wrong m uv /\ ~ only_line_wrong m uv /\ ~ line_relationship_wrong tl m uv /\ ~ lines_without_corner m uv);
      (fun uv => (exists s, active_at m uv SurfaceT s) -> ~ surface_badly_embedded m uv /\ ~ several_surfaces_wrong m uv /\ ~ related_line_vertex_off_border m uv);
      (fun uv => ~ two_blocks_apart m uv /\ ~ block_count_wrong m uv)])|].
  - intros uv Huv. destruct (Hi uv Huv) as [H1 H2]. repeat constructor; [apply brep_corner_valid, H|apply brep_lines_valid; assumption|apply brep_surfaces_valid, H|apply blocks_valid; assumption].
  - unfold brep_vertex_fine. split.
    + intros K. repeat (split; [assumption || lia|]). intros uv Huv. specialize (K uv Huv). inversion K as [|? ? A1 Q1]; subst. inversion Q1 as [|? ? A2 Q2]; subst.
      inversion Q2 as [|? ? A3 Q3]; subst. inversion Q3 as [|? ? A4 Q4]; subst. auto 6.
    + intros (_ & _ & _ & _ & _ & _ & K) uv Huv. destruct (K uv Huv) as (A1 & A2 & A3 & A4). constructor; [exact A1|constructor; [exact A2|constructor; [exact A3|constructor; [exact A4|constructor]]]].
Qed.
Lemma brep_topology_spec : forall tl m, blocks_ok tl m -> lookup_ok tl m -> lines_inspectable m -> exists rc rl rs rb links,
  brep_inspect_corners_topology m = Ok rc /\ brep_inspect_lines_topology tl m = Ok rl /\ brep_inspect_surfaces_topology tl m = Ok rs /\
  brep_inspect_blocks tl m = Ok rb /\ add_unique_vertices_with_wrong_cmv_link m cmv_exists_in_brep no_links = Ok links /\
  inspect_brep_topology tl m = Ok (mkBRepTopology rc rl rs rb links).
Proof.
  intros tl m K Hlo Hi. assert (H := bo_brep tl m K). destruct (brep_corners_spec m H) as (rc & Ec & _). destruct (brep_lines_spec tl m H Hlo Hi) as (rl & El & _). destruct (brep_surfaces_spec tl m H Hlo) as (rs & Es & _).
  destruct (brep_links_spec m (br_ids m H)) as (links & _ & Hk & _).
  assert (exists rb, brep_inspect_blocks tl m = Ok rb) as (rb & Eb).
  { destruct (active_ids m BlockT) as [|b l] eqn:E; [rewrite no_active_block by exact E; eauto|]. destruct (blocks_spec tl m K) as (r & Er & _); [rewrite E; discriminate|eauto]. }
  exists rc, rl, rs, rb, links. repeat (split; [assumption|]). unfold inspect_brep_topology. rewrite Ec, El, Es, Eb, Hk. reflexivity.
Qed.
