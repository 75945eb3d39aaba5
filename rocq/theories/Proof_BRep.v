(** BRep corners and lines. *)
From Coq Require Import String Ascii List Arith NArith ZArith Bool Lia Sorted.
From Verif Require Import Base BaseFacts Model_Issues Types Model_Colocation Model_Topology Model_BRep Spec_Colocation Spec_Maps Spec_Adjacency
  Spec_Topology Spec_BRep Proof_Maps Proof_Colocation Proof_Colocation2 Proof_Colocation3 Proof_Adjacency Proof_Manifold Proof_Degeneration Proof_Topology
  Proof_Topology2 Proof_Topology3 Proof_Topology4.
Import ListNotations.
Open Scope list_scope.

Lemma resolvable_links : forall m, resolvable m -> links_exist m.
Proof.
  intros m H uv t id (v & Hv) _. unfold component_mesh_vertices in Hv. destruct (nth_in_or_default uv (m_cmvs m) []) as [K|K]; [|rewrite K in Hv; destruct Hv].
  destruct (H _ _ K Hv) as (p & Hp). inversion Hp; subst; cbn; apply in_map; assumption.
Qed.
Lemma brep_links_exist : forall m, brep_ok m -> links_exist m.
Proof. intros m H. apply resolvable_links, (br_links m H). Qed.
(** ** Counting *)
Lemma counts_filter : forall A (P : A -> Prop) (p : A -> bool) l n, (forall x, In x l -> (p x = true <-> P x)) -> (counts P l n <-> length (filter p l) = n).
Proof.
  intros A P p l. induction l as [|x l IH]; intros n H; cbn.
  - split; [intros K; inversion K; reflexivity|intros <-; constructor].
  - assert (H' : forall y, In y l -> (p y = true <-> P y)) by (intros y Hy; apply H; right; exact Hy). specialize (H x (or_introl eq_refl)).
    destruct (p x) eqn:E; cbn.
    + split.
      * intros K. inversion K; subst; [f_equal; apply IH; assumption|tauto].
      * intros <-. constructor; [tauto|]. apply IH; [exact H'|reflexivity].
    + assert (~ P x) by (intros K; apply H in K; discriminate). split.
      * intros K. inversion K; subst; [contradiction|apply IH; assumption].
      * intros <-. constructor; [assumption|]. apply IH; [exact H'|reflexivity].
Qed.
Lemma add32_small : forall a b, (N.of_nat a + N.of_nat b < 2 ^ 32)%N -> add32 (N.of_nat a) (N.of_nat b) = N.of_nat (a + b).
Proof. intros a b H. unfold add32. rewrite <- Nnat.Nat2N.inj_add in *. apply u32_small. exact H. Qed.
Lemma add32_one : forall n, (N.of_nat (n + 1) < 2 ^ 32)%N -> add32 (N.of_nat n) 1 = N.of_nat (S n).
Proof. intros n H. unfold add32. rewrite u32_small; lia. Qed.
Lemma count_id_gen : forall l id n, (N.of_nat (n + length l) < 2 ^ 32)%N ->
  fold_left (fun n c => if Nat.eqb (cmv_id c) id then add32 n 1 else n) l (N.of_nat n) =
  N.of_nat (n + length (filter (fun c => Nat.eqb (cmv_id c) id) l)).
Proof.
  induction l as [|c l IH]; intros id n H; cbn [fold_left filter length]; [f_equal; lia|]. cbn [length] in H. destruct (Nat.eqb (cmv_id c) id).
  - rewrite (add32_one n) by lia. rewrite IH by lia. cbn [length]. f_equal. lia.
  - apply IH. lia.
Qed.
Lemma count_id_ok : forall l id, below_2_32 (length l) -> count_id l id = N.of_nat (length (filter (fun c => Nat.eqb (cmv_id c) id) l)).
Proof. intros l id H. unfold count_id. change 0%N with (N.of_nat 0). apply count_id_gen. cbn. exact H. Qed.

Section Checks.
Context (m : Model) (uv : nat).
Hypothesis Hu : unique_ids m.
Hypothesis Hl : links_exist m.
Notation cmvs := (component_mesh_vertices m uv).

Lemma inside_dec : forall a b, inside m a b \/ ~ inside m a b.
Proof. intros a b. destruct (is_internal m a b) eqn:E; [left; apply is_internal_iff; exact E|right; intros K; apply is_internal_iff in K; congruence]. Qed.
Lemma not_bounds : forall a b, is_boundary m a b = false <-> ~ bounds m a b.
Proof. intros a b. rewrite <- is_boundary_iff. destruct (is_boundary m a b); intuition congruence. Qed.
Lemma not_inside : forall a b, is_internal m a b = false <-> ~ inside m a b.
Proof. intros a b. rewrite <- is_internal_iff. destruct (is_internal m a b); intuition congruence. Qed.

(** ** Corners *)
Hypothesis He : forall a e, In e (embeddings m a) -> cid_type e <> OtherT -> In (cid_id e) (component_ids m (cid_type e)).
Lemma multiply_embedded_ok : reports_iff (corner_is_multiply_embedded m uv) (corner_in_block_and_elsewhere m uv).
Proof.
  unfold corner_is_multiply_embedded. eapply reports_ext.
  - apply (first_some_reports _ _ (fun c => active_cmv m CornerT c = true /\ 1 < nb_embeddings m (cmv_id c) /\
      exists e, In e (embeddings m (cmv_id c)) /\ (cid_type e = BlockT /\ In (cid_id e) (active_ids m BlockT)))).
    intros c Hc. rewrite (act m uv Hu Hl) by (discriminate || exact Hc). cbn [bind].
    destruct (active_cmv m CornerT c) eqn:E; cbn [andb]; [|apply reports_none; intros [K _]; discriminate].
    destruct (Nat.ltb 1 (nb_embeddings m (cmv_id c))) eqn:F; [|apply reports_none; intros (_ & K & _); apply Nat.ltb_ge in F; lia]. apply Nat.ltb_lt in F.
    eapply reports_ext; [apply (first_some_reports _ _ (fun e => cid_type e = BlockT /\ In (cid_id e) (active_ids m BlockT)))|].
    + intros e Hin. destruct (ctype_eqb (cid_type e) BlockT) eqn:G; [|apply reports_none; intros [K _]; apply ctype_eqb_eq in K; congruence].
      apply ctype_eqb_eq in G. assert (Hex := He _ _ Hin ltac:(congruence)). rewrite G in Hex. rewrite kind_is_active_ok by assumption. cbn [bind].
      destruct (activeb m BlockT (cid_id e)) eqn:A.
      * destruct (named_active m uv Hl CornerT c ltac:(discriminate) Hc E) as [s Hs]. rewrite Hs. cbn [bind]. apply reports_some. split; [exact G|]. apply activeb_iff, A.
      * apply reports_none. intros [_ K]. apply activeb_iff in K. congruence.
    + split; [intros K; auto|tauto].
  - unfold corner_in_block_and_elsewhere. split.
    + intros (c & Hc & Ha & H1 & e & H2 & H3 & H4). exists (cmv_id c), e. split; [apply (active_cmv_at m uv _ c Hc Ha)|]. auto.
    + intros (c & e & Hc & H). apply active_at_iff in Hc. destruct Hc as (d & Hd & Ha & <-). exists d. split; [exact Hd|]. split; [exact Ha|]. split; [tauto|].
      exists e. tauto.
Qed.
Hypothesis Hb : below_2_32 (length cmvs).
Lemma linked_twice_count : forall c, N.eqb (count_id cmvs c) 2 = true <-> counts (fun k => cid_id (cmv_component k) = c) cmvs 2.
Proof.
  intros c. rewrite count_id_ok by exact Hb. rewrite (counts_filter _ _ (fun k => Nat.eqb (cmv_id k) c)); [|intros x _; apply Nat.eqb_eq].
  rewrite N.eqb_eq. lia.
Qed.
Lemma unrelated_line_ok : reports_iff (brep_corner_is_part_of_line_but_not_boundary m uv) (corner_unrelated_to_line m uv).
Proof.
  unfold brep_corner_is_part_of_line_but_not_boundary. eapply reports_ext.
  - apply (first_some_reports _ _ (fun c => active_cmv m CornerT c = true /\ exists d, In d cmvs /\ (active_cmv m LineT d = true /\ ~ bounds m (cmv_id c) (cmv_id d) /\
      ~ (inside m (cmv_id c) (cmv_id d) /\ counts (fun k => cid_id (cmv_component k) = cmv_id c) cmvs 2)))).
    intros c Hc. rewrite (act m uv Hu Hl) by (discriminate || exact Hc). cbn [bind]. destruct (active_cmv m CornerT c) eqn:E; cbn [negb];
      [|apply reports_none; intros [K _]; discriminate].
    eapply reports_ext; [apply (first_some_reports _ _ (fun d => active_cmv m LineT d = true /\ ~ bounds m (cmv_id c) (cmv_id d) /\
      ~ (inside m (cmv_id c) (cmv_id d) /\ counts (fun k => cid_id (cmv_component k) = cmv_id c) cmvs 2)))|tauto].
    intros d Hd. rewrite (act m uv Hu Hl) by (discriminate || exact Hd). cbn [bind]. destruct (active_cmv m LineT d) eqn:F; cbn [negb];
      [|apply reports_none; intros [K _]; discriminate].
    destruct (named_active m uv Hl CornerT c ltac:(discriminate) Hc E) as [s Hs]. rewrite Hs.
    destruct (named_active m uv Hl LineT d ltac:(discriminate) Hd F) as [s' Hs']. rewrite Hs'. cbn [bind].
    destruct (is_boundary m (cmv_id c) (cmv_id d)) eqn:G; [apply reports_none; apply is_boundary_iff in G; tauto|]. apply not_bounds in G.
    destruct (is_internal m (cmv_id c) (cmv_id d)) eqn:I.
    + apply is_internal_iff in I. destruct (N.eqb (count_id cmvs (cmv_id c)) 2) eqn:J; cbn [negb].
      * apply reports_none. apply linked_twice_count in J. tauto.
      * apply reports_some. split; [reflexivity|]. split; [exact G|]. intros [_ K]. apply linked_twice_count in K. congruence.
    + apply not_inside in I. apply reports_some. tauto.
  - unfold corner_unrelated_to_line. split.
    + intros (c & Hc & Ha & d & Hd & Ha' & H). exists (cmv_id c), (cmv_id d). split; [apply (active_cmv_at m uv _ c Hc Ha)|].
      split; [apply (active_cmv_at m uv _ d Hd Ha')|exact H].
    + intros (c & l & Hc & Hl' & H). apply active_at_iff in Hc, Hl'. destruct Hc as (c' & Hc' & Ha & <-), Hl' as (d & Hd & Ha' & <-). exists c'. eauto 8.
Qed.
Definition brep_corner_fine (c : uuid) : Prop :=
  (nb_embeddings m c = 0 -> 1 <= nb_incidences m c) /\ (1 <= nb_embeddings m c -> nb_incidences m c <= 1).
Lemma brep_corner_loop_ok : forall l found, (forall c, In c l -> In c cmvs) ->
  decides (brep_corner_loop m found l)
    (~ two_of (active_cmv m CornerT) l /\ (found = true -> forall c, In c l -> active_cmv m CornerT c = false) /\
     forall c, In c l -> active_cmv m CornerT c = true -> brep_corner_fine (cmv_id c)).
Proof.
  induction l as [|c l IH]; intros found Hin; cbn [brep_corner_loop].
  - exists true. split; [reflexivity|]. split; [intros _|reflexivity]. split; [apply two_of_nil|]. split; [intros _ c []|intros c []].
  - rewrite (act m uv Hu Hl) by (discriminate || (apply Hin; left; reflexivity)). cbn [bind].
    assert (Hin' : forall c, In c l -> In c cmvs) by (intros d Hd; apply Hin; right; exact Hd).
    destruct (active_cmv m CornerT c) eqn:E; cbn [negb].
    + destruct found.
      { apply decides_bool. split; [discriminate|]. intros (_ & K & _). specialize (K eq_refl c (or_introl eq_refl)). congruence. }
      assert (BAD : ~ brep_corner_fine (cmv_id c) -> decides (Ok false) (~ two_of (active_cmv m CornerT) (c :: l) /\
        (false = true -> forall c0, In c0 (c :: l) -> active_cmv m CornerT c0 = false) /\
        (forall c0, In c0 (c :: l) -> active_cmv m CornerT c0 = true -> brep_corner_fine (cmv_id c0)))).
      { intros K. apply decides_bool. split; [discriminate|]. intros (_ & _ & F). exfalso. apply K, F; [left; reflexivity|exact E]. }
      assert (GOOD : brep_corner_fine (cmv_id c) -> decides (brep_corner_loop m true l) (~ two_of (active_cmv m CornerT) (c :: l) /\
        (false = true -> forall c0, In c0 (c :: l) -> active_cmv m CornerT c0 = false) /\
        (forall c0, In c0 (c :: l) -> active_cmv m CornerT c0 = true -> brep_corner_fine (cmv_id c0)))).
      { intros FINE. eapply decides_ext; [apply (IH true Hin')|]. rewrite two_of_cons, E. split.
        - intros (K1 & K2 & K3). split.
          + intros [K|(_ & d & Hd & Pd)]; [tauto|]. specialize (K2 eq_refl d Hd). congruence.
          + split; [discriminate|]. intros d [<-|Hd] Ha; [exact FINE|apply K3; assumption].
        - intros (K1 & _ & K3). split; [tauto|]. split; [|intros d Hd; apply K3; right; exact Hd]. intros _ d Hd.
          destruct (active_cmv m CornerT d) eqn:F; [|reflexivity]. exfalso. apply K1. right. split; [reflexivity|]. eauto. }
      unfold brep_corner_fine in *.
      destruct (Nat.eqb_spec (nb_embeddings m (cmv_id c)) 0) as [E1|E1].
      * destruct (Nat.eqb_spec (nb_incidences m (cmv_id c)) 0) as [E2|E2]; [apply BAD; lia|apply GOOD; lia].
      * destruct (Nat.ltb_spec 1 (nb_incidences m (cmv_id c))) as [E2|E2]; [apply BAD; lia|apply GOOD; lia].
    + eapply decides_ext; [apply (IH found Hin')|]. rewrite two_of_cons, E. split.
      * intros (K1 & K2 & K3). split; [intros [K|(K & _)]; [tauto|discriminate]|]. split.
        -- intros Hf d [<-|Hd]; [exact E|apply K2; assumption].
        -- intros d [<-|Hd] Ha; [congruence|apply K3; assumption].
      * intros (K1 & K2 & K3). split; [tauto|]. split; [intros Hf d Hd; apply K2; [exact Hf|right; exact Hd]|intros d Hd; apply K3; right; exact Hd].
Qed.
Lemma brep_corner_valid_ok : decides (brep_corner_topology_is_valid m uv)
  (~ several_corners m uv /\ ~ corner_in_block_and_elsewhere m uv /\ ~ corner_without_relation m uv /\ ~ corner_unrelated_to_line m uv /\
   ~ embedded_corner_bounding_several m uv).
Proof.
  unfold brep_corner_topology_is_valid. destruct (brep_corner_loop_ok cmvs false (fun c H => H)) as (b & Hbl & Hp). rewrite Hbl. cbn [bind].
  assert (Q : b = true <-> ~ several_corners m uv /\ ~ corner_without_relation m uv /\ ~ embedded_corner_bounding_several m uv).
  { rewrite Hp. unfold several_corners, corner_without_relation, embedded_corner_bounding_several. rewrite linked_twice_iff. split.
    - intros (K1 & _ & K3). assert (F : forall c, active_at m uv CornerT c -> brep_corner_fine c).
      { intros c Hc. apply active_at_iff in Hc. destruct Hc as (d & Hd & Ha & <-). apply K3; assumption. }
      split; [exact K1|]. split; intros (c & Hc & H1 & H2); destruct (F c Hc); lia.
    - intros (K1 & K2 & K3). split; [exact K1|]. split; [discriminate|]. intros c Hc Ha. assert (A := active_cmv_at m uv _ c Hc Ha). split.
      + intros H. destruct (Nat.eq_dec (nb_incidences m (cmv_id c)) 0); [exfalso; apply K2; eauto|lia].
      + intros H. destruct (le_lt_dec (nb_incidences m (cmv_id c)) 1); [assumption|exfalso; apply K3; eauto]. }
  destruct b; cbn [negb].
  - eapply decides_ext; [apply (all_pass_decides _ [corner_in_block_and_elsewhere m; corner_unrelated_to_line m])|].
    + repeat constructor; [apply multiply_embedded_ok|apply unrelated_line_ok].
    + destruct (proj1 Q eq_refl) as (Q1 & Q2 & Q3). split.
      * intros K. inversion K as [|? ? A1 B1]; subst. inversion B1; subst. tauto.
      * intros K. repeat constructor; tauto.
  - apply decides_bool. split; [discriminate|]. intros K. apply Q. tauto.
Qed.
End Checks.
