(** Tasks on separate regions. *)
From Coq Require Import String Ascii List Arith NArith ZArith Bool Lia.
From Verif Require Import Base Model_Issues Types Model_Hash Model_Degeneration Model_Intersections Model_Topology Model_BRep Model_Blocks Model_Results
  Model_Parallel Spec_Parallel Proof_Parallel.
Import ListNotations.

Record lawful {M A} (r : region M A) : Prop := mkLawful {
  law_get : forall m v, get r (set r v m) = v;
  law_set : forall m v w, set r v (set r w m) = set r v m;
  law_same : forall m, set r (get r m) m = m }.
Lemma embed_acts : forall M A (r : region M A) p a, acts (embed r p) a -> exists b, acts p b /\ a = on r b.
Proof.
  intros M A r. induction p as [o|b|p IHp q IHq|p IHp q IHq|p IHp]; intros a H; cbn [embed] in H; inversion H; subst;
    try (exists b; split; [constructor|reflexivity]);
    try (match goal with K : acts (embed r p) a |- _ => destruct (IHp a K) as (c & Hc & ->) end; exists c; split; [constructor; exact Hc|reflexivity]).
  - match goal with K : acts (embed r q) a |- _ => destruct (IHq a K) as (c & Hc & ->) end. exists c. split; [apply acts_seq_r; exact Hc|reflexivity].
  - match goal with K : acts (embed r q) a |- _ => destruct (IHq a K) as (c & Hc & ->) end. exists c. split; [apply acts_par_r; exact Hc|reflexivity].
Qed.
Lemma on_commute : forall M A (r : region M A) a b, lawful r -> commute a b -> commute (on r a) (on r b).
Proof.
  intros M A r a b Hr H m. unfold on. destruct (H (get r m)) as (H1 & H2 & H3).
  destruct (a (get r m)) as [o v] eqn:E1. destruct (b (get r m)) as [o' v'] eqn:E2. cbn [fst snd] in *. rewrite !(law_get r Hr).
  destruct (a v') as [o2 w] eqn:E3. destruct (b v) as [o3 w'] eqn:E4. cbn [fst snd] in *. subst. rewrite !(law_set r Hr). auto.
Qed.
Lemma embed_independent : forall M A (r : region M A) p, lawful r -> independent p -> independent (embed r p).
Proof.
  intros M A r p Hr. induction p as [o|b|p IHp q IHq|p IHp q IHq|p IHp]; cbn [embed independent]; try tauto.
  intros (H1 & H2 & H3). split; [auto|]. split; [auto|]. intros a b Ha Hb. apply embed_acts in Ha as (a' & Ha & ->). apply embed_acts in Hb as (b' & Hb & ->).
  apply on_commute; auto.
Qed.
Lemma embed_in_sequence : forall M A (r : region M A) p m, lawful r -> in_sequence (embed r p) m =
  (fst (in_sequence p (get r m)), set r (snd (in_sequence p (get r m))) m).
Proof.
  intros M A r p m Hr. revert m. induction p as [o|b|p IHp q IHq|p IHp q IHq|p IHp]; intros m; cbn [embed in_sequence].
  - cbn. rewrite (law_same r Hr). reflexivity.
  - unfold on. destruct (b (get r m)) as [o v]. reflexivity.
  - rewrite IHp. destruct (in_sequence p (get r m)) as [o v]. cbn [fst snd]. destruct o; try reflexivity.
    rewrite IHq, (law_get r Hr). destruct (in_sequence q v) as [o' w]. cbn [fst snd]. rewrite (law_set r Hr). reflexivity.
  - rewrite IHp. destruct (in_sequence p (get r m)) as [o v]. cbn [fst snd].
    rewrite IHq, (law_get r Hr). destruct (in_sequence q v) as [o' w]. cbn [fst snd]. rewrite (law_set r Hr). reflexivity.
  - rewrite IHp. destruct (in_sequence p (get r m)) as [o v]. reflexivity.
Qed.
Lemma embed_disjoint : forall M A B (r : region M A) (s : region M B) p q, disjoint r s -> forall a b, acts (embed r p) a -> acts (embed s q) b -> commute a b.
Proof.
  intros M A B r s p q H a b Ha Hb. apply embed_acts in Ha as (a' & _ & ->). apply embed_acts in Hb as (b' & _ & ->). apply disjoint_commute, H.
Qed.
Lemma fst_lawful : forall A B, lawful (@fst_region A B).
Proof. intros A B. split; intros [a b]; reflexivity. Qed.
Lemma snd_lawful : forall A B, lawful (@snd_region A B).
Proof. intros A B. split; intros [a b]; reflexivity. Qed.

Section Regions.
Context {F1 F2 F3 F4 F5 F6 F7 F8 : Type}.
Notation M := (Mem8 F1 F2 F3 F4 F5 F6 F7 F8).
Lemma g1_lawful : lawful (g1 : region M F1). Proof. split; intros []; reflexivity. Qed.
Lemma g2_lawful : lawful (g2 : region M F2). Proof. split; intros []; reflexivity. Qed.
Lemma g3_lawful : lawful (g3 : region M F3). Proof. split; intros []; reflexivity. Qed.
Lemma g4_lawful : lawful (g4 : region M F4). Proof. split; intros []; reflexivity. Qed.
Lemma g5_lawful : lawful (g5 : region M F5). Proof. split; intros []; reflexivity. Qed.
Lemma g6_lawful : lawful (g6 : region M F6). Proof. split; intros []; reflexivity. Qed.
Lemma g7_lawful : lawful (g7 : region M F7). Proof. split; intros []; reflexivity. Qed.
Lemma g8_lawful : lawful (g8 : region M F8). Proof. split; intros []; reflexivity. Qed.
Hint Resolve g1_lawful g2_lawful g3_lawful g4_lawful g5_lawful g6_lawful g7_lawful g8_lawful : regions.
Ltac apart := intros; eapply embed_disjoint; [|eassumption|eassumption]; repeat split; intros []; reflexivity.
Ltac independence := apply invoke_independent; cbn [tasks_independent In];
  repeat match goal with
  | |- True => exact I
  | |- _ /\ _ => split
  | |- independent (embed _ _) => apply embed_independent; [auto with regions|assumption]
  | |- forall q, _ -> _ => let K := fresh in intros ? K; repeat (destruct K as [<-|K]; [apart|]); destruct K
  end.
Variables (p1 : proc F1) (p2 : proc F2) (p3 : proc F3) (p4 : proc F4) (p5 : proc F5) (p6 : proc F6) (p7 : proc F7) (p8 : proc F8).
Hypotheses (I1 : independent p1) (I2 : independent p2) (I3 : independent p3) (I4 : independent p4) (I5 : independent p5) (I6 : independent p6)
  (I7 : independent p7) (I8 : independent p8).
Lemma invoke2_independent : independent (invoke2 p1 p2 : proc M).
Proof. unfold invoke2. independence. Qed.
Lemma invoke3_independent : independent (invoke3 p1 p2 p3 : proc M).
Proof. unfold invoke3. independence. Qed.
Lemma invoke4_independent : independent (invoke4 p1 p2 p3 p4 : proc M).
Proof. unfold invoke4. independence. Qed.
Lemma invoke7_independent : independent (invoke7 p1 p2 p3 p4 p5 p6 p7 : proc M).
Proof. unfold invoke7. independence. Qed.
Lemma invoke8_independent : independent (invoke8 p1 p2 p3 p4 p5 p6 p7 p8 : proc M).
Proof. unfold invoke8. independence. Qed.
End Regions.

(** ** How the calls end *)
Lemma join_ub_r : forall o, join o UB = UB.
Proof. intros [[]|e|]; reflexivity. Qed.
Lemma invoked : forall l, fold_right join (Ok tt) l = parallel_invoke l.
Proof.
  assert (K : forall l, existsb (fun o : outcome unit => match o with UB => true | _ => false end) l = true <-> fold_right join (Ok tt) l = UB).
  { induction l as [|[[]|e|] l IH]; cbn [existsb fold_right orb].
    - split; intros; discriminate.
    - rewrite IH. destruct (fold_right join (Ok tt) l) as [[]|e|]; cbn; split; intros; congruence.
    - rewrite IH. destruct (fold_right join (Ok tt) l) as [[]|e'|]; cbn; split; intros; congruence.
    - split; reflexivity. }
  induction l as [|[[]|e|] l IH]; cbn [fold_right parallel_invoke].
  - reflexivity.
  - rewrite <- IH. destruct (fold_right join (Ok tt) l) as [[]|e|]; reflexivity.
  - destruct (existsb _ l) eqn:E.
    + apply K in E. rewrite E. reflexivity.
    + destruct (fold_right join (Ok tt) l) as [[]|e'|] eqn:E2; try reflexivity. rewrite <- K in E2. congruence.
  - destruct (fold_right join (Ok tt) l) as [[]|e|]; reflexivity.
Qed.
Lemma caught : forall l, catch (parallel_invoke l) = parallel_invoke_caught l.
Proof.
  induction l as [|[[]|e|] l IH]; cbn [parallel_invoke parallel_invoke_caught]; try reflexivity; try exact IH.
  destruct (existsb _ l); [reflexivity|]. destruct e; reflexivity.
Qed.
Section Values.
Context {F1 F2 F3 F4 F5 F6 F7 F8 : Type}.
Notation M := (Mem8 F1 F2 F3 F4 F5 F6 F7 F8).
Variables (p1 : proc F1) (p2 : proc F2) (p3 : proc F3) (p4 : proc F4) (p5 : proc F5) (p6 : proc F6) (p7 : proc F7) (p8 : proc F8) (m : M).
Definition e1 := fst (in_sequence p1 (v1 m)).
Definition e2 := fst (in_sequence p2 (v2 m)).
Definition e3 := fst (in_sequence p3 (v3 m)).
Definition e4 := fst (in_sequence p4 (v4 m)).
Definition e5 := fst (in_sequence p5 (v5 m)).
Definition e6 := fst (in_sequence p6 (v6 m)).
Definition e7 := fst (in_sequence p7 (v7 m)).
Definition e8 := fst (in_sequence p8 (v8 m)).
Definition w1 := snd (in_sequence p1 (v1 m)).
Definition w2 := snd (in_sequence p2 (v2 m)).
Definition w3 := snd (in_sequence p3 (v3 m)).
Definition w4 := snd (in_sequence p4 (v4 m)).
Definition w5 := snd (in_sequence p5 (v5 m)).
Definition w6 := snd (in_sequence p6 (v6 m)).
Definition w7 := snd (in_sequence p7 (v7 m)).
Definition w8 := snd (in_sequence p8 (v8 m)).
Ltac sequence :=
  rewrite invoke_in_sequence; cbn [all_in_sequence]; rewrite <- invoked; cbn [fold_right];
  repeat (rewrite embed_in_sequence by auto using g1_lawful, g2_lawful, g3_lawful, g4_lawful, g5_lawful, g6_lawful, g7_lawful, g8_lawful); reflexivity.
Lemma invoke2_value : in_sequence (invoke2 p1 p2) m = (parallel_invoke [e1; e2], mkMem8 w1 w2 (v3 m) (v4 m) (v5 m) (v6 m) (v7 m) (v8 m)).
Proof. unfold invoke2. sequence. Qed.
Lemma invoke3_value : in_sequence (invoke3 p1 p2 p3) m = (parallel_invoke [e1; e2; e3], mkMem8 w1 w2 w3 (v4 m) (v5 m) (v6 m) (v7 m) (v8 m)).
Proof. unfold invoke3. sequence. Qed.
Lemma invoke4_value : in_sequence (invoke4 p1 p2 p3 p4) m = (parallel_invoke [e1; e2; e3; e4], mkMem8 w1 w2 w3 w4 (v5 m) (v6 m) (v7 m) (v8 m)).
Proof. unfold invoke4. sequence. Qed.
Lemma invoke7_value : in_sequence (invoke7 p1 p2 p3 p4 p5 p6 p7) m =
  (parallel_invoke [e1; e2; e3; e4; e5; e6; e7], mkMem8 w1 w2 w3 w4 w5 w6 w7 (v8 m)).
Proof. unfold invoke7. sequence. Qed.
Lemma invoke8_value : in_sequence (invoke8 p1 p2 p3 p4 p5 p6 p7 p8) m =
  (parallel_invoke [e1; e2; e3; e4; e5; e6; e7; e8], mkMem8 w1 w2 w3 w4 w5 w6 w7 w8).
Proof. unfold invoke8. sequence. Qed.
End Values.

(** ** Tasks that compute *)
Lemma computes_status : forall L R (p : proc (L * R)) l r o, computes p l r o -> fst (in_sequence p (l, r)) = status o.
Proof. intros L R p l r [v|e|] [_ H]; cbn in *; [destruct H as [l' ->]; reflexivity|exact H|exact H]. Qed.
Lemma computes_value : forall L R (p : proc (L * R)) l r v, computes p l r (Ok v) -> snd (snd (in_sequence p (l, r))) = v.
Proof. intros L R p l r v [_ [l' ->]]. reflexivity. Qed.
Lemma leaves_value : forall L R (p : proc (L * R)) l r o, computes_or_leaves p l r o -> o <> UB -> snd (snd (in_sequence p (l, r))) = assigned r o.
Proof. intros L R p l r [v|e|] [H K] N; cbn [assigned]; [apply computes_value, H|apply (K e), eq_refl|contradiction]. Qed.
Lemma gives : forall M R (p : proc M) m (read : M -> R) o, independent p ->
  fst (in_sequence p m) = status o -> (forall v, o = Ok v -> read (snd (in_sequence p m)) = v) -> always_gives p m read o.
Proof.
  intros M R p m read o I H V s m' E. apply every_schedule in E; [|exact I]. rewrite E in *. cbn [fst snd] in *. subst s.
  destruct o as [v|e|]; cbn; [split; [reflexivity|apply V, eq_refl]|reflexivity|reflexivity].
Qed.
(** a program that always gives a value is a task *)
Lemma assigned_computes : forall L R (p : proc L) (value : L -> R) l r o, independent p ->
  fst (in_sequence p l) = status o -> (forall v, o = Ok v -> value (snd (in_sequence p l)) = v) -> computes_or_leaves (assign_result p value) l r o.
Proof.
  intros L R p value l r o I H V. unfold assign_result.
  assert (K : in_sequence (Seq (embed fst_region p) (Act (fun m => (Ok tt, (fst m, value (fst m)))))) (l, r) =
    match o with Ok v => (Ok tt, (snd (in_sequence p l), v)) | _ => (status o, (snd (in_sequence p l), r)) end).
  { cbn [in_sequence]. rewrite embed_in_sequence by apply fst_lawful. cbn [get fst_region fst set snd]. rewrite H.
    destruct o as [v|e|]; cbn; [rewrite (V v eq_refl)|idtac|idtac]; reflexivity. }
  split.
  - split; [cbn [independent]; split; [apply embed_independent; [apply fst_lawful|exact I]|exact Logic.I]|].
    rewrite K. destruct o as [v|e|]; cbn; [eexists; reflexivity|reflexivity|reflexivity].
  - intros e ->. rewrite K. reflexivity.
Qed.
Lemma bind_ok : forall A (o : outcome A), status o = Ok tt -> exists v, o = Ok v.
Proof. intros A [v|e|] H; try discriminate H. exists v. reflexivity. Qed.
Lemma invoke_ok : forall o l, parallel_invoke (o :: l) = Ok tt -> o = Ok tt /\ parallel_invoke l = Ok tt.
Proof. intros [[]|e|] l H; cbn in H; [auto| |discriminate H]. destruct (existsb _ l); discriminate H. Qed.
