(** Every execution of independent tasks is equivalent to the sequential one. *)
From Coq Require Import String Ascii List Arith NArith ZArith Bool Lia.
From Verif Require Import Base Model_Parallel Spec_Parallel.
Import ListNotations.

Section Parallel.
Context {M : Type}.
Implicit Types (p q : proc M) (a b : action M).

(** an action that commutes with those of [p] can be moved before or after [p] *)
Lemma commute_in_sequence : forall p b, (forall a, acts p a -> commute a b) -> commute (in_sequence p) b.
Proof.
  induction p as [o|a|p IHp q IHq|p IHp q IHq|p IHp]; intros b H m; cbn [in_sequence].
  - cbn. auto.
  - exact (H a (acts_act a) m).
  - assert (Hp : forall a, acts p a -> commute a b) by (intros a Ha; apply H; constructor; exact Ha).
    assert (Hq : forall a, acts q a -> commute a b) by (intros a Ha; apply H; apply acts_seq_r; exact Ha).
    pose proof (IHp b Hp m) as (P1 & P2 & P3). destruct (in_sequence p m) as [o m1] eqn:E1. cbn [fst snd] in *.
    destruct (in_sequence p (snd (b m))) as [o2 m2] eqn:E2. cbn [fst snd] in *. subst o2.
    destruct o; cbn [fst snd]; auto. pose proof (IHq b Hq m1) as (Q1 & Q2 & Q3). rewrite P2, P3 in *. auto.
  - assert (Hp : forall a, acts p a -> commute a b) by (intros a Ha; apply H; constructor; exact Ha).
    assert (Hq : forall a, acts q a -> commute a b) by (intros a Ha; apply H; apply acts_par_r; exact Ha).
    pose proof (IHp b Hp m) as (P1 & P2 & P3). destruct (in_sequence p m) as [o m1] eqn:E1. cbn [fst snd] in *.
    destruct (in_sequence p (snd (b m))) as [o2 m2] eqn:E2. cbn [fst snd] in *. subst o2.
    pose proof (IHq b Hq m1) as (Q1 & Q2 & Q3). rewrite P2, P3 in *.
    destruct (in_sequence q m1) as [o3 m3]. destruct (in_sequence q m2) as [o4 m4]. cbn [fst snd] in *. subst. auto.
  - assert (Hp : forall a, acts p a -> commute a b) by (intros a Ha; apply H; constructor; exact Ha).
    pose proof (IHp b Hp m) as (P1 & P2 & P3). destruct (in_sequence p m) as [o m1]. destruct (in_sequence p (snd (b m))) as [o2 m2].
    cbn [fst snd] in *. subst. auto.
Qed.
Lemma step_acts : forall p l p', step p l p' -> (forall a, acts p' a -> acts p a) /\ (forall a o, l = Some (a, o) -> acts p a).
Proof.
  intros p l p' H. induction H as [a o|p p' q l H [IH1 IH2]|q|e q|q|p p' q l H [IH1 IH2]|p q q' l H [IH1 IH2]|o o'|p p' l H [IH1 IH2]|o]; split; intros b K.
  - inversion K.
  - intros E. injection E as -> _. constructor.
  - inversion K; subst; [constructor; auto|apply acts_seq_r; assumption].
  - intros E. constructor. eauto.
  - apply acts_seq_r, K.
  - intros E. discriminate E.
  - inversion K.
  - intros E. discriminate E.
  - inversion K.
  - intros E. discriminate E.
  - inversion K; subst; [constructor; auto|apply acts_par_r; assumption].
  - intros E. constructor. eauto.
  - inversion K; subst; [constructor; auto|apply acts_par_r; auto].
  - intros E. apply acts_par_r. eauto.
  - inversion K.
  - intros E. discriminate E.
  - inversion K; subst. constructor. auto.
  - intros E. constructor. eauto.
  - inversion K.
  - intros E. discriminate E.
Qed.
Lemma step_independent : forall p l p', step p l p' -> independent p -> independent p'.
Proof.
  intros p l p' H. induction H; cbn [independent]; try tauto.
  - intros (H1 & H2 & H3). split; [auto|]. split; [exact H2|]. intros a b Ha Hb. apply H3; [apply (step_acts _ _ _ H), Ha|exact Hb].
  - intros (H1 & H2 & H3). split; [auto|]. split; [auto|]. intros a b Ha Hb. apply H3; [exact Ha|apply (step_acts _ _ _ H), Hb].
Qed.
(** a step does not change the sequential result *)
Lemma step_silent : forall p l p', step p l p' -> l = None -> forall m, in_sequence p' m = in_sequence p m.
Proof.
  intros p l p' H. induction H; intros E m; cbn [in_sequence]; try discriminate E; try reflexivity.
  - rewrite (IHstep E). reflexivity.
  - rewrite (IHstep E). reflexivity.
  - destruct (in_sequence p m) as [o m1]. rewrite (IHstep E). reflexivity.
  - rewrite (IHstep E). reflexivity.
Qed.
Lemma step_action : forall p l p', step p l p' -> independent p -> forall a o m m', l = Some (a, o) -> a m = (o, m') -> in_sequence p' m' = in_sequence p m.
Proof.
  intros p l p' H. induction H; intros I c o1 m m' E Ha; cbn [in_sequence independent] in *; try discriminate E.
  - injection E as -> ->. symmetry. exact Ha.
  - rewrite (IHstep (proj1 I) _ _ _ _ E Ha). reflexivity.
  - rewrite (IHstep (proj1 I) _ _ _ _ E Ha). reflexivity.
  - destruct I as (I1 & I2 & I3). subst l. pose proof (commute_in_sequence p c) as K.
    assert (Hc : forall a, acts p a -> commute a c) by (intros a Hp; apply I3; [exact Hp|apply (proj2 (step_acts _ _ _ H) c o1), eq_refl]).
    destruct (K Hc m) as (K1 & K2 & K3). rewrite Ha in *. cbn [fst snd] in *.
    destruct (in_sequence p m) as [o m1]. destruct (in_sequence p m') as [o2 m2]. cbn [fst snd] in *. subst o2.
    destruct (c m1) as [o3 m3] eqn:E3. cbn [fst snd] in *. subst o3 m3. rewrite (IHstep I2 c o1 m1 m2 eq_refl E3). reflexivity.
  - rewrite (IHstep I _ _ _ _ E Ha). reflexivity.
Qed.
Lemma execution_in_sequence : forall c c' : proc M * M, execution c c' -> independent (fst c) -> in_sequence (fst c') (snd c') = in_sequence (fst c) (snd c).
Proof.
  intros c c' H. induction H as [c|p m a o p' m' c Hs Ha Hc IH|p m p' c Hs Hc IH]; intros I; cbn [fst snd] in *.
  - reflexivity.
  - rewrite IH by (eapply step_independent; eassumption). eapply step_action; eauto.
  - rewrite IH by (eapply step_independent; eassumption). eapply step_silent; eauto.
Qed.
Lemma every_schedule : forall p m o m', independent p -> execution (p, m) (Done o, m') -> in_sequence p m = (o, m').
Proof. intros p m o m' I H. apply execution_in_sequence in H; [|exact I]. cbn in H. symmetry. exact H. Qed.

(** nothing blocks, nothing runs for ever *)
Fixpoint size p : nat :=
  match p with
  | Done _ => 0
  | Act _ => 1
  | Seq p q | Par p q => S (size p + size q)
  | Catch p => S (size p)
  end.
Lemma step_size : forall p l p', step p l p' -> size p' < size p.
Proof. intros p l p' H. induction H; cbn [size]; lia. Qed.
Definition ended p : Prop := exists o, p = Done o.
Lemma progress : forall p (m : M), ended p \/ exists l p', step p l p' /\ (forall a o, l = Some (a, o) -> fst (a m) = o).
Proof.
  induction p as [o|a|p IHp q IHq|p IHp q IHq|p IHp]; intros m.
  - left. exists o. reflexivity.
  - right. exists (Some (a, fst (a m))), (Done (fst (a m))). split; [constructor|]. intros b o E. injection E as <- <-. reflexivity.
  - right. destruct (IHp m) as [[o ->]|(l & p' & S & E)].
    + destruct o as [[]|e|]; eexists; eexists; (split; [constructor|intros; discriminate]).
    + exists l, (Seq p' q). split; [constructor; exact S|exact E].
  - right. destruct (IHp m) as [[o ->]|(l & p' & S & E)].
    + destruct (IHq m) as [[o' ->]|(l & q' & S & E)].
      * eexists; eexists; (split; [constructor|intros; discriminate]).
      * exists l, (Par (Done o) q'). split; [apply step_right; exact S|exact E].
    + exists l, (Par p' q). split; [constructor; exact S|exact E].
  - right. destruct (IHp m) as [[o ->]|(l & p' & S & E)].
    + eexists; eexists; (split; [constructor|intros; discriminate]).
    + exists l, (Catch p'). split; [constructor; exact S|exact E].
Qed.
Lemma execution_trans : forall c1 c2 c3 : proc M * M, execution c1 c2 -> execution c2 c3 -> execution c1 c3.
Proof.
  intros c1 c2 c3 H. revert c3. induction H as [c|p m a o p' m' c Hs Ha Hc IH|p m p' c Hs Hc IH]; intros c3 K; [exact K| |].
  - eapply exec_act; eauto.
  - eapply exec_silent; eauto.
Qed.
Lemma completes : forall n p (m : M), size p <= n -> exists o m', execution (p, m) (Done o, m').
Proof.
  induction n as [|n IH]; intros p m Hn; destruct (progress p m) as [[o ->]|(l & p' & S & E)]; try (exists o, m; constructor; fail);
    pose proof (step_size _ _ _ S) as K; [lia|].
  destruct l as [[a o]|].
  - destruct (IH p' (snd (a m)) ltac:(lia)) as (o' & m' & X). exists o', m'. eapply exec_act; [exact S| |exact X].
    rewrite (surjective_pairing (a m)). rewrite (E a o eq_refl). reflexivity.
  - destruct (IH p' m ltac:(lia)) as (o' & m' & X). exists o', m'. eapply exec_silent; eauto.
Qed.
(** whatever has been executed can be completed *)
Lemma extends : forall p (m : M), exists o m', execution (p, m) (Done o, m').
Proof. intros. eapply completes, le_n. Qed.

(** ** Fork-join trees *)
Lemma join_ok_r : forall o, join o (Ok tt) = o.
Proof. intros [[]|e|]; reflexivity. Qed.
Lemma join_assoc : forall a b c : outcome unit, join a (join b c) = join (join a b) c.
Proof. intros [[]|[]|] [[]|[]|] [[]|[]|]; reflexivity. Qed.
Fixpoint all_in_sequence (l : list (proc M)) (m : M) : outcome unit * M :=
  match l with
  | [] => (Ok tt, m)
  | p :: l' => let '(o, m) := in_sequence p m in let '(o', m) := all_in_sequence l' m in (join o o', m)
  end.
Lemma all_app : forall l l' m, all_in_sequence (l ++ l') m =
  let '(o, m) := all_in_sequence l m in let '(o', m) := all_in_sequence l' m in (join o o', m).
Proof.
  induction l as [|p l IH]; intros l' m; cbn [all_in_sequence app].
  - destruct (all_in_sequence l' m) as [[[]|e|] m']; reflexivity.
  - destruct (in_sequence p m) as [o m1]. rewrite IH. destruct (all_in_sequence l m1) as [o2 m2]. destruct (all_in_sequence l' m2) as [o3 m3].
    rewrite join_assoc. reflexivity.
Qed.
Lemma tree_in_sequence : forall fuel l m, length l <= fuel -> in_sequence (invoke_tree fuel l) m = all_in_sequence l m.
Proof.
  induction fuel as [|fuel IH]; intros l m H.
  - destruct l; [reflexivity|cbn in H; lia].
  - destruct l as [|p [|q l]]; [reflexivity| |].
    + cbn. destruct (in_sequence p m) as [o m']. rewrite join_ok_r. reflexivity.
    + set (L := p :: q :: l) in *. change (invoke_tree (S fuel) L) with (Par (invoke_tree fuel (firstn (Nat.div2 (length L)) L)) (invoke_tree fuel (skipn (Nat.div2 (length L)) L))).
      assert (D : 1 <= Nat.div2 (length L) < length L).
      { subst L. cbn [length]. split; [cbn [Nat.div2]; lia|]. apply Nat.lt_div2. lia. }
      cbn [in_sequence]. rewrite IH by (rewrite firstn_length; lia).
      rewrite <- (firstn_skipn (Nat.div2 (length L)) L) at 3. rewrite all_app.
      destruct (all_in_sequence (firstn (Nat.div2 (length L)) L) m) as [o m1]. rewrite IH by (rewrite skipn_length; lia). reflexivity.
Qed.
Lemma invoke_in_sequence : forall l m, in_sequence (invoke l) m = all_in_sequence l m.
Proof. intros. apply tree_in_sequence, le_n. Qed.
Lemma tree_acts : forall fuel l a, acts (invoke_tree fuel l) a -> exists p, In p l /\ acts p a.
Proof.
  induction fuel as [|fuel IH]; intros [|p [|q l]] a H; try (inversion H; fail).
  - exists p. split; [left; reflexivity|exact H].
  - exists p. split; [left; reflexivity|exact H].
  - set (L := p :: q :: l) in *. change (invoke_tree (S fuel) L) with (Par (invoke_tree fuel (firstn (Nat.div2 (length L)) L)) (invoke_tree fuel (skipn (Nat.div2 (length L)) L))) in H.
    rewrite <- (firstn_skipn (Nat.div2 (length L)) L). inversion H; subst.
    + match goal with K : acts (invoke_tree fuel _) a |- _ => destruct (IH _ _ K) as (x & I & X) end. exists x. split; [apply in_or_app; left; exact I|exact X].
    + match goal with K : acts (invoke_tree fuel _) a |- _ => destruct (IH _ _ K) as (x & I & X) end. exists x. split; [apply in_or_app; right; exact I|exact X].
Qed.
(** pairwise independent tasks *)
Lemma tasks_app : forall (l l' : list (proc M)), tasks_independent (l ++ l') -> tasks_independent l /\ tasks_independent l' /\
  (forall p q a b, In p l -> In q l' -> acts p a -> acts q b -> commute a b).
Proof.
  induction l as [|p l IH]; intros l' H; cbn [tasks_independent app] in *.
  - split; [exact I|]. split; [exact H|]. intros p q a b [].
  - destruct H as (H1 & H2 & H3). destruct (IH l' H3) as (I1 & I2 & I3). split; [split; [exact H1|split; [|exact I1]]|split; [exact I2|]].
    + intros q Hq. apply H2. apply in_or_app. left. exact Hq.
    + intros p' q a b [<-|Hp] Hq Ha Hb; [apply (H2 q); [apply in_or_app; right; exact Hq|exact Ha|exact Hb]|eapply I3; eauto].
Qed.
Lemma tree_independent : forall fuel (l : list (proc M)), tasks_independent l -> independent (invoke_tree fuel l).
Proof.
  induction fuel as [|fuel IH]; intros [|p [|q l]] H; try exact I; try apply H.
  set (L := p :: q :: l) in *. change (invoke_tree (S fuel) L) with (Par (invoke_tree fuel (firstn (Nat.div2 (length L)) L)) (invoke_tree fuel (skipn (Nat.div2 (length L)) L))).
  rewrite <- (firstn_skipn (Nat.div2 (length L)) L) in H. apply tasks_app in H as (H1 & H2 & H3). cbn [independent].
  split; [apply IH, H1|]. split; [apply IH, H2|]. intros a b Ha Hb. apply tree_acts in Ha as (x & Ix & Ax). apply tree_acts in Hb as (y & Iy & Ay). eauto.
Qed.
Lemma invoke_independent : forall (l : list (proc M)), tasks_independent l -> independent (invoke l).
Proof. intros. apply tree_independent. assumption. Qed.
Lemma Seqs_acts : forall l a, acts (Seqs l) a -> exists p, In p l /\ acts p a.
Proof.
  induction l as [|p l IH]; intros a H; [inversion H|]. inversion H; subst.
  - exists p. split; [left; reflexivity|assumption].
  - match goal with K : acts (Seqs l) a |- _ => destruct (IH a K) as (x & I & X) end. exists x. split; [right; exact I|exact X].
Qed.
Lemma Seqs_independent : forall l, (forall p, In p l -> independent p) -> independent (Seqs l).
Proof. induction l as [|p l IH]; intros H; cbn; [exact I|]. split; [apply H; left; reflexivity|apply IH; intros; apply H; right; assumption]. Qed.
End Parallel.

(** ** Regions *)
Lemma disjoint_commute : forall M A B (r : region M A) (s : region M B) f g, disjoint r s -> commute (on r f) (on s g).
Proof.
  intros M A B r s f g (H1 & H2 & H3) m. unfold on. destruct (f (get r m)) as [o v] eqn:E. destruct (g (get s m)) as [o' w] eqn:E'. cbn [fst snd].
  rewrite H1, H2, E, E'. cbn [fst snd]. rewrite H3. auto.
Qed.
