From Coq Require Import List Arith Bool Lia Permutation.
From Verif Require Import Base Model_Cycles Spec_Cycles.
Import ListNotations.

Lemma rot_same : forall A k (l : list A), same_oriented_cycle l (rot k l).
Proof. intros A k l. exists (firstn k l), (skipn k l). split; [symmetry; apply firstn_skipn|reflexivity]. Qed.
Lemma soc_sym : forall A (a b : list A), same_oriented_cycle a b -> same_oriented_cycle b a.
Proof. intros A a b (u & v & -> & ->). exists v, u. auto. Qed.
Lemma soc_refl : forall A (a : list A), same_oriented_cycle a a.
Proof. intros A a. exists [], a. rewrite app_nil_r. auto. Qed.
Lemma soc_perm : forall A (a b : list A), same_oriented_cycle a b -> Permutation a b.
Proof. intros A a b (u & v & -> & ->). apply Permutation_app_comm. Qed.
Lemma soc_rev : forall A (a b : list A), same_oriented_cycle a b -> same_oriented_cycle (rev a) (rev b).
Proof. intros A a b (u & v & -> & ->). rewrite !rev_app_distr. exists (rev v), (rev u). auto. Qed.

Lemma soc_trans : forall A (a b c : list A), same_oriented_cycle a b -> same_oriented_cycle b c -> same_oriented_cycle a c.
Proof.
  intros A a b c (u & v & -> & ->) (u' & v' & H & ->).
  apply app_eq_app in H. destruct H as (l & [(H1 & H2)|(H1 & H2)]); subst.
  - exists (u ++ u'), l. rewrite app_assoc. split; [reflexivity|]. rewrite app_assoc. reflexivity.
  - exists l, (v' ++ v). rewrite <- !app_assoc. auto.
Qed.

(** a cycle without repetition has a single rotation with a given head *)
Lemma rotation_head_unique : forall A (x : A) a t t', NoDup a ->
  same_oriented_cycle a (x :: t) -> same_oriented_cycle a (x :: t') -> t = t'.
Proof.
  intros A x a t t' Hn H1 H2. pose proof (soc_trans _ _ _ _ (soc_sym _ _ _ H1) H2) as H.
  pose proof (Permutation_NoDup (soc_perm _ _ _ H1) Hn) as Hx.
  destruct H as (u & v & E1 & E2). destruct u as [|y u].
  - rewrite app_nil_r in E2. cbn in E1. congruence.
  - injection E1 as -> ->. destruct v as [|z v].
    + rewrite app_nil_r. cbn in E2. congruence.
    + injection E2 as -> ->. exfalso. inversion Hx as [|? ? Hn' _]; subst. apply Hn'. apply in_or_app. right. left. reflexivity.
Qed.

Lemma fold_min_le : forall l x, fold_left Nat.min l x <= x /\ forall y, In y l -> fold_left Nat.min l x <= y.
Proof.
  induction l as [|z l IH]; intros x; cbn; [split; [lia|tauto]|].
  destruct (IH (Nat.min x z)) as [H1 H2]. split; [lia|]. intros y [<-|Hy]; [lia|auto].
Qed.
Lemma fold_min_in : forall l x, fold_left Nat.min l x = x \/ In (fold_left Nat.min l x) l.
Proof.
  induction l as [|z l IH]; intros x; cbn; [auto|]. destruct (IH (Nat.min x z)) as [H|H]; [|auto].
  destruct (Nat.min_spec x z) as [[_ E]|[_ E]]; rewrite E in *; auto.
Qed.
Lemma list_min_spec : forall l, l <> [] -> In (list_min l) l /\ forall y, In y l -> list_min l <= y.
Proof.
  intros [|x l] H; [congruence|]. cbn. destruct (fold_min_le l x) as [H1 H2]. destruct (fold_min_in l x) as [E|E].
  - rewrite E in *. split; [auto|]. intros y [<-|Hy]; [lia|auto].
  - split; [auto|]. intros y [<-|Hy]; auto.
Qed.
Lemma list_min_perm : forall a b, Permutation a b -> list_min a = list_min b.
Proof.
  intros a b H. destruct a as [|x a]; [apply Permutation_nil in H; subst; reflexivity|].
  assert (Hb : b <> []) by (intros ->; apply Permutation_sym, Permutation_nil in H; discriminate).
  destruct (list_min_spec (x :: a)) as [I1 L1]; [discriminate|]. destruct (list_min_spec b Hb) as [I2 L2].
  apply Nat.le_antisymm.
  - apply L1. apply (Permutation_in _ (Permutation_sym H)). exact I2.
  - apply L2. apply (Permutation_in _ H). exact I1.
Qed.

Lemma position_spec : forall l x, In x l -> exists t, skipn (position x l) l = x :: t.
Proof.
  induction l as [|y l IH]; intros x H; [destruct H|]. cbn [position]. destruct (Nat.eqb_spec y x) as [->|Hn].
  - exists l. reflexivity.
  - cbn [skipn]. apply IH. destruct H; [congruence|exact H].
Qed.
Lemma oriented_cycle_head : forall l, l <> [] -> exists t, oriented_cycle l = list_min l :: t.
Proof.
  intros l H. destruct (list_min_spec l H) as [Hin _]. unfold oriented_cycle, rot.
  destruct (position_spec l _ Hin) as (t & ->). eexists. cbn. reflexivity.
Qed.
Lemma oriented_cycle_same : forall l, same_oriented_cycle l (oriented_cycle l).
Proof. intros l. apply rot_same. Qed.
Lemma oriented_cycle_nil : oriented_cycle [] = [].
Proof. reflexivity. Qed.
Lemma soc_nil : forall A (a : list A), same_oriented_cycle [] a -> a = [].
Proof. intros A a (u & v & E & ->). symmetry in E. apply app_eq_nil in E. destruct E as [-> ->]. reflexivity. Qed.

Lemma oriented_cycle_iff : forall a b, NoDup a -> (oriented_cycle a = oriented_cycle b <-> same_oriented_cycle a b).
Proof.
  intros a b Hn. split.
  - intros E. apply soc_trans with (oriented_cycle a); [apply oriented_cycle_same|]. rewrite E. apply soc_sym, oriented_cycle_same.
  - intros H. destruct a as [|x a].
    + apply soc_nil in H. subst. reflexivity.
    + assert (Hb : b <> []) by (intros ->; apply soc_sym, soc_nil in H; discriminate).
      destruct (oriented_cycle_head (x :: a)) as (t & Ht); [discriminate|].
      destruct (oriented_cycle_head b Hb) as (t' & Ht'). rewrite (list_min_perm _ _ (soc_perm _ _ _ H)) in Ht.
      rewrite Ht, Ht'. f_equal. apply (rotation_head_unique _ (list_min b) (x :: a)); [exact Hn| |].
      * rewrite <- Ht. apply oriented_cycle_same.
      * rewrite <- Ht'. apply soc_trans with b; [exact H|apply oriented_cycle_same].
Qed.

Lemma oriented_cycle_rev : forall a x t, NoDup a -> oriented_cycle a = x :: t -> oriented_cycle (rev a) = x :: rev t.
Proof.
  intros a x t Hn E. assert (Ha : a <> []) by (intros ->; discriminate).
  assert (Hra : rev a <> []) by (intros K; apply Ha; rewrite <- (rev_involutive a), K; reflexivity).
  destruct (oriented_cycle_head a Ha) as (t1 & H1). rewrite E in H1. injection H1 as -> <-.
  destruct (oriented_cycle_head (rev a) Hra) as (t' & Ht').
  rewrite (list_min_perm (rev a) a) in Ht' by (apply Permutation_sym, Permutation_rev). rewrite Ht'. f_equal.
  apply (rotation_head_unique _ (list_min a) (rev a)); [apply NoDup_rev; exact Hn| |].
  - rewrite <- Ht'. apply oriented_cycle_same.
  - apply soc_trans with (rev (list_min a :: t)).
    + apply soc_rev. rewrite <- E. apply oriented_cycle_same.
    + cbn. exists (rev t), [list_min a]. auto.
Qed.

Lemma is_opposite_iff : forall a b, a <> [] -> NoDup a -> (is_opposite a b = true <-> opposite_cycle a b).
Proof.
  intros a b Ha Hn. unfold opposite_cycle. rewrite <- (oriented_cycle_iff (rev a) b) by (apply NoDup_rev; exact Hn).
  unfold is_opposite. destruct (oriented_cycle_head a Ha) as (t & Ht). rewrite Ht.
  rewrite (oriented_cycle_rev a _ t Hn Ht). destruct (oriented_cycle b) as [|y b'].
  - split; discriminate.
  - rewrite andb_true_iff, Nat.eqb_eq. destruct (list_eq_dec Nat.eq_dec b' (rev t)) as [->|Hne].
    + split; [intros [-> _]; reflexivity|]. intros H. injection H as ->. auto.
    + split; [intros [_ H]; discriminate|]. intros H. injection H as H1 H2. congruence.
Qed.

Lemma last_rev_hd : forall (t : list nat), last (rev t) 0 = hd 0 t.
Proof. intros [|x t]; [reflexivity|]. cbn. apply last_last. Qed.
Lemma hd_rev_last : forall (t : list nat), hd 0 (rev t) = last t 0.
Proof. intros t. rewrite <- (last_rev_hd (rev t)), rev_involutive. reflexivity. Qed.
Lemma hd_eq_last : forall t : list nat, NoDup t -> hd 0 t = last t 0 -> rev t = t.
Proof.
  intros t Hn H. destruct t as [|x t]; [reflexivity|]. destruct t as [|y t]; [reflexivity|].
  exfalso. cbn [hd] in H. inversion Hn as [|? ? Hx _]; subst. apply Hx. rewrite H.
  change (last (x :: y :: t) 0) with (last (y :: t) 0).
  rewrite <- hd_rev_last. rewrite in_rev. destruct (rev (y :: t)) as [|z r] eqn:E; [|left; reflexivity].
  apply (f_equal (@length nat)) in E. rewrite rev_length in E. discriminate.
Qed.

Definition norm_tail (t : list nat) : list nat := if Nat.ltb (last t 0) (hd 0 t) then rev t else t.
Lemma vertex_cycle_alt : forall l, vertex_cycle l = match oriented_cycle l with [] => [] | x :: t => x :: norm_tail t end.
Proof. intros l. unfold vertex_cycle, norm_tail. destruct (oriented_cycle l) as [|x t]; [reflexivity|]. destruct (Nat.ltb _ _); reflexivity. Qed.
Lemma norm_tail_rev : forall t, NoDup t -> norm_tail (rev t) = norm_tail t.
Proof.
  intros t Hn. unfold norm_tail. rewrite last_rev_hd, hd_rev_last, rev_involutive.
  destruct (Nat.ltb_spec (hd 0 t) (last t 0)), (Nat.ltb_spec (last t 0) (hd 0 t)); try reflexivity; [lia|].
  apply hd_eq_last; [exact Hn|lia].
Qed.
Lemma norm_tail_cases : forall t, norm_tail t = t \/ norm_tail t = rev t.
Proof. intros t. unfold norm_tail. destruct (Nat.ltb _ _); auto. Qed.
Lemma norm_tail_eq : forall t t', norm_tail t = norm_tail t' -> t = t' \/ t' = rev t.
Proof.
  intros t t' H. destruct (norm_tail_cases t) as [E|E], (norm_tail_cases t') as [E'|E']; rewrite E, E' in H; subst; auto.
  - right. rewrite rev_involutive. reflexivity.
  - left. rewrite <- (rev_involutive t), H, rev_involutive. reflexivity.
Qed.

Lemma vertex_cycle_iff : forall a b, NoDup a -> (vertex_cycle a = vertex_cycle b <-> same_cycle a b).
Proof.
  intros a b Hn. unfold same_cycle.
  destruct (list_eq_dec Nat.eq_dec a []) as [->|Ha].
  { split.
    - intros E. left. destruct b as [|y b]; [apply soc_refl|]. rewrite vertex_cycle_alt, (vertex_cycle_alt (y :: b)) in E.
      destruct (oriented_cycle_head (y :: b)) as (t & Ht); [discriminate|]. rewrite Ht in E. discriminate.
    - intros [H|H]; apply soc_nil in H; subst; reflexivity. }
  destruct (oriented_cycle_head a Ha) as (t & Ht).
  assert (Hnt : NoDup t).
  { pose proof (Permutation_NoDup (soc_perm _ _ _ (oriented_cycle_same a)) Hn) as K. rewrite Ht in K. inversion K; assumption. }
  rewrite <- (oriented_cycle_iff a b Hn), <- (oriented_cycle_iff (rev a) b) by (apply NoDup_rev; exact Hn).
  rewrite (oriented_cycle_rev a _ t Hn Ht), !vertex_cycle_alt, Ht. split.
  - destruct (oriented_cycle b) as [|y b']; [discriminate|]. intros H. injection H as -> H. apply norm_tail_eq in H.
    destruct H as [->| ->]; auto.
  - intros [<-|<-]; [reflexivity|]. rewrite norm_tail_rev by exact Hnt. reflexivity.
Qed.
Lemma cycle_eqb_eq : forall a b, cycle_eqb a b = true <-> a = b.
Proof. intros a b. unfold cycle_eqb. destruct (list_eq_dec Nat.eq_dec a b); split; congruence. Qed.
