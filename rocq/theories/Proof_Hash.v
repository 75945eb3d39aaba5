From Coq Require Import List Arith Bool Lia Permutation.
From Verif Require Import Base Model_Hash.
Import ListNotations.

Section Hash.
Context {K V A : Type} (eqb : K -> K -> bool) (eqb_ok : forall a b, eqb a b = true <-> a = b).
Lemma eqb_rfl : forall a, eqb a a = true. Proof. intros a. apply eqb_ok. reflexivity. Qed.
Lemma eqb_dec : forall a b, eqb a b = false -> a <> b.
Proof. intros a b H E. apply eqb_ok in E. congruence. Qed.

Lemma lookup_emplace : forall k k' (i : V) f m,
  lookup eqb k' (emplace_or_update eqb k i f m) =
  if eqb k k' then Some (match lookup eqb k m with None => i | Some v => f v end) else lookup eqb k' m.
Proof.
  intros k k' i f m. induction m as [|[q v] m IH]; cbn [emplace_or_update lookup].
  - destruct (eqb k k'); reflexivity.
  - destruct (eqb q k) eqn:E; cbn [lookup].
    + apply eqb_ok in E. subst q. destruct (eqb k k'); reflexivity.
    + rewrite IH. destruct (eqb q k') eqn:E'; [|reflexivity]. apply eqb_ok in E'. subst k'.
      destruct (eqb k q) eqn:E2; [|reflexivity]. apply eqb_ok in E2. subst. rewrite eqb_rfl in E. discriminate.
Qed.
Lemma emplace_keys : forall k (i : V) f m q,
  In q (map fst (emplace_or_update eqb k i f m)) <-> q = k \/ In q (map fst m).
Proof.
  intros k i f m q. induction m as [|[q' v] m IH]; cbn; [intuition|].
  destruct (eqb q' k) eqn:E; cbn.
  - apply eqb_ok in E. subst. intuition.
  - rewrite IH. intuition.
Qed.
Lemma emplace_NoDup : forall k (i : V) f m, NoDup (map fst m) -> NoDup (map fst (emplace_or_update eqb k i f m)).
Proof.
  intros k i f m. induction m as [|[q v] m IH]; cbn; intros H; [repeat constructor; intros []|].
  inversion H as [|? ? Hq Hm]; subst. destruct (eqb q k) eqn:E; cbn; [exact H|].
  constructor; [|apply IH; exact Hm]. rewrite emplace_keys. intros [->|K0]; [|contradiction].
  rewrite eqb_rfl in E. discriminate.
Qed.
Lemma lookup_In : forall (m : list (K * V)) k v, NoDup (map fst m) -> (In (k, v) m <-> lookup eqb k m = Some v).
Proof.
  intros m k v. induction m as [|[q w] m IH]; cbn; intros H; [split; [tauto|discriminate]|].
  inversion H as [|? ? Hq Hm]; subst. destruct (eqb q k) eqn:E.
  - apply eqb_ok in E. subst q. split; [|intros E; injection E as ->; auto].
    intros [E|Hin]; [injection E as ->; reflexivity|]. exfalso. apply Hq. apply in_map_iff. exists (k, v). auto.
  - rewrite <- IH by exact Hm. split; [|auto]. intros [E'|Hin]; [injection E' as -> ->; rewrite eqb_rfl in E; discriminate|exact Hin].
Qed.

Variables (key : A -> K) (init : A -> V) (upd : A -> V -> V).
Definition group (l : list A) (m : list (K * V)) : list (K * V) :=
  fold_left (fun acc x => emplace_or_update eqb (key x) (init x) (upd x) acc) l m.
Definition with_key (k : K) (l : list A) : list A := filter (fun x => eqb (key x) k) l.
Definition value_of (l : list A) : option V :=
  match l with [] => None | x :: xs => Some (fold_left (fun v y => upd y v) xs (init x)) end.

Lemma group_NoDup : forall l, NoDup (map fst (group l [])).
Proof.
  intros l. assert (G : forall k m, NoDup (map fst m) -> NoDup (map fst (group k m))).
  { induction k as [|x k IH]; intros m H; [exact H|]. apply IH. apply emplace_NoDup. exact H. }
  apply G. constructor.
Qed.
Lemma group_lookup : forall l k, lookup eqb k (group l []) = value_of (with_key k l).
Proof.
  intros l. induction l as [|x l IH] using rev_ind; intros k; [reflexivity|].
  unfold group. rewrite fold_left_app. cbn [fold_left]. fold (group l []). rewrite lookup_emplace, !IH.
  unfold with_key. rewrite filter_app. cbn [filter]. destruct (eqb (key x) k) eqn:E.
  - apply eqb_ok in E. rewrite E. destruct (filter (fun y => eqb (key y) k) l) as [|y ys]; cbn; [reflexivity|].
    rewrite fold_left_app. reflexivity.
  - rewrite app_nil_r. reflexivity.
Qed.
Lemma in_group : forall l k v, In (k, v) (group l []) <-> exists x xs, with_key k l = x :: xs /\
  v = fold_left (fun v y => upd y v) xs (init x).
Proof.
  intros l k v. rewrite lookup_In by apply group_NoDup. rewrite group_lookup. unfold value_of.
  destruct (with_key k l) as [|x xs].
  - split; [discriminate|]. intros (x & xs & H & _). discriminate.
  - split; [intros H; injection H as <-; eauto|]. intros (y & ys & H & ->). injection H as -> ->. reflexivity.
Qed.
End Hash.
Lemma in_with_key : forall K A (eqb : K -> K -> bool) (eqb_ok : forall a b, eqb a b = true <-> a = b) (key : A -> K) k l x,
  In x (with_key eqb key k l) <-> In x l /\ key x = k.
Proof. intros K A eqb eqb_ok key k l x. unfold with_key. rewrite filter_In, eqb_ok. tauto. Qed.
