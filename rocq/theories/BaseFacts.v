(** Generic facts about the notions of [Base]. *)
From Coq Require Import String Ascii List Arith NArith ZArith Bool Lia.
From Coq Require Import Floats.SpecFloat.
From Verif Require Import Base.
Import ListNotations.

Lemma u32_small : forall n, (n < 2 ^ 32)%N -> u32 n = n.
Proof. intros n Hn. unfold u32. apply N.mod_small. exact Hn. Qed.

Lemma u32_zero_iff : forall n, u32 n = 0%N <-> (exists k, n = k * 2 ^ 32)%N.
Proof.
  intros n. unfold u32. split.
  - intros H. apply N.mod_divide in H; [|discriminate]. destruct H as [k Hk]. exists k. exact Hk.
  - intros [k Hk]. subst n. apply N.mod_mul. discriminate.
Qed.

Lemma size32_zero_small : forall A (l : list A),
  (N.of_nat (length l) < 2 ^ 32)%N -> (size32 l = 0%N <-> l = []).
Proof.
  intros A l Hl. unfold size32. rewrite u32_small by exact Hl. split.
  - intros H. destruct l; [reflexivity|]. cbn in H. lia.
  - intros ->. reflexivity.
Qed.

Lemma memb_In : forall x l, memb x l = true <-> In x l.
Proof.
  intros x l. unfold memb. rewrite existsb_exists. split.
  - intros [y [Hy He]]. apply Nat.eqb_eq in He. subst y. exact Hy.
  - intros H. exists x. split; [exact H|apply Nat.eqb_refl].
Qed.

Lemma memb_false : forall x l, memb x l = false <-> ~ In x l.
Proof.
  intros x l. rewrite <- memb_In. destruct (memb x l); split; intros H; try discriminate; auto.
  exfalso. apply H. reflexivity.
Qed.

Lemma in_Range : forall n i, In i (Range n) <-> i < n.
Proof. intros n i. unfold Range. rewrite in_seq. lia. Qed.

Lemma in_Range2 : forall a b i, In i (Range2 a b) <-> a <= i < b.
Proof. intros a b i. unfold Range2. rewrite in_seq. lia. Qed.

Lemma in_enum : forall A (l : list A) i x, In (i, x) (enum l) <-> nth_error l i = Some x.
Proof.
  intros A l i x. unfold enum.
  assert (G : forall k, In (i, x) (combine (seq k (length l)) l) <-> k <= i /\ nth_error l (i - k) = Some x).
  { induction l as [|y l IH]; intros k; cbn.
    - split; [tauto|]. intros [_ H]. destruct (i - k); discriminate.
    - rewrite IH. split.
      + intros [H|[Hk H]].
        * injection H as -> ->. split; [lia|]. rewrite Nat.sub_diag. reflexivity.
        * split; [lia|]. replace (i - k) with (S (i - S k)) by lia. exact H.
      + intros [Hk H]. destruct (Nat.eq_dec i k) as [->|Hn].
        * rewrite Nat.sub_diag in H. cbn in H. injection H as ->. left. reflexivity.
        * right. split; [lia|]. replace (i - k) with (S (i - S k)) in H by lia. exact H. }
  rewrite G. rewrite Nat.sub_0_r. split; [intros [_ H]; exact H|intros H; split; [lia|exact H]].
Qed.

Lemma map_fst_enum : forall A (l : list A), map fst (enum l) = seq 0 (length l).
Proof.
  intros A l. unfold enum.
  assert (G : forall k, map fst (combine (seq k (length l)) l) = seq k (length l)).
  { induction l as [|y l IH]; intros k; cbn; [reflexivity|]. rewrite IH. reflexivity. }
  apply G.
Qed.

Lemma map_snd_enum : forall A (l : list A), map snd (enum l) = l.
Proof.
  intros A l. unfold enum.
  assert (G : forall k, map snd (combine (seq k (length l)) l) = l).
  { induction l as [|y l IH]; intros k; cbn; [reflexivity|]. rewrite IH. reflexivity. }
  apply G.
Qed.

Lemma filter_nil_iff : forall A (f : A -> bool) l,
  filter f l = [] <-> forall x, In x l -> f x = false.
Proof.
  intros A f l. induction l as [|y l IH]; cbn.
  - split; [intros _ x []|reflexivity].
  - destruct (f y) eqn:E.
    + split; [discriminate|]. intros H. rewrite (H y) in E by (left; reflexivity). discriminate.
    + rewrite IH. split.
      * intros H x [->|Hx]; auto.
      * intros H x Hx. apply H. right. exact Hx.
Qed.

Lemma existsb_filter : forall A (f : A -> bool) l,
  existsb f l = negb (match filter f l with [] => true | _ => false end).
Proof.
  intros A f l. induction l as [|y l IH]; cbn; [reflexivity|].
  destruct (f y); cbn; [reflexivity|exact IH].
Qed.

Lemma existsb_filter_iff : forall A (f : A -> bool) l,
  existsb f l = true <-> filter f l <> [].
Proof.
  intros A f l. rewrite existsb_filter. destruct (filter f l); cbn; split; intros H; congruence.
Qed.

Lemma NoDup_filter' : forall A (f : A -> bool) l, NoDup l -> NoDup (filter f l).
Proof. intros A f l H. apply NoDup_filter. exact H. Qed.

Lemma first_some_ok_None : forall A B (f : A -> outcome (option B)) l,
  first_some f l = Ok None <-> (forall x, In x l -> f x = Ok None).
Proof.
  intros A B f l. induction l as [|y l IH]; cbn.
  - split; [intros _ x []|reflexivity].
  - split.
    + intros H. destruct (f y) as [[b|]|e|] eqn:E; cbn in H; try discriminate.
      intros x [->|Hx]; [exact E|]. apply IH; assumption.
    + intros H. rewrite (H y) by (left; reflexivity). cbn. apply IH. intros x Hx. apply H. right. exact Hx.
Qed.

Lemma first_some_ok_Some : forall A B (f : A -> outcome (option B)) l b,
  first_some f l = Ok (Some b) <->
  exists l1 x l2, l = l1 ++ x :: l2 /\ (forall y, In y l1 -> f y = Ok None) /\ f x = Ok (Some b).
Proof.
  intros A B f l b. induction l as [|y l IH]; cbn.
  - split; [discriminate|]. intros (l1 & x & l2 & H & _). destruct l1; discriminate.
  - split.
    + intros H. destruct (f y) as [[b'|]|e|] eqn:E; cbn in H; try discriminate.
      * injection H as ->. exists [], y, l. split; [reflexivity|]. split; [intros z []|exact E].
      * apply IH in H. destruct H as (l1 & x & l2 & -> & H1 & H2).
        exists (y :: l1), x, l2. split; [reflexivity|]. split; [|exact H2].
        intros z [->|Hz]; auto.
    + intros (l1 & x & l2 & Hl & H1 & H2). destruct l1 as [|z l1]; cbn in Hl; injection Hl as -> ->.
      * rewrite H2. reflexivity.
      * rewrite (H1 z) by (left; reflexivity). cbn. apply IH. exists l1, x, l2.
        split; [reflexivity|]. split; [|exact H2]. intros w Hw. apply H1. right. exact Hw.
Qed.

(** If the body never throws, the loop is the pure search. *)
Lemma first_some_pure : forall A B (f : A -> outcome (option B)) (g : A -> option B) l,
  (forall x, In x l -> f x = Ok (g x)) ->
  first_some f l = Ok (List.fold_right (fun x r => match g x with Some b => Some b | None => r end) None l).
Proof.
  intros A B f g l H. induction l as [|y l IH]; cbn; [reflexivity|].
  rewrite (H y) by (left; reflexivity). cbn. destruct (g y); [reflexivity|].
  apply IH. intros x Hx. apply H. right. exact Hx.
Qed.

(** ** IEEE comparison facts *)
Definition is_nan_d (x : double) : bool := match x with S754_nan => true | _ => false end.

Lemma SFcompare_nan : forall x y, SFcompare x y = None <-> (x = S754_nan \/ y = S754_nan).
Proof.
  intros x y. destruct x as [s|s| |s m e]; destruct y as [t|t| |t n f]; cbn;
    try destruct s; try destruct t; cbn; split; intros H; try discriminate; auto;
    try (destruct H; discriminate);
    try (destruct (Z.compare _ _); discriminate).
Qed.

Lemma dlt_nan_l : forall y, dlt S754_nan y = false.
Proof. intros y. unfold dlt, SFltb. cbn. reflexivity. Qed.
Lemma dlt_nan_r : forall x, dlt x S754_nan = false.
Proof. intros x. unfold dlt, SFltb. destruct x as [[]|[]| |[]]; reflexivity. Qed.
Lemma dle_nan_l : forall y, dle S754_nan y = false.
Proof. intros y. unfold dle, SFleb. cbn. reflexivity. Qed.
Lemma dle_nan_r : forall x, dle x S754_nan = false.
Proof. intros x. unfold dle, SFleb. destruct x as [[]|[]| |[]]; reflexivity. Qed.

(** Comparison of finite values as an order on triples (sign/exponent/mantissa). *)
Lemma SFcompare_refl : forall x, x <> S754_nan -> SFcompare x x = Some Eq.
Proof.
  intros x Hx. destruct x as [s|s| |s m e]; cbn; try destruct s; try reflexivity; try congruence;
  rewrite Z.compare_refl, Pos.compare_cont_refl; reflexivity.
Qed.

Lemma dle_refl : forall x, x <> S754_nan -> dle x x = true.
Proof. intros x Hx. unfold dle, SFleb. rewrite SFcompare_refl by exact Hx. reflexivity. Qed.

Lemma dlt_irrefl : forall x, dlt x x = false.
Proof.
  intros x. destruct (is_nan_d x) eqn:E.
  - destruct x; try discriminate. reflexivity.
  - unfold dlt, SFltb. rewrite SFcompare_refl; [reflexivity|]. intros ->. discriminate.
Qed.

(** Position of a non-NaN value on the extended line, comparable lexicographically. *)
Definition dkey (x : double) : Z * (Z * Z) :=
  match x with
  | S754_zero _ => (0, (0, 0))%Z
  | S754_infinity false => (2, (0, 0))%Z
  | S754_infinity true => (-2, (0, 0))%Z
  | S754_nan => (0, (0, 0))%Z
  | S754_finite false m e => (1, (e, Zpos m))%Z
  | S754_finite true m e => (-1, (- e, Zneg m))%Z
  end.
Definition lexcmp (a b : Z * (Z * Z)) : comparison :=
  match Z.compare (fst a) (fst b) with
  | Eq => match Z.compare (fst (snd a)) (fst (snd b)) with
          | Eq => Z.compare (snd (snd a)) (snd (snd b))
          | c => c end
  | c => c
  end.

Lemma SFcompare_key : forall x y, x <> S754_nan -> y <> S754_nan ->
  SFcompare x y = Some (lexcmp (dkey x) (dkey y)).
Proof.
  intros x y Hx Hy.
  destruct x as [s|s| |s m e]; destruct y as [t|t| |t n f]; try congruence;
    destruct s; destruct t; try reflexivity; unfold lexcmp; cbn [dkey fst snd SFcompare].
  change (Z.compare (-1) (-1)) with Eq. cbv iota.
  destruct (Z.compare_spec e f); destruct (Z.compare_spec (-e) (-f)); try lia; try reflexivity.
Qed.

Lemma lexcmp_lt : forall a b, lexcmp a b = Lt <->
  (fst a < fst b \/ (fst a = fst b /\ (fst (snd a) < fst (snd b) \/
   (fst (snd a) = fst (snd b) /\ snd (snd a) < snd (snd b)))))%Z.
Proof.
  intros [a1 [a2 a3]] [b1 [b2 b3]]. unfold lexcmp. cbn.
  destruct (Z.compare_spec a1 b1); destruct (Z.compare_spec a2 b2); destruct (Z.compare_spec a3 b3);
  split; intros; try discriminate; try reflexivity; lia.
Qed.

Lemma lexcmp_eq : forall a b, lexcmp a b = Eq <->
  (fst a = fst b /\ fst (snd a) = fst (snd b) /\ snd (snd a) = snd (snd b))%Z.
Proof.
  intros [a1 [a2 a3]] [b1 [b2 b3]]. unfold lexcmp. cbn.
  destruct (Z.compare_spec a1 b1); destruct (Z.compare_spec a2 b2); destruct (Z.compare_spec a3 b3);
  split; intros; try discriminate; try reflexivity; lia.
Qed.

Lemma dlt_spec : forall x y, dlt x y = true <->
  (x <> S754_nan /\ y <> S754_nan /\ lexcmp (dkey x) (dkey y) = Lt).
Proof.
  intros x y. unfold dlt, SFltb. split.
  - intros H. destruct (SFcompare x y) as [c|] eqn:E; [|discriminate].
    assert (Hx : x <> S754_nan) by (intros ->; cbn in E; discriminate).
    assert (Hy : y <> S754_nan) by (intros ->; destruct x as [[]|[]| |[]]; cbn in E; discriminate).
    rewrite SFcompare_key in E by assumption. injection E as E. rewrite E.
    destruct c; try discriminate. auto.
  - intros (Hx & Hy & H). rewrite SFcompare_key by assumption. rewrite H. reflexivity.
Qed.

Lemma dle_spec : forall x y, dle x y = true <->
  (x <> S754_nan /\ y <> S754_nan /\ (lexcmp (dkey x) (dkey y) = Lt \/ lexcmp (dkey x) (dkey y) = Eq)).
Proof.
  intros x y. unfold dle, SFleb. split.
  - intros H. destruct (SFcompare x y) as [c|] eqn:E; [|discriminate].
    assert (Hx : x <> S754_nan) by (intros ->; cbn in E; discriminate).
    assert (Hy : y <> S754_nan) by (intros ->; destruct x as [[]|[]| |[]]; cbn in E; discriminate).
    rewrite SFcompare_key in E by assumption. injection E as E. rewrite E.
    destruct c; try discriminate; auto.
  - intros (Hx & Hy & [H|H]); rewrite SFcompare_key by assumption; rewrite H; reflexivity.
Qed.

Lemma dlt_le_trans : forall x y z, dlt x y = true -> dle y z = true -> dlt x z = true.
Proof.
  intros x y z H1 H2. apply dlt_spec in H1. apply dle_spec in H2. apply dlt_spec.
  destruct H1 as (Hx & Hy & H1), H2 as (_ & Hz & H2). split; [exact Hx|]. split; [exact Hz|].
  rewrite lexcmp_lt in *. rewrite lexcmp_eq in H2. lia.
Qed.

Lemma dle_trans : forall x y z, dle x y = true -> dle y z = true -> dle x z = true.
Proof.
  intros x y z H1 H2. apply dle_spec in H1. apply dle_spec in H2. apply dle_spec.
  destruct H1 as (Hx & Hy & H1), H2 as (_ & Hz & H2). split; [exact Hx|]. split; [exact Hz|].
  rewrite lexcmp_lt in *. rewrite lexcmp_eq in *. lia.
Qed.

Lemma dlt_dle : forall x y, dlt x y = true -> dle x y = true.
Proof.
  intros x y H. apply dlt_spec in H. apply dle_spec. intuition.
Qed.
