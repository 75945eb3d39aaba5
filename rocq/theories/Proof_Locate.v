(** The edge of a line and a triangle, with predicates that locate the contact. *)
From Coq Require Import String List Arith NArith ZArith Bool QArith Lqa Lia.
From Verif Require Import Base Types Model_Intersections Spec_Intersections Spec_Geometry Proof_Geometry Proof_Geometry2 Proof_Geometry3 Proof_Geometry4 Proof_Geometry6 Proof_Exact Proof_Exact2
  Spec_Geometry2 Proof_Flat Proof_Exact3 Spec_Geometry3.
Import ListNotations.
Local Open Scope Q_scope.

Lemma strict_not_corner : forall t x, real_triangle t -> strictly_among x (corner t 0) (corner t 1) (corner t 2) -> ~ at_corner_of x t.
Proof.
  intros t x R S (j & L & E). destruct j as [|[|[|j]]]; [| | |lia].
  - exact (corner_not_inside _ _ _ _ R S E).
  - exact (corner_not_inside _ _ _ _ (flat_turn' _ _ _ R) (strictly_turn _ _ _ _ S) E).
  - exact (corner_not_inside _ _ _ _ (flat_turn' _ _ _ (flat_turn' _ _ _ R)) (strictly_turn _ _ _ _ (strictly_turn _ _ _ _ S)) E).
Qed.
Lemma not_third : forall p q r x, ~ flat p q r -> between x p q -> ~ same_spot x r.
Proof.
  intros p q r x N B E. apply between_aligned in B. apply N.
  destruct B as (a & b & S & K). exists a, b, (-1). split; [lra|]. split; [lra|].
  destruct x as [[? ?] ?], p as [[? ?] ?], q as [[? ?] ?], r as [[? ?] ?]. spots. destruct E as (E0 & E1 & E2), K as (K0 & K1 & K2). repeat split; lra.
Qed.
Lemma side_not_corner : forall t x, real_triangle t ->
  within x (corner t 0) (corner t 1) \/ within x (corner t 1) (corner t 2) \/ within x (corner t 2) (corner t 0) -> ~ at_corner_of x t.
Proof.
  intros t x R H (j & L & E). pose proof (flat_turn' _ _ _ R) as R1. pose proof (flat_turn' _ _ _ R1) as R2.
  destruct H as [(B & N1 & N2)|[(B & N1 & N2)|(B & N1 & N2)]].
  - destruct j as [|[|[|j]]]; [exact (N1 E)|exact (N2 E)|exact (not_third _ _ _ _ R B E)|lia].
  - destruct j as [|[|[|j]]]; [exact (not_third _ _ _ _ R1 B E)|exact (N1 E)|exact (N2 E)|lia].
  - destruct j as [|[|[|j]]]; [exact (N2 E)|exact (not_third _ _ _ _ R2 B E)|exact (N1 E)|lia].
Qed.
Lemma touch_dec : forall s t, (exists x, on_segment x s /\ on_triangle x t) \/ (forall x, on_segment x s -> ~ on_triangle x t).
Proof.
  intros s t. destruct (touchb (segment_end s 0) (segment_end s 1) (corner t 0) (corner t 1) (corner t 2)) eqn:K.
  - left. apply touch_iff, K.
  - right. intros x A B. assert (H : exists x, on_segment x s /\ on_triangle x t) by (exists x; tauto). apply touch_iff in H. congruence.
Qed.
Lemma parallel_dec : forall r s t, parallel_to_triangle r s t \/ ~ parallel_to_triangle r s t.
Proof.
  intros [|] s t; cbn [parallel_to_triangle].
  - destruct (twiceb (segment_end s 0) (segment_end s 1) (corner t 0) (corner t 1) (corner t 2)) eqn:K.
    + left. apply twice_iff, K.
    + right. intros H. apply twice_iff in H. congruence.
  - destruct (touch_dec s t) as [T|T]; [|right; intros ((x & A & B) & _); exact (T x A B)].
    assert (D : forall p, on_plane p t \/ ~ on_plane p t).
    { intros p. destruct (planeb p (corner t 0) (corner t 1) (corner t 2)) eqn:K; [left; apply planeb_ok, K|right; intros H; apply planeb_ok in H; unfold corner in K; congruence]. }
    destruct (D (segment_end s 0)) as [A|A]; [|right; tauto]. destruct (D (segment_end s 1)) as [B|B]; [left|right]; tauto.
Qed.
Lemma parallel_touches : forall r s t, parallel_to_triangle r s t -> exists x, on_segment x s /\ on_triangle x t.
Proof. intros [|] s t H; cbn in H; [destruct H as (x & y & A & B & _); exists x; tauto|tauto]. Qed.
Lemma among_plane : forall x a b c, among x a b c -> of_plane x a b c.
Proof. intros x a b c (u & v & w & _ & _ & _ & S & E). exists u, v, w. tauto. Qed.
Lemma aligned_plane : forall z x y a b c, of_plane x a b c -> of_plane y a b c -> aligned z x y -> of_plane z a b c.
Proof.
  intros [[z0 z1] z2] [[x0 x1] x2] [[y0 y1] y2] [[a0 a1] a2] [[b0 b1] b2] [[c0 c1] c2] (u & v & w & S & E) (u' & v' & w' & S' & E') (g & h & G & K).
  exists (g * u + h * u'), (g * v + h * v'), (g * w + h * w'). split.
  - transitivity (g * (u + v + w) + h * (u' + v' + w')); [ring|]. rewrite S, S'. lra.
  - spots. destruct E as (E0 & E1 & E2), E' as (F0 & F1 & F2), K as (K0 & K1 & K2). rewrite E0, F0 in K0. rewrite E1, F1 in K1. rewrite E2, F2 in K2. repeat split; lra.
Qed.
(** sharing two points puts them in one plane *)
Lemma overlapping_coplanar : forall s t, parallel_to_triangle Overlapping s t -> parallel_to_triangle Coplanar s t.
Proof.
  intros s t (x & y & X1 & X2 & Y1 & Y2 & D). split; [exists x; tauto|].
  assert (K : forall z, aligned z (segment_end s 0) (segment_end s 1) -> on_plane z t).
  { intros z Z. eapply aligned_plane; [apply among_plane; exact X2|apply among_plane; exact Y2|].
    eapply one_line_two; [exact D|apply between_aligned; exact X1|apply between_aligned; exact Y1|exact Z]. }
  split; apply K; apply between_aligned; [apply between_first|apply between_last].
Qed.
Lemma single_contact : forall r s t x y, ~ parallel_to_triangle r s t -> on_segment x s -> on_triangle x t -> on_segment y s -> on_triangle y t -> same_spot x y.
Proof.
  intros r s t x y N X1 X2 Y1 Y2. destruct (same_spot_dec x y) as [E|E]; [exact E|]. exfalso. apply N.
  assert (O : parallel_to_triangle Overlapping s t) by (exists x, y; tauto). destruct r; [exact O|apply overlapping_coplanar, O].
Qed.

Lemma line_test : forall px r s t, locates_on_triangles px r -> finite_edge s -> finite_face t ->
  (let q := px_segment_triangle px s t in fst q = Inside \/ snd q = Inside \/ on_triangle_edge (fst q) \/ on_triangle_edge (snd q)) <->
  exists x, on_segment x s /\ on_triangle x t /\ ~ parallel_to_triangle r s t /\ ~ (at_end x s /\ at_corner_of x t).
Proof.
  intros px r s t L F G. cbv zeta. split.
  - intros H. destruct (touch_dec s t) as [(x & X1 & X2)|T].
    2:{ exfalso. rewrite (lt_apart px r L s t F G T) in H. unfold on_triangle_edge in H. cbn [fst snd] in H. intuition discriminate. }
    destruct (parallel_dec r s t) as [P|P].
    { exfalso. rewrite (lt_parallel px r L s t F G P) in H. unfold on_triangle_edge in H. cbn [fst snd] in H. intuition discriminate. }
    exists x. split; [exact X1|]. split; [exact X2|]. split; [exact P|]. intros (AE & AC).
    destruct (lt_contact px r L s t x F G X1 X2 P) as (TS & TT). destruct H as [H|[H|[H|H]]].
    + rewrite H in TS. cbn in TS. destruct TS as (_ & N0 & N1). destruct AE as (i & Li & E). destruct i as [|[|i]]; [exact (N0 E)|exact (N1 E)|lia].
    + rewrite H in TT. exact (strict_not_corner t x (proj2 G) TT AC).
    + destruct H as [H|[H|H]]; rewrite H in TS; exact TS.
    + assert (W : within x (corner t 0) (corner t 1) \/ within x (corner t 1) (corner t 2) \/ within x (corner t 2) (corner t 0)) by (destruct H as [H|[H|H]]; rewrite H in TT; exact TT).
      exact (side_not_corner t x (proj2 G) W AC).
  - intros (x & X1 & X2 & P & N). destruct (lt_contact px r L s t x F G X1 X2 P) as (TS & TT).
    destruct (px_segment_triangle px s t) as [q1 q2]. cbn [fst snd] in *.
    assert (V : at_end x s -> q2 = Inside \/ on_triangle_edge q2).
    { intros AE. assert (NC : ~ at_corner_of x t) by tauto. clear N. unfold on_triangle_edge. destruct q2; cbn in TT; try contradiction; try tauto;
        exfalso; apply NC; [exists 0%nat|exists 1%nat|exists 2%nat]; (split; [lia|exact TT]). }
    destruct q1; cbn in TS; try contradiction.
    + left. reflexivity.
    + destruct V as [V|V]; [exists 0%nat; split; [lia|exact TS]|right; left; exact V|right; right; right; exact V].
    + destruct V as [V|V]; [exists 1%nat; split; [lia|exact TS]|right; left; exact V|right; right; right; exact V].
Qed.
