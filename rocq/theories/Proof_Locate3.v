(** The edge of a curve and a triangle of a triangulated surface, with predicates that locate contacts. *)
From Coq Require Import String List Arith NArith ZArith Bool QArith Lqa Lia.
From Verif Require Import Base Types Model_Intersections Spec_Intersections Spec_Geometry Proof_Geometry Proof_Geometry2 Proof_Geometry3 Proof_Geometry4 Proof_Geometry6 Proof_Exact Proof_Exact2
  Spec_Geometry2 Proof_Flat Proof_Flat2 Proof_Flat3 Proof_Exact3 Spec_Geometry3 Proof_Locate Proof_Exact4.
Import ListNotations.
Local Open Scope Q_scope.

Lemma at_corner_dec : forall x t, at_corner_of x t \/ ~ at_corner_of x t.
Proof.
  intros x t. unfold at_corner_of. destruct (same_spot_dec x (corner t 0)) as [K|K]; [left; exists 0%nat; split; [lia|exact K]|].
  destruct (same_spot_dec x (corner t 1)) as [K'|K']; [left; exists 1%nat; split; [lia|exact K']|].
  destruct (same_spot_dec x (corner t 2)) as [K''|K'']; [left; exists 2%nat; split; [lia|exact K'']|].
  right. intros ([|[|[|i]]] & Li & Ei); [exact (K Ei)|exact (K' Ei)|exact (K'' Ei)|lia].
Qed.
Lemma at_end_dec : forall x s, at_end x s \/ ~ at_end x s.
Proof.
  intros x s. unfold at_end. destruct (same_spot_dec x (segment_end s 0)) as [K|K]; [left; exists 0%nat; split; [lia|exact K]|].
  destruct (same_spot_dec x (segment_end s 1)) as [K'|K']; [left; exists 1%nat; split; [lia|exact K']|].
  right. intros ([|[|i]] & Li & Ei); [exact (K Ei)|exact (K' Ei)|lia].
Qed.
Lemma corner_is_on : forall x t, at_corner_of x t -> on_triangle x t.
Proof. intros x t (j & Lj & E). eapply among_eq; [exact E|]. exact (corner_on_triangle t j Lj). Qed.
Lemma strictly_weak : forall x p q r, strictly_among x p q r -> among x p q r.
Proof. intros x p q r (a & b & c & A & B & C & S & E). exists a, b, c. split; [lra|]. split; [lra|]. split; [lra|]. tauto. Qed.
Lemma end_of : forall s p, an_end s p -> exists i, (i < 2)%nat /\ place_of p = segment_end s i.
Proof. intros s p [->| ->]; [exists 0%nat|exists 1%nat]; (split; [lia|reflexivity]). Qed.
Lemma end_point : forall s i, exists p, an_end s p /\ place_of p = segment_end s i.
Proof. intros s [|i]; [exists (fst s)|exists (snd s)]; (split; [unfold an_end; tauto|reflexivity]). Qed.
Lemma end_finite : forall s p, finite_segment s -> an_end s p -> finite_point p.
Proof. intros s p (A & B) [->| ->]; assumption. Qed.
(** what the position of a point tells *)
Lemma vertex_tells : forall px p t, locates_points px -> finite_point p -> finite_face t -> (at_vertex (px_point_triangle px p t) <-> at_corner_of (place_of p) t).
Proof.
  intros px p t L Fp Ft. split.
  - intros V. destruct (touch_dec (p, p) t) as [(x & A & B)|N].
    + assert (O : on_triangle (place_of p) t) by (eapply among_eq; [apply same_spot_sym, single_between; exact A|exact B]).
      pose proof (lp_on px L p t Fp Ft O) as T. destruct V as [V|[V|V]]; rewrite V in T; cbn in T; [exists 0%nat|exists 1%nat|exists 2%nat]; (split; [lia|exact T]).
    + rewrite (lp_outside px L p t Fp Ft) in V by (apply (N (place_of p)); apply single_between, same_spot_refl). destruct V as [V|[V|V]]; discriminate V.
  - intros C. pose proof (lp_on px L p t Fp Ft (corner_is_on _ _ C)) as T. unfold at_vertex.
    destruct (px_point_triangle px p t); cbn in T; try contradiction; try tauto; exfalso.
    + exact (strict_not_corner t _ (proj2 Ft) T C).
    + exact (side_not_corner t _ (proj2 Ft) T C).
    + exact (side_not_corner t _ (proj2 Ft) T C).
    + exact (side_not_corner t _ (proj2 Ft) T C).
Qed.
Lemma inside_tells : forall px p t, locates_points px -> finite_point p -> finite_face t ->
  (px_point_triangle px p t = Inside <-> strictly_among (place_of p) (corner t 0) (corner t 1) (corner t 2)).
Proof.
  intros px p t L Fp Ft. split.
  - intros V. destruct (touch_dec (p, p) t) as [(x & A & B)|N].
    + assert (O : on_triangle (place_of p) t) by (eapply among_eq; [apply same_spot_sym, single_between; exact A|exact B]).
      pose proof (lp_on px L p t Fp Ft O) as T. rewrite V in T. exact T.
    + rewrite (lp_outside px L p t Fp Ft) in V by (apply (N (place_of p)); apply single_between, same_spot_refl). discriminate V.
  - intros C. pose proof (lp_on px L p t Fp Ft (strictly_weak _ _ _ _ C)) as T.
    assert (NS : ~ (within (place_of p) (corner t 0) (corner t 1) \/ within (place_of p) (corner t 1) (corner t 2) \/ within (place_of p) (corner t 2) (corner t 0))).
    { intros W. apply (side_not_inside (corner t 0) (corner t 1) (corner t 2) (place_of p) (proj2 Ft)); [|exact C]. destruct W as [(W & _)|[(W & _)|(W & _)]]; [left|right; left|right; right]; exact W. }
    assert (NV : ~ at_corner_of (place_of p) t) by (exact (strict_not_corner t _ (proj2 Ft) C)).
    destruct (px_point_triangle px p t); cbn in T; try contradiction; try reflexivity; exfalso; apply NV; [exists 0%nat|exists 1%nat|exists 2%nat]; (split; [lia|exact T]).
Qed.

(** ** In space *)
Lemma curve_test_3d : forall px r s t, locates_on_triangles px r -> locates_points px -> finite_edge s -> finite_face t ->
  (segment_meets_triangle_3d px s t <-> crosses_in_space r s t).
Proof.
  intros px r s t L LP F G.
  assert (EC : forall p, an_end s p -> (at_vertex (px_point_triangle px p t) <-> at_corner_of (place_of p) t)) by (intros p Hp; apply vertex_tells; [exact LP|exact (end_finite s p (proj1 F) Hp)|exact G]).
  assert (EI : forall p, an_end s p -> (px_point_triangle px p t = Inside <-> strictly_among (place_of p) (corner t 0) (corner t 1) (corner t 2))) by (intros p Hp; apply inside_tells; [exact LP|exact (end_finite s p (proj1 F) Hp)|exact G]).
  assert (ON : forall p, an_end s p -> on_segment (place_of p) s) by (intros p Hp; destruct (end_of s p Hp) as (i & Li & ->); apply end_on_segment, Li).
  unfold segment_meets_triangle_3d, crosses_in_space. cbv zeta. split.
  - intros [(p & Hp & I)|(_ & _ & H)].
    + apply EI in I; [|exact Hp]. exists (place_of p). split; [exact (ON p Hp)|]. split; [exact (strictly_weak _ _ _ _ I)|].
      pose proof (strict_not_corner t _ (proj2 G) I) as NC. split; [|tauto]. intros _. destruct (end_of s p Hp) as (i & Li & E). rewrite E in NC. exists i. tauto.
    + destruct (parallel_dec r s t) as [P|P].
      * rewrite (lt_parallel px r L s t F G P) in H. cbn [fst snd] in H.
        destruct H as [H|[H|[H|(_ & p & Hp & N)]]]; [discriminate H|discriminate H|unfold on_triangle_edge in H; intuition discriminate|].
        destruct (parallel_touches r s t P) as (x & X1 & X2). exists x. split; [exact X1|]. split; [exact X2|]. split; [|tauto].
        intros _. rewrite (EC p Hp) in N. destruct (end_of s p Hp) as (i & Li & E). rewrite E in N. exists i. tauto.
      * assert (H' : let q := px_segment_triangle px s t in fst q = Inside \/ snd q = Inside \/ on_triangle_edge (fst q) \/ on_triangle_edge (snd q)).
        { cbv zeta. destruct H as [H|[H|[H|(H & p & Hp & N)]]]; try tauto. exfalso.
          destruct (touch_dec s t) as [(x & X1 & X2)|T]; [|rewrite (lt_apart px r L s t F G T) in H; discriminate H].
          destruct (lt_contact px r L s t x F G X1 X2 P) as (TS & _). rewrite H in TS. exact TS. }
        apply (line_test px r s t L F G) in H'. destruct H' as (x & X1 & X2 & _ & N). exists x. tauto.
  - intros (x & X1 & X2 & HP & HN). destruct (parallel_dec r s t) as [P|P].
    + right. rewrite (lt_parallel px r L s t F G P). cbn [fst snd]. split; [discriminate|]. split; [discriminate|]. right. right. right. split; [reflexivity|].
      destruct (HP P) as (i & Li & N). destruct (end_point s i) as (p & Hp & E). exists p. split; [exact Hp|]. rewrite (EC p Hp), E. exact N.
    + right. assert (H : let q := px_segment_triangle px s t in fst q = Inside \/ snd q = Inside \/ on_triangle_edge (fst q) \/ on_triangle_edge (snd q)) by (apply (line_test px r s t L F G); exists x; tauto).
      cbv zeta in H. destruct (lt_contact px r L s t x F G X1 X2 P) as (TS & TT).
      split; [intros K; rewrite K in TS; exact TS|]. split; [intros K; rewrite K in TT; exact TT|].
      destruct H as [H|[H|[H|H]]]; [tauto|tauto| |tauto]. exfalso. destruct H as [H|[H|H]]; rewrite H in TS; exact TS.
Qed.

(** ** In the plane *)
(** a contact of the segment [u v] with a side that is not on its line, not both an end and a corner *)
Definition seen_side (u v p q r : place) : Prop :=
  exists y a b, ends a b p q r /\ between y u v /\ between y a b /\ ~ (aligned a u v /\ aligned b u v) /\
    ~ ((same_spot y u \/ same_spot y v) /\ (same_spot y p \/ same_spot y q \/ same_spot y r)).
Lemma seen_turn : forall u v p q r, seen_side u v q r p -> seen_side u v p q r.
Proof.
  intros u v p q r (y & a & b & E & H1 & H2 & H3 & H4). exists y, a, b. split; [unfold ends in *; tauto|]. split; [exact H1|]. split; [exact H2|]. split; [exact H3|tauto].
Qed.
Lemma seen_swap : forall u v p q r, seen_side u v q p r -> seen_side u v p q r.
Proof.
  intros u v p q r (y & a & b & E & H1 & H2 & H3 & H4). exists y, a, b. split; [unfold ends in *; tauto|]. split; [exact H1|]. split; [exact H2|]. split; [exact H3|tauto].
Qed.
Lemma seen_back : forall u v p q r, seen_side v u p q r -> seen_side u v p q r.
Proof.
  intros u v p q r (y & a & b & E & H1 & H2 & H3 & H4). exists y, a, b. split; [exact E|]. split; [apply between_swap, H1|]. split; [exact H2|].
  split; [|tauto]. intros (K1 & K2). apply H3. split; apply aligned_swap; assumption.
Qed.
(** the segment is on the line of [p q] and goes beyond [p] *)
Lemma beyond_corner : forall u v p q r x, ~ flat p q r -> ~ same_spot u v -> aligned u p q -> between x u v -> between x p q ->
  (exists t, t < 0 /\ same_spot v (mean2 (1 - t) t p q)) -> ~ ((same_spot x u \/ same_spot x v) /\ (same_spot x p \/ same_spot x q \/ same_spot x r)) ->
  seen_side u v p q r.
Proof.
  intros u v p q r x N D (u' & a & Su & Eu) (g & h & G & H & S & Ex) (c' & c & C' & C & Sc & Ec) (t & T & Ev) NX.
  pose proof (real_ends p q r N) as (Npq & _).
  assert (U : forall a b, same_spot (mean2 (1 - a) a p q) (mean2 (1 - b) b p q) -> a == b).
  { intros a0 b0 E. destruct (Qeq_dec a0 b0) as [K|K]; [exact K|]. exfalso. apply Npq. destruct p as [[? ?] ?], q as [[? ?] ?]. spots. destruct E as (E0 & E1 & E2).
    assert (R : forall P Q0, (1 - a0) * P + a0 * Q0 == (1 - b0) * P + b0 * Q0 -> P == Q0).
    { intros P Q0 W. assert (Z : (Q0 - P) * (a0 - b0) == 0) by lra. apply mult_z in Z; lra. }
    repeat split; apply R; assumption. }
  assert (EU : same_spot u (mean2 (1 - a) a p q)).
  { assert (K : u' == 1 - a) by lra. destruct u as [[? ?] ?], p as [[? ?] ?], q as [[? ?] ?]. spots. rewrite K in *. exact Eu. }
  assert (EX : same_spot x (mean2 (1 - c) c p q)).
  { assert (K : c' == 1 - c) by lra. destruct x as [[? ?] ?], p as [[? ?] ?], q as [[? ?] ?]. spots. rewrite K in *. exact Ec. }
  assert (Kc : c == g * a + h * t).
  { apply U. eapply same_spot_trans; [apply same_spot_sym; exact EX|]. eapply same_spot_trans; [exact Ex|].
    assert (Kg : g == 1 - h) by lra.
    destruct u as [[? ?] ?], v as [[? ?] ?], p as [[? ?] ?], q as [[? ?] ?]. spots. destruct EU as (-> & -> & ->), Ev as (-> & -> & ->). rewrite Kg. repeat split; ring. }
  assert (EP : same_spot p (mean2 (1 - 0) 0 p q)) by (destruct p as [[? ?] ?], q as [[? ?] ?]; spots; repeat split; ring).
  assert (A0 : 0 <= a).
  { destruct (Qlt_le_dec a 0) as [La|La]; [|exact La]. exfalso. clear - Kc La T G H S C. destruct (Qlt_le_dec 0 g) as [Pg|Pg].
    - assert (K : g * a < 0) by nra. assert (K' : h * t <= 0) by nra. lra.
    - assert (Zg : g == 0) by lra. assert (Zh : h == 1) by lra. rewrite Zg, Zh in Kc. lra. }
  (* [u] is not [p] *)
  assert (NU : ~ same_spot p u).
  { intros E. assert (Ka : a == 0). { apply U. eapply same_spot_trans; [apply same_spot_sym; exact EU|]. eapply same_spot_trans; [apply same_spot_sym; exact E|exact EP]. }
    assert (Kx : c == 0) by (rewrite Ka in Kc; nra).
    assert (Xp : same_spot x p). { eapply same_spot_trans; [exact EX|]. eapply same_spot_trans; [|apply same_spot_sym; exact EP]. destruct p as [[? ?] ?], q as [[? ?] ?]. spots. rewrite Kx. repeat split; reflexivity. }
    apply NX. split; [left; eapply same_spot_trans; eassumption|left; exact Xp]. }
  assert (NV : ~ same_spot p v).
  { intros E. assert (0 == t). { apply U. eapply same_spot_trans; [apply same_spot_sym; exact EP|]. eapply same_spot_trans; [exact E|exact Ev]. } lra. }
  assert (BP : between p u v).
  { assert (NZ : ~ a - t == 0) by lra. assert (I : (a - t) * / (a - t) == 1) by (apply Qmult_inv_r; exact NZ). assert (IP : 0 < / (a - t)) by (apply Qinv_lt_0_compat; lra).
    set (i := / (a - t)) in *. clearbody i. exists (- t * i), (a * i). split; [nra|]. split; [nra|]. split; [transitivity ((a - t) * i); [ring|exact I]|].
    assert (R : forall P Q0, P == - t * i * ((1 - a) * P + a * Q0) + a * i * ((1 - t) * P + t * Q0)).
    { intros P Q0. transitivity (((a - t) * i) * P); [rewrite I; ring|ring]. }
    destruct u as [[? ?] ?], v as [[? ?] ?], p as [[? ?] ?], q as [[? ?] ?]. spots. destruct EU as (-> & -> & ->), Ev as (-> & -> & ->). repeat split; apply R. }
  exists p, r, p. split; [unfold ends; tauto|]. split; [exact BP|]. split; [apply between_last|]. split.
  - intros (K1 & K2). apply N.
    assert (AU : aligned u p q) by (exists u', a; tauto). assert (AV : aligned v p q) by (exists (1 - t), t; split; [ring|exact Ev]).
    assert (W : aligned r p q). { exact (aligned_line u v r p q AU AV K1). }
    apply (three_aligned p q p q r); [apply between_aligned, between_first|apply between_aligned, between_last|exact W].
  - intros ([K|K] & _); [exact (NU K)|exact (NV K)].
Qed.
Lemma aligned_case_v : forall u v p q r x, ~ flat p q r -> ~ same_spot u v -> aligned u p q -> aligned v p q -> between x u v -> among x p q r ->
  ~ ((same_spot x u \/ same_spot x v) /\ (same_spot x p \/ same_spot x q \/ same_spot x r)) -> ~ between v p q -> seen_side u v p q r.
Proof.
  intros u v p q r x N D AU AV X1 X2 NX NB. pose proof AV as (v' & t & Sv & Ev).
  assert (BX : between x p q).
  { eapply aligned_between; [exact N|exact X2|]. apply (aligned_line u v); [exact AU|exact AV|apply between_aligned; exact X1]. }
  assert (EV : same_spot v (mean2 (1 - t) t p q)).
  { assert (K : v' == 1 - t) by lra. destruct v as [[? ?] ?], p as [[? ?] ?], q as [[? ?] ?]. spots. rewrite K in *. exact Ev. }
  destruct (Qlt_le_dec t 0) as [T|T].
  - apply (beyond_corner u v p q r x); try assumption. exists t. split; [exact T|exact EV].
  - destruct (Qlt_le_dec 1 t) as [T'|T'].
    + apply seen_swap. apply (beyond_corner u v q p r x); [apply flat_swap', N|exact D|apply aligned_swap, AU|exact X1|apply between_swap, BX| |tauto].
      exists (1 - t). split; [lra|]. eapply same_spot_trans; [exact EV|]. destruct p as [[? ?] ?], q as [[? ?] ?]. spots. repeat split; ring.
    + exfalso. apply NB. exists (1 - t), t. split; [lra|]. split; [lra|]. split; [ring|exact EV].
Qed.
Lemma between_dec_line : forall x p q, between x p q \/ ~ between x p q.
Proof.
  intros x p q. destruct (touchb x x p q q) eqn:K.
  - left. apply side_touch in K. destruct K as (y & A & B). apply single_between in A. eapply between_eq; [apply same_spot_sym; exact A|exact B].
  - right. intros H. apply (side_touch_false _ _ _ _ _ K (between_first x x)). exact H.
Qed.
Lemma aligned_case : forall u v p q r x, ~ flat p q r -> ~ same_spot u v -> aligned u p q -> aligned v p q -> between x u v -> among x p q r ->
  ~ ((same_spot x u \/ same_spot x v) /\ (same_spot x p \/ same_spot x q \/ same_spot x r)) -> ~ (between u p q /\ between v p q) -> seen_side u v p q r.
Proof.
  intros u v p q r x N D AU AV X1 X2 NX NB. destruct (between_dec_line v p q) as [B|B]; [|exact (aligned_case_v u v p q r x N D AU AV X1 X2 NX B)].
  apply seen_back. apply (aligned_case_v v u p q r x); try assumption; [intros E; apply D, same_spot_sym, E|apply between_swap, X1|tauto|tauto].
Qed.
Lemma between_both : forall x u v, between x u v -> between v x u -> same_spot x v.
Proof.
  intros x u v (g & d & G & D & S & E) (a & b & A & B & S' & E').
  destruct (Qeq_dec (a * d) 1) as [K|K].
  - assert (a == 1) by nra. assert (Kb : b == 0) by lra. destruct x as [[? ?] ?], u as [[? ?] ?], v as [[? ?] ?]. spots. destruct E' as (F0 & F1 & F2). rewrite Kb in *. assert (Ka : a == 1) by assumption. rewrite Ka in *. repeat split; lra.
  - assert (W : same_spot u v).
    { assert (R : forall X U0 V, X == g * U0 + d * V -> V == a * X + b * U0 -> U0 == V).
      { intros X U0 V EX EV. assert (g == 1 - d) as Kg by lra. assert (b == 1 - a) as Kb by lra. rewrite EX, Kg, Kb in EV.
        assert (Z : (V - U0) * (1 - a * d) == 0) by lra. apply mult_z in Z; lra. }
      destruct x as [[? ?] ?], u as [[? ?] ?], v as [[? ?] ?]. spots. destruct E as (E0 & E1 & E2), E' as (F0 & F1 & F2). repeat split; eapply R; eassumption. }
    destruct x as [[? ?] ?], u as [[? ?] ?], v as [[? ?] ?]. spots. destruct E as (E0 & E1 & E2), W as (W0 & W1 & W2). rewrite W0 in E0. rewrite W1 in E1. rewrite W2 in E2.
    assert (Kg : g == 1 - d) by lra. rewrite Kg in *. repeat split; lra.
Qed.
Lemma ends_distinct : forall a b p q r, ~ flat p q r -> ends a b p q r -> ~ same_spot a b.
Proof.
  intros a b p q r N E. destruct (real_ends p q r N) as (A & B & C). unfold ends in E.
  intuition (subst; eauto using same_spot_sym).
Qed.
Lemma crossing_seen : forall u v p q r x, ~ flat p q r -> level p -> level q -> level r -> level u -> level v -> ~ same_spot u v ->
  between x u v -> among x p q r -> ~ ((same_spot x u \/ same_spot x v) /\ (same_spot x p \/ same_spot x q \/ same_spot x r)) ->
  (forall a b, ends a b p q r -> ~ (between u a b /\ between v a b)) -> ~ strictly_among u p q r -> ~ strictly_among v p q r -> seen_side u v p q r.
Proof.
  intros u v p q r x N LP LQ LR LU LV D X1 X2 NX NB NU NV.
  pose proof (flat_turn' _ _ _ N) as N1. pose proof (flat_turn' _ _ _ N1) as N2.
  assert (AD : forall a b c, ~ flat a b c -> level a -> level b -> level c -> (aligned u a b /\ aligned v a b) \/ ~ (aligned u a b /\ aligned v a b)).
  { intros a b c Nf A B C. destruct (aligned_dec a b c u Nf A B C LU) as [K|K]; [|right; tauto]. destruct (aligned_dec a b c v Nf A B C LV) as [K'|K']; [left|right]; tauto. }
  destruct (AD p q r N LP LQ LR) as [(A1 & A2)|D1].
  { apply (aligned_case u v p q r x); try assumption. apply NB. unfold ends. tauto. }
  destruct (AD q r p N1 LQ LR LP) as [(A1 & A2)|D2].
  { apply seen_turn. apply (aligned_case u v q r p x); try assumption; [apply among_turn; exact X2|tauto|apply NB; unfold ends; tauto]. }
  destruct (AD r p q N2 LR LP LQ) as [(A1 & A2)|D3].
  { apply seen_turn, seen_turn. apply (aligned_case u v r p q x); try assumption; [apply among_turn, among_turn; exact X2|tauto|apply NB; unfold ends; tauto]. }
  (* no side is on the line of [u v] *)
  assert (AE : forall a b, ends a b p q r -> ~ (aligned u a b /\ aligned v a b)).
  { intros a b E (K1 & K2). unfold ends in E. destruct E as [(-> & ->)|[(-> & ->)|[(-> & ->)|[(-> & ->)|[(-> & ->)|(-> & ->)]]]]]; try tauto;
      apply aligned_swap in K1, K2; tauto. }
  assert (AE' : forall a b, ends a b p q r -> ~ (aligned a u v /\ aligned b u v)).
  { intros a b E (K1 & K2). apply (AE a b E). pose proof (ends_distinct a b p q r N E) as Nab.
    split; apply (one_line_two a b _ u v Nab K1 K2); apply between_aligned; [apply between_first|apply between_last]. }
  assert (SD : forall y, on_a_side y p q r -> exists a b, ends a b p q r /\ between y a b).
  { intros y [K|[K|K]]; [exists p, q|exists q, r|exists r, p]; (split; [unfold ends; tauto|exact K]). }
  assert (DEC : forall y, ((same_spot y u \/ same_spot y v) /\ (same_spot y p \/ same_spot y q \/ same_spot y r)) \/ ~ ((same_spot y u \/ same_spot y v) /\ (same_spot y p \/ same_spot y q \/ same_spot y r))).
  { intros y. destruct (same_spot_dec y u), (same_spot_dec y v), (same_spot_dec y p), (same_spot_dec y q), (same_spot_dec y r); tauto. }
  destruct (strict_or_side x p q r X2) as [SX|SX].
  2:{ destruct (SD x SX) as (a & b & E & B). exists x, a, b. split; [exact E|]. split; [exact X1|]. split; [exact B|]. split; [exact (AE' a b E)|exact NX]. }
  assert (NC : ~ (same_spot x p \/ same_spot x q \/ same_spot x r)).
  { intros [K|[K|K]]; [exact (corner_not_inside _ _ _ _ N SX K)|exact (corner_not_inside _ _ _ _ N1 (strictly_turn _ _ _ _ SX) K)|exact (corner_not_inside _ _ _ _ N2 (strictly_turn _ _ _ _ (strictly_turn _ _ _ _ SX)) K)]. }
  destruct (leave p q r x u N LP LQ LR LU X2 NU) as (y0 & Y0 & S0). destruct (leave p q r x v N LP LQ LR LV X2 NV) as (y1 & Y1 & S1).
  assert (B0 : between y0 u v) by (apply between_swap; eapply between_trans; [apply between_swap; exact X1|exact Y0]).
  assert (B1 : between y1 u v) by (eapply between_trans; [exact X1|exact Y1]).
  destruct (DEC y0) as [(E0 & C0)|K0].
  2:{ destruct (SD y0 S0) as (a & b & E & B). exists y0, a, b. split; [exact E|]. split; [exact B0|]. split; [exact B|]. split; [exact (AE' a b E)|exact K0]. }
  destruct (DEC y1) as [(E1 & C1)|K1].
  2:{ destruct (SD y1 S1) as (a & b & E & B). exists y1, a, b. split; [exact E|]. split; [exact B1|]. split; [exact B|]. split; [exact (AE' a b E)|exact K1]. }
  exfalso.
  assert (P0 : same_spot y0 u).
  { destruct E0 as [K|K]; [exact K|]. exfalso. apply NC.
    assert (K' : same_spot x v) by (apply (between_both x u v X1); eapply between_eq; [apply same_spot_sym; exact K|exact Y0]).
    destruct C0 as [C0|[C0|C0]]; [left|right; left|right; right]; (eapply same_spot_trans; [exact K'|]; eapply same_spot_trans; [apply same_spot_sym; exact K|exact C0]). }
  assert (P1 : same_spot y1 v).
  { destruct E1 as [K|K]; [|exact K]. exfalso. apply NC.
    assert (K' : same_spot x u) by (apply (between_both x v u (between_swap _ _ _ X1)); eapply between_eq; [apply same_spot_sym; exact K|exact Y1]).
    destruct C1 as [C1|[C1|C1]]; [left|right; left|right; right]; (eapply same_spot_trans; [exact K'|]; eapply same_spot_trans; [apply same_spot_sym; exact K|exact C1]). }
  assert (CU : same_spot u p \/ same_spot u q \/ same_spot u r) by (destruct C0 as [C0|[C0|C0]]; [left|right; left|right; right]; (eapply same_spot_trans; [apply same_spot_sym; exact P0|exact C0])).
  assert (CV : same_spot v p \/ same_spot v q \/ same_spot v r) by (destruct C1 as [C1|[C1|C1]]; [left|right; left|right; right]; (eapply same_spot_trans; [apply same_spot_sym; exact P1|exact C1])).
  assert (Fin : forall a b, same_spot u a -> same_spot v b -> ends a b p q r -> False).
  { intros a b Ea Eb E. apply (NB a b E). split; [eapply between_eq; [exact Ea|apply between_first]|eapply between_eq; [exact Eb|apply between_last]]. }
  assert (Dup : forall a, same_spot u a -> same_spot v a -> False) by (intros a Ea Eb; apply D; eapply same_spot_trans; [exact Ea|apply same_spot_sym; exact Eb]).
  clear - CU CV Fin Dup.
  destruct CU as [CU|[CU|CU]], CV as [CV|[CV|CV]]; try (exact (Dup _ CU CV)); apply (Fin _ _ CU CV); unfold ends; tauto.
Qed.
