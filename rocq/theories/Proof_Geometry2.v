(** Triangles that share a corner, and triangles that share a side. *)
From Coq Require Import List Arith ZArith Bool QArith Lqa Lia.
From Verif Require Import Spec_Geometry Proof_Geometry.
Import ListNotations.
Local Open Scope Q_scope.

Lemma among_turn : forall x p q r, among x p q r -> among x q r p.
Proof.
  intros [[x0 x1] x2] [[p0 p1] p2] [[q0 q1] q2] [[r0 r1] r2] (a & b & c & A & B & C & S & E). exists b, c, a.
  split; [assumption|]. split; [assumption|]. split; [assumption|]. split; [lra|]. unfold same_spot, mean3 in *. destruct E as (E0 & E1 & E2). repeat split; lra.
Qed.
Lemma side_turn : forall x p q r, on_a_side x p q r -> on_a_side x q r p.
Proof. unfold on_a_side. tauto. Qed.

Lemma share_beyond_00 : forall p0 p1 p2 q0 q1 q2 x, same_spot p0 q0 -> among x p0 p1 p2 -> among x q0 q1 q2 -> ~ same_spot x p0 ->
  exists y, among y p0 p1 p2 /\ among y q0 q1 q2 /\ (on_a_side y p0 p1 p2 \/ on_a_side y q0 q1 q2) /\ ~ same_spot y p0.
Proof.
  intros p0 p1 p2 q0 q1 q2 x C (a0 & a1 & a2 & A0 & A1 & A2 & SA & EA) (b0 & b1 & b2 & B0 & B1 & B2 & SB & EB) N.
  assert (E : same_spot (mean3 a0 a1 a2 p0 p1 p2) (mean3 b0 b1 b2 q0 q1 q2)) by (eapply same_spot_trans; [apply same_spot_sym; exact EA|exact EB]).
  destruct p0 as [[p00 p01] p02] eqn:E0, p1 as [[p10 p11] p12] eqn:E1, p2 as [[p20 p21] p22] eqn:E2,
    q0 as [[q00 q01] q02] eqn:E3, q1 as [[q10 q11] q12] eqn:E4, q2 as [[q20 q21] q22] eqn:E5, x as [[x0 x1] x2].
  destruct (walk_triangles p0 p1 p2 q0 q1 q2 a0 a1 a2 b0 b1 b2 (a0 - 1) a1 a2 (b0 - 1) b1 b2) as (t & T & H); subst; try assumption; try lra.
  - unfold same_spot, mean3 in *. destruct C as (C0 & C1 & C2), E as (F0 & F1 & F2). repeat split; lra.
  - intros (_ & Z1 & Z2 & _). apply N. unfold same_spot, mean3 in EA |- *. assert (Z0 : a0 == 1) by lra.
    destruct EA as (-> & -> & ->). rewrite Z0, Z1, Z2. repeat split; ring.
  - cbv zeta in H. destruct H as (H1 & H2 & H3). eexists. split; [exact H1|]. split; [exact H2|]. split; [exact H3|].
    unfold same_spot, mean3 in EA, N |- *. destruct EA as (X0 & X1 & X2). intros (Y0 & Y1 & Y2).
    assert (R : forall P0 P1 P2 X, X == a0 * P0 + a1 * P1 + a2 * P2 ->
       (a0 + t * (a0 - 1)) * P0 + (a1 + t * a1) * P1 + (a2 + t * a2) * P2 == P0 -> X == P0).
    { intros P0 P1 P2 X HX HY. assert (Z : (X - P0) * (1 + t) == 0).
      { transitivity (((a0 + t * (a0 - 1)) * P0 + (a1 + t * a1) * P1 + (a2 + t * a2) * P2) - P0); [|lra]. rewrite HX. ring. }
      apply mult_z in Z; [lra|lra]. }
    apply N. repeat split; eapply R; eassumption.
Qed.
(** corner number [i] *)
Definition nth_corner (i : nat) (p q r : place) : place := match i with O => p | 1%nat => q | _ => r end.
Theorem share_beyond : forall p0 p1 p2 q0 q1 q2 i j x, same_spot (nth_corner i p0 p1 p2) (nth_corner j q0 q1 q2) ->
  among x p0 p1 p2 -> among x q0 q1 q2 -> ~ same_spot x (nth_corner i p0 p1 p2) ->
  exists y, among y p0 p1 p2 /\ among y q0 q1 q2 /\ (on_a_side y p0 p1 p2 \/ on_a_side y q0 q1 q2) /\ ~ same_spot y (nth_corner i p0 p1 p2).
Proof.
  assert (J : forall p0 p1 p2 q0 q1 q2 j x, same_spot p0 (nth_corner j q0 q1 q2) ->
    among x p0 p1 p2 -> among x q0 q1 q2 -> ~ same_spot x p0 ->
    exists y, among y p0 p1 p2 /\ among y q0 q1 q2 /\ (on_a_side y p0 p1 p2 \/ on_a_side y q0 q1 q2) /\ ~ same_spot y p0).
  { intros p0 p1 p2 q0 q1 q2 [|[|j]] x C A B N; cbn [nth_corner] in C.
    - eapply share_beyond_00; eassumption.
    - destruct (share_beyond_00 p0 p1 p2 q1 q2 q0 x C A (among_turn _ _ _ _ B) N) as (y & H1 & H2 & H3 & H4).
      exists y. split; [exact H1|]. split; [apply among_turn, among_turn, H2|]. split; [|exact H4].
      destruct H3 as [H3|H3]; [left; exact H3|right; apply side_turn, side_turn, H3].
    - destruct (share_beyond_00 p0 p1 p2 q2 q0 q1 x C A (among_turn _ _ _ _ (among_turn _ _ _ _ B)) N) as (y & H1 & H2 & H3 & H4).
      exists y. split; [exact H1|]. split; [apply among_turn, H2|]. split; [|exact H4].
      destruct H3 as [H3|H3]; [left; exact H3|right; apply side_turn, H3]. }
  intros p0 p1 p2 q0 q1 q2 [|[|i]] j x C A B N; cbn [nth_corner] in C, N |- *.
  - eapply J; eassumption.
  - destruct (J p1 p2 p0 q0 q1 q2 j x C (among_turn _ _ _ _ A) B N) as (y & H1 & H2 & H3 & H4).
    exists y. split; [apply among_turn, among_turn, H1|]. split; [exact H2|]. split; [|exact H4].
    destruct H3 as [H3|H3]; [left; apply side_turn, side_turn, H3|right; exact H3].
  - destruct (J p2 p0 p1 q0 q1 q2 j x C (among_turn _ _ _ _ (among_turn _ _ _ _ A)) B N) as (y & H1 & H2 & H3 & H4).
    exists y. split; [apply among_turn, H1|]. split; [exact H2|]. split; [|exact H4].
    destruct H3 as [H3|H3]; [left; apply side_turn, H3|right; exact H3].
Qed.

(** ** Two triangles A B V and A B W *)
Ltac spots := unfold same_spot, mean2, mean3 in *.
Lemma independent : forall p q r a b c, ~ flat p q r -> a + b + c == 0 -> same_spot (mean3 a b c p q r) (0, 0, 0) -> a == 0 /\ b == 0 /\ c == 0.
Proof.
  intros p q r a b c N S E. destruct (Qeq_dec a 0), (Qeq_dec b 0), (Qeq_dec c 0); try tauto; exfalso; apply N; exists a, b, c; tauto.
Qed.
Lemma real_ends : forall p q r, ~ flat p q r -> ~ same_spot p q /\ ~ same_spot q r /\ ~ same_spot p r.
Proof.
  intros [[p0 p1] p2] [[q0 q1] q2] [[r0 r1] r2] N.
  assert (K : forall a b c, ~ (a == 0 /\ b == 0 /\ c == 0) -> a + b + c == 0 ->
    ~ same_spot (mean3 a b c (p0, p1, p2) (q0, q1, q2) (r0, r1, r2)) (0, 0, 0)) by (intros a b c H S E; apply N; exists a, b, c; tauto).
  split; [|split]; intros E; spots; destruct E as (E0 & E1 & E2).
  - apply (K 1 (-1) 0); [intros (H & _); discriminate H|reflexivity|]. repeat split; lra.
  - apply (K 0 1 (-1)); [intros (_ & H & _); discriminate H|reflexivity|]. repeat split; lra.
  - apply (K 1 0 (-1)); [intros (H & _); discriminate H|reflexivity|]. repeat split; lra.
Qed.
Lemma between_among_02 : forall x p q r, between x p r -> among x p q r.
Proof.
  intros [[x0 x1] x2] [[p0 p1] p2] [[q0 q1] q2] [[r0 r1] r2] (a & b & A & B & S & E). exists a, 0, b.
  split; [assumption|]. split; [lra|]. split; [assumption|]. split; [lra|]. spots. destruct E as (E0 & E1 & E2). repeat split; lra.
Qed.
Lemma flat_swap : forall p q r, flat q p r -> flat p q r.
Proof.
  intros [[p0 p1] p2] [[q0 q1] q2] [[r0 r1] r2] (a & b & c & N & S & E). exists b, a, c. split; [tauto|]. split; [lra|]. spots. destruct E as (E0 & E1 & E2). repeat split; lra.
Qed.
Lemma among_swap : forall x p q r, among x p q r -> among x q p r.
Proof.
  intros [[x0 x1] x2] [[p0 p1] p2] [[q0 q1] q2] [[r0 r1] r2] (a & b & c & A & B & C & S & E). exists b, a, c.
  split; [assumption|]. split; [assumption|]. split; [assumption|]. split; [lra|]. spots. destruct E as (E0 & E1 & E2). repeat split; lra.
Qed.
Lemma strictly_swap : forall x p q r, strictly_among x p q r -> strictly_among x q p r.
Proof.
  intros [[x0 x1] x2] [[p0 p1] p2] [[q0 q1] q2] [[r0 r1] r2] (a & b & c & A & B & C & S & E). exists b, a, c.
  split; [assumption|]. split; [assumption|]. split; [assumption|]. split; [lra|]. spots. destruct E as (E0 & E1 & E2). repeat split; lra.
Qed.
Lemma aligned_swap : forall x p q, aligned x p q -> aligned x q p.
Proof.
  intros [[x0 x1] x2] [[p0 p1] p2] [[q0 q1] q2] (a & b & S & E). exists b, a. split; [lra|]. spots. destruct E as (E0 & E1 & E2). repeat split; lra.
Qed.
(** a segment and a triangle touch at two places *)
Definition overlap (a v p q r : place) : Prop :=
  exists x y, between x a v /\ among x p q r /\ between y a v /\ among y p q r /\ ~ same_spot x y.
Lemma overlap_off_side : forall A B V W, ~ flat A B V -> ~ flat A B W -> overlap A V A B W ->
  ~ strictly_among W A B V /\ exists x, among x A B V /\ among x A B W /\ ~ aligned x A B.
Proof.
  intros A B V W N1 N2 (x & y & X1 & X2 & Y1 & Y2 & D).
  assert (H : exists z, between z A V /\ among z A B W /\ ~ same_spot z A).
  { destruct (same_spot_dec x A) as [E|E]; [|exists x; tauto]. exists y. split; [exact Y1|]. split; [exact Y2|].
    intros F. apply D. eapply same_spot_trans; [exact E|apply same_spot_sym, F]. }
  clear x y X1 X2 Y1 Y2 D. destruct H as (z & Z1 & Z2 & D). pose proof Z1 as (s' & s & S1 & S2 & S3 & ES). pose proof Z2 as (b0 & b1 & b2 & B0 & B1 & B2 & SB & EB).
  assert (Ps : 0 < s).
  { destruct (Qlt_le_dec 0 s) as [H|H]; [exact H|]. exfalso. apply D. assert (Z : s == 0) by lra. assert (Z' : s' == 1) by lra.
    destruct z as [[? ?] ?], A as [[? ?] ?], V as [[? ?] ?]. spots. destruct ES as (-> & -> & ->). rewrite Z, Z'. repeat split; ring. }
  split.
  - intros (al & be & ga & PA & PB & PG & SG & EG).
    destruct (independent A B V (b0 + b2 * al - s') (b1 + b2 * be) (b2 * ga - s) N1) as (H1 & H2 & H3).
    + transitivity (b0 + b1 + b2 * (al + be + ga) - (s' + s)); [ring|]. rewrite SG, S3. rewrite Qmult_1_r, SB. ring.
    + destruct z as [[? ?] ?], A as [[? ?] ?], B as [[? ?] ?], V as [[? ?] ?], W as [[? ?] ?]. spots. destruct ES as (E0 & E1 & E2), EB as (F0 & F1 & F2), EG as (G0 & G1 & G2).
      rewrite G0, E0 in F0. rewrite G1, E1 in F1. rewrite G2, E2 in F2. repeat split; lra.
    + assert (Z2' : b2 == 0) by nra. rewrite Z2' in H3. lra.
  - exists z. split; [apply between_among_02; exact Z1|]. split; [exact Z2|]. intros (c0 & c1 & SC & EC).
    destruct (independent A B V (s' - c0) (- c1) s N1) as (H1 & H2 & H3); [lra| |lra].
    destruct z as [[? ?] ?], A as [[? ?] ?], B as [[? ?] ?], V as [[? ?] ?]. spots. destruct ES as (E0 & E1 & E2), EC as (F0 & F1 & F2).
    rewrite F0 in E0. rewrite F1 in E1. rewrite F2 in E2. repeat split; lra.
Qed.
Lemma fan_cone : forall A B V W al be ga, ~ flat A B V -> al + be + ga == 1 -> same_spot W (mean3 al be ga A B V) -> 0 < ga -> be <= 0 ->
  overlap A V A B W.
Proof.
  intros A B V W al be ga N1 S E G Bneg. exists A.
  set (k := ga + (if Qlt_le_dec al 0 then 0 else al)).
  assert (Pk : 0 < k /\ ga <= k /\ 0 <= k - ga - al). { unfold k. destruct (Qlt_le_dec al 0); repeat split; lra. }
  destruct Pk as (Pk & Gk & Lk).
  assert (I : k * / k == 1) by (apply Qmult_inv_r; lra).
  assert (Pi : 0 < / k) by (apply Qinv_lt_0_compat; exact Pk).
  (* s = ga/k ; z = (1 - s) A + s V = ((k - ga - al)/k) A + (- be / k) B + (1/k) W *)
  exists (mean2 (1 - ga * / k) (ga * / k) A V).
  assert (B1 : between (mean2 (1 - ga * / k) (ga * / k) A V) A V).
  { exists (1 - ga * / k), (ga * / k). split; [nra|]. split; [nra|]. split; [ring|]. apply same_spot_refl. }
  split; [|split; [|split; [|split]]].
  - exists 1, 0. split; [lra|]. split; [lra|]. split; [lra|]. destruct A as [[? ?] ?], V as [[? ?] ?]. spots. repeat split; ring.
  - exists 1, 0, 0. split; [lra|]. split; [lra|]. split; [lra|]. split; [lra|]. destruct A as [[? ?] ?], B as [[? ?] ?], W as [[? ?] ?]. spots. repeat split; ring.
  - exact B1.
  - exists ((k - ga - al) * / k), (- be * / k), (/ k). split; [nra|]. split; [nra|]. split; [lra|].
    split.
    { transitivity (k * / k + / k * (1 - (al + be + ga))); [ring|]. rewrite S, I. ring. }
    destruct A as [[? ?] ?], B as [[? ?] ?], V as [[? ?] ?], W as [[? ?] ?]. spots. destruct E as (E0 & E1 & E2).
    rewrite E0, E1, E2.
    assert (R : forall P Q R, (1 - ga * / k) * P + ga * / k * R == (k - ga - al) * / k * P + - be * / k * Q + / k * (al * P + be * Q + ga * R)).
    { intros P Q0 R. transitivity ((k * / k - ga * / k) * P + ga * / k * R); [rewrite I; reflexivity|ring]. }
    repeat split; apply R.
  - intros D. destruct (real_ends A B V N1) as (_ & _ & AV). apply AV.
    assert (P : 0 < ga * / k) by nra. set (s := ga * / k) in *. clearbody s.
    destruct A as [[? ?] ?], V as [[? ?] ?]. spots. destruct D as (D0 & D1 & D2).
    assert (R : forall P R, P == (1 - s) * P + s * R -> P == R).
    { intros P0 R H. assert (Z : (R - P0) * s == 0) by lra. apply mult_z in Z; lra. }
    repeat split; apply R; assumption.
Qed.
Theorem common_side : forall A B V W, ~ flat A B V -> ~ flat A B W ->
  (overlap A V A B W \/ overlap B V A B W <->
   (exists x, among x A B V /\ among x A B W /\ ~ aligned x A B) /\ ~ strictly_among W A B V).
Proof.
  intros A B V W N1 N2. split.
  - intros [H|H].
    + destruct (overlap_off_side A B V W N1 N2 H). tauto.
    + assert (H' : overlap B V B A W).
      { destruct H as (x & y & X1 & X2 & Y1 & Y2 & D). exists x, y. repeat split; try assumption; apply among_swap; assumption. }
      destruct (overlap_off_side B A V W) as (K1 & x & X1 & X2 & D); [intros F; apply N1, flat_swap, F|intros F; apply N2, flat_swap, F|exact H'|].
      split; [|intros S; apply K1, strictly_swap, S]. exists x. split; [apply among_swap, X1|]. split; [apply among_swap, X2|].
      intros S. apply D, aligned_swap, S.
  - intros [(x & (a0 & a1 & a2 & A0 & A1 & A2 & SA & EA) & (b0 & b1 & b2 & B0 & B1 & B2 & SB & EB) & D) K].
    assert (P2 : 0 < a2).
    { destruct (Qlt_le_dec 0 a2) as [H|H]; [exact H|]. exfalso. apply D. assert (Z : a2 == 0) by lra. exists a0, a1. split; [lra|].
      destruct x as [[? ?] ?], A as [[? ?] ?], B as [[? ?] ?], V as [[? ?] ?]. spots. destruct EA as (-> & -> & ->). rewrite Z. repeat split; ring. }
    assert (Q2 : 0 < b2).
    { destruct (Qlt_le_dec 0 b2) as [H|H]; [exact H|]. exfalso. apply D. assert (Z : b2 == 0) by lra. exists b0, b1. split; [lra|].
      destruct x as [[? ?] ?], A as [[? ?] ?], B as [[? ?] ?], W as [[? ?] ?]. spots. destruct EB as (-> & -> & ->). rewrite Z. repeat split; ring. }
    assert (I : b2 * / b2 == 1) by (apply Qmult_inv_r; lra). assert (Pi : 0 < / b2) by (apply Qinv_lt_0_compat; exact Q2).
    set (al := (a0 - b0) * / b2). set (be := (a1 - b1) * / b2). set (ga := a2 * / b2).
    assert (S : al + be + ga == 1).
    { unfold al, be, ga. transitivity (((a0 + a1 + a2) - (b0 + b1 + b2) + b2) * / b2); [ring|]. rewrite SA, SB. rewrite <- I. ring. }
    assert (E : same_spot W (mean3 al be ga A B V)).
    { assert (R : forall X P Q V W, X == a0 * P + a1 * Q + a2 * V -> X == b0 * P + b1 * Q + b2 * W -> W == al * P + be * Q + ga * V).
      { intros X P Q0 V0 W0 H1 H2. unfold al, be, ga. transitivity ((b2 * / b2) * W0); [rewrite I; ring|].
        transitivity (/ b2 * (X - b0 * P - b1 * Q0)); [rewrite H2; ring|]. rewrite H1. ring. }
      destruct x as [[? ?] ?], A as [[? ?] ?], B as [[? ?] ?], V as [[? ?] ?], W as [[? ?] ?]. spots. destruct EA as (E0 & E1 & E2), EB as (F0 & F1 & F2).
      repeat split; eapply R; eassumption. }
    assert (G : 0 < ga) by (unfold ga; nra). clearbody al be ga.
    destruct (Qlt_le_dec 0 be) as [Hb|Hb]; [|left; eapply fan_cone; eassumption].
    destruct (Qlt_le_dec 0 al) as [Ha|Ha]; [exfalso; apply K; exists al, be, ga; tauto|].
    right. destruct (fan_cone B A V W be al ga) as (y & z & Y1 & Y2 & Z1 & Z2 & NE); try assumption.
    + intros F. apply N1, flat_swap, F.
    + lra.
    + destruct A as [[? ?] ?], B as [[? ?] ?], V as [[? ?] ?], W as [[? ?] ?]. spots. destruct E as (E0 & E1 & E2). repeat split; lra.
    + exists y, z. repeat split; try assumption; apply among_swap; assumption.
Qed.
