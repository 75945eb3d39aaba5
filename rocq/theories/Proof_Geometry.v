(** Two triangles that share a point share one on a side of one of them. *)
From Coq Require Import List Arith ZArith Bool QArith Lqa Lia.
From Verif Require Import Spec_Geometry.
Import ListNotations.
Local Open Scope Q_scope.

(** ** Linear dependence in dimensions 1, 2, 3 *)
Lemma dep1 : forall a b : Q, exists x y, ~ (x == 0 /\ y == 0) /\ x * a + y * b == 0.
Proof.
  intros a b. destruct (Qeq_dec a 0) as [A|A].
  - exists 1, 0. split; [lra|]. rewrite A. ring.
  - exists b, (- a). split; [|ring]. intros [_ H]. apply A. lra.
Qed.
Lemma mult_nz : forall a b : Q, ~ a == 0 -> ~ b == 0 -> ~ a * b == 0.
Proof. intros a b A B H. apply Qmult_integral in H. tauto. Qed.
Lemma mult_z : forall a b : Q, ~ a == 0 -> b * a == 0 -> b == 0.
Proof. intros a b A H. apply Qmult_integral in H. tauto. Qed.
(** three vectors of the plane: (a1,a2) (b1,b2) (c1,c2) *)
Lemma dep2_pivot : forall a1 a2 b1 b2 c1 c2 : Q, ~ c1 == 0 ->
  exists x y z, ~ (x == 0 /\ y == 0 /\ z == 0) /\ x * a1 + y * b1 + z * c1 == 0 /\ x * a2 + y * b2 + z * c2 == 0.
Proof.
  intros a1 a2 b1 b2 c1 c2 C. destruct (dep1 (c1 * a2 - a1 * c2) (c1 * b2 - b1 * c2)) as (x & y & N & E).
  exists (x * c1), (y * c1), (- (x * a1 + y * b1)). repeat split.
  - intros (X & Y & _). apply N. split; eapply mult_z; eauto.
  - ring.
  - rewrite <- E. ring.
Qed.
Lemma dep2 : forall a1 a2 b1 b2 c1 c2 : Q,
  exists x y z, ~ (x == 0 /\ y == 0 /\ z == 0) /\ x * a1 + y * b1 + z * c1 == 0 /\ x * a2 + y * b2 + z * c2 == 0.
Proof.
  intros a1 a2 b1 b2 c1 c2.
  destruct (Qeq_dec c1 0) as [C|C]; [|apply dep2_pivot; exact C].
  destruct (Qeq_dec b1 0) as [B|B].
  2:{ destruct (dep2_pivot a1 a2 c1 c2 b1 b2 B) as (x & z & y & N & E1 & E2). exists x, y, z. split; [tauto|split; lra]. }
  destruct (Qeq_dec a1 0) as [A|A].
  2:{ destruct (dep2_pivot b1 b2 c1 c2 a1 a2 A) as (y & z & x & N & E1 & E2). exists x, y, z. split; [tauto|split; lra]. }
  destruct (dep1 a2 b2) as (x & y & N & E). exists x, y, 0. split; [tauto|]. split; [rewrite A, B; ring|lra].
Qed.
(** four vectors of space *)
Lemma dep3_pivot : forall a1 a2 a3 b1 b2 b3 c1 c2 c3 d1 d2 d3 : Q, ~ d1 == 0 ->
  exists x y z w, ~ (x == 0 /\ y == 0 /\ z == 0 /\ w == 0) /\ x * a1 + y * b1 + z * c1 + w * d1 == 0 /\
    x * a2 + y * b2 + z * c2 + w * d2 == 0 /\ x * a3 + y * b3 + z * c3 + w * d3 == 0.
Proof.
  intros a1 a2 a3 b1 b2 b3 c1 c2 c3 d1 d2 d3 D.
  destruct (dep2 (d1 * a2 - a1 * d2) (d1 * a3 - a1 * d3) (d1 * b2 - b1 * d2) (d1 * b3 - b1 * d3) (d1 * c2 - c1 * d2) (d1 * c3 - c1 * d3))
    as (x & y & z & N & E1 & E2).
  exists (x * d1), (y * d1), (z * d1), (- (x * a1 + y * b1 + z * c1)). repeat split.
  - intros (X & Y & Z & _). apply N. repeat split; eapply mult_z; eauto.
  - ring.
  - rewrite <- E1. ring.
  - rewrite <- E2. ring.
Qed.
Lemma dep3 : forall a1 a2 a3 b1 b2 b3 c1 c2 c3 d1 d2 d3 : Q,
  exists x y z w, ~ (x == 0 /\ y == 0 /\ z == 0 /\ w == 0) /\ x * a1 + y * b1 + z * c1 + w * d1 == 0 /\
    x * a2 + y * b2 + z * c2 + w * d2 == 0 /\ x * a3 + y * b3 + z * c3 + w * d3 == 0.
Proof.
  intros a1 a2 a3 b1 b2 b3 c1 c2 c3 d1 d2 d3.
  destruct (Qeq_dec d1 0) as [D|D]; [|apply dep3_pivot; exact D].
  destruct (Qeq_dec c1 0) as [C|C].
  2:{ destruct (dep3_pivot a1 a2 a3 b1 b2 b3 d1 d2 d3 c1 c2 c3 C) as (x & y & w & z & N & E1 & E2 & E3). exists x, y, z, w.
      split; [tauto|]. split; [lra|split; lra]. }
  destruct (Qeq_dec b1 0) as [B|B].
  2:{ destruct (dep3_pivot a1 a2 a3 c1 c2 c3 d1 d2 d3 b1 b2 b3 B) as (x & z & w & y & N & E1 & E2 & E3). exists x, y, z, w.
      split; [tauto|]. split; [lra|split; lra]. }
  destruct (Qeq_dec a1 0) as [A|A].
  2:{ destruct (dep3_pivot b1 b2 b3 c1 c2 c3 d1 d2 d3 a1 a2 a3 A) as (y & z & w & x & N & E1 & E2 & E3). exists x, y, z, w.
      split; [tauto|]. split; [lra|split; lra]. }
  destruct (dep2 a2 a3 b2 b3 c2 c3) as (x & y & z & N & E1 & E2). exists x, y, z, 0.
  split; [tauto|]. split; [rewrite A, B, C; ring|split; lra].
Qed.

(** ** Walking until the first weight vanishes *)
Lemma walk : forall l : list (Q * Q), (forall c, In c l -> 0 <= fst c) -> (exists c, In c l /\ snd c < 0) ->
  exists t, 0 <= t /\ (forall c, In c l -> 0 <= fst c + t * snd c) /\ exists c, In c l /\ snd c < 0 /\ fst c + t * snd c == 0.
Proof.
  induction l as [|[c d] l IH]; intros P [x [Hx N]]; [destruct Hx|].
  assert (Pc : 0 <= c) by (apply (P (c, d)); left; reflexivity).
  assert (Pl : forall x, In x l -> 0 <= fst x) by (intros y Hy; apply P; right; exact Hy).
  assert (D : (exists y, In y l /\ snd y < 0) \/ forall y, In y l -> 0 <= snd y).
  { clear. induction l as [|y l IH]; [right; intros y []|]. destruct (Qlt_le_dec (snd y) 0) as [H|H].
    - left. exists y. split; [left; reflexivity|exact H].
    - destruct IH as [[z [Hz Nz]]|IH]; [left; exists z; split; [right; exact Hz|exact Nz]|right; intros z [<-|Hz]; auto]. }
  assert (here : d < 0 -> exists t, 0 <= t /\ c + t * d == 0).
  { intros Hd. exists (c / - d). split.
    - apply Qle_shift_div_l; [lra|]. lra.
    - field. lra. }
  destruct (Qlt_le_dec d 0) as [Hd|Hd].
  - destruct (here Hd) as (t0 & T0 & E0). destruct D as [D|D].
    + destruct (IH Pl D) as (t & T & A & y & Hy & Ny & Ey). destruct (Qlt_le_dec t t0) as [L|L].
      * exists t. split; [exact T|]. split.
        -- intros z [<-|Hz]; [cbn [fst snd]; nra|auto].
        -- exists y. repeat split; auto. right; exact Hy.
      * exists t0. split; [exact T0|]. split.
        -- intros z [<-|Hz]; [cbn [fst snd]; lra|]. pose proof (A z Hz) as Az. pose proof (Pl z Hz) as Pz.
           destruct (Qlt_le_dec (snd z) 0); nra.
        -- exists (c, d). repeat split; auto. left; reflexivity.
    + exists t0. split; [exact T0|]. split.
      * intros z [<-|Hz]; [cbn [fst snd]; lra|]. pose proof (D z Hz). pose proof (Pl z Hz). nra.
      * exists (c, d). repeat split; auto. left; reflexivity.
  - destruct Hx as [<-|Hx]; [cbn [snd] in N; lra|]. destruct (IH Pl) as (t & T & A & y & Hy & Ny & Ey); [exists x; split; assumption|].
    exists t. split; [exact T|]. split.
    + intros z [<-|Hz]; [cbn [fst snd]; nra|auto].
    + exists y. repeat split; auto. right; exact Hy.
Qed.

(** ** Triangles *)
Definition on_a_side (x p q r : place) : Prop := between x p q \/ between x q r \/ between x r p.
Lemma same_spot_refl : forall x, same_spot x x.
Proof. intros [[? ?] ?]. cbn. repeat split; reflexivity. Qed.
Lemma same_spot_sym : forall x y, same_spot x y -> same_spot y x.
Proof. intros [[? ?] ?] [[? ?] ?]. cbn. intros (A & B & C). repeat split; symmetry; assumption. Qed.
Lemma same_spot_trans : forall x y z, same_spot x y -> same_spot y z -> same_spot x z.
Proof. intros [[? ?] ?] [[? ?] ?] [[? ?] ?]. cbn. intros (A & B & C) (A' & B' & C'). repeat split; etransitivity; eassumption. Qed.
Lemma same_spot_dec : forall x y, same_spot x y \/ ~ same_spot x y.
Proof.
  intros [[x0 x1] x2] [[y0 y1] y2]. cbn. destruct (Qeq_dec x0 y0), (Qeq_dec x1 y1), (Qeq_dec x2 y2); tauto.
Qed.
Lemma mean_side : forall a b c p q r, 0 <= a -> 0 <= b -> 0 <= c -> a + b + c == 1 -> a == 0 \/ b == 0 \/ c == 0 ->
  on_a_side (mean3 a b c p q r) p q r.
Proof.
  intros a b c [[p0 p1] p2] [[q0 q1] q2] [[r0 r1] r2] A B C S [Z|[Z|Z]].
  - right. left. exists b, c. repeat split; try assumption; [lra|rewrite Z; ring..].
  - right. right. exists c, a. repeat split; try assumption; [lra|rewrite Z; ring..].
  - left. exists a, b. repeat split; try assumption; [lra|rewrite Z; ring..].
Qed.
Lemma mean_among : forall a b c p q r, 0 <= a -> 0 <= b -> 0 <= c -> a + b + c == 1 -> among (mean3 a b c p q r) p q r.
Proof. intros. exists a, b, c. repeat split; try assumption. apply same_spot_refl. Qed.
Lemma between_eq : forall x y p q, same_spot y x -> between x p q -> between y p q.
Proof. intros x y p q E (a & b & A & B & S & X). exists a, b. repeat split; try assumption. eapply same_spot_trans; eassumption. Qed.
Lemma among_eq : forall x y p q r, same_spot y x -> among x p q r -> among y p q r.
Proof. intros x y p q r E (a & b & c & A & B & C & S & X). exists a, b, c. repeat split; try assumption. eapply same_spot_trans; eassumption. Qed.
Lemma side_eq : forall x y p q r, same_spot y x -> on_a_side x p q r -> on_a_side y p q r.
Proof. intros x y p q r E [H|[H|H]]; [left|right; left|right; right]; eapply between_eq; eassumption. Qed.

(** moving along two weightings that stay equal *)
Lemma walk_triangles : forall (p0 p1 p2 q0 q1 q2 : place) a0 a1 a2 b0 b1 b2 u0 u1 u2 v0 v1 v2,
  0 <= a0 -> 0 <= a1 -> 0 <= a2 -> a0 + a1 + a2 == 1 -> 0 <= b0 -> 0 <= b1 -> 0 <= b2 -> b0 + b1 + b2 == 1 ->
  same_spot (mean3 a0 a1 a2 p0 p1 p2) (mean3 b0 b1 b2 q0 q1 q2) ->
  u0 + u1 + u2 == 0 -> v0 + v1 + v2 == 0 -> same_spot (mean3 u0 u1 u2 p0 p1 p2) (mean3 v0 v1 v2 q0 q1 q2) ->
  ~ (u0 == 0 /\ u1 == 0 /\ u2 == 0 /\ v0 == 0 /\ v1 == 0 /\ v2 == 0) ->
  exists t, 0 <= t /\
    let y := mean3 (a0 + t * u0) (a1 + t * u1) (a2 + t * u2) p0 p1 p2 in
    among y p0 p1 p2 /\ among y q0 q1 q2 /\ (on_a_side y p0 p1 p2 \/ on_a_side y q0 q1 q2).
Proof.
  intros p0 p1 p2 q0 q1 q2 a0 a1 a2 b0 b1 b2 u0 u1 u2 v0 v1 v2 A0 A1 A2 SA B0 B1 B2 SB E SU SV EU N.
  destruct (walk [(a0, u0); (a1, u1); (a2, u2); (b0, v0); (b1, v1); (b2, v2)]) as (t & T & P & c & Hc & Nc & Ec).
  - intros c Hc. cbn in Hc. repeat destruct Hc as [<-|Hc]; assumption || destruct Hc.
  - destruct (Qlt_le_dec u0 0); [exists (a0, u0); cbn; tauto|].
    destruct (Qlt_le_dec u1 0); [exists (a1, u1); cbn; tauto|].
    destruct (Qlt_le_dec u2 0); [exists (a2, u2); cbn; tauto|].
    destruct (Qlt_le_dec v0 0); [exists (b0, v0); cbn; tauto|].
    destruct (Qlt_le_dec v1 0); [exists (b1, v1); cbn; tauto|].
    destruct (Qlt_le_dec v2 0); [exists (b2, v2); cbn; tauto|].
    exfalso. apply N. repeat split; lra.
  - exists t. split; [exact T|]. cbv zeta.
    pose proof (P (a0, u0) ltac:(cbn; tauto)) as P0. pose proof (P (a1, u1) ltac:(cbn; tauto)) as P1. pose proof (P (a2, u2) ltac:(cbn; tauto)) as P2.
    pose proof (P (b0, v0) ltac:(cbn; tauto)) as P3. pose proof (P (b1, v1) ltac:(cbn; tauto)) as P4. pose proof (P (b2, v2) ltac:(cbn; tauto)) as P5.
    cbn [fst snd] in *.
    assert (TA : (a0 + t * u0) + (a1 + t * u1) + (a2 + t * u2) == 1).
    { transitivity ((a0 + a1 + a2) + t * (u0 + u1 + u2)); [ring|]. rewrite SA, SU. ring. }
    assert (TB : (b0 + t * v0) + (b1 + t * v1) + (b2 + t * v2) == 1).
    { transitivity ((b0 + b1 + b2) + t * (v0 + v1 + v2)); [ring|]. rewrite SB, SV. ring. }
    assert (EY : same_spot (mean3 (a0 + t * u0) (a1 + t * u1) (a2 + t * u2) p0 p1 p2) (mean3 (b0 + t * v0) (b1 + t * v1) (b2 + t * v2) q0 q1 q2)).
    { destruct p0 as [[? ?] ?], p1 as [[? ?] ?], p2 as [[? ?] ?], q0 as [[? ?] ?], q1 as [[? ?] ?], q2 as [[? ?] ?].
      unfold same_spot, mean3 in E, EU |- *. destruct E as (E1 & E2 & E3), EU as (F1 & F2 & F3).
      assert (R : forall a b c x y z X Y Z a' b' c' x' y' z' X' Y' Z' : Q,
        a * X + b * Y + c * Z == a' * X' + b' * Y' + c' * Z' -> x * X + y * Y + z * Z == x' * X' + y' * Y' + z' * Z' ->
        (a + t * x) * X + (b + t * y) * Y + (c + t * z) * Z == (a' + t * x') * X' + (b' + t * y') * Y' + (c' + t * z') * Z').
      { intros ? ? ? ? ? ? ? ? ? ? ? ? ? ? ? ? ? ? H1 H2.
        pose proof (Qmult_comp t t (Qeq_refl t) _ _ H2) as H3. lra. }
      repeat split; apply R; assumption. }
    split; [apply mean_among; assumption|]. split.
    + eapply among_eq; [exact EY|]. apply mean_among; assumption.
    + destruct Hc as [<-|[<-|[<-|[<-|[<-|[<-|[]]]]]]]; cbn [fst snd] in Ec;
        [left; apply mean_side; tauto|left; apply mean_side; tauto|left; apply mean_side; tauto|right; eapply side_eq; [exact EY|apply mean_side; tauto]..].
Qed.

(** two triangles that share a point: a side of one of them meets the other *)
Theorem triangles_share : forall p0 p1 p2 q0 q1 q2 x, among x p0 p1 p2 -> among x q0 q1 q2 ->
  exists y, among y p0 p1 p2 /\ among y q0 q1 q2 /\ (on_a_side y p0 p1 p2 \/ on_a_side y q0 q1 q2).
Proof.
  intros p0 p1 p2 q0 q1 q2 x (a0 & a1 & a2 & A0 & A1 & A2 & SA & EA) (b0 & b1 & b2 & B0 & B1 & B2 & SB & EB).
  assert (E : same_spot (mean3 a0 a1 a2 p0 p1 p2) (mean3 b0 b1 b2 q0 q1 q2)) by (eapply same_spot_trans; [apply same_spot_sym; exact EA|exact EB]).
  destruct p0 as [[p00 p01] p02] eqn:E0, p1 as [[p10 p11] p12] eqn:E1, p2 as [[p20 p21] p22] eqn:E2,
    q0 as [[q00 q01] q02] eqn:E3, q1 as [[q10 q11] q12] eqn:E4, q2 as [[q20 q21] q22] eqn:E5.
  destruct (dep3 (p10 - p00) (p11 - p01) (p12 - p02) (p20 - p00) (p21 - p01) (p22 - p02)
                 (q10 - q00) (q11 - q01) (q12 - q02) (q20 - q00) (q21 - q01) (q22 - q02)) as (c1 & c2 & c3 & c4 & N & D1 & D2 & D3).
  destruct (walk_triangles p0 p1 p2 q0 q1 q2 a0 a1 a2 b0 b1 b2 (- (c1 + c2)) c1 c2 (c3 + c4) (- c3) (- c4)) as (t & _ & H); subst; try assumption; try ring.
  - unfold same_spot, mean3. repeat split; lra.
  - intros (_ & Z1 & Z2 & _ & Z3 & Z4). apply N. repeat split; lra.
  - eexists. exact H.
Qed.
