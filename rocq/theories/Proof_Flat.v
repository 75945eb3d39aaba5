(** Triangles of the plane: when they share a point, their sides do, unless one is inside the other. *)
From Coq Require Import List Arith ZArith Bool QArith Lqa Lia.
From Verif Require Import Spec_Geometry Proof_Geometry Proof_Geometry2 Proof_Geometry3 Proof_Geometry4 Proof_Geometry6.
Import ListNotations.
Local Open Scope Q_scope.

Definition level (x : place) : Prop := snd x == 0.
Definition off (P : option place) (y : place) : Prop := match P with None => True | Some p => ~ same_spot y p end.
Definition at_corner (P : option place) (p q r : place) : Prop :=
  match P with None => True | Some x => same_spot x p \/ same_spot x q \/ same_spot x r end.
Lemma at_corner_turn : forall P p q r, at_corner P p q r -> at_corner P q r p.
Proof. intros [x|] p q r; cbn; tauto. Qed.
Lemma at_corner_swap : forall P p q r, at_corner P p q r -> at_corner P q p r.
Proof. intros [x|] p q r; cbn; tauto. Qed.
Lemma off_dec : forall P y, off P y \/ ~ off P y.
Proof. intros [p|] y; cbn; [|tauto]. destruct (same_spot_dec y p); tauto. Qed.

Lemma plane_weights : forall p q r x, ~ flat p q r -> level p -> level q -> level r -> level x ->
  exists a b c, a + b + c == 1 /\ same_spot x (mean3 a b c p q r).
Proof.
  intros [[p0 p1] p2] [[q0 q1] q2] [[r0 r1] r2] [[x0 x1] x2] N P Q0 R X. unfold level in *. cbn [snd] in *.
  destruct (dep2 (q0 - p0) (q1 - p1) (r0 - p0) (r1 - p1) (x0 - p0) (x1 - p1)) as (u & v & w & D & E1 & E2).
  destruct (Qeq_dec w 0) as [W|W].
  - exfalso. apply N. exists (- (u + v)), u, v. split; [intros (A & B & C); apply D; repeat split; assumption|]. split; [ring|].
    rewrite W in E1, E2. spots. repeat split; [lra|lra|rewrite P, Q0, R; ring].
  - assert (I : w * / w == 1) by (apply Qmult_inv_r; exact W).
    exists (1 + (u + v) * / w), (- u * / w), (- v * / w). split; [ring|]. spots.
    assert (K : forall P0 Q1 R0 X0, u * (Q1 - P0) + v * (R0 - P0) + w * (X0 - P0) == 0 ->
      X0 == (1 + (u + v) * / w) * P0 + - u * / w * Q1 + - v * / w * R0).
    { intros P0 Q1 R0 X0 H. transitivity (P0 + (w * / w) * (X0 - P0)); [rewrite I; ring|].
      transitivity (P0 + / w * (w * (X0 - P0))); [ring|]. assert (Z : w * (X0 - P0) == - (u * (Q1 - P0) + v * (R0 - P0))) by lra. rewrite Z. ring. }
    repeat split; [apply K; lra|apply K; lra|rewrite P, Q0, R, X; ring].
Qed.
Lemma between_among : forall x p q u v w, among p u v w -> among q u v w -> between x p q -> among x u v w.
Proof.
  intros [[x0 x1] x2] [[p0 p1] p2] [[q0 q1] q2] [[u0 u1] u2] [[v0 v1] v2] [[w0 w1] w2] (a & b & c & A & B & C & S & E) (a' & b' & c' & A' & B' & C' & S' & E') (s & t & Ps & Pt & St & Ex).
  exists (s * a + t * a'), (s * b + t * b'), (s * c + t * c').
  split; [nra|]. split; [nra|]. split; [nra|]. split.
  - transitivity (s * (a + b + c) + t * (a' + b' + c')); [ring|]. rewrite S, S'. lra.
  - spots. destruct E as (E0 & E1 & E2), E' as (F0 & F1 & F2), Ex as (-> & -> & ->). rewrite E0, E1, E2, F0, F1, F2. repeat split; ring.
Qed.
Lemma level_mean : forall a b c p q r x, level p -> level q -> level r -> same_spot x (mean3 a b c p q r) -> level x.
Proof.
  intros a b c [[p0 p1] p2] [[q0 q1] q2] [[r0 r1] r2] [[x0 x1] x2]. unfold level. cbn [snd]. intros P Q0 R E. spots. destruct E as (_ & _ & E). rewrite E, P, Q0, R. ring.
Qed.
Lemma level_among : forall p q r x, level p -> level q -> level r -> among x p q r -> level x.
Proof. intros p q r x P Q0 R (a & b & c & _ & _ & _ & _ & E). exact (level_mean a b c p q r x P Q0 R E). Qed.
Lemma unique_weights : forall p q r x a b c a' b' c', ~ flat p q r -> a + b + c == 1 -> a' + b' + c' == 1 -> same_spot x (mean3 a b c p q r) -> same_spot x (mean3 a' b' c' p q r) ->
  a == a' /\ b == b' /\ c == c'.
Proof.
  intros p q r x a b c a' b' c' N S S' E E'. destruct (independent p q r (a - a') (b - b') (c - c') N) as (A & B & C); [lra| |repeat split; lra].
  destruct x as [[? ?] ?], p as [[? ?] ?], q as [[? ?] ?], r as [[? ?] ?]. spots. destruct E as (E0 & E1 & E2), E' as (F0 & F1 & F2).
  rewrite F0 in E0. rewrite F1 in E1. rewrite F2 in E2. repeat split; lra.
Qed.
(** the way out of a triangle crosses a side *)
Lemma leave : forall p q r x v, ~ flat p q r -> level p -> level q -> level r -> level v -> among x p q r -> ~ strictly_among v p q r ->
  exists y, between y x v /\ on_a_side y p q r.
Proof.
  intros p q r x v N P Q0 R V (a & b & c & A & B & C & S & E) NS. destruct (plane_weights p q r v N P Q0 R V) as (d & e & f & S' & E').
  assert (Done : forall t, 0 <= t -> t <= 1 -> 0 <= a + t * (d - a) -> 0 <= b + t * (e - b) -> 0 <= c + t * (f - c) ->
     a + t * (d - a) == 0 \/ b + t * (e - b) == 0 \/ c + t * (f - c) == 0 -> exists y, between y x v /\ on_a_side y p q r).
  { intros t T0 T1 G1 G2 G3 G. exists (mean2 (1 - t) t x v). split; [exists (1 - t), t; split; [lra|split; [lra|split; [ring|apply same_spot_refl]]]|].
    eapply side_eq; [|apply (mean_side (a + t * (d - a)) (b + t * (e - b)) (c + t * (f - c)) p q r G1 G2 G3); [|exact G]].
    - destruct x as [[? ?] ?], p as [[? ?] ?], q as [[? ?] ?], r as [[? ?] ?], v as [[? ?] ?]. spots. destruct E as (-> & -> & ->), E' as (-> & -> & ->). repeat split; ring.
    - transitivity ((1 - t) * (a + b + c) + t * (d + e + f)); [ring|]. rewrite S, S'. ring. }
  destruct (Qeq_dec a 0) as [Za|Za]; [apply (Done 0); try lra; left; lra|].
  destruct (Qeq_dec b 0) as [Zb|Zb]; [apply (Done 0); try lra; right; left; lra|].
  destruct (Qeq_dec c 0) as [Zc|Zc]; [apply (Done 0); try lra; right; right; lra|].
  assert (K : d <= 0 \/ e <= 0 \/ f <= 0).
  { destruct (Qlt_le_dec 0 d) as [D|D]; [|tauto]. destruct (Qlt_le_dec 0 e) as [D'|D']; [|tauto]. destruct (Qlt_le_dec 0 f) as [D''|D'']; [|tauto].
    exfalso. apply NS. exists d, e, f. tauto. }
  destruct (walk [(a, d - a); (b, e - b); (c, f - c)]) as (t & T & W & g & Hg & Ng & Eg).
  - intros g [<-|[<-|[<-|[]]]]; assumption.
  - destruct K as [K|[K|K]]; [exists (a, d - a)|exists (b, e - b)|exists (c, f - c)]; cbn; split; try tauto; lra.
  - pose proof (W (a, d - a) ltac:(cbn; tauto)) as W1. pose proof (W (b, e - b) ltac:(cbn; tauto)) as W2. pose proof (W (c, f - c) ltac:(cbn; tauto)) as W3. cbn [fst snd] in *.
    apply (Done t T); try assumption.
    + destruct (Qlt_le_dec 1 t) as [L|L]; [|exact L]. exfalso. destruct K as [K|[K|K]]; nra.
    + destruct Hg as [<-|[<-|[<-|[]]]]; cbn [fst snd] in Eg; tauto.
Qed.
(** a corner is between no two other points of its triangle *)
Lemma extreme0 : forall p q r x v y, ~ flat p q r -> among x p q r -> among v p q r -> between y x v -> same_spot y p -> same_spot x p \/ same_spot v p.
Proof.
  intros p q r x v y N (a & b & c & A & B & C & S & E) (d & e & f & D & Ee & F & S' & E') (s & t & Ps & Pt & St & Ey) Ep.
  destruct (independent p q r (s * a + t * d - 1) (s * b + t * e) (s * c + t * f) N) as (Z0 & Z1 & Z2).
  - transitivity (s * (a + b + c) + t * (d + e + f) - 1); [ring|]. rewrite S, S'. lra.
  - destruct x as [[? ?] ?], p as [[? ?] ?], q as [[? ?] ?], r as [[? ?] ?], v as [[? ?] ?], y as [[? ?] ?]. spots.
    destruct E as (E0 & E1 & E2), E' as (F0 & F1 & F2), Ey as (G0 & G1 & G2), Ep as (H0 & H1 & H2).
    rewrite E0, F0, H0 in G0. rewrite E1, F1, H1 in G1. rewrite E2, F2, H2 in G2. repeat split; lra.
  - destruct (Qeq_dec s 0) as [Zs|Zs].
    + right. assert (t == 1) by lra. assert (e == 0) by nra. assert (f == 0) by nra. assert (d == 1) by lra.
      destruct p as [[? ?] ?], q as [[? ?] ?], r as [[? ?] ?], v as [[? ?] ?]. spots. destruct E' as (-> & -> & ->).
      match goal with H : e == 0, H' : f == 0, H'' : d == 1 |- _ => rewrite H, H', H'' end. repeat split; ring.
    + left. assert (b == 0) by nra. assert (c == 0) by nra. assert (a == 1) by lra.
      destruct p as [[? ?] ?], q as [[? ?] ?], r as [[? ?] ?], x as [[? ?] ?]. spots. destruct E as (-> & -> & ->).
      match goal with H : b == 0, H' : c == 0, H'' : a == 1 |- _ => rewrite H, H', H'' end. repeat split; ring.
Qed.
Lemma flat_turn' : forall p q r, ~ flat p q r -> ~ flat q r p.
Proof. intros p q r N F. apply N, flat_turn, F. Qed.
Lemma flat_swap' : forall p q r, ~ flat p q r -> ~ flat q p r.
Proof. intros p q r N F. apply N, flat_swap, F. Qed.
Lemma extreme : forall P p q r x v y, ~ flat p q r -> at_corner P p q r -> among x p q r -> among v p q r -> between y x v -> off P x -> off P v -> off P y.
Proof.
  intros [P|] p q r x v y N AC X V Y OX OV; [|exact I]. cbn in *. intros E.
  assert (K : forall z, same_spot P z -> same_spot x z \/ same_spot v z -> False).
  { intros z Z [K|K]; [apply OX|apply OV]; (eapply same_spot_trans; [exact K|apply same_spot_sym, Z]). }
  destruct AC as [C|[C|C]]; apply (K _ C).
  - apply (extreme0 p q r x v y N X V Y). eapply same_spot_trans; eassumption.
  - apply (extreme0 q r p x v y (flat_turn' _ _ _ N) (among_turn _ _ _ _ X) (among_turn _ _ _ _ V) Y). eapply same_spot_trans; eassumption.
  - apply (extreme0 r p q x v y (flat_turn' _ _ _ (flat_turn' _ _ _ N)) (among_turn _ _ _ _ (among_turn _ _ _ _ X)) (among_turn _ _ _ _ (among_turn _ _ _ _ V)) Y). eapply same_spot_trans; eassumption.
Qed.
Lemma corner_among : forall p q r, among p p q r.
Proof. intros p q r. apply among_of_side. left. exists 1, 0. split; [lra|]. split; [lra|]. split; [lra|]. destruct p as [[? ?] ?], q as [[? ?] ?]. spots. repeat split; ring. Qed.
Lemma corner_among1 : forall p q r, among q p q r.
Proof. intros p q r. apply among_turn, among_turn, corner_among. Qed.
Lemma corner_among2 : forall p q r, among r p q r.
Proof. intros p q r. apply among_turn, corner_among. Qed.
Lemma strictly_off : forall P p q r x, ~ flat p q r -> at_corner P p q r -> strictly_among x p q r -> off P x.
Proof.
  intros [P|] p q r x N AC SX; [|exact I]. cbn in *. intros E. destruct AC as [C|[C|C]].
  - apply (corner_not_inside p q r x N SX). eapply same_spot_trans; eassumption.
  - apply (corner_not_inside q r p x (flat_turn' _ _ _ N) (strictly_turn _ _ _ _ SX)). eapply same_spot_trans; eassumption.
  - apply (corner_not_inside r p q x (flat_turn' _ _ _ (flat_turn' _ _ _ N)) (strictly_turn _ _ _ _ (strictly_turn _ _ _ _ SX))). eapply same_spot_trans; eassumption.
Qed.
Lemma between_trans : forall z y p q, between y p q -> between z y q -> between z p q.
Proof.
  intros [[z0 z1] z2] [[y0 y1] y2] [[p0 p1] p2] [[q0 q1] q2] (a & b & A & B & S & E) (c & d & C & D & S' & E').
  exists (c * a), (c * b + d). split; [nra|]. split; [nra|]. split.
  - transitivity (c * (a + b) + d); [ring|]. rewrite S. lra.
  - spots. destruct E as (E0 & E1 & E2), E' as (-> & -> & ->). rewrite E0, E1, E2. repeat split; ring.
Qed.
Lemma between_first : forall p q, between p p q.
Proof. intros [[? ?] ?] [[? ?] ?]. exists 1, 0. split; [lra|]. split; [lra|]. split; [lra|]. spots. repeat split; ring. Qed.
Lemma between_last : forall p q, between q p q.
Proof. intros p q. apply between_swap, between_first. Qed.
(** the triangle p q r does not hold all corners of u v w, a point of whose sides it shares *)
Lemma escape : forall P p q r u v w y, ~ flat p q r -> ~ flat u v w -> level p -> level q -> level r -> level u -> level v -> level w ->
  at_corner P p q r -> at_corner P u v w -> between y u v -> among y p q r -> off P y ->
  (exists z, (z = u \/ z = v \/ z = w) /\ off P z /\ ~ strictly_among z p q r) ->
  exists z, on_a_side z u v w /\ on_a_side z p q r /\ off P z.
Proof.
  intros P p q r u v w y N N' Lp Lq Lr Lu Lv Lw C C' Y IY OY K.
  assert (Ay : among y u v w) by (apply among_of_side; left; exact Y).
  assert (Go : forall a b, off P a -> off P b -> among a p q r -> among a u v w -> among b u v w -> level b -> ~ strictly_among b p q r ->
    exists z, between z a b /\ on_a_side z p q r /\ off P z).
  { intros a b Oa Ob Aa Aa' Ab' Lb Sb. destruct (leave p q r a b N Lp Lq Lr Lb Aa Sb) as (z & Z1 & Z2). exists z. split; [exact Z1|]. split; [exact Z2|].
    exact (extreme P u v w a b z N' C' Aa' Ab' Z1 Oa Ob). }
  assert (TryV : off P v /\ ~ strictly_among v p q r -> exists z, on_a_side z u v w /\ on_a_side z p q r /\ off P z).
  { intros (O & S). destruct (Go y v OY O IY Ay (corner_among1 u v w) Lv S) as (z & Z1 & Z2 & Z3). exists z. split; [left; exact (between_trans z y u v Y Z1)|tauto]. }
  assert (TryU : off P u /\ ~ strictly_among u p q r -> exists z, on_a_side z u v w /\ on_a_side z p q r /\ off P z).
  { intros (O & S). destruct (Go y u OY O IY Ay (corner_among u v w) Lu S) as (z & Z1 & Z2 & Z3). exists z. split; [|tauto].
    left. apply between_swap. exact (between_trans z y v u (between_swap _ _ _ Y) Z1). }
  destruct K as (z & [ -> | [ -> | -> ] ] & O & S); [apply TryU; tauto|apply TryV; tauto|].
  assert (among_strict : forall x, strictly_among x p q r -> among x p q r).
  { intros x (a & b & c & A & B & D & T & E). exists a, b, c. split; [lra|]. split; [lra|]. split; [lra|]. tauto. }
  destruct (strictly_dec v p q r) as [SV|SV].
  { destruct (Go v w (strictly_off P p q r v N C SV) O (among_strict v SV) (corner_among1 u v w) (corner_among2 u v w) Lw S) as (z & Z1 & Z2 & Z3).
    exists z. split; [right; left; exact Z1|tauto]. }
  destruct (strictly_dec u p q r) as [SU|SU].
  { destruct (Go u w (strictly_off P p q r u N C SU) O (among_strict u SU) (corner_among u v w) (corner_among2 u v w) Lw S) as (z & Z1 & Z2 & Z3).
    exists z. split; [right; right; apply between_swap, Z1|tauto]. }
  destruct (off_dec P v) as [OV|OV]; [apply TryV; tauto|]. destruct (off_dec P u) as [OU|OU]; [apply TryU; tauto|].
  exfalso. destruct P as [P|]; cbn in *; [|tauto]. destruct (same_spot_dec v P) as [E1|E1]; [|tauto]. destruct (same_spot_dec u P) as [E2|E2]; [|tauto].
  destruct (real_ends u v w N') as (D & _). apply D. eapply same_spot_trans; [exact E2|apply same_spot_sym, E1].
Qed.
Lemma sides_share : forall P p q r u v w x, ~ flat p q r -> ~ flat u v w -> level p -> level q -> level r -> level u -> level v -> level w ->
  at_corner P p q r -> at_corner P u v w -> among x p q r -> among x u v w -> off P x ->
  (exists z, (z = u \/ z = v \/ z = w) /\ off P z /\ ~ strictly_among z p q r) ->
  (exists z, (z = p \/ z = q \/ z = r) /\ off P z /\ ~ strictly_among z u v w) ->
  exists z, on_a_side z p q r /\ on_a_side z u v w /\ off P z.
Proof.
  intros P p q r u v w x N N' Lp Lq Lr Lu Lv Lw C C' X X' OX (z & Hz & Oz & Sz) K.
  assert (Az : among z u v w) by (destruct Hz as [ -> | [ -> | -> ] ]; [apply corner_among|apply corner_among1|apply corner_among2]).
  assert (Lz : level z) by (destruct Hz as [ -> | [ -> | -> ] ]; assumption).
  destruct (leave p q r x z N Lp Lq Lr Lz X Sz) as (y & Y1 & Y2).
  assert (Ay : among y u v w) by exact (between_among y x z u v w X' Az Y1).
  pose proof (extreme P u v w x z y N' C' X' Az Y1 OX Oz) as OY. destruct Y2 as [Y|[Y|Y]].
  - exact (escape P u v w p q r y N' N Lu Lv Lw Lp Lq Lr C' C Y Ay OY K).
  - destruct (escape P u v w q r p y N' (flat_turn' _ _ _ N) Lu Lv Lw Lq Lr Lp C' (at_corner_turn _ _ _ _ C) Y Ay OY) as (s & S1 & S2 & S3).
    + destruct K as (s & K & K'). exists s. split; [tauto|exact K'].
    + exists s. split; [apply side_turn, side_turn, S1|tauto].
  - destruct (escape P u v w r p q y N' (flat_turn' _ _ _ (flat_turn' _ _ _ N)) Lu Lv Lw Lr Lp Lq C' (at_corner_turn _ _ _ _ (at_corner_turn _ _ _ _ C)) Y Ay OY) as (s & S1 & S2 & S3).
    + destruct K as (s & K & K'). exists s. split; [tauto|exact K'].
    + exists s. split; [apply side_turn, S1|tauto].
Qed.

(** ** Two sides that are not on one line *)
Definition ends (u v p q r : place) : Prop :=
  u = p /\ v = q \/ u = q /\ v = r \/ u = r /\ v = p \/ u = q /\ v = p \/ u = r /\ v = q \/ u = p /\ v = r.
Lemma ends_turn : forall u v p q r, ends u v p q r -> ends u v q r p.
Proof. unfold ends. tauto. Qed.
Lemma ends_swap : forall u v p q r, ends u v p q r -> ends u v q p r.
Proof. unfold ends. tauto. Qed.
Lemma two_lines : forall a b c x, ~ flat a b c -> aligned x a b -> aligned x a c -> same_spot x a.
Proof.
  intros a b c x N (s & t & S & E) (s' & t' & S' & E'). destruct (independent a b c (s - s') t (- t') N) as (Z0 & Z1 & Z2).
  - lra.
  - destruct x as [[? ?] ?], a as [[? ?] ?], b as [[? ?] ?], c as [[? ?] ?]. spots. destruct E as (E0 & E1 & E2), E' as (F0 & F1 & F2).
    rewrite F0 in E0. rewrite F1 in E1. rewrite F2 in E2. repeat split; lra.
  - assert (s == 1) as Zs by lra. destruct x as [[? ?] ?], a as [[? ?] ?], b as [[? ?] ?]. spots. destruct E as (-> & -> & ->). rewrite Zs, Z1. repeat split; ring.
Qed.
(** going on towards b, one meets an end *)
Lemma overlap_end : forall a b d f z, ~ same_spot a b -> between z a b -> between z d f -> aligned d a b -> aligned f a b -> ~ same_spot z a ->
  exists w, between w a b /\ between w d f /\ ~ same_spot w a /\ (same_spot w b \/ same_spot w d \/ same_spot w f).
Proof.
  intros a b d f z N Z1 (g & h & G & H & S & E) (d' & dt & Sd & Ed) (f' & ft & Sf & Ef) Na. pose proof Z1 as (a' & t & A' & T & St & Et).
  assert (Pt : 0 < t).
  { destruct (Qlt_le_dec 0 t) as [L|L]; [exact L|]. exfalso. apply Na. assert (t == 0) as Zt by lra. assert (a' == 1) as Za by lra.
    destruct z as [[? ?] ?], a as [[? ?] ?], b as [[? ?] ?]. spots. destruct Et as (-> & -> & ->). rewrite Zt, Za. repeat split; ring. }
  (* t = g * dt + h * ft *)
  assert (Eq : t == g * dt + h * ft).
  { destruct (Qeq_dec t (g * dt + h * ft)) as [Q0|Q0]; [exact Q0|]. exfalso. apply N.
    assert (R : forall X A B, X == a' * A + t * B -> X == g * (d' * A + dt * B) + h * (f' * A + ft * B) -> A == B).
    { intros X A B X1 X2. assert (K : (t - (g * dt + h * ft)) * (B - A) == 0).
      { assert (a' == 1 - t) by lra. assert (d' == 1 - dt) by lra. assert (f' == 1 - ft) by lra. assert (Eg : g == 1 - h) by lra.
        assert (X1' : X == A + t * (B - A)) by (rewrite X1; rewrite H0; ring).
        assert (X2' : X == A + (g * dt + h * ft) * (B - A)).
        { rewrite X2, H1, H2. transitivity ((g + h) * A + (g * dt + h * ft) * (B - A)); [ring|]. rewrite S. ring. }
        lra. }
      apply Qmult_integral in K. destruct K as [K|K]; [exfalso; apply Q0; lra|lra]. }
    destruct z as [[? ?] ?], a as [[? ?] ?], b as [[? ?] ?], d as [[? ?] ?], f as [[? ?] ?]. spots.
    destruct Et as (X0 & X1 & X2), E as (Y0 & Y1 & Y2), Ed as (D0 & D1 & D2), Ef as (F0 & F1 & F2).
    rewrite D0, F0 in Y0. rewrite D1, F1 in Y1. rewrite D2, F2 in Y2. repeat split; eapply R; eassumption. }
  assert (Sub : forall x xt, 0 < xt -> aligned x a b -> same_spot x (mean2 (1 - xt) xt a b) -> ~ same_spot x a).
  { intros x xt Px _ Ex Exa. apply N. assert (R : forall X A B, X == (1 - xt) * A + xt * B -> X == A -> A == B).
    { intros X A B X1 X2. assert (K : (B - A) * xt == 0) by lra. apply mult_z in K; lra. }
    destruct x as [[? ?] ?], a as [[? ?] ?], b as [[? ?] ?]. spots. destruct Ex as (X0 & X1 & X2), Exa as (Y0 & Y1 & Y2). repeat split; eapply R; eassumption. }
  assert (Means : forall x x' xt, x' + xt == 1 -> same_spot x (mean2 x' xt a b) -> same_spot x (mean2 (1 - xt) xt a b)).
  { intros x x' xt Sx Ex. assert (x' == 1 - xt) as R by lra. destruct x as [[? ?] ?], a as [[? ?] ?], b as [[? ?] ?]. spots. destruct Ex as (-> & -> & ->). rewrite R. repeat split; ring. }
  (* an end of d f at parameter xt >= t *)
  assert (Reach : forall x x' xt y y' yt k l, x' + xt == 1 -> same_spot x (mean2 x' xt a b) -> y' + yt == 1 -> same_spot y (mean2 y' yt a b) ->
     0 <= k -> 0 <= l -> k + l == 1 -> t == k * yt + l * xt -> t <= xt -> (between z x y -> True) ->
     exists w, between w a b /\ between w y x /\ ~ same_spot w a /\ (same_spot w b \/ same_spot w x)).
  { intros x x' xt y y' yt k l Sx Ex Sy Ey Pk Pl Skl Ekl Lx _. destruct (Qlt_le_dec 1 xt) as [L|L].
    - (* b is between z and x: parameter 1 in [t, xt] *)
      exists b. split; [apply between_last|]. split; [|split; [intros K; apply N, same_spot_sym, K|left; apply same_spot_refl]].
      (* 1 = (1-s) yt + s xt with yt <= t <= 1 < xt *)
      assert (Ly : yt <= 1).
      { destruct (Qlt_le_dec 1 yt) as [Q0|Q0]; [|exact Q0]. exfalso. assert (t <= 1) by lra. destruct (Qlt_le_dec (1 # 4) k) as [K|K]; [assert (0 < k * (yt - 1)) by nra; nra|]. assert (0 < l * (xt - 1)) by nra. nra. }
      assert (D : 0 < xt - yt) by lra. assert (I : (xt - yt) * / (xt - yt) == 1) by (apply Qmult_inv_r; lra).
      assert (Pi : 0 < / (xt - yt)) by (apply Qinv_lt_0_compat; exact D).
      exists ((xt - 1) * / (xt - yt)), ((1 - yt) * / (xt - yt)). split; [nra|]. split; [nra|]. split.
      + transitivity ((xt - yt) * / (xt - yt)); [ring|exact I].
      + apply Means in Ex; [|exact Sx]. apply Means in Ey; [|exact Sy]. set (i := / (xt - yt)) in *. clearbody i.
        assert (R : forall A B X Y, X == (1 - xt) * A + xt * B -> Y == (1 - yt) * A + yt * B -> B == (xt - 1) * i * Y + (1 - yt) * i * X).
        { intros A B X Y -> ->. transitivity (((xt - yt) * i) * B); [rewrite I; ring|ring]. }
        destruct x as [[? ?] ?], y as [[? ?] ?], a as [[? ?] ?], b as [[? ?] ?]. spots. destruct Ex as (X0 & X1 & X2), Ey as (Y0 & Y1 & Y2). repeat split; eapply R; eassumption.
    - exists x. split; [exists (1 - xt), xt; split; [lra|split; [lra|split; [ring|exact (Means x x' xt Sx Ex)]]]|]. split; [apply between_last|].
      split; [|right; apply same_spot_refl]. apply (Sub x xt); [lra|exists x', xt; tauto|exact (Means x x' xt Sx Ex)]. }
  destruct (Qlt_le_dec dt ft) as [L|L].
  - destruct (Reach f f' ft d d' dt g h Sf Ef Sd Ed G H S Eq) as (w & W1 & W2 & W3 & W4); [nra|tauto|]. exists w. tauto.
  - destruct (Reach d d' dt f f' ft h g Sd Ed Sf Ef H G) as (w & W1 & W2 & W3 & W4); [lra|lra|nra|tauto|]. exists w. apply between_swap in W2. tauto.
Qed.
