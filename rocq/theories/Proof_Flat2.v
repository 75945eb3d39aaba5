(** Triangles of the plane: two of their sides cross, or one holds the other. *)
From Coq Require Import List Arith ZArith Bool QArith Lqa Lia.
From Verif Require Import Spec_Geometry Proof_Geometry Proof_Geometry2 Proof_Geometry3 Proof_Geometry4 Proof_Geometry6 Proof_Flat.
Import ListNotations.
Local Open Scope Q_scope.

Definition sides_cross (P : option place) (p q r u v w : place) : Prop :=
  exists a b d f x, ends a b p q r /\ ends d f u v w /\ between x a b /\ between x d f /\ ~ (aligned d a b /\ aligned f a b) /\ off P x.
Lemma cross_turn1 : forall P p q r u v w, sides_cross P p q r u v w -> sides_cross P q r p u v w.
Proof. intros P p q r u v w (a & b & d & f & x & E & H). exists a, b, d, f, x. split; [apply ends_turn, E|exact H]. Qed.
Lemma cross_turn2 : forall P p q r u v w, sides_cross P p q r u v w -> sides_cross P p q r v w u.
Proof. intros P p q r u v w (a & b & d & f & x & E & E' & H). exists a, b, d, f, x. split; [exact E|]. split; [apply ends_turn, E'|exact H]. Qed.
Lemma cross_swap1 : forall P p q r u v w, sides_cross P p q r u v w -> sides_cross P q p r u v w.
Proof. intros P p q r u v w (a & b & d & f & x & E & H). exists a, b, d, f, x. split; [apply ends_swap, E|exact H]. Qed.

Lemma aligned_dec : forall a b c d, ~ flat a b c -> level a -> level b -> level c -> level d -> aligned d a b \/ ~ aligned d a b.
Proof.
  intros a b c d N A B C D. destruct (plane_weights a b c d N A B C D) as (x & y & z & S & E). destruct (Qeq_dec z 0) as [Z|Z].
  - left. exists x, y. split; [lra|]. destruct a as [[? ?] ?], b as [[? ?] ?], c as [[? ?] ?], d as [[? ?] ?]. spots. destruct E as (-> & -> & ->). rewrite Z. repeat split; ring.
  - right. intros (x' & y' & S' & E'). apply Z. destruct (unique_weights a b c d x y z x' y' 0 N S) as (_ & _ & K); [lra|exact E| |exact K].
    destruct a as [[? ?] ?], b as [[? ?] ?], c as [[? ?] ?], d as [[? ?] ?]. spots. destruct E' as (-> & -> & ->). repeat split; ring.
Qed.
Lemma three_aligned : forall a b d f g, aligned d a b -> aligned f a b -> aligned g a b -> flat d f g.
Proof.
  intros a b d f g (x & dt & S & E) (y & ft & S' & E') (z & gt & S'' & E'').
  assert (X : x == 1 - dt) by lra. assert (Y : y == 1 - ft) by lra. assert (Z : z == 1 - gt) by lra.
  destruct (Qeq_dec dt ft) as [K|K].
  - exists 1, (-1), 0. split; [intros (H & _); discriminate H|]. split; [ring|].
    destruct a as [[? ?] ?], b as [[? ?] ?], d as [[? ?] ?], f as [[? ?] ?], g as [[? ?] ?]. spots. destruct E as (-> & -> & ->), E' as (-> & -> & ->), E'' as (-> & -> & ->).
    rewrite X, Y, K. repeat split; ring.
  - exists (ft - gt), (gt - dt), (dt - ft). split; [intros (_ & _ & H); apply K; lra|]. split; [ring|].
    destruct a as [[? ?] ?], b as [[? ?] ?], d as [[? ?] ?], f as [[? ?] ?], g as [[? ?] ?]. spots. destruct E as (-> & -> & ->), E' as (-> & -> & ->), E'' as (-> & -> & ->).
    rewrite X, Y, Z. repeat split; ring.
Qed.
Lemma core : forall P a b c d f g z, ~ flat a b c -> ~ flat d f g -> between z a b -> between z d f -> aligned d a b -> aligned f a b -> ~ same_spot z a ->
  (forall w, between w a b -> ~ same_spot w a -> off P w) -> sides_cross P a b c d f g.
Proof.
  intros P a b c d f g z N N' Z Z' Ad Af Na O.
  destruct (real_ends a b c N) as (Dab & _). destruct (real_ends d f g N') as (Ddf & _).
  destruct (overlap_end a b d f z Dab Z Z' Ad Af Na) as (w & W1 & W2 & W3 & W4). pose proof (O w W1 W3) as Ow.
  assert (Cd : aligned d a b -> aligned f a b -> ~ aligned g a b) by (intros H1 H2 H3; apply N'; exact (three_aligned a b d f g H1 H2 H3)).
  destruct W4 as [W4|[W4|W4]].
  - exists b, c, d, f, w. split; [unfold ends; tauto|]. split; [unfold ends; tauto|].
    split; [exact (between_eq b w b c W4 (between_first b c))|]. split; [exact W2|]. split; [|exact Ow].
    intros (K1 & K2). apply Ddf.
    assert (Nb : ~ flat b a c) by (apply flat_swap', N).
    eapply same_spot_trans; [exact (two_lines b a c d Nb (aligned_swap _ _ _ Ad) K1)|]. apply same_spot_sym.
    exact (two_lines b a c f Nb (aligned_swap _ _ _ Af) K2).
  - exists a, b, d, g, w. split; [unfold ends; tauto|]. split; [unfold ends; tauto|]. split; [exact W1|].
    split; [exact (between_eq d w d g W4 (between_first d g))|]. split; [tauto|exact Ow].
  - exists a, b, f, g, w. split; [unfold ends; tauto|]. split; [unfold ends; tauto|]. split; [exact W1|].
    split; [exact (between_eq f w f g W4 (between_first f g))|]. split; [tauto|exact Ow].
Qed.
Lemma crossing : forall P a b c d f g z, ~ flat a b c -> ~ flat d f g -> level a -> level b -> level c -> level d -> level f ->
  at_corner P a b c -> between z a b -> between z d f -> off P z -> sides_cross P a b c d f g.
Proof.
  intros P a b c d f g z N N' La Lb Lc Ld Lf C Z Z' O.
  destruct (aligned_dec a b c d N La Lb Lc Ld) as [Ad|Ad]; [destruct (aligned_dec a b c f N La Lb Lc Lf) as [Af|Af]|].
  2,3: exists a, b, d, f, z; unfold ends; split; [tauto|]; split; [tauto|]; split; [exact Z|]; split; [exact Z'|]; split; [tauto|exact O].
  destruct (real_ends a b c N) as (Dab & _).
  assert (Fwd : ~ same_spot z a -> (forall w, between w a b -> ~ same_spot w a -> off P w) -> sides_cross P a b c d f g).
  { intros K H. exact (core P a b c d f g z N N' Z Z' Ad Af K H). }
  assert (Bwd : ~ same_spot z b -> (forall w, between w a b -> ~ same_spot w b -> off P w) -> sides_cross P a b c d f g).
  { intros K H. apply cross_swap1. apply (core P b a c d f g z (flat_swap' _ _ _ N) N' (between_swap _ _ _ Z) Z' (aligned_swap _ _ _ Ad) (aligned_swap _ _ _ Af) K).
    intros w W. apply H. apply between_swap, W. }
  assert (Either : (forall w, between w a b -> off P w) -> sides_cross P a b c d f g).
  { intros H. destruct (same_spot_dec z a) as [K|K]; [|apply Fwd; [exact K|intros w W _; exact (H w W)]].
    apply Bwd; [|intros w W _; exact (H w W)]. intros K'. apply Dab. eapply same_spot_trans; [apply same_spot_sym, K|exact K']. }
  destruct P as [p|]; [|apply Either; intros w _; exact I]. cbn in C, O. destruct C as [C|[C|C]].
  - apply Fwd; [intros K; apply O; eapply same_spot_trans; [exact K|apply same_spot_sym, C]|]. intros w _ K. cbn. intros K'. apply K. eapply same_spot_trans; eassumption.
  - apply Bwd; [intros K; apply O; eapply same_spot_trans; [exact K|apply same_spot_sym, C]|]. intros w _ K. cbn. intros K'. apply K. eapply same_spot_trans; eassumption.
  - apply Either. intros w W. cbn. intros K. apply (corner_off_side c a b w (flat_turn' _ _ _ (flat_turn' _ _ _ N)) W). eapply same_spot_trans; eassumption.
Qed.
Lemma contact_crosses : forall P p q r u v w z, ~ flat p q r -> ~ flat u v w -> level p -> level q -> level r -> level u -> level v -> level w ->
  at_corner P p q r -> on_a_side z p q r -> on_a_side z u v w -> off P z -> sides_cross P p q r u v w.
Proof.
  intros P.
  assert (J : forall p q r u v w z, ~ flat p q r -> ~ flat u v w -> level p -> level q -> level r -> level u -> level v -> level w ->
    at_corner P p q r -> between z p q -> on_a_side z u v w -> off P z -> sides_cross P p q r u v w).
  { intros p q r u v w z N N' Lp Lq Lr Lu Lv Lw C Z [Y|[Y|Y]] O.
    - exact (crossing P p q r u v w z N N' Lp Lq Lr Lu Lv C Z Y O).
    - apply cross_turn2, cross_turn2. exact (crossing P p q r v w u z N (flat_turn' _ _ _ N') Lp Lq Lr Lv Lw C Z Y O).
    - apply cross_turn2. exact (crossing P p q r w u v z N (flat_turn' _ _ _ (flat_turn' _ _ _ N')) Lp Lq Lr Lw Lu C Z Y O). }
  intros p q r u v w z N N' Lp Lq Lr Lu Lv Lw C [Z|[Z|Z]] Y O.
  - exact (J p q r u v w z N N' Lp Lq Lr Lu Lv Lw C Z Y O).
  - apply cross_turn1, cross_turn1. exact (J q r p u v w z (flat_turn' _ _ _ N) N' Lq Lr Lp Lu Lv Lw (at_corner_turn _ _ _ _ C) Z Y O).
  - apply cross_turn1. exact (J r p q u v w z (flat_turn' _ _ _ (flat_turn' _ _ _ N)) N' Lr Lp Lq Lu Lv Lw (at_corner_turn _ _ _ _ (at_corner_turn _ _ _ _ C)) Z Y O).
Qed.

(** ** One triangle inside the other *)
(** all corners of u v w but the common one are strictly inside p q r *)
Definition inside_but (P : option place) (p q r u v w : place) : Prop :=
  forall z, z = u \/ z = v \/ z = w -> off P z -> strictly_among z p q r.
Lemma inside_dec : forall P p q r u v w, inside_but P p q r u v w \/ exists z, (z = u \/ z = v \/ z = w) /\ off P z /\ ~ strictly_among z p q r.
Proof.
  intros P p q r u v w.
  assert (D : forall z, off P z -> strictly_among z p q r \/ off P z /\ ~ strictly_among z p q r).
  { intros z O. destruct (strictly_dec z p q r); tauto. }
  assert (K : forall z, (off P z -> strictly_among z p q r) \/ (off P z /\ ~ strictly_among z p q r)).
  { intros z. destruct (off_dec P z) as [O|O]; [|tauto]. destruct (D z O); tauto. }
  destruct (K u) as [Ku|Ku]; [|right; exists u; tauto]. destruct (K v) as [Kv|Kv]; [|right; exists v; tauto]. destruct (K w) as [Kw|Kw]; [|right; exists w; tauto].
  left. intros z [ -> | [ -> | -> ] ]; assumption.
Qed.
Lemma side_not_inside : forall p q r x, ~ flat p q r -> on_a_side x p q r -> ~ strictly_among x p q r.
Proof.
  intros p q r x N O (a & b & c & A & B & C & S & E).
  destruct O as [(s & t & Ps & Pt & St & Ex)|[(s & t & Ps & Pt & St & Ex)|(s & t & Ps & Pt & St & Ex)]];
  [destruct (unique_weights p q r x a b c s t 0 N S) as (K1 & K2 & K3)|destruct (unique_weights p q r x a b c 0 s t N S) as (K1 & K2 & K3)|destruct (unique_weights p q r x a b c t 0 s N S) as (K1 & K2 & K3)];
  try lra; try exact E; destruct x as [[? ?] ?], p as [[? ?] ?], q as [[? ?] ?], r as [[? ?] ?]; spots; destruct Ex as (-> & -> & ->); repeat split; ring.
Qed.
(** weights of a corner that is strictly inside or at the corner p *)
Lemma inside_weights : forall (P : place) p q r z, ~ flat p q r -> same_spot P p -> (~ same_spot z P -> strictly_among z p q r) ->
  exists a b c, a + b + c == 1 /\ same_spot z (mean3 a b c p q r) /\ 0 < a /\ (0 < b /\ 0 < c \/ b == 0 /\ c == 0 /\ same_spot z P).
Proof.
  intros P p q r z N C H. destruct (same_spot_dec z P) as [K|K].
  - exists 1, 0, 0. split; [ring|]. split; [|split; [lra|right; split; [reflexivity|split; [reflexivity|exact K]]]].
    pose proof (same_spot_trans _ _ _ K C) as K'. destruct z as [[? ?] ?], p as [[? ?] ?], q as [[? ?] ?], r as [[? ?] ?]. spots. destruct K' as (-> & -> & ->). repeat split; ring.
  - destruct (H K) as (a & b & c & A & B & D & S & E). exists a, b, c. tauto.
Qed.
Lemma inside_all0 : forall P p q r u v w x, ~ flat p q r -> same_spot P p -> inside_but (Some P) p q r u v w -> among x u v w -> ~ same_spot x P -> strictly_among x p q r.
Proof.
  intros P p q r u v w x N C I (s & t & k & Ps & Pt & Pk & S & E) O.
  destruct (inside_weights P p q r u N C (I u ltac:(tauto))) as (a & b & c & S1 & E1 & A1 & D1).
  destruct (inside_weights P p q r v N C (I v ltac:(tauto))) as (a' & b' & c' & S2 & E2 & A2 & D2).
  destruct (inside_weights P p q r w N C (I w ltac:(tauto))) as (a'' & b'' & c'' & S3 & E3 & A3 & D3).
  assert (Sum : s * a + t * a' + k * a'' + (s * b + t * b' + k * b'') + (s * c + t * c' + k * c'') == 1).
  { transitivity (s * (a + b + c) + t * (a' + b' + c') + k * (a'' + b'' + c'')); [ring|]. rewrite S1, S2, S3. lra. }
  assert (Ex : same_spot x (mean3 (s * a + t * a' + k * a'') (s * b + t * b' + k * b'') (s * c + t * c' + k * c'') p q r)).
  { clear - E E1 E2 E3. destruct x as [[? ?] ?], p as [[? ?] ?], q as [[? ?] ?], r as [[? ?] ?], u as [[? ?] ?], v as [[? ?] ?], w as [[? ?] ?]. spots.
    destruct E as (-> & -> & ->), E1 as (-> & -> & ->), E2 as (-> & -> & ->), E3 as (-> & -> & ->). repeat split; ring. }
  assert (G : (s == 0 \/ 0 < s) /\ (t == 0 \/ 0 < t) /\ (k == 0 \/ 0 < k)).
  { split; [|split]; [destruct (Qeq_dec s 0)|destruct (Qeq_dec t 0)|destruct (Qeq_dec k 0)]; try tauto; right; lra. }
  assert (Pa : 0 < s * a + t * a' + k * a'').
  { clear - Ps Pt Pk S A1 A2 A3. destruct (Qlt_le_dec (1 # 4) s); [assert (0 < s * a) by nra; nra|]. destruct (Qlt_le_dec (1 # 4) t); [assert (0 < t * a') by nra; nra|].
    assert (0 < k * a'') by nra. nra. }
  assert (NB : 0 <= b /\ 0 <= c /\ 0 <= b' /\ 0 <= c' /\ 0 <= b'' /\ 0 <= c'').
  { destruct D1 as [D1|D1], D2 as [D2|D2], D3 as [D3|D3]; repeat split; lra. }
  assert (Q1 : forall y z : Q, 0 <= y -> 0 <= z -> 0 <= y * z) by (intros; nra).
  assert (Q2 : forall y z : Q, 0 < y -> 0 < z -> 0 < y * z) by (intros; nra).
  assert (K : 0 < s /\ 0 < b /\ 0 < c \/ 0 < t /\ 0 < b' /\ 0 < c' \/ 0 < k /\ 0 < b'' /\ 0 < c'' \/ same_spot x P).
  { destruct G as (Gs & Gt & Gk).
    assert (H1 : s == 0 \/ 0 < s /\ 0 < b /\ 0 < c \/ b == 0 /\ c == 0) by (clear - Gs D1; tauto).
    assert (H2 : t == 0 \/ 0 < t /\ 0 < b' /\ 0 < c' \/ b' == 0 /\ c' == 0) by (clear - Gt D2; tauto).
    assert (H3 : k == 0 \/ 0 < k /\ 0 < b'' /\ 0 < c'' \/ b'' == 0 /\ c'' == 0) by (clear - Gk D3; tauto).
    assert (Z : (s == 0 \/ b == 0 /\ c == 0) -> (t == 0 \/ b' == 0 /\ c' == 0) -> (k == 0 \/ b'' == 0 /\ c'' == 0) -> same_spot x P).
    { intros Y1 Y2 Y3.
      assert (V1 : s * b == 0 /\ s * c == 0) by (destruct Y1 as [Y|(Y & Y')]; [rewrite Y; split; ring|rewrite Y, Y'; split; ring]).
      assert (V2 : t * b' == 0 /\ t * c' == 0) by (destruct Y2 as [Y|(Y & Y')]; [rewrite Y; split; ring|rewrite Y, Y'; split; ring]).
      assert (V3 : k * b'' == 0 /\ k * c'' == 0) by (destruct Y3 as [Y|(Y & Y')]; [rewrite Y; split; ring|rewrite Y, Y'; split; ring]).
      assert (W1 : s * b + t * b' + k * b'' == 0) by (rewrite (proj1 V1), (proj1 V2), (proj1 V3); ring). assert (W2 : s * c + t * c' + k * c'' == 0) by (rewrite (proj2 V1), (proj2 V2), (proj2 V3); ring). assert (W0 : s * a + t * a' + k * a'' == 1) by (clear - Sum W1 W2; lra).
      eapply same_spot_trans; [exact Ex|]. apply same_spot_sym. eapply same_spot_trans; [exact C|].
      destruct p as [[? ?] ?], q as [[? ?] ?], r as [[? ?] ?]. spots. rewrite W0, W1, W2. repeat split; ring. }
    destruct H1 as [H1|[H1|H1]]; [|left; exact H1|]; (destruct H2 as [H2|[H2|H2]]; [|right; left; exact H2|]);
      (destruct H3 as [H3|[H3|H3]]; [|right; right; left; exact H3|]); right; right; right; apply Z; first [left; assumption|right; assumption]. }
  clear D1 D2 D3 G.
  destruct K as [K|[K|[K|K]]]; [| | |contradiction]; exists (s * a + t * a' + k * a''), (s * b + t * b' + k * b''), (s * c + t * c' + k * c'').
  - split; [exact Pa|]. pose proof (Q2 s b ltac:(tauto) ltac:(tauto)). pose proof (Q2 s c ltac:(tauto) ltac:(tauto)).
    pose proof (Q1 t b' ltac:(tauto) ltac:(tauto)). pose proof (Q1 t c' ltac:(tauto) ltac:(tauto)). pose proof (Q1 k b'' ltac:(tauto) ltac:(tauto)). pose proof (Q1 k c'' ltac:(tauto) ltac:(tauto)).
    split; [lra|]. split; [lra|]. split; [lra|exact Ex].
  - split; [exact Pa|]. pose proof (Q1 s b ltac:(tauto) ltac:(tauto)). pose proof (Q1 s c ltac:(tauto) ltac:(tauto)).
    pose proof (Q2 t b' ltac:(tauto) ltac:(tauto)). pose proof (Q2 t c' ltac:(tauto) ltac:(tauto)). pose proof (Q1 k b'' ltac:(tauto) ltac:(tauto)). pose proof (Q1 k c'' ltac:(tauto) ltac:(tauto)).
    split; [lra|]. split; [lra|]. split; [lra|exact Ex].
  - split; [exact Pa|]. pose proof (Q1 s b ltac:(tauto) ltac:(tauto)). pose proof (Q1 s c ltac:(tauto) ltac:(tauto)).
    pose proof (Q1 t b' ltac:(tauto) ltac:(tauto)). pose proof (Q1 t c' ltac:(tauto) ltac:(tauto)). pose proof (Q2 k b'' ltac:(tauto) ltac:(tauto)). pose proof (Q2 k c'' ltac:(tauto) ltac:(tauto)).
    split; [lra|]. split; [lra|]. split; [lra|exact Ex].
Qed.
Lemma inside_none : forall p q r u v w x, inside_but None p q r u v w -> among x u v w -> strictly_among x p q r.
Proof.
  intros p q r u v w x I (s & t & k & Ps & Pt & Pk & S & E).
  destruct (I u ltac:(tauto) Coq.Init.Logic.I) as (a & b & c & A1 & B1 & C1 & S1 & E1). destruct (I v ltac:(tauto) Coq.Init.Logic.I) as (a' & b' & c' & A2 & B2 & C2 & S2 & E2).
  destruct (I w ltac:(tauto) Coq.Init.Logic.I) as (a'' & b'' & c'' & A3 & B3 & C3 & S3 & E3).
  assert (Pos : forall y y' y'', 0 < y -> 0 < y' -> 0 < y'' -> 0 < s * y + t * y' + k * y'').
  { intros y y' y'' Y Y' Y''. destruct (Qlt_le_dec (1 # 4) s); [assert (0 < s * y) by nra; nra|]. destruct (Qlt_le_dec (1 # 4) t); [assert (0 < t * y') by nra; nra|].
    assert (0 < k * y'') by nra. nra. }
  exists (s * a + t * a' + k * a''), (s * b + t * b' + k * b''), (s * c + t * c' + k * c''). split; [auto|]. split; [auto|]. split; [auto|]. split.
  - transitivity (s * (a + b + c) + t * (a' + b' + c') + k * (a'' + b'' + c'')); [ring|]. rewrite S1, S2, S3. lra.
  - clear - E E1 E2 E3. destruct x as [[? ?] ?], p as [[? ?] ?], q as [[? ?] ?], r as [[? ?] ?], u as [[? ?] ?], v as [[? ?] ?], w as [[? ?] ?]. spots.
    destruct E as (-> & -> & ->), E1 as (-> & -> & ->), E2 as (-> & -> & ->), E3 as (-> & -> & ->). repeat split; ring.
Qed.
Lemma inside_turn : forall P p q r u v w, inside_but P p q r u v w -> inside_but P q r p u v w.
Proof. intros P p q r u v w H z Z O. apply strictly_turn. exact (H z Z O). Qed.
Lemma inside_all : forall P p q r u v w x, ~ flat p q r -> at_corner P p q r -> inside_but P p q r u v w -> among x u v w -> off P x -> strictly_among x p q r.
Proof.
  intros [P|] p q r u v w x N C H X O; [|exact (inside_none p q r u v w x H X)]. cbn in C, O. destruct C as [C|[C|C]].
  - exact (inside_all0 P p q r u v w x N C H X O).
  - apply strictly_turn, strictly_turn. exact (inside_all0 P q r p u v w x (flat_turn' _ _ _ N) C (inside_turn _ _ _ _ _ _ _ H) X O).
  - apply strictly_turn. exact (inside_all0 P r p q u v w x (flat_turn' _ _ _ (flat_turn' _ _ _ N)) C (inside_turn _ _ _ _ _ _ _ (inside_turn _ _ _ _ _ _ _ H)) X O).
Qed.
Lemma ends_side : forall x a b p q r, ends a b p q r -> between x a b -> on_a_side x p q r.
Proof.
  intros x a b p q r E B. unfold on_a_side. destruct E as [(-> & ->)|[(-> & ->)|[(-> & ->)|[(-> & ->)|[(-> & ->)|(-> & ->)]]]]]; try tauto; apply between_swap in B; tauto.
Qed.
(** two triangles that share a point: their sides cross, or one of them holds the other *)
Theorem share_flat : forall P p q r u v w, ~ flat p q r -> ~ flat u v w -> level p -> level q -> level r -> level u -> level v -> level w ->
  at_corner P p q r -> at_corner P u v w ->
  (sides_cross P p q r u v w <->
   (exists x, among x p q r /\ among x u v w /\ off P x) /\ ~ inside_but P p q r u v w /\ ~ inside_but P u v w p q r).
Proof.
  intros P p q r u v w N N' Lp Lq Lr Lu Lv Lw C C'. split.
  - intros (a & b & d & f & x & E & E' & B & B' & _ & O). pose proof (ends_side _ _ _ _ _ _ E B) as S. pose proof (ends_side _ _ _ _ _ _ E' B') as S'.
    split; [exists x; split; [apply among_of_side, S|split; [apply among_of_side, S'|exact O]]|]. split.
    + intros H. exact (side_not_inside p q r x N S (inside_all P p q r u v w x N C H (among_of_side _ _ _ _ S') O)).
    + intros H. exact (side_not_inside u v w x N' S' (inside_all P u v w p q r x N' C' H (among_of_side _ _ _ _ S) O)).
  - intros ((x & X & X' & O) & H & H').
    destruct (inside_dec P p q r u v w) as [D|D]; [contradiction|]. destruct (inside_dec P u v w p q r) as [D'|D']; [contradiction|].
    destruct (sides_share P p q r u v w x N N' Lp Lq Lr Lu Lv Lw C C' X X' O D D') as (z & Z & Z' & Oz).
    exact (contact_crosses P p q r u v w z N N' Lp Lq Lr Lu Lv Lw C Z Z' Oz).
Qed.

(** ** Two triangles A B V and A B W *)
Theorem common_side_flat : forall A B V W, ~ flat A B V -> ~ flat A B W ->
  ((exists x, between x A V /\ between x B W) \/ (exists x, between x B V /\ between x A W) \/ among V A B W \/ among W A B V <->
   exists x, among x A B V /\ among x A B W /\ ~ aligned x A B).
Proof.
  intros A B V W N1 N2.
  assert (Top : forall X, ~ flat A B X -> ~ aligned X A B).
  { intros X N K. apply N. apply (three_aligned A B A B X); [apply between_aligned, between_first|apply between_aligned, between_last|exact K]. }
  assert (Cross : forall A B V W, ~ flat A B V -> ~ flat A B W -> forall x, between x A V -> between x B W -> ~ aligned x A B).
  { clear. intros A B V W N1 N2 x X Y K. destruct (real_ends A B V N1) as (D & _). apply D.
    assert (E : same_spot x A) by (apply (two_lines A B V x N1 K), between_aligned, X).
    assert (E' : same_spot x B) by (apply (two_lines B A W x (flat_swap' _ _ _ N2) (aligned_swap _ _ _ K)), between_aligned, Y).
    eapply same_spot_trans; [apply same_spot_sym, E|exact E']. }
  split.
  - intros [(x & X & Y)|[(x & X & Y)|[H|H]]].
    + exists x. split; [apply between_among_02, X|]. split; [apply among_swap, between_among_02, Y|exact (Cross A B V W N1 N2 x X Y)].
    + exists x. split; [apply among_swap, between_among_02, X|]. split; [apply between_among_02, Y|].
      intros K. exact (Cross B A V W (flat_swap' _ _ _ N1) (flat_swap' _ _ _ N2) x X Y (aligned_swap _ _ _ K)).
    + exists V. split; [apply corner_among2|]. split; [exact H|exact (Top V N1)].
    + exists W. split; [exact H|]. split; [apply corner_among2|exact (Top W N2)].
  - intros (x & (a0 & a1 & a2 & A0 & A1 & A2 & SA & EA) & (b0 & b1 & b2 & B0 & B1 & B2 & SB & EB) & D).
    assert (P2 : 0 < a2).
    { destruct (Qlt_le_dec 0 a2) as [H|H]; [exact H|]. exfalso. apply D. assert (Z : a2 == 0) by lra. exists a0, a1. split; [lra|].
      destruct x as [[? ?] ?], A as [[? ?] ?], B as [[? ?] ?], V as [[? ?] ?]. spots. destruct EA as (-> & -> & ->). rewrite Z. repeat split; ring. }
    assert (Q2 : 0 < b2).
    { destruct (Qlt_le_dec 0 b2) as [H|H]; [exact H|]. exfalso. apply D. assert (Z : b2 == 0) by lra. exists b0, b1. split; [lra|].
      destruct x as [[? ?] ?], A as [[? ?] ?], B as [[? ?] ?], W as [[? ?] ?]. spots. destruct EB as (-> & -> & ->). rewrite Z. repeat split; ring. }
    (* a0 A + a1 B + a2 V = b0 A + b1 B + b2 W *)
    assert (E : same_spot (mean3 (a0 - b0) (a1 - b1) a2 A B V) (mean3 0 0 b2 A B W)).
    { destruct x as [[? ?] ?], A as [[? ?] ?], B as [[? ?] ?], V as [[? ?] ?], W as [[? ?] ?]. spots. destruct EA as (E0 & E1 & E2), EB as (F0 & F1 & F2).
      rewrite E0 in F0. rewrite E1 in F1. rewrite E2 in F2. repeat split; lra. }
    set (al := a0 - b0) in *. set (be := a1 - b1) in *. assert (S : al + be + a2 == b2) by (unfold al, be; lra). clearbody al be.
    clear - E S P2 Q2.
    assert (Scale : forall k y z, ~ k == 0 -> k * y == z -> y == z * / k) by (intros k y z K <-; field; exact K).
    destruct (Qlt_le_dec al 0) as [La|La], (Qlt_le_dec be 0) as [Lb|Lb].
    + (* V = (b2 W - al A - be B) / a2 *)
      right. right. left. exists (- al * / a2), (- be * / a2), (b2 * / a2). assert (Pi : 0 < / a2) by (apply Qinv_lt_0_compat; exact P2).
      assert (I : a2 * / a2 == 1) by (apply Qmult_inv_r; lra). split; [nra|]. split; [nra|]. split; [nra|]. split.
      { transitivity ((b2 - al - be) * / a2); [ring|]. rewrite <- S. transitivity (a2 * / a2); [ring|exact I]. }
      assert (R : forall P Q V W, al * P + be * Q + a2 * V == 0 * P + 0 * Q + b2 * W -> V == - al * / a2 * P + - be * / a2 * Q + b2 * / a2 * W).
      { intros P Q0 V0 W0 H. transitivity ((a2 * V0) * / a2); [transitivity ((a2 * / a2) * V0); [rewrite I; ring|ring]|].
        assert (a2 * V0 == b2 * W0 - al * P - be * Q0) as -> by lra. ring. }
      destruct A as [[? ?] ?], B as [[? ?] ?], V as [[? ?] ?], W as [[? ?] ?]. spots. destruct E as (E0 & E1 & E2). repeat split; apply R; assumption.
    + (* al < 0 <= be: (b2 W - al A) / (b2 - al) = (be B + a2 V) / (be + a2) *)
      right. left. assert (Pn : 0 < be + a2) by lra. assert (Pi : 0 < / (be + a2)) by (apply Qinv_lt_0_compat; exact Pn).
      assert (I : (be + a2) * / (be + a2) == 1) by (apply Qmult_inv_r; lra).
      set (i := / (be + a2)) in *. clearbody i.
      exists (mean2 (be * i) (a2 * i) B V). split.
      * exists (be * i), (a2 * i). split; [nra|]. split; [nra|]. split; [transitivity ((be + a2) * i); [ring|exact I]|apply same_spot_refl].
      * exists (- al * i), (b2 * i). split; [nra|]. split; [nra|]. split.
        { transitivity ((b2 - al) * i); [ring|]. assert (b2 - al == be + a2) as -> by lra. exact I. }
        assert (R : forall P Q V W, al * P + be * Q + a2 * V == 0 * P + 0 * Q + b2 * W -> be * i * Q + a2 * i * V == - al * i * P + b2 * i * W).
        { intros P Q0 V0 W0 H. transitivity (i * (be * Q0 + a2 * V0)); [ring|]. assert (be * Q0 + a2 * V0 == b2 * W0 - al * P) as -> by lra. ring. }
        destruct A as [[? ?] ?], B as [[? ?] ?], V as [[? ?] ?], W as [[? ?] ?]. spots. destruct E as (E0 & E1 & E2). repeat split; apply R; assumption.
    + left. assert (Pn : 0 < al + a2) by lra. assert (Pi : 0 < / (al + a2)) by (apply Qinv_lt_0_compat; exact Pn).
      assert (I : (al + a2) * / (al + a2) == 1) by (apply Qmult_inv_r; lra).
      set (i := / (al + a2)) in *. clearbody i.
      exists (mean2 (al * i) (a2 * i) A V). split.
      * exists (al * i), (a2 * i). split; [nra|]. split; [nra|]. split; [transitivity ((al + a2) * i); [ring|exact I]|apply same_spot_refl].
      * exists (- be * i), (b2 * i). split; [nra|]. split; [nra|]. split.
        { transitivity ((b2 - be) * i); [ring|]. assert (b2 - be == al + a2) as -> by lra. exact I. }
        assert (R : forall P Q V W, al * P + be * Q + a2 * V == 0 * P + 0 * Q + b2 * W -> al * i * P + a2 * i * V == - be * i * Q + b2 * i * W).
        { intros P Q0 V0 W0 H. transitivity (i * (al * P + a2 * V0)); [ring|]. assert (al * P + a2 * V0 == b2 * W0 - be * Q0) as -> by lra. ring. }
        destruct A as [[? ?] ?], B as [[? ?] ?], V as [[? ?] ?], W as [[? ?] ?]. spots. destruct E as (E0 & E1 & E2). repeat split; apply R; assumption.
    + right. right. right. exists (al * / b2), (be * / b2), (a2 * / b2). assert (Pi : 0 < / b2) by (apply Qinv_lt_0_compat; exact Q2).
      assert (I : b2 * / b2 == 1) by (apply Qmult_inv_r; lra). split; [nra|]. split; [nra|]. split; [nra|]. split.
      { transitivity ((al + be + a2) * / b2); [ring|]. rewrite S. exact I. }
      assert (R : forall P Q V W, al * P + be * Q + a2 * V == 0 * P + 0 * Q + b2 * W -> W == al * / b2 * P + be * / b2 * Q + a2 * / b2 * V).
      { intros P Q0 V0 W0 H. transitivity ((b2 * / b2) * W0); [rewrite I; ring|]. transitivity (/ b2 * (b2 * W0)); [ring|].
        assert (b2 * W0 == al * P + be * Q0 + a2 * V0) as -> by lra. ring. }
      destruct A as [[? ?] ?], B as [[? ?] ?], V as [[? ?] ?], W as [[? ?] ?]. spots. destruct E as (E0 & E1 & E2). repeat split; apply R; assumption.
Qed.
