(** Predicates that locate contacts exist, for both readings of "parallel". *)
From Coq Require Import String List Arith NArith ZArith Bool QArith Lqa Lia.
From Verif Require Import Base Types Model_Intersections Spec_Intersections Spec_Geometry Proof_Geometry Proof_Geometry2 Proof_Geometry3 Proof_Geometry4 Proof_Geometry6 Proof_Exact Proof_Exact2
  Spec_Geometry2 Proof_Flat Proof_Exact3 Spec_Geometry3 Proof_Locate.
Import ListNotations.
Local Open Scope Q_scope.

Definition segment_spot (on : place -> bool) (s : Segment) : Position :=
  if on (segment_end s 0) then Vertex0 else if on (segment_end s 1) then Vertex1 else Inside.
Definition triangle_spot (p q : place) (t : Triangle) : Position :=
  let on a b := touchb p q a b b in
  if on (corner t 0) (corner t 0) then Vertex0 else if on (corner t 1) (corner t 1) then Vertex1 else if on (corner t 2) (corner t 2) then Vertex2
  else if on (corner t 0) (corner t 1) then Edge0 else if on (corner t 1) (corner t 2) then Edge1 else if on (corner t 2) (corner t 0) then Edge2 else Inside.
Lemma single_between : forall x a, between x a a <-> same_spot x a.
Proof.
  intros [[x0 x1] x2] [[a0 a1] a2]. split.
  - intros (u & v & _ & _ & S & E). spots. destruct E as (E0 & E1 & E2). assert (K : u == 1 - v) by lra. rewrite K in *. repeat split; lra.
  - intros E. exists 1, 0. spots. destruct E as (-> & -> & ->). split; [lra|]. split; [lra|]. split; [lra|]. repeat split; ring.
Qed.
Lemma side_touch : forall p q a b, touchb p q a b b = true <-> exists x, between x p q /\ between x a b.
Proof. intros p q a b. rewrite touchb_ok. split; intros (x & A & B); exists x; (split; [exact A|]); apply among_segment; exact B. Qed.
Lemma side_touch_false : forall p q a b x, touchb p q a b b = false -> between x p q -> ~ between x a b.
Proof. intros p q a b x F A B. assert (K : touchb p q a b b = true) by (apply side_touch; exists x; tauto). congruence. Qed.
Lemma strict_or_side : forall x p q r, among x p q r -> strictly_among x p q r \/ between x p q \/ between x q r \/ between x r p.
Proof.
  intros x p q r (a & b & c & A & B & C & S & E).
  destruct (Qlt_le_dec 0 a) as [Pa|Pa]; [destruct (Qlt_le_dec 0 b) as [Pb|Pb]; [destruct (Qlt_le_dec 0 c) as [Pc|Pc]|]|].
  - left. exists a, b, c. tauto.
  - right. assert (Z : c == 0) by lra. destruct (mean_side a b c p q r A B C S ltac:(tauto)) as [K|[K|K]]; [left|right; left|right; right]; eapply between_eq; eassumption.
  - right. assert (Z : b == 0) by lra. destruct (mean_side a b c p q r A B C S ltac:(tauto)) as [K|[K|K]]; [left|right; left|right; right]; eapply between_eq; eassumption.
  - right. assert (Z : a == 0) by lra. destruct (mean_side a b c p q r A B C S ltac:(tauto)) as [K|[K|K]]; [left|right; left|right; right]; eapply between_eq; eassumption.
Qed.
Lemma triangle_spot_tells : forall p q t x, between x p q -> on_triangle x t -> (forall y, between y p q -> on_triangle y t -> same_spot y x) ->
  tells_triangle (triangle_spot p q t) t x.
Proof.
  intros p q t x X1 X2 U. unfold triangle_spot.
  assert (V : forall j, (j < 3)%nat -> touchb p q (corner t j) (corner t j) (corner t j) = true -> same_spot x (corner t j)).
  { intros j Lj K. apply side_touch in K. destruct K as (y & A & B). apply single_between in B. eapply same_spot_trans; [|exact B].
    apply same_spot_sym, U; [exact A|]. eapply among_eq; [exact B|]. exact (corner_on_triangle t j Lj). }
  assert (W : forall j, (j < 3)%nat -> touchb p q (corner t j) (corner t j) (corner t j) = false -> ~ same_spot x (corner t j)).
  { intros j Lj K E. apply (side_touch_false _ _ _ _ _ K X1). apply single_between, E. }
  assert (D : forall j k, (j < 3)%nat -> (k < 3)%nat -> (forall y, between y (corner t j) (corner t k) -> on_triangle y t) ->
    touchb p q (corner t j) (corner t k) (corner t k) = true -> between x (corner t j) (corner t k)).
  { intros j k Lj Lk O K. apply side_touch in K. destruct K as (y & A & B). eapply between_eq; [apply same_spot_sym, U; [exact A|exact (O y B)]|exact B]. }
  destruct (touchb p q (corner t 0) (corner t 0) (corner t 0)) eqn:K0; [apply (V 0%nat); [lia|exact K0]|apply (W 0%nat) in K0; [|lia]].
  destruct (touchb p q (corner t 1) (corner t 1) (corner t 1)) eqn:K1; [apply (V 1%nat); [lia|exact K1]|apply (W 1%nat) in K1; [|lia]].
  destruct (touchb p q (corner t 2) (corner t 2) (corner t 2)) eqn:K2; [apply (V 2%nat); [lia|exact K2]|apply (W 2%nat) in K2; [|lia]].
  destruct (touchb p q (corner t 0) (corner t 1) (corner t 1)) eqn:S0.
  { cbn [tells_triangle]. left. split; [|tauto]. apply D; [lia|lia| |exact S0]. intros y Y. apply among_of_side. left. exact Y. }
  destruct (touchb p q (corner t 1) (corner t 2) (corner t 2)) eqn:S1.
  { cbn [tells_triangle]. right. left. split; [|tauto]. apply D; [lia|lia| |exact S1]. intros y Y. apply among_of_side. right. left. exact Y. }
  destruct (touchb p q (corner t 2) (corner t 0) (corner t 0)) eqn:S2.
  { cbn [tells_triangle]. right. right. split; [|tauto]. apply D; [lia|lia| |exact S2]. intros y Y. apply among_of_side. right. right. exact Y. }
  cbn [tells_triangle]. destruct (strict_or_side _ _ _ _ X2) as [K|[K|[K|K]]]; [exact K|exfalso..].
  - exact (side_touch_false _ _ _ _ _ S0 X1 K).
  - exact (side_touch_false _ _ _ _ _ S1 X1 K).
  - exact (side_touch_false _ _ _ _ _ S2 X1 K).
Qed.
Lemma segment_spot_tells : forall (P : place -> Prop) on s x, (forall y, on y = true <-> P y) -> (forall y z, same_spot y z -> P y -> P z) ->
  on_segment x s -> P x -> (forall y, on_segment y s -> P y -> same_spot y x) -> tells_segment (segment_spot on s) s x.
Proof.
  intros P on s x O E X1 X2 U. unfold segment_spot.
  destruct (on (segment_end s 0)) eqn:K0; [apply same_spot_sym, U; [apply end_on_segment; lia|apply O, K0]|].
  destruct (on (segment_end s 1)) eqn:K1; [apply same_spot_sym, U; [apply end_on_segment; lia|apply O, K1]|].
  cbn [tells_segment]. split; [exact X1|]. split; intros S.
  - assert (K : on (segment_end s 0) = true) by (apply O; exact (E _ _ S X2)). congruence.
  - assert (K : on (segment_end s 1) = true) by (apply O; exact (E _ _ S X2)). congruence.
Qed.
Lemma on_triangleb : forall p t, touchb p p (corner t 0) (corner t 1) (corner t 2) = true <-> on_triangle p t.
Proof.
  intros p t. rewrite touchb_ok. split.
  - intros (x & A & B). apply single_between in A. eapply among_eq; [apply same_spot_sym; exact A|exact B].
  - intros H. exists p. split; [apply between_first|exact H].
Qed.
Lemma on_segmentb : forall p s, touchb p p (segment_end s 0) (segment_end s 1) (segment_end s 1) = true <-> on_segment p s.
Proof.
  intros p s. rewrite side_touch. split.
  - intros (x & A & B). apply single_between in A. eapply between_eq; [apply same_spot_sym; exact A|exact B].
  - intros H. exists p. split; [apply between_first|exact H].
Qed.

(** ** The predicates *)
Definition alongb (r : reading) (s : Segment) (t : Triangle) : bool :=
  match r with
  | Overlapping => twiceb (segment_end s 0) (segment_end s 1) (corner t 0) (corner t 1) (corner t 2)
  | Coplanar => planeb (segment_end s 0) (corner t 0) (corner t 1) (corner t 2) && planeb (segment_end s 1) (corner t 0) (corner t 1) (corner t 2)
  end.
Definition locate_on_triangle (r : reading) (s : Segment) (t : Triangle) : Position * Position :=
  if touchb (segment_end s 0) (segment_end s 1) (corner t 0) (corner t 1) (corner t 2)
  then if alongb r s t then (Parallel, Parallel)
       else (segment_spot (fun p => touchb p p (corner t 0) (corner t 1) (corner t 2)) s, triangle_spot (segment_end s 0) (segment_end s 1) t)
  else (Outside, Outside).
(** a line is a plane whose third point is the second one *)
Definition lineb (r : reading) (s s' : Segment) : bool :=
  match r with
  | Overlapping => twiceb (segment_end s 0) (segment_end s 1) (segment_end s' 0) (segment_end s' 1) (segment_end s' 1)
  | Coplanar => planeb (segment_end s' 0) (segment_end s 0) (segment_end s 1) (segment_end s 1) && planeb (segment_end s' 1) (segment_end s 0) (segment_end s 1) (segment_end s 1)
  end.
Definition locate_on_segment (r : reading) (s s' : Segment) : Position * Position :=
  if touchb (segment_end s 0) (segment_end s 1) (segment_end s' 0) (segment_end s' 1) (segment_end s' 1)
  then if lineb r s s' then (Parallel, Parallel)
       else (segment_spot (fun p => touchb p p (segment_end s' 0) (segment_end s' 1) (segment_end s' 1)) s, segment_spot (fun p => touchb p p (segment_end s 0) (segment_end s 1) (segment_end s 1)) s')
  else (Outside, Outside).
Definition locate_point (p : Point) (t : Triangle) : Position :=
  if touchb (place_of p) (place_of p) (corner t 0) (corner t 1) (corner t 2) then triangle_spot (place_of p) (place_of p) t else Outside.

Lemma alongb_ok : forall r s t, touchb (segment_end s 0) (segment_end s 1) (corner t 0) (corner t 1) (corner t 2) = true ->
  (alongb r s t = true <-> parallel_to_triangle r s t).
Proof.
  intros [|] s t T; cbn [alongb parallel_to_triangle].
  - apply twice_iff.
  - apply touch_iff in T. rewrite andb_true_iff, !planeb_ok. unfold on_plane. unfold corner. tauto.
Qed.
Lemma line_plane : forall z a b, of_plane z a b b <-> aligned z a b.
Proof.
  intros [[z0 z1] z2] [[a0 a1] a2] [[b0 b1] b2]. split.
  - intros (u & v & w & S & E). exists u, (v + w). split; [lra|]. spots. destruct E as (E0 & E1 & E2). repeat split; lra.
  - intros (u & v & S & E). exists u, v, 0. split; [lra|]. spots. destruct E as (E0 & E1 & E2). repeat split; lra.
Qed.
Lemma lineb_ok : forall r s s', touchb (segment_end s 0) (segment_end s 1) (segment_end s' 0) (segment_end s' 1) (segment_end s' 1) = true ->
  (lineb r s s' = true <-> parallel_to_segment r s s').
Proof.
  intros [|] s s' T; cbn [lineb parallel_to_segment].
  - apply segments_twice.
  - apply segments_touch in T. rewrite andb_true_iff, !planeb_ok, !line_plane. unfold one_line. tauto.
Qed.
(** two segments that share two points are on one line *)
Lemma segments_one_line : forall s s', parallel_to_segment Overlapping s s' -> parallel_to_segment Coplanar s s'.
Proof.
  intros s s' (x & y & X1 & X2 & Y1 & Y2 & D). split; [exists x; tauto|].
  apply between_aligned in X1, X2, Y1, Y2.
  assert (K : forall z, aligned z (segment_end s' 0) (segment_end s' 1) -> aligned z (segment_end s 0) (segment_end s 1)).
  { intros z Z. exact (aligned_line x y z _ _ X1 Y1 (one_line_two x y z _ _ D X2 Y2 Z)). }
  split; apply K; apply between_aligned; [apply between_first|apply between_last].
Qed.
Lemma single_meeting : forall r s s' x y, ~ parallel_to_segment r s s' -> on_segment x s -> on_segment x s' -> on_segment y s -> on_segment y s' -> same_spot x y.
Proof.
  intros r s t x y N X1 X2 Y1 Y2. destruct (same_spot_dec x y) as [E|E]; [exact E|]. exfalso. apply N.
  assert (O : parallel_to_segment Overlapping s t) by (exists x, y; tauto). destruct r; [exact O|apply segments_one_line, O].
Qed.
Section Locating.
Context (r : reading) (pp_ : SurfaceMesh -> list nat -> list nat -> bool).
Let px := mkPredicates locate_point (locate_on_segment r) (locate_on_triangle r) vertex_index pp_.
Lemma locating_triangles : locates_on_triangles px r.
Proof.
  constructor; cbn [px_segment_triangle px]; unfold locate_on_triangle.
  - intros s t _ _ N. destruct (touchb _ _ _ _ _) eqn:T; [|reflexivity]. exfalso. apply touch_iff in T. destruct T as (x & A & B). exact (N x A B).
  - intros s t _ _ P. pose proof (parallel_touches r s t P) as T. apply touch_iff in T. rewrite T. apply alongb_ok in P; [|exact T]. rewrite P. reflexivity.
  - intros s t x _ _ X1 X2 NP. assert (T : touchb (segment_end s 0) (segment_end s 1) (corner t 0) (corner t 1) (corner t 2) = true) by (apply touch_iff; exists x; tauto).
    rewrite T. destruct (alongb r s t) eqn:Q; [exfalso; apply NP, alongb_ok; assumption|]. cbn [fst snd]. split.
    + apply (segment_spot_tells (fun y => on_triangle y t)); [intros y; apply on_triangleb|intros y z E Y; eapply among_eq; [apply same_spot_sym; exact E|exact Y]|exact X1|exact X2|].
      intros y Y1 Y2. exact (single_contact r s t y x NP Y1 Y2 X1 X2).
    + apply triangle_spot_tells; [exact X1|exact X2|]. intros y Y1 Y2. exact (single_contact r s t y x NP Y1 Y2 X1 X2).
Qed.
Lemma locating_segments : locates_on_segments px r.
Proof.
  constructor; cbn [px_segment_segment px]; unfold locate_on_segment.
  - intros s t _ _ N. destruct (touchb _ _ _ _ _) eqn:T; [|reflexivity]. exfalso. apply segments_touch in T. destruct T as (x & A & B). exact (N x A B).
  - intros s t _ _ P. assert (T : exists x, on_segment x s /\ on_segment x t) by (destruct r; cbn in P; [destruct P as (x & y & A & B & _); exists x; tauto|tauto]).
    apply segments_touch in T. rewrite T. apply lineb_ok in P; [|exact T]. rewrite P. reflexivity.
  - intros s t x _ _ X1 X2 NP.
    assert (T : touchb (segment_end s 0) (segment_end s 1) (segment_end t 0) (segment_end t 1) (segment_end t 1) = true) by (apply segments_touch; exists x; tauto).
    rewrite T. destruct (lineb r s t) eqn:Q; [exfalso; apply NP, lineb_ok; assumption|]. cbn [fst snd]. split.
    + apply (segment_spot_tells (fun y => on_segment y t)); [intros y; apply on_segmentb|intros y z E Y; eapply between_eq; [apply same_spot_sym; exact E|exact Y]|exact X1|exact X2|].
      intros y Y1 Y2. exact (single_meeting r s t y x NP Y1 Y2 X1 X2).
    + apply (segment_spot_tells (fun y => on_segment y s)); [intros y; apply on_segmentb|intros y z E Y; eapply between_eq; [apply same_spot_sym; exact E|exact Y]|exact X2|exact X1|].
      intros y Y2 Y1. exact (single_meeting r s t y x NP Y1 Y2 X1 X2).
Qed.
Lemma locating_points : locates_points px.
Proof.
  constructor; cbn [px_point_triangle px]; unfold locate_point.
  - intros p t _ _ N. destruct (touchb _ _ _ _ _) eqn:T; [|reflexivity]. exfalso. apply on_triangleb in T. exact (N T).
  - intros p t _ _ H. pose proof H as T. apply on_triangleb in T. rewrite T. apply triangle_spot_tells; [apply between_first|exact H|].
    intros y Y _. apply single_between, Y.
Qed.
Lemma locating_indices : indices_in_range px.
Proof.
  assert (S : forall on s i, vertex_index (segment_spot on s) = Some i -> (i < 2)%nat).
  { intros on s i. unfold segment_spot. destruct (on _); [intros [= <-]; lia|]. destruct (on _); [intros [= <-]; lia|discriminate]. }
  split; [|split]; intros s t i; cbn [px_index px_segment_segment px_segment_triangle px].
  - unfold locate_on_segment. destruct (touchb _ _ _ _ _); [|discriminate]. destruct (lineb r s t); [discriminate|apply S].
  - unfold locate_on_segment. destruct (touchb _ _ _ _ _); [|discriminate]. destruct (lineb r s t); [discriminate|apply S].
  - generalize (snd (locate_on_triangle r s t)). intros p. destruct p; cbn; intros [= <-]; lia.
Qed.
End Locating.
