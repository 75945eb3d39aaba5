(** Predicates of the plane that keep all their promises. *)
From Coq Require Import String List Arith NArith ZArith Bool QArith Lqa Lia.
From Verif Require Import Base Types Model_Intersections Spec_Intersections Spec_Geometry Proof_Geometry Proof_Geometry2 Proof_Geometry4 Proof_Geometry6 Proof_Exact Proof_Exact2
  Spec_Geometry2 Proof_Flat.
Import ListNotations.
Local Open Scope Q_scope.

Lemma among_segment : forall x a b, among x a b b <-> between x a b.
Proof.
  intros [[x0 x1] x2] [[a0 a1] a2] [[b0 b1] b2]. split.
  - intros (s & t & u & S & T & U & E & K). exists s, (t + u). split; [lra|]. split; [lra|]. split; [lra|]. spots. destruct K as (-> & -> & ->). repeat split; ring.
  - intros (s & t & S & T & E & K). exists s, t, 0. split; [lra|]. split; [lra|]. split; [lra|]. split; [lra|]. spots. destruct K as (-> & -> & ->). repeat split; ring.
Qed.
Lemma segments_touch : forall s s', touchb (segment_end s 0) (segment_end s 1) (segment_end s' 0) (segment_end s' 1) (segment_end s' 1) = true <->
  exists x, on_segment x s /\ on_segment x s'.
Proof.
  intros s s'. rewrite touchb_ok. split; intros (x & X1 & X2); exists x; (split; [exact X1|]); apply among_segment; exact X2.
Qed.
Lemma segments_twice : forall s s', twiceb (segment_end s 0) (segment_end s 1) (segment_end s' 0) (segment_end s' 1) (segment_end s' 1) = true <->
  exists x y, on_segment x s /\ on_segment x s' /\ on_segment y s /\ on_segment y s' /\ ~ same_spot x y.
Proof.
  intros s s'. rewrite twiceb_ok. split; intros (x & y & X1 & X2 & Y1 & Y2 & D); exists x, y; (split; [exact X1|split; [apply among_segment; exact X2|split; [exact Y1|split; [apply among_segment; exact Y2|exact D]]]]).
Qed.
(** two points of a line determine it *)
Lemma one_line_two : forall x y z a b, ~ same_spot x y -> aligned x a b -> aligned y a b -> aligned z a b -> aligned z x y.
Proof.
  intros x y z a b D (x' & t & S & E) (y' & u & S' & E') (z' & v & S'' & E'').
  destruct (Qeq_dec t u) as [K|K].
  - exfalso. apply D. eapply same_spot_trans; [exact E|]. apply same_spot_sym. eapply same_spot_trans; [exact E'|].
    assert (K' : y' == x') by lra. destruct a as [[? ?] ?], b as [[? ?] ?]. spots. rewrite K, K'. repeat split; reflexivity.
  - assert (N : ~ u - t == 0) by lra. assert (I : (u - t) * / (u - t) == 1) by (apply Qmult_inv_r; exact N). set (i := / (u - t)) in *. clearbody i.
    exists ((u - v) * i), ((v - t) * i). split; [transitivity ((u - t) * i); [ring|exact I]|].
    assert (R : forall X Y Z A B, X == x' * A + t * B -> Y == y' * A + u * B -> Z == z' * A + v * B -> Z == (u - v) * i * X + (v - t) * i * Y).
    { intros X Y Z A B -> -> ->. assert (X' : x' == 1 - t) by lra. assert (Y' : y' == 1 - u) by lra. assert (Z' : z' == 1 - v) by lra. rewrite X', Y', Z'.
      transitivity (((u - t) * i) * ((1 - v) * A + v * B)); [rewrite I; ring|ring]. }
    destruct x as [[? ?] ?], y as [[? ?] ?], z as [[? ?] ?], a as [[? ?] ?], b as [[? ?] ?]. spots.
    destruct E as (E0 & E1 & E2), E' as (F0 & F1 & F2), E'' as (G0 & G1 & G2). repeat split; eapply R; eassumption.
Qed.
Lemma aligned_line : forall x y z p q, aligned x p q -> aligned y p q -> aligned z x y -> aligned z p q.
Proof.
  intros [[x0 x1] x2] [[y0 y1] y2] [[z0 z1] z2] [[p0 p1] p2] [[q0 q1] q2] (a & b & S & E) (c & d & S' & E') (s & t & S'' & E'').
  exists (s * a + t * c), (s * b + t * d). split; [transitivity (s * (a + b) + t * (c + d)); [ring|rewrite S, S'; lra]|]. spots.
  destruct E as (E0 & E1 & E2), E' as (F0 & F1 & F2), E'' as (G0 & G1 & G2). rewrite E0, F0 in G0. rewrite E1, F1 in G1. rewrite E2, F2 in G2. repeat split; lra.
Qed.

Definition end_pairs : list (nat * nat) := [(0, 0); (0, 1); (1, 0); (1, 1)]%nat.
Definition sharp_segment (s s' : Segment) : Position * Position :=
  if touchb (segment_end s 0) (segment_end s 1) (segment_end s' 0) (segment_end s' 1) (segment_end s' 1)
  then if twiceb (segment_end s 0) (segment_end s 1) (segment_end s' 0) (segment_end s' 1) (segment_end s' 1) then (Parallel, Parallel)
       else match find (fun ij => spotb (segment_end s (fst ij)) (segment_end s' (snd ij))) end_pairs with
            | Some (i, j) => (vertex_position i, vertex_position j)
            | None => (Inside, Inside)
            end
  else (Outside, Outside).
Definition sharp_point (p : Point) (t : Triangle) : Position :=
  if touchb (place_of p) (place_of p) (corner t 0) (corner t 1) (corner t 2) then Inside else Outside.
Lemma end_pairs_in : forall i j, In (i, j) end_pairs <-> (i < 2)%nat /\ (j < 2)%nat.
Proof.
  intros i j. unfold end_pairs. cbn [In]. split.
  - intros H. repeat (destruct H as [H|H]; [injection H as <- <-; lia|]). destruct H.
  - intros [Hi Hj]. destruct i as [|[|i]], j as [|[|j]]; try lia; tauto.
Qed.
Lemma found_ends : forall s t ij, find (fun ij => spotb (segment_end s (fst ij)) (segment_end t (snd ij))) end_pairs = Some ij ->
  (fst ij < 2)%nat /\ (snd ij < 2)%nat /\ same_spot (segment_end s (fst ij)) (segment_end t (snd ij)).
Proof. intros s t [i j] H. apply find_some in H. destruct H as [H E]. apply end_pairs_in in H. apply spotb_ok in E. tauto. Qed.
Lemma one_meeting : forall s s' x y, twiceb (segment_end s 0) (segment_end s 1) (segment_end s' 0) (segment_end s' 1) (segment_end s' 1) = false ->
  on_segment x s -> on_segment x s' -> on_segment y s -> on_segment y s' -> same_spot x y.
Proof.
  intros s t x y H X1 X2 Y1 Y2. destruct (same_spot_dec x y) as [E|E]; [exact E|]. exfalso.
  assert (K : twiceb (segment_end s 0) (segment_end s 1) (segment_end t 0) (segment_end t 1) (segment_end t 1) = true) by (apply segments_twice; exists x, y; tauto). congruence.
Qed.
Lemma between_spot : forall x y p q, same_spot x y -> between y p q -> between x p q.
Proof. intros x y p q E (a & b & A & B & S & F). exists a, b. repeat (split; [assumption|]). eapply same_spot_trans; eassumption. Qed.
Lemma distinct_ends : forall s i j, real_segment s -> (i < 2)%nat -> (j < 2)%nat -> same_spot (segment_end s i) (segment_end s j) -> i = j.
Proof.
  intros s [|[|i]] [|[|j]] R Hi Hj E; try lia; try reflexivity; exfalso; apply R; [exact E|apply same_spot_sym; exact E].
Qed.
Lemma sharp_segment_range : forall s s', (forall i, vertex_index (fst (sharp_segment s s')) = Some i -> (i < 2)%nat) /\ (forall i, vertex_index (snd (sharp_segment s s')) = Some i -> (i < 2)%nat).
Proof.
  intros s s'. unfold sharp_segment. destruct (touchb _ _ _ _ _); [|split; discriminate]. destruct (twiceb _ _ _ _ _); [split; discriminate|].
  destruct (find _ _) as [[i' j']|] eqn:F; [|split; discriminate]. destruct (found_ends s s' _ F) as (Li & Lj & _). cbn [fst snd] in *.
  split; intros i E; apply vertex_of in E; lia.
Qed.
Section SharpFlat.
Context (st_ : Segment -> Triangle -> Position * Position) (pp_ : SurfaceMesh -> list nat -> list nat -> bool).
Let px := mkPredicates sharp_point sharp_segment st_ vertex_index pp_.
Lemma sharp_in_plane : exact_in_plane px.
Proof.
  constructor; cbn [px_segment_segment px_index px_point_triangle px].
  - intros s s' _ _ _ _. rewrite <- segments_touch. unfold sharp_segment. destruct (touchb _ _ _ _ _); [|split; [intros H; contradiction H; reflexivity|discriminate]].
    split; [reflexivity|]. intros _. destruct (twiceb _ _ _ _ _); [discriminate|]. destruct (find _ _) as [[i' j']|] eqn:F; [|discriminate].
    destruct (found_ends s s' _ F) as (Li & _). cbn [fst snd] in *. destruct i' as [|[|i']]; cbn; try discriminate; lia.
  - intros s s' _ _ _ _ RS RS' H. unfold sharp_segment in H. destruct (touchb _ _ _ _ _); [|discriminate H].
    destruct (twiceb _ _ _ _ _) eqn:T.
    + apply segments_twice in T. destruct T as (x & y & X1 & X2 & Y1 & Y2 & D). unfold on_segment in *.
      apply between_aligned in X1, X2, Y1, Y2.
      assert (K : forall z, aligned z (place_of (fst s')) (place_of (snd s')) -> aligned z (place_of (fst s)) (place_of (snd s))).
      { intros z Z. exact (aligned_line x y z _ _ X1 Y1 (one_line_two x y z _ _ D X2 Y2 Z)). }
      split; apply K; apply between_aligned; [apply between_first|apply between_last].
    + destruct (find _ _) as [[i' j']|] eqn:F; [|discriminate H]. destruct (found_ends s s' _ F) as (Li & _). cbn [fst snd] in *. destruct i' as [|[|i']]; cbn in H; try discriminate; lia.
  - intros s s' i j x _ _ _ _ I1 I2 X1 X2. unfold sharp_segment in *. destruct (touchb _ _ _ _ _); [|discriminate]. destruct (twiceb _ _ _ _ _) eqn:T; [discriminate|].
    destruct (find _ _) as [[i' j']|] eqn:F; [|discriminate]. destruct (found_ends s s' (i', j') F) as (Li & Lj & E). cbn [fst snd] in *.
    apply vertex_of in I1; [|lia]. apply vertex_of in I2; [|lia]. subst.
    assert (S : same_spot x (segment_end s i)).
    { eapply one_meeting; [exact T|exact X1|exact X2|apply end_on_segment; lia|]. unfold on_segment. eapply between_spot; [exact E|]. apply (end_on_segment s' j); lia. }
    split; [exact S|]. eapply same_spot_trans; eassumption.
  - intros s s' i j _ _ _ _ RS RS' Li Lj E NP. unfold sharp_segment in *.
    assert (Eo : on_segment (segment_end s i) s') by (unfold on_segment; eapply between_spot; [exact E|]; apply (end_on_segment s' j); exact Lj).
    assert (K : touchb (segment_end s 0) (segment_end s 1) (segment_end s' 0) (segment_end s' 1) (segment_end s' 1) = true).
    { apply segments_touch. exists (segment_end s i). split; [apply end_on_segment; exact Li|exact Eo]. }
    rewrite K in *. destruct (twiceb _ _ _ _ _) eqn:T; [contradiction NP; reflexivity|]. left.
    destruct (find _ _) as [[i' j']|] eqn:F.
    + destruct (found_ends s s' (i', j') F) as (Li' & Lj' & E'). cbn [fst snd] in *.
      assert (Ei : same_spot (segment_end s i) (segment_end s i')).
      { eapply one_meeting; [exact T|apply end_on_segment; exact Li|exact Eo|apply end_on_segment; exact Li'|]. unfold on_segment. eapply between_spot; [exact E'|]. apply (end_on_segment s' j'); exact Lj'. }
      pose proof (distinct_ends s i i' RS Li Li' Ei) as <-.
      assert (Ej : same_spot (segment_end s' j) (segment_end s' j')) by (eapply same_spot_trans; [apply same_spot_sym; exact E|exact E']).
      pose proof (distinct_ends s' j j' RS' Lj Lj' Ej) as <-. destruct i as [|[|i]], j as [|[|j]]; try lia; split; reflexivity.
    + exfalso. assert (P : In (i, j) end_pairs) by (apply end_pairs_in; tauto). pose proof (find_none _ _ F _ P) as G. cbn [fst snd] in G.
      assert (spotb (segment_end s i) (segment_end s' j) = true) by (apply spotb_ok; exact E). congruence.
  - intros p t _ _ _ _. unfold sharp_point.
    assert (K : touchb (place_of p) (place_of p) (corner t 0) (corner t 1) (corner t 2) = true <-> on_triangle (place_of p) t).
    { rewrite touchb_ok. split.
      - intros (x & (a & b & A & B & S & E) & X). eapply among_eq; [|exact X]. apply same_spot_sym. eapply same_spot_trans; [exact E|].
        destruct (place_of p) as [[? ?] ?]. spots. assert (Eb : b == 1 - a) by lra. rewrite Eb. repeat split; ring.
      - intros H. exists (place_of p). split; [apply between_first|exact H]. }
    rewrite <- K. destruct (touchb _ _ _ _ _); split; try discriminate; try tauto.
Qed.
End SharpFlat.
