(** Predicates on segments and triangles that keep all their promises. *)
From Coq Require Import String List Arith NArith ZArith Bool QArith Lqa Lia.
From Verif Require Import Base Types Model_Intersections Spec_Intersections Spec_Geometry Proof_Geometry Proof_Geometry2 Proof_Geometry4 Proof_Exact.
Import ListNotations.
Local Open Scope Q_scope.

Definition ge0 (c : list Q) (d : Q) : constraint := mkConstraint c d false.
Definition eq0 (c : list Q) (d : Q) : list constraint := [ge0 c d; ge0 (map Qopp c) (- d)].
Definition x_ (p : place) := fst (fst p).
Definition y_ (p : place) := snd (fst p).
Definition z_ (p : place) := snd p.
(** weights of the segment [p q] and of the triangle [a b c], before [pre] and [post] other variables *)
Definition weights (pre post : list Q) (p q a b c : place) : list constraint :=
  let v l := (pre ++ l ++ post)%list in
  [ge0 (v [1; 0; 0]) 0; ge0 (v [-1; 0; 0]) 1; ge0 (v [0; 1; 0]) 0; ge0 (v [0; 0; 1]) 0; ge0 (v [0; -1; -1]) 1] ++
  flat_map (fun k => eq0 (v [k q - k p; - (k b - k a); - (k c - k a)]) (k p - k a)) [x_; y_; z_].
Definition touchb (p q a b c : place) : bool := feasible 3 (weights [] [] p q a b c).
Definition twiceb (p q a b c : place) : bool :=
  (if Qeq_dec (x_ p) (x_ q) then if Qeq_dec (y_ p) (y_ q) then if Qeq_dec (z_ p) (z_ q) then false else true else true else true) &&
  feasible 6 (weights [] [0; 0; 0] p q a b c ++ weights [0; 0; 0] [] p q a b c ++ [mkConstraint [-1; 0; 0; 1; 0; 0] 0 true]).
Definition planeb (p a b c : place) : bool := feasible 2 (flat_map (fun k => eq0 [k b - k a; k c - k a] (k a - k p)) [x_; y_; z_]).

Ltac open_all H := repeat match type of H with Forall _ (_ :: _) => inversion_clear H as [|? ? ?K H'K]; rename H'K into H | Forall _ [] => clear H end.
Lemma all_forall : forall x l, (forall k, In k l -> holds x k) <-> Forall (holds x) l.
Proof. intros x l. rewrite Forall_forall. reflexivity. Qed.

Lemma touchb_ok : forall p q a b c, touchb p q a b c = true <-> exists x, between x p q /\ among x a b c.
Proof.
  intros [[p0 p1] p2] [[q0 q1] q2] [[a0 a1] a2] [[b0 b1] b2] [[c0 c1] c2]. unfold touchb. rewrite feasible_ok. split.
  - intros (x & L & H). destruct x as [|t [|u [|w [|? ?]]]]; try discriminate L. apply all_forall in H.
    unfold weights, eq0, ge0 in H. cbn [app flat_map map x_ y_ z_ fst snd] in H. open_all H. unfold holds, sign_ok in *. cbn [strict coeffs const dot] in *.
    exists (mean2 (1 - t) t (p0, p1, p2) (q0, q1, q2)). split.
    + exists (1 - t), t. split; [lra|]. split; [lra|]. split; [lra|]. apply same_spot_refl.
    + exists (1 - u - w), u, w. split; [lra|]. split; [lra|]. split; [lra|]. split; [lra|]. spots. repeat split; lra.
  - intros ([[x0 x1] x2] & (t' & t & T' & T & ST & ET) & (u' & u & w & U' & U & W & SU & EU)). exists [t; u; w]. split; [reflexivity|].
    apply all_forall. unfold weights, eq0, ge0. cbn [app flat_map map x_ y_ z_ fst snd]. spots. destruct ET as (T0 & T1 & T2), EU as (U0 & U1 & U2).
    assert (E1 : t' == 1 - t) by lra. assert (E2 : u' == 1 - u - w) by lra. rewrite E1 in *. rewrite E2 in *.
    repeat constructor; unfold holds, sign_ok; cbn [strict coeffs const dot]; lra.
Qed.
Lemma planeb_ok : forall p a b c, planeb p a b c = true <-> of_plane p a b c.
Proof.
  intros [[p0 p1] p2] [[a0 a1] a2] [[b0 b1] b2] [[c0 c1] c2]. unfold planeb. rewrite feasible_ok. split.
  - intros (x & L & H). destruct x as [|u [|w [|? ?]]]; try discriminate L. apply all_forall in H.
    unfold eq0, ge0 in H. cbn [app flat_map map x_ y_ z_ fst snd] in H. open_all H. unfold holds, sign_ok in *. cbn [strict coeffs const dot] in *.
    exists (1 - u - w), u, w. split; [lra|]. spots. repeat split; lra.
  - intros (u' & u & w & SU & EU). exists [u; w]. split; [reflexivity|].
    apply all_forall. unfold eq0, ge0. cbn [app flat_map map x_ y_ z_ fst snd]. spots. destruct EU as (U0 & U1 & U2).
    assert (E2 : u' == 1 - u - w) by lra. rewrite E2 in *.
    repeat constructor; unfold holds, sign_ok; cbn [strict coeffs const dot]; lra.
Qed.
Lemma overlap_order : forall p q a b c, overlap p q a b c <->
  ~ same_spot p q /\ exists t t', 0 <= t /\ t < t' /\ t' <= 1 /\ among (mean2 (1 - t) t p q) a b c /\ among (mean2 (1 - t') t' p q) a b c.
Proof.
  intros p q a b c. split.
  - intros (x & y & (t1 & t & T1 & T & ST & ET) & X & (u1 & u & U1 & U & SU & EU) & Y & D).
    assert (Ex : same_spot x (mean2 (1 - t) t p q)).
    { eapply same_spot_trans; [exact ET|]. destruct p as [[? ?] ?], q as [[? ?] ?]. spots. assert (E : t1 == 1 - t) by lra. rewrite E. repeat split; reflexivity. }
    assert (Ey : same_spot y (mean2 (1 - u) u p q)).
    { eapply same_spot_trans; [exact EU|]. destruct p as [[? ?] ?], q as [[? ?] ?]. spots. assert (E : u1 == 1 - u) by lra. rewrite E. repeat split; reflexivity. }
    assert (NE : ~ same_spot p q).
    { intros E. apply D. eapply same_spot_trans; [exact Ex|]. eapply same_spot_trans; [|apply same_spot_sym; exact Ey].
      destruct p as [[? ?] ?], q as [[? ?] ?]. spots. destruct E as (-> & -> & ->). repeat split; ring. }
    split; [exact NE|].
    assert (X' : among (mean2 (1 - t) t p q) a b c) by (eapply among_eq; [apply same_spot_sym; exact Ex|exact X]).
    assert (Y' : among (mean2 (1 - u) u p q) a b c) by (eapply among_eq; [apply same_spot_sym; exact Ey|exact Y]).
    destruct (Qlt_le_dec t u) as [L|L]; [exists t, u; repeat split; try assumption; lra|].
    destruct (Qlt_le_dec u t) as [L'|L']; [exists u, t; repeat split; try assumption; lra|].
    exfalso. apply D. eapply same_spot_trans; [exact Ex|]. eapply same_spot_trans; [|apply same_spot_sym; exact Ey].
    assert (E : t == u) by lra. destruct p as [[? ?] ?], q as [[? ?] ?]. spots. rewrite E. repeat split; reflexivity.
  - intros (NE & t & t' & T & L & T' & X & Y). exists (mean2 (1 - t) t p q), (mean2 (1 - t') t' p q).
    split; [exists (1 - t), t; repeat split; try lra; apply same_spot_refl|]. split; [exact X|].
    split; [exists (1 - t'), t'; repeat split; try lra; apply same_spot_refl|]. split; [exact Y|].
    intros E. apply NE. destruct p as [[? ?] ?], q as [[? ?] ?]. spots. destruct E as (E0 & E1 & E2).
    assert (R : forall P R, (1 - t) * P + t * R == (1 - t') * P + t' * R -> P == R).
    { intros P R H. assert (Z : (R - P) * (t' - t) == 0) by lra. apply mult_z in Z; lra. }
    repeat split; apply R; assumption.
Qed.
Lemma twiceb_ok : forall p q a b c, twiceb p q a b c = true <-> overlap p q a b c.
Proof.
  intros p q a b c. rewrite overlap_order. unfold twiceb. rewrite andb_true_iff, feasible_ok. apply and_iff_compat_both.
  - destruct p as [[p0 p1] p2], q as [[q0 q1] q2]. cbn [x_ y_ z_ fst snd]. unfold same_spot.
    destruct (Qeq_dec p0 q0), (Qeq_dec p1 q1), (Qeq_dec p2 q2); split; intros H; try discriminate H; try tauto.
  - destruct p as [[p0 p1] p2], q as [[q0 q1] q2], a as [[a0 a1] a2], b as [[b0 b1] b2], c as [[c0 c1] c2]. split.
    + intros (x & L & H). destruct x as [|t [|u [|w [|t' [|u' [|w' [|? ?]]]]]]]; try discriminate L. apply all_forall in H.
      unfold weights, eq0, ge0 in H. cbn [app flat_map map x_ y_ z_ fst snd] in H. open_all H. unfold holds, sign_ok in *. cbn [strict coeffs const dot] in *.
      exists t, t'. split; [lra|]. split; [lra|]. split; [lra|]. split.
      * exists (1 - u - w), u, w. split; [lra|]. split; [lra|]. split; [lra|]. split; [lra|]. spots. repeat split; lra.
      * exists (1 - u' - w'), u', w'. split; [lra|]. split; [lra|]. split; [lra|]. split; [lra|]. spots. repeat split; lra.
    + intros (t & t' & T & L & T' & (u0 & u & w & U0 & U & W & SU & EU) & (u0' & u' & w' & U0' & U' & W' & SU' & EU')).
      exists [t; u; w; t'; u'; w']. split; [reflexivity|].
      apply all_forall. unfold weights, eq0, ge0. cbn [app flat_map map x_ y_ z_ fst snd]. spots. destruct EU as (E0 & E1 & E2), EU' as (E0' & E1' & E2').
      assert (K1 : u0 == 1 - u - w) by lra. assert (K2 : u0' == 1 - u' - w') by lra. rewrite K1 in *. rewrite K2 in *.
      repeat constructor; unfold holds, sign_ok; cbn [strict coeffs const dot]; lra.
Qed.

(** ** The predicate on segments and triangles *)
Definition spotb (p q : place) : bool := if Qeq_dec (x_ p) (x_ q) then if Qeq_dec (y_ p) (y_ q) then if Qeq_dec (z_ p) (z_ q) then true else false else false else false.
Lemma spotb_ok : forall p q, spotb p q = true <-> same_spot p q.
Proof.
  intros [[p0 p1] p2] [[q0 q1] q2]. unfold spotb, same_spot. cbn [x_ y_ z_ fst snd]. destruct (Qeq_dec p0 q0), (Qeq_dec p1 q1), (Qeq_dec p2 q2); split; intros H; try discriminate H; tauto.
Qed.
Definition vertex_position (i : nat) : Position := match i with O => Vertex0 | 1%nat => Vertex1 | _ => Vertex2 end.
Definition vertex_index (q : Position) : option nat := match q with Vertex0 => Some 0%nat | Vertex1 => Some 1%nat | Vertex2 => Some 2%nat | _ => None end.
Definition vertex_pairs : list (nat * nat) := [(0, 0); (0, 1); (0, 2); (1, 0); (1, 1); (1, 2)]%nat.
Definition sharp_triangle (s : Segment) (t : Triangle) : Position * Position :=
  let p := segment_end s 0 in let q := segment_end s 1 in
  if touchb p q (corner t 0) (corner t 1) (corner t 2)
  then if twiceb p q (corner t 0) (corner t 1) (corner t 2) then (Parallel, Parallel)
       else match find (fun ij => spotb (segment_end s (fst ij)) (corner t (snd ij))) vertex_pairs with
            | Some (i, j) => (vertex_position i, vertex_position j)
            | None => (Inside, Inside)
            end
  else (Outside, Outside).
Definition flat_triangle (s : Segment) (t : Triangle) : Position * Position :=
  if touchb (segment_end s 0) (segment_end s 1) (corner t 0) (corner t 1) (corner t 2)
  then if planeb (segment_end s 0) (corner t 0) (corner t 1) (corner t 2) && planeb (segment_end s 1) (corner t 0) (corner t 1) (corner t 2)
       then (Parallel, Parallel) else (Inside, Inside)
  else (Outside, Outside).
Lemma end_on_segment : forall s i, (i < 2)%nat -> on_segment (segment_end s i) s.
Proof.
  intros [p q] [|[|i]] H; [| |lia]; unfold on_segment, segment_end; cbn [fst snd]; [exists 1, 0|exists 0, 1];
  (split; [lra|split; [lra|split; [lra|]]]); destruct (place_of p) as [[? ?] ?], (place_of q) as [[? ?] ?]; spots; repeat split; ring.
Qed.
Lemma corner_on_triangle : forall t i, (i < 3)%nat -> on_triangle (corner t i) t.
Proof.
  intros [[p q] r] [|[|[|i]]] H; [| | |lia]; unfold on_triangle, corner; cbn [fst snd]; [exists 1, 0, 0|exists 0, 1, 0|exists 0, 0, 1];
  (split; [lra|split; [lra|split; [lra|split; [lra|]]]]); destruct (place_of p) as [[? ?] ?], (place_of q) as [[? ?] ?], (place_of r) as [[? ?] ?]; spots; repeat split; ring.
Qed.
Lemma vertex_of : forall i k, (i < 3)%nat -> vertex_index (vertex_position i) = Some k -> i = k.
Proof. intros [|[|[|i]]] k H E; cbn in E; injection E as <-; lia. Qed.
Lemma touch_iff : forall s t, touchb (segment_end s 0) (segment_end s 1) (corner t 0) (corner t 1) (corner t 2) = true <-> exists x, on_segment x s /\ on_triangle x t.
Proof. intros [p q] [[a b] c]. apply touchb_ok. Qed.
Lemma twice_iff : forall s t, twiceb (segment_end s 0) (segment_end s 1) (corner t 0) (corner t 1) (corner t 2) = true <->
  exists x y, on_segment x s /\ on_triangle x t /\ on_segment y s /\ on_triangle y t /\ ~ same_spot x y.
Proof. intros [p q] [[a b] c]. apply twiceb_ok. Qed.
Lemma pairs_in : forall i j, In (i, j) vertex_pairs <-> (i < 2)%nat /\ (j < 3)%nat.
Proof.
  intros i j. unfold vertex_pairs. cbn [In]. split.
  - intros H. repeat (destruct H as [H|H]; [injection H as <- <-; lia|]). destruct H.
  - intros [Hi Hj]. destruct i as [|[|i]], j as [|[|[|j]]]; try lia; tauto.
Qed.
Lemma found_pair : forall s t ij, find (fun ij => spotb (segment_end s (fst ij)) (corner t (snd ij))) vertex_pairs = Some ij ->
  (fst ij < 2)%nat /\ (snd ij < 3)%nat /\ same_spot (segment_end s (fst ij)) (corner t (snd ij)).
Proof.
  intros s t [i j] H. apply find_some in H. destruct H as [H E]. apply pairs_in in H. apply spotb_ok in E. tauto.
Qed.

Section Sharp.
Context (pt_ : Point -> Triangle -> Position) (ss_ : Segment -> Segment -> Position * Position) (pp_ : SurfaceMesh -> list nat -> list nat -> bool).
Let px := mkPredicates pt_ ss_ sharp_triangle vertex_index pp_.
Lemma one_spot : forall s t x y, twiceb (segment_end s 0) (segment_end s 1) (corner t 0) (corner t 1) (corner t 2) = false ->
  on_segment x s -> on_triangle x t -> on_segment y s -> on_triangle y t -> same_spot x y.
Proof.
  intros s t x y H X1 X2 Y1 Y2. destruct (same_spot_dec x y) as [E|E]; [exact E|]. exfalso.
  assert (K : twiceb (segment_end s 0) (segment_end s 1) (corner t 0) (corner t 1) (corner t 2) = true) by (apply twice_iff; exists x, y; tauto). congruence.
Qed.
Lemma sharp_overlooks_nothing : overlooks_nothing px.
Proof.
  constructor.
  - intros s t x _ _ X1 X2. cbn [px_segment_triangle px]. unfold sharp_triangle.
    assert (K : touchb (segment_end s 0) (segment_end s 1) (corner t 0) (corner t 1) (corner t 2) = true) by (apply touch_iff; exists x; tauto). rewrite K.
    destruct (twiceb _ _ _ _ _); [discriminate|]. destruct (find _ _) as [[i j]|] eqn:F; [|discriminate].
    destruct (found_pair s t (i, j) F) as (Li & Lj & _). cbn [fst snd] in *. destruct i as [|[|i]]; cbn; try discriminate; lia.
  - intros s t i j x _ _ I1 I2 X1 X2. cbn [px_segment_triangle px_index px] in *. unfold sharp_triangle in *.
    destruct (touchb _ _ _ _ _); [|discriminate]. destruct (twiceb _ _ _ _ _) eqn:T; [discriminate|].
    destruct (find _ _) as [[i' j']|] eqn:F; [|discriminate]. destruct (found_pair s t (i', j') F) as (Li & Lj & E). cbn [fst snd] in *.
    assert (i' = i) by (apply vertex_of; [lia|exact I1]). assert (j' = j) by (apply vertex_of; [lia|exact I2]). subst.
    assert (S : same_spot x (segment_end s i)).
    { eapply one_spot; [exact T|exact X1|exact X2|apply end_on_segment; lia|]. eapply among_eq; [exact E|]. exact (corner_on_triangle t j Lj). }
    split; [exact S|]. eapply same_spot_trans; eassumption.
Qed.
Lemma sharp_invents_nothing : invents_nothing px.
Proof.
  constructor.
  - intros s t _ _. cbn [px_segment_triangle px]. unfold sharp_triangle. intros H. apply touch_iff.
    destruct (touchb _ _ _ _ _); [reflexivity|]. contradiction H. reflexivity.
  - intros s t i j _ _ RS RT Li Lj E. cbn [px_segment_triangle px_index px]. unfold sharp_triangle.
    assert (Eo : on_triangle (segment_end s i) t) by (eapply among_eq; [exact E|]; exact (corner_on_triangle t j Lj)).
    assert (K : touchb (segment_end s 0) (segment_end s 1) (corner t 0) (corner t 1) (corner t 2) = true).
    { apply touch_iff. exists (segment_end s i). split; [apply end_on_segment; exact Li|exact Eo]. }
    rewrite K. destruct (twiceb _ _ _ _ _) eqn:T.
    + right. apply twice_iff in T. destruct T as (x & y & X1 & X2 & Y1 & Y2 & D). destruct (same_spot_dec x (segment_end s i)) as [Ex|Ex]; [|exists x; tauto].
      exists y. split; [exact Y1|]. split; [exact Y2|]. intros Ey. apply D. eapply same_spot_trans; [exact Ex|]. apply same_spot_sym, Ey.
    + left. destruct (find _ _) as [[i' j']|] eqn:F.
      * destruct (found_pair s t (i', j') F) as (Li' & Lj' & E'). cbn [fst snd] in *.
        assert (Ei : same_spot (segment_end s i) (segment_end s i')).
        { eapply one_spot; [exact T|apply end_on_segment; exact Li|exact Eo|apply end_on_segment; exact Li'|]. eapply among_eq; [exact E'|]. exact (corner_on_triangle t j' Lj'). }
        assert (i = i').
        { destruct i as [|[|i]], i' as [|[|i']]; try lia; try reflexivity; exfalso; apply RS; [exact Ei|apply same_spot_sym; exact Ei]. }
        subst i'. assert (Ej : same_spot (corner t j) (corner t j')) by (eapply same_spot_trans; [apply same_spot_sym; exact E|exact E']).
        assert (j = j').
        { destruct (real_ends _ _ _ RT) as (N1 & N2 & N3). destruct t as [[a b] c]. cbn [fst snd] in *.
          destruct j as [|[|[|j]]], j' as [|[|[|j']]]; try lia; try reflexivity; exfalso; cbn [corner fst snd] in Ej;
          first [exact (N1 Ej)|exact (N2 Ej)|exact (N3 Ej)|exact (N1 (same_spot_sym _ _ Ej))|exact (N2 (same_spot_sym _ _ Ej))|exact (N3 (same_spot_sym _ _ Ej))]. }
        subst j'. cbn [fst snd]. destruct i as [|[|i]], j as [|[|[|j]]]; try lia; split; reflexivity.
      * exfalso. assert (P : In (i, j) vertex_pairs) by (apply pairs_in; tauto). pose proof (find_none _ _ F _ P) as G. cbn [fst snd] in G.
        assert (spotb (segment_end s i) (corner t j) = true) by (apply spotb_ok; exact E). congruence.
Qed.
Lemma sharp_parallel : parallel_is_overlap px.
Proof.
  intros s t _ _ _. cbn [px_segment_triangle px]. unfold sharp_triangle. rewrite <- twice_iff.
  destruct (touchb _ _ _ _ _) eqn:K.
  - destruct (twiceb _ _ _ _ _); [tauto|]. destruct (find _ _) as [[i j]|] eqn:F; [|split; discriminate].
    destruct (found_pair s t (i, j) F) as (Li & Lj & _). cbn [fst snd] in *. destruct i as [|[|i]]; [split; discriminate..|lia].
  - split; [discriminate|]. intros T. apply twice_iff in T. destruct T as (x & y & X1 & X2 & _).
    assert (touchb (segment_end s 0) (segment_end s 1) (corner t 0) (corner t 1) (corner t 2) = true) by (apply touch_iff; exists x; tauto). congruence.
Qed.
End Sharp.
Lemma flat_parallel : forall pt_ ss_ pp_, parallel_is_plane (mkPredicates pt_ ss_ flat_triangle vertex_index pp_).
Proof.
  intros pt_ ss_ pp_ s t _ _ _. cbn [px_segment_triangle]. unfold flat_triangle. rewrite <- touch_iff.
  unfold on_plane. replace (place_of (fst (fst t))) with (corner t 0) by reflexivity. replace (place_of (snd (fst t))) with (corner t 1) by reflexivity.
  replace (place_of (snd t)) with (corner t 2) by reflexivity. rewrite <- !planeb_ok.
  destruct (touchb _ _ _ _ _); [|split; [discriminate|intros (? & _); discriminate]].
  destruct (planeb (segment_end s 0) _ _ _), (planeb (segment_end s 1) _ _ _); cbn; split; intros H; try discriminate; try tauto; destruct H as (_ & ? & ?); discriminate.
Qed.
