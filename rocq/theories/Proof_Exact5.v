(** The predicates that locate contacts keep the promises of C77 and C78 as well. *)
From Coq Require Import String List Arith NArith ZArith Bool QArith Lqa Lia.
From Verif Require Import Base Types Model_Intersections Spec_Intersections Spec_Geometry Proof_Geometry Proof_Geometry2 Proof_Geometry3 Proof_Geometry4 Proof_Geometry6 Proof_Exact Proof_Exact2
  Spec_Geometry2 Proof_Flat Proof_Exact3 Spec_Geometry3 Proof_Locate Proof_Exact4.
Import ListNotations.
Local Open Scope Q_scope.

(** ** A segment and a triangle, whatever they are *)
Lemma spot_apart : forall r s t, (forall x, on_segment x s -> ~ on_triangle x t) -> locate_on_triangle r s t = (Outside, Outside).
Proof.
  intros r s t N. unfold locate_on_triangle. destruct (touchb _ _ _ _ _) eqn:T; [|reflexivity]. exfalso. apply touch_iff in T. destruct T as (x & A & B). exact (N x A B).
Qed.
Lemma spot_parallel : forall r s t, parallel_to_triangle r s t -> locate_on_triangle r s t = (Parallel, Parallel).
Proof.
  intros r s t P. unfold locate_on_triangle. pose proof (parallel_touches r s t P) as T. apply touch_iff in T. rewrite T. apply alongb_ok in P; [|exact T]. rewrite P. reflexivity.
Qed.
Lemma spot_contact : forall r s t x, on_segment x s -> on_triangle x t -> ~ parallel_to_triangle r s t ->
  tells_segment (fst (locate_on_triangle r s t)) s x /\ tells_triangle (snd (locate_on_triangle r s t)) t x.
Proof.
  intros r s t x X1 X2 NP. assert (T : touchb (segment_end s 0) (segment_end s 1) (corner t 0) (corner t 1) (corner t 2) = true) by (apply touch_iff; exists x; tauto).
  unfold locate_on_triangle. rewrite T. destruct (alongb r s t) eqn:Q; [exfalso; apply NP, alongb_ok; assumption|]. cbn [fst snd]. split.
  - apply (segment_spot_tells (fun y => on_triangle y t)); [intros y; apply on_triangleb|intros y z E Y; eapply among_eq; [apply same_spot_sym; exact E|exact Y]|exact X1|exact X2|].
    intros y Y1 Y2. exact (single_contact r s t y x NP Y1 Y2 X1 X2).
  - apply triangle_spot_tells; [exact X1|exact X2|]. intros y Y1 Y2. exact (single_contact r s t y x NP Y1 Y2 X1 X2).
Qed.
(** an index tells the end, and the end is told by its index *)
Lemma segment_index : forall q s x i, tells_segment q s x -> vertex_index q = Some i -> same_spot x (segment_end s i).
Proof. intros q s x i T E. destruct q; cbn in E, T; try discriminate E; try contradiction; injection E as <-; exact T. Qed.
Lemma triangle_index : forall q t x j, tells_triangle q t x -> vertex_index q = Some j -> same_spot x (corner t j).
Proof. intros q t x j T E. destruct q; cbn in E, T; try discriminate E; try contradiction; injection E as <-; exact T. Qed.
Lemma end_index : forall q s i, real_segment s -> (i < 2)%nat -> tells_segment q s (segment_end s i) -> vertex_index q = Some i.
Proof.
  intros q s i R L T. unfold real_segment in R. destruct i as [|[|i]]; [| |lia]; destruct q; cbn [tells_segment vertex_index] in *; try contradiction; try reflexivity.
  - exfalso. destruct T as (_ & N & _). apply N, same_spot_refl.
  - exfalso. destruct T as (_ & _ & N). apply N, same_spot_refl.
  - exfalso. apply R, same_spot_sym, T.
Qed.
Lemma corner_index : forall q t x j, real_triangle t -> (j < 3)%nat -> same_spot x (corner t j) -> tells_triangle q t x -> vertex_index q = Some j.
Proof.
  intros q t x j R L E T. destruct (real_ends _ _ _ R) as (N1 & N2 & N3).
  assert (C : at_corner_of x t) by (exists j; split; assumption).
  destruct q; cbn [tells_triangle vertex_index] in *; try contradiction.
  - exfalso. exact (strict_not_corner t x R T C).
  - assert (K : same_spot (corner t 0) (corner t j)) by (eapply same_spot_trans; [apply same_spot_sym; exact T|exact E]).
    destruct t as [[a b] c]. destruct j as [|[|[|j]]]; [reflexivity| | |lia]; exfalso; cbn [corner fst snd] in *;
      first [exact (N1 K)|exact (N2 K)|exact (N3 K)|exact (N1 (same_spot_sym _ _ K))|exact (N2 (same_spot_sym _ _ K))|exact (N3 (same_spot_sym _ _ K))].
  - assert (K : same_spot (corner t 1) (corner t j)) by (eapply same_spot_trans; [apply same_spot_sym; exact T|exact E]).
    destruct t as [[a b] c]. destruct j as [|[|[|j]]]; [|reflexivity| |lia]; exfalso; cbn [corner fst snd] in *;
      first [exact (N1 K)|exact (N2 K)|exact (N3 K)|exact (N1 (same_spot_sym _ _ K))|exact (N2 (same_spot_sym _ _ K))|exact (N3 (same_spot_sym _ _ K))].
  - assert (K : same_spot (corner t 2) (corner t j)) by (eapply same_spot_trans; [apply same_spot_sym; exact T|exact E]).
    destruct t as [[a b] c]. destruct j as [|[|[|j]]]; [| |reflexivity|lia]; exfalso; cbn [corner fst snd] in *;
      first [exact (N1 K)|exact (N2 K)|exact (N3 K)|exact (N1 (same_spot_sym _ _ K))|exact (N2 (same_spot_sym _ _ K))|exact (N3 (same_spot_sym _ _ K))].
  - exfalso. exact (side_not_corner t x R T C).
  - exfalso. exact (side_not_corner t x R T C).
  - exfalso. exact (side_not_corner t x R T C).
Qed.
Section Spots.
Context (r : reading) (pp_ : SurfaceMesh -> list nat -> list nat -> bool).
Let px := mkPredicates locate_point (locate_on_segment r) (locate_on_triangle r) vertex_index pp_.
Lemma spot_overlooks_nothing : overlooks_nothing px.
Proof.
  constructor; cbn [px_segment_triangle px_index px].
  - intros s t x _ _ X1 X2 E. destruct (parallel_dec r s t) as [P|P].
    + rewrite (spot_parallel r s t P) in E. discriminate.
    + destruct (spot_contact r s t x X1 X2 P) as (T & _). rewrite E in T. exact T.
  - intros s t i j x _ _ I1 I2 X1 X2. destruct (parallel_dec r s t) as [P|P].
    + rewrite (spot_parallel r s t P) in I1. discriminate.
    + destruct (spot_contact r s t x X1 X2 P) as (T1 & T2). split; [exact (segment_index _ _ _ _ T1 I1)|exact (triangle_index _ _ _ _ T2 I2)].
Qed.
Lemma spot_in_contact : forall s t, fst (locate_on_triangle r s t) <> Outside -> exists x, on_segment x s /\ on_triangle x t.
Proof. intros s t N. destruct (touch_dec s t) as [T|T]; [exact T|]. exfalso. apply N. rewrite (spot_apart r s t T). reflexivity. Qed.
Lemma spot_parallel_iff : forall s t, fst (locate_on_triangle r s t) = Parallel <-> parallel_to_triangle r s t.
Proof.
  intros s t. split; [|intros P; rewrite (spot_parallel r s t P); reflexivity].
  intros E. destruct (parallel_dec r s t) as [P|P]; [exact P|]. exfalso. destruct (touch_dec s t) as [(x & X1 & X2)|T].
  - destruct (spot_contact r s t x X1 X2 P) as (T & _). rewrite E in T. exact T.
  - rewrite (spot_apart r s t T) in E. discriminate.
Qed.
(** *** Two segments *)
Lemma meet_apart : forall s s', (forall x, on_segment x s -> ~ on_segment x s') -> locate_on_segment r s s' = (Outside, Outside).
Proof.
  intros s t N. unfold locate_on_segment. destruct (touchb _ _ _ _ _) eqn:T; [|reflexivity]. exfalso. apply segments_touch in T. destruct T as (x & A & B). exact (N x A B).
Qed.
Lemma meet_parallel : forall s s', parallel_to_segment r s s' -> locate_on_segment r s s' = (Parallel, Parallel).
Proof.
  intros s t P. unfold locate_on_segment. assert (T : exists x, on_segment x s /\ on_segment x t) by (destruct r; cbn in P; [destruct P as (x & y & A & B & _); exists x; tauto|tauto]).
  apply segments_touch in T. rewrite T. apply lineb_ok in P; [|exact T]. rewrite P. reflexivity.
Qed.
Lemma meet_cases : forall s s', (exists x, on_segment x s /\ on_segment x s') \/ (forall x, on_segment x s -> ~ on_segment x s').
Proof.
  intros s t. destruct (touchb (segment_end s 0) (segment_end s 1) (segment_end t 0) (segment_end t 1) (segment_end t 1)) eqn:T.
  - left. apply segments_touch, T.
  - right. intros x A B. assert (K : exists x, on_segment x s /\ on_segment x t) by (exists x; tauto). apply segments_touch in K. congruence.
Qed.
Lemma meet_dec : forall s s', parallel_to_segment r s s' \/ ~ parallel_to_segment r s s'.
Proof.
  intros s t. destruct (meet_cases s t) as [T|T].
  - apply segments_touch in T. destruct (lineb r s t) eqn:Q; [left; apply lineb_ok; assumption|]. right. intros P. apply lineb_ok in P; [congruence|exact T].
  - right. intros P. destruct r; cbn in P; [destruct P as (x & y & A & B & _); exact (T x A B)|destruct P as ((x & A & B) & _); exact (T x A B)].
Qed.
Lemma meet_contact : forall s s' x, on_segment x s -> on_segment x s' -> ~ parallel_to_segment r s s' ->
  tells_segment (fst (locate_on_segment r s s')) s x /\ tells_segment (snd (locate_on_segment r s s')) s' x.
Proof.
  intros s t x X1 X2 NP. unfold locate_on_segment.
  assert (T : touchb (segment_end s 0) (segment_end s 1) (segment_end t 0) (segment_end t 1) (segment_end t 1) = true) by (apply segments_touch; exists x; tauto).
  rewrite T. destruct (lineb r s t) eqn:Q; [exfalso; apply NP, lineb_ok; assumption|]. cbn [fst snd]. split.
  - apply (segment_spot_tells (fun y => on_segment y t)); [intros y; apply on_segmentb|intros y z E Y; eapply between_eq; [apply same_spot_sym; exact E|exact Y]|exact X1|exact X2|].
    intros y Y1 Y2. exact (single_meeting r s t y x NP Y1 Y2 X1 X2).
  - apply (segment_spot_tells (fun y => on_segment y s)); [intros y; apply on_segmentb|intros y z E Y; eapply between_eq; [apply same_spot_sym; exact E|exact Y]|exact X2|exact X1|].
    intros y Y2 Y1. exact (single_meeting r s t y x NP Y1 Y2 X1 X2).
Qed.
Lemma spot_in_plane : exact_in_plane px.
Proof.
  constructor; cbn [px_segment_segment px_point_triangle px_index px].
  - intros s t _ _ _ _. split.
    + intros N. destruct (meet_cases s t) as [T|T]; [exact T|]. exfalso. apply N. rewrite (meet_apart s t T). reflexivity.
    + intros (x & X1 & X2) E. destruct (meet_dec s t) as [P|P]; [rewrite (meet_parallel s t P) in E; discriminate|].
      destruct (meet_contact s t x X1 X2 P) as (T & _). rewrite E in T. exact T.
  - intros s t _ _ _ _ _ _ E. assert (P : parallel_to_segment r s t).
    { destruct (meet_dec s t) as [P|P]; [exact P|]. exfalso. destruct (meet_cases s t) as [(x & X1 & X2)|T].
      - destruct (meet_contact s t x X1 X2 P) as (T & _). rewrite E in T. exact T.
      - rewrite (meet_apart s t T) in E. discriminate. }
    destruct r; [apply segments_one_line in P|]; apply P.
  - intros s t i j x _ _ _ _ I1 I2 X1 X2. destruct (meet_dec s t) as [P|P].
    + rewrite (meet_parallel s t P) in I1. discriminate.
    + destruct (meet_contact s t x X1 X2 P) as (T1 & T2). split; [exact (segment_index _ _ _ _ T1 I1)|exact (segment_index _ _ _ _ T2 I2)].
  - intros s t i j _ _ _ _ R1 R2 Li Lj E NP. left. assert (P : ~ parallel_to_segment r s t) by (intros P; apply NP; rewrite (meet_parallel s t P); reflexivity).
    assert (X2 : on_segment (segment_end s i) t) by (eapply between_eq; [exact E|apply end_on_segment; exact Lj]).
    destruct (meet_contact s t (segment_end s i) (end_on_segment s i Li) X2 P) as (T1 & _).
    assert (X1 : on_segment (segment_end t j) s) by (eapply between_eq; [apply same_spot_sym; exact E|apply end_on_segment; exact Li]).
    destruct (meet_contact s t (segment_end t j) X1 (end_on_segment t j Lj) P) as (_ & T2).
    split; [exact (end_index _ _ _ R1 Li T1)|exact (end_index _ _ _ R2 Lj T2)].
  - intros p t _ _ _ _. unfold locate_point. split.
    + intros N. apply on_triangleb. destruct (touchb _ _ _ _ _); [reflexivity|]. exfalso. apply N. reflexivity.
    + intros H E. pose proof H as T. apply on_triangleb in T. rewrite T in E.
      assert (K : tells_triangle (triangle_spot (place_of p) (place_of p) t) t (place_of p)).
      { apply triangle_spot_tells; [apply between_first|exact H|]. intros y Y _. apply single_between, Y. }
      rewrite E in K. exact K.
Qed.
End Spots.
Lemma spot_exact : forall pp_, exact_predicates (mkPredicates locate_point (locate_on_segment Overlapping) (locate_on_triangle Overlapping) vertex_index pp_).
Proof.
  intros pp_. split; [apply spot_overlooks_nothing|]. split.
  - constructor; cbn [px_segment_triangle px_index].
    + intros s t _ _. apply spot_in_contact.
    + intros s t i j _ _ RS RT Li Lj E. assert (X2 : on_triangle (segment_end s i) t) by (eapply among_eq; [exact E|]; exact (corner_on_triangle t j Lj)).
      destruct (parallel_dec Overlapping s t) as [P|P].
      * right. destruct P as (x & y & X1 & X2' & Y1 & Y2 & D). destruct (same_spot_dec x (segment_end s i)) as [Ex|Ex]; [|exists x; tauto].
        exists y. split; [exact Y1|]. split; [exact Y2|]. intros Ey. apply D. eapply same_spot_trans; [exact Ex|]. apply same_spot_sym, Ey.
      * left. destruct (spot_contact Overlapping s t _ (end_on_segment s i Li) X2 P) as (T1 & T2).
        split; [exact (end_index _ _ _ RS Li T1)|exact (corner_index _ _ _ _ RT Lj E T2)].
  - intros s t _ _ _. cbn [px_segment_triangle]. apply (spot_parallel_iff Overlapping).
Qed.
Lemma spot_plane : forall pp_, parallel_is_plane (mkPredicates locate_point (locate_on_segment Coplanar) (locate_on_triangle Coplanar) vertex_index pp_).
Proof. intros pp_ s t _ _ _. cbn [px_segment_triangle]. apply (spot_parallel_iff Coplanar). Qed.
