(** The edge of a curve of the plane and a triangle, and the lists of meshes. *)
From Coq Require Import String List Arith NArith ZArith Bool QArith Lqa Lia.
From Verif Require Import Base Model_Issues Types Model_Intersections Spec_Intersections Proof_Intersections5 Spec_Geometry Proof_Geometry Proof_Geometry2 Proof_Geometry3 Proof_Geometry4 Proof_Geometry6 Proof_Exact Proof_Exact2
  Spec_Geometry2 Proof_Flat Proof_Flat2 Proof_Flat3 Proof_Exact3 Spec_Geometry3 Proof_Locate Proof_Exact4 Proof_Locate3.
Import ListNotations.
Local Open Scope Q_scope.

Lemma segment_parallel_touches : forall r s s', parallel_to_segment r s s' -> exists x, on_segment x s /\ on_segment x s'.
Proof. intros [|] s s' P; cbn in P; [destruct P as (x & y & A & B & _); exists x; tauto|tauto]. Qed.
Lemma segment_parallel_dec : forall r s s', parallel_to_segment r s s' \/ ~ parallel_to_segment r s s'.
Proof.
  intros r s s'. destruct (touchb (segment_end s 0) (segment_end s 1) (segment_end s' 0) (segment_end s' 1) (segment_end s' 1)) eqn:T.
  - destruct (lineb r s s') eqn:L; [left; apply lineb_ok; assumption|right; intros P; apply lineb_ok in P; [congruence|exact T]].
  - right. intros P. apply segment_parallel_touches, segments_touch in P. congruence.
Qed.
Lemma segment_touch_dec : forall s s', (exists x, on_segment x s /\ on_segment x s') \/ (forall x, on_segment x s -> ~ on_segment x s').
Proof.
  intros s s'. destruct (touchb (segment_end s 0) (segment_end s 1) (segment_end s' 0) (segment_end s' 1) (segment_end s' 1)) eqn:T.
  - left. apply segments_touch, T.
  - right. intros x A B. assert (H : exists x, on_segment x s /\ on_segment x s') by (exists x; tauto). apply segments_touch in H. congruence.
Qed.
(** a segment inside another one is "parallel" to it *)
Lemma inside_parallel : forall r s s', real_segment s -> (forall i, (i < 2)%nat -> on_segment (segment_end s i) s') -> parallel_to_segment r s s'.
Proof.
  intros r s s' R H. assert (O : parallel_to_segment Overlapping s s').
  { exists (segment_end s 0), (segment_end s 1). split; [apply end_on_segment; lia|]. split; [apply H; lia|]. split; [apply end_on_segment; lia|]. split; [apply H; lia|exact R]. }
  destruct r; [exact O|apply segments_one_line, O].
Qed.
Lemma inside_one : forall px r s s', locates_on_segments px r -> flat_edge s -> flat_edge s' ->
  ((fst (px_segment_segment px s s') = Inside \/ snd (px_segment_segment px s s') = Inside) <->
   exists x, on_segment x s /\ on_segment x s' /\ ~ parallel_to_segment r s s' /\ ~ (at_end x s /\ at_end x s')).
Proof.
  intros px r s s' L F F'. split.
  - intros H. destruct (segment_touch_dec s s') as [(x & X1 & X2)|T]; [|rewrite (lg_apart px r L s s' F F' T) in H; cbn in H; intuition discriminate].
    destruct (segment_parallel_dec r s s') as [P|P]; [rewrite (lg_parallel px r L s s' F F' P) in H; cbn in H; intuition discriminate|].
    exists x. split; [exact X1|]. split; [exact X2|]. split; [exact P|]. intros ((i & Li & Ei) & (j & Lj & Ej)).
    destruct (lg_contact px r L s s' x F F' X1 X2 P) as (T1 & T2). destruct H as [H|H].
    + rewrite H in T1. destruct T1 as (_ & N0 & N1). destruct i as [|[|i]]; [exact (N0 Ei)|exact (N1 Ei)|lia].
    + rewrite H in T2. destruct T2 as (_ & N0 & N1). destruct j as [|[|j]]; [exact (N0 Ej)|exact (N1 Ej)|lia].
  - intros (x & X1 & X2 & P & N). destruct (lg_contact px r L s s' x F F' X1 X2 P) as (T1 & T2).
    destruct (px_segment_segment px s s') as [q1 q2]. cbn [fst snd] in *.
    assert (V : forall q g, tells_segment q g x -> q = Inside \/ at_end x g).
    { intros q g T. destruct q; cbn in T; try contradiction; [left; reflexivity|right; exists 0%nat; split; [lia|exact T]|right; exists 1%nat; split; [lia|exact T]]. }
    destruct (V _ _ T1), (V _ _ T2); tauto.
Qed.
(** sides of a triangle *)
Definition other (j k : nat) : Prop := (j, k) = (0, 1)%nat \/ (j, k) = (1, 2)%nat \/ (j, k) = (2, 0)%nat.
Lemma side_ends : forall t sd, segment_side t sd -> exists j k, other j k /\ segment_end sd 0 = corner t j /\ segment_end sd 1 = corner t k.
Proof.
  intros [[a b] c] sd [->|[->| ->]]; [exists 0%nat, 1%nat|exists 1%nat, 2%nat|exists 2%nat, 0%nat]; (split; [unfold other; tauto|split; reflexivity]).
Qed.
Lemma side_exists : forall t j k, other j k -> exists sd, segment_side t sd /\ segment_end sd 0 = corner t j /\ segment_end sd 1 = corner t k.
Proof.
  intros [[a b] c] j k [H|[H|H]]; injection H as -> ->; [exists (a, b)|exists (b, c)|exists (c, a)]; (split; [cbn; tauto|split; reflexivity]).
Qed.
Lemma other_range : forall j k, other j k -> (j < 3)%nat /\ (k < 3)%nat /\ j <> k.
Proof. intros j k [H|[H|H]]; injection H as -> ->; lia. Qed.
Lemma corners_distinct : forall t j k, real_triangle t -> (j < 3)%nat -> (k < 3)%nat -> same_spot (corner t j) (corner t k) -> j = k.
Proof.
  intros t j k R Lj Lk E. destruct (real_ends _ _ _ R) as (N1 & N2 & N3).
  destruct j as [|[|[|j]]], k as [|[|[|k]]]; try lia; try reflexivity; exfalso;
  first [exact (N1 E)|exact (N2 E)|exact (N3 E)|exact (N1 (same_spot_sym _ _ E))|exact (N2 (same_spot_sym _ _ E))|exact (N3 (same_spot_sym _ _ E))].
Qed.
Lemma side_flat_edge : forall t sd, finite_face t -> plane_triangle t -> segment_side t sd -> flat_edge sd.
Proof.
  intros t sd ((F0 & F1 & F2) & R) (P0 & P1 & P2) H. destruct (side_ends t sd H) as (j & k & O & E0 & E1).
  split; [split|].
  - destruct t as [[a b] c]. cbn [fst snd] in *. destruct H as [->|[->| ->]]; split; assumption.
  - intros E. rewrite E0, E1 in E. destruct (other_range j k O) as (Lj & Lk & N). exact (N (corners_distinct t j k R Lj Lk E)).
  - destruct t as [[a b] c]. cbn [fst snd] in *. destruct H as [->|[->| ->]]; split; assumption.
Qed.
Lemma side_on_triangle : forall t j k x, other j k -> between x (corner t j) (corner t k) -> on_triangle x t.
Proof. intros t j k x [H|[H|H]] B; injection H as -> ->; apply among_of_side; [left|right; left|right; right]; exact B. Qed.
Lemma end_corner : forall t sd x, segment_side t sd -> at_end x sd -> at_corner_of x t.
Proof.
  intros t sd x H (i & Li & E). destruct (side_ends t sd H) as (j & k & O & E0 & E1). destruct (other_range j k O) as (Lj & Lk & _).
  destruct i as [|[|i]]; [exists j; rewrite <- E0; tauto|exists k; rewrite <- E1; tauto|lia].
Qed.
Lemma corner_side_end : forall t sd x, real_triangle t -> segment_side t sd -> on_segment x sd -> at_corner_of x t -> at_end x sd.
Proof.
  intros t sd x R H X (i & Li & E). destruct (side_ends t sd H) as (j & k & O & E0 & E1).
  destruct (Nat.eq_dec i j) as [->|Nj]; [exists 0%nat; rewrite E0; split; [lia|exact E]|].
  destruct (Nat.eq_dec i k) as [->|Nk]; [exists 1%nat; rewrite E1; split; [lia|exact E]|]. exfalso.
  unfold on_segment in X. change (place_of (fst sd)) with (segment_end sd 0) in X. change (place_of (snd sd)) with (segment_end sd 1) in X. rewrite E0, E1 in X.
  pose proof (flat_turn' _ _ _ R) as R1. pose proof (flat_turn' _ _ _ R1) as R2.
  destruct O as [O|[O|O]]; injection O as -> ->; destruct i as [|[|[|i]]]; try lia;
    [exact (not_third _ _ _ _ R X E)|exact (not_third _ _ _ _ R1 X E)|exact (not_third _ _ _ _ R2 X E)].
Qed.
(** two different sides share one corner *)
Lemma sides_share_corner : forall t j k j' k' x, real_triangle t -> (j < 3)%nat -> (k < 3)%nat -> (j' < 3)%nat -> (k' < 3)%nat -> j <> k -> j' <> k' ->
  ~ (j = j' /\ k = k') -> ~ (j = k' /\ k = j') -> between x (corner t j) (corner t k) -> between x (corner t j') (corner t k') -> at_corner_of x t.
Proof.
  intros t j k j' k' x R Lj Lk Lj' Lk' N N' D D' B B'. apply between_aligned in B, B'.
  pose proof (flat_turn' _ _ _ R) as R1. pose proof (flat_turn' _ _ _ R1) as R2.
  assert (C0 : aligned x (corner t 0) (corner t 1) -> aligned x (corner t 0) (corner t 2) -> at_corner_of x t) by (intros K1 K2; exists 0%nat; split; [lia|exact (two_lines _ _ _ _ R K1 K2)]).
  assert (C1 : aligned x (corner t 1) (corner t 2) -> aligned x (corner t 1) (corner t 0) -> at_corner_of x t) by (intros K1 K2; exists 1%nat; split; [lia|exact (two_lines _ _ _ _ R1 K1 K2)]).
  assert (C2 : aligned x (corner t 2) (corner t 0) -> aligned x (corner t 2) (corner t 1) -> at_corner_of x t) by (intros K1 K2; exists 2%nat; split; [lia|exact (two_lines _ _ _ _ R2 K1 K2)]).
  clear R R1 R2. pose proof (aligned_swap _ _ _ B) as S. pose proof (aligned_swap _ _ _ B') as S'.
  destruct j as [|[|[|j]]], k as [|[|[|k]]]; try lia; destruct j' as [|[|[|j']]], k' as [|[|[|k']]]; try lia;
    solve [apply C0; assumption|apply C1; assumption|apply C2; assumption].
Qed.

Section Plane.
Context (px : Predicates) (r : reading) (s : Segment) (t : Triangle).
Hypothesis (L : locates_on_segments px r) (LP : locates_points px) (F : flat_edge s) (G : finite_face t) (PT : plane_triangle t).
Lemma end_inside : forall p, an_end s p -> (px_point_triangle px p t = Inside <-> strictly_among (place_of p) (corner t 0) (corner t 1) (corner t 2)).
Proof. intros p Hp. apply inside_tells; [exact LP|exact (end_finite s p (proj1 (proj1 F)) Hp)|exact G]. Qed.
Lemma along_edge : along_a_side s t -> exists sd, segment_side t sd /\ forall i, (i < 2)%nat -> on_segment (segment_end s i) sd.
Proof.
  intros (j & k & Lj & Lk & H). assert (N : j <> k).
  { intros ->. apply (proj2 (proj1 F)). pose proof (H 0%nat ltac:(lia)) as A. pose proof (H 1%nat ltac:(lia)) as B. apply single_between in A, B.
    eapply same_spot_trans; [exact A|apply same_spot_sym; exact B]. }
  assert (O : other j k \/ other k j) by (unfold other; destruct j as [|[|[|j]]], k as [|[|[|k]]]; try lia; tauto).
  destruct O as [O|O]; destruct (side_exists t _ _ O) as (sd & S & E0 & E1); exists sd; (split; [exact S|]); intros i Li;
    unfold on_segment; change (place_of (fst sd)) with (segment_end sd 0); change (place_of (snd sd)) with (segment_end sd 1); rewrite E0, E1; [|apply between_swap]; exact (H i Li).
Qed.
Lemma segment_touches_line : forall sd x, segment_side t sd -> on_segment x sd -> on_triangle x t.
Proof.
  intros sd x S X. destruct (side_ends t sd S) as (j & k & O & E0 & E1). apply (side_on_triangle t j k x O).
  unfold on_segment in X. change (place_of (fst sd)) with (segment_end sd 0) in X. change (place_of (snd sd)) with (segment_end sd 1) in X. rewrite E0, E1 in X. exact X.
Qed.
Lemma curve_test_2d : segment_meets_triangle_2d px s t <-> crosses_in_plane s t.
Proof.
  unfold segment_meets_triangle_2d, crosses_in_plane. split.
  - intros [(p & Hp & I)|(sd & S & H)].
    + apply end_inside in I; [|exact Hp]. destruct (end_of s p Hp) as (i & Li & E). rewrite E in I. split.
      * exists (segment_end s i). split; [apply end_on_segment, Li|]. split; [exact (strictly_weak _ _ _ _ I)|]. intros (_ & C). exact (strict_not_corner t _ (proj2 G) I C).
      * intros A. destruct (along_edge A) as (sd & S & B). specialize (B i Li). destruct (side_ends t sd S) as (j & k & O & E0 & E1).
        unfold on_segment in B. change (place_of (fst sd)) with (segment_end sd 0) in B. change (place_of (snd sd)) with (segment_end sd 1) in B. rewrite E0, E1 in B.
        apply (side_not_inside (corner t 0) (corner t 1) (corner t 2) (segment_end s i) (proj2 G)); [|exact I].
        destruct O as [O|[O|O]]; injection O as -> ->; [left|right; left|right; right]; exact B.
    + apply (inside_one px r s sd L F (side_flat_edge t sd G PT S)) in H. destruct H as (x & X1 & X2 & P & N). split.
      * exists x. split; [exact X1|]. split; [exact (segment_touches_line sd x S X2)|]. intros (A & C). apply N. split; [exact A|exact (corner_side_end t sd x (proj2 G) S X2 C)].
      * intros A. destruct (along_edge A) as (sd' & S' & B).
        destruct (side_ends t sd S) as (j & k & O & E0 & E1). destruct (side_ends t sd' S') as (j' & k' & O' & E0' & E1').
        destruct (other_range _ _ O) as (Lj & Lk & Njk). destruct (other_range _ _ O') as (Lj' & Lk' & Njk').
        assert (X3 : on_segment x sd').
        { unfold on_segment. apply among_segment. eapply between_among; [apply among_segment; exact (B 0%nat ltac:(lia))|apply among_segment; exact (B 1%nat ltac:(lia))|exact X1]. }
        destruct (Nat.eq_dec j j') as [Ej|Nj].
        { assert (Ek : k = k') by (destruct O as [O|[O|O]], O' as [O'|[O'|O']]; injection O as -> ->; injection O' as -> ->; lia).
          apply P. apply inside_parallel; [exact (proj2 (proj1 F))|]. intros i Li. specialize (B i Li). unfold on_segment in *.
          change (place_of (fst sd')) with (segment_end sd' 0) in B. change (place_of (snd sd')) with (segment_end sd' 1) in B. rewrite E0', E1' in B.
          change (place_of (fst sd)) with (segment_end sd 0). change (place_of (snd sd)) with (segment_end sd 1). rewrite E0, E1, Ej, Ek. exact B. }
        assert (C : at_corner_of x t).
        { pose proof X2 as X2'. pose proof X3 as X3'. unfold on_segment in X2', X3'.
          change (place_of (fst sd)) with (segment_end sd 0) in X2'. change (place_of (snd sd)) with (segment_end sd 1) in X2'. rewrite E0, E1 in X2'.
          change (place_of (fst sd')) with (segment_end sd' 0) in X3'. change (place_of (snd sd')) with (segment_end sd' 1) in X3'. rewrite E0', E1' in X3'.
          apply (sides_share_corner t j k j' k' x (proj2 G) Lj Lk Lj' Lk' Njk Njk'); [tauto| |exact X2'|exact X3'].
          intros (-> & ->). destruct O as [O|[O|O]], O' as [O'|[O'|O']]; injection O as O1 O2; injection O' as O1' O2'; lia. }
        apply N. split; [|exact (corner_side_end t sd x (proj2 G) S X2 C)].
        (* a corner inside the edge, which is inside a side *)
        destruct (corner_side_end t sd' x (proj2 G) S' X3 C) as (i & Li & Ei).
        assert (K : same_spot (segment_end s 0) (segment_end sd' i) \/ same_spot (segment_end s 1) (segment_end sd' i)).
        { assert (NF : exists c, ~ flat (segment_end sd' i) (segment_end sd' (1 - i)) c).
          { destruct i as [|[|i]]; [| |lia]; cbn [Nat.sub]; rewrite E0', E1'; pose proof (proj2 G) as R0; pose proof (flat_turn' _ _ _ R0) as R1; pose proof (flat_turn' _ _ _ R1) as R2;
              pose proof (flat_swap' _ _ _ R0) as S0; pose proof (flat_swap' _ _ _ R1) as S1; pose proof (flat_swap' _ _ _ R2) as S2;
              destruct O' as [O'|[O'|O']]; injection O' as -> ->; eexists; eassumption. }
          destruct NF as (c & NF).
          assert (BB : forall h, (h < 2)%nat -> among (segment_end s h) (segment_end sd' i) (segment_end sd' (1 - i)) c).
          { intros h Lh. apply among_of_side. left. specialize (B h Lh). destruct i as [|[|i]]; [exact B|apply between_swap; exact B|lia]. }
          apply (extreme0 (segment_end sd' i) (segment_end sd' (1 - i)) c (segment_end s 0) (segment_end s 1) x NF); [apply BB; lia|apply BB; lia|exact X1|exact Ei]. }
        destruct K as [K|K]; [exists 0%nat|exists 1%nat]; (split; [lia|]; eapply same_spot_trans; [exact Ei|apply same_spot_sym; exact K]).
  - intros ((x & X1 & X2 & N) & NA).
    destruct (strictly_dec (segment_end s 0) (corner t 0) (corner t 1) (corner t 2)) as [I|I0].
    { left. exists (fst s). split; [left; reflexivity|]. apply end_inside; [left; reflexivity|exact I]. }
    destruct (strictly_dec (segment_end s 1) (corner t 0) (corner t 1) (corner t 2)) as [I|I1].
    { left. exists (snd s). split; [right; reflexivity|]. apply end_inside; [right; reflexivity|exact I]. }
    right. destruct F as ((Fs & Rs) & (P0 & P1)). destruct PT as (Q0 & Q1 & Q2).
    assert (S : seen_side (segment_end s 0) (segment_end s 1) (corner t 0) (corner t 1) (corner t 2)).
    { apply (crossing_seen _ _ _ _ _ x (proj2 G)); [apply plane_level; exact Q0|apply plane_level; exact Q1|apply plane_level; exact Q2|apply plane_level; exact P0|apply plane_level; exact P1|exact Rs|exact X1|exact X2| | |exact I0|exact I1].
      - intros (A & C). apply N. split.
        + destruct A as [A|A]; [exists 0%nat|exists 1%nat]; (split; [lia|exact A]).
        + destruct C as [C|[C|C]]; [exists 0%nat|exists 1%nat|exists 2%nat]; (split; [lia|exact C]).
      - intros a b E (A & B). apply NA.
        assert (JK : exists j k, (j < 3)%nat /\ (k < 3)%nat /\ a = corner t j /\ b = corner t k).
        { unfold ends in E. destruct E as [(-> & ->)|[(-> & ->)|[(-> & ->)|[(-> & ->)|[(-> & ->)|(-> & ->)]]]]];
            [exists 0%nat, 1%nat|exists 1%nat, 2%nat|exists 2%nat, 0%nat|exists 1%nat, 0%nat|exists 2%nat, 1%nat|exists 0%nat, 2%nat]; (split; [lia|split; [lia|split; reflexivity]]). }
        destruct JK as (j & k & Lj & Lk & -> & ->). exists j, k. split; [exact Lj|]. split; [exact Lk|]. intros i Li. destruct i as [|[|i]]; [exact A|exact B|lia]. }
    destruct S as (y & a & b & E & Y1 & Y2 & NP & NE).
    assert (JK : exists j k, other j k /\ (a = corner t j /\ b = corner t k \/ b = corner t j /\ a = corner t k)).
    { unfold ends in E. unfold other. destruct E as [(-> & ->)|[(-> & ->)|[(-> & ->)|[(-> & ->)|[(-> & ->)|(-> & ->)]]]]];
        [exists 0%nat, 1%nat|exists 1%nat, 2%nat|exists 2%nat, 0%nat|exists 0%nat, 1%nat|exists 1%nat, 2%nat|exists 2%nat, 0%nat]; tauto. }
    destruct JK as (j & k & O & EQ). destruct (side_exists t j k O) as (sd & S & E0 & E1). exists sd. split; [exact S|].
    apply (inside_one px r s sd L F (side_flat_edge t sd G PT S)). exists y. split; [exact Y1|]. 
    assert (OY : on_segment y sd).
    { unfold on_segment. change (place_of (fst sd)) with (segment_end sd 0). change (place_of (snd sd)) with (segment_end sd 1). rewrite E0, E1.
      destruct EQ as [(-> & ->)|(-> & ->)]; [exact Y2|apply between_swap; exact Y2]. }
    split; [exact OY|]. split.
    + intros P. assert (P' : parallel_to_segment Coplanar s sd) by (destruct r; [apply segments_one_line, P|exact P]).
      destruct P' as (_ & A & B). rewrite E0 in A. rewrite E1 in B. apply NP. destruct EQ as [(-> & ->)|(-> & ->)]; tauto.
    + intros (A & B). apply (end_corner t sd y S) in B. destruct A as (i & Li & A), B as (h & Lh & B). apply NE. split.
      * destruct i as [|[|i]]; [left; exact A|right; exact A|lia].
      * destruct h as [|[|[|h]]]; [left; exact B|right; left; exact B|right; right; exact B|lia].
Qed.
End Plane.
