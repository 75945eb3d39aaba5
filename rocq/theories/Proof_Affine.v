(** Affine maps keep segments, triangles and what they have in common. *)
From Coq Require Import String List Arith NArith ZArith Bool QArith Lqa Lia.
From Verif Require Import Base BaseFacts Types Model_Intersections Spec_Intersections Spec_Geometry Spec_Geometry2 Spec_Geometry3 Spec_Moved Spec_Affine Proof_Geometry.
Import ListNotations.
Open Scope nat_scope.
Open Scope list_scope.

Lemma mean3_eq : forall a b c p q r p' q' r', same_spot p' p -> same_spot q' q -> same_spot r' r -> same_spot (mean3 a b c p' q' r') (mean3 a b c p q r).
Proof.
  intros a b c [[p0 p1] p2] [[q0 q1] q2] [[r0 r1] r2] [[u0 u1] u2] [[v0 v1] v2] [[w0 w1] w2]. cbn. intros (E0 & E1 & E2) (F0 & F1 & F2) (G0 & G1 & G2).
  rewrite E0, E1, E2, F0, F1, F2, G0, G1, G2. split; [reflexivity|]. split; reflexivity.
Qed.
Lemma mean2_mean3 : forall a b p q, same_spot (mean2 a b p q) (mean3 a b 0 p q q).
Proof. intros a b [[p0 p1] p2] [[q0 q1] q2]. cbn. split; [ring|]. split; ring. Qed.

Section Map.
Context (A : place -> place) (HA : affine_one_to_one A).
Definition image (x x' : place) : Prop := same_spot x' (A x).
Lemma image_mean3 : forall a b c p q r p' q' r', (a + b + c == 1)%Q -> image p p' -> image q q' -> image r r' -> image (mean3 a b c p q r) (mean3 a b c p' q' r').
Proof.
  intros a b c p q r p' q' r' S P Q R. unfold image. eapply same_spot_trans; [apply mean3_eq; [exact P|exact Q|exact R]|]. apply same_spot_sym, (af_mean A HA), S.
Qed.
Lemma image_eq : forall x x' y y', image x x' -> image y y' -> (same_spot x' y' <-> same_spot x y).
Proof.
  intros x x' y y' X Y. split; intros E.
  - apply (af_one_to_one A HA). apply (same_spot_trans _ x'); [apply same_spot_sym, X|]. apply (same_spot_trans _ y'); [exact E|exact Y].
  - apply (same_spot_trans _ (A x)); [exact X|]. apply (same_spot_trans _ (A y)); [apply (af_proper A HA), E|apply same_spot_sym, Y].
Qed.
Lemma image_mean2 : forall a b p q p' q', (a + b == 1)%Q -> image p p' -> image q q' -> image (mean2 a b p q) (mean2 a b p' q').
Proof.
  intros a b p q p' q' S P Q. unfold image. apply (same_spot_trans _ (mean3 a b 0 p' q' q')); [apply mean2_mean3|].
  apply (same_spot_trans _ (A (mean3 a b 0 p q q))); [apply image_mean3; [lra|exact P|exact Q|exact Q]|apply (af_proper A HA), same_spot_sym, mean2_mean3].
Qed.
Section Corners.
Context (p q r p' q' r' : place) (P : image p p') (Q : image q q') (R : image r r').
Lemma image_among : forall x x', image x x' -> (among x' p' q' r' <-> among x p q r).
Proof.
  intros x x' X. split; intros (a & b & c & Ha & Hb & Hc & S & E); exists a, b, c; (split; [exact Ha|split; [exact Hb|split; [exact Hc|split; [exact S|]]]]); revert E; apply (image_eq _ _ _ _ X (image_mean3 a b c _ _ _ _ _ _ S P Q R)).
Qed.
Lemma image_strictly : forall x x', image x x' -> (strictly_among x' p' q' r' <-> strictly_among x p q r).
Proof.
  intros x x' X. split; intros (a & b & c & Ha & Hb & Hc & S & E); exists a, b, c; (split; [exact Ha|split; [exact Hb|split; [exact Hc|split; [exact S|]]]]); revert E; apply (image_eq _ _ _ _ X (image_mean3 a b c _ _ _ _ _ _ S P Q R)).
Qed.
Lemma image_of_plane : forall x x', image x x' -> (of_plane x' p' q' r' <-> of_plane x p q r).
Proof.
  intros x x' X. split; intros (a & b & c & S & E); exists a, b, c; (split; [exact S|]); revert E; apply (image_eq _ _ _ _ X (image_mean3 a b c _ _ _ _ _ _ S P Q R)).
Qed.
Lemma image_between : forall x x', image x x' -> (between x' p' q' <-> between x p q).
Proof.
  intros x x' X. split; intros (a & b & Ha & Hb & S & E); exists a, b; (split; [exact Ha|split; [exact Hb|split; [exact S|]]]); revert E; apply (image_eq _ _ _ _ X (image_mean2 a b _ _ _ _ S P Q)).
Qed.
Lemma image_aligned : forall x x', image x x' -> (aligned x' p' q' <-> aligned x p q).
Proof.
  intros x x' X. split; intros (a & b & S & E); exists a, b; (split; [exact S|]); revert E; apply (image_eq _ _ _ _ X (image_mean2 a b _ _ _ _ S P Q)).
Qed.
Lemma among_image : forall x', among x' p' q' r' -> exists x, image x x' /\ among x p q r.
Proof.
  intros x' (a & b & c & Ha & Hb & Hc & S & E). exists (mean3 a b c p q r). split.
  - exact (same_spot_trans _ _ _ E (image_mean3 a b c _ _ _ _ _ _ S P Q R)).
  - exists a, b, c. split; [exact Ha|]. split; [exact Hb|]. split; [exact Hc|]. split; [exact S|apply same_spot_refl].
Qed.
Lemma between_image : forall x', between x' p' q' -> exists x, image x x' /\ between x p q.
Proof.
  intros x' (a & b & Ha & Hb & S & E). exists (mean2 a b p q). split.
  - exact (same_spot_trans _ _ _ E (image_mean2 a b _ _ _ _ S P Q)).
  - exists a, b. split; [exact Ha|]. split; [exact Hb|]. split; [exact S|apply same_spot_refl].
Qed.
Lemma mean3_shift : forall a b c u v w, same_spot (mean3 a b c u v w) (0, 0, 0)%Q <-> same_spot (mean3 (1 + a) b c u v w) u.
Proof.
  intros a b c [[u0 u1] u2] [[v0 v1] v2] [[w0 w1] w2]. cbn. split; intros (E0 & E1 & E2); (split; [lra|]); (split; [lra|]); lra.
Qed.
Lemma image_flat : flat p' q' r' <-> flat p q r.
Proof.
  split; intros (a & b & c & N & S & E); exists a, b, c; (split; [exact N|]); (split; [exact S|]); rewrite mean3_shift in E |- *;
    assert (S' : ((1 + a) + b + c == 1)%Q) by lra; revert E; apply (image_eq _ _ _ _ (image_mean3 (1 + a) b c _ _ _ _ _ _ S' P Q R) P).
Qed.
End Corners.
Lemma image_self : forall x, image x (A x).
Proof. intros x. apply same_spot_refl. Qed.

(** ** Segments and triangles *)
Context (g : Point -> Point).
Definition carried (p : Point) : Prop := image (place_of p) (place_of (g p)).
Definition carried_segment (s : Segment) : Prop := carried (fst s) /\ carried (snd s).
Definition carried_triangle (t : Triangle) : Prop := carried (fst (fst t)) /\ carried (snd (fst t)) /\ carried (snd t).
Notation gs := (moved_segment g).
Notation gt := (moved_triangle g).
Lemma end_image : forall s i, carried_segment s -> image (segment_end s i) (segment_end (gs s) i).
Proof. intros s [|i] [H0 H1]; [exact H0|exact H1]. Qed.
Lemma corner_image : forall t i, carried_triangle t -> image (corner t i) (corner (gt t) i).
Proof. intros [[a b] c] [|[|i]] (H0 & H1 & H2); [exact H0|exact H1|exact H2]. Qed.
Lemma segment_image : forall s x x', carried_segment s -> image x x' -> (on_segment x' (gs s) <-> on_segment x s).
Proof. intros s x x' [H0 H1] X. exact (image_between _ _ _ _ H0 H1 x x' X). Qed.
Lemma image_segment : forall s x', carried_segment s -> on_segment x' (gs s) -> exists x, image x x' /\ on_segment x s.
Proof. intros s x' [H0 H1] X. exact (between_image _ _ _ _ H0 H1 x' X). Qed.
Lemma triangle_image : forall t x x', carried_triangle t -> image x x' -> (on_triangle x' (gt t) <-> on_triangle x t).
Proof. intros [[a b] c] x x' (H0 & H1 & H2) X. exact (image_among _ _ _ _ _ _ H0 H1 H2 x x' X). Qed.
Lemma image_triangle : forall t x', carried_triangle t -> on_triangle x' (gt t) -> exists x, image x x' /\ on_triangle x t.
Proof. intros [[a b] c] x' (H0 & H1 & H2) X. exact (among_image _ _ _ _ _ _ H0 H1 H2 x' X). Qed.
Lemma plane_image : forall t x x', carried_triangle t -> image x x' -> (on_plane x' (gt t) <-> on_plane x t).
Proof. intros [[a b] c] x x' (H0 & H1 & H2) X. exact (image_of_plane _ _ _ _ _ _ H0 H1 H2 x x' X). Qed.
Lemma inside_image : forall t x x', carried_triangle t -> image x x' -> (strictly_among x' (corner (gt t) 0) (corner (gt t) 1) (corner (gt t) 2) <-> strictly_among x (corner t 0) (corner t 1) (corner t 2)).
Proof. intros [[a b] c] x x' (H0 & H1 & H2) X. exact (image_strictly _ _ _ _ _ _ H0 H1 H2 x x' X). Qed.
Lemma real_image : forall t, carried_triangle t -> (real_triangle (gt t) <-> real_triangle t).
Proof. intros [[a b] c] (H0 & H1 & H2). unfold real_triangle. apply not_iff_compat. exact (image_flat _ _ _ _ _ _ H0 H1 H2). Qed.
Lemma real_segment_image : forall s, carried_segment s -> (real_segment (gs s) <-> real_segment s).
Proof. intros s C. unfold real_segment. apply not_iff_compat, image_eq; apply end_image, C. Qed.
Lemma end_at_image : forall s x x', carried_segment s -> image x x' -> (at_end x' (gs s) <-> at_end x s).
Proof. intros s x x' C X. split; intros (i & L & E); exists i; (split; [exact L|]); revert E; apply (image_eq _ _ _ _ X (end_image s i C)). Qed.
Lemma corner_at_image : forall t x x', carried_triangle t -> image x x' -> (at_corner_of x' (gt t) <-> at_corner_of x t).
Proof. intros t x x' C X. split; intros (i & L & E); exists i; (split; [exact L|]); revert E; apply (image_eq _ _ _ _ X (corner_image t i C)). Qed.
Lemma touch_image : forall s t, carried_segment s -> carried_triangle t -> ((exists x, on_segment x (gs s) /\ on_triangle x (gt t)) <-> exists x, on_segment x s /\ on_triangle x t).
Proof.
  intros s t S T. split.
  - intros (x' & H1 & H2). destruct (image_segment s x' S H1) as (x & X & H). exists x. split; [exact H|]. apply (triangle_image t x x' T X), H2.
  - intros (x & H1 & H2). exists (A x). split; [apply (segment_image s x _ S (image_self x)), H1|apply (triangle_image t x _ T (image_self x)), H2].
Qed.
Lemma parallel_image : forall r s t, carried_segment s -> carried_triangle t -> (parallel_to_triangle r (gs s) (gt t) <-> parallel_to_triangle r s t).
Proof.
  intros r s t S T. destruct r; cbn [parallel_to_triangle].
  - split.
    + intros (x' & y' & H1 & H2 & H3 & H4 & N). destruct (image_segment s x' S H1) as (x & X & Hx). destruct (image_segment s y' S H3) as (y & Y & Hy).
      exists x, y. split; [exact Hx|]. split; [apply (triangle_image t x x' T X), H2|]. split; [exact Hy|]. split; [apply (triangle_image t y y' T Y), H4|].
      intros E. apply N, (image_eq _ _ _ _ X Y), E.
    + intros (x & y & H1 & H2 & H3 & H4 & N). exists (A x), (A y).
      split; [apply (segment_image s x _ S (image_self x)), H1|]. split; [apply (triangle_image t x _ T (image_self x)), H2|].
      split; [apply (segment_image s y _ S (image_self y)), H3|]. split; [apply (triangle_image t y _ T (image_self y)), H4|].
      intros E. apply N, (image_eq _ _ _ _ (image_self x) (image_self y)), E.
  - rewrite (touch_image s t S T), (plane_image t _ _ T (end_image s 0 S)), (plane_image t _ _ T (end_image s 1 S)). reflexivity.
Qed.
Lemma crosses_space_image : forall r s t, carried_segment s -> carried_triangle t -> (crosses_in_space r (gs s) (gt t) <-> crosses_in_space r s t).
Proof.
  intros r s t S T. pose proof (parallel_image r s t S T) as P.
  assert (C : (exists i, i < 2 /\ ~ at_corner_of (segment_end (gs s) i) (gt t)) <-> exists i, i < 2 /\ ~ at_corner_of (segment_end s i) t).
  { split; intros (i & L & N); exists i; (split; [exact L|]); intros E; apply N; revert E; apply (corner_at_image t _ _ T (end_image s i S)). }
  unfold crosses_in_space. split.
  - intros (x' & H1 & H2 & H3 & H4). destruct (image_segment s x' S H1) as (x & X & H). exists x. split; [exact H|]. split; [apply (triangle_image t x x' T X), H2|].
    rewrite P in H3, H4. rewrite C in H3. split; [exact H3|]. intros N. specialize (H4 N). rewrite (end_at_image s x x' S X), (corner_at_image t x x' T X) in H4. exact H4.
  - intros (x & H1 & H2 & H3 & H4). exists (A x). split; [apply (segment_image s x _ S (image_self x)), H1|]. split; [apply (triangle_image t x _ T (image_self x)), H2|].
    rewrite P, C. split; [exact H3|]. rewrite (end_at_image s x _ S (image_self x)), (corner_at_image t x _ T (image_self x)). exact H4.
Qed.
Lemma along_image : forall s t, carried_segment s -> carried_triangle t -> (along_a_side (gs s) (gt t) <-> along_a_side s t).
Proof.
  intros s t S T. unfold along_a_side. split; intros (j & k & J & K & E); exists j, k; (split; [exact J|]); (split; [exact K|]); intros i L; specialize (E i L); revert E;
    apply (image_between _ _ _ _ (corner_image t j T) (corner_image t k T) _ _ (end_image s i S)).
Qed.
Lemma crosses_plane_image : forall s t, carried_segment s -> carried_triangle t -> (crosses_in_plane (gs s) (gt t) <-> crosses_in_plane s t).
Proof.
  intros s t S T. unfold crosses_in_plane. rewrite (along_image s t S T). apply and_iff_compat_r. split.
  - intros (x' & H1 & H2 & H3). destruct (image_segment s x' S H1) as (x & X & H). exists x. split; [exact H|]. split; [apply (triangle_image t x x' T X), H2|].
    rewrite (end_at_image s x x' S X), (corner_at_image t x x' T X) in H3. exact H3.
  - intros (x & H1 & H2 & H3). exists (A x). split; [apply (segment_image s x _ S (image_self x)), H1|]. split; [apply (triangle_image t x _ T (image_self x)), H2|].
    rewrite (end_at_image s x _ S (image_self x)), (corner_at_image t x _ T (image_self x)). exact H3.
Qed.
End Map.
