(** Curves and surfaces: lists of crossing elements. *)
From Coq Require Import String List Arith NArith ZArith Bool QArith Lqa Lia SpecFloat.
From Verif Require Import Base Model_Issues Types Model_Intersections Spec_Intersections Proof_Intersections5 Spec_Geometry Proof_Geometry Proof_Geometry4
  Spec_Geometry2 Proof_Flat Proof_Exact2 Proof_Exact3 Spec_Geometry3 Proof_Locate Proof_Exact4 Proof_Locate3 Proof_Locate4.
Import ListNotations.
Open Scope nat_scope.
Open Scope list_scope.

Lemma curve_meets_crosses : forall px r surface curve c, locates_for px r (sm_dimension surface) -> solid_triangles surface -> solid_curve curve (sm_dimension surface) ->
  fst c < nb_polygons surface -> (curve_meets px surface curve c <-> curve_crosses r surface curve c).
Proof.
  intros px r surface curve c (LP & L) SS SC Hp.
  assert (K : forall t s, triangle_of surface (polygon_vertices surface (fst c)) t -> segment_of curve (snd c) s ->
    ((if Nat.eqb (sm_dimension surface) 2 then segment_meets_triangle_2d px s t else segment_meets_triangle_3d px s t) <->
     (if Nat.eqb (sm_dimension surface) 2 then crosses_in_plane s t else crosses_in_space r s t))).
  { intros t s Ht Hs. destruct (SS _ _ Hp Ht) as (G & PT). destruct (SC _ _ Hs) as (F & PS). destruct (Nat.eqb_spec (sm_dimension surface) 2) as [E|E].
    - apply (curve_test_2d px r s t L LP); [split; [exact F|exact (PS E)]|exact G|exact (PT E)].
    - apply curve_test_3d; assumption. }
  split; intros (t & s & Ht & Hs & H); exists t, s; (split; [exact Ht|]; split; [exact Hs|]; apply (K t s Ht Hs); exact H).
Qed.
Lemma curve_list_geometry : forall px r0 surface curve candidates r, triangulated surface -> edges_exist curve ->
  candidates_in_range (nb_polygons surface) (length (ec_edges curve)) candidates ->
  locates_for px r0 (sm_dimension surface) -> solid_triangles surface -> solid_curve curve (sm_dimension surface) ->
  curve_intersecting_elements px surface curve candidates r ->
  exists l, r = Ok l /\ lists_candidates (curve_crosses r0 surface curve) candidates (ii_issues l).
Proof.
  intros px r0 surface curve candidates r TS EE CR L SS SC H. destruct (curve_list px surface curve candidates r TS EE CR H) as (l & -> & HL & others & P & N).
  exists l. split; [reflexivity|].
  assert (K : forall c, In c candidates -> (curve_meets px surface curve c <-> curve_crosses r0 surface curve c)).
  { intros [p e] Hc. destruct (CR p e Hc) as (Hp & _). apply curve_meets_crosses with (px := px); assumption. }
  split.
  - intros c. rewrite HL. split; intros (I & M); (split; [exact I|]); apply (K c I); exact M.
  - exists others. split; [exact P|]. intros c Hc M. apply (N c Hc). apply K; [|exact M].
    eapply Permutation.Permutation_in; [apply Permutation.Permutation_sym; exact P|]. apply in_app_iff. right. exact Hc.
Qed.
Lemma crosses_touch : forall r surface curve c, curve_crosses r surface curve c -> exists t s x, triangle_of surface (polygon_vertices surface (fst c)) t /\ segment_of curve (snd c) s /\ on_segment x s /\ on_triangle x t.
Proof.
  intros r surface curve c (t & s & Ht & Hs & H). destruct (Nat.eqb (sm_dimension surface) 2).
  - destruct H as ((x & X1 & X2 & _) & _). exists t, s, x. tauto.
  - destruct H as (x & X1 & X2 & _). exists t, s, x. tauto.
Qed.
(** "no intersection" means that no edge crosses any triangle *)
Lemma curve_silence : forall px r0 surface curve candidates r, triangulated surface -> edges_exist curve ->
  candidates_in_range (nb_polygons surface) (length (ec_edges curve)) candidates ->
  locates_for px r0 (sm_dimension surface) -> solid_triangles surface -> solid_curve curve (sm_dimension surface) -> curve_boxes_complete surface curve candidates ->
  meshes_have_intersections px surface curve candidates r ->
  exists b, r = Ok b /\ (b = false <-> forall p e, p < nb_polygons surface -> ~ curve_crosses r0 surface curve (p, e)).
Proof.
  intros px r0 surface curve candidates r TS EE CR L SS SC BC H. destruct (proj2 (Proof_Intersections.curve_spec px surface curve candidates TS EE CR) r H) as (b & -> & Hb).
  exists b. split; [reflexivity|]. split.
  - intros -> p e Hp C. assert (K : false = true); [|discriminate K]. apply Hb. exists (p, e).
    destruct (crosses_touch _ _ _ _ C) as (t & s & x & Ht & Hs & X1 & X2). split; [exact (BC p e t s x Hp Ht Hs X1 X2)|].
    apply (curve_meets_crosses px r0 surface curve (p, e) L SS SC Hp). exact C.
  - intros N. destruct b; [|reflexivity]. exfalso. destruct (proj1 Hb eq_refl) as ([p e] & Hc & M). destruct (CR p e Hc) as (Hp & _).
    apply (N p e Hp). apply (curve_meets_crosses px r0 surface curve (p, e) L SS SC Hp). exact M.
Qed.
(** ** The same edge and triangle in the plane and in space *)
Lemma lifted_place : forall p, plane_point p -> place_of (lifted p) = place_of p.
Proof. intros p H. unfold plane_point in H. destruct p as [|a [|b [|? ?]]]; try discriminate H. reflexivity. Qed.
Lemma lifted_end : forall s i, plane_segment s -> segment_end (lifted_segment s) i = segment_end s i.
Proof. intros [p q] [|i] (P & Q0); cbn [lifted_segment segment_end fst snd] in *; apply lifted_place; assumption. Qed.
Lemma lifted_corner : forall t i, plane_triangle t -> corner (lifted_triangle t) i = corner t i.
Proof. intros [[p q] k] [|[|i]] (P & Q0 & K); cbn [lifted_triangle corner fst snd] in *; apply lifted_place; assumption. Qed.
Lemma lifted_finite : forall p, finite_point p -> finite_point (lifted p).
Proof. intros p H d Hd. unfold lifted in Hd. apply in_app_iff in Hd. destruct Hd as [Hd|[<-|[]]]; [exact (H d Hd)|exact I]. Qed.
Lemma partial_side : forall px px' r r' s t, locates_on_segments px r -> locates_points px -> locates_on_triangles px' r' -> locates_points px' ->
  flat_edge s -> finite_face t -> plane_triangle t -> along_a_side s t -> (exists i, i < 2 /\ ~ at_corner_of (segment_end s i) t) ->
  ~ segment_meets_triangle_2d px s t /\ segment_meets_triangle_3d px' (lifted_segment s) (lifted_triangle t).
Proof.
  intros px px' r r' s t L LP L' LP' F G PT A (i & Li & NC). destruct F as ((Fs & Rs) & PS). pose proof G as (Ft & Rt). split.
  - intros H. apply (curve_test_2d px r s t L LP (conj (conj Fs Rs) PS) G PT) in H. destruct H as (_ & H). exact (H A).
  - assert (FS : finite_edge (lifted_segment s)).
    { split.
      - destruct Fs as (F1 & F2). split; apply lifted_finite; assumption.
      - unfold real_segment. rewrite !(lifted_end s) by exact PS. exact Rs. }
    assert (FT : finite_face (lifted_triangle t)).
    { split.
      - destruct Ft as (F1 & F2 & F3). split; [|split]; apply lifted_finite; assumption.
      - change (~ flat (corner (lifted_triangle t) 0) (corner (lifted_triangle t) 1) (corner (lifted_triangle t) 2)). rewrite !(lifted_corner t) by exact PT. exact Rt. }
    assert (ON : forall h, h < 2 -> on_triangle (segment_end s h) t).
    { intros h Lh. destruct A as (j & k & Lj & Lk & A). eapply between_among; [exact (corner_on_triangle t j Lj)|exact (corner_on_triangle t k Lk)|exact (A h Lh)]. }
    assert (ON' : forall h, h < 2 -> on_triangle (segment_end (lifted_segment s) h) (lifted_triangle t)).
    { intros h Lh. rewrite lifted_end by exact PS. change (among (segment_end s h) (corner (lifted_triangle t) 0) (corner (lifted_triangle t) 1) (corner (lifted_triangle t) 2)).
      rewrite !(lifted_corner t) by exact PT. exact (ON h Lh). }
    assert (O : parallel_to_triangle Overlapping (lifted_segment s) (lifted_triangle t)).
    { exists (segment_end (lifted_segment s) 0), (segment_end (lifted_segment s) 1). split; [apply end_on_segment; lia|]. split; [apply ON'; lia|].
      split; [apply end_on_segment; lia|]. split; [apply ON'; lia|exact (proj2 FS)]. }
    assert (P : parallel_to_triangle r' (lifted_segment s) (lifted_triangle t)) by (destruct r'; [exact O|apply overlapping_coplanar, O]).
    apply (curve_test_3d px' r' _ _ L' LP' FS FT). exists (segment_end (lifted_segment s) 0). split; [apply end_on_segment; lia|]. split; [apply ON'; lia|].
    split; [|tauto]. intros _. exists i. split; [exact Li|]. rewrite lifted_end by exact PS. intros (j & Lj & E). apply NC. exists j. split; [exact Lj|].
    rewrite lifted_corner in E by exact PT. exact E.
Qed.
