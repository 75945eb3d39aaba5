(** C71: which of two surfaces is taken first by the intersection tests. *)
From Coq Require Import String Ascii List Arith NArith ZArith Bool Lia Permutation SpecFloat.
From Verif Require Import Base BaseFacts Model_Issues Types Model_Intersections Spec_Intersections Spec_Symmetry Spec_Order
  Proof_Intersections Proof_Intersections2 Proof_Intersections3 Proof_Intersections4 Proof_Intersections5 Proof_Symmetry Properties_Intersections Properties_Order.
Import ListNotations.
Open Scope list_scope.

(** Two polygons of a BRep: the same answer whichever is given first. *)
Theorem C71_brep_polygons : forall px m s1 s2 p q, planes_symmetric px -> indices_in_range px ->
  sm_dimension (co_mesh s1) = 3 -> sm_dimension (co_mesh s2) = 3 ->
  polygons_ready (co_mesh s1) -> polygons_ready (co_mesh s2) -> p < nb_polygons (co_mesh s1) -> q < nb_polygons (co_mesh s2) ->
  distinct_unique_vertices m s1 -> distinct_unique_vertices m s2 -> same_points m s1 s2 ->
  exists b, polygons_intersect px m s1 s2 p q = Ok b /\ polygons_intersect px m s2 s1 q p = Ok b.
Proof. exact brep_polygons_swap. Qed.
Print Assumptions C71_brep_polygons.
(** Two polygons of a Section: only if shared vertices have the same numbers in both meshes *)
Theorem C71_section_polygons : forall px m s1 s2 p q, segments_symmetric px -> indices_in_range px ->
  sm_dimension (co_mesh s1) = 2 -> sm_dimension (co_mesh s2) = 2 ->
  polygons_ready (co_mesh s1) -> polygons_ready (co_mesh s2) -> p < nb_polygons (co_mesh s1) -> q < nb_polygons (co_mesh s2) ->
  distinct_unique_vertices m s1 -> distinct_unique_vertices m s2 -> same_points m s1 s2 -> same_vertex_numbers m s1 s2 ->
  exists b, polygons_intersect px m s1 s2 p q = Ok b /\ polygons_intersect px m s2 s1 q p = Ok b.
Proof. exact section_polygons_swap. Qed.
Print Assumptions C71_section_polygons.

(** Whole models stored in two orders, with trees that propose the same pairs: the same pairs are reported. *)
Theorem C71_brep : forall px m m' trees trees' lines lines' r r', reordered m m' -> symmetric_brep px m ->
  intersections_ready px m trees -> intersections_ready px m' trees' ->
  same_proposals m m' trees trees' -> same_proposals m' m trees' trees ->
  line_trees_of m trees lines -> line_trees_of m' trees' lines' ->
  (forall s l c, proposed_line m trees lines s l c <-> proposed_line m' trees' lines' s l c) ->
  (forall l, In l (m_lines m) -> edges_exist (co_mesh l)) -> big_polygons m -> no_empty_surface m -> no_empty_line m ->
  brep_inspect_intersections px m trees lines r -> brep_inspect_intersections px m' trees' lines' r' ->
  exists l l', r = Ok l /\ r' = Ok l' /\ same_pairs (ii_issues l) (ii_issues l').
Proof.
  intros px m m' trees trees' lines lines' r r' O S R R' Q Q' LT LT' PL LE Big Hne Hnl.
  apply (brep_swap px m m' trees trees' lines lines' r r' (ro_unique _ _ O) (ro_internal_rel _ _ O) (ro_surfaces _ _ O) (ro_lines _ _ O) R R' (or_intror S));
    assumption.
Qed.
Print Assumptions C71_brep.
Theorem C71_section : forall px m m' trees trees' r r', reordered m m' -> symmetric_section px m ->
  intersections_ready px m trees -> intersections_ready px m' trees' ->
  same_proposals m m' trees trees' -> same_proposals m' m trees' trees ->
  section_inspect_intersections px m trees r -> section_inspect_intersections px m' trees' r' ->
  exists l l', r = Ok l /\ r' = Ok l' /\ same_pairs (ii_issues l) (ii_issues l').
Proof.
  intros px m m' trees trees' r r' O S R R' Q Q'.
  apply (section_swap px m m' trees trees' r r' (ro_unique _ _ O) (ro_surfaces _ _ O) R R' (or_introl S)); assumption.
Qed.
Print Assumptions C71_section.
Theorem C71_yes_no : forall px m m' trees trees' r r', reordered m m' -> symmetric_brep px m \/ symmetric_section px m ->
  intersections_ready px m trees -> intersections_ready px m' trees' ->
  same_proposals m m' trees trees' -> same_proposals m' m trees' trees ->
  model_has_intersecting_surfaces px m trees r -> model_has_intersecting_surfaces px m' trees' r' -> exists b, r = Ok b /\ r' = Ok b.
Proof.
  intros px m m' trees trees' r r' O S R R' Q Q'.
  apply (yes_no_swap px m m' trees trees' r r' (ro_unique _ _ O) (ro_surfaces _ _ O) R R'); try assumption.
  destruct S as [S|S]; [right|left]; exact S.
Qed.
Print Assumptions C71_yes_no.

(** ** The exact predicates are symmetric *)
Lemma orient2_zero : forall a b c, Z.eqb (orient2 a b c) 0 = true <->
  ((xc b 0 - xc a 0) * (xc c 1 - xc a 1) - (xc b 1 - xc a 1) * (xc c 0 - xc a 0) = 0)%Z.
Proof. intros a b c. unfold orient2. rewrite Z.eqb_eq. apply Z.sgn_null_iff. Qed.
Example exact_segments_symmetric : segments_symmetric exact_px.
Proof.
  intros [a b] [c d]. cbn [px_segment_segment exact_px]. unfold exact_segments, swap. cbv zeta.
  assert (NO : forall x y, on_segment x y <> Outside /\ on_segment x y <> Parallel).
  { intros x y. unfold on_segment. destruct (Z.eqb x 0), (Z.eqb y 0); split; discriminate. }
  rewrite (orb_comm (Z.eqb (orient2 c d a) 0 && _)), (orb_comm (Z.ltb 0 (orient2 c d a * _))).
  destruct (_ || _); cbn [fst snd]; [split; [reflexivity|]; split; split; congruence|].
  destruct (_ || _); cbn [fst snd]; [split; [reflexivity|]; split; split; congruence|].
  split; [reflexivity|]. destruct (NO (orient2 c d a) (orient2 c d b)), (NO (orient2 a b c) (orient2 a b d)). split; split; congruence.
Qed.
Definition volume (a b c d : Point) : Z :=
  let u i := (xc b i - xc a i)%Z in let v i := (xc c i - xc a i)%Z in let w i := (xc d i - xc a i)%Z in
  (u 0%nat * (v 1%nat * w 2%nat - v 2%nat * w 1%nat) - u 1%nat * (v 0%nat * w 2%nat - v 2%nat * w 0%nat)
         + u 2%nat * (v 0%nat * w 1%nat - v 1%nat * w 0%nat))%Z.
Lemma orient3_zero : forall a b c d, Z.eqb (orient3 a b c d) 0 = true <-> volume a b c d = 0%Z.
Proof. intros a b c d. unfold orient3. rewrite Z.eqb_eq. apply Z.sgn_null_iff. Qed.
Lemma exact_parallel : forall p q a b c, fst (px_segment_triangle exact_px (p, q) (a, b, c)) = Parallel <-> volume a b c p = 0%Z /\ volume a b c q = 0%Z.
Proof.
  intros p q a b c. cbn [px_segment_triangle exact_px]. unfold exact_triangle. cbv zeta. rewrite <- !orient3_zero.
  destruct (Z.eqb (orient3 a b c p) 0) eqn:E1, (Z.eqb (orient3 a b c q) 0) eqn:E2; cbn [andb fst].
  - tauto.
  - split; [|intros (_ & K); discriminate]. destruct (Z.ltb _ _); [discriminate|].
    destruct (in_triangle _ _ _); cbn [fst]; unfold on_segment; rewrite ?E1, ?E2; discriminate.
  - split; [|intros (K & _); discriminate]. destruct (Z.ltb _ _); [discriminate|].
    destruct (in_triangle _ _ _); cbn [fst]; unfold on_segment; rewrite ?E1, ?E2; discriminate.
  - split; [|intros (K & _); discriminate]. destruct (Z.ltb _ _); [discriminate|].
    destruct (in_triangle _ _ _); cbn [fst]; unfold on_segment; rewrite ?E1, ?E2; discriminate.
Qed.
Lemma permutation_3 : forall A (x y z a b c : A), Permutation [x; y; z] [a; b; c] ->
  (x, y, z) = (a, b, c) \/ (x, y, z) = (a, c, b) \/ (x, y, z) = (b, a, c) \/ (x, y, z) = (b, c, a) \/ (x, y, z) = (c, a, b) \/ (x, y, z) = (c, b, a).
Proof.
  intros A x y z a b c H. assert (K : In x [a; b; c]) by (apply (Permutation_in _ H); left; reflexivity). destruct K as [<-|[<-|[<-|[]]]].
  - apply Permutation_cons_inv in H. apply Permutation_length_2 in H. destruct H as [(-> & ->)|(-> & ->)]; auto.
  - assert (H' : Permutation (b :: [y; z]) (b :: [a; c])) by (rewrite H; apply perm_swap).
    apply Permutation_cons_inv in H'. apply Permutation_length_2 in H'. destruct H' as [(-> & ->)|(-> & ->)]; auto 6.
  - assert (H' : Permutation (c :: [y; z]) (c :: [a; b])).
    { rewrite H. change [a; b; c] with ([a; b] ++ [c]). change (c :: [a; b]) with ([c] ++ [a; b]). apply Permutation_app_comm. }
    apply Permutation_cons_inv in H'. apply Permutation_length_2 in H'. destruct H' as [(-> & ->)|(-> & ->)]; auto 7.
Qed.
Lemma plane_volume : forall t a b v w, corners_of t a b w -> (in_plane exact_px a b v t <-> volume a b w v = 0%Z).
Proof.
  intros [[x y] z] a b v w H. unfold corners_of in H. cbn [fst snd] in H. unfold in_plane. rewrite !exact_parallel.
  assert (G : (volume x y z a = 0 /\ volume x y z b = 0 /\ (volume x y z v = 0 <-> volume a b w v = 0))%Z).
  { destruct (permutation_3 _ _ _ _ _ _ _ H) as [E|[E|[E|[E|[E|E]]]]]; injection E as -> -> ->; unfold volume; repeat split; intros; try lia; ring. }
  tauto.
Qed.
Example exact_planes_symmetric : planes_symmetric exact_px.
Proof.
  intros a b v w t1 t2 H1 H2. rewrite (plane_volume t2 a b v w H2), (plane_volume t1 a b w v H1). unfold volume. split; lia.
Qed.

(** ** A Section whose report depends on which surface is stored first: two triangles on both sides of the edge (0,0)-(2,0),
    whose ends have numbers 0, 1 in one mesh and 0, 2 in the other *)
Definition below := ex_mesh 2 [[0; 0]; [1; -2]; [2; 0]]%Z [[2; 0; 1]].
Definition hinge := ex_surfaces [sec1; below] [] (fun s v => Some (match s with 0 => v | _ => nth v [0; 3; 1] 9 end)) [].
Definition hinge' := turned hinge.
Definition hinge_trees := mkTrees [0; 1] [(0, 1)] (fun _ => [(0, 0)]) (fun _ _ => [(0, 0)]).
Definition hinge_trees' := mkTrees [1; 0] [(0, 1)] (fun _ => [(0, 0)]) (fun _ _ => [(0, 0)]).
Lemma hinge_surfaces : forall s, In s (m_surfaces hinge) -> s = mkComponent 0 None true sec1 \/ s = mkComponent 1 None true below.
Proof. intros s [<-|[<-|[]]]; [left|right]; reflexivity. Qed.
Lemma hinge_surfaces' : forall s, In s (m_surfaces hinge') -> s = mkComponent 0 None true sec1 \/ s = mkComponent 1 None true below.
Proof. intros s [<-|[<-|[]]]; [right|left]; reflexivity. Qed.
Ltac hinge_ready SS :=
  constructor;
  [repeat constructor; cbn; intuition discriminate
  |constructor;
    [repeat constructor; cbn; intuition discriminate
    |intros id [<-|[<-|[]]]; cbn; eauto
    |intros s Hs _; destruct (SS s Hs) as [->| ->]; cbn; auto
    |intros i j [[= <- <-]|[]]; cbn; lia
    |intros s i Hs Hi p q [[= <- <-]|[]]; destruct (SS s Hs) as [->| ->]; cbn; lia
    |intros s1 s2 i j H1 H2 E1 E2 p q [[= <- <-]|[]]; destruct (SS s1 H1) as [->| ->], (SS s2 H2) as [->| ->]; cbn; lia]
  |intros s Hs p Hp; destruct (SS s Hs) as [->| ->]; cbn in Hp; destruct p as [|p]; try lia; cbn;
    (split; [repeat constructor; cbn; intuition discriminate|split; [intuition lia|lia]])
  |exact exact_indices
  |intros s Hs _ s1 s2 v w H1 H2 Hv Hw _; destruct (SS s1 H1) as [->| ->], (SS s2 H2) as [->| ->]; cbn in *; lia].
Lemma hinge_ready_ : intersections_ready exact_px hinge hinge_trees.
Proof. hinge_ready hinge_surfaces. Qed.
Lemma hinge_ready_' : intersections_ready exact_px hinge' hinge_trees'.
Proof. hinge_ready hinge_surfaces'. Qed.
Lemma hinge_proposals : same_proposals hinge hinge' hinge_trees hinge_trees' /\ same_proposals hinge' hinge hinge_trees' hinge_trees.
Proof.
  assert (A : In (mkComponent 0 None true sec1) (m_surfaces hinge) /\ In (mkComponent 0 None true sec1) (m_surfaces hinge')) by (split; cbn; auto).
  assert (B : In (mkComponent 1 None true below) (m_surfaces hinge) /\ In (mkComponent 1 None true below) (m_surfaces hinge')) by (split; cbn; auto).
  destruct A as (A & A'). destruct B as (B & B').
  split; intros s1 s2 c [(<- & H1 & _ & i & Ei & Hc)|(H1 & H2 & i & j & Hij & Ei & Ej & Hc)].
  - left. left. split; [reflexivity|]. destruct (hinge_surfaces _ H1) as [->| ->]; (split; [assumption|]; split; [reflexivity|]); [exists 1|exists 0]; split; [reflexivity|exact Hc|reflexivity|exact Hc].
  - right. right. destruct Hij as [[= <- <-]|[]].
    destruct (hinge_surfaces _ H1) as [->| ->]; [|discriminate Ei]. destruct (hinge_surfaces _ H2) as [->| ->]; [discriminate Ej|].
    destruct Hc as [<-|[]]. split; [assumption|]. split; [assumption|]. exists 0, 1. repeat split; cbn; auto.
  - left. left. split; [reflexivity|]. destruct (hinge_surfaces' _ H1) as [->| ->]; (split; [assumption|]; split; [reflexivity|]); [exists 0|exists 1]; split; [reflexivity|exact Hc|reflexivity|exact Hc].
  - right. right. destruct Hij as [[= <- <-]|[]].
    destruct (hinge_surfaces' _ H1) as [->| ->]; [discriminate Ei|]. destruct (hinge_surfaces' _ H2) as [->| ->]; [|discriminate Ej].
    destruct Hc as [<-|[]]. split; [assumption|]. split; [assumption|]. exists 0, 1. repeat split; cbn; auto.
Qed.
Lemma hinge_conformal : forall s1 s2, In s1 (m_surfaces hinge) -> In s2 (m_surfaces hinge) -> distinct_unique_vertices hinge s1 /\ same_points hinge s1 s2.
Proof.
  intros s1 s2 H1 H2. split.
  - intros p Hp v w Hv Hw E. destruct (hinge_surfaces _ H1) as [->| ->]; cbn in Hp; (destruct p as [|p]; [|lia]); cbn in Hv, Hw;
      destruct Hv as [<-|[<-|[<-|[]]]], Hw as [<-|[<-|[<-|[]]]]; try reflexivity; discriminate E.
  - intros v w a b E A B. destruct (hinge_surfaces _ H1) as [->| ->], (hinge_surfaces _ H2) as [->| ->];
      destruct v as [|[|[|v]]]; try (destruct v; discriminate A); destruct w as [|[|[|w]]]; try (destruct w; discriminate B); try discriminate E;
      unfold point_of in A, B; cbn in A, B; congruence.
Qed.
(** The triangles are conformal, unique vertices are consistent and the boxes propose the same pairs, but one order reports the
    two triangles and the other order reports nothing. *)
Theorem C71_section_order_matters : exists m m' trees trees' l l', reordered m m' /\
  intersections_ready exact_px m trees /\ intersections_ready exact_px m' trees' /\
  same_proposals m m' trees trees' /\ same_proposals m' m trees' trees /\ segments_symmetric exact_px /\ dimension_is m 2 /\
  (forall s1 s2, In s1 (m_surfaces m) -> In s2 (m_surfaces m) -> distinct_unique_vertices m s1 /\ same_points m s1 s2) /\
  section_inspect_intersections exact_px m trees (Ok l) /\ section_inspect_intersections exact_px m' trees' (Ok l') /\
  ii_issues l <> [] /\ ii_issues l' = [].
Proof.
  destruct (C27_C48_queries_terminate exact_px hinge hinge_trees (mkLineTrees [] (fun _ _ => []))) as ((r & H) & _).
  destruct (C27_C48_queries_terminate exact_px hinge' hinge_trees' (mkLineTrees [] (fun _ _ => []))) as ((r' & H') & _).
  pose proof hinge_ready_ as R. pose proof hinge_ready_' as R'. destruct hinge_proposals as (Q & Q').
  assert (NE : no_empty_surface hinge) by (intros s Hs _; destruct (hinge_surfaces _ Hs) as [->| ->]; discriminate).
  assert (NE' : no_empty_surface hinge') by (intros s Hs _; destruct (hinge_surfaces' _ Hs) as [->| ->]; discriminate).
  destruct (C27_report _ _ _ _ R NE H) as (l & -> & _ & L). destruct (C27_report _ _ _ _ R' NE' H') as (l' & -> & _ & L').
  exists hinge, hinge', hinge_trees, hinge_trees', l, l'.
  split; [apply turned_reordered|]. split; [exact R|]. split; [exact R'|]. split; [exact Q|]. split; [exact Q'|].
  split; [exact exact_segments_symmetric|]. split; [intros s Hs; destruct (hinge_surfaces _ Hs) as [->| ->]; reflexivity|].
  split; [exact hinge_conformal|]. split; [exact H|]. split; [exact H'|].
  set (A := mkComponent 0 None true sec1) in *. set (B := mkComponent 1 None true below) in *.
  assert (YA : polygons_ready (co_mesh A)) by (apply (ir_surfaces _ _ _ R); left; reflexivity).
  assert (YB : polygons_ready (co_mesh B)) by (apply (ir_surfaces _ _ _ R); right; left; reflexivity).
  split.
  - intros E. assert (K : In (surface_element A 0, surface_element B 0) (ii_issues l)); [|rewrite E in K; destruct K].
    apply L. exists A, B, (0, 0). split; [|split; [|reflexivity]].
    + right. split; [left; reflexivity|]. split; [right; left; reflexivity|]. exists 0, 1. cbn. auto.
    + split; [intros (X & _); discriminate X|].
      destruct (C29_polygons exact_px hinge A B 0 0 exact_indices) as (b & Eb & Hb); try assumption; try (cbn; lia).
      { intros _ v w Hv Hw _. cbn in *. lia. }
      assert (Eb' : polygons_intersect exact_px hinge A B 0 0 = Ok true) by (vm_compute; reflexivity).
      apply Hb. congruence.
  - destruct (ii_issues l') as [|x k] eqn:E; [reflexivity|]. exfalso.
    destruct (proj1 (L' x) (or_introl eq_refl)) as (s1 & s2 & c & Pr & (N & M) & _).
    destruct Pr as [(<- & H1 & _ & i & Ei & Hc)|(H1 & H2 & i & j & Hij & Ei & Ej & Hc)].
    + destruct Hc as [<-|[]]. apply N. auto.
    + destruct Hij as [[= <- <-]|[]]. destruct Hc as [<-|[]].
      destruct (hinge_surfaces' _ H1) as [->| ->]; [discriminate Ei|]. destruct (hinge_surfaces' _ H2) as [->| ->]; [|discriminate Ej].
      destruct (C29_polygons exact_px hinge' B A 0 0 exact_indices) as (b & Eb & Hb); try assumption; try (cbn; lia).
      { intros _ v w Hv Hw _. cbn in *. lia. }
      assert (Eb' : polygons_intersect exact_px hinge' B A 0 0 = Ok false) by (vm_compute; reflexivity).
      assert (b = true) by (apply Hb; exact M). congruence.
Qed.
Print Assumptions C71_section_order_matters.

(** ** Instances: the BRep [br_model], its surfaces taken in the other order; a Section whose shared vertices have the same
    numbers in both meshes *)
Definition br_trees' := mkTrees [0; 1] [(1, 0)] (fun i => match i with 1 => [(0, 0)] | _ => [(0, 1); (0, 0); (1, 1)] end)
  (fun i j => match i, j with 1, 0 => [(0, 1); (0, 0)] | _, _ => [(0, 0)] end).
Definition br_lines' := mkLineTrees [11; 10] (fun i j => match i with 0 => [(0, 0); (0, 1); (1, 0)] | _ => [(0, 0)] end).
Lemma br_surfaces : forall s, In s (m_surfaces br_model) -> s = mkComponent 0 None true br1 \/ s = mkComponent 1 None true br2.
Proof. intros s [<-|[<-|[]]]; [left|right]; reflexivity. Qed.
Example br_symmetric : symmetric_brep exact_px br_model.
Proof.
  split; [exact exact_planes_symmetric|]. split; [intros s Hs; destruct (br_surfaces s Hs) as [->| ->]; reflexivity|].
  intros s1 s2 H1 H2. split.
  - intros p Hp v w Hv Hw E. injection E as E. lia.
  - intros v w a b E A B. injection E as E. destruct (br_surfaces _ H1) as [->| ->], (br_surfaces _ H2) as [->| ->]; cbn [co_id] in E; unfold point_of in *.
    + assert (v = w) by lia. subst. congruence.
    + assert (v < length (sm_points br1)) by (apply nth_error_Some; cbn [co_mesh] in A; congruence). cbn in H. lia.
    + assert (w < length (sm_points br1)) by (apply nth_error_Some; cbn [co_mesh] in B; congruence). cbn in H. lia.
    + assert (v = w) by lia. subst. congruence.
Qed.
Example br_both_orders : reordered br_model (turned br_model) /\ same_proposals br_model (turned br_model) br_trees br_trees' /\
  same_proposals (turned br_model) br_model br_trees' br_trees /\ intersections_ready exact_px (turned br_model) br_trees' /\
  line_trees_of (turned br_model) br_trees' br_lines' /\
  (forall s l c, proposed_line br_model br_trees br_lines s l c <-> proposed_line (turned br_model) br_trees' br_lines' s l c).
Proof.
  assert (IN : forall s, In s (m_surfaces (turned br_model)) <-> In s (m_surfaces br_model)) by (intros s; symmetry; apply in_rev).
  assert (INL : forall s, In s (m_lines (turned br_model)) <-> In s (m_lines br_model)) by (intros s; symmetry; apply in_rev).
  destruct br_ready as (R & LT & _).
  split; [apply turned_reordered|]. split; [|split; [|split; [|split]]].
  - intros s1 s2 c [(<- & H1 & A1 & i & Ei & Hc)|(H1 & H2 & i & j & Hij & Ei & Ej & Hc)].
    + left. left. split; [reflexivity|]. split; [apply IN; exact H1|]. split; [exact A1|].
      destruct (br_surfaces _ H1) as [->| ->]; destruct i as [|[|[|i]]]; try discriminate Ei; [exists 0|exists 1]; split; auto.
    + right. right. destruct Hij as [[= <- <-]|[]]. split; [apply IN; exact H2|]. split; [apply IN; exact H1|].
      destruct (br_surfaces _ H1) as [->| ->]; [|discriminate Ei]. destruct (br_surfaces _ H2) as [->| ->]; [discriminate Ej|].
      exists 1, 0. repeat split; try reflexivity; [left; reflexivity|]. destruct Hc as [<-|[<-|[]]]; cbn; auto.
  - intros s1 s2 c [(<- & H1 & A1 & i & Ei & Hc)|(H1 & H2 & i & j & Hij & Ei & Ej & Hc)].
    + apply IN in H1. left. left. split; [reflexivity|]. split; [exact H1|]. split; [exact A1|].
      destruct (br_surfaces _ H1) as [->| ->]; destruct i as [|[|[|i]]]; try discriminate Ei; [exists 1|exists 0]; split; auto.
    + apply IN in H1. apply IN in H2. right. right. destruct Hij as [[= <- <-]|[]]. split; [exact H2|]. split; [exact H1|].
      destruct (br_surfaces _ H1) as [->| ->]; [discriminate Ei|]. destruct (br_surfaces _ H2) as [->| ->]; [|discriminate Ej].
      exists 1, 0. repeat split; try reflexivity; [left; reflexivity|]. destruct Hc as [<-|[<-|[]]]; cbn; auto.
  - constructor.
    + repeat constructor; cbn; intuition discriminate.
    + constructor.
      * repeat constructor; cbn; intuition discriminate.
      * intros id [<-|[<-|[]]]; [exists (mkComponent 0 None true br1)|exists (mkComponent 1 None true br2)]; cbn; auto.
      * intros s Hs _. apply IN in Hs. destruct (br_surfaces s Hs) as [->| ->]; cbn; auto.
      * intros i j [[= <- <-]|[]]. cbn. lia.
      * intros s i Hs Hi p q Hpq. apply IN in Hs. destruct (br_surfaces s Hs) as [->| ->]; destruct i as [|[|[|i]]]; try discriminate Hi; cbn in *;
          repeat (destruct Hpq as [Hpq|Hpq]; [injection Hpq as <- <-; lia|]); try destruct Hpq.
      * intros s1 s2 i j H1 H2 E1 E2 p q Hpq. apply IN in H1. apply IN in H2. destruct (br_surfaces s1 H1) as [->| ->], (br_surfaces s2 H2) as [->| ->]; destruct i as [|[|[|i]]]; try discriminate E1;
          destruct j as [|[|[|j]]]; try discriminate E2; cbn in *.
        all: repeat (destruct Hpq as [Hpq|Hpq]; [injection Hpq as <- <-; lia|]); try destruct Hpq.
    + intros s Hs. apply IN in Hs. apply (ir_surfaces _ _ _ R s Hs).
    + exact exact_indices.
    + intros s Hs. apply IN in Hs. destruct (br_surfaces s Hs) as [->| ->]; discriminate.
  - constructor.
    + repeat constructor; cbn; intuition discriminate.
    + intros l Hl Ha. apply INL in Hl. exact (lo_active _ _ _ LT l Hl Ha).
    + intros s l i j Hs Hl Ei Ej p q Hpq. apply IN in Hs. apply INL in Hl. destruct (br_surfaces s Hs) as [->| ->]; destruct Hl as [<-|[<-|[]]]; destruct i as [|[|[|i]]]; try discriminate Ei; cbn in *;
        repeat (destruct Hpq as [Hpq|Hpq]; [injection Hpq as <- <-; lia|]); try destruct Hpq.
  - intros s l c. unfold proposed_line. rewrite IN, INL.
    split; intros (H1 & A1 & H2 & A2 & i & j & Ei & Ej & Hc); (split; [exact H1|]; split; [exact A1|]; split; [exact H2|]; split; [exact A2|]);
      destruct (br_surfaces s H1) as [->| ->]; destruct i as [|[|[|i]]]; try discriminate Ei;
      first [exists 0, j; split; [reflexivity|]; split; [exact Ej|]; exact Hc|exists 1, j; split; [reflexivity|]; split; [exact Ej|]; exact Hc].
Qed.
(** shared vertices 0 and 1 have the same numbers: (0,0)-(2,0) again *)
Definition below_same := ex_mesh 2 [[0; 0]; [2; 0]; [1; -2]]%Z [[1; 0; 2]].
Definition fold_model := ex_surfaces [sec1; below_same] [] (fun s v => Some (match s, v with 0, _ => v | _, 2 => 3 | _, _ => if Nat.ltb v 2 then v else 2 + v end)) [].
Lemma fold_surfaces : forall s, In s (m_surfaces fold_model) -> s = mkComponent 0 None true sec1 \/ s = mkComponent 1 None true below_same.
Proof. intros s [<-|[<-|[]]]; [left|right]; reflexivity. Qed.
Example fold_symmetric : symmetric_section exact_px fold_model.
Proof.
  split; [exact exact_segments_symmetric|]. split; [intros s Hs; destruct (fold_surfaces s Hs) as [->| ->]; reflexivity|].
  intros s1 s2 H1 H2. split; [|split].
  - intros p Hp v w Hv Hw E. destruct (fold_surfaces _ H1) as [->| ->]; cbn in Hp; (destruct p as [|p]; [|lia]); cbn in Hv, Hw;
      destruct Hv as [<-|[<-|[<-|[]]]], Hw as [<-|[<-|[<-|[]]]]; try reflexivity; discriminate E.
  - intros v w a b E A B. destruct (fold_surfaces _ H1) as [->| ->], (fold_surfaces _ H2) as [->| ->];
      destruct v as [|[|[|v]]]; try (destruct v; discriminate A); destruct w as [|[|[|w]]]; try (destruct w; discriminate B); try discriminate E;
      unfold point_of in A, B; cbn in A, B; congruence.
  - intros v w A B E. destruct (fold_surfaces _ H1) as [->| ->], (fold_surfaces _ H2) as [->| ->]; cbn in A, B;
      destruct v as [|[|[|v]]]; try lia; destruct w as [|[|[|w]]]; try lia; discriminate E.
Qed.
