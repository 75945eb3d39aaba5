(** C91: the order of the corners, facets and edges of a polyhedron, the vertex its facets are described from, and their direction, do not matter. *)
From Coq Require Import String Ascii List Arith NArith ZArith Bool Lia Permutation Sorted Mergesort Relations QArith Lqa.
From Verif Require Import Base BaseFacts Model_Issues Types Model_Hash Model_Adjacency Model_Colocation Model_Manifold Model_Degeneration Model_Negative Model_Topology Model_Results
  Spec_Cycles Spec_Maps Spec_Colocation Spec_Adjacency Spec_Manifold Spec_Fans Spec_Degeneration Spec_Negative Spec_Renumber Spec_Redescribe Spec_RedescribeSolid Proof_Colocation
  Proof_GoodModels Proof_Searches Spec_Geometry Proof_Renumber Proof_Renumber2 Proof_Renumber3 Proof_Renumber4 Proof_Redescribe Proof_Redescribe2 Proof_RedescribeSolid Proof_RedescribeSolid2
  Properties_Manifold Properties_Renumber Properties_Redescribe.
Import ListNotations.
Open Scope nat_scope.
Open Scope list_scope.

(** The same issues are found, the facets of polyhedra under their new numbers; also the negative polyhedra when the sign of their volume does not
    depend on the description, and then as many issues. *)
Theorem C91_solid : forall over d ms geo ho ho' name name' m m' st st', redescribed_solid over d m m' -> inside_solid m ->
  (forall v, v < length (so_points m) -> exists fan, so_around_vertex m v = Ok fan) ->
  consistent (so_points m) (g_colocated geo (so_points m)) ->
  simple_facets m -> below_2_32 (length (all_polyhedron_facets m)) ->
  simple_edges m -> turns_around_solid_edges m -> turns_around_solid_edges m' -> same_failed_turns m m' ->
  exists r r', inspect_solid ms geo ho name m st = Ok r /\ inspect_solid ms geo ho' name' m' st' = Ok r' /\ redescribed_solid_report d r r' /\
    (same_volume_sign ms m m' -> so_r_negative r' = so_r_negative r /\ solid_nb_issues r' = solid_nb_issues r).
Proof.
  intros over d ms geo ho ho' name name' m m' st st' H I A C SF BF SE T T' W.
  destruct (colocated_points_groups_spec geo _ C) as (c & C1 & _).
  destruct (solid_adjacency_redescribed over d m m' H I name name' SF) as (a & a' & A1 & A2 & A3).
  destruct (small_edges_same ms geo (so_points m) (so_edges m) st st') as (e & E1 & E2).
  destruct (solid_vertices_redescribed over d m m' H I geo geo A) as (v & v' & V1 & V2 & V3).
  destruct (solid_edges_redescribed over d m m' H SE T T' W) as (g & g' & G1 & G2 & G3).
  pose proof (flat_polyhedra_redescribed over d m m' H) as F. pose proof (facets_redescribed over d m m' H ho ho' SF BF) as M.
  unfold inspect_solid. cbv zeta. unfold solid_degenerated_edges. rewrite (rv_points _ _ _ _ H), (rv_edges _ _ _ _ H), A1, A2, C1, E1, E2, V1, V2, G1, G2, F.
  do 2 eexists. split; [reflexivity|]. split; [reflexivity|]. split; [constructor; first [assumption|reflexivity]|].
  intros S. pose proof (negative_polyhedra_redescribed over d m m' H ms S) as N.
  split; [exact N|]. unfold solid_nb_issues. cbn [assigned fst so_r_adjacency so_r_colocated so_r_edges so_r_polyhedra so_r_manifold_vertices so_r_manifold_edges so_r_manifold_facets so_r_negative].
  rewrite N. rewrite (nb_same _ _ a a') by (apply Permutation_length in A3; rewrite map_length in A3; exact A3). rewrite (nb_same _ _ v v') by (rewrite V3; reflexivity).
  rewrite (nb_same _ _ g g') by (apply Permutation_length in G3; rewrite !map_length in G3; exact G3).
  rewrite (nb_same _ _ (solid_non_manifold_facets ho m) (solid_non_manifold_facets ho' m')); [reflexivity|].
  destruct M as (l & M1 & M2). rewrite (Permutation_length M1). apply (proj1 (images_at _ _ _ _ _ M2)).
Qed.
Print Assumptions C91_solid.

(** any solid can be described with each facet from any of its vertices, all facets backwards or none, and each edge from either end *)
Theorem C91_turned : forall over k flip around_edge m, redescribed_solid over same_numbers m (turned_solid over k flip around_edge m).
Proof. exact turned_is. Qed.
Print Assumptions C91_turned.

(** ** Signs of volumes *)
(** if the sign is that of an alternating quantity (as the exact volume is), it is kept by an even number of swaps of corners, ... *)
Theorem C91_even_swaps : forall ms f a b c d a' b' c' d', sign_of_volume ms f -> alternating f -> swapped false [a; b; c; d] [a'; b'; c'; d'] ->
  ms_tetra_negative ms a' b' c' d' = ms_tetra_negative ms a b c d.
Proof.
  intros ms f a b c d a' b' c' d' S A W. pose proof (swapped_volume f false [a; b; c; d] _ A eq_refl W) as E. cbn [volume] in E.
  apply eq_true_iff_eq. rewrite !(S _ _ _ _), E. reflexivity.
Qed.
Print Assumptions C91_even_swaps.
(** and changed by an odd number *)
Theorem C91_odd_swaps : forall ms f a b c d a' b' c' d', sign_of_volume ms f -> alternating f -> swapped true [a; b; c; d] [a'; b'; c'; d'] ->
  ~ (ms_tetra_negative ms a b c d = true /\ ms_tetra_negative ms a' b' c' d' = true) /\
  (~ (f a b c d == 0)%Q -> ms_tetra_negative ms a' b' c' d' = negb (ms_tetra_negative ms a b c d)).
Proof.
  intros ms f a b c d a' b' c' d' S A W. pose proof (swapped_volume f true [a; b; c; d] _ A eq_refl W) as E. cbn [volume] in E.
  pose proof (S a b c d) as S1. pose proof (S a' b' c' d') as S2. rewrite E in S2. split.
  - rewrite S1, S2. clear. lra.
  - intros Z. apply eq_true_iff_eq. rewrite S2. rewrite negb_true_iff, <- not_true_iff_false, S1. clear - Z. split; intros K; [lra|]. destruct (Qlt_le_dec 0 (f a b c d)) as [L|L]; [lra|].
    exfalso. apply Z. lra.
Qed.
Print Assumptions C91_odd_swaps.
(** so a solid of tetrahedra whose corners are swapped an even number of times has the same negative tetrahedra *)
Theorem C91_same_volumes : forall ms f m m', sign_of_volume ms f -> alternating f -> so_points m' = so_points m ->
  (forall p, p < nb_polyhedra m -> length (ph_vertices (polyhedron m p)) = 4 /\ swapped false (ph_vertices (polyhedron m p)) (ph_vertices (polyhedron m' p))) ->
  same_volume_sign ms m m'.
Proof.
  intros ms f m m' S A P W p Hp. destruct (W p Hp) as [L V]. split; [|congruence]. unfold solid_points. rewrite P. apply (map_swapped _ _ (fun v => nth v (so_points m) [])) in V.
  pose proof (swapped_length _ _ _ _ V) as L'. rewrite !map_length in L'.
  destruct (ph_vertices (polyhedron m p)) as [|a [|b [|c [|e [|x l]]]]]; try discriminate. destruct (ph_vertices (polyhedron m' p)) as [|a' [|b' [|c' [|e' [|x' l']]]]]; try discriminate.
  cbn [map tetra_sign] in *. f_equal. apply (C91_even_swaps ms f _ _ _ _ _ _ _ _ S A V).
Qed.
Print Assumptions C91_same_volumes.

(** ** Examples: three tetrahedra around a triangle, a wrong adjacency, a vertex with an unfinished turn; then every tetrahedron [a b c d] as [b c a d] *)
Definition rv_around (v : nat) : outcome (list (nat * nat)) :=
  match v with 0 => Ok [(0, 0); (1, 1); (2, 1)] | 1 => Ok [(0, 1)] | 2 => Ok [(0, 2); (1, 0); (2, 2)] | 3 => Ok [(0, 3)] | 4 => Ok [(1, 3)] | _ => Ok [(2, 3)] end.
Definition rv_wrong (f : nat * nat) : option nat := match f with (0, 0) => Some 0 | _ => None end.
Definition rv_solid : SolidMesh :=
  mkSolid [pt 0; pt 1; pt 2; pt 3; pt 4; pt 5] [tet 0 1 2 3; tet 2 0 1 4; tet 1 0 2 5] rv_wrong [(0, 1)] (fun _ => false)
    (fun p => match p with 1 => rn_zero | _ => far end) (fun _ => far) rv_around (fun _ p => Ok [p]).
Definition rv_redescription : SolidRedescription :=
  mkSolidRedescription (fun _ i => match i with 0 => 2 | 1 => 0 | 2 => 1 | _ => i end) (fun _ i => match i with 0 => 2 | 1 => 0 | 2 => 1 | _ => i end)
    (fun _ i => match i with 0 => 1 | 1 => 3 | 2 => 5 | 3 => 0 | 4 => 2 | 5 => 4 | _ => i end).
Definition rv_solid' : SolidMesh :=
  mkSolid [pt 0; pt 1; pt 2; pt 3; pt 4; pt 5] [tet 1 2 0 3; tet 0 1 2 4; tet 0 2 1 5] (fun f => match f with (0, 2) => Some 0 | _ => None end) [(0, 1)] (fun _ => false)
    (fun p => match p with 1 => rn_zero | _ => far end) (fun _ => far) (fun v => on_answer (described_solid_corner rv_redescription) (rv_around v)) (fun _ p => Ok [p]).
Lemma rv_turns : forall m, (forall f q, so_adjacent m f = Some q -> q = fst f) -> (forall ab p, so_around_edge m ab p = Ok [p]) -> turns_around_solid_edges m.
Proof.
  intros m A E e [a b] (F1 & F2 & _). right. exists [fst e]. split; [apply E|]. split; [constructor; [intros []|constructor]|]. intros p. split.
  - intros [<-|[]]. split; [|apply rst_refl]. exists (snd e). split; [exact F1|]. left. exact F2.
  - intros [_ C]. left. revert C. generalize (fst e). intros q C. induction C as [x y (_ & _ & f & _ & K1 & _ & K)|x|x y _ IH|x y z _ IH1 _ IH2]; [apply A in K; congruence| | |]; congruence.
Qed.
Example rv_hypotheses : redescribed_solid false rv_redescription rv_solid rv_solid' /\ inside_solid rv_solid /\
  (forall v, v < length (so_points rv_solid) -> exists fan, so_around_vertex rv_solid v = Ok fan) /\
  consistent (so_points rv_solid) (g_colocated exact_geo (so_points rv_solid)) /\
  simple_facets rv_solid /\ below_2_32 (length (all_polyhedron_facets rv_solid)) /\
  simple_edges rv_solid /\ turns_around_solid_edges rv_solid /\ turns_around_solid_edges rv_solid' /\ same_failed_turns rv_solid rv_solid' /\
  same_volume_sign rn_measures rv_solid rv_solid'.
Proof.
  split; [|split; [|split; [|split; [|split; [|split; [|split; [|split; [|split; [|split]]]]]]]]].
  - constructor; try reflexivity.
    + intros p Hp. cbn in Hp. destruct p as [|[|[|p]]]; try lia; reflexivity.
    + intros p Hp. cbn in Hp. destruct p as [|[|[|p]]]; try lia; reflexivity.
    + intros p Hp. cbn in Hp. destruct p as [|[|[|p]]]; try lia; reflexivity.
    + intros p Hp. cbn in Hp. assert (L : length (ph_vertices (polyhedron rv_solid p)) = 4) by (destruct p as [|[|[|p]]]; try lia; reflexivity). rewrite L.
      split; [intros i Hi|intros i j Hi Hj]; destruct i as [|[|[|[|i]]]]; cbn; try lia; destruct j as [|[|[|[|j]]]]; cbn; lia.
    + intros p Hp. cbn in Hp. assert (L : length (ph_facets (polyhedron rv_solid p)) = 4) by (destruct p as [|[|[|p]]]; try lia; reflexivity). rewrite L.
      split; [intros i Hi|intros i j Hi Hj]; destruct i as [|[|[|[|i]]]]; cbn; try lia; destruct j as [|[|[|[|j]]]]; cbn; lia.
    + intros p Hp. cbn in Hp. assert (L : length (ph_edges (polyhedron rv_solid p)) = 6) by (destruct p as [|[|[|p]]]; try lia; reflexivity). rewrite L.
      split; [intros i Hi|intros i j Hi Hj]; destruct i as [|[|[|[|[|[|i]]]]]]; cbn; try lia; destruct j as [|[|[|[|[|[|j]]]]]]; cbn; lia.
    + intros p i v Hp E. cbn in Hp. destruct p as [|[|[|p]]]; try lia; destruct i as [|[|[|[|i]]]]; cbn in E; try (destruct i; discriminate); exact E.
    + intros p i f Hp E. cbn in Hp.
      assert (R : forall a b c : nat, same_oriented_cycle [a; b; c] [a; b; c] /\ same_oriented_cycle [a; b; c] [b; c; a] /\ same_oriented_cycle [a; b; c] [c; a; b]).
      { intros a b c. split; [exists [], [a; b; c]; auto|]. split; [exists [a], [b; c]; auto|exists [a; b], [c]; auto]. }
      destruct p as [|[|[|p]]]; try lia; destruct i as [|[|[|[|i]]]]; cbn in E; try (destruct i; discriminate); injection E as <-; eexists; (split; [reflexivity|]);
        cbn [tet nth_error ph_facets]; first [apply R|apply (proj1 (proj2 (R _ _ _)))|apply (proj2 (proj2 (R _ _ _)))].
    + intros p i a b Hp E. cbn in Hp. destruct p as [|[|[|p]]]; try lia; destruct i as [|[|[|[|[|[|i]]]]]]; cbn in E; try (destruct i; discriminate); injection E as <- <-; cbn; auto.
    + intros [p i] [Hp Hi]. cbn [fst snd] in *. cbn in Hp. destruct p as [|[|[|p]]]; try lia; cbn in Hi; destruct i as [|[|[|[|i]]]]; try lia; reflexivity.
    + intros v _. apply on_answer_same.
  - split; [|split].
    + intros [p i] q [Hp Hi] E. cbn [fst snd] in *. cbn in Hp. destruct p as [|[|[|p]]]; try lia; cbn in E; destruct i; try discriminate. injection E as <-. cbn. lia.
    + intros p v Hp J. cbn in Hp. destruct p as [|[|[|p]]]; try lia; cbn in J; repeat (destruct J as [<-|J]; [cbn; lia|]); destruct J.
    + intros v fan p i Hv E J. cbn in Hv. destruct v as [|[|[|[|[|[|v]]]]]]; try lia; cbn in E; injection E as <-; cbn in J; repeat (destruct J as [J|J]; [injection J as <- <-; cbn; lia|]); destruct J.
  - intros v Hv. cbn in Hv. destruct v as [|[|[|[|[|[|v]]]]]]; try lia; eexists; reflexivity.
  - apply exact_consistent.
  - intros [p f] [Hp Hf]. cbn in Hp. cbn [fst snd] in *. destruct p as [|[|[|p]]]; try lia; cbn in Hf; destruct f as [|[|[|[|f]]]]; try lia; cbn;
      (split; [discriminate|]); repeat constructor; cbn; intros K; repeat (destruct K as [K|K]; [discriminate|]); destruct K.
  - unfold below_2_32. vm_compute. reflexivity.
  - intros a b p i j [Hp Hi] [_ Hj]. cbn [fst snd] in *. cbn in Hp.
    destruct p as [|[|[|p]]]; try lia; cbn in Hi, Hj;
      destruct i as [|[|[|[|[|[|i]]]]]]; cbn in Hi; try (destruct i; destruct Hi; discriminate);
      destruct j as [|[|[|[|[|[|j]]]]]]; cbn in Hj; try (destruct j; destruct Hj; discriminate); try reflexivity; exfalso;
      destruct Hi as [Hi|Hi]; injection Hi as <- <-; destruct Hj as [Hj|Hj]; discriminate.
  - apply rv_turns; [|reflexivity]. intros [[|p] [|i]] q E; cbn in E; try discriminate. injection E as <-. reflexivity.
  - apply rv_turns; [|reflexivity]. intros [[|p] [|[|[|i]]]] q E; cbn in E; try discriminate. injection E as <-. reflexivity.
  - intros e ab e' ab' _ _ _. split; discriminate.
  - intros p Hp. cbn in Hp. destruct p as [|[|[|p]]]; try lia; split; reflexivity.
Qed.
Example rv_reports :
  (exists r, inspect_solid rn_measures exact_geo any_order "s"%string rv_solid (new_inspector false) = Ok r /\
     ii_issues (so_r_adjacency r) = [(0, 0)] /\ ii_issues (so_r_polyhedra r) = [1] /\ ii_issues (so_r_manifold_vertices r) = [1] /\
     ii_issues (so_r_manifold_edges r) = [(0, 1); (0, 2); (1, 2)] /\ ii_issues (so_r_manifold_facets r) = [[0; 1; 2]]) /\
  (exists r, inspect_solid rn_measures exact_geo any_order "s"%string rv_solid' (new_inspector false) = Ok r /\
     ii_issues (so_r_adjacency r) = [(0, 2)] /\ ii_issues (so_r_polyhedra r) = [1] /\ ii_issues (so_r_manifold_vertices r) = [1] /\
     ii_issues (so_r_manifold_edges r) = [(1, 2); (1, 0); (2, 0)] /\ ii_issues (so_r_manifold_facets r) = [[0; 1; 2]]).
Proof. split; eexists; (split; [vm_compute; reflexivity|]); repeat split. Qed.
(** facets backwards, from their vertices 1 and 2: the orders of the corners and facets are the same *)
Example rv_backwards : exists r, inspect_solid rn_measures exact_geo any_order "s"%string (turned_solid true (fun p i => p + i) (fun _ _ => true) (fun _ p => Ok [p]) rv_solid) (new_inspector false) = Ok r /\
  ii_issues (so_r_adjacency r) = [(0, 0)] /\ ii_issues (so_r_manifold_vertices r) = [1] /\ ii_issues (so_r_manifold_edges r) = [(1, 0); (2, 0); (2, 1)] /\
  ii_issues (so_r_manifold_facets r) = [[0; 1; 2]].
Proof. eexists; (split; [vm_compute; reflexivity|]); repeat split. Qed.
(** the exact volume: six times that of a tetrahedron *)
Definition rv_volume (a b c d : Point) : Q :=
  let x i (p : Point) := (value (nth i p rd_zero) - value (nth i a rd_zero))%Q in
  (x 0%nat b * (x 1%nat c * x 2%nat d - x 2%nat c * x 1%nat d) - x 1%nat b * (x 0%nat c * x 2%nat d - x 2%nat c * x 0%nat d)
   + x 2%nat b * (x 0%nat c * x 1%nat d - x 1%nat c * x 0%nat d))%Q.
Definition rv_measures : Measures := mkMeasures (fun p _ => p) (fun _ _ => far) (fun _ => false) (fun a b c d => negb (Qle_bool 0 (rv_volume a b c d))).
Example rv_signs : sign_of_volume rv_measures rv_volume /\ alternating rv_volume.
Proof.
  split.
  - intros a b c d. cbn [rv_measures ms_tetra_negative]. rewrite negb_true_iff. split; intros H.
    + apply Qnot_le_lt. intros K. apply Qle_bool_iff in K. congruence.
    + destruct (Qle_bool 0 (rv_volume a b c d)) eqn:E; [|reflexivity]. apply Qle_bool_iff in E. clear - E H. lra.
  - intros a b c d. unfold rv_volume. cbv zeta. repeat split; ring.
Qed.
(** a tetrahedron, the same with three corners turned, and with two corners swapped *)
Definition rv_o : Point := [rd_zero; rd_zero; rd_zero].
Definition rv_x : Point := [rd_one; rd_zero; rd_zero].
Definition rv_y : Point := [rd_zero; rd_one; rd_zero].
Definition rv_z : Point := [rd_zero; rd_zero; rd_one].
Example rv_swaps : swapped false [rv_o; rv_x; rv_y; rv_z] [rv_x; rv_y; rv_o; rv_z] /\ swapped true [rv_o; rv_x; rv_y; rv_z] [rv_x; rv_o; rv_y; rv_z] /\
  ms_tetra_negative rv_measures rv_o rv_x rv_y rv_z = false /\ ms_tetra_negative rv_measures rv_x rv_y rv_o rv_z = false /\
  ms_tetra_negative rv_measures rv_x rv_o rv_y rv_z = true /\ ~ (rv_volume rv_o rv_x rv_y rv_z == 0)%Q.
Proof.
  assert (S : swapped true [rv_o; rv_x; rv_y; rv_z] [rv_x; rv_o; rv_y; rv_z]) by (apply (swapped_more false _ [] rv_o rv_x [rv_y; rv_z]); constructor).
  split; [apply (swapped_more true _ [rv_x] rv_o rv_y [rv_z]); exact S|]. split; [exact S|]. repeat split; try reflexivity. vm_compute. discriminate.
Qed.
