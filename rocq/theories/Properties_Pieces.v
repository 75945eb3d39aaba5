(** C89: inspecting two meshes put in one, or each alone. *)
From Coq Require Import String Ascii List Arith NArith ZArith Bool Lia Permutation Sorted Relations Mergesort.
From Verif Require Import Base BaseFacts Model_Issues Types Model_Hash Model_Adjacency Model_Colocation Model_Manifold Model_Degeneration Model_Negative Model_Topology Model_Results Model_Intersections Spec_Intersections Proof_Intersections
  Spec_Cycles Spec_Maps Spec_Colocation Spec_Adjacency Spec_Manifold Spec_Fans Spec_Degeneration Spec_Negative Spec_Renumber Spec_Pieces Proof_Degeneration
  Proof_GoodModels Proof_Searches Properties_Manifold Proof_Renumber Proof_Renumber2 Proof_Renumber3 Proof_Renumber4 Proof_Pieces Proof_Pieces2 Proof_Pieces3 Proof_Pieces4 Properties_Renumber.
Import ListNotations.
Open Scope list_scope.

Theorem C89_point_set : forall geo n1 n2 m1 m2 w, two_clouds n1 n2 (ps_points m1) (ps_points m2) (ps_points w) -> apart geo n1 n2 (ps_points m1) (ps_points m2) (ps_points w) ->
  exists r1 r2 r, inspect_point_set geo m1 = Ok r1 /\ inspect_point_set geo m2 = Ok r2 /\ inspect_point_set geo w = Ok r /\
    both (new_group n1) (new_group n2) (pr_colocated r1) (pr_colocated r2) (pr_colocated r) /\
    pointset_nb_issues r = add32 (pointset_nb_issues r1) (pointset_nb_issues r2).
Proof.
  intros geo n1 n2 m1 m2 w T A. destruct (colocation_two geo n1 n2 _ _ _ T A) as (r1 & r2 & r & R1 & R2 & R & E).
  exists (mkPointSetResult r1), (mkPointSetResult r2), (mkPointSetResult r). unfold inspect_point_set. rewrite R1, R2, R. repeat (split; [reflexivity|]). split; [exact E|]. apply (nb_both _ _ _ _ _ _ _ E).
Qed.
Print Assumptions C89_point_set.

Theorem C89_curve : forall ms geo n1 n2 m1 m2 w, two_curves n1 n2 m1 m2 w -> apart geo n1 n2 (ec_points m1) (ec_points m2) (ec_points w) ->
  exists r1 r2 r, inspect_edged_curve ms geo m1 = Ok r1 /\ inspect_edged_curve ms geo m2 = Ok r2 /\ inspect_edged_curve ms geo w = Ok r /\
    both_curves n1 n2 r1 r2 r /\ curve_nb_issues r = add32 (curve_nb_issues r1) (curve_nb_issues r2).
Proof.
  intros ms geo n1 n2 m1 m2 w T A. pose proof (tc_first _ _ _ _ _ T) as H1. pose proof (tc_second _ _ _ _ _ T) as H2.
  destruct (colocation_two geo n1 n2 _ _ _ (conj (pc_points _ _ _ H1) (conj (pc_points _ _ _ H2) (tc_vertices _ _ _ _ _ T))) A) as (r1 & r2 & r & R1 & R2 & R & E).
  assert (K : both (new_edge n1) (new_edge n2) (curve_degenerated_edges ms geo m1) (curve_degenerated_edges ms geo m2) (curve_degenerated_edges ms geo w)).
  { destruct (pc_edges _ _ _ H1) as (N1 & _). destruct (pc_edges _ _ _ H2) as (N2 & _).
    apply (transport_two_ranges _ _ _ _ _ _ _ _ _ _ _ N1 N2 (tc_edges _ _ _ _ _ T) (curve_small_spec ms geo m1 _) (curve_small_spec ms geo m2 _) (curve_small_spec ms geo w _)).
    - intros x Hx. apply Hx.
    - intros x Hx. apply Hx.
    - intros x Hx. apply Hx.
    - intros x Hx. unfold short_curve_edge. rewrite (pc_length _ _ _ H1 x Hx). pose proof (proj1 N1 x Hx). tauto.
    - intros x Hx. unfold short_curve_edge. rewrite (pc_length _ _ _ H2 x Hx). pose proof (proj1 N2 x Hx). tauto. }
  unfold inspect_edged_curve. rewrite R1, R2, R. do 3 eexists. repeat (split; [reflexivity|]). split; [constructor; assumption|].
  unfold curve_nb_issues. cbn [assigned cr_colocated cr_edges]. apply sum32_both; [|reflexivity]. cbn [combine].
  apply Forall2_cons; [exact (nb_both _ _ _ _ _ _ _ E)|]. apply Forall2_cons; [exact (nb_both _ _ _ _ _ _ _ K)|]. apply Forall2_nil.
Qed.
Print Assumptions C89_curve.

Theorem C89_surface : forall ms geo ho1 ho2 ho name1 name2 name n1 n2 m1 m2 w st1 st2 st i1 i2 i, two_surfaces n1 n2 m1 m2 w ->
  apart geo n1 n2 (sm_points m1) (sm_points m2) (sm_points w) ->
  (forall v, v < length (sm_points m1) -> sm_around_vertex m1 v = Throw OpenGeodeExn \/ exists fan, sm_around_vertex m1 v = Ok fan) ->
  (forall v, v < length (sm_points m2) -> sm_around_vertex m2 v = Throw OpenGeodeExn \/ exists fan, sm_around_vertex m2 v = Ok fan) ->
  exists r1 r2 r, inspect_surface ms geo ho1 name1 m1 st1 (Ok i1) = Ok r1 /\ inspect_surface ms geo ho2 name2 m2 st2 (Ok i2) = Ok r2 /\ inspect_surface ms geo ho name w st (Ok i) = Ok r /\
    both_surfaces n1 n2 r1 r2 r /\
    (nb_issues i = add32 (nb_issues i1) (nb_issues i2) -> surface_nb_issues r = add32 (surface_nb_issues r1) (surface_nb_issues r2)).
Proof.
  intros ms geo ho1 ho2 ho name1 name2 name n1 n2 m1 m2 w st1 st2 st i1 i2 i T B A1 A2. pose proof (ts_first _ _ _ _ _ T) as H1. pose proof (ts_second _ _ _ _ _ T) as H2.
  destruct (colocation_two geo n1 n2 _ _ _ (conj (pi_points _ _ _ H1) (conj (pi_points _ _ _ H2) (ts_vertices _ _ _ _ _ T))) B) as (c1 & c2 & c & C1 & C2 & C & CB).
  destruct (adjacency_two n1 n2 m1 m2 w T name1 name2 name) as (a1 & a2 & a & D1 & D2 & D & AB).
  destruct (small_edges_two ms geo n1 n2 _ _ _ _ _ _ GLOBAL_EPSILON st1 st2 st (pi_points _ _ _ H1) (pi_points _ _ _ H2) (pi_edges _ _ _ H1) (pi_edges _ _ _ H2) (ts_edges _ _ _ _ _ T)) as (e1 & e2 & e & E1 & E2 & E & EB).
  destruct (manifold_vertices_two n1 n2 m1 m2 w T geo geo geo A1 A2) as (v1 & v2 & v & V1 & V2 & V & VB).
  pose proof (flat_two n1 n2 m1 m2 w T) as F. pose proof (manifold_edges_two n1 n2 m1 m2 w T ho1 ho2 ho) as M. pose proof (negative_two n1 n2 m1 m2 w T ms) as N.
  unfold inspect_surface. cbv zeta. unfold surface_degenerated_edges, impl_degenerated_edges. rewrite D1, D2, D, C1, C2, C, E1, E2, E, V1, V2, V.
  do 3 eexists. repeat (split; [reflexivity|]). split; [constructor; assumption|].
  intros I. unfold surface_nb_issues. cbn [assigned fst sr_adjacency sr_colocated sr_edges sr_polygons sr_manifold_edges sr_manifold_vertices sr_intersections sr_negative].
  apply sum32_both; [|reflexivity]. cbn [combine].
  apply Forall2_cons; [exact (nb_both _ _ _ _ _ _ _ AB)|]. apply Forall2_cons; [exact (nb_both _ _ _ _ _ _ _ CB)|]. apply Forall2_cons; [exact (nb_both _ _ _ _ _ _ _ EB)|].
  apply Forall2_cons; [exact (nb_both _ _ _ _ _ _ _ F)|]. apply Forall2_cons; [exact (nb_both _ _ _ _ _ _ _ M)|]. apply Forall2_cons; [exact (nb_both _ _ _ _ _ _ _ VB)|].
  apply Forall2_cons; [exact I|]. apply Forall2_cons; [exact (nb_both _ _ _ _ _ _ _ N)|]. apply Forall2_nil.
Qed.
Print Assumptions C89_surface.

(** the intersecting polygons of the whole are those of each piece, and the polygons of one piece that meet a polygon of the other *)
Theorem C89_intersections : forall px n1 n2 m1 m2 w c1 c2 across c r1 r2 r, two_surfaces n1 n2 m1 m2 w -> blind_test px n1 m1 w -> blind_test px n2 m2 w ->
  (forall p q, p < nb_polygons m1 -> q < nb_polygons m2 ->
    px_polygons px w (polygon_vertices w (new_element n2 q)) (polygon_vertices w (new_element n1 p)) = px_polygons px w (polygon_vertices w (new_element n1 p)) (polygon_vertices w (new_element n2 q))) ->
  candidates_of_both n1 n2 m1 m2 c1 c2 across c ->
  surface_intersecting_elements px m1 c1 r1 -> surface_intersecting_elements px m2 c2 r2 -> surface_intersecting_elements px w c r ->
  exists l1 l2 l found, r1 = Ok l1 /\ r2 = Ok l2 /\ r = Ok l /\
    lists_candidates (fun pq => px_polygons px w (polygon_vertices w (new_element n1 (fst pq))) (polygon_vertices w (new_element n2 (snd pq))) = true) across found /\
    Permutation (map undirected (ii_issues l)) (map (new_polygons n1) (ii_issues l1) ++ map (new_polygons n2) (ii_issues l2) ++
      map (fun pq => undirected (new_element n1 (fst pq), new_element n2 (snd pq))) found).
Proof.
  intros px n1 n2 m1 m2 w c1 c2 across c r1 r2 r T B1 B2 S C R1 R2 R.
  destruct (surface_list px m1 c1 r1 R1) as (l1 & -> & L1). destruct (surface_list px m2 c2 r2 R2) as (l2 & -> & L2). destruct (surface_list px w c r R) as (l & -> & L).
  destruct (candidates_two px n1 n2 m1 m2 w T B1 B2 S c1 c2 across c _ _ _ C L1 L2 L) as (found & F & P). exists l1, l2, l, found. auto.
Qed.
Print Assumptions C89_intersections.
(** if the boxes of the two pieces do not meet, nothing is added *)
Theorem C89_far_pieces : forall px n1 n2 m1 m2 w c1 c2 c r1 r2 r, two_surfaces n1 n2 m1 m2 w -> blind_test px n1 m1 w -> blind_test px n2 m2 w ->
  (forall p q, p < nb_polygons m1 -> q < nb_polygons m2 ->
    px_polygons px w (polygon_vertices w (new_element n2 q)) (polygon_vertices w (new_element n1 p)) = px_polygons px w (polygon_vertices w (new_element n1 p)) (polygon_vertices w (new_element n2 q))) ->
  candidates_of_both n1 n2 m1 m2 c1 c2 [] c ->
  surface_intersecting_elements px m1 c1 r1 -> surface_intersecting_elements px m2 c2 r2 -> surface_intersecting_elements px w c r ->
  exists l1 l2 l, r1 = Ok l1 /\ r2 = Ok l2 /\ r = Ok l /\ nb_issues l = add32 (nb_issues l1) (nb_issues l2) /\
    Permutation (map undirected (ii_issues l)) (map (new_polygons n1) (ii_issues l1) ++ map (new_polygons n2) (ii_issues l2)).
Proof.
  intros px n1 n2 m1 m2 w c1 c2 c r1 r2 r T B1 B2 S C R1 R2 R. destruct (C89_intersections px n1 n2 m1 m2 w c1 c2 [] c r1 r2 r T B1 B2 S C R1 R2 R) as (l1 & l2 & l & found & E1 & E2 & E & F & P).
  assert (found = []) as -> by (destruct found as [|x found]; [reflexivity|]; destruct (proj1 F x) as [F1 _]; destruct (F1 (or_introl eq_refl)) as [[] _]).
  cbn [map app] in P. rewrite app_nil_r in P. exists l1, l2, l. repeat (split; [assumption|]). split; [|exact P].
  apply Permutation_length in P. rewrite app_length, !map_length in P. unfold nb_issues, size32, add32, u32. rewrite P, Nat2N.inj_add. rewrite <- N.add_mod by discriminate. reflexivity.
Qed.
Print Assumptions C89_far_pieces.

Theorem C89_solid : forall ms geo ho1 ho2 ho name1 name2 name n1 n2 m1 m2 w st1 st2 st, two_solids n1 n2 m1 m2 w ->
  apart geo n1 n2 (so_points m1) (so_points m2) (so_points w) ->
  (forall v, v < length (so_points m1) -> exists fan, so_around_vertex m1 v = Ok fan) -> (forall v, v < length (so_points m2) -> exists fan, so_around_vertex m2 v = Ok fan) ->
  simple_facets m1 -> simple_facets m2 -> below_2_32 (length (all_polyhedron_facets w)) -> simple_edges m1 -> simple_edges m2 ->
  turns_around_solid_edges m1 -> turns_around_solid_edges m2 -> turns_around_solid_edges w -> same_failures n1 m1 w -> same_failures n2 m2 w ->
  exists r1 r2 r, inspect_solid ms geo ho1 name1 m1 st1 = Ok r1 /\ inspect_solid ms geo ho2 name2 m2 st2 = Ok r2 /\ inspect_solid ms geo ho name w st = Ok r /\
    both_solids n1 n2 r1 r2 r /\ solid_nb_issues r = add32 (solid_nb_issues r1) (solid_nb_issues r2).
Proof.
  intros ms geo ho1 ho2 ho name1 name2 name n1 n2 m1 m2 w st1 st2 st T B A1 A2 SF1 SF2 BF SE1 SE2 T1 T2 T3 W1 W2.
  pose proof (to_first _ _ _ _ _ T) as H1. pose proof (to_second _ _ _ _ _ T) as H2.
  destruct (colocation_two geo n1 n2 _ _ _ (conj (po_points _ _ _ H1) (conj (po_points _ _ _ H2) (to_vertices _ _ _ _ _ T))) B) as (c1 & c2 & c & C1 & C2 & C & CB).
  destruct (so_adjacency_two n1 n2 m1 m2 w T name1 name2 name SF1 SF2) as (a1 & a2 & a & D1 & D2 & D & AB).
  destruct (small_edges_two ms geo n1 n2 _ _ _ _ _ _ GLOBAL_EPSILON st1 st2 st (po_points _ _ _ H1) (po_points _ _ _ H2) (po_edges _ _ _ H1) (po_edges _ _ _ H2) (to_edges _ _ _ _ _ T)) as (e1 & e2 & e & E1 & E2 & E & EB).
  destruct (so_vertices_two n1 n2 m1 m2 w T geo geo geo A1 A2) as (v1 & v2 & v & V1 & V2 & V & VB).
  destruct (solid_edges_two n1 n2 m1 m2 w T SE1 SE2 T1 T2 T3 W1 W2) as (d1 & d2 & d & G1 & G2 & G & GB).
  pose proof (flat_polyhedra_two n1 n2 m1 m2 w T) as F. pose proof (facets_two n1 n2 m1 m2 w T ho1 ho2 ho SF1 SF2 BF) as M. pose proof (negative_polyhedra_two n1 n2 m1 m2 w T ms) as N.
  unfold inspect_solid. cbv zeta. unfold solid_degenerated_edges, impl_degenerated_edges. rewrite D1, D2, D, C1, C2, C, E1, E2, E, V1, V2, V, G1, G2, G.
  do 3 eexists. repeat (split; [reflexivity|]). split; [constructor; assumption|].
  assert (X : forall a b k : nat, k = a + b -> u32 (N.of_nat k) = add32 (u32 (N.of_nat a)) (u32 (N.of_nat b))).
  { intros x y z ->. unfold add32, u32. rewrite Nat2N.inj_add. rewrite <- N.add_mod by discriminate. reflexivity. }
  assert (D4 : nb_issues d = add32 (nb_issues d1) (nb_issues d2)).
  { unfold nb_issues, size32. apply X. apply Permutation_length in GB. rewrite app_length, !map_length in GB. exact GB. }
  assert (M4 : nb_issues (solid_non_manifold_facets ho w) = add32 (nb_issues (solid_non_manifold_facets ho1 m1)) (nb_issues (solid_non_manifold_facets ho2 m2))).
  { unfold nb_issues, size32. apply X. destruct M as (l1 & l2 & M1 & M2 & M3). apply Permutation_length in M1. rewrite app_length in M1.
    rewrite (proj1 (images_at _ _ _ _ _ M2)), (proj1 (images_at _ _ _ _ _ M3)) in M1. exact M1. }
  unfold solid_nb_issues. cbn [assigned fst so_r_adjacency so_r_colocated so_r_edges so_r_polyhedra so_r_manifold_vertices so_r_manifold_edges so_r_manifold_facets so_r_negative].
  apply sum32_both; [|reflexivity]. cbn [combine].
  apply Forall2_cons; [exact (nb_both _ _ _ _ _ _ _ AB)|]. apply Forall2_cons; [exact (nb_both _ _ _ _ _ _ _ CB)|]. apply Forall2_cons; [exact (nb_both _ _ _ _ _ _ _ EB)|].
  apply Forall2_cons; [exact (nb_both _ _ _ _ _ _ _ F)|]. apply Forall2_cons; [exact (nb_both _ _ _ _ _ _ _ VB)|]. apply Forall2_cons; [exact D4|].
  apply Forall2_cons; [exact M4|]. apply Forall2_cons; [exact (nb_both _ _ _ _ _ _ _ N)|]. apply Forall2_nil.
Qed.
Print Assumptions C89_solid.

(** ** Any two surfaces of the same dimension can be put together *)
Lemma by_first : forall A k (f g : nat -> A) x, x < k -> by_piece k f g x = f x.
Proof. intros A k f g x H. unfold by_piece. rewrite (proj2 (Nat.ltb_lt x k) H). reflexivity. Qed.
Lemma by_second : forall A k (f g : nat -> A) x, by_piece k f g (k + x) = g x.
Proof. intros A k f g x. unfold by_piece. rewrite (proj2 (Nat.ltb_ge (k + x) k)) by lia. f_equal. lia. Qed.
Lemma kept_injects : forall a b, injects a (a + b) (fun x => x).
Proof. intros a b. split; [intros i Hi; lia|intros i j _ _ E; exact E]. Qed.
Lemma after_injects : forall a b, injects b (a + b) (fun x => a + x).
Proof. intros a b. split; [intros i Hi; lia|intros i j _ _ E; lia]. Qed.
Lemma both_share : forall a b, shared_out (a + b) a b (fun x => x) (fun x => a + x).
Proof.
  intros a b. split; [|intros x y Hx Hy; lia]. intros y Hy. destruct (Nat.lt_ge_cases y a); [left; exists y; auto|right; exists (y - a)]. split; lia.
Qed.
Lemma kept_answer : forall o : outcome (list (nat * nat)), same_answer (new_corner kept) o o.
Proof.
  intros [l|x|]; cbn; [|reflexivity|exact I]. replace (map (new_corner kept) l) with l; [apply Permutation_refl|]. rewrite <- (map_id l) at 1. apply map_ext. intros [p e]. reflexivity.
Qed.
Lemma after_answer : forall v p e o, same_answer (new_corner (after v p e)) o (shift_answer p o).
Proof. intros v p e [l|x|]; cbn; [apply Permutation_refl|reflexivity|exact I]. Qed.
Theorem C89_together : forall m1 m2, closed_surface m1 -> closed_surface m2 -> sm_dimension m1 = sm_dimension m2 ->
  two_surfaces kept (after (length (sm_points m1)) (nb_polygons m1) (length (sm_edges m1))) m1 m2 (surfaces_together m1 m2).
Proof.
  intros m1 m2 C1 C2 D.
  assert (LV : length (sm_points (surfaces_together m1 m2)) = length (sm_points m1) + length (sm_points m2)) by apply app_length.
  assert (LP : nb_polygons (surfaces_together m1 m2) = nb_polygons m1 + nb_polygons m2) by (unfold nb_polygons; cbn [surfaces_together sm_polygons]; rewrite app_length, map_length; reflexivity).
  assert (LE : length (sm_edges (surfaces_together m1 m2)) = length (sm_edges m1) + length (sm_edges m2)) by (cbn [surfaces_together sm_edges]; rewrite app_length, map_length; reflexivity).
  assert (P1 : forall p, p < nb_polygons m1 -> polygon_vertices (surfaces_together m1 m2) p = polygon_vertices m1 p).
  { intros p Hp. unfold polygon_vertices. cbn [surfaces_together sm_polygons]. apply app_nth1. exact Hp. }
  assert (P2 : forall p, p < nb_polygons m2 -> polygon_vertices (surfaces_together m1 m2) (nb_polygons m1 + p) = map (fun x => length (sm_points m1) + x) (polygon_vertices m2 p)).
  { intros p Hp. unfold polygon_vertices. cbn [surfaces_together sm_polygons]. unfold nb_polygons. rewrite app_nth2_plus. apply (nth_map_in _ _ (map (fun x => length (sm_points m1) + x)) (sm_polygons m2) p [] [] Hp). }
  constructor.
  - constructor; cbn [kept new_vertex new_element new_edge].
    + reflexivity.
    + split; cbn [kept new_vertex]; [rewrite LV; apply kept_injects|]. intros v Hv. apply nth_error_app1. exact Hv.
    + split; cbn [kept new_edge new_vertex]; [rewrite LE; apply kept_injects|]. intros k a b E. destruct (cs_edges _ C1 a b (nth_error_In _ _ E)) as [Ha Hb]. repeat (split; [assumption|]).
      cbn [surfaces_together sm_edges]. rewrite nth_error_app1; [exact E|]. apply nth_error_Some. congruence.
    + rewrite LP. apply kept_injects.
    + intros p Hp. rewrite P1 by exact Hp. rewrite map_id. split; [reflexivity|]. intros v. apply (cs_polygons _ C1 p v Hp).
    + intros p e Hp He. cbn [surfaces_together sm_adjacent fst snd]. rewrite by_first by exact Hp. split; [destruct (sm_adjacent m1 (p, e)); reflexivity|]. intros q. apply (cs_adjacent _ C1 p e q Hp He).
    + intros p Hp. cbn [surfaces_together sm_minimum_height]. apply by_first. exact Hp.
    + intros v Hv. cbn [surfaces_together sm_around_vertex]. rewrite by_first by exact Hv. split; [apply kept_answer|]. intros fan p e. apply (cs_around _ C1 v fan p e Hv).
  - constructor; cbn [after new_vertex new_element new_edge].
    + exact D.
    + split; cbn [after new_vertex]; [rewrite LV; apply after_injects|]. intros v Hv. cbn [surfaces_together sm_points]. rewrite nth_error_app2 by lia. f_equal. lia.
    + split; cbn [after new_edge new_vertex]; [rewrite LE; apply after_injects|]. intros k a b E. destruct (cs_edges _ C2 a b (nth_error_In _ _ E)) as [Ha Hb]. repeat (split; [assumption|]).
      cbn [surfaces_together sm_edges]. rewrite nth_error_app2 by lia. replace (length (sm_edges m1) + k - length (sm_edges m1)) with k by lia. rewrite nth_error_map, E. reflexivity.
    + rewrite LP. apply after_injects.
    + intros p Hp. rewrite P2 by exact Hp. split; [reflexivity|]. intros v. apply (cs_polygons _ C2 p v Hp).
    + intros p e Hp He. cbn [surfaces_together sm_adjacent fst snd]. rewrite by_second. split; [reflexivity|]. intros q. apply (cs_adjacent _ C2 p e q Hp He).
    + intros p Hp. cbn [surfaces_together sm_minimum_height]. apply by_second.
    + intros v Hv. cbn [surfaces_together sm_around_vertex]. rewrite by_second. split; [apply after_answer|]. intros fan p e. apply (cs_around _ C2 v fan p e Hv).
  - rewrite LV. apply both_share.
  - rewrite LP. apply both_share.
  - rewrite LE. apply both_share.
Qed.
Print Assumptions C89_together.

(** ** Examples *)
(** the mesh of the example of C73 (a one-sided adjacency, two vertices at one place, a short stored edge, a flat triangle) beside the same mesh
    moved aside: each piece has its issues, the whole has them all *)
Definition pi_aside : SurfaceMesh :=
  mkSurface 3 [pt 5; pt 6; pt 7; pt 5] (sm_polygons rn_surface) (sm_adjacent rn_surface) (sm_edges rn_surface) (sm_polygon_degenerated rn_surface)
    (sm_minimum_height rn_surface) (sm_around_vertex rn_surface) (sm_vertex_on_border rn_surface).
Lemma pi_closed : forall points, length points = 4 ->
  closed_surface (mkSurface 3 points (sm_polygons rn_surface) (sm_adjacent rn_surface) (sm_edges rn_surface) (sm_polygon_degenerated rn_surface)
    (sm_minimum_height rn_surface) (sm_around_vertex rn_surface) (sm_vertex_on_border rn_surface)).
Proof.
  intros points L. constructor; cbn [sm_points sm_edges sm_adjacent sm_around_vertex]; rewrite ?L.
  - intros p v Hp. cbn in Hp. destruct p as [|[|p]]; try lia; cbn; intros [<-|[<-|[<-|[]]]]; lia.
  - intros a b [E|[E|[]]]; injection E as <- <-; lia.
  - intros p e q Hp He. cbn in Hp. destruct p as [|[|p]]; try lia; cbn in He; destruct e as [|[|[|e]]]; try lia; cbn; intros E; try discriminate; injection E as <-; lia.
  - intros v fan p e Hv E I. destruct v as [|[|[|[|v]]]]; try lia; cbn in E; injection E as <-; cbn in I; repeat (destruct I as [I|I]; [injection I as <- <-; cbn; lia|]); destruct I.
Qed.
Definition pi_both : SurfaceMesh := surfaces_together rn_surface pi_aside.
Example pi_surfaces_hypotheses : two_surfaces kept (after 4 2 2) rn_surface pi_aside pi_both /\
  apart exact_geo kept (after 4 2 2) (sm_points rn_surface) (sm_points pi_aside) (sm_points pi_both) /\
  (forall v, v < 4 -> exists fan, sm_around_vertex rn_surface v = Ok fan) /\ (forall v, v < 4 -> exists fan, sm_around_vertex pi_aside v = Ok fan).
Proof.
  split; [|split; [|split]].
  - apply (C89_together rn_surface pi_aside); [apply (pi_closed (sm_points rn_surface)); reflexivity|apply pi_closed; reflexivity|reflexivity].
  - split; [apply exact_consistent|]. split; [apply exact_consistent|]. split; [apply exact_consistent|]. split; [|split].
    + intros i j Hi Hj. cbn in Hi, Hj. destruct i as [|[|[|[|i]]]]; try lia; destruct j as [|[|[|[|j]]]]; try lia; unfold same_place;
        (split; intros (u & A & B); vm_compute in A, B; first [discriminate|congruence|(injection A as <-; first [discriminate|(eexists; split; vm_compute; reflexivity)])]).
    + intros i j Hi Hj. cbn in Hi, Hj. destruct i as [|[|[|[|i]]]]; try lia; destruct j as [|[|[|[|j]]]]; try lia; unfold same_place;
        (split; intros (u & A & B); vm_compute in A, B; first [discriminate|congruence|(injection A as <-; first [discriminate|(eexists; split; vm_compute; reflexivity)])]).
    + intros i j Hi Hj. cbn in Hi, Hj. destruct i as [|[|[|[|i]]]]; try lia; destruct j as [|[|[|[|j]]]]; try lia; unfold same_place;
        intros (u & A & B); vm_compute in A, B; congruence.
  - intros v Hv. destruct v as [|[|[|[|v]]]]; try lia; eexists; reflexivity.
  - intros v Hv. destruct v as [|[|[|[|v]]]]; try lia; eexists; reflexivity.
Qed.
Example pi_surfaces_report :
  exists r, inspect_surface rn_measures exact_geo any_order "s"%string pi_both (new_inspector false) (Ok (new_issues ""%string)) = Ok r /\
     ii_issues (sr_adjacency r) = [(0, 1); (2, 1)] /\ ii_issues (sr_colocated r) = [[0; 3]; [4; 7]] /\ ii_issues (sr_edges r) = [1; 3] /\ ii_issues (sr_polygons r) = [1; 3] /\
     ii_issues (sr_manifold_edges r) = [(1, 2); (5, 6)] /\ ii_issues (sr_manifold_vertices r) = [2; 6].
Proof. eexists. split; [vm_compute; reflexivity|]. repeat split. Qed.

(** in each piece the two triangles share vertices and the test of the example meets them; no triangle of one piece meets one of the other, though
    the pair (0, 2) is tried *)
Example pi_intersections :
  blind_test rn_px kept rn_surface pi_both /\ blind_test rn_px (after 4 2 2) pi_aside pi_both /\
  (forall p q, p < nb_polygons rn_surface -> q < nb_polygons pi_aside ->
    px_polygons rn_px pi_both (polygon_vertices pi_both (2 + q)) (polygon_vertices pi_both p) = px_polygons rn_px pi_both (polygon_vertices pi_both p) (polygon_vertices pi_both (2 + q))) /\
  candidates_of_both kept (after 4 2 2) rn_surface pi_aside [(0, 1)] [(1, 0)] [(0, 0)] [(3, 2); (0, 1); (2, 0)] /\
  surface_intersecting_elements rn_px rn_surface [(0, 1)] (Ok (self_intersections_issues [(0, 1)])) /\
  surface_intersecting_elements rn_px pi_aside [(1, 0)] (Ok (self_intersections_issues [(1, 0)])) /\
  surface_intersecting_elements rn_px pi_both [(3, 2); (0, 1); (2, 0)] (Ok (self_intersections_issues [(3, 2); (0, 1)])).
Proof.
  split; [|split; [|split; [|split; [|split; [|split]]]]].
  - intros p q Hp Hq. cbn in Hp, Hq. destruct p as [|[|p]]; try lia; destruct q as [|[|q]]; try lia; split; reflexivity.
  - intros p q Hp Hq. cbn in Hp, Hq. destruct p as [|[|p]]; try lia; destruct q as [|[|q]]; try lia; split; reflexivity.
  - intros p q Hp Hq. cbn in Hp, Hq. destruct p as [|[|p]]; try lia; destruct q as [|[|q]]; try lia; reflexivity.
  - split; [|split; [|split]]; try (intros p q [E|[]]; injection E as <- <-; cbn; lia). cbn. apply perm_swap.
  - exists (Ok [(0, 1)]). split; [|reflexivity]. eapply tr_visit; [apply Permutation_refl|reflexivity|]. apply tr_all_visited.
  - exists (Ok [(1, 0)]). split; [|reflexivity]. eapply tr_visit; [apply Permutation_refl|reflexivity|]. apply tr_all_visited.
  - exists (Ok [(3, 2); (0, 1)]). split; [|reflexivity]. do 3 (eapply tr_visit; [apply Permutation_refl|reflexivity|]). apply tr_all_visited.
Qed.

(** a curve with an edge between two vertices of one place, beside another curve, their vertices and edges in turn *)
Definition pi_turn1 : Numbering := mkNumbering (fun v => 2 * v) (fun p => p) (fun e => 2 * e).
Definition pi_turn2 : Numbering := mkNumbering (fun v => 2 * v + 1) (fun p => p) (fun e => 2 * e + 1).
Definition pi_length (k : nat) : double := match k with 0 => far | _ => rn_zero end.
Definition pi_curve1 : EdgedCurve := mkCurve [pt 0; pt 1; pt 0] [(0, 1); (0, 2)] pi_length (fun _ => false).
Definition pi_curve2 : EdgedCurve := mkCurve [pt 4; pt 5; pt 5] [(1, 0); (1, 2)] pi_length (fun _ => false).
Definition pi_curves : EdgedCurve :=
  mkCurve [pt 0; pt 4; pt 1; pt 5; pt 0; pt 5] [(0, 2); (3, 1); (0, 4); (3, 5)] (fun k => match k with 0 | 1 => far | _ => rn_zero end) (fun _ => false).
Example pi_curves_hypotheses : two_curves pi_turn1 pi_turn2 pi_curve1 pi_curve2 pi_curves /\
  apart exact_geo pi_turn1 pi_turn2 (ec_points pi_curve1) (ec_points pi_curve2) (ec_points pi_curves).
Proof.
  split.
  - constructor.
    + constructor.
      * split; [split; cbn; intros; lia|]. intros v Hv. cbn in Hv. destruct v as [|[|[|v]]]; try lia; reflexivity.
      * split; [split; cbn; intros; lia|]. intros k a b E. destruct k as [|[|k]]; [| |destruct k; discriminate]; cbn in E; injection E as <- <-; cbn; (split; [lia|]; split; [lia|reflexivity]).
      * intros k Hk. cbn in Hk. destruct k as [|[|k]]; try lia; reflexivity.
    + constructor.
      * split; [split; cbn; intros; lia|]. intros v Hv. cbn in Hv. destruct v as [|[|[|v]]]; try lia; reflexivity.
      * split; [split; cbn; intros; lia|]. intros k a b E. destruct k as [|[|k]]; [| |destruct k; discriminate]; cbn in E; injection E as <- <-; cbn; (split; [lia|]; split; [lia|reflexivity]).
      * intros k Hk. cbn in Hk. destruct k as [|[|k]]; try lia; reflexivity.
    + cbn [pi_turn1 pi_turn2 new_vertex]. split; [|intros; lia]. intros y Hy. cbn in Hy.
      destruct y as [|[|[|[|[|[|y]]]]]]; try lia; [left; exists 0|right; exists 0|left; exists 1|right; exists 1|left; exists 2|right; exists 2]; cbn; lia.
    + cbn [pi_turn1 pi_turn2 new_edge]. split; [|intros; lia]. intros y Hy. cbn in Hy.
      destruct y as [|[|[|[|y]]]]; try lia; [left; exists 0|right; exists 0|left; exists 1|right; exists 1]; cbn; lia.
  - split; [apply exact_consistent|]. split; [apply exact_consistent|]. split; [apply exact_consistent|]. split; [|split].
    + intros i j Hi Hj. cbn in Hi, Hj. destruct i as [|[|[|i]]]; try lia; destruct j as [|[|[|j]]]; try lia; unfold same_place;
        (split; intros (u & A & B); vm_compute in A, B; first [discriminate|congruence|(injection A as <-; first [discriminate|(eexists; split; vm_compute; reflexivity)])]).
    + intros i j Hi Hj. cbn in Hi, Hj. destruct i as [|[|[|i]]]; try lia; destruct j as [|[|[|j]]]; try lia; unfold same_place;
        (split; intros (u & A & B); vm_compute in A, B; first [discriminate|congruence|(injection A as <-; first [discriminate|(eexists; split; vm_compute; reflexivity)])]).
    + intros i j Hi Hj. cbn in Hi, Hj. destruct i as [|[|[|i]]]; try lia; destruct j as [|[|[|j]]]; try lia; unfold same_place;
        intros (u & A & B); vm_compute in A, B; congruence.
Qed.
Example pi_curves_report :
  exists r, inspect_edged_curve rn_measures exact_geo pi_curves = Ok r /\ ii_issues (cr_colocated r) = [[0; 4]; [3; 5]] /\ ii_issues (cr_edges r) = [2; 3].
Proof. eexists. split; [vm_compute; reflexivity|]. repeat split. Qed.

(** the two tetrahedra of the example of C73, that share only an edge, beside a flat tetrahedron *)
Definition pi_tetrahedron : SolidMesh :=
  mkSolid [pt 6; pt 7; pt 8; pt 9] [tet 0 1 2 3] (fun _ => None) [(2, 3)] (fun _ => false) (fun _ => rn_zero) (fun _ => far)
    (fun v => Ok [(0, v)]) (fun _ p => Ok [p]).
Definition pi_solids : SolidMesh :=
  mkSolid [pt 0; pt 1; pt 2; pt 3; pt 4; pt 5; pt 6; pt 7; pt 8; pt 9] [tet 0 1 2 3; tet 0 1 4 5; tet 6 7 8 9] (fun _ => None) [(0, 1); (8, 9)] (fun _ => false)
    (fun p => match p with 0 => far | _ => rn_zero end) (fun _ => far)
    (fun v => match v with 0 => Ok [(0, 0)] | 1 => Ok [(0, 1); (1, 1)] | 2 => Ok [(0, 2)] | 3 => Ok [(0, 3)] | 4 => Ok [(1, 2)] | 5 => Ok [(1, 3)] | _ => Ok [(2, v - 6)] end)
    (fun _ p => Ok [p]).
Example pi_solids_hypotheses : two_solids kept (after 6 2 1) rn_solid pi_tetrahedron pi_solids /\
  apart exact_geo kept (after 6 2 1) (so_points rn_solid) (so_points pi_tetrahedron) (so_points pi_solids) /\
  (forall v, v < length (so_points rn_solid) -> exists fan, so_around_vertex rn_solid v = Ok fan) /\
  (forall v, v < length (so_points pi_tetrahedron) -> exists fan, so_around_vertex pi_tetrahedron v = Ok fan) /\
  simple_facets rn_solid /\ simple_facets pi_tetrahedron /\ below_2_32 (length (all_polyhedron_facets pi_solids)) /\ simple_edges rn_solid /\ simple_edges pi_tetrahedron /\
  turns_around_solid_edges rn_solid /\ turns_around_solid_edges pi_tetrahedron /\ turns_around_solid_edges pi_solids /\
  same_failures kept rn_solid pi_solids /\ same_failures (after 6 2 1) pi_tetrahedron pi_solids.
Proof.
  destruct rn_solid_hypotheses as (_ & _ & A & F & _ & E & T & _ & _).
  split; [|split; [|split; [exact A|split; [|split; [exact F|split; [|split; [|split; [exact E|split; [|split; [exact T|split; [|split; [|split]]]]]]]]]]]].
  - constructor.
    + constructor.
      * split; [exact (kept_injects 6 4)|]. intros v Hv. cbn in Hv. destruct v as [|[|[|[|[|[|v]]]]]]; try lia; reflexivity.
      * split; [exact (kept_injects 1 1)|]. intros k a b K. destruct k as [|k]; [|destruct k; discriminate]; cbn in K; injection K as <- <-; cbn; (split; [lia|]; split; [lia|reflexivity]).
      * exact (kept_injects 2 1).
      * intros p Hp. cbn in Hp. destruct p as [|[|p]]; try lia; (split; [reflexivity|]); cbn; intros v K; repeat (destruct K as [<-|K]; [lia|]); destruct K.
      * intros p Hp. cbn in Hp. destruct p as [|[|p]]; try lia; (split; [reflexivity|]); cbn; intros f v K J; repeat (destruct K as [<-|K]; [cbn in J; repeat (destruct J as [<-|J]; [lia|]); destruct J|]); destruct K.
      * intros p Hp. cbn in Hp. destruct p as [|[|p]]; try lia; (split; [reflexivity|]); cbn; intros a b K; repeat (destruct K as [K|K]; [injection K as <- <-; lia|]); destruct K.
      * intros p f Hp Hf. split; [reflexivity|]. discriminate.
      * intros p Hp. cbn in Hp. destruct p as [|[|p]]; try lia; reflexivity.
      * intros p Hp. reflexivity.
      * intros v Hv. cbn in Hv. destruct v as [|[|[|[|[|[|v]]]]]]; try lia; (split; [cbn; apply Permutation_refl|]); cbn; intros fan p e K I; injection K as <-;
          cbn in I; repeat (destruct I as [I|I]; [injection I as <- <-; lia|]); destruct I.
    + constructor.
      * split; [exact (after_injects 6 4)|]. intros v Hv. cbn in Hv. destruct v as [|[|[|[|v]]]]; try lia; reflexivity.
      * split; [exact (after_injects 1 1)|]. intros k a b K. destruct k as [|k]; [|destruct k; discriminate]; cbn in K; injection K as <- <-; cbn; (split; [lia|]; split; [lia|reflexivity]).
      * exact (after_injects 2 1).
      * intros p Hp. cbn in Hp. destruct p as [|p]; try lia; (split; [reflexivity|]); cbn; intros v K; repeat (destruct K as [<-|K]; [lia|]); destruct K.
      * intros p Hp. cbn in Hp. destruct p as [|p]; try lia; (split; [reflexivity|]); cbn; intros f v K J; repeat (destruct K as [<-|K]; [cbn in J; repeat (destruct J as [<-|J]; [lia|]); destruct J|]); destruct K.
      * intros p Hp. cbn in Hp. destruct p as [|p]; try lia; (split; [reflexivity|]); cbn; intros a b K; repeat (destruct K as [K|K]; [injection K as <- <-; lia|]); destruct K.
      * intros p f Hp Hf. split; [reflexivity|]. discriminate.
      * intros p Hp. cbn in Hp. destruct p as [|p]; try lia; reflexivity.
      * intros p Hp. reflexivity.
      * intros v Hv. cbn in Hv. destruct v as [|[|[|[|v]]]]; try lia; (split; [cbn; apply Permutation_refl|]); cbn; intros fan p e K I; injection K as <-;
          cbn in I; repeat (destruct I as [I|I]; [injection I as <- <-; lia|]); destruct I.
    + exact (both_share 6 4).
    + exact (both_share 2 1).
    + exact (both_share 1 1).
  - split; [apply exact_consistent|]. split; [apply exact_consistent|]. split; [apply exact_consistent|]. split; [|split].
    + intros i j Hi Hj. cbn in Hi, Hj. destruct i as [|[|[|[|[|[|i]]]]]]; try lia; destruct j as [|[|[|[|[|[|j]]]]]]; try lia; unfold same_place;
        (split; intros (u & B & C); vm_compute in B, C; first [discriminate|congruence|(injection B as <-; first [discriminate|(eexists; split; vm_compute; reflexivity)])]).
    + intros i j Hi Hj. cbn in Hi, Hj. destruct i as [|[|[|[|i]]]]; try lia; destruct j as [|[|[|[|j]]]]; try lia; unfold same_place;
        (split; intros (u & B & C); vm_compute in B, C; first [discriminate|congruence|(injection B as <-; first [discriminate|(eexists; split; vm_compute; reflexivity)])]).
    + intros i j Hi Hj. cbn in Hi, Hj. destruct i as [|[|[|[|[|[|i]]]]]]; try lia; destruct j as [|[|[|[|j]]]]; try lia; unfold same_place;
        intros (u & B & C); vm_compute in B, C; congruence.
  - intros v Hv. eexists. reflexivity.
  - intros [p f] [Hp Hf]. cbn in Hp. cbn [fst snd] in *. destruct p as [|p]; try lia; cbn in Hf; destruct f as [|[|[|[|f]]]]; try lia; cbn;
      (split; [discriminate|]); repeat constructor; cbn; intros K; repeat (destruct K as [K|K]; [discriminate|]); destruct K.
  - unfold below_2_32. vm_compute. reflexivity.
  - intros a b p i j [Hp Hi] [_ Hj]. cbn [fst snd] in *. cbn in Hp.
    destruct p as [|p]; try lia; cbn in Hi, Hj;
      destruct i as [|[|[|[|[|[|i]]]]]]; cbn in Hi; try (destruct i; destruct Hi; discriminate);
      destruct j as [|[|[|[|[|[|j]]]]]]; cbn in Hj; try (destruct j; destruct Hj; discriminate); try reflexivity; exfalso;
      destruct Hi as [Hi|Hi]; injection Hi as <- <-; destruct Hj as [Hj|Hj]; discriminate.
  - apply rn_turns; reflexivity.
  - apply rn_turns; reflexivity.
  - intros e ab e' ab' _ _ _. split; discriminate.
  - intros e ab e' ab' _ _ _. split; discriminate.
Qed.
Example pi_solids_report :
  exists r, inspect_solid rn_measures exact_geo any_order "s"%string pi_solids (new_inspector false) = Ok r /\
     ii_issues (so_r_polyhedra r) = [1; 2] /\ ii_issues (so_r_manifold_vertices r) = [0] /\ ii_issues (so_r_manifold_edges r) = [(0, 1)].
Proof. eexists. split; [vm_compute; reflexivity|]. repeat split. Qed.
