(** Moving a mesh: the same issues are found. *)
From Coq Require Import String Ascii List Arith NArith ZArith Bool Lia Permutation.
From Verif Require Import Base BaseFacts Model_Issues Types Model_Hash Model_Adjacency Model_Colocation Model_Degeneration Model_Manifold Model_Intersections Model_Negative Model_Topology
  Model_BRep Model_Blocks Model_Results Spec_Colocation Spec_Degeneration Spec_Rename Spec_Moved Proof_Messages Proof_Degeneration Proof_Degeneration2 Proof_Order Proof_Order2 Proof_Order5
  Proof_Rename7 Proof_Rename9 Proof_Moved.
Import ListNotations.
Open Scope list_scope.

Definition out {T} (x y : outcome (InspectionIssues T)) : Prop := ends_alike same_found x y.
Lemma found_fold : forall A T (F F' : InspectionIssues T -> A -> InspectionIssues T), (forall x a a', same_found a a' -> same_found (F a x) (F' a' x)) ->
  forall l a a', same_found a a' -> same_found (fold_left F l a) (fold_left F' l a').
Proof. intros A T F F' E l. induction l as [|x l IH]; intros a a' K; [exact K|]. cbn [fold_left]. apply IH, E, K. Qed.
Lemma status_alike : forall A (Q : A -> A -> Prop) x y, ends_alike Q x y -> status y = status x.
Proof. intros A Q [a|e|] [b|e'|] E; cbn in *; try contradiction; try reflexivity. rewrite E. reflexivity. Qed.
Lemma assigned_alike : forall T (d d' : InspectionIssues T) x y, same_found d d' -> ends_alike same_found x y -> same_found (assigned d x) (assigned d' y).
Proof. intros T d d' [a|e|] [b|e'|] D E; cbn in *; try contradiction; assumption. Qed.

Section Moving.
Context (g : Point -> Point) (ms ms' : Measures) (geo geo' : Geometry) (GF : geometry_follows g geo geo') (MF : measures_follow g ms ms').
Lemma nth_moved : forall i points, nth i (map g points) [] = g (nth i points []).
Proof. intros i points. rewrite <- (mf_none g ms ms' MF) at 1. apply map_nth. Qed.
Lemma w_groups : forall points, out (colocated_points_groups geo points) (colocated_points_groups geo' (map g points)).
Proof.
  intros points. unfold colocated_points_groups. cbv zeta. unfold mesh_points_colocated_info, nb_unique_points. rewrite (gf_mapping g geo geo' GF), (gf_number g geo geo' GF).
  apply (ends_bind _ _ eq); [apply ends_refl|]. intros b b' <-. apply found_loop; [|reflexivity]. intros x a a' A.
  set (k := nth (nth 0 x 0) (colocated_mapping (g_colocated geo points)) 0). pose proof (gf_number g geo geo' GF points) as N.
  destruct (nth_error (unique_points (g_colocated geo points)) k) eqn:E1, (nth_error (unique_points (g_colocated geo' (map g points))) k) eqn:E2; [| | |exact I].
  - apply found_add, A.
  - exfalso. apply nth_error_None in E2. assert (k < length (unique_points (g_colocated geo points))) by (apply nth_error_Some; congruence). lia.
  - exfalso. apply nth_error_None in E1. assert (k < length (unique_points (g_colocated geo' (map g points)))) by (apply nth_error_Some; congruence). lia.
Qed.
Lemma w_has_colocated : forall points, mesh_has_colocated_points geo' (map g points) = mesh_has_colocated_points geo points.
Proof. intros points. unfold mesh_has_colocated_points, nb_colocated_points, mesh_points_colocated_info, nb_unique_points. rewrite (gf_mapping g geo geo' GF), (gf_number g geo geo' GF). reflexivity. Qed.
Lemma w_curve_edges : forall c t, same_found (curve_small_edges ms geo c t) (curve_small_edges ms' geo' (moved_curve g c) t).
Proof.
  intros c t. unfold curve_small_edges, moved_curve. cbn [ec_edge_length ec_edges ec_points]. apply found_fold; [|reflexivity]. intros e a a' A. cbv zeta. destruct (dle (ec_edge_length c e) t); [apply found_add, A|exact A].
Qed.
Lemma w_smaller : forall points edges e t, edge_is_smaller_than_threshold ms' (map g points) edges e t = edge_is_smaller_than_threshold ms points edges e t.
Proof. intros points edges e t. unfold edge_is_smaller_than_threshold, edge_points. cbv zeta. cbn [fst snd]. rewrite !nth_moved, (mf_distance g ms ms' MF). reflexivity. Qed.
Lemma w_mesh_degenerated : forall points edges st, impl_is_mesh_degenerated ms' (map g points) edges st = impl_is_mesh_degenerated ms points edges st.
Proof.
  intros points edges st. unfold impl_is_mesh_degenerated. cbv zeta. f_equal. apply bind_eq; [reflexivity|]. intros es. f_equal. induction (Range (length es)) as [|e l IH]; [reflexivity|]. cbn [existsb].
  rewrite IH. unfold edge_is_degenerated. rewrite w_smaller. reflexivity.
Qed.
Lemma w_small_edges : forall points edges t st, out (fst (impl_small_edges ms geo points edges t st)) (fst (impl_small_edges ms' geo' (map g points) edges t st)).
Proof.
  intros points edges t st. unfold impl_small_edges. cbv zeta. cbn [fst]. apply (ends_bind _ _ eq); [apply ends_refl|]. intros es b <-. cbn. apply found_fold; [|reflexivity]. intros e a a' A. rewrite w_smaller.
  destruct (edge_is_smaller_than_threshold ms points es e t); [apply found_add, A|exact A].
Qed.
Lemma w_negative_polygon : forall c p, polygon_is_negative ms' (moved_surface g c) p = polygon_is_negative ms c p.
Proof.
  intros c p. unfold polygon_is_negative, polygon_points. change (polygon_vertices (moved_surface g c) p) with (polygon_vertices c p). cbn [moved_surface sm_points].
  rewrite <- (mf_area g ms ms' MF). rewrite map_map. f_equal. apply map_ext. intros v. apply nth_moved.
Qed.
Lemma w_negative_polygons : forall c, same_found (negative_polygons ms c) (negative_polygons ms' (moved_surface g c)).
Proof.
  intros c. unfold negative_polygons. cbv zeta. change (nb_polygons (moved_surface g c)) with (nb_polygons c). cbn [moved_surface sm_dimension]. destruct (Nat.eqb (sm_dimension c) 2); [|reflexivity].
  apply found_fold; [|reflexivity]. intros p a a' A. change (mkSurface _ _ _ _ _ _ _ _ _) with (moved_surface g c). rewrite w_negative_polygon. destruct (polygon_is_negative ms c p); [apply found_add, A|exact A].
Qed.
Lemma w_negative_polyhedron : forall c p, polyhedron_has_negative_volume ms' (moved_solid g c) p = polyhedron_has_negative_volume ms c p.
Proof.
  intros c p. unfold polyhedron_has_negative_volume. cbv zeta. change (polyhedron (moved_solid g c) p) with (polyhedron c p). cbn [moved_solid so_points so_volume].
  rewrite !nth_moved, (mf_volume g ms ms' MF). reflexivity.
Qed.
Lemma w_negative_polyhedra : forall c, same_found (negative_polyhedra ms c) (negative_polyhedra ms' (moved_solid g c)).
Proof.
  intros c. unfold negative_polyhedra. change (nb_polyhedra (moved_solid g c)) with (nb_polyhedra c). apply found_fold; [|reflexivity]. intros p a a' A. rewrite w_negative_polyhedron.
  destruct (polyhedron_has_negative_volume ms c p); [apply found_add, A|exact A].
Qed.
Lemma w_surface_vertices : forall c, out (surface_non_manifold_vertices geo c) (surface_non_manifold_vertices geo' (moved_surface g c)).
Proof.
  intros c. unfold surface_non_manifold_vertices. apply (ends_bind _ _ eq).
  - unfold polygons_around_vertices. cbn [moved_surface sm_points]. rewrite map_length. apply ends_refl.
  - intros b b' <-. change (sm_points (moved_surface g c)) with (map g (sm_points c)). rewrite map_length. apply found_loop; [|reflexivity]. intros v a a' A.
    apply (ends_bind _ _ eq); [apply ends_refl|]. intros d d' <-. cbn. destruct d; [apply found_add, A|exact A].
Qed.
Lemma w_solid_vertices : forall c, out (solid_non_manifold_vertices geo c) (solid_non_manifold_vertices geo' (moved_solid g c)).
Proof.
  intros c. unfold solid_non_manifold_vertices. apply (ends_bind _ _ eq).
  - unfold polyhedra_around_vertices. cbn [moved_solid so_points]. rewrite map_length. apply ends_refl.
  - intros b b' <-. change (so_points (moved_solid g c)) with (map g (so_points c)). rewrite map_length. apply found_loop; [|reflexivity]. intros v a a' A.
    apply (ends_bind _ _ eq); [apply ends_refl|]. intros d d' <-. cbn. destruct d; [apply found_add, A|exact A].
Qed.

(** ** Single meshes *)
Lemma w_point_set : forall c, ends_alike (fun r r' => same_found (pr_colocated r) (pr_colocated r')) (inspect_point_set geo c) (inspect_point_set geo' (moved_pointset g c)).
Proof. intros c. unfold inspect_point_set. apply (ends_bind _ _ same_found); [apply w_groups|]. intros a a' A. exact A. Qed.
Lemma w_edged_curve : forall c, ends_alike (fun r r' => same_found (cr_colocated r) (cr_colocated r') /\ same_found (cr_edges r) (cr_edges r'))
  (inspect_edged_curve ms geo c) (inspect_edged_curve ms' geo' (moved_curve g c)).
Proof.
  intros c. unfold inspect_edged_curve. cbv zeta. pose proof (w_groups (ec_points c)) as G. cbn [moved_curve ec_points]. apply (ends_bind _ _ eq).
  - rewrite (status_alike _ _ _ _ G). apply ends_refl.
  - intros u u' _. cbn. split; [apply assigned_alike; [reflexivity|exact G]|apply (w_curve_edges c GLOBAL_EPSILON)].
Qed.
Lemma w_surface : forall ho name c st i i', out i i' -> ends_alike same_surface_report (inspect_surface ms geo ho name c st i) (inspect_surface ms' geo' ho name (moved_surface g c) st i').
Proof.
  intros ho name c st i i' I. unfold inspect_surface. cbv zeta. change (sm_points (moved_surface g c)) with (map g (sm_points c)).
  change (polygon_edges_with_wrong_adjacency name (moved_surface g c)) with (polygon_edges_with_wrong_adjacency name c).
  pose proof (w_groups (sm_points c)) as G. pose proof (w_small_edges (sm_points c) (sm_edges c) GLOBAL_EPSILON st) as E. pose proof (w_surface_vertices c) as V.
  unfold surface_degenerated_edges, impl_degenerated_edges. change (sm_points (moved_surface g c)) with (map g (sm_points c)). change (sm_edges (moved_surface g c)) with (sm_edges c).
  apply (ends_bind _ _ eq).
  - rewrite (status_alike _ _ _ _ G), (status_alike _ _ _ _ E), (status_alike _ _ _ _ V), (status_alike _ _ _ _ I). apply ends_refl.
  - intros u u' _. cbn [ends_alike]. constructor; cbn [sr_adjacency sr_colocated sr_edges sr_polygons sr_manifold_edges sr_manifold_vertices sr_intersections sr_negative];
      try reflexivity; try (apply assigned_alike; [reflexivity|assumption]). apply w_negative_polygons.
Qed.
Lemma w_solid_edges : forall c, solid_non_manifold_edges (moved_solid g c) = solid_non_manifold_edges c.
Proof.
  intros c. unfold solid_non_manifold_edges. change (all_polyhedron_edges (moved_solid g c)) with (all_polyhedron_edges c). generalize (@nil (nat * nat)) (new_issues (T := nat * nat) "Non manifold edges").
  induction (all_polyhedron_edges c) as [|e l IH]; intros ck r; [reflexivity|]. cbn [solid_edges_issues]. rewrite !IH. reflexivity.
Qed.
Lemma w_solid : forall ho name c st, ends_alike same_solid_report (inspect_solid ms geo ho name c st) (inspect_solid ms' geo' ho name (moved_solid g c) st).
Proof.
  intros ho name c st. unfold inspect_solid. cbv zeta. change (so_points (moved_solid g c)) with (map g (so_points c)).
  change (polyhedron_facets_with_wrong_adjacency name (moved_solid g c)) with (polyhedron_facets_with_wrong_adjacency name c).
  rewrite w_solid_edges.
  pose proof (w_groups (so_points c)) as G. pose proof (w_small_edges (so_points c) (so_edges c) GLOBAL_EPSILON st) as E. pose proof (w_solid_vertices c) as V.
  unfold solid_degenerated_edges, impl_degenerated_edges. change (so_points (moved_solid g c)) with (map g (so_points c)). change (so_edges (moved_solid g c)) with (so_edges c).
  apply (ends_bind _ _ eq).
  - rewrite (status_alike _ _ _ _ G), (status_alike _ _ _ _ E), (status_alike _ _ _ _ V). apply ends_refl.
  - intros u u' _. cbn [ends_alike]. constructor; cbn [so_r_adjacency so_r_colocated so_r_edges so_r_polyhedra so_r_manifold_edges so_r_manifold_vertices so_r_manifold_facets so_r_negative];
      try reflexivity; try (apply assigned_alike; [reflexivity|assumption]). apply w_negative_polyhedra.
Qed.
End Moving.
