(** Renaming components: the inspections of the meshes, component by component. *)
From Coq Require Import String Ascii List Arith NArith ZArith Bool Lia Permutation.
From Verif Require Import Base BaseFacts Model_Issues Types Model_Hash Model_Adjacency Model_Colocation Model_Degeneration Model_Manifold Model_Intersections Model_Negative Model_Topology
  Model_BRep Model_Blocks Model_Results Spec_Colocation Spec_Degeneration Spec_Rename Proof_Messages Proof_Degeneration Proof_Degeneration2 Proof_Order Proof_Order2 Proof_Order5 Proof_Rename Proof_Rename2 Proof_Rename3.
Import ListNotations.
Open Scope list_scope.

Section Renaming.
Context (f g : uuid -> uuid) (H : one_to_one f g) (m m' : Model) (R : renamed f m m').

(** ** Maps filled in the same order *)
Definition new_entry {T} (e e' : uuid * InspectionIssues T) : Prop := fst e' = f (fst e) /\ ii_issues (snd e') = ii_issues (snd e).
Definition new_map {T} (r r' : InspectionIssuesMap T) : Prop := Forall2 new_entry (im_map r) (im_map r').
Lemma new_map_renamed : forall T (r r' : InspectionIssuesMap T), new_map r r' -> renamed_map f r r'.
Proof.
  intros T r r' E. unfold renamed_map, issues_by_component. rewrite map_map. cbn [fst snd]. unfold new_map in E.
  assert (X : map (fun e => (fst e, ii_issues (snd e))) (im_map r') = map (fun x : uuid * InspectionIssues T => (f (fst x), ii_issues (snd x))) (im_map r)).
  { induction E as [|e e' l l' [E1 E2] _ IH]; [reflexivity|]. cbn [map]. rewrite E1, E2, IH. reflexivity. }
  rewrite X. apply Permutation_refl.
Qed.
Lemma new_map_empty : forall T d d', @new_map T (new_issues_map d) (new_issues_map d').
Proof. intros. constructor. Qed.
Lemma new_assoc : forall T (l l' : list (uuid * InspectionIssues T)) id, Forall2 new_entry l l' -> (assoc (f id) l' = None <-> assoc id l = None).
Proof.
  intros T l l' id E. induction E as [|[k x] [k' x'] l l' [E1 E2] _ IH]; [reflexivity|]. cbn [fst snd] in E1. cbn [assoc]. rewrite E1, (n_eqb f g H). destruct (Nat.eqb k id); [split; discriminate|exact IH].
Qed.
Lemma Forall2_app2 : forall A B (P : A -> B -> Prop) l l' k k', Forall2 P l l' -> Forall2 P k k' -> Forall2 P (l ++ k) (l' ++ k').
Proof. intros A B P l l' k k' E. induction E; cbn; auto. Qed.
Lemma new_add : forall T id (x x' : InspectionIssues T) r r', new_map r r' -> ii_issues x' = ii_issues x -> new_map (add_issues_to_map id x r) (add_issues_to_map (f id) x' r').
Proof.
  intros T id x x' r r' E Ex. unfold add_issues_to_map. replace (nb_issues x') with (nb_issues x) by (unfold nb_issues; rewrite Ex; reflexivity).
  destruct (N.eqb (nb_issues x) 0); [exact E|]. unfold new_map. cbn [im_map]. unfold emplace. pose proof (new_assoc T _ _ id E) as K.
  destruct (assoc id (im_map r)), (assoc (f id) (im_map r')); [exact E| | |].
  - exfalso. discriminate (proj1 K eq_refl).
  - exfalso. discriminate (proj2 K eq_refl).
  - apply Forall2_app2; [exact E|]. constructor; [|constructor]. split; [reflexivity|exact Ex].
Qed.
Lemma new_active : forall M (l : list (Component M)), active (map (new_component f) l) = map (new_component f) (active l).
Proof. intros. apply (n_active_of f). Qed.
(** one loop over components *)
Lemma new_loop : forall S M (Q : S -> S -> Prop) (body body' : S -> Component M -> outcome S),
  (forall c a a', Q a a' -> ends_alike Q (body a c) (body' a' (new_component f c))) ->
  forall l a a', Q a a' -> ends_alike Q (foldM body l a) (foldM body' (map (new_component f) l) a').
Proof.
  intros S M Q body body' E l. induction l as [|c l IH]; intros a a' A; [exact A|]. cbn [map foldM]. apply (ends_bind _ _ Q); [apply E, A|]. intros b b' B. apply IH, B.
Qed.
Lemma new_fold : forall S M (Q : S -> S -> Prop) (body body' : S -> Component M -> S),
  (forall c a a', Q a a' -> Q (body a c) (body' a' (new_component f c))) -> forall l a a', Q a a' -> Q (fold_left body l a) (fold_left body' (map (new_component f) l) a').
Proof. intros S M Q body body' E l. induction l as [|c l IH]; intros a a' A; [exact A|]. cbn [map fold_left]. apply IH, E, A. Qed.
Lemma new_pairs : forall T M (body body' : Component M -> InspectionIssues T) l r r', (forall c, ii_issues (body' (new_component f c)) = ii_issues (body c)) -> new_map r r' ->
  new_map (fold_left add_pair (map (fun c => (co_id c, body c)) l) r) (fold_left add_pair (map (fun c => (co_id c, body' c)) (map (new_component f) l)) r').
Proof.
  intros T M body body' l r r' E A. rewrite <- !fold_add_pairs. revert r r' A. apply new_fold. intros c a a' A. cbn [new_component co_id]. apply new_add; [exact A|apply E].
Qed.
(** the same list, its texts being ignored *)
Definition same_found {T} (x y : InspectionIssues T) : Prop := ii_issues y = ii_issues x.
Lemma found_loop : forall A T (F F' : InspectionIssues T -> A -> outcome (InspectionIssues T)), (forall x a a', same_found a a' -> ends_alike same_found (F a x) (F' a' x)) ->
  forall l a a', same_found a a' -> ends_alike same_found (foldM F l a) (foldM F' l a').
Proof.
  intros A T F F' E l. induction l as [|x l IH]; intros a a' K; [exact K|]. cbn [foldM]. apply (ends_bind _ _ same_found); [apply E, K|]. intros b b' B. apply IH, B.
Qed.
Lemma found_add : forall T (x y : InspectionIssues T) i s s', same_found x y -> same_found (add_issue i s x) (add_issue i s' y).
Proof. intros T x y i s s' E. unfold same_found, add_issue. cbn [ii_issues]. rewrite E. reflexivity. Qed.

(** ** Adjacency *)
Context (lk lk' : Lookup) (LE : forall e, renamed_answer f (lk_line_edges lk e) (lk_line_edges lk' e)) (LP : forall l, renamed_answer f (lk_surface_polygons lk l) (lk_surface_polygons lk' l)).
Lemma answer_empty : forall o o', renamed_answer f o o' -> (let! l := o' in Ok (negb (match l with [] => true | _ => false end))) = (let! l := o in Ok (negb (match l with [] => true | _ => false end))).
Proof.
  intros [l|e|] [l'|e'|]; cbn; try contradiction; [|congruence|reflexivity]. intros P. f_equal. destruct l as [|x l], l' as [|x' l']; [reflexivity| | |reflexivity].
  - exfalso. exact (Permutation_nil_cons P).
  - exfalso. exact (Permutation_nil_cons (Permutation_sym P)).
Qed.
Lemma n_on_a_line : forall c e, polygon_edge_is_on_a_line lk' m' (new_component f c) e = polygon_edge_is_on_a_line lk m c e.
Proof.
  intros c e. unfold polygon_edge_is_on_a_line. cbn [new_component co_id co_mesh]. cbv zeta. rewrite !(n_unique_vertex f m m' R), (n_nb f m m' R).
  destruct (m_unique_vertex m _) as [a|]; [|reflexivity]. destruct (m_unique_vertex m _) as [b|]; [|reflexivity]. destruct (_ && _); [|reflexivity]. apply answer_empty, LE.
Qed.
Lemma n_border_edge : forall c e, border_edge_is_wrong lk' m' (new_component f c) e = border_edge_is_wrong lk m c e.
Proof. intros c e. unfold border_edge_is_wrong. rewrite n_on_a_line. reflexivity. Qed.
Lemma n_surface_adjacency : forall c, ends_alike same_found (surface_adjacency_issues lk m c) (surface_adjacency_issues lk' m' (new_component f c)).
Proof.
  intros c. unfold surface_adjacency_issues. cbn [new_component co_mesh]. apply (ends_bind _ _ eq); [apply ends_refl|]. intros a b <-. cbv zeta. apply found_loop; [|reflexivity].
  intros e x y E. change {| co_id := f (co_id c); co_name := co_name c; co_active := co_active c; co_mesh := co_mesh c |} with (new_component f c). rewrite n_border_edge.
  apply (ends_bind _ _ eq); [apply ends_refl|]. intros b b' <-. cbn. destruct b; [apply found_add, E|exact E].
Qed.
Lemma n_surfaces_adjacency : forall d d', ends_alike new_map (add_surfaces_edges_with_wrong_adjacencies lk m (new_issues_map d)) (add_surfaces_edges_with_wrong_adjacencies lk' m' (new_issues_map d')).
Proof.
  intros d d'. unfold add_surfaces_edges_with_wrong_adjacencies. rewrite (rn_surfaces _ _ _ R), new_active. apply new_loop; [|apply new_map_empty].
  intros c a a' A. apply (ends_bind _ _ same_found); [apply n_surface_adjacency|]. intros x y E. cbn. apply new_add; assumption.
Qed.
Lemma n_on_a_surface : forall c e, polyhedron_facet_is_on_a_surface lk' m' (new_component f c) e = polyhedron_facet_is_on_a_surface lk m c e.
Proof.
  intros c e. unfold polyhedron_facet_is_on_a_surface. cbn [new_component co_id co_mesh].
  assert (E : map (fun v => m_unique_vertex m' (mkCMV (mkCID BlockT (f (co_id c))) v)) (polyhedron_facet_vertices (co_mesh c) e) =
    map (fun v => m_unique_vertex m (mkCMV (mkCID BlockT (co_id c)) v)) (polyhedron_facet_vertices (co_mesh c) e)) by (apply map_ext; intros v; apply (n_unique_vertex f m m' R)).
  rewrite E. destruct (all_some _) as [uvs|]; [|reflexivity]. specialize (LP uvs). destruct (lk_surface_polygons lk uvs) as [l|x|], (lk_surface_polygons lk' uvs) as [l'|x'|]; cbn in LP |- *; try contradiction; [|congruence|reflexivity].
  destruct l as [|k l], l' as [|k' l']; [reflexivity| | |reflexivity]; exfalso; [exact (Permutation_nil_cons LP)|exact (Permutation_nil_cons (Permutation_sym LP))].
Qed.
Lemma n_border_facet : forall c e, border_facet_is_wrong lk' m' (new_component f c) e = border_facet_is_wrong lk m c e.
Proof. intros c e. unfold border_facet_is_wrong. rewrite n_on_a_surface. reflexivity. Qed.
Lemma n_block_adjacency : forall c, ends_alike same_found (block_adjacency_issues lk m c) (block_adjacency_issues lk' m' (new_component f c)).
Proof.
  intros c. unfold block_adjacency_issues. cbn [new_component co_mesh]. apply (ends_bind _ _ eq); [apply ends_refl|]. intros a b <-. cbv zeta. apply found_loop; [|reflexivity].
  intros e x y E. change {| co_id := f (co_id c); co_name := co_name c; co_active := co_active c; co_mesh := co_mesh c |} with (new_component f c). rewrite n_border_facet.
  apply (ends_bind _ _ eq); [apply ends_refl|]. intros b b' <-. cbn. destruct b; [apply found_add, E|exact E].
Qed.
Lemma n_blocks_adjacency : forall d d', ends_alike new_map (add_blocks_facets_with_wrong_adjacencies lk m (new_issues_map d)) (add_blocks_facets_with_wrong_adjacencies lk' m' (new_issues_map d')).
Proof.
  intros d d'. unfold add_blocks_facets_with_wrong_adjacencies. rewrite (rn_blocks _ _ _ R), new_active. apply new_loop; [|apply new_map_empty].
  intros c a a' A. apply (ends_bind _ _ same_found); [apply n_block_adjacency|]. intros x y E. cbn. apply new_add; assumption.
Qed.

(** ** Colocated points *)
Lemma n_filter_group : forall t id l, filter_group (fun v => m_unique_vertex m' (mkCMV (mkCID t (f id)) v)) l = filter_group (fun v => m_unique_vertex m (mkCMV (mkCID t id) v)) l.
Proof.
  intros t id [|x l]; [reflexivity|]. unfold filter_group.
  assert (E : filter_marks (fun i => m_unique_vertex m' (mkCMV (mkCID t (f id)) (nth i (x :: l) 0))) (length (x :: l)) =
    filter_marks (fun i => m_unique_vertex m (mkCMV (mkCID t id) (nth i (x :: l) 0))) (length (x :: l))).
  { unfold filter_marks. generalize (length (x :: l)). intros n. generalize (repeat true (n - 1)). induction (Range (n - 1)) as [|i k IH]; intros marks; [reflexivity|]. cbn [fold_left].
    replace (filter_step (fun i => m_unique_vertex m' (mkCMV (mkCID t (f id)) (nth i (x :: l) 0))) n marks i) with (filter_step (fun i => m_unique_vertex m (mkCMV (mkCID t id) (nth i (x :: l) 0))) n marks i); [apply IH|].
    unfold filter_step. destruct (negb _); [reflexivity|]. revert marks. induction (Range2 (i + 1) n) as [|j js IHj]; intros marks; [reflexivity|]. cbn [fold_left].
    rewrite IHj. rewrite !(n_unique_vertex f m m' R). reflexivity. }
  rewrite E. reflexivity.
Qed.
Lemma n_filter : forall t id groups, filter_colocated_points_with_same_unique_vertex m' (mkCID t (f id)) groups = filter_colocated_points_with_same_unique_vertex m (mkCID t id) groups.
Proof. intros t id groups. apply foldM_in. intros s x _. rewrite n_filter_group. reflexivity. Qed.
Lemma n_component_colocated : forall geo kind t points name name' id a a', new_map a a' ->
  ends_alike new_map (add_component_colocated_points geo m kind t points name id a) (add_component_colocated_points geo m' kind t points name' (f id) a').
Proof.
  intros geo kind t points name name' id a a' A. unfold add_component_colocated_points. apply (ends_bind _ _ eq); [apply ends_refl|]. intros groups b <-. rewrite n_filter.
  apply (ends_bind _ _ eq); [apply ends_refl|]. intros [|x l] b <-; [exact A|]. cbn. apply new_add; [exact A|].
  assert (K : forall (F F' : list nat -> string) l (r r' : InspectionIssues (list nat)), same_found r r' -> same_found (fold_left (fun r g => add_issue g (F g) r) l r) (fold_left (fun r g => add_issue g (F' g) r) l r')).
  { intros F F' k. induction k as [|y k IH]; intros r r' E; [exact E|]. cbn [fold_left]. apply IH, found_add, E. }
  apply K. apply found_add. reflexivity.
Qed.
Lemma n_colocation : forall geo, ends_alike new_map (inspect_meshes_point_colocations geo m) (inspect_meshes_point_colocations geo m').
Proof.
  intros geo. unfold inspect_meshes_point_colocations, add_model_components_colocated_points_groups, add_lines_surfaces_colocated_points.
  rewrite (rn_lines _ _ _ R), (rn_surfaces _ _ _ R), (rn_blocks _ _ _ R), !new_active.
  apply (ends_bind _ _ new_map); [apply (ends_bind _ _ new_map)|].
  - apply new_loop; [|apply new_map_empty]. intros c a a' A. apply n_component_colocated, A.
  - intros b b' B. apply new_loop; [|exact B]. intros c a a' A. apply n_component_colocated, A.
  - intros b b' B. apply new_loop; [|exact B]. intros c a a' A. apply n_component_colocated, A.
Qed.

(** ** Degeneration *)
Lemma n_surface_pure : forall ms geo t c, ii_issues (surface_pure ms geo m' t (new_component f c)) = ii_issues (surface_pure ms geo m t c).
Proof.
  intros ms geo t c. unfold surface_pure, surface_issues, surface_task. cbn [new_component co_mesh]. destruct (surface_small_edges _ _ _ _ _) as [o es]. destruct o; reflexivity.
Qed.
Lemma n_block_issues : forall ms geo t c, ii_issues (block_issues ms geo m' t (new_component f c)) = ii_issues (block_issues ms geo m t c).
Proof. intros ms geo t c. unfold block_issues. cbn [new_component co_mesh]. destruct (fst _); reflexivity. Qed.
Lemma n_edge_pairs : forall ms geo t x y, new_map x y -> new_map (fold_left add_pair (edge_pairs ms geo m t) x) (fold_left add_pair (edge_pairs ms geo m' t) y).
Proof.
  intros ms geo t x y E. unfold edge_pairs. rewrite !fold_left_app, (rn_surfaces _ _ _ R), (rn_lines _ _ _ R), !new_active. apply new_pairs; [apply n_surface_pure|]. apply new_pairs; [reflexivity|exact E].
Qed.
Lemma n_heights : forall t d d', new_map (add_small_height_polygons m t (new_issues_map d)) (add_small_height_polygons m' t (new_issues_map d')).
Proof.
  intros t d d'. unfold add_small_height_polygons. rewrite (rn_surfaces _ _ _ R), new_active. apply new_fold; [|apply new_map_empty]. intros c a a' A. cbn [new_component co_id co_mesh]. apply new_add; [exact A|reflexivity].
Qed.
Definition new_degeneration (r r' : DegenerationResult) : Prop := new_map (dr_edges r) (dr_edges r') /\ new_map (dr_polygons r) (dr_polygons r') /\ new_map (dr_polyhedra r) (dr_polyhedra r').
Lemma n_degeneration : forall ms geo st st', ends_alike new_degeneration (fst (inspect_elements_degeneration ms geo m st)) (fst (inspect_elements_degeneration ms geo m' st')).
Proof.
  intros ms geo st st'. destruct (edges_inv_any st) as (s0 & b0 & I). destruct (edges_inv_any st') as (s0' & b0' & I'). unfold inspect_elements_degeneration.
  destruct (add_small_edges_pairs ms geo m GLOBAL_EPSILON (dr_edges empty_degeneration) st s0 b0 I) as (s1 & -> & I1).
  destruct (add_small_edges_pairs ms geo m' GLOBAL_EPSILON (dr_edges empty_degeneration) st' s0' b0' I') as (s1' & -> & I1').
  set (x := fold_left add_pair (edge_pairs ms geo m GLOBAL_EPSILON) _). set (y := fold_left add_pair (edge_pairs ms geo m' GLOBAL_EPSILON) _).
  assert (E : new_map x y) by (apply n_edge_pairs, new_map_empty).
  destruct (add_solid_pairs ms geo m GLOBAL_EPSILON (x, dr_polyhedra empty_degeneration) s1 s0 b0 I1) as (s2 & -> & _).
  destruct (add_solid_pairs ms geo m' GLOBAL_EPSILON (y, dr_polyhedra empty_degeneration) s1' s0' b0' I1') as (s2' & -> & _).
  cbn [fst snd bind ends_alike]. split; [|split]; cbn [dr_edges dr_polygons dr_polyhedra].
  - unfold block_edge_pairs. rewrite (rn_blocks _ _ _ R), new_active. apply new_pairs; [apply n_block_issues|exact E].
  - apply n_heights.
  - unfold block_height_pairs. rewrite (rn_blocks _ _ _ R), new_active. apply new_pairs; [reflexivity|apply new_map_empty].
Qed.
Definition new_section_degeneration (r r' : SectionDegenerationResult) : Prop := new_map (sd_edges r) (sd_edges r') /\ new_map (sd_polygons r) (sd_polygons r').
Lemma n_section_degeneration : forall ms geo st st', ends_alike new_section_degeneration (fst (section_inspect_elements_degeneration ms geo m st)) (fst (section_inspect_elements_degeneration ms geo m' st')).
Proof.
  intros ms geo st st'. destruct (edges_inv_any st) as (s0 & b0 & I). destruct (edges_inv_any st') as (s0' & b0' & I'). unfold section_inspect_elements_degeneration.
  match goal with |- context [add_small_edges ms geo m ?t ?e st] => destruct (add_small_edges_pairs ms geo m t e st s0 b0 I) as (s1 & -> & I1) end.
  match goal with |- context [add_small_edges ms geo m' ?t ?e st'] => destruct (add_small_edges_pairs ms geo m' t e st' s0' b0' I') as (s1' & -> & I1') end.
  cbn [fst snd bind ends_alike]. split; cbn [sd_edges sd_polygons]; [apply n_edge_pairs, new_map_empty|apply n_heights].
Qed.

(** ** Negative elements *)
Lemma n_section_negative : forall ms, new_map (section_negative_elements ms m) (section_negative_elements ms m').
Proof.
  intros ms. unfold section_negative_elements. rewrite (rn_surfaces _ _ _ R), new_active. apply new_fold; [|apply new_map_empty]. intros c a a' A. cbn [new_component co_id co_mesh]. apply new_add; [exact A|reflexivity].
Qed.
Lemma n_brep_negative : forall ms, new_map (brep_negative_elements ms m) (brep_negative_elements ms m').
Proof.
  intros ms. unfold brep_negative_elements. rewrite (rn_blocks _ _ _ R), new_active. apply new_fold; [|apply new_map_empty]. intros c a a' A. cbn [new_component co_id co_mesh]. apply new_add; [exact A|reflexivity].
Qed.

(** ** Manifold meshes *)
Lemma n_manifold_surface_vertices : forall geo a a', new_map a a' -> ends_alike new_map (add_surfaces_meshes_non_manifold_vertices geo m a) (add_surfaces_meshes_non_manifold_vertices geo m' a').
Proof.
  intros geo a a' A. unfold add_surfaces_meshes_non_manifold_vertices. rewrite (rn_surfaces _ _ _ R), new_active. apply new_loop; [|exact A]. intros c b b' B. cbn [new_component co_id co_mesh].
  apply (ends_bind _ _ eq); [apply ends_refl|]. intros x y <-. cbn. apply new_add; [exact B|reflexivity].
Qed.
Lemma n_manifold_surface_edges : forall ho a a', new_map a a' -> ends_alike new_map (add_surfaces_meshes_non_manifold_edges ho m a) (add_surfaces_meshes_non_manifold_edges ho m' a').
Proof.
  intros ho a a' A. unfold add_surfaces_meshes_non_manifold_edges. rewrite (rn_surfaces _ _ _ R), new_active. apply new_loop; [|exact A]. intros c b b' B. cbn [new_component co_id co_mesh ends_alike].
  apply new_add; [exact B|reflexivity].
Qed.
Lemma n_manifold_vertices : forall geo a a', new_map a a' -> ends_alike new_map (add_component_meshes_non_manifold_vertices geo m a) (add_component_meshes_non_manifold_vertices geo m' a').
Proof.
  intros geo a a' A. unfold add_component_meshes_non_manifold_vertices. apply (ends_bind _ _ new_map); [apply n_manifold_surface_vertices, A|]. intros b b' B.
  rewrite (rn_blocks _ _ _ R), new_active. apply new_loop; [|exact B]. intros c e e' E. cbn [new_component co_id co_mesh]. apply (ends_bind _ _ eq); [apply ends_refl|]. intros x y <-. cbn.
  apply new_add; [exact E|reflexivity].
Qed.
Lemma n_manifold_edges : forall ho a a', new_map a a' -> ends_alike new_map (add_component_meshes_non_manifold_edges ho m a) (add_component_meshes_non_manifold_edges ho m' a').
Proof.
  intros ho a a' A. unfold add_component_meshes_non_manifold_edges. apply (ends_bind _ _ new_map); [apply n_manifold_surface_edges, A|]. intros b b' B.
  rewrite (rn_blocks _ _ _ R), new_active. apply new_loop; [|exact B]. intros c e e' E. cbn [new_component co_id co_mesh]. apply (ends_bind _ _ eq); [apply ends_refl|]. intros x y <-. cbn.
  apply new_add; [exact E|reflexivity].
Qed.
Lemma n_manifold_facets : forall ho a a', new_map a a' -> ends_alike new_map (add_component_meshes_non_manifold_facets ho m a) (add_component_meshes_non_manifold_facets ho m' a').
Proof.
  intros ho a a' A. unfold add_component_meshes_non_manifold_facets. rewrite (rn_blocks _ _ _ R), new_active. apply new_loop; [|exact A]. intros c b b' B. cbn [new_component co_id co_mesh ends_alike].
  apply new_add; [exact B|reflexivity].
Qed.
Definition new_section_manifold (r r' : SectionManifoldResult) : Prop := new_map (sn_vertices r) (sn_vertices r') /\ new_map (sn_edges r) (sn_edges r').
Lemma n_section_manifold : forall geo ho, ends_alike new_section_manifold (inspect_section_manifold geo ho m) (inspect_section_manifold geo ho m').
Proof.
  intros geo ho. unfold inspect_section_manifold. apply (ends_bind _ _ new_map); [apply n_manifold_surface_vertices, new_map_empty|]. intros a a' A.
  apply (ends_bind _ _ new_map); [apply n_manifold_surface_edges, new_map_empty|]. intros b b' B. cbn. split; assumption.
Qed.
End Renaming.
