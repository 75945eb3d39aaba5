(** Proofs about the texts of reports. *)
From Coq Require Import String Ascii List Arith NArith ZArith Bool Lia Permutation.
From Verif Require Import Base BaseFacts Model_Issues Types Model_Colocation Model_Adjacency Model_Negative Model_Degeneration Model_Manifold Model_Intersections Model_Hash
  Model_Results Spec_Manifold Spec_Messages Proof_Colocation Proof_Hash Proof_Manifold Proof_Manifold2 Proof_Manifold3.
Import ListNotations.
Open Scope list_scope.

Lemma fold_inv : forall A S (I : S -> Prop) (f : S -> A -> S) l s,
  (forall s x, In x l -> I s -> I (f s x)) -> I s -> I (fold_left f l s).
Proof.
  intros A S I f l. induction l as [|x l IH]; intros s H Hs; cbn [fold_left]; [exact Hs|].
  apply IH; [intros s' y Hy; apply H; right; exact Hy|]. apply H; [left; reflexivity|exact Hs].
Qed.
Lemma foldM_inv : forall A S (I : S -> Prop) (f : S -> A -> outcome S) l s r,
  (forall s x s', In x l -> I s -> f s x = Ok s' -> I s') -> I s -> foldM f l s = Ok r -> I r.
Proof.
  intros A S I f l. induction l as [|x l IH]; intros s r H Hs E; cbn [foldM] in E; [injection E as <-; exact Hs|].
  destruct (f s x) as [s'| |] eqn:F; cbn [bind] in E; try discriminate E.
  apply (IH s' r); [intros a y b Hy; apply H; right; exact Hy| |exact E]. apply (H s x s'); [left; reflexivity|exact Hs|exact F].
Qed.
Lemma bind_Ok : forall A B (o : outcome A) (f : A -> outcome B) r, bind o f = Ok r -> exists a, o = Ok a /\ f a = Ok r.
Proof. intros A B [a| |] f r H; cbn in H; try discriminate H. exists a. auto. Qed.

Section Explained.
Context {T : Type} (P : T -> string -> Prop).
Lemma explained_new : forall d, explained d P (new_issues d).
Proof. intros d. split; [reflexivity|constructor]. Qed.
Lemma explained_add : forall d r x t, explained d P r -> P x t -> explained d P (add_issue x t r).
Proof.
  intros d r x t [Hd H] Hx. split; [exact Hd|]. cbn. apply Forall2_app; [exact H|]. constructor; [exact Hx|constructor].
Qed.
Lemma explained_set : forall d d' r, explained d P r -> explained d' P (set_description d' r).
Proof. intros d d' r [_ H]. split; [reflexivity|exact H]. Qed.
End Explained.
Lemma explained_weaken : forall T (P Q : T -> string -> Prop) d r, (forall x t, P x t -> Q x t) -> explained d P r -> explained d Q r.
Proof. intros T P Q d r H [Hd F]. split; [exact Hd|]. induction F; constructor; auto. Qed.
Lemma explained_map_new : forall T d (P : uuid -> InspectionIssues T -> Prop), explained_map d P (new_issues_map d).
Proof. intros T d P. split; [reflexivity|intros id l []]. Qed.
Lemma explained_map_add : forall T d (P : uuid -> InspectionIssues T -> Prop) m id l,
  explained_map d P m -> P id l -> explained_map d P (add_issues_to_map id l m).
Proof.
  intros T d P m id l [Hd H] Hl. unfold add_issues_to_map. destruct (N.eqb _ 0); [split; assumption|]. split; [exact Hd|].
  intros id' l' Hin. cbn in Hin. unfold emplace in Hin. destruct (assoc id (im_map m)); [apply H; exact Hin|].
  apply in_app_or in Hin. destruct Hin as [Hin|[K|[]]]; [apply H; exact Hin|]. injection K as <- <-. exact Hl.
Qed.

Lemma append_empty : forall s : string, (s ++ "")%string = s.
Proof. induction s as [|c s IH]; [reflexivity|]. cbn. rewrite IH. reflexivity. Qed.
Lemma append_assoc : forall a b c : string, ((a ++ b) ++ c = a ++ (b ++ c))%string.
Proof. induction a as [|x a IH]; intros b c; [reflexivity|]. cbn. rewrite IH. reflexivity. Qed.
Lemma group_string_indices : forall g, group_string g = indices g.
Proof. intros g. unfold group_string, indices. f_equal. apply map_ext. intros i. cbn. rewrite append_empty. reflexivity. Qed.

(** ** Meshes *)
Lemma colocated_mapping_ok : forall geo points r, colocated_points_groups geo points = Ok r ->
  forall u, In u (colocated_mapping (g_colocated geo points)) -> u < length (unique_points (g_colocated geo points)).
Proof.
  intros geo points r H u Hu. destruct (Nat.lt_ge_cases u (length (unique_points (g_colocated geo points)))) as [|K]; [assumption|].
  rewrite colocated_points_groups_oob in H; [discriminate H|]. exists u. auto.
Qed.
Lemma colocated_explained : forall geo points r, colocated_points_groups geo points = Ok r ->
  explained "groups of colocated points"%string (colocated_vertices_text geo points) r.
Proof.
  intros geo points r H. pose proof (colocated_mapping_ok geo points r H) as Hr.
  unfold colocated_points_groups, mesh_points_colocated_info, nb_unique_points in H.
  set (c := g_colocated geo points) in *.
  rewrite bucketize_spec in H.
  2:{ intros [u i] Hin. cbn. apply in_combine_l in Hin. apply Hr. exact Hin. }
  cbn [bind] in H.
  change (map (fun k => bucket_of k (combine (colocated_mapping c) (seq 0 (length (colocated_mapping c))))) (seq 0 (length (unique_points c))))
    with (map (place_bucket (colocated_mapping c)) (seq 0 (length (unique_points c)))) in H.
  fold (place_groups c) in H.
  refine (foldM_inv _ _ _ _ _ _ _ _ _ H); [|apply explained_new].
  intros s g s' Hg Hs E. destruct (nth_error (unique_points c) _) as [p|] eqn:N; [|discriminate E]. injection E as <-.
  apply explained_add; [exact Hs|]. apply in_place_groups in Hg. destruct Hg as (u & Hu & Hgu & Hl).
  assert (Hin : In (nth 0 g 0) g) by (apply nth_In; lia).
  rewrite Hgu in Hin at 2. apply in_place_bucket in Hin.
  rewrite (nth_error_nth (colocated_mapping c) _ 0 Hin) in N. exists u, p.
  assert (Hh : hd 0 g = nth 0 g 0) by (destruct g; reflexivity). fold c. rewrite Hh. split; [exact Hin|]. split; [exact N|].
  rewrite group_string_indices. reflexivity.
Qed.
Lemma report_inv : forall T A (P : T -> string -> Prop) d (f : A -> outcome bool) (item : A -> T) (text : A -> string) l r0 r,
  (forall x, In x l -> f x = Ok true -> P (item x) (text x)) -> explained d P r0 ->
  foldM (fun r x => let! b := f x in Ok (if b then add_issue (item x) (text x) r else r)) l r0 = Ok r -> explained d P r.
Proof.
  intros T A P d f item text l r0 r H H0 E. refine (foldM_inv _ _ _ _ _ _ _ _ H0 E).
  intros s x s' Hx Hs F. destruct (f x) as [[|]| |] eqn:G; cbn [bind] in F; try discriminate F; injection F as <-; [|exact Hs].
  apply explained_add; [exact Hs|]. apply H; assumption.
Qed.
Lemma fold_report_inv : forall T A (P : T -> string -> Prop) d (f : A -> bool) (item : A -> T) (text : A -> string) l r0,
  (forall x, In x l -> f x = true -> P (item x) (text x)) -> explained d P r0 ->
  explained d P (fold_left (fun r x => if f x then add_issue (item x) (text x) r else r) l r0).
Proof.
  intros T A P d f item text l r0 H H0. apply fold_inv; [|exact H0]. intros s x Hx Hs. destruct (f x) eqn:G; [|exact Hs].
  apply explained_add; [exact Hs|]. apply H; assumption.
Qed.
Lemma wrong_adjacency_inner : forall m e, edge_has_wrong_adjacency m e = Ok true -> exists q, sm_adjacent m e = Some q.
Proof.
  intros m e H. unfold edge_has_wrong_adjacency, is_edge_on_border in H.
  destruct (sm_adjacent m e) as [q|]; [exists q; reflexivity|]. discriminate H.
Qed.
Lemma wrong_facet_inner : forall m f, facet_has_wrong_adjacency m f = Ok true -> exists q, so_adjacent m f = Some q.
Proof.
  intros m f H. unfold facet_has_wrong_adjacency, is_facet_on_border in H.
  destruct (so_adjacent m f) as [q|]; [exists q; reflexivity|]. discriminate H.
Qed.
Lemma adjacency_explained : forall name m r, polygon_edges_with_wrong_adjacency name m = Ok r ->
  explained (StrCat ["Surface "; name; " polygon edges adjacencies issues"]%string)
    (fun e t => says wrong_edge_text e t /\ sm_adjacent m e <> None) r.
Proof.
  intros name m r H. unfold polygon_edges_with_wrong_adjacency in H. refine (report_inv _ _ _ _ _ _ _ _ _ _ _ _ H); [|apply explained_new].
  intros e _ He. split; [destruct e; reflexivity|]. destruct (wrong_adjacency_inner m e He) as (q & K). rewrite K. discriminate.
Qed.
Lemma facet_adjacency_explained : forall name m r, polyhedron_facets_with_wrong_adjacency name m = Ok r ->
  explained (StrCat ["Solid "; name; " polyhedron facets adjacencies issues"]%string)
    (fun f t => says wrong_facet_text f t /\ so_adjacent m f <> None) r.
Proof.
  intros name m r H. unfold polyhedron_facets_with_wrong_adjacency in H. refine (report_inv _ _ _ _ _ _ _ _ _ _ _ _ H); [|apply explained_new].
  intros e _ He. split; [destruct e; reflexivity|]. destruct (wrong_facet_inner m e He) as (q & K). rewrite K. discriminate.
Qed.
Lemma curve_edges_explained : forall ms geo c threshold,
  explained "degenerated edges."%string (curve_edge_text ms geo c) (curve_small_edges ms geo c threshold).
Proof.
  intros ms geo c threshold. unfold curve_small_edges.
  refine (fold_report_inv _ _ _ _ _ (fun e => e) _ _ _ _ _); [|apply explained_new].
  intros e He _. apply in_Range in He. destruct (nth_error (ec_edges c) e) as [[v w]|] eqn:E.
  2:{ apply nth_error_None in E. lia. }
  exists v, w. split; [exact E|]. cbv zeta. unfold edge_points. rewrite (nth_error_nth _ _ _ E). reflexivity.
Qed.
Lemma mesh_edges_explained : forall ms geo points edges threshold st r,
  fst (impl_small_edges ms geo points edges threshold st) = Ok r -> explained "degenerated edges"%string (mesh_edge_text geo points edges) r.
Proof.
  intros ms geo points edges threshold st r H. unfold impl_small_edges in H. cbn [fst] in H.
  apply bind_Ok in H. destruct H as (es & He & H). injection H as <-.
  assert (K : es = edges).
  { unfold mesh_edges in He. destruct (es_enabled _); [injection He as <-; reflexivity|discriminate He]. }
  subst es. refine (fold_report_inv _ _ _ _ _ (fun e => e) _ _ _ _ _); [|apply explained_new].
  intros e Hin _. apply in_Range in Hin. destruct (nth_error edges e) as [[v w]|] eqn:E.
  2:{ apply nth_error_None in E. lia. }
  exists v, w. split; [exact E|]. cbv zeta. rewrite (nth_error_nth _ _ _ E). reflexivity.
Qed.
Lemma polygons_explained : forall m threshold, explained "Degenerated Polygons."%string (says flat_polygon_text) (small_height_polygons m threshold).
Proof.
  intros m threshold. unfold small_height_polygons. refine (fold_report_inv _ _ _ _ _ (fun e => e) _ _ _ _ _); [|apply explained_new].
  intros p _ _. unfold says, flat_polygon_text. cbn [StrCat fold_right]. rewrite append_empty. reflexivity.
Qed.
Lemma polyhedra_explained : forall m threshold, explained "Degenerated Polyhedra."%string (says flat_polyhedron_text) (small_height_polyhedra m threshold).
Proof.
  intros m threshold. unfold small_height_polyhedra. refine (fold_report_inv _ _ _ _ _ (fun e => e) _ _ _ _ _); [|apply explained_new].
  intros p _ _. unfold says, flat_polyhedron_text. cbn [StrCat fold_right]. rewrite append_empty. reflexivity.
Qed.
Lemma negative_polygons_explained : forall ms m, explained "negative area polygons"%string (says negative_polygon_text) (negative_polygons ms m).
Proof.
  intros ms m. unfold negative_polygons. cbv zeta. destruct (Nat.eqb (sm_dimension m) 2); [|apply explained_new].
  refine (fold_report_inv _ _ _ _ _ (fun e => e) _ _ _ _ _); [|apply explained_new].
  intros p _ _. unfold says, negative_polygon_text. cbn [StrCat fold_right]. rewrite append_empty. reflexivity.
Qed.
Lemma negative_polyhedra_explained : forall ms m, explained "negative volume polyhedra"%string (says negative_polyhedron_text) (negative_polyhedra ms m).
Proof.
  intros ms m. unfold negative_polyhedra. refine (fold_report_inv _ _ _ _ _ (fun e => e) _ _ _ _ _); [|apply explained_new].
  intros p _ _. unfold says, negative_polyhedron_text. cbn [StrCat fold_right]. rewrite append_empty. reflexivity.
Qed.
Lemma edge_flag : forall m a b n flag, In ((a, b), (n, flag)) (edge_to_polygons_around m) -> (flag = true <-> border_occurrence m a b).
Proof.
  intros m a b n flag Hin. rewrite edge_map_group in Hin. apply (in_group _ pair_eqb_eq) in Hin.
  destruct Hin as (e & es & He & Hv). fold (joining m (a, b)) in He.
  assert (Hab : a <= b).
  { assert (K : In e (joining m (a, b))) by (rewrite He; left; reflexivity).
    unfold joining in K. apply (in_with_key _ _ _ pair_eqb_eq) in K. destruct K as [_ K].
    unfold polygon_edge_vertices in K. apply edge_key_eq in K. tauto. }
  rewrite counter_fold in Hv by reflexivity. injection Hv as _ ->.
  replace (on_border m e || existsb (on_border m) es) with (existsb (on_border m) (joining m (a, b))) by (rewrite He; reflexivity).
  destruct (joining_once m a b Hab) as [_ J]. rewrite existsb_exists. split.
  - intros (x & Hx & Hbx). exists x. split; [apply J; exact Hx|apply on_border_iff; exact Hbx].
  - intros (x & Hx & Hbx). exists x. split; [apply J; exact Hx|apply on_border_iff; exact Hbx].
Qed.
Lemma surface_edges_explained : forall ho m, explained "non manifold edges"%string (surface_edge_text m) (surface_non_manifold_edges ho m).
Proof.
  intros ho m. unfold surface_non_manifold_edges. refine (fold_report_inv _ _ _ _ _ fst _ _ _ _ _); [|apply explained_new].
  intros [[a b] [n flag]] Hin _. apply visit_in in Hin. apply edge_flag in Hin. cbn [fst surface_edge_text surface_edge_message].
  destruct flag; [left|right]; (split; [|reflexivity]); [apply Hin; reflexivity|]. intros K. apply Hin in K. discriminate K.
Qed.
Lemma vertex_says : forall geo points v, v < length points -> vertex_text geo points v (vertex_message geo points v).
Proof.
  intros geo points v H. destruct (nth_error points v) as [p|] eqn:E; [|apply nth_error_None in E; lia]. exists p.
  split; [exact E|]. unfold vertex_message. rewrite (nth_error_nth _ _ _ E). reflexivity.
Qed.
Lemma surface_vertices_explained : forall geo m r, surface_non_manifold_vertices geo m = Ok r ->
  explained "non manifold vertices"%string (vertex_text geo (sm_points m)) r.
Proof.
  intros geo m r H. unfold surface_non_manifold_vertices in H. apply bind_Ok in H. destruct H as (corners & _ & H).
  refine (report_inv _ _ _ _ _ (fun v => v) _ _ _ _ _ _ H); [|apply explained_new]. intros v Hv _. apply in_Range in Hv. apply vertex_says. exact Hv.
Qed.
Lemma solid_vertices_explained : forall geo m r, solid_non_manifold_vertices geo m = Ok r ->
  explained "non manifold vertices"%string (vertex_text geo (so_points m)) r.
Proof.
  intros geo m r H. unfold solid_non_manifold_vertices in H. apply bind_Ok in H. destruct H as (corners & _ & H).
  refine (report_inv _ _ _ _ _ (fun v => v) _ _ _ _ _ _ H); [|apply explained_new]. intros v Hv _. apply in_Range in Hv. apply vertex_says. exact Hv.
Qed.
Lemma solid_edge_loop_explained : forall m l checked r0 r, (forall e, In e l -> In e (all_polyhedron_edges m)) ->
  explained "Non manifold edges"%string (solid_edge_text m) r0 -> solid_edges_issues m checked l r0 = Ok r ->
  explained "Non manifold edges"%string (solid_edge_text m) r.
Proof.
  intros m l. induction l as [|e l IH]; intros ck r0 r Hl H0 E; cbn [solid_edges_issues] in E; [injection E as <-; exact H0|].
  assert (Hl' : forall x, In x l -> In x (all_polyhedron_edges m)) by (intros x Hx; apply Hl; right; exact Hx).
  cbv zeta in E. destruct (existsb _ ck); [exact (IH _ _ _ Hl' H0 E)|].
  assert (He := Hl e (or_introl eq_refl)). apply in_all_polyhedron_edges in He. destruct He as [Hp Hn].
  assert (Hpoly : nth_error (so_polyhedra m) (fst e) = Some (polyhedron m (fst e))) by (apply nth_error_nth'; exact Hp).
  destruct (edge_differs m e) as [[|]|[|]|] eqn:D; try discriminate E.
  - refine (IH _ _ _ Hl' _ E). apply explained_add; [exact H0|]. exists (fst e), (polyhedron m (fst e)).
    split; [exact Hpoly|]. split; [apply nth_error_In in Hn; exact Hn|]. left. split; [|reflexivity].
    unfold edge_differs in D. apply bind_Ok in D. destruct D as (fan & D & _). exists fan. exact D.
  - exact (IH _ _ _ Hl' H0 E).
  - refine (IH _ _ _ Hl' _ E). apply explained_add; [exact H0|]. exists (fst e), (polyhedron m (fst e)).
    split; [exact Hpoly|]. split; [apply nth_error_In in Hn; exact Hn|]. right. split; [|reflexivity].
    unfold edge_differs in D. destruct (so_around_edge m (polyhedron_edge_vertices m e) (fst e)) as [fan|x|]; cbn [bind] in D.
    + destruct (lookup _ _ _); discriminate D.
    + injection D as ->. reflexivity.
    + discriminate D.
Qed.
Lemma solid_edges_explained : forall m r, solid_non_manifold_edges m = Ok r -> explained "Non manifold edges"%string (solid_edge_text m) r.
Proof.
  intros m r H. unfold solid_non_manifold_edges in H. refine (solid_edge_loop_explained _ _ _ _ _ _ _ H); [auto|apply explained_new].
Qed.
Lemma facets_explained : forall ho m, explained "non manifold facets"%string (says facet_text) (solid_non_manifold_facets ho m).
Proof.
  intros ho m. unfold solid_non_manifold_facets. refine (fold_report_inv _ _ _ _ _ fst _ _ _ _ _); [|apply explained_new].
  intros kv _ _. reflexivity.
Qed.
Lemma self_explained : forall px m candidates r, surface_intersecting_elements px m candidates (Ok r) ->
  explained "intersections between polygons"%string (says polygons_text) r.
Proof.
  intros px m candidates r H. unfold surface_intersecting_elements in H. destruct H as (found & _ & H).
  destruct found as [f| |]; cbn in H; try discriminate H. injection H as ->. unfold self_intersections_issues.
  apply fold_inv; [|apply explained_new]. intros s c _ Hs. apply explained_add; [exact Hs|]. reflexivity.
Qed.
Lemma curve_explained : forall px s c candidates r, curve_intersecting_elements px s c candidates (Ok r) ->
  explained "intersections between triangles and edges"%string (says triangle_edge_text) r.
Proof.
  intros px s c candidates r H. unfold curve_intersecting_elements in H. destruct H as (found & _ & H).
  destruct found as [f| |]; cbn in H; try discriminate H. injection H as ->. unfold curve_intersections_issues.
  apply fold_inv; [|apply explained_new]. intros st x _ Hs. apply explained_add; [exact Hs|]. reflexivity.
Qed.
