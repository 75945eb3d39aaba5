(** Proofs about the texts of reports: meshes of models. *)
From Coq Require Import String Ascii List Arith NArith ZArith Bool Lia Permutation.
From Verif Require Import Base BaseFacts Model_Issues Types Model_Colocation Model_Adjacency Model_Negative Model_Degeneration Model_Manifold Model_Intersections Model_Hash
  Model_Results Spec_Colocation Spec_Manifold Spec_Messages Proof_Colocation Proof_Colocation2 Proof_Hash Proof_Manifold Proof_Manifold2 Proof_Manifold3 Proof_Messages.
From Verif Require Proof_Topology.
Import ListNotations.
Open Scope list_scope.

Lemma in_active : forall M (l : list (Component M)) c, In c (active l) -> In c l /\ co_active c = true.
Proof. intros M l c H. unfold active in H. apply filter_In in H. exact H. Qed.
Lemma named_label : forall M (m : Model) (c : Component M), named m (co_name c) (co_id c) = label m c.
Proof. reflexivity. Qed.
Lemma get_surface_some : forall m id s, get_surface m id = Ok s -> In s (m_surfaces m) /\ co_id s = id.
Proof. intros m id s H. unfold get_surface in H. destruct (find_component id (m_surfaces m)) eqn:E; cbn in H; [|discriminate H]. injection H as ->. apply find_component_Some in E. exact E. Qed.
Lemma get_line_some : forall m id s, get_line m id = Ok s -> In s (m_lines m) /\ co_id s = id.
Proof. intros m id s H. unfold get_line in H. destruct (find_component id (m_lines m)) eqn:E; cbn in H; [|discriminate H]. injection H as ->. apply find_component_Some in E. exact E. Qed.

(** one loop over the active components *)
Lemma components_loop : forall M T d (Q : uuid -> InspectionIssues T -> Prop) (body : Component M -> outcome (InspectionIssues T)) l acc r,
  (forall c x, In c (active l) -> body c = Ok x -> Q (co_id c) x) -> explained_map d Q acc ->
  foldM (fun acc c => let! x := body c in Ok (add_issues_to_map (co_id c) x acc)) (active l) acc = Ok r -> explained_map d Q r.
Proof.
  intros M T d Q body l acc r H H0 E. refine (foldM_inv _ _ _ _ _ _ _ _ H0 E). intros s c s' Hc Hs F.
  apply bind_Ok in F. destruct F as (x & Hx & F). injection F as <-. apply explained_map_add; [exact Hs|]. apply H; assumption.
Qed.
Lemma components_fold : forall M T d (Q : uuid -> InspectionIssues T -> Prop) (body : Component M -> InspectionIssues T) l acc,
  (forall c, In c (active l) -> Q (co_id c) (body c)) -> explained_map d Q acc ->
  explained_map d Q (fold_left (fun acc c => add_issues_to_map (co_id c) (body c) acc) (active l) acc).
Proof.
  intros M T d Q body l acc H H0. apply fold_inv; [|exact H0]. intros s c Hc Hs. apply explained_map_add; [exact Hs|]. apply H; exact Hc.
Qed.
Lemma about_active : forall M T m (l : list (Component M)) kind suffix (P : Component M -> T -> string -> Prop) c x,
  In c (active l) -> explained (StrCat [kind; named m (co_name c) (co_id c); suffix]) (P c) x -> about m l kind suffix P (co_id c) x.
Proof. intros M T m l kind suffix P c x Hc Hx. apply in_active in Hc. destruct Hc as [Hc Ha]. exists c. auto. Qed.

(** *** Colocation *)
Lemma component_colocation_explained : forall M geo m kind t (points : M -> list Point) (c : Component M) (l : list (Component M)) d
    (Q : uuid -> InspectionIssues (list nat) -> Prop) acc r,
  (forall x, about m l kind " colocated vertices" (component_colocation_text geo m kind points) (co_id c) x -> Q (co_id c) x) ->
  In c (active l) -> explained_map d Q acc ->
  add_component_colocated_points geo m kind t (points (co_mesh c)) (co_name c) (co_id c) acc = Ok r -> explained_map d Q r.
Proof.
  intros M geo m kind t points c l d Q acc r HQ Hc Hacc H. unfold add_component_colocated_points in H.
  apply bind_Ok in H. destruct H as (groups & _ & H). apply bind_Ok in H. destruct H as (pts & _ & H).
  assert (G : explained_map d Q (add_issues_to_map (co_id c)
    (fold_left (fun r g => add_issue g (StrCat [kind; named m (co_name c) (co_id c); " has vertices "; group_string g; " colocated at position [";
                             g_point_string geo (nth (nth 0 g 0) (points (co_mesh c)) []); "]"]%string) r)
      pts (new_issues (StrCat [kind; named m (co_name c) (co_id c); " colocated vertices"]%string))) acc)).
  { apply explained_map_add; [exact Hacc|]. apply HQ. apply about_active; [exact Hc|].
    apply fold_inv; [|apply explained_new]. intros s g _ Hs. apply explained_add; [exact Hs|].
    unfold component_colocation_text. rewrite group_string_indices. destruct g; reflexivity. }
  destruct pts; injection H as <-; [exact Hacc|exact G].
Qed.
Lemma colocation_map_explained : forall geo m r, inspect_meshes_point_colocations geo m = Ok r ->
  explained_map "colocated points"%string (model_colocation geo m) r.
Proof.
  intros geo m r H. unfold inspect_meshes_point_colocations, add_model_components_colocated_points_groups, add_lines_surfaces_colocated_points in H.
  apply bind_Ok in H. destruct H as (a2 & H & H3). apply bind_Ok in H. destruct H as (a1 & H1 & H2).
  assert (E1 : explained_map "colocated points"%string (model_colocation geo m) a1).
  { refine (foldM_inv _ _ _ _ _ _ _ _ _ H1); [|apply explained_map_new]. intros s c s' Hc Hs F.
    refine (component_colocation_explained _ _ _ _ _ ec_points c (m_lines m) _ _ _ _ _ Hc Hs F). intros x Hx. left. exact Hx. }
  assert (E2 : explained_map "colocated points"%string (model_colocation geo m) a2).
  { refine (foldM_inv _ _ _ _ _ _ _ _ E1 H2). intros s c s' Hc Hs F.
    refine (component_colocation_explained _ _ _ _ _ sm_points c (m_surfaces m) _ _ _ _ _ Hc Hs F). intros x Hx. right. left. exact Hx. }
  refine (foldM_inv _ _ _ _ _ _ _ _ E2 H3). intros s c s' Hc Hs F.
  refine (component_colocation_explained _ _ _ _ _ so_points c (m_blocks m) _ _ _ _ _ Hc Hs F). intros x Hx. right. right. exact Hx.
Qed.
Lemma unique_colocated_explained : forall geo m d r0 r, unique_ids m -> resolvable m -> explained d (unique_colocation_text geo m) r0 ->
  colocated_unique_vertices_groups geo m r0 = Ok r -> explained d (unique_colocation_text geo m) r.
Proof.
  intros geo m d r0 r Hu Hr H0 H. destruct (uvc_create_spec m Hu Hr) as (u & l & Hc & [Hs Hl] & Hp & Hlen & Hmap).
  unfold colocated_unique_vertices_groups in H. rewrite Hc in H. cbn [bind] in H. rewrite Hp in H.
  apply bind_Ok in H. destruct H as (groups & Hg & H). refine (foldM_inv _ _ _ _ _ _ _ _ H0 H). intros s g s' Hin Hs' F.
  apply bind_Ok in F. destruct F as (fixed & Hf & F). apply bind_Ok in F. destruct F as (p & Hpt & F). injection F as <-.
  apply explained_add; [exact Hs'|].
  destruct (colocated_points_groups_eq geo (map snd l) (colocated_mapping_ok _ _ _ Hg)) as (groups' & Hg' & Hi).
  rewrite Hg in Hg'. injection Hg' as <-. rewrite Hi in Hin. apply in_place_groups in Hin. destruct Hin as (x & _ & _ & Hlong).
  destruct g as [|a g]; [cbn in Hlong; lia|]. cbn [mapM nth] in Hf, Hpt. apply bind_Ok in Hf. destruct Hf as (i & Hi' & Hf).
  apply bind_Ok in Hf. destruct Hf as (rest & _ & Hf). injection Hf as <-. exists p. rewrite group_string_indices. split; [|reflexivity].
  cbn [hd]. apply Hl. unfold out2in0 in Hi'. destruct (find _ _) as [[j v]|] eqn:E; [|discriminate Hi']. injection Hi' as ->.
  apply find_some in E. destruct E as [E Hv]. cbn in Hv. apply opt_eqb_eq in Hv. subst v. apply in_enum in E. apply Hmap in E.
  unfold Model_Colocation.mesh_point in Hpt. destruct (nth_error (map snd l) a) as [q|] eqn:Q; [|discriminate Hpt]. injection Hpt as ->.
  rewrite nth_error_map in E, Q. destruct (nth_error l a) as [[i' p']|] eqn:L; [|discriminate E]. cbn in E, Q. injection E as ->. injection Q as ->.
  apply nth_error_In in L. exact L.
Qed.
Lemma unique_different_explained : forall geo m d r0 r, explained d (says different_positions_text) r0 ->
  unique_vertices_linked_to_different_points geo m r0 = Ok r -> explained d (says different_positions_text) r.
Proof.
  intros geo m d r0 r H0 H. unfold unique_vertices_linked_to_different_points in H. apply bind_Ok in H. destruct H as (u & _ & H).
  refine (report_inv _ _ _ _ _ (fun v => v) _ _ _ _ _ H0 H). intros uv _ _. reflexivity.
Qed.

(** *** Adjacency *)
Lemma surface_adjacency_explained : forall lk m s r, surface_adjacency_issues lk m s = Ok r ->
  explained (StrCat ["Surface "; named m (co_name s) (co_id s); " polygon edges adjacency issues"]%string) (surface_adjacency_text (co_mesh s)) r.
Proof.
  intros lk m s r H. unfold surface_adjacency_issues in H. apply bind_Ok in H. destruct H as (i & Hi & H). cbv zeta in H.
  refine (report_inv _ _ _ _ _ (fun e => e) _ _ _ _ _ _ H).
  - intros e _ He. unfold surface_adjacency_text. destruct (sm_adjacent (co_mesh s) e) as [q|] eqn:A; [|destruct e; reflexivity].
    exfalso. unfold border_edge_is_wrong, is_edge_on_border in He. rewrite A in He. discriminate He.
  - apply adjacency_explained in Hi. eapply explained_set. eapply explained_weaken; [|exact Hi]. intros e t [Ht Ha].
    unfold surface_adjacency_text. destruct (sm_adjacent (co_mesh s) e); [exact Ht|]. exfalso. apply Ha. reflexivity.
Qed.
Lemma block_adjacency_explained : forall lk m b r, block_adjacency_issues lk m b = Ok r ->
  explained (StrCat ["Block "; named m (co_name b) (co_id b); " polyhedron facets adjacencies issues"]%string) (block_adjacency_text (co_mesh b)) r.
Proof.
  intros lk m s r H. unfold block_adjacency_issues in H. apply bind_Ok in H. destruct H as (i & Hi & H). cbv zeta in H.
  refine (report_inv _ _ _ _ _ (fun e => e) _ _ _ _ _ _ H).
  - intros e _ He. unfold block_adjacency_text. destruct (so_adjacent (co_mesh s) e) as [q|] eqn:A; [|destruct e; reflexivity].
    exfalso. unfold border_facet_is_wrong, is_facet_on_border in He. rewrite A in He. discriminate He.
  - apply facet_adjacency_explained in Hi. eapply explained_set. eapply explained_weaken; [|exact Hi]. intros e t [Ht Ha].
    unfold block_adjacency_text. destruct (so_adjacent (co_mesh s) e); [exact Ht|]. exfalso. apply Ha. reflexivity.
Qed.
Lemma surfaces_adjacency_map : forall lk m d acc r, explained_map d (model_surface_adjacency m) acc ->
  add_surfaces_edges_with_wrong_adjacencies lk m acc = Ok r -> explained_map d (model_surface_adjacency m) r.
Proof.
  intros lk m d acc r H0 H. refine (components_loop _ _ _ _ (surface_adjacency_issues lk m) _ _ _ _ H0 H).
  intros c x Hc Hx. apply (about_active _ _ m (m_surfaces m) _ _ (fun s => surface_adjacency_text (co_mesh s)) c x Hc). exact (surface_adjacency_explained lk m c x Hx).
Qed.
Lemma blocks_adjacency_map : forall lk m d acc r, explained_map d (model_block_adjacency m) acc ->
  add_blocks_facets_with_wrong_adjacencies lk m acc = Ok r -> explained_map d (model_block_adjacency m) r.
Proof.
  intros lk m d acc r H0 H. refine (components_loop _ _ _ _ (block_adjacency_issues lk m) _ _ _ _ H0 H).
  intros c x Hc Hx. apply (about_active _ _ m (m_blocks m) _ _ (fun s => block_adjacency_text (co_mesh s)) c x Hc). exact (block_adjacency_explained lk m c x Hx).
Qed.

(** *** Degeneration *)
Lemma surface_tasks_results : forall ms geo m threshold to_enable st results st',
  run_surface_tasks ms geo m threshold to_enable st = (results, st') ->
  forall id r, In (id, Ok r) results -> model_edges_degeneration ms geo m id r.
Proof.
  intros ms geo m threshold to_enable st results st' H.
  change results with (fst (results, st')). rewrite <- H. unfold run_surface_tasks.
  apply (fold_inv _ _ (fun p => forall id r, In (id, Ok r) (fst p) -> model_edges_degeneration ms geo m id r)).
  - intros [rs s] c Hc Hs id r Hin. destruct (surface_task _ _ _ _ _ _ _) as [x stored] eqn:E. cbn [fst] in Hin.
    apply in_app_or in Hin. destruct Hin as [Hin|[K|[]]]; [apply Hs; exact Hin|]. injection K as <- ->.
    right. left. refine (about_active _ _ m _ _ _ (fun s => mesh_edge_text geo (sm_points (co_mesh s)) (sm_edges (co_mesh s))) c r Hc _).
    unfold surface_task in E. destruct (surface_small_edges _ _ _ _ _) as [i is] eqn:F. injection E as E _.
    apply bind_Ok in E. destruct E as (i' & -> & E). injection E as <-. apply explained_set with (d := "degenerated edges"%string).
    eapply mesh_edges_explained. unfold surface_small_edges in F. rewrite F. reflexivity.
  - intros id r [].
Qed.
Lemma small_edges_map : forall ms geo m threshold d acc st r, explained_map d (model_edges_degeneration ms geo m) acc ->
  fst (add_small_edges ms geo m threshold acc st) = Ok r -> explained_map d (model_edges_degeneration ms geo m) r.
Proof.
  intros ms geo m threshold d acc st r H0 H. unfold add_small_edges in H.
  destruct (surfaces_on_which_enable_edges m st) as [to_enable st1]. destruct (run_surface_tasks _ _ _ _ _ _) as [results st2] eqn:E.
  cbn [fst] in H. unfold collect in H. refine (foldM_inv _ _ _ _ _ _ _ _ _ H).
  - intros s [id x] s' Hin Hs F. apply bind_Ok in F. destruct F as (x' & -> & F). injection F as <-. apply explained_map_add; [exact Hs|].
    eapply surface_tasks_results; [exact E|exact Hin].
  - unfold add_lines_small_edges. apply components_fold; [|exact H0]. intros c Hc. left.
    apply (about_active _ _ m _ _ _ (fun c => curve_edge_text ms geo (co_mesh c)) c _ Hc). unfold line_small_edges.
    eapply explained_set. apply curve_edges_explained.
Qed.
Lemma polygons_map : forall m threshold d acc, explained_map d (model_polygons_degeneration m) acc ->
  explained_map d (model_polygons_degeneration m) (add_small_height_polygons m threshold acc).
Proof.
  intros m threshold d acc H0. unfold add_small_height_polygons. apply components_fold; [|exact H0]. intros c Hc.
  apply (about_active _ _ m _ _ _ (fun _ => says flat_polygon_text) c _ Hc). eapply explained_set. apply polygons_explained.
Qed.
Lemma solid_elements_maps : forall ms geo m threshold d1 d2 maps st r,
  explained_map d1 (model_edges_degeneration ms geo m) (fst maps) -> explained_map d2 (model_polyhedra_degeneration m) (snd maps) ->
  fst (add_solid_small_elements ms geo m threshold maps st) = Ok r ->
  explained_map d1 (model_edges_degeneration ms geo m) (fst r) /\ explained_map d2 (model_polyhedra_degeneration m) (snd r).
Proof.
  intros ms geo m threshold d1 d2 maps st r H1 H2. unfold add_solid_small_elements.
  set (I := fun p : outcome (InspectionIssuesMap nat * InspectionIssuesMap nat) * ModelEdges => forall r, fst p = Ok r ->
    explained_map d1 (model_edges_degeneration ms geo m) (fst r) /\ explained_map d2 (model_polyhedra_degeneration m) (snd r)).
  assert (G : I (fold_left (fun acc b => block_small_elements ms geo m threshold b acc) (active (m_blocks m)) (Ok maps, st))).
  { apply fold_inv.
    - intros [x s] b Hb Hs r' E. unfold block_small_elements in E. cbv zeta in E.
      destruct (solid_small_edges _ _ _ _ _) as [i is] eqn:F. cbn [fst] in E.
      apply bind_Ok in E. destruct E as (mp & -> & E). apply bind_Ok in E. destruct E as (i' & -> & E). injection E as <-.
      destruct (Hs mp eq_refl) as [K1 K2]. cbn [fst snd]. split.
      + apply explained_map_add; [exact K1|]. right. right.
        apply (about_active _ _ m _ _ _ (fun b => mesh_edge_text geo (so_points (co_mesh b)) (so_edges (co_mesh b))) b _ Hb).
        apply explained_set with (d := "degenerated edges"%string). eapply mesh_edges_explained. unfold solid_small_edges in F. rewrite F. reflexivity.
      + apply explained_map_add; [exact K2|].
        apply (about_active _ _ m _ _ _ (fun _ => says flat_polyhedron_text) b _ Hb). eapply explained_set. apply polyhedra_explained.
    - intros r' E. cbn [fst] in E. injection E as <-. auto. }
  intros H. apply G. exact H.
Qed.

(** *** Manifold *)
Lemma surface_vertices_map : forall geo m d acc r, explained_map d (model_manifold_vertices geo m) acc ->
  add_surfaces_meshes_non_manifold_vertices geo m acc = Ok r -> explained_map d (model_manifold_vertices geo m) r.
Proof.
  intros geo m d acc r H0 H. unfold add_surfaces_meshes_non_manifold_vertices in H. refine (foldM_inv _ _ _ _ _ _ _ _ H0 H).
  intros s c s' Hc Hs F. apply bind_Ok in F. destruct F as (x & Hx & F). injection F as <-. apply explained_map_add; [exact Hs|]. left.
  apply (about_active _ _ m _ _ _ (fun s => vertex_text geo (sm_points (co_mesh s))) c _ Hc). eapply explained_set. eapply surface_vertices_explained. exact Hx.
Qed.
Lemma vertices_map : forall geo m d acc r, explained_map d (model_manifold_vertices geo m) acc ->
  add_component_meshes_non_manifold_vertices geo m acc = Ok r -> explained_map d (model_manifold_vertices geo m) r.
Proof.
  intros geo m d acc r H0 H. unfold add_component_meshes_non_manifold_vertices in H. apply bind_Ok in H. destruct H as (a & Ha & H).
  apply (surface_vertices_map _ _ d) in Ha; [|exact H0]. refine (foldM_inv _ _ _ _ _ _ _ _ Ha H).
  intros s c s' Hc Hs F. apply bind_Ok in F. destruct F as (x & Hx & F). injection F as <-. apply explained_map_add; [exact Hs|]. right.
  apply (about_active _ _ m _ _ _ (fun s => vertex_text geo (so_points (co_mesh s))) c _ Hc). eapply explained_set. eapply solid_vertices_explained. exact Hx.
Qed.
Lemma surface_edges_map : forall ho m d acc r, explained_map d (model_manifold_edges m) acc ->
  add_surfaces_meshes_non_manifold_edges ho m acc = Ok r -> explained_map d (model_manifold_edges m) r.
Proof.
  intros ho m d acc r H0 H. unfold add_surfaces_meshes_non_manifold_edges in H. refine (foldM_inv _ _ _ _ _ _ _ _ H0 H).
  intros s c s' Hc Hs F. cbv zeta in F. injection F as <-. apply explained_map_add; [exact Hs|]. left.
  apply (about_active _ _ m _ _ _ (fun s => surface_edge_text (co_mesh s)) c _ Hc). eapply explained_set. apply surface_edges_explained.
Qed.
Lemma edges_map : forall ho m d acc r, explained_map d (model_manifold_edges m) acc ->
  add_component_meshes_non_manifold_edges ho m acc = Ok r -> explained_map d (model_manifold_edges m) r.
Proof.
  intros ho m d acc r H0 H. unfold add_component_meshes_non_manifold_edges in H. apply bind_Ok in H. destruct H as (a & Ha & H).
  apply (surface_edges_map _ _ d) in Ha; [|exact H0]. refine (foldM_inv _ _ _ _ _ _ _ _ Ha H).
  intros s c s' Hc Hs F. apply bind_Ok in F. destruct F as (x & Hx & F). injection F as <-. apply explained_map_add; [exact Hs|]. right.
  apply (about_active _ _ m _ _ _ (fun s => solid_edge_text (co_mesh s)) c _ Hc). eapply explained_set. eapply solid_edges_explained. exact Hx.
Qed.
Lemma facets_map : forall ho m d acc r, explained_map d (model_manifold_facets m) acc ->
  add_component_meshes_non_manifold_facets ho m acc = Ok r -> explained_map d (model_manifold_facets m) r.
Proof.
  intros ho m d acc r H0 H. unfold add_component_meshes_non_manifold_facets in H. refine (foldM_inv _ _ _ _ _ _ _ _ H0 H).
  intros s c s' Hc Hs F. cbv zeta in F. injection F as <-. apply explained_map_add; [exact Hs|].
  apply (about_active _ _ m _ _ _ (fun _ => says facet_text) c _ Hc). eapply explained_set. apply facets_explained.
Qed.

(** *** The model *)
Lemma model_edge_says : forall m kv, In kv (model_edges m) -> model_edge_text m kv (model_edge_message m kv).
Proof.
  intros m [[a b] ids] Hin. apply in_model_edges in Hin. destruct Hin as [Hids _]. cbn [model_edge_text]. cbv zeta. left.
  assert (G : forall ids, (forall id, In id ids -> exists s, In s (m_surfaces m) /\ co_id s = id) ->
    surface_names m ids (StrCat (map (fun id => StrCat [named m (match find_component id (m_surfaces m) with Some s => co_name s | None => None end) id; ", "]%string) ids))).
  { intros l. induction l as [|id l IH]; intros Hl; [constructor|].
    destruct (Hl id (or_introl eq_refl)) as (s & Hs & Hid).
    destruct (find_component id (m_surfaces m)) as [s'|] eqn:E.
    2:{ exfalso. assert (K : In id (map co_id (m_surfaces m))) by (rewrite <- Hid; apply in_map; exact Hs). apply Proof_Topology.find_component_exists in K. destruct K as (c & K). congruence. }
    pose proof (find_component_Some _ _ _ _ E) as [Hs' Hid'].
    replace (StrCat (map (fun id => StrCat [named m (match find_component id (m_surfaces m) with Some s => co_name s | None => None end) id; ", "]%string) (id :: l)))
      with (((label m s' ++ ", ") ++ StrCat (map (fun id => StrCat [named m (match find_component id (m_surfaces m) with Some s => co_name s | None => None end) id; ", "]) l))%string).
    - rewrite <- Hid'. constructor; [exact Hs'|]. apply IH. intros x Hx. apply Hl. right. exact Hx.
    - cbn [map]. rewrite E. unfold StrCat at 5. cbn [fold_right]. fold (StrCat (map (fun id => StrCat [named m (match find_component id (m_surfaces m) with Some s => co_name s | None => None end) id; ", "]%string) l)).
      f_equal. rewrite <- Hid'. reflexivity. }
  eexists. split; [apply G|].
  - intros id Hid. rewrite Hids in Hid. apply in_map_iff in Hid. destruct Hid as (x & <- & Hx).
    apply (in_with_key _ _ _ uv_pair_eqb_eq) in Hx. destruct Hx as [Hx _]. apply in_occurrences in Hx. destruct Hx as [Hx _].
    apply nth_error_In, in_active in Hx. exists (snd (fst x)). split; [apply Hx|reflexivity].
  - unfold model_edge_message. cbn [fst snd]. unfold StrCat at 1 4 5. cbn [fold_right]. rewrite !append_empty, !append_assoc. reflexivity.
Qed.
Lemma model_edges_explained : forall ho m d r0 r, explained d (model_edge_text m) r0 -> add_model_non_manifold_edges ho m r0 = Ok r ->
  explained d (model_edge_text m) r.
Proof.
  intros ho m d r0 r H0 H. unfold add_model_non_manifold_edges in H. cbv zeta in H. refine (foldM_inv _ _ _ _ _ _ _ _ _ H).
  - intros s l s' Hl Hs F. apply bind_Ok in F. destruct F as (o & Ho & F). injection F as <-. destruct o as [[a b]|]; [|exact Hs].
    apply explained_add; [exact Hs|]. cbn [model_edge_text]. cbv zeta. right. apply in_active in Hl. exists l. split; [apply Hl|]. split; [reflexivity|].
    unfold lonely_line_message. unfold StrCat at 1 2 3. cbn [fold_right fst snd]. rewrite !append_empty, !append_assoc. reflexivity.
  - apply fold_inv; [|exact H0]. intros s kv Hkv Hs. apply visit_in in Hkv. destruct (Nat.leb _ 1); [exact Hs|].
    apply explained_add; [exact Hs|]. apply model_edge_says. exact Hkv.
Qed.
Lemma model_facets_explained : forall m d r0 r, explained d (model_facet_text m) r0 -> add_model_non_manifold_facets m r0 = Ok r ->
  explained d (model_facet_text m) r.
Proof.
  intros m d r0 r H0 H. unfold add_model_non_manifold_facets in H. refine (foldM_inv _ _ _ _ _ _ _ _ H0 H).
  intros s l s' Hl Hs F. apply bind_Ok in F. destruct F as (o & Ho & F). injection F as <-. destruct o as [vs|]; [|exact Hs].
  apply explained_add; [exact Hs|]. apply in_active in Hl. exists l. split; [apply Hl|]. split; reflexivity.
Qed.

(** *** Intersections *)
Lemma traverses_inv : forall S (I : S -> Prop) (act : S -> nat * nat -> outcome (S * bool)) fl cands s r,
  traverses act fl cands s r -> (forall s c s' b, I s -> act s c = Ok (s', b) -> I s') -> I s -> forall x, r = Ok x -> I x.
Proof.
  intros S I act fl cands s r H HI. induction H as [fl s|cands s|fl cands c rest s s' b r P A T IH|fl cands c rest s e P A|fl cands c rest s P A]; intros Hs x E.
  - injection E as <-. exact Hs.
  - injection E as <-. exact Hs.
  - apply IH; [|exact E]. exact (HI _ _ _ _ Hs A).
  - discriminate E.
  - discriminate E.
Qed.
Lemma record_hits : forall hit stop fl cands found, traverses (record_action hit stop) fl cands [] (Ok found) ->
  forall c, In c found -> hit c = Ok true.
Proof.
  intros hit stop fl cands found H.
  refine (traverses_inv _ (fun l => forall c, In c l -> hit c = Ok true) _ _ _ _ _ H _ _ found eq_refl); [|intros c []].
  intros s c s' b Hs A x Hx. unfold record_action in A. destruct (hit c) as [[|]| |] eqn:E; cbn in A; try discriminate A; injection A as <- _.
  - apply in_app_or in Hx. destruct Hx as [Hx|[<-|[]]]; [apply Hs; exact Hx|exact E].
  - apply Hs. exact Hx.
Qed.
Lemma gather_in : forall rs l, gather rs = Ok l -> forall x, In x l -> exists r, In (Ok r) rs /\ In x r.
Proof.
  intros rs l H. unfold gather in H. destruct (existsb _ rs); [discriminate H|].
  refine (foldM_inv _ _ (fun acc => forall x, In x acc -> exists r, In (Ok r) rs /\ In x r) _ rs [] l _ _ H); [|intros x []].
  intros acc r acc' Hr Ha F x Hx. apply bind_Ok in F. destruct F as (r' & -> & F). injection F as <-.
  apply in_app_or in Hx. destruct Hx as [Hx|Hx]; [apply Ha; exact Hx|]. exists r'. auto.
Qed.
(** an element pair of a surface pair task *)
Definition surface_pair_item (auto : bool) (x : ComponentMeshElement * ComponentMeshElement) : Prop :=
  exists i j k l, x = ((mkCID SurfaceT i, k), (mkCID SurfaceT j, l)) /\ (auto = true -> i = j).
Definition is_auto (a : SurfacesAction) : bool := match a with AutoIntersections => true | _ => false end.
Lemma pair_task_items : forall px m a s1 s2 cands r, pair_task px m a s1 s2 cands (Ok r) -> forall x, In x r -> surface_pair_item (is_auto a) x.
Proof.
  intros px m a s1 s2 cands r (found & T & E) x Hx. destruct found as [f| |]; cbn in E; try discriminate E. injection E as ->.
  unfold located in Hx. apply in_map_iff in Hx. destruct Hx as ([p q] & <- & Hc). exists (co_id s1), (co_id s2), p, q. split; [reflexivity|].
  intros Ha. destruct a; try discriminate Ha. unfold surfaces_action in T. apply (record_hits _ _ _ _ _ T) in Hc.
  cbn [surfaces_hit] in Hc. unfold same_surface in Hc. destruct (Nat.eqb (co_id s1) (co_id s2)) eqn:E; [apply Nat.eqb_eq; exact E|discriminate Hc].
Qed.
Lemma Forall2_in_r : forall A B (R : A -> B -> Prop) l l' y, Forall2 R l l' -> In y l' -> exists x, In x l /\ R x y.
Proof.
  intros A B R l l' y F. induction F as [|a b l l' H F IH]; intros Hy; [destruct Hy|]. destruct Hy as [<-|Hy].
  - exists a. split; [left; reflexivity|exact H].
  - destruct (IH Hy) as (x & Hx & Hr). exists x. split; [right; exact Hx|exact Hr].
Qed.
Lemma polygons_items : forall px m trees a r, intersecting_polygons px m trees a (Ok r) -> forall x, In x r -> surface_pair_item (is_auto a) x.
Proof.
  intros px m trees a r H x Hx. unfold intersecting_polygons in H. destruct (existsb _ _); [injection H as ->; destruct Hx|].
  destruct H as (selfs & overlaps & others & F1 & _ & F2 & E). symmetry in E. destruct (gather_in _ _ E x Hx) as (r' & Hr & Hx').
  apply in_app_or in Hr. destruct Hr as [Hr|Hr].
  - destruct (Forall2_in_r _ _ _ _ _ _ F1 Hr) as (s & _ & T). unfold self_task in T. destruct (get_surface m (co_id s)); try discriminate T.
    destruct (mesh_tree_id _ _); try discriminate T. eapply pair_task_items; eassumption.
  - destruct (Forall2_in_r _ _ _ _ _ _ F2 Hr) as (c & _ & T). unfold overlap_task in T. destruct (bind _ _) as [[s1 s2]| |]; try discriminate T.
    eapply pair_task_items; eassumption.
Qed.
Lemma surfaces_elements_explained : forall px m trees d i0 r, explained d (intersection_text m) i0 ->
  add_intersecting_surfaces_elements px m trees i0 (Ok r) -> explained d (intersection_text m) r.
Proof.
  intros px m trees d i0 r H0 (found & Hf & E). destruct found as [f| |]; cbn [bind] in E; try discriminate E. symmetry in E.
  refine (foldM_inv _ _ _ _ _ _ _ _ H0 E). intros s c s' Hc Hs F.
  apply bind_Ok in F. destruct F as (s1 & H1 & F). apply bind_Ok in F. destruct F as (s2 & H2 & F). injection F as <-.
  destruct (polygons_items _ _ _ _ _ Hf c Hc) as (i & j & k & l & -> & _). unfold element_component in H1, H2. cbn in H1, H2.
  apply get_surface_some in H1. apply get_surface_some in H2. destruct H1 as [I1 <-]. destruct H2 as [I2 <-].
  apply explained_add; [exact Hs|]. left. exists s1, s2. auto 8.
Qed.
Lemma self_elements_explained : forall px m trees d i0 r, explained d (self_intersection_text m) i0 ->
  add_surface_auto_intersecting_elements px m trees i0 (Ok r) -> explained d (self_intersection_text m) r.
Proof.
  intros px m trees d i0 r H0 (found & Hf & E). destruct found as [f| |]; cbn [bind] in E; try discriminate E. symmetry in E.
  refine (foldM_inv _ _ _ _ _ _ _ _ H0 E). intros s c s' Hc Hs F.
  apply bind_Ok in F. destruct F as (s1 & H1 & F). injection F as <-.
  destruct (polygons_items _ _ _ _ _ Hf c Hc) as (i & j & k & l & -> & Hij). unfold element_component in H1. cbn in H1.
  rewrite <- (Hij eq_refl). apply get_surface_some in H1. destruct H1 as [I1 <-].
  apply explained_add; [exact Hs|]. exists s1. auto 8.
Qed.
Lemma loop_inv : forall A S (I : S -> Prop) (body : A -> S -> outcome S -> Prop) l s r, loop body l s r ->
  (forall a s s', I s -> body a s (Ok s') -> I s') -> I s -> forall x, r = Ok x -> I x.
Proof.
  intros A S I body l s r H HI. induction H; intros Hs x E; try discriminate E.
  - injection E as <-. exact Hs.
  - apply IHloop; [|exact E]. eapply HI; eassumption.
Qed.
Definition line_pair_item (x : ComponentMeshElement * ComponentMeshElement) : Prop :=
  exists i j k l, x = ((mkCID SurfaceT i, k), (mkCID LineT j, l)).
Lemma lines_items : forall px m trees lines r, intersecting_lines_surfaces px m trees lines (Ok r) -> forall x, In x r -> line_pair_item x.
Proof.
  intros px m trees lines r H. unfold intersecting_lines_surfaces in H.
  destruct (existsb _ (active (m_surfaces m))); [injection H as ->; intros x []|].
  destruct (existsb _ (active (m_lines m))); [injection H as ->; intros x []|].
  refine (loop_inv _ _ (fun acc => forall x, In x acc -> line_pair_item x) _ _ _ _ H _ _ r eq_refl); [|intros x []].
  intros s acc acc' Ha B. unfold surface_step in B. destruct (mesh_tree_id _ _) as [i| |]; try discriminate B.
  refine (loop_inv _ _ (fun acc => forall x, In x acc -> line_pair_item x) _ _ _ _ B _ Ha acc' eq_refl).
  intros l a a' Hl T. unfold line_surface_step in T. destruct (Nat.eqb _ 0); [injection T as ->; exact Hl|].
  destruct (bind _ _) as [[[s' l'] j]| |]; try discriminate T. destruct T as (found & _ & E).
  destruct found as [f| |]; cbn in E; try discriminate E. injection E as ->. intros x Hx. apply in_app_or in Hx.
  destruct Hx as [Hx|Hx]; [apply Hl; exact Hx|]. unfold located in Hx. apply in_map_iff in Hx. destruct Hx as ([p q] & <- & _).
  exists (co_id s), (co_id l), p, q. reflexivity.
Qed.
Lemma lines_elements_explained : forall px m trees lines d i0 r, explained d (intersection_text m) i0 ->
  add_intersecting_lines_surfaces_elements px m trees lines i0 (Ok r) -> explained d (intersection_text m) r.
Proof.
  intros px m trees lines d i0 r H0 (found & Hf & E). destruct found as [f| |]; cbn [bind] in E; try discriminate E. symmetry in E.
  refine (foldM_inv _ _ _ _ _ _ _ _ H0 E). intros s c s' Hc Hs F.
  apply bind_Ok in F. destruct F as (s1 & H1 & F). apply bind_Ok in F. destruct F as (l1 & H2 & F). injection F as <-.
  destruct (lines_items _ _ _ _ _ Hf c Hc) as (i & j & k & l & ->). unfold element_component in H1, H2. cbn in H1, H2.
  apply get_surface_some in H1. apply get_line_some in H2. destruct H1 as [I1 <-]. destruct H2 as [I2 <-].
  apply explained_add; [exact Hs|]. right. exists s1, l1. auto 8.
Qed.
Lemma brep_intersections_explained : forall px m trees lines r, brep_inspect_intersections px m trees lines (Ok r) ->
  explained "intersections"%string (intersection_text m) r.
Proof.
  intros px m trees lines r (r1 & H1 & H2). destruct r1 as [i1| |]; try discriminate H2.
  eapply lines_elements_explained; [|exact H2]. eapply surfaces_elements_explained; [|exact H1]. apply explained_new.
Qed.
Lemma section_intersections_explained : forall px m trees r, section_inspect_intersections px m trees (Ok r) ->
  explained "intersections"%string (intersection_text m) r.
Proof. intros px m trees r H. eapply surfaces_elements_explained; [|exact H]. apply explained_new. Qed.

(** *** Negative elements *)
Lemma section_negative_explained : forall ms m, explained_map "negative polygons"%string (model_negative_polygons m) (section_negative_elements ms m).
Proof.
  intros ms m. unfold section_negative_elements. apply components_fold; [|apply explained_map_new]. intros c Hc.
  apply (about_active _ _ m _ _ _ (fun _ => says negative_polygon_text) c _ Hc). eapply explained_set. apply negative_polygons_explained.
Qed.
Lemma brep_negative_explained : forall ms m, explained_map "negative polyhedra"%string (model_negative_polyhedra m) (brep_negative_elements ms m).
Proof.
  intros ms m. unfold brep_negative_elements. apply components_fold; [|apply explained_map_new]. intros c Hc.
  apply (about_active _ _ m _ _ _ (fun _ => says negative_polyhedron_text) c _ Hc). eapply explained_set. apply negative_polyhedra_explained.
Qed.
