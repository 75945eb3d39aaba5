(** Mesh inspections do not read inactive components. *)
From Coq Require Import String Ascii List Arith NArith ZArith Bool Lia Permutation.
From Verif Require Import Base BaseFacts Model_Issues Types Model_Hash Spec_Colocation Model_Colocation Model_Adjacency Model_Degeneration Model_Negative
  Model_Manifold Model_Intersections Model_Topology Model_BRep Model_Blocks Model_Results Spec_Inactive Proof_Colocation2.
Import ListNotations.
Open Scope list_scope.

Lemma active_same : forall M (l l' : list (Component M)), Forall2 same_or_inactive l l' -> active l = active l'.
Proof.
  intros M l l' F. induction F as [|c c' l l' [->|(E & A & A')] F IH]; [reflexivity| |]; unfold active in *; cbn [filter].
  - rewrite IH. reflexivity.
  - rewrite A, A'. exact IH.
Qed.
Lemma ids_same : forall M (l l' : list (Component M)), Forall2 same_or_inactive l l' -> map co_id l = map co_id l'.
Proof. intros M l l' F. induction F as [|c c' l l' [->|(E & A & A')] F IH]; cbn; congruence. Qed.
Lemma find_same : forall M (l l' : list (Component M)) id, Forall2 same_or_inactive l l' ->
  match find_component id l, find_component id l' with
  | Some c, Some c' => same_or_inactive c c'
  | None, None => True
  | _, _ => False
  end.
Proof.
  intros M l l' id F. induction F as [|c c' l l' S F IH]; [exact I|]. cbn [find_component].
  assert (E : co_id c = co_id c') by (destruct S as [->|(E & _)]; auto). rewrite <- E. destruct (Nat.eqb (co_id c) id); [exact S|exact IH].
Qed.
Lemma find_active : forall M (l l' : list (Component M)) c, Forall2 same_or_inactive l l' -> NoDup (map co_id l) -> In c l -> co_active c = true ->
  find_component (co_id c) l = Some c /\ find_component (co_id c) l' = Some c.
Proof.
  intros M l l' c F N I A. pose proof (find_component_In _ _ _ N I) as E. split; [exact E|].
  pose proof (find_same _ _ _ (co_id c) F) as H. rewrite E in H. destruct (find_component (co_id c) l') as [c'|]; [|destruct H].
  destruct H as [<-|(_ & H & _)]; [reflexivity|congruence].
Qed.
Lemma in_active : forall M (l : list (Component M)) c, In c (active l) <-> In c l /\ co_active c = true.
Proof. intros M l c. apply filter_In. Qed.
Lemma unique_same : forall m m', same_but_inactive m m' -> unique_ids m -> unique_ids m'.
Proof.
  intros m m' H U. unfold unique_ids, all_ids in *.
  rewrite <- (ids_same _ _ _ (sb_corners _ _ H)), <- (ids_same _ _ _ (sb_lines _ _ H)), <- (ids_same _ _ _ (sb_surfaces _ _ H)), <- (ids_same _ _ _ (sb_blocks _ _ H)).
  exact U.
Qed.
Lemma same_sym : forall M (l l' : list (Component M)), Forall2 same_or_inactive l l' -> Forall2 same_or_inactive l' l.
Proof.
  intros M l l' F. induction F as [|c c' l l' S F IH]; constructor; auto. destruct S as [->|(E & A & A')]; [left; reflexivity|right; auto].
Qed.
Lemma same_but_sym : forall m m', same_but_inactive m m' -> same_but_inactive m' m.
Proof. intros m m' []. constructor; auto using same_sym. Qed.

(** proof by cases on both models: what is left of them is equal *)
Ltac both m m' H :=
  let Hc := fresh "Hc" in let Hl := fresh "Hl" in let Hs := fresh "Hs" in let Hb := fresh "Hb" in
  destruct m, m', H as [Hc Hl Hs Hb ? ? ? ? ? ? ? ? ? ?]; cbn in Hc, Hl, Hs, Hb;
  repeat match goal with E : Types.m_model_boundaries _ = _ |- _ => cbn in E | E : Types.m_cmvs _ = _ |- _ => cbn in E
    | E : Types.m_unique_vertex _ = _ |- _ => cbn in E | E : Types.m_boundary_rel _ = _ |- _ => cbn in E | E : Types.m_internal_rel _ = _ |- _ => cbn in E
    | E : Types.m_missing_exn _ = _ |- _ => cbn in E | E : Types.m_uuid_string _ = _ |- _ => cbn in E | E : Types.m_point_string _ = _ |- _ => cbn in E
    | E : Types.m_cmv_string _ = _ |- _ => cbn in E | E : Types.m_cid_string _ = _ |- _ => cbn in E end; subst.

Section Same.
Context (m m' : Model) (H : same_but_inactive m m') (U : unique_ids m).
Lemma same_title : forall name id, title m name id = title m' name id.
Proof. intros. unfold title. rewrite (sb_uuid_string _ _ H). reflexivity. Qed.
Lemma same_named : forall name id, named m name id = named m' name id.
Proof. intros. unfold named. rewrite same_title, (sb_uuid_string _ _ H). reflexivity. Qed.
Lemma active_corners : active (m_corners m) = active (m_corners m'). Proof. apply active_same, H. Qed.
Lemma active_lines : active (m_lines m) = active (m_lines m'). Proof. apply active_same, H. Qed.
Lemma active_surfaces : active (m_surfaces m) = active (m_surfaces m'). Proof. apply active_same, H. Qed.
Lemma active_blocks : active (m_blocks m) = active (m_blocks m'). Proof. apply active_same, H. Qed.

Lemma foldM_same : forall A S (f g : S -> A -> outcome S) l s, (forall s a, In a l -> f s a = g s a) -> foldM f l s = foldM g l s.
Proof.
  intros A S f g l. induction l as [|a l IH]; intros s E; [reflexivity|]. cbn [foldM]. rewrite (E s a) by (left; reflexivity).
  destruct (g s a) as [s'| |]; cbn [bind]; auto. apply IH. intros t b I. apply E. right. exact I.
Qed.
Lemma fold_same : forall A S (f g : S -> A -> S) l s, (forall s a, In a l -> f s a = g s a) -> fold_left f l s = fold_left g l s.
Proof.
  intros A S f g l. induction l as [|a l IH]; intros s E; [reflexivity|]. cbn [fold_left]. rewrite (E s a) by (left; reflexivity).
  apply IH. intros t b I. apply E. right. exact I.
Qed.

(** colocation *)
Lemma same_is_active : forall id, component_is_active m id = component_is_active m' id.
Proof.
  intros id. unfold component_is_active. rewrite (sb_missing _ _ H).
  pose proof (find_same _ _ _ id (sb_corners _ _ H)) as Fc. pose proof (find_same _ _ _ id (sb_lines _ _ H)) as Fl.
  pose proof (find_same _ _ _ id (sb_surfaces _ _ H)) as Fs. pose proof (find_same _ _ _ id (sb_blocks _ _ H)) as Fb.
  assert (A : forall M (c c' : Component M), same_or_inactive c c' -> co_active c = co_active c') by (intros M c c' [->|(_ & -> & ->)]; reflexivity).
  repeat match goal with |- context [find_component ?i ?l] => destruct (find_component i l); try contradiction end; try (f_equal; apply A; assumption); reflexivity.
Qed.
Lemma same_point : forall c, component_is_active m (cid_id (cmv_component c)) = Ok true -> model_cmv_point m c = model_cmv_point m' c.
Proof.
  intros c A. apply component_is_active_spec in A; [|exact U]. pose proof (unique_ids_facts m U) as UF.
  unfold model_cmv_point, get_block, get_line, get_surface, get_corner, or_throw. rewrite (sb_missing _ _ H).
  set (id := cid_id (cmv_component c)) in *.
  pose proof (find_same _ _ _ id (sb_corners _ _ H)) as Fc. pose proof (find_same _ _ _ id (sb_lines _ _ H)) as Fl.
  pose proof (find_same _ _ _ id (sb_surfaces _ _ H)) as Fs. pose proof (find_same _ _ _ id (sb_blocks _ _ H)) as Fb.
  assert (X : forall M (c c' : Component M) l, find_component id l = Some c -> same_or_inactive c c' -> (In c l -> co_id c = id -> co_active c = false -> False) -> c = c').
  { intros M k k' l E S G. apply find_component_Some in E as [I E]. destruct S as [S|(_ & S & _)]; [exact S|destruct (G I E S)]. }
  assert (N : forall a, component_is_active m id = Ok a -> a = true).
  { intros a E. apply component_is_active_spec in A; [|exact U]. rewrite E in A. congruence. }
  assert (Gc : forall k, In k (m_corners m) -> co_id k = id -> co_active k = false -> False).
  { intros k I E F. assert (false = true); [|discriminate]. apply N. apply component_is_active_spec; [exact U|]. unfold has_activity. eauto 8. }
  assert (Gl : forall k, In k (m_lines m) -> co_id k = id -> co_active k = false -> False).
  { intros k I E F. assert (false = true); [|discriminate]. apply N. apply component_is_active_spec; [exact U|]. unfold has_activity. eauto 8. }
  assert (Gs : forall k, In k (m_surfaces m) -> co_id k = id -> co_active k = false -> False).
  { intros k I E F. assert (false = true); [|discriminate]. apply N. apply component_is_active_spec; [exact U|]. unfold has_activity. eauto 8. }
  assert (Gb : forall k, In k (m_blocks m) -> co_id k = id -> co_active k = false -> False).
  { intros k I E F. assert (false = true); [|discriminate]. apply N. apply component_is_active_spec; [exact U|]. unfold has_activity. eauto 8. }
  destruct (cid_type (cmv_component c)).
  - destruct (find_component id (m_corners m)) eqn:E, (find_component id (m_corners m')); try contradiction; [rewrite (X _ _ _ _ E Fc (Gc _))|]; reflexivity.
  - destruct (find_component id (m_lines m)) eqn:E, (find_component id (m_lines m')); try contradiction; [rewrite (X _ _ _ _ E Fl (Gl _))|]; reflexivity.
  - destruct (find_component id (m_surfaces m)) eqn:E, (find_component id (m_surfaces m')); try contradiction; [rewrite (X _ _ _ _ E Fs (Gs _))|]; reflexivity.
  - destruct (find_component id (m_blocks m)) eqn:E, (find_component id (m_blocks m')); try contradiction; [rewrite (X _ _ _ _ E Fb (Gb _))|]; reflexivity.
  - destruct (find_component id (m_corners m)) eqn:E, (find_component id (m_corners m')); try contradiction; [rewrite (X _ _ _ _ E Fc (Gc _))|]; reflexivity.
Qed.
Lemma same_colocated_on_point : forall geo cmvs p, model_cmvs_are_colocated_on_point geo m cmvs p = model_cmvs_are_colocated_on_point geo m' cmvs p.
Proof.
  intros geo cmvs p. induction cmvs as [|c cs IH]; [reflexivity|]. cbn [model_cmvs_are_colocated_on_point]. rewrite <- same_is_active.
  destruct (component_is_active m (cid_id (cmv_component c))) as [[]| |] eqn:E; cbn [bind negb]; auto. rewrite <- (same_point _ E).
  destruct (model_cmv_point m c); cbn [bind]; auto. rewrite IH. reflexivity.
Qed.
Lemma same_unique_vertex_point : forall cmvs, model_unique_vertex_point m cmvs = model_unique_vertex_point m' cmvs.
Proof.
  intros cmvs. induction cmvs as [|c cs IH]; [reflexivity|]. cbn [model_unique_vertex_point]. rewrite <- same_is_active.
  destruct (component_is_active m (cid_id (cmv_component c))) as [[]| |] eqn:E; cbn [bind negb]; auto. rewrite <- (same_point _ E). reflexivity.
Qed.
Lemma same_nb : nb_unique_vertices m = nb_unique_vertices m'. Proof. unfold nb_unique_vertices. rewrite (sb_cmvs _ _ H). reflexivity. Qed.
Lemma same_cmvs : forall uv, component_mesh_vertices m uv = component_mesh_vertices m' uv. Proof. intros. unfold component_mesh_vertices. rewrite (sb_cmvs _ _ H). reflexivity. Qed.
Lemma same_uvc : uvc_create m = uvc_create m'.
Proof. unfold uvc_create. rewrite same_nb. apply foldM_same. intros u uv _. rewrite same_cmvs, same_unique_vertex_point. reflexivity. Qed.
Lemma same_linked : forall geo u uv, uv_linked_to_different_points geo m u uv = uv_linked_to_different_points geo m' u uv.
Proof.
  intros. unfold uv_linked_to_different_points. destruct (nth uv (uvc_old2new u) None); [|reflexivity]. destruct (Model_Colocation.mesh_point (uvc_points u) n); cbn [bind]; auto.
  rewrite same_cmvs, same_colocated_on_point. reflexivity.
Qed.
Lemma same_unique_vertices : forall geo, inspect_unique_vertices geo m = inspect_unique_vertices geo m'.
Proof.
  intros geo. unfold inspect_unique_vertices. cbv zeta.
  assert (E1 : forall r, colocated_unique_vertices_groups geo m r = colocated_unique_vertices_groups geo m' r) by (intros; unfold colocated_unique_vertices_groups; rewrite same_uvc; reflexivity).
  assert (E2 : forall r, unique_vertices_linked_to_different_points geo m r = unique_vertices_linked_to_different_points geo m' r).
  { intros r. unfold unique_vertices_linked_to_different_points. rewrite same_uvc, same_nb. destruct (uvc_create m'); cbn [bind]; auto. apply foldM_same. intros. rewrite same_linked. reflexivity. }
  rewrite E1, E2. reflexivity.
Qed.
Lemma same_colocations : forall geo, inspect_meshes_point_colocations geo m = inspect_meshes_point_colocations geo m'.
Proof.
  intros geo. unfold inspect_meshes_point_colocations, add_model_components_colocated_points_groups, add_lines_surfaces_colocated_points.
  rewrite active_lines, active_surfaces, active_blocks.
  assert (E : forall k t pts n i acc, add_component_colocated_points geo m k t pts n i acc = add_component_colocated_points geo m' k t pts n i acc).
  { clear U. intros. both m m' H. reflexivity. }
  rewrite (foldM_same _ _ _ (fun acc l => add_component_colocated_points geo m' "Line " LineT (ec_points (co_mesh l)) (co_name l) (co_id l) acc)) by (intros; apply E).
  destruct (foldM _ _ (new_issues_map "colocated points")) as [acc| |]; cbn [bind]; auto.
  rewrite (foldM_same _ _ _ (fun acc l => add_component_colocated_points geo m' "Surface " SurfaceT (sm_points (co_mesh l)) (co_name l) (co_id l) acc)) by (intros; apply E).
  destruct (foldM _ _ acc) as [acc2| |]; cbn [bind]; auto. apply foldM_same. intros. apply E.
Qed.
(** adjacency, given the same answers of the searches *)
Lemma same_surfaces_adjacency : forall lk acc, add_surfaces_edges_with_wrong_adjacencies lk m acc = add_surfaces_edges_with_wrong_adjacencies lk m' acc.
Proof.
  intros. unfold add_surfaces_edges_with_wrong_adjacencies. rewrite active_surfaces. apply foldM_same. intros s c _.
  assert (E : surface_adjacency_issues lk m c = surface_adjacency_issues lk m' c) by (clear U; both m m' H; reflexivity). rewrite E. reflexivity.
Qed.
Lemma same_blocks_adjacency : forall lk acc, add_blocks_facets_with_wrong_adjacencies lk m acc = add_blocks_facets_with_wrong_adjacencies lk m' acc.
Proof.
  intros. unfold add_blocks_facets_with_wrong_adjacencies. rewrite active_blocks. apply foldM_same. intros s c _.
  assert (E : block_adjacency_issues lk m c = block_adjacency_issues lk m' c) by (clear U; both m m' H; reflexivity). rewrite E. reflexivity.
Qed.
Lemma same_brep_adjacency : forall lk, inspect_brep_meshes_adjacencies lk m = inspect_brep_meshes_adjacencies lk m'.
Proof. intros. unfold inspect_brep_meshes_adjacencies. rewrite same_surfaces_adjacency, same_blocks_adjacency. reflexivity. Qed.
Lemma same_section_adjacency : forall lk, inspect_section_meshes_adjacencies lk m = inspect_section_meshes_adjacencies lk m'.
Proof. intros. apply same_surfaces_adjacency. Qed.
(** degeneration *)
Lemma same_lines_small : forall ms geo t acc, add_lines_small_edges ms geo m t acc = add_lines_small_edges ms geo m' t acc.
Proof. intros. unfold add_lines_small_edges. rewrite active_lines. apply fold_same. intros s c _. unfold line_small_edges. rewrite same_named. reflexivity. Qed.
Lemma same_small_edges : forall ms geo t acc st, add_small_edges ms geo m t acc st = add_small_edges ms geo m' t acc st.
Proof.
  intros. unfold add_small_edges. cbv zeta. rewrite same_lines_small.
  assert (E : surfaces_on_which_enable_edges m st = surfaces_on_which_enable_edges m' st) by (unfold surfaces_on_which_enable_edges; rewrite active_surfaces; reflexivity).
  rewrite E. destruct (surfaces_on_which_enable_edges m' st) as [en st'].
  assert (E2 : run_surface_tasks ms geo m t en st' = run_surface_tasks ms geo m' t en st').
  { unfold run_surface_tasks. rewrite active_surfaces. apply fold_same. intros [rs s0] c _.
    assert (E3 : forall b s, surface_task ms geo m t c b s = surface_task ms geo m' t c b s) by (intros; clear U; both m m' H; reflexivity). rewrite E3. reflexivity. }
  rewrite E2. reflexivity.
Qed.
Lemma same_small_polygons : forall t acc, add_small_height_polygons m t acc = add_small_height_polygons m' t acc.
Proof. intros. unfold add_small_height_polygons. rewrite active_surfaces. apply fold_same. intros s c _. rewrite same_named. reflexivity. Qed.
Lemma same_small_solids : forall ms geo t maps st, add_solid_small_elements ms geo m t maps st = add_solid_small_elements ms geo m' t maps st.
Proof. intros. unfold add_solid_small_elements. rewrite active_blocks. apply fold_same. intros s c _. clear U. both m m' H. reflexivity. Qed.
Lemma same_brep_degeneration : forall ms geo st, inspect_elements_degeneration ms geo m st = inspect_elements_degeneration ms geo m' st.
Proof.
  intros. unfold inspect_elements_degeneration. cbv zeta. rewrite same_small_edges. destruct (add_small_edges ms geo m' _ _ st) as [[e| |] s1]; auto.
  rewrite same_small_polygons, same_small_solids. reflexivity.
Qed.
Lemma same_section_degeneration : forall ms geo st, section_inspect_elements_degeneration ms geo m st = section_inspect_elements_degeneration ms geo m' st.
Proof. intros. unfold section_inspect_elements_degeneration. rewrite same_small_edges, same_small_polygons. reflexivity. Qed.
(** negative elements *)
Lemma same_brep_negative : forall ms, brep_negative_elements ms m = brep_negative_elements ms m'.
Proof. intros. unfold brep_negative_elements. rewrite active_blocks. apply fold_same. intros s c _. clear U. both m m' H. reflexivity. Qed.
Lemma same_section_negative : forall ms, section_negative_elements ms m = section_negative_elements ms m'.
Proof. intros. unfold section_negative_elements. rewrite active_surfaces. apply fold_same. intros s c _. clear U. both m m' H. reflexivity. Qed.
End Same.
