From Coq Require Import String Ascii List Arith NArith ZArith Bool Lia Sorted Floats.SpecFloat.
From Verif Require Import Base BaseFacts Model_Issues Types Model_Degeneration Spec_Colocation Spec_Maps Spec_Adjacency
  Spec_Degeneration Proof_Issues Proof_Maps Proof_Colocation Proof_Colocation2 Proof_Colocation3 Proof_Adjacency
  Proof_Manifold Proof_Manifold3 Proof_Degeneration.
Import ListNotations.
Open Scope list_scope.

(** ** C22: inspectors on one mesh *)
Lemma impl_small_edges_state : forall ms geo points edges t st,
  exists r, impl_small_edges ms geo points edges t st = (Ok r, enable_edges_on_mesh st).
Proof. intros. unfold impl_small_edges. rewrite mesh_edges_enabled. cbn [bind]. eexists. reflexivity. Qed.
Lemma impl_degenerated_state : forall ms points edges st,
  exists b, impl_is_mesh_degenerated ms points edges st = (Ok b, enable_edges_on_mesh st).
Proof. intros. unfold impl_is_mesh_degenerated. rewrite mesh_edges_enabled. cbn [bind]. eexists. reflexivity. Qed.
Lemma ask_state : forall ms geo mesh q st, ask ms geo mesh q st = (Ok tt, enable_edges_on_mesh st).
Proof.
  intros ms geo mesh q st. destruct mesh as [m|m], q as [|t|]; cbn [ask].
  - unfold surface_is_degenerated. destruct (impl_degenerated_state ms (sm_points m) (sm_edges m) st) as (b & ->). destruct b; reflexivity.
  - unfold surface_small_edges. destruct (impl_small_edges_state ms geo (sm_points m) (sm_edges m) t st) as (r & ->). reflexivity.
  - unfold surface_degenerated_edges, impl_degenerated_edges.
    destruct (impl_small_edges_state ms geo (sm_points m) (sm_edges m) GLOBAL_EPSILON st) as (r & ->). reflexivity.
  - unfold solid_is_degenerated. destruct (impl_degenerated_state ms (so_points m) (so_edges m) st) as (b & ->). destruct b; reflexivity.
  - unfold solid_small_edges. destruct (impl_small_edges_state ms geo (so_points m) (so_edges m) t st) as (r & ->). reflexivity.
  - unfold solid_degenerated_edges, impl_degenerated_edges.
    destruct (impl_small_edges_state ms geo (so_points m) (so_edges m) GLOBAL_EPSILON st) as (r & ->). reflexivity.
Qed.
(** The storage was enabled before: nobody owns it.  It was not: if it is now, somebody owns it. *)
Definition world_inv (before : bool) (w : MeshWorld) : Prop :=
  if before then w_enabled w = true /\ forall k, w_living w k <> Some true
  else w_enabled w = true -> exists k, w_living w k = Some true.
Lemma mesh_call_inv : forall ms geo mesh before w c, world_inv before w ->
  exists w', mesh_call ms geo mesh w c = Ok w' /\ world_inv before w'.
Proof.
  intros ms geo mesh before w c H. destruct c as [k|k q|k]; cbn [mesh_call].
  - destruct (w_living w k) as [b|] eqn:E; [exists w; auto|]. eexists. split; [reflexivity|]. unfold world_inv in *. cbn [w_enabled w_living].
    unfold set_living. destruct before.
    + destruct H as [H1 H2]. split; [exact H1|]. intros j. destruct (Nat.eqb j k); [discriminate|apply H2].
    + intros He. destruct (H He) as (j & Hj). exists j. destruct (Nat.eqb_spec j k) as [->|]; [congruence|exact Hj].
  - destruct (w_living w k) as [b|] eqn:E; [|exists w; auto]. rewrite ask_state. cbn [bind]. eexists. split; [reflexivity|].
    unfold world_inv in *. cbn [w_enabled w_living]. unfold enable_edges_on_mesh. cbn [es_enabled]. unfold set_living. destruct before.
    + destruct H as [H1 H2]. rewrite H1. cbn. split; [reflexivity|]. intros j. destruct (Nat.eqb_spec j k) as [->|]; [|apply H2].
      rewrite <- E. apply H2.
    + intros _. destruct (w_enabled w) eqn:Ew; cbn.
      * destruct (H eq_refl) as (j & Hj). exists j. destruct (Nat.eqb_spec j k) as [->|]; [congruence|exact Hj].
      * exists k. rewrite Nat.eqb_refl. reflexivity.
  - destruct (w_living w k) as [b|] eqn:E; [|exists w; auto]. eexists. split; [reflexivity|].
    unfold world_inv in *. cbn [w_enabled w_living]. unfold destroy_inspector. cbn [es_mine es_enabled]. unfold set_living. destruct before.
    + destruct H as [H1 H2]. destruct b; [exfalso; apply (H2 k E)|]. split; [exact H1|].
      intros j. destruct (Nat.eqb j k); [discriminate|apply H2].
    + destruct b; [discriminate|]. intros He. destruct (H He) as (j & Hj). exists j. destruct (Nat.eqb_spec j k) as [->|]; [congruence|exact Hj].
Qed.
Lemma mesh_calls_inv : forall ms geo mesh before calls w, world_inv before w ->
  exists w', mesh_calls ms geo mesh calls w = Ok w' /\ world_inv before w'.
Proof.
  intros ms geo mesh before calls. unfold mesh_calls. induction calls as [|c calls IH]; intros w H; cbn [foldM]; [exists w; auto|].
  destruct (mesh_call_inv ms geo mesh before w c H) as (w1 & -> & H1). cbn [bind]. apply IH. exact H1.
Qed.
Lemma mesh_history : forall ms geo mesh before calls,
  exists w, mesh_calls ms geo mesh calls (mkWorld before (fun _ => None)) = Ok w /\
    (nothing_living w -> w_enabled w = before) /\ (before = true -> w_enabled w = true).
Proof.
  intros ms geo mesh before calls. destruct (mesh_calls_inv ms geo mesh before calls (mkWorld before (fun _ => None))) as (w & E & H).
  - unfold world_inv. cbn. destruct before; [split; [reflexivity|discriminate]|discriminate].
  - exists w. split; [exact E|]. unfold world_inv in H. destruct before.
    + destruct H as [H _]. auto.
    + split; [|discriminate]. intros Hn. destruct (w_enabled w); [|reflexivity]. destruct (H eq_refl) as (k & Hk). rewrite Hn in Hk. discriminate.
Qed.

(** ** C22: one inspector of a model *)
(** edges that were enabled stay so and are not owned; enabled edges that were not are owned *)
Definition owned_inv (before now : uuid -> bool) (mine : list uuid) : Prop :=
  forall id, (before id = true -> now id = true /\ ~ In id mine) /\ (before id = false -> now id = true -> In id mine).
Definition edges_inv (s0 b0 : uuid -> bool) (st : ModelEdges) : Prop :=
  owned_inv s0 (me_surface st) (me_my_surfaces st) /\ owned_inv b0 (me_block st) (me_my_blocks st).
Lemma owned_after : forall before now mine, owned_inv before now mine ->
  forall id, fold_left (fun f id => update f id false) mine now id = before id.
Proof.
  intros before now mine H id.
  assert (K : forall mine f, fold_left (fun f id => update f id false) mine f id = if memb id mine then false else f id).
  { clear. intros mine. induction mine as [|x mine IH]; intros f; cbn; [reflexivity|]. rewrite IH. fold (memb id mine). destruct (memb id mine); [destruct (Nat.eqb id x); reflexivity|].
    unfold update. destruct (Nat.eqb id x); reflexivity. }
  rewrite K. destruct (H id) as [H1 H2]. destruct (memb id mine) eqn:E.
  - apply memb_In in E. destruct (before id); [destruct (H1 eq_refl); contradiction|reflexivity].
  - apply memb_false in E. destruct (before id); [apply (H1 eq_refl)|]. destruct (now id); [|reflexivity]. exfalso. auto.
Qed.
Lemma surface_task_state : forall ms geo m t s enable stored,
  exists r, surface_task ms geo m t s enable stored = (Ok r, if enable then true else stored).
Proof.
  intros ms geo m t s enable stored. unfold surface_task, surface_small_edges.
  destruct (impl_small_edges_state ms geo (sm_points (co_mesh s)) (sm_edges (co_mesh s)) t (new_inspector (if enable then true else stored))) as (r & ->).
  cbn [bind]. eexists. f_equal. destruct enable, stored; reflexivity.
Qed.
Lemma to_enable_inv : forall m st s0 b0 to_enable st', edges_inv s0 b0 st -> surfaces_on_which_enable_edges m st = (to_enable, st') ->
  edges_inv s0 b0 st' /\ forall id, In id to_enable -> In id (me_my_surfaces st') /\ s0 id = false.
Proof.
  intros m st s0 b0 to_enable st'. unfold surfaces_on_which_enable_edges.
  assert (G : forall (l : list (Component SurfaceMesh)) result st, edges_inv s0 b0 st -> (forall id, In id result -> In id (me_my_surfaces st) /\ s0 id = false) ->
    fold_left (fun '(result, st) s =>
      if negb (me_surface st (co_id s)) && negb (memb (co_id s) (me_my_surfaces st))
      then ((result ++ [co_id s])%list, mkME (me_surface st) (me_block st) (me_my_surfaces st ++ [co_id s]) (me_my_blocks st))
      else (result, st)) l (result, st) = (to_enable, st') ->
    edges_inv s0 b0 st' /\ forall id, In id to_enable -> In id (me_my_surfaces st') /\ s0 id = false).
  { clear. intros l. induction l as [|s l IH]; intros result st H Hr E; cbn [fold_left] in E; [injection E as <- <-; auto|].
    destruct (negb (me_surface st (co_id s)) && negb (memb (co_id s) (me_my_surfaces st))) eqn:Ec; [|apply (IH _ _ H Hr E)].
    apply andb_true_iff in Ec. destruct Ec as [E1 E2]. apply negb_true_iff in E1. apply negb_true_iff in E2. destruct H as [H1 H2].
    assert (B : s0 (co_id s) = false).
    { destruct (s0 (co_id s)) eqn:Es; [|reflexivity]. destruct (proj1 (H1 (co_id s)) Es). congruence. }
    refine (IH _ _ _ _ E).
    - split; [|exact H2]. cbn [me_surface me_my_surfaces]. intros id. destruct (H1 id) as [K1 K2]. split.
      + intros Hb. destruct (K1 Hb) as [K3 K4]. split; [exact K3|]. rewrite in_app_iff. intros [K|[K|[]]]; [auto|]. subst. congruence.
      + intros Hb Hn. apply in_or_app. left. auto.
    - cbn [me_my_surfaces]. intros id Hid. apply in_app_or in Hid. rewrite in_app_iff. destruct Hid as [Hid|[<-|[]]]; [|split; [right; left; reflexivity|exact B]].
      destruct (Hr id Hid). auto. }
  intros H E. apply (G _ _ _ H) in E; [exact E|intros id []].
Qed.
(** the result of each task does not depend on the storage *)
Definition surface_issues ms geo m t (s : Component SurfaceMesh) : outcome (InspectionIssues nat) :=
  fst (surface_task ms geo m t s true true).
Lemma surface_task_issues : forall ms geo m t s enable stored, fst (surface_task ms geo m t s enable stored) = surface_issues ms geo m t s.
Proof.
  intros ms geo m t s enable stored. unfold surface_issues, surface_task, surface_small_edges, impl_small_edges.
  rewrite !mesh_edges_enabled. reflexivity.
Qed.
Lemma run_tasks_inv : forall ms geo m t to_enable st s0 b0 results st', edges_inv s0 b0 st ->
  (forall id, In id to_enable -> In id (me_my_surfaces st) /\ s0 id = false) ->
  run_surface_tasks ms geo m t to_enable st = (results, st') ->
  edges_inv s0 b0 st' /\ results = map (fun s => (co_id s, surface_issues ms geo m t s)) (active (m_surfaces m)).
Proof.
  intros ms geo m t to_enable st s0 b0 results st'. unfold run_surface_tasks.
  assert (G : forall (l : list (Component SurfaceMesh)) done st, edges_inv s0 b0 st -> (forall id, In id to_enable -> In id (me_my_surfaces st) /\ s0 id = false) ->
    fold_left (fun '(results, st) s =>
      let '(r, stored) := surface_task ms geo m t s (memb (co_id s) to_enable) (me_surface st (co_id s)) in
      ((results ++ [(co_id s, r)])%list,
       mkME (update (me_surface st) (co_id s) stored) (me_block st) (me_my_surfaces st) (me_my_blocks st))) l (done, st) = (results, st') ->
    edges_inv s0 b0 st' /\ results = done ++ map (fun s => (co_id s, surface_issues ms geo m t s)) l).
  { clear. intros l. induction l as [|s l IH]; intros done st H Ht E; cbn [fold_left] in E.
    - injection E as <- <-. rewrite app_nil_r. auto.
    - destruct (surface_task_state ms geo m t s (memb (co_id s) to_enable) (me_surface st (co_id s))) as (r & Er).
      pose proof (surface_task_issues ms geo m t s (memb (co_id s) to_enable) (me_surface st (co_id s))) as Ei.
      rewrite Er in Ei. cbn [fst] in Ei. rewrite Er in E.
      apply IH in E.
      + destruct E as [E1 E2]. split; [exact E1|]. rewrite E2, <- app_assoc. cbn [map app]. rewrite Ei. reflexivity.
      + destruct H as [H1 H2]. split; [|exact H2]. cbn [me_surface me_my_surfaces]. intros id. destruct (H1 id) as [K1 K2]. unfold update. split.
        * intros Hb. destruct (K1 Hb) as [K3 K4]. split; [|exact K4]. destruct (Nat.eqb_spec id (co_id s)) as [->|]; [|exact K3].
          rewrite K3. destruct (memb _ _); reflexivity.
        * intros Hb Hn. destruct (Nat.eqb_spec id (co_id s)) as [->|]; [|auto].
          destruct (memb (co_id s) to_enable) eqn:Em; [|auto]. apply memb_In in Em. apply Ht. exact Em.
      + exact Ht. }
  intros H Ht E. apply (G _ _ _ H Ht) in E. exact E.
Qed.
Lemma add_small_edges_eq : forall ms geo m t acc st s0 b0, edges_inv s0 b0 st ->
  exists st', add_small_edges ms geo m t acc st =
    (collect (map (fun s => (co_id s, surface_issues ms geo m t s)) (active (m_surfaces m))) (add_lines_small_edges ms geo m t acc), st') /\
    edges_inv s0 b0 st'.
Proof.
  intros ms geo m t acc st s0 b0 H. unfold add_small_edges.
  destruct (surfaces_on_which_enable_edges m st) as [to_enable st1] eqn:E1. destruct (to_enable_inv _ _ _ _ _ _ H E1) as [H1 Ht].
  destruct (run_surface_tasks ms geo m t to_enable st1) as [results st2] eqn:E2.
  destruct (run_tasks_inv _ _ _ _ _ _ _ _ _ _ H1 Ht E2) as [H2 ->]. exists st2. auto.
Qed.
(** issues of one surface, one block *)
Definition surface_pure ms geo m t (s : Component SurfaceMesh) : InspectionIssues nat :=
  match surface_issues ms geo m t s with Ok r => r | _ => default_issues end.
Definition block_issues ms geo m t (b : Component SolidMesh) : InspectionIssues nat :=
  match fst (solid_small_edges ms geo (co_mesh b) t (new_inspector true)) with
  | Ok r => set_description (StrCat ["Block "; named m (co_name b) (co_id b); " small edges polyhedra"]%string) r | _ => default_issues end.
Lemma surface_issues_ok : forall ms geo m t s, surface_issues ms geo m t s = Ok (surface_pure ms geo m t s).
Proof.
  intros. unfold surface_pure. assert (exists r, surface_issues ms geo m t s = Ok r) as (r & ->); [|reflexivity].
  destruct (surface_task_state ms geo m t s true true) as (r & E). exists r. unfold surface_issues. rewrite E. reflexivity.
Qed.
Lemma collect_ok : forall ms geo m t l acc,
  collect (map (fun s => (co_id s, surface_issues ms geo m t s)) l) acc =
  Ok (fold_left add_pair (map (fun s => (co_id s, surface_pure ms geo m t s)) l) acc).
Proof.
  intros ms geo m t l. unfold collect. induction l as [|s l IH]; intros acc; cbn [map foldM fold_left]; [reflexivity|].
  rewrite surface_issues_ok. cbn [bind]. apply IH.
Qed.
Definition edge_pairs ms geo m t :=
  map (fun c => (co_id c, line_small_edges ms geo m t c)) (active (m_lines m)) ++
  map (fun s => (co_id s, surface_pure ms geo m t s)) (active (m_surfaces m)).
Lemma add_small_edges_pairs : forall ms geo m t acc st s0 b0, edges_inv s0 b0 st ->
  exists st', add_small_edges ms geo m t acc st = (Ok (fold_left add_pair (edge_pairs ms geo m t) acc), st') /\ edges_inv s0 b0 st'.
Proof.
  intros ms geo m t acc st s0 b0 H. destruct (add_small_edges_eq ms geo m t acc st s0 b0 H) as (st' & E & H').
  exists st'. split; [|exact H']. rewrite E, collect_ok. unfold edge_pairs. rewrite fold_left_app.
  unfold add_lines_small_edges. rewrite fold_add_pairs. reflexivity.
Qed.
Definition block_edge_pairs ms geo m t := map (fun b => (co_id b, block_issues ms geo m t b)) (active (m_blocks m)).
Definition block_height_pairs m t := map (fun b => (co_id b,
  set_description (StrCat ["Block "; named m (co_name b) (co_id b); " small height polyhedra"]%string) (small_height_polyhedra (co_mesh b) t))) (active (m_blocks m)).
Lemma add_solid_pairs : forall ms geo m t maps st s0 b0, edges_inv s0 b0 st ->
  exists st', add_solid_small_elements ms geo m t maps st =
    (Ok (fold_left add_pair (block_edge_pairs ms geo m t) (fst maps), fold_left add_pair (block_height_pairs m t) (snd maps)), st') /\
    edges_inv s0 b0 st'.
Proof.
  intros ms geo m t maps st s0 b0. unfold add_solid_small_elements, block_edge_pairs, block_height_pairs.
  revert maps st. induction (active (m_blocks m)) as [|b l IH]; intros maps st H; cbn [fold_left map].
  - exists st. destruct maps. auto.
  - unfold block_small_elements at 2.
    set (st1 := if negb (me_block st (co_id b)) then _ else st).
    assert (H1 : edges_inv s0 b0 st1 /\ me_block st1 (co_id b) = true).
    { unfold st1. destruct (me_block st (co_id b)) eqn:E; cbn [negb]; [auto|]. cbn [me_block]. unfold update at 2. rewrite Nat.eqb_refl.
      split; [|reflexivity]. destruct H as [Hs Hb]. split; [exact Hs|]. cbn [me_block me_my_blocks]. intros id. destruct (Hb id) as [K1 K2].
      unfold update. split.
      - intros Hbe. destruct (K1 Hbe) as [K3 K4]. destruct (Nat.eqb_spec id (co_id b)) as [->|]; [congruence|].
        split; [exact K3|]. rewrite in_app_iff. intros [K|[K|[]]]; congruence.
      - intros Hbe Hn. apply in_or_app. destruct (Nat.eqb_spec id (co_id b)) as [->|]; [right; left; reflexivity|left; auto]. }
    destruct H1 as [H1 Hen]. rewrite Hen.
    assert (Ei : exists r, solid_small_edges ms geo (co_mesh b) t (new_inspector true) = (Ok r, new_inspector true)).
    { unfold solid_small_edges. destruct (impl_small_edges_state ms geo (so_points (co_mesh b)) (so_edges (co_mesh b)) t (new_inspector true)) as (r & ->).
      exists r. reflexivity. }
    destruct Ei as (r & Ei). rewrite Ei. cbn [bind].
    destruct (IH (add_issues_to_map (co_id b) (block_issues ms geo m t b) (fst maps),
                  add_issues_to_map (co_id b) (set_description (StrCat ["Block "; named m (co_name b) (co_id b); " small height polyhedra"]%string)
                    (small_height_polyhedra (co_mesh b) t)) (snd maps))
                 (mkME (me_surface st1) (update (me_block st1) (co_id b) (destroy_inspector (new_inspector true))) (me_my_surfaces st1) (me_my_blocks st1)))
      as (st' & E' & H').
    + destruct H1 as [Hs Hb]. split; [exact Hs|]. cbn [me_block me_my_blocks]. intros id. destruct (Hb id) as [K1 K2]. unfold update, destroy_inspector. cbn [es_mine new_inspector es_enabled].
      split.
      * intros Hbe. destruct (K1 Hbe) as [K3 K4]. split; [|exact K4]. destruct (Nat.eqb id (co_id b)); [reflexivity|exact K3].
      * intros Hbe Hn. apply K2; [exact Hbe|]. destruct (Nat.eqb_spec id (co_id b)) as [->|]; [exact Hen|exact Hn].
    + exists st'. split; [|exact H']. cbn [fst snd] in E'. unfold add_pair at 2 4. cbn [fst snd]. rewrite <- E'. unfold block_issues. rewrite Ei. reflexivity.
Qed.
Lemma ask_model_ok : forall ms geo m q st s0 b0, edges_inv s0 b0 st ->
  exists r st', ask_model ms geo m q st = (Ok r, st') /\ edges_inv s0 b0 st'.
Proof.
  intros ms geo m q st s0 b0 H. destruct q as [|t|t|t]; cbn [ask_model].
  - unfold inspect_elements_degeneration. destruct (add_small_edges_pairs ms geo m GLOBAL_EPSILON (dr_edges empty_degeneration) st s0 b0 H) as (st1 & -> & H1).
    destruct (add_solid_pairs ms geo m GLOBAL_EPSILON (fold_left add_pair (edge_pairs ms geo m GLOBAL_EPSILON) (dr_edges empty_degeneration), dr_polyhedra empty_degeneration) st1 s0 b0 H1) as (st2 & -> & H2).
    cbn [bind]. eexists. exists st2. auto.
  - unfold inspect_edges_degeneration. destruct (add_small_edges_pairs ms geo m t (dr_edges empty_degeneration) st s0 b0 H) as (st1 & -> & H1).
    cbn [bind]. eexists. exists st1. auto.
  - unfold inspect_polygons_degeneration. eexists. exists st. auto.
  - unfold inspect_polyhedra_degeneration.
    destruct (add_solid_pairs ms geo m t (dr_edges empty_degeneration, dr_polyhedra empty_degeneration) st s0 b0 H) as (st2 & -> & H2).
    cbn [bind]. eexists. exists st2. auto.
Qed.
Lemma model_queries_inv : forall ms geo m qs st s0 b0, edges_inv s0 b0 st ->
  exists st', model_queries ms geo m qs st = Ok st' /\ edges_inv s0 b0 st'.
Proof.
  intros ms geo m qs. unfold model_queries. induction qs as [|q qs IH]; intros st s0 b0 H; cbn [foldM]; [exists st; auto|].
  destruct (ask_model_ok ms geo m q st s0 b0 H) as (r & st1 & -> & H1). cbn [bind]. apply IH. exact H1.
Qed.
Lemma new_model_inspector_inv : forall s0 b0, edges_inv s0 b0 (new_model_inspector s0 b0).
Proof.
  intros s0 b0. split; intros id; cbn; (split; [auto|]); intros H1 H2; congruence.
Qed.
Lemma model_history : forall ms geo m qs s0 b0,
  exists st, model_queries ms geo m qs (new_model_inspector s0 b0) = Ok st /\
    (forall id, fst (destroy_model_inspector st) id = s0 id /\ snd (destroy_model_inspector st) id = b0 id) /\
    (forall id, (s0 id = true -> me_surface st id = true) /\ (b0 id = true -> me_block st id = true)).
Proof.
  intros ms geo m qs s0 b0. destruct (model_queries_inv ms geo m qs _ s0 b0 (new_model_inspector_inv s0 b0)) as (st & E & [H1 H2]).
  exists st. split; [exact E|]. split.
  - intros id. unfold destroy_model_inspector. cbn [fst snd]. split; apply owned_after; assumption.
  - intros id. split; intros K; [apply (proj1 (H1 id) K)|apply (proj1 (H2 id) K)].
Qed.

(** ** C44: maps of degenerated elements *)
Lemma surface_pure_spec : forall ms geo m t s, edges_in_range (sm_points (co_mesh s)) (sm_edges (co_mesh s)) ->
  lists_exactly lt (shorter_edge ms (sm_points (co_mesh s)) (sm_edges (co_mesh s)) t) (ii_issues (surface_pure ms geo m t s)).
Proof.
  intros ms geo m t s Hr. unfold surface_pure, surface_issues, surface_task, surface_small_edges.
  destruct (impl_small_edges_spec ms geo _ _ t (new_inspector true) Hr) as (r & E & L). rewrite E. cbn. exact L.
Qed.
Lemma block_issues_spec : forall ms geo m t b, edges_in_range (so_points (co_mesh b)) (so_edges (co_mesh b)) ->
  lists_exactly lt (shorter_edge ms (so_points (co_mesh b)) (so_edges (co_mesh b)) t) (ii_issues (block_issues ms geo m t b)).
Proof.
  intros ms geo m t s Hr. unfold block_issues, solid_small_edges.
  destruct (impl_small_edges_spec ms geo _ _ t (new_inspector true) Hr) as (r & E & L). rewrite E. cbn. exact L.
Qed.
Lemma below_bound : forall (P : nat -> Prop) n l, below_2_32 n -> lists_exactly lt P l -> (forall x, P x -> x < n) -> below_2_32 (length l).
Proof. intros P n l H L B. pose proof (lists_lt_bound P n l L B). unfold below_2_32 in *. lia. Qed.
Lemma active_id_in : forall M (l : list (Component M)) x, In x (map co_id (active l)) -> In x (map co_id l).
Proof. intros M l x H. apply in_map_iff in H. destruct H as (c & <- & H). apply in_active in H. apply in_map. apply H. Qed.
Definition all_edge_pairs ms geo m t := edge_pairs ms geo m t ++ block_edge_pairs ms geo m t.
Lemma all_edge_pairs_NoDup : forall ms geo m t, unique_ids m -> NoDup (map fst (all_edge_pairs ms geo m t)).
Proof.
  intros ms geo m t Hu. apply unique_ids_facts in Hu. unfold all_edge_pairs, edge_pairs, block_edge_pairs.
  rewrite !map_app, !map_map. cbn [fst]. pose proof (active_id_in) as K.
  apply NoDup_app_intro; [apply NoDup_app_intro|apply NoDup_map_filter, Hu|].
  - apply NoDup_map_filter, Hu.
  - apply NoDup_map_filter, Hu.
  - intros x H1 H2. apply (if_ls m Hu x); apply K; assumption.
  - intros x H1 H2. apply in_app_or in H1. destruct H1 as [H1|H1]; [apply (if_lb m Hu x)|apply (if_sb m Hu x)]; apply K; assumption.
Qed.
Lemma edge_pairs_spec : forall ms geo m t, degeneration_ready m -> forall id r, In (id, r) (edge_pairs ms geo m t) ->
  below_2_32 (length (ii_issues r)) /\ small_edges_report ms m t id (ii_issues r).
Proof.
  intros ms geo m t (Rl & Rs & Rb) id r Hin. apply in_app_or in Hin. destruct Hin as [Hin|Hin]; apply in_active_pairs in Hin; destruct Hin as (c & Hc & Ha & <- & ->).
  - pose proof (curve_small_spec ms geo (co_mesh c) t) as L. unfold line_small_edges. cbn [set_description ii_issues]. split.
    + apply (below_bound _ _ _ (Rl c Hc) L). intros x [Hx _]. exact Hx.
    + left. exists c. auto.
  - destruct (Rs c Hc) as (R1 & R2 & _). pose proof (surface_pure_spec ms geo m t c R1) as L. split.
    + apply (below_bound _ _ _ R2 L). apply shorter_bound.
    + right. exists c. auto.
Qed.
Lemma edge_pairs_complete : forall ms geo m t, degeneration_ready m -> forall id l, small_edges_report ms m t id l ->
  exists r, In (id, r) (edge_pairs ms geo m t) /\ (ii_issues r = [] -> l = []).
Proof.
  intros ms geo m t (Rl & Rs & Rb) id l [(c & Hc & Ha & <- & L)|(c & Hc & Ha & <- & L)].
  - exists (line_small_edges ms geo m t c). split; [apply in_or_app; left; apply in_active_pairs; exists c; auto|].
    intros Hn. apply (lists_exactly_nil _ _ _ _ _ (curve_small_spec ms geo (co_mesh c) t) L). exact Hn.
  - exists (surface_pure ms geo m t c). split; [apply in_or_app; right; apply in_active_pairs; exists c; auto|].
    intros Hn. apply (lists_exactly_nil _ _ _ _ _ (surface_pure_spec ms geo m t c (proj1 (Rs c Hc))) L Hn).
Qed.
Lemma block_edge_pairs_spec : forall ms geo m t, degeneration_ready m -> forall id r, In (id, r) (block_edge_pairs ms geo m t) ->
  below_2_32 (length (ii_issues r)) /\ block_small_edges_report ms m t id (ii_issues r).
Proof.
  intros ms geo m t (Rl & Rs & Rb) id r Hin. apply in_active_pairs in Hin; destruct Hin as (c & Hc & Ha & <- & ->).
  destruct (Rb c Hc) as (R1 & R2 & _). pose proof (block_issues_spec ms geo m t c R1) as L. split.
  - apply (below_bound _ _ _ R2 L). apply shorter_bound.
  - exists c. auto.
Qed.
Lemma block_edge_pairs_complete : forall ms geo m t, degeneration_ready m -> forall id l, block_small_edges_report ms m t id l ->
  exists r, In (id, r) (block_edge_pairs ms geo m t) /\ (ii_issues r = [] -> l = []).
Proof.
  intros ms geo m t (Rl & Rs & Rb) id l (c & Hc & Ha & <- & L).
  exists (block_issues ms geo m t c). split; [apply in_active_pairs; exists c; auto|].
  intros Hn. apply (lists_exactly_nil _ _ _ _ _ (block_issues_spec ms geo m t c (proj1 (Rb c Hc))) L Hn).
Qed.
Lemma flat_polygons_map : forall m t d, unique_ids m -> degeneration_ready m ->
  map_reports (add_small_height_polygons m t (new_issues_map d)) (flat_polygons_report m t).
Proof.
  intros m t d Hu (_ & Rs & _). unfold add_small_height_polygons. rewrite fold_add_pairs.
  apply (one_kind_report SurfaceMesh nat (m_surfaces m) _ (fun s => flat_polygon (co_mesh s) t) lt).
  - apply unique_ids_facts in Hu. apply (if_s m Hu).
  - intros s Hs. cbn [set_description ii_issues]. pose proof (flat_polygons_spec (co_mesh s) t) as L. split; [|exact L].
    apply (below_bound _ _ _ (proj2 (proj2 (Rs s Hs))) L). intros x [Hx _]. exact Hx.
Qed.
Lemma flat_polyhedra_map : forall m t d, unique_ids m -> degeneration_ready m ->
  map_reports (fold_left add_pair (block_height_pairs m t) (new_issues_map d)) (flat_polyhedra_report m t).
Proof.
  intros m t d Hu (_ & _ & Rb). unfold block_height_pairs.
  apply (one_kind_report SolidMesh nat (m_blocks m) _ (fun s => flat_polyhedron (co_mesh s) t) lt).
  - apply unique_ids_facts in Hu. apply (if_b m Hu).
  - intros s Hs. cbn [set_description ii_issues]. pose proof (flat_polyhedra_spec (co_mesh s) t) as L. split; [|exact L].
    apply (below_bound _ _ _ (proj2 (proj2 (Rb s Hs))) L). intros x [Hx _]. exact Hx.
Qed.
Lemma small_edges_map : forall ms geo m t d, unique_ids m -> degeneration_ready m ->
  map_reports (fold_left add_pair (edge_pairs ms geo m t) (new_issues_map d)) (small_edges_report ms m t).
Proof.
  intros ms geo m t d Hu Hr. apply pairs_report.
  - pose proof (all_edge_pairs_NoDup ms geo m t Hu) as N. unfold all_edge_pairs in N. rewrite map_app in N. apply NoDup_app_inv in N. apply N.
  - apply edge_pairs_spec. exact Hr.
  - apply edge_pairs_complete. exact Hr.
Qed.
Lemma block_edges_map : forall ms geo m t d, unique_ids m -> degeneration_ready m ->
  map_reports (fold_left add_pair (block_edge_pairs ms geo m t) (new_issues_map d)) (block_small_edges_report ms m t).
Proof.
  intros ms geo m t d Hu Hr. apply pairs_report.
  - pose proof (all_edge_pairs_NoDup ms geo m t Hu) as N. unfold all_edge_pairs in N. rewrite map_app in N. apply NoDup_app_inv in N. apply N.
  - apply block_edge_pairs_spec. exact Hr.
  - apply block_edge_pairs_complete. exact Hr.
Qed.
Lemma all_edges_map : forall ms geo m t d, unique_ids m -> degeneration_ready m ->
  map_reports (fold_left add_pair (all_edge_pairs ms geo m t) (new_issues_map d))
    (fun id l => small_edges_report ms m t id l \/ block_small_edges_report ms m t id l).
Proof.
  intros ms geo m t d Hu Hr. apply pairs_report.
  - apply all_edge_pairs_NoDup. exact Hu.
  - intros id r Hin. apply in_app_or in Hin. destruct Hin as [Hin|Hin].
    + destruct (edge_pairs_spec ms geo m t Hr id r Hin). auto.
    + destruct (block_edge_pairs_spec ms geo m t Hr id r Hin). auto.
  - intros id l [H|H].
    + destruct (edge_pairs_complete ms geo m t Hr id l H) as (r & H1 & H2). exists r. split; [apply in_or_app; auto|exact H2].
    + destruct (block_edge_pairs_complete ms geo m t Hr id l H) as (r & H1 & H2). exists r. split; [apply in_or_app; auto|exact H2].
Qed.
(** whatever was asked before *)
Lemma degeneration_maps : forall ms geo m qs s0 b0 st, unique_ids m -> degeneration_ready m ->
  model_queries ms geo m qs (new_model_inspector s0 b0) = Ok st ->
  (exists r, fst (inspect_elements_degeneration ms geo m st) = Ok r /\
     map_reports (dr_edges r) (fun id l => small_edges_report ms m GLOBAL_EPSILON id l \/ block_small_edges_report ms m GLOBAL_EPSILON id l) /\
     map_reports (dr_polygons r) (flat_polygons_report m GLOBAL_EPSILON) /\
     map_reports (dr_polyhedra r) (flat_polyhedra_report m GLOBAL_EPSILON)) /\
  (forall t, exists r, fst (inspect_edges_degeneration ms geo m t st) = Ok r /\
     map_reports (dr_edges r) (small_edges_report ms m t) /\ im_map (dr_polygons r) = [] /\ im_map (dr_polyhedra r) = []) /\
  (forall t, exists r, fst (inspect_polygons_degeneration m t st) = Ok r /\
     im_map (dr_edges r) = [] /\ map_reports (dr_polygons r) (flat_polygons_report m t) /\ im_map (dr_polyhedra r) = []) /\
  (forall t, exists r, fst (inspect_polyhedra_degeneration ms geo m t st) = Ok r /\
     map_reports (dr_edges r) (block_small_edges_report ms m t) /\ im_map (dr_polygons r) = [] /\
     map_reports (dr_polyhedra r) (flat_polyhedra_report m t)).
Proof.
  intros ms geo m qs s0 b0 st Hu Hr Hq.
  destruct (model_queries_inv ms geo m qs _ s0 b0 (new_model_inspector_inv s0 b0)) as (st' & E & H). rewrite Hq in E. injection E as <-.
  repeat split.
  - unfold inspect_elements_degeneration.
    destruct (add_small_edges_pairs ms geo m GLOBAL_EPSILON (dr_edges empty_degeneration) st s0 b0 H) as (st1 & -> & H1).
    destruct (add_solid_pairs ms geo m GLOBAL_EPSILON (fold_left add_pair (edge_pairs ms geo m GLOBAL_EPSILON) (dr_edges empty_degeneration), dr_polyhedra empty_degeneration) st1 s0 b0 H1) as (st2 & -> & H2).
    cbn [bind fst snd]. eexists. split; [reflexivity|]. cbn [dr_edges dr_polygons dr_polyhedra empty_degeneration]. split; [|split].
    + rewrite <- fold_left_app. apply all_edges_map; assumption.
    + apply flat_polygons_map; assumption.
    + apply flat_polyhedra_map; assumption.
  - intros t. unfold inspect_edges_degeneration.
    destruct (add_small_edges_pairs ms geo m t (dr_edges empty_degeneration) st s0 b0 H) as (st1 & -> & H1).
    cbn [bind fst]. eexists. split; [reflexivity|]. cbn [dr_edges dr_polygons dr_polyhedra empty_degeneration].
    split; [apply small_edges_map; assumption|split; reflexivity].
  - intros t. unfold inspect_polygons_degeneration. eexists. split; [reflexivity|]. cbn [dr_edges dr_polygons dr_polyhedra empty_degeneration].
    split; [reflexivity|]. split; [apply flat_polygons_map; assumption|reflexivity].
  - intros t. unfold inspect_polyhedra_degeneration.
    destruct (add_solid_pairs ms geo m t (dr_edges empty_degeneration, dr_polyhedra empty_degeneration) st s0 b0 H) as (st2 & -> & H2).
    cbn [bind fst snd]. eexists. split; [reflexivity|]. cbn [dr_edges dr_polygons dr_polyhedra empty_degeneration].
    split; [apply block_edges_map; assumption|]. split; [reflexivity|apply flat_polyhedra_map; assumption].
Qed.

(** ** C23: the spawning loop *)
Section Loop.
Context (ms : Measures) (geo : Geometry) (m : Model) (threshold : double) (to_enable : list uuid)
        (surfaces : list (Component SurfaceMesh)).
Notation step := (loop_step ms geo m threshold to_enable surfaces).
Notation run := (loop_run ms geo m threshold to_enable surfaces).
Notation flag s := (memb (co_id s) to_enable).
(** where each task stands *)
Definition task_inv (stored0 : nat -> bool) (st : LoopState) (i : nat) : Prop :=
  forall s, nth_error surfaces i = Some s ->
  match lp_tasks st i with
  | NotSpawned | Spawned => lp_stored st i = stored0 i
  | FlagRead b => b = flag s /\ lp_stored st i = stored0 i
  | EdgesEnabled => lp_stored st i = if flag s then true else stored0 i
  | Inspected r inspector => (r, destroy_inspector inspector) = surface_task ms geo m threshold s (flag s) (stored0 i)
  | Done r => (r, lp_stored st i) = surface_task ms geo m threshold s (flag s) (stored0 i)
  end.
Lemma set_task_same : forall f i t, set_task f i t i = t.
Proof. intros. unfold set_task. rewrite Nat.eqb_refl. reflexivity. Qed.
Lemma set_task_other : forall f i t j, j <> i -> set_task f i t j = f j.
Proof. intros f i t j H. unfold set_task. destruct (Nat.eqb_spec j i); [contradiction|reflexivity]. Qed.
Lemma step_inv : forall stored0 st a st', (forall i, task_inv stored0 st i) -> step st a = Ok st' -> forall i, task_inv stored0 st' i.
Proof.
  intros stored0 st a st' H E i. destruct a as [|j]; cbn [loop_step] in E.
  - injection E as <-. unfold main_step. destruct (lp_main st) as [k|k].
    + destruct (Nat.ltb k (length surfaces)); [|apply H]. intros s Hs. apply (H i s Hs).
    + destruct (lp_tasks st k) eqn:Ek; try (intros s Hs; apply (H i s Hs)).
      intros s Hs. cbn [lp_tasks lp_stored]. destruct (Nat.eq_dec i k) as [->|Hn]; [|rewrite set_task_other by exact Hn; apply (H i s Hs)].
      rewrite set_task_same. specialize (H k s Hs). rewrite Ek in H. exact H.
  - unfold task_step in E. destruct (nth_error surfaces j) as [sj|] eqn:Ej; [|injection E as <-; apply H].
    destruct (Nat.eq_dec i j) as [->|Hn].
    + intros s Hs. rewrite Hs in Ej. injection Ej as <-. specialize (H j s Hs). destruct (lp_tasks st j) eqn:Et.
      * injection E as <-. rewrite Et. exact H.
      * destruct (alive st j); [|discriminate]. injection E as <-. cbn [lp_tasks lp_stored]. rewrite set_task_same. auto.
      * injection E as <-. cbn [lp_tasks lp_stored]. rewrite set_task_same, Nat.eqb_refl. destruct H as [-> ->]. reflexivity.
      * destruct (surface_small_edges ms geo (co_mesh s) threshold (new_inspector (lp_stored st j))) as [r insp] eqn:Er. injection E as <-.
        cbn [lp_tasks lp_stored]. rewrite set_task_same. unfold surface_task. rewrite <- H, Er. reflexivity.
      * injection E as <-. cbn [lp_tasks lp_stored]. rewrite set_task_same, Nat.eqb_refl. exact H.
      * injection E as <-. rewrite Et. exact H.
    + intros s Hs. specialize (H i s Hs). destruct (lp_tasks st j) eqn:Et.
      * injection E as <-. exact H.
      * destruct (alive st j); [|discriminate]. injection E as <-. cbn [lp_tasks lp_stored]. rewrite set_task_other by exact Hn. exact H.
      * injection E as <-. cbn [lp_tasks lp_stored]. rewrite set_task_other by exact Hn. destruct (Nat.eqb_spec i j); [contradiction|]. exact H.
      * destruct (surface_small_edges _ _ _ _ _) as [r insp]. injection E as <-. cbn [lp_tasks lp_stored].
        rewrite set_task_other by exact Hn. destruct (Nat.eqb_spec i j); [contradiction|]. exact H.
      * injection E as <-. cbn [lp_tasks lp_stored]. rewrite set_task_other by exact Hn. destruct (Nat.eqb_spec i j); [contradiction|]. exact H.
      * injection E as <-. exact H.
Qed.
Lemma run_inv : forall stored0 schedule st st', (forall i, task_inv stored0 st i) -> run schedule st = Ok st' -> forall i, task_inv stored0 st' i.
Proof.
  intros stored0 schedule. unfold loop_run. induction schedule as [|a schedule IH]; intros st st' H E; cbn [foldM] in E; [injection E as <-; exact H|].
  destruct (step st a) as [st1| |] eqn:E1; cbn [bind] in E; try discriminate. apply (IH st1 st'); [|exact E]. apply (step_inv _ _ _ _ H E1).
Qed.
Lemma loop_init_inv : forall stored0 i, task_inv stored0 (loop_init stored0) i.
Proof. intros stored0 i s Hs. reflexivity. Qed.
Lemma step_not_throw : forall st a e, step st a <> Throw e.
Proof.
  intros st a e. destruct a as [|i]; cbn; [discriminate|]. unfold task_step. destruct (nth_error surfaces i) as [s|]; [|discriminate].
  destruct (lp_tasks st i); try discriminate. destruct (alive st i); discriminate.
Qed.
Lemma run_not_throw : forall schedule st e, run schedule st <> Throw e.
Proof.
  intros schedule. unfold loop_run. induction schedule as [|a schedule IH]; intros st e; cbn [foldM]; [discriminate|].
  destruct (step st a) as [st1| |] eqn:E1; cbn [bind]; [apply IH| |discriminate]. intros _. apply (step_not_throw _ _ _ E1).
Qed.
(** The main thread alone. *)
Definition main_done (i : nat) (stored : nat -> bool) (st : LoopState) : Prop :=
  lp_main st = MainAt i /\ lp_stored st = stored /\ (forall j, j < i -> lp_tasks st j = Spawned) /\ forall j, i <= j -> lp_tasks st j = NotSpawned.
Lemma three_steps : forall i stored st, main_done i stored st -> i < length surfaces ->
  exists st', run [Main; Main; Main] st = Ok st' /\ main_done (S i) stored st'.
Proof.
  intros i stored st (H1 & H2 & H3 & H4) Hi. eexists. split; [reflexivity|]. unfold main_step. rewrite H1.
  destruct (Nat.ltb_spec i (length surfaces)); [|lia]. cbn [lp_main lp_tasks]. rewrite (H4 i) by lia. cbn [lp_main lp_tasks]. rewrite set_task_same.
  split; [reflexivity|]. split; [exact H2|]. cbn [lp_tasks]. split; intros j Hj.
  - destruct (Nat.eq_dec j i) as [->|Hn]; [apply set_task_same|]. rewrite set_task_other by exact Hn. apply H3. lia.
  - rewrite set_task_other by lia. apply H4. lia.
Qed.
Lemma main_runs : forall stored n, n <= length surfaces -> exists st, run (concat (repeat [Main; Main; Main] n)) (loop_init stored) = Ok st /\ main_done n stored st.
Proof.
  intros stored n. induction n as [|n IH]; intros Hn.
  - exists (loop_init stored). split; [reflexivity|]. split; [reflexivity|]. split; [reflexivity|]. split; intros j Hj; [lia|reflexivity].
  - destruct IH as (st & E & H); [lia|]. destruct (three_steps n stored st H) as (st' & E' & H'); [lia|]. exists st'. split; [|exact H'].
    replace (S n) with (n + 1) by lia. rewrite repeat_app, concat_app. cbn [repeat concat]. rewrite app_nil_r. unfold loop_run in *. rewrite foldM_app, E. cbn [bind]. exact E'.
Qed.
Lemma dangling : forall stored i, i < length surfaces -> run (concat (repeat [Main; Main; Main] (S i)) ++ [Task i]) (loop_init stored) = UB.
Proof.
  intros stored i Hi. destruct (main_runs stored (S i) Hi) as (st & E & H1 & H2 & H3 & H4). unfold loop_run in *. rewrite foldM_app, E.
  cbn [bind foldM]. unfold loop_step, task_step. destruct (nth_error surfaces i) as [s|] eqn:Es; [|apply nth_error_None in Es; lia].
  rewrite (H3 i) by lia. unfold alive. rewrite H1. reflexivity.
Qed.
(** Prompt schedules never read a dead variable. *)
Definition prompt_inv (st : LoopState) : Prop :=
  forall i, (lp_tasks st i = Spawned -> lp_main st = MainIn i).
Lemma prompt_safe : forall stored schedule, prompt ms geo m threshold to_enable surfaces stored schedule ->
  exists st, run schedule (loop_init stored) = Ok st.
Proof.
  intros stored schedule Hp.
  assert (G : forall before after, schedule = before ++ after -> exists st, run before (loop_init stored) = Ok st /\ prompt_inv st).
  { intros before. induction before as [|a before IH] using rev_ind; intros after E.
    - exists (loop_init stored). split; [reflexivity|]. intros i Hi. discriminate.
    - destruct (IH (a :: after)) as (st & Er & Hi); [rewrite E, <- app_assoc; reflexivity|].
      assert (K : exists st', step st a = Ok st' /\ prompt_inv st').
      { destruct a as [|i]; cbn [loop_step].
        - eexists. split; [reflexivity|]. unfold main_step. destruct (lp_main st) as [k|k] eqn:Em.
          + assert (Hno : forall i, lp_tasks st i <> Spawned) by (intros i Hs; specialize (Hi i Hs); congruence).
            destruct (Nat.ltb k (length surfaces)); [|exact Hi]. intros i Hs. cbn in Hs. exfalso. apply (Hno i Hs).
          + assert (Hk : lp_tasks st k <> Spawned).
            { apply (Hp before after st k); [rewrite E, <- app_assoc; reflexivity|exact Er|exact Em]. }
            assert (Hno : forall i, i <> k -> lp_tasks st i <> Spawned) by (intros i Hn Hs; specialize (Hi i Hs); congruence).
            destruct (lp_tasks st k) eqn:Ek; try congruence.
            * intros i Hs. cbn [lp_tasks lp_main] in *. destruct (Nat.eq_dec i k) as [->|Hn]; [reflexivity|].
              rewrite set_task_other in Hs by exact Hn. exfalso. apply (Hno i Hn Hs).
            * intros i Hs. cbn [lp_tasks] in Hs. destruct (Nat.eq_dec i k) as [->|Hn]; [congruence|]. exfalso. apply (Hno i Hn Hs).
            * intros i Hs. cbn [lp_tasks] in Hs. destruct (Nat.eq_dec i k) as [->|Hn]; [congruence|]. exfalso. apply (Hno i Hn Hs).
            * intros i Hs. cbn [lp_tasks] in Hs. destruct (Nat.eq_dec i k) as [->|Hn]; [congruence|]. exfalso. apply (Hno i Hn Hs).
            * intros i Hs. cbn [lp_tasks] in Hs. destruct (Nat.eq_dec i k) as [->|Hn]; [congruence|]. exfalso. apply (Hno i Hn Hs).
        - unfold task_step. destruct (nth_error surfaces i) as [s|]; [|exists st; auto].
          assert (Set_ : forall t stored', t <> Spawned -> prompt_inv (mkLoop (lp_main st) (set_task (lp_tasks st) i t) stored')).
          { intros t stored' Ht j Hs. cbn [lp_tasks lp_main] in *. destruct (Nat.eq_dec j i) as [->|Hn]; [rewrite set_task_same in Hs; contradiction|].
            rewrite set_task_other in Hs by exact Hn. apply (Hi j Hs). }
          destruct (lp_tasks st i) eqn:Et; try (eexists; split; [reflexivity|]; first [exact Hi|apply Set_; discriminate]).
          + assert (Al : alive st i = true) by (unfold alive; rewrite (Hi i Et); apply Nat.eqb_refl). rewrite Al. eexists. split; [reflexivity|]. apply Set_. discriminate. }
      destruct K as (st' & Es & Hi'). exists st'. split; [|exact Hi']. unfold loop_run in *. rewrite foldM_app, Er. cbn [bind foldM]. rewrite Es. reflexivity. }
  destruct (G schedule [] (eq_sym (app_nil_r _))) as (st & E & _). exists st. exact E.
Qed.
End Loop.

Lemma enum_map_ext : forall A B (f : nat -> A -> B) g (l : list A), (forall i x, nth_error l i = Some x -> f i x = g x) ->
  map (fun '(i, x) => f i x) (enum l) = map g l.
Proof.
  intros A B f g l H. rewrite <- (map_snd_enum A l) at 2. rewrite map_map. apply map_ext_in. intros [i x] Hin.
  apply in_enum in Hin. cbn. apply H. exact Hin.
Qed.
Lemma run_tasks_storage : forall ms geo m t to_enable l done st results st',
  NoDup (map co_id l) ->
  fold_left (fun '(results, st) s =>
      let '(r, stored) := surface_task ms geo m t s (memb (co_id s) to_enable) (me_surface st (co_id s)) in
      ((results ++ [(co_id s, r)])%list,
       mkME (update (me_surface st) (co_id s) stored) (me_block st) (me_my_surfaces st) (me_my_blocks st))) l (done, st) = (results, st') ->
  results = done ++ map (fun s => (co_id s, fst (surface_task ms geo m t s (memb (co_id s) to_enable) (me_surface st (co_id s))))) l /\
  (forall s, In s l -> me_surface st' (co_id s) = snd (surface_task ms geo m t s (memb (co_id s) to_enable) (me_surface st (co_id s)))) /\
  (forall id, ~ In id (map co_id l) -> me_surface st' id = me_surface st id).
Proof.
  intros ms geo m t to_enable l. induction l as [|s l IH]; intros done st results st' Hn E; cbn [fold_left] in E.
  - injection E as <- <-. cbn. rewrite app_nil_r. repeat split. intros s [].
  - inversion Hn as [|? ? Hs Hn']; subst.
    destruct (surface_task ms geo m t s (memb (co_id s) to_enable) (me_surface st (co_id s))) as [r stored] eqn:Er.
    apply IH in E; [|exact Hn']. cbn [me_surface] in E. destruct E as (E1 & E2 & E3).
    assert (K : forall x, In x l -> update (me_surface st) (co_id s) stored (co_id x) = me_surface st (co_id x)).
    { intros x Hx. unfold update. destruct (Nat.eqb_spec (co_id x) (co_id s)) as [Heq|]; [|reflexivity].
      exfalso. apply Hs. rewrite <- Heq. apply in_map. exact Hx. }
    split; [|split].
    + rewrite E1, <- app_assoc. cbn [map app]. rewrite Er. cbn [fst]. do 2 f_equal. apply map_ext_in. intros x Hx. rewrite K by exact Hx. reflexivity.
    + intros x [<-|Hx].
      * rewrite E3 by exact Hs. unfold update. rewrite Nat.eqb_refl, Er. reflexivity.
      * rewrite E2 by exact Hx. rewrite K by exact Hx. reflexivity.
    + intros id Hid. cbn [map In] in Hid. rewrite E3 by tauto. unfold update. destruct (Nat.eqb_spec id (co_id s)); [subst; tauto|reflexivity].
Qed.
Lemma schedule_independent : forall ms geo m t to_enable st0 schedule st, unique_ids m ->
  let surfaces := active (m_surfaces m) in
  let stored i := match nth_error surfaces i with Some s => me_surface st0 (co_id s) | None => false end in
  loop_run ms geo m t to_enable surfaces schedule (loop_init stored) = Ok st -> all_done surfaces st ->
  let sequential := run_surface_tasks ms geo m t to_enable st0 in
  task_results surfaces st = map (fun '(id, r) => (id, Done r)) (fst sequential) /\
  forall i s, nth_error surfaces i = Some s -> lp_stored st i = me_surface (snd sequential) (co_id s).
Proof.
  intros ms geo m t to_enable st0 schedule st Hu surfaces stored E Hd. cbv zeta.
  destruct (run_surface_tasks ms geo m t to_enable st0) as [results st'] eqn:Es. unfold run_surface_tasks in Es.
  assert (Hn : NoDup (map co_id (active (m_surfaces m)))) by (apply unique_ids_facts in Hu; apply NoDup_map_filter, Hu).
  apply (run_tasks_storage _ _ _ _ _ _ _ _ _ _ Hn) in Es. cbn [app fst snd] in *. destruct Es as (E1 & E2 & _).
  pose proof (run_inv ms geo m t to_enable surfaces stored schedule _ _ (loop_init_inv ms geo m t to_enable surfaces stored) E) as I.
  assert (T : forall i s, nth_error surfaces i = Some s ->
     lp_tasks st i = Done (fst (surface_task ms geo m t s (memb (co_id s) to_enable) (me_surface st0 (co_id s)))) /\
     lp_stored st i = snd (surface_task ms geo m t s (memb (co_id s) to_enable) (me_surface st0 (co_id s)))).
  { intros i s Hs. specialize (I i s Hs). destruct (Hd i) as (r & Hr); [apply nth_error_Some; congruence|]. rewrite Hr in *.
    unfold stored in I. rewrite Hs in I. rewrite <- I. split; reflexivity. }
  split.
  - unfold task_results. rewrite E1, map_map. apply (enum_map_ext _ _ (fun i s => (co_id s, lp_tasks st i))). intros i s Hs.
    rewrite (proj1 (T i s Hs)). reflexivity.
  - intros i s Hs. rewrite (proj2 (T i s Hs)). symmetry. apply E2. apply nth_error_In in Hs. exact Hs.
Qed.
(** A complete prompt schedule: each task runs during its iteration. *)
Definition one_by_one (n : nat) : list Actor :=
  flat_map (fun i => [Main; Main; Task i; Task i; Task i; Task i; Main]) (Range n).
Lemma one_by_one_runs : forall ms geo m t to_enable surfaces stored n, n <= length surfaces ->
  exists st, loop_run ms geo m t to_enable surfaces (one_by_one n) (loop_init stored) = Ok st /\ lp_main st = MainAt n /\
    (forall j, j < n -> exists r, lp_tasks st j = Done r) /\ forall j, n <= j -> lp_tasks st j = NotSpawned.
Proof.
  intros ms geo m t to_enable surfaces stored n. induction n as [|n IH]; intros Hn.
  - exists (loop_init stored). split; [reflexivity|]. split; [reflexivity|]. split; [intros j Hj; lia|reflexivity].
  - destruct IH as (st & E & H1 & H2 & H3); [lia|].
    assert (K : exists st', loop_run ms geo m t to_enable surfaces [Main; Main; Task n; Task n; Task n; Task n; Main] st = Ok st' /\
      lp_main st' = MainAt (S n) /\ (exists r, lp_tasks st' n = Done r) /\ forall j, j <> n -> lp_tasks st' j = lp_tasks st j).
    { destruct (nth_error surfaces n) as [s|] eqn:Es; [|apply nth_error_None in Es; lia].
      assert (M1 : main_step surfaces st = mkLoop (MainIn n) (lp_tasks st) (lp_stored st)).
      { unfold main_step. rewrite H1. destruct (Nat.ltb_spec n (length surfaces)); [reflexivity|lia]. }
      assert (M2 : main_step surfaces (mkLoop (MainIn n) (lp_tasks st) (lp_stored st)) = mkLoop (MainIn n) (set_task (lp_tasks st) n Spawned) (lp_stored st)).
      { unfold main_step. cbn [lp_main lp_tasks lp_stored]. rewrite (H3 n) by lia. reflexivity. }
      unfold loop_run. cbn [foldM loop_step bind]. rewrite M1, M2. clear M1 M2.
      do 4 (match goal with |- context [bind (task_step ?a ?b ?c ?d ?e ?f ?st n) _] =>
        unfold task_step at 1; rewrite Es; cbn [lp_tasks]; rewrite set_task_same; unfold alive; cbn [lp_main]; rewrite ?Nat.eqb_refl end;
        try (destruct (surface_small_edges _ _ _ _ _) as [r insp]); cbn [bind lp_main lp_tasks lp_stored]).
      eexists. split; [reflexivity|]. unfold main_step. cbn [lp_main lp_tasks lp_stored]. rewrite set_task_same. cbn [lp_main lp_tasks].
      split; [reflexivity|]. split; [eexists; apply set_task_same|]. intros j Hj. rewrite !set_task_other by exact Hj. reflexivity. }
    destruct K as (st' & E' & K1 & K2 & K3). exists st'. split; [|split; [exact K1|split]].
    + unfold one_by_one, Range. rewrite seq_S, flat_map_app. cbn [flat_map plus]. rewrite app_nil_r. unfold loop_run in *. rewrite foldM_app.
      unfold one_by_one, Range in E. rewrite E. cbn [bind]. exact E'.
    + intros j Hj. destruct (Nat.eq_dec j n) as [->|Hne]; [exact K2|]. rewrite K3 by exact Hne. apply H2. lia.
    + intros j Hj. rewrite K3 by lia. apply H3. lia.
Qed.
Lemma safe_schedule_exists : forall ms geo m t to_enable surfaces stored,
  exists schedule st, loop_run ms geo m t to_enable surfaces schedule (loop_init stored) = Ok st /\ all_done surfaces st.
Proof.
  intros ms geo m t to_enable surfaces stored. destruct (one_by_one_runs ms geo m t to_enable surfaces stored (length surfaces) (le_n _)) as (st & E & _ & H & _).
  exists (one_by_one (length surfaces)), st. split; [exact E|exact H].
Qed.
