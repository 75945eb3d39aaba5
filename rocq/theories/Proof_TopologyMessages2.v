(** Proofs about the texts of topology reports: corners and lines of BReps. *)
From Coq Require Import String Ascii List Arith NArith ZArith Bool Lia.
From Verif Require Import Base BaseFacts Model_Issues Types Model_Colocation Model_Topology Model_BRep Model_Blocks Spec_Colocation Spec_Messages Spec_Adjacency
  Spec_Topology Spec_BRep Spec_Blocks Spec_TopologyMessages
  Proof_Colocation Proof_Colocation2 Proof_Topology Proof_Topology2 Proof_Topology3 Proof_BRep Proof_BRep2 Proof_BRep3 Proof_BRep4 Proof_BRep5 Proof_Messages Proof_Messages2 Proof_TopologyMessages.
Import ListNotations.
Open Scope list_scope.

Section Checks.
Context (tl : TopoLookup) (m : Model) (Hok : brep_ok m) (Hlo : lookup_ok tl m) (uv : nat).
(** ** Corners *)
Lemma corner_block : forall t, corner_is_multiply_embedded m uv = Ok (Some t) -> corner_block_text m uv t.
Proof.
  intros t H. unfold corner_is_multiply_embedded in H. repeat message_step H. subst. facts.
  match goal with K : ctype_eqb _ _ = true |- _ => apply ctype_eqb_eq in K; rename K into T end.
  exists (cmv_id x), x3, (cid_id x1). conj; auto; [apply active_of_at; assumption|]. rewrite <- T. destruct x1. assumption.
Qed.
Lemma brep_corner_line : forall t, brep_corner_is_part_of_line_but_not_boundary m uv = Ok (Some t) -> brep_corner_line_text m uv t.
Proof.
  intros t H. unfold brep_corner_is_part_of_line_but_not_boundary in H. message_step H. message_step H. message_step H; [message_step H|]. message_step H. message_step H.
  message_step H; [message_step H|]. message_step H; [message_step H|]. subst.
  assert (A1 : active_at m uv CornerT (cmv_id x)) by (apply active_of_at; assumption). assert (A2 : active_at m uv LineT (cmv_id x1)) by (apply active_of_at; assumption).
  message_step H; [cbv zeta in H; message_step H|]; repeat message_step H; facts; exists (cmv_id x), (cmv_id x1), x0, x2; conj; auto.
  left. split; [assumption|]. exists (length (filter (fun c => Nat.eqb (cmv_id c) (cmv_id x)) (component_mesh_vertices m uv))).
  rewrite count_id_ok in * by (apply brep_bound_at; assumption). rewrite Nnat.Nat2N.id in H. conj; [|match goal with K : N.eqb _ _ = false |- _ => apply N.eqb_neq in K end; lia|exact H].
  apply (Proof_BRep.counts_filter _ _ (fun c => Nat.eqb (cmv_id c) (cmv_id x))); [|reflexivity]. intros y _. apply Nat.eqb_eq.
Qed.
(** ** Lines *)
Lemma brep_embedded_line : forall t, brep_invalid_embedded_line m uv = Ok (Some t) -> brep_embedded_line_text m uv t.
Proof.
  intros t H. unfold brep_invalid_embedded_line in H. message_step H. message_step H. message_step H; [message_step H|]. message_step H. subst.
  assert (A1 : active_at m uv LineT (cmv_id x)) by (apply active_of_at; assumption). unfold brep_embedding_check in H. message_step H; [|message_step H; [message_step H|message_step H]].
  - repeat message_step H. facts. exists (cmv_id x), x0, x1, x2. conj; auto.
  - repeat message_step H. exists (cmv_id x), x0, x1, x2. assert (NL : ~ at_vertex m uv (cid_type x1) (cid_id x1)).
    { intros K. apply linked_existsb in K. congruence. } facts. conj; auto.
  - message_step H.
Qed.
Lemma brep_single_line : forall t, brep_invalid_single_line m uv = Ok (Some t) -> brep_single_line_text m uv t.
Proof.
  intros t H. unfold brep_invalid_single_line in H. cbv zeta in H. destruct (components_uuids m uv LineT) as [|n [|? ?]] eqn:M; try discriminate H.
  assert (AL : all_at m uv LineT [n]) by (rewrite <- M; apply components_uuids_all).
  pose proof (components_uuids_all m uv SurfaceT) as AS. pose proof (components_uuids_all m uv BlockT) as AB.
  message_step H. message_step H; [message_step H|]. subst x. message_step H; [message_step H|]. message_step H.
  destruct (components_uuids m uv SurfaceT) as [|s [|s' ss]] eqn:MS.
  - message_step H; [message_step H|]. destruct (components_uuids m uv BlockT) as [|b [|b' bs]] eqn:MB.
    + message_step H. facts. exists n, x, [], []. conj; auto. right. right. left. conj; auto; discriminate.
    + message_step H; [|message_step H]. message_step H. facts. exists n, x, [], [b]. conj; auto. right. left. exists b. conj; auto.
    + message_step H. facts. exists n, x, [], (b :: b' :: bs). conj; auto. right. right. left. conj; auto; discriminate.
  - message_step H; [|message_step H]. repeat message_step H.
    repeat match goal with K : (_ || _)%bool = false |- _ => apply Bool.orb_false_iff in K; destruct K end. facts.
    exists n, x, [s], (components_uuids m uv BlockT). conj; auto. left. exists s, x0. conj; auto. lia.
  - remember (s :: s' :: ss) as l eqn:EL. repeat message_step H. facts. exists n, x, l, (components_uuids m uv BlockT). conj; auto. right. right. right. exists x0, x2. conj; auto. rewrite EL. cbn. lia.
Qed.
Lemma contains_false : forall l k, contains l k = false -> ~ In k (map fst l).
Proof. intros l k H K. apply contains_iff in K. congruence. Qed.
Lemma contains_size : forall l k, contains l k = true -> In (k, size_at l k) l.
Proof.
  intros l k. unfold contains. induction l as [|[k' n] l IH]; cbn [existsb size_at fst]; [discriminate|]. destruct (Nat.eqb_spec k' k) as [->|]; [left; reflexivity|]. cbn [orb]. intros H. right. apply IH, H.
Qed.
Lemma edges_inv : forall c e E, component_mesh_edges tl m c e = Ok E -> exists a b, edge_joins m c e a b /\ E = tl_edges tl a b.
Proof.
  intros c e E H. unfold component_mesh_edges in H. destruct (nth_error (ec_edges (co_mesh c)) e) as [[v0 v1]|] eqn:N; [|discriminate H].
  destruct (unique_vertices m (mkCID LineT (co_id c)) [v0; v1]) as [[|a [|b [|? ?]]]|] eqn:U; try discriminate H. injection H as <-. exists a, b. split; [|reflexivity].
  apply unique_vertices_some in U. inversion U as [|? ? ? ? U1 U2]; subst. inversion U2 as [|? ? ? ? U3 _]; subst. exists v0, v1. auto.
Qed.
Lemma incident_bounds : forall a e, In e (incidences m a) -> bounds m a (cid_id e).
Proof. intros a e H. apply in_incidences. eauto. Qed.
Lemma bounding_bounds : forall b e, In e (boundaries m b) -> bounds m (cid_id e) b.
Proof. intros b e H. apply in_boundaries. eauto. Qed.
Lemma surface_embedding : forall a e, In e (embeddings_of m SurfaceT a) -> in_surface m a (cid_id e).
Proof. intros a e H. apply in_embeddings_of_id in H. apply H. Qed.
Lemma block_embedding : forall a e, In e (embeddings_of m BlockT a) -> in_block m a (cid_id e).
Proof. intros a e H. apply in_embeddings_of_id in H. apply H. Qed.
Lemma no_surface_embedding : forall a, length (embeddings_of m SurfaceT a) = 0 -> forall s, ~ in_surface m a s.
Proof.
  intros a H s K. assert (I : In (mkCID SurfaceT s) (embeddings_of m SurfaceT a)) by (apply in_embeddings_of; split; [exact K|reflexivity]). destruct (embeddings_of m SurfaceT a); [destruct I|discriminate H].
Qed.
Lemma line_surface : forall t, brep_line_wrong_relationships tl m uv = Ok (Some t) -> line_surface_text tl m uv t.
Proof.
  intros t H. unfold brep_line_wrong_relationships in H. message_step H. message_step H. message_step H; [message_step H|]. message_step H. message_step H; [message_step H|]. message_step H. subst.
  assert (A1 : active_at m uv LineT (cmv_id x)) by (apply active_of_at; assumption).
  match goal with K : get_line _ _ = Ok _ |- _ => rename K into G end. destruct (get_line_some _ _ _ G) as [G1 G2].
  match goal with K : component_mesh_edges _ _ _ _ = Ok _ |- _ => apply edges_inv in K; destruct K as (a & b & J & ->) end.
  unfold brep_line_relationships in H. message_step H.
  match goal with K : kind_named _ _ _ = Ok x0 |- _ => cbn [kind_named] in K; rewrite G in K; cbn [bind] in K; assert (NM : x0 = label m x1) by (rewrite (named_eq _ _ x1 _ G2) in K; congruence); clear K end.
  subst x0. rewrite <- G2 in *. message_step H. message_step H.
  { assert (s = t) by congruence. subst s x0. clear H. match goal with K : first_some _ _ = Ok (Some _) |- _ => rename K into H end. repeat message_step H; subst; facts; match goal with L : labelled _ _ ?s ?n |- _ => exists x1, a, b, s, n, (size_at (me_surfaces (tl_edges tl a b)) s) end; subst; conj; auto.
    - left. conj; auto; [apply incident_bounds; assumption|apply contains_false; assumption].
    - right. left. conj; auto; [apply incident_bounds; assumption|apply contains_size; assumption]. }
  message_step H. message_step H.
  { assert (s = t) by congruence. subst s x2. clear H. match goal with K : first_some _ _ = Ok (Some _) |- _ => rename K into H end. repeat message_step H; subst; facts; match goal with L : labelled _ _ ?s ?n |- _ => exists x1, a, b, s, n, (size_at (me_surfaces (tl_edges tl a b)) s) end; subst; conj; auto.
    - right. right. left. conj; auto; [apply surface_embedding; assumption|apply contains_false; assumption].
    - right. right. right. left. conj; auto; [apply surface_embedding; assumption|apply contains_size; assumption]. }
  repeat message_step H. subst. facts. match goal with L : labelled _ _ (fst ?x) ?n |- _ => destruct x as [s k]; cbn [fst] in *; exists x1, a, b, s, n, k end. conj; auto. right. right. right. right. conj; auto. apply no_surface_embedding. assumption.
Qed.
Lemma line_edge : forall c e t, line_edge_has_wrong_component_edges_around tl m c e = Ok (Some t) -> line_edge_text tl m c e t.
Proof.
  intros c e t H. unfold line_edge_has_wrong_component_edges_around in H. cbv zeta in H. message_step H. rewrite named_label in *.
  match goal with K : component_mesh_edges _ _ _ _ = Ok _ |- _ => apply edges_inv in K; destruct K as (a & b & J & ->) end. exists a, b. split; [exact J|].
  message_step H. message_step H.
  { assert (s = t) by congruence. subst s x. clear H. match goal with K : first_some _ _ = Ok (Some _) |- _ => rename K into H end. left. repeat message_step H; subst; facts; match goal with L : labelled _ _ (fst ?x) ?n |- _ => destruct x as [s k]; cbn [fst snd] in *; exists s, n, k end; conj; auto; first [solve [left; conj; auto] | solve [right; left; conj; auto] | solve [right; right; conj; auto]]. }
  message_step H. message_step H.
  { assert (s = t) by congruence. subst s x0. clear H. match goal with K : first_some _ _ = Ok (Some _) |- _ => rename K into H end. right. left. repeat message_step H; subst; facts. match goal with L : labelled _ _ ?s ?n |- _ => exists s, n end. conj; auto; [apply contains_false; assumption|].
    left. split; [apply surface_embedding; assumption|reflexivity]. }
  message_step H. message_step H.
  { assert (s = t) by congruence. subst s x1. clear H. match goal with K : first_some _ _ = Ok (Some _) |- _ => rename K into H end. right. left. repeat message_step H; subst; facts. match goal with L : labelled _ _ ?s ?n |- _ => exists s, n end. conj; auto; [apply contains_false; assumption|].
    right. split; [apply incident_bounds; assumption|reflexivity]. }
  message_step H. message_step H.
  { assert (s = t) by congruence. subst s x2. clear H. match goal with K : first_some _ _ = Ok (Some _) |- _ => rename K into H end. right. right. left. repeat message_step H; subst; facts. match goal with L : labelled _ _ (fst ?x) ?n |- _ => destruct x as [b' k]; cbn [fst snd] in *; exists b', n, k end. conj; auto. }
  right. right. right. message_step H. message_step H. message_step H; [message_step H|]. message_step H; [|message_step H]. message_step H.
  repeat match goal with K : (_ || _)%bool = false |- _ => apply Bool.orb_false_iff in K; destruct K end.
  match goal with K : get_block _ _ = Ok _ |- _ => destruct (get_block_some _ _ _ K) as [G1 G2] end. rewrite (named_eq _ _ x4 _ G2) in H. exists x4. rewrite G2. conj; auto.
  - match goal with K : negb (co_active x4) = false |- _ => apply Bool.negb_false_iff in K; exact K end.
  - match goal with K : Nat.eqb (nb_polyhedra _) 0 = false |- _ => apply Nat.eqb_neq in K; unfold nb_polyhedra in K end. destruct (so_polyhedra (co_mesh x4)); [cbn in *; congruence|discriminate].
  - apply block_embedding. assumption.
  - apply contains_false. assumption.
Qed.
End Checks.

(** ** Elements *)
Lemma elements_text : forall M (get : Model -> uuid -> outcome (Component M)) kind t meshed nbv nbe enabled check m l d1 d2 d3 r (P : Component M -> nat -> string -> Prop),
  (forall c e text, In c l -> enabled = true -> check c e = Ok (Some text) -> P c e text) ->
  inspect_elements get kind t meshed nbv nbe enabled check m l d1 d2 d3 = Ok r ->
  explained d1 (not_meshed_text m l kind " is not meshed") (ei_not_meshed r) /\ explained_map d2 (not_linked m t l kind) (ei_not_linked r) /\
  explained_map d3 (elements_explained m l kind P) (ei_wrong r).
Proof.
  intros M get kind t meshed nbv nbe enabled check m l d1 d2 d3 r P HP H. unfold inspect_elements in H.
  apply (foldM_inv _ _ (fun r => explained d1 (not_meshed_text m l kind " is not meshed") (ei_not_meshed r) /\ explained_map d2 (not_linked m t l kind) (ei_not_linked r) /\
    explained_map d3 (elements_explained m l kind P) (ei_wrong r))) in H; [exact H| |].
  - intros acc c acc' Hc (A1 & A2 & A3) E. apply in_active in Hc. destruct Hc as [Hc Ac]. unfold inspect_elements_of in E. apply bind_Ok in E. destruct E as (c' & _ & E). cbv zeta in E.
    assert (N : explained d1 (not_meshed_text m l kind " is not meshed")
      (if meshed (co_mesh c') then ei_not_meshed acc else add_issue (co_id c) (StrCat [kind; named m (co_name c) (co_id c); " is not meshed"%string]) (ei_not_meshed acc))).
    { destruct (meshed (co_mesh c')); [exact A1|]. apply explained_add; [exact A1|]. exists c. conj; auto. }
    destruct (N.eqb (nb_issues (vertices_not_associated m (mkCID t (co_id c)) (nbv (co_mesh c)))) 0) eqn:Z; cbn [negb] in E.
    + destruct enabled eqn:EN; cbn [negb] in E; [|injection E as <-; cbn [ei_not_meshed ei_not_linked ei_wrong]; auto].
      apply bind_Ok in E. destruct E as (w & EW & E). injection E as <-. cbn [ei_not_meshed ei_not_linked ei_wrong]. conj; auto.
      assert (W : explained (StrCat [kind; label m c; ""%string]) (fun e text => P c e text) w).
      { apply (foldM_inv _ _ (explained (StrCat [kind; label m c; ""%string]) (fun e text => P c e text))) in EW; [exact EW| |rewrite append_nil_cat, named_label; apply explained_new].
        intros a e a' _ Ha F. apply bind_Ok in F. destruct F as (p & F1 & F). injection F as <-. destruct p as [text|]; [|exact Ha]. apply explained_add; [exact Ha|]. apply (HP c e text); auto. }
      destruct (N.eqb (nb_issues w) 0); cbn [negb]; [exact A3|]. apply explained_map_add; [exact A3|]. exists c. conj; auto.
    + injection E as <-. cbn [ei_not_meshed ei_not_linked ei_wrong]. conj; auto. apply explained_map_add; [exact A2|].
      exists c. conj; auto. rewrite append_nil_cat, named_label. apply (explained_set _ default_description). apply not_associated_explained.
  - split; [apply explained_new|]. split; apply explained_map_new.
Qed.
Lemma brep_corners_text : forall m r, brep_ok m -> brep_inspect_corners_topology m = Ok r -> brep_corners_explained m r.
Proof.
  intros m r Hok H. unfold brep_inspect_corners_topology in H. apply bind_Ok in H. destruct H as (cs & HC & H). apply bind_Ok in H. destruct H as (rs & HR & H).
  apply components_explained in HC. destruct HC as [HC1 HC2].
  apply (report_vertices_explained _ _ _ [several_corners_text m; corner_block_text m; corner_relation_text m; brep_corner_line_text m]) in HR; [|reflexivity|].
  - cbn [brep_corners_ds combine] in HR. inv_forall2 HR. unfold make_corners in H. injection H as <-. unfold brep_corners_explained, corners_explained.
    cbn [ct_not_meshed ct_not_linked ct_multiple_corners ct_multiple_embeddings ct_not_internal_nor_boundary ct_not_boundary_line]. conj; assumption.
  - repeat (apply Forall2_cons; [intros uv t _ K|]); try apply Forall2_nil; [apply multiple_corners_text|apply corner_block|apply no_relation_text|apply brep_corner_line]; assumption.
Qed.
Lemma brep_lines_text : forall tl m r, brep_inspect_lines_topology tl m = Ok r -> brep_lines_explained tl m r.
Proof.
  intros tl m r H. unfold brep_inspect_lines_topology in H. apply bind_Ok in H. destruct H as (cs & HC & H). apply bind_Ok in H. destruct H as (rs & HR & H).
  apply (elements_text _ _ _ _ _ _ _ _ _ _ _ _ _ _ _ (line_edge_text tl m)) in HC; [|intros c e text _ _; apply line_edge]. destruct HC as (HC1 & HC2 & HC3).
  apply (report_vertices_explained _ _ _ [brep_embedded_line_text m; line_surface_text tl m; brep_single_line_text m; lines_corner_text m]) in HR; [|reflexivity|].
  - cbn [brep_lines_ds combine] in HR. inv_forall2 HR. injection H as <-. unfold brep_lines_explained.
    cbn [bl_not_meshed bl_not_linked bl_wrong_relationship bl_invalid_embeddings bl_single_invalid bl_several_not_corner bl_wrong_edges]. conj; assumption.
  - repeat (apply Forall2_cons; [intros uv t _ K|]); try apply Forall2_nil; [apply brep_embedded_line|apply line_surface|apply brep_single_line|apply lines_corner]; assumption.
Qed.
