(** Definedness: what happens when the places where the code does not look are not as it hopes. *)
From Coq Require Import String Ascii List Arith NArith ZArith Bool Lia.
From Verif Require Import Base BaseFacts Model_Issues Types Model_Hash Model_Colocation Model_Cycles Model_Adjacency Model_Degeneration Model_Negative Model_Manifold
  Model_Intersections Model_Topology Model_BRep Model_Blocks Model_Results
  Spec_Adjacency Spec_Colocation Spec_Manifold Spec_Safe Proof_Colocation Proof_Colocation2 Proof_Safe Proof_Safe2 Proof_Safe3.
Import ListNotations.
Open Scope list_scope.

Lemma has_embedding : forall m t id e, In e (embeddings m id) -> cid_type e = t -> Nat.eqb (nb_embeddings_of m t id) 0 = false.
Proof.
  intros m t id e He T. unfold nb_embeddings_of. assert (K : In e (filter (fun c => ctype_eqb (cid_type c) t) (embeddings m id))).
  { apply filter_In. split; [exact He|]. rewrite T. destruct t; reflexivity. }
  destruct (filter _ _); [destruct K|reflexivity].
Qed.
Lemma several_never_throws : forall m l e, several_cmvs_on_one_vertex m l <> Throw e.
Proof. intros m. induction l as [|[u|] l IH]; intros e; cbn [several_cmvs_on_one_vertex]; try discriminate. destruct (Nat.ltb u _); [|discriminate]. destruct (Nat.ltb 1 _); [discriminate|apply IH]. Qed.
Lemma lonely_line_never_throws : forall m l e, lonely_line m l <> Throw e.
Proof.
  intros m l e. unfold lonely_line. destruct (ec_edges (co_mesh l)) as [|[v w] [|]]; try discriminate. destruct (Nat.eqb _ 0); [discriminate|]. cbv zeta.
  match goal with |- context [several_cmvs_on_one_vertex ?m ?l] => pose proof (several_never_throws m l e); destruct (several_cmvs_on_one_vertex m l) end; cbn [bind]; congruence.
Qed.
Lemma lonely_surface_never_throws : forall m s e, lonely_surface m s <> Throw e.
Proof.
  intros m s e. unfold lonely_surface. destruct (negb _); [discriminate|]. destruct (Nat.eqb _ 0); [discriminate|]. cbv zeta.
  match goal with |- context [several_cmvs_on_one_vertex ?m ?l] => pose proof (several_never_throws m l e); destruct (several_cmvs_on_one_vertex m l) end; cbn [bind]; congruence.
Qed.
(** the vertices before the unlinked one have no other link *)
Lemma several_undefined : forall m pre post, (forall u, In (Some u) pre -> length (component_mesh_vertices m u) <= 1) -> several_cmvs_on_one_vertex m (pre ++ None :: post) = UB.
Proof.
  intros m pre post. induction pre as [|[u|] pre IH]; intros H; cbn [app several_cmvs_on_one_vertex]; try reflexivity. destruct (Nat.ltb u _); [|reflexivity].
  destruct (Nat.ltb_spec 1 (length (component_mesh_vertices m u))) as [K|K]; [|apply IH; intros x Hx; apply H; right; exact Hx]. specialize (H u (or_introl eq_refl)). lia.
Qed.
Lemma meets_undefined : forall m t id vs, meets_unlinked m t id vs -> several_cmvs_on_one_vertex m (map (fun x => m_unique_vertex m (mkCMV (mkCID t id) x)) vs) = UB.
Proof.
  intros m t id vs (pre & v & post & -> & N & B). rewrite map_app. cbn [map]. assert (E : m_unique_vertex m (mkCMV (mkCID t id) v) = None).
  { destruct (m_unique_vertex m (mkCMV (mkCID t id) v)) eqn:E; [|reflexivity]. exfalso. apply N. unfold is_linked. rewrite E. discriminate. }
  rewrite E. apply several_undefined. intros u Hu. apply in_map_iff in Hu as (x & Ex & Hx). apply (B x u Hx Ex).
Qed.
Section Lonely.
Variable o : Oracles.
Variable m : Model.
Lemma line_undefined : forall l v w, ec_edges (co_mesh l) = [(v, w)] -> (exists e, In e (embeddings m (co_id l)) /\ cid_type e = SurfaceT) ->
  meets_unlinked m LineT (co_id l) [v; w] -> lonely_line m l = UB.
Proof.
  intros l v w E (e & He & T) H. unfold lonely_line. rewrite E, (has_embedding m SurfaceT _ e He T). cbv zeta. apply meets_undefined in H. cbn [map] in H. rewrite H. reflexivity.
Qed.
Lemma surface_undefined : forall s vs, sm_polygons (co_mesh s) = [vs] -> (exists e, In e (embeddings m (co_id s)) /\ cid_type e = BlockT) ->
  meets_unlinked m SurfaceT (co_id s) vs -> lonely_surface m s = UB.
Proof.
  intros s vs E (e & He & T) H. unfold lonely_surface, nb_polygons, polygon_vertices. rewrite E. cbn [length Nat.eqb negb nth]. rewrite (has_embedding m BlockT _ e He T). cbv zeta.
  unfold surface_uv. rewrite (meets_undefined _ _ _ _ H). reflexivity.
Qed.
Lemma manifold_line : forall l, In l (m_lines m) -> co_active l = true -> lonely_line m l = UB -> forall r, inspect_brep_manifold (or_geometry o) (or_hash o) m <> Ok r.
Proof.
  intros l Hl A U r. unfold inspect_brep_manifold. destruct (add_component_meshes_non_manifold_vertices _ _ _); cbn [bind]; try discriminate.
  destruct (add_component_meshes_non_manifold_edges _ _ _); cbn [bind]; try discriminate. destruct (add_component_meshes_non_manifold_facets _ _ _); cbn [bind]; try discriminate.
  unfold add_model_non_manifold_edges. cbv zeta. rewrite (foldM_undefined _ _ _ _ l); [discriminate| |apply filter_In; split; assumption|intros s; rewrite U; reflexivity].
  intros s y e _ K. destruct (lonely_line m y) eqn:E; cbn [bind] in K; try discriminate. eapply lonely_line_never_throws. exact E.
Qed.
Lemma manifold_surface : forall s, In s (m_surfaces m) -> co_active s = true -> lonely_surface m s = UB -> forall r, inspect_brep_manifold (or_geometry o) (or_hash o) m <> Ok r.
Proof.
  intros l Hl A U r. unfold inspect_brep_manifold. destruct (add_component_meshes_non_manifold_vertices _ _ _); cbn [bind]; try discriminate.
  destruct (add_component_meshes_non_manifold_edges _ _ _); cbn [bind]; try discriminate. destruct (add_component_meshes_non_manifold_facets _ _ _); cbn [bind]; try discriminate.
  destruct (add_model_non_manifold_edges _ _ _); cbn [bind]; try discriminate.
  unfold add_model_non_manifold_facets. rewrite (foldM_undefined _ _ _ _ l); [discriminate| |apply filter_In; split; assumption|intros s; rewrite U; reflexivity].
  intros s y e _ K. destruct (lonely_surface m y) eqn:E; cbn [bind] in K; try discriminate. eapply lonely_surface_never_throws. exact E.
Qed.
Lemma parallel_ok : forall l, parallel_invoke l = Ok tt -> forall x, In x l -> x = Ok tt.
Proof.
  induction l as [|x l IH]; intros H y Hy; [destruct Hy|]. destruct x as [[]|e|]; cbn [parallel_invoke] in H; try discriminate.
  - destruct Hy as [<-|Hy]; [reflexivity|apply IH; assumption].
  - destruct (existsb _ l); discriminate.
Qed.
Lemma no_result : (forall r, inspect_brep_manifold (or_geometry o) (or_hash o) m <> Ok r) -> forall st inter, (forall r, inspect_brep_meshes o m st inter <> Ok r) /\ forall r, inspect_brep o m st inter <> Ok r.
Proof.
  intros H st inter. assert (M : forall r, inspect_brep_meshes o m st inter <> Ok r).
  { intros r. unfold inspect_brep_meshes. cbv zeta. match goal with |- context [parallel_invoke ?l] => destruct (parallel_invoke l) as [[]|e|] eqn:E end; cbn [bind]; try discriminate. intros _.
    assert (K := parallel_ok _ E (status (inspect_brep_manifold (or_geometry o) (or_hash o) m))). cbn [In] in K. specialize (K ltac:(tauto)).
    destruct (inspect_brep_manifold (or_geometry o) (or_hash o) m); try discriminate. eapply H; reflexivity. }
  split; [exact M|]. intros r. unfold inspect_brep. cbv zeta. match goal with |- context [parallel_invoke ?l] => destruct (parallel_invoke l) as [[]|e|] eqn:E end; cbn [bind]; try discriminate. intros _.
  assert (K := parallel_ok _ E (status (inspect_brep_meshes o m st inter)) (or_introl eq_refl)). destruct (inspect_brep_meshes o m st inter); try discriminate. eapply M; reflexivity.
Qed.
Lemma blocks_undefined : active (m_blocks m) <> [] -> m_model_boundaries m <> [] -> boundary_surfaces m = [] -> forall r, brep_inspect_blocks (or_topo o) m <> Ok r.
Proof.
  intros A B S r. unfold brep_inspect_blocks. destruct (active (m_blocks m)) as [|b0 bs] eqn:EA; [congruence|]. rewrite <- EA. destruct (find_not_boundary_surfaces m); cbn [bind]; try discriminate.
  destruct (find_dangling_surfaces _ _ _); cbn [bind]; try discriminate. match goal with |- context [foldM ?f ?l ?s] => destruct (foldM f l s) end; cbn [bind]; try discriminate.
  destruct (m_model_boundaries m) as [|mb mbs] eqn:EM; [congruence|]. unfold brep_boundaries_are_closed. destruct (queue_with_model_boundaries m) as [q|e|] eqn:E; cbn [bind]; try discriminate.
  apply queue_model_length in E. rewrite S in E. destruct q; [|discriminate]. cbn. discriminate.
Qed.
End Lonely.
(** ** The first edge of a line *)
Lemma report_vertex_runs : forall checks uv rs rs', length checks <= length rs -> report_vertex checks uv rs = Ok rs' -> forall check, In check checks -> exists p, check uv = Ok p.
Proof.
  induction checks as [|c checks IH]; intros uv rs rs' L E check H; [destruct H|]. destruct rs as [|r rs]; [cbn in L; lia|]. cbn [report_vertex] in E.
  destruct (c uv) as [p|e|] eqn:Ec; cbn [bind] in E; try discriminate. cbv zeta in E. destruct (report_vertex checks uv rs) as [rs1|e|] eqn:E1; cbn [bind] in E; try discriminate.
  destruct H as [<-|H]; [eauto|]. eapply IH; [|exact E1|exact H]. cbn in L. lia.
Qed.
Lemma report_runs : forall m checks ds rs, length checks <= length ds -> report_vertices m checks ds = Ok rs -> forall check uv, In check checks -> uv < nb_unique_vertices m -> exists p, check uv = Ok p.
Proof.
  intros m checks ds rs L E check uv Hc Huv. unfold report_vertices in E. assert (Hin : In uv (Range (nb_unique_vertices m))) by (apply in_Range, Huv).
  assert (L0 : length checks <= length (map (@new_issues nat) ds)) by (rewrite map_length; exact L). revert E L0 Hin. generalize (map (@new_issues nat) ds). generalize (Range (nb_unique_vertices m)).
  induction l as [|y l IH]; intros s E L0 Hin; [destruct Hin|]. cbn [foldM] in E. destruct (report_vertex checks y s) as [s'|e|] eqn:Ey; cbn [bind] in E; try discriminate.
  destruct Hin as [->|Hin]; [eapply report_vertex_runs; [exact L0|exact Ey|exact Hc]|]. apply report_vertex_length in Ey. apply (IH s'); [exact E|lia|exact Hin].
Qed.
Lemma first_edge_undefined : forall tl m uv c rest l v w es, uv < nb_unique_vertices m -> component_mesh_vertices m uv = c :: rest -> unique_ids m ->
  In l (m_lines m) -> cmv_component c = mkCID LineT (co_id l) -> co_active l = true -> ec_edges (co_mesh l) = (v, w) :: es ->
  (~ is_linked m LineT (co_id l) v \/ ~ is_linked m LineT (co_id l) w) -> forall r, brep_inspect_lines_topology tl m <> Ok r.
Proof.
  intros tl m uv c rest l v w es Huv Ec U Hl E A Ee N r H. unfold brep_inspect_lines_topology in H. match type of H with context [bind ?x _] => destruct x end; cbn [bind] in H; try discriminate.
  match type of H with context [bind (report_vertices ?m ?cs ?ds) _] => destruct (report_vertices m cs ds) as [rs|err|] eqn:R end; cbn [bind] in H; try discriminate.
  pose proof (fun Hlen => report_runs _ _ _ _ Hlen R) as RR. specialize (RR (le_n 4)). destruct (RR (brep_line_wrong_relationships tl m) uv) as (p & K); [cbn [In]; tauto|exact Huv|]. unfold brep_line_wrong_relationships in K. rewrite Ec in K. cbn [first_some] in K.
  assert (F : get_line m (co_id l) = Ok l).
  { unfold get_line. destruct (find_registered _ (m_lines m) (co_id l)) as (k & Fk & Hk & Ik); [eauto|]. rewrite Fk. cbn [or_throw]. f_equal.
    unfold unique_ids, all_ids in U. apply nodup_right in U. apply nodup_left in U. clear - U Hl Hk Ik. induction (m_lines m) as [|z ls IH]; [destruct Hl|]. cbn in U. apply NoDup_cons_iff in U as [Nz U].
    destruct Hl as [->|Hl], Hk as [->|Hk]; [reflexivity| | |apply IH; assumption]; exfalso; apply Nz; [rewrite <- Ik|rewrite Ik]; apply in_map; assumption. }
  unfold is_active_of, of_type, cmv_id, cmv_type in K. rewrite E in K. cbn [cid_type ctype_eqb cid_id] in K. unfold kind_is_active in K. rewrite F in K. cbn [bind] in K. rewrite A in K. cbn [negb bind] in K.
  rewrite Ee in K. cbn [length Nat.eqb] in K. unfold component_mesh_edges in K. rewrite Ee in K. cbn [nth_error unique_vertices] in K.
  assert (Z : forall x, ~ is_linked m LineT (co_id l) x -> m_unique_vertex m (mkCMV (mkCID LineT (co_id l)) x) = None).
  { intros x Nx. unfold is_linked in Nx. destruct (m_unique_vertex m (mkCMV (mkCID LineT (co_id l)) x)); [|reflexivity]. exfalso. apply Nx. discriminate. }
  destruct N as [N|N]; apply Z in N; unfold uuid in *; rewrite N in K; [discriminate|]. destruct (m_unique_vertex m (mkCMV (mkCID LineT (co_id l)) v)); discriminate.
Qed.
