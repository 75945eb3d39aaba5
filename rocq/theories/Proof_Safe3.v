(** Definedness: the meshes of a brep, and necessity of the links. *)
From Coq Require Import String Ascii List Arith NArith ZArith Bool Lia.
From Verif Require Import Base BaseFacts Model_Issues Types Model_Hash Model_Colocation Model_Cycles Model_Adjacency Model_Degeneration Model_Negative Model_Manifold
  Model_Intersections Model_Topology Model_BRep Model_Blocks Model_Results
  Spec_Adjacency Spec_Colocation Spec_Manifold Spec_Safe Proof_Colocation Proof_Colocation2 Proof_Safe Proof_Safe2.
Import ListNotations.
Open Scope list_scope.

Lemma defined_several : forall m uvs, (forall c uv, m_unique_vertex m c = Some uv -> uv < nb_unique_vertices m) ->
  (forall u, In u uvs -> u <> None /\ exists c, u = m_unique_vertex m c) -> defined (several_cmvs_on_one_vertex m uvs).
Proof.
  intros m uvs U. induction uvs as [|u uvs IH]; intros H; [discriminate|]. cbn [several_cmvs_on_one_vertex]. destruct (H u (or_introl eq_refl)) as (N & c & E).
  destruct u as [uv|]; [|congruence]. assert (L : uv < nb_unique_vertices m) by (apply (U c); auto). apply Nat.ltb_lt in L. rewrite L.
  destruct (1 <? length (component_mesh_vertices m uv)); [discriminate|]. apply IH. intros x Hx. apply H. right. exact Hx.
Qed.
Lemma some_embedding : forall m t id, Nat.eqb (nb_embeddings_of m t id) 0 = false -> exists e, In e (embeddings m id) /\ cid_type e = t.
Proof.
  intros m t id E. unfold nb_embeddings_of in E. destruct (filter _ (embeddings m id)) as [|e l] eqn:F; [discriminate|]. exists e.
  assert (K : In e (filter (fun c => ctype_eqb (cid_type c) t) (embeddings m id))) by (rewrite F; left; reflexivity). apply filter_In in K as [K T]. split; [exact K|].
  destruct (cid_type e), t; try reflexivity; discriminate.
Qed.

Section Meshes.
Variable o : Oracles.
Variable m : Model.
Hypothesis Hm : sane_brep o m.
Let Hs := sb_section _ _ Hm.

Lemma defined_blocks_adjacency : forall acc, defined (add_blocks_facets_with_wrong_adjacencies (or_lookup o) m acc).
Proof.
  intros acc. unfold add_blocks_facets_with_wrong_adjacencies. defined_step. apply active_in in H. defined_step; [|discriminate]. unfold block_adjacency_issues.
  defined_step; [apply defined_solid_adjacency, (ss_blocks _ _ Hs), H|]. defined_step. defined_step; [|discriminate]. unfold border_facet_is_wrong, polyhedron_facet_is_on_a_surface.
  repeat defined_step. apply (sb_surfaces_found _ _ Hm).
Qed.
Lemma defined_brep_adjacency : defined (inspect_brep_meshes_adjacencies (or_lookup o) m).
Proof. unfold inspect_brep_meshes_adjacencies. cbv zeta. defined_step; [|discriminate]. each_task; apply defined_status; [apply defined_surfaces_adjacency, Hs|apply defined_blocks_adjacency]. Qed.
Lemma defined_lonely_line : lonely_lines_linked m -> forall l, In l (active (m_lines m)) -> defined (lonely_line m l).
Proof.
  intros L l Hl. apply filter_In in Hl as [Hl A]. unfold lonely_line. destruct (ec_edges (co_mesh l)) as [|[v w] [|e2 es]] eqn:E; try discriminate.
  destruct (Nat.eqb (nb_embeddings_of m SurfaceT (co_id l)) 0) eqn:N; [discriminate|]. cbv zeta. defined_step; [|discriminate]. apply defined_several; [apply (sb_unique_vertices _ _ Hm)|].
  destruct (L l v w Hl A E (some_embedding m SurfaceT _ N)) as [Lv Lw]. intros u [<-|[<-|[]]]; (split; [assumption|eexists; reflexivity]).
Qed.
Lemma defined_lonely_surface : lonely_surfaces_linked m -> forall s, In s (active (m_surfaces m)) -> defined (lonely_surface m s).
Proof.
  intros L s Hin. apply filter_In in Hin as [Hin A]. unfold lonely_surface. destruct (Nat.eqb (nb_polygons (co_mesh s)) 1) eqn:E; cbn [negb]; [|discriminate].
  destruct (Nat.eqb (nb_embeddings_of m BlockT (co_id s)) 0) eqn:N; [discriminate|]. cbv zeta. defined_step; [|discriminate]. apply defined_several; [apply (sb_unique_vertices _ _ Hm)|].
  intros u Hu. apply in_map_iff in Hu as (v & <- & Hv). split; [|eexists; reflexivity]. apply Nat.eqb_eq in E. unfold nb_polygons in E. unfold polygon_vertices in Hv.
  destruct (sm_polygons (co_mesh s)) as [|vs [|]] eqn:P; try discriminate. apply (L s vs v Hin A P (some_embedding m BlockT _ N) Hv).
Qed.
Lemma defined_brep_manifold : lonely_lines_linked m -> lonely_surfaces_linked m -> defined (inspect_brep_manifold (or_geometry o) (or_hash o) m).
Proof.
  intros LL LS. unfold inspect_brep_manifold. defined_step.
  { unfold add_component_meshes_non_manifold_vertices. defined_step; [apply (defined_surfaces_manifold o m Hs)|]. defined_step. defined_step; [|discriminate].
    apply defined_solid_vertices, (ss_blocks _ _ Hs). eapply active_in; eassumption. }
  defined_step.
  { unfold add_component_meshes_non_manifold_edges, add_surfaces_meshes_non_manifold_edges. defined_step; [defined_all|]. defined_step. defined_step; [|discriminate].
    unfold solid_non_manifold_edges. apply defined_solid_edges_issues, (ss_blocks _ _ Hs). eapply active_in; eassumption. }
  defined_step; [unfold add_component_meshes_non_manifold_facets; defined_all|]. defined_step.
  { unfold add_model_non_manifold_edges. cbv zeta. defined_step. defined_step; [apply defined_lonely_line; assumption|discriminate]. }
  defined_step; [|discriminate]. unfold add_model_non_manifold_facets. defined_step. defined_step; [apply defined_lonely_surface; assumption|discriminate].
Qed.
Lemma defined_inspect_brep_meshes : lonely_lines_linked m -> lonely_surfaces_linked m -> forall st inter, defined inter -> defined (inspect_brep_meshes o m st inter).
Proof.
  intros LL LS st inter I. unfold inspect_brep_meshes. cbv zeta. defined_step; [|discriminate]. each_task; apply defined_status.
  - apply (defined_unique_vertices o m Hs).
  - apply (defined_meshes_colocation o m Hs).
  - apply defined_brep_adjacency.
  - apply defined_brep_degeneration.
  - apply defined_brep_manifold; assumption.
Qed.
Lemma defined_inspect_brep : lonely_lines_linked m -> lonely_surfaces_linked m -> first_edges_are_linked m -> boundaries_have_a_surface m ->
  forall st inter, defined inter -> defined (inspect_brep o m st inter).
Proof.
  intros LL LS FE B st inter I. unfold inspect_brep. cbv zeta. defined_step; [|discriminate]. each_task; apply defined_status.
  - apply defined_inspect_brep_meshes; assumption.
  - apply (defined_brep_topology o m Hm FE B).
Qed.
End Meshes.

(** ** A link that dangles *)
Lemma nodup_left : forall A (l l' : list A), NoDup (l ++ l') -> NoDup l.
Proof. intros A l l'. induction l as [|x l IH]; intros H; [constructor|]. cbn in H. apply NoDup_cons_iff in H as [N H]. constructor; [intros K; apply N, in_or_app; left; exact K|apply IH, H]. Qed.
Lemma nodup_right : forall A (l l' : list A), NoDup (l ++ l') -> NoDup l'.
Proof. intros A l l'. induction l as [|x l IH]; intros H; [exact H|]. cbn in H. apply NoDup_cons_iff in H as [_ H]. apply IH, H. Qed.
Lemma find_registered : forall M (l : list (Component M)) id, (exists c, In c l /\ co_id c = id) -> exists c, find_component id l = Some c /\ In c l /\ co_id c = id.
Proof.
  intros M l id (c & Hc & E). destruct (find_component id l) as [k|] eqn:F; [exists k; split; [reflexivity|]; apply found_component, F|]. exfalso.
  induction l as [|x l IH]; [exact Hc|]. cbn in F. destruct (Nat.eqb_spec (co_id x) id) as [Ex|Ex]; [discriminate|]. destruct Hc as [->|Hc]; [congruence|]. apply IH; assumption.
Qed.
Lemma registered_active : forall m c, link_registered m c -> exists a, component_is_active m (cid_id (cmv_component c)) = Ok a.
Proof.
  intros m c H. unfold link_registered in H. unfold component_is_active. destruct (cid_type (cmv_component c)); apply find_registered in H as (k & E & _);
    repeat (match goal with |- context [find_component ?i ?l] => destruct (find_component i l) eqn:? end; [eexists; reflexivity|]); congruence.
Qed.
Lemma registered_point : forall m c, link_registered m c -> model_cmv_point m c = UB \/ exists p, model_cmv_point m c = Ok p.
Proof.
  intros m c H. unfold link_registered in H. unfold model_cmv_point, get_corner, get_line, get_surface, get_block. cbv zeta.
  destruct (cid_type (cmv_component c)); apply find_registered in H as (k & E & _); rewrite E; cbn [or_throw bind]; unfold Model_Colocation.mesh_point;
    match goal with |- context [nth_error ?l ?i] => destruct (nth_error l i) end; eauto.
Qed.
Lemma dangling_point : forall m c, unique_ids m -> link_registered m c -> ~ link_in_range m c -> model_cmv_point m c = UB.
Proof.
  intros m c U H N. destruct (registered_point m c H) as [E|(p & E)]; [exact E|]. exfalso. apply N. clear N.
  assert (U' := U). unfold unique_ids, all_ids in U'.
  assert (K : forall M (l : list (Component M)) x y id, NoDup (map co_id l) -> In x l -> In y l -> co_id x = id -> co_id y = id -> x = y).
  { intros M l. induction l as [|z l IH]; intros x y id ND Hx Hy Ex Ey; [destruct Hx|]. cbn in ND. apply NoDup_cons_iff in ND as [Nz ND]. destruct Hx as [->|Hx], Hy as [->|Hy]; [reflexivity| | |eapply IH; eassumption].
    - exfalso. apply Nz. rewrite Ex, <- Ey. apply in_map. exact Hy.
    - exfalso. apply Nz. rewrite Ey, <- Ex. apply in_map. exact Hx. }
  assert (UU : NoDup (map co_id (m_corners m)) /\ NoDup (map co_id (m_lines m)) /\ NoDup (map co_id (m_surfaces m)) /\ NoDup (map co_id (m_blocks m))).
  { split; [|split; [|split]].
    - eapply nodup_left; exact U'.
    - eapply nodup_left, nodup_right; exact U'.
    - eapply nodup_left, nodup_right, nodup_right; exact U'.
    - eapply nodup_right, nodup_right, nodup_right; exact U'. }
  destruct UU as (U1 & U2 & U3 & U4). unfold link_in_range, link_registered in *. unfold model_cmv_point, get_corner, get_line, get_surface, get_block in E. cbv zeta in E.
  destruct (cid_type (cmv_component c)); apply find_registered in H as (k & F & Hk & Ik); rewrite F in E; cbn [or_throw bind] in E; intros l Hl El;
    rewrite (K _ _ l k _ ltac:(eassumption) Hl Hk El Ik); unfold Model_Colocation.mesh_point in E;
    match type of E with context [nth_error ?l ?i] => destruct (nth_error l i) eqn:Q; [|discriminate] end; apply nth_error_Some; congruence.
Qed.
Lemma first_point_dangles : forall m c pre post, unique_ids m -> (forall d, In d (pre ++ c :: post) -> link_registered m d) ->
  (forall d, In d pre -> ~ is_active_cmv m d) -> is_active_cmv m c -> ~ link_in_range m c -> model_unique_vertex_point m (pre ++ c :: post) = UB.
Proof.
  intros m c pre post U R N A D. induction pre as [|d pre IH].
  - cbn [app model_unique_vertex_point]. unfold is_active_cmv in A. apply (component_is_active_spec m _ _ U) in A. rewrite A. cbn [bind negb]. rewrite (dangling_point m c U); [reflexivity|apply R; left; reflexivity|exact D].
  - cbn [app model_unique_vertex_point]. destruct (registered_active m d) as ([] & E); [apply R; left; reflexivity| |].
    + exfalso. apply (N d); [left; reflexivity|]. apply (component_is_active_spec m _ _ U). exact E.
    + rewrite E. cbn [bind negb]. apply IH; [intros x Hx; apply R; right; exact Hx|intros x Hx; apply N; right; exact Hx].
Qed.
Lemma registered_vertex_point : forall m cmvs, (forall d, In d cmvs -> link_registered m d) -> forall e, model_unique_vertex_point m cmvs <> Throw e.
Proof.
  intros m. induction cmvs as [|d cmvs IH]; intros R e; [discriminate|]. cbn [model_unique_vertex_point]. destruct (registered_active m d) as ([] & E); [apply R; left; reflexivity| |]; rewrite E; cbn [bind negb].
  - destruct (registered_point m d) as [->|(p & ->)]; [apply R; left; reflexivity|discriminate|discriminate].
  - apply IH. intros x Hx. apply R. right. exact Hx.
Qed.
Lemma foldM_undefined : forall A S (f : S -> A -> outcome S) l x, (forall s y e, In y l -> f s y <> Throw e) -> In x l -> (forall s, f s x = UB) -> forall s, foldM f l s = UB.
Proof.
  intros A S f. induction l as [|y l IH]; intros x T Hx H s; [destruct Hx|]. cbn [foldM]. destruct (f s y) as [s'|e|] eqn:E; cbn [bind]; [|exfalso; eapply T; [left; reflexivity|exact E]|reflexivity].
  destruct Hx as [->|Hx]; [rewrite H in E; discriminate|]. apply (IH x); [intros s0 z e Hz; apply T; right; exact Hz|exact Hx|exact H].
Qed.
Lemma parallel_undefined : forall l, In UB l -> parallel_invoke l = UB.
Proof.
  induction l as [|o l IH]; intros H; [destruct H|]. destruct o as [a|e|]; cbn [parallel_invoke].
  - destruct H as [H|H]; [discriminate|apply IH, H].
  - destruct H as [H|H]; [discriminate|]. assert (E : existsb (fun o : outcome unit => match o with UB => true | _ => false end) l = true) by (apply existsb_exists; exists UB; split; [exact H|reflexivity]). rewrite E. reflexivity.
  - reflexivity.
Qed.
Lemma links_dangle : forall geo m uv c, unique_ids m -> (forall uv c, uv < nb_unique_vertices m -> In c (component_mesh_vertices m uv) -> link_registered m c) ->
  first_active_link m uv c -> ~ link_in_range m c -> inspect_unique_vertices geo m = UB.
Proof.
  intros geo m uv c U R (pre & post & Huv & E & N & A) D. unfold inspect_unique_vertices. cbv zeta. unfold colocated_unique_vertices_groups.
  assert (K : uvc_create m = UB).
  { unfold uvc_create. apply foldM_undefined with (x := uv).
    - intros s y e Hy. apply in_Range in Hy. pose proof (registered_vertex_point m (component_mesh_vertices m y) (fun d Hd => R y d Hy Hd)) as T. destruct (model_unique_vertex_point m (component_mesh_vertices m y)); cbn [bind]; [discriminate| |discriminate].
      intros Z. injection Z as Z. eapply T. reflexivity.
    - apply in_Range. exact Huv.
    - intros s. rewrite E, (first_point_dangles m c pre post U); [reflexivity| |exact N|exact A|exact D]. intros d Hd. apply (R uv); [exact Huv|rewrite E; exact Hd]. }
  rewrite K. cbn [bind]. rewrite parallel_undefined; [reflexivity|]. left. reflexivity.
Qed.
Lemma dangling_section : forall o m st inter, inspect_unique_vertices (or_geometry o) m = UB -> inspect_section o m st inter = UB.
Proof.
  intros o m st inter H. unfold inspect_section, inspect_section_meshes. cbv zeta. rewrite H. cbn [status bind parallel_invoke]. reflexivity.
Qed.
Lemma dangling_brep : forall o m st inter, inspect_unique_vertices (or_geometry o) m = UB -> inspect_brep o m st inter = UB.
Proof.
  intros o m st inter H. unfold inspect_brep, inspect_brep_meshes. cbv zeta. rewrite H. cbn [status bind parallel_invoke]. reflexivity.
Qed.
