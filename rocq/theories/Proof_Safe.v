(** Definedness: combinators, single meshes and meshes of models. *)
From Coq Require Import String Ascii List Arith NArith ZArith Bool Lia.
From Verif Require Import Base BaseFacts Model_Issues Types Model_Hash Model_Colocation Model_Cycles Model_Adjacency Model_Degeneration Model_Negative Model_Manifold
  Model_Intersections Model_Topology Model_BRep Model_Blocks Model_Results
  Spec_Adjacency Spec_Colocation Spec_Manifold Spec_Safe Proof_Colocation.
Import ListNotations.
Open Scope list_scope.

Lemma defined_ok : forall A (a : A), defined (Ok a).
Proof. discriminate. Qed.
Lemma defined_throw : forall A e, defined (@Throw A e).
Proof. discriminate. Qed.
Lemma defined_bind : forall A B (o : outcome A) (f : A -> outcome B), defined o -> (forall a, o = Ok a -> defined (f a)) -> defined (bind o f).
Proof. intros A B [a|e|] f H K; [apply K; reflexivity|discriminate|congruence]. Qed.
Lemma defined_first_some : forall A B (f : A -> outcome (option B)) l, (forall x, In x l -> defined (f x)) -> defined (first_some f l).
Proof.
  intros A B f. induction l as [|x l IH]; intros H; [discriminate|]. cbn [first_some]. apply defined_bind; [apply H; left; reflexivity|].
  intros [b|] _; [discriminate|]. apply IH. intros y Hy. apply H. right. exact Hy.
Qed.
Lemma defined_foldM : forall A S (f : S -> A -> outcome S) l s, (forall s x, In x l -> defined (f s x)) -> defined (foldM f l s).
Proof.
  intros A S f. induction l as [|x l IH]; intros s H; [discriminate|]. cbn [foldM]. apply defined_bind; [apply H; left; reflexivity|].
  intros s' _. apply IH. intros s1 y Hy. apply H. right. exact Hy.
Qed.
(** ... with an invariant of the state *)
Lemma defined_foldM_inv : forall A S (P : S -> Prop) (f : S -> A -> outcome S) l s, P s ->
  (forall s x, P s -> In x l -> defined (f s x) /\ forall s', f s x = Ok s' -> P s') -> defined (foldM f l s).
Proof.
  intros A S P f. induction l as [|x l IH]; intros s Hs H; [discriminate|]. cbn [foldM]. destruct (H s x Hs) as [D K]; [left; reflexivity|].
  apply defined_bind; [exact D|]. intros s' E. apply IH; [apply K, E|]. intros s1 y Hp Hy. apply H; [exact Hp|right; exact Hy].
Qed.
Lemma foldM_inv : forall A S (P : S -> Prop) (f : S -> A -> outcome S) l s r, P s ->
  (forall s x s', P s -> In x l -> f s x = Ok s' -> P s') -> foldM f l s = Ok r -> P r.
Proof.
  intros A S P f. induction l as [|x l IH]; intros s r Hs H E; [cbn in E; injection E as <-; exact Hs|]. cbn [foldM] in E.
  destruct (f s x) as [s'|e|] eqn:Ef; [|discriminate|discriminate]. apply (IH s' r); [apply (H s x s' Hs); [left; reflexivity|exact Ef]| |exact E].
  intros s1 y s2 Hp Hy. apply H; [exact Hp|right; exact Hy].
Qed.
Lemma defined_anyM : forall A (f : A -> outcome bool) l, (forall x, In x l -> defined (f x)) -> defined (anyM f l).
Proof.
  intros A f. induction l as [|x l IH]; intros H; [discriminate|]. cbn [anyM]. apply defined_bind; [apply H; left; reflexivity|].
  intros [] _; [discriminate|]. apply IH. intros y Hy. apply H. right. exact Hy.
Qed.
Lemma defined_mapM : forall A B (f : A -> outcome B) l, (forall x, In x l -> defined (f x)) -> defined (mapM f l).
Proof.
  intros A B f. induction l as [|x l IH]; intros H; [discriminate|]. cbn [mapM]. apply defined_bind; [apply H; left; reflexivity|].
  intros y _. apply defined_bind; [|discriminate]. apply IH. intros z Hz. apply H. right. exact Hz.
Qed.
Lemma defined_status : forall A (o : outcome A), defined o -> defined (status o).
Proof. intros A o H. apply defined_bind; [exact H|discriminate]. Qed.
Lemma no_ub_exists : forall l : list (outcome unit), Forall defined l -> existsb (fun o => match o with UB => true | _ => false end) l = false.
Proof. induction 1 as [|o l H _ IH]; [reflexivity|]. destruct o; cbn; [exact IH|exact IH|congruence]. Qed.
Lemma defined_parallel : forall l, Forall defined l -> defined (parallel_invoke l).
Proof.
  induction 1 as [|o l H Hl IH]; [discriminate|]. destruct o; cbn [parallel_invoke]; [exact IH| |congruence].
  rewrite (no_ub_exists l Hl). discriminate.
Qed.
Lemma defined_parallel_caught : forall l, Forall defined l -> defined (parallel_invoke_caught l).
Proof.
  induction 1 as [|o l H Hl IH]; [discriminate|]. destruct o as [|e|]; cbn [parallel_invoke_caught]; [exact IH| |congruence].
  rewrite (no_ub_exists l Hl). destruct e; discriminate.
Qed.

Lemma defined_or_throw : forall A m (o : option A), defined (or_throw m o).
Proof. intros A m []; discriminate. Qed.
Lemma defined_corner : forall m id, defined (get_corner m id). Proof. intros; apply defined_or_throw. Qed.
Lemma defined_line : forall m id, defined (get_line m id). Proof. intros; apply defined_or_throw. Qed.
Lemma defined_surface : forall m id, defined (get_surface m id). Proof. intros; apply defined_or_throw. Qed.
Lemma defined_block : forall m id, defined (get_block m id). Proof. intros; apply defined_or_throw. Qed.
Lemma found_component : forall M id (l : list (Component M)) c, find_component id l = Some c -> In c l /\ co_id c = id.
Proof.
  intros M id. induction l as [|k l IH]; intros c E; [discriminate|]. cbn in E. destruct (Nat.eqb (co_id k) id) eqn:Ek.
  - injection E as <-. apply Nat.eqb_eq in Ek. split; [left; reflexivity|exact Ek].
  - destruct (IH c E). split; [right|]; assumption.
Qed.
Lemma got_line : forall m id c, get_line m id = Ok c -> In c (m_lines m) /\ co_id c = id.
Proof. intros m id c E. unfold get_line in E. destruct (find_component id (m_lines m)) eqn:F; [|discriminate]. injection E as <-. apply found_component, F. Qed.
Lemma got_surface : forall m id c, get_surface m id = Ok c -> In c (m_surfaces m) /\ co_id c = id.
Proof. intros m id c E. unfold get_surface in E. destruct (find_component id (m_surfaces m)) eqn:F; [|discriminate]. injection E as <-. apply found_component, F. Qed.
Lemma got_block : forall m id c, get_block m id = Ok c -> In c (m_blocks m) /\ co_id c = id.
Proof. intros m id c E. unfold get_block in E. destruct (find_component id (m_blocks m)) eqn:F; [|discriminate]. injection E as <-. apply found_component, F. Qed.
Lemma got_corner : forall m id c, get_corner m id = Ok c -> In c (m_corners m) /\ co_id c = id.
Proof. intros m id c E. unfold get_corner in E. destruct (find_component id (m_corners m)) eqn:F; [|discriminate]. injection E as <-. apply found_component, F. Qed.

Create HintDb defined discriminated.
#[export] Hint Resolve defined_ok defined_throw defined_corner defined_line defined_surface defined_block : defined.
(** goes through the code: everything but the partial operations *)
Ltac defined_step :=
  cbv beta zeta;
  lazymatch goal with
  | |- defined (Ok _) => apply defined_ok
  | |- defined (Throw _) => apply defined_throw
  | |- defined (bind _ _) => apply defined_bind; [|intros ? ?]
  | |- defined (first_some _ _) => apply defined_first_some; intros ? ?
  | |- defined (foldM _ _ _) => apply defined_foldM; intros ? ? ?
  | |- defined (anyM _ _) => apply defined_anyM; intros ? ?
  | |- defined (mapM _ _) => apply defined_mapM; intros ? ?
  | |- defined (if ?b then _ else _) => destruct b eqn:?
  | |- defined (match ?x with _ => _ end) => destruct x eqn:?
  | |- defined _ => solve [eauto 4 with defined]
  end.
Ltac defined_all := repeat defined_step.

Lemma defined_component_is_active : forall m id, defined (component_is_active m id).
Proof. intros. unfold component_is_active. defined_all. Qed.
Lemma defined_kind_is_active : forall m t id, defined (kind_is_active m t id).
Proof. intros m [] id; unfold kind_is_active; defined_all. Qed.
Lemma defined_kind_named : forall m t id, defined (kind_named m t id).
Proof. intros m [] id; unfold kind_named; defined_all. Qed.
Lemma defined_kind_title : forall m t id, defined (kind_title m t id).
Proof. intros m [] id; unfold kind_title; defined_all. Qed.
Lemma defined_is_active_of : forall m t c, defined (is_active_of m t c).
Proof. intros. unfold is_active_of. destruct (of_type t c); [apply defined_kind_is_active|discriminate]. Qed.
#[export] Hint Resolve defined_component_is_active defined_kind_is_active defined_kind_named defined_kind_title defined_is_active_of : defined.

(** ** Meshes *)
Lemma in_polygon_edges : forall m e, In e (all_polygon_edges m) -> is_polygon_edge m e.
Proof.
  intros m e H. unfold all_polygon_edges in H. apply in_flat_map in H as (p & Hp & H). apply in_map_iff in H as (i & <- & Hi).
  apply in_Range in Hp. apply in_Range in Hi. split; assumption.
Qed.
Lemma in_polyhedron_facets : forall m f, In f (all_polyhedron_facets m) -> is_polyhedron_facet m f.
Proof.
  intros m e H. unfold all_polyhedron_facets in H. apply in_flat_map in H as (p & Hp & H). apply in_map_iff in H as (i & <- & Hi).
  apply in_Range in Hp. apply in_Range in Hi. split; assumption.
Qed.
Lemma defined_edge_adjacency : forall m e, edge_adjacency_in_range m -> is_polygon_edge m e -> defined (edge_has_wrong_adjacency m e).
Proof.
  intros m e H He. unfold edge_has_wrong_adjacency, is_edge_on_border, edge_has_right_adjacency. destruct (sm_adjacent m e) as [q|] eqn:E; cbn [isSome negb]; [|discriminate].
  specialize (H e q He E). apply Nat.ltb_lt in H. rewrite H. discriminate.
Qed.
Lemma defined_facet_adjacency : forall m f, (forall f q, is_polyhedron_facet m f -> so_adjacent m f = Some q -> q < nb_polyhedra m) ->
  is_polyhedron_facet m f -> defined (facet_has_wrong_adjacency m f).
Proof.
  intros m e H He. unfold facet_has_wrong_adjacency, is_facet_on_border, facet_has_right_adjacency. destruct (so_adjacent m e) as [q|] eqn:E; cbn [isSome negb]; [|discriminate].
  specialize (H e q He E). apply Nat.ltb_lt in H. rewrite H. discriminate.
Qed.
Lemma defined_surface_adjacency : forall name m, sane_surface m -> defined (polygon_edges_with_wrong_adjacency name m).
Proof. intros name m H. unfold polygon_edges_with_wrong_adjacency. defined_step. defined_step; [|defined_all]. apply defined_edge_adjacency; [apply H|apply in_polygon_edges; assumption]. Qed.
Lemma defined_surface_adjacency_bool : forall m, sane_surface m -> defined (surface_has_wrong_adjacencies m).
Proof. intros m H. unfold surface_has_wrong_adjacencies. defined_step. apply defined_edge_adjacency; [apply H|apply in_polygon_edges; assumption]. Qed.
Lemma defined_solid_adjacency : forall name m, sane_solid m -> defined (polyhedron_facets_with_wrong_adjacency name m).
Proof. intros name m H. unfold polyhedron_facets_with_wrong_adjacency. defined_step. defined_step; [|defined_all]. apply defined_facet_adjacency; [apply H|apply in_polyhedron_facets; assumption]. Qed.
Lemma defined_solid_adjacency_bool : forall m, sane_solid m -> defined (solid_has_wrong_adjacencies m).
Proof. intros m H. unfold solid_has_wrong_adjacencies. defined_step. apply defined_facet_adjacency; [apply H|apply in_polyhedron_facets; assumption]. Qed.

Lemma defined_push_at : forall A i (x : A) b, i < length b -> exists b', push_at i x b = Ok b' /\ length b' = length b.
Proof.
  intros A i x b. revert i. induction b as [|l b IH]; intros i H; [cbn in H; lia|]. destruct i as [|i]; cbn [push_at].
  - eexists. split; reflexivity.
  - cbn in H. destruct (IH i) as (b' & E & L); [lia|]. rewrite E. cbn [bind]. eexists. split; [reflexivity|]. cbn. lia.
Qed.
Lemma defined_bucketize : forall A n (kvs : list (nat * A)), (forall k x, In (k, x) kvs -> k < n) -> defined (bucketize n kvs).
Proof.
  intros A n kvs H. unfold bucketize. apply (defined_foldM_inv _ _ (fun b => length b = n)); [apply repeat_length|].
  intros b [k x] Hb Hin. destruct (defined_push_at _ k x b) as (b' & E & L); [rewrite Hb; eapply H, Hin|]. cbn [fst snd]. rewrite E. split; [discriminate|].
  intros s' Es. injection Es as <-. lia.
Qed.
Lemma defined_around_vertices : forall m, surface_vertices_in_range m -> defined (polygons_around_vertices m).
Proof.
  intros m H. apply defined_bucketize. intros k x Hin. apply in_map_iff in Hin as (pv & E & Hin). injection E as <- <-. apply H, in_polygon_edges, Hin.
Qed.
Lemma defined_around_vertices3 : forall m, solid_vertices_in_range m -> defined (polyhedra_around_vertices m).
Proof.
  intros m H. apply defined_bucketize. intros k x Hin. apply in_map_iff in Hin as (pv & E & Hin). injection E as <- <-. apply (H pv).
  unfold all_polyhedron_vertices in Hin. apply in_flat_map in Hin as (p & Hp & Hin). apply in_map_iff in Hin as (i & <- & Hi). apply in_Range in Hp. apply in_Range in Hi.
  split; [exact Hp|]. cbn [fst snd]. unfold polyhedron_vertex. cbn [fst snd]. apply nth_error_nth'. exact Hi.
Qed.
Lemma defined_surface_vertices : forall geo m, sane_surface m -> defined (surface_non_manifold_vertices geo m).
Proof.
  intros geo m H. unfold surface_non_manifold_vertices. defined_step; [apply defined_around_vertices, H|]. defined_step. defined_step; [|defined_all].
  unfold surface_vertex_differs. pose proof (sane_polygons_around _ H x) as D. destruct (sm_around_vertex m x) as [|[]|]; try discriminate. congruence.
Qed.
Lemma defined_surface_vertices_bool : forall m, sane_surface m -> defined (surface_vertices_are_manifold m).
Proof.
  intros m H. unfold surface_vertices_are_manifold. defined_step; [apply defined_around_vertices, H|]. defined_step; [|defined_all]. defined_step.
  unfold surface_vertex_differs. pose proof (sane_polygons_around _ H x) as D. destruct (sm_around_vertex m x) as [|[]|]; try discriminate. congruence.
Qed.
Lemma defined_solid_vertices : forall geo m, sane_solid m -> defined (solid_non_manifold_vertices geo m).
Proof.
  intros geo m H. unfold solid_non_manifold_vertices. defined_step; [apply defined_around_vertices3, H|]. defined_step. defined_step; [|defined_all].
  unfold solid_vertex_differs. defined_step; [apply H|defined_all].
Qed.
Lemma defined_solid_vertices_bool : forall m, sane_solid m -> defined (solid_vertices_are_manifold m).
Proof.
  intros m H. unfold solid_vertices_are_manifold. defined_step; [apply defined_around_vertices3, H|]. defined_step; [|defined_all]. defined_step.
  unfold solid_vertex_differs. defined_step; [apply H|defined_all].
Qed.
Lemma defined_edge_differs : forall m e, sane_solid m -> defined (edge_differs m e).
Proof. intros m e H. unfold edge_differs. defined_step; [apply H|]. defined_all. Qed.
Lemma defined_solid_edges_issues : forall m l checked r, sane_solid m -> defined (solid_edges_issues m checked l r).
Proof.
  intros m l checked r H. revert checked r. induction l as [|e l IH]; intros checked r; [discriminate|]. cbn [solid_edges_issues]. cbv zeta.
  destruct (existsb _ checked); [apply IH|]. pose proof (defined_edge_differs m e H) as D. destruct (edge_differs m e) as [[]|[]|]; try apply IH; [discriminate|congruence].
Qed.
Lemma defined_solid_edges_bool : forall m, sane_solid m -> defined (solid_edges_are_manifold m).
Proof.
  intros m H. unfold solid_edges_are_manifold. generalize (@nil (nat * nat)). induction (all_polyhedron_edges m) as [|e l IH]; intros checked; [discriminate|]. cbn [solid_edges_loop]. cbv zeta.
  destruct (existsb _ checked); [apply IH|]. defined_step; [apply defined_edge_differs, H|]. defined_step; [discriminate|apply IH].
Qed.
Lemma defined_colocated : forall geo points, sane_search geo -> defined (colocated_points_groups geo points).
Proof. intros geo points H E. destruct (colocated_points_groups_spec geo points (H points)) as (r & Er & _). congruence. Qed.
#[export] Hint Resolve defined_surface_adjacency defined_solid_adjacency defined_surface_vertices defined_solid_vertices defined_solid_edges_issues defined_colocated defined_status : defined.

Lemma defined_small_edges : forall ms geo points edges t st, defined (fst (impl_small_edges ms geo points edges t st)).
Proof. intros. unfold impl_small_edges. cbn [fst]. unfold mesh_edges. destruct (es_enabled _); discriminate. Qed.
Lemma defined_degenerated_edges : forall ms geo points edges st, defined (fst (impl_degenerated_edges ms geo points edges st)).
Proof. intros. apply defined_small_edges. Qed.

Ltac each_task := apply defined_parallel; repeat (apply Forall_cons; [try solve [eauto 4 with defined]|]); [..|apply Forall_nil].
Lemma defined_inspect_surface : forall ms geo ho name m st inter, sane_search geo -> sane_surface m -> defined inter -> defined (inspect_surface ms geo ho name m st inter).
Proof.
  intros ms geo ho name m st inter G H I. unfold inspect_surface. cbv zeta. defined_step; [|discriminate]. each_task.
  apply defined_status, defined_degenerated_edges.
Qed.
Lemma defined_inspect_solid : forall ms geo ho name m st, sane_search geo -> sane_solid m -> defined (inspect_solid ms geo ho name m st).
Proof.
  intros ms geo ho name m st G H. unfold inspect_solid. cbv zeta. defined_step; [|discriminate]. each_task.
  all: apply defined_status; first [apply defined_degenerated_edges | unfold solid_non_manifold_edges; auto with defined].
Qed.
Lemma defined_inspect_curve : forall ms geo m, sane_search geo -> defined (inspect_edged_curve ms geo m).
Proof. intros ms geo m G. unfold inspect_edged_curve. cbv zeta. defined_step; [|discriminate]. each_task. Qed.
Lemma defined_inspect_points : forall geo m, sane_search geo -> defined (inspect_point_set geo m).
Proof. intros geo m G. unfold inspect_point_set. defined_all. Qed.

(** ** Meshes of models *)
Section Models.
Variable o : Oracles.
Variable m : Model.
Hypothesis Hm : sane_section o m.
Let geo := or_geometry o.
Lemma active_in : forall M (l : list (Component M)) c, In c (active l) -> In c l.
Proof. intros M l c H. apply filter_In in H. apply H. Qed.

Lemma defined_component_colocated : forall kind t points name id acc, defined (add_component_colocated_points geo m kind t points name id acc).
Proof.
  intros kind t points name id acc. unfold add_component_colocated_points. defined_step; [apply defined_colocated, Hm|]. defined_step; [|defined_all].
  unfold filter_colocated_points_with_same_unique_vertex. defined_step. defined_step; [|defined_all]. unfold filter_group. destruct x as [|v x]; [|cbv zeta; defined_all].
  exfalso. destruct (colocated_points_groups_spec geo points (ss_search _ _ Hm points)) as (r & Er & K). rewrite H in Er. injection Er as <-.
  pose proof (cg_size _ _ K _ H0) as L. cbn in L. lia.
Qed.
Lemma defined_point : forall points v, v < length points -> defined (Model_Colocation.mesh_point points v).
Proof. intros points v H. unfold Model_Colocation.mesh_point. destruct (nth_error points v) eqn:E; [discriminate|]. apply nth_error_None in E. lia. Qed.
Lemma defined_cmv_point : forall c, link_in_range m c -> defined (model_cmv_point m c).
Proof.
  intros c H. unfold link_in_range in H. unfold model_cmv_point. cbv zeta. destruct (cid_type (cmv_component c)).
  - defined_step; [defined_all|]. apply got_corner in H0 as [Hin E]. apply defined_point. apply H; assumption.
  - defined_step; [defined_all|]. apply got_line in H0 as [Hin E]. apply defined_point. apply H; assumption.
  - defined_step; [defined_all|]. apply got_surface in H0 as [Hin E]. apply defined_point. apply H; assumption.
  - defined_step; [defined_all|]. apply got_block in H0 as [Hin E]. apply defined_point. apply H; assumption.
  - defined_step; [defined_all|]. apply got_corner in H0 as [Hin E]. apply defined_point. apply H; assumption.
Qed.
Lemma defined_uv_point : forall cmvs, (forall c, In c cmvs -> link_in_range m c) -> defined (model_unique_vertex_point m cmvs).
Proof.
  induction cmvs as [|c cs IH]; intros H; [discriminate|]. cbn [model_unique_vertex_point]. defined_step; [defined_all|].
  destruct (negb a); [apply IH; intros k Hk; apply H; right; exact Hk|]. defined_step; [apply defined_cmv_point, H; left; reflexivity|discriminate].
Qed.
Lemma defined_uv_colocated : forall cmvs p, (forall c, In c cmvs -> link_in_range m c) -> defined (model_cmvs_are_colocated_on_point geo m cmvs p).
Proof.
  intros cmvs p. induction cmvs as [|c cs IH]; intros H; [discriminate|]. cbn [model_cmvs_are_colocated_on_point]. defined_step; [defined_all|].
  destruct (negb a); [apply IH; intros k Hk; apply H; right; exact Hk|]. defined_step; [apply defined_cmv_point, H; left; reflexivity|].
  destruct (negb (g_inexact_equal geo p a0)); [discriminate|]. apply IH. intros k Hk. apply H. right. exact Hk.
Qed.
Definition uvc_ok (u : UVColocation) : Prop := forall i a, nth_error (uvc_old2new u) i = Some (Some a) -> a < length (uvc_points u).
Lemma uvc_add_ok : forall u p, uvc_ok u -> uvc_ok (uvc_add u p).
Proof.
  intros u p H i a E. destruct p as [q|]; cbn in *.
  - rewrite app_length. cbn. destruct (lt_dec i (length (uvc_old2new u))) as [L|L].
    + rewrite nth_error_app1 in E by exact L. specialize (H i a E). lia.
    + rewrite nth_error_app2 in E by lia. destruct (i - length (uvc_old2new u)) as [|k]; cbn in E; [injection E as <-; lia|destruct k; discriminate].
  - destruct (lt_dec i (length (uvc_old2new u))) as [L|L].
    + rewrite nth_error_app1 in E by exact L. apply (H i a E).
    + rewrite nth_error_app2 in E by lia. destruct (i - length (uvc_old2new u)) as [|k]; cbn in E; [discriminate|destruct k; discriminate].
Qed.
Lemma defined_uvc : defined (uvc_create m) /\ forall u, uvc_create m = Ok u -> uvc_ok u.
Proof.
  unfold uvc_create. split.
  - defined_step. apply in_Range in H. defined_step; [apply defined_uv_point; intros c Hc; apply (ss_links _ _ Hm x c H Hc)|defined_all].
  - intros u E. revert E. apply foldM_inv; [intros i a Ei; destruct i; discriminate|]. intros s x s' Hs _ E.
    destruct (model_unique_vertex_point m (component_mesh_vertices m x)) as [p|e|]; cbn in E; [|discriminate|discriminate]. injection E as <-. apply uvc_add_ok, Hs.
Qed.
Lemma defined_different : forall u uv, uvc_ok u -> uv < nb_unique_vertices m -> defined (uv_linked_to_different_points geo m u uv).
Proof.
  intros u uv H Huv. unfold uv_linked_to_different_points. destruct (nth uv (uvc_old2new u) None) as [a|] eqn:E; [|discriminate].
  assert (Ha : a < length (uvc_points u)).
  { apply (H uv). rewrite <- E. apply nth_error_nth'. destruct (lt_dec uv (length (uvc_old2new u))); [assumption|]. rewrite nth_overflow in E by lia. discriminate. }
  defined_step; [apply defined_point, Ha|]. defined_step; [|discriminate]. apply defined_uv_colocated. intros c Hc. apply (ss_links _ _ Hm uv c Huv Hc).
Qed.
Lemma defined_unique_vertices : defined (inspect_unique_vertices geo m).
Proof.
  destruct defined_uvc as [D K]. unfold inspect_unique_vertices. cbv zeta. defined_step; [|discriminate]. each_task; apply defined_status.
  - unfold colocated_unique_vertices_groups. defined_step; [exact D|]. defined_step; [apply defined_colocated, Hm|]. defined_step. defined_step.
    { defined_step. unfold out2in0. defined_all. }
    defined_step; [|discriminate]. apply defined_point.
    destruct (colocated_points_groups_spec geo (uvc_points a) (ss_search _ _ Hm _)) as (r & Er & G). rewrite H0 in Er. injection Er as <-.
    pose proof (cg_size _ _ G _ H1) as L. destruct x as [|v x]; [cbn in L; lia|]. cbn [nth].
    destruct (ss_search _ _ Hm (uvc_points a)) as (Len & _). fold geo in Len. rewrite <- Len. apply (cg_range _ _ G (v :: x)); [assumption|left; reflexivity].
  - unfold unique_vertices_linked_to_different_points. defined_step; [exact D|]. defined_step. apply in_Range in H0. defined_step; [|discriminate]. apply defined_different; [apply K; assumption|assumption].
Qed.
Lemma defined_meshes_colocation : defined (inspect_meshes_point_colocations geo m).
Proof.
  unfold inspect_meshes_point_colocations, add_model_components_colocated_points_groups, add_lines_surfaces_colocated_points.
  repeat defined_step; apply defined_component_colocated.
Qed.
Lemma defined_surfaces_adjacency : forall acc, defined (add_surfaces_edges_with_wrong_adjacencies (or_lookup o) m acc).
Proof.
  intros acc. unfold add_surfaces_edges_with_wrong_adjacencies. defined_step. apply active_in in H. defined_step; [|discriminate]. unfold surface_adjacency_issues.
  defined_step; [apply defined_surface_adjacency, Hm, H|]. defined_step. defined_step; [|discriminate]. unfold border_edge_is_wrong. cbv zeta.
  match goal with |- defined (match ?t with _ => _ end) => assert (D : defined t) end.
  { defined_step; [|discriminate]. defined_step; [|discriminate]. unfold polygon_edge_is_on_a_line. cbv zeta. repeat defined_step. apply Hm. }
  match goal with |- defined (match ?t with _ => _ end) => destruct t as [|[]|] end; try discriminate. congruence.
Qed.
Lemma defined_surfaces_manifold : forall acc, defined (add_surfaces_meshes_non_manifold_vertices geo m acc).
Proof. intros acc. unfold add_surfaces_meshes_non_manifold_vertices. defined_step. apply active_in in H. defined_step; [|discriminate]. apply defined_surface_vertices, Hm, H. Qed.
Lemma defined_collect : forall results acc, (forall id r, In (id, r) results -> defined r) -> defined (collect results acc).
Proof. intros results acc H. unfold collect. defined_step. destruct x as [id r]. defined_step; [eapply H; eassumption|discriminate]. Qed.
Lemma run_tasks_defined : forall ms g t to_enable l results st, (forall id r, In (id, r) results -> defined r) ->
  forall id r, In (id, r) (fst (fold_left (fun '(results, st) s =>
      let '(r, stored) := surface_task ms g m t s (memb (co_id s) to_enable) (me_surface st (co_id s)) in
      ((results ++ [(co_id s, r)])%list,
       mkME (update (me_surface st) (co_id s) stored) (me_block st) (me_my_surfaces st) (me_my_blocks st))) l (results, st))) -> defined r.
Proof.
  intros ms g t to_enable. induction l as [|s l IH]; intros results st H; [exact H|]. cbn [fold_left]. destruct (surface_task _ _ _ _ s _ _) as [r stored] eqn:E.
  apply IH. intros id x Hin. apply in_app_iff in Hin as [Hin|[Hin|[]]]; [eapply H, Hin|]. injection Hin as <- <-.
  pose proof (defined_small_edges ms g (sm_points (co_mesh s)) (sm_edges (co_mesh s)) t (new_inspector (if memb (co_id s) to_enable then true else me_surface st (co_id s)))) as D.
  unfold surface_task, surface_small_edges in E. cbv zeta in E. destruct (impl_small_edges _ _ _ _ _ _) as [i e]. injection E as <- _. apply defined_bind; [exact D|discriminate].
Qed.
Lemma defined_model_small_edges : forall ms g t acc st, defined (fst (add_small_edges ms g m t acc st)).
Proof.
  intros ms g t acc st. unfold add_small_edges. destruct (surfaces_on_which_enable_edges m st) as [to_enable st1]. unfold run_surface_tasks.
  match goal with |- context [fold_left ?f ?l ?x] => pose proof (run_tasks_defined ms g t to_enable l [] st1 (fun id r Hin => match Hin with end)) as D; destruct (fold_left f l x) as [results st2] eqn:E end.
  cbn [fst]. apply defined_collect. intros id r Hin. apply (D id). exact Hin.
Qed.
Lemma defined_section_degeneration : forall ms g st, defined (fst (section_inspect_elements_degeneration ms g m st)).
Proof.
  intros ms g st. unfold section_inspect_elements_degeneration. pose proof (defined_model_small_edges ms g GLOBAL_EPSILON (new_issues_map "degenerated edges"%string) st) as D.
  destruct (add_small_edges _ _ _ _ _ _) as [e s]. cbn [fst] in *. apply defined_bind; [exact D|discriminate].
Qed.
Lemma defined_blocks_small : forall ms g t l acc st, defined acc -> defined (fst (fold_left (fun acc b => block_small_elements ms g m t b acc) l (acc, st))).
Proof.
  intros ms g t. induction l as [|b l IH]; intros acc st D; [exact D|]. cbn [fold_left]. unfold block_small_elements at 2. cbv zeta. cbv beta iota.
  match goal with |- context [solid_small_edges ms g (co_mesh b) t ?s] => pose proof (defined_small_edges ms g (so_points (co_mesh b)) (so_edges (co_mesh b)) t s) as E; unfold solid_small_edges; destruct (impl_small_edges ms g (so_points (co_mesh b)) (so_edges (co_mesh b)) t s) as [e i] end.
  apply IH. apply defined_bind; [exact D|]. intros maps _. apply defined_bind; [exact E|discriminate].
Qed.
Lemma defined_brep_degeneration : forall ms g st, defined (fst (inspect_elements_degeneration ms g m st)).
Proof.
  intros ms g st. unfold inspect_elements_degeneration. cbv zeta. pose proof (defined_model_small_edges ms g GLOBAL_EPSILON (dr_edges empty_degeneration) st) as D.
  destruct (add_small_edges _ _ _ _ _ _) as [e s]. cbn [fst] in D. destruct e as [e|e|]; [|discriminate|congruence].
  unfold add_solid_small_elements. match goal with |- context [fold_left ?f ?l ?x] => pose proof (defined_blocks_small ms g GLOBAL_EPSILON l (Ok (e, dr_polyhedra empty_degeneration)) s (defined_ok _ _)) as E; destruct (fold_left f l x) as [mp s2] end.
  cbn [fst] in *. apply defined_bind; [exact E|discriminate].
Qed.
Lemma defined_inspect_section_meshes : forall st inter, defined inter -> defined (inspect_section_meshes o m st inter).
Proof.
  intros st inter I. unfold inspect_section_meshes. cbv zeta. defined_step; [|discriminate]. each_task; apply defined_status.
  - apply defined_unique_vertices.
  - apply defined_meshes_colocation.
  - apply defined_surfaces_adjacency.
  - apply defined_section_degeneration.
  - unfold inspect_section_manifold. defined_step; [apply defined_surfaces_manifold|]. defined_step; [|discriminate]. unfold add_surfaces_meshes_non_manifold_edges. defined_all.
Qed.
End Models.
