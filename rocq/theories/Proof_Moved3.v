(** Moving a model: the same issues are found in its meshes. *)
From Coq Require Import String Ascii List Arith NArith ZArith Bool Lia Permutation.
From Verif Require Import Base BaseFacts Model_Issues Types Model_Hash Model_Adjacency Model_Colocation Model_Degeneration Model_Manifold Model_Intersections Model_Negative Model_Topology
  Model_BRep Model_Blocks Model_Results Spec_Colocation Spec_Degeneration Spec_Rename Spec_Moved Proof_Messages Proof_Degeneration Proof_Degeneration2 Proof_Order Proof_Order2 Proof_Order5
  Proof_Rename7 Proof_Rename9 Proof_Moved Proof_Moved2.
Import ListNotations.
Open Scope list_scope.

Notation kept := (new_map (fun x : uuid => x)).
Lemma same_ids : one_to_one (fun x => x) (fun x => x).
Proof. split; reflexivity. Qed.
Lemma kept_same : forall T (r r' : InspectionIssuesMap T), kept r r' -> same_map r r'.
Proof.
  intros T r r' E. unfold same_map, issues_by_component. unfold new_map in E. induction E as [|e e' l l' [E1 E2] _ IH]; [reflexivity|]. cbn [map]. rewrite E1, E2, IH. reflexivity.
Qed.
Lemma kept_add : forall T id (x x' : InspectionIssues T) r r', kept r r' -> same_found x x' -> kept (add_issues_to_map id x r) (add_issues_to_map id x' r').
Proof. intros T id x x' r r' A E. exact (new_add _ _ same_ids T id x x' r r' A E). Qed.
Lemma kept_loop : forall S M (h : M -> M) (Q : S -> S -> Prop) (body body' : S -> Component M -> outcome S),
  (forall c a a', Q a a' -> ends_alike Q (body a c) (body' a' (moved_component h c))) ->
  forall l a a', Q a a' -> ends_alike Q (foldM body (active l) a) (foldM body' (active (map (moved_component h) l)) a').
Proof.
  intros S M h Q body body' E l. rewrite active_moved. induction (active l) as [|c k IH]; intros a a' A; [exact A|]. cbn [map foldM]. apply (ends_bind _ _ Q); [apply E, A|]. intros b b' B. apply IH, B.
Qed.
Lemma kept_fold : forall S M (h : M -> M) (Q : S -> S -> Prop) (body body' : S -> Component M -> S),
  (forall c a a', Q a a' -> Q (body a c) (body' a' (moved_component h c))) ->
  forall l a a', Q a a' -> Q (fold_left body (active l) a) (fold_left body' (active (map (moved_component h) l)) a').
Proof. intros S M h Q body body' E l. rewrite active_moved. induction (active l) as [|c k IH]; intros a a' A; [exact A|]. cbn [map fold_left]. apply IH, E, A. Qed.
Lemma kept_pairs : forall T M (h : M -> M) (body body' : Component M -> InspectionIssues T) l r r', (forall c, same_found (body c) (body' (moved_component h c))) -> kept r r' ->
  kept (fold_left add_pair (map (fun c => (co_id c, body c)) (active l)) r) (fold_left add_pair (map (fun c => (co_id c, body' c)) (active (map (moved_component h) l))) r').
Proof.
  intros T M h body body' l r r' E A. rewrite <- !fold_add_pairs. apply (kept_fold _ _ h kept); [|exact A]. intros c a a' B. apply kept_add; [exact B|apply E].
Qed.
Lemma found_eq : forall T (x y : outcome (InspectionIssues T)), y = x -> out x y.
Proof. intros T x y ->. unfold out. destruct x; reflexivity. Qed.

Section Moving.
Context (g : Point -> Point) (s : Point -> string) (m : Model) (ms ms' : Measures) (geo geo' : Geometry) (GF : geometry_follows g geo geo') (MF : measures_follow g ms ms').
Notation M' := (moved_model g s m).

(** ** Colocated points of components *)
Lemma w_component : forall kind t points name id a a', kept a a' ->
  ends_alike kept (add_component_colocated_points geo m kind t points name id a) (add_component_colocated_points geo' M' kind t (map g points) name id a').
Proof.
  intros kind t points name id a a' A. unfold add_component_colocated_points. apply (ends_bind _ _ same_found); [apply (w_groups g geo geo' GF)|]. intros x x' X.
  change (filter_colocated_points_with_same_unique_vertex M' (mkCID t id) (ii_issues x')) with (filter_colocated_points_with_same_unique_vertex m (mkCID t id) (ii_issues x')). unfold same_found in X. rewrite X.
  apply (ends_bind _ _ eq); [apply ends_refl|]. intros l l' <-. destruct l as [|k l]; [exact A|]. cbn [ends_alike]. apply kept_add; [exact A|]. apply found_fold; [|reflexivity]. intros e b b' B. apply found_add, B.
Qed.
Lemma w_colocation : ends_alike kept (inspect_meshes_point_colocations geo m) (inspect_meshes_point_colocations geo' M').
Proof.
  unfold inspect_meshes_point_colocations, add_model_components_colocated_points_groups, add_lines_surfaces_colocated_points. cbn [moved_model m_lines m_surfaces m_blocks].
  apply (ends_bind _ _ kept); [apply (ends_bind _ _ kept)|].
  - apply kept_loop; [|constructor]. intros c a a' A. apply w_component, A.
  - intros b b' B. apply kept_loop; [|exact B]. intros c a a' A. apply w_component, A.
  - intros b b' B. apply kept_loop; [|exact B]. intros c a a' A. apply w_component, A.
Qed.

(** ** Unique vertices *)
Lemma w_mesh_point : forall points v, Model_Colocation.mesh_point (map g points) v = mapped g (Model_Colocation.mesh_point points v).
Proof. intros points v. unfold Model_Colocation.mesh_point. rewrite nth_error_map. destruct (nth_error points v); reflexivity. Qed.
Lemma w_cmv_point : forall c, model_cmv_point M' c = mapped g (model_cmv_point m c).
Proof.
  intros c. unfold model_cmv_point. cbv zeta. destruct (cid_type (cmv_component c)); rewrite ?v_corner, ?v_line, ?v_surface, ?v_block, bind_mapped;
    cbn [moved_component moved_pointset moved_curve moved_surface moved_solid co_mesh ps_points ec_points sm_points so_points];
    (match goal with |- bind ?x _ = mapped _ (bind ?y _) => change x with y; destruct y as [k|e|]; [|reflexivity|reflexivity] end); cbn [bind]; apply w_mesh_point.
Qed.
Lemma w_is_active : forall id, component_is_active M' id = component_is_active m id.
Proof. intros id. rewrite (v_component_is_active g s m). reflexivity. Qed.
Lemma w_on_point : forall l p, model_cmvs_are_colocated_on_point geo' M' l (g p) = model_cmvs_are_colocated_on_point geo m l p.
Proof.
  intros l p. induction l as [|c l IH]; [reflexivity|]. cbn [model_cmvs_are_colocated_on_point]. rewrite w_is_active, w_cmv_point, IH. apply bind_eq; [reflexivity|]. intros a. apply if_eq; [reflexivity|reflexivity|].
  rewrite bind_mapped. apply bind_eq; [reflexivity|]. intros q. rewrite (gf_equal g geo geo' GF). reflexivity.
Qed.
Lemma w_vertex_point : forall l, model_unique_vertex_point M' l = mapped (option_map g) (model_unique_vertex_point m l).
Proof.
  intros l. induction l as [|c l IH]; [reflexivity|]. cbn [model_unique_vertex_point]. rewrite w_is_active, w_cmv_point, IH. destruct (component_is_active m (cid_id (cmv_component c))) as [[]|e|]; try reflexivity.
  cbn [bind negb]. rewrite bind_mapped. destruct (model_cmv_point m c); reflexivity.
Qed.
Definition moved_uvc (u : UVColocation) : UVColocation := mkUVC (map g (uvc_points u)) (uvc_old2new u).
Lemma w_uvc : uvc_create M' = mapped moved_uvc (uvc_create m).
Proof.
  unfold uvc_create. change (nb_unique_vertices M') with (nb_unique_vertices m). change (mkUVC [] []) with (moved_uvc (mkUVC [] [])) at 1. apply foldM_moved. intros u uv.
  change (component_mesh_vertices M' uv) with (component_mesh_vertices m uv). rewrite w_vertex_point, bind_mapped. destruct (model_unique_vertex_point m (component_mesh_vertices m uv)) as [[p|]|e|]; try reflexivity.
  unfold mapped. cbn [bind option_map]. unfold uvc_add, moved_uvc. cbn [uvc_points uvc_old2new]. rewrite map_app, map_length. reflexivity.
Qed.
Lemma w_different_at : forall u uv, uv_linked_to_different_points geo' M' (moved_uvc u) uv = uv_linked_to_different_points geo m u uv.
Proof.
  intros u uv. unfold uv_linked_to_different_points. cbn [moved_uvc uvc_old2new uvc_points]. destruct (nth uv (uvc_old2new u) None) as [a|]; [|reflexivity]. rewrite w_mesh_point, bind_mapped.
  apply bind_eq; [reflexivity|]. intros p. change (component_mesh_vertices M' uv) with (component_mesh_vertices m uv). rewrite w_on_point. reflexivity.
Qed.
Lemma w_has_different : model_has_unique_vertices_linked_to_different_points geo' M' = model_has_unique_vertices_linked_to_different_points geo m.
Proof.
  unfold model_has_unique_vertices_linked_to_different_points. rewrite w_uvc, bind_mapped. apply bind_eq; [reflexivity|]. intros u. apply anyM_eq; [reflexivity|]. intros uv. apply w_different_at.
Qed.
Lemma w_different : forall i, unique_vertices_linked_to_different_points geo' M' i = unique_vertices_linked_to_different_points geo m i.
Proof.
  intros i. unfold unique_vertices_linked_to_different_points. rewrite w_uvc, bind_mapped. apply bind_eq; [reflexivity|]. intros u. apply foldM_eq; [reflexivity|reflexivity|]. intros r uv. rewrite w_different_at. reflexivity.
Qed.
Lemma w_has_colocated_uv : model_has_colocated_unique_vertices geo' M' = model_has_colocated_unique_vertices geo m.
Proof.
  unfold model_has_colocated_unique_vertices. rewrite w_uvc, bind_mapped. apply bind_eq; [reflexivity|]. intros u. cbn [moved_uvc uvc_points]. rewrite (w_has_colocated g geo geo' GF). reflexivity.
Qed.
Lemma w_colocated_uv : forall i i', same_found i i' -> out (colocated_unique_vertices_groups geo m i) (colocated_unique_vertices_groups geo' M' i').
Proof.
  intros i i' I. unfold colocated_unique_vertices_groups. rewrite w_uvc, bind_mapped. apply (ends_bind _ _ eq); [apply ends_refl|]. intros u u' <-. apply (ends_bind _ _ same_found).
  - cbn [moved_uvc uvc_points]. apply (w_groups g geo geo' GF).
  - intros x x' X. unfold same_found in X. rewrite X. apply found_loop; [|exact I]. intros e a a' A. apply (ends_bind _ _ eq).
    + change (out2in0 (moved_uvc u)) with (out2in0 u). apply ends_refl.
    + intros fx fx' <-. cbn [moved_uvc uvc_points]. rewrite w_mesh_point, bind_mapped. apply (ends_bind _ _ eq); [apply ends_refl|]. intros p p' <-. apply found_add, A.
Qed.
Definition same_unique (r r' : UniqueVerticesResult) : Prop := same_found (ur_colocated r) (ur_colocated r') /\ same_found (ur_different r) (ur_different r').
Lemma w_unique : ends_alike same_unique (inspect_unique_vertices geo m) (inspect_unique_vertices geo' M').
Proof.
  unfold inspect_unique_vertices. cbv zeta. pose proof (w_colocated_uv (ur_colocated empty_unique_vertices) _ eq_refl) as G. rewrite w_different. apply (ends_bind _ _ eq).
  - rewrite (status_alike _ _ _ _ G). apply ends_refl.
  - intros u u' _. cbn. split; [apply assigned_alike; [reflexivity|exact G]|reflexivity].
Qed.

(** ** Adjacency *)
Lemma w_surface_adjacency : forall lk c, out (surface_adjacency_issues lk m c) (surface_adjacency_issues lk M' (moved_component (moved_surface g) c)).
Proof. intros lk c. apply found_eq. reflexivity. Qed.
Lemma w_adjacency : forall lk d d', ends_alike kept (add_surfaces_edges_with_wrong_adjacencies lk m (new_issues_map d)) (add_surfaces_edges_with_wrong_adjacencies lk M' (new_issues_map d')).
Proof.
  intros lk d d'. unfold add_surfaces_edges_with_wrong_adjacencies. cbn [moved_model m_surfaces]. apply kept_loop; [|constructor]. intros c a a' A.
  apply (ends_bind _ _ same_found); [apply w_surface_adjacency|]. intros x y X. cbn. apply kept_add; assumption.
Qed.
Lemma w_block_adjacency : forall lk c, out (block_adjacency_issues lk m c) (block_adjacency_issues lk M' (moved_component (moved_solid g) c)).
Proof. intros lk c. apply found_eq. reflexivity. Qed.
Lemma w_blocks_adjacency : forall lk d d', ends_alike kept (add_blocks_facets_with_wrong_adjacencies lk m (new_issues_map d)) (add_blocks_facets_with_wrong_adjacencies lk M' (new_issues_map d')).
Proof.
  intros lk d d'. unfold add_blocks_facets_with_wrong_adjacencies. cbn [moved_model m_blocks]. apply kept_loop; [|constructor]. intros c a a' A.
  apply (ends_bind _ _ same_found); [apply w_block_adjacency|]. intros x y X. cbn. apply kept_add; assumption.
Qed.
Definition kept_adjacency (r r' : BRepAdjacencyResult) : Prop := kept (ba_surfaces r) (ba_surfaces r') /\ kept (ba_blocks r) (ba_blocks r').
Lemma assigned_kept : forall T (d d' : InspectionIssuesMap T) x y, kept d d' -> ends_alike kept x y -> kept (assigned d x) (assigned d' y).
Proof. intros T d d' [a|e|] [b|e'|] D E; cbn in *; try contradiction; assumption. Qed.
Lemma w_brep_adjacency : forall lk, ends_alike kept_adjacency (inspect_brep_meshes_adjacencies lk m) (inspect_brep_meshes_adjacencies lk M').
Proof.
  intros lk. unfold inspect_brep_meshes_adjacencies. cbv zeta. cbn [ba_surfaces ba_blocks empty_brep_adjacency].
  match goal with |- context [add_surfaces_edges_with_wrong_adjacencies lk m (new_issues_map ?d)] => pose proof (w_adjacency lk d d) as A end.
  match goal with |- context [add_blocks_facets_with_wrong_adjacencies lk m (new_issues_map ?d)] => pose proof (w_blocks_adjacency lk d d) as B end.
  apply (ends_bind _ _ eq); [rewrite (status_alike _ _ _ _ A), (status_alike _ _ _ _ B); apply ends_refl|]. intros u u' _. split; cbn [ba_surfaces ba_blocks]; apply assigned_kept; try assumption; constructor.
Qed.

(** ** Degeneration *)
Lemma w_surface_pure : forall t c, same_found (surface_pure ms geo m t c) (surface_pure ms' geo' M' t (moved_component (moved_surface g) c)).
Proof.
  intros t c. unfold surface_pure, surface_issues, surface_task. cbn [moved_component co_mesh]. cbv zeta. unfold surface_small_edges. cbn [moved_surface sm_points sm_edges].
  pose proof (w_small_edges g ms ms' geo geo' MF (sm_points (co_mesh c)) (sm_edges (co_mesh c)) t (new_inspector true)) as E. unfold out in E.
  destruct (impl_small_edges ms geo (sm_points (co_mesh c)) (sm_edges (co_mesh c)) t (new_inspector true)) as [x st].
  destruct (impl_small_edges ms' geo' (map g (sm_points (co_mesh c))) (sm_edges (co_mesh c)) t (new_inspector true)) as [y st']. cbn [fst] in E |- *.
  destruct x as [x|e|], y as [y|e'|]; cbn in E |- *; try contradiction; try reflexivity. exact E.
Qed.
Lemma w_block_issues : forall t c, same_found (block_issues ms geo m t c) (block_issues ms' geo' M' t (moved_component (moved_solid g) c)).
Proof.
  intros t c. unfold block_issues. cbn [moved_component co_mesh]. unfold solid_small_edges. cbn [moved_solid so_points so_edges].
  pose proof (w_small_edges g ms ms' geo geo' MF (so_points (co_mesh c)) (so_edges (co_mesh c)) t (new_inspector true)) as E. unfold out in E.
  destruct (fst (impl_small_edges ms geo (so_points (co_mesh c)) (so_edges (co_mesh c)) t (new_inspector true))) as [x|e|],
    (fst (impl_small_edges ms' geo' (map g (so_points (co_mesh c))) (so_edges (co_mesh c)) t (new_inspector true))) as [y|e'|]; cbn in E |- *; try contradiction; try reflexivity. exact E.
Qed.
Lemma w_line_edges : forall t c, same_found (line_small_edges ms geo m t c) (line_small_edges ms' geo' M' t (moved_component (moved_curve g) c)).
Proof. intros t c. unfold line_small_edges. cbn [moved_component co_mesh]. exact (w_curve_edges g ms ms' geo geo' (co_mesh c) t). Qed.
Lemma w_edge_pairs : forall t x y, kept x y -> kept (fold_left add_pair (edge_pairs ms geo m t) x) (fold_left add_pair (edge_pairs ms' geo' M' t) y).
Proof.
  intros t x y E. unfold edge_pairs. rewrite !fold_left_app. cbn [moved_model m_surfaces m_lines]. apply kept_pairs; [apply w_surface_pure|]. apply kept_pairs; [apply w_line_edges|exact E].
Qed.
Lemma w_heights : forall t d d', kept (add_small_height_polygons m t (new_issues_map d)) (add_small_height_polygons M' t (new_issues_map d')).
Proof.
  intros t d d'. unfold add_small_height_polygons. cbn [moved_model m_surfaces]. apply kept_fold; [|constructor]. intros c a a' A. apply kept_add; [exact A|reflexivity].
Qed.
Definition kept_degeneration (r r' : DegenerationResult) : Prop := kept (dr_edges r) (dr_edges r') /\ kept (dr_polygons r) (dr_polygons r') /\ kept (dr_polyhedra r) (dr_polyhedra r').
Lemma w_degeneration : forall st st', ends_alike kept_degeneration (fst (inspect_elements_degeneration ms geo m st)) (fst (inspect_elements_degeneration ms' geo' M' st')).
Proof.
  intros st st'. destruct (edges_inv_any st) as (s0 & b0 & I). destruct (edges_inv_any st') as (s0' & b0' & I'). unfold inspect_elements_degeneration.
  destruct (add_small_edges_pairs ms geo m GLOBAL_EPSILON (dr_edges empty_degeneration) st s0 b0 I) as (s1 & -> & I1).
  destruct (add_small_edges_pairs ms' geo' M' GLOBAL_EPSILON (dr_edges empty_degeneration) st' s0' b0' I') as (s1' & -> & I1').
  set (x := fold_left add_pair (edge_pairs ms geo m GLOBAL_EPSILON) _). set (y := fold_left add_pair (edge_pairs ms' geo' M' GLOBAL_EPSILON) _).
  assert (E : kept x y) by (apply w_edge_pairs; constructor).
  destruct (add_solid_pairs ms geo m GLOBAL_EPSILON (x, dr_polyhedra empty_degeneration) s1 s0 b0 I1) as (s2 & -> & _).
  destruct (add_solid_pairs ms' geo' M' GLOBAL_EPSILON (y, dr_polyhedra empty_degeneration) s1' s0' b0' I1') as (s2' & -> & _).
  cbn [fst snd bind ends_alike]. split; [|split]; cbn [dr_edges dr_polygons dr_polyhedra].
  - unfold block_edge_pairs. cbn [moved_model m_blocks]. apply kept_pairs; [apply w_block_issues|exact E].
  - apply w_heights.
  - unfold block_height_pairs. cbn [moved_model m_blocks]. apply kept_pairs; [reflexivity|constructor].
Qed.
Definition kept_section_degeneration (r r' : SectionDegenerationResult) : Prop := kept (sd_edges r) (sd_edges r') /\ kept (sd_polygons r) (sd_polygons r').
Lemma w_section_degeneration : forall st st', ends_alike kept_section_degeneration (fst (section_inspect_elements_degeneration ms geo m st)) (fst (section_inspect_elements_degeneration ms' geo' M' st')).
Proof.
  intros st st'. destruct (edges_inv_any st) as (s0 & b0 & I). destruct (edges_inv_any st') as (s0' & b0' & I'). unfold section_inspect_elements_degeneration.
  match goal with |- context [add_small_edges ms geo m ?t ?e st] => destruct (add_small_edges_pairs ms geo m t e st s0 b0 I) as (s1 & -> & I1) end.
  match goal with |- context [add_small_edges ms' geo' M' ?t ?e st'] => destruct (add_small_edges_pairs ms' geo' M' t e st' s0' b0' I') as (s1' & -> & I1') end.
  cbn [fst snd bind ends_alike]. split; cbn [sd_edges sd_polygons]; [apply w_edge_pairs; constructor|apply w_heights].
Qed.

(** ** Negative elements *)
Lemma w_section_negative : kept (section_negative_elements ms m) (section_negative_elements ms' M').
Proof.
  unfold section_negative_elements. cbn [moved_model m_surfaces]. apply kept_fold; [|constructor]. intros c a a' A. apply kept_add; [exact A|]. exact (w_negative_polygons g ms ms' MF (co_mesh c)).
Qed.
Lemma w_brep_negative : kept (brep_negative_elements ms m) (brep_negative_elements ms' M').
Proof.
  unfold brep_negative_elements. cbn [moved_model m_blocks]. apply kept_fold; [|constructor]. intros c a a' A. apply kept_add; [exact A|]. exact (w_negative_polyhedra g ms ms' MF (co_mesh c)).
Qed.

(** ** Manifold meshes *)
Lemma w_manifold_surface_vertices : forall a a', kept a a' -> ends_alike kept (add_surfaces_meshes_non_manifold_vertices geo m a) (add_surfaces_meshes_non_manifold_vertices geo' M' a').
Proof.
  intros a a' A. unfold add_surfaces_meshes_non_manifold_vertices. cbn [moved_model m_surfaces]. apply kept_loop; [|exact A]. intros c b b' B. cbn [moved_component co_mesh].
  apply (ends_bind _ _ same_found); [apply w_surface_vertices|]. intros x y X. cbn [ends_alike]. apply kept_add; [exact B|exact X].
Qed.
Lemma w_manifold_surface_edges : forall ho a a', kept a a' -> ends_alike kept (add_surfaces_meshes_non_manifold_edges ho m a) (add_surfaces_meshes_non_manifold_edges ho M' a').
Proof.
  intros ho a a' A. unfold add_surfaces_meshes_non_manifold_edges. cbn [moved_model m_surfaces]. apply kept_loop; [|exact A]. intros c b b' B. cbn [ends_alike]. apply kept_add; [exact B|reflexivity].
Qed.
Lemma w_manifold_vertices : forall a a', kept a a' -> ends_alike kept (add_component_meshes_non_manifold_vertices geo m a) (add_component_meshes_non_manifold_vertices geo' M' a').
Proof.
  intros a a' A. unfold add_component_meshes_non_manifold_vertices. apply (ends_bind _ _ kept); [apply w_manifold_surface_vertices, A|]. intros b b' B.
  cbn [moved_model m_blocks]. apply kept_loop; [|exact B]. intros c e e' E. cbn [moved_component co_mesh]. apply (ends_bind _ _ same_found); [apply w_solid_vertices|]. intros x y X. cbn [ends_alike].
  apply kept_add; [exact E|exact X].
Qed.
Lemma w_manifold_edges : forall ho a a', kept a a' -> ends_alike kept (add_component_meshes_non_manifold_edges ho m a) (add_component_meshes_non_manifold_edges ho M' a').
Proof.
  intros ho a a' A. unfold add_component_meshes_non_manifold_edges. apply (ends_bind _ _ kept); [apply w_manifold_surface_edges, A|]. intros b b' B.
  cbn [moved_model m_blocks]. apply kept_loop; [|exact B]. intros c e e' E. cbn [moved_component co_mesh]. rewrite (w_solid_edges g). apply (ends_bind _ _ eq); [apply ends_refl|]. intros x y <-. cbn [ends_alike].
  apply kept_add; [exact E|reflexivity].
Qed.
Lemma w_manifold_facets : forall ho a a', kept a a' -> ends_alike kept (add_component_meshes_non_manifold_facets ho m a) (add_component_meshes_non_manifold_facets ho M' a').
Proof.
  intros ho a a' A. unfold add_component_meshes_non_manifold_facets. cbn [moved_model m_blocks]. apply kept_loop; [|exact A]. intros c b b' B. cbn [ends_alike]. apply kept_add; [exact B|reflexivity].
Qed.
Definition kept_section_manifold (r r' : SectionManifoldResult) : Prop := kept (sn_vertices r) (sn_vertices r') /\ kept (sn_edges r) (sn_edges r').
Lemma w_section_manifold : forall ho, ends_alike kept_section_manifold (inspect_section_manifold geo ho m) (inspect_section_manifold geo' ho M').
Proof.
  intros ho. unfold inspect_section_manifold. apply (ends_bind _ _ kept); [apply w_manifold_surface_vertices; constructor|]. intros a a' A.
  apply (ends_bind _ _ kept); [apply w_manifold_surface_edges; constructor|]. intros b b' B. cbn. split; assumption.
Qed.
Lemma w_model_edges : model_edges M' = model_edges m.
Proof. unfold model_edges. cbn [moved_model m_surfaces]. symmetry. apply (kept_fold _ _ (moved_surface g) eq); [|reflexivity]. intros c a a' <-. reflexivity. Qed.
Lemma w_several : forall l, several_cmvs_on_one_vertex M' l = several_cmvs_on_one_vertex m l.
Proof. intros l. induction l as [|[u|] l IH]; [reflexivity| |reflexivity]. cbn [several_cmvs_on_one_vertex]. rewrite IH. reflexivity. Qed.
Lemma w_lonely_line : forall c, lonely_line M' (moved_component (moved_curve g) c) = lonely_line m c.
Proof.
  intros c. unfold lonely_line. cbn [moved_component moved_curve co_mesh ec_edges co_id]. destruct (ec_edges (co_mesh c)) as [|[v w] [|]]; try reflexivity; cbv zeta; rewrite w_several; reflexivity.
Qed.
Lemma w_lonely_surface : forall c, lonely_surface M' (moved_component (moved_surface g) c) = lonely_surface m c.
Proof. intros c. unfold lonely_surface. cbv zeta. rewrite w_several. reflexivity. Qed.
Lemma w_model_edges_report : forall ho d d', out (add_model_non_manifold_edges ho m (new_issues d)) (add_model_non_manifold_edges ho M' (new_issues d')).
Proof.
  intros ho d d'. unfold add_model_non_manifold_edges. cbv zeta. rewrite w_model_edges. cbn [moved_model m_lines]. apply kept_loop.
  - intros c a a' A. change (mkModel _ _ _ _ _ _ _ _ _ _ _ _ _ _) with M'. rewrite w_lonely_line. apply (ends_bind _ _ eq); [apply ends_refl|]. intros o o' <-. cbn [ends_alike]. destruct o; [apply found_add, A|exact A].
  - apply found_fold; [|reflexivity]. intros kv a a' A. destruct (Nat.leb (length (snd kv)) 1); [exact A|apply found_add, A].
Qed.
Lemma w_model_facets_report : forall d d', out (add_model_non_manifold_facets m (new_issues d)) (add_model_non_manifold_facets M' (new_issues d')).
Proof.
  intros d d'. unfold add_model_non_manifold_facets. cbn [moved_model m_surfaces]. apply kept_loop; [|reflexivity].
  intros c a a' A. change (mkModel _ _ _ _ _ _ _ _ _ _ _ _ _ _) with M'. rewrite w_lonely_surface. apply (ends_bind _ _ eq); [apply ends_refl|]. intros o o' <-. cbn [ends_alike]. destruct o; [apply found_add, A|exact A].
Qed.
Definition kept_brep_manifold (r r' : BRepManifoldResult) : Prop :=
  kept (bm_vertices r) (bm_vertices r') /\ kept (bm_edges r) (bm_edges r') /\ kept (bm_facets r) (bm_facets r') /\
  same_found (bm_model_edges r) (bm_model_edges r') /\ same_found (bm_model_facets r) (bm_model_facets r').
Lemma w_brep_manifold : forall ho, ends_alike kept_brep_manifold (inspect_brep_manifold geo ho m) (inspect_brep_manifold geo' ho M').
Proof.
  intros ho. unfold inspect_brep_manifold.
  apply (ends_bind _ _ kept); [apply w_manifold_vertices; constructor|]. intros a a' A.
  apply (ends_bind _ _ kept); [apply w_manifold_edges; constructor|]. intros b b' B.
  apply (ends_bind _ _ kept); [apply w_manifold_facets; constructor|]. intros c c' C.
  apply (ends_bind _ _ same_found); [apply w_model_edges_report|]. intros d d' D.
  apply (ends_bind _ _ same_found); [apply w_model_facets_report|]. intros e e' E.
  cbn. unfold kept_brep_manifold. cbn. auto.
Qed.
End Moving.

(** ** The whole reports on meshes *)
Section Whole.
Context (g : Point -> Point) (s : Point -> string) (m : Model) (o o' : Oracles) (OF : oracles_follow g o o').
Notation M' := (moved_model g s m).
Lemma assigned_any : forall A (Q : A -> A -> Prop) d d' x y, Q d d' -> ends_alike Q x y -> Q (assigned d x) (assigned d' y).
Proof. intros A Q d d' [a|e|] [b|e'|] D E; cbn in *; try contradiction; assumption. Qed.
Lemma w_section_meshes : forall st st' i i', out i i' -> ends_alike same_section_meshes (inspect_section_meshes o m st i) (inspect_section_meshes o' M' st' i').
Proof.
  intros st st' i i' I. pose proof (of_geometry g o o' OF) as GF. pose proof (of_measures g o o' OF) as MF. unfold inspect_section_meshes. cbv zeta. rewrite (of_hash g o o' OF), (of_lookup g o o' OF).
  unfold inspect_section_meshes_adjacencies.
  pose proof (w_unique g s m _ _ GF) as A1. pose proof (w_colocation g s m _ _ GF) as A2. pose proof (w_adjacency g s m (or_lookup o) "polygon edges adjacencies"%string "polygon edges adjacencies"%string) as A3.
  pose proof (w_section_degeneration g s m _ _ (or_geometry o) (or_geometry o') MF st st') as A4. pose proof (w_section_manifold g s m (or_geometry o) (or_geometry o') (or_hash o)) as A5.
  apply (ends_bind _ _ eq).
  - rewrite (status_alike _ _ _ _ A1), (status_alike _ _ _ _ A2), (status_alike _ _ _ _ A3), (status_alike _ _ _ _ A4), (status_alike _ _ _ _ A5), (status_alike _ _ _ _ I : @status Intersections i' = @status Intersections i). apply ends_refl.
  - intros u u' _. cbn [ends_alike].
    apply (assigned_any _ same_unique (sc_unique_vertices empty_section_meshes) (sc_unique_vertices empty_section_meshes)) in A1; [|split; reflexivity].
    apply (assigned_any _ kept (sc_colocation empty_section_meshes) (sc_colocation empty_section_meshes)) in A2; [|constructor].
    apply (assigned_any _ kept (sc_adjacency empty_section_meshes) (sc_adjacency empty_section_meshes)) in A3; [|constructor].
    apply (assigned_any _ kept_section_degeneration (sc_degeneration empty_section_meshes) (sc_degeneration empty_section_meshes)) in A4; [|split; constructor].
    apply (assigned_any _ kept_section_manifold (sc_manifold empty_section_meshes) (sc_manifold empty_section_meshes)) in A5; [|split; constructor].
    destruct A1 as (A1 & A1'). destruct A4 as (A4 & A4'). destruct A5 as (A5 & A5').
    constructor; cbn [sc_unique_vertices sc_colocation sc_adjacency sc_degeneration sc_intersections sc_manifold sc_negative]; try (apply kept_same; assumption); try assumption.
    + apply assigned_alike; [reflexivity|exact I].
    + apply kept_same, (w_section_negative g s m _ _ MF).
Qed.
Lemma w_brep_meshes : forall st st' i i', out i i' -> ends_alike same_brep_meshes (inspect_brep_meshes o m st i) (inspect_brep_meshes o' M' st' i').
Proof.
  intros st st' i i' I. pose proof (of_geometry g o o' OF) as GF. pose proof (of_measures g o o' OF) as MF. unfold inspect_brep_meshes. cbv zeta. rewrite (of_hash g o o' OF), (of_lookup g o o' OF).
  pose proof (w_unique g s m _ _ GF) as A1. pose proof (w_colocation g s m _ _ GF) as A2. pose proof (w_brep_adjacency g s m (or_lookup o)) as A3.
  pose proof (w_degeneration g s m _ _ (or_geometry o) (or_geometry o') MF st st') as A4. pose proof (w_brep_manifold g s m (or_geometry o) (or_geometry o') (or_hash o)) as A5.
  apply (ends_bind _ _ eq).
  - rewrite (status_alike _ _ _ _ A1), (status_alike _ _ _ _ A2), (status_alike _ _ _ _ A3), (status_alike _ _ _ _ A4), (status_alike _ _ _ _ A5), (status_alike _ _ _ _ I : @status Intersections i' = @status Intersections i). apply ends_refl.
  - intros u u' _. cbn [ends_alike].
    apply (assigned_any _ same_unique (br_unique_vertices empty_brep_meshes) (br_unique_vertices empty_brep_meshes)) in A1; [|split; reflexivity].
    apply (assigned_any _ kept (br_colocation empty_brep_meshes) (br_colocation empty_brep_meshes)) in A2; [|constructor].
    apply (assigned_any _ kept_adjacency (br_adjacency empty_brep_meshes) (br_adjacency empty_brep_meshes)) in A3; [|split; constructor].
    apply (assigned_any _ kept_degeneration (br_degeneration empty_brep_meshes) (br_degeneration empty_brep_meshes)) in A4; [|split; [|split]; constructor].
    apply (assigned_any _ kept_brep_manifold (br_manifold empty_brep_meshes) (br_manifold empty_brep_meshes)) in A5; [|split; [|split; [|split; [|split]]]; try constructor; reflexivity].
    destruct A1 as (A1 & A1'). destruct A3 as (A3 & A3'). destruct A4 as (A4 & A4' & A4''). destruct A5 as (A5 & A5a & A5b & A5c & A5d).
    constructor; cbn [br_unique_vertices br_colocation br_adjacency br_degeneration br_intersections br_manifold br_negative]; try (apply kept_same; assumption); try assumption.
    + apply assigned_alike; [reflexivity|exact I].
    + apply kept_same, (w_brep_negative g s m _ _ MF).
Qed.
End Whole.
