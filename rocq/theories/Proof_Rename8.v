(** Renaming components: unique vertices, non-manifold edges and facets of the model, intersections. *)
From Coq Require Import String Ascii List Arith NArith ZArith Bool Lia Permutation.
From Verif Require Import Base BaseFacts Model_Issues Types Model_Hash Model_Adjacency Model_Colocation Model_Degeneration Model_Manifold Model_Intersections Model_Negative Model_Topology
  Model_BRep Model_Blocks Model_Results Spec_Colocation Spec_Rename Proof_Messages Proof_Order Proof_Order5 Proof_Relabel5 Proof_Rename Proof_Rename2 Proof_Rename3 Proof_Rename7.
Import ListNotations.
Open Scope list_scope.

Section Renaming.
Context (f g : uuid -> uuid) (H : one_to_one f g) (m m' : Model) (R : renamed f m m').

Lemma n_get_corner : forall id, get_corner m' (f id) = omap (new_component f) (get_corner m id).
Proof. intros id. unfold get_corner, or_throw, omap. rewrite (rn_corners _ _ _ R), (n_find f g H), (rn_missing _ _ _ R). destruct (find_component id (m_corners m)); reflexivity. Qed.
Lemma n_get_block : forall id, get_block m' (f id) = omap (new_component f) (get_block m id).
Proof. intros id. unfold get_block, or_throw, omap. rewrite (rn_blocks _ _ _ R), (n_find f g H), (rn_missing _ _ _ R). destruct (find_component id (m_blocks m)); reflexivity. Qed.

(** ** Unique vertices *)
Lemma n_component_is_active : forall id, component_is_active m' (f id) = component_is_active m id.
Proof.
  intros id. unfold component_is_active. rewrite (rn_corners _ _ _ R), (rn_lines _ _ _ R), (rn_surfaces _ _ _ R), (rn_blocks _ _ _ R), (rn_missing _ _ _ R), !(n_find f g H).
  destruct (find_component id (m_corners m)); [reflexivity|]. destruct (find_component id (m_lines m)); [reflexivity|]. destruct (find_component id (m_surfaces m)); [reflexivity|].
  destruct (find_component id (m_blocks m)); reflexivity.
Qed.
Lemma n_cmv_point : forall c, model_cmv_point m' (new_cmv f c) = model_cmv_point m c.
Proof.
  intros [[t id] v]. unfold model_cmv_point. cbn [new_cmv new_cid cmv_component cmv_vertex cid_id cid_type]. cbv zeta.
  destruct t; rewrite ?(n_get_line f g H m m' R), ?(n_get_surface f g H m m' R), ?n_get_corner, ?n_get_block; unfold omap;
    match goal with |- bind (bind ?x _) _ = _ => destruct x; reflexivity end.
Qed.
Lemma n_on_point : forall geo l p, model_cmvs_are_colocated_on_point geo m' (map (new_cmv f) l) p = model_cmvs_are_colocated_on_point geo m l p.
Proof.
  intros geo l p. induction l as [|c l IH]; [reflexivity|]. cbn [map model_cmvs_are_colocated_on_point]. change (cid_id (cmv_component (new_cmv f c))) with (f (cid_id (cmv_component c))).
  rewrite n_component_is_active, n_cmv_point, IH. reflexivity.
Qed.
Lemma n_vertex_point : forall l, model_unique_vertex_point m' (map (new_cmv f) l) = model_unique_vertex_point m l.
Proof.
  intros l. induction l as [|c l IH]; [reflexivity|]. cbn [map model_unique_vertex_point]. change (cid_id (cmv_component (new_cmv f c))) with (f (cid_id (cmv_component c))).
  rewrite n_component_is_active, n_cmv_point, IH. reflexivity.
Qed.
Lemma n_uvc : uvc_create m' = uvc_create m.
Proof. unfold uvc_create. rewrite (n_nb f m m' R). apply foldM_in. intros u uv _. rewrite (n_cmvs f m m' R), n_vertex_point. reflexivity. Qed.
Lemma n_different : forall geo u uv, uv_linked_to_different_points geo m' u uv = uv_linked_to_different_points geo m u uv.
Proof. intros geo u uv. unfold uv_linked_to_different_points. rewrite (n_cmvs f m m' R). destruct (nth uv (uvc_old2new u) None); [|reflexivity]. apply bind_eq; [reflexivity|]. intros p. rewrite n_on_point. reflexivity. Qed.
Lemma n_different_points : forall geo i, unique_vertices_linked_to_different_points geo m' i = unique_vertices_linked_to_different_points geo m i.
Proof.
  intros geo i. unfold unique_vertices_linked_to_different_points. rewrite n_uvc, (n_nb f m m' R). apply bind_eq; [reflexivity|]. intros u. apply foldM_in. intros r uv _. rewrite n_different. reflexivity.
Qed.
Lemma n_colocated_groups : forall geo i, colocated_unique_vertices_groups geo m' i = colocated_unique_vertices_groups geo m i.
Proof. intros geo i. unfold colocated_unique_vertices_groups. rewrite n_uvc. reflexivity. Qed.
Lemma n_unique_vertices : forall geo, inspect_unique_vertices geo m' = inspect_unique_vertices geo m.
Proof. intros geo. unfold inspect_unique_vertices. rewrite n_colocated_groups, n_different_points. reflexivity. Qed.
Lemma n_has_different : forall geo, model_has_unique_vertices_linked_to_different_points geo m' = model_has_unique_vertices_linked_to_different_points geo m.
Proof.
  intros geo. unfold model_has_unique_vertices_linked_to_different_points. rewrite n_uvc, (n_nb f m m' R). apply bind_eq; [reflexivity|]. intros u. apply anyM_eq; [reflexivity|]. intros uv. apply n_different.
Qed.
Lemma n_has_colocated : forall geo, model_has_colocated_unique_vertices geo m' = model_has_colocated_unique_vertices geo m.
Proof. intros geo. unfold model_has_colocated_unique_vertices. rewrite n_uvc. reflexivity. Qed.

(** ** Edges and facets of the model *)
Lemma n_update : forall K (eqb : K -> K -> bool) k id l, emplace_or_update eqb k [f id] (fun l => l ++ [f id]) (map (on_renamed f) l) = map (on_renamed f) (emplace_or_update eqb k [id] (fun l => l ++ [id]) l).
Proof.
  intros K eqb k id l. induction l as [|[k' v] l IH]; [reflexivity|]. cbn [map emplace_or_update]. unfold on_renamed at 1. cbn [fst snd]. destruct (eqb k' k).
  - cbn [map]. unfold on_renamed. cbn [fst snd]. rewrite map_app. reflexivity.
  - cbn [map]. rewrite <- IH. reflexivity.
Qed.
Lemma n_model_edges : model_edges m' = map (on_renamed f) (model_edges m).
Proof.
  unfold model_edges. rewrite (rn_surfaces _ _ _ R), (new_active f).
  apply (new_fold f _ _ (fun a a' => a' = map (on_renamed f) a)); [|reflexivity]. intros c a a' ->. cbn [new_component co_mesh co_id].
  generalize (all_polygon_edges (co_mesh c)). intros es. revert a. induction es as [|e es IH]; intros a; [reflexivity|]. cbn [fold_left].
  destruct (counted_edge (co_mesh c) e); [|apply IH].
  assert (K : model_edge_key m' (new_component f c) e = model_edge_key m c e) by (unfold model_edge_key, surface_uv; cbn [new_component co_id co_mesh]; rewrite !(n_unique_vertex f m m' R); reflexivity).
  rewrite K.
  rewrite n_update. apply IH.
Qed.
Lemma edges_listed : forall m0 l (r : InspectionIssues BRepNonManifoldEdge),
  ii_issues (fold_left (fun r kv => if Nat.leb (List.length (snd kv)) 1 then r else add_issue kv (model_edge_message m0 kv) r) l r) = ii_issues r ++ filter (fun kv => negb (Nat.leb (List.length (snd kv)) 1)) l.
Proof.
  intros m0 l. induction l as [|kv l IH]; intros r; cbn [fold_left filter]; [rewrite app_nil_r; reflexivity|]. rewrite IH. destruct (Nat.leb (length (snd kv)) 1); cbn [negb]; [reflexivity|].
  unfold add_issue. cbn [ii_issues]. rewrite <- app_assoc. reflexivity.
Qed.
Lemma filter_permutes : forall A (p : A -> bool) l l', Permutation l l' -> Permutation (filter p l) (filter p l').
Proof.
  intros A p l l' P. induction P as [|x l l' P IH|x y l|l l2 l3 P1 IH1 P2 IH2]; cbn [filter]; [constructor| | |eapply Permutation_trans; eassumption].
  - destruct (p x); [constructor|]; exact IH.
  - destruct (p x), (p y); try apply Permutation_refl. constructor.
Qed.
Lemma filter_renamed : forall K (l : list (K * list uuid)), filter (fun kv => negb (Nat.leb (List.length (snd kv)) 1)) (map (on_renamed f) l) = map (on_renamed f) (filter (fun kv => negb (Nat.leb (List.length (snd kv)) 1)) l).
Proof.
  intros K l. induction l as [|kv l IH]; [reflexivity|]. cbn [map filter]. unfold on_renamed at 1. cbn [snd]. rewrite map_length, IH. destruct (Nat.leb (length (snd kv)) 1); reflexivity.
Qed.
Lemma n_several : forall l, several_cmvs_on_one_vertex m' l = several_cmvs_on_one_vertex m l.
Proof.
  intros l. induction l as [|[uv|] l IH]; [reflexivity| |reflexivity]. cbn [several_cmvs_on_one_vertex]. rewrite IH, (n_nb f m m' R), (n_cmvs f m m' R), map_length. reflexivity.
Qed.
Lemma n_embeddings_of : forall t id, nb_embeddings_of m' t (f id) = nb_embeddings_of m t id.
Proof.
  intros t id. unfold nb_embeddings_of. rewrite (n_embeddings f g H m m' R). induction (embeddings m id) as [|c l IH]; [reflexivity|]. cbn [map filter new_cid cid_type].
  destruct (ctype_eqb (cid_type c) t); cbn [List.length]; rewrite ?IH; [rewrite <- IH|]; reflexivity.
Qed.
Lemma n_lonely_line : forall c, lonely_line m' (new_component f c) = lonely_line m c.
Proof.
  intros c. unfold lonely_line. cbn [new_component co_mesh co_id]. destruct (ec_edges (co_mesh c)) as [|[v w] [|e l]]; [reflexivity| |reflexivity]. cbv zeta.
  rewrite n_embeddings_of, n_several, !(n_unique_vertex f m m' R). reflexivity.
Qed.
Lemma n_lonely_surface : forall c, lonely_surface m' (new_component f c) = lonely_surface m c.
Proof.
  intros c. unfold lonely_surface. cbn [new_component co_mesh co_id]. cbv zeta. rewrite n_embeddings_of. destruct (negb _); [reflexivity|]. destruct (Nat.eqb _ 0); [reflexivity|].
  assert (E : map (surface_uv m' (new_component f c)) (polygon_vertices (co_mesh c) 0) = map (surface_uv m c) (polygon_vertices (co_mesh c) 0))
    by (apply map_ext; intros v; apply (n_unique_vertex f m m' R)).
  rewrite E, n_several. reflexivity.
Qed.
Lemma n_model_edges_report : forall ho d d', ends_alike (renamed_edges f) (add_model_non_manifold_edges ho m (new_issues d)) (add_model_non_manifold_edges ho m' (new_issues d')).
Proof.
  intros ho d d'. unfold add_model_non_manifold_edges. cbv zeta. rewrite (rn_lines _ _ _ R), (new_active f). apply new_loop.
  - intros c a a' A. rewrite n_lonely_line. destruct (lonely_line m c) as [[vs|]|e|]; cbn [bind ends_alike]; [|exact A|reflexivity|exact I].
    unfold renamed_edges, add_issue. cbn [ii_issues new_component co_id]. rewrite map_app. apply Permutation_app; [exact A|apply Permutation_refl].
  - unfold renamed_edges. rewrite !edges_listed. cbn [new_issues ii_issues app]. rewrite <- filter_renamed. apply filter_permutes. rewrite n_model_edges.
    eapply Permutation_trans; [apply Permutation_map, visit_permutes|]. apply Permutation_sym, visit_permutes.
Qed.
Lemma n_model_facets_report : forall d d', ends_alike (renamed_facets f) (add_model_non_manifold_facets m (new_issues d)) (add_model_non_manifold_facets m' (new_issues d')).
Proof.
  intros d d'. unfold add_model_non_manifold_facets. rewrite (rn_surfaces _ _ _ R), (new_active f). apply new_loop; [|reflexivity].
  intros c a a' A. rewrite n_lonely_surface. destruct (lonely_surface m c) as [[vs|]|e|]; cbn [bind ends_alike]; [|exact A|reflexivity|exact I].
  unfold renamed_facets, add_issue in *. cbn [ii_issues new_component co_id]. rewrite map_app. apply f_equal2; [exact A|reflexivity].
Qed.
Definition new_brep_manifold (r r' : BRepManifoldResult) : Prop :=
  new_map f (bm_vertices r) (bm_vertices r') /\ new_map f (bm_edges r) (bm_edges r') /\ new_map f (bm_facets r) (bm_facets r') /\
  renamed_edges f (bm_model_edges r) (bm_model_edges r') /\ renamed_facets f (bm_model_facets r) (bm_model_facets r').
Lemma n_brep_manifold : forall geo ho, ends_alike new_brep_manifold (inspect_brep_manifold geo ho m) (inspect_brep_manifold geo ho m').
Proof.
  intros geo ho. unfold inspect_brep_manifold.
  apply (ends_bind _ _ (new_map f)); [apply (n_manifold_vertices f g H m m' R), new_map_empty|]. intros a a' A.
  apply (ends_bind _ _ (new_map f)); [apply (n_manifold_edges f g H m m' R), new_map_empty|]. intros b b' B.
  apply (ends_bind _ _ (new_map f)); [apply (n_manifold_facets f g H m m' R), new_map_empty|]. intros c c' C.
  apply (ends_bind _ _ (renamed_edges f)); [apply n_model_edges_report|]. intros d d' D.
  apply (ends_bind _ _ (renamed_facets f)); [apply n_model_facets_report|]. intros e e' E.
  cbn. unfold new_brep_manifold. cbn. auto.
Qed.

(** ** Intersections *)
Context (px : Predicates) (trees trees' : Trees) (T : renamed_trees f trees trees').
Lemma n_surface_vertex : forall c v, surface_vertex m' (new_component f c) v = surface_vertex m c v.
Proof. intros c v. apply (n_unique_vertex f m m' R). Qed.
Lemma n_common : forall s1 s2 t1 t2, triangles_common_vertices m' (new_component f s1) (new_component f s2) t1 t2 = triangles_common_vertices m s1 s2 t1 t2.
Proof.
  intros s1 s2 t1 t2. unfold triangles_common_vertices. apply flat_map_ext. intros v1. rewrite n_surface_vertex.
  assert (E : forall t, find (fun v2 => same_unique_vertex (surface_vertex m s1 v1) (surface_vertex m' (new_component f s2) v2)) t = find (fun v2 => same_unique_vertex (surface_vertex m s1 v1) (surface_vertex m s2 v2)) t).
  { induction t as [|v2 t IH]; [reflexivity|]. cbn [find]. rewrite IH, n_surface_vertex. reflexivity. }
  rewrite E. reflexivity.
Qed.
Lemma n_hit : forall s1 s2 a c, surfaces_hit px m' (new_component f s1) (new_component f s2) a c = surfaces_hit px m s1 s2 a c.
Proof.
  intros s1 s2 a c.
  assert (D : forall t1 t2, triangles_intersection_detection px m' (new_component f s1) (new_component f s2) t1 t2 = triangles_intersection_detection px m s1 s2 t1 t2).
  { intros t1 t2. unfold triangles_intersection_detection. rewrite n_common. reflexivity. }
  assert (P : forall p q, polygons_intersect px m' (new_component f s1) (new_component f s2) p q = polygons_intersect px m s1 s2 p q).
  { intros p q. unfold polygons_intersect. apply if_eq; [reflexivity|reflexivity|]. apply if_eq; [reflexivity|apply D|].
    apply bind_eq; [reflexivity|]. intros k1. apply bind_eq; [reflexivity|]. intros k2. apply anyM_eq; [reflexivity|]. intros t1. apply anyM_eq; [reflexivity|]. intros t2. apply D. }
  assert (S : same_surface (new_component f s1) (new_component f s2) = same_surface s1 s2) by apply (n_eqb f g H).
  unfold surfaces_hit. rewrite P, S. reflexivity.
Qed.
Lemma n_located : forall a b l, located (new_cid f a) (new_cid f b) l = map (new_pair f) (located a b l).
Proof. intros a b l. unfold located. rewrite map_map. apply map_ext. intros [p q]. reflexivity. Qed.
Lemma n_pair_task : forall a s1 s2 cands r, pair_task px m a s1 s2 cands r -> pair_task px m' a (new_component f s1) (new_component f s2) cands (omap (map (new_pair f)) r).
Proof.
  intros a s1 s2 cands r (found & K & ->). exists found. split.
  - apply (traverses_alike _ (surfaces_action px m s1 s2 a)); [|exact K]. intros s c. unfold surfaces_action, record_action. rewrite n_hit. reflexivity.
  - destruct found as [l|e|]; cbn [bind omap]; [|reflexivity|reflexivity]. unfold omap. cbn [bind]. rewrite <- n_located. reflexivity.
Qed.
Lemma n_position_of : forall id l, Model_Intersections.position_of (f id) (map f l) = Model_Intersections.position_of id l.
Proof. intros id l. induction l as [|x l IH]; [reflexivity|]. cbn [map Model_Intersections.position_of]. rewrite (n_eqb f g H), IH. reflexivity. Qed.
Lemma n_tree_id : forall id l, mesh_tree_id (map f l) (f id) = mesh_tree_id l id.
Proof. intros id l. unfold mesh_tree_id. rewrite n_position_of. reflexivity. Qed.
Lemma n_self_task : forall a c r, self_task px m trees a c r -> self_task px m' trees' a (new_component f c) (omap (map (new_pair f)) r).
Proof.
  intros a c r. unfold self_task. cbn [new_component co_id]. rewrite (n_get_surface f g H m m' R), (rntr_uuids _ _ _ T), n_tree_id. destruct (get_surface m (co_id c)) as [s|e|]; cbn [omap bind]; [|intros ->; reflexivity|intros ->; reflexivity].
  destruct (mesh_tree_id (tr_uuids trees) (co_id c)) as [i|e|]; [|intros ->; reflexivity|intros ->; reflexivity]. rewrite (rntr_self _ _ _ T). apply n_pair_task.
Qed.
Lemma n_at_index : forall l i, at_index (map f l) i = omap f (at_index l i).
Proof. intros l i. unfold at_index, omap. rewrite nth_error_map. destruct (nth_error l i); reflexivity. Qed.
Lemma n_overlap_task : forall a c r, overlap_task px m trees a c r -> overlap_task px m' trees' a c (omap (map (new_pair f)) r).
Proof.
  intros a c r. unfold overlap_task. rewrite (rntr_uuids _ _ _ T), !n_at_index. unfold omap at 1 2.
  destruct (at_index (tr_uuids trees) (fst c)) as [i1|e|]; cbn [bind]; [|intros ->; reflexivity|intros ->; reflexivity].
  destruct (at_index (tr_uuids trees) (snd c)) as [i2|e|]; cbn [bind]; [|intros ->; reflexivity|intros ->; reflexivity].
  rewrite !(n_get_surface f g H m m' R). unfold omap at 1 2.
  destruct (get_surface m i1) as [s1|e|]; cbn [bind]; [|intros ->; reflexivity|intros ->; reflexivity].
  destruct (get_surface m i2) as [s2|e|]; cbn [bind]; [|intros ->; reflexivity|intros ->; reflexivity].
  rewrite (rntr_other _ _ _ T). apply n_pair_task.
Qed.
Lemma n_gather : forall l, gather (map (omap (map (new_pair f))) l) = omap (map (new_pair f)) (gather l).
Proof.
  intros l. unfold gather.
  assert (E : existsb (fun r : outcome IntersectionsResult => match r with UB => true | _ => false end) (map (omap (map (new_pair f))) l) = existsb (fun r : outcome IntersectionsResult => match r with UB => true | _ => false end) l).
  { induction l as [|[x|e|] l IH]; cbn; auto. }
  rewrite E. destruct (existsb (fun r : outcome IntersectionsResult => match r with UB => true | _ => false end) l); [reflexivity|]. change (@nil (ComponentMeshElement * ComponentMeshElement)) with (map (new_pair f) []) at 1.
  apply foldM_via with (k := map (new_pair f)). intros s [x|e|]; cbn [omap bind]; [|reflexivity|reflexivity]. rewrite map_app. reflexivity.
Qed.
Lemma n_no_polygon : existsb (fun s => Nat.eqb (nb_polygons (co_mesh s)) 0) (active (m_surfaces m')) = existsb (fun s => Nat.eqb (nb_polygons (co_mesh s)) 0) (active (m_surfaces m)).
Proof. rewrite (rn_surfaces _ _ _ R), (new_active f). induction (active (m_surfaces m)) as [|c l IH]; [reflexivity|]. cbn [map existsb]. rewrite IH. reflexivity. Qed.
Lemma n_no_edge : existsb (fun l => Nat.eqb (List.length (ec_edges (co_mesh l))) 0) (active (m_lines m')) = existsb (fun l => Nat.eqb (List.length (ec_edges (co_mesh l))) 0) (active (m_lines m)).
Proof. rewrite (rn_lines _ _ _ R), (new_active f). induction (active (m_lines m)) as [|c l IH]; [reflexivity|]. cbn [map existsb]. rewrite IH. reflexivity. Qed.
Lemma Forall2_mapped : forall A A' B B' (h : A -> A') (k : B -> B') (P : A -> B -> Prop) (P' : A' -> B' -> Prop), (forall a b, P a b -> P' (h a) (k b)) -> forall l l', Forall2 P l l' -> Forall2 P' (map h l) (map k l').
Proof. intros A A' B B' h k P P' E l l' F. induction F; constructor; auto. Qed.
Lemma n_intersecting_polygons : forall a r, intersecting_polygons px m trees a r -> intersecting_polygons px m' trees' a (omap (map (new_pair f)) r).
Proof.
  intros a r. unfold intersecting_polygons. rewrite n_no_polygon. destruct (existsb _ (active (m_surfaces m))); [intros ->; reflexivity|]. intros (rs & os & ors & F1 & K & F2 & ->).
  exists (map (omap (map (new_pair f))) rs), os, (map (omap (map (new_pair f))) ors). split; [|split; [|split]].
  - rewrite (rn_surfaces _ _ _ R), (new_active f). eapply Forall2_mapped; [|exact F1]. intros c o. apply n_self_task.
  - rewrite (rntr_overlaps _ _ _ T). exact K.
  - rewrite <- (map_id os). eapply Forall2_mapped; [|exact F2]. intros c o. apply n_overlap_task.
  - rewrite <- map_app. symmetry. apply n_gather.
Qed.
(** reports of pairs: whatever the texts *)
Lemma n_pairs_loop : forall A B (F : Intersections -> ComponentMeshElement * ComponentMeshElement -> outcome Intersections) F' (get1 get1' : uuid -> outcome (Component A)) (get2 get2' : uuid -> outcome (Component B)) msg msg',
  (forall id, get1' (f id) = omap (new_component f) (get1 id)) -> (forall id, get2' (f id) = omap (new_component f) (get2 id)) ->
  (forall r c, F r c = (let! s1 := get1 (element_component (fst c)) in let! s2 := get2 (element_component (snd c)) in Ok (add_issue c (msg s1 s2 c) r))) ->
  (forall r c, F' r c = (let! s1 := get1' (element_component (fst c)) in let! s2 := get2' (element_component (snd c)) in Ok (add_issue c (msg' s1 s2 c) r))) ->
  forall l r r', renamed_intersections f r r' -> ends_alike (renamed_intersections f) (foldM F l r) (foldM F' (map (new_pair f) l) r').
Proof.
  intros A B F F' get1 get1' get2 get2' msg msg' G1 G2 E E' l. induction l as [|c l IH]; intros r r' K; [exact K|]. cbn [map foldM]. rewrite E, E'.
  change (element_component (fst (new_pair f c))) with (f (element_component (fst c))). change (element_component (snd (new_pair f c))) with (f (element_component (snd c))).
  rewrite G1, G2. unfold omap. destruct (get1 _) as [s1|e|]; cbn [bind]; [|reflexivity|exact I]. destruct (get2 _) as [s2|e|]; cbn [bind]; [|reflexivity|exact I].
  apply IH. unfold renamed_intersections, add_issue in *. cbn [ii_issues]. rewrite map_app, K. reflexivity.
Qed.
Lemma n_surfaces_elements : forall i i' r, renamed_intersections f i i' -> add_intersecting_surfaces_elements px m trees i r ->
  exists r', add_intersecting_surfaces_elements px m' trees' i' r' /\ ends_alike (renamed_intersections f) r r'.
Proof.
  intros i i' r Ei (found & P & ->). eexists. split; [exists (omap (map (new_pair f)) found); split; [apply n_intersecting_polygons, P|reflexivity]|].
  destruct found as [l|e|]; cbn [omap bind]; [|reflexivity|exact I]. eapply n_pairs_loop with (get1 := get_surface m) (get1' := get_surface m') (get2 := get_surface m) (get2' := get_surface m');
    [apply (n_get_surface f g H m m' R)|apply (n_get_surface f g H m m' R)|intros; reflexivity|intros; reflexivity|exact Ei].
Qed.
Lemma n_section_intersections : forall r, section_inspect_intersections px m trees r -> exists r', section_inspect_intersections px m' trees' r' /\ ends_alike (renamed_intersections f) r r'.
Proof. intros r. apply n_surfaces_elements. reflexivity. Qed.
Lemma n_self_intersections : forall r, inspect_surfaces_self_intersections px m trees r -> exists r', inspect_surfaces_self_intersections px m' trees' r' /\ ends_alike (renamed_intersections f) r r'.
Proof.
  intros r (found & P & ->). eexists. split; [exists (omap (map (new_pair f)) found); split; [apply n_intersecting_polygons, P|reflexivity]|].
  destruct found as [l|e|]; cbn [omap bind]; [|reflexivity|exact I].
  assert (K : forall l r r', renamed_intersections f r r' -> ends_alike (renamed_intersections f)
    (foldM (fun acc c => let! s := get_surface m (element_component (fst c)) in Ok (add_issue c (StrCat ["Surface "; named m (co_name s) (co_id s); " has a self intersection on polygons "; str (snd (fst c)); "and "; str (snd (snd c))]%string) acc)) l r)
    (foldM (fun acc c => let! s := get_surface m' (element_component (fst c)) in Ok (add_issue c (StrCat ["Surface "; named m' (co_name s) (co_id s); " has a self intersection on polygons "; str (snd (fst c)); "and "; str (snd (snd c))]%string) acc)) (map (new_pair f) l) r')).
  { clear l P. intros l. induction l as [|c l IH]; intros r r' K; [exact K|]. cbn [map foldM]. change (element_component (fst (new_pair f c))) with (f (element_component (fst c))).
    rewrite (n_get_surface f g H m m' R). unfold omap. destruct (get_surface m (element_component (fst c))) as [s|e|]; cbn [bind]; [|reflexivity|exact I]. apply IH.
    unfold renamed_intersections, add_issue in *. cbn [ii_issues]. rewrite map_app. apply f_equal2; [exact K|reflexivity]. }
  apply K. reflexivity.
Qed.
Context (lines lines' : LineTrees) (L : renamed_line_trees f lines lines').
Lemma n_embedding_blocks : forall id, nb_embedding_blocks m' (f id) = nb_embedding_blocks m id.
Proof. intros id. exact (n_embeddings_of BlockT id). Qed.
Lemma n_line_step : forall s i l acc r, line_surface_step px m lines s i l acc r -> line_surface_step px m' lines' (new_component f s) i (new_component f l) (map (new_pair f) acc) (omap (map (new_pair f)) r).
Proof.
  intros s i l acc r. unfold line_surface_step. cbn [new_component co_id]. rewrite n_embedding_blocks. destruct (Nat.eqb _ 0); [intros ->; reflexivity|].
  rewrite (n_get_surface f g H m m' R), (n_get_line f g H m m' R), (rnlt_uuids _ _ _ L), n_tree_id. unfold omap at 1 2.
  destruct (get_surface m (co_id s)) as [s'|e|]; cbn [bind]; [|intros ->; reflexivity|intros ->; reflexivity].
  destruct (get_line m (co_id l)) as [l'|e|]; cbn [bind]; [|intros ->; reflexivity|intros ->; reflexivity].
  destruct (mesh_tree_id (lt_uuids lines) (co_id l)) as [j|e|]; cbn [bind]; [|intros ->; reflexivity|intros ->; reflexivity].
  intros (found & K & ->). exists found. rewrite (rnlt_other _ _ _ L). split; [exact K|]. destruct found as [k|e|]; unfold omap; cbn [bind]; [|reflexivity|reflexivity].
  rewrite map_app, <- n_located. reflexivity.
Qed.
Lemma n_loop : forall A (body body' : Component A -> IntersectionsResult -> outcome IntersectionsResult -> Prop),
  (forall c s r, body c s r -> body' (new_component f c) (map (new_pair f) s) (omap (map (new_pair f)) r)) ->
  forall l s r, loop body l s r -> loop body' (map (new_component f) l) (map (new_pair f) s) (omap (map (new_pair f)) r).
Proof.
  intros A body body' E l s r K. induction K as [s|c l s s' r B K IH|c l s e B|c l s B]; cbn [map omap bind].
  - apply loop_end.
  - eapply loop_step; [apply (E _ _ _ B)|exact IH].
  - apply loop_raise. apply (E _ _ _ B).
  - apply loop_undefined. apply (E _ _ _ B).
Qed.
Lemma n_surface_step : forall s acc r, surface_step px m trees lines s acc r -> surface_step px m' trees' lines' (new_component f s) (map (new_pair f) acc) (omap (map (new_pair f)) r).
Proof.
  intros s acc r. unfold surface_step. cbn [new_component co_id]. rewrite (rntr_uuids _ _ _ T), n_tree_id. destruct (mesh_tree_id (tr_uuids trees) (co_id s)) as [i|e|]; [|intros ->; reflexivity|intros ->; reflexivity].
  rewrite (rn_lines _ _ _ R), (new_active f). apply n_loop. intros c k o. apply n_line_step.
Qed.
Lemma n_lines_surfaces : forall r, intersecting_lines_surfaces px m trees lines r -> intersecting_lines_surfaces px m' trees' lines' (omap (map (new_pair f)) r).
Proof.
  intros r. unfold intersecting_lines_surfaces. rewrite n_no_polygon, n_no_edge. destruct (existsb _ _); [intros ->; reflexivity|]. destruct (existsb _ _); [intros ->; reflexivity|].
  rewrite (rn_surfaces _ _ _ R), (new_active f). apply (n_loop _ (surface_step px m trees lines) (surface_step px m' trees' lines')) with (s := []). apply n_surface_step.
Qed.
Lemma n_brep_intersections : forall r, brep_inspect_intersections px m trees lines r -> exists r', brep_inspect_intersections px m' trees' lines' r' /\ ends_alike (renamed_intersections f) r r'.
Proof.
  intros r (r1 & P & K). destruct (n_surfaces_elements empty_intersections empty_intersections r1 eq_refl P) as (r1' & P' & E1).
  destruct r1 as [i1|e|], r1' as [i1'|e'|]; cbn in E1; try contradiction.
  - destruct K as (found & Q & ->). eexists. split; [exists (Ok i1'); split; [exact P'|exists (omap (map (new_pair f)) found); split; [apply n_lines_surfaces, Q|reflexivity]]|].
    destruct found as [l|e|]; cbn [omap bind]; [|reflexivity|exact I]. eapply n_pairs_loop with (get1 := get_surface m) (get1' := get_surface m') (get2 := get_line m) (get2' := get_line m');
      [apply (n_get_surface f g H m m' R)|apply (n_get_line f g H m m' R)|intros; reflexivity|intros; reflexivity|exact E1].
  - subst. exists (Throw e'). split; [exists (Throw e'); split; [exact P'|reflexivity]|reflexivity].
  - subst. exists UB. split; [exists UB; split; [exact P'|reflexivity]|exact I].
Qed.
End Renaming.
