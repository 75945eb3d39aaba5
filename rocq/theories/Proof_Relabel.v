(** Unique vertices numbered in another way: the parts of the reports that are not by unique vertex. *)
From Coq Require Import String Ascii List Arith NArith ZArith Bool Lia Permutation.
From Verif Require Import Base BaseFacts Model_Issues Types Model_Hash Model_Adjacency Model_Colocation Model_Degeneration Model_Manifold Model_Negative Model_Intersections Model_Topology Model_BRep
  Model_Blocks Model_Results Spec_Colocation Spec_Topology Spec_Renumber Spec_Relabel Spec_Local Proof_Order Proof_Colocation Proof_Renumber.
Import ListNotations.
Open Scope list_scope.

Definition relink (m : Model) (cmvs : list (list ComponentMeshVertex)) (back : ComponentMeshVertex -> option nat) : Model :=
  mkModel (m_corners m) (m_lines m) (m_surfaces m) (m_blocks m) (m_model_boundaries m) cmvs back (m_boundary_rel m) (m_internal_rel m) (m_missing_exn m)
    (m_uuid_string m) (m_point_string m) (m_cmv_string m) (m_cid_string m).
Lemma relinked : forall f m m', relabelled f m m' -> m' = relink m (m_cmvs m') (m_unique_vertex m').
Proof.
  intros f m m' R. pose proof (rl_corners _ _ _ R). pose proof (rl_lines _ _ _ R). pose proof (rl_surfaces _ _ _ R). pose proof (rl_blocks _ _ _ R). pose proof (rl_boundaries _ _ _ R).
  pose proof (rl_boundary_rel _ _ _ R). pose proof (rl_internal_rel _ _ _ R). pose proof (rl_missing _ _ _ R). pose proof (rl_uuid_string _ _ _ R). pose proof (rl_point_string _ _ _ R).
  pose proof (rl_cmv_string _ _ _ R). pose proof (rl_cid_string _ _ _ R). clear R. destruct m, m'. cbn in *. subst. reflexivity.
Qed.

(** ** What does not look at unique vertices *)
Section Unlinked.
Context (m : Model) (cmvs : list (list ComponentMeshVertex)) (back : ComponentMeshVertex -> option nat).
Notation m' := (relink m cmvs back).
Lemma r_brep_degeneration : forall ms geo st, inspect_elements_degeneration ms geo m' st = inspect_elements_degeneration ms geo m st. Proof. reflexivity. Qed.
Lemma r_section_degeneration : forall ms geo st, section_inspect_elements_degeneration ms geo m' st = section_inspect_elements_degeneration ms geo m st. Proof. reflexivity. Qed.
Lemma r_brep_negative : forall ms, brep_negative_elements ms m' = brep_negative_elements ms m. Proof. reflexivity. Qed.
Lemma r_section_negative : forall ms, section_negative_elements ms m' = section_negative_elements ms m. Proof. reflexivity. Qed.
Lemma r_section_manifold : forall geo ho, inspect_section_manifold geo ho m' = inspect_section_manifold geo ho m. Proof. reflexivity. Qed.
Lemma r_manifold_vertices : forall geo r, add_component_meshes_non_manifold_vertices geo m' r = add_component_meshes_non_manifold_vertices geo m r. Proof. reflexivity. Qed.
Lemma r_manifold_edges : forall ho r, add_component_meshes_non_manifold_edges ho m' r = add_component_meshes_non_manifold_edges ho m r. Proof. reflexivity. Qed.
Lemma r_manifold_facets : forall ho r, add_component_meshes_non_manifold_facets ho m' r = add_component_meshes_non_manifold_facets ho m r. Proof. reflexivity. Qed.
Lemma r_named : forall n id, named m' n id = named m n id. Proof. reflexivity. Qed.
Lemma r_corner : forall id, get_corner m' id = get_corner m id. Proof. reflexivity. Qed.
Lemma r_line : forall id, get_line m' id = get_line m id. Proof. reflexivity. Qed.
Lemma r_surface : forall id, get_surface m' id = get_surface m id. Proof. reflexivity. Qed.
Lemma r_block : forall id, get_block m' id = get_block m id. Proof. reflexivity. Qed.
Lemma r_not_boundary : find_not_boundary_surfaces m' = find_not_boundary_surfaces m. Proof. reflexivity. Qed.
Lemma r_linked_processed : forall s p, find_linked_processed_surface m' s p = find_linked_processed_surface m s p. Proof. reflexivity. Qed.
Lemma r_linked_loop : forall fuel p q k, linked_loop fuel m' p q k = linked_loop fuel m p q k.
Proof.
  intros fuel. induction fuel as [|fuel IH]; intros p q k; [reflexivity|]. cbn [linked_loop]. destruct q as [|s q]; [reflexivity|]. rewrite r_linked_processed, IH.
  apply if_eq; [reflexivity|reflexivity|]. apply if_eq; [reflexivity|reflexivity|]. apply bind_eq; [reflexivity|]. intros b. rewrite !IH. reflexivity.
Qed.
Lemma r_closed_linked : forall q, closed_linked_surfaces m' q = closed_linked_surfaces m q.
Proof. intros [|s q]; [reflexivity|]. apply r_linked_loop. Qed.
Lemma r_boundaries_closed : brep_boundaries_are_closed m' = brep_boundaries_are_closed m.
Proof. unfold brep_boundaries_are_closed. apply bind_eq; [reflexivity|]. intros q. rewrite r_closed_linked. reflexivity. Qed.
Lemma r_linked_parts : forall fuel q, linked_parts fuel m' q = linked_parts fuel m q.
Proof.
  intros fuel. induction fuel as [|fuel IH]; intros q; [reflexivity|]. cbn [linked_parts]. destruct q as [|s q]; [reflexivity|]. rewrite r_closed_linked.
  apply bind_eq; [reflexivity|]. intros r. rewrite IH. reflexivity.
Qed.
Lemma r_dangling : forall tl nb, find_dangling_surfaces tl m' nb = find_dangling_surfaces tl m nb. Proof. reflexivity. Qed.
Lemma r_blocks_meshes : inspect_blocks_meshes m' = inspect_blocks_meshes m. Proof. reflexivity. Qed.
End Unlinked.

(** ** What only looks at which mesh vertices have the same unique vertex *)
Section Linked.
Context (f : nat -> nat) (m : Model) (cmvs : list (list ComponentMeshVertex)) (back : ComponentMeshVertex -> option nat).
Notation m' := (relink m cmvs back).
Context (NB : nb_unique_vertices m' = nb_unique_vertices m) (N : numbers (nb_unique_vertices m) f).
Context (BK : forall c, back c = option_map f (m_unique_vertex m c)) (RG : forall c uv, m_unique_vertex m c = Some uv -> uv < nb_unique_vertices m).

Lemma back_some : forall c, isSome (back c) = isSome (m_unique_vertex m c).
Proof. intros c. rewrite BK. destruct (m_unique_vertex m c); reflexivity. Qed.
Lemma back_eqb : forall c d, opt_eqb (back c) (back d) = opt_eqb (m_unique_vertex m c) (m_unique_vertex m d).
Proof.
  intros c d. rewrite !BK. apply eq_true_iff_eq. rewrite !opt_eqb_eq. split; [|intros ->; reflexivity].
  destruct (m_unique_vertex m c) as [a|] eqn:A, (m_unique_vertex m d) as [b|] eqn:B; cbn [option_map]; try discriminate; [|reflexivity].
  intros E. injection E as E. f_equal. apply (proj2 N); [apply (RG c a A)|apply (RG d b B)|exact E].
Qed.

(** component loops of the topology *)
Lemma r_associated : forall c n, vertices_are_associated m' c n = vertices_are_associated m c n.
Proof. intros. unfold vertices_are_associated. apply forallb_eq; [reflexivity|]. intros v. apply back_some. Qed.
Lemma r_not_associated : forall c n, vertices_not_associated m' c n = vertices_not_associated m c n.
Proof. intros. unfold vertices_not_associated. apply fold_left_eq; [reflexivity|reflexivity|]. intros r v. apply if_eq; [apply back_some|reflexivity|reflexivity]. Qed.
Lemma r_components : forall M (get : Model -> uuid -> outcome (Component M)) kind suffix t meshed nb skip l d1 d2, (forall id, get m' id = get m id) ->
  inspect_components get kind suffix t meshed nb skip m' l d1 d2 = inspect_components get kind suffix t meshed nb skip m l d1 d2.
Proof.
  intros M get kind suffix t meshed nb skip l d1 d2 G. unfold inspect_components. apply foldM_eq; [reflexivity|reflexivity|]. intros acc c. unfold inspect_component.
  rewrite G. apply bind_eq; [reflexivity|]. intros c'. cbv zeta. rewrite r_not_associated. reflexivity.
Qed.
Lemma r_elements : forall M (get : Model -> uuid -> outcome (Component M)) kind t meshed nb ne enabled check check' l d1 d2 d3, (forall id, get m' id = get m id) ->
  (forall c e, check' c e = check c e) ->
  inspect_elements get kind t meshed nb ne enabled check' m' l d1 d2 d3 = inspect_elements get kind t meshed nb ne enabled check m l d1 d2 d3.
Proof.
  intros M get kind t meshed nb ne enabled check check' l d1 d2 d3 G K. unfold inspect_elements. apply foldM_eq; [reflexivity|reflexivity|]. intros acc c. unfold inspect_elements_of.
  rewrite G. apply bind_eq; [reflexivity|]. intros c'. cbv zeta. rewrite r_not_associated. apply if_eq; [reflexivity|reflexivity|]. apply if_eq; [reflexivity|reflexivity|].
  apply bind_eq; [|reflexivity]. apply foldM_eq; [reflexivity|reflexivity|]. intros w e. rewrite K. reflexivity.
Qed.
Lemma r_block_links : forall r b, inspect_block_links m' r b = inspect_block_links m r b.
Proof. intros. unfold inspect_block_links. rewrite r_block. apply bind_eq; [reflexivity|]. intros c'. cbv zeta. rewrite r_not_associated. reflexivity. Qed.

(** searches by unique vertices *)
Lemma r_unique_vertices : forall c vs, unique_vertices m' c vs = option_map (map f) (unique_vertices m c vs).
Proof.
  intros c vs. induction vs as [|v vs IH]; [reflexivity|]. cbn [unique_vertices m_unique_vertex relink]. rewrite BK, IH.
  destruct (m_unique_vertex m (mkCMV c v)); [|reflexivity]. cbn [option_map]. destruct (unique_vertices m c vs); reflexivity.
Qed.
Lemma unique_vertices_range : forall c vs l, unique_vertices m c vs = Some l -> forall v, In v l -> v < nb_unique_vertices m.
Proof.
  intros c vs. induction vs as [|w vs IH]; intros l E v I; cbn [unique_vertices] in E.
  - injection E as <-. destruct I.
  - destruct (m_unique_vertex m (mkCMV c w)) as [a|] eqn:A; [|discriminate]. destruct (unique_vertices m c vs) as [k|]; [|discriminate]. injection E as <-.
    destruct I as [<-|I]; [apply (RG _ _ A)|apply (IH k eq_refl v I)].
Qed.
Section Topo.
Context (tl tl' : TopoLookup) (TE : forall a b, a < nb_unique_vertices m -> b < nb_unique_vertices m -> tl_edges tl' (f a) (f b) = tl_edges tl a b).
Context (TP : forall l, (forall v, In v l -> v < nb_unique_vertices m) -> tl_polygon_blocks tl' (map f l) = tl_polygon_blocks tl l).
Context (TI : tl_inside_block tl' = tl_inside_block tl) (TB : tl_box_contains tl' = tl_box_contains tl) (TC : tl_inside_closed tl' = tl_inside_closed tl).
Lemma r_mesh_edges : forall l e, component_mesh_edges tl' m' l e = component_mesh_edges tl m l e.
Proof.
  intros l e. unfold component_mesh_edges. destruct (nth_error (ec_edges (co_mesh l)) e) as [[a b]|]; [|reflexivity]. rewrite r_unique_vertices.
  destruct (unique_vertices m (mkCID LineT (co_id l)) [a; b]) as [[|x [|y [|? ?]]]|] eqn:E; try reflexivity. cbn [option_map map]. f_equal.
  pose proof (unique_vertices_range _ _ _ E) as G. apply TE; apply G; [left|right; left]; reflexivity.
Qed.
Lemma r_mesh_polygons : forall s p, component_mesh_polygons tl' m' s p = component_mesh_polygons tl m s p.
Proof.
  intros s p. unfold component_mesh_polygons. rewrite r_unique_vertices. destruct (unique_vertices m (mkCID SurfaceT (co_id s)) (polygon_vertices (co_mesh s) p)) as [l|] eqn:E; [|reflexivity].
  cbn [option_map]. rewrite (TP l (unique_vertices_range _ _ _ E)). reflexivity.
Qed.
Lemma r_edges_around : forall l e, line_edge_has_wrong_component_edges_around tl' m' l e = line_edge_has_wrong_component_edges_around tl m l e.
Proof. intros. unfold line_edge_has_wrong_component_edges_around. cbv zeta. rewrite r_mesh_edges. reflexivity. Qed.
Lemma r_facets_around : forall s p, surface_facet_has_wrong_component_facets_around tl' m' s p = surface_facet_has_wrong_component_facets_around tl m s p.
Proof. intros. unfold surface_facet_has_wrong_component_facets_around. cbv zeta. rewrite r_mesh_polygons. reflexivity. Qed.

(** fused surfaces *)
Lemma r_position : forall c (ds : list ComponentMeshVertex), position_of (back c) (map back ds) = position_of (m_unique_vertex m c) (map (m_unique_vertex m) ds).
Proof. intros c ds. induction ds as [|d ds IH]; [reflexivity|]. cbn [map position_of]. rewrite back_eqb, IH. reflexivity. Qed.
Definition fused (x : (list (option nat) * list Point)) (x' : (list (option nat) * list Point)) : Prop :=
  exists ds, fst x = map (m_unique_vertex m) ds /\ fst x' = map back ds /\ snd x' = snd x.
Lemma r_fuse_vertex : forall s st st' v, fused (fst st) (fst st') -> snd st' = snd st ->
  match fuse_vertex m s st v, fuse_vertex m' s st' v with
  | Ok r, Ok r' => fused (fst r) (fst r') /\ snd r' = snd r
  | UB, UB => True
  | _, _ => False
  end.
Proof.
  intros s [[k p] o] [[k' p'] o'] v (ds & E1 & E2 & E3) E. cbn [fst snd] in *. subst. unfold fuse_vertex. cbv zeta. cbn [fst snd m_unique_vertex relink]. rewrite r_position.
  destruct (position_of (m_unique_vertex m (mkCMV (mkCID SurfaceT (co_id s)) v)) (map (m_unique_vertex m) ds)); [split; [exists ds|]; auto|].
  destruct (nth_error (sm_points (co_mesh s)) v); [|exact I]. cbn [fst snd]. split; [|reflexivity]. exists (ds ++ [mkCMV (mkCID SurfaceT (co_id s)) v]). cbn [fst snd]. rewrite !map_app. auto.
Qed.
Lemma r_fuse_vertices : forall s vs st st', fused (fst st) (fst st') -> snd st' = snd st ->
  match foldM (fuse_vertex m s) vs st, foldM (fuse_vertex m' s) vs st' with
  | Ok r, Ok r' => fused (fst r) (fst r') /\ snd r' = snd r
  | UB, UB => True
  | _, _ => False
  end.
Proof.
  intros s vs. induction vs as [|v vs IH]; intros st st' F E; cbn [foldM]; [auto|]. pose proof (r_fuse_vertex s st st' v F E) as K.
  destruct (fuse_vertex m s st v), (fuse_vertex m' s st' v); cbn [bind]; try contradiction; [|exact I]. apply IH; apply K.
Qed.
Lemma r_fuse_polygon : forall s vs st st', fused (fst st) (fst st') -> snd st' = snd st ->
  match fuse_polygon m s st vs, fuse_polygon m' s st' vs with
  | Ok r, Ok r' => fused (fst r) (fst r') /\ snd r' = snd r
  | UB, UB => True
  | _, _ => False
  end.
Proof.
  intros s vs st st' F E. unfold fuse_polygon. pose proof (r_fuse_vertices s vs (fst st, []) (fst st', []) F eq_refl) as K.
  destruct (foldM (fuse_vertex m s) vs (fst st, [])) as [r|?|], (foldM (fuse_vertex m' s) vs (fst st', [])) as [r'|?|]; cbn [bind]; try contradiction; [|exact I].
  destruct K as [K1 K2]. cbn [fst snd]. split; [exact K1|rewrite E, K2; reflexivity].
Qed.
Lemma r_fuse_polygons : forall s ps st st', fused (fst st) (fst st') -> snd st' = snd st ->
  match foldM (fun st p => fuse_polygon m s st (polygon_vertices (co_mesh s) p)) ps st, foldM (fun st p => fuse_polygon m' s st (polygon_vertices (co_mesh s) p)) ps st' with
  | Ok r, Ok r' => fused (fst r) (fst r') /\ snd r' = snd r
  | UB, UB => True
  | _, _ => False
  end.
Proof.
  intros s ps. induction ps as [|p ps IH]; intros st st' F E; cbn [foldM]; [auto|].
  pose proof (r_fuse_polygon s (polygon_vertices (co_mesh s) p) st st' F E) as K.
  destruct (fuse_polygon m s st (polygon_vertices (co_mesh s) p)) as [r|?|], (fuse_polygon m' s st' (polygon_vertices (co_mesh s) p)) as [r'|?|]; cbn [bind]; try contradiction; [|exact I].
  apply IH; apply K.
Qed.
Lemma r_fuse : forall l, fuse_brep_surfaces_from_list m' l = fuse_brep_surfaces_from_list m l.
Proof.
  intros l. unfold fuse_brep_surfaces_from_list.
  assert (G : forall st st', fused (fst st) (fst st') -> snd st' = snd st ->
    match foldM (fun st s => let! surface := get_surface m s in foldM (fun st p => fuse_polygon m surface st (polygon_vertices (co_mesh surface) p)) (Range (nb_polygons (co_mesh surface))) st) l st,
          foldM (fun st s => let! surface := get_surface m' s in foldM (fun st p => fuse_polygon m' surface st (polygon_vertices (co_mesh surface) p)) (Range (nb_polygons (co_mesh surface))) st) l st' with
    | Ok r, Ok r' => fused (fst r) (fst r') /\ snd r' = snd r
    | Throw e, Throw e' => e = e'
    | UB, UB => True
    | _, _ => False
    end).
  { induction l as [|s l IH]; intros st st' F E; cbn [foldM]; [auto|]. rewrite r_surface. destruct (get_surface m s) as [c|e|]; cbn [bind]; [|reflexivity|exact I].
    pose proof (r_fuse_polygons c (Range (nb_polygons (co_mesh c))) st st' F E) as K.
    destruct (foldM (fun st p => fuse_polygon m c st (polygon_vertices (co_mesh c) p)) (Range (nb_polygons (co_mesh c))) st) as [r|?|],
      (foldM (fun st p => fuse_polygon m' c st (polygon_vertices (co_mesh c) p)) (Range (nb_polygons (co_mesh c))) st') as [r'|?|]; cbn [bind]; try contradiction; [|exact I].
    apply IH; apply K. }
  specialize (G (([], []), []) (([], []), []) (ex_intro _ [] (conj eq_refl (conj eq_refl eq_refl))) eq_refl).
  match goal with |- bind ?x _ = bind ?y _ => destruct y as [r|e|], x as [r'|e'|] end; cbn [bind]; try contradiction; [|congruence|reflexivity].
  destruct G as [(ds & _ & _ & G1) G2]. rewrite G1, G2. reflexivity.
Qed.
Lemma r_outside : forall e p, point_is_outside tl' e p = point_is_outside tl e p.
Proof. intros. unfold point_is_outside. rewrite TC. reflexivity. Qed.
Lemma r_block_closed : forall b, block_boundaries_are_closed tl' m' b = block_boundaries_are_closed tl m b.
Proof.
  intros b. unfold block_boundaries_are_closed. apply bind_eq; [reflexivity|]. intros q. rewrite r_linked_parts. apply bind_eq; [reflexivity|]. intros parts.
  apply if_eq; [reflexivity|reflexivity|]. unfold enclosing_surface_list. rewrite TB. destruct (option_map _ _) as [i|]; [|reflexivity]. rewrite r_fuse.
  apply bind_eq; [reflexivity|]. intros x. apply bind_eq; [|reflexivity]. apply anyM_eq; [reflexivity|]. intros p. apply if_eq; [reflexivity|reflexivity|].
  apply anyM_eq; [reflexivity|]. intros s. rewrite r_surface. apply bind_eq; [reflexivity|]. intros c. apply anyM_eq; [reflexivity|]. intros y. apply r_outside.
Qed.
Lemma r_closedness : forall st b, inspect_block_closedness tl' m' st b = inspect_block_closedness tl m st b.
Proof. intros. unfold inspect_block_closedness. rewrite r_block_closed. reflexivity. Qed.
Lemma r_dangling_tl : forall nb, find_dangling_surfaces tl' m' nb = find_dangling_surfaces tl m nb.
Proof. intros. rewrite r_dangling. unfold find_dangling_surfaces. rewrite TI. reflexivity. Qed.
End Topo.

(** colocation of the vertices of a component *)
Lemma r_filter_group : forall c g, filter_group (fun v => back (mkCMV c v)) g = filter_group (fun v => m_unique_vertex m (mkCMV c v)) g.
Proof.
  intros c [|x g]; [reflexivity|]. unfold filter_group. cbv zeta. replace (filter_marks (fun i => back (mkCMV c (nth i (x :: g) 0))) (length (x :: g)))
    with (filter_marks (fun i => m_unique_vertex m (mkCMV c (nth i (x :: g) 0))) (length (x :: g))); [reflexivity|].
  unfold filter_marks. apply fold_left_eq; [reflexivity|reflexivity|]. intros l i. unfold filter_step. apply if_eq; [reflexivity|reflexivity|].
  apply fold_left_eq; [reflexivity|reflexivity|]. intros a j. apply if_eq; [symmetry; apply back_eqb|reflexivity|reflexivity].
Qed.
Lemma r_filter_groups : forall c gs, filter_colocated_points_with_same_unique_vertex m' c gs = filter_colocated_points_with_same_unique_vertex m c gs.
Proof. intros. unfold filter_colocated_points_with_same_unique_vertex. apply foldM_eq; [reflexivity|reflexivity|]. intros a g. apply bind_eq; [apply r_filter_group|reflexivity]. Qed.
Lemma r_component_colocation : forall geo k t p n id acc, add_component_colocated_points geo m' k t p n id acc = add_component_colocated_points geo m k t p n id acc.
Proof. intros. unfold add_component_colocated_points. apply bind_eq; [reflexivity|]. intros gs. rewrite r_filter_groups. reflexivity. Qed.
Lemma r_colocation : forall geo, inspect_meshes_point_colocations geo m' = inspect_meshes_point_colocations geo m.
Proof.
  intros geo. unfold inspect_meshes_point_colocations, add_model_components_colocated_points_groups, add_lines_surfaces_colocated_points.
  apply bind_eq; [apply bind_eq; [|intros a]|intros a]; (apply foldM_eq; [reflexivity|reflexivity|]; intros; apply r_component_colocation).
Qed.

(** adjacencies *)
Section Adjacency.
Context (lk lk' : Lookup).
Context (LE : forall a b, a < nb_unique_vertices m -> b < nb_unique_vertices m -> lk_line_edges lk' (f a, f b) = lk_line_edges lk (a, b)).
Context (LP : forall l, (forall v, In v l -> v < nb_unique_vertices m) -> lk_surface_polygons lk' (map f l) = lk_surface_polygons lk l).
Lemma r_on_a_line : forall s e, polygon_edge_is_on_a_line lk' m' s e = polygon_edge_is_on_a_line lk m s e.
Proof.
  intros s e. unfold polygon_edge_is_on_a_line. cbv zeta. cbn [m_unique_vertex relink]. rewrite !BK, NB.
  destruct (m_unique_vertex m (mkCMV (mkCID SurfaceT (co_id s)) (polygon_edge_vertex0 (co_mesh s) e))) as [a|] eqn:A; [|reflexivity].
  destruct (m_unique_vertex m (mkCMV (mkCID SurfaceT (co_id s)) (polygon_edge_vertex1 (co_mesh s) e))) as [b|] eqn:B; [|reflexivity]. cbn [option_map].
  apply RG in A. apply RG in B. rewrite (LE a b A B). rewrite (proj2 (Nat.ltb_lt _ _) A), (proj2 (Nat.ltb_lt _ _) B), (proj2 (Nat.ltb_lt _ _) (proj1 N a A)), (proj2 (Nat.ltb_lt _ _) (proj1 N b B)). reflexivity.
Qed.
Lemma r_section_adjacency : forall acc, add_surfaces_edges_with_wrong_adjacencies lk' m' acc = add_surfaces_edges_with_wrong_adjacencies lk m acc.
Proof.
  intros acc. unfold add_surfaces_edges_with_wrong_adjacencies. apply foldM_eq; [reflexivity|reflexivity|]. intros a s. apply bind_eq; [|reflexivity]. unfold surface_adjacency_issues.
  apply bind_eq; [reflexivity|]. intros i. cbv zeta. apply foldM_eq; [reflexivity|reflexivity|]. intros r e. apply bind_eq; [|reflexivity]. unfold border_edge_is_wrong. cbv zeta. rewrite r_on_a_line. reflexivity.
Qed.
Lemma all_some_map : forall (l : list (option nat)), all_some (map (option_map f) l) = option_map (map f) (all_some l).
Proof. induction l as [|[x|] l IH]; [reflexivity| |reflexivity]. cbn [map option_map all_some]. rewrite IH. destruct (all_some l); reflexivity. Qed.
Lemma r_on_a_surface : forall b p, polyhedron_facet_is_on_a_surface lk' m' b p = polyhedron_facet_is_on_a_surface lk m b p.
Proof.
  intros b p. unfold polyhedron_facet_is_on_a_surface. cbn [m_unique_vertex relink].
  rewrite (map_ext (fun v => back (mkCMV (mkCID BlockT (co_id b)) v)) (fun v => option_map f (m_unique_vertex m (mkCMV (mkCID BlockT (co_id b)) v))) (fun v => BK _)).
  rewrite <- (map_map (fun v => m_unique_vertex m (mkCMV (mkCID BlockT (co_id b)) v)) (option_map f)), all_some_map.
  destruct (all_some (map (fun v => m_unique_vertex m (mkCMV (mkCID BlockT (co_id b)) v)) (polyhedron_facet_vertices (co_mesh b) p))) as [l|] eqn:E; [|reflexivity]. cbn [option_map].
  rewrite LP; [reflexivity|]. clear - E RG. revert l E. induction (polyhedron_facet_vertices (co_mesh b) p) as [|v vs IH]; intros l E w I; cbn [map all_some] in E.
  - injection E as <-. destruct I.
  - destruct (m_unique_vertex m (mkCMV (mkCID BlockT (co_id b)) v)) as [a|] eqn:A; [|discriminate]. destruct (all_some _) as [k|]; [|discriminate]. injection E as <-.
    destruct I as [<-|I]; [apply (RG _ _ A)|apply (IH k eq_refl w I)].
Qed.
Lemma r_block_adjacency : forall acc, add_blocks_facets_with_wrong_adjacencies lk' m' acc = add_blocks_facets_with_wrong_adjacencies lk m acc.
Proof.
  intros acc. unfold add_blocks_facets_with_wrong_adjacencies. apply foldM_eq; [reflexivity|reflexivity|]. intros a s. apply bind_eq; [|reflexivity]. unfold block_adjacency_issues.
  apply bind_eq; [reflexivity|]. intros i. cbv zeta. apply foldM_eq; [reflexivity|reflexivity|]. intros r e. apply bind_eq; [|reflexivity]. unfold border_facet_is_wrong. rewrite r_on_a_surface. reflexivity.
Qed.
Lemma r_brep_adjacency : inspect_brep_meshes_adjacencies lk' m' = inspect_brep_meshes_adjacencies lk m.
Proof. unfold inspect_brep_meshes_adjacencies. cbv zeta. rewrite r_section_adjacency, r_block_adjacency. reflexivity. Qed.
End Adjacency.
End Linked.
