(** Validity of models: BReps. *)
From Coq Require Import String Ascii List Arith NArith ZArith Bool Lia Permutation Sorted Floats.SpecFloat.
From Verif Require Import Base BaseFacts Model_Issues Types Model_Cycles Model_Hash Model_Colocation Model_Adjacency Model_Manifold Model_Degeneration Model_Negative Model_Intersections
  Model_Topology Model_BRep Model_Blocks Model_Results Model_Validity Spec_Colocation Spec_Maps Spec_Cycles Spec_Adjacency Spec_Manifold Spec_Degeneration Spec_Negative Spec_Intersections
  Spec_Topology Spec_BRep Spec_Blocks Spec_Results Spec_Valid Spec_ValidModels
  Proof_Colocation Proof_Colocation2 Proof_Adjacency Proof_Manifold Proof_Degeneration Proof_Intersections4 Proof_Intersections5 Proof_Results
  Proof_Topology Proof_BRep Proof_BRep2 Proof_BRep3 Proof_BRep4 Proof_BRep5 Proof_Valid Proof_Valid2 Proof_ValidModels Proof_ValidModels2 Proof_ValidModels3 Properties_Colocation Properties_Adjacency Properties_Manifold Properties_Degeneration Properties_Intersections Properties_Topology Properties_BRep
  Properties_Blocks Properties_Results.
Import ListNotations.
Open Scope list_scope.

Lemma reports_empty : forall A B (P : A -> B -> Prop) l r, reports_in_order P l r -> (r = [] <-> forall a, In a l -> forall x, ~ P a x).
Proof.
  intros A B P l r H. induction H as [|a l r N H IH|a x l r K H IH].
  - split; [intros _ a []|reflexivity].
  - rewrite IH. split; [intros Q b [<-|I]; [exact N|apply Q, I]|intros Q b I; apply Q; right; exact I].
  - split; [discriminate|]. intros Q. destruct (Q a (or_introl eq_refl) x K).
Qed.
Section BReps.
Context (o : Oracles) (px : Predicates) (trees : Trees) (lines : LineTrees) (m : Model) (s0 b0 : uuid -> bool).
Hypothesis R : brep_ready o px trees lines m.
Let H : brep_ok m := bo_brep _ _ (bd_ok _ _ _ _ _ R).
Let ids : unique_ids m := br_ids m H.
Let SR s (I : In s (m_surfaces m)) := bd_surfaces _ _ _ _ _ R s I.
Let BR b (I : In b (m_blocks m)) := bd_blocks _ _ _ _ _ R b I.
Lemma brep_surface : forall s, inspected (m_surfaces m) s -> surface_ready (co_mesh s).
Proof. intros s [I _]. exact (SR s I). Qed.
Lemma brep_block : forall b, inspected (m_blocks m) b -> block_ready (co_mesh b).
Proof. intros b [I _]. exact (BR b I). Qed.
Ltac size s I := apply (below_le _ _ (sy_size _ (SR s I))); lia.
Ltac bsize b I := apply (below_le _ _ (by_size _ (BR b I))); lia.
Lemma brep_colocation_empty : exists r, inspect_meshes_point_colocations (or_geometry o) m = Ok r /\
  (im_map r = [] <-> forall t id points i j, active_mesh m t id points -> same_place (g_colocated (or_geometry o) points) i j ->
     m_unique_vertex m (mkCMV (mkCID t id) i) = m_unique_vertex m (mkCMV (mkCID t id) j)).
Proof.
  destruct (C06_C44_component_map (or_geometry o) m "colocated points"%string ids (bd_colocation _ _ _ _ _ R)) as (r & E & M).
  { intros t id points [c I A|c I A|c I A].
    - apply (below_le _ _ (proj1 (bd_lines _ _ _ _ _ R c I))). lia.
    - size c I.
    - bsize c I. }
  exists r. split; [exact E|]. rewrite (map_empty _ _ _ M). apply component_colocation_empty, (bd_colocation _ _ _ _ _ R).
Qed.
Lemma brep_degeneration_empty : exists r, fst (inspect_elements_degeneration (or_measures o) (or_geometry o) m (new_model_inspector s0 b0)) = Ok r /\
  (all_empty (brep_degeneration_categories (or_hash o) r) <->
   ((forall c, inspected (m_lines m) c -> sound_line_mesh (co_mesh c)) /\
    (forall s, inspected (m_surfaces m) s -> forall e, ~ shorter_edge (or_measures o) (sm_points (co_mesh s)) (sm_edges (co_mesh s)) GLOBAL_EPSILON e)) /\
   (forall b, inspected (m_blocks m) b -> forall e, ~ shorter_edge (or_measures o) (so_points (co_mesh b)) (so_edges (co_mesh b)) GLOBAL_EPSILON e) /\
   (forall s, inspected (m_surfaces m) s -> forall p, ~ flat_polygon (co_mesh s) GLOBAL_EPSILON p) /\
   (forall b, inspected (m_blocks m) b -> forall p, ~ flat_polyhedron (co_mesh b) GLOBAL_EPSILON p)).
Proof.
  assert (D : degeneration_ready m).
  { split; [intros c I; apply (below_le _ _ (proj1 (bd_lines _ _ _ _ _ R c I))); lia|]. split.
    - intros s I. split; [apply (sy_edges _ (SR s I))|]. split; size s I.
    - intros b I. split; [apply (by_edges _ (BR b I))|]. split; bsize b I. }
  destruct (C44_degeneration_maps (or_measures o) (or_geometry o) m [] s0 b0 _ ids D eq_refl) as ((r & E & M1 & M2 & M3) & _).
  exists r. split; [exact E|]. unfold brep_degeneration_categories. categories.
  rewrite (map_empty _ _ _ M1), (map_empty _ _ _ M2), (map_empty _ _ _ M3), either_empty, flat_polygons_empty, (small_edges_empty (or_measures o) (or_geometry o) m brep_surface),
    flat_polyhedra_empty, (block_small_edges_empty (or_measures o) m brep_block). tauto.
Qed.
Lemma brep_manifold_empty : exists r, inspect_brep_manifold (or_geometry o) (or_hash o) m = Ok r /\
  (all_empty (brep_manifold_categories (or_hash o) r) <->
   ((forall s, inspected (m_surfaces m) s -> forall v, v < length (sm_points (co_mesh s)) -> forall fan, sm_around_vertex (co_mesh s) v = Ok fan -> lists_once (surface_corner (co_mesh s) v) fan) /\
    (forall b, inspected (m_blocks m) b -> forall v, v < length (so_points (co_mesh b)) -> forall fan, so_around_vertex (co_mesh b) v = Ok fan -> lists_once (solid_corner (co_mesh b) v) fan)) /\
   ((forall s, inspected (m_surfaces m) s -> forall a b, a <= b -> forall n, 0 < n -> uses (co_mesh s) a b n ->
      (border_occurrence (co_mesh s) a b -> n = 1) /\ (~ border_occurrence (co_mesh s) a b -> n = 2)) /\
    (forall b, inspected (m_blocks m) b -> forall e ab, first_occurrence (co_mesh b) e ab -> exists fan, so_around_edge (co_mesh b) ab (fst e) = Ok fan /\ complete_fan (co_mesh b) ab fan)) /\
   (forall b, inspected (m_blocks m) b -> forall c, ~ overused_facet (co_mesh b) c) /\
   ((forall x, ~ shared_interior_edge m x) /\ (forall l, inspected (m_lines m) l -> forall x, ~ lonely_line_issue m l x)) /\
   (forall s, inspected (m_surfaces m) s -> forall x, ~ lonely_surface_issue m s x)).
Proof.
  destruct (C44_vertex_manifold_map (or_geometry o) m "non manifold mesh vertices"%string ids) as (r1 & E1 & M1).
  { intros s I _. split; [apply (sy_vertices _ (SR s I))|]. split; [size s I|apply (sy_around _ (SR s I))]. }
  { intros b I _. split; [apply (by_vertices _ (BR b I))|]. split; [bsize b I|apply (by_around _ (BR b I))]. }
  destruct (C44_edge_manifold_map (or_hash o) m "non manifold mesh edges"%string ids) as (r2 & E2 & M2).
  { intros s I _. size s I. }
  { intros b I _. split; [apply (by_around_edge _ (BR b I))|]. rewrite polyhedron_edges_number. bsize b I. }
  destruct (C44_facet_manifold_map (or_hash o) m "non manifold mesh facets"%string ids) as (r3 & E3 & M3).
  { intros b I _. split; [exact (proj2 (by_well_formed _ (BR b I)))|bsize b I]. }
  destruct (C18_model_edges (or_hash o) m "non manifold model edges"%string (bd_single_edges _ _ _ _ _ R)) as (r4 & l1 & l2 & E4 & G4 & M4 & M4').
  destruct (C18_model_facets m "non manifold model facets"%string (bd_single_polygons _ _ _ _ _ R)) as (r5 & E5 & M5).
  unfold inspect_brep_manifold. rewrite E1, E2, E3. cbn [bind]. rewrite E4. cbn [bind]. rewrite E5. cbn [bind]. eexists. split; [reflexivity|].
  unfold brep_manifold_categories. cbn [bm_vertices bm_edges bm_facets bm_model_edges bm_model_facets]. categories.
  rewrite (map_empty _ _ _ M1), (map_empty _ _ _ M2), (map_empty _ _ _ M3), (vertex_manifold_empty (or_geometry o) m brep_surface brep_block),
    (edge_manifold_empty (or_hash o) m brep_surface brep_block), (facet_manifold_empty (or_hash o) m brep_block), G4, (reports_empty _ _ _ _ _ M5).
  assert (X : l1 ++ l2 = [] <-> (forall x, ~ shared_interior_edge m x) /\ (forall l, inspected (m_lines m) l -> forall x, ~ lonely_line_issue m l x)).
  { rewrite <- (none_listed_once _ _ _ M4). assert (Y : l2 = [] <-> forall l, inspected (m_lines m) l -> forall x, ~ lonely_line_issue m l x).
    { rewrite (reports_empty _ _ _ _ _ M4'). split; intros K l I; apply K; apply filter_In; exact I. }
    rewrite <- Y. split; [apply app_eq_nil|intros [-> ->]; reflexivity]. }
  rewrite X. assert (Y : (forall a, In a (filter co_active (m_surfaces m)) -> forall x, ~ lonely_surface_issue m a x) <-> (forall s, inspected (m_surfaces m) s -> forall x, ~ lonely_surface_issue m s x)).
  { split; intros K l I; apply K; apply filter_In; exact I. }
  rewrite Y. tauto.
Qed.
Lemma brep_adjacency_empty : exists r, inspect_brep_meshes_adjacencies (or_lookup o) m = Ok r /\
  (all_empty (brep_adjacency_categories (or_hash o) r) <->
   (forall s, inspected (m_surfaces m) s ->
    (forall e, is_polygon_edge (co_mesh s) e -> forall q, sm_adjacent (co_mesh s) e = Some q -> edge_reciprocated (co_mesh s) e q) /\
    (forall e, is_polygon_edge (co_mesh s) e -> sm_adjacent (co_mesh s) e = None ->
      let uv x := m_unique_vertex m (mkCMV (mkCID SurfaceT (co_id s)) x) in
      exists a b, uv (polygon_edge_vertex0 (co_mesh s) e) = Some a /\ uv (polygon_edge_vertex1 (co_mesh s) e) = Some b /\
        a < nb_unique_vertices m /\ b < nb_unique_vertices m /\ joined_by_a_line m a b)) /\
   (forall b, inspected (m_blocks m) b ->
    (forall f, is_polyhedron_facet (co_mesh b) f -> forall q, so_adjacent (co_mesh b) f = Some q -> facet_reciprocated (co_mesh b) f q) /\
    (forall f uvs, is_polyhedron_facet (co_mesh b) f -> so_adjacent (co_mesh b) f = None ->
      map (fun x => m_unique_vertex m (mkCMV (mkCID BlockT (co_id b)) x)) (polyhedron_facet_vertices (co_mesh b) f) = map Some uvs -> covered_by_a_surface m uvs))).
Proof.
  destruct (C11_C44_surface_borders (or_lookup o) m "polygon edges adjacencies"%string ids (bd_lookup _ _ _ _ _ R)) as (r1 & E1 & M1).
  { intros s I _. split; [apply (sy_adjacency _ (SR s I))|size s I]. }
  destruct (C12_C44_block_borders (or_lookup o) m "polyhedron facets adjacencies"%string ids (bd_lookup _ _ _ _ _ R)) as (r2 & E2 & M2).
  { intros b I _. split; [apply (by_well_formed _ (BR b I))|bsize b I]. }
  unfold inspect_brep_meshes_adjacencies. cbn [ba_surfaces ba_blocks empty_brep_adjacency]. rewrite E1, E2. cbn [status parallel_invoke bind assigned].
  eexists. split; [reflexivity|]. unfold brep_adjacency_categories. cbn [ba_surfaces ba_blocks]. categories. rewrite (map_empty _ _ _ M1), (map_empty _ _ _ M2).
  rewrite (surface_adjacency_empty _ m (bd_lookup _ _ _ _ _ R) brep_surface), (block_adjacency_empty m brep_block _ (bd_lookup _ _ _ _ _ R)). tauto.
Qed.
Lemma brep_negative_empty : im_map (brep_negative_elements (or_measures o) m) = [] <->
  forall b, inspected (m_blocks m) b -> forall p, ~ negative_polyhedron (or_measures o) (co_mesh b) p.
Proof.
  rewrite (map_empty _ _ _ (C24_C44_brep (or_measures o) m ids ltac:(intros b I; split; [apply (by_points _ (BR b I))|bsize b I]))).
  apply negative_polyhedra_empty, brep_block.
Qed.
Lemma surfaces_dec : no_empty_surface m \/ (exists s, In s (m_surfaces m) /\ co_active s = true /\ nb_polygons (co_mesh s) = 0).
Proof.
  destruct (existsb (fun s => co_active s && (nb_polygons (co_mesh s) =? 0)) (m_surfaces m)) eqn:E.
  - right. apply existsb_exists in E as (s & I & E). apply andb_true_iff in E as [E1 E2]. apply Nat.eqb_eq in E2. eauto.
  - left. intros s I A K. assert (Z : existsb (fun s => co_active s && (nb_polygons (co_mesh s) =? 0)) (m_surfaces m) = true).
    { apply existsb_exists. exists s. rewrite A, K. auto. } congruence.
Qed.
Lemma empty_dec : (no_empty_surface m /\ no_empty_line m) \/
  ((exists s, In s (m_surfaces m) /\ co_active s = true /\ nb_polygons (co_mesh s) = 0) \/ (exists l, In l (m_lines m) /\ co_active l = true /\ ec_edges (co_mesh l) = [])).
Proof.
  destruct (existsb (fun s => co_active s && (nb_polygons (co_mesh s) =? 0)) (m_surfaces m)) eqn:E.
  - right. left. apply existsb_exists in E as (s & I & E). apply andb_true_iff in E as [E1 E2]. apply Nat.eqb_eq in E2. eauto.
  - destruct (existsb (fun s => co_active s && (length (ec_edges (co_mesh s)) =? 0)) (m_lines m)) eqn:E'.
    + right. right. apply existsb_exists in E' as (s & I & E'). apply andb_true_iff in E' as [E1 E2]. apply Nat.eqb_eq in E2. apply length_zero_iff_nil in E2. eauto.
    + left. split.
      * intros s I A K. assert (Z : existsb (fun s => co_active s && (nb_polygons (co_mesh s) =? 0)) (m_surfaces m) = true).
        { apply existsb_exists. exists s. rewrite A, K. auto. } congruence.
      * intros s I A K. assert (Z : existsb (fun s => co_active s && (length (ec_edges (co_mesh s)) =? 0)) (m_lines m) = true).
        { apply existsb_exists. exists s. rewrite A, K. auto. } congruence.
Qed.
Lemma brep_intersections_empty : forall r, brep_inspect_intersections px m trees lines r -> exists l, r = Ok l /\
  (no_empty_surface m -> no_empty_line m -> (ii_issues l = [] <-> (forall s1 s2 c, proposed m trees s1 s2 c -> ~ surfaces_meet px m s1 s2 c) /\
    (forall s l c, proposed_line m trees lines s l c -> embedded_in_block m (co_id l) -> ~ line_meets px (co_mesh s) (co_mesh l) c))).
Proof.
  intros r Hr. pose proof Hr as (r1 & H1 & H2). destruct empty_dec as [[D1 D2]|D].
  - destruct (C27_report px m trees r1 (bd_intersections _ _ _ _ _ R) D1 H1) as (i1 & -> & _ & L).
    destruct (add_lines_ok px m trees (bd_intersections _ _ _ _ _ R) lines (bd_line_trees _ _ _ _ _ R) (fun l I => proj2 (bd_lines _ _ _ _ _ R l I)) _ _ (bd_polygons _ _ _ _ _ R) D1 D2 H2) as (l & part & -> & G & L').
    exists l. split; [reflexivity|]. intros _ _. rewrite G. split.
    + intros E. apply app_eq_nil in E as [E1 E2]. split.
      * intros s1 s2 c P M. assert (X : In (surface_element s1 (fst c), surface_element s2 (snd c)) (ii_issues i1)) by (apply L; eauto 8). rewrite E1 in X. exact X.
      * intros s l' c P B M. assert (X : In (surface_element s (fst c), line_element l' (snd c)) part) by (apply L'; exists s, l', c; auto). rewrite E2 in X. exact X.
    + intros [N1 N2]. assert (ii_issues i1 = []) as ->.
      { destruct (ii_issues i1) as [|x k]; [reflexivity|]. exfalso. destruct (proj1 (L x) (or_introl eq_refl)) as (s1 & s2 & c & P & M & _). exact (N1 s1 s2 c P M). }
      destruct part as [|x k]; [reflexivity|]. exfalso. destruct (proj1 (L' x) (or_introl eq_refl)) as (s & l' & c & P & B & M & _). exact (N2 s l' c P B M).
  - assert (T : exists l, r = Ok l).
    { assert (T1 : exists i1, r1 = Ok i1).
      { destruct D as [D|D]; [destruct (C27_empty_surface_silences px m trees D) as (K & _); eexists; apply (K _ _ H1)|].
        destruct (surfaces_dec) as [D1|D1]; [destruct (C27_report px m trees r1 (bd_intersections _ _ _ _ _ R) D1 H1) as (i1 & -> & _); eauto|].
        destruct (C27_empty_surface_silences px m trees D1) as (K & _). eexists. apply (K _ _ H1). }
      destruct T1 as (i1 & ->). exists i1. apply (C48_empty_mesh_silences_lines px m trees lines i1 r D H2). }
    destruct T as (l & ->). exists l. split; [reflexivity|]. intros N1 N2. destruct D as [(s & I & A & Z)|(s & I & A & Z)]; [destruct (N1 s I A Z)|destruct (N2 s I A Z)].
Qed.
Lemma brep_no_empty : forall parts, sound_brep_topology (or_topo o) m parts -> no_empty_surface m /\ no_empty_line m.
Proof.
  intros parts [_ _ ML MS _ _ _ _]. split.
  - intros s I A K. destruct (MS s (conj I A)) as [[_ X] _]. apply X. apply length_zero_iff_nil. exact K.
  - intros s I A K. destruct (ML s (conj I A)) as [[_ X] _]. exact (X K).
Qed.
Lemma brep_valid_spec : forall ints, brep_inspect_intersections px m trees lines ints ->
  exists r parts, inspect_brep o m (new_model_inspector s0 b0) ints = Ok r /\ is_brep_valid o m (new_model_inspector s0 b0) ints = Ok (brep_validity (or_hash o) r) /\
    (forall b, In b (active_ids m BlockT) -> connected_parts m (block_surfaces m b) (parts b)) /\
    (all_empty (brep_categories (or_hash o) r) <-> sound_brep (or_measures o) (or_geometry o) px (or_topo o) trees lines m parts).
Proof.
  intros ints Hi. destruct (unique_vertices_empty (or_geometry o) m ids (br_links m H) (bd_colocation _ _ _ _ _ R)) as (r1 & E1 & K1).
  destruct brep_colocation_empty as (r2 & E2 & K2). destruct brep_adjacency_empty as (r3 & E3 & K3). destruct brep_degeneration_empty as (r4 & E4 & K4).
  destruct brep_manifold_empty as (r5 & E5 & K5). pose proof brep_negative_empty as K6. destruct (brep_intersections_empty ints Hi) as (r7 & -> & K7).
  destruct (brep_topology_empty (or_hash o) (or_topo o) m (bd_ok _ _ _ _ _ R) (bd_topo _ _ _ _ _ R) (bd_inspectable _ _ _ _ _ R)) as (r8 & parts & E8 & P & K8).
  unfold is_brep_valid, inspect_brep, inspect_brep_meshes. rewrite E1, E2, E3, E4, E5, E8. cbn [status parallel_invoke bind assigned].
  eexists. exists parts. split; [reflexivity|]. split; [reflexivity|]. split; [exact P|]. unfold brep_categories, brep_meshes_categories.
  cbn [r_brep_meshes r_brep_topology br_unique_vertices br_colocation br_adjacency br_degeneration br_intersections br_manifold br_negative].
  rewrite !empty_app, K1, K3, K4, K5, K8. categories. rewrite K2, K6. split.
  - intros (([A1 A2] & (A3 & _) & (A4 & A4b) & ((A5 & A6) & A6b & A7 & A7b) & (A8 & _) & ((A9 & A9b) & (A10 & A10b) & A10c & (A13 & A14) & A15) & (A11 & _)) & A12).
    destruct (brep_no_empty parts A12) as [N1 N2]. destruct (proj1 (K7 N1 N2) A8) as [A8a A8b].
    constructor; try assumption; [constructor; assumption| |].
    + intros s I. destruct (A4 s I) as [B1 B2]. constructor; auto.
    + intros b I. destruct (A4b b I) as [B1 B2]. constructor; auto.
  - intros [[A1 A2 A3] A5 AS AB A13 A14 A15 A8a A8b A12]. destruct (brep_no_empty parts A12) as [N1 N2]. pose proof (proj2 (K7 N1 N2) (conj A8a A8b)) as A8.
    repeat match goal with |- _ /\ _ => split end; try exact I; try assumption; intros s J;
      try (split; [apply (sf_adjacency _ _ _ (AS s J))|apply (sf_borders _ _ _ (AS s J))]);
      try (split; [apply (sb_adjacency _ _ _ (AB s J))|apply (sb_borders _ _ _ (AB s J))]);
      first [apply (sf_edges _ _ _ (AS s J))|apply (sf_polygons _ _ _ (AS s J))|apply (sf_manifold_vertices _ _ _ (AS s J))|apply (sf_manifold_edges _ _ _ (AS s J))
            |apply (sb_edges _ _ _ (AB s J))|apply (sb_polyhedra _ _ _ (AB s J))|apply (sb_manifold_vertices _ _ _ (AB s J))|apply (sb_manifold_edges _ _ _ (AB s J))
            |apply (sb_manifold_facets _ _ _ (AB s J))|apply (sb_orientation _ _ _ (AB s J))].
Qed.
End BReps.
