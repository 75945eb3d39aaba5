(** Validity of models: Sections. *)
From Coq Require Import String Ascii List Arith NArith ZArith Bool Lia Permutation Sorted Floats.SpecFloat.
From Verif Require Import Base BaseFacts Model_Issues Types Model_Cycles Model_Hash Model_Colocation Model_Adjacency Model_Manifold Model_Degeneration Model_Negative Model_Intersections
  Model_Topology Model_BRep Model_Blocks Model_Results Model_Validity Spec_Colocation Spec_Maps Spec_Cycles Spec_Adjacency Spec_Manifold Spec_Degeneration Spec_Negative Spec_Intersections
  Spec_Topology Spec_BRep Spec_Blocks Spec_Results Spec_Valid Spec_ValidModels
  Proof_Colocation Proof_Colocation2 Proof_Adjacency Proof_Manifold Proof_Degeneration Proof_Results
  Proof_Valid Proof_Valid2 Proof_ValidModels Properties_Colocation Properties_Adjacency Properties_Manifold Properties_Degeneration Properties_Intersections Properties_Topology Properties_BRep
  Properties_Blocks Properties_Results.
Import ListNotations.
Open Scope list_scope.

Lemma empty_cons : forall c l, all_empty (c :: l) <-> is_empty c /\ all_empty l.
Proof. intros. apply Forall_cons_iff. Qed.
Lemma empty_nil : all_empty [] <-> True.
Proof. split; [trivial|constructor]. Qed.
Lemma empty_app : forall l l', all_empty (l ++ l') <-> all_empty l /\ all_empty l'.
Proof. intros. apply Forall_app. Qed.

(** ** Topology *)
Lemma vertices_empty : forall m P l, lists_vertices m P l -> (l = [] <-> forall uv, uv < nb_unique_vertices m -> ~ P uv).
Proof.
  intros m P l H. rewrite (none_listed _ _ _ _ H). split; [intros K uv B Q; apply (K uv); auto|intros K uv [B Q]; exact (K uv B Q)].
Qed.
Lemma components_empty : forall M t meshed (nb : M -> nat) skip m l nm nl, (forall x, meshed x \/ ~ meshed x) ->
  components_reported t meshed nb skip m l nm nl -> (ii_issues nm = [] /\ im_map nl = [] <-> meshed_and_linked t meshed nb m l).
Proof.
  intros M t meshed nb skip m l nm nl D [_ R L]. rewrite (map_empty _ _ _ L). split.
  - intros [E1 E2] c [I A]. assert (K : meshed (co_mesh c)).
    { destruct (D (co_mesh c)) as [X|X]; [exact X|]. exfalso. assert (Z : In (co_id c) (ii_issues nm)) by (apply R; exists c; auto). rewrite E1 in Z. exact Z. }
    split; [exact K|]. intros v B N. assert (Z : ii_issues (vertices_not_associated m (mkCID t (co_id c)) (nb (co_mesh c))) = []).
    { apply (E2 (co_id c)). exists c. split; [exact I|]. split; [exact A|]. split; [reflexivity|]. split; [intros _; exact K|]. apply C45_vertices_listed. }
    apply (proj1 (none_listed _ _ _ _ (C45_vertices_listed m t (co_id c) (nb (co_mesh c)))) Z v). split; assumption.
  - intros H. split.
    + destruct (ii_issues nm) as [|x k] eqn:E; [reflexivity|]. exfalso. destruct (proj1 (R x) (or_introl eq_refl)) as (c & I & A & _ & N). apply N, (H c). split; assumption.
    + intros id vs (c & I & A & E & _ & V). apply (none_listed _ _ _ _ V). intros v [B N]. subst id. apply (proj2 (H c (conj I A)) v B N).
Qed.
Lemma points_dec : forall x, has_points x \/ ~ has_points x.
Proof. intros x. unfold has_points. destruct (ps_points x); [right; intros K; congruence|left; discriminate]. Qed.
Lemma edges_dec : forall x, has_points_and_edges x \/ ~ has_points_and_edges x.
Proof. intros x. unfold has_points_and_edges. destruct (ec_points x), (ec_edges x); try (right; intros [K K']; congruence); left; split; discriminate. Qed.
Lemma polygons_dec : forall x, has_points_and_polygons x \/ ~ has_points_and_polygons x.
Proof. intros x. unfold has_points_and_polygons. destruct (sm_points x), (sm_polygons x); try (right; intros [K K']; congruence); left; split; discriminate. Qed.
Lemma polyhedra_dec : forall x, has_points_and_polyhedra x \/ ~ has_points_and_polyhedra x.
Proof. intros x. unfold has_points_and_polyhedra. destruct (so_points x), (so_polyhedra x); try (right; intros [K K']; congruence); left; split; discriminate. Qed.

Ltac categories := rewrite ?empty_app, ?empty_cons, ?empty_nil, ?is_empty_list, ?is_empty_map.
Lemma links_empty : forall m ex r b, unique_vertices_are_bijectively_linked m ex = Ok b -> (b = true <-> bijectively_linked m) ->
  (b = true <-> ii_issues (li_not_linked r) = [] /\ ii_issues (li_inexistant r) = [] /\ ii_issues (li_nonbijective r) = []) ->
  (all_empty (links_categories r) <-> bijectively_linked m).
Proof. intros m ex r b _ H1 H2. unfold links_categories. categories. rewrite <- H1, H2. tauto. Qed.
Lemma section_topology_empty : forall ho m, section_ok m -> exists r, inspect_section_topology m = Ok r /\ (all_empty (section_topology_categories ho r) <-> sound_section_topology m).
Proof.
  intros ho m H. destruct (C38_section_inspection m H) as (rc & rl & rs & links & Ec & El & Es & Ek & E).
  destruct (C38_C45_section_corners m H) as (r & E' & C0 & C1 & C2 & C3 & C4). rewrite Ec in E'. injection E' as <-.
  destruct (C38_C45_section_lines m H) as (r & E' & L0 & L1 & L2 & L3 & L4). rewrite El in E'. injection E' as <-.
  destruct (C38_C45_section_surfaces m H) as (r & E' & S0 & S1 & S2). rewrite Es in E'. injection E' as <-.
  destruct (C35_section_links m (so_ids m H) (so_no_block m H)) as (r & b & E' & _ & _ & _ & B & K1 & K2). rewrite Ek in E'. injection E' as <-.
  eexists. split; [exact E|]. unfold section_topology_categories. cbn [st_corners st_lines st_surfaces st_links].
  rewrite !empty_app, (links_empty m _ links b B K1 K2). unfold corners_categories, section_lines_categories, section_surfaces_categories. categories.
  rewrite (vertices_empty _ _ _ C1), (vertices_empty _ _ _ C2), (vertices_empty _ _ _ C3), (vertices_empty _ _ _ C4), (vertices_empty _ _ _ L1), (vertices_empty _ _ _ L2),
    (vertices_empty _ _ _ L3), (vertices_empty _ _ _ L4), (vertices_empty _ _ _ S1), (vertices_empty _ _ _ S2).
  pose proof (components_empty _ _ _ _ _ _ _ _ _ points_dec C0) as KC. pose proof (components_empty _ _ _ _ _ _ _ _ _ edges_dec L0) as KL. pose proof (components_empty _ _ _ _ _ _ _ _ _ polygons_dec S0) as KS.
  split.
  - intros ((c1 & c2 & c3 & c4 & c5 & c6 & _) & (l1 & l2 & l3 & l4 & l5 & l6 & _) & (s1 & s2 & s3 & s4 & _) & J). constructor; try (apply KC; split; assumption); try (apply KL; split; assumption);
      try (apply KS; split; assumption); [exact J|]. intros uv U. auto 20.
  - intros [J MC ML MS V]. apply KC in MC as [? ?]. apply KL in ML as [? ?]. apply KS in MS as [? ?].
    repeat match goal with |- _ /\ _ => split end; try assumption; try exact I; intros u U; apply (V u U).
Qed.

(** ** Meshes *)
Lemma pair_in_nth : forall A B (l : list (A * B)) n, n < length l -> exists a b, nth_error l n = Some (a, b).
Proof. intros A B l n H. destruct (nth_error l n) as [[a b]|] eqn:E; [eauto|]. apply nth_error_None in E. lia. Qed.
Lemma sorted_fst_unique : forall B (l l' : list (nat * B)), StronglySorted lt (map fst l) -> StronglySorted lt (map fst l') ->
  (forall x, In x l <-> In x l') -> l = l'.
Proof.
  induction l as [|[a p] l IH]; intros [|[a' p'] l'] S S' H.
  - reflexivity.
  - destruct (proj2 (H (a', p')) (or_introl eq_refl)).
  - destruct (proj1 (H (a, p)) (or_introl eq_refl)).
  - cbn in S, S'. apply StronglySorted_inv in S as [S F]. apply StronglySorted_inv in S' as [S' F']. rewrite Forall_forall in F, F'.
    assert (L : forall x, In x l -> a < fst x) by (intros x X; apply F, in_map, X). assert (L' : forall x, In x l' -> a' < fst x) by (intros x X; apply F', in_map, X).
    assert (E : (a, p) = (a', p')).
    { destruct (proj1 (H (a, p)) (or_introl eq_refl)) as [X|X]; [congruence|]. destruct (proj2 (H (a', p')) (or_introl eq_refl)) as [Y|Y]; [congruence|].
      apply L' in X. apply L in Y. cbn in X, Y. lia. }
    f_equal; [exact E|]. injection E as -> ->. apply IH; [exact S|exact S'|]. intros x. split; intros X.
    + destruct (proj1 (H x) (or_intror X)) as [<-|Y]; [apply L in X; cbn in X; lia|exact Y].
    + destruct (proj2 (H x) (or_intror X)) as [<-|Y]; [apply L' in X; cbn in X; lia|exact Y].
Qed.
Lemma unique_vertices_empty : forall geo m, unique_ids m -> resolvable m -> (forall points, consistent points (g_colocated geo points)) ->
  exists r, inspect_unique_vertices geo m = Ok r /\
    (all_empty (unique_vertices_categories r) <-> (forall l, positioned_vertices m l -> points_apart geo (map snd l)) /\ (forall uv, uv < nb_unique_vertices m -> ~ different_points geo m uv)).
Proof.
  intros geo m U R C.
  destruct (C08_colocated_unique_vertices geo m (ur_colocated empty_unique_vertices) U R) as (l & P & K). destruct (K (C _)) as (r1 & gs & b & E1 & G1 & _ & _ & W & Z & _). clear K.
  destruct (C07_linked_to_different_points geo m (ur_different empty_unique_vertices) U R) as (r2 & b2 & d & E2 & _ & G2 & _ & D & _).
  unfold inspect_unique_vertices. rewrite E1, E2. cbn [status parallel_invoke bind assigned]. eexists. split; [reflexivity|].
  unfold unique_vertices_categories. cbn [ur_colocated ur_different]. categories. rewrite G1, G2. cbn [ii_issues ur_colocated ur_different empty_unique_vertices new_issues app].
  assert (X : gs = [] <-> points_apart geo (map snd l)).
  { split.
    - intros -> i j N S. destruct (C (map snd l)) as [C1 C2]. 
      assert (B : i < length l /\ j < length l).
      { destruct S as (u & S1 & S2). rewrite <- (map_length snd l), <- C1. split; apply nth_error_Some; congruence. }
      destruct (pair_in_nth _ _ l i (proj1 B)) as (a & p & Hi). destruct (pair_in_nth _ _ l j (proj2 B)) as (a' & p' & Hj).
      assert (Na : a <> a').
      { intros <-. apply N. apply (proj1 (NoDup_nth_error (map fst l))); [apply (StronglySorted_lt_NoDup _ (proj1 P))|rewrite map_length; apply B|].
        rewrite !nth_error_map, Hi, Hj. reflexivity. }
      destruct (proj2 (W a a' Na)) as (g & [] & _). exists i, j, p, p'. auto.
    - intros A. destruct gs as [|g gs]; [reflexivity|]. exfalso. destruct (Z g (or_introl eq_refl)) as [L S]. destruct g as [|i [|j g]]; cbn in L; try lia.
      apply StronglySorted_inv in S as [_ F]. rewrite Forall_forall in F. pose proof (F j (or_introl eq_refl)) as N.
      destruct (proj1 (W i j ltac:(lia))) as (a & b0 & p & q & Ha & Hb & SP); [exists (i :: j :: g); cbn; auto|].
      apply (A a b0); [intros <-; rewrite Ha in Hb; injection Hb; intros; lia|exact SP]. }
  rewrite X. split.
  - intros (A & -> & _). split; [|intros uv B Q; apply (proj2 (D uv)); auto]. intros l' P'. replace l' with l; [exact A|].
    apply sorted_fst_unique; [apply P|apply P'|]. intros [u p]. rewrite (proj2 P), (proj2 P'). reflexivity.
  - intros [A B]. split; [apply A, P|]. split; [|exact I]. destruct d as [|x d]; [reflexivity|]. exfalso. destruct (proj1 (D x) (or_introl eq_refl)) as [Q1 Q2]. exact (B x Q1 Q2).
Qed.

(** ** Sections *)
Section Sections.
Context (o : Oracles) (px : Predicates) (trees : Trees) (m : Model) (s0 b0 : uuid -> bool).
Hypothesis R : section_ready o px trees m.
Let ids : unique_ids m := so_ids m (sr_ok _ _ _ _ R).
Let no_block : m_blocks m = [] := so_no_block m (sr_ok _ _ _ _ R).
Lemma no_active_block : forall b, ~ inspected (m_blocks m) b.
Proof. intros b [I _]. rewrite no_block in I. exact I. Qed.
Lemma section_surface : forall s, inspected (m_surfaces m) s -> surface_ready (co_mesh s).
Proof. intros s [I _]. apply (sr_surfaces _ _ _ _ R s I). Qed.
Lemma section_block : forall b, inspected (m_blocks m) b -> block_ready (co_mesh b).
Proof. intros b I. destruct (no_active_block b I). Qed.
Ltac size s I := apply (below_le _ _ (sy_size _ (sr_surfaces _ _ _ _ R s I))); lia.
Lemma section_colocation_empty : exists r, inspect_meshes_point_colocations (or_geometry o) m = Ok r /\
  (im_map r = [] <-> forall t id points i j, active_mesh m t id points -> same_place (g_colocated (or_geometry o) points) i j ->
     m_unique_vertex m (mkCMV (mkCID t id) i) = m_unique_vertex m (mkCMV (mkCID t id) j)).
Proof.
  destruct (C06_C44_component_map (or_geometry o) m "colocated points"%string ids (sr_colocation _ _ _ _ R)) as (r & E & M).
  { intros t id points [c I A|c I A|c I A].
    - apply (below_le _ _ (sr_lines _ _ _ _ R c I)). lia.
    - size c I.
    - rewrite no_block in I. destruct I. }
  exists r. split; [exact E|]. rewrite (map_empty _ _ _ M). apply component_colocation_empty, (sr_colocation _ _ _ _ R).
Qed.
Lemma section_degeneration_empty : exists r, fst (section_inspect_elements_degeneration (or_measures o) (or_geometry o) m (new_model_inspector s0 b0)) = Ok r /\
  (all_empty (section_degeneration_categories (or_hash o) r) <->
   ((forall c, inspected (m_lines m) c -> sound_line_mesh (co_mesh c)) /\
    (forall s, inspected (m_surfaces m) s -> forall e, ~ shorter_edge (or_measures o) (sm_points (co_mesh s)) (sm_edges (co_mesh s)) GLOBAL_EPSILON e)) /\
   (forall s, inspected (m_surfaces m) s -> forall p, ~ flat_polygon (co_mesh s) GLOBAL_EPSILON p)).
Proof.
  assert (D : degeneration_ready m).
  { split; [intros c I; apply (below_le _ _ (sr_lines _ _ _ _ R c I)); lia|]. split; [|intros b I; rewrite no_block in I; destruct I].
    intros s I. split; [apply (sy_edges _ (sr_surfaces _ _ _ _ R s I))|]. split; size s I. }
  destruct (C44_degeneration_maps (or_measures o) (or_geometry o) m [] s0 b0 _ ids D eq_refl) as (_ & De & Dp & _).
  destruct (De GLOBAL_EPSILON) as (r1 & E1 & M1 & _). destruct (Dp GLOBAL_EPSILON) as (r2 & E2 & _ & M2 & _).
  unfold inspect_edges_degeneration in E1. unfold inspect_polygons_degeneration in E2. unfold section_inspect_elements_degeneration.
  change (dr_edges empty_degeneration) with (@new_issues_map nat "degenerated edges"%string) in E1.
  destruct (add_small_edges _ _ m GLOBAL_EPSILON _ _) as [edges st]. destruct edges as [edges| |]; cbn [bind fst] in E1 |- *; try discriminate E1.
  cbn [fst] in E2. injection E1 as <-. injection E2 as <-. cbn [dr_edges dr_polygons] in M1, M2.
  eexists. split; [reflexivity|]. unfold section_degeneration_categories. cbn [sd_edges sd_polygons]. categories.
  change (dr_polygons empty_degeneration) with (@new_issues_map nat "degenerated polygons"%string) in M2.
  rewrite (map_empty _ _ _ M1), (map_empty _ _ _ M2), flat_polygons_empty, (small_edges_empty (or_measures o) (or_geometry o) m section_surface). tauto.
Qed.
Lemma section_manifold_empty : exists r, inspect_section_manifold (or_geometry o) (or_hash o) m = Ok r /\
  (all_empty (section_manifold_categories (or_hash o) r) <->
   (forall s, inspected (m_surfaces m) s -> forall v, v < length (sm_points (co_mesh s)) -> forall fan, sm_around_vertex (co_mesh s) v = Ok fan -> lists_once (surface_corner (co_mesh s) v) fan) /\
   (forall s, inspected (m_surfaces m) s -> forall a b, a <= b -> forall n, 0 < n -> uses (co_mesh s) a b n ->
     (border_occurrence (co_mesh s) a b -> n = 1) /\ (~ border_occurrence (co_mesh s) a b -> n = 2))).
Proof.
  destruct (C44_vertex_manifold_map (or_geometry o) m "non manifold mesh vertices"%string ids) as (r1 & E1 & M1).
  { intros s I _. split; [apply (sy_vertices _ (sr_surfaces _ _ _ _ R s I))|]. split; [size s I|apply (sy_around _ (sr_surfaces _ _ _ _ R s I))]. }
  { intros b I. rewrite no_block in I. destruct I. }
  destruct (C44_edge_manifold_map (or_hash o) m "non manifold mesh edges"%string ids) as (r2 & E2 & M2).
  { intros s I _. size s I. }
  { intros b I. rewrite no_block in I. destruct I. }
  unfold add_component_meshes_non_manifold_vertices in E1. unfold add_component_meshes_non_manifold_edges in E2. rewrite no_block in E1, E2.
  unfold inspect_section_manifold.
  destruct (add_surfaces_meshes_non_manifold_vertices _ m _) as [x1| |]; cbn [bind active filter foldM] in E1 |- *; try discriminate E1.
  destruct (add_surfaces_meshes_non_manifold_edges _ m _) as [x2| |]; cbn [bind active filter foldM] in E2 |- *; try discriminate E2.
  injection E1 as ->. injection E2 as ->. eexists. split; [reflexivity|]. unfold section_manifold_categories. cbn [sn_vertices sn_edges]. categories.
  rewrite (map_empty _ _ _ M1), (map_empty _ _ _ M2), (vertex_manifold_empty (or_geometry o) m section_surface section_block), (edge_manifold_empty (or_hash o) m section_surface section_block).
  pose proof no_active_block as N. split.
  - intros ([A _] & [B _] & _). split; assumption.
  - intros [A B]. split; [split; [exact A|intros b I; destruct (N b I)]|]. split; [split; [exact B|intros b I; destruct (N b I)]|exact I].
Qed.
Lemma section_adjacency_empty : exists r, inspect_section_meshes_adjacencies (or_lookup o) m = Ok r /\
  (im_map r = [] <-> forall s, inspected (m_surfaces m) s ->
    (forall e, is_polygon_edge (co_mesh s) e -> forall q, sm_adjacent (co_mesh s) e = Some q -> edge_reciprocated (co_mesh s) e q) /\
    (forall e, is_polygon_edge (co_mesh s) e -> sm_adjacent (co_mesh s) e = None ->
      let uv x := m_unique_vertex m (mkCMV (mkCID SurfaceT (co_id s)) x) in
      exists a b, uv (polygon_edge_vertex0 (co_mesh s) e) = Some a /\ uv (polygon_edge_vertex1 (co_mesh s) e) = Some b /\
        a < nb_unique_vertices m /\ b < nb_unique_vertices m /\ joined_by_a_line m a b)).
Proof.
  destruct (C11_C44_surface_borders (or_lookup o) m "polygon edges adjacencies"%string ids (sr_lookup _ _ _ _ R)) as (r & E & M).
  { intros s I _. split; [apply (sy_adjacency _ (sr_surfaces _ _ _ _ R s I))|size s I]. }
  exists r. split; [exact E|]. rewrite (map_empty _ _ _ M). exact (surface_adjacency_empty _ m (sr_lookup _ _ _ _ R) section_surface).
Qed.
Lemma section_negative_empty : im_map (section_negative_elements (or_measures o) m) = [] <->
  forall s, inspected (m_surfaces m) s -> forall p, ~ negative_polygon (or_measures o) (co_mesh s) p.
Proof.
  rewrite (map_empty _ _ _ (C24_C44_section (or_measures o) m ids ltac:(intros s I; split; [apply (sy_points _ (sr_surfaces _ _ _ _ R s I))|size s I]))).
  apply negative_polygons_empty, section_surface.
Qed.
Lemma section_intersections_empty : forall r, section_inspect_intersections px m trees r -> exists l, r = Ok l /\
  (no_empty_surface m -> (ii_issues l = [] <-> forall s1 s2 c, proposed m trees s1 s2 c -> ~ surfaces_meet px m s1 s2 c)).
Proof.
  intros r H. assert (D : no_empty_surface m \/ exists s, In s (m_surfaces m) /\ co_active s = true /\ nb_polygons (co_mesh s) = 0).
  { destruct (existsb (fun s => co_active s && (nb_polygons (co_mesh s) =? 0)) (m_surfaces m)) eqn:E.
    - right. apply existsb_exists in E as (s & I & E). apply andb_true_iff in E as [E1 E2]. apply Nat.eqb_eq in E2. eauto.
    - left. intros s I A K. assert (Z : existsb (fun s => co_active s && (nb_polygons (co_mesh s) =? 0)) (m_surfaces m) = true).
      { apply existsb_exists. exists s. rewrite A, K. auto. } congruence. }
  destruct D as [D|D].
  - destruct (C27_report px m trees r (sr_intersections_ready _ _ _ _ R) D H) as (l & -> & _ & L). exists l. split; [reflexivity|]. intros _. split.
    + intros E s1 s2 c P M. assert (X : In (surface_element s1 (fst c), surface_element s2 (snd c)) (ii_issues l)) by (apply L; eauto 8). rewrite E in X. exact X.
    + intros N. destruct (ii_issues l) as [|x k]; [reflexivity|]. exfalso. destruct (proj1 (L x) (or_introl eq_refl)) as (s1 & s2 & c & P & M & _). exact (N s1 s2 c P M).
  - destruct (C27_empty_surface_silences px m trees D) as (_ & K & _). destruct (K r H) as (l & -> & _). exists l. split; [reflexivity|].
    intros N. destruct D as (s & I & A & Z). destruct (N s I A Z).
Qed.
Lemma meshed_no_empty_surface : meshed_and_linked SurfaceT has_points_and_polygons nb_points2 m (m_surfaces m) -> no_empty_surface m.
Proof. intros H s I A K. destruct (H s (conj I A)) as [[_ X] _]. apply X. apply length_zero_iff_nil. exact K. Qed.
Lemma section_valid_spec : forall ints, section_inspect_intersections px m trees ints ->
  exists r, inspect_section o m (new_model_inspector s0 b0) ints = Ok r /\ is_section_valid o m (new_model_inspector s0 b0) ints = Ok (section_validity (or_hash o) r) /\
    (all_empty (section_categories (or_hash o) r) <-> sound_section (or_measures o) (or_geometry o) px trees m).
Proof.
  intros ints H. destruct (unique_vertices_empty (or_geometry o) m ids (sr_links _ _ _ _ R) (sr_colocation _ _ _ _ R)) as (r1 & E1 & K1).
  destruct section_colocation_empty as (r2 & E2 & K2). destruct section_adjacency_empty as (r3 & E3 & K3). destruct section_degeneration_empty as (r4 & E4 & K4).
  destruct section_manifold_empty as (r5 & E5 & K5). pose proof section_negative_empty as K6. destruct (section_intersections_empty ints H) as (r7 & -> & K7).
  destruct (section_topology_empty (or_hash o) m (sr_ok _ _ _ _ R)) as (r8 & E8 & K8).
  unfold is_section_valid, inspect_section, inspect_section_meshes. rewrite E1, E2, E3, E4, E5, E8. cbn [status parallel_invoke bind assigned].
  eexists. split; [reflexivity|]. split; [reflexivity|]. unfold section_categories, section_meshes_categories.
  cbn [r_section_meshes r_section_topology sc_unique_vertices sc_colocation sc_adjacency sc_degeneration sc_intersections sc_manifold sc_negative].
  rewrite !empty_app, K1, K4, K5, K8. categories. rewrite K2, K3, K6. split.
  - intros (([A1 A2] & (A3 & _) & (A4 & _) & ((A5 & A6) & A7) & (A8 & _) & (A9 & A10) & (A11 & _)) & A12).
    pose proof (proj1 (K7 (meshed_no_empty_surface (st_surfaces_meshed _ A12))) A8) as A8'.
    constructor; [constructor; assumption|exact A5| |exact A8'|exact A12]. intros s I. split; [|exact (A11 s I)]. destruct (A4 s I) as [B1 B2]. constructor; auto.
  - intros [[A1 A2 A3] A5 AS A8 A12]. pose proof (proj2 (K7 (meshed_no_empty_surface (st_surfaces_meshed _ A12))) A8) as A8'.
    assert (F : forall s, inspected (m_surfaces m) s -> sound_surface_mesh (or_measures o) m s) by (intros s I; apply (AS s I)).
    repeat match goal with |- _ /\ _ => split end; try exact I; try assumption; intros s J;
      try (split; [apply (sf_adjacency _ _ _ (F s J))|apply (sf_borders _ _ _ (F s J))]).
    + apply (sf_edges _ _ _ (F s J)).
    + apply (sf_polygons _ _ _ (F s J)).
    + apply (sf_manifold_vertices _ _ _ (F s J)).
    + apply (sf_manifold_edges _ _ _ (F s J)).
    + apply (AS s J).
Qed.
End Sections.
