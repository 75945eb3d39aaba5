(** Validity of models: emptiness of the categories. *)
From Coq Require Import String Ascii List Arith NArith ZArith Bool Lia Permutation Sorted Floats.SpecFloat.
From Verif Require Import Base BaseFacts Model_Issues Types Model_Cycles Model_Hash Model_Colocation Model_Adjacency Model_Manifold Model_Degeneration Model_Negative Model_Intersections
  Model_Topology Model_BRep Model_Blocks Model_Results Model_Validity Spec_Colocation Spec_Maps Spec_Cycles Spec_Adjacency Spec_Manifold Spec_Degeneration Spec_Negative Spec_Intersections
  Spec_Topology Spec_BRep Spec_Blocks Spec_Results Spec_Valid Spec_ValidModels
  Proof_Cycles Proof_Colocation Proof_Colocation2 Proof_Colocation3 Proof_Adjacency Proof_Manifold Proof_Manifold2 Proof_Manifold3 Proof_Degeneration Proof_Intersections Proof_Intersections2 Proof_Results
  Proof_Valid Proof_Valid2 Properties_Colocation Properties_Adjacency Properties_Manifold Properties_Degeneration Properties_Intersections Properties_Topology Properties_BRep Properties_Blocks Properties_Results.
Import ListNotations.
Open Scope list_scope.

Lemma is_empty_map : forall ho T (x : InspectionIssuesMap T), is_empty (of_map ho x) <-> im_map x = [].
Proof. intros ho T x. unfold is_empty, of_map. cbn [cat_size]. rewrite length_zero_iff_nil. reflexivity. Qed.
Lemma below_le : forall a b, below_2_32 b -> a <= b -> below_2_32 a.
Proof. unfold below_2_32. intros. lia. Qed.

(** ** Maps *)
Lemma map_empty : forall T (r : InspectionIssuesMap T) spec, map_reports r spec -> (im_map r = [] <-> forall id l, spec id l -> l = []).
Proof.
  intros T r spec [S C _]. split.
  - intros E id l H. destruct l as [|x l]; [reflexivity|]. exfalso. apply (C id _ H); [discriminate|]. rewrite E. reflexivity.
  - intros H. destruct (im_map r) as [|[id x] k] eqn:E; [reflexivity|]. exfalso.
    destruct (S id x) as [N K]; [cbn; rewrite Nat.eqb_refl; reflexivity|]. apply N, (H _ _ K).
Qed.
(** one list per active component of a kind *)
Lemma kind_empty : forall M A (R : A -> A -> Prop) (comps : list (Component M)) (P : Component M -> A -> Prop),
  (forall c, inspected comps c -> exists l, lists_exactly R (P c) l) ->
  ((forall (id : uuid) l, (exists c, In c comps /\ co_active c = true /\ co_id c = id /\ lists_exactly R (P c) l) -> l = []) <->
   forall c, inspected comps c -> forall x, ~ P c x).
Proof.
  intros M A R comps P X. split.
  - intros H c I x K. destruct (X c I) as (l & L). assert (E : l = []) by (apply (H (co_id c)); exists c; destruct I; auto). subst l. apply (proj1 (none_listed _ _ _ _ L) eq_refl x K).
  - intros H id l (c & I & Ac & _ & L). apply (none_listed _ _ _ _ L). apply H. split; assumption.
Qed.
Lemma kind_empty_once : forall M A (comps : list (Component M)) (P : Component M -> A -> Prop),
  (forall c, inspected comps c -> exists l, lists_once (P c) l) ->
  ((forall (id : uuid) l, (exists c, In c comps /\ co_active c = true /\ co_id c = id /\ lists_once (P c) l) -> l = []) <->
   forall c, inspected comps c -> forall x, ~ P c x).
Proof.
  intros M A comps P X. split.
  - intros H c I x K. destruct (X c I) as (l & L). assert (E : l = []) by (apply (H (co_id c)); exists c; destruct I; auto). subst l. apply (proj1 (none_listed_once _ _ _ L) eq_refl x K).
  - intros H id l (c & I & Ac & _ & L). apply (none_listed_once _ _ _ L). apply H. split; assumption.
Qed.
Lemma either_empty : forall A B (P Q : A -> list B -> Prop), (forall id l, P id l \/ Q id l -> l = []) <-> (forall id l, P id l -> l = []) /\ (forall id l, Q id l -> l = []).
Proof. intros A B P Q. split; [intros H; split; intros id l K; apply (H id); auto|]. intros [H1 H2] id l [K|K]; [apply (H1 id)|apply (H2 id)]; exact K. Qed.

(** ** Vertices *)
Lemma group_reports_empty : forall uv gs rs, group_reports uv gs rs -> (rs = [] <-> forall g, In g gs -> ~ spans_several uv g).
Proof.
  intros uv gs rs H. induction H as [|g gs rs N H IH|first rest r gs rs S F H IH].
  - split; [intros _ g []|reflexivity].
  - rewrite IH. split; [intros K g' [<-|I]; [exact N|apply K, I]|intros K g' I; apply K; right; exact I].
  - split; [discriminate|]. intros K. exfalso. apply (K _ (or_introl eq_refl) S).
Qed.
Lemma option_nat_eq_dec : forall a b : option nat, {a = b} + {a <> b}.
Proof. decide equality. apply Nat.eq_dec. Qed.
Lemma component_colocation_empty : forall geo m, (forall points, consistent points (g_colocated geo points)) ->
  ((forall id l, component_colocation geo m id l -> l = []) <->
   forall t id points i j, active_mesh m t id points -> same_place (g_colocated geo points) i j ->
     m_unique_vertex m (mkCMV (mkCID t id) i) = m_unique_vertex m (mkCMV (mkCID t id) j)).
Proof.
  intros geo m C. split.
  - intros H t id points i j A S. destruct (Nat.eq_dec i j) as [->|N]; [reflexivity|].
    destruct (entry_issues_spec geo m (mkEntry EmptyString t points None id) (C points)) as (r & groups & _ & G & K). cbn [en_points en_type en_id] in *.
    assert (E : ii_issues r = []) by (apply (H id); exists t, points, groups; auto).
    destruct (option_nat_eq_dec (m_unique_vertex m (mkCMV (mkCID t id) i)) (m_unique_vertex m (mkCMV (mkCID t id) j))) as [X|X]; [exact X|].
    exfalso. apply (cg_pairs _ _ G i j N) in S as (g & Ig & Ii & Ij). pose proof (proj1 (group_reports_empty _ _ _ K) E) as Z. apply (Z g Ig). exists i, j. auto.
  - intros H id l (t & points & groups & A & G & K). apply (group_reports_empty _ _ _ K). intros g Ig (a & b & Ia & Ib & N). apply N.
    destruct (Nat.eq_dec a b) as [->|D]; [reflexivity|]. apply (H t id points a b A). apply (cg_pairs _ _ G a b D). exists g. auto.
Qed.

(** ** Surfaces *)
Lemma lt_lists_exist : forall n (P : nat -> Prop), (forall x, P x -> x < n) -> (forall x, x < n -> P x \/ ~ P x) -> exists l, lists_exactly lt P l.
Proof.
  induction n as [|n IH]; intros P B D.
  - exists []. split; [constructor|]. intros x. split; [intros []|]. intros K. pose proof (B x K). lia.
  - destruct (IH (fun x => x < n /\ P x)) as (l & S & L); [intros x [H _]; exact H|intros x H; destruct (D x ltac:(lia)); [left|right]; tauto|].
    destruct (D n ltac:(lia)) as [K|K].
    + exists (l ++ [n]). split.
      * clear -S L. assert (F : forall x, In x l -> x < n) by (intros x H; apply L in H; tauto). clear L. induction S as [|a l S IH F']; cbn; [repeat constructor|].
        constructor; [apply IH; intros; apply F; right; assumption|]. apply Forall_app. split; [exact F'|]. constructor; [apply F; left; reflexivity|constructor].
      * intros x. rewrite in_app_iff, L. cbn. split; [intros [[_ H]|[<-|[]]]; assumption|]. intros H. destruct (Nat.eq_dec x n) as [->|]; [auto|]. left. split; [|exact H]. pose proof (B x H). lia.
    + exists l. split; [exact S|]. intros x. rewrite L. split; [tauto|]. intros H. split; [|exact H]. pose proof (B x H). destruct (Nat.eq_dec x n) as [->|]; [contradiction|lia].
Qed.
Section SurfaceCategories.
Context (lk : Lookup) (ms : Measures) (geo : Geometry) (m : Model).
Hypothesis Hlk : lookup_right m lk.
Hypothesis Hs : forall s, inspected (m_surfaces m) s -> surface_ready (co_mesh s).
Lemma joined_dec : forall a b, a < nb_unique_vertices m -> b < nb_unique_vertices m -> joined_by_a_line m a b \/ ~ joined_by_a_line m a b.
Proof. intros a b Ha Hb. destruct (proj1 Hlk a b Ha Hb) as ([|x l] & _ & H); [right; intros K; apply H in K; congruence|left; apply H; discriminate]. Qed.
Lemma surface_adjacency_empty : (forall id l, surface_adjacency_report m id l -> l = []) <->
  forall s, inspected (m_surfaces m) s ->
    (forall e, is_polygon_edge (co_mesh s) e -> forall q, sm_adjacent (co_mesh s) e = Some q -> edge_reciprocated (co_mesh s) e q) /\
    (forall e, is_polygon_edge (co_mesh s) e -> sm_adjacent (co_mesh s) e = None ->
      let uv x := m_unique_vertex m (mkCMV (mkCID SurfaceT (co_id s)) x) in
      exists a b, uv (polygon_edge_vertex0 (co_mesh s) e) = Some a /\ uv (polygon_edge_vertex1 (co_mesh s) e) = Some b /\
        a < nb_unique_vertices m /\ b < nb_unique_vertices m /\ joined_by_a_line m a b).
Proof.
  split.
  - intros H s I. destruct (surface_issues_spec lk m s Hlk (sy_adjacency _ (Hs s I))) as (r & l1 & l2 & _ & _ & L1 & L2). destruct I as [I Ac].
    assert (E : l1 ++ l2 = []) by (apply (H (co_id s)); exists s, l1, l2; auto 12). apply app_eq_nil in E as [E1 E2].
    pose proof (proj1 (none_listed _ _ _ _ L1) E1) as N1'. pose proof (proj1 (none_listed _ _ _ _ L2) E2) as N2. split.
    + intros e He q Hq. destruct (edge_reciprocated_dec (co_mesh s) e q) as [X|X]; [exact X|]. exfalso. apply (N1' e). split; [exact He|]. exists q. auto.
    + intros e He Hn. cbv beta zeta. destruct (m_unique_vertex m (mkCMV (mkCID SurfaceT (co_id s)) (polygon_edge_vertex0 (co_mesh s) e))) as [a|] eqn:Ea.
      2:{ exfalso. apply (N2 e). split; [exact He|]. split; [exact Hn|]. cbv beta zeta. rewrite Ea. intros (a & b & K & _). discriminate K. }
      destruct (m_unique_vertex m (mkCMV (mkCID SurfaceT (co_id s)) (polygon_edge_vertex1 (co_mesh s) e))) as [b|] eqn:Eb.
      2:{ exfalso. apply (N2 e). split; [exact He|]. split; [exact Hn|]. cbv beta zeta. rewrite Eb. intros (a' & b & _ & K & _). discriminate K. }
      exists a, b. split; [reflexivity|]. split; [reflexivity|].
      assert (X : ~ ~ (a < nb_unique_vertices m /\ b < nb_unique_vertices m /\ joined_by_a_line m a b)).
      { intros K. apply (N2 e). split; [exact He|]. split; [exact Hn|]. cbv beta zeta. rewrite Ea, Eb. intros (a' & b' & Xa & Xb & W). injection Xa as <-. injection Xb as <-. exact (K W). }
      destruct (lt_dec a (nb_unique_vertices m)) as [La|La]; [|exfalso; apply X; tauto]. destruct (lt_dec b (nb_unique_vertices m)) as [Lb|Lb]; [|exfalso; apply X; tauto].
      destruct (joined_dec a b La Lb) as [J|J]; [auto|exfalso; apply X; tauto].
  - intros H id l (s & l1 & l2 & I & Ac & _ & -> & L1 & L2). destruct (H s (conj I Ac)) as [H1 H2].
    rewrite (proj2 (none_listed _ _ _ _ L1)), (proj2 (none_listed _ _ _ _ L2)); [reflexivity| |].
    + intros e (He & Hn & K). apply K, (H2 e He Hn).
    + intros e (He & q & Hq & K). apply K, (H1 e He q Hq).
Qed.
Lemma small_edges_empty : ((forall id l, small_edges_report ms m GLOBAL_EPSILON id l -> l = []) <->
   (forall c, inspected (m_lines m) c -> sound_line_mesh (co_mesh c)) /\
   (forall s, inspected (m_surfaces m) s -> forall e, ~ shorter_edge ms (sm_points (co_mesh s)) (sm_edges (co_mesh s)) GLOBAL_EPSILON e)).
Proof.
  unfold small_edges_report. rewrite either_empty, (kind_empty _ _ lt (m_lines m) (fun c => short_curve_edge (co_mesh c) GLOBAL_EPSILON)),
    (kind_empty _ _ lt (m_surfaces m) (fun s => shorter_edge ms (sm_points (co_mesh s)) (sm_edges (co_mesh s)) GLOBAL_EPSILON)); [reflexivity| |].
  - intros s I. apply (lt_lists_exist (length (sm_edges (co_mesh s)))); [apply shorter_bound|]. intros x B.
    rewrite <- (edge_test ms _ _ GLOBAL_EPSILON x (sy_edges _ (Hs s I)) B). match goal with |- ?b = true \/ _ => destruct b; [left|right]; congruence end.
  - intros c _. eexists. apply (curve_small_spec ms geo).
Qed.
Lemma flat_polygons_empty : (forall id l, flat_polygons_report m GLOBAL_EPSILON id l -> l = []) <->
  forall s, inspected (m_surfaces m) s -> forall p, ~ flat_polygon (co_mesh s) GLOBAL_EPSILON p.
Proof. apply kind_empty. intros s _. eexists. apply flat_polygons_spec. Qed.
End SurfaceCategories.

(** ** Manifoldness in positive terms *)
Lemma surface_edges_positive : forall m, (forall ab, ~ non_manifold_edge eq m ab) <->
  forall a b, a <= b -> forall n, 0 < n -> uses m a b n -> (border_occurrence m a b -> n = 1) /\ (~ border_occurrence m a b -> n = 2).
Proof.
  intros m. split.
  - intros E a b Hab n Hn U. split; intros Hb.
    + destruct (Nat.eq_dec n 1) as [X|X]; [exact X|]. exfalso. apply (E (a, b)). split; [exact Hab|]. exists n. cbn [fst snd]. tauto.
    + destruct (Nat.eq_dec n 2) as [X|X]; [exact X|]. exfalso. apply (E (a, b)). split; [exact Hab|]. exists n. cbn [fst snd]. tauto.
  - intros E [a b] (Hab & n & Hn & U & W). cbn [fst snd] in *. destruct (E a b Hab n Hn U) as [W1 W2]. tauto.
Qed.
Lemma surface_vertices_positive : forall m, surface_vertices_in_range m -> ((forall v, ~ surface_non_manifold_vertex m v) <->
  forall v, v < length (sm_points m) -> forall fan, sm_around_vertex m v = Ok fan -> lists_once (surface_corner m v) fan).
Proof.
  intros m Q. split.
  - intros F v Hv fan Hf. destruct (surface_corners_ok m Q) as (corners & _ & O). destruct (lists_once_dec _ _ fan (O v Hv)) as [X|X]; [exact X|].
    exfalso. apply (F v). split; [exact Hv|]. exists fan. auto.
  - intros F v (Hv & fan & Hf & N). apply N, (F v Hv fan Hf).
Qed.
Lemma solid_vertices_positive : forall m, solid_vertices_in_range m -> ((forall v, ~ solid_non_manifold_vertex m v) <->
  forall v, v < length (so_points m) -> forall fan, so_around_vertex m v = Ok fan -> lists_once (solid_corner m v) fan).
Proof.
  intros m Q. split.
  - intros F v Hv fan Hf. destruct (solid_corners_ok m Q) as (corners & _ & O). destruct (lists_once_dec _ _ fan (O v Hv)) as [X|X]; [exact X|].
    exfalso. apply (F v). split; [exact Hv|]. exists fan. auto.
  - intros F v (Hv & fan & Hf & N). apply N, (F v Hv fan Hf).
Qed.
Lemma solid_edges_positive : forall m, around_edge_contract m -> ((forall eab, ~ (failed_edge m eab \/ unfinished_edge m eab)) <->
  forall e ab, first_occurrence m e ab -> exists fan, so_around_edge m ab (fst e) = Ok fan /\ complete_fan m ab fan).
Proof.
  intros m Q. split.
  - intros F e ab Hf. destruct (Q e ab Hf) as [T|(fan & O & N)].
    + exfalso. apply (F (e, ab)). left. split; assumption.
    + exists fan. split; [exact O|]. destruct (complete_fan_dec m e ab fan N Hf) as [X|X]; [exact X|]. exfalso. apply (F (e, ab)). right. split; [exact Hf|]. exists fan. auto.
  - intros F [e ab] [[Hf T]|(Hf & fan & O & N)]; destruct (F e ab Hf) as (fan' & O' & K'); cbn [fst snd] in *; [congruence|]. apply N. congruence.
Qed.
Lemma facets_reciprocated_positive : forall m, solid_well_formed m -> ((forall f, ~ wrong_facet m f) <->
  forall f, is_polyhedron_facet m f -> forall q, so_adjacent m f = Some q -> facet_reciprocated m f q).
Proof.
  intros m Q. split.
  - intros A f Hf q Hq. destruct (proj2 Q f Hf) as [Z1 Z2]. destruct (facet_reciprocated_dec m f q Z1 Z2) as [X|X]; [exact X|]. exfalso. apply (A f). split; [exact Hf|]. exists q. auto.
  - intros A f (Hf & q & Hq & N). apply N, (A f Hf q Hq).
Qed.
Lemma both_iff : forall A B C D : Prop, (A <-> B) -> (C <-> D) -> (A /\ C <-> B /\ D).
Proof. tauto. Qed.
Lemma forall_iff : forall A (D P Q : A -> Prop), (forall x, D x -> (P x <-> Q x)) -> ((forall x, D x -> P x) <-> (forall x, D x -> Q x)).
Proof. intros A D P Q H. split; intros K x X; apply (H x X), K, X. Qed.
Lemma solid_edge_report_empty : forall m l, solid_edge_report m l -> (l = [] <-> forall eab, ~ (failed_edge m eab \/ unfinished_edge m eab)).
Proof. intros m l (el & -> & L). rewrite <- (none_listed _ _ _ _ L). split; [apply map_eq_nil|intros ->; reflexivity]. Qed.
Lemma represents_empty : forall P l, represents_cycles P l -> (l = [] <-> forall c, ~ P c).
Proof.
  intros P l (L1 & L2 & _). split.
  - intros E x K. destruct (L2 x K) as (x' & X & _). rewrite E in X. exact X.
  - intros N. destruct l as [|x l]; [reflexivity|]. exfalso. apply (N x), L1. left. reflexivity.
Qed.
Section ManifoldCategories.
Context (ho : HashOrder) (ms : Measures) (geo : Geometry) (m : Model).
Hypothesis Hs : forall s, inspected (m_surfaces m) s -> surface_ready (co_mesh s).
Hypothesis Hb : forall b, inspected (m_blocks m) b -> block_ready (co_mesh b).
Lemma vertex_manifold_empty : (forall id l, vertex_manifold_report m id l -> l = []) <->
  (forall s, inspected (m_surfaces m) s -> forall v, v < length (sm_points (co_mesh s)) -> forall fan, sm_around_vertex (co_mesh s) v = Ok fan -> lists_once (surface_corner (co_mesh s) v) fan) /\
  (forall b, inspected (m_blocks m) b -> forall v, v < length (so_points (co_mesh b)) -> forall fan, so_around_vertex (co_mesh b) v = Ok fan -> lists_once (solid_corner (co_mesh b) v) fan).
Proof.
  unfold vertex_manifold_report. rewrite either_empty, (kind_empty _ _ lt (m_surfaces m) (fun s => surface_non_manifold_vertex (co_mesh s))),
    (kind_empty _ _ lt (m_blocks m) (fun b => solid_non_manifold_vertex (co_mesh b))).
  - rewrite (forall_iff _ _ _ _ (fun s I => surface_vertices_positive (co_mesh s) (sy_vertices _ (Hs s I)))),
      (forall_iff _ _ _ _ (fun b I => solid_vertices_positive (co_mesh b) (by_vertices _ (Hb b I)))). reflexivity.
  - intros b I. destruct (solid_vertices_spec geo (co_mesh b) (by_vertices _ (Hb b I)) (by_around _ (Hb b I))) as (r & _ & _ & L & _). exists (ii_issues r). exact L.
  - intros s I. destruct (surface_vertices_spec geo (co_mesh s) (sy_vertices _ (Hs s I)) (sy_around _ (Hs s I))) as (r & _ & _ & L & _). exists (ii_issues r). exact L.
Qed.
Lemma edge_manifold_empty : (forall id l, edge_manifold_report m id l -> l = []) <->
  (forall s, inspected (m_surfaces m) s -> forall a b, a <= b -> forall n, 0 < n -> uses (co_mesh s) a b n ->
     (border_occurrence (co_mesh s) a b -> n = 1) /\ (~ border_occurrence (co_mesh s) a b -> n = 2)) /\
  (forall b, inspected (m_blocks m) b -> forall e ab, first_occurrence (co_mesh b) e ab -> exists fan, so_around_edge (co_mesh b) ab (fst e) = Ok fan /\ complete_fan (co_mesh b) ab fan).
Proof.
  unfold edge_manifold_report. rewrite either_empty, (kind_empty_once _ _ (m_surfaces m) (fun s => non_manifold_edge same_modulo_256 (co_mesh s))).
  - apply both_iff.
    + apply forall_iff. intros s I. rewrite <- surface_edges_positive. pose proof (modulo_irrelevant (co_mesh s) (sy_uses _ (Hs s I))) as Z. split; intros H x K; apply (H x), Z, K.
    + rewrite <- (forall_iff _ _ _ _ (fun b I => solid_edges_positive (co_mesh b) (by_around_edge _ (Hb b I)))). split.
      * intros H b I. destruct (solid_edges_spec (co_mesh b) (by_around_edge _ (Hb b I))) as (r & _ & L). apply (solid_edge_report_empty _ _ L). apply (H (co_id b)). exists b. destruct I. auto.
      * intros H id l (b & I & Ac & _ & L). apply (solid_edge_report_empty _ _ L). apply H. split; assumption.
  - intros s I. eexists. apply (surface_edges_spec ho ho).
Qed.
Lemma facet_manifold_empty : (forall id l, facet_manifold_report m id l -> l = []) <-> (forall b, inspected (m_blocks m) b -> forall c, ~ overused_facet (co_mesh b) c).
Proof.
  split.
  - intros H b I. destruct (solid_facets_spec ho ho (co_mesh b) (proj2 (by_well_formed _ (Hb b I)))) as [L _]; [apply (below_le _ _ (by_size _ (Hb b I))); lia|].
    apply (represents_empty _ _ L). apply (H (co_id b)). exists b. destruct I. auto.
  - intros H id l (b & I & Ac & _ & L). apply (represents_empty _ _ L). apply H. split; assumption.
Qed.
Lemma negative_polygons_empty : (forall id l, negative_polygons_report ms m id l -> l = []) <-> (forall s, inspected (m_surfaces m) s -> forall p, ~ negative_polygon ms (co_mesh s) p).
Proof. apply kind_empty. intros s I. eexists. apply (surface_negative_spec ms _ (sy_points _ (Hs s I))). Qed.
Lemma negative_polyhedra_empty : (forall id l, negative_polyhedra_report ms m id l -> l = []) <-> (forall b, inspected (m_blocks m) b -> forall p, ~ negative_polyhedron ms (co_mesh b) p).
Proof. apply kind_empty. intros b I. eexists. apply (solid_negative_spec ms _ (by_points _ (Hb b I))). Qed.
Lemma block_small_edges_empty : (forall id l, block_small_edges_report ms m GLOBAL_EPSILON id l -> l = []) <->
  forall b, inspected (m_blocks m) b -> forall e, ~ shorter_edge ms (so_points (co_mesh b)) (so_edges (co_mesh b)) GLOBAL_EPSILON e.
Proof.
  apply kind_empty. intros b I. apply (lt_lists_exist (length (so_edges (co_mesh b)))); [apply shorter_bound|]. intros x B.
  rewrite <- (edge_test ms _ _ GLOBAL_EPSILON x (by_edges _ (Hb b I)) B). match goal with |- ?b = true \/ _ => destruct b; [left|right]; congruence end.
Qed.
Lemma flat_polyhedra_empty : (forall id l, flat_polyhedra_report m GLOBAL_EPSILON id l -> l = []) <-> (forall b, inspected (m_blocks m) b -> forall p, ~ flat_polyhedron (co_mesh b) GLOBAL_EPSILON p).
Proof. apply kind_empty. intros b _. eexists. apply flat_polyhedra_spec. Qed.
Lemma block_adjacency_empty : forall lk, lookup_right m lk -> ((forall id l, block_adjacency_report m id l -> l = []) <->
  forall b, inspected (m_blocks m) b ->
    (forall f, is_polyhedron_facet (co_mesh b) f -> forall q, so_adjacent (co_mesh b) f = Some q -> facet_reciprocated (co_mesh b) f q) /\
    (forall f uvs, is_polyhedron_facet (co_mesh b) f -> so_adjacent (co_mesh b) f = None ->
      map (fun x => m_unique_vertex m (mkCMV (mkCID BlockT (co_id b)) x)) (polyhedron_facet_vertices (co_mesh b) f) = map Some uvs -> covered_by_a_surface m uvs)).
Proof.
  intros lk Hlk. split.
  - intros H b I. destruct (block_issues_spec lk m b Hlk (by_well_formed _ (Hb b I))) as (r & l1 & l2 & _ & _ & L1 & L2). pose proof (by_well_formed _ (Hb b I)) as W. destruct I as [I Ac].
    assert (E : l1 ++ l2 = []) by (apply (H (co_id b)); exists b, l1, l2; auto 12). apply app_eq_nil in E as [E1 E2].
    pose proof (proj1 (none_listed _ _ _ _ L1) E1) as N1. pose proof (proj1 (none_listed _ _ _ _ L2) E2) as N2. split.
    + apply (facets_reciprocated_positive _ W). exact N1.
    + intros f uvs Hf Hn Hu. destruct (proj2 Hlk uvs) as ([|x l] & _ & C); [|apply C; discriminate]. exfalso. apply (N2 f). split; [exact Hf|]. split; [exact Hn|]. exists uvs. split; [exact Hu|].
      intros K. apply C in K. congruence.
  - intros H id l (b & l1 & l2 & I & Ac & _ & -> & L1 & L2). destruct (H b (conj I Ac)) as [H1 H2].
    rewrite (proj2 (none_listed _ _ _ _ L1)), (proj2 (none_listed _ _ _ _ L2)); [reflexivity| |].
    + intros f (Hf & Hn & uvs & Hu & K). apply K, (H2 f uvs Hf Hn Hu).
    + intros f (Hf & q & Hq & K). apply K, (H1 f Hf q Hq).
Qed.
End ManifoldCategories.
