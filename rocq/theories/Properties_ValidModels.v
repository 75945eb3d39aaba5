(** C59, C60: what a valid Section and a valid BRep are. *)
From Coq Require Import String Ascii List Arith NArith ZArith Bool Lia Permutation Sorted Floats.SpecFloat.
From Verif Require Import Base BaseFacts Model_Issues Types Model_Cycles Model_Hash Model_Colocation Model_Adjacency Model_Manifold Model_Degeneration Model_Negative Model_Intersections
  Model_Topology Model_BRep Model_Blocks Model_Results Model_Validity Spec_Colocation Spec_Maps Spec_Cycles Spec_Adjacency Spec_Manifold Spec_Degeneration Spec_Negative Spec_Intersections
  Spec_Topology Spec_BRep Spec_Blocks Spec_Results Spec_Valid Spec_ValidModels
  Proof_Adjacency Proof_Topology Proof_Topology2 Proof_BRep Proof_Intersections4 Proof_Intersections5 Proof_Results Proof_TopologyCheck Proof_BRepCheck
  Proof_Valid Proof_Valid2 Proof_ValidModels Proof_ValidModels2 Proof_ValidModels3 Proof_ValidModels4 Proof_Searches Proof_GoodModels
  Properties_Intersections Properties_Topology Properties_BRep Properties_Blocks Properties_Results Properties_Valid.
Import ListNotations.
Open Scope list_scope.

Lemma empty_countable : forall l, all_empty l -> countable l.
Proof. intros l H. apply all_empty_total in H. unfold countable. rewrite H. reflexivity. Qed.
(** the inspection and the validity function both answer; a sound Section is valid; and a valid Section is sound, unless
    2^32 issues or more were found (then the counter of the result may be 0 again) *)
Theorem C59_section : forall o px trees m stored_edges stored_facets, section_ready o px trees m ->
  forall ints, section_inspect_intersections px m trees ints ->
  exists r v, inspect_section o m (new_model_inspector stored_edges stored_facets) ints = Ok r /\
    is_section_valid o m (new_model_inspector stored_edges stored_facets) ints = Ok v /\
    (sound_section (or_measures o) (or_geometry o) px trees m -> is_valid v = true) /\
    (countable (section_categories (or_hash o) r) -> is_valid v = true -> sound_section (or_measures o) (or_geometry o) px trees m).
Proof.
  intros o px trees m s0 b0 R ints H. destruct (section_valid_spec o px trees m s0 b0 R ints H) as (r & E & V & K). exists r, (section_validity (or_hash o) r).
  split; [exact E|]. split; [exact V|]. split.
  - intros S. apply K in S. apply (validated _ _ (section_texts (or_hash o) r (empty_countable _ S))). exact S.
  - intros B S. apply K. apply (validated _ _ (section_texts (or_hash o) r B)). exact S.
Qed.
Print Assumptions C59_section.
Theorem C60_brep : forall o px trees lines m stored_edges stored_facets, brep_ready o px trees lines m ->
  forall ints, brep_inspect_intersections px m trees lines ints ->
  exists r v parts, inspect_brep o m (new_model_inspector stored_edges stored_facets) ints = Ok r /\
    is_brep_valid o m (new_model_inspector stored_edges stored_facets) ints = Ok v /\
    (forall b, In b (active_ids m BlockT) -> connected_parts m (block_surfaces m b) (parts b)) /\
    (sound_brep (or_measures o) (or_geometry o) px (or_topo o) trees lines m parts -> is_valid v = true) /\
    (countable (brep_categories (or_hash o) r) -> is_valid v = true -> sound_brep (or_measures o) (or_geometry o) px (or_topo o) trees lines m parts).
Proof.
  intros o px trees lines m s0 b0 R ints H. destruct (brep_valid_spec o px trees lines m s0 b0 R ints H) as (r & parts & E & V & P & K). exists r, (brep_validity (or_hash o) r), parts.
  split; [exact E|]. split; [exact V|]. split; [exact P|]. split.
  - intros S. apply K in S. apply (validated _ _ (brep_texts (or_hash o) r (empty_countable _ S))). exact S.
  - intros B S. apply K. apply (validated _ _ (brep_texts (or_hash o) r B)). exact S.
Qed.
Print Assumptions C60_brep.

(** ** Examples: the triangle with three corners and three lines, the tetrahedron with one block *)
(** predicates that never see a contact *)
Definition quiet_px : Predicates := mkPredicates (fun _ _ => Outside) (fun _ _ => (Outside, Outside)) (fun _ _ => (Outside, Outside)) (fun _ => None) (fun _ _ _ => false).
Lemma quiet_indices : indices_in_range quiet_px.
Proof. repeat split; intros; discriminate. Qed.
Definition readyb (m : SurfaceMesh) : bool :=
  forallb (fun vs => nodupb vs && forallb (fun v => v <? length (sm_points m)) vs && (length vs <=? 256)) (sm_polygons m).
Lemma readyb_ok : forall m, readyb m = true -> polygons_ready m.
Proof.
  intros m H p Hp. unfold readyb in H. rewrite forallb_forall in H. assert (I : In (polygon_vertices m p) (sm_polygons m)) by (apply nth_In; exact Hp).
  specialize (H _ I). rewrite !andb_true_iff in H. destruct H as [[A B] C]. split; [apply nodupb_ok, A|]. split; [|apply Nat.leb_le, C].
  intros v Hv. rewrite forallb_forall in B. apply Nat.ltb_lt, B, Hv.
Qed.
Lemma good_surface_ready : forall id d u v w, surface_ready (co_mesh (good_surface id d u v w)).
Proof.
  intros id d u v w. constructor.
  - intros e q _ Hq. discriminate Hq.
  - intros a b H. cbn in H. repeat (destruct H as [H|H]; [injection H as <- <-; cbn; lia|]). destruct H.
  - intros a b n H. apply few_uses in H. cbn in H. lia.
  - intros c H. apply in_all_polygon_edges in H. cbn in H. each H.
  - intros x _. right. eexists. reflexivity.
  - intros vs x H Hv. cbn in H. destruct H as [<-|[]]. cbn in Hv. cbn. lia.
  - vm_compute. reflexivity.
Qed.
Lemma good_section_ok : section_ok good_section.
Proof. apply sectionb_ok. vm_compute. reflexivity. Qed.
Definition section_oracles := mkOracles exact_measures exact_geo any_order (search_lookup good_section) tet_tl.
Definition section_trees := mkTrees [100] [] (fun _ => [(0, 0)]) (fun _ _ => []).
Lemma links_ok : forall m, nodupb (all_ids m) = true -> forallb (forallb (cmv_exists_in_brep m)) (m_cmvs m) = true -> resolvable m.
Proof.
  intros m U H cmvs c K L. apply (cmv_exists_brep_iff m c (nodupb_ok _ U)). rewrite forallb_forall in H. specialize (H _ K). rewrite forallb_forall in H. apply H, L.
Qed.
Lemma one_polygon : forall id d u v w s, In s [good_surface id d u v w] -> s = good_surface id d u v w.
Proof. intros id d u v w s [<-|[]]. reflexivity. Qed.
Lemma section_is_ready : section_ready section_oracles quiet_px section_trees good_section.
Proof.
  constructor.
  - exact good_section_ok.
  - apply links_ok; vm_compute; reflexivity.
  - exact exact_consistent.
  - apply search_right.
  - intros c H. cbn in H. repeat (destruct H as [<-|H]; [vm_compute; reflexivity|]). destruct H.
  - intros s H. apply one_polygon in H as ->. apply good_surface_ready.
  - constructor.
    + apply nodupb_ok. vm_compute. reflexivity.
    + constructor.
      * repeat constructor. intros [].
      * intros id [<-|[]]. exists (good_surface 100 2 0 1 2). split; [left; reflexivity|reflexivity].
      * intros s H _. apply one_polygon in H as ->. left. reflexivity.
      * intros i j [].
      * intros s i H E p q K. apply one_polygon in H as ->. destruct K as [[= <- <-]|[]]. cbn. lia.
      * intros s1 s2 i j _ _ _ _ p q [].
    + intros s H. apply one_polygon in H as ->. apply readyb_ok. vm_compute. reflexivity.
    + exact quiet_indices.
    + intros s H _ s1 s2 v w H1 H2 L1 L2 _. apply one_polygon in H1 as ->. apply one_polygon in H2 as ->. exact L2.
Qed.
Example section_sound : sound_section exact_measures exact_geo quiet_px section_trees good_section.
Proof.
  destruct (proj1 (C27_C48_queries_terminate quiet_px good_section section_trees (mkLineTrees [] (fun _ _ => [])))) as (ints & I).
  destruct (C59_section section_oracles quiet_px section_trees good_section (fun _ => false) (fun _ => false) section_is_ready ints I) as (r & v & E & V & _ & K).
  destruct (section_intersections_empty section_oracles quiet_px section_trees good_section section_is_ready ints I) as (l & -> & L).
  assert (Z : ii_issues l = []).
  { apply L.
    - intros s H _. apply one_polygon in H as ->. discriminate.
    - intros s1 s2 c [(-> & H & _ & i & _ & J)|(_ & _ & i & j & [] & _)] [N _]. apply one_polygon in H as ->. destruct J as [<-|[]]. apply N. split; reflexivity. }
  destruct l as [d i t]. cbn [ii_issues] in Z. subst i. apply K.
  - vm_compute in E. injection E as <-. vm_compute. reflexivity.
  - vm_compute in V. injection V as <-. reflexivity.
Qed.
(** without the corner of two lines it is not sound, so the validity function says so *)
Example cornerless_unsound : forall px trees, ~ sound_section exact_measures exact_geo px trees cornerless.
Proof.
  intros px trees H. destruct (st_vertices _ (sd_topology _ _ _ _ _ H) 1 ltac:(cbn; lia)) as (_ & (_ & _ & _ & X) & _). apply X. split.
  - exists 0, 1, 10, 11, 1, 0. repeat split; cbn; auto.
  - intros c [v [E|[E|[E|[]]]]]; discriminate E.
Qed.
Definition brep_oracles := mkOracles exact_measures exact_geo any_order (search_lookup good_tet) tet_tl.
(** the boxes of all surfaces meet *)
Definition brep_trees := mkTrees [100; 101; 102; 103] [(0, 1); (0, 2); (0, 3); (1, 2); (1, 3); (2, 3)] (fun _ => [(0, 0)]) (fun _ _ => [(0, 0)]).
Definition brep_line_trees := mkLineTrees [10; 11; 12; 13; 14; 15] (fun _ _ => [(0, 0)]).
Lemma tet_surfaces_are : forall s, In s (m_surfaces good_tet) -> exists id u v w, s = good_surface id 3 u v w.
Proof. intros s H. cbn in H. repeat (destruct H as [<-|H]; [do 4 eexists; reflexivity|]). destruct H. Qed.
Lemma tet_lines_are : forall l, In l (m_lines good_tet) -> exists id u v, l = good_line id u v.
Proof. intros s H. cbn in H. repeat (destruct H as [<-|H]; [do 3 eexists; reflexivity|]). destruct H. Qed.
Lemma tet_intersections_ready : intersections_ready quiet_px good_tet brep_trees.
Proof.
  constructor.
  - apply nodupb_ok. vm_compute. reflexivity.
  - constructor.
    + apply nodupb_ok. reflexivity.
    + intros id H. cbn in H. repeat (destruct H as [<-|H]; [first [exists (good_surface 100 3 1 2 3); split; [cbn; tauto|reflexivity]|exists (good_surface 101 3 0 2 3); split; [cbn; tauto|reflexivity]|exists (good_surface 102 3 0 1 3); split; [cbn; tauto|reflexivity]|exists (good_surface 103 3 0 1 2); split; [cbn; tauto|reflexivity]]|]). destruct H.
    + intros s H _. cbn in H. repeat (destruct H as [<-|H]; [cbn; auto 8|]). destruct H.
    + intros i j H. cbn in H. repeat (destruct H as [[= <- <-]|H]; [cbn; lia|]). destruct H.
    + intros s i H E p q K. destruct (tet_surfaces_are s H) as (id & u & v & w & ->). destruct K as [[= <- <-]|[]]. cbn. lia.
    + intros s1 s2 i j H1 H2 _ _ p q K. destruct (tet_surfaces_are s1 H1) as (id & u & v & w & ->), (tet_surfaces_are s2 H2) as (id' & u' & v' & w' & ->).
      destruct K as [[= <- <-]|[]]. cbn. lia.
  - intros s H. destruct (tet_surfaces_are s H) as (id & u & v & w & ->). apply readyb_ok. vm_compute. reflexivity.
  - exact quiet_indices.
  - intros s H E. destruct (tet_surfaces_are s H) as (id & u & v & w & ->). discriminate E.
Qed.
Lemma brep_is_ready : brep_ready brep_oracles quiet_px brep_trees brep_line_trees good_tet.
Proof.
  assert (B : blocks_ok tet_tl good_tet) by (apply blocksb_ok; [apply tables_safe|apply tables_safe|vm_compute; reflexivity]).
  constructor.
  - exact B.
  - apply tableb_ok. vm_compute. reflexivity.
  - apply simple_inspectable; [apply brepb_ok|..]; vm_compute; reflexivity.
  - exact exact_consistent.
  - apply search_right.
  - intros c H. destruct (tet_lines_are c H) as (id & u & v & ->). split; [vm_compute; reflexivity|].
    intros e He. cbn in He. assert (e = 0) by lia. subst e. exists (Proof_GoodModels.pt u, Proof_GoodModels.pt v), 0, 1. repeat split; reflexivity.
  - intros s H. destruct (tet_surfaces_are s H) as (id & u & v & w & ->). apply good_surface_ready.
  - intros b [<-|[]]. destruct tetrahedron_queries as [_ Q1 Q2 Q3 Q4 Q5 Q6 Q7]. constructor; assumption.
  - intros l v w H _ E. cbn in H. repeat (destruct H as [<-|H]; [injection E as <- <-; split; (eexists; split; [vm_compute; reflexivity|cbn; lia])|]). destruct H.
  - intros s vs x H _ E K. cbn in H.
    repeat (destruct H as [<-|H]; [injection E as <-; repeat (destruct K as [<-|K]; [eexists; split; [vm_compute; reflexivity|cbn; lia]|]); destruct K|]). destruct H.
  - exact tet_intersections_ready.
  - constructor.
    + apply nodupb_ok. reflexivity.
    + intros l H _. cbn in H. repeat (destruct H as [<-|H]; [cbn; auto 10|]). destruct H.
    + intros s l i j Hs Hl _ _ p q K. destruct (tet_surfaces_are s Hs) as (id & u & v & w & ->), (tet_lines_are l Hl) as (id' & u' & v' & ->).
      destruct K as [[= <- <-]|[]]. cbn. lia.
  - intros s p H L. destruct (tet_surfaces_are s H) as (id & u & v & w & ->). cbn in L. assert (p = 0) by lia. subst p. cbn. lia.
Qed.
Example brep_sound : exists parts, (forall b, In b (active_ids good_tet BlockT) -> connected_parts good_tet (block_surfaces good_tet b) (parts b)) /\
  sound_brep exact_measures exact_geo quiet_px tet_tl brep_trees brep_line_trees good_tet parts.
Proof.
  destruct (proj1 (proj2 (C27_C48_queries_terminate quiet_px good_tet brep_trees brep_line_trees))) as (ints & I).
  destruct (C60_brep brep_oracles quiet_px brep_trees brep_line_trees good_tet (fun _ => false) (fun _ => false) brep_is_ready ints I) as (r & v & parts & E & V & P & _ & K).
  exists parts. split; [exact P|].
  destruct (brep_intersections_empty brep_oracles quiet_px brep_trees brep_line_trees good_tet brep_is_ready ints I) as (l & -> & L).
  assert (Z : ii_issues l = []).
  { apply L.
    - intros s H _. destruct (tet_surfaces_are s H) as (id & u & w & x & ->). discriminate.
    - intros s H _. destruct (tet_lines_are s H) as (id & u & w & ->). discriminate.
    - split.
      + intros s1 s2 c [(-> & H & _ & i & _ & J)|(H1 & H2 & i & j & H & E1 & E2 & J)] [N M].
        * destruct J as [<-|[]]. apply N. split; reflexivity.
        * destruct J as [<-|[]].
          destruct (polygons_decides quiet_px good_tet s1 s2 0 0 quiet_indices) as (b & Eb & Hb);
            [|apply (ir_surfaces _ _ _ tet_intersections_ready); assumption..| | |].
          -- intros D. destruct (tet_surfaces_are s1 H1) as (id & u & w & x & ->). discriminate D.
          -- destruct (tet_surfaces_are s1 H1) as (id & u & w & x & ->). cbn. lia.
          -- destruct (tet_surfaces_are s2 H2) as (id & u & w & x & ->). cbn. lia.
          -- assert (Y : b = true) by (apply Hb; exact M). subst b. clear L M N Hb E V.
             cbn in H1. repeat (destruct H1 as [<-|H1]); try destruct H1; cbn in H2; repeat (destruct H2 as [<-|H2]); try destruct H2; try discriminate Eb;
             cbn in H; repeat (destruct H as [[= <- <-]|H]; [try discriminate E1; try discriminate E2|]); destruct H.
      + intros s c' c _ (t & b & []). }
  destruct l as [d i t]. cbn [ii_issues] in Z. subst i. apply K.
  - vm_compute in E. injection E as <-. vm_compute. reflexivity.
  - vm_compute in V. injection V as <-. reflexivity.
Qed.
