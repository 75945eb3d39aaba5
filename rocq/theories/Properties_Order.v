(** C70: the order in which a model stores its components. *)
From Coq Require Import String Ascii List Arith NArith ZArith Bool Lia Permutation.
From Verif Require Import Base BaseFacts Model_Issues Types Model_Hash Model_Colocation Model_Degeneration Model_Intersections Model_Manifold Model_Topology Model_BRep Model_Blocks
  Model_Results Model_Validity Spec_Colocation Spec_Topology Spec_BRep Spec_Blocks Spec_Reproducible Proof_Reproducible Proof_TopologyCheck Proof_BRepCheck Spec_Order Proof_Order Proof_Order2 Proof_Order3
  Proof_Order4 Proof_Order5 Proof_Order6 Proof_Blocks6 Properties_Topology Properties_BRep Properties_Blocks Proof_GoodModels Properties_Safe Properties_Intersections.
Import ListNotations.
Open Scope list_scope.

(** Yes/no questions and the report on unique vertices: exactly the same answer (exceptions and undefined behaviours included). *)
Theorem C70_queries : forall m m' geo tl, reordered m m' -> unique_ids m ->
  section_topology_is_valid m = section_topology_is_valid m' /\ brep_topology_is_valid tl m = brep_topology_is_valid tl m' /\
  model_has_unique_vertices_linked_to_different_points geo m = model_has_unique_vertices_linked_to_different_points geo m' /\
  model_has_colocated_unique_vertices geo m = model_has_colocated_unique_vertices geo m' /\ inspect_unique_vertices geo m = inspect_unique_vertices geo m'.
Proof.
  intros m m' geo tl H U. split; [apply (o_section_topology_is_valid m m' H U)|]. split; [apply (o_brep_topology_is_valid m m' H U)|]. split; [apply (o_has_different m m' H U)|].
  split; [apply (o_has_colocated m m' H U)|apply (o_unique_vertices_report m m' H U)].
Qed.
Print Assumptions C70_queries.

(** Meshes: whenever one order gives a report, so does the other, with the same entries. *)
Theorem C70_section_meshes : forall o m m' st st' x x' r, reordered m m' -> unique_ids m -> same_issues x x' ->
  inspect_section_meshes o m st (Ok x) = Ok r -> exists r', inspect_section_meshes o m' st' (Ok x') = Ok r' /\ reordered_section_meshes r r'.
Proof. intros o m m' st st' x x' r H U S. apply (section_meshes_reordered m m' H U o st st' (Ok x) (Ok x')). apply follows_ok, S. Qed.
Theorem C70_brep_meshes : forall o m m' st st' x x' r, reordered m m' -> unique_ids m -> same_issues x x' ->
  inspect_brep_meshes o m st (Ok x) = Ok r -> exists r', inspect_brep_meshes o m' st' (Ok x') = Ok r' /\ reordered_brep_meshes r r'.
Proof. intros o m m' st st' x x' r H U S. apply (brep_meshes_reordered m m' H U o st st' (Ok x) (Ok x')). apply follows_ok, S. Qed.
Print Assumptions C70_section_meshes.
Print Assumptions C70_brep_meshes.

(** Intersections, when the boxes of the elements are stored in the same trees. *)
Theorem C70_section_intersections : forall px m m' trees x r, reordered m m' -> unique_ids m ->
  section_inspect_intersections px m trees (Ok x) -> section_inspect_intersections px m' trees r -> exists x', r = Ok x' /\ same_issues x x'.
Proof. intros px m m' trees x r H U. apply (section_intersections_reordered m m' H U). Qed.
Theorem C70_brep_intersections : forall px m m' trees lines x r, reordered m m' -> unique_ids m ->
  brep_inspect_intersections px m trees lines (Ok x) -> brep_inspect_intersections px m' trees lines r -> exists x', r = Ok x' /\ same_issues x x'.
Proof. intros px m m' trees lines x r H U. apply (brep_intersections_reordered m m' H U). Qed.
Print Assumptions C70_section_intersections.
Print Assumptions C70_brep_intersections.

(** Topology of a section: both orders end the same way. *)
Definition end_alike {X} (R : X -> X -> Prop) (x y : outcome X) : Prop :=
  (exists a b, x = Ok a /\ y = Ok b /\ R a b) \/ (exists e, x = Throw e /\ y = Throw e) \/ (x = UB /\ y = UB).
Theorem C70_section_topology : forall m m', reordered m m' -> unique_ids m ->
  end_alike reordered_section_topology (inspect_section_topology m) (inspect_section_topology m').
Proof.
  intros m m' H U. pose proof (section_topology_reordered m m' H U) as E. unfold end_alike. destruct (inspect_section_topology m) as [a|e|], (inspect_section_topology m') as [b|e'|]; cbn in E; try contradiction.
  - left. eauto.
  - right. left. exists e. split; congruence.
  - right. right. auto.
Qed.
Print Assumptions C70_section_topology.
(** Topology of a BRep. *)
Theorem C70_brep_topology : forall tl m m' r r', reordered m m' -> brep_ok m -> inside_block_ok tl ->
  inspect_brep_topology tl m = Ok r -> inspect_brep_topology tl m' = Ok r' -> reordered_brep_topology r r'.
Proof. exact brep_topology_reordered. Qed.
Print Assumptions C70_brep_topology.
(** ... which returns in both orders for the models of C39 *)
Theorem C70_brep_topology_returns : forall tl m m', reordered m m' -> blocks_ok tl m -> lookup_ok tl m -> lines_inspectable m ->
  exists r r', inspect_brep_topology tl m = Ok r /\ inspect_brep_topology tl m' = Ok r' /\ reordered_brep_topology r r'.
Proof.
  intros tl m m' H K L I. pose proof (bo_brep tl m K) as B. pose proof (brep_ok_reordered m m' H B) as B'. pose proof (br_ids m B) as U.
  destruct (brep_topology_spec tl m K L I) as (rc & rl & rs & rb & k & Ec & El & Es & Eb & Ek & E).
  destruct (ends_follow _ _ _ _ (brep_corners_reordered m m' H U) rc Ec) as (rc' & Ec' & _).
  destruct (brep_lines_reordered m m' H U tl rl El) as (rl' & El' & _). destruct (brep_surfaces_reordered m m' H U tl rs Es) as (rs' & Es' & _).
  destruct (brep_blocks_reordered m m' H B tl (bo_inside_block tl m K) rb Eb) as (rb' & Eb' & _).
  assert (E' : inspect_brep_topology tl m' = Ok (mkBRepTopology rc' rl' rs' rb' k)).
  { unfold inspect_brep_topology. rewrite Ec', El', Es', Eb'. cbn [status bind parallel_invoke_caught assigned]. rewrite (o_wrong_links m m' H U) in Ek by (intros c; apply (o_cmv_exists_in_brep m m' H U)).
    rewrite Ek. reflexivity. }
  do 2 eexists. split; [exact E|]. split; [exact E'|]. eapply brep_topology_reordered; eauto. apply (bo_inside_block tl m K).
Qed.
Print Assumptions C70_brep_topology_returns.

(** Whole models, and the number of issues. *)
Lemma invoked : forall X Y Z (x : outcome X) (y : outcome Y) (z : Z) r, (let! _ := parallel_invoke [status x; status y] in Ok z) = Ok r ->
  (exists a, x = Ok a) /\ (exists b, y = Ok b) /\ z = r.
Proof.
  intros X Y Z x y z r E. apply parallel_run in E as [E E']. apply parallel_next in E as [A E]. apply parallel_next in E as [B _]. injection E' as E'. auto.
Qed.
Theorem C70_section : forall o m m' st st' x x' r, reordered m m' -> unique_ids m -> same_issues x x' ->
  inspect_section o m st (Ok x) = Ok r -> exists r', inspect_section o m' st' (Ok x') = Ok r' /\ reordered_section r r'.
Proof.
  intros o m m' st st' x x' r H U S E. unfold inspect_section in *. cbv zeta in *. apply invoked in E as ((a & Ea) & (b & Eb) & <-).
  destruct (C70_section_meshes o m m' st st' x x' a H U S Ea) as (a' & Ea' & Ra). destruct (ends_follow _ _ _ _ (section_topology_reordered m m' H U) b Eb) as (b' & Eb' & Rb).
  rewrite Ea', Eb', Ea, Eb. eexists. split; [reflexivity|]. split; assumption.
Qed.
Theorem C70_brep : forall o m m' st st' x x' r r', reordered m m' -> brep_ok m -> inside_block_ok (or_topo o) -> same_issues x x' ->
  inspect_brep o m st (Ok x) = Ok r -> inspect_brep o m' st' (Ok x') = Ok r' -> reordered_brep r r'.
Proof.
  intros o m m' st st' x x' r r' H K I S E E'. pose proof (br_ids m K) as U. unfold inspect_brep in *. cbv zeta in *.
  apply invoked in E as ((a & Ea) & (b & Eb) & <-). apply invoked in E' as ((a' & Ea') & (b' & Eb') & <-).
  destruct (C70_brep_meshes o m m' st st' x x' a H U S Ea) as (a2 & Ea2 & Ra). rewrite Ea' in Ea2. injection Ea2 as <-.
  rewrite Ea, Eb, Ea', Eb'. split; [exact Ra|]. eapply C70_brep_topology; eauto.
Qed.
Print Assumptions C70_section.
Print Assumptions C70_brep.
Lemma map_count : forall T (x y : InspectionIssuesMap T), reordered_map x y -> map_nb_issues x = map_nb_issues y.
Proof. intros T x y [_ Q]. unfold map_nb_issues, size32. rewrite (Permutation_length Q). reflexivity. Qed.
Lemma edges_count : forall x y, reordered_edges x y -> nb_issues x = nb_issues y.
Proof.
  intros x y (_ & (l & Q & F) & _). unfold nb_issues, size32. rewrite <- (Permutation_length Q). clear Q. assert (E : length (ii_issues x) = length l) by (induction F; cbn; auto). rewrite E. reflexivity.
Qed.
Ltac counts := repeat match goal with
  | K : reordered_map ?a ?b |- _ => rewrite (map_count _ _ _ K); clear K
  | K : same_issues ?a ?b |- _ => rewrite (same_count _ _ _ K); clear K
  | K : reordered_edges ?a ?b |- _ => rewrite (edges_count _ _ K); clear K
  | K : @eq (InspectionIssues nat) ?a ?b |- _ => rewrite K; clear K
  | K : @eq LinkIssues ?a ?b |- _ => rewrite K; clear K
  | K : @eq UniqueVerticesResult ?a ?b |- _ => rewrite K; clear K
  end; reflexivity.
Lemma corners_count : forall r r', reordered_corners r r' -> corners_nb_issues r = corners_nb_issues r'.
Proof. intros r r' []. unfold corners_nb_issues. counts. Qed.
Lemma section_topology_count : forall r r', reordered_section_topology r r' -> section_topology_nb_issues r = section_topology_nb_issues r'.
Proof.
  intros r r' [C L S K]. unfold section_topology_nb_issues. rewrite (corners_count _ _ C), K. destruct L, S.
  assert (X : section_lines_nb_issues (st_lines r) = section_lines_nb_issues (st_lines r')) by (unfold section_lines_nb_issues; counts).
  assert (Y : section_surfaces_nb_issues (st_surfaces r) = section_surfaces_nb_issues (st_surfaces r')) by (unfold section_surfaces_nb_issues; counts). rewrite X, Y. reflexivity.
Qed.
Lemma brep_topology_count : forall r r', reordered_brep_topology r r' -> brep_topology_nb_issues r = brep_topology_nb_issues r'.
Proof.
  intros r r' [C L S B K]. unfold brep_topology_nb_issues. rewrite (corners_count _ _ C), K. destruct L, S, B.
  assert (X : brep_lines_nb_issues (bt_lines r) = brep_lines_nb_issues (bt_lines r')) by (unfold brep_lines_nb_issues; counts).
  assert (Y : brep_surfaces_nb_issues (bt_surfaces r) = brep_surfaces_nb_issues (bt_surfaces r')) by (unfold brep_surfaces_nb_issues; counts).
  assert (Z : brep_blocks_nb_issues (bt_blocks r) = brep_blocks_nb_issues (bt_blocks r')) by (unfold brep_blocks_nb_issues; counts). rewrite X, Y, Z. reflexivity.
Qed.
Lemma section_meshes_count : forall r r', reordered_section_meshes r r' -> section_meshes_nb_issues r = section_meshes_nb_issues r'.
Proof.
  intros r r' []. unfold section_meshes_nb_issues, meshes_colocation_nb_issues, section_adjacency_nb_issues, section_degeneration_nb_issues, intersections_nb_issues, section_manifold_nb_issues,
    negative_nb_issues. counts.
Qed.
Lemma brep_meshes_count : forall r r', reordered_brep_meshes r r' -> brep_meshes_nb_issues r = brep_meshes_nb_issues r'.
Proof.
  intros r r' []. unfold brep_meshes_nb_issues, meshes_colocation_nb_issues, brep_adjacency_nb_issues, brep_degeneration_nb_issues, intersections_nb_issues, brep_manifold_nb_issues,
    negative_nb_issues. counts.
Qed.
Theorem C70_counts : (forall r r', reordered_section r r' -> section_nb_issues r = section_nb_issues r') /\ (forall r r', reordered_brep r r' -> brep_nb_issues r = brep_nb_issues r').
Proof.
  split; intros r r' [A B].
  - unfold section_nb_issues. rewrite (section_meshes_count _ _ A), (section_topology_count _ _ B). reflexivity.
  - unfold brep_nb_issues. rewrite (brep_meshes_count _ _ A), (brep_topology_count _ _ B). reflexivity.
Qed.
Print Assumptions C70_counts.

(** ** Concrete cases *)
Definition turned (m : Model) : Model := mkModel (rev (m_corners m)) (rev (m_lines m)) (rev (m_surfaces m)) (rev (m_blocks m)) (m_model_boundaries m) (m_cmvs m) (m_unique_vertex m)
  (m_boundary_rel m) (m_internal_rel m) (m_missing_exn m) (m_uuid_string m) (m_point_string m) (m_cmv_string m) (m_cid_string m).
Lemma turned_reordered : forall m, reordered m (turned m).
Proof. intros m. constructor; cbn; auto using Permutation_rev. Qed.
Lemma both_return : forall A (x y : outcome A) (Q : A -> A -> Prop), match x, y with Ok r, Ok r' => Q r r' | _, _ => False end -> exists r r', x = Ok r /\ y = Ok r' /\ Q r r'.
Proof. intros A [r| |] [r'| |] Q E; try contradiction. eauto. Qed.
(** the tetrahedron with most things wrong, without anything found around its edges: twenty-four issues in both orders, and
    the lines with wrong edges in the order of the model *)
Definition blind_tl := table_lookup [] [] (fun _ _ => Ok true) (fun _ _ => false) (fun _ _ => Ok true).
Definition blind_searches := mkOracles exact_measures exact_geo any_order tet_lk blind_tl.
Example broken_turned : brep_ok broken_tet /\ inside_block_ok (or_topo blind_searches) /\ reordered broken_tet (turned broken_tet) /\
  exists r r', inspect_brep blind_searches broken_tet no_storage (Ok empty_intersections) = Ok r /\ inspect_brep blind_searches (turned broken_tet) no_storage (Ok empty_intersections) = Ok r' /\
    reordered_brep r r' /\ brep_nb_issues r = 24%N /\ brep_nb_issues r' = 24%N /\
    map fst (im_map (bl_wrong_edges (bt_lines (r_brep_topology r)))) = [10; 11; 12; 13; 14; 15] /\
    map fst (im_map (bl_wrong_edges (bt_lines (r_brep_topology r')))) = [15; 14; 13; 12; 11; 10].
Proof.
  assert (K : brep_ok broken_tet) by (apply brepb_ok; vm_compute; reflexivity). assert (I : inside_block_ok (or_topo blind_searches)) by apply tables_safe.
  split; [exact K|]. split; [exact I|]. split; [apply turned_reordered|].
  assert (E : match inspect_brep blind_searches broken_tet no_storage (Ok empty_intersections), inspect_brep blind_searches (turned broken_tet) no_storage (Ok empty_intersections) with
    | Ok r, Ok r' => (brep_nb_issues r, brep_nb_issues r', map fst (im_map (bl_wrong_edges (bt_lines (r_brep_topology r)))), map fst (im_map (bl_wrong_edges (bt_lines (r_brep_topology r'))))) =
      (24%N, 24%N, [10; 11; 12; 13; 14; 15], [15; 14; 13; 12; 11; 10])
    | _, _ => False end) by (vm_compute; reflexivity).
  apply both_return in E. destruct E as (r & r' & E1 & E2 & E). exists r, r'. split; [exact E1|]. split; [exact E2|]. split.
  - apply (C70_brep blind_searches broken_tet (turned broken_tet) no_storage no_storage empty_intersections empty_intersections r r' (turned_reordered _) K I); auto. apply same_refl. reflexivity.
  - injection E as -> -> -> ->. auto.
Qed.
(** the hypotheses of [C70_brep_topology_returns] *)
Example tet_turned : blocks_ok tet_tl tet /\ lookup_ok tet_tl tet /\ lines_inspectable tet /\ reordered tet (turned tet) /\ tet <> turned tet.
Proof. split; [apply tet_blocks_ok|]. split; [apply tet_blocks_ok|]. split; [apply tet_blocks_ok|]. split; [apply turned_reordered|discriminate]. Qed.
(** a section whose corners miss their links, in both orders *)
Definition loose_triangle := good_triangle [good_corner 0 0; good_corner 1 1; good_corner 2 2]
  (map (filter (fun c => negb (ctype_eqb (cmv_type c) CornerT))) triangle_cmvs) triangle_bnd.
Example triangle_turned : unique_ids loose_triangle /\ exists r r', inspect_section triangle_oracles loose_triangle no_storage (Ok empty_intersections) = Ok r /\
  inspect_section triangle_oracles (turned loose_triangle) no_storage (Ok empty_intersections) = Ok r' /\ reordered_section r r' /\ (0 < section_nb_issues r)%N /\
  map fst (im_map (ct_not_linked (st_corners (r_section_topology r)))) = [0; 1; 2] /\ map fst (im_map (ct_not_linked (st_corners (r_section_topology r')))) = [2; 1; 0].
Proof.
  assert (U : unique_ids loose_triangle) by (apply nodupb_ok; vm_compute; reflexivity). split; [exact U|].
  assert (E : match inspect_section triangle_oracles loose_triangle no_storage (Ok empty_intersections), inspect_section triangle_oracles (turned loose_triangle) no_storage (Ok empty_intersections) with
    | Ok r, Ok r' => (N.ltb 0 (section_nb_issues r), map fst (im_map (ct_not_linked (st_corners (r_section_topology r)))), map fst (im_map (ct_not_linked (st_corners (r_section_topology r'))))) = (true, [0; 1; 2], [2; 1; 0])
    | _, _ => False end) by (vm_compute; reflexivity).
  apply both_return in E. destruct E as (r & r' & E1 & E2 & E). exists r, r'. split; [exact E1|]. split; [exact E2|]. split.
  - destruct (C70_section triangle_oracles loose_triangle (turned loose_triangle) no_storage no_storage empty_intersections empty_intersections r (turned_reordered _) U (same_refl _ empty_intersections (eq_refl : paired empty_intersections)) E1) as (r2 & E3 & R).
    pose proof (eq_trans (eq_sym E2) E3) as X. injection X as <-. exact R.
  - injection E as E3 -> ->. split; [apply N.ltb_lt, E3|auto].
Qed.
(** a BRep with a run of the search, which finds two pairs whatever the order of its components *)
Example pairs_turned : unique_ids br_model /\ exists x x', brep_inspect_intersections exact_px br_model br_trees br_lines (Ok x) /\
  brep_inspect_intersections exact_px (turned br_model) br_trees br_lines (Ok x') /\ same_issues x x' /\ In ((mkCID SurfaceT 0, 0), (mkCID LineT 10, 0)) (ii_issues x).
Proof.
  assert (U : unique_ids br_model) by (apply nodupb_ok; vm_compute; reflexivity). split; [exact U|].
  destruct (C27_C48_queries_terminate exact_px br_model br_trees br_lines) as (_ & (r & H) & _). destruct (br_found r H) as (x & -> & F).
  destruct (C27_C48_queries_terminate exact_px (turned br_model) br_trees br_lines) as (_ & (r' & H') & _).
  destruct (C70_brep_intersections exact_px br_model (turned br_model) br_trees br_lines x r' (turned_reordered br_model) U H H') as (x' & -> & S). exists x, x'. split; [exact H|]. split; [exact H'|]. split; [exact S|]. apply F. auto.
Qed.
