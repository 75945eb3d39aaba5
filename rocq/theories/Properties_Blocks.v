(** C39-C43, C46, C54-C56: blocks and whole BReps. *)
From Coq Require Import String Ascii List Arith NArith ZArith Bool Lia Sorted Floats.SpecFloat.
From Verif Require Import Base BaseFacts Model_Issues Types Model_Colocation Model_Topology Model_BRep Model_Blocks Spec_Colocation Spec_Maps Spec_Adjacency
  Spec_Topology Spec_BRep Spec_Blocks Proof_Topology Proof_Topology4 Proof_TopologyCheck Proof_BRep Proof_BRep2 Proof_BRep4 Proof_BRep5 Proof_BRep6 Proof_BRepCheck
  Proof_Blocks Proof_Blocks2 Proof_Blocks3 Proof_Blocks4 Proof_Blocks5 Proof_Blocks6 Properties_Topology Properties_BRep.
Import ListNotations.
Open Scope list_scope.

(** ** C40: connected parts *)
Theorem C40_first_part : forall m s0 q, brep_ok m -> (forall t, In t (s0 :: q) -> In t (component_ids m SurfaceT)) -> below_2_32 (length q) ->
  exists part rest, closed_linked_surfaces m (s0 :: q) = Ok (part, rest) /\ NoDup part /\
    (forall t, In t part <-> linked_within m (s0 :: q) s0 t) /\ (forall t, In t rest <-> In t (s0 :: q) /\ ~ In t part).
Proof.
  intros m s0 q H Hex Hb. destruct (closed_linked_ok m H s0 q Hex Hb) as (P & R & E & Pr & _). exists P, R. split; [exact E|].
  pose proof Pr as (N & L & _). split; [exact N|]. split; [exact L|]. intros t. apply (part_rest m s0 _ _ _ t Pr).
Qed.
Print Assumptions C40_first_part.
Theorem C40_connected_parts : forall m L, brep_ok m -> (forall t, In t L -> In t (component_ids m SurfaceT)) -> below_2_32 (length L) ->
  exists parts, linked_parts (length L) m L = Ok parts /\ connected_parts m L parts.
Proof. intros m L H Hex Hb. apply linked_parts_ok; auto. Qed.
Print Assumptions C40_connected_parts.

(** ** C41: model boundaries *)
Theorem C41_no_surface_is_undefined : forall tl m, brep_ok m -> inside_block_ok tl -> active_ids m BlockT <> [] ->
  m_model_boundaries m <> [] -> model_boundary_surfaces m = [] -> brep_inspect_blocks tl m = UB.
Proof. exact blocks_ub. Qed.
Print Assumptions C41_no_surface_is_undefined.
Theorem C41_reported_iff_not_connected : forall tl m, blocks_ok tl m -> active_ids m BlockT <> [] ->
  exists r, brep_inspect_blocks tl m = Ok r /\
    (ii_issues (bb_model_boundaries r) = [] <-> all_linked m (model_boundary_surfaces m)) /\
    (ii_issues (bb_model_boundaries r) = [0] <-> ~ all_linked m (model_boundary_surfaces m)).
Proof.
  intros tl m K HA. destruct (blocks_spec tl m K HA) as (r & E & B). exists r. split; [exact E|].
  destruct (rb_model tl m r B) as [[Q ->]|[Q ->]]; split; split; intros; try discriminate; tauto.
Qed.
Print Assumptions C41_reported_iff_not_connected.

(** ** C42: surfaces that can bound a block *)
Theorem C42_not_boundary_surfaces : forall m, brep_ok m -> exists l, find_not_boundary_surfaces m = Ok l /\ NoDup l /\
  (forall s, In s l <-> In s (component_ids m SurfaceT) /\ ~ in_closed_set m s) /\
  (forall s, In s (component_ids m SurfaceT) -> In s l \/ in_closed_set m s).
Proof. exact find_not_boundary_ok. Qed.
Print Assumptions C42_not_boundary_surfaces.

(** ** C43: relationships of surfaces with blocks *)
(** during an inspection the check runs with the lists computed from the model *)
Theorem C43_reported_iff : forall tl m uv nb dl, brep_ok m -> inside_block_ok tl -> find_not_boundary_surfaces m = Ok nb -> find_dangling_surfaces tl m nb = Ok dl ->
  reports_iff (surface_with_wrong_relationships_to_block m nb dl uv) (surface_relation_wrong tl m uv).
Proof.
  intros tl m uv nb dl H Hi E1 E2. destruct (find_not_boundary_ok m H) as (nb' & E1' & _ & K1 & _). rewrite E1 in E1'. injection E1' as <-.
  destruct (find_dangling_ok m uv H tl Hi nb K1) as (dl' & E2' & K2). rewrite E2 in E2'. injection E2' as <-. apply (relationships_ok m uv H tl nb dl K1 K2).
Qed.
Print Assumptions C43_reported_iff.
Theorem C43_only_two_messages : forall tl m uv nb dl msg, brep_ok m -> inside_block_ok tl -> find_not_boundary_surfaces m = Ok nb -> find_dangling_surfaces tl m nb = Ok dl ->
  surface_with_wrong_relationships_to_block m nb dl uv = Ok (Some msg) ->
  exists s n, active_at m uv SurfaceT s /\ kind_named m SurfaceT s = Ok n /\
    ((wrongly_bounding m s /\
      msg = StrCat ["unique vertex with index "; str uv; " is part of Surface "; n; ", which should not be boundary of any Block."]%string) \/
     (without_relation tl m s /\
      msg = StrCat ["unique vertex "; str uv; " is part of Surface "; n; ", which is not internal to a Block while it should be."]%string)).
Proof.
  intros tl m uv nb dl msg H Hi E1 E2 K. destruct (find_not_boundary_ok m H) as (nb' & E1' & _ & K1 & _). rewrite E1 in E1'. injection E1' as <-.
  destruct (find_dangling_ok m uv H tl Hi nb K1) as (dl' & E2' & K2). rewrite E2 in E2'. injection E2' as <-. apply (relationships_message m uv H tl nb dl K1 K2 msg K).
Qed.
Print Assumptions C43_only_two_messages.

(** ** C46: expected number of block vertices *)
Theorem C46_expected_count : forall m uv b, brep_ok m -> counts_fit m -> at_vertex m uv BlockT b ->
  exists e r, expected_block_cmvs_and_error m uv b = Ok (e, r) /\ nb_expected_block_cmvs m uv b = Ok e /\
  (exists k : block_counts m uv b, True) /\
  forall k : block_counts m uv b, (r = None <-> count_accepted k) /\
    (Z.of_N e = (expected k mod 2 ^ 32)%Z \/
     (Nat.Odd (bc_several _ _ _ k) /\ e = N.of_nat (bc_blocks _ _ _ k) /\
      same_index (Z.of_nat (bc_blocks _ _ _ k)) (expected k + Z.of_nat (bc_several _ _ _ k))%Z)).
Proof.
  intros m uv b H Hf A. assert (Hb : In b (component_ids m BlockT)) by (apply (brep_links_exist m H uv BlockT); [exact A|discriminate]).
  destruct (expected_ok m uv b H Hb Hf A) as (e & r & E & K). exists e, r. split; [exact E|]. split; [unfold nb_expected_block_cmvs; rewrite E; reflexivity|].
  split; [exists (the_counts m uv b); exact I|exact K].
Qed.
Print Assumptions C46_expected_count.
Theorem C46_reported_iff : forall m uv, brep_ok m -> counts_fit m -> reports_iff (unique_vertex_block_cmvs_count_is_incorrect m uv) (block_count_wrong m uv).
Proof. exact wrong_count_ok. Qed.
Print Assumptions C46_reported_iff.
(** when the formula is an [index_t], the answer is the formula itself *)
Theorem C46_exact_in_range : forall m uv b (k : block_counts m uv b), brep_ok m -> counts_fit m -> at_vertex m uv BlockT b ->
  (0 <= expected k < 2 ^ 32)%Z -> Nat.Even (bc_several _ _ _ k) -> nb_expected_block_cmvs m uv b = Ok (Z.to_N (expected k)).
Proof.
  intros m uv b k H Hf A R Ev. destruct (C46_expected_count m uv b H Hf A) as (e & r & _ & E & _ & K). rewrite E. f_equal. destruct (K k) as [_ [Q|(Q & _)]].
  - rewrite Z.mod_small in Q by exact R. rewrite <- Q. symmetry. apply N2Z.id.
  - exfalso. destruct Q as [q Q], Ev as [p Ev]. lia.
Qed.
Print Assumptions C46_exact_in_range.

(** ** C54: closedness of the boundary of a block *)
Theorem C54_closedness : forall tl m b, brep_ok m -> inside_safe tl -> below_2_32 (length (m_boundary_rel m)) -> In b (component_ids m BlockT) ->
  exists parts, connected_parts m (block_surfaces m b) parts /\ decides (block_boundaries_are_closed tl m b) (counted_as_closed tl m parts).
Proof. intros tl m b H S Hr Hb. destruct (block_closed_ok m H tl b S Hb Hr) as (parts & _ & C & D). eauto. Qed.
Print Assumptions C54_closedness.
(** a boundary in one piece is never said not to be closed, whatever its free lines *)
Theorem C54_connected_never_reported : forall tl m b, brep_ok m -> inside_safe tl -> below_2_32 (length (m_boundary_rel m)) -> In b (component_ids m BlockT) ->
  all_linked m (block_surfaces m b) -> block_boundaries_are_closed tl m b = Ok true.
Proof.
  intros tl m b H S Hr Hb A. destruct (block_closed_ok m H tl b S Hb Hr) as (parts & _ & C & x & E & K). rewrite E. f_equal. apply K. left.
  destruct parts as [|p [|q parts]]; cbn [length]; [lia|lia|]. exfalso. destruct C as [C1 C2 C3 C4].
  destruct p as [|s p]; [apply (C1 []); [left|]; reflexivity|]. destruct q as [|t q]; [apply (C1 []); [right; left|]; reflexivity|].
  assert (Hs : In s (block_surfaces m b)) by (apply C3; cbn [concat]; apply in_app_iff; left; left; reflexivity).
  assert (Ht : In t (block_surfaces m b)) by (apply C3; cbn [concat]; apply in_app_iff; right; apply in_app_iff; left; left; reflexivity).
  assert (Hp : In t (s :: p)) by (apply (C4 (s :: p) s (or_introl eq_refl) (or_introl eq_refl)); apply A; assumption).
  cbn [concat] in C2. apply Proof_Colocation.NoDup_app_inv in C2 as (_ & _ & D). apply (D t Hp). apply in_app_iff. left. left. reflexivity.
Qed.
Print Assumptions C54_connected_never_reported.

(** ** C55: the check of vertices on several surfaces and lines never reports anything *)
Theorem C55_never_reports : forall m uv, brep_multiple_surfaces_invalid_line m uv = Ok None.
Proof. exact multiple_surfaces_silent. Qed.
Print Assumptions C55_never_reports.

(** ** C56: the whole inspection of blocks *)
Theorem C56_blocks : forall tl m, blocks_ok tl m -> active_ids m BlockT <> [] -> exists r, brep_inspect_blocks tl m = Ok r /\ blocks_report tl m r.
Proof. exact blocks_spec. Qed.
Print Assumptions C56_blocks.
Theorem C56_no_active_block : forall tl m, active_ids m BlockT = [] -> brep_inspect_blocks tl m = Ok brep_blocks_default.
Proof. exact no_active_block. Qed.
Print Assumptions C56_no_active_block.
(** the predicate of a vertex looks at two of the five lists *)
Theorem C56_predicate_and_lists : forall tl m uv r, blocks_ok tl m -> active_ids m BlockT <> [] -> uv < nb_unique_vertices m -> brep_inspect_blocks tl m = Ok r ->
  decides (brep_blocks_topology_is_valid m uv) (~ In uv (ii_issues (bb_two_blocks r)) /\ ~ In uv (ii_issues (bb_wrong_count r))).
Proof.
  intros tl m uv r K HA Huv E. destruct (blocks_spec tl m K HA) as (r' & E' & B). rewrite E in E'. injection E' as <-.
  eapply decides_ext; [apply blocks_valid; [apply (bo_brep tl m K)|apply (bo_fit tl m K)]|].
  rewrite (not_listed m _ _ uv (rb_two tl m r B) Huv), (not_listed m _ _ uv (rb_count tl m r B) Huv). tauto.
Qed.
Print Assumptions C56_predicate_and_lists.

(** ** C39: validity of a BRep and its report *)
Theorem C39_brep_validity : forall tl m, brep_ok m -> lookup_ok tl m -> lines_inspectable m -> counts_fit m ->
  decides (brep_topology_is_valid tl m)
    (0 < nb_unique_vertices m /\
     meshed_linked CornerT has_points nb_points0 m (m_corners m) /\ meshed_linked LineT has_points_and_edges nb_points1 m (m_lines m) /\
     meshed_linked SurfaceT has_points_and_polygons nb_points2 m (m_surfaces m) /\ meshed_linked BlockT has_points_and_polyhedra nb_points3 m (m_blocks m) /\
     bijectively_linked m /\ forall uv, uv < nb_unique_vertices m -> brep_vertex_fine tl m uv).
Proof. exact brep_valid_spec. Qed.
Print Assumptions C39_brep_validity.
Theorem C39_brep_inspection : forall tl m, blocks_ok tl m -> lookup_ok tl m -> lines_inspectable m -> exists rc rl rs rb links,
  brep_inspect_corners_topology m = Ok rc /\ brep_inspect_lines_topology tl m = Ok rl /\ brep_inspect_surfaces_topology tl m = Ok rs /\
  brep_inspect_blocks tl m = Ok rb /\ add_unique_vertices_with_wrong_cmv_link m cmv_exists_in_brep no_links = Ok links /\
  inspect_brep_topology tl m = Ok (mkBRepTopology rc rl rs rb links).
Proof. exact brep_topology_spec. Qed.
Print Assumptions C39_brep_inspection.

(** *** Examples *)
Definition fitsb (m : Model) : bool := forallb (fun cmvs => N.ltb (N.of_nat (length cmvs * (3 * length (m_boundary_rel m) + 1))) (2 ^ 32)) (m_cmvs m).
Lemma fitsb_ok : forall m, fitsb m = true -> counts_fit m.
Proof. intros m F cmvs Hc. unfold fitsb in F. rewrite forallb_forall in F. apply N.ltb_lt, F, Hc. Qed.
Definition blocksb (m : Model) : bool :=
  brepb m && (forallb (fun s => inb s (component_ids m SurfaceT)) (model_boundary_surfaces m) &&
  (match m_model_boundaries m, model_boundary_surfaces m with [], _ => true | _, [] => false | _, _ => true end &&
  (N.ltb (N.of_nat (length (model_boundary_surfaces m))) (2 ^ 32) && (N.ltb (N.of_nat (length (m_boundary_rel m))) (2 ^ 32) && fitsb m)))).
Lemma blocksb_ok : forall tl m, inside_safe tl -> inside_block_ok tl -> blocksb m = true -> blocks_ok tl m.
Proof.
  intros tl m S I F. unfold blocksb in F. apply andb_true_iff in F as [F1 F]. apply andb_true_iff in F as [F2 F]. apply andb_true_iff in F as [F3 F].
  apply andb_true_iff in F as [F4 F]. apply andb_true_iff in F as [F5 F6]. constructor; auto.
  - apply brepb_ok, F1.
  - intros s Hs. rewrite forallb_forall in F2. apply inb_iff, F2, Hs.
  - destruct (m_model_boundaries m); [auto|]. right. destruct (model_boundary_surfaces m); [discriminate|discriminate].
  - apply N.ltb_lt, F4.
  - apply N.ltb_lt, F5.
  - apply fitsb_ok, F6.
Qed.
Lemma tables_safe : forall te tp r1 b r2, inside_safe (table_lookup te tp (fun _ _ => Ok r1) b (fun _ _ => Ok r2)) /\ inside_block_ok (table_lookup te tp (fun _ _ => Ok r1) b (fun _ _ => Ok r2)).
Proof. intros. split; [intros p x; split; discriminate|intros s q; exists r1; reflexivity]. Qed.
Definition no_issue_in_blocks (r : BRepBlocksTopology) : bool :=
  match ii_issues (bb_not_meshed r), im_map (bb_not_linked r), ii_issues (bb_wrong_boundary r), ii_issues (bb_not_closed r), ii_issues (bb_model_boundaries r),
        ii_issues (bb_two_blocks r), ii_issues (bb_wrong_count r), ii_issues (bb_single_invalid r), ii_issues (bb_wrong_relationship r), ii_issues (bb_multiple_invalid r) with
  | [], [], [], [], [], [], [], [], [], [] => true | _, _, _, _, _, _, _, _, _, _ => false end.
Definition no_issue_elsewhere (r : BRepTopology) : bool :=
  match ii_issues (ct_not_meshed (bt_corners r)), im_map (ct_not_linked (bt_corners r)), ii_issues (ct_multiple_corners (bt_corners r)), ii_issues (ct_multiple_embeddings (bt_corners r)),
        ii_issues (ct_not_internal_nor_boundary (bt_corners r)), ii_issues (ct_not_boundary_line (bt_corners r)) with
  | [], [], [], [], [], [] => true | _, _, _, _, _, _ => false end &&
  match ii_issues (bl_not_meshed (bt_lines r)), im_map (bl_not_linked (bt_lines r)), ii_issues (bl_wrong_relationship (bt_lines r)), ii_issues (bl_invalid_embeddings (bt_lines r)),
        ii_issues (bl_single_invalid (bt_lines r)), ii_issues (bl_several_not_corner (bt_lines r)), im_map (bl_wrong_edges (bt_lines r)) with
  | [], [], [], [], [], [], [] => true | _, _, _, _, _, _, _ => false end &&
  match ii_issues (bs_not_meshed (bt_surfaces r)), im_map (bs_not_linked (bt_surfaces r)), ii_issues (bs_invalid_embeddings (bt_surfaces r)), ii_issues (bs_several_invalid (bt_surfaces r)),
        ii_issues (bs_not_on_border (bt_surfaces r)), im_map (bs_wrong_facets (bt_surfaces r)) with
  | [], [], [], [], [], [] => true | _, _, _, _, _, _ => false end &&
  match ii_issues (li_not_linked (bt_links r)), ii_issues (li_inexistant (bt_links r)), ii_issues (li_nonbijective (bt_links r)) with
  | [], [], [] => true | _, _, _ => false end.
(** every list of the report is empty *)
Definition empty_report (r : BRepTopology) : bool := no_issue_in_blocks (bt_blocks r) && no_issue_elsewhere r.
Example tet_blocks_ok : blocks_ok tet_tl tet /\ active_ids tet BlockT <> [] /\ lookup_ok tet_tl tet /\ lines_inspectable tet.
Proof.
  split; [apply blocksb_ok; [apply tables_safe|apply tables_safe|vm_compute; reflexivity]|]. split; [discriminate|apply tet_ok].
Qed.
Example tet_valid : brep_topology_is_valid tet_tl tet = Ok true /\ exists r, inspect_brep_topology tet_tl tet = Ok r /\ empty_report r = true.
Proof. split; [vm_compute; reflexivity|]. eexists. split; vm_compute; reflexivity. Qed.
(** C39, first direction: an active corner without mesh, and a facet seen twice, are reported; the BRep is said valid. *)
Definition unmeshed_tet := a_brep (mkComponent 9 None true (mkPointSet []) :: tet_corners) tet_lines tet_surfaces [a_block 1000 true] [(5000, [100; 101; 102; 103])] tet_cmvs tet_bnd [].
Definition facet_tl := table_lookup tet_te (([1; 2; 3], [(1000, 2)]) :: tl tet_tp) (fun _ _ => Ok true) (fun _ _ => false) (fun _ _ => Ok true).
Theorem C39_valid_but_reported : exists tl m r, blocks_ok tl m /\ lookup_ok tl m /\ lines_inspectable m /\ brep_topology_is_valid tl m = Ok true /\
  inspect_brep_topology tl m = Ok r /\ ii_issues (ct_not_meshed (bt_corners r)) = [9] /\ map fst (im_map (bs_wrong_facets (bt_surfaces r))) = [100].
Proof.
  exists facet_tl, unmeshed_tet. eexists. assert (H : blocks_ok facet_tl unmeshed_tet) by (apply blocksb_ok; [apply tables_safe|apply tables_safe|vm_compute; reflexivity]).
  split; [exact H|]. split; [apply tableb_ok; vm_compute; reflexivity|]. split; [apply simple_inspectable; [apply (bo_brep _ _ H)|vm_compute; reflexivity|vm_compute; reflexivity]|].
  split; [vm_compute; reflexivity|]. split; [vm_compute; reflexivity|]. vm_compute. auto.
Qed.
Print Assumptions C39_valid_but_reported.
(** C39, second direction: corner 0 internal to the block. *)
Definition embedded_tet := a_brep tet_corners tet_lines tet_surfaces [a_block 1000 true] [(5000, [100; 101; 102; 103])] tet_cmvs tet_bnd [(cid_ 0, bid_ 1000)].
Theorem C39_empty_report_but_invalid : exists tl m r, blocks_ok tl m /\ lookup_ok tl m /\ lines_inspectable m /\ brep_topology_is_valid tl m = Ok false /\
  inspect_brep_topology tl m = Ok r /\ empty_report r = true.
Proof.
  exists tet_tl, embedded_tet. eexists. assert (H : blocks_ok tet_tl embedded_tet) by (apply blocksb_ok; [apply tables_safe|apply tables_safe|vm_compute; reflexivity]).
  split; [exact H|]. split; [apply tableb_ok; vm_compute; reflexivity|]. split; [apply simple_inspectable; [apply (bo_brep _ _ H)|vm_compute; reflexivity|vm_compute; reflexivity]|].
  split; [vm_compute; reflexivity|]. split; vm_compute; reflexivity.
Qed.
Print Assumptions C39_empty_report_but_invalid.
(** a model without unique vertex is invalid, and nothing is reported *)
Theorem C39_no_vertex_is_invalid : forall tl m, nb_unique_vertices m = 0 -> brep_topology_is_valid tl m = Ok false.
Proof. intros tl m E. unfold brep_topology_is_valid. rewrite E. reflexivity. Qed.
Print Assumptions C39_no_vertex_is_invalid.

(** Every kind of block issue: surface 104 (lines 16-18, corners 4-6) apart from the tetrahedron and said to bound it,
    block 1001 without boundary, block 1002 without mesh, vertex 7 in two blocks, vertex 8 twice in block 1000, vertex 9 in
    surface 100 and block 1001. *)
Definition no_mesh_block id := mkComponent id None true
  (mkSolid [] [] (fun _ => None) [] (fun _ => false) (fun _ => d0) (fun _ => d0) (fun _ => Ok []) (fun _ _ => Ok [])).
Definition crowd := a_brep (tet_corners ++ [a_corner 4 true; a_corner 5 true; a_corner 6 true]) (tet_lines ++ [a_line 16 true; a_line 17 true; a_line 18 true])
  (tet_surfaces ++ [a_surface 104 true all_border]) [a_block 1000 true; a_block 1001 true; no_mesh_block 1002] [(5000, [100; 101; 102; 103]); (4001, [104])]
  (tet_cmvs ++ [[c_ 4 0; l_ 16 0; l_ 18 1; s_ 104 0]; [c_ 5 0; l_ 16 1; l_ 17 0; s_ 104 1]; [c_ 6 0; l_ 17 1; l_ 18 0; s_ 104 2];
    [b_ 1000 0; b_ 1001 0]; [b_ 1000 1; b_ 1000 2]; [s_ 100 0; b_ 1001 1]])
  (tet_bnd ++ [(cid_ 4, lid_ 16); (cid_ 5, lid_ 16); (cid_ 5, lid_ 17); (cid_ 6, lid_ 17); (cid_ 6, lid_ 18); (cid_ 4, lid_ 18);
    (lid_ 16, sid_ 104); (lid_ 17, sid_ 104); (lid_ 18, sid_ 104); (sid_ 104, bid_ 1000)]) [].
Example crowd_report : blocks_ok tet_tl crowd /\ active_ids crowd BlockT <> [] /\ exists r, brep_inspect_blocks tet_tl crowd = Ok r /\
  ii_issues (bb_not_meshed r) = [1002] /\ map (fun e => (fst e, ii_issues (snd e))) (im_map (bb_not_linked r)) = [(1001, [2; 3])] /\
  ii_issues (bb_wrong_boundary r) = [1000] /\ ii_issues (bb_not_closed r) = [1000] /\ ii_issues (bb_model_boundaries r) = [0] /\
  ii_issues (bb_two_blocks r) = [7] /\ ii_issues (bb_wrong_count r) = [8] /\ ii_issues (bb_single_invalid r) = [9] /\ ii_issues (bb_wrong_relationship r) = [4; 5; 6].
Proof.
  split; [apply blocksb_ok; [apply tables_safe|apply tables_safe|vm_compute; reflexivity]|]. split; [discriminate|]. eexists. split; [vm_compute; reflexivity|]. vm_compute. repeat split.
Qed.
(** C42 on it: the four surfaces of the tetrahedron can bound, surface 104 cannot *)
Example crowd_not_boundary : find_not_boundary_surfaces crowd = Ok [104].
Proof. vm_compute. reflexivity. Qed.
(** C46 on it: vertex 0 has three bounding surfaces, three lines along the block and a corner: 1 + (3 - 1 - 3) + 1 *)
Example tet_expected : nb_expected_block_cmvs tet 0 1000 = Ok 1%N /\ at_vertex tet 0 BlockT 1000 /\ counts_fit tet.
Proof. split; [vm_compute; reflexivity|]. split; [exists 0; cbn; auto 10|apply fitsb_ok; vm_compute; reflexivity]. Qed.
(** C41: a model boundary without surface *)
Definition empty_boundary := a_brep tet_corners tet_lines tet_surfaces [a_block 1000 true] [(5000, [])] tet_cmvs tet_bnd [].
Example empty_boundary_ub : brep_ok empty_boundary /\ inside_block_ok tet_tl /\ active_ids empty_boundary BlockT <> [] /\ m_model_boundaries empty_boundary <> [] /\
  model_boundary_surfaces empty_boundary = [] /\ brep_inspect_blocks tet_tl empty_boundary = UB.
Proof. split; [apply brepb_ok; vm_compute; reflexivity|]. split; [apply tables_safe|]. repeat split; try discriminate. Qed.
(** C54: an open boundary in one piece: three surfaces of the tetrahedron *)
Definition open_tet := a_brep tet_corners tet_lines tet_surfaces [a_block 1000 true] [] tet_cmvs (removelast tet_bnd) [].
Example open_tet_report : blocks_ok tet_tl open_tet /\ exists r, brep_inspect_blocks tet_tl open_tet = Ok r /\
  ii_issues (bb_not_closed r) = [] /\ ii_issues (bb_wrong_boundary r) = [1000].
Proof. split; [apply blocksb_ok; [apply tables_safe|apply tables_safe|vm_compute; reflexivity]|]. eexists. split; [vm_compute; reflexivity|]. vm_compute. auto. Qed.
