(** C36, C37, C45, C50-C53: corners, lines and surfaces of a BRep. *)
From Coq Require Import String Ascii List Arith NArith ZArith Bool Lia Sorted Floats.SpecFloat.
From Verif Require Import Base BaseFacts Model_Issues Types Model_Colocation Model_Topology Model_BRep Spec_Colocation Spec_Maps Spec_Adjacency
  Spec_Topology Spec_BRep Proof_Topology Proof_Topology4 Proof_TopologyCheck Proof_BRep Proof_BRep2 Proof_BRep4 Proof_BRep5 Proof_BRep6 Proof_BRepCheck Properties_Topology.
Import ListNotations.
Open Scope list_scope.

(** ** C36: corners *)
Theorem C36_C45_brep_corners : forall m, brep_ok m -> exists r, brep_inspect_corners_topology m = Ok r /\
  components_reported CornerT has_points nb_points0 true m (m_corners m) (ct_not_meshed r) (ct_not_linked r) /\
  lists_vertices m (several_corners m) (ii_issues (ct_multiple_corners r)) /\
  lists_vertices m (corner_in_block_and_elsewhere m) (ii_issues (ct_multiple_embeddings r)) /\
  lists_vertices m (corner_without_relation m) (ii_issues (ct_not_internal_nor_boundary r)) /\
  lists_vertices m (corner_unrelated_to_line m) (ii_issues (ct_not_boundary_line r)).
Proof. exact brep_corners_spec. Qed.
(** the vertex predicate says the same, and one condition more *)
Theorem C36_predicate_and_lists : forall m uv r, brep_ok m -> uv < nb_unique_vertices m -> brep_inspect_corners_topology m = Ok r ->
  decides (brep_corner_topology_is_valid m uv)
    (~ In uv (ii_issues (ct_multiple_corners r)) /\ ~ In uv (ii_issues (ct_multiple_embeddings r)) /\
     ~ In uv (ii_issues (ct_not_internal_nor_boundary r)) /\ ~ In uv (ii_issues (ct_not_boundary_line r)) /\
     ~ embedded_corner_bounding_several m uv).
Proof.
  intros m uv r H Huv E. destruct (brep_corners_spec m H) as (r' & E' & _ & C1 & C2 & C3 & C4). rewrite E in E'. injection E' as <-.
  eapply decides_ext; [apply brep_corner_valid, H|].
  rewrite (not_listed m _ _ uv C1 Huv), (not_listed m _ _ uv C2 Huv), (not_listed m _ _ uv C3 Huv), (not_listed m _ _ uv C4 Huv). tauto.
Qed.

(** ** C37: closed lines *)
(** A vertex of an active corner internal to an active line is listed unless the corner, not the line, is linked to it
    exactly twice; whatever the number of vertices of the line there. *)
Theorem C37_closed_line_reported : forall m uv r c l n, brep_ok m -> uv < nb_unique_vertices m -> brep_inspect_corners_topology m = Ok r ->
  active_at m uv CornerT c -> active_at m uv LineT l -> inside m c l -> ~ bounds m c l ->
  counts (fun k => cid_id (cmv_component k) = c) (component_mesh_vertices m uv) n -> n <> 2 ->
  In uv (ii_issues (ct_not_boundary_line r)).
Proof.
  intros m uv r c l n H Huv E Hc Hl Hi Hb Hn Hn2. destruct (brep_corners_spec m H) as (r' & E' & _ & _ & _ & _ & [_ C4]). rewrite E in E'. injection E' as <-.
  apply C4. split; [exact Huv|]. exists c, l. split; [exact Hc|]. split; [exact Hl|]. split; [exact Hb|]. intros [_ K]. apply Hn2.
  set (p := fun k => Nat.eqb (cmv_id k) c). assert (P : forall k, In k (component_mesh_vertices m uv) -> (p k = true <-> cid_id (cmv_component k) = c)) by (intros k _; apply Nat.eqb_eq).
  apply (counts_filter _ _ p _ _ P) in Hn, K. congruence.
Qed.

(** ** C50: lines *)
Theorem C50_C45_brep_lines : forall tl m, brep_ok m -> lookup_ok tl m -> lines_inspectable m ->
  exists r, brep_inspect_lines_topology tl m = Ok r /\
  components_reported LineT has_points_and_edges nb_points1 false m (m_lines m) (bl_not_meshed r) (bl_not_linked r) /\
  elements_reported LineT nb_points1 (fun p => length (ec_edges p)) (line_edge_wrong tl m) m (m_lines m) (bl_wrong_edges r) /\
  lists_vertices m (line_embedding_wrong m) (ii_issues (bl_invalid_embeddings r)) /\
  lists_vertices m (line_relationship_wrong tl m) (ii_issues (bl_wrong_relationship r)) /\
  lists_vertices m (only_line_wrong m) (ii_issues (bl_single_invalid r)) /\
  lists_vertices m (lines_without_corner m) (ii_issues (bl_several_not_corner r)).
Proof. exact brep_lines_spec. Qed.
(** the vertex predicate is the absence from the four vertex lists *)
Theorem C50_predicate_and_lists : forall tl m uv r, brep_ok m -> lookup_ok tl m -> lines_inspectable m -> uv < nb_unique_vertices m ->
  brep_inspect_lines_topology tl m = Ok r ->
  decides (brep_lines_topology_is_valid tl m uv)
    (~ In uv (ii_issues (bl_invalid_embeddings r)) /\ ~ In uv (ii_issues (bl_wrong_relationship r)) /\
     ~ In uv (ii_issues (bl_single_invalid r)) /\ ~ In uv (ii_issues (bl_several_not_corner r))).
Proof.
  intros tl m uv r H Hlo Hi Huv E. destruct (brep_lines_spec tl m H Hlo Hi) as (r' & E' & _ & _ & C1 & C2 & C3 & C4). rewrite E in E'. injection E' as <-.
  destruct (Hi uv Huv) as [H1 H2]. eapply decides_ext; [apply brep_lines_valid; assumption|].
  rewrite (not_listed m _ _ uv C1 Huv), (not_listed m _ _ uv C2 Huv), (not_listed m _ _ uv C3 Huv), (not_listed m _ _ uv C4 Huv). tauto.
Qed.

(** ** C51: surfaces *)
Theorem C51_C45_brep_surfaces : forall tl m, brep_ok m -> lookup_ok tl m ->
  exists r, brep_inspect_surfaces_topology tl m = Ok r /\
  components_reported SurfaceT has_points_and_polygons nb_points2 false m (m_surfaces m) (bs_not_meshed r) (bs_not_linked r) /\
  elements_reported SurfaceT nb_points2 (fun p => length (sm_polygons p)) (surface_facet_wrong tl m) m (m_surfaces m) (bs_wrong_facets r) /\
  lists_vertices m (surface_badly_embedded m) (ii_issues (bs_invalid_embeddings r)) /\
  lists_vertices m (several_surfaces_wrong m) (ii_issues (bs_several_invalid r)) /\
  lists_vertices m (related_line_vertex_off_border m) (ii_issues (bs_not_on_border r)).
Proof. exact brep_surfaces_spec. Qed.
(** the vertex predicate only looks at the vertices of active surfaces *)
Theorem C51_predicate_and_lists : forall tl m uv r, brep_ok m -> lookup_ok tl m -> uv < nb_unique_vertices m -> brep_inspect_surfaces_topology tl m = Ok r ->
  decides (brep_surfaces_topology_is_valid m uv)
    ((exists s, active_at m uv SurfaceT s) -> ~ In uv (ii_issues (bs_invalid_embeddings r)) /\ ~ In uv (ii_issues (bs_several_invalid r)) /\
     ~ In uv (ii_issues (bs_not_on_border r))).
Proof.
  intros tl m uv r H Hlo Huv E. destruct (brep_surfaces_spec tl m H Hlo) as (r' & E' & _ & _ & C1 & C2 & C3). rewrite E in E'. injection E' as <-.
  eapply decides_ext; [apply brep_surfaces_valid, H|].
  rewrite (not_listed m _ _ uv C1 Huv), (not_listed m _ _ uv C2 Huv), (not_listed m _ _ uv C3 Huv). tauto.
Qed.

(** ** C52: a line embedded in a block the vertex is not linked to *)
Theorem C52_block_embedding_raises : forall tl m, brep_ok m -> lookup_ok tl m ->
  (forall uv, uv < nb_unique_vertices m -> first_edges_linked m uv) ->
  (exists uv, uv < nb_unique_vertices m /\ block_embedding_wrong m uv /\ ~ surface_embedding_wrong m uv) ->
  brep_inspect_lines_topology tl m = Throw (m_missing_exn m).
Proof. exact brep_lines_throw. Qed.

(** ** C53: an unlinked vertex of the first edge of a line *)
Theorem C53_unlinked_first_edge : forall tl m, brep_ok m -> lookup_ok tl m ->
  (forall uv, uv < nb_unique_vertices m -> ~ block_embedding_wrong m uv) ->
  (exists uv, uv < nb_unique_vertices m /\ ~ first_edges_linked m uv /\ ~ line_relationship_wrong tl m uv) ->
  brep_inspect_lines_topology tl m = UB.
Proof. exact brep_lines_ub. Qed.

(** ** A tetrahedral block *)
Definition b_ id v := mkCMV (mkCID BlockT id) v.
Definition bid_ id := mkCID BlockT id.
Definition a_block id act := mkComponent id None act
  (mkSolid [[]; []; []; []] [mkPolyhedron [0; 1; 2; 3] [] []] (fun _ => None) [] (fun _ => false) (fun _ => d0) (fun _ => d0) (fun _ => Ok []) (fun _ _ => Ok [])).
Definition a_brep cs ls ss bs mbs cmvs bnd int : Model := mkModel cs ls ss bs mbs cmvs (owner 0 cmvs) bnd int OpenGeodeExn (fun _ => ""%string) (fun _ => ""%string) (fun _ => ""%string) (fun _ => ""%string).
(** corners 0-3; lines 10-15; surfaces 100-103; block 1000 *)
Definition tet_corners := [a_corner 0 true; a_corner 1 true; a_corner 2 true; a_corner 3 true].
Definition tet_lines := [a_line 10 true; a_line 11 true; a_line 12 true; a_line 13 true; a_line 14 true; a_line 15 true].
Definition all_border (v : nat) := true.
Definition tet_surfaces := [a_surface 100 true all_border; a_surface 101 true all_border; a_surface 102 true all_border; a_surface 103 true all_border].
(* lines: 10 = 0-1, 11 = 0-2, 12 = 0-3, 13 = 1-2, 14 = 1-3, 15 = 2-3; surfaces: 100 = 1 2 3, 101 = 0 2 3, 102 = 0 1 3, 103 = 0 1 2 *)
Definition tet_cmvs :=
  [[c_ 0 0; l_ 10 0; l_ 11 0; l_ 12 0; s_ 101 0; s_ 102 0; s_ 103 0; b_ 1000 0];
   [c_ 1 0; l_ 10 1; l_ 13 0; l_ 14 0; s_ 100 0; s_ 102 1; s_ 103 1; b_ 1000 1];
   [c_ 2 0; l_ 11 1; l_ 13 1; l_ 15 0; s_ 100 1; s_ 101 1; s_ 103 2; b_ 1000 2];
   [c_ 3 0; l_ 12 1; l_ 14 1; l_ 15 1; s_ 100 2; s_ 101 2; s_ 102 2; b_ 1000 3]].
Definition tet_bnd :=
  [(cid_ 0, lid_ 10); (cid_ 1, lid_ 10); (cid_ 0, lid_ 11); (cid_ 2, lid_ 11); (cid_ 0, lid_ 12); (cid_ 3, lid_ 12);
   (cid_ 1, lid_ 13); (cid_ 2, lid_ 13); (cid_ 1, lid_ 14); (cid_ 3, lid_ 14); (cid_ 2, lid_ 15); (cid_ 3, lid_ 15);
   (lid_ 13, sid_ 100); (lid_ 14, sid_ 100); (lid_ 15, sid_ 100); (lid_ 11, sid_ 101); (lid_ 12, sid_ 101); (lid_ 15, sid_ 101);
   (lid_ 10, sid_ 102); (lid_ 12, sid_ 102); (lid_ 14, sid_ 102); (lid_ 10, sid_ 103); (lid_ 11, sid_ 103); (lid_ 13, sid_ 103);
   (sid_ 100, bid_ 1000); (sid_ 101, bid_ 1000); (sid_ 102, bid_ 1000); (sid_ 103, bid_ 1000)].
Definition tet := a_brep tet_corners tet_lines tet_surfaces [a_block 1000 true] [(5000, [100; 101; 102; 103])] tet_cmvs tet_bnd [].
Definition tet_edge s t := mkMeshEdges [(s, 1); (t, 1)] [(1000, 1)].
Definition tet_te := [((0, 1), tet_edge 102 103); ((0, 2), tet_edge 101 103); ((0, 3), tet_edge 101 102); ((1, 2), tet_edge 100 103);
  ((1, 3), tet_edge 100 102); ((2, 3), tet_edge 100 101)].
Definition tet_tp := [([1; 2; 3], [(1000, 1)]); ([0; 2; 3], [(1000, 1)]); ([0; 1; 3], [(1000, 1)]); ([0; 1; 2], [(1000, 1)])].
Definition tet_tl := table_lookup tet_te tet_tp (fun _ _ => Ok true) (fun _ _ => false) (fun _ _ => Ok true).
Definition no_line_embeddings (m : Model) : bool := forallb (fun r => negb (inb (cid_id (fst r)) (component_ids m LineT))) (m_internal_rel m).
Lemma no_line_embeddings_ok : forall m uv, unique_ids m -> links_exist m -> no_line_embeddings m = true -> ~ block_embedding_wrong m uv.
Proof.
  intros m uv Hu Hl H (l & e & Ha & He & _). destruct (in_embeddings_rel m l e He) as (r & Hr & <- & _). unfold no_line_embeddings in H. rewrite forallb_forall in H. specialize (H r Hr).
  assert (K : In (cid_id (fst r)) (component_ids m LineT)) by (apply (Hl uv); [apply Ha|discriminate]). apply inb_iff in K. rewrite K in H. discriminate.
Qed.
Lemma simple_inspectable : forall m, brep_ok m -> no_line_embeddings m = true -> first_edgesb m = true -> lines_inspectable m.
Proof.
  intros m H H1 H2 uv _. split; [apply no_line_embeddings_ok; [apply (br_ids m H)|apply brep_links_exist, H|exact H1]|apply first_edgesb_ok, H2].
Qed.
Example tet_ok : brep_ok tet /\ lookup_ok tet_tl tet /\ lines_inspectable tet.
Proof.
  assert (H : brep_ok tet) by (apply brepb_ok; vm_compute; reflexivity). split; [exact H|]. split; [apply tableb_ok; vm_compute; reflexivity|].
  apply simple_inspectable; [exact H|vm_compute; reflexivity|vm_compute; reflexivity].
Qed.
Example tet_no_issue : exists rc rl rs, brep_inspect_corners_topology tet = Ok rc /\ brep_inspect_lines_topology tet_tl tet = Ok rl /\
  brep_inspect_surfaces_topology tet_tl tet = Ok rs /\
  (ii_issues (ct_not_boundary_line rc), ii_issues (bl_wrong_relationship rl), im_map (bl_wrong_edges rl), im_map (bs_wrong_facets rs)) = ([], [], [], []) /\
  map (brep_corner_topology_is_valid tet) [0; 1; 2; 3] = repeat (Ok true) 4 /\ map (brep_lines_topology_is_valid tet_tl tet) [0; 1; 2; 3] = repeat (Ok true) 4 /\
  map (brep_surfaces_topology_is_valid tet) [0; 1; 2; 3] = repeat (Ok true) 4.
Proof. eexists _, _, _. vm_compute. repeat split. Qed.
(** the same block with line 15 also internal to surface 100, corner 3 dropped, corner 0 not bounding line 10, two surface
    edges along 0-1, a facet seen twice and a surface vertex off the border *)
Definition bad_tet := a_brep tet_corners tet_lines [a_surface 100 true (fun v => negb (Nat.eqb v 0)); a_surface 101 true all_border; a_surface 102 true all_border; a_surface 103 true all_border]
  [a_block 1000 true] []
  [[c_ 0 0; l_ 10 0; l_ 11 0; l_ 12 0; s_ 101 0; s_ 102 0; s_ 103 0; b_ 1000 0];
   [c_ 1 0; l_ 10 1; l_ 13 0; l_ 14 0; s_ 100 0; s_ 102 1; s_ 103 1; b_ 1000 1];
   [c_ 2 0; l_ 11 1; l_ 13 1; l_ 15 0; s_ 100 1; s_ 101 1; s_ 103 2; b_ 1000 2];
   [l_ 12 1; l_ 14 1; l_ 15 1; s_ 100 2; s_ 101 2; s_ 102 2; b_ 1000 3]] (tl tet_bnd) [(lid_ 15, sid_ 100)].
Definition bad_tl := table_lookup (((0, 1), mkMeshEdges [(102, 2); (103, 1)] [(1000, 1)]) :: tl tet_te) (([1; 2; 3], [(1000, 2)]) :: tl tet_tp)
  (fun _ _ => Ok true) (fun _ _ => false) (fun _ _ => Ok true).
Example bad_tet_report : brep_ok bad_tet /\ lookup_ok bad_tl bad_tet /\ lines_inspectable bad_tet /\ exists rc rl rs, brep_inspect_corners_topology bad_tet = Ok rc /\ brep_inspect_lines_topology bad_tl bad_tet = Ok rl /\
  brep_inspect_surfaces_topology bad_tl bad_tet = Ok rs /\
  ii_issues (ct_not_boundary_line rc) = [0] /\ ii_issues (bl_invalid_embeddings rl) = [2; 3] /\ ii_issues (bl_wrong_relationship rl) = [0; 1; 2; 3] /\
  ii_issues (bl_several_not_corner rl) = [3] /\ map fst (im_map (bl_wrong_edges rl)) = [10] /\ map fst (im_map (bs_wrong_facets rs)) = [100] /\
  ii_issues (bs_not_on_border rs) = [1].
Proof.
  assert (H : brep_ok bad_tet) by (apply brepb_ok; vm_compute; reflexivity). split; [exact H|]. split; [apply tableb_ok; vm_compute; reflexivity|]. split.
  - intros uv _. split; [|apply first_edgesb_ok; vm_compute; reflexivity]. intros (l & e & _ & He & _ & T). destruct (in_embeddings_rel _ l e He) as (r & [<-|[]] & _ & <-). discriminate.
  - eexists _, _, _. vm_compute. repeat split.
Qed.

(** ** C37: a closed line, its corner internal to it, bounding a surface *)
Definition closed_line id := mkComponent id None true (mkCurve [[]; []; []; []] [(0, 1); (1, 2); (2, 3)] (fun _ => d0) (fun _ => false)).
Definition disk := a_brep [a_corner 0 true] [closed_line 10] [a_surface 100 true all_border] [] []
  [[c_ 0 0; l_ 10 0; l_ 10 3; s_ 100 0]; [l_ 10 1; s_ 100 1]; [l_ 10 2; s_ 100 2]] [(lid_ 10, sid_ 100)] [(cid_ 0, lid_ 10)].
Definition disk_te := [((0, 1), mkMeshEdges [(100, 1)] []); ((1, 2), mkMeshEdges [(100, 1)] []); ((2, 0), mkMeshEdges [(100, 1)] [])].
Definition disk_tl := table_lookup disk_te [] (fun _ _ => Ok true) (fun _ _ => false) (fun _ _ => Ok true).
Theorem C37_consistent_model_reported : exists tl m rc rl rs, brep_ok m /\ lookup_ok tl m /\ lines_inspectable m /\
  brep_inspect_corners_topology m = Ok rc /\ brep_inspect_lines_topology tl m = Ok rl /\ brep_inspect_surfaces_topology tl m = Ok rs /\
  (* the only active corner is internal to the only line, which has both its ends at the vertex of the corner *)
  (exists c l, active_at m 0 CornerT c /\ inside m c l /\ counts (fun k => cid_id (cmv_component k) = l) (component_mesh_vertices m 0) 2 /\
     counts (fun k => cid_id (cmv_component k) = c) (component_mesh_vertices m 0) 1) /\
  unique_vertices_are_bijectively_linked m cmv_exists_in_brep = Ok true /\
  (* nothing is reported, but this vertex *)
  ii_issues (ct_not_boundary_line rc) = [0] /\
  (ii_issues (ct_not_meshed rc), im_map (ct_not_linked rc), ii_issues (ct_multiple_corners rc), ii_issues (ct_multiple_embeddings rc), ii_issues (ct_not_internal_nor_boundary rc)) = ([], [], [], [], []) /\
  (ii_issues (bl_not_meshed rl), im_map (bl_not_linked rl), ii_issues (bl_wrong_relationship rl), ii_issues (bl_invalid_embeddings rl)) = ([], [], [], []) /\
  (ii_issues (bl_single_invalid rl), ii_issues (bl_several_not_corner rl), im_map (bl_wrong_edges rl)) = ([], [], []) /\
  (ii_issues (bs_not_meshed rs), im_map (bs_not_linked rs), ii_issues (bs_invalid_embeddings rs), ii_issues (bs_several_invalid rs), ii_issues (bs_not_on_border rs), im_map (bs_wrong_facets rs))
    = ([], [], [], [], [], []).
Proof.
  exists disk_tl, disk. assert (H : brep_ok disk) by (apply brepb_ok; vm_compute; reflexivity).
  assert (I : lines_inspectable disk) by (apply simple_inspectable; [exact H|vm_compute; reflexivity|vm_compute; reflexivity]).
  assert (L : lookup_ok disk_tl disk) by (apply tableb_ok; vm_compute; reflexivity).
  do 3 eexists. split; [exact H|]. split; [exact L|]. split; [exact I|].
  split; [vm_compute; reflexivity|]. split; [vm_compute; reflexivity|]. split; [vm_compute; reflexivity|]. split.
  - exists 0, 10. split; [|split; [|split]].
    + split; [exists 0; left; reflexivity|left; reflexivity].
    + eexists _, _. left. reflexivity.
    + apply (counts_filter _ _ (fun k => Nat.eqb (cmv_id k) 10)); [intros k _; apply Nat.eqb_eq|reflexivity].
    + apply (counts_filter _ _ (fun k => Nat.eqb (cmv_id k) 0)); [intros k _; apply Nat.eqb_eq|reflexivity].
  - vm_compute. repeat split.
Qed.

(** Lines 10 and 11; line 10 is internal to the block 1000, to which its vertices are not linked. *)
Definition floating := a_brep [] [a_line 10 true; a_line 11 true] [] [a_block 1000 true] []
  [[l_ 10 0; l_ 11 0]; [l_ 10 1]; [l_ 11 1; b_ 1000 0]] [] [(lid_ 10, bid_ 1000)].
Definition no_tl := table_lookup [] [] (fun _ _ => Ok true) (fun _ _ => false) (fun _ _ => Ok true).
Example C52_witness : brep_ok floating /\ lookup_ok no_tl floating /\ (forall uv, uv < nb_unique_vertices floating -> first_edges_linked floating uv) /\
  (exists uv, uv < nb_unique_vertices floating /\ block_embedding_wrong floating uv /\ ~ surface_embedding_wrong floating uv) /\
  brep_inspect_lines_topology no_tl floating = Throw OpenGeodeExn.
Proof.
  split; [apply brepb_ok; vm_compute; reflexivity|]. split; [apply tableb_ok; vm_compute; reflexivity|].
  split; [intros; apply first_edgesb_ok; vm_compute; reflexivity|]. split; [|vm_compute; reflexivity].
  exists 0. split; [vm_compute; repeat constructor|]. split.
  - exists 10, (bid_ 1000). split; [split; [exists 0; left; reflexivity|left; reflexivity]|]. split; [left; reflexivity|]. split; [|reflexivity].
    right. split; [intros _ b [<-|[]]; discriminate|]. intros (v & [E|[E|[]]]); discriminate.
  - intros (l & e & _ & He & _ & T). destruct (in_embeddings_rel _ l e He) as (r & [<-|[]] & _ & <-). discriminate.
Qed.
(** Vertex 1 of the line 10 has no unique vertex. *)
Definition half_linked := a_brep [] [a_line 10 true] [] [] [] [[l_ 10 0]] [] [].
Example C53_witness : brep_ok half_linked /\ lookup_ok no_tl half_linked /\ (forall uv, uv < nb_unique_vertices half_linked -> ~ block_embedding_wrong half_linked uv) /\
  (exists uv, uv < nb_unique_vertices half_linked /\ ~ first_edges_linked half_linked uv /\ ~ line_relationship_wrong no_tl half_linked uv) /\
  brep_inspect_lines_topology no_tl half_linked = UB.
Proof.
  assert (H : brep_ok half_linked) by (apply brepb_ok; vm_compute; reflexivity).
  split; [exact H|]. split; [apply tableb_ok; vm_compute; reflexivity|].
  split; [intros uv _; apply no_line_embeddings_ok; [apply (br_ids _ H)|apply brep_links_exist, H|reflexivity]|]. split; [|vm_compute; reflexivity].
  assert (N : forall a b, ~ edge_joins half_linked (a_line 10 true) 0 a b) by (intros a b (v0 & v1 & E & _ & E1); injection E as <- <-; discriminate).
  exists 0. split; [vm_compute; repeat constructor|]. split.
  - intros F. destruct (F (a_line 10 true)) as (a & b & E); [left; reflexivity|reflexivity|exists 0; left; reflexivity|discriminate|]. exact (N a b E).
  - intros (c & a & b & [<-|[]] & _ & _ & E & _). exact (N a b E).
Qed.
Print Assumptions C36_C45_brep_corners.
Print Assumptions C36_predicate_and_lists.
Print Assumptions C37_closed_line_reported.
Print Assumptions C37_consistent_model_reported.
Print Assumptions C50_C45_brep_lines.
Print Assumptions C50_predicate_and_lists.
Print Assumptions C51_C45_brep_surfaces.
Print Assumptions C51_predicate_and_lists.
Print Assumptions C52_block_embedding_raises.
Print Assumptions C53_unlinked_first_edge.
