(** C63: the texts of the topology reports name the vertex or element of their issue and the components at fault. *)
From Coq Require Import String Ascii List Arith NArith ZArith Bool Lia.
From Verif Require Import Base BaseFacts Model_Issues Types Model_Topology Model_BRep Model_Blocks Spec_Colocation Spec_Messages Spec_Topology Spec_BRep Spec_Blocks
  Spec_TopologyMessages Proof_Messages Proof_Topology Proof_Topology2 Proof_TopologyMessages Proof_TopologyMessages2 Proof_TopologyMessages3
  Proof_TopologyCheck Proof_BRepCheck Properties_Topology Properties_BRep Properties_Blocks.
Import ListNotations.
Open Scope list_scope.

Ltac empty_lists := repeat match goal with |- explained _ _ _ => apply explained_new | |- explained_map _ _ _ => apply explained_map_new | |- _ => split end.
Lemma section_corners_default_text : forall m, section_corners_explained m section_corners_default. Proof. intros m. unfold section_corners_explained, corners_explained. empty_lists. Qed.
Lemma section_lines_default_text : forall m, section_lines_explained m section_lines_default. Proof. intros m. empty_lists. Qed.
Lemma section_surfaces_default_text : forall m, section_surfaces_explained m section_surfaces_default. Proof. intros m. empty_lists. Qed.
Lemma brep_corners_default_text : forall m, brep_corners_explained m brep_corners_default. Proof. intros m. unfold brep_corners_explained, corners_explained. empty_lists. Qed.
Lemma brep_lines_default_text : forall tl m, brep_lines_explained tl m brep_lines_default. Proof. intros tl m. empty_lists. Qed.
Lemma brep_surfaces_default_text : forall tl m, brep_surfaces_explained tl m brep_surfaces_default. Proof. intros tl m. empty_lists. Qed.
Lemma brep_blocks_default_text : forall tl m, brep_blocks_explained tl m brep_blocks_default. Proof. intros tl m. empty_lists. Qed.
Lemma assigned_ind : forall A (d : A) o (P : A -> Prop), P d -> (forall a, o = Ok a -> P a) -> P (assigned d o).
Proof. intros A d [a| |] P H1 H2; cbn [assigned]; auto. Qed.
Lemma links_report_text : forall m ex r, unique_ids m -> (forall c, ex m c = true <-> vertex_exists m c) ->
  add_unique_vertices_with_wrong_cmv_link m ex no_links = Ok r -> links_explained m r.
Proof.
  intros m ex r U Hex H. apply (links_text m ex r Hex); [|exact H]. intros uv c E L.
  destruct (linked_elsewhere_ok m ex U Hex uv c E) as (b & Hb & Hp). rewrite L in Hb. injection Hb as <-. apply Hp. reflexivity.
Qed.

(** ** The Section: whatever the report, no hypothesis but distinct identifiers *)
Theorem C63_section_topology : forall m r, unique_ids m -> m_blocks m = [] ->
  inspect_section_topology m = Ok r -> section_topology_explained m r.
Proof.
  intros m r U B H. unfold inspect_section_topology in H. cbv zeta in H. apply bind_Ok in H. destruct H as (x & _ & H). apply bind_Ok in H. destruct H as (l & L & H).
  injection H as <-. unfold section_topology_explained. cbn [st_corners st_lines st_surfaces st_links]. split; [|split; [|split]].
  - apply assigned_ind; [apply section_corners_default_text|apply section_corners_text].
  - apply assigned_ind; [apply section_lines_default_text|apply section_lines_text].
  - apply assigned_ind; [apply section_surfaces_default_text|apply section_surfaces_text].
  - apply (links_report_text m cmv_exists_in_section l U); [|exact L]. intros c. apply cmv_exists_section_iff; assumption.
Qed.

(** ** The BRep *)
Theorem C63_brep_topology : forall tl m r, brep_ok m -> counts_fit m -> inside_block_ok tl ->
  inspect_brep_topology tl m = Ok r -> brep_topology_explained tl m r.
Proof.
  intros tl m r BO CF IB H. unfold inspect_brep_topology in H. cbv zeta in H. apply bind_Ok in H. destruct H as (x & _ & H). apply bind_Ok in H. destruct H as (l & L & H).
  injection H as <-. unfold brep_topology_explained. cbn [bt_corners bt_lines bt_surfaces bt_blocks bt_links]. split; [|split; [|split; [|split]]].
  - apply assigned_ind; [apply brep_corners_default_text|]. intros a. apply brep_corners_text, BO.
  - apply assigned_ind; [apply brep_lines_default_text|apply brep_lines_text].
  - apply assigned_ind; [apply brep_surfaces_default_text|]. intros a. apply brep_surfaces_text, BO.
  - apply assigned_ind; [apply brep_blocks_default_text|]. intros a. apply brep_blocks_text; assumption.
  - apply (links_report_text m cmv_exists_in_brep l (br_ids m BO)); [|exact L]. intros c. apply cmv_exists_brep_iff, BO.
Qed.

(** *** Examples: reports with texts *)
Local Open Scope string_scope.
Definition digits (id : uuid) : string := str id.
(** the model [m], whose identifiers, points and links have visible texts *)
Definition printed (m : Model) : Model := mkModel (m_corners m) (m_lines m) (m_surfaces m) (m_blocks m) (m_model_boundaries m) (m_cmvs m) (m_unique_vertex m)
  (m_boundary_rel m) (m_internal_rel m) (m_missing_exn m) digits (fun _ => "a point") (fun c => digits (cid_id (cmv_component c)))
  (fun c => StrCat ["Component "; digits (cid_id c)]).
Definition said {T} (l : InspectionIssues T) : list (T * string) := combine (ii_issues l) (ii_messages l).
Example broken_texts : unique_ids (printed broken) /\ m_blocks (printed broken) = [] /\ exists r, inspect_section_topology (printed broken) = Ok r /\
  said (sl_several_not_corner (st_lines r)) = [(2, "unique vertex 2 is part of multiple Lines but is not a Corner.")] /\
  said (ss_not_on_border (st_surfaces r)) =
    [(0, "Unique vertex 0 is part of a Line and of Surface 100 (100) but the associated vertex in the Surface mesh is not on the mesh border.")] /\
  said (li_not_linked (st_links r)) = [(3, "unique vertex 3 is not linked to any mesh vertex.")] /\
  said (li_inexistant (st_links r)) = [(4, "unique vertex 4 is linked to inexistant mesh vertex [7].")].
Proof. split; [apply nodupb_ok; vm_compute; reflexivity|]. split; [reflexivity|]. eexists. split; [vm_compute; reflexivity|]. vm_compute. repeat split. Qed.
Example crowd_texts : blocks_ok tet_tl (printed crowd) /\ exists r, inspect_brep_topology tet_tl (printed crowd) = Ok r /\
  said (bb_not_meshed (bt_blocks r)) = [(1002, "Block 1002 (1002) is not meshed.")] /\
  said (bb_two_blocks (bt_blocks r)) = [(7, "unique vertex 7 is part of two Blocks, but not of a Surface boundary to the two Blocks, nor of a Line boundary to one of the Blocks incident Surfaces.")] /\
  said (bb_single_invalid (bt_blocks r)) = [(9, "unique vertex 9 is part of only one Surface100 (100) which is not embedded, but not boundary either of Block 1001 (1001), in which the vertex is.")] /\
  said (bb_wrong_count (bt_blocks r)) = [(8, "unique vertex 8 at position [a point] is part of Block 1000 (1000), and has 0 cmvs of corners, 0 cmvs of surfaces internal to that block, 0 cmvs of lines internal to one surface internal to that block, 0 cmvs of free lines, 0 cmvs of lines boundary to several internal surfaces, 0 cmvs of surfaces boundary to the block, and 0 cmvs counted for lines on the boundary, with 2 Block CMVs (expected 1 with valid topology).")].
Proof.
  split; [apply blocksb_ok; [apply tables_safe|apply tables_safe|vm_compute; reflexivity]|]. eexists. split; [vm_compute; reflexivity|]. vm_compute. repeat split.
Qed.
Example bad_tet_texts : brep_ok (printed bad_tet) /\ exists r2 r3, brep_inspect_lines_topology bad_tl (printed bad_tet) = Ok r2 /\ brep_inspect_surfaces_topology bad_tl (printed bad_tet) = Ok r3 /\
  hd_error (said (bl_wrong_relationship r2)) =
    Some (0, "unique vertex 0 is part of Line 10 (10), which is boundary of Surface 102 (102) but has several surface edges of this surface around Line edge 0") /\
  map (fun e => (fst e, said (snd e))) (im_map (bl_wrong_edges r2)) =
    [(10, [(0, "Line 10 (10) is boundary of Surface 102 (102), but has 2 edges of this Surface around it, it should be 1.")])] /\
  map (fun e => (fst e, said (snd e))) (im_map (bs_wrong_facets r3)) =
    [(100, [(0, "Surface 100 (100) is boundary of block 1000 (1000), but has 2 facets of this Block around it, it should be 1.")])].
Proof.
  split; [apply brepb_ok; vm_compute; reflexivity|]. eexists _, _. split; [vm_compute; reflexivity|]. split; [vm_compute; reflexivity|]. vm_compute. repeat split.
Qed.

(** *** What the texts do not guarantee: the number of links announced as expected can be absurd, a negative prediction printed as unsigned.
    Here a vertex with seven links is said to need 4294967295 links to its block. *)
Theorem C63_expected_number_refuted : exists m uv b, brep_ok m /\ counts_fit m /\ active_at m uv BlockT b /\
  length (component_mesh_vertices m uv) = 7 /\ nb_expected_block_cmvs m uv b = Ok 4294967295%N.
Proof.
  exists bad_tet, 3, 1000. split; [apply brepb_ok; vm_compute; reflexivity|]. split; [apply fitsb_ok; vm_compute; reflexivity|].
  split; [split; [exists 3; vm_compute; tauto|vm_compute; tauto]|]. split; [reflexivity|]. lazy. reflexivity.
Qed.

Print Assumptions C63_section_topology.
Print Assumptions C63_brep_topology.
Print Assumptions C63_expected_number_refuted.
