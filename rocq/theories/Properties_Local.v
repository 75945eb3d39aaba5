(** C74: what the topology report says about a unique vertex depends on this vertex only. *)
From Coq Require Import String Ascii List Arith NArith ZArith Bool Lia.
From Verif Require Import Base BaseFacts Model_Issues Types Model_Hash Model_Adjacency Model_Colocation Model_Degeneration Model_Manifold Model_Topology Model_BRep
  Model_Blocks Model_Results Spec_Colocation Proof_Colocation Proof_Colocation2 Spec_Topology Spec_BRep Spec_Blocks Spec_Reproducible Spec_Local Proof_Local Proof_Local2
  Proof_Topology4 Proof_TopologyCheck Proof_BRepCheck Proof_Blocks6 Properties_Topology Properties_BRep Properties_Blocks.
Import ListNotations.
Open Scope list_scope.

(** ** The yes/no checks of one vertex *)
Theorem C74_section_checks : forall m m' uv uv', same_frame m m' -> same_vertex m m' uv uv' ->
  section_corner_topology_is_valid m uv = section_corner_topology_is_valid m' uv' /\ section_lines_topology_is_valid m uv = section_lines_topology_is_valid m' uv' /\
  section_vertex_surfaces_topology_is_valid m uv = section_vertex_surfaces_topology_is_valid m' uv'.
Proof. intros m m' uv uv' H V. split; [apply (l_section_corner m m' H uv uv' V)|]. split; [apply (l_section_lines m m' H uv uv' V)|apply (l_section_surfaces m m' H uv uv' V)]. Qed.
Print Assumptions C74_section_checks.
Theorem C74_brep_checks : forall tl tl' m m' uv uv', unique_ids m -> same_frame m m' -> same_vertex m m' uv uv' ->
  brep_corner_topology_is_valid m uv = brep_corner_topology_is_valid m' uv' /\ brep_surfaces_topology_is_valid m uv = brep_surfaces_topology_is_valid m' uv' /\
  brep_blocks_topology_is_valid m uv = brep_blocks_topology_is_valid m' uv' /\
  (forall block, nb_expected_block_cmvs m uv block = nb_expected_block_cmvs m' uv' block) /\
  (same_first_edges tl tl' m m' uv -> brep_lines_topology_is_valid tl m uv = brep_lines_topology_is_valid tl' m' uv').
Proof.
  intros tl tl' m m' uv uv' U H V. pose proof (ids_frame m m' H U) as U'. split; [apply (l_brep_corner m m' H uv uv' V)|]. split; [apply (l_brep_surfaces m m' H U uv uv' V U')|].
  split; [apply (l_brep_blocks m m' H U uv uv' V U')|]. split; [apply (l_expected_number m m' H U uv uv' V U')|apply (l_brep_lines m m' H uv uv' V)].
Qed.
Print Assumptions C74_brep_checks.

(** ** The reports *)
Theorem C74_section : forall m m' uv uv' r r', section_ok m -> section_ok m' -> same_frame m m' -> same_vertex m m' uv uv' ->
  uv < nb_unique_vertices m -> uv' < nb_unique_vertices m' ->
  inspect_section_topology m = Ok r -> inspect_section_topology m' = Ok r' -> section_says_same uv uv' r r'.
Proof.
  intros m m' uv uv' r r' K K' H V B B' E E'. destruct (section_topology_spec m K) as (rc & rl & rs & ks & Ec & El & Es & Ek & Er).
  destruct (section_topology_spec m' K') as (rc' & rl' & rs' & ks' & Ec' & El' & Es' & Ek' & Er'). rewrite Er in E. rewrite Er' in E'. injection E as <-. injection E' as <-.
  destruct (section_lines_say m m' H uv uv' V B B' rl rl' El El') as (L1 & L2 & L3 & L4). destruct (section_surfaces_say m m' H uv uv' V B B' rs rs' Es Es') as (S1 & S2).
  constructor; cbn [st_corners st_lines st_surfaces st_links]; try assumption.
  - exact (section_corners_say m m' H uv uv' V B B' rc rc' Ec Ec').
  - apply (links_same m m' H uv uv' V cmv_exists_in_section); try assumption.
    apply (exists_same_section m m' uv uv' V (so_ids m K) (so_ids m' K') (so_no_block m K) (so_no_block m' K')).
Qed.
Print Assumptions C74_section.
Theorem C74_brep : forall tl tl' m m' uv uv' r r', blocks_ok tl m -> lookup_ok tl m -> lines_inspectable m -> blocks_ok tl' m' -> lookup_ok tl' m' -> lines_inspectable m' ->
  same_frame m m' -> same_vertex m m' uv uv' -> same_first_edges tl tl' m m' uv -> tl_inside_block tl = tl_inside_block tl' ->
  uv < nb_unique_vertices m -> uv' < nb_unique_vertices m' ->
  inspect_brep_topology tl m = Ok r -> inspect_brep_topology tl' m' = Ok r' -> brep_says_same uv uv' r r'.
Proof.
  intros tl tl' m m' uv uv' r r' K Q I K' Q' I' H V FE TI B B' E E'. destruct (brep_topology_spec tl m K Q I) as (rc & rl & rs & rb & ks & Ec & El & Es & Eb & Ek & Er).
  destruct (brep_topology_spec tl' m' K' Q' I') as (rc' & rl' & rs' & rb' & ks' & Ec' & El' & Es' & Eb' & Ek' & Er'). rewrite Er in E. rewrite Er' in E'. injection E as <-. injection E' as <-.
  pose proof (br_ids m (bo_brep tl m K)) as U. pose proof (br_ids m' (bo_brep tl' m' K')) as U'.
  destruct (brep_lines_say m m' H uv uv' V B B' tl tl' rl rl' FE El El') as (L1 & L2 & L3 & L4).
  destruct (brep_surfaces_say m m' H U uv uv' V B B' tl tl' rs rs' Es Es') as (S1 & S2 & S3). destruct (brep_blocks_say m m' H U uv uv' V B B' tl tl' rb rb' TI Eb Eb') as (T1 & T2 & T3 & T4 & T5).
  constructor; cbn [bt_corners bt_lines bt_surfaces bt_blocks bt_links]; try assumption.
  - exact (brep_corners_say m m' H uv uv' V B B' rc rc' Ec Ec').
  - apply (links_same m m' H uv uv' V cmv_exists_in_brep); try assumption. apply (exists_same_brep m m' uv uv' V U U').
Qed.
Print Assumptions C74_brep.
(** In a BRep the first edge of a line counts at all the vertices of the line, also at those away from this edge. *)
Theorem C74_first_edge : exists tl tl' m uv, brep_ok m /\ lookup_ok tl m /\ lookup_ok tl' m /\ uv < nb_unique_vertices m /\
  (forall a b, a = uv \/ b = uv -> tl_edges tl a b = tl_edges tl' a b) /\
  brep_lines_topology_is_valid tl m uv = Ok true /\ brep_lines_topology_is_valid tl' m uv = Ok false.
Proof.
  exists disk_tl, (table_lookup (((0, 1), mkMeshEdges [] []) :: tl disk_te) [] (fun _ _ => Ok true) (fun _ _ => false) (fun _ _ => Ok true)), disk, 2.
  split; [apply brepb_ok; vm_compute; reflexivity|]. split; [apply tableb_ok; vm_compute; reflexivity|]. split; [apply tableb_ok; vm_compute; reflexivity|].
  split; [cbn; lia|]. split; [|split; vm_compute; reflexivity]. intros a b [-> | ->]; cbn.
  - destruct b as [|[|[|b]]]; reflexivity.
  - destruct a as [|[|[|a]]]; reflexivity.
Qed.
Print Assumptions C74_first_edge.

(** *** A section with two faults at vertex 2 and one at vertex 0 (off the border), and the same once vertex 2 is linked to its corner *)
Definition faulty cmvs := a_section [a_corner 0 true; a_corner 1 true; a_corner 2 true] [a_line 10 true; a_line 11 true; a_line 12 true]
  [a_surface 100 true (fun v => negb (Nat.eqb v 0))] cmvs triangle_bnd [].
Definition two_faults := faulty [[c_ 0 0; l_ 10 0; l_ 12 1; s_ 100 0]; [c_ 1 0; l_ 10 1; l_ 11 0; s_ 100 1]; [l_ 11 1; l_ 12 0; s_ 100 2]].
Definition one_fault := faulty [[c_ 1 0; l_ 10 1; l_ 11 0; s_ 100 1]; [c_ 0 0; l_ 10 0; l_ 12 1; s_ 100 0]; [c_ 2 0; l_ 11 1; l_ 12 0; s_ 100 2]].
Lemma position_components : forall m m', m_corners m = m_corners m' -> m_lines m = m_lines m' -> m_surfaces m = m_surfaces m' -> m_blocks m = m_blocks m' ->
  forall c p, has_position m c p <-> has_position m' c p.
Proof.
  intros m m' E1 E2 E3 E4 c p. split; intros P; destruct P as [k v p I N|k v p I N|k v p I N|k v p I N].
  - apply pos_corner; [rewrite <- E1|]; assumption.
  - apply pos_line; [rewrite <- E2|]; assumption.
  - apply pos_surface; [rewrite <- E3|]; assumption.
  - apply pos_block; [rewrite <- E4|]; assumption.
  - apply pos_corner; [rewrite E1|]; assumption.
  - apply pos_line; [rewrite E2|]; assumption.
  - apply pos_surface; [rewrite E3|]; assumption.
  - apply pos_block; [rewrite E4|]; assumption.
Qed.
Lemma header_refl : forall M (P : M -> Prop) l, Forall2 (same_header P) l l.
Proof. intros M P l. induction l; constructor; [|assumption]. split; [reflexivity|]. split; [reflexivity|]. split; [reflexivity|tauto]. Qed.
Example repaired : section_ok two_faults /\ section_ok one_fault /\ same_frame two_faults one_fault /\ same_vertex two_faults one_fault 0 1 /\
  exists r r', inspect_section_topology two_faults = Ok r /\ inspect_section_topology one_fault = Ok r' /\
    (ii_issues (sl_several_not_corner (st_lines r)), ii_issues (sl_several_not_corner (st_lines r'))) = ([2], []) /\
    (ii_issues (ss_not_on_border (st_surfaces r)), ii_issues (ss_not_on_border (st_surfaces r'))) = ([0], [1]).
Proof.
  split; [apply sectionb_ok; vm_compute; reflexivity|]. split; [apply sectionb_ok; vm_compute; reflexivity|]. split; [|split].
  - constructor; try reflexivity; apply header_refl.
  - constructor; [reflexivity| | |].
    + intros c p _. apply position_components; reflexivity.
    + intros s s' v [<-|[]] [<-|[]] _ _. reflexivity.
    + intros c I. cbn in I. repeat (destruct I as [<-|I]; [split; reflexivity|]). destruct I.
  - eexists _, _. split; [vm_compute; reflexivity|]. split; [vm_compute; reflexivity|]. split; vm_compute; reflexivity.
Qed.
(** *** Two BReps (the tetrahedron, with a loose vertex in the second): what is said about vertex 0 is the same *)
Definition tet_and_loose := a_brep tet_corners tet_lines tet_surfaces [a_block 1000 true] [(5000, [100; 101; 102; 103])] (tet_cmvs ++ [[]]) (tet_bnd) [].
Example loose : blocks_ok tet_tl tet_and_loose /\ lookup_ok tet_tl tet_and_loose /\ lines_inspectable tet_and_loose /\ same_frame tet tet_and_loose /\
  same_vertex tet tet_and_loose 0 0 /\ same_first_edges tet_tl tet_tl tet tet_and_loose 0 /\
  exists r, inspect_brep_topology tet_tl tet_and_loose = Ok r /\ ii_issues (li_not_linked (bt_links r)) = [4].
Proof.
  assert (K : blocks_ok tet_tl tet_and_loose) by (apply blocksb_ok; [apply tables_safe|apply tables_safe|vm_compute; reflexivity]).
  split; [exact K|]. split; [apply tableb_ok; vm_compute; reflexivity|].
  split; [apply simple_inspectable; [apply (bo_brep _ _ K)|vm_compute; reflexivity|vm_compute; reflexivity]|]. split; [constructor; try reflexivity; apply header_refl|]. split; [|split].
  - constructor; [reflexivity| | |].
    + intros c p _. apply position_components; reflexivity.
    + intros s s' v I I' E _. cbn in I, I'. repeat (destruct I as [<-|I]; [repeat (destruct I' as [<-|I']; [reflexivity|]); destruct I'|]). destruct I.
    + intros c I. cbn in I. repeat (destruct I as [<-|I]; [split; reflexivity|]). destruct I.
  - intros l l' I I' E _. cbn in I, I'. repeat (destruct I as [<-|I]; [repeat (destruct I' as [<-|I']; [first [discriminate E|split; [tauto|vm_compute; reflexivity]]|]); destruct I'|]). destruct I.
  - eexists. split; vm_compute; reflexivity.
Qed.
