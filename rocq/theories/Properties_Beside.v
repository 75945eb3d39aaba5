(** C93: the topology report of two Sections put side by side is the report of the first, then that of the second. *)
From Coq Require Import String Ascii List Arith NArith ZArith Bool Lia.
From Verif Require Import Base BaseFacts Model_Issues Types Model_Topology Spec_Colocation Spec_Topology Spec_Beside
  Proof_Messages Proof_Topology Proof_Topology4 Proof_TopologyCheck Proof_Beside4 Proof_Beside5 Proof_Beside6 Properties_Topology Properties_Local.
Import ListNotations.
Open Scope list_scope.

Theorem C93_section_topology : forall m1 m2 m, side_by_side m1 m2 m -> meshed_alike m1 m2 -> section_ok m1 -> section_ok m2 ->
  exists r1 r2 r, inspect_section_topology m1 = Ok r1 /\ inspect_section_topology m2 = Ok r2 /\ inspect_section_topology m = Ok r /\
    topology_of_both (nb_unique_vertices m1) r1 r2 r.
Proof.
  intros m1 m2 m S A K1 K2. destruct (section_topology_spec m1 K1) as (c1 & l1 & s1 & k1 & C1 & L1 & S1 & E1 & _).
  destruct (section_topology_spec m2 K2) as (c2 & l2 & s2 & k2 & C2 & L2 & S2 & E2 & _).
  exact (topology_both m1 m2 m S A c1 l1 s1 k1 c2 l2 s2 k2 C1 L1 S1 E1 C2 L2 S2 E2).
Qed.
Print Assumptions C93_section_topology.
(** the mesh vertices linked to no unique vertex, component by component *)
Theorem C93_mesh_vertices : forall m1 m2 m r1 r2 r, side_by_side m1 m2 m -> meshed_alike m1 m2 -> section_ok m1 -> section_ok m2 ->
  inspect_section_topology m1 = Ok r1 -> inspect_section_topology m2 = Ok r2 -> inspect_section_topology m = Ok r ->
  unlinked_of_both (ct_not_linked (st_corners r1)) (ct_not_linked (st_corners r2)) (ct_not_linked (st_corners r)) /\
  unlinked_of_both (sl_not_linked (st_lines r1)) (sl_not_linked (st_lines r2)) (sl_not_linked (st_lines r)) /\
  unlinked_of_both (ss_not_linked (st_surfaces r1)) (ss_not_linked (st_surfaces r2)) (ss_not_linked (st_surfaces r)).
Proof.
  intros m1 m2 m r1 r2 r S A K1 K2 E1 E2 E. destruct (mesh_vertices_both m1 m2 m S A r1 r2 K1 K2 E1 E2) as (r' & E' & _ & U). rewrite E in E'. injection E' as <-. exact U.
Qed.
Print Assumptions C93_mesh_vertices.
(** the whole is valid iff both are *)
Theorem C93_verdict : forall m1 m2 m b1 b2, side_by_side m1 m2 m -> meshed_alike m1 m2 -> nb_unique_vertices m1 <> 0 -> nb_unique_vertices m2 <> 0 ->
  section_topology_is_valid m1 = Ok b1 -> section_topology_is_valid m2 = Ok b2 -> section_topology_is_valid m = Ok (b1 && b2)%bool.
Proof. intros m1 m2 m b1 b2 S A N1 N2 E1 E2. exact (verdict_both m1 m2 m S A b1 b2 N1 N2 E1 E2). Qed.
Print Assumptions C93_verdict.

(** ** Two Sections put side by side, their components and vertices in this order *)
Definition beside (m1 m2 : Model) : Model :=
  a_section (m_corners m1 ++ m_corners m2) (m_lines m1 ++ m_lines m2) (m_surfaces m1 ++ m_surfaces m2) (m_cmvs m1 ++ m_cmvs m2)
    (m_boundary_rel m1 ++ m_boundary_rel m2) (m_internal_rel m1 ++ m_internal_rel m2).
Definition relations_closedb (m : Model) : bool :=
  forallb (forallb (fun c => existsb (Nat.eqb (cid_id (cmv_component c))) (all_ids m))) (m_cmvs m) &&
  forallb (fun r => existsb (Nat.eqb (cid_id (fst r))) (all_ids m) && existsb (Nat.eqb (cid_id (snd r))) (all_ids m)) (m_boundary_rel m ++ m_internal_rel m).
Lemma inb : forall (i : nat) l, existsb (Nat.eqb i) l = true -> In i l.
Proof. intros i l E. apply existsb_exists in E as (j & I & E). apply Nat.eqb_eq in E as ->. exact I. Qed.
Lemma closedb_ok : forall m, relations_closedb m = true -> closed_model m.
Proof.
  intros m E. unfold relations_closedb in E. apply andb_true_iff in E as [E F]. rewrite forallb_forall in E, F. split.
  - intros uv c I. destruct (cmvs_listed m uv c I) as (l & J & K). specialize (E l J). rewrite forallb_forall in E. apply inb, E, K.
  - intros r I. assert (J : In r (m_boundary_rel m ++ m_internal_rel m)) by (apply in_or_app; exact I). apply F in J. apply andb_true_iff in J as [J1 J2]. split; apply inb; assumption.
Qed.
Lemma owner_app : forall l l' n c, owner n (l ++ l') c = match owner n l c with Some v => Some v | None => owner (n + length l) l' c end.
Proof.
  induction l as [|x l IH]; intros l' n c; cbn [app owner length]; [rewrite Nat.add_0_r; reflexivity|]. destruct (existsb (cmv_eqb c) x); [reflexivity|].
  rewrite IH. replace (S n + length l) with (n + S (length l)) by lia. reflexivity.
Qed.
Lemma owner_shift : forall l n c, owner n l c = option_map (fun v => n + v) (owner 0 l c).
Proof.
  induction l as [|x l IH]; intros n c; [reflexivity|]. cbn [owner]. destruct (existsb (cmv_eqb c) x); [cbn; f_equal; lia|]. rewrite (IH (S n)), (IH 1).
  destruct (owner 0 l c); cbn; [f_equal; lia|reflexivity].
Qed.
Lemma owner_none : forall l n c, (forall x d, In x l -> In d x -> cmv_id d <> cmv_id c) -> owner n l c = None.
Proof.
  induction l as [|x l IH]; intros n c N; [reflexivity|]. cbn [owner]. destruct (existsb (cmv_eqb c) x) eqn:E.
  - apply existsb_exists in E as (d & I & E). unfold cmv_eqb in E. apply andb_true_iff in E as [_ E]. apply andb_true_iff in E as [E _]. apply Nat.eqb_eq in E. destruct (N x d (or_introl eq_refl) I). symmetry. exact E.
  - apply IH. intros y d I. apply N. right. exact I.
Qed.
Lemma linked_of : forall m, closed_model m -> forall x d, In x (m_cmvs m) -> In d x -> In (cmv_id d) (all_ids m).
Proof. intros m C x d I J. apply In_nth_error in I as [uv I]. apply (proj1 C uv). unfold component_mesh_vertices. rewrite (nth_error_nth _ _ _ I). exact J. Qed.
Lemma beside_side_by_side : forall m1 m2, m_blocks m1 = [] -> m_blocks m2 = [] -> (forall c, m_unique_vertex m1 c = owner 0 (m_cmvs m1) c) -> (forall c, m_unique_vertex m2 c = owner 0 (m_cmvs m2) c) ->
  m_missing_exn m1 = OpenGeodeExn -> m_missing_exn m2 = OpenGeodeExn -> NoDup (all_ids m1 ++ all_ids m2) -> unique_ids (beside m1 m2) -> closed_model m1 -> closed_model m2 -> side_by_side m1 m2 (beside m1 m2).
Proof.
  intros m1 m2 B1 B2 O1 O2 X1 X2 N U C1 C2.
  assert (AP : forall i, In i (all_ids m1) -> In i (all_ids m2) -> False).
  { intros i I J. pose proof (proj1 (NoDup_count_occ Nat.eq_dec _) N i) as K. rewrite count_occ_app in K. rewrite (count_occ_In Nat.eq_dec) in I, J. unfold uuid in *. lia. }
  constructor; try reflexivity; try assumption.
  - cbn. rewrite B1, B2. reflexivity.
  - intros c I. cbn. rewrite O1, owner_app. destruct (owner 0 (m_cmvs m1) c); [reflexivity|]. apply owner_none. intros x d J K E. apply (AP (cmv_id c) I). rewrite <- E. apply (linked_of m2 C2 x d J K).
  - intros c I. cbn. rewrite O2, owner_app, (owner_none (m_cmvs m1)); [rewrite owner_shift; reflexivity|]. intros x d J K E. apply (fun H => AP (cmv_id c) H I). rewrite <- E. apply (linked_of m1 C1 x d J K).
Qed.

(** ** A triangle with two faults, and a line on its own, with a corner on no line and a corner linked to no vertex *)
Definition a_loose_line := a_section [a_corner 20 true; a_corner 22 true] [a_line 21 true] [] [[c_ 20 0]; [l_ 21 0]; [l_ 21 1]; []] [] [].
Lemma triangle_and_line_beside : side_by_side two_faults a_loose_line (beside two_faults a_loose_line).
Proof.
  apply beside_side_by_side; try reflexivity; [apply nodupb_ok; vm_compute; reflexivity|apply nodupb_ok; vm_compute; reflexivity|apply closedb_ok; vm_compute; reflexivity|apply closedb_ok; vm_compute; reflexivity].
Qed.
Example triangle_and_line : let m1 := two_faults in let m2 := a_loose_line in
  side_by_side m1 m2 (beside m1 m2) /\ meshed_alike m1 m2 /\ section_ok m1 /\ section_ok m2 /\
  exists r1 r2 r, inspect_section_topology m1 = Ok r1 /\ inspect_section_topology m2 = Ok r2 /\ inspect_section_topology (beside m1 m2) = Ok r /\ 
    ii_issues (sl_several_not_corner (st_lines r1)) = [2] /\ ii_issues (li_not_linked (st_links r2)) = [3] /\ ii_issues (li_not_linked (st_links r)) = [6] /\
    ii_issues (ct_not_internal_nor_boundary (st_corners r2)) = [0] /\ ii_issues (ct_not_internal_nor_boundary (st_corners r)) = [3] /\
    ii_issues (sl_several_not_corner (st_lines r)) = [2] /\ ii_issues (sl_wrong_relationship (st_lines r2)) = [1; 2] /\ ii_issues (sl_wrong_relationship (st_lines r)) = [4; 5] /\
    ii_issues (ss_not_on_border (st_surfaces r1)) = [0] /\ ii_issues (ss_not_on_border (st_surfaces r)) = [0] /\
    unlinked_in (ct_not_linked (st_corners r1)) = [(2, [0])] /\ unlinked_in (ct_not_linked (st_corners r2)) = [(22, [0])] /\ unlinked_in (ct_not_linked (st_corners r)) = [(2, [0]); (22, [0])].
Proof.
  cbv zeta. split; [exact triangle_and_line_beside|]. split; [split; intros _ s I; [destruct I|destruct I as [<-|[]]; discriminate]|]. split; [apply sectionb_ok; vm_compute; reflexivity|].
  split; [apply sectionb_ok; vm_compute; reflexivity|]. eexists _, _, _. split; [vm_compute; reflexivity|]. split; [vm_compute; reflexivity|]. split; [vm_compute; reflexivity|]. cbn. repeat split.
Qed.

(** ** Two valid triangles are a valid Section; with the faulty one it is not *)
Definition moved_id (i : ComponentID) : ComponentID := mkCID (cid_type i) (cid_id i + 300).
Definition other_triangle := a_section [a_corner 300 true; a_corner 301 true; a_corner 302 true] [a_line 310 true; a_line 311 true; a_line 312 true] [a_surface 400 true (fun _ => true)]
  (map (map (fun c => mkCMV (moved_id (cmv_component c)) (cmv_vertex c))) triangle_cmvs) (map (fun r => (moved_id (fst r), moved_id (snd r))) triangle_bnd) [].
Example two_triangles : side_by_side triangle other_triangle (beside triangle other_triangle) /\ meshed_alike triangle other_triangle /\
  section_topology_is_valid triangle = Ok true /\ section_topology_is_valid other_triangle = Ok true /\ section_topology_is_valid (beside triangle other_triangle) = Ok true /\
  section_topology_is_valid two_faults = Ok false /\ section_topology_is_valid (beside two_faults other_triangle) = Ok false.
Proof.
  split; [apply beside_side_by_side; try reflexivity; [apply nodupb_ok; vm_compute; reflexivity|apply nodupb_ok; vm_compute; reflexivity|apply closedb_ok; vm_compute; reflexivity|apply closedb_ok; vm_compute; reflexivity]|].
  split; [split; intros _ s [<-|[]]; discriminate|]. repeat split; vm_compute; reflexivity.
Qed.

(** ** A surface without polygons, linked to nothing, hides what is reported of the other Section *)
Definition an_empty_surface := a_section [] [] [mkComponent 30 None true (mkSurface 2 [[]] [] (fun _ => None) [] (fun _ => false) (fun _ => d0) (fun _ => Ok []) (fun _ => true))] [] [] [].
Theorem C93_meshed_refuted : exists m1 m2 m r1 r2 r, side_by_side m1 m2 m /\ section_ok m1 /\ section_ok m2 /\
  inspect_section_topology m1 = Ok r1 /\ inspect_section_topology m2 = Ok r2 /\ inspect_section_topology m = Ok r /\
  ii_issues (ss_not_on_border (st_surfaces r1)) <> [] /\ ii_issues (ss_not_on_border (st_surfaces r)) = [].
Proof.
  exists two_faults, an_empty_surface, (beside two_faults an_empty_surface). eexists _, _, _.
  split; [apply beside_side_by_side; try reflexivity; [apply nodupb_ok; vm_compute; reflexivity|apply nodupb_ok; vm_compute; reflexivity|apply closedb_ok; vm_compute; reflexivity|apply closedb_ok; vm_compute; reflexivity]|].
  split; [apply sectionb_ok; vm_compute; reflexivity|]. split; [apply sectionb_ok; vm_compute; reflexivity|].
  split; [vm_compute; reflexivity|]. split; [vm_compute; reflexivity|]. split; [vm_compute; reflexivity|]. split; [discriminate|reflexivity].
Qed.
Print Assumptions C93_meshed_refuted.
