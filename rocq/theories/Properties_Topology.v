(** C35, C38, C45, C49: links between unique vertices and meshes, Section topology. *)
From Coq Require Import String Ascii List Arith NArith ZArith Bool Lia Sorted Floats.SpecFloat.
From Verif Require Import Base Model_Issues Types Model_Colocation Model_Topology Spec_Colocation Spec_Maps Spec_Adjacency
  Spec_Topology Proof_Topology Proof_Topology2 Proof_Topology3 Proof_Topology4 Proof_TopologyCheck.
Import ListNotations.
Open Scope list_scope.

(** ** C35 *)
Theorem C35_section_links : forall m, unique_ids m -> m_blocks m = [] -> exists r b,
  add_unique_vertices_with_wrong_cmv_link m cmv_exists_in_section no_links = Ok r /\
  lists_vertices m (fun uv => component_mesh_vertices m uv = []) (ii_issues (li_not_linked r)) /\
  one_entry_per_link m (fun _ c => ~ vertex_exists m c) (ii_issues (li_inexistant r)) /\
  one_entry_per_link m (linked_back_elsewhere m) (ii_issues (li_nonbijective r)) /\
  unique_vertices_are_bijectively_linked m cmv_exists_in_section = Ok b /\
  (b = true <-> bijectively_linked m) /\
  (b = true <-> ii_issues (li_not_linked r) = [] /\ ii_issues (li_inexistant r) = [] /\ ii_issues (li_nonbijective r) = []).
Proof. exact section_links_spec. Qed.
Print Assumptions C35_section_links.
Theorem C35_brep_links : forall m, unique_ids m -> exists r b,
  add_unique_vertices_with_wrong_cmv_link m cmv_exists_in_brep no_links = Ok r /\
  lists_vertices m (fun uv => component_mesh_vertices m uv = []) (ii_issues (li_not_linked r)) /\
  one_entry_per_link m (fun _ c => ~ vertex_exists m c) (ii_issues (li_inexistant r)) /\
  one_entry_per_link m (linked_back_elsewhere m) (ii_issues (li_nonbijective r)) /\
  unique_vertices_are_bijectively_linked m cmv_exists_in_brep = Ok b /\
  (b = true <-> bijectively_linked m) /\
  (b = true <-> ii_issues (li_not_linked r) = [] /\ ii_issues (li_inexistant r) = [] /\ ii_issues (li_nonbijective r) = []).
Proof. exact brep_links_spec. Qed.
Print Assumptions C35_brep_links.

(** ** C45 *)
(** The yes/no helper says true iff the list of unlinked vertices is empty, i.e. iff every vertex is linked. *)
Theorem C45_yes_no : forall m t id n,
  (vertices_are_associated m (mkCID t id) n = true <-> ii_issues (vertices_not_associated m (mkCID t id) n) = []) /\
  (vertices_are_associated m (mkCID t id) n = true <-> forall v, ~ unlinked m t id n v).
Proof. exact vertices_are_associated_iff. Qed.
Print Assumptions C45_yes_no.
Theorem C45_vertices_listed : forall m t id n,
  lists_exactly lt (unlinked m t id n) (ii_issues (vertices_not_associated m (mkCID t id) n)).
Proof. exact vertices_not_associated_spec. Qed.
Print Assumptions C45_vertices_listed.

(** ** C38 *)
Theorem C38_C45_section_corners : forall m, section_ok m -> exists r, section_inspect_corners_topology m = Ok r /\
  components_reported CornerT has_points nb_points0 true m (m_corners m) (ct_not_meshed r) (ct_not_linked r) /\
  lists_vertices m (several_corners m) (ii_issues (ct_multiple_corners r)) /\
  lists_vertices m (corner_with_several_embeddings m) (ii_issues (ct_multiple_embeddings r)) /\
  lists_vertices m (corner_without_relation m) (ii_issues (ct_not_internal_nor_boundary r)) /\
  lists_vertices m (corner_not_bounding_a_line m) (ii_issues (ct_not_boundary_line r)).
Proof. exact section_corners_spec. Qed.
Print Assumptions C38_C45_section_corners.
Theorem C38_C45_section_lines : forall m, section_ok m -> exists r, section_inspect_lines_topology m = Ok r /\
  components_reported LineT has_points_and_edges nb_points1 false m (m_lines m) (sl_not_meshed r) (sl_not_linked r) /\
  lists_vertices m (line_without_relation m) (ii_issues (sl_wrong_relationship r)) /\
  lists_vertices m (line_badly_embedded m) (ii_issues (sl_invalid_embeddings r)) /\
  lists_vertices m (single_line_invalid m) (ii_issues (sl_single_invalid r)) /\
  lists_vertices m (lines_without_corner m) (ii_issues (sl_several_not_corner r)).
Proof. exact section_lines_spec. Qed.
Print Assumptions C38_C45_section_lines.
Theorem C38_C45_section_surfaces : forall m, section_ok m -> exists r, section_inspect_surfaces m = Ok r /\
  components_reported SurfaceT has_points_and_polygons nb_points2 false m (m_surfaces m) (ss_not_meshed r) (ss_not_linked r) /\
  lists_vertices m (two_surfaces_without_common_line m) (ii_issues (ss_invalid_embeddings r)) /\
  lists_vertices m (line_vertex_off_border m) (ii_issues (ss_not_on_border r)).
Proof. exact section_surfaces_spec. Qed.
Print Assumptions C38_C45_section_surfaces.
(** The per-vertex predicates against the lists. *)
Theorem C38_predicates_and_lists : forall m uv rc rl rs, section_ok m -> uv < nb_unique_vertices m ->
  section_inspect_corners_topology m = Ok rc -> section_inspect_lines_topology m = Ok rl -> section_inspect_surfaces m = Ok rs ->
  decides (section_corner_topology_is_valid m uv)
    (~ In uv (ii_issues (ct_multiple_corners rc)) /\ ~ In uv (ii_issues (ct_multiple_embeddings rc)) /\
     ~ In uv (ii_issues (ct_not_internal_nor_boundary rc)) /\ ~ In uv (ii_issues (ct_not_boundary_line rc)) /\
     ~ embedded_corner_with_several_incidences m uv) /\
  decides (section_lines_topology_is_valid m uv)
    (~ In uv (ii_issues (sl_wrong_relationship rl)) /\ ~ In uv (ii_issues (sl_invalid_embeddings rl)) /\
     ~ In uv (ii_issues (sl_single_invalid rl)) /\ ~ In uv (ii_issues (sl_several_not_corner rl))) /\
  decides (section_vertex_surfaces_topology_is_valid m uv)
    ((exists s, active_at m uv SurfaceT s) -> ~ In uv (ii_issues (ss_invalid_embeddings rs)) /\ ~ In uv (ii_issues (ss_not_on_border rs))).
Proof. exact section_agreement. Qed.
Print Assumptions C38_predicates_and_lists.
(** The whole Section: what "valid" means, and that the inspection is the four inspections above. *)
Theorem C38_section_validity : forall m, section_ok m ->
  decides (section_topology_is_valid m)
    (0 < nb_unique_vertices m /\
     meshed_linked CornerT has_points nb_points0 m (m_corners m) /\ meshed_linked LineT has_points_and_edges nb_points1 m (m_lines m) /\
     meshed_linked SurfaceT has_points_and_polygons nb_points2 m (m_surfaces m) /\
     bijectively_linked m /\
     forall uv, uv < nb_unique_vertices m ->
       (~ several_corners m uv /\ ~ corner_with_several_embeddings m uv /\ ~ corner_without_relation m uv /\
        ~ corner_not_bounding_a_line m uv /\ ~ embedded_corner_with_several_incidences m uv) /\
       (~ line_without_relation m uv /\ ~ line_badly_embedded m uv /\ ~ single_line_invalid m uv /\ ~ lines_without_corner m uv) /\
       ((exists s, active_at m uv SurfaceT s) -> ~ two_surfaces_without_common_line m uv /\ ~ line_vertex_off_border m uv)).
Proof. exact section_valid_spec. Qed.
Print Assumptions C38_section_validity.
Theorem C38_section_inspection : forall m, section_ok m -> exists rc rl rs links,
  section_inspect_corners_topology m = Ok rc /\ section_inspect_lines_topology m = Ok rl /\ section_inspect_surfaces m = Ok rs /\
  add_unique_vertices_with_wrong_cmv_link m cmv_exists_in_section no_links = Ok links /\
  inspect_section_topology m = Ok (mkSectionTopology rc rl rs links).
Proof. exact section_topology_spec. Qed.
Print Assumptions C38_section_inspection.

(** ** Concrete Sections *)
(** unique vertices are the inverse of the given component mesh vertices *)
Definition cmv_eqb (a b : ComponentMeshVertex) : bool :=
  ctype_eqb (cmv_type a) (cmv_type b) && (Nat.eqb (cmv_id a) (cmv_id b) && Nat.eqb (cmv_vertex a) (cmv_vertex b)).
Fixpoint owner (i : nat) (l : list (list ComponentMeshVertex)) (c : ComponentMeshVertex) : option nat :=
  match l with
  | [] => None
  | cmvs :: l' => if existsb (cmv_eqb c) cmvs then Some i else owner (S i) l' c
  end.
Definition d0 : double := S754_zero false.
Definition a_corner id act := mkComponent id None act (mkPointSet [[]]).
Definition a_line id act := mkComponent id None act (mkCurve [[]; []] [(0, 1)] (fun _ => d0) (fun _ => false)).
Definition a_surface id act border := mkComponent id None act
  (mkSurface 2 [[]; []; []] [[0; 1; 2]] (fun _ => None) [] (fun _ => false) (fun _ => d0) (fun _ => Ok []) border).
Definition c_ id v := mkCMV (mkCID CornerT id) v.
Definition l_ id v := mkCMV (mkCID LineT id) v.
Definition s_ id v := mkCMV (mkCID SurfaceT id) v.
Definition cid_ id := mkCID CornerT id.
Definition lid_ id := mkCID LineT id.
Definition sid_ id := mkCID SurfaceT id.
Definition a_section cs ls ss cmvs bnd int : Model :=
  mkModel cs ls ss [] [] cmvs (owner 0 cmvs) bnd int OpenGeodeExn (fun _ => ""%string) (fun _ => ""%string) (fun _ => ""%string) (fun _ => ""%string).

(** a triangle: three corners, three lines, one surface *)
Definition triangle_bnd := [(cid_ 0, lid_ 10); (cid_ 1, lid_ 10); (cid_ 1, lid_ 11); (cid_ 2, lid_ 11); (cid_ 2, lid_ 12); (cid_ 0, lid_ 12);
  (lid_ 10, sid_ 100); (lid_ 11, sid_ 100); (lid_ 12, sid_ 100)].
Definition triangle_cmvs := [[c_ 0 0; l_ 10 0; l_ 12 1; s_ 100 0]; [c_ 1 0; l_ 10 1; l_ 11 0; s_ 100 1]; [c_ 2 0; l_ 11 1; l_ 12 0; s_ 100 2]].
Definition triangle := a_section [a_corner 0 true; a_corner 1 true; a_corner 2 true] [a_line 10 true; a_line 11 true; a_line 12 true]
  [a_surface 100 true (fun _ => true)] triangle_cmvs triangle_bnd [].
Example triangle_ok : section_ok triangle /\ section_topology_is_valid triangle = Ok true /\ bijectively_linked triangle.
Proof.
  split; [apply sectionb_ok; vm_compute; reflexivity|]. split; [vm_compute; reflexivity|].
  destruct (C35_section_links triangle) as (r & b & _ & _ & _ & _ & E & H & _); [apply nodupb_ok; vm_compute; reflexivity|reflexivity|].
  vm_compute in E. injection E as <-. apply H. reflexivity.
Qed.
(** the same triangle with corner 2 dropped from the links, a line vertex off the border and an unlinked vertex *)
Definition broken := a_section [a_corner 0 true; a_corner 1 true; a_corner 2 true] [a_line 10 true; a_line 11 true; a_line 12 true]
  [a_surface 100 true (fun v => negb (Nat.eqb v 0))]
  [[c_ 0 0; l_ 10 0; l_ 12 1; s_ 100 0]; [c_ 1 0; l_ 10 1; l_ 11 0; s_ 100 1]; [l_ 11 1; l_ 12 0; s_ 100 2]; []; [c_ 7 0]] triangle_bnd [].
Example broken_report : exists r links, add_unique_vertices_with_wrong_cmv_link broken cmv_exists_in_section no_links = Ok links /\
  section_inspect_corners_topology broken = Throw OpenGeodeExn /\
  ii_issues (li_not_linked links) = [3] /\ ii_issues (li_inexistant links) = [4] /\
  section_inspect_lines_topology broken = Ok r /\ ii_issues (sl_several_not_corner r) = [2].
Proof. eexists _, _. vm_compute. repeat split. Qed.
Example broken_surface : exists r, section_inspect_surfaces broken = Ok r /\ ii_issues (ss_not_on_border r) = [0].
Proof. eexists. vm_compute. repeat split. Qed.

(** The surface predicate only looks at vertices of active surfaces, the lists at all: a vertex of two inactive
    surfaces is reported although the predicate holds. *)
Definition inactive_pair := a_section [] [] [a_surface 100 false (fun _ => true); a_surface 101 false (fun _ => true)]
  [[s_ 100 0; s_ 101 0]] [] [].
Theorem C38_surface_lists_imply_predicate_not_conversely : exists m rs, section_ok m /\
  section_inspect_surfaces m = Ok rs /\ In 0 (ii_issues (ss_invalid_embeddings rs)) /\ section_topology_is_valid m = Ok true.
Proof.
  exists inactive_pair. eexists. split; [apply sectionb_ok; vm_compute; reflexivity|]. split; [vm_compute; reflexivity|].
  split; [left; reflexivity|vm_compute; reflexivity].
Qed.
Print Assumptions C38_surface_lists_imply_predicate_not_conversely.
(** An embedded corner bounding two lines makes the Section invalid, yet no list mentions it. *)
Definition embedded_corner := a_section [a_corner 0 true; a_corner 1 true; a_corner 2 true] [a_line 10 true; a_line 11 true]
  [a_surface 100 true (fun _ => true); a_surface 101 true (fun _ => true)]
  [[c_ 0 0; l_ 10 0; l_ 11 0; s_ 100 0; s_ 101 0]; [c_ 1 0; l_ 10 1; s_ 100 1; s_ 101 1]; [c_ 2 0; l_ 11 1; s_ 100 2; s_ 101 2]]
  [(cid_ 0, lid_ 10); (cid_ 1, lid_ 10); (cid_ 0, lid_ 11); (cid_ 2, lid_ 11);
   (lid_ 10, sid_ 100); (lid_ 11, sid_ 100); (lid_ 10, sid_ 101); (lid_ 11, sid_ 101)] [(cid_ 0, sid_ 100)].
Theorem C38_invalid_but_not_reported : exists m rc rl rs links, section_ok m /\ section_topology_is_valid m = Ok false /\
  inspect_section_topology m = Ok (mkSectionTopology rc rl rs links) /\
  ii_issues (ct_not_meshed rc) = [] /\ im_map (ct_not_linked rc) = [] /\ ii_issues (ct_multiple_corners rc) = [] /\
  ii_issues (ct_multiple_embeddings rc) = [] /\ ii_issues (ct_not_internal_nor_boundary rc) = [] /\ ii_issues (ct_not_boundary_line rc) = [] /\
  ii_issues (sl_not_meshed rl) = [] /\ im_map (sl_not_linked rl) = [] /\ ii_issues (sl_wrong_relationship rl) = [] /\
  ii_issues (sl_invalid_embeddings rl) = [] /\ ii_issues (sl_single_invalid rl) = [] /\ ii_issues (sl_several_not_corner rl) = [] /\
  ii_issues (ss_not_meshed rs) = [] /\ im_map (ss_not_linked rs) = [] /\ ii_issues (ss_invalid_embeddings rs) = [] /\ ii_issues (ss_not_on_border rs) = [] /\
  ii_issues (li_not_linked links) = [] /\ ii_issues (li_inexistant links) = [] /\ ii_issues (li_nonbijective links) = [].
Proof.
  exists embedded_corner. do 4 eexists. split; [apply sectionb_ok; vm_compute; reflexivity|]. split; [vm_compute; reflexivity|].
  split; [vm_compute; reflexivity|]. vm_compute. repeat split.
Qed.
Print Assumptions C38_invalid_but_not_reported.

(** ** C49: the embedded-line check of Sections depends on the order of the links *)
(** line 11 is embedded in two surfaces; line 10 has no embedding *)
Definition ordered (cmvs : list ComponentMeshVertex) := a_section [a_corner 0 true] [a_line 10 true; a_line 11 true]
  [a_surface 100 true (fun _ => true); a_surface 101 true (fun _ => true)] [cmvs]
  [(cid_ 0, lid_ 10); (cid_ 0, lid_ 11); (lid_ 10, sid_ 100)] [(lid_ 11, sid_ 100); (lid_ 11, sid_ 101)].
Theorem C49_link_order_matters : exists m m' r r', section_ok m /\ section_ok m' /\
  (forall c, In c (component_mesh_vertices m 0) <-> In c (component_mesh_vertices m' 0)) /\
  NoDup (component_mesh_vertices m 0) /\ NoDup (component_mesh_vertices m' 0) /\
  m_corners m = m_corners m' /\ m_lines m = m_lines m' /\ m_surfaces m = m_surfaces m' /\
  m_boundary_rel m = m_boundary_rel m' /\ m_internal_rel m = m_internal_rel m' /\ nb_unique_vertices m = 1 /\ nb_unique_vertices m' = 1 /\
  section_inspect_lines_topology m = Ok r /\ section_inspect_lines_topology m' = Ok r' /\
  ii_issues (sl_invalid_embeddings r) = [0] /\ ii_issues (sl_invalid_embeddings r') = [].
Proof.
  exists (ordered [l_ 11 0; l_ 10 0]), (ordered [l_ 10 0; l_ 11 0]). do 2 eexists.
  split; [apply sectionb_ok; vm_compute; reflexivity|]. split; [apply sectionb_ok; vm_compute; reflexivity|].
  split; [intros c; cbn; tauto|]. split; [repeat constructor; cbn; intuition discriminate|]. split; [repeat constructor; cbn; intuition discriminate|].
  do 7 (split; [reflexivity|]). split; [vm_compute; reflexivity|]. split; [vm_compute; reflexivity|]. split; reflexivity.
Qed.
Print Assumptions C49_link_order_matters.
(** What remains true whatever the order: if no active line of the vertex lacks embeddings, the vertex is reported
    iff one of its embedded lines is badly embedded. *)
Theorem C49_order_irrelevant_when_all_embedded : forall m uv r, section_ok m -> uv < nb_unique_vertices m ->
  (forall l, active_at m uv LineT l -> 1 <= nb_embeddings m l) ->
  section_inspect_lines_topology m = Ok r ->
  (In uv (ii_issues (sl_invalid_embeddings r)) <->
   exists l, active_at m uv LineT l /\ (1 < nb_embeddings m l \/ 1 <= nb_incidences m l \/ embedding_missed m uv l)).
Proof.
  intros m uv r H Huv Hall E. destruct (section_lines_spec m H) as (r' & E' & _ & _ & (_ & L) & _). rewrite E in E'. injection E' as <-. rewrite L. split.
  - intros [_ (pre & l & v & post & Ec & Ha & _ & _ & K)]. exists l. split; [|exact K]. split; [|exact Ha]. exists v. rewrite Ec, in_app_iff. right. left. reflexivity.
  - intros (l & A & K). split; [exact Huv|]. assert (A' := A). destruct A as [(v & Hv) Ha]. apply in_split in Hv. destruct Hv as (pre & post & Ec).
    exists pre, l, v, post. split; [exact Ec|]. split; [exact Ha|]. split; [apply Hall; exact A'|]. split; [|exact K].
    intros l' v' Hl' Ha'. apply Hall. split; [|exact Ha']. exists v'. rewrite Ec, in_app_iff. left. exact Hl'.
Qed.
Print Assumptions C49_order_irrelevant_when_all_embedded.
