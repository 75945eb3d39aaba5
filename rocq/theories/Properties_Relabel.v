(** C75: numbering the unique vertices of a model in another way numbers its report in this way, and changes nothing else. *)
From Coq Require Import String Ascii List Arith NArith ZArith Bool Lia Permutation.
From Verif Require Import Base BaseFacts Model_Issues Types Model_Hash Model_Adjacency Model_Colocation Model_Degeneration Model_Manifold Model_Intersections Model_Negative Model_Topology
  Model_BRep Model_Blocks Model_Results Model_Validity Spec_Colocation Spec_Topology Spec_BRep Spec_Blocks Spec_Renumber Spec_Relabel
  Proof_Messages Proof_Relabel Proof_Relabel3 Proof_Relabel4 Proof_Relabel5 Proof_Relabel6 Proof_Relabel7
  Proof_TopologyCheck Proof_BRepCheck Proof_GoodModels Properties_Topology Properties_BRep Properties_Blocks Properties_ValidModels Properties_Local.
Import ListNotations.
Open Scope list_scope.

(** ** The parts of the report *)
Theorem C75_unique_vertices : forall geo f m m', relabelled f m m' -> unique_ids m -> resolvable m -> blind_to_labels geo f m m' ->
  exists r r', inspect_unique_vertices geo m = Ok r /\ inspect_unique_vertices geo m' = Ok r' /\ relabelled_unique_vertices f r r'.
Proof. intros geo f m m' R U V B. exact (relabelled_unique f m m' R geo U V B). Qed.
Print Assumptions C75_unique_vertices.
(** the rest of the inspection of the meshes: points, adjacency, degeneration, negative elements, and the intersections *)
Theorem C75_meshes : forall f m m' o o', relabelled f m m' -> relabelled_searches f m m' o o' ->
  inspect_meshes_point_colocations (or_geometry o') m' = inspect_meshes_point_colocations (or_geometry o) m /\
  inspect_section_meshes_adjacencies (or_lookup o') m' = inspect_section_meshes_adjacencies (or_lookup o) m /\
  inspect_brep_meshes_adjacencies (or_lookup o') m' = inspect_brep_meshes_adjacencies (or_lookup o) m /\
  (forall st, inspect_elements_degeneration (or_measures o') (or_geometry o') m' st = inspect_elements_degeneration (or_measures o) (or_geometry o) m st) /\
  (forall st, section_inspect_elements_degeneration (or_measures o') (or_geometry o') m' st = section_inspect_elements_degeneration (or_measures o) (or_geometry o) m st) /\
  inspect_section_manifold (or_geometry o') (or_hash o') m' = inspect_section_manifold (or_geometry o) (or_hash o) m /\
  brep_negative_elements (or_measures o') m' = brep_negative_elements (or_measures o) m /\
  section_negative_elements (or_measures o') m' = section_negative_elements (or_measures o) m.
Proof.
  intros f m m' o o' R S. rewrite (rls_measures _ _ _ _ _ S), (rls_geometry _ _ _ _ _ S), (rls_hash _ _ _ _ _ S).
  pose proof (rl_nb _ _ _ R) as NB. pose proof (rl_numbers _ _ _ R) as N. pose proof (rl_unique _ _ _ R) as BK. pose proof (rl_range _ _ _ R) as RG.
  rewrite (relinked f m m' R) in NB |- *. set (cmvs := m_cmvs m') in *. set (back := m_unique_vertex m') in *.
  split; [exact (r_colocation f m cmvs back N BK RG _)|]. split; [apply (r_section_adjacency f m cmvs back NB N BK RG _ _ (rls_line_edges _ _ _ _ _ S))|].
  split; [exact (r_brep_adjacency f m cmvs back NB N BK RG _ _ (rls_line_edges _ _ _ _ _ S) (rls_surface_polygons _ _ _ _ _ S))|].
  split; [intros st; exact (r_brep_degeneration m cmvs back _ _ st)|]. split; [intros st; exact (r_section_degeneration m cmvs back _ _ st)|].
  split; [exact (r_section_manifold m cmvs back _ _)|]. split; [exact (r_brep_negative m cmvs back _)|exact (r_section_negative m cmvs back _)].
Qed.
Print Assumptions C75_meshes.
Theorem C75_intersections : forall f m m' px trees lines r, relabelled f m m' ->
  (section_inspect_intersections px m' trees r <-> section_inspect_intersections px m trees r) /\
  (brep_inspect_intersections px m' trees lines r <-> brep_inspect_intersections px m trees lines r).
Proof.
  intros f m m' px trees lines r R. pose proof (rl_numbers _ _ _ R) as N. pose proof (rl_unique _ _ _ R) as BK. pose proof (rl_range _ _ _ R) as RG.
  rewrite (relinked f m m' R). set (cmvs := m_cmvs m') in *. set (back := m_unique_vertex m') in *.
  split; [exact (r_section_intersections f m cmvs back N BK RG px trees r)|exact (r_brep_intersections f m cmvs back N BK RG px trees lines r)].
Qed.
Print Assumptions C75_intersections.
Theorem C75_brep_manifold : forall f m m' geo ho r, relabelled f m m' -> inspect_brep_manifold geo ho m = Ok r -> exists r', inspect_brep_manifold geo ho m' = Ok r' /\
  bm_vertices r' = bm_vertices r /\ bm_edges r' = bm_edges r /\ bm_facets r' = bm_facets r /\ relabelled_edges f (bm_model_edges r) (bm_model_edges r') /\
  ii_issues (bm_model_facets r') = map (new_facet f) (ii_issues (bm_model_facets r)).
Proof. intros f m m' geo ho r R. rewrite (relinked f m m' R) in R |- *. exact (manifold_relabelled f m _ _ R geo ho r). Qed.
Print Assumptions C75_brep_manifold.
Theorem C75_section_topology : forall f m m', relabelled f m m' -> section_ok m ->
  exists r r', inspect_section_topology m = Ok r /\ inspect_section_topology m' = Ok r' /\ relabelled_section_topology f r r'.
Proof. intros f m m' R K. rewrite (relinked f m m' R) in R |- *. exact (section_topology_relabelled f m _ _ R (so_ids m K) K). Qed.
Print Assumptions C75_section_topology.
Theorem C75_brep_topology : forall f m m' o o', relabelled f m m' -> relabelled_searches f m m' o o' -> blocks_ok (or_topo o) m -> lookup_ok (or_topo o) m -> lines_inspectable m ->
  exists r r', inspect_brep_topology (or_topo o) m = Ok r /\ inspect_brep_topology (or_topo o') m' = Ok r' /\ relabelled_brep_topology f r r'.
Proof.
  intros f m m' o o' R S K L I. assert (E := relinked f m m' R). set (cmvs := m_cmvs m') in *. set (back := m_unique_vertex m') in *. clearbody cmvs back. subst m'.
  exact (brep_topology_relabelled f m cmvs back R (br_ids m (bo_brep _ m K)) (or_topo o) (or_topo o') (rls_edges _ _ _ _ _ S) (rls_polygon_blocks _ _ _ _ _ S)
    (rls_inside_block _ _ _ _ _ S) (rls_box _ _ _ _ _ S) (rls_inside_closed _ _ _ _ _ S) K L I).
Qed.
Print Assumptions C75_brep_topology.

(** ** The whole reports *)
Lemma status_Ok : forall A (x : outcome A) l u, parallel_invoke (status x :: l) = Ok u -> exists a, x = Ok a /\ parallel_invoke l = Ok u.
Proof.
  intros A [a|e|] l u E; cbn in E; [exists a; split; [reflexivity|exact E]| |discriminate].
  destruct (existsb _ l); discriminate.
Qed.
Theorem C75_section_meshes : forall f m m' o o' st x r, relabelled f m m' -> relabelled_searches f m m' o o' -> unique_ids m -> resolvable m ->
  blind_to_labels (or_geometry o) f m m' -> inspect_section_meshes o m st x = Ok r ->
  exists r', inspect_section_meshes o' m' st x = Ok r' /\ relabelled_section_meshes f r r'.
Proof.
  intros f m m' o o' st x r R S U V B E. destruct (C75_unique_vertices _ f m m' R U V B) as (u & u' & Eu & Eu' & Ru).
  destruct (C75_meshes f m m' o o' R S) as (E1 & E2 & _ & _ & E3 & E4 & _ & E5). rewrite <- (rls_geometry _ _ _ _ _ S) in Eu'.
  unfold inspect_section_meshes in *. cbv zeta in *. rewrite E1, E2, E3, E4, E5, Eu'. rewrite Eu in E. apply bind_Ok in E as (t & Et & E). cbn [status bind parallel_invoke] in Et |- *.
  rewrite Et. cbn [bind]. eexists. split; [reflexivity|]. injection E as <-. constructor; cbn [sc_unique_vertices sc_colocation sc_adjacency sc_degeneration sc_intersections sc_manifold sc_negative assigned]; [exact Ru|reflexivity..].
Qed.
Print Assumptions C75_section_meshes.
Theorem C75_brep_meshes : forall f m m' o o' st x r, relabelled f m m' -> relabelled_searches f m m' o o' -> unique_ids m -> resolvable m ->
  blind_to_labels (or_geometry o) f m m' -> inspect_brep_meshes o m st x = Ok r ->
  exists r', inspect_brep_meshes o' m' st x = Ok r' /\ relabelled_brep_meshes f r r'.
Proof.
  intros f m m' o o' st x r R S U V B E. destruct (C75_unique_vertices _ f m m' R U V B) as (u & u' & Eu & Eu' & Ru).
  destruct (C75_meshes f m m' o o' R S) as (E1 & _ & E2 & E3 & _ & _ & E5 & _). rewrite <- (rls_geometry _ _ _ _ _ S) in Eu'.
  unfold inspect_brep_meshes in *. cbv zeta in *. rewrite Eu', E1, E2, E3, E5. rewrite Eu in E. rewrite (rls_geometry _ _ _ _ _ S), (rls_hash _ _ _ _ _ S).
  apply bind_Ok in E as (t & Et & E). apply status_Ok in Et as (a1 & X1 & Et). apply status_Ok in Et as (a2 & X2 & Et). apply status_Ok in Et as (a3 & X3 & Et).
  apply status_Ok in Et as (a4 & X4 & Et). apply status_Ok in Et as (a5 & X5 & Et). apply status_Ok in Et as (a6 & X6 & Et).
  destruct (C75_brep_manifold f m m' _ _ a6 R X6) as (a6' & X6' & M1 & M2 & M3 & M4 & M5).
  rewrite X2, X3, X4, X5, X6 in E. rewrite X2, X3, X4, X5, X6'. cbn [status bind parallel_invoke assigned] in E |- *.
  eexists. split; [reflexivity|]. injection E as <-. constructor; cbn [br_unique_vertices br_colocation br_adjacency br_degeneration br_intersections br_manifold br_negative]; first [exact Ru|reflexivity|assumption].
Qed.
Print Assumptions C75_brep_meshes.
Theorem C75_section : forall f m m' o o' st x r, relabelled f m m' -> relabelled_searches f m m' o o' -> section_ok m -> resolvable m ->
  blind_to_labels (or_geometry o) f m m' -> inspect_section o m st x = Ok r ->
  exists r', inspect_section o' m' st x = Ok r' /\ relabelled_section_meshes f (r_section_meshes r) (r_section_meshes r') /\
    relabelled_section_topology f (r_section_topology r) (r_section_topology r') /\ section_nb_issues r' = section_nb_issues r /\
    exists v v', is_section_valid o m st x = Ok v /\ is_section_valid o' m' st x = Ok v' /\ length v' = length v.
Proof.
  intros f m m' o o' st x r R S K V B E. destruct (C75_section_topology f m m' R K) as (t & t' & Et & Et' & Rt).
  assert (E0 := E). unfold inspect_section in E. cbv zeta in E. rewrite Et in E. apply bind_Ok in E as (u & Eu & E). apply status_Ok in Eu as (a & Ea & _). rewrite Ea in E. cbn [assigned] in E. injection E as <-.
  destruct (C75_section_meshes f m m' o o' st x a R S (so_ids m K) V B Ea) as (a' & Ea' & Ra).
  assert (E' : inspect_section o' m' st x = Ok (mkSectionResult a' t')) by (unfold inspect_section; cbv zeta; rewrite Ea', Et'; reflexivity).
  exists (mkSectionResult a' t'). split; [exact E'|]. cbn [r_section_meshes r_section_topology]. split; [exact Ra|]. split; [exact Rt|].
  destruct (section_counts f (or_hash o) a a' t t' Ra Rt) as [C1 C2]. split; [exact C1|].
  eexists _, _. unfold is_section_valid. rewrite E0, E'. cbn [bind]. split; [reflexivity|]. split; [reflexivity|]. rewrite (rls_hash _ _ _ _ _ S). exact C2.
Qed.
Print Assumptions C75_section.
Theorem C75_brep : forall f m m' o o' st x r, relabelled f m m' -> relabelled_searches f m m' o o' -> blocks_ok (or_topo o) m -> lookup_ok (or_topo o) m -> lines_inspectable m ->
  resolvable m -> blind_to_labels (or_geometry o) f m m' -> inspect_brep o m st x = Ok r ->
  exists r', inspect_brep o' m' st x = Ok r' /\ relabelled_brep_meshes f (r_brep_meshes r) (r_brep_meshes r') /\
    relabelled_brep_topology f (r_brep_topology r) (r_brep_topology r') /\ brep_nb_issues r' = brep_nb_issues r /\
    exists v v', is_brep_valid o m st x = Ok v /\ is_brep_valid o' m' st x = Ok v' /\ length v' = length v.
Proof.
  intros f m m' o o' st x r R S K L I V B E. destruct (C75_brep_topology f m m' o o' R S K L I) as (t & t' & Et & Et' & Rt).
  assert (E0 := E). unfold inspect_brep in E. cbv zeta in E. rewrite Et in E. apply bind_Ok in E as (u & Eu & E). apply status_Ok in Eu as (a & Ea & _). rewrite Ea in E. cbn [assigned] in E. injection E as <-.
  destruct (C75_brep_meshes f m m' o o' st x a R S (br_ids m (bo_brep _ m K)) V B Ea) as (a' & Ea' & Ra).
  assert (E' : inspect_brep o' m' st x = Ok (mkBRepResult a' t')) by (unfold inspect_brep; cbv zeta; rewrite Ea', Et'; reflexivity).
  exists (mkBRepResult a' t'). split; [exact E'|]. cbn [r_brep_meshes r_brep_topology]. split; [exact Ra|]. split; [exact Rt|].
  destruct (brep_counts f (or_hash o) a a' t t' Ra Rt) as [C1 C2]. split; [exact C1|].
  eexists _, _. unfold is_brep_valid. rewrite E0, E'. cbn [bind]. split; [reflexivity|]. split; [reflexivity|]. rewrite (rls_hash _ _ _ _ _ S). exact C2.
Qed.
Print Assumptions C75_brep.

(** ** Examples *)
(** the search used in the examples is blind, whatever the model *)
Example exact_search_blind : forall f m m', numbers (nb_unique_vertices m) f -> blind_to_labels exact_geo f m m'.
Proof. exact exact_blind. Qed.
(** vertices [0] and [n] exchange their numbers *)
Definition exchange (n v : nat) : nat := if Nat.eqb v 0 then n else if Nat.eqb v n then 0 else v.
Lemma exchange_twice : forall n v, exchange n (exchange n v) = v.
Proof.
  intros n v. unfold exchange. destruct (Nat.eqb_spec v 0) as [->|A].
  - destruct (Nat.eqb_spec n 0) as [->|B]; [reflexivity|]. rewrite Nat.eqb_refl. reflexivity.
  - destruct (Nat.eqb_spec v n) as [->|B]; [reflexivity|]. rewrite (proj2 (Nat.eqb_neq v 0) A), (proj2 (Nat.eqb_neq v n) B). reflexivity.
Qed.
Lemma exchange_numbers : forall n k, n < k -> numbers k (exchange n).
Proof.
  intros n k L. split.
  - intros i I. unfold exchange. destruct (Nat.eqb i 0); [exact L|]. destruct (Nat.eqb i n); lia.
  - intros i j _ _ E. rewrite <- (exchange_twice n i), E. apply exchange_twice.
Qed.
Definition exchanged (n : nat) (m : Model) : Model :=
  relink m (map (fun v => component_mesh_vertices m (exchange n v)) (seq 0 (nb_unique_vertices m))) (fun c => option_map (exchange n) (m_unique_vertex m c)).
Definition exchanged_oracles (n : nat) (o : Oracles) : Oracles := let x := exchange n in
  mkOracles (or_measures o) (or_geometry o) (or_hash o)
    (mkLookup (fun e => lk_line_edges (or_lookup o) (x (fst e), x (snd e))) (fun l => lk_surface_polygons (or_lookup o) (map x l)))
    (mkTopoLookup (fun a b => tl_edges (or_topo o) (x a) (x b)) (fun l => tl_polygon_blocks (or_topo o) (map x l)) (tl_inside_block (or_topo o)) (tl_box_contains (or_topo o))
      (tl_inside_closed (or_topo o))).
Lemma owner_range : forall cmvs n c uv, owner n cmvs c = Some uv -> uv < n + length cmvs.
Proof.
  induction cmvs as [|l cmvs IH]; intros n c uv E; cbn in E; [discriminate|]. destruct (existsb _ l).
  - injection E as <-. cbn. lia.
  - apply IH in E. cbn. lia.
Qed.
Lemma exchanged_relabelled : forall n m, n < nb_unique_vertices m -> (forall c uv, m_unique_vertex m c = Some uv -> uv < nb_unique_vertices m) -> relabelled (exchange n) m (exchanged n m).
Proof.
  intros n m L G. constructor; try reflexivity; [| | |exact G].
  - unfold exchanged, nb_unique_vertices, relink. cbn [m_cmvs]. rewrite map_length, seq_length. reflexivity.
  - apply exchange_numbers, L.
  - intros uv U. unfold exchanged, component_mesh_vertices at 1, relink. cbn [m_cmvs]. assert (V := proj1 (exchange_numbers n _ L) uv U).
    erewrite nth_indep by (rewrite map_length, seq_length; exact V). rewrite map_nth with (d := 0), seq_nth by exact V. cbn [plus]. rewrite exchange_twice. reflexivity.
Qed.
Lemma exchanged_searches : forall n m m' o, relabelled_searches (exchange n) m m' o (exchanged_oracles n o).
Proof.
  intros n m m' o. assert (E : forall l, map (exchange n) (map (exchange n) l) = l) by (intros l; rewrite map_map; etransitivity; [|apply map_id]; apply map_ext; intros v; apply exchange_twice).
  constructor; try reflexivity; intros; cbn; rewrite ?exchange_twice, ?E; reflexivity.
Qed.
(** *** A triangle with an unlinked corner, its vertices 0 and 2 exchanged *)
Definition no_corner_2 := good_triangle [good_corner 0 0; good_corner 1 1; good_corner 2 2]
  [[c_ 0 0; l_ 10 0; l_ 12 1; s_ 100 0]; [c_ 1 0; l_ 10 1; l_ 11 0; s_ 100 1]; [l_ 11 1; l_ 12 0; s_ 100 2]] triangle_bnd.
Example exchanged_triangle : let m := no_corner_2 in let m' := exchanged 2 m in let o := triangle_oracles in let o' := exchanged_oracles 2 o in
  relabelled (exchange 2) m m' /\ relabelled_searches (exchange 2) m m' o o' /\ section_ok m /\ resolvable m /\ blind_to_labels (or_geometry o) (exchange 2) m m' /\
  exists r r', inspect_section o m no_storage (Ok empty_intersections) = Ok r /\ inspect_section o' m' no_storage (Ok empty_intersections) = Ok r' /\
    ii_issues (sl_several_not_corner (st_lines (r_section_topology r))) = [2] /\ ii_issues (sl_several_not_corner (st_lines (r_section_topology r'))) = [0].
Proof.
  cbv zeta. split; [apply exchanged_relabelled; [cbn; lia|apply (owner_range _ 0)]|]. split; [apply exchanged_searches|]. split; [apply sectionb_ok; vm_compute; reflexivity|].
  split; [apply links_ok; vm_compute; reflexivity|]. split; [apply exact_blind, exchange_numbers; cbn; lia|].
  eexists _, _. split; [vm_compute; reflexivity|]. split; [vm_compute; reflexivity|]. split; reflexivity.
Qed.
(** *** A tetrahedron and a loose vertex, which takes number 0 *)
Definition good_tet_and_loose := a_brep (m_corners good_tet) (m_lines good_tet) (m_surfaces good_tet) (m_blocks good_tet) [(5000, [100; 101; 102; 103])] (tet_cmvs ++ [[]]) tet_bnd [].
Example exchanged_tet : let m := good_tet_and_loose in let m' := exchanged 4 m in let o := tet_oracles tet_tl in let o' := exchanged_oracles 4 o in
  relabelled (exchange 4) m m' /\ relabelled_searches (exchange 4) m m' o o' /\ blocks_ok (or_topo o) m /\ lookup_ok (or_topo o) m /\ lines_inspectable m /\ resolvable m /\
  blind_to_labels (or_geometry o) (exchange 4) m m' /\
  exists r r', inspect_brep o m no_storage (Ok empty_intersections) = Ok r /\ inspect_brep o' m' no_storage (Ok empty_intersections) = Ok r' /\
    ii_issues (li_not_linked (bt_links (r_brep_topology r))) = [4] /\ ii_issues (li_not_linked (bt_links (r_brep_topology r'))) = [0].
Proof.
  cbv zeta. split; [apply exchanged_relabelled; [cbn; lia|apply (owner_range _ 0)]|]. split; [apply exchanged_searches|].
  assert (K : blocks_ok tet_tl good_tet_and_loose) by (apply blocksb_ok; [apply tables_safe|apply tables_safe|vm_compute; reflexivity]).
  split; [exact K|]. split; [apply tableb_ok; vm_compute; reflexivity|]. split; [apply simple_inspectable; [apply (bo_brep _ _ K)|vm_compute; reflexivity|vm_compute; reflexivity]|].
  split; [apply links_ok; vm_compute; reflexivity|]. split; [apply exact_blind, exchange_numbers; cbn; lia|].
  eexists _, _. split; [vm_compute; reflexivity|]. split; [vm_compute; reflexivity|]. split; reflexivity.
Qed.
