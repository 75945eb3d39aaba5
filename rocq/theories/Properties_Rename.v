(** C76: the identifiers (uuids) of components are arbitrary: giving the components other identifiers gives the report the same
    issues, of the components under their new identifiers, and changes nothing else. *)
From Coq Require Import String Ascii List Arith NArith ZArith Bool Lia Permutation.
From Verif Require Import Base BaseFacts Model_Issues Types Model_Hash Model_Adjacency Model_Colocation Model_Degeneration Model_Manifold Model_Intersections Model_Negative Model_Topology
  Model_BRep Model_Blocks Model_Results Model_Validity Spec_Colocation Spec_Topology Spec_BRep Spec_Blocks Spec_Rename
  Proof_Messages Proof_Order5 Proof_Rename Proof_Rename5 Proof_Rename6 Proof_Rename7 Proof_Rename8 Proof_Rename9
  Proof_TopologyCheck Proof_BRepCheck Proof_GoodModels Properties_Topology Properties_BRep Properties_Blocks Properties_Intersections Properties_Order Properties_Relabel.
Import ListNotations.
Open Scope list_scope.

(** Giving the old identifiers back gives the old model back: all the theorems below apply in both directions. *)
Theorem C76_back : forall f g m m', one_to_one f g -> renamed f m m' -> one_to_one g f /\ renamed g m' m.
Proof.
  intros f g m m' [G F] R. split; [split; assumption|].
  assert (C : forall c, new_cid g (new_cid f c) = c) by (intros [t i]; unfold new_cid; cbn; rewrite G; reflexivity).
  assert (V : forall c, new_cmv g (new_cmv f c) = c) by (intros [c v]; unfold new_cmv; cbn; rewrite C; reflexivity).
  assert (V' : forall c, new_cmv f (new_cmv g c) = c) by (intros [[t i] v]; unfold new_cmv, new_cid; cbn; rewrite F; reflexivity).
  assert (K : forall M (l : list (Component M)), l = map (new_component g) (map (new_component f) l)).
  { intros M l. rewrite map_map. rewrite <- (map_id l) at 1. apply map_ext. intros [i n a x]. unfold new_component. cbn. rewrite G. reflexivity. }
  assert (L : forall l, l = map (new_relation g) (map (new_relation f) l)).
  { intros l. rewrite map_map. rewrite <- (map_id l) at 1. apply map_ext. intros [a b]. unfold new_relation. cbn [fst snd]. rewrite !C. reflexivity. }
  constructor.
  - rewrite (rn_corners _ _ _ R). apply K.
  - rewrite (rn_lines _ _ _ R). apply K.
  - rewrite (rn_surfaces _ _ _ R). apply K.
  - rewrite (rn_blocks _ _ _ R). apply K.
  - rewrite (rn_boundaries _ _ _ R), map_map. rewrite <- (map_id (map snd (m_model_boundaries m))) at 1. apply map_ext. intros l. rewrite map_map. rewrite <- (map_id l) at 1. apply map_ext. intros x. symmetry. apply G.
  - rewrite (rn_cmvs _ _ _ R), map_map. rewrite <- (map_id (m_cmvs m)) at 1. apply map_ext. intros l. rewrite map_map. rewrite <- (map_id l) at 1. apply map_ext. intros x. symmetry. apply V.
  - intros c. rewrite <- (V' c) at 2. symmetry. apply (rn_unique _ _ _ R).
  - rewrite (rn_boundary_rel _ _ _ R). apply L.
  - rewrite (rn_internal_rel _ _ _ R). apply L.
  - symmetry. apply (rn_missing _ _ _ R).
Qed.
Print Assumptions C76_back.

(** ** The parts of the report *)
Theorem C76_section_topology : forall f g m m', one_to_one f g -> renamed f m m' -> section_ok m ->
  section_topology_is_valid m' = section_topology_is_valid m /\
  exists r r', inspect_section_topology m = Ok r /\ inspect_section_topology m' = Ok r' /\ renamed_section_topology f r r'.
Proof. intros f g m m' H R K. split; [exact (n_section_valid f g H m m' R K)|exact (n_section_topology f g H m m' R K)]. Qed.
Print Assumptions C76_section_topology.
Theorem C76_brep_topology : forall f g m m' tl tl', one_to_one f g -> renamed f m m' -> renamed_topo f tl tl' -> blocks_ok tl m -> lookup_ok tl m -> lines_inspectable m ->
  exists r r', inspect_brep_topology tl m = Ok r /\ inspect_brep_topology tl' m' = Ok r' /\ renamed_brep_topology f r r'.
Proof. intros f g m m' tl tl' H R T K L I. exact (n_brep_topology f g H m m' R tl tl' T K L I). Qed.
Print Assumptions C76_brep_topology.
Theorem C76_brep_topology_valid : forall f g m m' tl tl', one_to_one f g -> renamed f m m' -> renamed_topo f tl tl' -> brep_ok m -> lookup_ok tl m -> lines_inspectable m -> counts_fit m ->
  brep_topology_is_valid tl' m' = brep_topology_is_valid tl m.
Proof. intros f g m m' tl tl' H R T K L I C. exact (n_brep_valid f g H m m' R tl tl' T K L I C). Qed.
Print Assumptions C76_brep_topology_valid.
(** unique vertices are not named: their report does not change, texts included *)
Theorem C76_unique_vertices : forall f g m m' geo, one_to_one f g -> renamed f m m' -> inspect_unique_vertices geo m' = inspect_unique_vertices geo m.
Proof. intros f g m m' geo H R. exact (n_unique_vertices f g H m m' R geo). Qed.
Print Assumptions C76_unique_vertices.
(** Every end of a search for intersections in the model (pairs, exception, undefined behaviour) is one in the renamed model. *)
Theorem C76_section_intersections : forall f g m m' px trees trees', one_to_one f g -> renamed f m m' -> renamed_trees f trees trees' ->
  (forall r, section_inspect_intersections px m trees (Ok r) -> exists r', section_inspect_intersections px m' trees' (Ok r') /\ renamed_intersections f r r') /\
  (forall e, section_inspect_intersections px m trees (Throw e) -> section_inspect_intersections px m' trees' (Throw e)) /\
  (section_inspect_intersections px m trees UB -> section_inspect_intersections px m' trees' UB).
Proof.
  intros f g m m' px trees trees' H R T. pose proof (n_section_intersections f g H m m' R px trees trees' T) as N. split; [|split].
  - intros r Q. destruct (N _ Q) as ([r'|e|] & Q' & E); cbn in E; [eauto|destruct E|destruct E].
  - intros e Q. destruct (N _ Q) as ([r'|e'|] & Q' & E); cbn in E; [destruct E|subst; exact Q'|destruct E].
  - intros Q. destruct (N _ Q) as ([r'|e'|] & Q' & E); cbn in E; [destruct E|destruct E|exact Q'].
Qed.
Print Assumptions C76_section_intersections.
Theorem C76_brep_intersections : forall f g m m' px trees trees' lines lines', one_to_one f g -> renamed f m m' -> renamed_trees f trees trees' -> renamed_line_trees f lines lines' ->
  (forall r, brep_inspect_intersections px m trees lines (Ok r) -> exists r', brep_inspect_intersections px m' trees' lines' (Ok r') /\ renamed_intersections f r r') /\
  (forall e, brep_inspect_intersections px m trees lines (Throw e) -> brep_inspect_intersections px m' trees' lines' (Throw e)) /\
  (brep_inspect_intersections px m trees lines UB -> brep_inspect_intersections px m' trees' lines' UB).
Proof.
  intros f g m m' px trees trees' lines lines' H R T L. pose proof (n_brep_intersections f g H m m' R px trees trees' T lines lines' L) as N. split; [|split].
  - intros r Q. destruct (N _ Q) as ([r'|e|] & Q' & E); cbn in E; [eauto|destruct E|destruct E].
  - intros e Q. destruct (N _ Q) as ([r'|e'|] & Q' & E); cbn in E; [destruct E|subst; exact Q'|destruct E].
  - intros Q. destruct (N _ Q) as ([r'|e'|] & Q' & E); cbn in E; [destruct E|destruct E|exact Q'].
Qed.
Print Assumptions C76_brep_intersections.

(** ** The whole reports *)
Theorem C76_section_meshes : forall f g m m' o o' st st' i i' r, one_to_one f g -> renamed f m m' -> renamed_searches f o o' -> renamed_intersections f i i' ->
  inspect_section_meshes o m st (Ok i) = Ok r -> exists r', inspect_section_meshes o' m' st' (Ok i') = Ok r' /\ renamed_section_meshes f r r'.
Proof. intros f g m m' o o' st st' i i' r H R S. exact (n_section_meshes f g H m m' R o o' S st st' i i' r). Qed.
Print Assumptions C76_section_meshes.
Theorem C76_brep_meshes : forall f g m m' o o' st st' i i' r, one_to_one f g -> renamed f m m' -> renamed_searches f o o' -> renamed_intersections f i i' ->
  inspect_brep_meshes o m st (Ok i) = Ok r -> exists r', inspect_brep_meshes o' m' st' (Ok i') = Ok r' /\ renamed_brep_meshes f r r'.
Proof. intros f g m m' o o' st st' i i' r H R S. exact (n_brep_meshes f g H m m' R o o' S st st' i i' r). Qed.
Print Assumptions C76_brep_meshes.
Theorem C76_section : forall f g m m' o o' st st' i i' r, one_to_one f g -> renamed f m m' -> renamed_searches f o o' -> renamed_intersections f i i' -> section_ok m ->
  inspect_section o m st (Ok i) = Ok r ->
  exists r', inspect_section o' m' st' (Ok i') = Ok r' /\ renamed_section_meshes f (r_section_meshes r) (r_section_meshes r') /\
    renamed_section_topology f (r_section_topology r) (r_section_topology r') /\ section_nb_issues r' = section_nb_issues r /\
    exists v v', is_section_valid o m st (Ok i) = Ok v /\ is_section_valid o' m' st' (Ok i') = Ok v' /\ length v' = length v.
Proof.
  intros f g m m' o o' st st' i i' r H R S I K E. destruct (n_section_topology f g H m m' R K) as (t & t' & Et & Et' & Rt).
  assert (E0 := E). unfold inspect_section in E. cbv zeta in E. rewrite Et in E. apply bind_Ok in E as (u & Eu & E). apply status_Ok in Eu as (a & Ea & _). rewrite Ea in E. cbn [assigned] in E. injection E as <-.
  destruct (C76_section_meshes f g m m' o o' st st' i i' a H R S I Ea) as (a' & Ea' & Ra).
  assert (E' : inspect_section o' m' st' (Ok i') = Ok (mkSectionResult a' t')) by (unfold inspect_section; cbv zeta; rewrite Ea', Et'; reflexivity).
  exists (mkSectionResult a' t'). split; [exact E'|]. cbn [r_section_meshes r_section_topology]. split; [exact Ra|]. split; [exact Rt|].
  destruct (n_section_counts f (or_hash o) a a' t t' Ra Rt) as [C1 C2]. split; [exact C1|].
  eexists _, _. unfold is_section_valid. rewrite E0, E'. cbn [bind]. split; [reflexivity|]. split; [reflexivity|]. rewrite (rns_hash _ _ _ S). exact C2.
Qed.
Print Assumptions C76_section.
Theorem C76_brep : forall f g m m' o o' st st' i i' r, one_to_one f g -> renamed f m m' -> renamed_searches f o o' -> renamed_intersections f i i' ->
  blocks_ok (or_topo o) m -> lookup_ok (or_topo o) m -> lines_inspectable m -> inspect_brep o m st (Ok i) = Ok r ->
  exists r', inspect_brep o' m' st' (Ok i') = Ok r' /\ renamed_brep_meshes f (r_brep_meshes r) (r_brep_meshes r') /\
    renamed_brep_topology f (r_brep_topology r) (r_brep_topology r') /\ brep_nb_issues r' = brep_nb_issues r /\
    exists v v', is_brep_valid o m st (Ok i) = Ok v /\ is_brep_valid o' m' st' (Ok i') = Ok v' /\ length v' = length v.
Proof.
  intros f g m m' o o' st st' i i' r H R S I K L N E. destruct (n_brep_topology f g H m m' R _ _ (rns_topo _ _ _ S) K L N) as (t & t' & Et & Et' & Rt).
  assert (E0 := E). unfold inspect_brep in E. cbv zeta in E. rewrite Et in E. apply bind_Ok in E as (u & Eu & E). apply status_Ok in Eu as (a & Ea & _). rewrite Ea in E. cbn [assigned] in E. injection E as <-.
  destruct (C76_brep_meshes f g m m' o o' st st' i i' a H R S I Ea) as (a' & Ea' & Ra).
  assert (E' : inspect_brep o' m' st' (Ok i') = Ok (mkBRepResult a' t')) by (unfold inspect_brep; cbv zeta; rewrite Ea', Et'; reflexivity).
  exists (mkBRepResult a' t'). split; [exact E'|]. cbn [r_brep_meshes r_brep_topology]. split; [exact Ra|]. split; [exact Rt|].
  destruct (n_brep_counts f (or_hash o) a a' t t' Ra Rt) as [C1 C2]. split; [exact C1|].
  eexists _, _. unfold is_brep_valid. rewrite E0, E'. cbn [bind]. split; [reflexivity|]. split; [reflexivity|]. rewrite (rns_hash _ _ _ S). exact C2.
Qed.
Print Assumptions C76_brep.

(** ** Examples *)
(** the identifiers up to [n] in the opposite order *)
Definition mirror (n x : nat) : nat := if Nat.leb x n then n - x else x.
Lemma mirror_twice : forall n x, mirror n (mirror n x) = x.
Proof.
  intros n x. unfold mirror. destruct (Nat.leb x n) eqn:L; [|rewrite L; reflexivity]. apply Nat.leb_le in L.
  rewrite (proj2 (Nat.leb_le (n - x) n)) by lia. lia.
Qed.
Lemma mirror_one_to_one : forall n, one_to_one (mirror n) (mirror n).
Proof. intros n. split; apply mirror_twice. Qed.
Definition mirrored (n : nat) (m : Model) : Model := let f := mirror n in
  mkModel (map (new_component f) (m_corners m)) (map (new_component f) (m_lines m)) (map (new_component f) (m_surfaces m)) (map (new_component f) (m_blocks m))
    (map (fun b => (fst b, map f (snd b))) (m_model_boundaries m)) (map (map (new_cmv f)) (m_cmvs m)) (fun c => m_unique_vertex m (new_cmv f c))
    (map (new_relation f) (m_boundary_rel m)) (map (new_relation f) (m_internal_rel m)) (m_missing_exn m) (m_uuid_string m) (m_point_string m) (m_cmv_string m) (m_cid_string m).
Lemma mirrored_renamed : forall n m, renamed (mirror n) m (mirrored n m).
Proof.
  intros n m. constructor; try reflexivity.
  - unfold mirrored. cbn [m_model_boundaries]. rewrite !map_map. reflexivity.
  - intros [[t i] v]. unfold mirrored, new_cmv, new_cid. cbn. rewrite mirror_twice. reflexivity.
Qed.
Definition mirrored_topo (n : nat) (tl : TopoLookup) : TopoLookup := let f := mirror n in
  mkTopoLookup (fun a b => mkMeshEdges (map (new_key f) (me_surfaces (tl_edges tl a b))) (map (new_key f) (me_blocks (tl_edges tl a b)))) (fun l => map (new_key f) (tl_polygon_blocks tl l))
    (fun s b => tl_inside_block tl (f s) (f b)) (fun p q => tl_box_contains tl (map f p) (map f q)) (tl_inside_closed tl).
Definition mirrored_answer (n : nat) (x : outcome (list (uuid * nat))) : outcome (list (uuid * nat)) := let! l := x in Ok (map (new_key (mirror n)) l).
Definition mirrored_oracles (n : nat) (o : Oracles) : Oracles :=
  mkOracles (or_measures o) (or_geometry o) (or_hash o)
    (mkLookup (fun e => mirrored_answer n (lk_line_edges (or_lookup o) e)) (fun l => mirrored_answer n (lk_surface_polygons (or_lookup o) l))) (mirrored_topo n (or_topo o)).
Lemma mirrored_searches : forall n o, renamed_searches (mirror n) o (mirrored_oracles n o).
Proof.
  intros n o. assert (A : forall x, renamed_answer (mirror n) x (mirrored_answer n x)) by (intros [l|e|]; cbn; auto).
  assert (M : forall l, map (mirror n) (map (mirror n) l) = l) by (intros l; rewrite map_map; etransitivity; [|apply map_id]; apply map_ext; intros v; apply mirror_twice).
  constructor; try reflexivity; [intros; apply A|intros; apply A|]. constructor; intros; cbn; rewrite ?mirror_twice, ?M; try apply Permutation_refl; reflexivity.
Qed.
(** *** A triangle with three unlinked corners (0, 1 and 2), whose identifiers become 200, 199 and 198 *)
Example mirrored_triangle : let m := loose_triangle in let m' := mirrored 200 m in let o := triangle_oracles in let o' := mirrored_oracles 200 o in
  one_to_one (mirror 200) (mirror 200) /\ renamed (mirror 200) m m' /\ renamed_searches (mirror 200) o o' /\ renamed_intersections (mirror 200) empty_intersections empty_intersections /\ section_ok m /\
  exists r r', inspect_section o m no_storage (Ok empty_intersections) = Ok r /\ inspect_section o' m' no_storage (Ok empty_intersections) = Ok r' /\
    (map fst (im_map (ct_not_linked (st_corners (r_section_topology r)))), map fst (im_map (ct_not_linked (st_corners (r_section_topology r'))))) = ([0; 1; 2], [200; 199; 198]).
Proof.
  cbv zeta. split; [apply mirror_one_to_one|]. split; [apply mirrored_renamed|]. split; [apply mirrored_searches|]. split; [reflexivity|]. split; [apply sectionb_ok; vm_compute; reflexivity|].
  eexists _, _. split; [vm_compute; reflexivity|]. split; [vm_compute; reflexivity|]. vm_compute. reflexivity.
Qed.
(** *** A tetrahedron and a loose vertex *)
Example mirrored_tet : let m := good_tet_and_loose in let m' := mirrored 5000 m in let o := tet_oracles tet_tl in let o' := mirrored_oracles 5000 o in
  one_to_one (mirror 5000) (mirror 5000) /\ renamed (mirror 5000) m m' /\ renamed_searches (mirror 5000) o o' /\ blocks_ok (or_topo o) m /\ lookup_ok (or_topo o) m /\ lines_inspectable m /\ counts_fit m /\
  exists r r', inspect_brep o m no_storage (Ok empty_intersections) = Ok r /\ inspect_brep o' m' no_storage (Ok empty_intersections) = Ok r' /\
    ii_issues (li_not_linked (bt_links (r_brep_topology r))) = [4] /\ ii_issues (li_not_linked (bt_links (r_brep_topology r'))) = [4].
Proof.
  cbv zeta. split; [apply mirror_one_to_one|]. split; [apply mirrored_renamed|]. split; [apply mirrored_searches|].
  assert (K : blocks_ok tet_tl good_tet_and_loose) by (apply blocksb_ok; [apply tables_safe|apply tables_safe|vm_compute; reflexivity]).
  split; [exact K|]. split; [apply tableb_ok; vm_compute; reflexivity|]. split; [apply simple_inspectable; [apply (bo_brep _ _ K)|vm_compute; reflexivity|vm_compute; reflexivity]|].
  split; [exact (bo_fit _ _ K)|]. eexists _, _. split; [vm_compute; reflexivity|]. split; [vm_compute; reflexivity|]. split; reflexivity.
Qed.
(** *** Runs of the search for intersections *)
Definition mirrored_trees n (t : Trees) : Trees := mkTrees (map (mirror n) (tr_uuids t)) (tr_overlaps t) (tr_self t) (tr_other t).
Definition mirrored_lines n (t : LineTrees) : LineTrees := mkLineTrees (map (mirror n) (lt_uuids t)) (lt_other t).
Example mirrored_pairs : let m := br_model in let m' := mirrored 20 m in
  renamed (mirror 20) m m' /\ renamed_trees (mirror 20) br_trees (mirrored_trees 20 br_trees) /\ renamed_line_trees (mirror 20) br_lines (mirrored_lines 20 br_lines) /\
  exists x x', brep_inspect_intersections exact_px m br_trees br_lines (Ok x) /\ brep_inspect_intersections exact_px m' (mirrored_trees 20 br_trees) (mirrored_lines 20 br_lines) (Ok x') /\
    In ((mkCID SurfaceT 0, 0), (mkCID LineT 10, 0)) (ii_issues x) /\ In ((mkCID SurfaceT 20, 0), (mkCID LineT 10, 0)) (ii_issues x').
Proof.
  cbv zeta. split; [apply mirrored_renamed|]. split; [constructor; reflexivity|]. split; [constructor; reflexivity|].
  destruct (C27_C48_queries_terminate exact_px br_model br_trees br_lines) as (_ & (r & Q) & _). destruct (br_found r Q) as (x & -> & F).
  destruct (C76_brep_intersections (mirror 20) (mirror 20) br_model (mirrored 20 br_model) exact_px br_trees (mirrored_trees 20 br_trees) br_lines (mirrored_lines 20 br_lines)
    (mirror_one_to_one 20) (mirrored_renamed 20 br_model)) as (N & _); [constructor; reflexivity|constructor; reflexivity|].
  destruct (N x Q) as (x' & Q' & E). exists x, x'. split; [exact Q|]. split; [exact Q'|].
  assert (I : In ((mkCID SurfaceT 0, 0), (mkCID LineT 10, 0)) (ii_issues x)) by (apply F; auto). split; [exact I|].
  unfold renamed_intersections in E. rewrite E. exact (in_map (new_pair (mirror 20)) _ _ I).
Qed.
