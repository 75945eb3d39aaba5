(** C83: the same model described differently gets the same verdict. *)
From Coq Require Import String Ascii List Arith NArith ZArith Bool Lia Permutation.
From Verif Require Import Base BaseFacts Model_Issues Types Model_Hash Model_Colocation Model_Degeneration Model_Intersections Model_Manifold Model_Topology Model_BRep Model_Blocks
  Model_Results Model_Validity Spec_Results Proof_Results Spec_Intersections Proof_Intersections Spec_ValidModels Proof_ValidModels Proof_ValidModels2 Proof_ValidModels3 Proof_ValidModels4 Spec_Colocation Spec_Topology Spec_BRep Spec_Blocks Spec_Reproducible Proof_Reproducible Spec_Order Spec_Rename Spec_Relabel Spec_Described
  Proof_Order Proof_Order6 Proof_Order7 Proof_Rename Proof_Rename2 Proof_Rename5 Proof_Relabel7 Properties_Order Properties_Rename Properties_Relabel
  Proof_TopologyCheck Proof_BRepCheck Proof_GoodModels Properties_Topology Properties_BRep Properties_Blocks Properties_Intersections Properties_Results Properties_ValidModels.
Import ListNotations.
Open Scope list_scope.

Lemma map_back : forall (f g : uuid -> uuid), one_to_one f g -> forall l, map g (map f l) = l.
Proof. intros f g [A _] l. rewrite map_map. etransitivity; [|apply map_id]. apply map_ext, A. Qed.
Lemma trees_back : forall f g t t', one_to_one f g -> renamed_trees f t t' -> renamed_trees g t' t.
Proof.
  intros f g t t' H [A B C D]. constructor; auto; intros; symmetry; auto. rewrite A. apply (map_back f g H).
Qed.
Lemma line_trees_back : forall f g t t', one_to_one f g -> renamed_line_trees f t t' -> renamed_line_trees g t' t.
Proof. intros f g t t' H [A B]. constructor; intros; symmetry; auto. rewrite A. apply (map_back f g H). Qed.
Lemma intersections_back : forall f g x x', one_to_one f g -> renamed_intersections f x x' -> renamed_intersections g x' x.
Proof.
  intros f g x x' [A _] E. unfold renamed_intersections in *. rewrite E, map_map. symmetry. etransitivity; [|apply map_id]. apply map_ext.
  intros [[[t i] a] [[u j] b]]. unfold new_pair, new_element, new_cid. cbn. rewrite !A. reflexivity.
Qed.

(** Every search for intersections in the other description ends, with the same pairs. *)
Lemma section_search_back : forall f g h m1 m2 a b px x y, same_object_by f g h m1 m2 a b -> unique_ids (d_model a) ->
  section_inspect_intersections px (d_model a) (d_trees a) (Ok x) -> section_inspect_intersections px (d_model b) (d_trees b) y ->
  exists x1 x2, same_issues x x1 /\ renamed_intersections f x1 x2 /\ y = Ok x2.
Proof.
  intros f g h m1 m2 a b px x y (R & O & N & L & _ & _ & T & _) U X Y.
  apply (C75_intersections h m2 (d_model b) px (d_trees b) (d_lines b) y L) in Y. destruct (C76_back f g m1 m2 O N) as [O' N'].
  destruct (C76_section_intersections g f m2 m1 px (d_trees b) (d_trees a) O' N' (trees_back _ _ _ _ O T)) as (A & B & C). destruct y as [y|e|].
  - destruct (A y Y) as (x1 & Y1 & E). destruct (C70_section_intersections px (d_model a) m1 (d_trees a) x (Ok x1) R U X Y1) as (z & Z & S). injection Z as <-.
    exists x1, y. split; [exact S|]. split; [apply (intersections_back g f y x1 O' E)|reflexivity].
  - destruct (C70_section_intersections px (d_model a) m1 (d_trees a) x (Throw e) R U X (B e Y)) as (z & Z & S). discriminate.
  - destruct (C70_section_intersections px (d_model a) m1 (d_trees a) x UB R U X (C Y)) as (z & Z & S). discriminate.
Qed.
Lemma brep_search_back : forall f g h m1 m2 a b px x y, same_object_by f g h m1 m2 a b -> unique_ids (d_model a) ->
  brep_inspect_intersections px (d_model a) (d_trees a) (d_lines a) (Ok x) -> brep_inspect_intersections px (d_model b) (d_trees b) (d_lines b) y ->
  exists x1 x2, same_issues x x1 /\ renamed_intersections f x1 x2 /\ y = Ok x2.
Proof.
  intros f g h m1 m2 a b px x y (R & O & N & L & _ & _ & T & T') U X Y.
  apply (C75_intersections h m2 (d_model b) px (d_trees b) (d_lines b) y L) in Y. destruct (C76_back f g m1 m2 O N) as [O' N'].
  destruct (C76_brep_intersections g f m2 m1 px (d_trees b) (d_trees a) (d_lines b) (d_lines a) O' N' (trees_back _ _ _ _ O T) (line_trees_back _ _ _ _ O T')) as (A & B & C). destruct y as [y|e|].
  - destruct (A y Y) as (x1 & Y1 & E). destruct (C70_brep_intersections px (d_model a) m1 (d_trees a) (d_lines a) x (Ok x1) R U X Y1) as (z & Z & S). injection Z as <-.
    exists x1, y. split; [exact S|]. split; [apply (intersections_back g f y x1 O' E)|reflexivity].
  - destruct (C70_brep_intersections px (d_model a) m1 (d_trees a) (d_lines a) x (Throw e) R U X (B e Y)) as (z & Z & S). discriminate.
  - destruct (C70_brep_intersections px (d_model a) m1 (d_trees a) (d_lines a) x UB R U X (C Y)) as (z & Z & S). discriminate.
Qed.

(** A Section. *)
Theorem C83_section : forall f g h m1 m2 a b px st st' x y r, same_object_by f g h m1 m2 a b -> section_ok (d_model a) -> resolvable (d_model a) ->
  section_inspect_intersections px (d_model a) (d_trees a) (Ok x) -> section_inspect_intersections px (d_model b) (d_trees b) y ->
  inspect_section (d_searches a) (d_model a) st (Ok x) = Ok r ->
  exists r', inspect_section (d_searches b) (d_model b) st' y = Ok r' /\ same_section_report f h r r' /\ section_nb_issues r' = section_nb_issues r /\
    exists v v', is_section_valid (d_searches a) (d_model a) st (Ok x) = Ok v /\ is_section_valid (d_searches b) (d_model b) st' y = Ok v' /\ length v' = length v.
Proof.
  intros f g h m1 m2 a b px st st' x y r D K V X Y E. destruct (section_search_back f g h m1 m2 a b px x y D (so_ids _ K) X Y) as (x1 & x2 & S1 & S2 & ->).
  destruct D as (R & O & N & L & (o & Q1 & Q2) & B & T & _). pose proof (rns_geometry _ _ _ Q1) as G.
  pose proof (section_ok_reordered _ _ R K) as K1. pose proof (resolvable_reordered _ _ R V) as V1. pose proof (n_section_ok f g O m1 m2 N K1) as K2. pose proof (n_resolvable f g O m1 m2 N V1) as V2.
  destruct (C70_section (d_searches a) (d_model a) m1 st st' x x1 r R (so_ids _ K) S1 E) as (r1 & E1 & D1).
  destruct (C76_section f g m1 m2 (d_searches a) o st' st' x1 x2 r1 O N Q1 S2 K1 E1) as (r2 & E2 & D2 & D3 & C2 & v1 & v2 & F1 & F2 & Z2).
  rewrite <- G in B. destruct (C75_section h m2 (d_model b) o (d_searches b) st' (Ok x2) r2 L Q2 K2 V2 B E2) as (r3 & E3 & D4 & D5 & C3 & v2' & v3 & F2' & F3 & Z3).
  exists r3. split; [exact E3|]. split; [exists r1, r2; auto|]. split; [rewrite C3, C2; symmetry; apply (proj1 C70_counts), D1|].
  exists (section_validity (or_hash (d_searches a)) r), v3. split; [unfold is_section_valid; rewrite E; reflexivity|]. split; [exact F3|].
  rewrite F2 in F2'. injection F2' as <-. rewrite Z3, Z2. assert (Q : section_validity (or_hash (d_searches a)) r1 = v1) by (pose proof (f_equal (fun z => bind z (fun k => Ok (section_validity (or_hash (d_searches a)) k))) E1) as Q0; cbn [bind] in Q0; unfold is_section_valid in F1; pose proof (eq_trans (eq_sym Q0) F1) as Q3; injection Q3; auto). rewrite <- Q. apply section_complaints, D1.
Qed.
(** A BRep. *)
Theorem C83_brep : forall f g h m1 m2 a b px st st' x y r, same_object_by f g h m1 m2 a b ->
  blocks_ok (or_topo (d_searches a)) (d_model a) -> lookup_ok (or_topo (d_searches a)) (d_model a) -> lines_inspectable (d_model a) ->
  brep_inspect_intersections px (d_model a) (d_trees a) (d_lines a) (Ok x) -> brep_inspect_intersections px (d_model b) (d_trees b) (d_lines b) y ->
  inspect_brep (d_searches a) (d_model a) st (Ok x) = Ok r ->
  exists r', inspect_brep (d_searches b) (d_model b) st' y = Ok r' /\ same_brep_report f h r r' /\ brep_nb_issues r' = brep_nb_issues r /\
    exists v v', is_brep_valid (d_searches a) (d_model a) st (Ok x) = Ok v /\ is_brep_valid (d_searches b) (d_model b) st' y = Ok v' /\ length v' = length v.
Proof.
  intros f g h m1 m2 a b px st st' x y r D K W I X Y E. pose proof (bo_brep _ _ K) as KB. pose proof (br_ids _ KB) as U. pose proof (br_links _ KB) as V.
  destruct (brep_search_back f g h m1 m2 a b px x y D U X Y) as (x1 & x2 & S1 & S2 & ->).
  destruct D as (R & O & N & L & (o & Q1 & Q2) & B & T & _). pose proof (rns_geometry _ _ _ Q1) as G. pose proof (rns_topo _ _ _ Q1) as QT.
  pose proof (blocks_ok_reordered _ _ R _ K) as K1. pose proof (lookup_ok_reordered _ _ R _ W) as W1. pose proof (lines_inspectable_reordered _ _ R I) as I1. pose proof (resolvable_reordered _ _ R V) as V1.
  pose proof (n_blocks_ok f g O m1 m2 N _ _ QT K1) as K2. pose proof (n_lookup_ok f g O m1 m2 N _ _ QT W1) as W2. pose proof (proj2 (n_lines_inspectable f g O m1 m2 N) I1) as I2.
  pose proof (n_resolvable f g O m1 m2 N V1) as V2.
  assert (E1 : exists r1, inspect_brep (d_searches a) m1 st' (Ok x1) = Ok r1).
  { unfold inspect_brep in *. cbv zeta in *. apply invoked in E as ((ra & Ea) & (rb & Eb) & <-).
    destruct (C70_brep_meshes (d_searches a) (d_model a) m1 st st' x x1 ra R U S1 Ea) as (ra' & Ea' & _).
    destruct (C70_brep_topology_returns (or_topo (d_searches a)) (d_model a) m1 R K W I) as (_ & rb' & _ & Eb' & _). rewrite Ea', Eb'. eexists. reflexivity. }
  destruct E1 as (r1 & E1). pose proof (C70_brep (d_searches a) (d_model a) m1 st st' x x1 r r1 R KB (bo_inside_block _ _ K) S1 E E1) as D1.
  destruct (C76_brep f g m1 m2 (d_searches a) o st' st' x1 x2 r1 O N Q1 S2 K1 W1 I1 E1) as (r2 & E2 & D2 & D3 & C2 & v1 & v2 & F1 & F2 & Z2).
  rewrite <- G in B. destruct (C75_brep h m2 (d_model b) o (d_searches b) st' (Ok x2) r2 L Q2 K2 W2 I2 V2 B E2) as (r3 & E3 & D4 & D5 & C3 & v2' & v3 & F2' & F3 & Z3).
  exists r3. split; [exact E3|]. split; [exists r1, r2; auto|]. split; [rewrite C3, C2; symmetry; apply (proj2 C70_counts), D1|].
  exists (brep_validity (or_hash (d_searches a)) r), v3. split; [unfold is_brep_valid; rewrite E; reflexivity|]. split; [exact F3|].
  rewrite F2 in F2'. injection F2' as <-. rewrite Z3, Z2. assert (Q : brep_validity (or_hash (d_searches a)) r1 = v1) by (pose proof (f_equal (fun z => bind z (fun k => Ok (brep_validity (or_hash (d_searches a)) k))) E1) as Q0; cbn [bind] in Q0; unfold is_brep_valid in F1; pose proof (eq_trans (eq_sym Q0) F1) as Q3; injection Q3; auto). rewrite <- Q. apply brep_complaints, D1.
Qed.
Print Assumptions C83_section.
Print Assumptions C83_brep.

(** The verdict belongs to the object, not to its description. *)
Theorem C83_same_verdict : forall a b px st st' x y, same_object a b ->
  (section_ok (d_model a) -> resolvable (d_model a) ->
   section_inspect_intersections px (d_model a) (d_trees a) (Ok x) -> section_inspect_intersections px (d_model b) (d_trees b) y ->
   (exists r, inspect_section (d_searches a) (d_model a) st (Ok x) = Ok r) ->
   (is_section_valid (d_searches a) (d_model a) st (Ok x) = Ok [] <-> is_section_valid (d_searches b) (d_model b) st' y = Ok [])) /\
  (blocks_ok (or_topo (d_searches a)) (d_model a) -> lookup_ok (or_topo (d_searches a)) (d_model a) -> lines_inspectable (d_model a) ->
   brep_inspect_intersections px (d_model a) (d_trees a) (d_lines a) (Ok x) -> brep_inspect_intersections px (d_model b) (d_trees b) (d_lines b) y ->
   (exists r, inspect_brep (d_searches a) (d_model a) st (Ok x) = Ok r) ->
   (is_brep_valid (d_searches a) (d_model a) st (Ok x) = Ok [] <-> is_brep_valid (d_searches b) (d_model b) st' y = Ok [])).
Proof.
  assert (A : forall v v' : ObjectValidity, length v' = length v -> (@Ok ObjectValidity v = Ok [] <-> @Ok ObjectValidity v' = Ok [])).
  { intros v v' E. split; intros Q; injection Q as ->; f_equal; apply length_zero_iff_nil; [exact E|symmetry; exact E]. }
  intros a b px st st' x y (f & g & h & m1 & m2 & D). split.
  - intros K V X Y (r & E). destruct (C83_section f g h m1 m2 a b px st st' x y r D K V X Y E) as (r' & _ & _ & _ & v & v' & E1 & E2 & Z). rewrite E1, E2. apply A, Z.
  - intros K W I X Y (r & E). destruct (C83_brep f g h m1 m2 a b px st st' x y r D K W I X Y E) as (r' & _ & _ & _ & v & v' & E1 & E2 & Z). rewrite E1, E2. apply A, Z.
Qed.
Print Assumptions C83_same_verdict.

(** What a sound model is does not depend on its description: every check of every description of a sound model returns and
    complains about nothing, and (as long as counts fit in 32 bits) a check that complains about nothing, on any description, shows that
    the model is sound. *)
Theorem C83_sound_section : forall a b px se sf st y, same_object a b -> section_ready (d_searches a) px (d_trees a) (d_model a) ->
  section_inspect_intersections px (d_model b) (d_trees b) y ->
  exists x r v, section_inspect_intersections px (d_model a) (d_trees a) x /\ inspect_section (d_searches a) (d_model a) (new_model_inspector se sf) x = Ok r /\
    is_section_valid (d_searches b) (d_model b) st y = Ok v /\
    (sound_section (or_measures (d_searches a)) (or_geometry (d_searches a)) px (d_trees a) (d_model a) -> is_valid v = true) /\
    (countable (section_categories (or_hash (d_searches a)) r) -> is_valid v = true ->
     sound_section (or_measures (d_searches a)) (or_geometry (d_searches a)) px (d_trees a) (d_model a)).
Proof.
  intros a b px se sf st y (f & g & h & m1 & m2 & D) R Y. destruct (proj1 (C27_C48_queries_terminate px (d_model a) (d_trees a) (d_lines a))) as (x & X).
  destruct (section_intersections_empty (d_searches a) px (d_trees a) (d_model a) R x X) as (l & -> & _).
  destruct (C59_section (d_searches a) px (d_trees a) (d_model a) se sf R (Ok l) X) as (r & v & E & V & K1 & K2).
  destruct (C83_section f g h m1 m2 a b px _ st l y r D (sr_ok _ _ _ _ R) (sr_links _ _ _ _ R) X Y E) as (r' & _ & _ & _ & v0 & v' & E0 & E' & Z).
  rewrite V in E0. injection E0 as <-. assert (W : is_valid v' = is_valid v) by (destruct v, v'; try discriminate Z; reflexivity).
  exists (Ok l), r, v'. rewrite W. auto.
Qed.
Theorem C83_sound_brep : forall a b px se sf st y, same_object a b -> brep_ready (d_searches a) px (d_trees a) (d_lines a) (d_model a) ->
  brep_inspect_intersections px (d_model b) (d_trees b) (d_lines b) y ->
  exists x r v parts, brep_inspect_intersections px (d_model a) (d_trees a) (d_lines a) x /\ inspect_brep (d_searches a) (d_model a) (new_model_inspector se sf) x = Ok r /\
    is_brep_valid (d_searches b) (d_model b) st y = Ok v /\
    (forall c, In c (active_ids (d_model a) BlockT) -> connected_parts (d_model a) (block_surfaces (d_model a) c) (parts c)) /\
    (sound_brep (or_measures (d_searches a)) (or_geometry (d_searches a)) px (or_topo (d_searches a)) (d_trees a) (d_lines a) (d_model a) parts -> is_valid v = true) /\
    (countable (brep_categories (or_hash (d_searches a)) r) -> is_valid v = true ->
     sound_brep (or_measures (d_searches a)) (or_geometry (d_searches a)) px (or_topo (d_searches a)) (d_trees a) (d_lines a) (d_model a) parts).
Proof.
  intros a b px se sf st y (f & g & h & m1 & m2 & D) R Y. destruct (proj1 (proj2 (C27_C48_queries_terminate px (d_model a) (d_trees a) (d_lines a)))) as (x & X).
  destruct (brep_intersections_empty (d_searches a) px (d_trees a) (d_lines a) (d_model a) R x X) as (l & -> & _).
  destruct (C60_brep (d_searches a) px (d_trees a) (d_lines a) (d_model a) se sf R (Ok l) X) as (r & v & parts & E & V & P & K1 & K2).
  destruct (C83_brep f g h m1 m2 a b px _ st l y r D (bd_ok _ _ _ _ _ R) (bd_topo _ _ _ _ _ R) (bd_inspectable _ _ _ _ _ R) X Y E) as (r' & _ & _ & _ & v0 & v' & E0 & E' & Z).
  rewrite V in E0. injection E0 as <-. assert (W : is_valid v' = is_valid v) by (destruct v, v'; try discriminate Z; reflexivity).
  exists (Ok l), r, v', parts. rewrite W. split; [exact X|]. split; [exact E|]. split; [exact E'|]. auto.
Qed.
Print Assumptions C83_sound_section.
Print Assumptions C83_sound_brep.

(** ** Concrete cases *)
(** components in the opposite order, identifiers up to [n] mirrored, unique vertices 0 and [k] exchanged *)
Definition redescribed (n k : nat) (a : Described) : Described :=
  mkDescribed (exchanged k (mirrored n (turned (d_model a)))) (exchanged_oracles k (mirrored_oracles n (d_searches a))) (mirrored_trees n (d_trees a)) (mirrored_lines n (d_lines a)).
Lemma redescribed_same : forall n k a, k < nb_unique_vertices (d_model a) -> (forall c uv, m_unique_vertex (d_model a) c = Some uv -> uv < nb_unique_vertices (d_model a)) ->
  or_geometry (d_searches a) = exact_geo ->
  same_object_by (mirror n) (mirror n) (exchange k) (turned (d_model a)) (mirrored n (turned (d_model a))) a (redescribed n k a).
Proof.
  intros n k a B G Q. assert (N : nb_unique_vertices (mirrored n (turned (d_model a))) = nb_unique_vertices (d_model a)) by apply map_length.
  split; [apply turned_reordered|]. split; [apply mirror_one_to_one|]. split; [apply mirrored_renamed|].
  split; [apply exchanged_relabelled; [rewrite N; exact B|intros c uv U; rewrite N; exact (G _ uv U)]|].
  split; [exists (mirrored_oracles n (d_searches a)); split; [apply mirrored_searches|apply exchanged_searches]|].
  split; [rewrite Q; apply exact_blind, exchange_numbers; rewrite N; exact B|]. split; constructor; reflexivity.
Qed.
(** searches without any candidate *)
Definition empty_trees : Trees := mkTrees [] [] (fun _ => []) (fun _ _ => []).
Definition empty_line_trees : LineTrees := mkLineTrees [] (fun _ _ => []).
(** *** A triangle with an unlinked corner: its vertex 2 is listed as vertex 0, two complaints in both descriptions *)
Definition triangle_described := mkDescribed no_corner_2 triangle_oracles empty_trees empty_line_trees.
Example triangle_redescribed : let a := triangle_described in let b := redescribed 200 2 a in
  same_object a b /\ section_ok (d_model a) /\ resolvable (d_model a) /\
  exists r r' v v', inspect_section (d_searches a) (d_model a) no_storage (Ok empty_intersections) = Ok r /\ inspect_section (d_searches b) (d_model b) no_storage (Ok empty_intersections) = Ok r' /\
    ii_issues (sl_several_not_corner (st_lines (r_section_topology r))) = [2] /\ ii_issues (sl_several_not_corner (st_lines (r_section_topology r'))) = [0] /\
    is_section_valid (d_searches a) (d_model a) no_storage (Ok empty_intersections) = Ok v /\ is_section_valid (d_searches b) (d_model b) no_storage (Ok empty_intersections) = Ok v' /\
    length v = 2 /\ length v' = 2.
Proof.
  cbv zeta. split; [do 5 eexists; apply redescribed_same; [cbn; lia|apply (owner_range _ 0)|reflexivity]|]. split; [apply sectionb_ok; vm_compute; reflexivity|].
  split; [apply links_ok; vm_compute; reflexivity|]. eexists _, _, _, _. split; [vm_compute; reflexivity|]. split; [vm_compute; reflexivity|]. split; [reflexivity|]. split; [reflexivity|].
  split; [vm_compute; reflexivity|]. split; [vm_compute; reflexivity|]. split; reflexivity.
Qed.
(** *** A tetrahedron and a loose vertex *)
Definition tet_described := mkDescribed good_tet_and_loose (tet_oracles tet_tl) empty_trees empty_line_trees.
Example tet_redescribed : let a := tet_described in let b := redescribed 5000 4 a in
  same_object a b /\ blocks_ok (or_topo (d_searches a)) (d_model a) /\ lookup_ok (or_topo (d_searches a)) (d_model a) /\ lines_inspectable (d_model a) /\
  exists r r', inspect_brep (d_searches a) (d_model a) no_storage (Ok empty_intersections) = Ok r /\ inspect_brep (d_searches b) (d_model b) no_storage (Ok empty_intersections) = Ok r' /\
    ii_issues (li_not_linked (bt_links (r_brep_topology r))) = [4] /\ ii_issues (li_not_linked (bt_links (r_brep_topology r'))) = [0] /\
    map co_id (m_corners (d_model a)) <> map co_id (m_corners (d_model b)).
Proof.
  cbv zeta. split; [do 5 eexists; apply redescribed_same; [cbn; lia|apply (owner_range _ 0)|reflexivity]|].
  assert (K : blocks_ok tet_tl good_tet_and_loose) by (apply blocksb_ok; [apply tables_safe|apply tables_safe|vm_compute; reflexivity]).
  split; [exact K|]. split; [apply tableb_ok; vm_compute; reflexivity|]. split; [apply simple_inspectable; [apply (bo_brep _ _ K)|vm_compute; reflexivity|vm_compute; reflexivity]|].
  eexists _, _. split; [vm_compute; reflexivity|]. split; [vm_compute; reflexivity|]. split; [reflexivity|]. split; [reflexivity|]. vm_compute. discriminate.
Qed.
(** *** The sound triangle and the sound tetrahedron are valid in the other description *)
Definition good_section_described := mkDescribed good_section section_oracles section_trees brep_line_trees.
Definition good_tet_described := mkDescribed good_tet brep_oracles brep_trees brep_line_trees.
Example good_section_redescribed : let a := good_section_described in let b := redescribed 300 1 a in
  same_object a b /\ section_ready (d_searches a) quiet_px (d_trees a) (d_model a) /\
  exists y, section_inspect_intersections quiet_px (d_model b) (d_trees b) y /\ is_section_valid (d_searches b) (d_model b) no_storage y = Ok [].
Proof.
  cbv zeta. assert (D : same_object good_section_described (redescribed 300 1 good_section_described)) by (do 5 eexists; apply redescribed_same; [cbn; lia|apply (owner_range _ 0)|reflexivity]).
  split; [exact D|]. split; [exact section_is_ready|].
  destruct (proj1 (C27_C48_queries_terminate quiet_px (d_model (redescribed 300 1 good_section_described)) (d_trees (redescribed 300 1 good_section_described)) brep_line_trees)) as (y & Y). exists y. split; [exact Y|].
  destruct (C83_sound_section good_section_described _ quiet_px (fun _ => false) (fun _ => false) no_storage y D section_is_ready Y) as (_ & _ & v & _ & _ & V & K & _).
  rewrite V. specialize (K section_sound). destruct v; [reflexivity|discriminate K].
Qed.
Example good_tet_redescribed : let a := good_tet_described in let b := redescribed 3000 3 a in
  same_object a b /\ brep_ready (d_searches a) quiet_px (d_trees a) (d_lines a) (d_model a) /\
  exists y, brep_inspect_intersections quiet_px (d_model b) (d_trees b) (d_lines b) y /\ is_brep_valid (d_searches b) (d_model b) no_storage y = Ok [].
Proof.
  cbv zeta. assert (D : same_object good_tet_described (redescribed 3000 3 good_tet_described)) by (do 5 eexists; apply redescribed_same; [cbn; lia|apply (owner_range _ 0)|reflexivity]).
  split; [exact D|]. split; [exact brep_is_ready|]. pose proof brep_is_ready as R.
  destruct (proj1 (proj2 (C27_C48_queries_terminate quiet_px good_tet brep_trees brep_line_trees))) as (x & X).
  destruct (brep_intersections_empty brep_oracles quiet_px brep_trees brep_line_trees good_tet R x X) as (l & -> & L). destruct brep_sound as (parts & _ & S).
  assert (Z : ii_issues l = []).
  { apply L.
    - intros s H _. destruct (tet_surfaces_are s H) as (id & u & w & z & ->). discriminate.
    - intros s H _. destruct (tet_lines_are s H) as (id & u & w & ->). discriminate.
    - split; [apply S|apply S]. }
  destruct (proj1 (proj2 (C27_C48_queries_terminate quiet_px (d_model (redescribed 3000 3 good_tet_described)) (d_trees (redescribed 3000 3 good_tet_described)) (d_lines (redescribed 3000 3 good_tet_described))))) as (y & Y).
  exists y. split; [exact Y|]. clear L S. destruct l as [d i t]. cbn [ii_issues] in Z. subst i.
  apply (proj2 (C83_same_verdict good_tet_described (redescribed 3000 3 good_tet_described) quiet_px no_storage no_storage (mkIssues d [] t) y D)
    (bd_ok _ _ _ _ _ R) (bd_topo _ _ _ _ _ R) (bd_inspectable _ _ _ _ _ R) X Y); clear.
  - eexists. vm_compute. reflexivity.
  - vm_compute. reflexivity.
Qed.
