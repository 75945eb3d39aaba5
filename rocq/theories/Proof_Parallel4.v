(** Concrete steps of the tasks, and the whole inspection of a BRep. *)
From Coq Require Import String Ascii List Arith NArith ZArith Bool Lia.
From Verif Require Import Base Model_Issues Types Model_Hash Model_Adjacency Model_Colocation Model_Degeneration Model_Negative Model_Manifold
  Model_Intersections Model_Topology Model_BRep Model_Blocks Model_Results
  Model_Parallel Model_ParallelInspectors Spec_Parallel Proof_Parallel Proof_Parallel2 Proof_Parallel3.
Import ListNotations.
Open Scope list_scope.

Lemma at_once_computes : forall R (r : R) o, computes_or_leaves (at_once o) tt r o.
Proof.
  intros R r [v|e|]; (split; [split; [exact I|]|]); cbn; try (eexists; reflexivity); try reflexivity; intros e' E; try discriminate E; reflexivity.
Qed.
Lemma loop_computes : forall A R (f : R -> A -> outcome R) l r, computes (loop f l) tt r (foldM f l r).
Proof.
  intros A R f l. split.
  - apply Seqs_independent. intros p Hp. apply in_map_iff in Hp as (x & <- & _). exact I.
  - revert r. induction l as [|x l IH]; intros r; cbn [loop map Seqs in_sequence foldM].
    + eexists. reflexivity.
    + unfold on. cbn [get snd_region snd]. destruct (f r x) as [v|e|]; cbn [set snd_region bind fst]; [apply IH|reflexivity|reflexivity].
Qed.
Lemma adjacency_program_runs : forall lk m,
  runs_as (adjacency_program lk m) (start2 tt tt (ba_surfaces empty_brep_adjacency) (ba_blocks empty_brep_adjacency)) (read2 mkBRepAdjacency)
    (inspect_brep_meshes_adjacencies lk m).
Proof. intros. apply adjacency_runs; apply loop_computes. Qed.

Section Degeneration.
Variables (ms : Measures) (geo : Geometry) (m : Model).
Definition block_action (b : Component SolidMesh) : action DegenerationMemory := fun x =>
  let r := dm_result x in
  let '(o, st) := block_small_elements ms geo m GLOBAL_EPSILON b (Ok (dr_edges r, dr_polyhedra r), dm_storage x) in
  let maps := assigned (dr_edges r, dr_polyhedra r) o in
  (status o, mkDM st (mkDegenerationResult (fst maps) (dr_polygons r) (snd maps))).
Let blocks_fold bs acc := fold_left (fun acc b => block_small_elements ms geo m GLOBAL_EPSILON b acc) bs acc.
Lemma failed_block : forall b st o, (forall v, o <> Ok v) -> fst (block_small_elements ms geo m GLOBAL_EPSILON b (o, st)) = o.
Proof.
  intros b st o H. unfold block_small_elements. destruct (solid_small_edges _ _ _ _ _) as [e i]. destruct o as [v|e'|]; [exfalso; apply (H v), eq_refl|reflexivity|reflexivity].
Qed.
Lemma failed_blocks : forall bs st o, (forall v, o <> Ok v) -> fst (blocks_fold bs (o, st)) = o.
Proof.
  induction bs as [|b bs IH]; intros st o H; [reflexivity|]. unfold blocks_fold in *. cbn [fold_left].
  pose proof (failed_block b st o H) as K. destruct (block_small_elements ms geo m GLOBAL_EPSILON b (o, st)) as [o' st']. cbn [fst] in K. subst o'. apply IH, H.
Qed.
Lemma blocks_steps : forall bs r st, fst (in_sequence (Seqs (map (fun b => Act (block_action b)) bs)) (mkDM st r)) = status (fst (blocks_fold bs (Ok (dr_edges r, dr_polyhedra r), st))) /\
  (forall maps, fst (blocks_fold bs (Ok (dr_edges r, dr_polyhedra r), st)) = Ok maps ->
   snd (in_sequence (Seqs (map (fun b => Act (block_action b)) bs)) (mkDM st r)) =
   mkDM (snd (blocks_fold bs (Ok (dr_edges r, dr_polyhedra r), st))) (mkDegenerationResult (fst maps) (dr_polygons r) (snd maps))).
Proof.
  induction bs as [|b bs IH]; intros r st.
  - cbn. split; [reflexivity|]. intros maps E. injection E as <-. destruct r. reflexivity.
  - cbn [map Seqs in_sequence]. unfold block_action at 1 3. cbn [dm_result dm_storage]. unfold blocks_fold in *. cbn [fold_left].
    destruct (block_small_elements ms geo m GLOBAL_EPSILON b (Ok (dr_edges r, dr_polyhedra r), st)) as [[[e p]|x|] st'] eqn:E; cbn [status bind assigned fst snd].
    + exact (IH (mkDegenerationResult e (dr_polygons r) p) st').
    + pose proof (failed_blocks bs st' (Throw x)) as K. unfold blocks_fold in K. rewrite K by discriminate. split; [reflexivity|]. intros maps Q. discriminate Q.
    + pose proof (failed_blocks bs st' UB) as K. unfold blocks_fold in K. rewrite K by discriminate. split; [reflexivity|]. intros maps Q. discriminate Q.
Qed.
Lemma degeneration_runs : forall st,
  runs_as (degeneration_program ms geo m) (mkDM st empty_degeneration) dm_result (fst (inspect_elements_degeneration ms geo m st)) /\
  (forall v, fst (inspect_elements_degeneration ms geo m st) = Ok v ->
   dm_storage (snd (in_sequence (degeneration_program ms geo m) (mkDM st empty_degeneration))) = snd (inspect_elements_degeneration ms geo m st)).
Proof.
  intros st. unfold inspect_elements_degeneration, degeneration_program. cbv zeta. cbn [in_sequence].
  change (map _ (active (m_blocks m))) with (map (fun b => Act (block_action b)) (active (m_blocks m))).
  unfold runs_as. cbn [in_sequence dm_result dm_storage].
  assert (I : independent (Seqs (map (fun b => Act (block_action b)) (active (m_blocks m)))))
    by (apply Seqs_independent; intros p Hp; apply in_map_iff in Hp as (x & <- & _); exact I).
  destruct (add_small_edges ms geo m GLOBAL_EPSILON (dr_edges empty_degeneration) st) as [[edges|e|] st1]; cbn [status bind assigned].
  2,3: cbn [fst snd]; split; [split; [cbn [independent]; tauto|]; split; [reflexivity|intros v E; discriminate E]|intros v E; discriminate E].
  cbn [dm_storage dm_result dr_edges dr_polygons dr_polyhedra].
  destruct (blocks_steps (active (m_blocks m)) (mkDegenerationResult edges (add_small_height_polygons m GLOBAL_EPSILON (dr_polygons empty_degeneration)) (dr_polyhedra empty_degeneration)) st1)
    as [B1 B2]. cbn [dr_edges dr_polygons dr_polyhedra] in B1, B2.
  unfold add_solid_small_elements. unfold blocks_fold in B1, B2.
  destruct (fold_left _ (active (m_blocks m)) _) as [maps st2] eqn:E. cbn [fst snd] in *.
  destruct maps as [maps|e|]; cbn [bind] in *.
  - rewrite (B2 maps eq_refl). split.
    + split; [cbn [independent]; tauto|]. split; [exact B1|]. intros v K. injection K as <-. reflexivity.
    + intros v K. reflexivity.
  - split; [split; [cbn [independent]; tauto|]; split; [exact B1|intros v K; discriminate K]|intros v K; discriminate K].
  - split; [split; [cbn [independent]; tauto|]; split; [exact B1|intros v K; discriminate K]|intros v K; discriminate K].
Qed.
End Degeneration.

Section WholeBRep.
Context {U1 U2 C A1 A2 D I N G T1 T2 T3 T4 T5 : Type}.
Variables (u1 : U1) (u2 : U2) (c : C) (a1 : A1) (a2 : A2) (d : D) (i : I) (n : N) (g : G) (t1 : T1) (t2 : T2) (t3 : T3) (t4 : T4) (t5 : T5).
Variables (o : Oracles) (m : Model) (st : ModelEdges) (ints : outcome Intersections).
Lemma whole_brep_runs : forall pu1 pu2 pc pa1 pa2 pd pi pn pg pt1 pt2 pt3 pt4 pt5,
  computes pu1 u1 (ur_colocated empty_unique_vertices) (colocated_unique_vertices_groups (or_geometry o) m (ur_colocated empty_unique_vertices)) ->
  computes pu2 u2 (ur_different empty_unique_vertices) (unique_vertices_linked_to_different_points (or_geometry o) m (ur_different empty_unique_vertices)) ->
  computes pc c (br_colocation empty_brep_meshes) (inspect_meshes_point_colocations (or_geometry o) m) ->
  computes pa1 a1 (ba_surfaces empty_brep_adjacency) (add_surfaces_edges_with_wrong_adjacencies (or_lookup o) m (ba_surfaces empty_brep_adjacency)) ->
  computes pa2 a2 (ba_blocks empty_brep_adjacency) (add_blocks_facets_with_wrong_adjacencies (or_lookup o) m (ba_blocks empty_brep_adjacency)) ->
  computes pd d (br_degeneration empty_brep_meshes) (fst (inspect_elements_degeneration (or_measures o) (or_geometry o) m st)) ->
  computes pi i (br_intersections empty_brep_meshes) ints ->
  computes pn n (br_manifold empty_brep_meshes) (inspect_brep_manifold (or_geometry o) (or_hash o) m) ->
  computes pg g (br_negative empty_brep_meshes) (Ok (brep_negative_elements (or_measures o) m)) ->
  computes_or_leaves pt1 t1 brep_corners_default (brep_inspect_corners_topology m) ->
  computes_or_leaves pt2 t2 brep_lines_default (brep_inspect_lines_topology (or_topo o) m) ->
  computes_or_leaves pt3 t3 brep_surfaces_default (brep_inspect_surfaces_topology (or_topo o) m) ->
  computes_or_leaves pt4 t4 brep_blocks_default (brep_inspect_blocks (or_topo o) m) ->
  computes pt5 t5 no_links (add_unique_vertices_with_wrong_cmv_link m cmv_exists_in_brep no_links) ->
  runs_as (whole_brep_program pu1 pu2 pc pa1 pa2 pd pi pn pg pt1 pt2 pt3 pt4 pt5) (whole_brep_start u1 u2 c a1 a2 d i n g t1 t2 t3 t4 t5) (read2 mkBRepResult)
    (inspect_brep o m st ints).
Proof.
  intros. apply brep_runs; apply leaves_computes, runs_computes.
  - apply brep_meshes_runs; try assumption; apply leaves_computes, runs_computes; [apply unique_vertices_runs; assumption|apply adjacency_runs; assumption].
  - apply brep_topology_runs; assumption.
Qed.
End WholeBRep.
