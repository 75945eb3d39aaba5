(** The parallel inspections of this repository give the sequential result under every schedule. *)
From Coq Require Import String Ascii List Arith NArith ZArith Bool Lia.
From Verif Require Import Base Model_Issues Types Model_Hash Model_Adjacency Model_Colocation Model_Degeneration Model_Negative Model_Manifold
  Model_Intersections Model_Topology Model_BRep Model_Blocks Model_Results
  Model_Parallel Model_ParallelInspectors Spec_Parallel Proof_Parallel Proof_Parallel2.
Import ListNotations.

Lemma status_bind : forall R (s : outcome unit) (v : R), status (let! _ := s in Ok v) = s.
Proof. intros R [[]|e|] v; reflexivity. Qed.
Lemma bind_inv : forall R (s : outcome unit) (v w : R), (let! _ := s in Ok v) = Ok w -> s = Ok tt /\ v = w.
Proof. intros R [[]|e|] v w H; try discriminate H. injection H as <-. auto. Qed.
Lemma computes_assigned : forall L R (p : proc (L * R)) l r d o, computes p l r o -> status o = Ok tt -> snd (snd (in_sequence p (l, r))) = assigned d o.
Proof. intros L R p l r d o H S. apply bind_ok in S as [v ->]. apply computes_value, H. Qed.
Lemma computes_independent : forall L R (p : proc (L * R)) l r o, computes p l r o -> independent p.
Proof. intros L R p l r o [H _]. exact H. Qed.
(** what every instance below shares *)
Definition runs_as {M R} (p : proc M) (m : M) (read : M -> R) (o : outcome R) : Prop :=
  independent p /\ fst (in_sequence p m) = status o /\ (forall v, o = Ok v -> read (snd (in_sequence p m)) = v).
Lemma runs_gives : forall M R (p : proc M) m (read : M -> R) o, runs_as p m read o -> always_gives p m read o.
Proof. intros M R p m read o (I & S & V). apply gives; assumption. Qed.
Lemma runs_computes : forall L R (p : proc L) (read : L -> R) l r o, runs_as p l read o -> computes_or_leaves (assign_result p read) l r o.
Proof. intros L R p read l r o (I & S & V). apply assigned_computes; assumption. Qed.
Ltac peel H := repeat (apply invoke_ok in H as [? H]).
(** solve an instance of [invoke_k]: [value] its lemma *)
Ltac instance ind value f start :=
  unfold start; cbv zeta; split; [apply ind; eapply computes_independent; eassumption|];
  rewrite value; cbn [fst snd]; unfold f; cbv zeta;
  unfold e1, e2, e3, e4, e5, e6, e7, e8; cbn [v1 v2 v3 v4 v5 v6 v7 v8];
  repeat (erewrite computes_status by eassumption);
  split; [rewrite status_bind; reflexivity|];
  let v := fresh "v" in let H := fresh "H" in intros v H; apply bind_inv in H as [H <-]; peel H;
  unfold w1, w2, w3, w4, w5, w6, w7, w8; cbn [v1 v2 v3 v4 v5 v6 v7 v8].

Section Meshes.
Context {L1 L2 L3 L4 L5 L6 L7 : Type}.
Variables (o : Oracles) (m : Model) (st : ModelEdges) (intersections : outcome Intersections).
Variables (l1 : L1) (l2 : L2) (l3 : L3) (l4 : L4) (l5 : L5) (l6 : L6) (l7 : L7).
Lemma brep_meshes_runs : forall p1 p2 p3 p4 p5 p6 p7,
  computes p1 l1 (br_unique_vertices empty_brep_meshes) (inspect_unique_vertices (or_geometry o) m) ->
  computes p2 l2 (br_colocation empty_brep_meshes) (inspect_meshes_point_colocations (or_geometry o) m) ->
  computes p3 l3 (br_adjacency empty_brep_meshes) (inspect_brep_meshes_adjacencies (or_lookup o) m) ->
  computes p4 l4 (br_degeneration empty_brep_meshes) (fst (inspect_elements_degeneration (or_measures o) (or_geometry o) m st)) ->
  computes p5 l5 (br_intersections empty_brep_meshes) intersections ->
  computes p6 l6 (br_manifold empty_brep_meshes) (inspect_brep_manifold (or_geometry o) (or_hash o) m) ->
  computes p7 l7 (br_negative empty_brep_meshes) (Ok (brep_negative_elements (or_measures o) m)) ->
  runs_as (invoke7 p1 p2 p3 p4 p5 p6 p7) (start_brep_meshes l1 l2 l3 l4 l5 l6 l7) read_brep_meshes (inspect_brep_meshes o m st intersections).
Proof.
  intros p1 p2 p3 p4 p5 p6 p7 H1 H2 H3 H4 H5 H6 H7. instance (@invoke7_independent) (@invoke7_value) inspect_brep_meshes (@start_brep_meshes).
  unfold read_brep_meshes. cbn [v1 v2 v3 v4 v5 v6 v7]. f_equal; try (eapply computes_assigned; eassumption). apply computes_value, H7.
Qed.
Lemma section_meshes_runs : forall p1 p2 p3 p4 p5 p6 p7,
  computes p1 l1 (sc_unique_vertices empty_section_meshes) (inspect_unique_vertices (or_geometry o) m) ->
  computes p2 l2 (sc_colocation empty_section_meshes) (inspect_meshes_point_colocations (or_geometry o) m) ->
  computes p3 l3 (sc_adjacency empty_section_meshes) (inspect_section_meshes_adjacencies (or_lookup o) m) ->
  computes p4 l4 (sc_degeneration empty_section_meshes) (fst (section_inspect_elements_degeneration (or_measures o) (or_geometry o) m st)) ->
  computes p5 l5 (sc_intersections empty_section_meshes) intersections ->
  computes p6 l6 (sc_manifold empty_section_meshes) (inspect_section_manifold (or_geometry o) (or_hash o) m) ->
  computes p7 l7 (sc_negative empty_section_meshes) (Ok (section_negative_elements (or_measures o) m)) ->
  runs_as (invoke7 p1 p2 p3 p4 p5 p6 p7) (start_section_meshes l1 l2 l3 l4 l5 l6 l7) read_section_meshes (inspect_section_meshes o m st intersections).
Proof.
  intros p1 p2 p3 p4 p5 p6 p7 H1 H2 H3 H4 H5 H6 H7. instance (@invoke7_independent) (@invoke7_value) inspect_section_meshes (@start_section_meshes).
  unfold read_section_meshes. cbn [v1 v2 v3 v4 v5 v6 v7]. f_equal; try (eapply computes_assigned; eassumption). apply computes_value, H7.
Qed.
End Meshes.

Section Pairs.
Context {L1 L2 : Type}.
Variables (l1 : L1) (l2 : L2).
Notation Mem2 A B := (Mem8 (L1 * A) (L2 * B) unit unit unit unit unit unit).
Lemma unique_vertices_runs : forall geo m p1 p2,
  computes p1 l1 (ur_colocated empty_unique_vertices) (colocated_unique_vertices_groups geo m (ur_colocated empty_unique_vertices)) ->
  computes p2 l2 (ur_different empty_unique_vertices) (unique_vertices_linked_to_different_points geo m (ur_different empty_unique_vertices)) ->
  runs_as (invoke2 p1 p2) (start2 l1 l2 (ur_colocated empty_unique_vertices) (ur_different empty_unique_vertices)) (read2 mkUniqueVerticesResult)
    (inspect_unique_vertices geo m).
Proof.
  intros geo m p1 p2 H1 H2. instance (@invoke2_independent) (@invoke2_value) inspect_unique_vertices (@start2).
  unfold read2. cbn [v1 v2]. f_equal; eapply computes_assigned; eassumption.
Qed.
Lemma adjacency_runs : forall lk m p1 p2,
  computes p1 l1 (ba_surfaces empty_brep_adjacency) (add_surfaces_edges_with_wrong_adjacencies lk m (ba_surfaces empty_brep_adjacency)) ->
  computes p2 l2 (ba_blocks empty_brep_adjacency) (add_blocks_facets_with_wrong_adjacencies lk m (ba_blocks empty_brep_adjacency)) ->
  runs_as (invoke2 p1 p2) (start2 l1 l2 (ba_surfaces empty_brep_adjacency) (ba_blocks empty_brep_adjacency)) (read2 mkBRepAdjacency)
    (inspect_brep_meshes_adjacencies lk m).
Proof.
  intros lk m p1 p2 H1 H2. instance (@invoke2_independent) (@invoke2_value) inspect_brep_meshes_adjacencies (@start2).
  unfold read2. cbn [v1 v2]. f_equal; eapply computes_assigned; eassumption.
Qed.
Lemma brep_runs : forall o m st ints p1 p2,
  computes p1 l1 empty_brep_meshes (inspect_brep_meshes o m st ints) ->
  computes p2 l2 empty_brep_topology (inspect_brep_topology (or_topo o) m) ->
  runs_as (invoke2 p1 p2) (start2 l1 l2 empty_brep_meshes empty_brep_topology) (read2 mkBRepResult) (inspect_brep o m st ints).
Proof.
  intros o m st ints p1 p2 H1 H2. instance (@invoke2_independent) (@invoke2_value) inspect_brep (@start2).
  unfold read2. cbn [v1 v2]. f_equal; eapply computes_assigned; eassumption.
Qed.
Lemma section_runs : forall o m st ints p1 p2,
  computes p1 l1 empty_section_meshes (inspect_section_meshes o m st ints) ->
  computes p2 l2 empty_section_topology (inspect_section_topology m) ->
  runs_as (invoke2 p1 p2) (start2 l1 l2 empty_section_meshes empty_section_topology) (read2 mkSectionResult) (inspect_section o m st ints).
Proof.
  intros o m st ints p1 p2 H1 H2. instance (@invoke2_independent) (@invoke2_value) inspect_section (@start2).
  unfold read2. cbn [v1 v2]. f_equal; eapply computes_assigned; eassumption.
Qed.
Lemma curve_runs : forall ms geo m p1 p2,
  computes p1 l1 (new_issues "Colocation of vertices not tested"%string) (colocated_points_groups geo (ec_points m)) ->
  computes p2 l2 (new_issues "Degeneration of edges not tested"%string) (Ok (curve_degenerated_edges ms geo m)) ->
  runs_as (invoke2 p1 p2) (start2 l1 l2 (new_issues "Colocation of vertices not tested"%string) (new_issues "Degeneration of edges not tested"%string))
    (read2 mkCurveResult) (inspect_edged_curve ms geo m).
Proof.
  intros ms geo m p1 p2 H1 H2. instance (@invoke2_independent) (@invoke2_value) inspect_edged_curve (@start2).
  unfold read2. cbn [v1 v2]. f_equal; [eapply computes_assigned; eassumption|apply computes_value, H2].
Qed.
End Pairs.

Section Single.
Context {L1 L2 L3 L4 L5 L6 L7 L8 : Type}.
Variables (l1 : L1) (l2 : L2) (l3 : L3) (l4 : L4) (l5 : L5) (l6 : L6) (l7 : L7) (l8 : L8).
Variables (ms : Measures) (geo : Geometry) (ho : HashOrder) (name : string).
Lemma surface_runs : forall m st intersections p1 p2 p3 p4 p5 p6 p7 p8,
  computes p1 l1 (sr_adjacency empty_surface_result) (polygon_edges_with_wrong_adjacency name m) ->
  computes p2 l2 (sr_colocated empty_surface_result) (colocated_points_groups geo (sm_points m)) ->
  computes p3 l3 (sr_edges empty_surface_result) (fst (surface_degenerated_edges ms geo m st)) ->
  computes p4 l4 (sr_polygons empty_surface_result) (Ok (degenerated_polygons m)) ->
  computes p5 l5 (sr_manifold_edges empty_surface_result) (Ok (surface_non_manifold_edges ho m)) ->
  computes p6 l6 (sr_manifold_vertices empty_surface_result) (surface_non_manifold_vertices geo m) ->
  computes p7 l7 (sr_intersections empty_surface_result) intersections ->
  computes p8 l8 (sr_negative empty_surface_result) (Ok (negative_polygons ms m)) ->
  runs_as (invoke8 p1 p2 p3 p4 p5 p6 p7 p8) (start_surface l1 l2 l3 l4 l5 l6 l7 l8) read_surface (inspect_surface ms geo ho name m st intersections).
Proof.
  intros m st ints p1 p2 p3 p4 p5 p6 p7 p8 H1 H2 H3 H4 H5 H6 H7 H8. instance (@invoke8_independent) (@invoke8_value) inspect_surface (@start_surface).
  unfold read_surface. cbn [v1 v2 v3 v4 v5 v6 v7 v8]. f_equal; try (eapply computes_assigned; eassumption); eapply computes_value; eassumption.
Qed.
Lemma solid_runs : forall m st p1 p2 p3 p4 p5 p6 p7 p8,
  computes p1 l1 (so_r_adjacency empty_solid_result) (polyhedron_facets_with_wrong_adjacency name m) ->
  computes p2 l2 (so_r_colocated empty_solid_result) (colocated_points_groups geo (so_points m)) ->
  computes p3 l3 (so_r_edges empty_solid_result) (fst (solid_degenerated_edges ms geo m st)) ->
  computes p4 l4 (so_r_polyhedra empty_solid_result) (Ok (degenerated_polyhedra m)) ->
  computes p5 l5 (so_r_manifold_vertices empty_solid_result) (solid_non_manifold_vertices geo m) ->
  computes p6 l6 (so_r_manifold_edges empty_solid_result) (solid_non_manifold_edges m) ->
  computes p7 l7 (so_r_manifold_facets empty_solid_result) (Ok (solid_non_manifold_facets ho m)) ->
  computes p8 l8 (so_r_negative empty_solid_result) (Ok (negative_polyhedra ms m)) ->
  runs_as (invoke8 p1 p2 p3 p4 p5 p6 p7 p8) (start_solid l1 l2 l3 l4 l5 l6 l7 l8) read_solid (inspect_solid ms geo ho name m st).
Proof.
  intros m st p1 p2 p3 p4 p5 p6 p7 p8 H1 H2 H3 H4 H5 H6 H7 H8. instance (@invoke8_independent) (@invoke8_value) inspect_solid (@start_solid).
  unfold read_solid. cbn [v1 v2 v3 v4 v5 v6 v7 v8]. f_equal; try (eapply computes_assigned; eassumption); eapply computes_value; eassumption.
Qed.
End Single.

Section Topology.
Context {L1 L2 L3 L4 L5 : Type}.
Variables (l1 : L1) (l2 : L2) (l3 : L3) (l4 : L4) (l5 : L5).
Lemma leaves_computes : forall L R (p : proc (L * R)) l r o, computes_or_leaves p l r o -> computes p l r o.
Proof. intros L R p l r o [H _]. exact H. Qed.
Lemma caught_not_ub : forall l, parallel_invoke_caught l <> UB -> forall o, In o l -> o <> UB.
Proof.
  assert (K : forall l, existsb (fun o : outcome unit => match o with UB => true | _ => false end) l = false -> forall o, In o l -> o <> UB).
  { intros l E o I ->. assert (X : existsb (fun o : outcome unit => match o with UB => true | _ => false end) l = true) by (apply existsb_exists; exists UB; auto). congruence. }
  induction l as [|[u|e|] l IH]; cbn [parallel_invoke_caught]; intros H o I.
  - destruct I.
  - destruct I as [<-|I]; [discriminate|apply IH; assumption].
  - destruct (existsb _ l) eqn:E; [contradiction|]. destruct I as [<-|I]; [discriminate|apply (K l E), I].
  - contradiction.
Qed.
Lemma status_ub : forall A (o : outcome A), status o <> UB -> o <> UB.
Proof. intros A o H ->. apply H. reflexivity. Qed.

Lemma section_topology_runs : forall m p1 p2 p3 p5,
  computes_or_leaves p1 l1 section_corners_default (section_inspect_corners_topology m) ->
  computes_or_leaves p2 l2 section_lines_default (section_inspect_lines_topology m) ->
  computes_or_leaves p3 l3 section_surfaces_default (section_inspect_surfaces m) ->
  computes p5 l5 no_links (add_unique_vertices_with_wrong_cmv_link m cmv_exists_in_section no_links) ->
  runs_as (caught3 p1 p2 p3 p5) (start_section_topology l1 l2 l3 l5) read_section_topology (inspect_section_topology m).
Proof.
  intros m p1 p2 p3 p5 H1 H2 H3 H5. unfold start_section_topology, caught3. split; [|].
  { cbn [independent]. split.
    - apply invoke3_independent; eapply computes_independent, leaves_computes; eassumption.
    - apply embed_independent; [apply g5_lawful|eapply computes_independent; eassumption]. }
  cbn [in_sequence]. rewrite invoke3_value. cbn [fst snd]. unfold e1, e2, e3. cbn [v1 v2 v3 v4 v5 v6 v7 v8].
  rewrite (computes_status _ _ _ _ _ _ (leaves_computes _ _ _ _ _ _ H1)), (computes_status _ _ _ _ _ _ (leaves_computes _ _ _ _ _ _ H2)),
    (computes_status _ _ _ _ _ _ (leaves_computes _ _ _ _ _ _ H3)). rewrite caught.
  unfold inspect_section_topology. cbv zeta. pose proof (caught_not_ub [status (section_inspect_corners_topology m); status (section_inspect_lines_topology m); status (section_inspect_surfaces m)]) as K.
  destruct (parallel_invoke_caught _) as [[]|e|]; cbn [bind].
  - rewrite embed_in_sequence by apply g5_lawful. cbn [get g5 v5 fst snd set]. rewrite (computes_status _ _ _ _ _ _ H5). split.
    + destruct (add_unique_vertices_with_wrong_cmv_link _ _ _); reflexivity.
    + intros v Hv. destruct (add_unique_vertices_with_wrong_cmv_link _ _ _) as [links|e|] eqn:E; try discriminate Hv. injection Hv as <-.
      unfold read_section_topology, w1, w2, w3. cbn [v1 v2 v3 v5 snd].
      assert (N : forall o, In o [status (section_inspect_corners_topology m); status (section_inspect_lines_topology m); status (section_inspect_surfaces m)] -> o <> UB)
        by (apply K; discriminate).
      f_equal; try (apply leaves_value; [assumption|apply status_ub, N; cbn; tauto]). apply computes_value, H5.
  - split; [reflexivity|]. intros v Hv. discriminate Hv.
  - split; [reflexivity|]. intros v Hv. discriminate Hv.
Qed.

Lemma brep_topology_runs : forall tl m p1 p2 p3 p4 p5,
  computes_or_leaves p1 l1 brep_corners_default (brep_inspect_corners_topology m) ->
  computes_or_leaves p2 l2 brep_lines_default (brep_inspect_lines_topology tl m) ->
  computes_or_leaves p3 l3 brep_surfaces_default (brep_inspect_surfaces_topology tl m) ->
  computes_or_leaves p4 l4 brep_blocks_default (brep_inspect_blocks tl m) ->
  computes p5 l5 no_links (add_unique_vertices_with_wrong_cmv_link m cmv_exists_in_brep no_links) ->
  runs_as (caught4 p1 p2 p3 p4 p5) (start_brep_topology l1 l2 l3 l4 l5) read_brep_topology (inspect_brep_topology tl m).
Proof.
  intros tl m p1 p2 p3 p4 p5 H1 H2 H3 H4 H5. unfold start_brep_topology, caught4. split; [|].
  { cbn [independent]. split.
    - apply invoke4_independent; eapply computes_independent, leaves_computes; eassumption.
    - apply embed_independent; [apply g5_lawful|eapply computes_independent; eassumption]. }
  cbn [in_sequence]. rewrite invoke4_value. cbn [fst snd]. unfold e1, e2, e3, e4. cbn [v1 v2 v3 v4 v5 v6 v7 v8].
  rewrite (computes_status _ _ _ _ _ _ (leaves_computes _ _ _ _ _ _ H1)), (computes_status _ _ _ _ _ _ (leaves_computes _ _ _ _ _ _ H2)),
    (computes_status _ _ _ _ _ _ (leaves_computes _ _ _ _ _ _ H3)), (computes_status _ _ _ _ _ _ (leaves_computes _ _ _ _ _ _ H4)). rewrite caught.
  unfold inspect_brep_topology. cbv zeta. set (S := [status (brep_inspect_corners_topology m); status (brep_inspect_lines_topology tl m);
    status (brep_inspect_surfaces_topology tl m); status (brep_inspect_blocks tl m)]). pose proof (caught_not_ub S) as K.
  destruct (parallel_invoke_caught S) as [[]|e|]; cbn [bind].
  - rewrite embed_in_sequence by apply g5_lawful. cbn [get g5 v5 fst snd set]. rewrite (computes_status _ _ _ _ _ _ H5). split.
    + destruct (add_unique_vertices_with_wrong_cmv_link _ _ _); reflexivity.
    + intros v Hv. destruct (add_unique_vertices_with_wrong_cmv_link _ _ _) as [links|e|] eqn:E; try discriminate Hv. injection Hv as <-.
      unfold read_brep_topology, w1, w2, w3, w4. cbn [v1 v2 v3 v4 v5 snd].
      assert (N : forall o, In o S -> o <> UB) by (apply K; discriminate).
      f_equal; try (apply leaves_value; [assumption|apply status_ub, N; subst S; cbn; tauto]). apply computes_value, H5.
  - split; [reflexivity|]. intros v Hv. discriminate Hv.
  - split; [reflexivity|]. intros v Hv. discriminate Hv.
Qed.
End Topology.
