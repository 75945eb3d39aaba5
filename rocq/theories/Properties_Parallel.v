(** C33, C34: parallel inspections under every schedule, and failing categories. *)
From Coq Require Import String Ascii List Arith NArith ZArith Bool Lia Permutation Floats.SpecFloat.
From Verif Require Import Base BaseFacts Model_Issues Types Model_Hash Model_Colocation Model_Adjacency Model_Degeneration Model_Negative Model_Manifold Model_Intersections
  Model_Topology Model_BRep Model_Blocks Model_Results Model_Validity Model_Parallel Model_ParallelInspectors Spec_Parallel Spec_Results
  Spec_Colocation Spec_Topology Proof_Topology Proof_Topology2 Proof_Topology3 Proof_Topology4 Proof_TopologyCheck Proof_BRep Proof_Parallel Proof_Parallel2 Proof_Parallel3 Proof_Parallel4 Proof_Results Properties_Topology Properties_BRep Properties_Blocks Proof_GoodModels.
Import ListNotations.
Open Scope list_scope.

(** ** C33: schedules *)
(** whatever the interleaving, a program whose concurrent tasks are independent ends as its tasks run one after the other *)
Theorem C33_every_schedule : forall M (p : proc M) m end_status m', independent p ->
  execution (p, m) (Done end_status, m') -> in_sequence p m = (end_status, m').
Proof. intros M p m o m'. exact (every_schedule p m o m'). Qed.
Print Assumptions C33_every_schedule.

(** ... and it does end: no schedule runs for ever, none is stuck before the end *)
Lemma terminating : forall M (p : proc M), terminates p.
Proof.
  intros M p. assert (K : forall n (q : proc M), size q < n -> terminates q).
  { induction n as [|n IH]; intros q Hq; [lia|]. constructor. intros q' [l S]. apply IH. pose proof (step_size _ _ _ S). lia. }
  eapply K, le_n.
Qed.
Lemma execution_app : forall M (c d e : proc M * M), execution c d -> execution d e -> execution c e.
Proof. intros M c d e H. induction H; intros K; [assumption|eapply exec_act; eauto|eapply exec_silent; eauto]. Qed.
Theorem C33_no_deadlock : forall M (p : proc M) m, terminates p /\
  forall q m1, execution (p, m) (q, m1) -> exists end_status m', execution (q, m1) (Done end_status, m').
Proof. intros M p m. split; [apply terminating|]. intros q m1 _. apply extends. Qed.
Print Assumptions C33_no_deadlock.

(** parallel_invoke of any number of tasks writing separate parts of the memory: the final memory is the one of the tasks run in
    their order, and the call raises the exception of the first task, in this order, that raised *)
Lemma invoke_first : forall l, (forall o, In o l -> o <> UB) ->
  (fold_right join (Ok tt) l = Ok tt /\ forall o, In o l -> o = Ok tt) \/ (exists e, fold_right join (Ok tt) l = Throw e /\ first_raised l e).
Proof.
  induction l as [|[[]|e|] l IH]; intros H; cbn [fold_right join].
  - left. split; [reflexivity|]. intros o [].
  - destruct IH as [[E K]|(e & E & before & after & -> & K)]; [intros o I; apply H; right; exact I| |].
    + left. rewrite E. split; [reflexivity|]. intros o [<-|I]; [reflexivity|apply K, I].
    + right. exists e. rewrite E. split; [reflexivity|]. exists (Ok tt :: before), after. split; [reflexivity|]. intros o [<-|I]; [reflexivity|apply K, I].
  - right. exists e. assert (X : fold_right join (Ok tt) l <> UB).
    { destruct IH as [[E _]|(e' & E & _)]; [intros o I; apply H; right; exact I| |]; rewrite E; discriminate. }
    split; [destruct (fold_right join (Ok tt) l); congruence|]. exists [], l. split; [reflexivity|]. intros o [].
  - exfalso. apply (H UB); [left; reflexivity|reflexivity].
Qed.
Fixpoint statuses {M} (l : list (proc M)) (m : M) : list (outcome unit) :=
  match l with [] => [] | p :: l' => fst (in_sequence p m) :: statuses l' (snd (in_sequence p m)) end.
Fixpoint memory_after {M} (l : list (proc M)) (m : M) : M :=
  match l with [] => m | p :: l' => memory_after l' (snd (in_sequence p m)) end.
Lemma all_statuses : forall M (l : list (proc M)) m, all_in_sequence l m = (fold_right join (Ok tt) (statuses l m), memory_after l m).
Proof.
  induction l as [|p l IH]; intros m; cbn [all_in_sequence statuses memory_after fold_right]; [reflexivity|].
  destruct (in_sequence p m) as [o m']. cbn [fst snd]. rewrite IH. reflexivity.
Qed.
Theorem C33_parallel_invoke : forall M (tasks : list (proc M)) m end_status m', tasks_independent tasks ->
  (forall o, In o (statuses tasks m) -> o <> UB) ->
  execution (invoke tasks, m) (Done end_status, m') ->
  m' = memory_after tasks m /\
  ((end_status = Ok tt /\ forall o, In o (statuses tasks m) -> o = Ok tt) \/ (exists e, end_status = Throw e /\ first_raised (statuses tasks m) e)).
Proof.
  intros M tasks m o m' I U H. apply every_schedule in H; [|apply invoke_independent, I]. rewrite invoke_in_sequence, all_statuses in H. injection H as <- <-.
  split; [reflexivity|]. apply invoke_first, U.
Qed.
Print Assumptions C33_parallel_invoke.

(** Tasks that do not commute: the result depends on the schedule *)
Definition racing : proc nat := invoke [Act (fun n => (Ok tt, n + 1)); Act (fun n => (Ok tt, n * 2))].
Example racing_tasks : execution (racing, 1) (Done (Ok tt), 4) /\ execution (racing, 1) (Done (Ok tt), 3) /\ ~ independent racing.
Proof.
  split; [|split].
  - eapply exec_act; [apply step_left, step_act|reflexivity|]. eapply exec_act; [apply step_right, step_act|reflexivity|]. eapply exec_silent; [apply step_join|]. constructor.
  - eapply exec_act; [apply step_right, step_act|reflexivity|]. eapply exec_act; [apply step_left, step_act|reflexivity|]. eapply exec_silent; [apply step_join|]. constructor.
  - intros (_ & _ & C). specialize (C _ _ (acts_act _) (acts_act _) 1). cbn in C. destruct C as (_ & _ & C). discriminate C.
Qed.

(** *** The calls.  [p1], [p2] ... are the bodies of the tasks, made of any steps; each is only supposed to compute, when run
    alone, what the function it stands for returns. *)
Section Calls.
Context {L1 L2 L3 L4 L5 L6 L7 L8 : Type}.
Variables (l1 : L1) (l2 : L2) (l3 : L3) (l4 : L4) (l5 : L5) (l6 : L6) (l7 : L7) (l8 : L8).
Theorem C33_unique_vertices : forall geo m p1 p2,
  computes p1 l1 (ur_colocated empty_unique_vertices) (colocated_unique_vertices_groups geo m (ur_colocated empty_unique_vertices)) ->
  computes p2 l2 (ur_different empty_unique_vertices) (unique_vertices_linked_to_different_points geo m (ur_different empty_unique_vertices)) ->
  always_gives (invoke2 p1 p2) (start2 l1 l2 (ur_colocated empty_unique_vertices) (ur_different empty_unique_vertices)) (read2 mkUniqueVerticesResult)
    (inspect_unique_vertices geo m).
Proof. intros. apply runs_gives, unique_vertices_runs; assumption. Qed.
Theorem C33_adjacency : forall lk m p1 p2,
  computes p1 l1 (ba_surfaces empty_brep_adjacency) (add_surfaces_edges_with_wrong_adjacencies lk m (ba_surfaces empty_brep_adjacency)) ->
  computes p2 l2 (ba_blocks empty_brep_adjacency) (add_blocks_facets_with_wrong_adjacencies lk m (ba_blocks empty_brep_adjacency)) ->
  always_gives (invoke2 p1 p2) (start2 l1 l2 (ba_surfaces empty_brep_adjacency) (ba_blocks empty_brep_adjacency)) (read2 mkBRepAdjacency)
    (inspect_brep_meshes_adjacencies lk m).
Proof. intros. apply runs_gives, adjacency_runs; assumption. Qed.
Theorem C33_curve : forall ms geo m p1 p2,
  computes p1 l1 (new_issues "Colocation of vertices not tested"%string) (colocated_points_groups geo (ec_points m)) ->
  computes p2 l2 (new_issues "Degeneration of edges not tested"%string) (Ok (curve_degenerated_edges ms geo m)) ->
  always_gives (invoke2 p1 p2) (start2 l1 l2 (new_issues "Colocation of vertices not tested"%string) (new_issues "Degeneration of edges not tested"%string))
    (read2 mkCurveResult) (inspect_edged_curve ms geo m).
Proof. intros. apply runs_gives, curve_runs; assumption. Qed.
Theorem C33_surface : forall ms geo ho name m st intersections p1 p2 p3 p4 p5 p6 p7 p8,
  computes p1 l1 (sr_adjacency empty_surface_result) (polygon_edges_with_wrong_adjacency name m) ->
  computes p2 l2 (sr_colocated empty_surface_result) (colocated_points_groups geo (sm_points m)) ->
  computes p3 l3 (sr_edges empty_surface_result) (fst (surface_degenerated_edges ms geo m st)) ->
  computes p4 l4 (sr_polygons empty_surface_result) (Ok (degenerated_polygons m)) ->
  computes p5 l5 (sr_manifold_edges empty_surface_result) (Ok (surface_non_manifold_edges ho m)) ->
  computes p6 l6 (sr_manifold_vertices empty_surface_result) (surface_non_manifold_vertices geo m) ->
  computes p7 l7 (sr_intersections empty_surface_result) intersections ->
  computes p8 l8 (sr_negative empty_surface_result) (Ok (negative_polygons ms m)) ->
  always_gives (invoke8 p1 p2 p3 p4 p5 p6 p7 p8) (start_surface l1 l2 l3 l4 l5 l6 l7 l8) read_surface (inspect_surface ms geo ho name m st intersections).
Proof. intros. apply runs_gives, surface_runs; assumption. Qed.
Theorem C33_solid : forall ms geo ho name m st p1 p2 p3 p4 p5 p6 p7 p8,
  computes p1 l1 (so_r_adjacency empty_solid_result) (polyhedron_facets_with_wrong_adjacency name m) ->
  computes p2 l2 (so_r_colocated empty_solid_result) (colocated_points_groups geo (so_points m)) ->
  computes p3 l3 (so_r_edges empty_solid_result) (fst (solid_degenerated_edges ms geo m st)) ->
  computes p4 l4 (so_r_polyhedra empty_solid_result) (Ok (degenerated_polyhedra m)) ->
  computes p5 l5 (so_r_manifold_vertices empty_solid_result) (solid_non_manifold_vertices geo m) ->
  computes p6 l6 (so_r_manifold_edges empty_solid_result) (solid_non_manifold_edges m) ->
  computes p7 l7 (so_r_manifold_facets empty_solid_result) (Ok (solid_non_manifold_facets ho m)) ->
  computes p8 l8 (so_r_negative empty_solid_result) (Ok (negative_polyhedra ms m)) ->
  always_gives (invoke8 p1 p2 p3 p4 p5 p6 p7 p8) (start_solid l1 l2 l3 l4 l5 l6 l7 l8) read_solid (inspect_solid ms geo ho name m st).
Proof. intros. apply runs_gives, solid_runs; assumption. Qed.
Theorem C33_brep_meshes : forall o m st intersections p1 p2 p3 p4 p5 p6 p7,
  computes p1 l1 (br_unique_vertices empty_brep_meshes) (inspect_unique_vertices (or_geometry o) m) ->
  computes p2 l2 (br_colocation empty_brep_meshes) (inspect_meshes_point_colocations (or_geometry o) m) ->
  computes p3 l3 (br_adjacency empty_brep_meshes) (inspect_brep_meshes_adjacencies (or_lookup o) m) ->
  computes p4 l4 (br_degeneration empty_brep_meshes) (fst (inspect_elements_degeneration (or_measures o) (or_geometry o) m st)) ->
  computes p5 l5 (br_intersections empty_brep_meshes) intersections ->
  computes p6 l6 (br_manifold empty_brep_meshes) (inspect_brep_manifold (or_geometry o) (or_hash o) m) ->
  computes p7 l7 (br_negative empty_brep_meshes) (Ok (brep_negative_elements (or_measures o) m)) ->
  always_gives (invoke7 p1 p2 p3 p4 p5 p6 p7) (start_brep_meshes l1 l2 l3 l4 l5 l6 l7) read_brep_meshes (inspect_brep_meshes o m st intersections).
Proof. intros. apply runs_gives, brep_meshes_runs; assumption. Qed.
Theorem C33_section_meshes : forall o m st intersections p1 p2 p3 p4 p5 p6 p7,
  computes p1 l1 (sc_unique_vertices empty_section_meshes) (inspect_unique_vertices (or_geometry o) m) ->
  computes p2 l2 (sc_colocation empty_section_meshes) (inspect_meshes_point_colocations (or_geometry o) m) ->
  computes p3 l3 (sc_adjacency empty_section_meshes) (inspect_section_meshes_adjacencies (or_lookup o) m) ->
  computes p4 l4 (sc_degeneration empty_section_meshes) (fst (section_inspect_elements_degeneration (or_measures o) (or_geometry o) m st)) ->
  computes p5 l5 (sc_intersections empty_section_meshes) intersections ->
  computes p6 l6 (sc_manifold empty_section_meshes) (inspect_section_manifold (or_geometry o) (or_hash o) m) ->
  computes p7 l7 (sc_negative empty_section_meshes) (Ok (section_negative_elements (or_measures o) m)) ->
  always_gives (invoke7 p1 p2 p3 p4 p5 p6 p7) (start_section_meshes l1 l2 l3 l4 l5 l6 l7) read_section_meshes (inspect_section_meshes o m st intersections).
Proof. intros. apply runs_gives, section_meshes_runs; assumption. Qed.
Theorem C33_section_topology : forall m p1 p2 p3 p5,
  computes_or_leaves p1 l1 section_corners_default (section_inspect_corners_topology m) ->
  computes_or_leaves p2 l2 section_lines_default (section_inspect_lines_topology m) ->
  computes_or_leaves p3 l3 section_surfaces_default (section_inspect_surfaces m) ->
  computes p5 l5 no_links (add_unique_vertices_with_wrong_cmv_link m cmv_exists_in_section no_links) ->
  always_gives (caught3 p1 p2 p3 p5) (start_section_topology l1 l2 l3 l5) read_section_topology (inspect_section_topology m).
Proof. intros. apply runs_gives, section_topology_runs; assumption. Qed.
Theorem C33_brep_topology : forall tl m p1 p2 p3 p4 p5,
  computes_or_leaves p1 l1 brep_corners_default (brep_inspect_corners_topology m) ->
  computes_or_leaves p2 l2 brep_lines_default (brep_inspect_lines_topology tl m) ->
  computes_or_leaves p3 l3 brep_surfaces_default (brep_inspect_surfaces_topology tl m) ->
  computes_or_leaves p4 l4 brep_blocks_default (brep_inspect_blocks tl m) ->
  computes p5 l5 no_links (add_unique_vertices_with_wrong_cmv_link m cmv_exists_in_brep no_links) ->
  always_gives (caught4 p1 p2 p3 p4 p5) (start_brep_topology l1 l2 l3 l4 l5) read_brep_topology (inspect_brep_topology tl m).
Proof. intros. apply runs_gives, brep_topology_runs; assumption. Qed.
Theorem C33_section : forall o m st ints p1 p2,
  computes p1 l1 empty_section_meshes (inspect_section_meshes o m st ints) ->
  computes p2 l2 empty_section_topology (inspect_section_topology m) ->
  always_gives (invoke2 p1 p2) (start2 l1 l2 empty_section_meshes empty_section_topology) (read2 mkSectionResult) (inspect_section o m st ints).
Proof. intros. apply runs_gives, section_runs; assumption. Qed.
End Calls.
Print Assumptions C33_surface.
Print Assumptions C33_solid.
Print Assumptions C33_section_meshes.
Print Assumptions C33_section_topology.
Print Assumptions C33_section.

(** the whole of inspect_brep, with its nested parallel calls *)
Section Whole.
Context {U1 U2 C A1 A2 D I N G T1 T2 T3 T4 T5 : Type}.
Variables (u1 : U1) (u2 : U2) (c : C) (a1 : A1) (a2 : A2) (d : D) (i : I) (n : N) (g : G) (t1 : T1) (t2 : T2) (t3 : T3) (t4 : T4) (t5 : T5).
Theorem C33_brep : forall o m st ints pu1 pu2 pc pa1 pa2 pd pi pn pg pt1 pt2 pt3 pt4 pt5,
  computes pu1 u1 (ur_colocated empty_unique_vertices) (colocated_unique_vertices_groups (or_geometry o) m (ur_colocated empty_unique_vertices)) ->
  computes pu2 u2 (ur_different empty_unique_vertices) (unique_vertices_linked_to_different_points (or_geometry o) m (ur_different empty_unique_vertices)) ->
  computes pc c (br_colocation empty_brep_meshes) (inspect_meshes_point_colocations (or_geometry o) m) ->
  computes pa1 a1 (ba_surfaces empty_brep_adjacency) (add_surfaces_edges_with_wrong_adjacencies (or_lookup o) m (ba_surfaces empty_brep_adjacency)) ->
  computes pa2 a2 (ba_blocks empty_brep_adjacency) (add_blocks_facets_with_wrong_adjacencies (or_lookup o) m (ba_blocks empty_brep_adjacency)) ->
  computes pd d (br_degeneration empty_brep_meshes) (fst (inspect_elements_degeneration (or_measures o) (or_geometry o) m st)) ->
  computes pi i (br_intersections empty_brep_meshes) ints ->
  computes pn n (br_manifold empty_brep_meshes) (inspect_brep_manifold (or_geometry o) (or_hash o) m) ->
  computes pg g (br_negative empty_brep_meshes) (Ok (brep_negative_elements (or_measures o) m)) ->
  computes_or_leaves pt1 t1 brep_corners_default (brep_inspect_corners_topology m) ->
  computes_or_leaves pt2 t2 brep_lines_default (brep_inspect_lines_topology (or_topo o) m) ->
  computes_or_leaves pt3 t3 brep_surfaces_default (brep_inspect_surfaces_topology (or_topo o) m) ->
  computes_or_leaves pt4 t4 brep_blocks_default (brep_inspect_blocks (or_topo o) m) ->
  computes pt5 t5 no_links (add_unique_vertices_with_wrong_cmv_link m cmv_exists_in_brep no_links) ->
  always_gives (whole_brep_program pu1 pu2 pc pa1 pa2 pd pi pn pg pt1 pt2 pt3 pt4 pt5) (whole_brep_start u1 u2 c a1 a2 d i n g t1 t2 t3 t4 t5) (read2 mkBRepResult)
    (inspect_brep o m st ints).
Proof. intros. apply runs_gives, whole_brep_runs; assumption. Qed.
End Whole.
Print Assumptions C33_brep.

(** programs meeting the hypotheses: adjacency one component at a time, degeneration one storage change at a time, the others in
    one step; for every model, whatever its inspections find or raise *)
Theorem C33_adjacency_steps : forall lk m,
  always_gives (adjacency_program lk m) (start2 tt tt (ba_surfaces empty_brep_adjacency) (ba_blocks empty_brep_adjacency)) (read2 mkBRepAdjacency)
    (inspect_brep_meshes_adjacencies lk m).
Proof. intros. apply runs_gives, adjacency_program_runs. Qed.
Print Assumptions C33_adjacency_steps.
Definition stepwise_brep (o : Oracles) (m : Model) (ints : outcome Intersections) :=
  whole_brep_program
    (at_once (colocated_unique_vertices_groups (or_geometry o) m (ur_colocated empty_unique_vertices)))
    (at_once (unique_vertices_linked_to_different_points (or_geometry o) m (ur_different empty_unique_vertices)))
    (at_once (inspect_meshes_point_colocations (or_geometry o) m))
    (loop (fun acc s => let! r := surface_adjacency_issues (or_lookup o) m s in Ok (add_issues_to_map (co_id s) r acc)) (active (m_surfaces m)))
    (loop (fun acc b => let! r := block_adjacency_issues (or_lookup o) m b in Ok (add_issues_to_map (co_id b) r acc)) (active (m_blocks m)))
    (assign_result (degeneration_program (or_measures o) (or_geometry o) m) dm_result)
    (at_once ints) (at_once (inspect_brep_manifold (or_geometry o) (or_hash o) m)) (at_once (Ok (brep_negative_elements (or_measures o) m)))
    (at_once (brep_inspect_corners_topology m)) (at_once (brep_inspect_lines_topology (or_topo o) m)) (at_once (brep_inspect_surfaces_topology (or_topo o) m))
    (at_once (brep_inspect_blocks (or_topo o) m)) (at_once (add_unique_vertices_with_wrong_cmv_link m cmv_exists_in_brep no_links)).
Definition stepwise_start (st : ModelEdges) := whole_brep_start tt tt tt tt tt (mkDM st empty_degeneration) tt tt tt tt tt tt tt tt.
Theorem C33_brep_steps : forall o m st ints,
  always_gives (stepwise_brep o m ints) (stepwise_start st) (read2 mkBRepResult) (inspect_brep o m st ints).
Proof.
  intros. unfold stepwise_brep, stepwise_start. apply runs_gives, whole_brep_runs;
    try exact (at_once_computes _ _ _); try exact (leaves_computes _ _ _ _ _ _ (at_once_computes _ _ _)); try apply loop_computes.
  apply leaves_computes, runs_computes, degeneration_runs.
Qed.
Print Assumptions C33_brep_steps.
(** a complete execution exists, on the good tetrahedron it finds nothing *)
Example good_tet_runs : exists m', execution (stepwise_brep (tet_oracles tet_tl) good_tet (Ok empty_intersections), stepwise_start no_storage) (Done (Ok tt), m') /\
  brep_nb_issues (read2 mkBRepResult m') = 0%N.
Proof.
  destruct (extends (stepwise_brep (tet_oracles tet_tl) good_tet (Ok empty_intersections)) (stepwise_start no_storage)) as (o & m' & X).
  pose proof (C33_brep_steps _ _ _ _ _ _ X) as K.
  destruct (inspect_brep (tet_oracles tet_tl) good_tet no_storage (Ok empty_intersections)) as [r|e|] eqn:E.
  - destruct K as [-> Hr]. exists m'. split; [exact X|]. rewrite Hr.
    assert (Y : (let! r := inspect_brep (tet_oracles tet_tl) good_tet no_storage (Ok empty_intersections) in Ok (brep_nb_issues r)) = Ok 0%N) by (vm_compute; reflexivity).
    rewrite E in Y. injection Y as Y. exact Y.
  - exfalso. assert (Y : status (inspect_brep (tet_oracles tet_tl) good_tet no_storage (Ok empty_intersections)) = Ok tt) by (vm_compute; reflexivity). rewrite E in Y. discriminate Y.
  - exfalso. assert (Y : status (inspect_brep (tet_oracles tet_tl) good_tet no_storage (Ok empty_intersections)) = Ok tt) by (vm_compute; reflexivity). rewrite E in Y. discriminate Y.
Qed.

(** ** C34: failing categories of a topology report *)
Lemma caught_ok : forall l, (forall o, In o l -> o <> UB) -> (forall e, first_raised l e -> e = OpenGeodeExn) -> parallel_invoke_caught l = Ok tt.
Proof.
  intros l U F. rewrite <- caught, <- invoked. destruct (invoke_first l U) as [[-> _]|(e & -> & K)]; [reflexivity|]. rewrite (F e K). reflexivity.
Qed.
Lemma caught_never : forall l, parallel_invoke_caught l <> Throw OpenGeodeExn.
Proof. intros l. rewrite <- caught. destruct (parallel_invoke l) as [u|[]|]; discriminate. Qed.
Lemma caught_untouched : forall A (o : outcome A) l d, parallel_invoke_caught l = Ok tt -> In (status o) l -> complete_or_untouched o d (assigned d o).
Proof.
  intros A o l d H I. pose proof (caught_not_ub l ltac:(congruence) _ I) as K. destruct o as [v|e|]; [left; reflexivity|right; split; [exists e|]; reflexivity|].
  exfalso. apply K. reflexivity.
Qed.
Lemma first_raised_unique : forall l e e', first_raised l e -> first_raised l e' -> e = e'.
Proof.
  intros l e e' (b1 & a1 & E1 & H1) (b2 & a2 & E2 & H2). rewrite E1 in E2. clear E1. revert b2 E2 H2. induction b1 as [|o b1 IH]; intros [|o2 b2] E2 H2; cbn in E2.
  - congruence.
  - injection E2 as E2 _. specialize (H2 _ (or_introl eq_refl)). congruence.
  - injection E2 as E2 _. specialize (H1 _ (or_introl eq_refl)). congruence.
  - injection E2 as -> E2. apply (IH (fun o H => H1 o (or_intror H)) b2 E2 (fun o H => H2 o (or_intror H))).
Qed.
Lemma caught_swallows : forall A l (r : A), swallows l (let! _ := parallel_invoke_caught l in Ok r).
Proof.
  intros A l r. split; [|split; [|split]].
  - pose proof (caught_never l) as N. destruct (parallel_invoke_caught l) as [u|e|]; cbn [bind]; congruence.
  - intros Io. destruct (parallel_invoke_caught l) eqn:E; cbn [bind]; [exfalso|exfalso|reflexivity]; apply (caught_not_ub l ltac:(congruence) UB Io), eq_refl.
  - intros Hu Hf. rewrite (caught_ok l); [eexists; reflexivity|intros o I ->; contradiction|assumption].
  - intros Hu F. assert (U : forall o, In o l -> o <> UB) by (intros o I ->; contradiction). rewrite <- caught, <- invoked. destruct (invoke_first l U) as [[E K]|(e & E & F')].
    + destruct F as (bef & aft & -> & _). specialize (K (Throw OtherExn) ltac:(apply in_or_app; right; left; reflexivity)). discriminate K.
    + rewrite E, (first_raised_unique _ _ _ F' F). reflexivity.
Qed.

(** the report: each category is complete, or it raised and is left as it was, without any issue; the links of the unique vertices
    are always complete *)
Theorem C34_section_report : forall m r, inspect_section_topology m = Ok r ->
  complete_or_untouched (section_inspect_corners_topology m) section_corners_default (st_corners r) /\
  complete_or_untouched (section_inspect_lines_topology m) section_lines_default (st_lines r) /\
  complete_or_untouched (section_inspect_surfaces m) section_surfaces_default (st_surfaces r) /\
  add_unique_vertices_with_wrong_cmv_link m cmv_exists_in_section no_links = Ok (st_links r).
Proof.
  intros m r H. unfold inspect_section_topology in H. cbv zeta in H.
  destruct (parallel_invoke_caught _) as [[]|e|] eqn:E in H; try discriminate H. cbn [bind] in H.
  destruct (add_unique_vertices_with_wrong_cmv_link m cmv_exists_in_section no_links) as [k|e|] eqn:K; try discriminate H. injection H as <-. cbn [st_corners st_lines st_surfaces st_links].
  repeat split; try (eapply caught_untouched; [exact E|]); cbn [In]; auto.
Qed.
Print Assumptions C34_section_report.
Theorem C34_brep_report : forall tl m r, inspect_brep_topology tl m = Ok r ->
  complete_or_untouched (brep_inspect_corners_topology m) brep_corners_default (bt_corners r) /\
  complete_or_untouched (brep_inspect_lines_topology tl m) brep_lines_default (bt_lines r) /\
  complete_or_untouched (brep_inspect_surfaces_topology tl m) brep_surfaces_default (bt_surfaces r) /\
  complete_or_untouched (brep_inspect_blocks tl m) brep_blocks_default (bt_blocks r) /\
  add_unique_vertices_with_wrong_cmv_link m cmv_exists_in_brep no_links = Ok (bt_links r).
Proof.
  intros tl m r H. unfold inspect_brep_topology in H. cbv zeta in H.
  destruct (parallel_invoke_caught _) as [[]|e|] eqn:E in H; try discriminate H. cbn [bind] in H.
  destruct (add_unique_vertices_with_wrong_cmv_link m cmv_exists_in_brep no_links) as [k|e|] eqn:K; try discriminate H. injection H as <-. cbn [bt_corners bt_lines bt_surfaces bt_blocks bt_links].
  repeat split; try (eapply caught_untouched; [exact E|]); cbn [In]; auto.
Qed.
Print Assumptions C34_brep_report.
Theorem C34_untouched_is_empty : forall ho,
  all_empty (corners_categories ho section_corners_default) /\ all_empty (section_lines_categories ho section_lines_default) /\
  all_empty (section_surfaces_categories ho section_surfaces_default) /\
  all_empty (corners_categories ho brep_corners_default) /\ all_empty (brep_lines_categories ho brep_lines_default) /\
  all_empty (brep_surfaces_categories ho brep_surfaces_default) /\ all_empty (brep_blocks_categories ho brep_blocks_default).
Proof. repeat constructor. Qed.
Print Assumptions C34_untouched_is_empty.

(** no OpenGeode exception gets out, whatever raises; and if the first category to raise (in the order corners, lines, surfaces,
    blocks) raised one, any exception of a later category is swallowed with it *)
Theorem C34_section_never_escapes : forall m, unique_ids m -> m_blocks m = [] ->
  swallows [status (section_inspect_corners_topology m); status (section_inspect_lines_topology m); status (section_inspect_surfaces m)]
    (inspect_section_topology m).
Proof.
  intros m U B. destruct (section_links_spec m U B) as (k & b & K & _). unfold inspect_section_topology. cbv zeta. rewrite K. apply caught_swallows.
Qed.
Print Assumptions C34_section_never_escapes.
Theorem C34_brep_never_escapes : forall tl m, unique_ids m ->
  swallows [status (brep_inspect_corners_topology m); status (brep_inspect_lines_topology tl m); status (brep_inspect_surfaces_topology tl m); status (brep_inspect_blocks tl m)]
    (inspect_brep_topology tl m).
Proof.
  intros tl m U. destruct (brep_links_spec m U) as (k & b & K & _). unfold inspect_brep_topology. cbv zeta. rewrite K. apply caught_swallows.
Qed.
Print Assumptions C34_brep_never_escapes.

(** so a report without issue does not say that everything was inspected: here a line inside a block it is linked to through no
    surface makes the inspection of lines raise, and the report is empty *)
Definition loose_tet : Model := a_brep
  [good_corner 0 0; good_corner 1 1; good_corner 2 2; good_corner 3 3; good_corner 4 4; good_corner 5 5]
  [good_line 10 0 1; good_line 11 0 2; good_line 12 0 3; good_line 13 1 2; good_line 14 1 3; good_line 15 2 3; good_line 16 4 5]
  [good_surface 100 3 1 2 3; good_surface 101 3 0 2 3; good_surface 102 3 0 1 3; good_surface 103 3 0 1 2] [good_block 1000] [(5000, [100; 101; 102; 103])]
  (tet_cmvs ++ [[c_ 4 0; l_ 16 0]; [c_ 5 0; l_ 16 1]]) (tet_bnd ++ [(cid_ 4, lid_ 16); (cid_ 5, lid_ 16)]) [(lid_ 16, bid_ 1000)].
Theorem C34_empty_report_refuted : exists tl m r,
  inspect_brep_topology tl m = Ok r /\ (forall ho, all_empty (brep_topology_categories ho r)) /\ brep_inspect_lines_topology tl m = Throw OpenGeodeExn /\
  brep_topology_is_valid tl m = Throw OpenGeodeExn.
Proof.
  exists tet_tl, loose_tet. destruct (inspect_brep_topology tet_tl loose_tet) as [r|e|] eqn:E.
  - exists r. split; [reflexivity|]. split; [intros ho|split; vm_compute; reflexivity].
    assert (X : bind (inspect_brep_topology tet_tl loose_tet) (fun r => Ok (forallb (fun c => Nat.eqb (cat_size c) 0) (brep_topology_categories ho r))) = Ok true) by (vm_compute; reflexivity).
    rewrite E in X. cbn [bind] in X. assert (OkI : forall b : bool, @Ok bool b = Ok true -> b = true) by (intros b Hb; congruence). apply OkI in X. apply Forall_forall. intros c I. apply Nat.eqb_eq. exact (proj1 (forallb_forall _ _) X c I).
  - exfalso. assert (X : status (inspect_brep_topology tet_tl loose_tet) = Ok tt) by (vm_compute; reflexivity). rewrite E in X. discriminate X.
  - exfalso. assert (X : status (inspect_brep_topology tet_tl loose_tet) = Ok tt) by (vm_compute; reflexivity). rewrite E in X. discriminate X.
Qed.
Print Assumptions C34_empty_report_refuted.
(** ... and the model is declared valid *)
Theorem C34_valid_refuted : exists o m, is_brep_valid o m no_storage (Ok empty_intersections) = Ok [] /\
  brep_inspect_lines_topology (or_topo o) m = Throw OpenGeodeExn.
Proof. exists (tet_oracles tet_tl), loose_tet. split; vm_compute; reflexivity. Qed.
Print Assumptions C34_valid_refuted.
(** the hypotheses of [C34_brep_never_escapes] hold there *)
Example loose_tet_first : unique_ids loose_tet /\
  first_raised [status (brep_inspect_corners_topology loose_tet); status (brep_inspect_lines_topology tet_tl loose_tet);
    status (brep_inspect_surfaces_topology tet_tl loose_tet); status (brep_inspect_blocks tet_tl loose_tet)] OpenGeodeExn.
Proof.
  split.
  - apply nodupb_ok. vm_compute. reflexivity.
  - exists [Ok tt], [Ok tt; Ok tt]. split; [vm_compute; reflexivity|]. intros o [<-|[]]. reflexivity.
Qed.
