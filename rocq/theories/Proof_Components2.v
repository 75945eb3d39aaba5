From Coq Require Import String Ascii List Arith NArith ZArith Bool Lia.
From Verif Require Import Base BaseFacts Model_Issues Types Model_Colocation Model_Adjacency Model_Degeneration Model_Negative Model_Manifold
  Model_Topology Model_Results Spec_Maps Spec_Colocation Spec_Degeneration Spec_Components Proof_Messages Proof_Degeneration2 Proof_Order3
  Proof_Components.
Import ListNotations.
Open Scope list_scope.

Lemma history_inv : forall ms geo m qs s0 b0 st, model_queries ms geo m qs (new_model_inspector s0 b0) = Ok st -> edges_inv s0 b0 st.
Proof.
  intros ms geo m qs s0 b0 st E. destruct (model_queries_inv ms geo m qs _ s0 b0 (new_model_inspector_inv s0 b0)) as (st' & E' & I).
  pose proof (eq_trans (eq_sym E') E) as K. injection K as <-. exact I.
Qed.
Lemma curve_runs : forall ms geo c a, colocated_points_groups geo (ec_points c) = Ok a ->
  inspect_edged_curve ms geo c = Ok (mkCurveResult a (curve_degenerated_edges ms geo c)).
Proof. intros ms geo c a E. unfold inspect_edged_curve. rewrite E. reflexivity. Qed.
Lemma surface_runs : forall ms geo ho name c st y a b e v, polygon_edges_with_wrong_adjacency name c = Ok a -> colocated_points_groups geo (sm_points c) = Ok b ->
  fst (surface_degenerated_edges ms geo c st) = Ok e -> surface_non_manifold_vertices geo c = Ok v ->
  inspect_surface ms geo ho name c st (Ok y) = Ok (mkSurfaceResult a b e (degenerated_polygons c) (surface_non_manifold_edges ho c) v y (negative_polygons ms c)).
Proof. intros ms geo ho name c st y a b e v E1 E2 E3 E4. unfold inspect_surface. cbv zeta. rewrite E1, E2, E3, E4. reflexivity. Qed.
Lemma solid_runs : forall ms geo ho name c st a b e v w, polyhedron_facets_with_wrong_adjacency name c = Ok a -> colocated_points_groups geo (so_points c) = Ok b ->
  fst (solid_degenerated_edges ms geo c st) = Ok e -> solid_non_manifold_vertices geo c = Ok v -> solid_non_manifold_edges c = Ok w ->
  inspect_solid ms geo ho name c st = Ok (mkSolidResult a b e (degenerated_polyhedra c) v w (solid_non_manifold_facets ho c) (negative_polyhedra ms c)).
Proof. intros ms geo ho name c st a b e v w E1 E2 E3 E4 E5. unfold inspect_solid. cbv zeta. rewrite E1, E2, E3, E4, E5. reflexivity. Qed.
Lemma section_parts : forall o m st x r, inspect_section_meshes o m st x = Ok r ->
  inspect_meshes_point_colocations (or_geometry o) m = Ok (sc_colocation r) /\ inspect_section_meshes_adjacencies (or_lookup o) m = Ok (sc_adjacency r) /\
  fst (section_inspect_elements_degeneration (or_measures o) (or_geometry o) m st) = Ok (sc_degeneration r) /\
  inspect_section_manifold (or_geometry o) (or_hash o) m = Ok (sc_manifold r) /\ sc_negative r = section_negative_elements (or_measures o) m.
Proof.
  intros o m st x r Er. unfold inspect_section_meshes in Er. cbv zeta in Er. apply parallel_run in Er as [P Er].
  apply parallel_next in P as ((a & Ea) & P). apply parallel_next in P as ((b & Eb) & P). apply parallel_next in P as ((c & Ec) & P). apply parallel_next in P as ((d & Ed) & P).
  apply parallel_next in P as ((e & Ee) & P). apply parallel_next in P as ((f & Ef) & _). rewrite Ea, Eb, Ec, Ed, Ee, Ef in Er. injection Er as <-.
  cbn [sc_colocation sc_adjacency sc_degeneration sc_manifold sc_negative assigned]. auto.
Qed.
Lemma brep_parts : forall o m st x r, inspect_brep_meshes o m st x = Ok r ->
  inspect_meshes_point_colocations (or_geometry o) m = Ok (br_colocation r) /\ inspect_brep_meshes_adjacencies (or_lookup o) m = Ok (br_adjacency r) /\
  fst (inspect_elements_degeneration (or_measures o) (or_geometry o) m st) = Ok (br_degeneration r) /\
  inspect_brep_manifold (or_geometry o) (or_hash o) m = Ok (br_manifold r) /\ br_negative r = brep_negative_elements (or_measures o) m.
Proof.
  intros o m st x r Er. unfold inspect_brep_meshes in Er. cbv zeta in Er. apply parallel_run in Er as [P Er].
  apply parallel_next in P as ((a & Ea) & P). apply parallel_next in P as ((b & Eb) & P). apply parallel_next in P as ((c & Ec) & P). apply parallel_next in P as ((d & Ed) & P).
  apply parallel_next in P as ((e & Ee) & P). apply parallel_next in P as ((f & Ef) & _). rewrite Ea, Eb, Ec, Ed, Ee, Ef in Er. injection Er as <-.
  cbn [br_colocation br_adjacency br_degeneration br_manifold br_negative assigned]. auto.
Qed.
Lemma adjacency_parts : forall lk m r, inspect_brep_meshes_adjacencies lk m = Ok r ->
  add_surfaces_edges_with_wrong_adjacencies lk m (new_issues_map "polygon edges adjacencies"%string) = Ok (ba_surfaces r) /\
  add_blocks_facets_with_wrong_adjacencies lk m (new_issues_map "polyhedron facets adjacencies"%string) = Ok (ba_blocks r).
Proof.
  intros lk m r Er. unfold inspect_brep_meshes_adjacencies in Er. cbv zeta in Er. apply parallel_run in Er as [P Er].
  apply parallel_next in P as ((a & Ea) & P). apply parallel_next in P as ((b & Eb) & _). rewrite Ea, Eb in Er. injection Er as <-. auto.
Qed.
Lemma brep_manifold_parts : forall geo ho m r, inspect_brep_manifold geo ho m = Ok r ->
  add_component_meshes_non_manifold_vertices geo m (new_issues_map "non manifold mesh vertices"%string) = Ok (bm_vertices r) /\
  add_component_meshes_non_manifold_edges ho m (new_issues_map "non manifold mesh edges"%string) = Ok (bm_edges r) /\
  add_component_meshes_non_manifold_facets ho m (new_issues_map "non manifold mesh facets"%string) = Ok (bm_facets r).
Proof.
  intros geo ho m r E. unfold inspect_brep_manifold in E. apply bind_Ok in E as (a & Ea & E). apply bind_Ok in E as (b & Eb & E). apply bind_Ok in E as (c & Ec & E).
  apply bind_Ok in E as (d & Ed & E). apply bind_Ok in E as (e & Ee & E). injection E as <-. auto.
Qed.
Lemma section_manifold_parts : forall geo ho m r, inspect_section_manifold geo ho m = Ok r ->
  add_surfaces_meshes_non_manifold_vertices geo m (new_issues_map "non manifold mesh vertices"%string) = Ok (sn_vertices r) /\
  add_surfaces_meshes_non_manifold_edges ho m (new_issues_map "non manifold mesh edges"%string) = Ok (sn_edges r).
Proof.
  intros geo ho m r E. unfold inspect_section_manifold in E. apply bind_Ok in E as (a & Ea & E). apply bind_Ok in E as (b & Eb & E). injection E as <-. auto.
Qed.

Section Components.
Variable (o : Oracles) (m : Model) (st : ModelEdges) (s0 b0 : uuid -> bool).
Hypothesis (Hu : unique_ids m) (Hi : edges_inv s0 b0 st).

Lemma section_line : forall x r c, inspect_section_meshes o m st x = Ok r -> In c (m_lines m) -> co_active c = true ->
  exists alone, inspect_edged_curve (or_measures o) (or_geometry o) (co_mesh c) = Ok alone /\ (curve_short alone ->
    colocation_as_alone m (mkCID LineT (co_id c)) (sc_colocation r) (cr_colocated alone) /\
    as_alone (co_id c) (sd_edges (sc_degeneration r)) (cr_edges alone)).
Proof.
  intros x r c E Hc Ha. apply section_parts in E as (E1 & _ & E3 & _ & _). destruct (section_degeneration m _ _ _ _ _ _ Hi E3) as [D1 _].
  destruct (line_colocation m Hu _ _ c E1 Hc Ha) as (a & Ea & H). eexists. split; [exact (curve_runs _ _ _ _ Ea)|]. intros [S1 S2].
  cbn [cr_colocated cr_edges] in *. split; [exact (H S1)|]. rewrite D1. exact (line_edges_entry m Hu false _ _ _ c Hc Ha S2).
Qed.
Lemma brep_line : forall x r c, inspect_brep_meshes o m st x = Ok r -> In c (m_lines m) -> co_active c = true ->
  exists alone, inspect_edged_curve (or_measures o) (or_geometry o) (co_mesh c) = Ok alone /\ (curve_short alone ->
    colocation_as_alone m (mkCID LineT (co_id c)) (br_colocation r) (cr_colocated alone) /\
    as_alone (co_id c) (dr_edges (br_degeneration r)) (cr_edges alone)).
Proof.
  intros x r c E Hc Ha. apply brep_parts in E as (E1 & _ & E3 & _ & _). destruct (brep_degeneration m _ _ _ _ _ _ Hi E3) as [D1 _].
  destruct (line_colocation m Hu _ _ c E1 Hc Ha) as (a & Ea & H). eexists. split; [exact (curve_runs _ _ _ _ Ea)|]. intros [S1 S2].
  cbn [cr_colocated cr_edges] in *. split; [exact (H S1)|]. rewrite D1. exact (line_edges_entry m Hu true _ _ _ c Hc Ha S2).
Qed.
Lemma section_surface : forall x r c name e y, inspect_section_meshes o m st x = Ok r -> In c (m_surfaces m) -> co_active c = true ->
  exists alone, inspect_surface (or_measures o) (or_geometry o) (or_hash o) name (co_mesh c) (new_inspector e) (Ok y) = Ok alone /\
    (surface_short (co_mesh c) alone ->
     as_alone_then (edge_without_neighbour (co_mesh c)) (co_id c) (sc_adjacency r) (sr_adjacency alone) /\
     colocation_as_alone m (mkCID SurfaceT (co_id c)) (sc_colocation r) (sr_colocated alone) /\
     as_alone (co_id c) (sd_edges (sc_degeneration r)) (sr_edges alone) /\
     as_alone (co_id c) (sd_polygons (sc_degeneration r)) (sr_polygons alone) /\
     as_alone (co_id c) (sn_edges (sc_manifold r)) (sr_manifold_edges alone) /\
     as_alone (co_id c) (sn_vertices (sc_manifold r)) (sr_manifold_vertices alone) /\
     as_alone (co_id c) (sc_negative r) (sr_negative alone)).
Proof.
  intros x r c name e y E Hc Ha. apply section_parts in E as (E1 & E2 & E3 & E4 & E5). destruct (section_degeneration m _ _ _ _ _ _ Hi E3) as [D1 D2].
  apply section_manifold_parts in E4 as (M1 & M2).
  destruct (surface_adjacency_entry m Hu _ _ _ c name E2 Hc Ha eq_refl) as (a & Ea & A).
  destruct (surface_colocation m Hu _ _ c E1 Hc Ha) as (b & Eb & B).
  destruct (surface_edges_entry m Hu false (or_measures o) (or_geometry o) "degenerated edges"%string c e Hc Ha) as (d & Ed & D).
  destruct (surface_vertices_entry m Hu _ _ _ c M1 Hc Ha eq_refl) as (v & Ev & V).
  eexists. split; [exact (surface_runs _ _ _ _ _ _ y _ _ _ _ Ea Eb Ed Ev)|]. intros (S1 & S2 & S3 & S4 & S5 & S6 & S7).
  cbn [sr_adjacency sr_colocated sr_edges sr_polygons sr_manifold_edges sr_manifold_vertices sr_negative] in *.
  rewrite D1, D2, E5. split; [exact (A S1)|]. split; [exact (B S2)|]. split; [exact (D S3)|]. split; [exact (polygons_entry m Hu _ c Hc Ha S4)|].
  split; [exact (surface_manifold_edges_entry m Hu _ _ _ c M2 Hc Ha eq_refl S5)|]. split; [exact (V S6)|]. exact (section_negative_entry m Hu _ c Hc Ha S7).
Qed.
Lemma brep_surface : forall x r c name e y, inspect_brep_meshes o m st x = Ok r -> In c (m_surfaces m) -> co_active c = true ->
  exists alone, inspect_surface (or_measures o) (or_geometry o) (or_hash o) name (co_mesh c) (new_inspector e) (Ok y) = Ok alone /\
    (surface_short (co_mesh c) alone ->
     as_alone_then (edge_without_neighbour (co_mesh c)) (co_id c) (ba_surfaces (br_adjacency r)) (sr_adjacency alone) /\
     colocation_as_alone m (mkCID SurfaceT (co_id c)) (br_colocation r) (sr_colocated alone) /\
     as_alone (co_id c) (dr_edges (br_degeneration r)) (sr_edges alone) /\
     as_alone (co_id c) (dr_polygons (br_degeneration r)) (sr_polygons alone) /\
     as_alone (co_id c) (bm_edges (br_manifold r)) (sr_manifold_edges alone) /\
     as_alone (co_id c) (bm_vertices (br_manifold r)) (sr_manifold_vertices alone)).
Proof.
  intros x r c name e y E Hc Ha. apply brep_parts in E as (E1 & E2 & E3 & E4 & E5). destruct (brep_degeneration m _ _ _ _ _ _ Hi E3) as (D1 & D2 & D3).
  apply brep_manifold_parts in E4 as (M1 & M2 & M3). apply adjacency_parts in E2 as (E2 & _).
  destruct (surface_adjacency_entry m Hu _ _ _ c name E2 Hc Ha eq_refl) as (a & Ea & A).
  destruct (surface_colocation m Hu _ _ c E1 Hc Ha) as (b & Eb & B).
  destruct (surface_edges_entry m Hu true (or_measures o) (or_geometry o) "degenerated edges"%string c e Hc Ha) as (d & Ed & D).
  destruct (brep_surface_vertices m Hu _ _ _ c M1 Hc Ha) as (v & Ev & V).
  eexists. split; [exact (surface_runs _ _ _ _ _ _ y _ _ _ _ Ea Eb Ed Ev)|]. intros (S1 & S2 & S3 & S4 & S5 & S6 & S7).
  cbn [sr_adjacency sr_colocated sr_edges sr_polygons sr_manifold_edges sr_manifold_vertices sr_negative] in *.
  rewrite D1, D2. split; [exact (A S1)|]. split; [exact (B S2)|]. split; [exact (D S3)|]. split; [exact (polygons_entry m Hu _ c Hc Ha S4)|].
  split; [exact (brep_surface_manifold_edges m Hu _ _ _ c M2 Hc Ha S5)|]. exact (V S6).
Qed.
Lemma brep_block : forall x r c name e, inspect_brep_meshes o m st x = Ok r -> In c (m_blocks m) -> co_active c = true ->
  exists alone, inspect_solid (or_measures o) (or_geometry o) (or_hash o) name (co_mesh c) (new_inspector e) = Ok alone /\
    (solid_short (co_mesh c) alone ->
     as_alone_then (facet_without_neighbour (co_mesh c)) (co_id c) (ba_blocks (br_adjacency r)) (so_r_adjacency alone) /\
     colocation_as_alone m (mkCID BlockT (co_id c)) (br_colocation r) (so_r_colocated alone) /\
     as_alone (co_id c) (dr_edges (br_degeneration r)) (so_r_edges alone) /\
     as_alone (co_id c) (dr_polyhedra (br_degeneration r)) (so_r_polyhedra alone) /\
     as_alone (co_id c) (bm_vertices (br_manifold r)) (so_r_manifold_vertices alone) /\
     as_alone (co_id c) (bm_edges (br_manifold r)) (so_r_manifold_edges alone) /\
     as_alone (co_id c) (bm_facets (br_manifold r)) (so_r_manifold_facets alone) /\
     as_alone (co_id c) (br_negative r) (so_r_negative alone)).
Proof.
  intros x r c name e E Hc Ha. apply brep_parts in E as (E1 & E2 & E3 & E4 & E5). destruct (brep_degeneration m _ _ _ _ _ _ Hi E3) as (D1 & D2 & D3).
  apply brep_manifold_parts in E4 as (M1 & M2 & M3). apply adjacency_parts in E2 as (_ & E2).
  destruct (block_adjacency_entry m Hu _ _ _ c name E2 Hc Ha eq_refl) as (a & Ea & A).
  destruct (block_colocation m Hu _ _ c E1 Hc Ha) as (b & Eb & B).
  destruct (block_edges_entry m Hu (or_measures o) (or_geometry o) "degenerated edges"%string c e Hc Ha) as (d & Ed & D).
  destruct (brep_block_vertices m Hu _ _ _ c M1 Hc Ha) as (v & Ev & V).
  destruct (brep_block_manifold_edges m Hu _ _ _ c M2 Hc Ha) as (w & Ew & W).
  eexists. split; [exact (solid_runs _ _ _ _ _ _ _ _ _ _ _ Ea Eb Ed Ev Ew)|]. intros (S1 & S2 & S3 & S4 & S5 & S6 & S7 & S8).
  cbn [so_r_adjacency so_r_colocated so_r_edges so_r_polyhedra so_r_manifold_edges so_r_manifold_vertices so_r_manifold_facets so_r_negative] in *.
  rewrite D1, D3, E5. split; [exact (A S1)|]. split; [exact (B S2)|]. split; [exact (D S3)|]. split; [exact (polyhedra_entry m Hu _ c Hc Ha S4)|].
  split; [exact (V S5)|]. split; [exact (W S6)|]. split; [exact (brep_block_facets m Hu _ _ _ c M3 Hc Ha S7)|]. exact (brep_negative_entry m Hu _ c Hc Ha S8).
Qed.
End Components.
