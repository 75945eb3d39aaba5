(** C92: what the report on the meshes of a model says of a component does not depend on the numbers of its vertices and elements, nor on how they are described. *)
From Coq Require Import String Ascii List Arith NArith ZArith Bool Lia Permutation Sorted Mergesort SpecFloat.
From Verif Require Import Base BaseFacts Model_Issues Types Model_Adjacency Model_Colocation Model_Degeneration Model_Intersections Model_BRep Model_Topology Model_Results
  Spec_Cycles Spec_Maps Spec_Colocation Spec_Adjacency Spec_Manifold Spec_Fans Spec_Degeneration Spec_Components Spec_Renumber Spec_Redescribe Spec_RedescribeSolid Spec_Parts
  Proof_Colocation Proof_GoodModels Proof_TopologyCheck Proof_Renumber Proof_Renumber2 Proof_Renumber3 Proof_Redescribe Proof_RedescribeSolid Proof_Parts
  Properties_Topology Properties_BRep Properties_Blocks Properties_Components Properties_Renumber Properties_Redescribe Properties_RedescribeSolid Proof_Searches.
Import ListNotations.
Open Scope nat_scope.
Open Scope list_scope.

(** The report on the mesh alone is shorter than 2^32. *)
Definition short_curve (o : Oracles) (m : EdgedCurve) : Prop := forall r, inspect_edged_curve (or_measures o) (or_geometry o) m = Ok r -> curve_short r.
Definition short_surface (o : Oracles) (m : SurfaceMesh) : Prop :=
  forall name e y r, inspect_surface (or_measures o) (or_geometry o) (or_hash o) name m (new_inspector e) (Ok y) = Ok r -> surface_short m r.
Definition short_solid (o : Oracles) (m : SolidMesh) : Prop :=
  forall name e r, inspect_solid (or_measures o) (or_geometry o) (or_hash o) name m (new_inspector e) = Ok r -> solid_short m r.

Lemma blind_consistent : forall geo n pts pts', blind_search geo n pts pts' -> consistent pts (g_colocated geo pts).
Proof. intros geo n pts pts' (C & _). exact C. Qed.
Lemma as_issues : forall T id (r : InspectionIssuesMap T) alone, as_alone id r alone -> issues_for id r = ii_issues alone.
Proof. intros T id r alone [E _]. exact E. Qed.
Lemma edge_outside : forall m e, edge_without_neighbour m e -> inner_side m e = false.
Proof. intros m e [_ E]. unfold inner_side. rewrite E. reflexivity. Qed.
Lemma facet_outside : forall m f, facet_without_neighbour m f -> inner_facet m f = false.
Proof. intros m f [_ E]. unfold inner_facet. rewrite E. reflexivity. Qed.

(** ** Lines *)
Lemma line_parts : forall o o' m m' n c c' (col col' : InspectionIssuesMap (list nat)) (edges edges' : InspectionIssuesMap nat) alone alone', same_computations o o' ->
  renumbered_curve n (co_mesh c) (co_mesh c') -> blind_search (or_geometry o) n (ec_points (co_mesh c)) (ec_points (co_mesh c')) ->
  same_links (length (ec_points (co_mesh c))) (new_vertex n) (mkCID LineT (co_id c)) (mkCID LineT (co_id c')) m m' ->
  inspect_edged_curve (or_measures o) (or_geometry o) (co_mesh c) = Ok alone -> inspect_edged_curve (or_measures o') (or_geometry o') (co_mesh c') = Ok alone' ->
  colocation_as_alone m (mkCID LineT (co_id c)) col (cr_colocated alone) /\ as_alone (co_id c) edges (cr_edges alone) ->
  colocation_as_alone m' (mkCID LineT (co_id c')) col' (cr_colocated alone') /\ as_alone (co_id c') edges' (cr_edges alone') ->
  renumbered_line_part n (mkLinePart (issues_for (co_id c) col) (issues_for (co_id c) edges)) (mkLinePart (issues_for (co_id c') col') (issues_for (co_id c') edges')).
Proof.
  intros o o' m m' n c c' col col' edges edges' alone alone' [O1 O2] H B L A A' (K1 & K2) (K1' & K2').
  rewrite O1, O2 in A'. destruct (C73_curve (or_measures o) (or_geometry o) n _ _ H B) as (a & a' & E & E' & [R1 R2] & _).
  rewrite A in E. rewrite A' in E'. injection E as <-. injection E' as <-. constructor; cbn [lp_colocated lp_edges].
  - apply (as_many_reports _ _ (new_vertex n) (new_group n) (length (ec_points (co_mesh c))) _ _ _ _ K1 K1' R1 (in_new_group n)); [|exact L].
    apply (alone_curve _ _ _ _ A (blind_consistent _ _ _ _ B)).
  - rewrite (as_issues _ _ _ _ K2), (as_issues _ _ _ _ K2'). exact R2.
Qed.
Theorem C92_section_line : forall o o' m m' r r' c c' n, same_computations o o' -> unique_ids m -> unique_ids m' -> section_report o m r -> section_report o' m' r' ->
  In c (m_lines m) -> co_active c = true -> In c' (m_lines m') -> co_active c' = true -> short_curve o (co_mesh c) -> short_curve o' (co_mesh c') ->
  renumbered_curve n (co_mesh c) (co_mesh c') -> blind_search (or_geometry o) n (ec_points (co_mesh c)) (ec_points (co_mesh c')) ->
  same_links (length (ec_points (co_mesh c))) (new_vertex n) (mkCID LineT (co_id c)) (mkCID LineT (co_id c')) m m' ->
  renumbered_line_part n (section_line_part r (co_id c)) (section_line_part r' (co_id c')).
Proof.
  intros o o' m m' r r' c c' n O U U' (qs & s0 & b0 & st & x & Q & R) (qs' & s0' & b0' & st' & x' & Q' & R') J A J' A' S S' H B L.
  destruct (C72_section_line o m qs s0 b0 st x r c U Q R J A) as (a & E & K). destruct (C72_section_line o' m' qs' s0' b0' st' x' r' c' U' Q' R' J' A') as (a' & E' & K').
  apply (line_parts o o' m m' n c c' _ _ _ _ a a' O H B L E E' (K (S _ E)) (K' (S' _ E'))).
Qed.
Print Assumptions C92_section_line.
Theorem C92_brep_line : forall o o' m m' r r' c c' n, same_computations o o' -> unique_ids m -> unique_ids m' -> brep_report o m r -> brep_report o' m' r' ->
  In c (m_lines m) -> co_active c = true -> In c' (m_lines m') -> co_active c' = true -> short_curve o (co_mesh c) -> short_curve o' (co_mesh c') ->
  renumbered_curve n (co_mesh c) (co_mesh c') -> blind_search (or_geometry o) n (ec_points (co_mesh c)) (ec_points (co_mesh c')) ->
  same_links (length (ec_points (co_mesh c))) (new_vertex n) (mkCID LineT (co_id c)) (mkCID LineT (co_id c')) m m' ->
  renumbered_line_part n (brep_line_part r (co_id c)) (brep_line_part r' (co_id c')).
Proof.
  intros o o' m m' r r' c c' n O U U' (qs & s0 & b0 & st & x & Q & R) (qs' & s0' & b0' & st' & x' & Q' & R') J A J' A' S S' H B L.
  destruct (C72_brep_line o m qs s0 b0 st x r c U Q R J A) as (a & E & K). destruct (C72_brep_line o' m' qs' s0' b0' st' x' r' c' U' Q' R' J' A') as (a' & E' & K').
  apply (line_parts o o' m m' n c c' _ _ _ _ a a' O H B L E E' (K (S _ E)) (K' (S' _ E'))).
Qed.
Print Assumptions C92_brep_line.

(** ** Surfaces *)
Lemma renumbered_adjacency_range : forall n m m', renumbered_surface n m m' -> edge_adjacency_in_range m /\ edge_adjacency_in_range m'.
Proof.
  intros n m m' H. assert (I : edge_adjacency_in_range m).
  { intros [p e] q [Hp He] E. apply (proj2 (rs_adjacent _ _ _ H p e Hp He) q E). }
  split; [exact I|]. intros [p' e] q' [Hp He] E. cbn [fst snd] in *. rewrite (rs_nb_polygons _ _ _ H) in Hp. destruct (numbers_onto _ _ (rs_numbers _ _ _ H) _ Hp) as (p & Hp1 & <-).
  assert (He1 : e < nb_polygon_edges m p) by (unfold nb_polygon_edges in *; rewrite (proj1 (rs_polygons _ _ _ H p Hp1)), map_length in He; exact He).
  rewrite (proj1 (rs_adjacent _ _ _ H p e Hp1 He1)) in E. destruct (sm_adjacent m (p, e)) as [q|] eqn:Eq; [|discriminate]. cbn [option_map] in E. injection E as <-.
  rewrite (rs_nb_polygons _ _ _ H). apply (rs_numbers _ _ _ H). apply (proj2 (rs_adjacent _ _ _ H p e Hp1 He1) q Eq).
Qed.
Definition surface_says (m : Model) (c : Component SurfaceMesh) (p : SurfacePart) (alone : SurfaceResult) : Prop :=
  filter (inner_side (co_mesh c)) (sp_adjacency p) = ii_issues (sr_adjacency alone) /\
  group_reports (fun v => m_unique_vertex m (mkCMV (mkCID SurfaceT (co_id c)) v)) (ii_issues (sr_colocated alone)) (sp_colocated p) /\
  sp_edges p = ii_issues (sr_edges alone) /\ sp_polygons p = ii_issues (sr_polygons alone) /\
  sp_manifold_edges p = ii_issues (sr_manifold_edges alone) /\ sp_manifold_vertices p = ii_issues (sr_manifold_vertices alone).
Lemma section_says : forall o m r c y, unique_ids m -> section_report o m r -> In c (m_surfaces m) -> co_active c = true -> short_surface o (co_mesh c) -> edge_adjacency_in_range (co_mesh c) ->
  exists alone, inspect_surface (or_measures o) (or_geometry o) (or_hash o) "s"%string (co_mesh c) (new_inspector false) (Ok y) = Ok alone /\
    surface_says m c (section_surface_part r (co_id c)) alone /\ sp_negative (section_surface_part r (co_id c)) = ii_issues (sr_negative alone).
Proof.
  intros o m r c y U (qs & s0 & b0 & st & x & Q & R) J A S G. destruct (C72_section_surface o m qs s0 b0 st x r c "s"%string false y U Q R J A) as (a & E & K).
  exists a. split; [exact E|]. destruct (K (S _ _ _ _ E)) as (K1 & K2 & [K3 _] & [K4 _] & [K5 _] & [K6 _] & [K7 _]). split; [|exact K7]. repeat split; try assumption.
  apply (inner_part _ _ _ _ _ _ K1 (edge_outside _) (alone_surface_adjacency _ _ _ _ _ _ _ _ E G)).
Qed.
Lemma brep_says : forall o m r c y, unique_ids m -> brep_report o m r -> In c (m_surfaces m) -> co_active c = true -> short_surface o (co_mesh c) -> edge_adjacency_in_range (co_mesh c) ->
  exists alone, inspect_surface (or_measures o) (or_geometry o) (or_hash o) "s"%string (co_mesh c) (new_inspector false) (Ok y) = Ok alone /\
    surface_says m c (brep_surface_part r (co_id c)) alone.
Proof.
  intros o m r c y U (qs & s0 & b0 & st & x & Q & R) J A S G. destruct (C72_brep_surface o m qs s0 b0 st x r c "s"%string false y U Q R J A) as (a & E & K).
  exists a. split; [exact E|]. destruct (K (S _ _ _ _ E)) as (K1 & K2 & [K3 _] & [K4 _] & [K5 _] & [K6 _]). repeat split; try assumption.
  apply (inner_part _ _ _ _ _ _ K1 (edge_outside _) (alone_surface_adjacency _ _ _ _ _ _ _ _ E G)).
Qed.
Lemma surface_parts : forall o o' m m' n c c' y p p' alone alone', same_computations o o' ->
  renumbered_surface n (co_mesh c) (co_mesh c') -> blind_search (or_geometry o) n (sm_points (co_mesh c)) (sm_points (co_mesh c')) ->
  (forall v, v < length (sm_points (co_mesh c)) -> sm_around_vertex (co_mesh c) v = Throw OpenGeodeExn \/ exists fan, sm_around_vertex (co_mesh c) v = Ok fan) ->
  same_links (length (sm_points (co_mesh c))) (new_vertex n) (mkCID SurfaceT (co_id c)) (mkCID SurfaceT (co_id c')) m m' ->
  inspect_surface (or_measures o) (or_geometry o) (or_hash o) "s"%string (co_mesh c) (new_inspector false) (Ok y) = Ok alone ->
  inspect_surface (or_measures o') (or_geometry o') (or_hash o') "s"%string (co_mesh c') (new_inspector false) (Ok y) = Ok alone' ->
  surface_says m c p alone -> surface_says m' c' p' alone' ->
  Permutation (sp_negative p') (map (new_element n) (sp_negative p)) \/ (sp_negative p = ii_issues (sr_negative alone) /\ sp_negative p' = ii_issues (sr_negative alone')) ->
  renumbered_surface_part n (co_mesh c) (co_mesh c') p p'.
Proof.
  intros o o' m m' n c c' y p p' a a' [O1 O2] H B T L E E' (K1 & K2 & K3 & K4 & K5 & K6) (K1' & K2' & K3' & K4' & K5' & K6') N.
  rewrite O1, O2 in E'. destruct (C73_surface (or_measures o) (or_geometry o) (or_hash o) (or_hash o') "s"%string "s"%string n _ _ (new_inspector false) (new_inspector false) y y H B T) as (b & b' & F & F' & [R1 R2 R3 R4 R5 R6 R7] & _).
  rewrite E in F. rewrite E' in F'. injection F as <-. injection F' as <-. constructor.
  - rewrite K1, K1'. exact R1.
  - apply (as_many_reports _ _ (new_vertex n) (new_group n) (length (sm_points (co_mesh c))) _ _ _ _ K2 K2' R2 (in_new_group n)); [|exact L].
    apply (alone_surface_colocated _ _ _ _ _ _ _ _ E (blind_consistent _ _ _ _ B)).
  - rewrite K3, K3'. exact R3.
  - rewrite K4, K4'. exact R4.
  - rewrite K5, K5'. exact R5.
  - rewrite K6, K6'. exact R6.
  - destruct N as [N|[-> ->]]; [exact N|exact R7].
Qed.
Theorem C92_section_surface : forall o o' m m' r r' c c' n, same_computations o o' -> unique_ids m -> unique_ids m' -> section_report o m r -> section_report o' m' r' ->
  In c (m_surfaces m) -> co_active c = true -> In c' (m_surfaces m') -> co_active c' = true -> short_surface o (co_mesh c) -> short_surface o' (co_mesh c') ->
  renumbered_surface n (co_mesh c) (co_mesh c') -> blind_search (or_geometry o) n (sm_points (co_mesh c)) (sm_points (co_mesh c')) ->
  (forall v, v < length (sm_points (co_mesh c)) -> sm_around_vertex (co_mesh c) v = Throw OpenGeodeExn \/ exists fan, sm_around_vertex (co_mesh c) v = Ok fan) ->
  same_links (length (sm_points (co_mesh c))) (new_vertex n) (mkCID SurfaceT (co_id c)) (mkCID SurfaceT (co_id c')) m m' ->
  renumbered_surface_part n (co_mesh c) (co_mesh c') (section_surface_part r (co_id c)) (section_surface_part r' (co_id c')).
Proof.
  intros o o' m m' r r' c c' n O U U' R R' J A J' A' S S' H B T L. destruct (renumbered_adjacency_range _ _ _ H) as [G G'].
  destruct (section_says o m r c (new_issues ""%string) U R J A S G) as (a & E & K & N). destruct (section_says o' m' r' c' (new_issues ""%string) U' R' J' A' S' G') as (a' & E' & K' & N').
  apply (surface_parts o o' m m' n c c' _ _ _ a a' O H B T L E E' K K'). auto.
Qed.
Print Assumptions C92_section_surface.
Theorem C92_brep_surface : forall o o' m m' r r' c c' n, same_computations o o' -> unique_ids m -> unique_ids m' -> brep_report o m r -> brep_report o' m' r' ->
  In c (m_surfaces m) -> co_active c = true -> In c' (m_surfaces m') -> co_active c' = true -> short_surface o (co_mesh c) -> short_surface o' (co_mesh c') ->
  renumbered_surface n (co_mesh c) (co_mesh c') -> blind_search (or_geometry o) n (sm_points (co_mesh c)) (sm_points (co_mesh c')) ->
  (forall v, v < length (sm_points (co_mesh c)) -> sm_around_vertex (co_mesh c) v = Throw OpenGeodeExn \/ exists fan, sm_around_vertex (co_mesh c) v = Ok fan) ->
  same_links (length (sm_points (co_mesh c))) (new_vertex n) (mkCID SurfaceT (co_id c)) (mkCID SurfaceT (co_id c')) m m' ->
  renumbered_surface_part n (co_mesh c) (co_mesh c') (brep_surface_part r (co_id c)) (brep_surface_part r' (co_id c')).
Proof.
  intros o o' m m' r r' c c' n O U U' R R' J A J' A' S S' H B T L. destruct (renumbered_adjacency_range _ _ _ H) as [G G'].
  destruct (brep_says o m r c (new_issues ""%string) U R J A S G) as (a & E & K). destruct (brep_says o' m' r' c' (new_issues ""%string) U' R' J' A' S' G') as (a' & E' & K').
  apply (surface_parts o o' m m' n c c' _ _ _ a a' O H B T L E E' K K'). left. apply Permutation_refl.
Qed.
Print Assumptions C92_brep_surface.
(** polygons described from other vertices, or all in the other direction; [f] is the identity on vertices *)
Lemma described_parts : forall o o' m m' over d c c' y p p' alone alone', same_computations o o' ->
  redescribed_surface over d (co_mesh c) (co_mesh c') -> inside_surface (co_mesh c) -> consistent (sm_points (co_mesh c)) (g_colocated (or_geometry o) (sm_points (co_mesh c))) ->
  (forall v, v < length (sm_points (co_mesh c)) -> sm_around_vertex (co_mesh c) v = Throw OpenGeodeExn \/ exists fan, sm_around_vertex (co_mesh c) v = Ok fan) ->
  same_links (length (sm_points (co_mesh c))) (fun v => v) (mkCID SurfaceT (co_id c)) (mkCID SurfaceT (co_id c')) m m' ->
  inspect_surface (or_measures o) (or_geometry o) (or_hash o) "s"%string (co_mesh c) (new_inspector false) (Ok y) = Ok alone ->
  inspect_surface (or_measures o') (or_geometry o') (or_hash o') "s"%string (co_mesh c') (new_inspector false) (Ok y) = Ok alone' ->
  surface_says m c p alone -> surface_says m' c' p' alone' ->
  redescribed_surface_part d (co_mesh c) (co_mesh c') p p' /\
  (sm_dimension (co_mesh c) <> 2 \/ same_sign (or_measures o) (co_mesh c) (co_mesh c') -> ii_issues (sr_negative alone') = ii_issues (sr_negative alone)).
Proof.
  intros o o' m m' over d c c' y p p' a a' [O1 O2] H I C T L E E' (K1 & K2 & K3 & K4 & K5 & K6) (K1' & K2' & K3' & K4' & K5' & K6').
  rewrite O1, O2 in E'. destruct (C90_surface over d (or_measures o) (or_geometry o) (or_hash o) (or_hash o') "s"%string "s"%string _ _ (new_inspector false) (new_inspector false) y y H I T C) as (b & b' & F & F' & [R1 R2 R3 R4 R5 R6] & R7).
  rewrite E in F. rewrite E' in F'. injection F as <-. injection F' as <-. split; [constructor|].
  - rewrite K1, K1'. exact R1.
  - rewrite R2 in K2'. apply (as_many_reports _ _ (fun v => v) (fun g => g) (length (sm_points (co_mesh c))) _ _ _ _ K2 K2'); [rewrite map_id; apply Permutation_refl|intros g z; rewrite map_id; reflexivity| |exact L].
    apply (alone_surface_colocated _ _ _ _ _ _ _ _ E C).
  - rewrite K3, K3', R3. reflexivity.
  - rewrite K4, K4', R4. reflexivity.
  - rewrite K5, K5'. exact R5.
  - rewrite K6, K6'. exact R6.
  - intros N. rewrite (proj1 (R7 N)). reflexivity.
Qed.
Theorem C92_section_surface_described : forall o o' m m' r r' c c' over d, same_computations o o' -> unique_ids m -> unique_ids m' -> section_report o m r -> section_report o' m' r' ->
  In c (m_surfaces m) -> co_active c = true -> In c' (m_surfaces m') -> co_active c' = true -> short_surface o (co_mesh c) -> short_surface o' (co_mesh c') ->
  redescribed_surface over d (co_mesh c) (co_mesh c') -> inside_surface (co_mesh c) -> consistent (sm_points (co_mesh c)) (g_colocated (or_geometry o) (sm_points (co_mesh c))) ->
  (forall v, v < length (sm_points (co_mesh c)) -> sm_around_vertex (co_mesh c) v = Throw OpenGeodeExn \/ exists fan, sm_around_vertex (co_mesh c) v = Ok fan) ->
  same_links (length (sm_points (co_mesh c))) (fun v => v) (mkCID SurfaceT (co_id c)) (mkCID SurfaceT (co_id c')) m m' ->
  redescribed_surface_part d (co_mesh c) (co_mesh c') (section_surface_part r (co_id c)) (section_surface_part r' (co_id c')) /\
  (sm_dimension (co_mesh c) <> 2 \/ same_sign (or_measures o) (co_mesh c) (co_mesh c') ->
    sp_negative (section_surface_part r' (co_id c')) = sp_negative (section_surface_part r (co_id c))).
Proof.
  intros o o' m m' r r' c c' over d O U U' R R' J A J' A' S S' H I C T L.
  destruct (section_says o m r c (new_issues ""%string) U R J A S (proj1 I)) as (a & E & K & N).
  destruct (section_says o' m' r' c' (new_issues ""%string) U' R' J' A' S' (d_adjacent_range over d _ _ H I)) as (a' & E' & K' & N').
  rewrite N, N'. apply (described_parts o o' m m' over d c c' _ _ _ a a' O H I C T L E E' K K').
Qed.
Print Assumptions C92_section_surface_described.
Theorem C92_brep_surface_described : forall o o' m m' r r' c c' over d, same_computations o o' -> unique_ids m -> unique_ids m' -> brep_report o m r -> brep_report o' m' r' ->
  In c (m_surfaces m) -> co_active c = true -> In c' (m_surfaces m') -> co_active c' = true -> short_surface o (co_mesh c) -> short_surface o' (co_mesh c') ->
  redescribed_surface over d (co_mesh c) (co_mesh c') -> inside_surface (co_mesh c) -> consistent (sm_points (co_mesh c)) (g_colocated (or_geometry o) (sm_points (co_mesh c))) ->
  (forall v, v < length (sm_points (co_mesh c)) -> sm_around_vertex (co_mesh c) v = Throw OpenGeodeExn \/ exists fan, sm_around_vertex (co_mesh c) v = Ok fan) ->
  same_links (length (sm_points (co_mesh c))) (fun v => v) (mkCID SurfaceT (co_id c)) (mkCID SurfaceT (co_id c')) m m' ->
  redescribed_surface_part d (co_mesh c) (co_mesh c') (brep_surface_part r (co_id c)) (brep_surface_part r' (co_id c')).
Proof.
  intros o o' m m' r r' c c' over d O U U' R R' J A J' A' S S' H I C T L.
  destruct (brep_says o m r c (new_issues ""%string) U R J A S (proj1 I)) as (a & E & K).
  destruct (brep_says o' m' r' c' (new_issues ""%string) U' R' J' A' S' (d_adjacent_range over d _ _ H I)) as (a' & E' & K').
  apply (described_parts o o' m m' over d c c' _ _ _ a a' O H I C T L E E' K K').
Qed.
Print Assumptions C92_brep_surface_described.

(** ** Blocks *)
Definition block_says (m : Model) (c : Component SolidMesh) (p : BlockPart) (alone : SolidResult) : Prop :=
  filter (inner_facet (co_mesh c)) (bp_adjacency p) = ii_issues (so_r_adjacency alone) /\
  group_reports (fun v => m_unique_vertex m (mkCMV (mkCID BlockT (co_id c)) v)) (ii_issues (so_r_colocated alone)) (bp_colocated p) /\
  bp_edges p = ii_issues (so_r_edges alone) /\ bp_polyhedra p = ii_issues (so_r_polyhedra alone) /\
  bp_manifold_vertices p = ii_issues (so_r_manifold_vertices alone) /\ bp_manifold_edges p = ii_issues (so_r_manifold_edges alone) /\
  bp_manifold_facets p = ii_issues (so_r_manifold_facets alone) /\ bp_negative p = ii_issues (so_r_negative alone).
Lemma says_of_block : forall o m r c, unique_ids m -> brep_report o m r -> In c (m_blocks m) -> co_active c = true -> short_solid o (co_mesh c) -> solid_well_formed (co_mesh c) ->
  exists alone, inspect_solid (or_measures o) (or_geometry o) (or_hash o) "s"%string (co_mesh c) (new_inspector false) = Ok alone /\ block_says m c (brep_block_part r (co_id c)) alone.
Proof.
  intros o m r c U (qs & s0 & b0 & st & x & Q & R) J A S G. destruct (C72_brep_block o m qs s0 b0 st x r c "s"%string false U Q R J A) as (a & E & K).
  exists a. split; [exact E|]. destruct (K (S _ _ _ E)) as (K1 & K2 & [K3 _] & [K4 _] & [K5 _] & [K6 _] & [K7 _] & [K8 _]). repeat split; try assumption.
  apply (inner_part _ _ _ _ _ _ K1 (facet_outside _) (alone_solid_adjacency _ _ _ _ _ _ _ E G)).
Qed.
Theorem C92_brep_block : forall o o' m m' r r' c c' n, same_computations o o' -> unique_ids m -> unique_ids m' -> brep_report o m r -> brep_report o' m' r' ->
  In c (m_blocks m) -> co_active c = true -> In c' (m_blocks m') -> co_active c' = true -> short_solid o (co_mesh c) -> short_solid o' (co_mesh c') ->
  renumbered_solid n (co_mesh c) (co_mesh c') -> blind_search (or_geometry o) n (so_points (co_mesh c)) (so_points (co_mesh c')) ->
  (forall v, v < length (so_points (co_mesh c)) -> exists fan, so_around_vertex (co_mesh c) v = Ok fan) ->
  simple_facets (co_mesh c) -> below_2_32 (length (all_polyhedron_facets (co_mesh c))) ->
  simple_edges (co_mesh c) -> turns_around_solid_edges (co_mesh c) -> turns_around_solid_edges (co_mesh c') -> same_failures n (co_mesh c) (co_mesh c') ->
  same_links (length (so_points (co_mesh c))) (new_vertex n) (mkCID BlockT (co_id c)) (mkCID BlockT (co_id c')) m m' ->
  renumbered_block_part n (co_mesh c) (co_mesh c') (brep_block_part r (co_id c)) (brep_block_part r' (co_id c')).
Proof.
  intros o o' m m' r r' c c' n O U U' R R' J A J' A' S S' H B T SF BF SE TE TE' W L. destruct O as [O1 O2]. destruct (well_formed_new n _ _ H SF) as [G G'].
  destruct (says_of_block o m r c U R J A S G) as (a & E & K1 & K2 & K3 & K4 & K5 & K6 & K7 & K8).
  destruct (says_of_block o' m' r' c' U' R' J' A' S' G') as (a' & E' & K1' & K2' & K3' & K4' & K5' & K6' & K7' & K8').
  rewrite O1, O2 in E'. destruct (C73_solid (or_measures o) (or_geometry o) (or_hash o) (or_hash o') "s"%string "s"%string n _ _ (new_inspector false) (new_inspector false) H B T SF BF SE TE TE' W) as (b & b' & F & F' & [R1 R2 R3 R4 R5 R6 R7 R8] & _).
  rewrite E in F. rewrite E' in F'. injection F as <-. injection F' as <-. constructor.
  - rewrite K1, K1'. exact R1.
  - apply (as_many_reports _ _ (new_vertex n) (new_group n) (length (so_points (co_mesh c))) _ _ _ _ K2 K2' R2 (in_new_group n)); [|exact L].
    apply (alone_solid_colocated _ _ _ _ _ _ _ E (blind_consistent _ _ _ _ B)).
  - rewrite K3, K3'. exact R3.
  - rewrite K4, K4'. exact R4.
  - rewrite K5, K5'. exact R5.
  - rewrite K6, K6'. exact R6.
  - rewrite K7, K7'. exact R7.
  - rewrite K8, K8'. exact R8.
Qed.
Print Assumptions C92_brep_block.
Theorem C92_brep_block_described : forall o o' m m' r r' c c' over d, same_computations o o' -> unique_ids m -> unique_ids m' -> brep_report o m r -> brep_report o' m' r' ->
  In c (m_blocks m) -> co_active c = true -> In c' (m_blocks m') -> co_active c' = true -> short_solid o (co_mesh c) -> short_solid o' (co_mesh c') ->
  redescribed_solid over d (co_mesh c) (co_mesh c') -> inside_solid (co_mesh c) -> consistent (so_points (co_mesh c)) (g_colocated (or_geometry o) (so_points (co_mesh c))) ->
  (forall v, v < length (so_points (co_mesh c)) -> exists fan, so_around_vertex (co_mesh c) v = Ok fan) ->
  simple_facets (co_mesh c) -> below_2_32 (length (all_polyhedron_facets (co_mesh c))) ->
  simple_edges (co_mesh c) -> turns_around_solid_edges (co_mesh c) -> turns_around_solid_edges (co_mesh c') -> same_failed_turns (co_mesh c) (co_mesh c') ->
  same_links (length (so_points (co_mesh c))) (fun v => v) (mkCID BlockT (co_id c)) (mkCID BlockT (co_id c')) m m' ->
  redescribed_block_part d (co_mesh c) (co_mesh c') (brep_block_part r (co_id c)) (brep_block_part r' (co_id c')) /\
  (same_volume_sign (or_measures o) (co_mesh c) (co_mesh c') -> bp_negative (brep_block_part r' (co_id c')) = bp_negative (brep_block_part r (co_id c))).
Proof.
  intros o o' m m' r r' c c' over d O U U' R R' J A J' A' S S' H I C T SF BF SE TE TE' W L. destruct O as [O1 O2]. destruct (v_well_formed over d _ _ H I SF) as [G G'].
  destruct (says_of_block o m r c U R J A S G) as (a & E & K1 & K2 & K3 & K4 & K5 & K6 & K7 & K8).
  destruct (says_of_block o' m' r' c' U' R' J' A' S' G') as (a' & E' & K1' & K2' & K3' & K4' & K5' & K6' & K7' & K8').
  rewrite O1, O2 in E'. destruct (C91_solid over d (or_measures o) (or_geometry o) (or_hash o) (or_hash o') "s"%string "s"%string _ _ (new_inspector false) (new_inspector false) H I T C SF BF SE TE TE' W) as (b & b' & F & F' & [R1 R2 R3 R4 R5 R6 R7] & R8).
  rewrite E in F. rewrite E' in F'. injection F as <-. injection F' as <-. split; [constructor|].
  - rewrite K1, K1'. exact R1.
  - rewrite R2 in K2'. apply (as_many_reports _ _ (fun v => v) (fun g => g) (length (so_points (co_mesh c))) _ _ _ _ K2 K2'); [rewrite map_id; apply Permutation_refl|intros g z; rewrite map_id; reflexivity| |exact L].
    apply (alone_solid_colocated _ _ _ _ _ _ _ E C).
  - rewrite K3, K3', R3. reflexivity.
  - rewrite K4, K4', R4. reflexivity.
  - rewrite K5, K5'. exact R5.
  - rewrite K6, K6'. exact R6.
  - rewrite K7, K7'. exact R7.
  - intros N. rewrite K8, K8', (proj1 (R8 N)). reflexivity.
Qed.
Print Assumptions C92_brep_block_described.

(** ** Examples: a line, a surface and a block with defects; the same under other numbers and other ids; and described otherwise *)
Definition pa_curve : EdgedCurve := mkCurve [pt 0; pt 1; pt 1] [(0, 1); (1, 2)] (fun e => match e with 1 => rn_zero | _ => far end) (fun _ => false).
Definition pa_curve' : EdgedCurve := mkCurve [pt 1; pt 1; pt 0] [(0, 1); (2, 0)] (fun e => match e with 0 => rn_zero | _ => far end) (fun _ => false).
Definition pa_numbering : Numbering := mkNumbering (fun v => match v with 0 => 2 | 1 => 0 | _ => 1 end) (fun k => k) rn_swap.
Definition pa_brep (k : nat) (curve : EdgedCurve) (surface : SurfaceMesh) (solid : SolidMesh) cmvs : Model :=
  a_brep [] [mkComponent (10 * k) None true curve] [mkComponent (100 * k) None true surface] [mkComponent (1000 * k) None true solid] [] cmvs [] [].
Definition pa_cmvs := [[l_ 10 0; s_ 100 0; b_ 1000 0]; [l_ 10 1; s_ 100 1; b_ 1000 1]; [l_ 10 2; s_ 100 2; b_ 1000 2]; [s_ 100 3; b_ 1000 3]; [b_ 1000 4]; [b_ 1000 5]].
Definition pa_cmvs' := [[b_ 2000 0]; [b_ 2000 1]; [s_ 200 1; b_ 2000 2]; [l_ 20 1; s_ 200 3; b_ 2000 3]; [l_ 20 0; s_ 200 0; b_ 2000 4]; [l_ 20 2; s_ 200 2; b_ 2000 5]].
Definition pa_first : Model := pa_brep 1 pa_curve rn_surface rn_solid pa_cmvs.
Definition pa_numbered : Model := pa_brep 2 pa_curve' rn_surface' rn_solid' pa_cmvs'.
Definition pa_second : Model := pa_brep 1 pa_curve rn_surface rv_solid pa_cmvs.
Definition pa_described : Model := pa_brep 1 pa_curve (described_from rd_first rn_surface) rv_solid' pa_cmvs.
Definition pa_oracles : Oracles := mkOracles rn_measures exact_geo any_order tet_lk tet_tl.
Definition pa_report (m : Model) : outcome BRepMeshesResult := inspect_brep_meshes pa_oracles m no_storage (Ok empty_intersections).
Example pa_reported : forall m, In m [pa_first; pa_numbered; pa_second; pa_described] -> unique_ids m /\ exists r, pa_report m = Ok r /\ brep_report pa_oracles m r.
Proof.
  assert (K : forall m r, pa_report m = Ok r -> pa_report m = Ok r /\ brep_report pa_oracles m r)
    by (intros m r E; split; [exact E|]; exists [], (fun _ => false), (fun _ => false), no_storage, (Ok empty_intersections); split; [reflexivity|exact E]).
  intros m [<-|[<-|[<-|[<-|[]]]]]; (split; [apply nodupb_ok; vm_compute; reflexivity|]); eexists; apply K; vm_compute; reflexivity.
Qed.
Example pa_first_parts : match pa_report pa_first, pa_report pa_numbered with
  | Ok r, Ok r' =>
    brep_line_part r 10 = mkLinePart [[2; 1]] [1] /\ brep_line_part r' 20 = mkLinePart [[1; 0]] [0] /\
    sp_polygons (brep_surface_part r 100) = [1] /\ sp_polygons (brep_surface_part r' 200) = [0] /\
    bp_polyhedra (brep_block_part r 1000) = [1] /\ bp_polyhedra (brep_block_part r' 2000) = [0]
  | _, _ => False end.
Proof. vm_compute. repeat split; reflexivity. Qed.
Lemma pa_short_curves : forall c, In c [pa_curve; pa_curve'] -> short_curve pa_oracles c.
Proof. intros c [<-|[<-|[]]] r E; vm_compute in E; injection E as <-; repeat split; vm_compute; reflexivity. Qed.
Lemma pa_short_surfaces : forall m, In m [rn_surface; rn_surface'; described_from rd_first rn_surface] -> short_surface pa_oracles m.
Proof. intros m [<-|[<-|[<-|[]]]] name e y r E; destruct e; vm_compute in E; injection E as <-; repeat split; vm_compute; reflexivity. Qed.
Lemma pa_short_solids : forall m, In m [rn_solid; rn_solid'; rv_solid; rv_solid'] -> short_solid pa_oracles m.
Proof. intros m [<-|[<-|[<-|[<-|[]]]]] name e r E; destruct e; vm_compute in E; injection E as <-; repeat split; vm_compute; reflexivity. Qed.
(** the hypotheses on the meshes of the first pair, and what follows *)
Example pa_curve_hypotheses : renumbered_curve pa_numbering pa_curve pa_curve' /\ blind_search exact_geo pa_numbering (ec_points pa_curve) (ec_points pa_curve').
Proof.
  assert (N3 : numbers 3 (new_vertex pa_numbering)).
  { split; [intros i; cbn; destruct i as [|[|i]]; lia|]. intros i j Hi Hj. cbn.
    destruct i as [|[|[|i]]]; try lia; destruct j as [|[|[|j]]]; try lia; discriminate. }
  assert (N2 : numbers 2 rn_swap).
  { split; [intros i; destruct i as [|[|i]]; cbn; lia|]. intros i j Hi Hj. destruct i as [|[|i]]; try lia; destruct j as [|[|j]]; try lia; discriminate. }
  split.
  - constructor.
    + split; [reflexivity|]. split; [exact N3|]. intros v Hv. cbn in Hv. destruct v as [|[|[|v]]]; try lia; reflexivity.
    + split; [reflexivity|]. split; [exact N2|]. intros k a b E. destruct k as [|[|k]]; [| |destruct k; discriminate]; cbn in E; injection E as <- <-; cbn; (split; [lia|]; split; [lia|auto]).
    + intros k Hk. cbn in Hk. destruct k as [|[|k]]; try lia; reflexivity.
  - split; [apply exact_consistent|]. split; [apply exact_consistent|]. intros i j Hi Hj. cbn in Hi, Hj.
    destruct i as [|[|[|i]]]; try lia; destruct j as [|[|[|j]]]; try lia; unfold same_place;
      (split; intros (u & A & B); vm_compute in A, B; first [discriminate|congruence|(injection A as <-; first [discriminate|(eexists; split; vm_compute; reflexivity)])]).
Qed.
Example pa_numbered_parts : exists r r', pa_report pa_first = Ok r /\ pa_report pa_numbered = Ok r' /\
  renumbered_line_part pa_numbering (brep_line_part r 10) (brep_line_part r' 20) /\
  renumbered_surface_part rn_numbering rn_surface rn_surface' (brep_surface_part r 100) (brep_surface_part r' 200) /\
  renumbered_block_part rn_solid_numbering rn_solid rn_solid' (brep_block_part r 1000) (brep_block_part r' 2000).
Proof.
  destruct (pa_reported pa_first) as (U & r & E & R); [left; reflexivity|]. destruct (pa_reported pa_numbered) as (U' & r' & E' & R'); [right; left; reflexivity|].
  exists r, r'. split; [exact E|]. split; [exact E'|]. assert (O : same_computations pa_oracles pa_oracles) by (split; reflexivity).
  split; [|split].
  - destruct pa_curve_hypotheses as [H B].
    apply (C92_brep_line pa_oracles pa_oracles pa_first pa_numbered r r' (mkComponent 10 None true pa_curve) (mkComponent 20 None true pa_curve') pa_numbering O U U' R R'); try reflexivity; try (left; reflexivity);
      try (apply pa_short_curves; cbn; tauto); [exact H|exact B|].
    intros v w Hv Hw. cbn in Hv, Hw. destruct v as [|[|[|v]]]; try lia; destruct w as [|[|[|w]]]; try lia; vm_compute; split; intros K; first [reflexivity|discriminate].
  - destruct rn_surface_hypotheses as (H & B & T).
    apply (C92_brep_surface pa_oracles pa_oracles pa_first pa_numbered r r' (mkComponent 100 None true rn_surface) (mkComponent 200 None true rn_surface') rn_numbering O U U' R R'); try reflexivity; try (left; reflexivity);
      try (apply pa_short_surfaces; cbn; tauto); [exact H|exact B|exact T|].
    intros v w Hv Hw. cbn in Hv, Hw. destruct v as [|[|[|[|v]]]]; try lia; destruct w as [|[|[|[|w]]]]; try lia; vm_compute; split; intros K; first [reflexivity|discriminate].
  - destruct rn_solid_hypotheses as (H & B & T & SF & BF & SE & TE & TE' & W).
    apply (C92_brep_block pa_oracles pa_oracles pa_first pa_numbered r r' (mkComponent 1000 None true rn_solid) (mkComponent 2000 None true rn_solid') rn_solid_numbering O U U' R R'); try reflexivity; try (left; reflexivity);
      try (apply pa_short_solids; cbn; tauto); try assumption.
    intros v w Hv Hw. cbn in Hv, Hw. destruct v as [|[|[|[|[|[|v]]]]]]; try lia; destruct w as [|[|[|[|[|[|w]]]]]]; try lia; vm_compute; split; intros K; first [reflexivity|discriminate].
Qed.
Example pa_described_parts : exists r r', pa_report pa_second = Ok r /\ pa_report pa_described = Ok r' /\
  redescribed_surface_part (from_vertices rd_first rn_surface) rn_surface (described_from rd_first rn_surface) (brep_surface_part r 100) (brep_surface_part r' 100) /\
  redescribed_block_part rv_redescription rv_solid rv_solid' (brep_block_part r 1000) (brep_block_part r' 1000) /\
  bp_negative (brep_block_part r' 1000) = bp_negative (brep_block_part r 1000).
Proof.
  destruct (pa_reported pa_second) as (U & r & E & R); [right; right; left; reflexivity|]. destruct (pa_reported pa_described) as (U' & r' & E' & R'); [right; right; right; left; reflexivity|].
  exists r, r'. split; [exact E|]. split; [exact E'|]. assert (O : same_computations pa_oracles pa_oracles) by (split; reflexivity).
  split.
  - destruct rd_hypotheses as (I & C & T & _).
    apply (C92_brep_surface_described pa_oracles pa_oracles pa_second pa_described r r' (mkComponent 100 None true rn_surface) (mkComponent 100 None true (described_from rd_first rn_surface)) false (from_vertices rd_first rn_surface) O U U' R R'); try reflexivity; try (left; reflexivity);
      try (apply pa_short_surfaces; cbn; tauto); [apply C90_described_from|exact I|exact C|exact T|].
    intros v w _ _. reflexivity.
  - destruct rv_hypotheses as (H & I & T & C & SF & BF & SE & TE & TE' & W & V).
    destruct (C92_brep_block_described pa_oracles pa_oracles pa_second pa_described r r' (mkComponent 1000 None true rv_solid) (mkComponent 1000 None true rv_solid') false rv_redescription O U U' R R') as [P N];
      try reflexivity; try (left; reflexivity); try (apply pa_short_solids; cbn; tauto); try assumption; [intros v w _ _; reflexivity|]. split; [exact P|]. apply N. exact V.
Qed.
