(** Components renamed: the whole reports, and the number of their complaints. *)
From Coq Require Import String Ascii List Arith NArith ZArith Bool Lia Permutation.
From Verif Require Import Base BaseFacts Model_Issues Types Model_Hash Model_Adjacency Model_Colocation Model_Degeneration Model_Manifold Model_Intersections Model_Negative Model_Topology
  Model_BRep Model_Blocks Model_Results Model_Validity Spec_Rename Proof_Messages Proof_Order5 Proof_Relabel7 Proof_Rename6 Proof_Rename7 Proof_Rename8.
Import ListNotations.
Open Scope list_scope.

Lemma alike_Ok : forall X (Q : X -> X -> Prop) x y a, ends_alike Q x y -> x = Ok a -> exists b, y = Ok b /\ Q a b.
Proof. intros X Q x y a E ->. destruct y as [b|e|]; cbn in E; [eauto|destruct E|destruct E]. Qed.
Lemma invoked : forall A (x : outcome A) l u, parallel_invoke (status x :: l) = Ok u -> exists a, x = Ok a /\ parallel_invoke l = Ok u.
Proof.
  intros A [a|e|] l u E; cbn in E; [exists a; split; [reflexivity|exact E]| |discriminate].
  destruct (existsb _ l); discriminate.
Qed.
Section Renaming.
Context (f g : uuid -> uuid) (H : one_to_one f g) (m m' : Model) (R : renamed f m m').
Lemma n_brep_adjacency : forall lk lk' r, (forall e, renamed_answer f (lk_line_edges lk e) (lk_line_edges lk' e)) ->
  (forall l, renamed_answer f (lk_surface_polygons lk l) (lk_surface_polygons lk' l)) -> inspect_brep_meshes_adjacencies lk m = Ok r ->
  exists r', inspect_brep_meshes_adjacencies lk' m' = Ok r' /\ new_map f (ba_surfaces r) (ba_surfaces r') /\ new_map f (ba_blocks r) (ba_blocks r').
Proof.
  intros lk lk' r L1 L2 E. unfold inspect_brep_meshes_adjacencies in E |- *. cbv zeta in E |- *. apply bind_Ok in E as (u & Eu & E).
  apply invoked in Eu as (a & A & Eu). apply invoked in Eu as (b & B & Eu). rewrite A, B in E. cbn [assigned] in E. injection E as <-.
  destruct (alike_Ok _ _ _ _ a (n_surfaces_adjacency f g H m m' R lk lk' L1 _ "polygon edges adjacencies"%string) A) as (a' & A' & Ra).
  destruct (alike_Ok _ _ _ _ b (n_blocks_adjacency f g H m m' R lk lk' L2 _ "polyhedron facets adjacencies"%string) B) as (b' & B' & Rb).
  cbn [ba_surfaces ba_blocks empty_brep_adjacency]. rewrite A', B'. eexists. split; [reflexivity|]. split; [exact Ra|exact Rb].
Qed.
Context (o o' : Oracles) (S : renamed_searches f o o').
Lemma n_section_meshes : forall st st' i i' r, renamed_intersections f i i' -> inspect_section_meshes o m st (Ok i) = Ok r ->
  exists r', inspect_section_meshes o' m' st' (Ok i') = Ok r' /\ renamed_section_meshes f r r'.
Proof.
  intros st st' i i' r I E. unfold inspect_section_meshes in E |- *. cbv zeta in E |- *. rewrite (rns_measures _ _ _ S), (rns_geometry _ _ _ S), (rns_hash _ _ _ S).
  apply bind_Ok in E as (u & Eu & E).
  apply invoked in Eu as (a1 & A1 & Eu). apply invoked in Eu as (a2 & A2 & Eu). apply invoked in Eu as (a3 & A3 & Eu). apply invoked in Eu as (a4 & A4 & Eu).
  apply invoked in Eu as (a5 & A5 & Eu). apply invoked in Eu as (a6 & A6 & _). rewrite A1, A2, A3, A4, A6 in E. cbn [assigned] in E. injection E as <-.
  destruct (alike_Ok _ _ _ _ a2 (n_colocation f g H m m' R _) A2) as (b2 & B2 & R2).
  destruct (alike_Ok _ _ _ _ a3 (n_surfaces_adjacency f g H m m' R _ _ (rns_line_edges _ _ _ S) _ "polygon edges adjacencies"%string) A3) as (b3 & B3 & R3).
  destruct (alike_Ok _ _ _ _ a4 (n_section_degeneration f g H m m' R _ _ st st') A4) as (b4 & B4 & R4 & R4').
  destruct (alike_Ok _ _ _ _ a6 (n_section_manifold f g H m m' R _ _) A6) as (b6 & B6 & R6 & R6').
  rewrite (n_unique_vertices f g H m m' R), A1, B2, B4, B6. unfold inspect_section_meshes_adjacencies. rewrite B3. cbn [status bind parallel_invoke assigned]. eexists. split; [reflexivity|].
  constructor; cbn [sc_unique_vertices sc_colocation sc_adjacency sc_degeneration sc_intersections sc_manifold sc_negative]; try (apply new_map_renamed; assumption).
  - reflexivity.
  - exact I.
  - apply new_map_renamed, (n_section_negative f g H m m' R).
Qed.
Lemma n_brep_meshes : forall st st' i i' r, renamed_intersections f i i' -> inspect_brep_meshes o m st (Ok i) = Ok r ->
  exists r', inspect_brep_meshes o' m' st' (Ok i') = Ok r' /\ renamed_brep_meshes f r r'.
Proof.
  intros st st' i i' r I E. unfold inspect_brep_meshes in E |- *. cbv zeta in E |- *. rewrite (rns_measures _ _ _ S), (rns_geometry _ _ _ S), (rns_hash _ _ _ S).
  apply bind_Ok in E as (u & Eu & E).
  apply invoked in Eu as (a1 & A1 & Eu). apply invoked in Eu as (a2 & A2 & Eu). apply invoked in Eu as (a3 & A3 & Eu). apply invoked in Eu as (a4 & A4 & Eu).
  apply invoked in Eu as (a5 & A5 & Eu). apply invoked in Eu as (a6 & A6 & _). rewrite A1, A2, A3, A4, A6 in E. cbn [assigned] in E. injection E as <-.
  destruct (alike_Ok _ _ _ _ a2 (n_colocation f g H m m' R _) A2) as (b2 & B2 & R2).
  destruct (n_brep_adjacency _ _ a3 (rns_line_edges _ _ _ S) (rns_surface_polygons _ _ _ S) A3) as (b3 & B3 & R3 & R3').
  destruct (alike_Ok _ _ _ _ a4 (n_degeneration f g H m m' R _ _ st st') A4) as (b4 & B4 & R4 & R4' & R4'').
  destruct (alike_Ok _ _ _ _ a6 (n_brep_manifold f g H m m' R _ _) A6) as (b6 & B6 & M1 & M2 & M3 & M4 & M5).
  rewrite (n_unique_vertices f g H m m' R), A1, B2, B3, B4, B6. cbn [status bind parallel_invoke assigned]. eexists. split; [reflexivity|].
  constructor; cbn [br_unique_vertices br_colocation br_adjacency br_degeneration br_intersections br_manifold br_negative]; try (apply new_map_renamed; assumption).
  - reflexivity.
  - exact I.
  - exact M4.
  - exact M5.
  - apply new_map_renamed, (n_brep_negative f g H m m' R).
Qed.
End Renaming.

(** ** As many issues, as many complaints *)
Lemma map_length_add : forall A ho (x x' : InspectionIssuesMap A) v v', map_nb_issues x' = map_nb_issues x -> length v' = length v -> length (add_map ho x' v') = length (add_map ho x v).
Proof. intros A ho x x' v v' E L. unfold add_map. rewrite E. destruct (N.eqb (map_nb_issues x) 0); [exact L|]. rewrite !app_length, L. reflexivity. Qed.
Lemma pairs_count : forall f r r', renamed_intersections f r r' -> nb_issues r' = nb_issues r.
Proof. intros f r r' E. unfold nb_issues, size32. f_equal. f_equal. etransitivity; [exact (f_equal (@length _) E)|apply map_length]. Qed.
Lemma model_edges_count : forall f r r', renamed_edges f r r' -> nb_issues r' = nb_issues r.
Proof. intros f r r' E. unfold nb_issues, size32. f_equal. f_equal. apply Permutation_length in E. rewrite map_length in E. symmetry. exact E. Qed.
Lemma model_facets_count : forall f r r', renamed_facets f r r' -> nb_issues r' = nb_issues r.
Proof. intros f r r' E. unfold nb_issues, size32. f_equal. f_equal. etransitivity; [exact (f_equal (@length _) E)|apply map_length]. Qed.
Ltac counts := repeat match goal with
  | H : same_list _ _ |- _ => apply same_list_count in H
  | H : renamed_list _ _ _ |- _ => apply renamed_list_count in H
  | H : renamed_map _ _ _ |- _ => apply renamed_map_count in H
  | H : renamed_intersections _ _ _ |- _ => apply pairs_count in H
  | H : renamed_edges _ _ _ |- _ => apply model_edges_count in H
  | H : renamed_facets _ _ _ |- _ => apply model_facets_count in H
  end.
Ltac lengths := repeat (first [apply add_list_length; [first [assumption|reflexivity]|]|apply map_length_add; [first [assumption|reflexivity]|]]).
Section Counts.
Context (f : uuid -> uuid).
Lemma n_corners_counts : forall ho r r', renamed_corners f r r' -> corners_nb_issues r' = corners_nb_issues r /\
  forall v v', length v' = length v -> length (add_corners_topology_issues ho r' v') = length (add_corners_topology_issues ho r v).
Proof.
  intros ho r r' [H1 H2 H3 H4 H5 H6]. counts. split.
  - unfold corners_nb_issues. rewrite H1, H2, H3, H4, H5, H6. reflexivity.
  - intros v v' L. unfold add_corners_topology_issues. cbv zeta. lengths. exact L.
Qed.
Lemma n_links_counts : forall r r', renamed_links r r' ->
  (nb_issues (li_not_linked r') = nb_issues (li_not_linked r) /\ nb_issues (li_inexistant r') = nb_issues (li_inexistant r) /\ nb_issues (li_nonbijective r') = nb_issues (li_nonbijective r)) /\
  forall v v', length v' = length v -> length (add_uv_topology_issues r' v') = length (add_uv_topology_issues r v).
Proof. intros r r' [H1 H2 H3]. counts. split; [auto|]. intros v v' L. unfold add_uv_topology_issues. cbv zeta. lengths. exact L. Qed.
Lemma n_section_counts : forall ho a a' b b', renamed_section_meshes f a a' -> renamed_section_topology f b b' ->
  section_nb_issues (mkSectionResult a' b') = section_nb_issues (mkSectionResult a b) /\ length (section_validity ho (mkSectionResult a' b')) = length (section_validity ho (mkSectionResult a b)).
Proof.
  intros ho a a' b b' [A0 A1 A2 A3 A4 A5 A6 A7 A8] B. destruct (n_corners_counts ho _ _ (nst_corners _ _ _ B)) as [C1 C2].
  destruct (n_links_counts _ _ (nst_links _ _ _ B)) as [[L1 [L2 L3]] L4]. destruct B as [_ B1 B2 B3 B4 B5 B6 B7 B8 B9 B10 _]. counts. split.
  - unfold section_nb_issues, section_meshes_nb_issues, section_topology_nb_issues, section_lines_nb_issues, section_surfaces_nb_issues, unique_vertices_nb_issues,
      meshes_colocation_nb_issues, section_adjacency_nb_issues, section_degeneration_nb_issues, intersections_nb_issues, section_manifold_nb_issues, negative_nb_issues.
    cbn [r_section_meshes r_section_topology]. rewrite A0, A1, A2, A3, A4, A5, A6, A7, A8, C1, L1, L2, L3, B1, B2, B3, B4, B5, B7, B8, B9, B10. reflexivity.
  - unfold section_validity. cbn [r_section_meshes r_section_topology]. unfold add_section_topology_invalidities. cbv zeta. apply L4.
    unfold add_section_surfaces_topology_issues. cbv zeta. lengths. unfold add_section_lines_topology_issues. cbv zeta. lengths. apply C2.
    unfold add_section_meshes_invalidities, add_section_manifold_issues, add_section_degeneration_issues, add_section_adjacencies_issues, add_colocation_issues. cbv zeta. rewrite A0. lengths. reflexivity.
Qed.
Lemma n_brep_counts : forall ho a a' b b', renamed_brep_meshes f a a' -> renamed_brep_topology f b b' ->
  brep_nb_issues (mkBRepResult a' b') = brep_nb_issues (mkBRepResult a b) /\ length (brep_validity ho (mkBRepResult a' b')) = length (brep_validity ho (mkBRepResult a b)).
Proof.
  intros ho a a' b b' [A0 A1 A2 A2' A3 A4 A4' A5 M1 M2 M3 M4 M5 A7] B. destruct (n_corners_counts ho _ _ (nbt_corners _ _ _ B)) as [C1 C2].
  destruct (n_links_counts _ _ (nbt_links _ _ _ B)) as [[L1 [L2 L3]] L4].
  destruct B as [_ B1 B2 B3 B4 B5 B6 B7 S1 S2 S3 S4 S5 S6 K1 K2 K3 K4 K5 K6 K7 K8 K9 K10 _]. counts. split.
  - unfold brep_nb_issues, brep_meshes_nb_issues, brep_topology_nb_issues, brep_lines_nb_issues, brep_surfaces_nb_issues, brep_blocks_nb_issues, brep_manifold_nb_issues, unique_vertices_nb_issues,
      meshes_colocation_nb_issues, brep_adjacency_nb_issues, brep_degeneration_nb_issues, intersections_nb_issues, negative_nb_issues.
    cbn [r_brep_meshes r_brep_topology]. rewrite A0, A1, A2, A2', A3, A4, A4', A5, A7, M1, M2, M3, M4, M5, C1, L1, L2, L3, B1, B2, B3, B4, B5, B6, B7, S1, S2, S4, S5, S6, K1, K2, K3, K4, K5, K6, K7, K8, K9, K10. reflexivity.
  - unfold brep_validity. cbn [r_brep_meshes r_brep_topology]. unfold add_brep_topology_invalidities. cbv zeta. apply L4.
    unfold add_brep_blocks_topology_issues. cbv zeta. lengths. unfold add_brep_surfaces_topology_issues. cbv zeta. lengths. unfold add_brep_lines_topology_issues. cbv zeta. lengths.
    apply C2. unfold add_brep_meshes_invalidities, add_brep_manifold_issues, add_brep_degeneration_issues, add_brep_adjacencies_issues, add_colocation_issues. cbv zeta. rewrite A0. lengths. reflexivity.
Qed.
End Counts.
