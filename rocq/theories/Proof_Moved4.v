(** Moving an object: topology, whole reports and the number of complaints. *)
From Coq Require Import String Ascii List Arith NArith ZArith Bool Lia Permutation.
From Verif Require Import Base BaseFacts Model_Issues Types Model_Hash Model_Adjacency Model_Colocation Model_Degeneration Model_Manifold Model_Intersections Model_Negative Model_Topology
  Model_BRep Model_Blocks Model_Results Model_Validity Spec_Colocation Spec_Topology Spec_BRep Spec_Blocks Spec_Rename Spec_Moved Proof_Messages Proof_Order Proof_Order2 Proof_Order5
  Proof_Relabel7 Proof_Rename Proof_Rename5 Proof_Rename6 Proof_Rename7 Proof_Rename8 Proof_Rename9 Proof_Moved Proof_Moved2 Proof_Moved3.
Import ListNotations.
Open Scope list_scope.

Notation itself := (fun x : uuid => x).
(** ** Another way of writing points: only texts change *)
Lemma map_same : forall A (f : A -> A) l, (forall a, f a = a) -> l = map f l.
Proof. intros A f l E. rewrite <- (map_id l) at 1. apply map_ext. intros a. symmetry. apply E. Qed.
Lemma told_renamed : forall t m, renamed itself m (told_as t m).
Proof.
  assert (C : forall M (c : Component M), new_component itself c = c) by (intros M [i n a x]; reflexivity).
  assert (V : forall c, new_cmv itself c = c) by (intros [[t i] v]; reflexivity).
  assert (R : forall r, new_relation itself r = r) by (intros [[t i] [t' i']]; reflexivity).
  intros t m. constructor; cbn [told_as m_corners m_lines m_surfaces m_blocks m_model_boundaries m_cmvs m_unique_vertex m_boundary_rel m_internal_rel m_missing_exn];
    try (apply map_same, C); try (apply map_same, R).
  - apply map_same. intros l. symmetry. apply map_same. reflexivity.
  - apply map_same. intros l. symmetry. apply map_same. exact V.
  - intros c. rewrite V. reflexivity.
  - reflexivity.
Qed.
Lemma topo_renamed : forall tl, renamed_topo itself tl tl.
Proof.
  assert (K : forall l, map (new_key itself) l = l) by (intros l; symmetry; apply map_same; intros [u v]; reflexivity).
  intros tl. constructor; intros; rewrite ?K, ?map_id; try apply Permutation_refl; reflexivity.
Qed.

Section Topology.
Context (g : Point -> Point) (s : Point -> string) (m : Model).
Lemma w_section_topology : section_ok m -> exists r r', inspect_section_topology m = Ok r /\ inspect_section_topology (moved_model g s m) = Ok r' /\ renamed_section_topology itself r r'.
Proof. intros K. rewrite v_section_topology. exact (n_section_topology itself itself same_ids m _ (told_renamed _ m) K). Qed.
Lemma w_section_valid : section_ok m -> section_topology_is_valid (moved_model g s m) = section_topology_is_valid m.
Proof. intros K. rewrite v_section_valid. exact (n_section_valid itself itself same_ids m _ (told_renamed _ m) K). Qed.
Lemma w_brep_topology : forall tl tl', topo_follows g tl tl' -> blocks_ok tl m -> lookup_ok tl m -> lines_inspectable m ->
  exists r r', inspect_brep_topology tl m = Ok r /\ inspect_brep_topology tl' (moved_model g s m) = Ok r' /\ renamed_brep_topology itself r r'.
Proof. intros tl tl' T K L I. rewrite (v_brep_topology g s m tl tl' T). exact (n_brep_topology itself itself same_ids m _ (told_renamed _ m) tl tl (topo_renamed tl) K L I). Qed.
Lemma w_brep_valid : forall tl tl', topo_follows g tl tl' -> brep_ok m -> lookup_ok tl m -> lines_inspectable m -> counts_fit m ->
  brep_topology_is_valid tl' (moved_model g s m) = brep_topology_is_valid tl m.
Proof. intros tl tl' T K L I C. rewrite (v_brep_valid g s m tl tl' T). exact (n_brep_valid itself itself same_ids m _ (told_renamed _ m) tl tl (topo_renamed tl) K L I C). Qed.
End Topology.

(** ** As many issues, as many complaints *)
Lemma same_map_count : forall T (r r' : InspectionIssuesMap T), same_map r r' -> map_nb_issues r' = map_nb_issues r.
Proof.
  intros T r r' E. apply (renamed_map_count T itself). unfold renamed_map. unfold same_map in E. rewrite E.
  rewrite <- (map_same _ (fun e : uuid * list T => (fst e, snd e))); [apply Permutation_refl|]. intros [u l]. reflexivity.
Qed.
Ltac counted := repeat match goal with H : same_map _ _ |- _ => apply same_map_count in H end; counts.
Lemma w_section_counts : forall ho a a' b b', same_section_meshes a a' -> renamed_section_topology itself b b' ->
  section_nb_issues (mkSectionResult a' b') = section_nb_issues (mkSectionResult a b) /\ length (section_validity ho (mkSectionResult a' b')) = length (section_validity ho (mkSectionResult a b)).
Proof.
  intros ho a a' b b' [A0 A0' A1 A2 A3 A4 A5 A6 A7 A8] B. destruct (n_corners_counts itself ho _ _ (nst_corners _ _ _ B)) as [C1 C2].
  destruct (n_links_counts _ _ (nst_links _ _ _ B)) as [[L1 [L2 L3]] L4]. destruct B as [_ B1 B2 B3 B4 B5 B6 B7 B8 B9 B10 _]. counted. split.
  - unfold section_nb_issues, section_meshes_nb_issues, section_topology_nb_issues, section_lines_nb_issues, section_surfaces_nb_issues, unique_vertices_nb_issues,
      meshes_colocation_nb_issues, section_adjacency_nb_issues, section_degeneration_nb_issues, intersections_nb_issues, section_manifold_nb_issues, negative_nb_issues.
    cbn [r_section_meshes r_section_topology]. rewrite A0, A0', A1, A2, A3, A4, A5, A6, A7, A8, C1, L1, L2, L3, B1, B2, B3, B4, B5, B7, B8, B9, B10. reflexivity.
  - unfold section_validity. cbn [r_section_meshes r_section_topology]. unfold add_section_topology_invalidities. cbv zeta. apply L4.
    unfold add_section_surfaces_topology_issues. cbv zeta. lengths. unfold add_section_lines_topology_issues. cbv zeta. lengths. apply C2.
    unfold add_section_meshes_invalidities, add_section_manifold_issues, add_section_degeneration_issues, add_section_adjacencies_issues, add_colocation_issues. cbv zeta. lengths. reflexivity.
Qed.
Lemma w_brep_counts : forall ho a a' b b', same_brep_meshes a a' -> renamed_brep_topology itself b b' ->
  brep_nb_issues (mkBRepResult a' b') = brep_nb_issues (mkBRepResult a b) /\ length (brep_validity ho (mkBRepResult a' b')) = length (brep_validity ho (mkBRepResult a b)).
Proof.
  intros ho a a' b b' [A0 A0' A1 A2 A2' A3 A4 A4' A5 M1 M2 M3 M4 M5 A7] B. destruct (n_corners_counts itself ho _ _ (nbt_corners _ _ _ B)) as [C1 C2].
  destruct (n_links_counts _ _ (nbt_links _ _ _ B)) as [[L1 [L2 L3]] L4].
  destruct B as [_ B1 B2 B3 B4 B5 B6 B7 S1 S2 S3 S4 S5 S6 K1 K2 K3 K4 K5 K6 K7 K8 K9 K10 _]. counted. split.
  - unfold brep_nb_issues, brep_meshes_nb_issues, brep_topology_nb_issues, brep_lines_nb_issues, brep_surfaces_nb_issues, brep_blocks_nb_issues, brep_manifold_nb_issues, unique_vertices_nb_issues,
      meshes_colocation_nb_issues, brep_adjacency_nb_issues, brep_degeneration_nb_issues, intersections_nb_issues, negative_nb_issues.
    cbn [r_brep_meshes r_brep_topology]. rewrite A0, A0', A1, A2, A2', A3, A4, A4', A5, A7, M1, M2, M3, M4, M5, C1, L1, L2, L3, B1, B2, B3, B4, B5, B6, B7, S1, S2, S4, S5, S6, K1, K2, K3, K4, K5, K6, K7, K8, K9, K10. reflexivity.
  - unfold brep_validity. cbn [r_brep_meshes r_brep_topology]. unfold add_brep_topology_invalidities. cbv zeta. apply L4.
    unfold add_brep_blocks_topology_issues. cbv zeta. lengths. unfold add_brep_surfaces_topology_issues. cbv zeta. lengths. unfold add_brep_lines_topology_issues. cbv zeta. lengths.
    apply C2. unfold add_brep_meshes_invalidities, add_brep_manifold_issues, add_brep_degeneration_issues, add_brep_adjacencies_issues, add_colocation_issues. cbv zeta. lengths. reflexivity.
Qed.
Lemma w_surface_counts : forall r r', same_surface_report r r' -> surface_nb_issues r' = surface_nb_issues r /\ length (surface_validity r') = length (surface_validity r).
Proof.
  intros r r' [A1 A2 A3 A4 A5 A6 A7 A8]. counted. split.
  - unfold surface_nb_issues. rewrite A1, A2, A3, A4, A5, A6, A7, A8. reflexivity.
  - unfold surface_validity. cbv zeta. lengths. reflexivity.
Qed.
Lemma w_solid_counts : forall r r', same_solid_report r r' -> solid_nb_issues r' = solid_nb_issues r /\ length (solid_validity r') = length (solid_validity r).
Proof.
  intros r r' [A1 A2 A3 A4 A5 A6 A7 A8]. counted. split.
  - unfold solid_nb_issues. rewrite A1, A2, A3, A4, A5, A6, A7, A8. reflexivity.
  - unfold solid_validity. cbv zeta. lengths. reflexivity.
Qed.
