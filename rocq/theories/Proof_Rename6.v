(** Renaming components: the queries "is the topology valid?", and the numbers of issues. *)
From Coq Require Import String Ascii List Arith NArith ZArith Bool Lia Sorted Permutation.
From Verif Require Import Base BaseFacts Model_Issues Types Model_Topology Model_BRep Model_Blocks Model_Results Model_Validity Spec_Colocation Spec_Maps Spec_Adjacency
  Spec_Topology Spec_BRep Spec_Fusion Spec_Blocks Spec_Rename Proof_Messages Proof_Maps Proof_Colocation2 Proof_Manifold3 Proof_Topology4 Proof_BRep2 Proof_BRep4 Proof_BRep5 Proof_Order Proof_Blocks6
  Proof_Rename Proof_Rename2 Proof_Rename3 Proof_Rename4 Proof_Rename5.
Import ListNotations.
Open Scope list_scope.

Lemma decides_same : forall o o' P P', decides o P -> decides o' P' -> (P' <-> P) -> o' = o.
Proof.
  intros o o' P P' (b & -> & B) (b' & -> & B') E. f_equal. destruct b, b'; try reflexivity; [|symmetry]; tauto.
Qed.

Section Renaming.
Context (f g : uuid -> uuid) (H : one_to_one f g) (m m' : Model) (R : renamed f m m').

Lemma n_meshed_linked : forall M t (meshed : M -> Prop) nb l, meshed_linked t meshed nb m' (map (new_component f) l) <-> meshed_linked t meshed nb m l.
Proof.
  intros M t meshed nb l. unfold meshed_linked. apply (n_all_mapped f M (fun c => co_active c = true -> meshed (co_mesh c) -> forall v, ~ unlinked m t (co_id c) (nb (co_mesh c)) v)
    (fun c => co_active c = true -> meshed (co_mesh c) -> forall v, ~ unlinked m' t (co_id c) (nb (co_mesh c)) v)).
  intros c. cbn [new_component co_active co_mesh co_id]. apply iff_imp; [reflexivity|]. apply iff_imp; [reflexivity|]. apply iff_all. intros v. apply iff_not, (n_unlinked f m m' R).
Qed.
Lemma n_bijectively_linked : bijectively_linked m' <-> bijectively_linked m.
Proof.
  unfold bijectively_linked. rewrite (n_nb f m m' R). apply iff_all. intros uv. apply iff_imp; [reflexivity|]. apply iff_and; [apply iff_not, (n_no_link f m m' R)|].
  apply (iff_all_via _ _ (new_cmv f) (new_cmv g) _ _ (n_cmv_fg f g H)). intros c. apply iff_imp; [apply (n_in_cmvs f g H m m' R)|]. apply iff_and; [apply (n_vertex_exists f g H m m' R)|].
  apply iff_imp; [apply (n_active_cmv f g H m m' R)|]. rewrite (rn_unique _ _ _ R). reflexivity.
Qed.
Lemma n_embedded_incidences : forall uv, embedded_corner_with_several_incidences m' uv <-> embedded_corner_with_several_incidences m uv.
Proof.
  intros uv. unfold embedded_corner_with_several_incidences. apply (iff_ex_via _ _ f g _ _ (n_f f g H)). intros c. rewrite (n_nb_embeddings f g H m m' R), (n_nb_incidences f g H m m' R).
  apply iff_and; [apply (n_active_at f g H m m' R)|reflexivity].
Qed.
Lemma n_embedded_bounding : forall uv, embedded_corner_bounding_several m' uv <-> embedded_corner_bounding_several m uv.
Proof.
  intros uv. unfold embedded_corner_bounding_several. apply (iff_ex_via _ _ f g _ _ (n_f f g H)). intros c. rewrite (n_nb_embeddings f g H m m' R), (n_nb_incidences f g H m m' R).
  apply iff_and; [apply (n_active_at f g H m m' R)|reflexivity].
Qed.
Lemma n_some_surface : forall uv, (exists s, active_at m' uv SurfaceT s) <-> exists s, active_at m uv SurfaceT s.
Proof. intros uv. apply (iff_ex_via _ _ f g _ _ (n_f f g H)). intros s. apply (n_active_at f g H m m' R). Qed.
Lemma n_section_valid : section_ok m -> section_topology_is_valid m' = section_topology_is_valid m.
Proof.
  intros K. eapply decides_same; [apply (section_valid_spec m K)|apply (section_valid_spec m' (n_section_ok f g H m m' R K))|].
  rewrite (n_nb f m m' R), (rn_corners _ _ _ R), (rn_lines _ _ _ R), (rn_surfaces _ _ _ R). apply iff_and; [reflexivity|].
  apply iff_and; [apply n_meshed_linked|]. apply iff_and; [apply n_meshed_linked|]. apply iff_and; [apply n_meshed_linked|]. apply iff_and; [apply n_bijectively_linked|].
  apply iff_all. intros uv. apply iff_imp; [reflexivity|]. apply iff_and; [|apply iff_and].
  - apply iff_and; [apply iff_not, (n_several_corners f g H m m' R)|]. apply iff_and; [apply iff_not, (n_corner_with_several_embeddings f g H m m' R)|].
    apply iff_and; [apply iff_not, (n_corner_without_relation f g H m m' R)|]. apply iff_and; [apply iff_not, (n_corner_not_bounding_a_line f g H m m' R)|]. apply iff_not, n_embedded_incidences.
  - apply iff_and; [apply iff_not, (n_line_without_relation f g H m m' R)|]. apply iff_and; [apply iff_not, (n_line_badly_embedded f g H m m' R)|].
    apply iff_and; [apply iff_not, (n_single_line_invalid f g H m m' R)|apply iff_not, (n_lines_without_corner f g H m m' R)].
  - apply iff_imp; [apply n_some_surface|]. apply iff_and; [apply iff_not, (n_two_surfaces_without_common_line f g H m m' R)|apply iff_not, (n_line_vertex_off_border f g H m m' R)].
Qed.
Context (tl tl' : TopoLookup) (T : renamed_topo f tl tl').
Lemma n_vertex_fine : forall uv, brep_vertex_fine tl' m' uv <-> brep_vertex_fine tl m uv.
Proof.
  intros uv. unfold brep_vertex_fine. apply iff_and; [|apply iff_and; [|apply iff_and]].
  - apply iff_and; [apply iff_not, (n_several_corners f g H m m' R)|]. apply iff_and; [apply iff_not, (n_corner_in_block_and_elsewhere f g H m m' R)|].
    apply iff_and; [apply iff_not, (n_corner_without_relation f g H m m' R)|]. apply iff_and; [apply iff_not, (n_corner_unrelated_to_line f g H m m' R)|]. apply iff_not, n_embedded_bounding.
  - apply iff_and; [apply iff_not, (n_line_embedding_wrong f g H m m' R)|]. apply iff_and; [apply iff_not, (n_only_line_wrong f g H m m' R)|].
    apply iff_and; [apply iff_not, (n_line_relationship_wrong f g H m m' R tl tl' T)|apply iff_not, (n_lines_without_corner f g H m m' R)].
  - apply iff_imp; [apply n_some_surface|]. apply iff_and; [apply iff_not, (n_surface_badly_embedded f g H m m' R)|]. apply iff_and; [apply iff_not, (n_several_surfaces_wrong f g H m m' R)|].
    apply iff_not, (n_related_line_vertex_off_border f g H m m' R).
  - apply iff_and; [apply iff_not, (n_two_blocks_apart f g H m m' R)|apply iff_not, (n_block_count_wrong f g m m' H R)].
Qed.
Lemma n_counts_fit : counts_fit m -> counts_fit m'.
Proof.
  intros K. unfold counts_fit. rewrite (rn_boundary_rel _ _ _ R), map_length. apply (n_cmvs_forall f m m' R (fun l => below_2_32 (length l * (3 * length (m_boundary_rel m) + 1)))); [|exact K].
  intros l. rewrite map_length. auto.
Qed.
Lemma n_brep_valid : brep_ok m -> lookup_ok tl m -> lines_inspectable m -> counts_fit m -> brep_topology_is_valid tl' m' = brep_topology_is_valid tl m.
Proof.
  intros K L I F. eapply decides_same; [apply (brep_valid_spec tl m K L I F)|apply (brep_valid_spec tl' m' (n_brep_ok f g H m m' R K) (n_lookup_ok f g H m m' R tl tl' T L) (proj2 (n_lines_inspectable f g H m m' R) I) (n_counts_fit F))|].
  rewrite (n_nb f m m' R), (rn_corners _ _ _ R), (rn_lines _ _ _ R), (rn_surfaces _ _ _ R), (rn_blocks _ _ _ R). apply iff_and; [reflexivity|].
  apply iff_and; [apply n_meshed_linked|]. apply iff_and; [apply n_meshed_linked|]. apply iff_and; [apply n_meshed_linked|]. apply iff_and; [apply n_meshed_linked|]. apply iff_and; [apply n_bijectively_linked|].
  apply iff_all. intros uv. apply iff_imp; [reflexivity|apply n_vertex_fine].
Qed.
End Renaming.

(** ** Numbers of issues *)
Lemma same_list_count : forall T (r r' : InspectionIssues T), same_list r r' -> nb_issues r' = nb_issues r.
Proof. intros T r r' E. unfold nb_issues. rewrite E. reflexivity. Qed.
Lemma renamed_list_count : forall f r r', renamed_list f r r' -> nb_issues r' = nb_issues r.
Proof. intros f r r' E. unfold nb_issues, size32. rewrite E, map_length. reflexivity. Qed.
Lemma renamed_map_count : forall T f (r r' : InspectionIssuesMap T), renamed_map f r r' -> map_nb_issues r' = map_nb_issues r.
Proof. intros T f r r' E. apply Permutation_length in E. unfold issues_by_component in E. rewrite !map_length in E. unfold map_nb_issues, size32. rewrite E. reflexivity. Qed.
