(** What the inspection of the topology assumes of a model holds in any order of its components; reports in another order are turned
    into as many complaints (C83). *)
From Coq Require Import String Ascii List Arith NArith ZArith Bool Lia Permutation.
From Verif Require Import Base BaseFacts Model_Issues Types Model_Hash Model_Colocation Model_Degeneration Model_Intersections Model_Manifold Model_Topology Model_BRep Model_Blocks
  Model_Results Model_Validity Spec_Colocation Spec_Topology Spec_BRep Spec_Blocks Spec_Reproducible Proof_Reproducible Spec_Order Proof_Order Proof_Order2 Proof_Order3
  Proof_Order4 Proof_Order5 Proof_Order6 Proof_Relabel7 Properties_Order.
Import ListNotations.
Open Scope list_scope.

Section Reordered.
Context (m m' : Model) (H : reordered m m').
Let H' := reordered_sym _ _ H.
Lemma ro_embeddings : forall b, embeddings m' b = embeddings m b. Proof. intros. symmetry. apply (o_embeddings m m' H). Qed.
Lemma ro_vertex_links : forall uv, component_mesh_vertices m' uv = component_mesh_vertices m uv. Proof. intros. symmetry. apply (o_component_mesh_vertices m m' H). Qed.
Lemma ro_at : forall uv t id, Spec_Topology.at_vertex m' uv t id <-> Spec_Topology.at_vertex m uv t id.
Proof. intros. unfold Spec_Topology.at_vertex. rewrite ro_vertex_links. reflexivity. Qed.
Lemma ro_active_ids : forall t id, In id (active_ids m' t) <-> In id (active_ids m t).
Proof.
  assert (A : forall T (l l' : list (Component T)) id, Permutation l l' -> In id (map co_id (filter co_active l')) -> In id (map co_id (filter co_active l))).
  { intros T l l' id P I. apply in_map_iff in I as (c & <- & I). apply filter_In in I as [I E]. apply in_map, filter_In. split; [|exact E]. eapply Permutation_in; [symmetry; exact P|exact I]. }
  intros t id. destruct H, t; cbn [active_ids]; split; try (apply A; assumption); try (apply A; symmetry; assumption); auto.
Qed.
Lemma ro_active_at : forall uv t id, active_at m' uv t id <-> active_at m uv t id.
Proof. intros. unfold active_at. rewrite ro_at, ro_active_ids. reflexivity. Qed.
Lemma ro_polyhedra : all_blocks_have_polyhedra m' <-> all_blocks_have_polyhedra m.
Proof. unfold all_blocks_have_polyhedra. split; intros A b I; apply A; (eapply Permutation_in; [|exact I]); [apply H|apply H']. Qed.
Lemma section_ok_reordered : section_ok m -> section_ok m'.
Proof.
  intros K. destruct K. constructor.
  - apply (all_ids_reordered m m' H), so_ids.
  - pose proof (ro_blocks _ _ H) as P. rewrite so_no_block in P. apply Permutation_nil in P. exact P.
  - intros uv t id A N. apply (ids_iff m m' H). apply ro_at in A. eauto.
  - intros uv l e A B. rewrite ro_embeddings in B. apply ro_active_at in A. apply (ids_iff m m' H). eauto.
  - intros cmvs A. rewrite <- (ro_cmvs _ _ H) in A. eauto.
  - intros c I. apply so_corner_bound. eapply Permutation_in; [apply H'|exact I].
  - intros c I. apply so_line_bound. eapply Permutation_in; [apply H'|exact I].
  - intros c I. apply so_surface_bound. eapply Permutation_in; [apply H'|exact I].
Qed.
Lemma resolvable_reordered : resolvable m -> resolvable m'.
Proof. intros K cmvs c A B. rewrite <- (ro_cmvs _ _ H) in A. destruct (K cmvs c A B) as (p & X). exists p. eapply position_reordered; eauto. Qed.
Lemma blocks_ok_reordered : forall tl, blocks_ok tl m -> blocks_ok tl m'.
Proof.
  intros tl K. destruct K. pose proof (ro_boundaries _ _ H) as B. constructor.
  - apply (brep_ok_reordered m m' H), bo_brep.
  - intros s A. unfold model_boundary_surfaces in A. rewrite <- B in A. apply (ids_iff m m' H). auto.
  - unfold model_boundary_surfaces. rewrite <- B. exact bo_nonempty.
  - unfold model_boundary_surfaces. rewrite <- B. exact bo_bound.
  - rewrite <- (ro_boundary_rel _ _ H). exact bo_rel_bound.
  - exact bo_inside.
  - exact bo_inside_block.
  - intros cmvs A. rewrite <- (ro_cmvs _ _ H) in A. rewrite <- (ro_boundary_rel _ _ H). auto.
Qed.
Lemma lookup_ok_reordered : forall tl, lookup_ok tl m -> lookup_ok tl m'.
Proof. intros tl K. destruct K. constructor; auto; intros; apply (ids_iff m m' H); eauto. Qed.
Lemma lines_inspectable_reordered : lines_inspectable m -> lines_inspectable m'.
Proof.
  intros K uv B. assert (N : nb_unique_vertices m' = nb_unique_vertices m) by (unfold nb_unique_vertices; rewrite (ro_cmvs _ _ H); reflexivity). rewrite N in B. destruct (K uv B) as [K1 K2]. split.
  - intros (l & e & A & E & W & T). apply K1. exists l, e. split; [apply ro_active_at, A|]. rewrite ro_embeddings in E. split; [exact E|]. split; [|exact T].
    unfold embedding_wrong, bounds in *. rewrite (ro_boundary_rel _ _ H). rewrite ro_at, ro_polyhedra in W. exact W.
  - intros c I A V E. destruct (K2 c) as (a & b & J).
    + eapply Permutation_in; [apply H'|exact I].
    + exact A.
    + apply ro_at, V.
    + exact E.
    + exists a, b. unfold edge_joins in *. rewrite <- (ro_unique _ _ H). exact J.
Qed.
End Reordered.

(** ** As many complaints *)
Lemma add_map_reordered : forall T ho (x x' : InspectionIssuesMap T) v v', reordered_map x x' -> length v' = length v -> length (add_map ho x' v') = length (add_map ho x v).
Proof. intros T ho x x' v v' E L. unfold add_map. rewrite (map_count _ _ _ E). destruct (N.eqb (map_nb_issues x') 0); [exact L|]. rewrite !app_length, L. reflexivity. Qed.
Lemma add_list_same : forall T (x x' : InspectionIssues T) v v', same_issues x x' -> length v' = length v -> length (add_list x' v') = length (add_list x v).
Proof. intros T x x' v v' E L. apply add_list_length; [|exact L]. symmetry. apply (same_count _ _ _ E). Qed.
Lemma add_list_edges : forall x x' v v', reordered_edges x x' -> length v' = length v -> length (add_list x' v') = length (add_list x v).
Proof. intros x x' v v' E L. apply add_list_length; [|exact L]. symmetry. apply (edges_count _ _ E). Qed.
Lemma add_list_eq : forall T (x x' : InspectionIssues T) v v', x = x' -> length v' = length v -> length (add_list x' v') = length (add_list x v).
Proof. intros T x x' v v' <- L. apply add_list_length; [reflexivity|exact L]. Qed.
Ltac complaints := repeat first
  [ eapply add_map_reordered; [eassumption|]
  | eapply add_list_same; [eassumption|]
  | eapply add_list_edges; [eassumption|]
  | eapply add_list_eq; [first [eassumption|reflexivity]|] ]; try reflexivity; try assumption.
Lemma corners_complaints : forall ho r r' v v', reordered_corners r r' -> length v' = length v -> length (add_corners_topology_issues ho r' v') = length (add_corners_topology_issues ho r v).
Proof. intros ho r r' v v' [] L. unfold add_corners_topology_issues. cbv zeta. complaints. Qed.
Lemma links_complaints : forall r r' v v', r = r' -> length v' = length v -> length (add_uv_topology_issues r' v') = length (add_uv_topology_issues r v).
Proof. intros r r' v v' <- L. unfold add_uv_topology_issues. cbv zeta. complaints. Qed.
Lemma section_complaints : forall ho r r', reordered_section r r' -> length (section_validity ho r') = length (section_validity ho r).
Proof.
  intros ho r r' [A B]. unfold section_validity, add_section_topology_invalidities. cbv zeta. destruct B as [C L S K]. apply links_complaints; [exact K|].
  destruct S. unfold add_section_surfaces_topology_issues. cbv zeta. complaints. destruct L. unfold add_section_lines_topology_issues. cbv zeta. complaints. apply corners_complaints; [exact C|].
  destruct A. unfold add_section_meshes_invalidities, add_section_manifold_issues, add_section_degeneration_issues, add_section_adjacencies_issues, add_colocation_issues. cbv zeta.
  complaints. rewrite rsm_unique_vertices. reflexivity.
Qed.
Lemma brep_complaints : forall ho r r', reordered_brep r r' -> length (brep_validity ho r') = length (brep_validity ho r).
Proof.
  intros ho r r' [A B]. unfold brep_validity, add_brep_topology_invalidities. cbv zeta. destruct B as [C L S B K]. apply links_complaints; [exact K|].
  destruct B. unfold add_brep_blocks_topology_issues. cbv zeta. complaints. destruct S. unfold add_brep_surfaces_topology_issues. cbv zeta. complaints.
  destruct L. unfold add_brep_lines_topology_issues. cbv zeta. complaints. apply corners_complaints; [exact C|].
  destruct A. unfold add_brep_meshes_invalidities, add_brep_manifold_issues, add_brep_degeneration_issues, add_brep_adjacencies_issues, add_colocation_issues. cbv zeta.
  complaints. rewrite rbm_unique_vertices. reflexivity.
Qed.
