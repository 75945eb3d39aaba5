(** Renaming components: the topology inspections. *)
From Coq Require Import String Ascii List Arith NArith ZArith Bool Lia Sorted Permutation.
From Verif Require Import Base BaseFacts Model_Issues Types Model_Topology Model_BRep Model_Blocks Spec_Colocation Spec_Maps Spec_Adjacency
  Spec_Topology Spec_BRep Spec_Fusion Spec_Blocks Spec_Rename Proof_Messages Proof_Maps Proof_Colocation2 Proof_Manifold3 Proof_Topology4 Proof_BRep2 Proof_BRep4 Proof_BRep5 Proof_Order Proof_Blocks6
  Proof_Rename Proof_Rename2 Proof_Rename3 Proof_Rename4.
Import ListNotations.
Open Scope list_scope.

Section Renaming.
Context (f g : uuid -> uuid) (H : one_to_one f g) (m m' : Model) (R : renamed f m m').

(** ** Conditions *)
Lemma n_cid_of : forall e, e = new_cid f (new_cid g e). Proof. intros e. symmetry. apply (n_cid_fg f g H). Qed.
Lemma n_cmvs_forall : forall (P : list ComponentMeshVertex -> Prop), (forall l, P l -> P (map (new_cmv f) l)) -> (forall l, In l (m_cmvs m) -> P l) -> forall l, In l (m_cmvs m') -> P l.
Proof. intros P K Q l Hl. rewrite (rn_cmvs _ _ _ R) in Hl. apply in_map_iff in Hl as (k & <- & Hk). apply K, Q, Hk. Qed.
Lemma n_components_forall : forall M (l : list (Component M)) (P : M -> Prop), (forall c, In c l -> P (co_mesh c)) -> forall c, In c (map (new_component f) l) -> P (co_mesh c).
Proof. intros M l P Q c Hc. apply in_map_iff in Hc as (d & <- & Hd). apply (Q d Hd). Qed.
Lemma n_embedding_back : forall e a, In e (embeddings m' a) -> In (new_cid g e) (embeddings m (g a)).
Proof. intros e a. rewrite <- (n_f f g H a) at 1. rewrite (n_cid_of e) at 1. apply (n_in_embeddings f g H m m' R). Qed.
Lemma n_incidence_back : forall e a, In e (incidences m' a) -> In (new_cid g e) (incidences m (g a)).
Proof. intros e a. rewrite <- (n_f f g H a) at 1. rewrite (n_cid_of e) at 1. apply (n_in_incidences f g H m m' R). Qed.
Lemma n_boundary_back : forall e a, In e (boundaries m' a) -> In (new_cid g e) (boundaries m (g a)).
Proof. intros e a. rewrite <- (n_f f g H a) at 1. rewrite (n_cid_of e) at 1. apply (n_in_boundaries f g H m m' R). Qed.
Lemma n_id_back : forall t x, In x (component_ids m' t) <-> In (g x) (component_ids m t).
Proof. intros t x. rewrite <- (n_f f g H x) at 1. apply (n_in_ids f g H m m' R). Qed.
Lemma n_at_back : forall uv t x, at_vertex m' uv t x <-> at_vertex m uv t (g x).
Proof. intros uv t x. rewrite <- (n_f f g H x) at 1. apply (n_at f g H m m' R). Qed.
Lemma n_active_at_back : forall uv t x, active_at m' uv t x <-> active_at m uv t (g x).
Proof. intros uv t x. rewrite <- (n_f f g H x) at 1. apply (n_active_at f g H m m' R). Qed.

Lemma n_section_ok : section_ok m -> section_ok m'.
Proof.
  intros K. constructor.
  - apply (n_unique_ids f g H m m' R), K.
  - rewrite (rn_blocks _ _ _ R), (so_no_block _ K). reflexivity.
  - intros uv t id A N. apply n_id_back, (so_links _ K uv); [apply n_at_back, A|exact N].
  - intros uv l e A E. apply n_id_back. apply (so_embeddings _ K uv (g l) (new_cid g e)); [apply n_active_at_back, A|apply n_embedding_back, E].
  - apply n_cmvs_forall; [|apply K]. intros l. rewrite map_length. auto.
  - rewrite (rn_corners _ _ _ R). apply (n_components_forall _ _ (fun x => below_2_32 (nb_points0 x))), K.
  - rewrite (rn_lines _ _ _ R). apply (n_components_forall _ _ (fun x => below_2_32 (nb_points1 x))), K.
  - rewrite (rn_surfaces _ _ _ R). apply (n_components_forall _ _ (fun x => below_2_32 (nb_points2 x))), K.
Qed.
Lemma n_resolvable : resolvable m -> resolvable m'.
Proof.
  intros K l c Hl Hc. rewrite (rn_cmvs _ _ _ R) in Hl. apply in_map_iff in Hl as (k & <- & Hk). apply in_map_iff in Hc as (d & <- & Hd). destruct (K k d Hk Hd) as (p & P). exists p. apply (n_position f g H m m' R), P.
Qed.
Lemma n_brep_ok : brep_ok m -> brep_ok m'.
Proof.
  intros K. constructor.
  - apply (n_unique_ids f g H m m' R), K.
  - apply n_resolvable, K.
  - intros l e Hl E. apply n_id_back. apply (br_line_incidences _ K (g l) (new_cid g e)); [apply n_id_back, Hl|apply n_incidence_back, E].
  - intros l e Hl E. apply n_id_back. apply (br_surface_boundaries _ K (g l) (new_cid g e)); [apply n_id_back, Hl|apply n_boundary_back, E].
  - intros l e Hl E. apply n_id_back. apply (br_block_boundaries _ K (g l) (new_cid g e)); [apply n_id_back, Hl|apply n_boundary_back, E].
  - intros l e Hl E. apply n_id_back. apply (br_surface_embeddings _ K (g l) (new_cid g e)); [apply n_id_back, Hl|apply n_embedding_back, E].
  - intros l e Hl E. apply (br_line_embeddings _ K (g l) (new_cid g e)); [apply n_id_back, Hl|apply n_embedding_back, E].
  - intros a e E N. apply n_id_back. apply (br_embeddings _ K (g a) (new_cid g e)); [apply n_embedding_back, E|exact N].
  - rewrite (rn_internal_rel _ _ _ R), map_length. apply n_cmvs_forall; [|apply K]. intros l. rewrite map_length. auto.
  - rewrite (rn_corners _ _ _ R). apply (n_components_forall _ _ (fun x => below_2_32 (nb_points0 x))), K.
  - rewrite (rn_lines _ _ _ R). apply (n_components_forall _ _ (fun x => below_2_32 (nb_points1 x) /\ below_2_32 (length (ec_edges x)))), K.
  - rewrite (rn_surfaces _ _ _ R). apply (n_components_forall _ _ (fun x => below_2_32 (nb_points2 x) /\ below_2_32 (length (sm_polygons x)))), K.
  - rewrite (rn_blocks _ _ _ R). apply (n_components_forall _ _ (fun x => below_2_32 (nb_points3 x))), K.
  - intros c a b Hc. rewrite (rn_lines _ _ _ R) in Hc. revert c Hc a b.
    apply (n_components_forall _ _ (fun x => forall a b, In (a, b) (ec_edges x) -> a < nb_points1 x /\ b < nb_points1 x)). intros c Hc a b. apply (br_edges _ K c a b Hc).
  - intros c p v Hc. rewrite (rn_surfaces _ _ _ R) in Hc. revert c Hc p v.
    apply (n_components_forall _ _ (fun x => forall p v, In p (sm_polygons x) -> In v p -> v < nb_points2 x)). intros c Hc p v. apply (br_polygons _ K c p v Hc).
Qed.
Context (tl tl' : TopoLookup) (T : renamed_topo f tl tl').
Lemma n_keys : forall l l', Permutation (map (new_key f) l) l' -> Permutation (map f (map fst l)) (map fst l').
Proof. intros l l' P. rewrite <- P, !map_map. reflexivity. Qed.
Lemma n_keys_nodup : forall l l', Permutation (map (new_key f) l) l' -> NoDup (map fst l) -> NoDup (map fst l').
Proof. intros l l' P N. eapply Permutation_NoDup; [apply n_keys, P|]. apply (NoDup_map_inj _ _ f (n_inj f g H)), N. Qed.
Lemma n_keys_exist : forall l l' t, Permutation (map (new_key f) l) l' -> (forall s, In s (map fst l) -> In s (component_ids m t)) -> forall s, In s (map fst l') -> In s (component_ids m' t).
Proof.
  intros l l' t P K s Hs. apply (Permutation_in _ (Permutation_sym (n_keys _ _ P))) in Hs. apply in_map_iff in Hs as (x & <- & Hx). apply (n_in_ids f g H m m' R), K, Hx.
Qed.
Lemma n_lookup_ok : lookup_ok tl m -> lookup_ok tl' m'.
Proof.
  intros K. constructor.
  - intros a b. eapply n_keys_nodup; [apply (rnt_edge_surfaces _ _ _ T)|apply K].
  - intros a b. eapply n_keys_exist; [apply (rnt_edge_surfaces _ _ _ T)|apply K].
  - intros a b. eapply n_keys_nodup; [apply (rnt_edge_blocks _ _ _ T)|apply K].
  - intros a b. eapply n_keys_exist; [apply (rnt_edge_blocks _ _ _ T)|apply K].
  - intros l. eapply n_keys_exist; [apply (rnt_polygon_blocks _ _ _ T)|apply K].
Qed.
Lemma n_blocks_ok : blocks_ok tl m -> blocks_ok tl' m'.
Proof.
  intros K. constructor.
  - apply n_brep_ok, K.
  - intros s Hs. rewrite (n_model_boundary_surfaces f m m' R) in Hs. apply in_map_iff in Hs as (x & <- & Hx). apply (n_in_ids f g H m m' R), (bo_surfaces _ _ K), Hx.
  - rewrite (n_model_boundary_surfaces f m m' R). destruct (bo_nonempty _ _ K) as [E|E].
    + left. pose proof (rn_boundaries _ _ _ R) as B. rewrite E in B. cbn in B. apply map_eq_nil in B. exact B.
    + right. intros Q. apply map_eq_nil in Q. contradiction.
  - rewrite (n_model_boundary_surfaces f m m' R), map_length. apply K.
  - rewrite (rn_boundary_rel _ _ _ R), map_length. apply K.
  - intros p x. rewrite (rnt_inside_closed _ _ _ T). apply (bo_inside _ _ K).
  - intros s b. rewrite <- (n_f f g H s), <- (n_f f g H b), (rnt_inside_block _ _ _ T). apply (bo_inside_block _ _ K).
  - unfold counts_fit. rewrite (rn_boundary_rel _ _ _ R), map_length. apply n_cmvs_forall; [|apply (bo_fit _ _ K)]. intros l. rewrite map_length. auto.
Qed.

(** ** Links *)
Lemma n_no_link : forall uv, component_mesh_vertices m' uv = [] <-> component_mesh_vertices m uv = [].
Proof. intros uv. rewrite (n_cmvs f m m' R). destruct (component_mesh_vertices m uv); cbn; split; congruence. Qed.
Lemma n_linked_back_elsewhere : forall uv c, linked_back_elsewhere m' uv (new_cmv f c) <-> linked_back_elsewhere m uv c.
Proof.
  intros uv c. unfold linked_back_elsewhere. apply iff_and; [apply (n_vertex_exists f g H m m' R)|]. apply iff_and; [apply (n_active_cmv f g H m m' R)|]. rewrite (rn_unique _ _ _ R). reflexivity.
Qed.
Lemma n_links : forall r r',
  lists_vertices m (fun uv => component_mesh_vertices m uv = []) (ii_issues (li_not_linked r)) ->
  one_entry_per_link m (fun _ c => ~ vertex_exists m c) (ii_issues (li_inexistant r)) -> one_entry_per_link m (linked_back_elsewhere m) (ii_issues (li_nonbijective r)) ->
  lists_vertices m' (fun uv => component_mesh_vertices m' uv = []) (ii_issues (li_not_linked r')) ->
  one_entry_per_link m' (fun _ c => ~ vertex_exists m' c) (ii_issues (li_inexistant r')) -> one_entry_per_link m' (linked_back_elsewhere m') (ii_issues (li_nonbijective r')) ->
  renamed_links r r'.
Proof.
  intros r r' A1 A2 A3 B1 B2 B3. constructor.
  - exact (n_list_vertices f m m' R _ _ _ _ n_no_link A1 B1).
  - refine (n_entries f m m' R _ _ _ _ _ A2 B2). intros uv c. apply iff_not, (n_vertex_exists f g H m m' R).
  - exact (n_entries f m m' R _ _ _ _ n_linked_back_elsewhere A3 B3).
Qed.

(** ** Sections *)
Lemma n_section_topology : section_ok m -> exists r r', inspect_section_topology m = Ok r /\ inspect_section_topology m' = Ok r' /\ renamed_section_topology f r r'.
Proof.
  intros K. pose proof (n_section_ok K) as K'. destruct (unique_ids_facts m (so_ids _ K)) as [N1 N2 N3 _ _ _ _ _ _ _].
  destruct (section_topology_spec m K) as (rc & rl & rs & links & Ec & El & Es & Ek & E). destruct (section_topology_spec m' K') as (rc' & rl' & rs' & links' & Ec' & El' & Es' & Ek' & E').
  do 2 eexists. split; [exact E|]. split; [exact E'|]. clear E E'.
  destruct (section_corners_spec m K) as (r1 & Q & C1 & C2 & C3 & C4 & C5). rewrite Ec in Q. injection Q as <-. destruct (section_corners_spec m' K') as (r1 & Q & C1' & C2' & C3' & C4' & C5'). rewrite Ec' in Q. injection Q as <-.
  destruct (section_lines_spec m K) as (r1 & Q & L1 & L2 & L3 & L4 & L5). rewrite El in Q. injection Q as <-. destruct (section_lines_spec m' K') as (r1 & Q & L1' & L2' & L3' & L4' & L5'). rewrite El' in Q. injection Q as <-.
  destruct (section_surfaces_spec m K) as (r1 & Q & S1 & S2 & S3). rewrite Es in Q. injection Q as <-. destruct (section_surfaces_spec m' K') as (r1 & Q & S1' & S2' & S3'). rewrite Es' in Q. injection Q as <-.
  destruct (section_links_spec m (so_ids _ K) (so_no_block _ K)) as (r1 & b & Q & D1 & D2 & D3 & _). rewrite Ek in Q. injection Q as <-.
  destruct (section_links_spec m' (so_ids _ K') (so_no_block _ K')) as (r1 & b' & Q & D1' & D2' & D3' & _). rewrite Ek' in Q. injection Q as <-.
  rewrite (rn_corners _ _ _ R) in C1'. rewrite (rn_lines _ _ _ R) in L1'. rewrite (rn_surfaces _ _ _ R) in S1'.
  destruct (n_components_reported f g H m m' R _ _ _ _ _ _ _ _ _ _ N1 C1 C1') as [C1a C1b]. destruct (n_components_reported f g H m m' R _ _ _ _ _ _ _ _ _ _ N2 L1 L1') as [L1a L1b].
  destruct (n_components_reported f g H m m' R _ _ _ _ _ _ _ _ _ _ N3 S1 S1') as [S1a S1b].
  constructor; cbn [st_corners st_lines st_surfaces st_links]; try assumption.
  - constructor; try assumption.
    + exact (n_list_vertices f m m' R _ _ _ _ (n_several_corners f g H m m' R) C2 C2').
    + exact (n_list_vertices f m m' R _ _ _ _ (n_corner_with_several_embeddings f g H m m' R) C3 C3').
    + exact (n_list_vertices f m m' R _ _ _ _ (n_corner_without_relation f g H m m' R) C4 C4').
    + exact (n_list_vertices f m m' R _ _ _ _ (n_corner_not_bounding_a_line f g H m m' R) C5 C5').
  - exact (n_list_vertices f m m' R _ _ _ _ (n_line_without_relation f g H m m' R) L2 L2').
  - exact (n_list_vertices f m m' R _ _ _ _ (n_line_badly_embedded f g H m m' R) L3 L3').
  - exact (n_list_vertices f m m' R _ _ _ _ (n_single_line_invalid f g H m m' R) L4 L4').
  - exact (n_list_vertices f m m' R _ _ _ _ (n_lines_without_corner f g H m m' R) L5 L5').
  - exact (n_list_vertices f m m' R _ _ _ _ (n_two_surfaces_without_common_line f g H m m' R) S2 S2').
  - exact (n_list_vertices f m m' R _ _ _ _ (n_line_vertex_off_border f g H m m' R) S3 S3').
  - exact (n_links _ _ D1 D2 D3 D1' D2' D3').
Qed.

(** ** Blocks *)
Lemma n_block_has_mesh : forall b, block_has_mesh m' (f b) <-> block_has_mesh m b.
Proof.
  intros b. unfold block_has_mesh. apply (iff_ex_via _ _ (new_component f) (new_component g) _ _ (n_component_fg f g H SolidMesh)). intros c. apply iff_and; [apply (n_block f g H m m' R)|].
  apply iff_and; [apply (n_eq f g H)|reflexivity].
Qed.
Lemma n_lists_blocks : forall (P P' : uuid -> Prop) r r', NoDup (component_ids m BlockT) -> (forall b, P' (f b) <-> P b) -> lists_blocks m P (ii_issues r) -> lists_blocks m' P' (ii_issues r') -> renamed_list f r r'.
Proof.
  intros P P' r r' N E [S L] [S' L']. unfold renamed_list. assert (N' : NoDup (component_ids m' BlockT)) by (rewrite (n_component_ids f m m' R); apply (NoDup_map_inj _ _ f (n_inj f g H)), N).
  apply (subsequence_unique _ _ _ _ N' S').
  - rewrite (n_component_ids f m m' R). apply subsequence_map, S.
  - intros x. rewrite <- (n_f f g H x), L', (n_in_map f g H), L, (n_in_active f g H m m' R), E. reflexivity.
Qed.
End Renaming.

Lemma blocks_closed_list : forall tl m r, blocks_ok tl m -> active_ids m BlockT <> [] -> brep_inspect_blocks tl m = Ok r ->
  ii_issues (bb_not_closed r) = map co_id (filter (fun c => is_false (block_boundaries_are_closed tl m (co_id c))) (active (m_blocks m))).
Proof.
  intros tl m r K A E. destruct (some_active_block m A) as (c0 & l0 & EA). unfold brep_inspect_blocks in E. rewrite EA in E. rewrite <- EA in E. clear c0 l0 EA.
  do 4 (apply bind_Ok in E as (? & _ & E)). cbv zeta in E. apply bind_Ok in E as (rs & _ & E). apply bind_Ok in E as (bs & Eb & E).
  destruct (closedness_loop tl m (bo_brep _ _ K) (bo_rel_bound _ _ K) (bo_inside _ _ K) (active (m_blocks m)) (new_issues wrong_boundary_d, new_issues not_closed_d)) as (r' & Er & _ & Q).
  { intros c Hc. apply filter_In in Hc. tauto. }
  rewrite Eb in Er. injection Er as <-. destruct rs as [|? [|? [|? [|? [|? [|? ?]]]]]]; try discriminate. injection E as <-. cbn [bb_not_closed]. rewrite Q. reflexivity.
Qed.

Section Renaming2.
Context (f g : uuid -> uuid) (H : one_to_one f g) (m m' : Model) (R : renamed f m m') (tl tl' : TopoLookup) (T : renamed_topo f tl tl').

Lemma n_not_closed : forall l, map co_id (filter (fun c => is_false (block_boundaries_are_closed tl' m' (co_id c))) (map (new_component f) l)) =
  map f (map co_id (filter (fun c : Component SolidMesh => is_false (block_boundaries_are_closed tl m (co_id c))) l)).
Proof.
  intros l. induction l as [|c l IH]; [reflexivity|]. cbn [map filter]. cbn [new_component co_id]. rewrite (n_block_closed f g H m m' R tl tl' T). destruct (is_false _); cbn [map]; rewrite IH; reflexivity.
Qed.
Lemma n_blocks : blocks_ok tl m -> forall r r', brep_inspect_blocks tl m = Ok r -> brep_inspect_blocks tl' m' = Ok r' ->
  renamed_list f (bb_not_meshed r) (bb_not_meshed r') /\ renamed_map f (bb_not_linked r) (bb_not_linked r') /\ renamed_list f (bb_wrong_boundary r) (bb_wrong_boundary r') /\
  renamed_list f (bb_not_closed r) (bb_not_closed r') /\ same_list (bb_model_boundaries r) (bb_model_boundaries r') /\ same_list (bb_two_blocks r) (bb_two_blocks r') /\
  same_list (bb_wrong_count r) (bb_wrong_count r') /\ same_list (bb_single_invalid r) (bb_single_invalid r') /\ same_list (bb_wrong_relationship r) (bb_wrong_relationship r') /\
  same_list (bb_multiple_invalid r) (bb_multiple_invalid r').
Proof.
  intros K r r' E E'. pose proof (n_blocks_ok f g H m m' R tl tl' T K) as K'. pose proof (n_active_ids f m m' R BlockT) as A.
  destruct (active_ids m BlockT) as [|b0 bs0] eqn:A0.
  - cbn [map] in A. rewrite (no_active_block tl m A0) in E. rewrite (no_active_block tl' m' A) in E'. injection E as <-. injection E' as <-. repeat (split; [reflexivity || apply Permutation_refl|]). reflexivity.
  - assert (Z : active_ids m BlockT <> []) by (rewrite A0; discriminate). assert (Z' : active_ids m' BlockT <> []) by (rewrite A; discriminate). clear A0 A.
    pose proof (blocks_closed_list tl m r K Z E) as Cl. pose proof (blocks_closed_list tl' m' r' K' Z' E') as Cl'.
    destruct (blocks_spec tl m K Z) as (x & Q & P). rewrite E in Q. injection Q as <-. destruct (blocks_spec tl' m' K' Z') as (x & Q & P'). rewrite E' in Q. injection Q as <-.
    destruct (unique_ids_facts m (br_ids _ (bo_brep _ _ K))) as [_ _ _ N _ _ _ _ _ _].
    split; [|split; [|split; [|split; [|split; [|split; [|split; [|split; [|split]]]]]]]].
    + refine (n_lists_blocks f g H m m' R _ _ _ _ N _ (rb_meshed _ _ _ P) (rb_meshed _ _ _ P')). intros b. apply iff_and; [apply iff_not, (n_block_has_mesh f g H m m' R)|].
      apply (iff_ex_via _ _ f g _ _ (n_f f g H)). intros b'. apply iff_and; [apply (n_in_active f g H m m' R)|apply (n_block_has_mesh f g H m m' R)].
    + refine (n_map_reports _ f g _ _ _ _ H _ _ (rb_linked _ _ _ P) (rb_linked _ _ _ P')).
      * intros id vs. cbn beta. apply (iff_ex_via _ _ (new_component f) (new_component g) _ _ (n_component_fg f g H SolidMesh)). intros c. apply iff_and; [apply (n_block f g H m m' R)|]. apply iff_and; [reflexivity|].
        apply iff_and; [apply (n_eq f g H)|]. apply iff_and; [reflexivity|]. apply lists_lt_ext. intros v. apply (n_unlinked f m m' R).
      * intros id vs vs' (c & I & _ & Ei & _ & L) (c' & I' & _ & Ei' & _ & L'). assert (c = c') as <-.
        { clear - N I I' Ei Ei'. cbn in N. induction (m_blocks m) as [|d l IH]; [destruct I|]. cbn in N. apply NoDup_cons_iff in N as [Na N]. destruct I as [->|I], I' as [->|I']; auto.
          - exfalso. apply Na. rewrite Ei, <- Ei'. apply in_map, I'.
          - exfalso. apply Na. rewrite Ei', <- Ei. apply in_map, I. }
        eapply lists_lt_unique; eassumption.
    + exact (n_lists_blocks f g H m m' R _ _ _ _ N (n_boundary_has_free_line f g H m m' R) (rb_free _ _ _ P) (rb_free _ _ _ P')).
    + unfold renamed_list. rewrite Cl, Cl', (rn_blocks _ _ _ R). unfold active. rewrite n_active_of. apply n_not_closed.
    + unfold same_list. pose proof (n_all_linked f g m m' H R (model_boundary_surfaces m)) as AL. rewrite <- (n_model_boundary_surfaces f m m' R) in AL.
      destruct (rb_model _ _ _ P) as [[B Q]|[B Q]], (rb_model _ _ _ P') as [[B' Q']|[B' Q']]; rewrite Q, Q'; tauto.
    + exact (n_list_vertices f m m' R _ _ _ _ (n_two_blocks_apart f g H m m' R) (rb_two _ _ _ P) (rb_two _ _ _ P')).
    + exact (n_list_vertices f m m' R _ _ _ _ (n_block_count_wrong f g m m' H R) (rb_count _ _ _ P) (rb_count _ _ _ P')).
    + exact (n_list_vertices f m m' R _ _ _ _ (n_only_surface_wrong f g H m m' R) (rb_single _ _ _ P) (rb_single _ _ _ P')).
    + exact (n_list_vertices f m m' R _ _ _ _ (n_surface_relation_wrong f g H m m' R tl tl' T) (rb_relation _ _ _ P) (rb_relation _ _ _ P')).
    + unfold same_list. rewrite (rb_multiple _ _ _ P), (rb_multiple _ _ _ P'). reflexivity.
Qed.

(** ** BReps *)
Lemma n_brep_topology : blocks_ok tl m -> lookup_ok tl m -> lines_inspectable m ->
  exists r r', inspect_brep_topology tl m = Ok r /\ inspect_brep_topology tl' m' = Ok r' /\ renamed_brep_topology f r r'.
Proof.
  intros K L I. pose proof (n_blocks_ok f g H m m' R tl tl' T K) as K'. pose proof (n_lookup_ok f g H m m' R tl tl' T L) as L'. pose proof (proj2 (n_lines_inspectable f g H m m' R) I) as I'.
  pose proof (bo_brep _ _ K) as B. pose proof (bo_brep _ _ K') as B'. destruct (unique_ids_facts m (br_ids _ B)) as [N1 N2 N3 N4 _ _ _ _ _ _].
  destruct (brep_topology_spec tl m K L I) as (rc & rl & rs & rb & links & Ec & El & Es & Eb & Ek & E). destruct (brep_topology_spec tl' m' K' L' I') as (rc' & rl' & rs' & rb' & links' & Ec' & El' & Es' & Eb' & Ek' & E').
  do 2 eexists. split; [exact E|]. split; [exact E'|]. clear E E'.
  destruct (brep_corners_spec m B) as (r1 & Q & C1 & C2 & C3 & C4 & C5). rewrite Ec in Q. injection Q as <-. destruct (brep_corners_spec m' B') as (r1 & Q & C1' & C2' & C3' & C4' & C5'). rewrite Ec' in Q. injection Q as <-.
  destruct (brep_lines_spec tl m B L I) as (r1 & Q & L1 & L2 & L3 & L4 & L5 & L6). rewrite El in Q. injection Q as <-. destruct (brep_lines_spec tl' m' B' L' I') as (r1 & Q & L1' & L2' & L3' & L4' & L5' & L6'). rewrite El' in Q. injection Q as <-.
  destruct (brep_surfaces_spec tl m B L) as (r1 & Q & S1 & S2 & S3 & S4 & S5). rewrite Es in Q. injection Q as <-. destruct (brep_surfaces_spec tl' m' B' L') as (r1 & Q & S1' & S2' & S3' & S4' & S5'). rewrite Es' in Q. injection Q as <-.
  destruct (brep_links_spec m (br_ids _ B)) as (r1 & b & Q & D1 & D2 & D3 & _). rewrite Ek in Q. injection Q as <-.
  destruct (brep_links_spec m' (br_ids _ B')) as (r1 & b' & Q & D1' & D2' & D3' & _). rewrite Ek' in Q. injection Q as <-.
  rewrite (rn_corners _ _ _ R) in C1'. rewrite (rn_lines _ _ _ R) in L1', L2'. rewrite (rn_surfaces _ _ _ R) in S1', S2'.
  destruct (n_components_reported f g H m m' R _ _ _ _ _ _ _ _ _ _ N1 C1 C1') as [C1a C1b]. destruct (n_components_reported f g H m m' R _ _ _ _ _ _ _ _ _ _ N2 L1 L1') as [L1a L1b].
  destruct (n_components_reported f g H m m' R _ _ _ _ _ _ _ _ _ _ N3 S1 S1') as [S1a S1b].
  destruct (n_blocks K rb rb' Eb Eb') as (P1 & P2 & P3 & P4 & P5 & P6 & P7 & P8 & P9 & P10).
  constructor; cbn [bt_corners bt_lines bt_surfaces bt_blocks bt_links]; try assumption.
  - constructor; try assumption.
    + exact (n_list_vertices f m m' R _ _ _ _ (n_several_corners f g H m m' R) C2 C2').
    + exact (n_list_vertices f m m' R _ _ _ _ (n_corner_in_block_and_elsewhere f g H m m' R) C3 C3').
    + exact (n_list_vertices f m m' R _ _ _ _ (n_corner_without_relation f g H m m' R) C4 C4').
    + exact (n_list_vertices f m m' R _ _ _ _ (n_corner_unrelated_to_line f g H m m' R) C5 C5').
  - exact (n_elements_reported f g H m m' R _ _ _ _ _ _ _ _ _ N2 (n_line_edge_wrong f g H m m' R tl tl' T) L2 L2').
  - exact (n_list_vertices f m m' R _ _ _ _ (n_line_relationship_wrong f g H m m' R tl tl' T) L4 L4').
  - exact (n_list_vertices f m m' R _ _ _ _ (n_line_embedding_wrong f g H m m' R) L3 L3').
  - exact (n_list_vertices f m m' R _ _ _ _ (n_only_line_wrong f g H m m' R) L5 L5').
  - exact (n_list_vertices f m m' R _ _ _ _ (n_lines_without_corner f g H m m' R) L6 L6').
  - exact (n_elements_reported f g H m m' R _ _ _ _ _ _ _ _ _ N3 (n_surface_facet_wrong f g H m m' R tl tl' T) S2 S2').
  - exact (n_list_vertices f m m' R _ _ _ _ (n_surface_badly_embedded f g H m m' R) S3 S3').
  - exact (n_list_vertices f m m' R _ _ _ _ (n_several_surfaces_wrong f g H m m' R) S4 S4').
  - exact (n_list_vertices f m m' R _ _ _ _ (n_related_line_vertex_off_border f g H m m' R) S5 S5').
  - exact (n_links f g H m m' R _ _ D1 D2 D3 D1' D2' D3').
Qed.
End Renaming2.
