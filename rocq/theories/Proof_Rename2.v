(** Renaming components: what makes the topology of a section or a BRep wrong at a unique vertex. *)
From Coq Require Import String Ascii List Arith NArith ZArith Bool Lia Sorted Permutation.
From Verif Require Import Base BaseFacts Model_Issues Types Model_Topology Model_BRep Model_Blocks Spec_Colocation Spec_Maps Spec_Adjacency
  Spec_Topology Spec_BRep Spec_Fusion Spec_Blocks Spec_Rename Proof_BRep2 Proof_Rename.
Import ListNotations.
Open Scope list_scope.

Lemma Forall2_weaken : forall A B (P Q : A -> B -> Prop), (forall x y, P x y -> Q x y) -> forall l k, Forall2 P l k -> Forall2 Q l k.
Proof. intros A B P Q K l k. induction 1; constructor; auto. Qed.

Section Renaming.
Context (f g : uuid -> uuid) (H : one_to_one f g) (m m' : Model) (R : renamed f m m').

Lemma n_singleton : forall l x, map f l = [f x] <-> l = [x].
Proof. intros l x. apply (map_eq_inj _ _ f (n_inj f g H) l [x]). Qed.
Lemma n_pair : forall l x y, map f l = [f x; f y] <-> l = [x; y].
Proof. intros l x y. apply (map_eq_inj _ _ f (n_inj f g H) l [x; y]). Qed.
Lemma n_all_at1 : forall uv t x, all_at m' uv t [f x] <-> all_at m uv t [x].
Proof. intros uv t x. apply (n_all_at f g H m m' R uv t [x]). Qed.
Lemma n_all_at2 : forall uv t x y, all_at m' uv t [f x; f y] <-> all_at m uv t [x; y].
Proof. intros uv t x y. apply (n_all_at f g H m m' R uv t [x; y]). Qed.
Lemma n_nil : forall l, map f l = [] <-> l = [].
Proof. intros [|x l]; cbn; split; congruence. Qed.

Ltac atom := first
  [ exact (n_at f g H m m' R _ _ _) | exact (n_active_at f g H m m' R _ _ _) | exact (n_in_active f g H m m' R _ _) | exact (n_in_ids f g H m m' R _ _)
  | exact (n_bounds f g H m m' R _ _) | exact (n_inside f g H m m' R _ _) | exact (n_in_surface f g H m m' R _ _) | exact (n_in_block f g H m m' R _ _)
  | exact (n_in_embeddings f g H m m' R _ _) | exact (n_in_incidences f g H m m' R _ _) | exact (n_in_boundaries f g H m m' R _ _)
  | exact (n_polygons f m m' R) | exact (n_polyhedra f m m' R) | exact (n_all_at f g H m m' R _ _ _) | exact (n_all_at1 _ _ _) | exact (n_all_at2 _ _ _ _)
  | exact (n_in_map f g H _ _) | exact (n_singleton _ _) | exact (n_nil _) | exact (n_eq f g H _ _)
  | exact (n_line f g H m m' R _) | exact (n_surface f g H m m' R _) | exact (n_block f g H m m' R _) | exact (n_corner f g H m m' R _)
  | exact (n_in_cmv f g H m m' R _ _ _ _) | exact (n_in_cmvs f g H m m' R _ _) | exact (n_linked_twice f g H m m' R _ _)
  | exact (n_vertex_exists f g H m m' R _) | exact (n_active_cmv f g H m m' R _) | exact (n_unlinked f g H m m' R _ _ _ _) ].
Ltac numbers := rewrite ?map_length; rewrite ?(n_nb_embeddings f g H m m' R), ?(n_nb_incidences f g H m m' R); reflexivity.
Ltac rn :=
  lazymatch goal with
  | |- (_ /\ _) <-> _ => apply iff_and; rn
  | |- (_ \/ _) <-> _ => apply iff_or; rn
  | |- (~ _) <-> _ => apply iff_not; rn
  | |- (exists _ : uuid, _) <-> _ => apply (iff_ex_via _ _ f g _ _ (n_f f g H)); intros ?; rn
  | |- (exists _ : list uuid, _) <-> _ => apply (iff_ex_via _ _ (map f) (map g) _ _ (n_list_fg f g H)); intros ?; rn
  | |- (exists _ : ComponentID, _) <-> _ => apply (iff_ex_via _ _ (new_cid f) (new_cid g) _ _ (n_cid_fg f g H)); intros ?; rn
  | |- (exists _ : ComponentMeshVertex, _) <-> _ => apply (iff_ex_via _ _ (new_cmv f) (new_cmv g) _ _ (n_cmv_fg f g H)); intros ?; rn
  | |- (exists _ : Component ?M, _) <-> _ => apply (iff_ex_via _ _ (new_component f) (new_component g) _ _ (n_component_fg f g H M)); intros ?; rn
  | |- (exists _, _) <-> _ => apply iff_ex; intros ?; rn
  | |- (forall _ : uuid, _) <-> _ => apply (iff_all_via _ _ f g _ _ (n_f f g H)); intros ?; rn
  | |- (forall _ : ComponentID, _) <-> _ => apply (iff_all_via _ _ (new_cid f) (new_cid g) _ _ (n_cid_fg f g H)); intros ?; rn
  | |- (forall _ : Component ?M, _) <-> _ => apply (iff_all_via _ _ (new_component f) (new_component g) _ _ (n_component_fg f g H M)); intros ?; rn
  | |- (forall _ : ?A, _) <-> _ => lazymatch type of A with Prop => apply iff_imp; rn | _ => apply iff_all; intros ?; rn end
  | |- _ => try first [atom | reflexivity | numbers]
  end.

(** ** Sections *)
Lemma n_several_corners : forall uv, several_corners m' uv <-> several_corners m uv. Proof. intros. unfold several_corners. rn. Qed.
Lemma n_corner_with_several_embeddings : forall uv, corner_with_several_embeddings m' uv <-> corner_with_several_embeddings m uv.
Proof. intros. unfold corner_with_several_embeddings. rn. Qed.
Lemma n_corner_without_relation : forall uv, corner_without_relation m' uv <-> corner_without_relation m uv.
Proof. intros. unfold corner_without_relation. rn. Qed.
Lemma n_corner_not_bounding_a_line : forall uv, corner_not_bounding_a_line m' uv <-> corner_not_bounding_a_line m uv.
Proof. intros. unfold corner_not_bounding_a_line. rn. Qed.
Lemma n_line_without_relation : forall uv, line_without_relation m' uv <-> line_without_relation m uv.
Proof. intros. unfold line_without_relation. rn. Qed.
Lemma n_embedding_missed : forall uv l, embedding_missed m' uv (f l) <-> embedding_missed m uv l.
Proof. intros. unfold embedding_missed. rn. Qed.
Lemma n_split : forall uv pre t l v post, component_mesh_vertices m' uv = map (new_cmv f) pre ++ mkCMV (mkCID t (f l)) v :: map (new_cmv f) post <->
  component_mesh_vertices m uv = pre ++ mkCMV (mkCID t l) v :: post.
Proof.
  intros uv pre t l v post. rewrite (n_cmvs f m m' R). rewrite <- (map_eq_inj _ _ (new_cmv f) (n_cmv_inj f g H) _ (pre ++ _)). rewrite map_app. reflexivity.
Qed.
Lemma n_line_badly_embedded : forall uv, line_badly_embedded m' uv <-> line_badly_embedded m uv.
Proof.
  intros uv. unfold line_badly_embedded. apply (iff_ex_via _ _ (map (new_cmv f)) (map (new_cmv g)) _ _ (n_cmvs_fg f g H)). intros pre.
  apply (iff_ex_via _ _ f g _ _ (n_f f g H)). intros l. apply iff_ex. intros v. apply (iff_ex_via _ _ (map (new_cmv f)) (map (new_cmv g)) _ _ (n_cmvs_fg f g H)). intros post.
  apply iff_and; [apply n_split|]. apply iff_and; [rn|]. apply iff_and; [rn|]. apply iff_and; [|apply iff_or; [rn|apply iff_or; [rn|apply n_embedding_missed]]].
  apply (iff_all_via _ _ f g _ _ (n_f f g H)). intros l'. apply iff_all. intros v'. apply iff_imp; [|apply iff_imp; rn].
  apply (in_map_inj _ _ (new_cmv f) (n_cmv_inj f g H) (mkCMV (mkCID LineT l') v')).
Qed.
Lemma n_single_line_invalid : forall uv, single_line_invalid m' uv <-> single_line_invalid m uv.
Proof. intros. unfold single_line_invalid. rn. Qed.
Lemma n_lines_without_corner : forall uv, lines_without_corner m' uv <-> lines_without_corner m uv.
Proof. intros. unfold lines_without_corner. rn. Qed.
Lemma n_two_surfaces_without_common_line : forall uv, two_surfaces_without_common_line m' uv <-> two_surfaces_without_common_line m uv.
Proof. intros. unfold two_surfaces_without_common_line. rn. Qed.
Lemma n_line_vertex_off_border : forall uv, line_vertex_off_border m' uv <-> line_vertex_off_border m uv.
Proof. intros. unfold line_vertex_off_border. rn. Qed.

(** ** BReps *)
Lemma n_corner_in_block_and_elsewhere : forall uv, corner_in_block_and_elsewhere m' uv <-> corner_in_block_and_elsewhere m uv.
Proof. intros. unfold corner_in_block_and_elsewhere. rn. Qed.
Lemma n_corner_unrelated_to_line : forall uv, corner_unrelated_to_line m' uv <-> corner_unrelated_to_line m uv.
Proof.
  intros. unfold corner_unrelated_to_line. apply (iff_ex_via _ _ f g _ _ (n_f f g H)). intros c. apply (iff_ex_via _ _ f g _ _ (n_f f g H)). intros l.
  apply iff_and; [rn|]. apply iff_and; [rn|]. apply iff_and; [rn|]. apply iff_not, iff_and; [rn|]. apply (n_counts f m m' R). intros k. apply (n_eq f g H).
Qed.
Lemma n_embedding_wrong : forall uv l e, embedding_wrong m' uv (f l) (new_cid f e) <-> embedding_wrong m uv l e.
Proof. intros. unfold embedding_wrong. rn. Qed.
Lemma n_line_embedding_wrong : forall uv, line_embedding_wrong m' uv <-> line_embedding_wrong m uv.
Proof. intros. unfold line_embedding_wrong. rn. apply n_embedding_wrong. Qed.
Lemma n_block_embedding_wrong : forall uv, block_embedding_wrong m' uv <-> block_embedding_wrong m uv.
Proof. intros. unfold block_embedding_wrong. rn. apply n_embedding_wrong. Qed.
Lemma n_only_line_wrong : forall uv, only_line_wrong m' uv <-> only_line_wrong m uv.
Proof. intros. unfold only_line_wrong. rn. Qed.
Lemma n_edge_joins : forall c e a b, edge_joins m' (new_component f c) e a b <-> edge_joins m c e a b.
Proof. intros. unfold edge_joins. cbn [co_id new_component co_mesh]. setoid_rewrite (n_unique_vertex f m m' R). reflexivity. Qed.
Lemma n_first_edges_linked : forall uv, first_edges_linked m' uv <-> first_edges_linked m uv.
Proof. intros. unfold first_edges_linked. rn. apply n_edge_joins. Qed.
Lemma n_lines_inspectable : lines_inspectable m' <-> lines_inspectable m.
Proof. unfold lines_inspectable. rewrite (n_nb f m m' R). apply iff_all. intros uv. apply iff_imp; [reflexivity|]. apply iff_and; [apply iff_not, n_block_embedding_wrong|apply n_first_edges_linked]. Qed.
Lemma n_surface_badly_embedded : forall uv, surface_badly_embedded m' uv <-> surface_badly_embedded m uv.
Proof. intros. unfold surface_badly_embedded. rn. Qed.
Lemma n_two_active_surfaces : forall uv, two_active_surfaces m' uv <-> two_active_surfaces m uv.
Proof. intros. unfold two_active_surfaces. rn. Qed.
Lemma n_several_surfaces_wrong : forall uv, several_surfaces_wrong m' uv <-> several_surfaces_wrong m uv.
Proof.
  intros. unfold several_surfaces_wrong. apply iff_and; [apply n_two_active_surfaces|]. apply iff_or; [rn|].
  apply (iff_ex_via _ _ f g _ _ (n_f f g H)). intros l. apply (iff_ex_via _ _ (map f) (map g) _ _ (n_list_fg f g H)). intros ss.
  apply (iff_ex_via _ _ f g _ _ (n_f f g H)). intros c. apply iff_ex. intros r. apply iff_and; [rn|]. apply iff_and; [apply (n_counts f m m' R); reflexivity|].
  apply iff_and; [rn|]. apply iff_and; [rn|]. apply iff_and; [|rn]. apply counts_map. intros s. rn.
Qed.
Lemma n_related_line_vertex_off_border : forall uv, related_line_vertex_off_border m' uv <-> related_line_vertex_off_border m uv.
Proof. intros. unfold related_line_vertex_off_border. rn. Qed.
Lemma n_polygon_joins : forall c p uvs, polygon_joins m' (new_component f c) p uvs <-> polygon_joins m c p uvs.
Proof. intros. unfold polygon_joins. cbn [co_id new_component co_mesh]. split; intros K; (eapply Forall2_weaken; [|exact K]); cbn; intros v uv; rewrite (n_unique_vertex f m m' R); auto. Qed.

Context (tl tl' : TopoLookup) (T : renamed_topo f tl tl').
Lemma n_key_inj : forall x y, new_key f x = new_key f y -> x = y.
Proof. intros [a n] [b k]. unfold new_key. cbn. intros E. apply (f_equal fst) in E as E1. apply (f_equal snd) in E as E2. cbn in *. apply (n_inj f g H) in E1. congruence. Qed.
Lemma n_found_pair : forall l l' a n, Permutation (map (new_key f) l) l' -> (In (f a, n) l' <-> In (a, n) l).
Proof.
  intros l l' a n P. rewrite <- (in_map_inj _ _ (new_key f) n_key_inj (a, n) l). split; apply Permutation_in; [apply Permutation_sym|]; exact P.
Qed.
Lemma n_found_key : forall l l' a, Permutation (map (new_key f) l) l' -> (In (f a) (map fst l') <-> In a (map fst l)).
Proof.
  intros l l' a P. rewrite <- (n_in_map f g H a). assert (Q : Permutation (map f (map fst l)) (map fst l')).
  { rewrite <- P, !map_map. reflexivity. }
  split; apply Permutation_in; [apply Permutation_sym|]; exact Q.
Qed.
Lemma n_edges_of : forall l l' a n, Permutation (map (new_key f) l) l' -> (edges_of l' (f a) n <-> edges_of l a n).
Proof. intros l l' a n P. unfold edges_of. rewrite (n_found_pair l l' a n P), (n_found_key l l' a P). reflexivity. Qed.
Lemma n_edge0_wrong : forall l a b, edge0_wrong m' (f l) (tl_edges tl' a b) <-> edge0_wrong m l (tl_edges tl a b).
Proof.
  intros. unfold edge0_wrong. apply (iff_ex_via _ _ f g _ _ (n_f f g H)). intros s. apply iff_ex. intros n. apply iff_and; [rn|].
  apply iff_and; [apply n_edges_of, (rnt_edge_surfaces _ _ _ T)|]. apply iff_or; [rn|]. apply iff_or; [rn|]. apply iff_and; [rn|]. apply iff_and; [rn|]. apply n_found_key, (rnt_edge_surfaces _ _ _ T).
Qed.
Lemma n_line_relationship_wrong : forall uv, line_relationship_wrong tl' m' uv <-> line_relationship_wrong tl m uv.
Proof. intros. unfold line_relationship_wrong. rn; [apply n_edge_joins|apply n_edge0_wrong]. Qed.
Lemma n_edge_wrong : forall l a b, edge_wrong m' (f l) (tl_edges tl' a b) <-> edge_wrong m l (tl_edges tl a b).
Proof.
  intros. unfold edge_wrong. apply iff_or; [|apply iff_or; [|apply iff_or]].
  - apply (iff_ex_via _ _ f g _ _ (n_f f g H)). intros s. apply iff_ex. intros n. apply iff_and; [apply n_found_pair, (rnt_edge_surfaces _ _ _ T)|rn].
  - rn. apply n_found_key, (rnt_edge_surfaces _ _ _ T).
  - rn. apply n_found_pair, (rnt_edge_blocks _ _ _ T).
  - rn. apply n_found_key, (rnt_edge_blocks _ _ _ T).
Qed.
Lemma n_line_edge_wrong : forall c e, line_edge_wrong tl' m' (new_component f c) e <-> line_edge_wrong tl m c e.
Proof. intros. unfold line_edge_wrong. rn; [apply n_edge_joins|apply n_edge_wrong]. Qed.
Lemma n_surface_facet_wrong : forall c p, surface_facet_wrong tl' m' (new_component f c) p <-> surface_facet_wrong tl m c p.
Proof.
  intros. unfold surface_facet_wrong. apply iff_and; [rn|]. apply iff_ex. intros uvs. apply iff_and; [apply n_polygon_joins|]. unfold facet_wrong.
  apply (iff_ex_via _ _ f g _ _ (n_f f g H)). intros b. apply iff_ex. intros n. apply iff_and; [apply n_found_pair, (rnt_polygon_blocks _ _ _ T)|]. cbn [co_id new_component]. rn.
Qed.

(** ** Blocks *)
Lemma n_two_blocks_apart : forall uv, two_blocks_apart m' uv <-> two_blocks_apart m uv.
Proof. intros. unfold two_blocks_apart. rn. Qed.
Lemma n_closed_set : forall K, closed_set m' (fun s => K (g s)) <-> closed_set m K.
Proof.
  intros K. unfold closed_set. apply iff_and.
  - apply (iff_all_via _ _ f g _ _ (n_f f g H)). intros s. rewrite (n_g f g H). rn.
  - apply (iff_all_via _ _ f g _ _ (n_f f g H)). intros s. apply (iff_all_via _ _ f g _ _ (n_f f g H)). intros l. rewrite (n_g f g H). apply iff_imp; [reflexivity|]. apply iff_imp; [rn|].
    apply (iff_ex_via _ _ f g _ _ (n_f f g H)). intros s'. rewrite (n_g f g H). rn.
Qed.
Lemma n_in_closed_set : forall s, in_closed_set m' (f s) <-> in_closed_set m s.
Proof.
  intros s. unfold in_closed_set. split; intros (K & C & S).
  - exists (fun s => K (f s)). split; [|exact S]. apply n_closed_set. destruct C as [C1 C2]. split.
    + intros x. rewrite (n_f f g H). apply C1.
    + intros x l. rewrite (n_f f g H). intros Kx B. destruct (C2 x l Kx B) as (x' & Kx' & N & B'). exists x'. rewrite (n_f f g H). auto.
  - exists (fun s => K (g s)). split; [apply n_closed_set, C|]. rewrite (n_g f g H). exact S.
Qed.
Lemma n_dangling : forall s, dangling tl' m' (f s) <-> dangling tl m s.
Proof.
  intros s. unfold dangling. rn; [apply n_in_closed_set|]. rewrite (rnt_inside_block _ _ _ T). reflexivity.
Qed.
Lemma n_surface_relation_wrong : forall uv, surface_relation_wrong tl' m' uv <-> surface_relation_wrong tl m uv.
Proof. intros. unfold surface_relation_wrong, wrongly_bounding, without_relation. rn; [apply n_in_closed_set|apply n_dangling]. Qed.
Lemma n_only_surface_wrong : forall uv, only_surface_wrong m' uv <-> only_surface_wrong m uv.
Proof. intros. unfold only_surface_wrong. rn. apply n_in_closed_set. Qed.
Lemma n_boundary_has_free_line : forall b, boundary_has_free_line m' (f b) <-> boundary_has_free_line m b.
Proof. intros. unfold boundary_has_free_line. rn. Qed.
Lemma n_block_surfaces : forall b, block_surfaces m' (f b) = map f (block_surfaces m b).
Proof. intros b. unfold block_surfaces. rewrite (n_boundaries f g H m m' R), !map_map. reflexivity. Qed.
Lemma n_sides : forall b l k, sides m' (f b) (f l) k <-> sides m b l k.
Proof.
  intros. unfold sides. apply iff_ex. intros p. apply iff_ex. intros q. rewrite n_block_surfaces. apply iff_and; [apply counts_map; intros s; rn|]. apply iff_and; [apply counts_map; intros s; rn|reflexivity].
Qed.
Lemma n_free_of_blocks : forall l, free_of_blocks m' (f l) <-> free_of_blocks m l.
Proof. intros. unfold free_of_blocks. rn. Qed.
Lemma n_component : forall c t i, cmv_component (new_cmv f c) = mkCID t (f i) <-> cmv_component c = mkCID t i.
Proof.
  intros c t i. split; [|intros E; cbn; rewrite E; reflexivity]. intros E. apply (n_cid_inj f g H). exact E.
Qed.
Lemma n_line_sides : forall b c k, line_sides m' (f b) (new_cmv f c) k <-> line_sides m b c k.
Proof. intros. unfold line_sides. rn; try apply n_component; try apply n_free_of_blocks. apply n_sides. Qed.
Lemma n_line_within_block : forall b c, line_within_block m' (f b) (new_cmv f c) <-> line_within_block m b c.
Proof. intros. unfold line_within_block. rn; try apply n_component; try apply n_free_of_blocks. apply n_sides. Qed.
End Renaming.

Section Counts.
Context (f g : uuid -> uuid) (H : one_to_one f g) (m m' : Model) (R : renamed f m m').
Lemma n_block_counts : forall uv b (k : block_counts m uv b), exists k' : block_counts m' uv (f b), expected k' = expected k /\ (count_accepted k' <-> count_accepted k).
Proof.
  intros uv b [n1 n2 n3 n4 n5 n6 n7 n8 K1 K2 K3 K4 K5 K6 K7 K8].
  assert (K1' : counts (fun c => cmv_component c = mkCID BlockT (f b)) (component_mesh_vertices m' uv) n1).
  { eapply (n_counts f m m' R); [|exact K1]. intros c. apply (n_component f g H). }
  assert (K2' : counts (fun c => exists s, cmv_component c = mkCID SurfaceT s /\ bounds m' s (f b)) (component_mesh_vertices m' uv) n2).
  { eapply (n_counts f m m' R); [|exact K2]. intros c. apply (iff_ex_via _ _ f g _ _ (n_f f g H)). intros s. apply iff_and; [apply (n_component f g H)|apply (n_bounds f g H m m' R)]. }
  assert (K3' : counts (fun c => exists s, cmv_component c = mkCID SurfaceT s /\ inside m' s (f b) /\ ~ bounds m' s (f b)) (component_mesh_vertices m' uv) n3).
  { eapply (n_counts f m m' R); [|exact K3]. intros c. apply (iff_ex_via _ _ f g _ _ (n_f f g H)). intros s.
    apply iff_and; [apply (n_component f g H)|apply iff_and; [apply (n_inside f g H m m' R)|apply iff_not, (n_bounds f g H m m' R)]]. }
  assert (K4' : counts (fun c => cid_type (cmv_component c) = CornerT) (component_mesh_vertices m' uv) n4).
  { eapply (n_counts f m m' R); [|exact K4]. intros c. reflexivity. }
  assert (K5' : sums (line_sides m' (f b)) (component_mesh_vertices m' uv) n5).
  { eapply (n_sums f m m' R); [|exact K5]. intros c k. apply (n_line_sides f g H m m' R). }
  assert (K6' : sums (fun c e => exists k, line_sides m' (f b) c k /\ e = k - 1) (component_mesh_vertices m' uv) n6).
  { eapply (n_sums f m m' R); [|exact K6]. intros c e. apply iff_ex. intros k. apply iff_and; [apply (n_line_sides f g H m m' R)|reflexivity]. }
  assert (K7' : counts (fun c => exists k, line_sides m' (f b) c k /\ 2 <= k) (component_mesh_vertices m' uv) n7).
  { eapply (n_counts f m m' R); [|exact K7]. intros c. apply iff_ex. intros k. apply iff_and; [apply (n_line_sides f g H m m' R)|reflexivity]. }
  assert (K8' : counts (line_within_block m' (f b)) (component_mesh_vertices m' uv) n8).
  { eapply (n_counts f m m' R); [|exact K8]. intros c. apply (n_line_within_block f g H m m' R). }
  exists (mkBlockCounts m' uv (f b) n1 n2 n3 n4 n5 n6 n7 n8 K1' K2' K3' K4' K5' K6' K7' K8'). split; reflexivity.
Qed.
End Counts.
Lemma n_block_count_wrong : forall f g m m', one_to_one f g -> renamed f m m' -> forall uv, block_count_wrong m' uv <-> block_count_wrong m uv.
Proof.
  assert (K : forall f g m m', one_to_one f g -> renamed f m m' -> forall uv, block_count_wrong m uv -> block_count_wrong m' uv).
  { intros f g m m' H R uv (b & A & k & N). exists (f b). split; [apply (n_active_at f g H m m' R), A|]. destruct (n_block_counts f g H m m' R uv b k) as (k' & _ & E). exists k'. rewrite E. exact N. }
  intros f g m m' H R uv. split; [apply (K g f m' m (one_to_one_sym _ _ H) (renamed_sym _ _ _ _ H R))|apply (K f g m m' H R)].
Qed.
