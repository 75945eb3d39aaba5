(** The checks of one unique vertex, edge, polygon or block do not depend on the order of the components. *)
From Coq Require Import String Ascii List Arith NArith ZArith Bool Lia Permutation.
From Verif Require Import Base BaseFacts Model_Issues Types Model_Hash Model_Adjacency Model_Colocation Model_Degeneration Model_Manifold Model_Topology Model_BRep
  Model_Blocks Model_Results Spec_Colocation Proof_Colocation2 Spec_Order.
Import ListNotations.
Open Scope list_scope.

(** ** Congruence of the loops *)
Lemma bind_eq : forall A B (x y : outcome A) (f g : A -> outcome B), x = y -> (forall a, f a = g a) -> bind x f = bind y g.
Proof. intros A B x y f g -> E. destruct y; cbn [bind]; auto. Qed.
Lemma if_eq : forall A (b b' : bool) (x y x' y' : A), b = b' -> x = x' -> y = y' -> (if b then x else y) = (if b' then x' else y').
Proof. intros A b b' x y x' y' -> -> ->. reflexivity. Qed.
Lemma first_some_eq : forall A B (f g : A -> outcome (option B)) l l', l = l' -> (forall a, f a = g a) -> first_some f l = first_some g l'.
Proof. intros A B f g l l' <- E. induction l as [|a l IH]; [reflexivity|]. cbn [first_some]. rewrite E, IH. reflexivity. Qed.
Lemma anyM_eq : forall A (f g : A -> outcome bool) l l', l = l' -> (forall a, f a = g a) -> anyM f l = anyM g l'.
Proof. intros A f g l l' <- E. induction l as [|a l IH]; [reflexivity|]. cbn [anyM]. rewrite E, IH. reflexivity. Qed.
Lemma foldM_eq : forall A S (f g : S -> A -> outcome S) l l' s s', l = l' -> s = s' -> (forall s a, f s a = g s a) -> foldM f l s = foldM g l' s'.
Proof.
  intros A S f g l l' s s' <- <- E. revert s. induction l as [|a l IH]; intros s; [reflexivity|]. cbn [foldM]. rewrite E. apply bind_eq; auto.
Qed.
Lemma fold_left_eq : forall A S (f g : S -> A -> S) l l' s s', l = l' -> s = s' -> (forall s a, f s a = g s a) -> fold_left f l s = fold_left g l' s'.
Proof. intros A S f g l l' s s' <- <- E. revert s. induction l as [|a l IH]; intros s; [reflexivity|]. cbn [fold_left]. rewrite E. apply IH. Qed.
Lemma existsb_eq : forall A (f g : A -> bool) l l', l = l' -> (forall a, f a = g a) -> existsb f l = existsb g l'.
Proof. intros A f g l l' <- E. induction l as [|a l IH]; [reflexivity|]. cbn [existsb]. rewrite E, IH. reflexivity. Qed.
Lemma forallb_eq : forall A (f g : A -> bool) l l', l = l' -> (forall a, f a = g a) -> forallb f l = forallb g l'.
Proof. intros A f g l l' <- E. induction l as [|a l IH]; [reflexivity|]. cbn [forallb]. rewrite E, IH. reflexivity. Qed.
Lemma filter_eq : forall A (f g : A -> bool) l l', l = l' -> (forall a, f a = g a) -> filter f l = filter g l'.
Proof. intros A f g l l' <- E. induction l as [|a l IH]; [reflexivity|]. cbn [filter]. rewrite E, IH. reflexivity. Qed.
Lemma map_eq : forall A B (f g : A -> B) l l', l = l' -> (forall a, f a = g a) -> map f l = map g l'.
Proof. intros A B f g l l' <- E. apply map_ext, E. Qed.
Definition pointwise {A B} (f g : A -> B) : Prop := forall a, f a = g a.
Lemma all_pass_eq : forall l l' uv, Forall2 pointwise l l' -> all_pass l uv = all_pass l' uv.
Proof. intros l l' uv F. induction F as [|f g l l' E F IH]; [reflexivity|]. cbn [all_pass]. rewrite E. apply bind_eq; [reflexivity|]. intros a. rewrite IH. reflexivity. Qed.
Lemma allM_eq : forall A l l' (x : A), Forall2 pointwise l l' -> allM l x = allM l' x.
Proof. intros A l l' x F. induction F as [|f g l l' E F IH]; [reflexivity|]. cbn [allM]. rewrite E. apply bind_eq; [reflexivity|]. intros a. rewrite IH. reflexivity. Qed.
Lemma report_vertex_eq : forall l l' uv rs, Forall2 pointwise l l' -> report_vertex l uv rs = report_vertex l' uv rs.
Proof.
  intros l l' uv rs F. revert rs. induction F as [|f g l l' E F IH]; intros rs; [reflexivity|]. destruct rs as [|r rs]; [reflexivity|]. cbn [report_vertex]. rewrite E.
  apply bind_eq; [reflexivity|]. intros a. cbv zeta. rewrite IH. reflexivity.
Qed.

Ltac ord_step :=
  match goal with
  | |- ?x = ?x => reflexivity
  | |- bind _ _ = bind _ _ => apply bind_eq; [|intros]
  | |- first_some _ _ = first_some _ _ => apply first_some_eq; [|intros]
  | |- anyM _ _ = anyM _ _ => apply anyM_eq; [|intros]
  | |- foldM _ _ _ = foldM _ _ _ => apply foldM_eq; [| |intros]
  | |- fold_left _ _ _ = fold_left _ _ _ => apply fold_left_eq; [| |intros]
  | |- existsb _ _ = existsb _ _ => apply existsb_eq; [|intros]
  | |- forallb _ _ = forallb _ _ => apply forallb_eq; [|intros]
  | |- filter _ _ = filter _ _ => apply filter_eq; [|intros]
  | |- map _ _ = map _ _ => apply map_eq; [|intros]
  | |- all_pass _ _ = all_pass _ _ => apply all_pass_eq
  | |- allM _ _ = allM _ _ => apply allM_eq
  | |- report_vertex _ _ _ = report_vertex _ _ _ => apply report_vertex_eq
  | |- Forall2 pointwise _ _ => constructor
  | |- pointwise _ _ => intros ?
  | |- (if _ then _ else _) = (if _ then _ else _) => apply if_eq
  | |- match ?x with _ => _ end = match ?x with _ => _ end => destruct x
  | |- negb _ = negb _ => f_equal
  | |- andb _ _ = andb _ _ => f_equal
  | |- orb _ _ = orb _ _ => f_equal
  | |- Ok _ = Ok _ => f_equal
  | |- Some _ = Some _ => f_equal
  | |- StrCat _ = StrCat _ => f_equal
  | |- _ :: _ = _ :: _ => f_equal
  | |- (_, _) = (_, _) => f_equal
  | |- let _ := _ in _ = _ => cbv zeta
  | |- (let _ := _ in _) = _ => cbv zeta
  | |- match ?x with _ => _ end = match ?y with _ => _ end =>
      let E := fresh in assert (E : x = y) by (progress autorewrite with ord; reflexivity); rewrite E; clear E; destruct y
  end.
Ltac ord := repeat first [ ord_step | progress autorewrite with ord | reflexivity ].

(** ** Components of a reordered list *)
Lemma find_reordered : forall M (l l' : list (Component M)) id, Permutation l l' -> NoDup (map co_id l) -> find_component id l = find_component id l'.
Proof.
  intros M l l' id P N. assert (N' : NoDup (map co_id l')) by (eapply Permutation_NoDup; [apply Permutation_map; exact P|exact N]).
  destruct (find_component id l) as [c|] eqn:E.
  - apply find_component_Some in E as [I <-]. symmetry. apply find_component_In; [exact N'|]. eapply Permutation_in; eauto.
  - destruct (find_component id l') as [c|] eqn:E'; [|reflexivity]. apply find_component_Some in E' as [I <-].
    rewrite (find_component_In _ _ _ N) in E; [discriminate|]. eapply Permutation_in; [apply Permutation_sym; exact P|exact I].
Qed.
Lemma forallb_reordered : forall A (f : A -> bool) l l', Permutation l l' -> forallb f l = forallb f l'.
Proof.
  intros A f l l' P. apply eq_true_iff_eq. rewrite !forallb_forall. split; intros H x I; apply H.
  - eapply Permutation_in; [apply Permutation_sym; exact P|exact I].
  - eapply Permutation_in; [exact P|exact I].
Qed.
Lemma active_reordered : forall M (l l' : list (Component M)), Permutation l l' -> Permutation (active l) (active l').
Proof.
  intros M l l' P. unfold active. induction P; cbn [filter].
  - constructor.
  - destruct (co_active x); [apply perm_skip|]; assumption.
  - destruct (co_active x), (co_active y); try apply perm_swap; apply Permutation_refl.
  - eapply Permutation_trans; eauto.
Qed.

Section Order.
Context (m m' : Model) (H : reordered m m') (U : unique_ids m).
Lemma nodup_parts : NoDup (map co_id (m_corners m)) /\ NoDup (map co_id (m_lines m)) /\ NoDup (map co_id (m_surfaces m)) /\ NoDup (map co_id (m_blocks m)).
Proof.
  pose proof U as N. unfold unique_ids, all_ids in N.
  assert (L : forall (a b : list uuid), NoDup (a ++ b) -> NoDup a /\ NoDup b).
  { induction a as [|x a IH]; intros b D; cbn in D; [split; [constructor|exact D]|]. inversion D as [|y l Ny Nl]; subst. destruct (IH _ Nl) as [Na Nb].
    split; [|exact Nb]. constructor; [|exact Na]. intros I. apply Ny, in_or_app. left. exact I. }
  apply L in N as [N1 N]. apply L in N as [N2 N]. apply L in N as [N3 N4]. repeat split; assumption.
Qed.
Lemma unique_reordered : unique_ids m'.
Proof.
  unfold unique_ids, all_ids in *. eapply Permutation_NoDup; [|exact U].
  repeat apply Permutation_app; apply Permutation_map; apply H.
Qed.
Lemma o_corner : forall id, get_corner m id = get_corner m' id.
Proof. intros. unfold get_corner, or_throw. rewrite (ro_missing _ _ H), (find_reordered _ _ _ id (ro_corners _ _ H)) by apply nodup_parts. reflexivity. Qed.
Lemma o_line : forall id, get_line m id = get_line m' id.
Proof. intros. unfold get_line, or_throw. rewrite (ro_missing _ _ H), (find_reordered _ _ _ id (ro_lines _ _ H)) by apply nodup_parts. reflexivity. Qed.
Lemma o_surface : forall id, get_surface m id = get_surface m' id.
Proof. intros. unfold get_surface, or_throw. rewrite (ro_missing _ _ H), (find_reordered _ _ _ id (ro_surfaces _ _ H)) by apply nodup_parts. reflexivity. Qed.
Lemma o_block : forall id, get_block m id = get_block m' id.
Proof. intros. unfold get_block, or_throw. rewrite (ro_missing _ _ H), (find_reordered _ _ _ id (ro_blocks _ _ H)) by apply nodup_parts. reflexivity. Qed.
Lemma o_find_corner : forall id, find_component id (m_corners m) = find_component id (m_corners m').
Proof. intros. apply find_reordered; [apply H|apply nodup_parts]. Qed.
Lemma o_find_line : forall id, find_component id (m_lines m) = find_component id (m_lines m').
Proof. intros. apply find_reordered; [apply H|apply nodup_parts]. Qed.
Lemma o_find_surface : forall id, find_component id (m_surfaces m) = find_component id (m_surfaces m').
Proof. intros. apply find_reordered; [apply H|apply nodup_parts]. Qed.
Lemma o_find_block : forall id, find_component id (m_blocks m) = find_component id (m_blocks m').
Proof. intros. apply find_reordered; [apply H|apply nodup_parts]. Qed.
Lemma o_missing : m_missing_exn m = m_missing_exn m'. Proof. apply H. Qed.
Lemma o_uuid : m_uuid_string m = m_uuid_string m'. Proof. apply H. Qed.
Lemma o_point_string : m_point_string m = m_point_string m'. Proof. apply H. Qed.
Lemma o_cmv_string : m_cmv_string m = m_cmv_string m'. Proof. apply H. Qed.
Lemma o_cid_string : m_cid_string m = m_cid_string m'. Proof. apply H. Qed.
Lemma o_m_unique_vertex : m_unique_vertex m = m_unique_vertex m'. Proof. apply H. Qed.
Lemma o_model_boundaries : m_model_boundaries m = m_model_boundaries m'. Proof. apply H. Qed.
Lemma o_m_cmvs : m_cmvs m = m_cmvs m'. Proof. apply H. Qed.
Lemma o_boundary_rel : m_boundary_rel m = m_boundary_rel m'. Proof. apply H. Qed.
Lemma o_internal_rel : m_internal_rel m = m_internal_rel m'. Proof. apply H. Qed.
Hint Rewrite o_corner o_line o_surface o_block o_find_corner o_find_line o_find_surface o_find_block o_missing o_uuid o_point_string o_cmv_string o_cid_string
  o_m_unique_vertex o_model_boundaries o_m_cmvs o_boundary_rel o_internal_rel : ord.
Lemma o_title : forall name id, title m name id = title m' name id. Proof. intros. unfold title. ord. Qed.
Hint Rewrite o_title : ord.
Lemma o_named : forall name id, named m name id = named m' name id. Proof. intros. unfold named. ord. Qed.
Hint Rewrite o_named : ord.
Lemma o_nb_unique_vertices : nb_unique_vertices m = nb_unique_vertices m'. Proof. intros. unfold nb_unique_vertices. ord. Qed.
Hint Rewrite o_nb_unique_vertices : ord.
Lemma o_component_mesh_vertices : forall uv, component_mesh_vertices m uv = component_mesh_vertices m' uv. Proof. intros. unfold component_mesh_vertices. ord. Qed.
Hint Rewrite o_component_mesh_vertices : ord.
Lemma o_is_boundary : forall a b, is_boundary m a b = is_boundary m' a b. Proof. intros. unfold is_boundary. ord. Qed.
Hint Rewrite o_is_boundary : ord.
Lemma o_is_internal : forall a b, is_internal m a b = is_internal m' a b. Proof. intros. unfold is_internal. ord. Qed.
Hint Rewrite o_is_internal : ord.
Lemma o_boundaries : forall b, boundaries m b = boundaries m' b. Proof. intros. unfold boundaries. ord. Qed.
Hint Rewrite o_boundaries : ord.
Lemma o_incidences : forall b, incidences m b = incidences m' b. Proof. intros. unfold incidences. ord. Qed.
Hint Rewrite o_incidences : ord.
Lemma o_embeddings : forall b, embeddings m b = embeddings m' b. Proof. intros. unfold embeddings. ord. Qed.
Hint Rewrite o_embeddings : ord.
Lemma o_internals : forall b, internals m b = internals m' b. Proof. intros. unfold internals. ord. Qed.
Hint Rewrite o_internals : ord.
Lemma o_nb_boundaries : forall b, nb_boundaries m b = nb_boundaries m' b. Proof. intros. unfold nb_boundaries. ord. Qed.
Hint Rewrite o_nb_boundaries : ord.
Lemma o_nb_incidences : forall b, nb_incidences m b = nb_incidences m' b. Proof. intros. unfold nb_incidences. ord. Qed.
Hint Rewrite o_nb_incidences : ord.
Lemma o_nb_embeddings : forall b, nb_embeddings m b = nb_embeddings m' b. Proof. intros. unfold nb_embeddings. ord. Qed.
Hint Rewrite o_nb_embeddings : ord.
Lemma o_embeddings_of : forall t b, embeddings_of m t b = embeddings_of m' t b. Proof. intros. unfold embeddings_of. ord. Qed.
Hint Rewrite o_embeddings_of : ord.
Lemma o_nb_embeddings_of : forall t b, nb_embeddings_of m t b = nb_embeddings_of m' t b. Proof. intros. unfold nb_embeddings_of. ord. Qed.
Hint Rewrite o_nb_embeddings_of : ord.
Lemma o_component_is_active : forall id, component_is_active m id = component_is_active m' id. Proof. intros. unfold component_is_active. ord. Qed.
Hint Rewrite o_component_is_active : ord.
Lemma o_kind_is_active : forall t id, kind_is_active m t id = kind_is_active m' t id. Proof. intros. unfold kind_is_active. ord. Qed.
Hint Rewrite o_kind_is_active : ord.
Lemma o_is_active_of : forall t c, is_active_of m t c = is_active_of m' t c. Proof. intros. unfold is_active_of. ord. Qed.
Hint Rewrite o_is_active_of : ord.
Lemma o_kind_named : forall t id, kind_named m t id = kind_named m' t id. Proof. intros. unfold kind_named. ord. Qed.
Hint Rewrite o_kind_named : ord.
Lemma o_kind_title : forall t id, kind_title m t id = kind_title m' t id. Proof. intros. unfold kind_title. ord. Qed.
Hint Rewrite o_kind_title : ord.
Lemma o_components_uuids : forall uv t, components_uuids m uv t = components_uuids m' uv t. Proof. intros. unfold components_uuids. ord. Qed.
Hint Rewrite o_components_uuids : ord.
Lemma o_vertices_are_associated : forall c n, vertices_are_associated m c n = vertices_are_associated m' c n. Proof. intros. unfold vertices_are_associated. ord. Qed.
Hint Rewrite o_vertices_are_associated : ord.
Lemma o_vertices_not_associated : forall c n, vertices_not_associated m c n = vertices_not_associated m' c n. Proof. intros. unfold vertices_not_associated. ord. Qed.
Hint Rewrite o_vertices_not_associated : ord.
Lemma o_cmv_exists_in_section : forall c, cmv_exists_in_section m c = cmv_exists_in_section m' c. Proof. intros. unfold cmv_exists_in_section, in_mesh. ord. Qed.
Hint Rewrite o_cmv_exists_in_section : ord.
Lemma o_cmv_exists_in_brep : forall c, cmv_exists_in_brep m c = cmv_exists_in_brep m' c. Proof. intros. unfold cmv_exists_in_brep, in_mesh. ord. Qed.
Hint Rewrite o_cmv_exists_in_brep : ord.
Lemma o_linked_elsewhere : forall uv c, linked_elsewhere m uv c = linked_elsewhere m' uv c. Proof. intros. unfold linked_elsewhere. ord. Qed.
Hint Rewrite o_linked_elsewhere : ord.

(** ** Whole model *)
Lemma o_brep_blocks_are_meshed : brep_blocks_are_meshed m = brep_blocks_are_meshed m'.
Proof. apply forallb_reordered, H. Qed.
Lemma o_section_surfaces_are_meshed : section_surfaces_are_meshed m = section_surfaces_are_meshed m'.
Proof. apply forallb_reordered, H. Qed.
Hint Rewrite o_brep_blocks_are_meshed o_section_surfaces_are_meshed : ord.
Lemma o_meshed_linked : forall M t meshed nb (l l' : list (Component M)), Permutation l l' ->
  meshed_components_are_linked t meshed nb m l = meshed_components_are_linked t meshed nb m' l'.
Proof.
  intros M t meshed nb l l' P. unfold meshed_components_are_linked. rewrite (forallb_reordered _ _ _ _ (active_reordered _ _ _ P)). ord.
Qed.
Lemma o_section_meshed_components_are_linked : section_meshed_components_are_linked m = section_meshed_components_are_linked m'.
Proof. unfold section_meshed_components_are_linked. rewrite !(o_meshed_linked _ _ _ _ _ _ (ro_corners _ _ H)), !(o_meshed_linked _ _ _ _ _ _ (ro_lines _ _ H)), !(o_meshed_linked _ _ _ _ _ _ (ro_surfaces _ _ H)). reflexivity. Qed.
Lemma o_brep_meshed_components_are_linked : brep_meshed_components_are_linked m = brep_meshed_components_are_linked m'.
Proof. unfold brep_meshed_components_are_linked. rewrite o_section_meshed_components_are_linked, !(o_meshed_linked _ _ _ _ _ _ (ro_blocks _ _ H)). reflexivity. Qed.
Hint Rewrite o_section_meshed_components_are_linked o_brep_meshed_components_are_linked : ord.
Lemma o_right : forall ex uv cmvs, pointwise (ex m) (ex m') -> cmvs_are_right m ex uv cmvs = cmvs_are_right m' ex uv cmvs.
Proof. intros ex uv cmvs E. induction cmvs as [|c cs IH]; [reflexivity|]. cbn [cmvs_are_right]. rewrite E, IH. ord. Qed.
Lemma o_bijective : forall ex, pointwise (ex m) (ex m') -> unique_vertices_are_bijectively_linked m ex = unique_vertices_are_bijectively_linked m' ex.
Proof.
  intros ex E. unfold unique_vertices_are_bijectively_linked. apply bind_eq; [|reflexivity]. apply anyM_eq; [ord|]. intros uv. rewrite o_component_mesh_vertices.
  destruct (component_mesh_vertices m' uv); [reflexivity|]. rewrite (o_right _ _ _ E). reflexivity.
Qed.
Lemma o_wrong_link : forall ex uv r c, pointwise (ex m) (ex m') -> add_wrong_cmv_link m ex uv r c = add_wrong_cmv_link m' ex uv r c.
Proof. intros ex uv r c E. unfold add_wrong_cmv_link. cbv zeta. rewrite E. ord. Qed.
Lemma o_wrong_links : forall ex r, pointwise (ex m) (ex m') -> add_unique_vertices_with_wrong_cmv_link m ex r = add_unique_vertices_with_wrong_cmv_link m' ex r.
Proof.
  intros ex r E. unfold add_unique_vertices_with_wrong_cmv_link. apply foldM_eq; [ord|reflexivity|]. intros s uv. rewrite o_component_mesh_vertices.
  destruct (component_mesh_vertices m' uv); [reflexivity|]. apply foldM_eq; auto. intros. apply o_wrong_link, E.
Qed.
Lemma o_report_vertices : forall l l' ds, Forall2 pointwise l l' -> report_vertices m l ds = report_vertices m' l' ds.
Proof. intros l l' ds F. unfold report_vertices. apply foldM_eq; [ord|reflexivity|]. intros. apply report_vertex_eq, F. Qed.
Lemma o_every_vertex : forall l l', Forall2 pointwise l l' -> every_vertex m l = every_vertex m' l'.
Proof. intros l l' F. unfold every_vertex. apply bind_eq; [|reflexivity]. apply anyM_eq; [ord|]. intros. rewrite (allM_eq _ _ _ _ F). reflexivity. Qed.

(** ** Section *)
Lemma o_second_active_corner : forall found cmvs, second_active_corner m found cmvs = second_active_corner m' found cmvs.
Proof. intros found cmvs. revert found. induction cmvs as [|? ? IH]; intros; [reflexivity || ord|]. cbn [second_active_corner]. rewrite ?IH. ord; try (rewrite ?IH; reflexivity). Qed.
Hint Rewrite o_second_active_corner : ord.
Lemma o_unique_vertex_has_multiple_corners : forall uv, unique_vertex_has_multiple_corners m uv = unique_vertex_has_multiple_corners m' uv. Proof. intros. unfold unique_vertex_has_multiple_corners. ord. Qed.
Hint Rewrite o_unique_vertex_has_multiple_corners : ord.
Lemma o_corner_is_not_internal_nor_boundary : forall uv, corner_is_not_internal_nor_boundary m uv = corner_is_not_internal_nor_boundary m' uv. Proof. intros. unfold corner_is_not_internal_nor_boundary. ord. Qed.
Hint Rewrite o_corner_is_not_internal_nor_boundary : ord.
Lemma o_corner_has_multiple_embeddings : forall uv, corner_has_multiple_embeddings m uv = corner_has_multiple_embeddings m' uv. Proof. intros. unfold corner_has_multiple_embeddings. ord. Qed.
Hint Rewrite o_corner_has_multiple_embeddings : ord.
Lemma o_section_corner_is_part_of_line_but_not_boundary : forall uv, section_corner_is_part_of_line_but_not_boundary m uv = section_corner_is_part_of_line_but_not_boundary m' uv. Proof. intros. unfold section_corner_is_part_of_line_but_not_boundary. ord. Qed.
Hint Rewrite o_section_corner_is_part_of_line_but_not_boundary : ord.
Lemma o_section_corner_loop : forall all found cmvs, section_corner_loop m all found cmvs = section_corner_loop m' all found cmvs.
Proof. intros all found cmvs. revert found. induction cmvs as [|? ? IH]; intros; [reflexivity || ord|]. cbn [section_corner_loop]. rewrite ?IH. ord; try (rewrite ?IH; reflexivity). Qed.
Hint Rewrite o_section_corner_loop : ord.
Lemma o_section_corner_topology_is_valid : forall uv, section_corner_topology_is_valid m uv = section_corner_topology_is_valid m' uv. Proof. intros. unfold section_corner_topology_is_valid. ord. Qed.
Hint Rewrite o_section_corner_topology_is_valid : ord.
Lemma o_section_line_wrong_relationships : forall uv, section_line_wrong_relationships m uv = section_line_wrong_relationships m' uv. Proof. intros. unfold section_line_wrong_relationships. ord. Qed.
Hint Rewrite o_section_line_wrong_relationships : ord.
Lemma o_section_embedding_check : forall uv line e, section_embedding_check m uv line e = section_embedding_check m' uv line e. Proof. intros. unfold section_embedding_check. ord. Qed.
Hint Rewrite o_section_embedding_check : ord.
Lemma o_section_embedded_loop : forall uv cmvs, section_embedded_loop m uv cmvs = section_embedded_loop m' uv cmvs.
Proof. intros uv cmvs. induction cmvs as [|? ? IH]; intros; [reflexivity || ord|]. cbn [section_embedded_loop]. rewrite ?IH. ord; try (rewrite ?IH; reflexivity). Qed.
Hint Rewrite o_section_embedded_loop : ord.
Lemma o_section_invalid_embedded_line : forall uv, section_invalid_embedded_line m uv = section_invalid_embedded_line m' uv. Proof. intros. unfold section_invalid_embedded_line. ord. Qed.
Hint Rewrite o_section_invalid_embedded_line : ord.
Lemma o_section_invalid_single_line : forall uv, section_invalid_single_line m uv = section_invalid_single_line m' uv. Proof. intros. unfold section_invalid_single_line. ord. Qed.
Hint Rewrite o_section_invalid_single_line : ord.
Lemma o_count_lines_and_corner : forall cmvs nb corner, count_lines_and_corner m cmvs nb corner = count_lines_and_corner m' cmvs nb corner.
Proof. intros cmvs nb corner. revert nb corner. induction cmvs as [|? ? IH]; intros; [reflexivity || ord|]. cbn [count_lines_and_corner]. rewrite ?IH. ord; try (rewrite ?IH; reflexivity). Qed.
Hint Rewrite o_count_lines_and_corner : ord.
Lemma o_section_lines_but_not_corner : forall uv, section_lines_but_not_corner m uv = section_lines_but_not_corner m' uv. Proof. intros. unfold section_lines_but_not_corner. ord. Qed.
Hint Rewrite o_section_lines_but_not_corner : ord.
Lemma o_section_lines_topology_is_valid : forall uv, section_lines_topology_is_valid m uv = section_lines_topology_is_valid m' uv. Proof. intros. unfold section_lines_topology_is_valid. ord. Qed.
Hint Rewrite o_section_lines_topology_is_valid : ord.
Lemma o_section_invalid_embedded_surface : forall uv, section_invalid_embedded_surface m uv = section_invalid_embedded_surface m' uv. Proof. intros. unfold section_invalid_embedded_surface. ord. Qed.
Hint Rewrite o_section_invalid_embedded_surface : ord.
Lemma o_section_line_not_on_surface_border : forall uv, section_line_not_on_surface_border m uv = section_line_not_on_surface_border m' uv. Proof. intros. unfold section_line_not_on_surface_border. ord. Qed.
Hint Rewrite o_section_line_not_on_surface_border : ord.
Lemma o_section_surfaces_loop : forall uv cmvs, section_surfaces_loop m uv cmvs = section_surfaces_loop m' uv cmvs.
Proof. intros uv cmvs. induction cmvs as [|? ? IH]; intros; [reflexivity || ord|]. cbn [section_surfaces_loop]. rewrite ?IH. ord; try (rewrite ?IH; reflexivity). Qed.
Hint Rewrite o_section_surfaces_loop : ord.
Lemma o_section_vertex_surfaces_topology_is_valid : forall uv, section_vertex_surfaces_topology_is_valid m uv = section_vertex_surfaces_topology_is_valid m' uv. Proof. intros. unfold section_vertex_surfaces_topology_is_valid. ord. Qed.
Hint Rewrite o_section_vertex_surfaces_topology_is_valid : ord.

(** ** BRep *)
Lemma o_unique_vertices : forall c vs, unique_vertices m c vs = unique_vertices m' c vs.
Proof. intros c vs. induction vs as [|? ? IH]; intros; [reflexivity || ord|]. cbn [unique_vertices]. rewrite ?IH. ord; try (rewrite ?IH; reflexivity). Qed.
Hint Rewrite o_unique_vertices : ord.
Lemma o_component_mesh_edges : forall tl line e, component_mesh_edges tl m line e = component_mesh_edges tl m' line e. Proof. intros. unfold component_mesh_edges. ord. Qed.
Hint Rewrite o_component_mesh_edges : ord.
Lemma o_component_mesh_polygons : forall tl s p, component_mesh_polygons tl m s p = component_mesh_polygons tl m' s p. Proof. intros. unfold component_mesh_polygons. ord. Qed.
Hint Rewrite o_component_mesh_polygons : ord.
Lemma o_corner_is_multiply_embedded : forall uv, corner_is_multiply_embedded m uv = corner_is_multiply_embedded m' uv. Proof. intros. unfold corner_is_multiply_embedded. ord. Qed.
Hint Rewrite o_corner_is_multiply_embedded : ord.
Lemma o_brep_corner_is_part_of_line_but_not_boundary : forall uv, brep_corner_is_part_of_line_but_not_boundary m uv = brep_corner_is_part_of_line_but_not_boundary m' uv. Proof. intros. unfold brep_corner_is_part_of_line_but_not_boundary. ord. Qed.
Hint Rewrite o_brep_corner_is_part_of_line_but_not_boundary : ord.
Lemma o_brep_corner_loop : forall found cmvs, brep_corner_loop m found cmvs = brep_corner_loop m' found cmvs.
Proof. intros found cmvs. revert found. induction cmvs as [|? ? IH]; intros; [reflexivity || ord|]. cbn [brep_corner_loop]. rewrite ?IH. ord; try (rewrite ?IH; reflexivity). Qed.
Hint Rewrite o_brep_corner_loop : ord.
Lemma o_brep_corner_topology_is_valid : forall uv, brep_corner_topology_is_valid m uv = brep_corner_topology_is_valid m' uv. Proof. intros. unfold brep_corner_topology_is_valid. ord. Qed.
Hint Rewrite o_brep_corner_topology_is_valid : ord.
Lemma o_brep_embedding_check : forall uv line e, brep_embedding_check m uv line e = brep_embedding_check m' uv line e. Proof. intros. unfold brep_embedding_check. ord. Qed.
Hint Rewrite o_brep_embedding_check : ord.
Lemma o_brep_invalid_embedded_line : forall uv, brep_invalid_embedded_line m uv = brep_invalid_embedded_line m' uv. Proof. intros. unfold brep_invalid_embedded_line. ord. Qed.
Hint Rewrite o_brep_invalid_embedded_line : ord.
Lemma o_brep_invalid_single_line : forall uv, brep_invalid_single_line m uv = brep_invalid_single_line m' uv. Proof. intros. unfold brep_invalid_single_line. ord. Qed.
Hint Rewrite o_brep_invalid_single_line : ord.
Lemma o_brep_line_relationships : forall uv line cme, brep_line_relationships m uv line cme = brep_line_relationships m' uv line cme. Proof. intros. unfold brep_line_relationships. ord. Qed.
Hint Rewrite o_brep_line_relationships : ord.
Lemma o_brep_line_wrong_relationships : forall tl uv, brep_line_wrong_relationships tl m uv = brep_line_wrong_relationships tl m' uv. Proof. intros. unfold brep_line_wrong_relationships. ord. Qed.
Hint Rewrite o_brep_line_wrong_relationships : ord.
Lemma o_brep_lines_but_not_corner : forall uv, brep_lines_but_not_corner m uv = brep_lines_but_not_corner m' uv. Proof. intros. unfold brep_lines_but_not_corner. ord. Qed.
Hint Rewrite o_brep_lines_but_not_corner : ord.
Lemma o_line_edge_has_wrong_component_edges_around : forall tl line e, line_edge_has_wrong_component_edges_around tl m line e = line_edge_has_wrong_component_edges_around tl m' line e. Proof. intros. unfold line_edge_has_wrong_component_edges_around. ord. Qed.
Hint Rewrite o_line_edge_has_wrong_component_edges_around : ord.
Lemma o_brep_lines_topology_is_valid : forall tl uv, brep_lines_topology_is_valid tl m uv = brep_lines_topology_is_valid tl m' uv. Proof. intros. unfold brep_lines_topology_is_valid. ord. Qed.
Hint Rewrite o_brep_lines_topology_is_valid : ord.
Lemma o_brep_invalid_embedded_surface : forall uv, brep_invalid_embedded_surface m uv = brep_invalid_embedded_surface m' uv. Proof. intros. unfold brep_invalid_embedded_surface. ord. Qed.
Hint Rewrite o_brep_invalid_embedded_surface : ord.
Lemma o_count_active : forall t ids, count_active m t ids = count_active m' t ids. Proof. intros. unfold count_active. ord. Qed.
Hint Rewrite o_count_active : ord.
Lemma o_internal_corners_loop : forall uv surface_uuids found cmvs, internal_corners_loop m uv surface_uuids found cmvs = internal_corners_loop m' uv surface_uuids found cmvs.
Proof. intros uv surface_uuids found cmvs. revert found. induction cmvs as [|? ? IH]; intros; [reflexivity || ord|]. cbn [internal_corners_loop]. rewrite ?IH. ord; try (rewrite ?IH; reflexivity). Qed.
Hint Rewrite o_internal_corners_loop : ord.
Lemma o_count_line_relationships : forall surface_uuids cmvs, count_line_relationships m surface_uuids cmvs = count_line_relationships m' surface_uuids cmvs. Proof. intros. unfold count_line_relationships. ord. Qed.
Hint Rewrite o_count_line_relationships : ord.
Lemma o_brep_invalid_multiple_surfaces : forall uv, brep_invalid_multiple_surfaces m uv = brep_invalid_multiple_surfaces m' uv. Proof. intros. unfold brep_invalid_multiple_surfaces. ord. Qed.
Hint Rewrite o_brep_invalid_multiple_surfaces : ord.
Lemma o_brep_line_not_on_surface_border : forall uv, brep_line_not_on_surface_border m uv = brep_line_not_on_surface_border m' uv. Proof. intros. unfold brep_line_not_on_surface_border. ord. Qed.
Hint Rewrite o_brep_line_not_on_surface_border : ord.
Lemma o_surface_facet_has_wrong_component_facets_around : forall tl s p, surface_facet_has_wrong_component_facets_around tl m s p = surface_facet_has_wrong_component_facets_around tl m' s p. Proof. intros. unfold surface_facet_has_wrong_component_facets_around. ord. Qed.
Hint Rewrite o_surface_facet_has_wrong_component_facets_around : ord.
Lemma o_brep_surfaces_topology_is_valid : forall uv, brep_surfaces_topology_is_valid m uv = brep_surfaces_topology_is_valid m' uv. Proof. intros. unfold brep_surfaces_topology_is_valid. ord. Qed.
Hint Rewrite o_brep_surfaces_topology_is_valid : ord.

(** ** Blocks *)
Lemma o_two_surfaces_or_embedded_loop : forall line counter surfaces, two_surfaces_or_embedded_loop m line counter surfaces = two_surfaces_or_embedded_loop m' line counter surfaces.
Proof. intros line counter surfaces. revert counter. induction surfaces as [|? ? IH]; intros; [reflexivity || ord|]. cbn [two_surfaces_or_embedded_loop]. rewrite ?IH. ord; try (rewrite ?IH; reflexivity). Qed.
Hint Rewrite o_two_surfaces_or_embedded_loop : ord.
Lemma o_line_is_boundary_of_at_least_two_surfaces_or_one_embedding_surface : forall line surfaces, line_is_boundary_of_at_least_two_surfaces_or_one_embedding_surface m line surfaces = line_is_boundary_of_at_least_two_surfaces_or_one_embedding_surface m' line surfaces. Proof. intros. unfold line_is_boundary_of_at_least_two_surfaces_or_one_embedding_surface. ord. Qed.
Hint Rewrite o_line_is_boundary_of_at_least_two_surfaces_or_one_embedding_surface : ord.
Lemma o_is_line_incident_to_another_block_boundary_surface : forall line block boundary_surface, is_line_incident_to_another_block_boundary_surface m line block boundary_surface = is_line_incident_to_another_block_boundary_surface m' line block boundary_surface. Proof. intros. unfold is_line_incident_to_another_block_boundary_surface, each_surface. ord. Qed.
Hint Rewrite o_is_line_incident_to_another_block_boundary_surface : ord.
Lemma o_surface_boundaries_are_not_linked_to_another_block_boundary : forall surface block, surface_boundaries_are_not_linked_to_another_block_boundary m surface block = surface_boundaries_are_not_linked_to_another_block_boundary m' surface block. Proof. intros. unfold surface_boundaries_are_not_linked_to_another_block_boundary, each_line. ord. Qed.
Hint Rewrite o_surface_boundaries_are_not_linked_to_another_block_boundary : ord.
Lemma o_find_linked_processed_surface : forall s processed, find_linked_processed_surface m s processed = find_linked_processed_surface m' s processed. Proof. intros. unfold find_linked_processed_surface, each_line, each_surface. ord. Qed.
Hint Rewrite o_find_linked_processed_surface : ord.
Lemma o_linked_loop : forall fuel processed queue k, linked_loop fuel m processed queue k = linked_loop fuel m' processed queue k.
Proof.
  intros fuel. induction fuel as [|fuel IH]; intros; [reflexivity|]. cbn [linked_loop]. destruct queue as [|s q]; [reflexivity|]. rewrite o_find_linked_processed_surface.
  rewrite IH. apply if_eq; auto. apply if_eq; auto. apply bind_eq; auto. intros a. apply if_eq; auto.
Qed.
Hint Rewrite o_linked_loop : ord.
Lemma o_closed_linked_surfaces : forall to_process, closed_linked_surfaces m to_process = closed_linked_surfaces m' to_process. Proof. intros. unfold closed_linked_surfaces. ord. Qed.
Hint Rewrite o_closed_linked_surfaces : ord.
Lemma o_queue_with_block_boundaries : forall block, queue_with_block_boundaries m block = queue_with_block_boundaries m' block. Proof. intros. unfold queue_with_block_boundaries, each_surface. ord. Qed.
Hint Rewrite o_queue_with_block_boundaries : ord.
Lemma o_queue_with_model_boundaries : queue_with_model_boundaries m  = queue_with_model_boundaries m' . Proof. intros. unfold queue_with_model_boundaries. ord. Qed.
Hint Rewrite o_queue_with_model_boundaries : ord.
Lemma o_fuse_vertex : forall surface st v, fuse_vertex m surface st v = fuse_vertex m' surface st v. Proof. intros. unfold fuse_vertex. ord. Qed.
Hint Rewrite o_fuse_vertex : ord.
Lemma o_fuse_polygon : forall surface st vs, fuse_polygon m surface st vs = fuse_polygon m' surface st vs. Proof. intros. unfold fuse_polygon. ord. Qed.
Hint Rewrite o_fuse_polygon : ord.
Lemma o_fuse_brep_surfaces_from_list : forall surface_list, fuse_brep_surfaces_from_list m surface_list = fuse_brep_surfaces_from_list m' surface_list. Proof. intros. unfold fuse_brep_surfaces_from_list. ord. Qed.
Hint Rewrite o_fuse_brep_surfaces_from_list : ord.
Lemma o_linked_parts : forall fuel to_process, linked_parts fuel m to_process = linked_parts fuel m' to_process.
Proof.
  intros fuel. induction fuel as [|fuel IH]; intros [|s q]; try reflexivity. cbn [linked_parts]. rewrite o_closed_linked_surfaces. apply bind_eq; auto. intros r. rewrite IH. reflexivity.
Qed.
Hint Rewrite o_linked_parts : ord.
Lemma o_block_boundaries_are_closed : forall tl block, block_boundaries_are_closed tl m block = block_boundaries_are_closed tl m' block. Proof. intros. unfold block_boundaries_are_closed. ord. Qed.
Hint Rewrite o_block_boundaries_are_closed : ord.
Lemma o_brep_boundaries_are_closed : brep_boundaries_are_closed m  = brep_boundaries_are_closed m' . Proof. intros. unfold brep_boundaries_are_closed. ord. Qed.
Hint Rewrite o_brep_boundaries_are_closed : ord.
Lemma o_line_on_block_boundary_count : forall line block, line_on_block_boundary_count m line block = line_on_block_boundary_count m' line block. Proof. intros. unfold line_on_block_boundary_count, each_surface. ord. Qed.
Hint Rewrite o_line_on_block_boundary_count : ord.
Lemma o_line_is_inside_block : forall line block, line_is_inside_block m line block = line_is_inside_block m' line block. Proof. intros. unfold line_is_inside_block, each_surface. ord. Qed.
Hint Rewrite o_line_is_inside_block : ord.
Lemma o_count_line_cmv : forall block k c, count_line_cmv m block k c = count_line_cmv m' block k c. Proof. intros. unfold count_line_cmv, each_surface. ord. Qed.
Hint Rewrite o_count_line_cmv : ord.
Lemma o_count_surface_cmv : forall block k c, count_surface_cmv m block k c = count_surface_cmv m' block k c. Proof. intros. unfold count_surface_cmv. ord. Qed.
Hint Rewrite o_count_surface_cmv : ord.
Lemma o_first_block_position : forall block_cmvs, first_block_position m block_cmvs = first_block_position m' block_cmvs. Proof. intros. unfold first_block_position. ord. Qed.
Hint Rewrite o_first_block_position : ord.
Lemma o_expected_block_cmvs_and_error : forall uv block_id, expected_block_cmvs_and_error m uv block_id = expected_block_cmvs_and_error m' uv block_id. Proof. intros. unfold expected_block_cmvs_and_error. ord. Qed.
Hint Rewrite o_expected_block_cmvs_and_error : ord.
Lemma o_nb_expected_block_cmvs : forall uv block_id, nb_expected_block_cmvs m uv block_id = nb_expected_block_cmvs m' uv block_id. Proof. intros. unfold nb_expected_block_cmvs. ord. Qed.
Hint Rewrite o_nb_expected_block_cmvs : ord.
Lemma o_unique_vertex_is_part_of_two_blocks_and_no_boundary_surface : forall uv, unique_vertex_is_part_of_two_blocks_and_no_boundary_surface m uv = unique_vertex_is_part_of_two_blocks_and_no_boundary_surface m' uv. Proof. intros. unfold unique_vertex_is_part_of_two_blocks_and_no_boundary_surface. ord. Qed.
Hint Rewrite o_unique_vertex_is_part_of_two_blocks_and_no_boundary_surface : ord.
Lemma o_unique_vertex_block_cmvs_count_is_incorrect : forall uv, unique_vertex_block_cmvs_count_is_incorrect m uv = unique_vertex_block_cmvs_count_is_incorrect m' uv. Proof. intros. unfold unique_vertex_block_cmvs_count_is_incorrect. ord. Qed.
Hint Rewrite o_unique_vertex_block_cmvs_count_is_incorrect : ord.
Lemma o_brep_multiple_surfaces_invalid_line : forall uv, brep_multiple_surfaces_invalid_line m uv = brep_multiple_surfaces_invalid_line m' uv.
Proof.
  intros. unfold brep_multiple_surfaces_invalid_line. cbv zeta.
  assert (E : filter (fun s => negb (Nat.ltb (nb_incidences m s) 1 && Nat.ltb (nb_embeddings m s) 1)) (components_uuids m uv SurfaceT)
            = filter (fun s => negb (Nat.ltb (nb_incidences m' s) 1 && Nat.ltb (nb_embeddings m' s) 1)) (components_uuids m' uv SurfaceT)) by ord.
  rewrite E. ord.
Qed.
Hint Rewrite o_brep_multiple_surfaces_invalid_line : ord.
Lemma o_brep_blocks_topology_is_valid : forall uv, brep_blocks_topology_is_valid m uv = brep_blocks_topology_is_valid m' uv. Proof. intros. unfold brep_blocks_topology_is_valid. ord. Qed.
Hint Rewrite o_brep_blocks_topology_is_valid : ord.
Lemma o_inspect_block_boundaries : forall b, inspect_block_boundaries m b = inspect_block_boundaries m' b. Proof. intros. unfold inspect_block_boundaries, each_surface. ord. Qed.
Hint Rewrite o_inspect_block_boundaries : ord.
Lemma o_inspect_block_closedness : forall tl r b, inspect_block_closedness tl m r b = inspect_block_closedness tl m' r b. Proof. intros. unfold inspect_block_closedness. ord. Qed.
Hint Rewrite o_inspect_block_closedness : ord.
Lemma o_inspect_block_links : forall r b, inspect_block_links m r b = inspect_block_links m' r b. Proof. intros. unfold inspect_block_links. ord. Qed.
Hint Rewrite o_inspect_block_links : ord.

(** ** Yes/no queries on the topology *)
Lemma o_section_topology_is_valid : section_topology_is_valid m = section_topology_is_valid m'.
Proof.
  unfold section_topology_is_valid. rewrite (o_bijective cmv_exists_in_section) by (intros ?; apply o_cmv_exists_in_section). ord. apply o_every_vertex. ord.
Qed.
Lemma o_brep_topology_is_valid : forall tl, brep_topology_is_valid tl m = brep_topology_is_valid tl m'.
Proof.
  intros. unfold brep_topology_is_valid. rewrite (o_bijective cmv_exists_in_brep) by (intros ?; apply o_cmv_exists_in_brep). ord. apply o_every_vertex. ord.
Qed.

(** ** Unique vertices *)
Lemma o_model_cmv_point : forall c, model_cmv_point m c = model_cmv_point m' c. Proof. intros. unfold model_cmv_point. ord. Qed.
Hint Rewrite o_model_cmv_point : ord.
Lemma o_colocated_on_point : forall geo cmvs p, model_cmvs_are_colocated_on_point geo m cmvs p = model_cmvs_are_colocated_on_point geo m' cmvs p.
Proof. intros geo cmvs p. induction cmvs as [|c cs IH]; [reflexivity|]. cbn [model_cmvs_are_colocated_on_point]. rewrite IH. ord. Qed.
Lemma o_unique_vertex_point : forall cmvs, model_unique_vertex_point m cmvs = model_unique_vertex_point m' cmvs.
Proof. intros cmvs. induction cmvs as [|c cs IH]; [reflexivity|]. cbn [model_unique_vertex_point]. rewrite IH. ord. Qed.
Hint Rewrite o_colocated_on_point o_unique_vertex_point : ord.
Lemma o_uvc : uvc_create m = uvc_create m'. Proof. unfold uvc_create. ord. Qed.
Hint Rewrite o_uvc : ord.
Lemma o_linked_to_different : forall geo u uv, uv_linked_to_different_points geo m u uv = uv_linked_to_different_points geo m' u uv.
Proof. intros. unfold uv_linked_to_different_points. ord. Qed.
Hint Rewrite o_linked_to_different : ord.
Lemma o_has_different : forall geo, model_has_unique_vertices_linked_to_different_points geo m = model_has_unique_vertices_linked_to_different_points geo m'.
Proof. intros. unfold model_has_unique_vertices_linked_to_different_points. ord. Qed.
Lemma o_has_colocated : forall geo, model_has_colocated_unique_vertices geo m = model_has_colocated_unique_vertices geo m'.
Proof. intros. unfold model_has_colocated_unique_vertices. ord. Qed.
Lemma o_unique_vertices_report : forall geo, inspect_unique_vertices geo m = inspect_unique_vertices geo m'.
Proof.
  intros. unfold inspect_unique_vertices, colocated_unique_vertices_groups, unique_vertices_linked_to_different_points. cbv zeta. rewrite !o_uvc.
  assert (E : forall x, (let! u := uvc_create m' in foldM (fun r uv => let! b := uv_linked_to_different_points geo m u uv in
      Ok (if b then add_issue uv (StrCat ["unique vertex "; str uv; " is linked to several mesh vertices on different positions"]%string) r else r)) (Range (nb_unique_vertices m)) x)
    = (let! u := uvc_create m' in foldM (fun r uv => let! b := uv_linked_to_different_points geo m' u uv in
      Ok (if b then add_issue uv (StrCat ["unique vertex "; str uv; " is linked to several mesh vertices on different positions"]%string) r else r)) (Range (nb_unique_vertices m')) x)).
  { intros x. apply bind_eq; [reflexivity|]. intros u. apply foldM_eq; [ord|reflexivity|]. intros s uv. rewrite o_linked_to_different. reflexivity. }
  rewrite E. reflexivity.
Qed.
End Order.

(** what does not look at the components: proof by cases on both models *)
Ltac both_ordered m m' H :=
  let Hc := fresh "Hc" in let Hl := fresh "Hl" in let Hs := fresh "Hs" in let Hb := fresh "Hb" in
  destruct m, m', H as [Hc Hl Hs Hb ? ? ? ? ? ? ? ? ? ?]; cbn in Hc, Hl, Hs, Hb;
  repeat match goal with E : Types.m_model_boundaries _ = _ |- _ => cbn in E | E : Types.m_cmvs _ = _ |- _ => cbn in E
    | E : Types.m_unique_vertex _ = _ |- _ => cbn in E | E : Types.m_boundary_rel _ = _ |- _ => cbn in E | E : Types.m_internal_rel _ = _ |- _ => cbn in E
    | E : Types.m_missing_exn _ = _ |- _ => cbn in E | E : Types.m_uuid_string _ = _ |- _ => cbn in E | E : Types.m_point_string _ = _ |- _ => cbn in E
    | E : Types.m_cmv_string _ = _ |- _ => cbn in E | E : Types.m_cid_string _ = _ |- _ => cbn in E end; subst.
