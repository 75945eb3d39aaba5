(** The checks of one unique vertex only read what is around it. *)
From Coq Require Import String Ascii List Arith NArith ZArith Bool Lia.
From Verif Require Import Base BaseFacts Model_Issues Types Model_Hash Model_Adjacency Model_Colocation Model_Degeneration Model_Manifold Model_Topology Model_BRep
  Model_Blocks Model_Results Spec_Colocation Proof_Colocation2 Spec_Topology Spec_Reproducible Spec_Local Proof_Order.
Import ListNotations.
Open Scope list_scope.

(** ** Congruence *)
Definition told (uv uv' : nat) (x y : option string) : Prop :=
  match x, y with
  | None, None => True
  | Some s, Some s' => uv = uv' -> s = s'
  | _, _ => False
  end.
Lemma agree_bind : forall A B (x y : outcome A) (R : B -> B -> Prop) f g, x = y -> (forall a, agree R (f a) (g a)) -> agree R (bind x f) (bind y g).
Proof. intros A B x y R f g -> E. destruct y; cbn [bind]; [apply E|apply agree_throw|apply agree_ub]. Qed.
Lemma agree_bind2 : forall A B (Q : A -> A -> Prop) (x y : outcome A) (R : B -> B -> Prop) f g, agree Q x y -> (forall a b, Q a b -> agree R (f a) (g b)) ->
  agree R (bind x f) (bind y g).
Proof. intros A B Q x y R f g [a b q|e|] E; cbn [bind]; [apply E, q|apply agree_throw|apply agree_ub]. Qed.
Lemma agree_if : forall A (R : A -> A -> Prop) (b b' : bool) x y x' y', b = b' -> agree R x x' -> agree R y y' ->
  agree R (if b then x else y) (if b' then x' else y').
Proof. intros A R b b' x y x' y' -> E E'. destruct b'; assumption. Qed.
Lemma agree_first : forall A uv uv' (f g : A -> outcome (option string)) l l', l = l' -> (forall a, In a l -> agree (told uv uv') (f a) (g a)) ->
  agree (told uv uv') (first_some f l) (first_some g l').
Proof.
  intros A uv uv' f g l l' <- E. induction l as [|a l IH]; cbn [first_some]; [apply agree_ok; exact I|].
  eapply agree_bind2; [apply E; left; reflexivity|]. intros [s|] [s'|] T; cbn in T; try contradiction.
  - apply agree_ok. exact T.
  - apply IH. intros b I. apply E. right. exact I.
Qed.
Lemma agree_refl_eq : forall A (x y : outcome A), x = y -> agree eq x y.
Proof. intros A x y ->. destruct y; constructor; reflexivity. Qed.
Lemma agree_eq : forall A (x y : outcome A), agree eq x y -> x = y.
Proof. intros A x y [a b ->|e|]; reflexivity. Qed.

Ltac loc_step :=
  match goal with
  | |- agree _ (bind _ _) (bind _ _) => apply agree_bind; [|intros]
  | |- agree _ (first_some _ _) (first_some _ _) => apply agree_first; [|intros]
  | |- agree _ (if _ then _ else _) (if _ then _ else _) => apply agree_if
  | |- agree _ (match ?x with _ => _ end) (match ?x with _ => _ end) => destruct x
  | |- agree _ (match ?x with _ => _ end) (match ?y with _ => _ end) =>
      let E := fresh in assert (E : x = y) by (ord); rewrite E; clear E; destruct y
  | |- agree _ (Ok None) (Ok None) => apply agree_ok; exact I
  | |- agree _ (Ok (Some _)) (Ok (Some _)) => apply agree_ok; let E := fresh in cbn [told]; intros E; autorewrite with ord; rewrite ?E
  | |- agree _ UB UB => apply agree_ub
  | |- agree _ (let _ := _ in _) _ => cbv zeta
  | |- agree _ _ (let _ := _ in _) => cbv zeta
  end.
Ltac loc := repeat first [ loc_step | ord_step | progress autorewrite with ord | reflexivity ].

Section Local.
Context (m m' : Model) (H : same_frame m m') (U : unique_ids m).
Lemma l_missing : m_missing_exn m = m_missing_exn m'. Proof. apply H. Qed.
Lemma l_uuid : m_uuid_string m = m_uuid_string m'. Proof. apply H. Qed.
Lemma l_point_string : m_point_string m = m_point_string m'. Proof. apply H. Qed.
Lemma l_cmv_string : m_cmv_string m = m_cmv_string m'. Proof. apply H. Qed.
Lemma l_cid_string : m_cid_string m = m_cid_string m'. Proof. apply H. Qed.
Lemma l_boundary_rel : m_boundary_rel m = m_boundary_rel m'. Proof. apply H. Qed.
Lemma l_internal_rel : m_internal_rel m = m_internal_rel m'. Proof. apply H. Qed.
Hint Rewrite l_missing l_uuid l_point_string l_cmv_string l_cid_string l_boundary_rel l_internal_rel : ord.
Lemma l_title : forall name id, title m name id = title m' name id. Proof. intros. unfold title. ord. Qed.
Hint Rewrite l_title : ord.
Lemma l_named : forall name id, named m name id = named m' name id. Proof. intros. unfold named. ord. Qed.
Hint Rewrite l_named : ord.
Lemma l_is_boundary : forall a b, is_boundary m a b = is_boundary m' a b. Proof. intros. unfold is_boundary. ord. Qed.
Lemma l_is_internal : forall a b, is_internal m a b = is_internal m' a b. Proof. intros. unfold is_internal. ord. Qed.
Lemma l_boundaries : forall b, boundaries m b = boundaries m' b. Proof. intros. unfold boundaries. ord. Qed.
Lemma l_incidences : forall b, incidences m b = incidences m' b. Proof. intros. unfold incidences. ord. Qed.
Lemma l_embeddings : forall b, embeddings m b = embeddings m' b. Proof. intros. unfold embeddings. ord. Qed.
Hint Rewrite l_is_boundary l_is_internal l_boundaries l_incidences l_embeddings : ord.
Lemma l_nb_incidences : forall b, nb_incidences m b = nb_incidences m' b. Proof. intros. unfold nb_incidences. ord. Qed.
Lemma l_nb_embeddings : forall b, nb_embeddings m b = nb_embeddings m' b. Proof. intros. unfold nb_embeddings. ord. Qed.
Lemma l_embeddings_of : forall t b, embeddings_of m t b = embeddings_of m' t b. Proof. intros. unfold embeddings_of. ord. Qed.
Hint Rewrite l_nb_incidences l_nb_embeddings l_embeddings_of : ord.

(** ** Components *)
Lemma find_frame : forall M (filled : M -> Prop) (l l' : list (Component M)) id, Forall2 (same_header filled) l l' ->
  match find_component id l, find_component id l' with
  | Some c, Some c' => In c l /\ In c' l' /\ co_id c = id /\ co_id c' = id /\ same_header filled c c'
  | None, None => True
  | _, _ => False
  end.
Proof.
  intros M filled l l' id F. induction F as [|c c' l l' (E1 & E2 & E3 & E4) F IH]; cbn [find_component]; [exact I|]. rewrite <- E1.
  destruct (Nat.eqb_spec (co_id c) id) as [E|N].
  - repeat split; auto; try (left; reflexivity); try congruence; apply E4.
  - destruct (find_component id l), (find_component id l'); try contradiction; [|exact I]. destruct IH as (I1 & I2 & R). repeat split; try (right; assumption); apply R.
Qed.
(** a lookup followed by something that only looks at what the two components share *)
Lemma with_corner : forall B (R : B -> B -> Prop) id f f',
  (forall c c', In c (m_corners m) -> In c' (m_corners m') -> co_id c = id -> co_id c' = id -> co_active c = co_active c' -> co_name c = co_name c' -> agree R (f c) (f' c')) ->
  agree R (bind (get_corner m id) f) (bind (get_corner m' id) f').
Proof.
  intros B R id f f' E. unfold get_corner. pose proof (find_frame _ _ _ _ id (sf_corners _ _ H)) as F.
  destruct (find_component id (m_corners m)), (find_component id (m_corners m')); try contradiction; cbn [or_throw bind].
  - destruct F as (I1 & I2 & E1 & E2 & (_ & E3 & E4 & _)). apply E; assumption.
  - rewrite l_missing. apply agree_throw.
Qed.
Lemma with_line : forall B (R : B -> B -> Prop) id f f',
  (forall c c', In c (m_lines m) -> In c' (m_lines m') -> co_id c = id -> co_id c' = id -> co_active c = co_active c' -> co_name c = co_name c' -> agree R (f c) (f' c')) ->
  agree R (bind (get_line m id) f) (bind (get_line m' id) f').
Proof.
  intros B R id f f' E. unfold get_line. pose proof (find_frame _ _ _ _ id (sf_lines _ _ H)) as F.
  destruct (find_component id (m_lines m)), (find_component id (m_lines m')); try contradiction; cbn [or_throw bind].
  - destruct F as (I1 & I2 & E1 & E2 & (_ & E3 & E4 & _)). apply E; assumption.
  - rewrite l_missing. apply agree_throw.
Qed.
Lemma with_surface : forall B (R : B -> B -> Prop) id f f',
  (forall c c', In c (m_surfaces m) -> In c' (m_surfaces m') -> co_id c = id -> co_id c' = id -> co_active c = co_active c' -> co_name c = co_name c' ->
     (sm_polygons (co_mesh c) <> [] <-> sm_polygons (co_mesh c') <> []) -> agree R (f c) (f' c')) ->
  agree R (bind (get_surface m id) f) (bind (get_surface m' id) f').
Proof.
  intros B R id f f' E. unfold get_surface. pose proof (find_frame _ _ _ _ id (sf_surfaces _ _ H)) as F.
  destruct (find_component id (m_surfaces m)), (find_component id (m_surfaces m')); try contradiction; cbn [or_throw bind].
  - destruct F as (I1 & I2 & E1 & E2 & (_ & E3 & E4 & E5)). apply E; assumption.
  - rewrite l_missing. apply agree_throw.
Qed.
Lemma with_block : forall B (R : B -> B -> Prop) id f f',
  (forall c c', In c (m_blocks m) -> In c' (m_blocks m') -> co_id c = id -> co_id c' = id -> co_active c = co_active c' -> co_name c = co_name c' -> agree R (f c) (f' c')) ->
  agree R (bind (get_block m id) f) (bind (get_block m' id) f').
Proof.
  intros B R id f f' E. unfold get_block. pose proof (find_frame _ _ _ _ id (sf_blocks _ _ H)) as F.
  destruct (find_component id (m_blocks m)), (find_component id (m_blocks m')); try contradiction; cbn [or_throw bind].
  - destruct F as (I1 & I2 & E1 & E2 & (_ & E3 & E4 & _)). apply E; assumption.
  - rewrite l_missing. apply agree_throw.
Qed.
Ltac pick := first [apply with_corner|apply with_line|apply with_surface|apply with_block]; intros.
Ltac locp := repeat first [ pick | loc_step | ord_step | progress autorewrite with ord | reflexivity ].
Lemma l_kind_is_active : forall t id, kind_is_active m t id = kind_is_active m' t id.
Proof. intros t id. apply agree_eq. unfold kind_is_active. destruct t; try (pick; apply agree_ok; assumption). rewrite l_missing. apply agree_throw. Qed.
Lemma l_kind_named : forall t id, kind_named m t id = kind_named m' t id.
Proof. intros t id. apply agree_eq. unfold kind_named. destruct t; try (pick; apply agree_ok; rewrite l_named; congruence). rewrite l_missing. apply agree_throw. Qed.
Lemma l_kind_title : forall t id, kind_title m t id = kind_title m' t id.
Proof. intros t id. apply agree_eq. unfold kind_title. destruct t; try (pick; apply agree_ok; rewrite l_title; congruence). rewrite l_missing. apply agree_throw. Qed.
Hint Rewrite l_kind_is_active l_kind_named l_kind_title : ord.
Lemma l_is_active_of : forall t c, is_active_of m t c = is_active_of m' t c. Proof. intros. unfold is_active_of. ord. Qed.
Hint Rewrite l_is_active_of : ord.
Lemma forallb_frame : forall M (filled : M -> Prop) (f : Component M -> bool) l l', Forall2 (same_header filled) l l' ->
  (forall c, f c = true <-> filled (co_mesh c)) -> forallb f l = forallb f l'.
Proof.
  intros M filled f l l' F E. induction F as [|c c' l l' (_ & _ & _ & E4) F IH]; [reflexivity|]. cbn [forallb]. rewrite IH. f_equal. apply eq_true_iff_eq.
  rewrite !E. exact E4.
Qed.
Lemma l_blocks_meshed : brep_blocks_are_meshed m = brep_blocks_are_meshed m'.
Proof.
  apply (forallb_frame _ _ _ _ _ (sf_blocks _ _ H)). intros c. unfold nb_polyhedra. destruct (so_polyhedra (co_mesh c)); cbn; split; intros E; congruence.
Qed.
Lemma l_surfaces_meshed : section_surfaces_are_meshed m = section_surfaces_are_meshed m'.
Proof.
  apply (forallb_frame _ _ _ _ _ (sf_surfaces _ _ H)). intros c. unfold nb_polygons. destruct (sm_polygons (co_mesh c)); cbn; split; intros E; congruence.
Qed.
Hint Rewrite l_blocks_meshed l_surfaces_meshed : ord.
Lemma l_component_is_active : forall id, component_is_active m id = component_is_active m' id.
Proof.
  intros id. unfold component_is_active.
  pose proof (find_frame _ _ _ _ id (sf_corners _ _ H)) as F. destruct (find_component id (m_corners m)), (find_component id (m_corners m')); try contradiction.
  { destruct F as (_ & _ & _ & _ & (_ & E & _)). rewrite E. reflexivity. } clear F.
  pose proof (find_frame _ _ _ _ id (sf_lines _ _ H)) as F. destruct (find_component id (m_lines m)), (find_component id (m_lines m')); try contradiction.
  { destruct F as (_ & _ & _ & _ & (_ & E & _)). rewrite E. reflexivity. } clear F.
  pose proof (find_frame _ _ _ _ id (sf_surfaces _ _ H)) as F. destruct (find_component id (m_surfaces m)), (find_component id (m_surfaces m')); try contradiction.
  { destruct F as (_ & _ & _ & _ & (_ & E & _)). rewrite E. reflexivity. } clear F.
  pose proof (find_frame _ _ _ _ id (sf_blocks _ _ H)) as F. destruct (find_component id (m_blocks m)), (find_component id (m_blocks m')); try contradiction.
  { destruct F as (_ & _ & _ & _ & (_ & E & _)). rewrite E. reflexivity. } ord.
Qed.
Hint Rewrite l_component_is_active : ord.

Section Vertex.
Context (uv uv' : nat) (V : same_vertex m m' uv uv').
Notation same := (agree (told uv uv')).
Lemma l_cmvs : component_mesh_vertices m uv = component_mesh_vertices m' uv'. Proof. apply V. Qed.
Hint Rewrite l_cmvs : ord.
Lemma l_uuids : forall t, components_uuids m uv t = components_uuids m' uv' t. Proof. intros. unfold components_uuids. ord. Qed.
Hint Rewrite l_uuids : ord.

(** *** Corners *)
Lemma l_second : forall found cmvs, second_active_corner m found cmvs = second_active_corner m' found cmvs.
Proof. intros found cmvs. revert found. induction cmvs as [|? ? IH]; intros; [reflexivity|]. cbn [second_active_corner]. rewrite ?IH. ord; try (rewrite ?IH; reflexivity). Qed.
Hint Rewrite l_second : ord.
Lemma l_multiple_corners : same (unique_vertex_has_multiple_corners m uv) (unique_vertex_has_multiple_corners m' uv').
Proof.
  unfold unique_vertex_has_multiple_corners. apply agree_bind; [ord|]. intros [|]; loc.
Qed.
Lemma l_neither : same (corner_is_not_internal_nor_boundary m uv) (corner_is_not_internal_nor_boundary m' uv').
Proof. unfold corner_is_not_internal_nor_boundary. loc. Qed.
Lemma l_multiple_embeddings : same (corner_has_multiple_embeddings m uv) (corner_has_multiple_embeddings m' uv').
Proof. unfold corner_has_multiple_embeddings. loc. Qed.
Lemma l_section_corner_line : same (section_corner_is_part_of_line_but_not_boundary m uv) (section_corner_is_part_of_line_but_not_boundary m' uv').
Proof. unfold section_corner_is_part_of_line_but_not_boundary. loc. Qed.
Lemma l_multiply_embedded : same (corner_is_multiply_embedded m uv) (corner_is_multiply_embedded m' uv').
Proof. unfold corner_is_multiply_embedded. loc. Qed.
Lemma l_brep_corner_line : same (brep_corner_is_part_of_line_but_not_boundary m uv) (brep_corner_is_part_of_line_but_not_boundary m' uv').
Proof. unfold brep_corner_is_part_of_line_but_not_boundary. loc. Qed.
Lemma l_section_corner_loop : forall all found cmvs, section_corner_loop m all found cmvs = section_corner_loop m' all found cmvs.
Proof. intros all found cmvs. revert found. induction cmvs as [|? ? IH]; intros; [reflexivity|]. cbn [section_corner_loop]. rewrite ?IH. ord; try (rewrite ?IH; reflexivity). Qed.
Lemma l_section_corner : section_corner_topology_is_valid m uv = section_corner_topology_is_valid m' uv'.
Proof. unfold section_corner_topology_is_valid. rewrite l_section_corner_loop. ord. Qed.
Lemma l_brep_corner_loop : forall found cmvs, brep_corner_loop m found cmvs = brep_corner_loop m' found cmvs.
Proof. intros found cmvs. revert found. induction cmvs as [|? ? IH]; intros; [reflexivity|]. cbn [brep_corner_loop]. rewrite ?IH. ord; try (rewrite ?IH; reflexivity). Qed.
Lemma l_all_pass : forall l l', Forall2 (fun f g => same (f uv) (g uv')) l l' -> all_pass l uv = all_pass l' uv'.
Proof.
  intros l l' F. apply agree_eq. induction F as [|f g l l' E F IH]; cbn [all_pass]; [apply agree_ok; reflexivity|].
  eapply agree_bind2; [exact E|]. intros [s|] [s'|] T; cbn in T; try contradiction; cbn [is_none]; [apply agree_ok; reflexivity|exact IH].
Qed.
Lemma l_brep_corner : brep_corner_topology_is_valid m uv = brep_corner_topology_is_valid m' uv'.
Proof.
  unfold brep_corner_topology_is_valid. rewrite l_brep_corner_loop. apply bind_eq; [ord|]. intros b. apply if_eq; [reflexivity|reflexivity|].
  apply l_all_pass. repeat constructor; [apply l_multiply_embedded|apply l_brep_corner_line].
Qed.

(** *** Lines *)
Lemma l_line_wrong : same (section_line_wrong_relationships m uv) (section_line_wrong_relationships m' uv').
Proof. unfold section_line_wrong_relationships. loc. Qed.
Lemma l_section_embedding : forall line e, same (section_embedding_check m uv line e) (section_embedding_check m' uv' line e).
Proof. intros. unfold section_embedding_check. loc. Qed.
Lemma l_section_embedded_loop : forall cmvs, same (section_embedded_loop m uv cmvs) (section_embedded_loop m' uv' cmvs).
Proof.
  intros cmvs. induction cmvs as [|c cs IH]; cbn [section_embedded_loop]; [apply agree_ok; exact I|]. apply agree_bind; [ord|]. intros a.
  apply agree_if; [reflexivity|exact IH|]. apply agree_if; [ord|apply agree_ok; exact I|]. apply agree_if; [ord|loc|]. apply agree_if; [ord|loc|].
  eapply agree_bind2; [apply agree_first; [ord|intros e _; apply l_section_embedding]|]. intros [s|] [s'|] T; cbn in T; try contradiction; [apply agree_ok; exact T|exact IH].
Qed.
Lemma l_section_embedded : same (section_invalid_embedded_line m uv) (section_invalid_embedded_line m' uv').
Proof. unfold section_invalid_embedded_line. rewrite l_cmvs. apply l_section_embedded_loop. Qed.
Lemma l_section_single : same (section_invalid_single_line m uv) (section_invalid_single_line m' uv').
Proof. unfold section_invalid_single_line. loc. Qed.
Lemma l_count_lines : forall cmvs nb corner, count_lines_and_corner m cmvs nb corner = count_lines_and_corner m' cmvs nb corner.
Proof. intros cmvs. induction cmvs as [|? ? IH]; intros; [reflexivity|]. cbn [count_lines_and_corner]. rewrite ?IH. ord; try (rewrite ?IH; reflexivity). Qed.
Lemma l_no_corner : same (section_lines_but_not_corner m uv) (section_lines_but_not_corner m' uv').
Proof. unfold section_lines_but_not_corner. rewrite l_count_lines, l_cmvs. apply agree_bind; [reflexivity|]. intros [nb corner]. destruct (_ && _); loc. Qed.
Lemma l_section_lines : section_lines_topology_is_valid m uv = section_lines_topology_is_valid m' uv'.
Proof.
  unfold section_lines_topology_is_valid. rewrite l_cmvs.
  apply bind_eq; [ord|]. intros b. apply if_eq; [reflexivity|reflexivity|].
  apply l_all_pass. repeat constructor; auto using l_line_wrong, l_section_embedded, l_section_single, l_no_corner.
Qed.

(** *** Surfaces of a Section *)
Lemma l_section_two : same (section_invalid_embedded_surface m uv) (section_invalid_embedded_surface m' uv').
Proof. unfold section_invalid_embedded_surface. loc. Qed.
Lemma l_on_border : forall c s s', In c (component_mesh_vertices m uv) -> of_type SurfaceT c = true -> In s (m_surfaces m) -> In s' (m_surfaces m') ->
  co_id s = cmv_id c -> co_id s' = cmv_id c -> sm_vertex_on_border (co_mesh s) (cmv_vertex c) = sm_vertex_on_border (co_mesh s') (cmv_vertex c).
Proof.
  intros [[t id] v] s s' I O Is Is' E E'. unfold of_type, cmv_type, cmv_id in *. cbn [cmv_component cid_type cid_id cmv_vertex] in *.
  destruct t; try discriminate. apply (sv_borders _ _ _ _ V); [assumption|assumption|congruence|]. rewrite E. exact I.
Qed.
Lemma l_section_border : same (section_line_not_on_surface_border m uv) (section_line_not_on_surface_border m' uv').
Proof.
  unfold section_line_not_on_surface_border. apply agree_if; [ord|apply agree_ok; exact I|]. apply agree_first; [ord|]. intros l Il. apply agree_bind; [ord|]. intros a.
  apply agree_if; [reflexivity|apply agree_ok; exact I|]. apply agree_first; [ord|]. intros c Ic. unfold is_active_of. destruct (of_type SurfaceT c) eqn:O.
  - apply agree_bind; [ord|]. intros b. apply agree_if; [reflexivity|apply agree_ok; exact I|]. pick.
    rewrite (l_on_border c c0 c'); auto. loc.
  - cbn [bind negb]. apply agree_ok. exact I.
Qed.
Lemma l_section_surfaces_loop : forall cmvs, section_surfaces_loop m uv cmvs = section_surfaces_loop m' uv' cmvs.
Proof.
  intros cmvs. induction cmvs as [|c cs IH]; [reflexivity|]. cbn [section_surfaces_loop]. apply bind_eq; [ord|]. intros a. apply if_eq; [reflexivity|exact IH|].
  apply bind_eq; [|intros b; apply if_eq; [reflexivity|reflexivity|exact IH]].
  apply l_all_pass. repeat constructor; [apply l_section_two|apply l_section_border].
Qed.
Lemma l_section_surfaces : section_vertex_surfaces_topology_is_valid m uv = section_vertex_surfaces_topology_is_valid m' uv'.
Proof. unfold section_vertex_surfaces_topology_is_valid. rewrite l_cmvs. apply l_section_surfaces_loop. Qed.

(** *** Lines of a BRep *)
Lemma l_brep_embedding : forall line e, same (brep_embedding_check m uv line e) (brep_embedding_check m' uv' line e).
Proof. intros. unfold brep_embedding_check. loc. Qed.
Lemma l_brep_embedded : same (brep_invalid_embedded_line m uv) (brep_invalid_embedded_line m' uv').
Proof. unfold brep_invalid_embedded_line. loc. apply l_brep_embedding. Qed.
Lemma l_brep_single : same (brep_invalid_single_line m uv) (brep_invalid_single_line m' uv').
Proof.
  unfold brep_invalid_single_line. locp.
Qed.
Lemma l_line_relationships : forall line cme, same (brep_line_relationships m uv line cme) (brep_line_relationships m' uv' line cme).
Proof.
  intros. unfold brep_line_relationships. apply agree_bind; [ord|]. intros n.
  apply (agree_bind2 _ _ (told uv uv')); [apply agree_first; [ord|]; intros e _; loc|]. intros [s|] [s'|] T; cbn in T; try contradiction; [apply agree_ok; exact T|].
  apply (agree_bind2 _ _ (told uv uv')); [apply agree_first; [ord|]; intros e _; loc|]. intros [s|] [s'|] T'; cbn in T'; try contradiction; [apply agree_ok; exact T'|].
  loc.
Qed.
Lemma l_line_wrong_brep : forall tl tl', same_first_edges tl tl' m m' uv -> same (brep_line_wrong_relationships tl m uv) (brep_line_wrong_relationships tl' m' uv').
Proof.
  intros tl tl' FE. unfold brep_line_wrong_relationships. apply agree_first; [ord|]. intros c Ic. unfold is_active_of. destruct (of_type LineT c) eqn:O.
  - apply agree_bind; [ord|]. intros a. apply agree_if; [reflexivity|apply agree_ok; exact I|]. pick.
    assert (A : at_vertex m uv LineT (co_id c0)).
    { exists (cmv_vertex c). rewrite H2. destruct c as [[t id] v]. unfold of_type, cmv_type, cmv_id in *. cbn [cmv_component cid_type cid_id cmv_vertex] in *.
      destruct t; try discriminate. exact Ic. }
    assert (E : co_id c0 = co_id c') by congruence.
    destruct (FE c0 c' H0 H1 E A) as [E1 E2]. rewrite E2.
    apply agree_if; [|apply agree_ok; exact I|apply agree_bind; [reflexivity|intros; apply l_line_relationships]].
    destruct (ec_edges (co_mesh c0)), (ec_edges (co_mesh c')); cbn; try reflexivity; exfalso.
    + destruct E1 as [E1 _]. discriminate (E1 eq_refl).
    + destruct E1 as [_ E1]. discriminate (E1 eq_refl).
  - cbn [bind negb]. apply agree_ok. exact I.
Qed.
Lemma l_brep_lines : forall tl tl', same_first_edges tl tl' m m' uv -> brep_lines_topology_is_valid tl m uv = brep_lines_topology_is_valid tl' m' uv'.
Proof.
  intros tl tl' FE. unfold brep_lines_topology_is_valid. rewrite l_cmvs. apply bind_eq; [ord|]. intros b. apply if_eq; [reflexivity|reflexivity|].
  apply l_all_pass. repeat constructor; auto using l_brep_embedded, l_brep_single, l_no_corner. apply l_line_wrong_brep, FE.
Qed.

(** *** Surfaces of a BRep *)
Lemma l_brep_embedded_surface : same (brep_invalid_embedded_surface m uv) (brep_invalid_embedded_surface m' uv').
Proof. unfold brep_invalid_embedded_surface. loc. Qed.
Lemma l_count_active : forall t ids, count_active m t ids = count_active m' t ids. Proof. intros. unfold count_active. ord. Qed.
Hint Rewrite l_count_active : ord.
Lemma l_corner_point : forall c k k', In c (component_mesh_vertices m uv) -> of_type CornerT c = true -> In k (m_corners m) -> In k' (m_corners m') ->
  co_id k = cmv_id c -> co_id k' = cmv_id c -> unique_ids m' -> nth_error (ps_points (co_mesh k)) (cmv_vertex c) = nth_error (ps_points (co_mesh k')) (cmv_vertex c).
Proof.
  intros [[t id] v] k k' Ic O Ik Ik' E E' U'. unfold of_type, cmv_type, cmv_id in *. cbn [cmv_component cid_type cid_id cmv_vertex] in *.
  destruct t; try discriminate. subst id.
  assert (P : forall p, nth_error (ps_points (co_mesh k)) v = Some p <-> nth_error (ps_points (co_mesh k')) v = Some p).
  { intros p. pose proof (sv_positions _ _ _ _ V _ p Ic) as S. split; intros N.
    - assert (HP : has_position m (mkCMV (mkCID CornerT (co_id k)) v) p) by (constructor; assumption). apply S in HP. inversion HP as [c w q I1 I2| | |]; subst.
      assert (c = k'); [|subst; assumption]. pose proof (unique_ids_facts m' U') as [N1 _ _ _ _ _ _].
      pose proof (find_component_In _ _ c N1 I1) as F1. pose proof (find_component_In _ _ k' N1 Ik') as F2. congruence.
    - assert (HP : has_position m' (mkCMV (mkCID CornerT (co_id k')) v) p) by (constructor; assumption). rewrite E' in HP. apply S in HP. inversion HP as [c w q I1 I2| | |]; subst.
      assert (c = k); [|subst; assumption]. pose proof (unique_ids_facts m U) as [N1 _ _ _ _ _ _].
      pose proof (find_component_In _ _ c N1 I1) as F1. pose proof (find_component_In _ _ k N1 Ik) as F2. congruence. }
  destruct (nth_error (ps_points (co_mesh k)) v) as [p|]; [symmetry; apply P; reflexivity|].
  destruct (nth_error (ps_points (co_mesh k')) v) as [p|]; [apply P; reflexivity|reflexivity].
Qed.
Lemma l_internal_corners : unique_ids m' -> forall surfaces cmvs found, incl cmvs (component_mesh_vertices m uv) ->
  same (internal_corners_loop m uv surfaces found cmvs) (internal_corners_loop m' uv' surfaces found cmvs).
Proof.
  intros U' surfaces cmvs. induction cmvs as [|c cs IH]; intros found L; cbn [internal_corners_loop]; [destruct found; loc|].
  assert (L' : incl cs (component_mesh_vertices m uv)) by (intros x I; apply L; right; exact I).
  destruct (of_type CornerT c) eqn:O; cbn [negb]; [|apply IH, L'].
  apply with_corner. intros k k' Ik Ik' E E' Ea En. rewrite (l_corner_point c k k'); auto; [|apply L; left; reflexivity].
  eapply (agree_bind2 _ _ (told uv uv')).
  - apply agree_first; [reflexivity|]. intros s _. apply with_surface. intros t t' _ _ _ _ At Nt _. rewrite At, En, Nt, !l_named, l_is_internal, l_point_string. apply agree_if; [reflexivity| |apply agree_ok; exact I].
    destruct (nth_error _ _); [apply agree_ok; intros ->; reflexivity|apply agree_ub].
  - intros [x|] [x'|] T; cbn in T; try contradiction; [apply agree_ok; exact T|apply IH, L'].
Qed.
Lemma l_count_relationships : forall surfaces cmvs, count_line_relationships m surfaces cmvs = count_line_relationships m' surfaces cmvs.
Proof. intros. unfold count_line_relationships. ord. Qed.
Hint Rewrite l_count_relationships : ord.
Lemma l_brep_multiple : unique_ids m' -> same (brep_invalid_multiple_surfaces m uv) (brep_invalid_multiple_surfaces m' uv').
Proof.
  intros U'. unfold brep_invalid_multiple_surfaces. cbv zeta. apply agree_bind; [ord|]. intros n. apply agree_if; [reflexivity|apply agree_ok; exact I|].
  rewrite !l_uuids. destruct (components_uuids m' uv' LineT) as [|l [|l' ls]].
  - rewrite <- l_cmvs. apply l_internal_corners; [exact U'|]. intros x; auto.
  - loc.
  - apply agree_ok. exact I.
Qed.
Lemma l_brep_border : same (brep_line_not_on_surface_border m uv) (brep_line_not_on_surface_border m' uv').
Proof.
  unfold brep_line_not_on_surface_border. rewrite l_uuids. destruct (components_uuids m' uv' LineT) as [|l ls]; [apply agree_ok; exact I|].
  apply agree_first; [ord|]. intros c Ic. destruct (of_type SurfaceT c) eqn:O; cbn [negb]; [|apply agree_ok; exact I].
  apply with_surface. intros t t' It It' E E' At Nt _. rewrite (l_on_border c t t'); auto. rewrite Nt. loc.
Qed.
Lemma l_brep_surfaces : unique_ids m' -> brep_surfaces_topology_is_valid m uv = brep_surfaces_topology_is_valid m' uv'.
Proof.
  intros U'. unfold brep_surfaces_topology_is_valid. rewrite l_cmvs. apply bind_eq; [ord|]. intros b. apply if_eq; [reflexivity|reflexivity|].
  apply l_all_pass. repeat constructor; auto using l_brep_embedded_surface, l_brep_multiple, l_brep_border.
Qed.

(** *** Blocks *)
Lemma l_block_point : forall c k k', In c (component_mesh_vertices m uv) -> of_type BlockT c = true -> In k (m_blocks m) -> In k' (m_blocks m') ->
  co_id k = cmv_id c -> co_id k' = cmv_id c -> unique_ids m' -> nth_error (so_points (co_mesh k)) (cmv_vertex c) = nth_error (so_points (co_mesh k')) (cmv_vertex c).
Proof.
  intros [[t id] v] k k' Ic O Ik Ik' E E' U'. unfold of_type, cmv_type, cmv_id in *. cbn [cmv_component cid_type cid_id cmv_vertex] in *.
  destruct t; try discriminate. subst id.
  assert (P : forall p, nth_error (so_points (co_mesh k)) v = Some p <-> nth_error (so_points (co_mesh k')) v = Some p).
  { intros p. pose proof (sv_positions _ _ _ _ V _ p Ic) as S. split; intros N.
    - assert (HP : has_position m (mkCMV (mkCID BlockT (co_id k)) v) p) by (constructor; assumption). apply S in HP. inversion HP as [| | |c w q I1 I2]; subst.
      assert (c = k'); [|subst; assumption]. pose proof (if_b _ (unique_ids_facts m' U')) as N1.
      pose proof (find_component_In _ _ c N1 I1) as F1. pose proof (find_component_In _ _ k' N1 Ik') as F2. congruence.
    - assert (HP : has_position m' (mkCMV (mkCID BlockT (co_id k')) v) p) by (constructor; assumption). rewrite E' in HP. apply S in HP. inversion HP as [| | |c w q I1 I2]; subst.
      assert (c = k); [|subst; assumption]. pose proof (if_b _ (unique_ids_facts m U)) as N1.
      pose proof (find_component_In _ _ c N1 I1) as F1. pose proof (find_component_In _ _ k N1 Ik) as F2. congruence. }
  destruct (nth_error (so_points (co_mesh k)) v) as [p|]; [symmetry; apply P; reflexivity|].
  destruct (nth_error (so_points (co_mesh k')) v) as [p|]; [apply P; reflexivity|reflexivity].
Qed.
Lemma l_two_blocks : same (unique_vertex_is_part_of_two_blocks_and_no_boundary_surface m uv) (unique_vertex_is_part_of_two_blocks_and_no_boundary_surface m' uv').
Proof. unfold unique_vertex_is_part_of_two_blocks_and_no_boundary_surface. loc. Qed.
Lemma l_boundary_count : forall line block, line_on_block_boundary_count m line block = line_on_block_boundary_count m' line block.
Proof.
  intros. unfold line_on_block_boundary_count, each_surface. apply bind_eq; [|reflexivity]. apply foldM_eq; [ord|reflexivity|]. intros n e. apply agree_eq.
  apply with_surface. intros t t' _ _ E E' _ _ _. rewrite E, E', l_is_boundary, l_is_internal. apply agree_refl_eq. reflexivity.
Qed.
Lemma l_inside : forall line block, line_is_inside_block m line block = line_is_inside_block m' line block.
Proof.
  intros. unfold line_is_inside_block, each_surface. apply bind_eq; [|reflexivity]. apply anyM_eq; [ord|]. intros e. apply agree_eq.
  apply with_surface. intros t t' _ _ E E' _ _ _. rewrite E, E', l_is_internal. apply agree_refl_eq. reflexivity.
Qed.
Hint Rewrite l_boundary_count l_inside : ord.
Lemma l_count_line : forall block k c, count_line_cmv m block k c = count_line_cmv m' block k c.
Proof.
  intros. unfold count_line_cmv, each_surface. apply agree_eq. apply with_line. intros l l' _ _ E E' _ _. rewrite E, E'. apply agree_refl_eq.
  assert (A : forall l, anyM (fun e => let! s := get_surface m (cid_id e) in Ok (is_internal m (co_id s) block)) l
            = anyM (fun e => let! s := get_surface m' (cid_id e) in Ok (is_internal m' (co_id s) block)) l).
  { intros x. apply anyM_eq; [reflexivity|]. intros e. apply agree_eq, with_surface. intros t t' _ _ F F' _ _ _. rewrite F, F', l_is_internal. apply agree_refl_eq. reflexivity. }
  rewrite A. ord.
Qed.
Lemma l_count_surface : forall block k c, count_surface_cmv m block k c = count_surface_cmv m' block k c.
Proof.
  intros. unfold count_surface_cmv. apply agree_eq. apply with_surface. intros l l' _ _ E E' _ _ _. rewrite E, E', l_is_boundary, l_is_internal. apply agree_refl_eq. reflexivity.
Qed.
Lemma l_first_position : unique_ids m' -> first_block_position m (filter (of_type BlockT) (component_mesh_vertices m uv)) =
  first_block_position m' (filter (of_type BlockT) (component_mesh_vertices m' uv')).
Proof.
  intros U'. rewrite <- l_cmvs. unfold first_block_position. destruct (filter _ _) as [|c cs] eqn:F; [reflexivity|].
  assert (Ic : In c (filter (of_type BlockT) (component_mesh_vertices m uv))) by (rewrite F; left; reflexivity). apply filter_In in Ic as [Ic O].
  apply agree_eq, with_block. intros k k' Ik Ik' E E' _ _. rewrite (l_block_point c k k'); auto. rewrite l_point_string. apply agree_refl_eq. reflexivity.
Qed.
Definition counted (x y : N * option string) : Prop := fst x = fst y /\ told uv uv' (snd x) (snd y).
Lemma l_expected : unique_ids m' -> forall b, agree counted (expected_block_cmvs_and_error m uv b) (expected_block_cmvs_and_error m' uv' b).
Proof.
  intros U' b. unfold expected_block_cmvs_and_error. cbv zeta. apply with_block. intros k k' Ik Ik' E E' _ En. rewrite E, E', En, !l_named.
  rewrite (l_first_position U'). rewrite !l_cmvs.
  apply agree_bind; [apply foldM_eq; [reflexivity|reflexivity|apply l_count_surface]|]. intros ns.
  apply agree_bind; [apply foldM_eq; [reflexivity|reflexivity|apply l_count_line]|]. intros n.
  apply agree_bind; [reflexivity|]. intros unsure. destruct unsure; [apply agree_ok; split; [reflexivity|exact I]|].
  match goal with |- agree _ (if ?b then _ else _) _ => destruct b end; [apply agree_ok; split; [reflexivity|exact I]|].
  apply agree_bind; [reflexivity|]. intros p. apply agree_ok. split; [reflexivity|]. cbn [snd told]. intros ->. reflexivity.
Qed.
Lemma l_block_count : unique_ids m' -> same (unique_vertex_block_cmvs_count_is_incorrect m uv) (unique_vertex_block_cmvs_count_is_incorrect m' uv').
Proof.
  intros U'. unfold unique_vertex_block_cmvs_count_is_incorrect. apply agree_first; [apply l_uuids|]. intros b _. apply agree_bind; [ord|]. intros a.
  apply agree_if; [reflexivity|apply agree_ok; exact I|]. eapply agree_bind2; [apply l_expected, U'|]. intros x y [_ T]. apply agree_ok. exact T.
Qed.
Lemma l_expected_number : unique_ids m' -> forall b, nb_expected_block_cmvs m uv b = nb_expected_block_cmvs m' uv' b.
Proof.
  intros U' b. apply agree_eq. unfold nb_expected_block_cmvs. eapply agree_bind2; [apply l_expected, U'|]. intros x y [E _]. apply agree_ok. exact E.
Qed.
Lemma l_brep_blocks : unique_ids m' -> brep_blocks_topology_is_valid m uv = brep_blocks_topology_is_valid m' uv'.
Proof. intros U'. unfold brep_blocks_topology_is_valid. apply l_all_pass. repeat constructor; [apply l_two_blocks|apply l_block_count, U']. Qed.
Lemma l_wrong_surface : forall nb d, same (surface_with_wrong_relationships_to_block m nb d uv) (surface_with_wrong_relationships_to_block m' nb d uv').
Proof. intros. unfold surface_with_wrong_relationships_to_block. loc. Qed.
Lemma l_single_surface : forall nb, same (brep_invalid_single_surface m nb uv) (brep_invalid_single_surface m' nb uv').
Proof. intros. unfold brep_invalid_single_surface. loc. Qed.
Lemma l_two_surfaces_loop : forall line counter surfaces, two_surfaces_or_embedded_loop m line counter surfaces = two_surfaces_or_embedded_loop m' line counter surfaces.
Proof. intros line counter surfaces. revert counter. induction surfaces as [|? ? IH]; intros; [reflexivity|]. cbn [two_surfaces_or_embedded_loop]. rewrite ?IH. ord; try (rewrite ?IH; reflexivity). Qed.
Lemma l_multiple_line : same (brep_multiple_surfaces_invalid_line m uv) (brep_multiple_surfaces_invalid_line m' uv').
Proof.
  unfold brep_multiple_surfaces_invalid_line, line_is_boundary_of_at_least_two_surfaces_or_one_embedding_surface. cbv zeta.
  assert (E : filter (fun s => negb (Nat.ltb (nb_incidences m s) 1 && Nat.ltb (nb_embeddings m s) 1)) (components_uuids m uv SurfaceT)
            = filter (fun s => negb (Nat.ltb (nb_incidences m' s) 1 && Nat.ltb (nb_embeddings m' s) 1)) (components_uuids m' uv' SurfaceT)) by ord.
  rewrite E, !l_uuids. apply agree_if; [reflexivity|apply agree_ok; exact I|]. apply agree_if; [reflexivity|apply agree_ok; exact I|]. apply agree_if; [reflexivity|apply agree_ok; exact I|].
  apply agree_first; [reflexivity|]. intros l _. rewrite l_two_surfaces_loop. loc.
Qed.
End Vertex.

Lemma ids_frame : unique_ids m'.
Proof.
  assert (L : forall M (f : M -> Prop) (l l' : list (Component M)), Forall2 (same_header f) l l' -> map co_id l = map co_id l').
  { intros M f l l' F. induction F as [|c c' l l' (E & _) F IH]; [reflexivity|]. cbn [map]. rewrite IH, E. reflexivity. }
  unfold unique_ids, all_ids in *. rewrite <- (L _ _ _ _ (sf_corners _ _ H)), <- (L _ _ _ _ (sf_lines _ _ H)), <- (L _ _ _ _ (sf_surfaces _ _ H)), <- (L _ _ _ _ (sf_blocks _ _ H)). exact U.
Qed.

(** ** Surfaces that cannot be boundaries, and dangling surfaces: relationships only *)
Lemma l_not_boundary : find_not_boundary_surfaces m = find_not_boundary_surfaces m'.
Proof.
  assert (L : map co_id (m_lines m) = map co_id (m_lines m')).
  { pose proof (sf_lines _ _ H) as F. induction F as [|c c' l l' (E & _) F IH]; [reflexivity|]. cbn [map]. rewrite IH, E. reflexivity. }
  unfold find_not_boundary_surfaces. rewrite L. apply bind_eq; [|reflexivity]. unfold create_graph.
  generalize (@nil GraphEdge). pose proof (sf_lines _ _ H) as F. clear L.
  assert (G : forall ls ls', Forall2 (same_header (fun _ : EdgedCurve => True)) ls ls' -> forall g,
    foldM (fun g line => foldM (fun g e => each_surface m (fun s =>
        foldM (fun g e => each_line m (fun l => Ok (add_graph_edge (co_id line) (co_id s) g (co_id l))) e) (boundaries m (co_id s)) g) e) (incidences m (co_id line)) g) ls g =
    foldM (fun g line => foldM (fun g e => each_surface m' (fun s =>
        foldM (fun g e => each_line m' (fun l => Ok (add_graph_edge (co_id line) (co_id s) g (co_id l))) e) (boundaries m' (co_id s)) g) e) (incidences m' (co_id line)) g) ls' g).
  { intros ls ls' FF. induction FF as [|c c' ls ls' (E & _) FF IH]; intros g; [reflexivity|]. cbn [foldM]. apply bind_eq; [|exact IH].
    rewrite E, l_incidences. apply foldM_eq; [reflexivity|reflexivity|]. intros g0 e. unfold each_surface. apply agree_eq, with_surface. intros t t' _ _ F1 F2 _ _ _.
    rewrite F1, F2, l_boundaries. apply agree_refl_eq. apply foldM_eq; [reflexivity|reflexivity|]. intros g1 e1. unfold each_line. apply agree_eq, with_line. intros k k' _ _ G1 G2 _ _.
    rewrite G1, G2. apply agree_refl_eq. reflexivity. }
  exact (G _ _ F).
Qed.
Lemma l_dangling : forall tl tl', tl_inside_block tl = tl_inside_block tl' -> forall nb, find_dangling_surfaces tl m nb = find_dangling_surfaces tl' m' nb.
Proof.
  intros tl tl' T nb. unfold find_dangling_surfaces. apply foldM_eq; [reflexivity|reflexivity|]. intros d s. apply agree_eq, with_surface. intros t t' _ _ _ _ _ _ F.
  unfold nb_polygons. replace (Nat.eqb (length (sm_polygons (co_mesh t'))) 0) with (Nat.eqb (length (sm_polygons (co_mesh t))) 0).
  - apply agree_refl_eq. apply if_eq; [reflexivity|reflexivity|]. apply bind_eq; [|reflexivity]. rewrite T.
    pose proof (sf_blocks _ _ H) as B. induction B as [|c c' l l' (E & _) B IH]; [reflexivity|]. cbn [anyM]. rewrite E, IH. reflexivity.
  - destruct (sm_polygons (co_mesh t)), (sm_polygons (co_mesh t')); cbn; try reflexivity; exfalso.
    + apply (proj2 F); [discriminate|reflexivity].
    + apply (proj1 F); [discriminate|reflexivity].
Qed.
End Local.
