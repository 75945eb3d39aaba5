(** Two models side by side (C93): the checks at a vertex of one of them only read that one. *)
From Coq Require Import String Ascii List Arith NArith ZArith Bool Lia.
From Verif Require Import Base BaseFacts Model_Issues Types Model_Adjacency Model_Colocation Model_Topology
  Spec_Colocation Spec_Topology Spec_Reproducible Spec_Beside Proof_Topology Proof_Local Proof_Relabel2.
Import ListNotations.
Open Scope list_scope.

(** [M] contains [m], whose unique vertices are numbered from [k] *)
Record piece (k : nat) (m M : Model) : Prop := {
  p_missing : m_missing_exn M = m_missing_exn m;
  p_corner : forall id, In id (all_ids m) -> find_component id (m_corners M) = find_component id (m_corners m);
  p_line : forall id, In id (all_ids m) -> find_component id (m_lines M) = find_component id (m_lines m);
  p_surface : forall id, In id (all_ids m) -> find_component id (m_surfaces M) = find_component id (m_surfaces m);
  p_block : forall id, In id (all_ids m) -> find_component id (m_blocks M) = find_component id (m_blocks m);
  p_boundary : forall a b, In a (all_ids m) -> is_boundary M a b = is_boundary m a b;
  p_internal : forall a b, In a (all_ids m) -> is_internal M a b = is_internal m a b;
  p_incidences : forall a, In a (all_ids m) -> incidences M a = incidences m a;
  p_embeddings : forall a, In a (all_ids m) -> embeddings M a = embeddings m a;
  p_links : forall uv, uv < nb_unique_vertices m -> component_mesh_vertices M (k + uv) = component_mesh_vertices m uv;
  p_unique : forall c, In (cmv_id c) (all_ids m) -> m_unique_vertex M c = option_map (fun v => k + v) (m_unique_vertex m c);
  p_cmvs : forall uv c, In c (component_mesh_vertices m uv) -> In (cmv_id c) (all_ids m);
  p_embedded : forall a e, In e (embeddings m a) -> In (cid_id e) (all_ids m);
  p_meshed : section_surfaces_are_meshed M = section_surfaces_are_meshed m }.

Definition same_answer (x y : option string) : Prop := is_none x = is_none y.
Lemma both_first : forall A (f g : A -> outcome (option string)) l, (forall a, In a l -> agree same_answer (f a) (g a)) -> agree same_answer (first_some f l) (first_some g l).
Proof.
  intros A f g l E. induction l as [|a l IH]; cbn [first_some]; [apply agree_ok; reflexivity|].
  eapply agree_bind2; [apply E; left; reflexivity|]. intros [s|] [s'|] T; cbn in T; try discriminate.
  - apply agree_ok. reflexivity.
  - apply IH. intros b I. apply E. right. exact I.
Qed.
Definition any (x y : string) : Prop := True.

Section Piece.
Context (k : nat) (m M : Model) (P : piece k m M).
Notation own id := (In id (all_ids m)).
Lemma k_active : forall t id, own id -> kind_is_active M t id = kind_is_active m t id.
Proof.
  intros t id O. unfold kind_is_active, get_corner, get_line, get_surface, get_block, or_throw. rewrite (p_corner _ _ _ P), (p_line _ _ _ P), (p_surface _ _ _ P), (p_block _ _ _ P), (p_missing _ _ _ P) by exact O. reflexivity.
Qed.
Lemma k_active_of : forall t c, own (cmv_id c) -> is_active_of M t c = is_active_of m t c.
Proof. intros t c O. unfold is_active_of. rewrite k_active by exact O. reflexivity. Qed.
Lemma k_get_surface : forall id, own id -> get_surface M id = get_surface m id.
Proof. intros id O. unfold get_surface, or_throw. rewrite (p_surface _ _ _ P), (p_missing _ _ _ P) by exact O. reflexivity. Qed.
Lemma k_named : forall t id, own id -> agree any (kind_named m t id) (kind_named M t id).
Proof.
  intros t id O. unfold kind_named, get_corner, get_line, get_surface, get_block, or_throw. rewrite (p_corner _ _ _ P), (p_line _ _ _ P), (p_surface _ _ _ P), (p_block _ _ _ P), (p_missing _ _ _ P) by exact O.
  destruct t; try apply agree_throw; match goal with |- agree _ (bind (match ?x with _ => _ end) _) _ => destruct x end; cbn [bind]; constructor; exact I.
Qed.
Lemma k_title : forall t id, own id -> agree any (kind_title m t id) (kind_title M t id).
Proof.
  intros t id O. unfold kind_title, get_corner, get_line, get_surface, get_block, or_throw. rewrite (p_corner _ _ _ P), (p_line _ _ _ P), (p_surface _ _ _ P), (p_block _ _ _ P), (p_missing _ _ _ P) by exact O.
  destruct t; try apply agree_throw; match goal with |- agree _ (bind (match ?x with _ => _ end) _) _ => destruct x end; cbn [bind]; constructor; exact I.
Qed.
Lemma k_nb_embeddings : forall a, own a -> nb_embeddings M a = nb_embeddings m a.
Proof. intros a O. unfold nb_embeddings. rewrite (p_embeddings _ _ _ P a O). reflexivity. Qed.
Lemma k_nb_incidences : forall a, own a -> nb_incidences M a = nb_incidences m a.
Proof. intros a O. unfold nb_incidences. rewrite (p_incidences _ _ _ P a O). reflexivity. Qed.
Lemma k_component_active : forall id, own id -> component_is_active M id = component_is_active m id.
Proof. intros id O. unfold component_is_active. rewrite (p_corner _ _ _ P), (p_line _ _ _ P), (p_surface _ _ _ P), (p_block _ _ _ P), (p_missing _ _ _ P) by exact O. reflexivity. Qed.

Context (uv : nat) (B : uv < nb_unique_vertices m).
Let L := p_links _ _ _ P uv B.
Let OC := p_cmvs _ _ _ P uv.
Lemma k_uuids : forall t, components_uuids M (k + uv) t = components_uuids m uv t.
Proof. intros t. unfold components_uuids. rewrite L. reflexivity. Qed.
Lemma own_uuids : forall t id, In id (components_uuids m uv t) -> own id.
Proof. intros t id I. unfold components_uuids in I. apply (proj1 (in_sort_unique _ _)) in I. apply in_map_iff in I as (c & <- & I). apply filter_In in I as [I _]. apply OC, I. Qed.
Ltac kstep := match goal with
  | |- agree _ (first_some _ ?l) (first_some _ ?l) => apply both_first; intros
  | |- agree _ (bind (kind_named m _ _) _) (bind (kind_named M _ _) _) => eapply agree_bind2; [apply k_named|intros; cbv beta]
  | |- agree _ (bind (kind_title m _ _) _) (bind (kind_title M _ _) _) => eapply agree_bind2; [apply k_title|intros; cbv beta]
  | |- agree _ (bind ?x _) (bind ?x _) => destruct x; cbn [bind]
  | |- agree _ (if ?b then _ else _) (if ?b then _ else _) => destruct b
  | |- agree _ (match ?x with _ => _ end) (match ?x with _ => _ end) => destruct x
  | |- agree _ (Ok (if ?b then _ else _)) _ => destruct b
  | |- agree _ (Ok _) (Ok _) => apply agree_ok; reflexivity
  | |- agree _ (Throw _) _ => apply agree_throw
  | |- agree _ UB _ => apply agree_ub
  | |- own (cmv_id _) => first [apply OC; assumption|assumption]
  | |- own _ => first [eapply own_uuids; eassumption|eapply (p_embedded _ _ _ P); eassumption|assumption]
  end.
Ltac kread := rewrite ?L, ?k_uuids, ?(p_meshed _ _ _ P); repeat first [rewrite k_active_of by kstep|rewrite k_active by kstep|rewrite k_get_surface by kstep|rewrite k_nb_embeddings by kstep|rewrite k_nb_incidences by kstep
  |rewrite (p_boundary _ _ _ P) by kstep|rewrite (p_internal _ _ _ P) by kstep|rewrite (p_embeddings _ _ _ P) by kstep].
Ltac kk := repeat (progress (kread; try kstep)).
Lemma k_second : forall cs found, incl cs (component_mesh_vertices m uv) -> second_active_corner M found cs = second_active_corner m found cs.
Proof.
  induction cs as [|c cs IH]; intros found J; [reflexivity|]. cbn [second_active_corner]. assert (O : In c (component_mesh_vertices m uv)) by (apply J; left; reflexivity).
  rewrite k_active_of by (apply OC, O). destruct (is_active_of m CornerT c) as [[|]|e|]; cbn [bind negb]; try reflexivity; [destruct found; [reflexivity|]|]; apply IH; intros x I; apply J; right; exact I.
Qed.
Lemma k_multiple_corners : agree same_answer (unique_vertex_has_multiple_corners m uv) (unique_vertex_has_multiple_corners M (k + uv)).
Proof. unfold unique_vertex_has_multiple_corners. rewrite L, k_second by apply incl_refl. kk. Qed.
Lemma k_neither : agree same_answer (corner_is_not_internal_nor_boundary m uv) (corner_is_not_internal_nor_boundary M (k + uv)).
Proof. unfold corner_is_not_internal_nor_boundary. kk. Qed.
Lemma k_multiple_embeddings : agree same_answer (corner_has_multiple_embeddings m uv) (corner_has_multiple_embeddings M (k + uv)).
Proof. unfold corner_has_multiple_embeddings. kk. Qed.
Lemma k_corner_line : agree same_answer (section_corner_is_part_of_line_but_not_boundary m uv) (section_corner_is_part_of_line_but_not_boundary M (k + uv)).
Proof. unfold section_corner_is_part_of_line_but_not_boundary. kk. Qed.
Lemma k_relationship : agree same_answer (section_line_wrong_relationships m uv) (section_line_wrong_relationships M (k + uv)).
Proof. unfold section_line_wrong_relationships. kk. Qed.
Lemma k_embedding_check : forall line e, own line -> own (cid_id e) -> agree same_answer (section_embedding_check m uv line e) (section_embedding_check M (k + uv) line e).
Proof. intros line e O O'. unfold section_embedding_check. kk. Qed.
Lemma k_embedded_loop : forall cs, incl cs (component_mesh_vertices m uv) -> agree same_answer (section_embedded_loop m uv cs) (section_embedded_loop M (k + uv) cs).
Proof.
  induction cs as [|c cs IH]; intros J; [apply agree_ok; reflexivity|]. cbn [section_embedded_loop]. assert (O : own (cmv_id c)) by (apply OC, J; left; reflexivity).
  assert (K : agree same_answer (section_embedded_loop m uv cs) (section_embedded_loop M (k + uv) cs)) by (apply IH; intros x I; apply J; right; exact I).
  rewrite k_active_of, k_nb_embeddings, k_nb_incidences, (p_embeddings _ _ _ P) by exact O.
  destruct (is_active_of m LineT c) as [[|]|e|]; cbn [bind negb]; try constructor; [|exact K].
  destruct (Nat.ltb (nb_embeddings m (cmv_id c)) 1); [apply agree_ok; reflexivity|]. destruct (Nat.ltb 1 (nb_embeddings m (cmv_id c))); [kk|]. destruct (Nat.ltb 0 (nb_incidences m (cmv_id c))); [kk|].
  eapply agree_bind2; [apply both_first; intros e I; apply k_embedding_check; [exact O|apply (p_embedded _ _ _ P _ _ I)]|]. intros [s|] [s'|] T; cbn in T; try discriminate; [apply agree_ok; reflexivity|exact K].
Qed.
Lemma k_embedded : agree same_answer (section_invalid_embedded_line m uv) (section_invalid_embedded_line M (k + uv)).
Proof. unfold section_invalid_embedded_line. rewrite L. apply k_embedded_loop, incl_refl. Qed.
Lemma k_single : agree same_answer (section_invalid_single_line m uv) (section_invalid_single_line M (k + uv)).
Proof.
  unfold section_invalid_single_line. rewrite !k_uuids. pose proof (own_uuids LineT) as OL. destruct (components_uuids m uv LineT) as [|l [|? ?]]; try (apply agree_ok; reflexivity).
  assert (O : own l) by (apply OL; left; reflexivity).
  pose proof (own_uuids SurfaceT) as OS. destruct (components_uuids m uv SurfaceT) as [|s [|s1 ss]]; [kk|assert (own s) by (apply OS; left; reflexivity); kk|kk]. all: rewrite ?(p_boundary _ _ _ P) by assumption; kk; apply OS; assumption.
Qed.
Lemma k_count : forall cs nb b, incl cs (component_mesh_vertices m uv) -> count_lines_and_corner M cs nb b = count_lines_and_corner m cs nb b.
Proof.
  induction cs as [|c cs IH]; intros nb b J; [reflexivity|]. cbn [count_lines_and_corner]. rewrite k_active_of by (apply OC, J; left; reflexivity).
  destruct (is_active_of m LineT c) as [[|]|e|]; cbn [bind]; try reflexivity; apply IH; intros x I; apply J; right; exact I.
Qed.
Lemma k_not_corner : agree same_answer (section_lines_but_not_corner m uv) (section_lines_but_not_corner M (k + uv)).
Proof. unfold section_lines_but_not_corner. rewrite L, k_count by apply incl_refl. kk. Qed.
Lemma existsb_same : forall A (f g : A -> bool) l, (forall x, In x l -> f x = g x) -> existsb f l = existsb g l.
Proof. intros A f g l E. induction l as [|x l IH]; [reflexivity|]. cbn [existsb]. rewrite (E x (or_introl eq_refl)), IH; [reflexivity|]. intros y I. apply E. right. exact I. Qed.
Lemma k_embedded_surface : agree same_answer (section_invalid_embedded_surface m uv) (section_invalid_embedded_surface M (k + uv)).
Proof.
  unfold section_invalid_embedded_surface. rewrite k_uuids, L. destruct (components_uuids m uv SurfaceT) as [|s [|s' [|? ?]]]; try (apply agree_ok; reflexivity).
  rewrite (existsb_same _ (fun c => of_type LineT c && (is_boundary M (cmv_id c) s && is_boundary M (cmv_id c) s'))%bool (fun c => of_type LineT c && (is_boundary m (cmv_id c) s && is_boundary m (cmv_id c) s'))%bool); [kk|].
  intros c I. rewrite !(p_boundary _ _ _ P) by (apply OC, I). reflexivity.
Qed.
Lemma k_border : agree same_answer (section_line_not_on_surface_border m uv) (section_line_not_on_surface_border M (k + uv)).
Proof. unfold section_line_not_on_surface_border. kk. Qed.
End Piece.
