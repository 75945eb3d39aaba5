(** Proofs about the texts of topology reports: Sections. *)
From Coq Require Import String Ascii List Arith NArith ZArith Bool Lia.
From Verif Require Import Base BaseFacts Model_Issues Types Model_Colocation Model_Topology Spec_Colocation Spec_Messages Spec_Topology Spec_TopologyMessages
  Proof_Colocation Proof_Colocation2 Proof_Topology Proof_Topology2 Proof_Topology3 Proof_Messages Proof_Messages2.
Import ListNotations.
Open Scope list_scope.

(** ** What normal answers tell *)
Lemma find_found : forall M (l : list (Component M)) id c, find_component id l = Some c -> In c l /\ co_id c = id.
Proof.
  intros M l. induction l as [|x l IH]; intros id c H; cbn in H; [discriminate|].
  destruct (Nat.eqb (co_id x) id) eqn:E; [injection H as <-; apply Nat.eqb_eq in E; split; [left; reflexivity|exact E]|].
  apply IH in H. destruct H as [H H']. split; [right; exact H|exact H'].
Qed.
Lemma get_corner_some : forall m id s, get_corner m id = Ok s -> In s (m_corners m) /\ co_id s = id.
Proof. intros m id s H. unfold get_corner in H. destruct (find_component id (m_corners m)) eqn:E; try discriminate H. injection H as <-. apply find_found. exact E. Qed.
Lemma get_block_some : forall m id s, get_block m id = Ok s -> In s (m_blocks m) /\ co_id s = id.
Proof. intros m id s H. unfold get_block in H. destruct (find_component id (m_blocks m)) eqn:E; try discriminate H. injection H as <-. apply find_found. exact E. Qed.
Lemma in_active_ids : forall M (l : list (Component M)) c, In c l -> co_active c = true -> In (co_id c) (map co_id (filter co_active l)).
Proof. intros M l c H A. apply in_map. apply filter_In. split; assumption. Qed.
Lemma kind_active_true : forall m t id, kind_is_active m t id = Ok true -> is_active m t id.
Proof.
  intros m t id H. unfold is_active, active_ids. destruct t; cbn [kind_is_active] in H; try discriminate H;
    apply bind_Ok in H; destruct H as (c & H & E); injection E as E;
    (apply get_corner_some in H || apply get_line_some in H || apply get_surface_some in H || apply get_block_some in H);
    destruct H as [H <-]; apply in_active_ids; assumption.
Qed.
Lemma named_eq : forall M (m : Model) (c : Component M) id, co_id c = id -> named m (co_name c) id = label m c.
Proof. intros M m c id <-. apply named_label. Qed.
Lemma kind_named_some : forall m t id n, kind_named m t id = Ok n -> labelled m t id n.
Proof.
  intros m t id n H. unfold labelled. destruct t; cbn [kind_named] in H; try discriminate H;
    apply bind_Ok in H; destruct H as (c & H & E); assert (E' : n = named m (co_name c) id) by congruence; rewrite E'; clear E E';
    (apply get_corner_some in H || apply get_line_some in H || apply get_surface_some in H || apply get_block_some in H);
    destruct H as [H I]; exists c; (split; [exact H|]); (split; [exact I|]); apply named_eq; exact I.
Qed.
Lemma kind_title_some : forall m t id n, kind_title m t id = Ok n -> titled m t id n.
Proof.
  intros m t id n H. unfold titled. destruct t; cbn [kind_title] in H; try discriminate H;
    apply bind_Ok in H; destruct H as (c & H & E); assert (E' : n = title m (co_name c) id) by congruence; rewrite E'; clear E E';
    (apply get_corner_some in H || apply get_line_some in H || apply get_surface_some in H || apply get_block_some in H);
    destruct H as [H <-]; exists c; (split; [exact H|]); (split; [reflexivity|]); reflexivity.
Qed.
Lemma is_active_of_true : forall m t c, is_active_of m t c = Ok true -> cmv_type c = t /\ is_active m t (cmv_id c).
Proof.
  intros m t c H. unfold is_active_of in H. destruct (of_type t c) eqn:E; [|discriminate H].
  apply of_type_iff in E. split; [exact E|]. apply kind_active_true. exact H.
Qed.
Lemma typed_at : forall m uv c t, In c (component_mesh_vertices m uv) -> cmv_type c = t -> at_vertex m uv t (cmv_id c).
Proof. intros m uv c t H <-. apply cmv_at. exact H. Qed.
Lemma active_of_at : forall m uv c t, In c (component_mesh_vertices m uv) -> is_active_of m t c = Ok true -> active_at m uv t (cmv_id c).
Proof. intros m uv c t H A. apply is_active_of_true in A. destruct A as [A B]. split; [apply typed_at; assumption|exact B]. Qed.
Lemma first_some_inv : forall A B (f : A -> outcome (option B)) l t, first_some f l = Ok (Some t) -> exists x, In x l /\ f x = Ok (Some t).
Proof.
  intros A B f l t. induction l as [|x l IH]; intros H; cbn [first_some] in H; [discriminate H|].
  apply bind_Ok in H. destruct H as (r & H & E). destruct r as [b|].
  - injection E as <-. exists x. split; [left; reflexivity|exact H].
  - destruct (IH E) as (y & Hy & F). exists y. split; [right; exact Hy|exact F].
Qed.
Lemma boundary_false : forall m a b, is_boundary m a b = false -> ~ bounds m a b.
Proof. intros m a b H K. apply is_boundary_iff in K. congruence. Qed.
Lemma internal_false : forall m a b, is_internal m a b = false -> ~ inside m a b.
Proof. intros m a b H K. apply is_internal_iff in K. congruence. Qed.
Lemma linked_none : forall m uv id, existsb (fun c => Nat.eqb (cmv_id c) id) (component_mesh_vertices m uv) = false -> forall t, ~ at_vertex m uv t id.
Proof.
  intros m uv id H t (v & K). assert (E : existsb (fun c => Nat.eqb (cmv_id c) id) (component_mesh_vertices m uv) = true); [|congruence].
  apply existsb_exists. exists (mkCMV (mkCID t id) v). split; [exact K|]. apply Nat.eqb_refl.
Qed.
Lemma no_component_at : forall m uv t, components_uuids m uv t = [] -> forall id, ~ at_vertex m uv t id.
Proof. intros m uv t H id K. destruct (components_uuids_all m uv t) as [_ A]. apply A in K. rewrite H in K. exact K. Qed.

Lemma some_eq : forall A (a b : A), Ok (Some a) = Ok (Some b) -> b = a.
Proof. intros A a b H. congruence. Qed.
(** Inverts a check that returned a message. *)
Ltac boolean H :=
  match type of H with
  | negb ?b = true => apply Bool.negb_true_iff in H
  | negb ?b = false => apply Bool.negb_false_iff in H
  | (_ && _) = true => let H1 := fresh in let H2 := fresh in apply Bool.andb_true_iff in H; destruct H as [H1 H2]; boolean H1; boolean H2
  | _ => idtac
  end.
Ltac message_step H :=
  match type of H with
  | bind _ _ = Ok _ => let x := fresh "x" in let E := fresh "E" in apply bind_Ok in H; destruct H as (x & E & H); cbv beta in H
  | first_some _ _ = Ok (Some _) => let x := fresh "x" in let I := fresh "I" in apply first_some_inv in H; destruct H as (x & I & H); cbv beta in H
  | (if ?b then _ else _) = _ => let E := fresh "B" in destruct b eqn:E; boolean E
  | Ok None = Ok (Some _) => discriminate H
  | Ok (Some _) = Ok (Some _) => apply some_eq in H
  | Ok (if ?b then _ else _) = _ => let E := fresh "B" in destruct b eqn:E; boolean E
  | match ?x with _ => _ end = _ => let E := fresh "M" in destruct x eqn:E
  | UB = _ => discriminate H
  | Throw _ = _ => discriminate H
  end.
Ltac facts := repeat match goal with
  | B : Nat.ltb 1 ?n = true |- _ => apply Nat.ltb_lt in B
  | B : Nat.ltb 2 ?n = true |- _ => apply Nat.ltb_lt in B
  | B : Nat.ltb 0 ?n = true |- _ => apply Nat.ltb_lt in B
  | B : Nat.ltb 0 ?n = false |- _ => apply Nat.ltb_ge in B
  | B : Nat.ltb ?n 1 = true |- _ => apply Nat.ltb_lt in B
  | B : Nat.ltb ?n 1 = false |- _ => apply Nat.ltb_ge in B
  | B : Nat.ltb 1 ?n = false |- _ => apply Nat.ltb_ge in B
  | B : Nat.ltb ?n 2 = false |- _ => apply Nat.ltb_ge in B
  | B : Nat.eqb ?n _ = false |- _ => apply Nat.eqb_neq in B
  | B : Nat.eqb ?n _ = true |- _ => apply Nat.eqb_eq in B
  | B : Nat.leb ?n _ = true |- _ => apply Nat.leb_le in B
  | B : is_boundary _ _ _ = false |- _ => apply boundary_false in B
  | B : is_internal _ _ _ = false |- _ => apply internal_false in B
  | B : is_boundary _ _ _ = true |- _ => apply is_boundary_iff in B
  | B : is_internal _ _ _ = true |- _ => apply is_internal_iff in B
  | B : section_surfaces_are_meshed _ = true |- _ => apply surfaces_meshed_iff in B
  | B : brep_blocks_are_meshed _ = true |- _ => apply blocks_meshed_iff in B
  | B : of_type _ _ = true |- _ => apply of_type_iff in B
  | B : kind_named _ _ _ = Ok _ |- _ => apply kind_named_some in B
  | B : kind_title _ _ _ = Ok _ |- _ => apply kind_title_some in B
  | B : kind_is_active _ _ _ = Ok true |- _ => apply kind_active_true in B
  | B : existsb _ (component_mesh_vertices _ _) = false |- _ => pose proof (linked_none _ _ _ B); clear B
  end.
Ltac conj := repeat match goal with |- _ /\ _ => split end.

Lemma report_vertex_explained : forall checks uv rs rs' (Ps : list (nat -> string -> Prop)), Forall2 (fun (check : nat -> outcome (option string)) (P : nat -> string -> Prop) => forall t, check uv = Ok (Some t) -> P uv t) checks Ps ->
  Forall2 (fun (dP : string * (nat -> string -> Prop)) r => explained (fst dP) (snd dP) r) (combine (map (@ii_description nat) rs) Ps) rs -> length rs = length Ps ->
  report_vertex checks uv rs = Ok rs' ->
  map (@ii_description nat) rs' = map (@ii_description nat) rs /\ Forall2 (fun dP r => explained (fst dP) (snd dP) r) (combine (map (@ii_description nat) rs) Ps) rs'.
Proof.
  intros checks uv rs rs' Ps HC. revert rs rs'. induction HC as [|check P checks Ps H HC IH]; intros rs rs' HR HL E; cbn [report_vertex] in E.
  - destruct rs; [|discriminate HL]. injection E as <-. split; [reflexivity|exact HR].
  - destruct rs as [|r rs]; [discriminate HL|]. apply bind_Ok in E. destruct E as (p & E1 & E). apply bind_Ok in E. destruct E as (rs2 & E2 & E). injection E as <-.
    cbn [map combine] in *. inversion HR as [|? ? ? ? HR1 HR2]; subst. cbn [fst snd] in HR1. injection HL as HL. destruct (IH rs rs2 HR2 HL E2) as [A B]. split.
    + destruct p as [t|]; cbn [map]; rewrite A; reflexivity.
    + constructor; [|exact B]. cbn [fst snd]. destruct p as [t|]; [|exact HR1]. apply explained_add; [exact HR1|]. apply H. exact E1.
Qed.
(** the lists of the checks in a row, over all unique vertices *)
Lemma report_vertices_explained : forall m checks ds (Ps : list (nat -> string -> Prop)) rs, length ds = length Ps ->
  Forall2 (fun (check : nat -> outcome (option string)) (P : nat -> string -> Prop) => forall uv t, uv < nb_unique_vertices m -> check uv = Ok (Some t) -> P uv t) checks Ps ->
  report_vertices m checks ds = Ok rs -> Forall2 (fun dP r => explained (fst dP) (snd dP) r) (combine ds Ps) rs.
Proof.
  intros m checks ds Ps rs HL HC E. unfold report_vertices in E.
  apply (foldM_inv _ _ (fun rs => map (@ii_description nat) rs = ds /\ Forall2 (fun (dP : string * (nat -> string -> Prop)) r => explained (fst dP) (snd dP) r) (combine ds Ps) rs)) in E; [exact (proj2 E)| |].
  - intros s uv s' Hu [Hd HS] F. apply in_Range in Hu. destruct (report_vertex_explained checks uv s s' Ps) as [A B].
    + clear - HC Hu. induction HC; constructor; auto.
    + rewrite Hd. exact HS.
    + rewrite <- HL, <- Hd, map_length. reflexivity.
    + exact F.
    + rewrite Hd in B. rewrite A, Hd. split; [reflexivity|exact B].
  - split.
    + rewrite map_map. cbn. apply map_id.
    + clear - HL. revert Ps HL. induction ds as [|d ds IH]; intros [|P Ps] HL; cbn [combine map]; try discriminate HL; constructor.
      * cbn [fst snd]. apply explained_new.
      * apply IH. injection HL as HL. exact HL.
Qed.
Ltac inv_forall2 H := repeat match goal with K : Forall2 _ (_ :: _) _ |- _ => inversion K; clear K; subst | K : Forall2 _ [] _ |- _ => inversion K; clear K; subst end; cbn [fst snd combine] in *.

(** ** Components *)
Lemma not_associated_explained : forall m c n, explained default_description
  (fun v text => m_unique_vertex m (mkCMV c v) = None /\ text = unlinked_text v) (vertices_not_associated m c n).
Proof.
  intros m c n. unfold vertices_not_associated. apply fold_inv; [|apply explained_new].
  intros r v _ Hr. destruct (m_unique_vertex m (mkCMV c v)) eqn:E; cbn [isSome]; [exact Hr|]. apply explained_add; [exact Hr|]. split; [exact E|reflexivity].
Qed.
Lemma append_nil_cat : forall a b : string, StrCat [a; b; EmptyString] = StrCat [a; b].
Proof. intros a b. reflexivity. Qed.
Lemma components_explained : forall M (get : Model -> uuid -> outcome (Component M)) kind suffix t meshed nbv skip m l d1 d2 r,
  inspect_components get kind suffix t meshed nbv skip m l d1 d2 = Ok r ->
  explained d1 (not_meshed_text m l kind suffix) (fst r) /\ explained_map d2 (not_linked m t l kind) (snd r).
Proof.
  intros M get kind suffix t meshed nbv skip m l d1 d2 r H. unfold inspect_components in H.
  apply (foldM_inv _ _ (fun r => explained d1 (not_meshed_text m l kind suffix) (fst r) /\ explained_map d2 (not_linked m t l kind) (snd r))) in H; [exact H| |].
  - intros acc c acc' Hc [A1 A2] E. apply in_active in Hc. destruct Hc as [Hc Ac]. unfold inspect_component in E. apply bind_Ok in E. destruct E as (c' & _ & E). cbv zeta in E.
    assert (N : explained d1 (not_meshed_text m l kind suffix)
      (if meshed (co_mesh c') then fst acc else add_issue (co_id c) (StrCat [kind; named m (co_name c) (co_id c); suffix]) (fst acc))).
    { destruct (meshed (co_mesh c')); [exact A1|]. apply explained_add; [exact A1|]. exists c. conj; auto. }
    destruct (skip && negb (meshed (co_mesh c')))%bool; [injection E as <-; split; assumption|].
    destruct (N.eqb _ 0); injection E as <-; cbn [fst snd]; [split; assumption|]. split; [exact N|]. apply explained_map_add; [exact A2|].
    exists c. conj; auto. rewrite append_nil_cat, named_label. apply (explained_set _ default_description). apply not_associated_explained.
  - split; [apply explained_new|apply explained_map_new].
Qed.

(** ** Links *)
Lemma links_text : forall m ex r, (forall c, ex m c = true <-> vertex_exists m c) -> (forall uv c, ex m c = true -> linked_elsewhere m uv c = Ok true -> linked_back_elsewhere m uv c) ->
  add_unique_vertices_with_wrong_cmv_link m ex no_links = Ok r -> links_explained m r.
Proof.
  intros m ex r Hex Hback H. unfold add_unique_vertices_with_wrong_cmv_link in H.
  apply (foldM_inv _ _ (links_explained m)) in H; [exact H| |repeat split; constructor].
  intros s uv s' _ Hs E. destruct (component_mesh_vertices m uv) as [|c0 cs0] eqn:EC.
  - injection E as <-. destruct Hs as (A & B & C). unfold links_explained. cbn [li_not_linked li_inexistant li_nonbijective]. conj; auto. apply explained_add; [exact A|]. split; auto.
  - apply (foldM_inv _ _ (links_explained m)) in E; [exact E| |exact Hs]. intros a c a' Hc (A & B & C) F. rewrite <- EC in Hc. unfold add_wrong_cmv_link in F. cbv zeta in F.
    destruct (ex m c) eqn:X; cbn [negb] in F.
    + apply bind_Ok in F. destruct F as (e & F1 & F). destruct e; injection F as <-; [|split; auto]. unfold links_explained. cbn [li_not_linked li_inexistant li_nonbijective]. conj; auto.
      apply explained_add; [exact C|]. exists c. conj; auto.
    + injection F as <-. unfold links_explained. cbn [li_not_linked li_inexistant li_nonbijective]. conj; auto. apply explained_add; [exact B|]. exists c. conj; auto.
      intros K. apply Hex in K. congruence.
Qed.

(** ** Corners of a Section *)
Section Checks.
Context (m : Model) (uv : nat).
Lemma second_corner_true : forall l found, second_active_corner m found l = Ok true ->
  if found then exists c, In c l /\ is_active_of m CornerT c = Ok true
  else exists i j c d, i <> j /\ nth_error l i = Some c /\ nth_error l j = Some d /\ is_active_of m CornerT c = Ok true /\ is_active_of m CornerT d = Ok true.
Proof.
  induction l as [|c l IH]; intros found H; cbn [second_active_corner] in H; [discriminate H|].
  apply bind_Ok in H. destruct H as (a & E & H). destruct a; cbn [negb] in H.
  - destruct found; [exists c; split; [left; reflexivity|exact E]|]. apply IH in H. destruct H as (d & Hd & A). apply In_nth_error in Hd. destruct Hd as (j & Hj).
    exists 0, (S j), c, d. conj; auto.
  - apply IH in H. destruct found.
    + destruct H as (d & Hd & A). exists d. split; [right; exact Hd|exact A].
    + destruct H as (i & j & d & d' & Hij & Hi & Hj & A & B). exists (S i), (S j), d, d'. conj; auto.
Qed.
Lemma link_of : forall t c, is_active_of m t c = Ok true -> c = mkCMV (mkCID t (cmv_id c)) (cmv_vertex c) /\ In (cmv_id c) (active_ids m t).
Proof. intros t [[t' id] v] H. apply is_active_of_true in H. destruct H as [H H']. unfold cmv_type in H. cbn in H. subst t'. split; [reflexivity|exact H']. Qed.
Lemma multiple_corners_text : forall t, unique_vertex_has_multiple_corners m uv = Ok (Some t) -> several_corners_text m uv t.
Proof.
  intros t H. unfold unique_vertex_has_multiple_corners in H. message_step H. destruct x; repeat message_step H. split; [|exact H].
  apply (second_corner_true _ false) in E. destruct E as (i & j & c & d & Hij & Hi & Hj & A & B).
  apply link_of in A. apply link_of in B. destruct A as [A1 A2]. destruct B as [B1 B2]. rewrite A1 in Hi. rewrite B1 in Hj.
  exists i, j, (cmv_id c), (cmv_id d), (cmv_vertex c), (cmv_vertex d). conj; assumption.
Qed.
Lemma no_relation_text : forall t, corner_is_not_internal_nor_boundary m uv = Ok (Some t) -> corner_relation_text m uv t.
Proof.
  intros t H. unfold corner_is_not_internal_nor_boundary in H. repeat message_step H. subst x0. facts.
  exists (cmv_id x), x1. conj; auto; try lia. apply active_of_at; assumption.
Qed.
Lemma embeddings_text : forall t, corner_has_multiple_embeddings m uv = Ok (Some t) -> corner_embeddings_text m uv t.
Proof.
  intros t H. unfold corner_has_multiple_embeddings in H. repeat message_step H. subst x0. facts.
  exists (cmv_id x), x1. conj; auto; try lia. apply active_of_at; assumption.
Qed.
Lemma section_corner_line : forall t, section_corner_is_part_of_line_but_not_boundary m uv = Ok (Some t) -> section_corner_line_text m uv t.
Proof.
  intros t H. unfold section_corner_is_part_of_line_but_not_boundary in H. repeat message_step H. subst x0. facts.
  exists (cmv_id x), (cmv_id x1), x2, x3. conj; auto; [apply active_of_at; assumption|apply typed_at; assumption].
Qed.
(** ** Lines of a Section *)
Lemma line_relation : forall t, section_line_wrong_relationships m uv = Ok (Some t) -> line_relation_text m uv t.
Proof.
  intros t H. unfold section_line_wrong_relationships in H. repeat message_step H. subst x0. facts.
  exists (cmv_id x), x1. conj; auto; try lia. apply active_of_at; assumption.
Qed.
Lemma in_embeddings_inside : forall a e, In e (embeddings m a) -> inside m a (cid_id e).
Proof.
  intros a [te e] H. unfold embeddings in H. apply in_map_iff in H. destruct H as ([[ta a'] [tb b]] & E & H). apply filter_In in H. destruct H as [H F].
  cbn in E, F. apply Nat.eqb_eq in F. injection E as -> ->. subst. exists ta, te. exact H.
Qed.
Lemma embedded_loop_text : forall l t, (forall c, In c l -> In c (component_mesh_vertices m uv)) -> section_embedded_loop m uv l = Ok (Some t) -> section_embedded_line_text m uv t.
Proof.
  induction l as [|c l IH]; intros t Hin H; cbn [section_embedded_loop] in H; [discriminate H|].
  message_step H. message_step H; [apply IH; [intros; apply Hin; right; assumption|exact H]|]. subst x.
  assert (A : active_at m uv LineT (cmv_id c)) by (apply active_of_at; [apply Hin; left; reflexivity|assumption]).
  message_step H; [message_step H|]. message_step H; [|message_step H].
  - repeat message_step H. facts. exists (cmv_id c), x. conj; auto.
  - repeat message_step H. facts. exists (cmv_id c), x. conj; auto. right. left. conj; auto; lia.
  - message_step H. message_step H; [|apply IH; [intros; apply Hin; right; assumption|exact H]]. injection H as ->. repeat message_step E0. unfold section_embedding_check in E0.
    repeat message_step E0. subst x1. facts. exists (cmv_id c), x2. conj; auto. right. right. conj; auto; [lia|]. exists (cid_id x0), x3. conj; auto.
    apply in_embeddings_inside. assumption.
Qed.
Lemma single_line_text : forall t, section_invalid_single_line m uv = Ok (Some t) -> section_single_line_text m uv t.
Proof.
  intros t H. unfold section_invalid_single_line in H. cbv zeta in H. destruct (components_uuids m uv LineT) as [|n [|? ?]] eqn:M; try discriminate H.
  assert (AL : all_at m uv LineT [n]) by (rewrite <- M; apply components_uuids_all).
  pose proof (components_uuids_all m uv SurfaceT) as AS.
  message_step H. message_step H; [message_step H|]. subst x. message_step H; [|message_step H].
  - repeat message_step H. facts. exists n, x, (components_uuids m uv SurfaceT). conj; auto.
  - message_step H; [|message_step H]. repeat message_step H. facts. exists n, x, (components_uuids m uv SurfaceT). conj; auto.
    right. left. conj; auto. intros (s & ES & K). rewrite ES in *. apply is_internal_iff in K.
    match goal with Q : negb (is_internal _ _ _) = true |- _ => rewrite K in Q; discriminate Q end.
  - repeat message_step H. facts. exists n, x0, (components_uuids m uv SurfaceT). conj; auto. right. right. split; [lia|]. exists x, x1. conj; auto.
Qed.
Lemma count_lines_twice : forall l nb corner r, count_lines_and_corner m l nb corner = Ok r ->
  ((1 < fst r)%N -> (1 < nb)%N \/ ((nb = 1)%N /\ exists c, In c l /\ is_active_of m LineT c = Ok true) \/
     (exists i j c d, i <> j /\ nth_error l i = Some c /\ nth_error l j = Some d /\ is_active_of m LineT c = Ok true /\ is_active_of m LineT d = Ok true)) /\
  (snd r = false -> corner = false /\ forall c, In c l -> of_type CornerT c = false).
Proof.
  induction l as [|c l IH]; intros nb corner r H; cbn [count_lines_and_corner] in H.
  - injection H as <-. split; cbn; auto. intros ->. split; [reflexivity|intros c []].
  - apply bind_Ok in H. destruct H as (a & E & H). destruct a; apply IH in H; destruct H as [H1 H2]; split.
    + intros K. specialize (H1 K). destruct H1 as [H1|[[H1 (d & Hd & D)]|(i & j & x & d & Hij & Hi & Hj & A & B)]].
      * assert (nb <> 0)%N. { intros ->. unfold add32 in H1. cbn in H1. lia. }
        destruct (N.eq_dec nb 1) as [->|]; [|left; lia]. right. left. split; [reflexivity|]. exists c. split; [left; reflexivity|exact E].
      * right. right. apply In_nth_error in Hd. destruct Hd as (j & Hj). exists 0, (S j), c, d. conj; auto.
      * right. right. exists (S i), (S j), x, d. conj; auto.
    + intros K. apply H2 in K. destruct K as [K1 K2]. split; [exact K1|]. intros d [<-|Hd]; [|apply K2; exact Hd].
      apply is_active_of_true in E. destruct E as [E _]. unfold of_type. rewrite E. reflexivity.
    + intros K. specialize (H1 K). destruct H1 as [H1|[[H1 (d & Hd & D)]|(i & j & x & d & Hij & Hi & Hj & A & B)]]; [auto| |].
      * right. left. split; [exact H1|]. exists d. split; [right; exact Hd|exact D].
      * right. right. exists (S i), (S j), x, d. conj; auto.
    + intros K. apply H2 in K. destruct K as [K1 K2]. apply Bool.orb_false_iff in K1. destruct K1 as [-> K1]. split; [reflexivity|]. intros d [<-|Hd]; [exact K1|apply K2; exact Hd].
Qed.
Lemma lines_corner : forall t, section_lines_but_not_corner m uv = Ok (Some t) -> lines_corner_text m uv t.
Proof.
  intros t H. unfold section_lines_but_not_corner in H. message_step H. destruct (N.ltb 1 (fst x) && negb (snd x))%bool eqn:B; [|discriminate H].
  apply Bool.andb_true_iff in B. destruct B as [B1 B2]. apply Bool.negb_true_iff in B2. apply N.ltb_lt in B1. repeat message_step H.
  apply count_lines_twice in E. destruct E as [E1 E2]. specialize (E1 B1). specialize (E2 B2). destruct E2 as [_ E2]. unfold lines_corner_text. conj; auto.
  - destruct E1 as [E1|[[E1 _]|(i & j & c & d & Hij & Hi & Hj & A & B)]]; [lia|lia|]. apply link_of in A. apply link_of in B. destruct A as [A1 A2]. destruct B as [C1 C2].
    rewrite A1 in Hi. rewrite C1 in Hj. exists i, j, (cmv_id c), (cmv_id d), (cmv_vertex c), (cmv_vertex d). conj; assumption.
  - intros c (v & K). apply E2 in K. discriminate K.
Qed.
(** ** Surfaces of a Section *)
Lemma two_surfaces : forall t, section_invalid_embedded_surface m uv = Ok (Some t) -> two_surfaces_text m uv t.
Proof.
  intros t H. unfold section_invalid_embedded_surface in H. destruct (components_uuids m uv SurfaceT) as [|s0 [|s1 [|? ?]]] eqn:E; try discriminate H.
  destruct (existsb _ _) eqn:B; [discriminate H|]. repeat message_step H. split; [|exact H]. exists s0, s1. split; [rewrite <- E; apply components_uuids_all|].
  intros (l & (v & Hl) & B0 & B1). match type of B with ?e = false => assert (K : e = true) end; [|congruence].
  apply existsb_exists. exists (mkCMV (mkCID LineT l) v). split; [exact Hl|]. apply is_boundary_iff in B0. apply is_boundary_iff in B1.
  unfold cmv_id. cbn. rewrite B0, B1. reflexivity.
Qed.
Lemma off_border : forall t, section_line_not_on_surface_border m uv = Ok (Some t) -> off_border_text m uv t.
Proof.
  intros t H. unfold section_line_not_on_surface_border in H. repeat message_step H. subst x0 x2. split; [exists (cmv_id x); apply active_of_at; assumption|].
  match goal with K : is_active_of m SurfaceT x1 = Ok true |- _ => rename K into Q end.
  destruct (link_of _ _ Q) as [K1 K2].
  match goal with K : get_surface _ _ = Ok _ |- _ => rename K into G end. destruct (get_surface_some _ _ _ G) as [G1 G2].
  match goal with K : kind_named _ _ _ = Ok _ |- _ => rename K into NM end. cbn [kind_named] in NM. rewrite G in NM. cbn [bind] in NM.
  exists x3, (cmv_vertex x1). conj; auto.
  - destruct (is_active_of_true _ _ _ Q) as [Q' _]. apply of_type_iff in Q'. unfold is_active_of in Q. rewrite Q' in Q. cbn [kind_is_active] in Q. rewrite G in Q. cbn [bind] in Q. congruence.
  - rewrite G2, <- K1. assumption.
  - rewrite H. rewrite (named_eq _ _ x3 (cmv_id x1) G2) in NM. assert (x4 = label m x3) as -> by congruence. reflexivity.
Qed.
End Checks.

Lemma section_corners_text : forall m r, section_inspect_corners_topology m = Ok r -> section_corners_explained m r.
Proof.
  intros m r H. unfold section_inspect_corners_topology in H. apply bind_Ok in H. destruct H as (cs & HC & H). apply bind_Ok in H. destruct H as (rs & HR & H).
  apply components_explained in HC. destruct HC as [HC1 HC2].
  apply (report_vertices_explained _ _ _ [several_corners_text m; corner_embeddings_text m; corner_relation_text m; section_corner_line_text m]) in HR; [|reflexivity|].
  - cbn [section_corners_ds combine] in HR. inv_forall2 HR. unfold make_corners in H. injection H as <-. unfold section_corners_explained, corners_explained.
    cbn [ct_not_meshed ct_not_linked ct_multiple_corners ct_multiple_embeddings ct_not_internal_nor_boundary ct_not_boundary_line]. conj; assumption.
  - repeat (apply Forall2_cons; [intros uv t _ K|]); try apply Forall2_nil; [apply multiple_corners_text|apply embeddings_text|apply no_relation_text|apply section_corner_line]; exact K.
Qed.
Lemma section_lines_text : forall m r, section_inspect_lines_topology m = Ok r -> section_lines_explained m r.
Proof.
  intros m r H. unfold section_inspect_lines_topology in H. apply bind_Ok in H. destruct H as (cs & HC & H). apply bind_Ok in H. destruct H as (rs & HR & H).
  apply components_explained in HC. destruct HC as [HC1 HC2].
  apply (report_vertices_explained _ _ _ [line_relation_text m; section_embedded_line_text m; section_single_line_text m; lines_corner_text m]) in HR; [|reflexivity|].
  - cbn [section_lines_ds combine] in HR. inv_forall2 HR. injection H as <-. unfold section_lines_explained.
    cbn [sl_not_meshed sl_not_linked sl_wrong_relationship sl_invalid_embeddings sl_single_invalid sl_several_not_corner]. conj; assumption.
  - repeat (apply Forall2_cons; [intros uv t _ K|]); try apply Forall2_nil; [apply line_relation|apply (embedded_loop_text _ _ (component_mesh_vertices m uv)); [auto|]|apply single_line_text|apply lines_corner]; exact K.
Qed.
Lemma section_surfaces_text : forall m r, section_inspect_surfaces m = Ok r -> section_surfaces_explained m r.
Proof.
  intros m r H. unfold section_inspect_surfaces in H. apply bind_Ok in H. destruct H as (cs & HC & H). apply bind_Ok in H. destruct H as (rs & HR & H).
  apply components_explained in HC. destruct HC as [HC1 HC2].
  apply (report_vertices_explained _ _ _ [two_surfaces_text m; off_border_text m]) in HR; [|reflexivity|].
  - cbn [section_surfaces_ds combine] in HR. inv_forall2 HR. injection H as <-. unfold section_surfaces_explained.
    cbn [ss_not_meshed ss_not_linked ss_invalid_embeddings ss_not_on_border]. conj; assumption.
  - repeat (apply Forall2_cons; [intros uv t _ K|]); try apply Forall2_nil; [apply two_surfaces|apply off_border]; exact K.
Qed.
