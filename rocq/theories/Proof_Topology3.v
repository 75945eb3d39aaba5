(** Section topology (C38, C45). *)
From Coq Require Import String Ascii List Arith NArith ZArith Bool Lia Sorted.
From Verif Require Import Base BaseFacts Model_Issues Types Model_Colocation Model_Topology Spec_Colocation Spec_Maps Spec_Adjacency
  Spec_Topology Proof_Maps Proof_Colocation Proof_Colocation2 Proof_Colocation3 Proof_Adjacency Proof_Manifold Proof_Degeneration Proof_Topology
  Proof_Topology2.
Import ListNotations.
Open Scope list_scope.

Lemma of_type_self : forall t id v, of_type t (mkCMV (mkCID t id) v) = true.
Proof. intros. apply of_type_iff. reflexivity. Qed.
(** ** Two links *)
Definition two_of {A} (p : A -> bool) (l : list A) : Prop :=
  exists i j x y, i <> j /\ nth_error l i = Some x /\ p x = true /\ nth_error l j = Some y /\ p y = true.
Lemma two_of_cons : forall A (p : A -> bool) x l, two_of p (x :: l) <-> two_of p l \/ (p x = true /\ exists y, In y l /\ p y = true).
Proof.
  intros A p x l. split.
  - intros ([|i] & [|j] & a & b & Hne & Ha & Pa & Hb & Pb); cbn in Ha, Hb.
    + lia.
    + injection Ha as <-. right. split; [exact Pa|]. exists b. split; [eapply nth_error_In; exact Hb|exact Pb].
    + injection Hb as <-. right. split; [exact Pb|]. exists a. split; [eapply nth_error_In; exact Ha|exact Pa].
    + left. exists i, j, a, b. repeat split; auto.
  - intros [(i & j & a & b & Hne & Ha & Pa & Hb & Pb)|(Px & y & Hy & Py)].
    + exists (S i), (S j), a, b. repeat split; auto.
    + apply In_nth_error in Hy. destruct Hy as [n Hn]. exists 0, (S n), x, y. repeat split; auto.
Qed.
Lemma two_of_nil : forall A (p : A -> bool), ~ two_of p [].
Proof. intros A p ([|i] & j & a & b & _ & Ha & _); discriminate. Qed.
Lemma two_of_count : forall A (p : A -> bool) l, two_of p l <-> 2 <= length (filter p l).
Proof.
  intros A p l. induction l as [|x l IH].
  - split; [intros H; destruct (two_of_nil _ _ H)|cbn; lia].
  - rewrite two_of_cons, IH. cbn. destruct (p x) eqn:E; cbn.
    + split.
      * intros [H|(_ & y & Hy & Py)]; [lia|]. assert (In y (filter p l)) by (apply filter_In; auto). destruct (filter p l); [destruct H|cbn; lia].
      * intros H. right. split; [reflexivity|]. destruct (filter p l) as [|y r] eqn:F; [cbn in H; lia|]. exists y. apply filter_In. rewrite F. left. reflexivity.
    + split; [intros [H|(H & _)]; [exact H|discriminate]|auto].
Qed.
Lemma linked_twice_iff : forall m uv t, linked_twice m uv t <-> two_of (active_cmv m t) (component_mesh_vertices m uv).
Proof.
  intros m uv t. unfold linked_twice, two_of, active_cmv. split.
  - intros (i & j & a & b & v & w & Hne & H1 & A1 & H2 & A2). exists i, j, (mkCMV (mkCID t a) v), (mkCMV (mkCID t b) w).
    assert (E : forall x y, of_type t (mkCMV (mkCID t x) y) = true) by (intros; apply of_type_iff; reflexivity).
    rewrite !E. cbn [cmv_id cmv_component cid_id andb]. rewrite !activeb_iff. auto 8.
  - intros (i & j & [[t1 a] v] & [[t2 b] w] & Hne & H1 & A1 & H2 & A2). apply andb_true_iff in A1, A2. destruct A1 as [T1 A1], A2 as [T2 A2].
    apply of_type_iff in T1, T2. cbn in T1, T2, A1, A2. subst t1 t2. rewrite activeb_iff in A1, A2. exists i, j, a, b, v, w. auto 8.
Qed.

(** ** Corners, shared *)
Section Checks.
Context (m : Model) (uv : nat).
Hypothesis Hu : unique_ids m.
Hypothesis Hl : links_exist m.
Notation cmvs := (component_mesh_vertices m uv).

Lemma act : forall t c, t <> OtherT -> In c cmvs -> is_active_of m t c = Ok (active_cmv m t c).
Proof. intros t c Ht Hc. apply (is_active_of_ok m t uv c); assumption. Qed.
Lemma named_at : forall t id, t <> OtherT -> at_vertex m uv t id -> exists s, kind_named m t id = Ok s.
Proof. intros t id Ht H. apply kind_named_ok. apply (Hl uv); assumption. Qed.
Lemma named_active : forall t c, t <> OtherT -> In c cmvs -> active_cmv m t c = true -> exists s, kind_named m t (cmv_id c) = Ok s.
Proof. intros t c Ht Hc Ha. apply named_at; [exact Ht|]. apply (active_cmv_at m uv t c Hc Ha). Qed.

Lemma second_corner_ok : forall l found, (forall c, In c l -> In c cmvs) ->
  decides (second_active_corner m found l)
    (two_of (active_cmv m CornerT) l \/ (found = true /\ exists c, In c l /\ active_cmv m CornerT c = true)).
Proof.
  induction l as [|c l IH]; intros found Hin; cbn.
  - exists false. split; [reflexivity|]. split; [discriminate|]. intros [H|(_ & c & [] & _)]. destruct (two_of_nil _ _ H).
  - rewrite act by (discriminate || (apply Hin; left; reflexivity)). cbn. assert (Hin' : forall c, In c l -> In c cmvs) by (intros d Hd; apply Hin; right; exact Hd).
    destruct (active_cmv m CornerT c) eqn:E; cbn.
    + destruct found.
      * apply decides_bool. split; [intros _|reflexivity]. right. split; [reflexivity|]. exists c. split; [left; reflexivity|exact E].
      * eapply decides_ext; [apply (IH true Hin')|]. rewrite two_of_cons, E. split.
        -- intros [H|(_ & H)]; auto.
        -- intros [[H|(_ & H)]|(H & _)]; auto. discriminate.
    + eapply decides_ext; [apply (IH found Hin')|]. rewrite two_of_cons, E. split.
      * intros [H|(H1 & d & Hd & Hd')]; auto. right. split; [exact H1|]. exists d. split; [right; exact Hd|exact Hd'].
      * intros [[H|(H & _)]|(H1 & d & [<-|Hd] & Hd')]; auto; try discriminate; try congruence. right. split; [exact H1|]. eauto.
Qed.
Lemma multiple_corners_ok : reports_iff (unique_vertex_has_multiple_corners m uv) (several_corners m uv).
Proof.
  unfold unique_vertex_has_multiple_corners. destruct (second_corner_ok cmvs false (fun c H => H)) as (b & Hb & Hp). rewrite Hb. cbn.
  assert (E : several_corners m uv <-> b = true).
  { rewrite Hp. unfold several_corners. rewrite linked_twice_iff. split; [auto|]. intros [H|(H & _)]; [exact H|discriminate]. }
  destruct b; [apply reports_some; apply E; reflexivity|apply reports_none; intros K; apply E in K; discriminate].
Qed.

(** checks of the form: the first active component of type [t] with a boolean condition *)
Lemma active_condition_ok : forall t (cond : uuid -> bool) (msg : string -> list string), t <> OtherT ->
  reports_iff (first_some (fun c =>
    let! a := is_active_of m t c in
    if a && cond (cmv_id c) then let! n := kind_named m t (cmv_id c) in Ok (Some (StrCat (msg n))) else Ok None) cmvs)
    (exists id, active_at m uv t id /\ cond id = true).
Proof.
  intros t cond msg Ht. eapply reports_ext.
  - apply (first_some_reports _ _ (fun c => active_cmv m t c = true /\ cond (cmv_id c) = true)). intros c Hc. rewrite act by assumption. cbn [bind].
    destruct (active_cmv m t c) eqn:E; cbn [andb]; [|apply reports_none; intros [K _]; discriminate].
    destruct (cond (cmv_id c)) eqn:F; [|apply reports_none; intros [_ K]; discriminate].
    destruct (named_active t c Ht Hc E) as [s Hs]. rewrite Hs. cbn [bind]. apply reports_some. auto.
  - split.
    + intros (c & Hc & Ha & Hcond). exists (cmv_id c). split; [apply (active_cmv_at m uv t c Hc Ha)|exact Hcond].
    + intros (id & Hat & Hcond). apply active_at_iff in Hat. destruct Hat as (c & Hc & Ha & Hid). exists c. rewrite Hid. auto.
Qed.
Lemma lt_zero_iff : forall n, Nat.ltb n 1 = true <-> n = 0.
Proof. intros n. rewrite Nat.ltb_lt. lia. Qed.
Lemma not_internal_ok : reports_iff (corner_is_not_internal_nor_boundary m uv) (corner_without_relation m uv).
Proof.
  unfold corner_is_not_internal_nor_boundary, corner_without_relation. eapply reports_ext.
  - apply (active_condition_ok CornerT (fun id => Nat.ltb (nb_embeddings m id) 1 && Nat.ltb (nb_incidences m id) 1)
      (fun n => ["unique vertex "; str uv; " is associated to Corner "; n; ", which is neither internal nor boundary."]%string)); discriminate.
  - split; intros (c & H1 & H2); exists c; (split; [exact H1|]); rewrite andb_true_iff, !lt_zero_iff in *; exact H2.
Qed.

(** ** Section corners *)
Lemma multiple_embeddings_ok : reports_iff (corner_has_multiple_embeddings m uv) (corner_with_several_embeddings m uv).
Proof.
  unfold corner_has_multiple_embeddings, corner_with_several_embeddings. eapply reports_ext.
  - apply (active_condition_ok CornerT (fun id => Nat.ltb 1 (nb_embeddings m id))
      (fun n => ["unique vertex "; str uv; " is associated to Corner"; n; ", which has several embeddings."]%string)); discriminate.
  - split; intros (c & H1 & H2); exists c; (split; [exact H1|]); apply Nat.ltb_lt; exact H2.
Qed.
Lemma not_boundary_line_ok : reports_iff (section_corner_is_part_of_line_but_not_boundary m uv) (corner_not_bounding_a_line m uv).
Proof.
  unfold section_corner_is_part_of_line_but_not_boundary. eapply reports_ext.
  - apply (first_some_reports _ _ (fun c => active_cmv m CornerT c = true /\ exists d, In d cmvs /\ (of_type LineT d = true /\ ~ bounds m (cmv_id c) (cmv_id d)))).
    intros c Hc. rewrite act by (discriminate || exact Hc). cbn [bind]. destruct (active_cmv m CornerT c) eqn:E; cbn [negb];
      [|apply reports_none; intros [K _]; discriminate].
    eapply reports_ext; [apply (first_some_reports _ _ (fun d => of_type LineT d = true /\ ~ bounds m (cmv_id c) (cmv_id d)))|tauto].
    intros d Hd. destruct (of_type LineT d) eqn:F; cbn [negb]; [|apply reports_none; intros [K _]; discriminate].
    destruct (is_boundary m (cmv_id c) (cmv_id d)) eqn:G; cbn [negb].
    + apply reports_none. intros [_ K]. apply K, is_boundary_iff. exact G.
    + destruct (named_active CornerT c ltac:(discriminate) Hc E) as [s Hs]. rewrite Hs. cbn [bind].
      destruct (named_at LineT (cmv_id d)) as [s' Hs']; [discriminate|apply at_vertex_iff; eauto|]. rewrite Hs'. cbn [bind]. apply reports_some.
      split; [reflexivity|]. intros K. apply is_boundary_iff in K. congruence.
  - unfold corner_not_bounding_a_line. split.
    + intros (c & Hc & Ha & d & Hd & Ht & Hn). exists (cmv_id c), (cmv_id d). split; [apply (active_cmv_at m uv _ c Hc Ha)|]. split; [|exact Hn].
      apply at_vertex_iff. eauto.
    + intros (c & l & Hc & Hl' & Hn). apply active_at_iff in Hc. apply at_vertex_iff in Hl'. destruct Hc as (c' & Hc' & Ha & <-), Hl' as (d & Hd & Ht & <-).
      exists c'. eauto 8.
Qed.

Definition corner_fine (c : uuid) : Prop :=
  nb_embeddings m c <= 1 /\ (nb_embeddings m c = 0 -> 1 <= nb_incidences m c) /\ (nb_embeddings m c = 1 -> nb_incidences m c <= 1) /\
  forall l, at_vertex m uv LineT l -> bounds m c l.
Lemma unbounded_existsb : forall c, existsb (fun line => of_type LineT line && negb (is_boundary m c (cmv_id line))) cmvs = true <->
  exists l, at_vertex m uv LineT l /\ ~ bounds m c l.
Proof.
  intros c. rewrite existsb_exists. split.
  - intros (d & Hd & K). apply andb_true_iff in K. destruct K as [T K]. exists (cmv_id d). split; [apply at_vertex_iff; eauto|].
    intros B. apply is_boundary_iff in B. rewrite B in K. discriminate.
  - intros (l & Hat & Hn). apply at_vertex_iff in Hat. destruct Hat as (d & Hd & T & <-). exists d. split; [exact Hd|]. rewrite T. cbn.
    destruct (is_boundary m c (cmv_id d)) eqn:E; [|reflexivity]. exfalso. apply Hn, is_boundary_iff, E.
Qed.
Lemma corner_loop_ok : forall l found, (forall c, In c l -> In c cmvs) ->
  decides (section_corner_loop m cmvs found l)
    (~ two_of (active_cmv m CornerT) l /\ (found = true -> forall c, In c l -> active_cmv m CornerT c = false) /\
     forall c, In c l -> active_cmv m CornerT c = true -> corner_fine (cmv_id c)).
Proof.
  induction l as [|c l IH]; intros found Hin; cbn [section_corner_loop].
  - exists true. split; [reflexivity|]. split; [intros _|reflexivity]. split; [apply two_of_nil|]. split; [intros _ c []|intros c []].
  - rewrite act by (discriminate || (apply Hin; left; reflexivity)). cbn [bind].
    assert (Hin' : forall c, In c l -> In c cmvs) by (intros d Hd; apply Hin; right; exact Hd).
    destruct (active_cmv m CornerT c) eqn:E; cbn [negb].
    + destruct found.
      { apply decides_bool. split; [discriminate|]. intros (_ & K & _). specialize (K eq_refl c (or_introl eq_refl)). congruence. }
      assert (BAD : ~ corner_fine (cmv_id c) -> decides (Ok false) (~ two_of (active_cmv m CornerT) (c :: l) /\
        (false = true -> forall c0, In c0 (c :: l) -> active_cmv m CornerT c0 = false) /\
        (forall c0, In c0 (c :: l) -> active_cmv m CornerT c0 = true -> corner_fine (cmv_id c0)))).
      { intros K. apply decides_bool. split; [discriminate|]. intros (_ & _ & F). exfalso. apply K, F; [left; reflexivity|exact E]. }
      destruct (Nat.ltb 1 (nb_embeddings m (cmv_id c))) eqn:E1; [apply BAD; intros (K & _); apply Nat.ltb_lt in E1; lia|]. apply Nat.ltb_ge in E1.
      destruct (if negb (Nat.eqb (nb_embeddings m (cmv_id c)) 1) then Nat.ltb (nb_incidences m (cmv_id c)) 1 else Nat.ltb 1 (nb_incidences m (cmv_id c))) eqn:E2.
      { apply BAD. intros (_ & K1 & K2 & _). destruct (Nat.eqb_spec (nb_embeddings m (cmv_id c)) 1) as [H|H]; cbn [negb] in E2; apply Nat.ltb_lt in E2; lia. }
      destruct (existsb (fun line => of_type LineT line && negb (is_boundary m (cmv_id c) (cmv_id line))) cmvs) eqn:E3.
      { apply BAD. intros (_ & _ & _ & K). apply unbounded_existsb in E3. destruct E3 as (l' & H1 & H2). apply H2, K, H1. }
      assert (FINE : corner_fine (cmv_id c)).
      { split; [exact E1|]. destruct (Nat.eqb_spec (nb_embeddings m (cmv_id c)) 1) as [H|H]; cbn [negb] in E2; apply Nat.ltb_ge in E2; (split; [lia|split; [lia|]]).
        all: intros l' Hl'; destruct (is_boundary m (cmv_id c) l') eqn:B; [apply is_boundary_iff; exact B|exfalso].
        all: assert (false = true); [rewrite <- E3; apply unbounded_existsb; exists l'; split; [exact Hl'|intros Q; apply is_boundary_iff in Q; congruence]|discriminate]. }
      eapply decides_ext; [apply (IH true Hin')|]. rewrite two_of_cons, E. split.
      * intros (K1 & K2 & K3). split.
        -- intros [K|(_ & d & Hd & Pd)]; [tauto|]. specialize (K2 eq_refl d Hd). congruence.
        -- split; [discriminate|]. intros d [<-|Hd] Ha; [exact FINE|apply K3; assumption].
      * intros (K1 & _ & K3). split; [tauto|]. split; [|intros d Hd; apply K3; right; exact Hd]. intros _ d Hd.
        destruct (active_cmv m CornerT d) eqn:F; [|reflexivity]. exfalso. apply K1. right. split; [reflexivity|]. eauto.
    + eapply decides_ext; [apply (IH found Hin')|]. rewrite two_of_cons, E. split.
      * intros (K1 & K2 & K3). split; [intros [K|(K & _)]; [tauto|discriminate]|]. split.
        -- intros Hf d [<-|Hd]; [exact E|apply K2; assumption].
        -- intros d [<-|Hd] Ha; [congruence|apply K3; assumption].
      * intros (K1 & K2 & K3). split; [tauto|]. split; [intros Hf d Hd; apply K2; [exact Hf|right; exact Hd]|intros d Hd; apply K3; right; exact Hd].
Qed.
Lemma bounds_dec : forall a b, bounds m a b \/ ~ bounds m a b.
Proof. intros a b. destruct (is_boundary m a b) eqn:E; [left; apply is_boundary_iff; exact E|right; intros K; apply is_boundary_iff in K; congruence]. Qed.
Lemma corner_valid_ok : decides (section_corner_topology_is_valid m uv)
  (~ several_corners m uv /\ ~ corner_with_several_embeddings m uv /\ ~ corner_without_relation m uv /\ ~ corner_not_bounding_a_line m uv /\
   ~ embedded_corner_with_several_incidences m uv).
Proof.
  unfold section_corner_topology_is_valid. eapply decides_ext; [apply (corner_loop_ok cmvs false (fun c H => H))|].
  unfold several_corners, corner_with_several_embeddings, corner_without_relation, corner_not_bounding_a_line, embedded_corner_with_several_incidences.
  rewrite linked_twice_iff. split.
  - intros (K1 & _ & K3). assert (F : forall c, active_at m uv CornerT c -> corner_fine c).
    { intros c Hc. apply active_at_iff in Hc. destruct Hc as (d & Hd & Ha & <-). apply K3; assumption. }
    split; [exact K1|]. split; [|split; [|split]].
    + intros (c & Hc & H). destruct (F c Hc). lia.
    + intros (c & Hc & H1 & H2). destruct (F c Hc) as (_ & H & _). specialize (H H1). lia.
    + intros (c & l & Hc & Hl' & Hn). destruct (F c Hc) as (_ & _ & _ & H). apply Hn, H, Hl'.
    + intros (c & Hc & H1 & H2). destruct (F c Hc) as (_ & _ & H & _). specialize (H H1). lia.
  - intros (K1 & K2 & K3 & K4 & K5). split; [exact K1|]. split; [discriminate|]. intros c Hc Ha. assert (A := active_cmv_at m uv _ c Hc Ha).
    split; [destruct (le_lt_dec (nb_embeddings m (cmv_id c)) 1); [assumption|exfalso; apply K2; eauto]|].
    split; [intros H; destruct (Nat.eq_dec (nb_incidences m (cmv_id c)) 0); [exfalso; apply K3; eauto|lia]|].
    split; [intros H; destruct (le_lt_dec (nb_incidences m (cmv_id c)) 1); [assumption|exfalso; apply K5; eauto]|].
    intros l Hl'. destruct (bounds_dec (cmv_id c) l); [assumption|]. exfalso. apply K4. eauto.
Qed.

(** ** Section lines *)
Lemma line_relation_ok : reports_iff (section_line_wrong_relationships m uv) (line_without_relation m uv).
Proof.
  unfold section_line_wrong_relationships, line_without_relation. eapply reports_ext.
  - apply (active_condition_ok LineT (fun id => Nat.ltb (nb_embeddings m id) 1 && Nat.ltb (nb_incidences m id) 1)
      (fun n => ["unique vertex "; str uv; " is part of Line "; n; ", which is neither embedded nor incident."]%string)); discriminate.
  - split; intros (c & H1 & H2); exists c; (split; [exact H1|]); rewrite andb_true_iff, !lt_zero_iff in *; exact H2.
Qed.

Hypothesis He : forall l e, active_at m uv LineT l -> In e (embeddings m l) -> In (cid_id e) (component_ids m SurfaceT).
Lemma at_any_type : forall id, existsb (fun c => Nat.eqb (cmv_id c) id) cmvs = true <-> exists t, at_vertex m uv t id.
Proof.
  intros id. rewrite existsb_exists. split.
  - intros ([[t i] v] & Hin & K). apply Nat.eqb_eq in K. cbn in K. subst i. exists t, v. exact Hin.
  - intros (t & v & Hin). exists (mkCMV (mkCID t id) v). split; [exact Hin|]. cbn. apply Nat.eqb_refl.
Qed.
Lemma embedding_check_ok : forall l, active_at m uv LineT l ->
  reports_iff (first_some (section_embedding_check m uv l) (embeddings m l)) (embedding_missed m uv l).
Proof.
  intros l Ha. eapply reports_ext.
  - apply (first_some_reports _ _ (fun e => In (cid_id e) (active_ids m SurfaceT) /\ all_surfaces_have_polygons m /\ forall t, ~ at_vertex m uv t (cid_id e))).
    intros e Hin. unfold section_embedding_check. assert (Hex := He l e Ha Hin). rewrite kind_is_active_ok by assumption. cbn [bind].
    destruct (activeb m SurfaceT (cid_id e)) eqn:E; cbn [negb]; [|apply reports_none; intros [K _]; apply activeb_iff in K; congruence]. apply activeb_iff in E.
    destruct (section_surfaces_are_meshed m) eqn:F; cbn [andb].
    2:{ apply reports_none. intros (_ & K & _). apply surfaces_meshed_iff in K. congruence. }
    destruct (existsb (fun c => Nat.eqb (cmv_id c) (cid_id e)) cmvs) eqn:G; cbn [negb].
    + apply reports_none. intros (_ & _ & K). apply at_any_type in G. destruct G as [t Ht]. apply (K t Ht).
    + destruct (kind_title_ok m LineT l) as [s Hs]; [apply (Hl uv); [apply Ha|discriminate]|]. rewrite Hs. cbn [bind].
      destruct (kind_named_ok m SurfaceT (cid_id e) Hex) as [s' Hs']. rewrite Hs'. cbn [bind]. apply reports_some. split; [exact E|].
      split; [apply surfaces_meshed_iff; exact F|]. intros t Ht. assert (false = true); [rewrite <- G; apply at_any_type; eauto|discriminate].
  - unfold embedding_missed. split.
    + intros (e & H1 & H2 & H3 & H4). eauto 8.
    + intros (H3 & e & H1 & H2 & H4). eauto 8.
Qed.
Definition badly (l : uuid) : Prop := 1 < nb_embeddings m l \/ 1 <= nb_incidences m l \/ embedding_missed m uv l.
Lemma embedded_loop_ok : forall l, (forall c, In c l -> In c cmvs) ->
  reports_iff (section_embedded_loop m uv l)
    (exists pre c post, l = pre ++ c :: post /\ active_cmv m LineT c = true /\ 1 <= nb_embeddings m (cmv_id c) /\
       (forall d, In d pre -> active_cmv m LineT d = true -> 1 <= nb_embeddings m (cmv_id d)) /\ badly (cmv_id c)).
Proof.
  induction l as [|c l IH]; intros Hin; cbn [section_embedded_loop].
  - apply reports_none. intros ([|] & ? & ? & ? & _); discriminate.
  - assert (Hc : In c cmvs) by (apply Hin; left; reflexivity). rewrite act by (discriminate || exact Hc). cbn [bind].
    assert (Hin' : forall c, In c l -> In c cmvs) by (intros d Hd; apply Hin; right; exact Hd).
    assert (SKIP : (active_cmv m LineT c = true -> 1 <= nb_embeddings m (cmv_id c) /\ ~ badly (cmv_id c)) ->
      (exists pre c0 post, l = pre ++ c0 :: post /\ active_cmv m LineT c0 = true /\ 1 <= nb_embeddings m (cmv_id c0) /\
       (forall d, In d pre -> active_cmv m LineT d = true -> 1 <= nb_embeddings m (cmv_id d)) /\ badly (cmv_id c0)) <->
      (exists pre c0 post, c :: l = pre ++ c0 :: post /\ active_cmv m LineT c0 = true /\ 1 <= nb_embeddings m (cmv_id c0) /\
       (forall d, In d pre -> active_cmv m LineT d = true -> 1 <= nb_embeddings m (cmv_id d)) /\ badly (cmv_id c0))).
    { intros NB. split.
      - intros (pre & d & post & -> & H1 & H2 & H3 & H4). exists (c :: pre), d, post. split; [reflexivity|]. split; [exact H1|]. split; [exact H2|]. split; [|exact H4].
        intros x [<-|Hx] Hax; [apply NB; exact Hax|apply H3; assumption].
      - intros ([|p pre] & d & post & E & H1 & H2 & H3 & H4); cbn in E; injection E; intros; subst.
        + exfalso. destruct (NB H1) as [_ K]. tauto.
        + exists pre, d, post. split; [reflexivity|]. split; [exact H1|]. split; [exact H2|]. split; [|exact H4]. intros x Hx. apply H3. right. exact Hx. }
    destruct (active_cmv m LineT c) eqn:E; cbn [negb].
    + assert (HERE : forall s, 1 <= nb_embeddings m (cmv_id c) -> badly (cmv_id c) -> reports_iff (Ok (Some s))
        (exists pre c0 post, c :: l = pre ++ c0 :: post /\ active_cmv m LineT c0 = true /\ 1 <= nb_embeddings m (cmv_id c0) /\
         (forall d, In d pre -> active_cmv m LineT d = true -> 1 <= nb_embeddings m (cmv_id d)) /\ badly (cmv_id c0))).
      { intros s H1 H2. apply reports_some. exists [], c, l. split; [reflexivity|]. split; [exact E|]. split; [exact H1|]. split; [intros d []|exact H2]. }
      destruct (Nat.ltb (nb_embeddings m (cmv_id c)) 1) eqn:E1.
      { apply lt_zero_iff in E1. apply reports_none. intros ([|p pre] & d & post & K & H1 & H2 & H3 & H4); cbn in K; injection K; intros; subst; [lia|].
        specialize (H3 p (or_introl eq_refl) E). lia. }
      apply Nat.ltb_ge in E1. destruct (named_active LineT c ltac:(discriminate) Hc E) as [s Hs].
      destruct (Nat.ltb 1 (nb_embeddings m (cmv_id c))) eqn:E2.
      { rewrite Hs. cbn [bind]. apply HERE; [exact E1|]. left. apply Nat.ltb_lt. exact E2. }
      destruct (Nat.ltb 0 (nb_incidences m (cmv_id c))) eqn:E3.
      { rewrite Hs. cbn [bind]. apply HERE; [exact E1|]. right. left. apply Nat.ltb_lt in E3. lia. }
      destruct (embedding_check_ok (cmv_id c) (active_cmv_at m uv _ c Hc E)) as (r & Hr & Hp). rewrite Hr. cbn [bind]. destruct r as [s'|].
      * apply HERE; [exact E1|]. right. right. apply Hp. discriminate.
      * eapply reports_ext; [apply (IH Hin')|]. apply SKIP. intros _. split; [exact E1|]. apply Nat.ltb_ge in E2, E3. intros [K|[K|K]]; [lia|lia|].
        apply Hp in K. congruence.
    + eapply reports_ext; [apply (IH Hin')|]. apply SKIP. discriminate.
Qed.
Lemma embedded_line_ok : reports_iff (section_invalid_embedded_line m uv) (line_badly_embedded m uv).
Proof.
  unfold section_invalid_embedded_line. eapply reports_ext; [apply (embedded_loop_ok cmvs (fun c H => H))|]. unfold line_badly_embedded. split.
  - intros (pre & [[t l] v] & post & E & H1 & H2 & H3 & H4). apply andb_true_iff in H1. destruct H1 as [T A]. apply of_type_iff in T. cbn in T. subst t.
    apply activeb_iff in A. exists pre, l, v, post. split; [exact E|]. split; [exact A|]. split; [exact H2|]. split; [|exact H4].
    intros l' v' Hin Ha'. apply (H3 (mkCMV (mkCID LineT l') v') Hin). unfold active_cmv. rewrite of_type_self. apply activeb_iff. exact Ha'.
  - intros (pre & l & v & post & E & A & H2 & H3 & H4). exists pre, (mkCMV (mkCID LineT l) v), post. split; [exact E|]. split.
    + unfold active_cmv. rewrite of_type_self. apply activeb_iff. exact A.
    + split; [exact H2|]. split; [|exact H4]. intros [[t l'] v'] Hin Ha'. apply andb_true_iff in Ha'. destruct Ha' as [T Ha']. apply of_type_iff in T. cbn in T. subst t.
      apply activeb_iff in Ha'. apply (H3 l' v' Hin Ha').
Qed.

Lemma single_line_ok : reports_iff (section_invalid_single_line m uv) (single_line_invalid m uv).
Proof.
  unfold section_invalid_single_line. assert (CL := components_uuids_all m uv LineT). assert (CS := components_uuids_all m uv SurfaceT).
  set (ls := components_uuids m uv LineT) in *. set (ss := components_uuids m uv SurfaceT) in *. clearbody ls ss.
  assert (NO : forall l0, ls = l0 -> (forall l, l0 <> [l]) -> ~ single_line_invalid m uv).
  { intros l0 E H (l & ss' & HL & _). apply (all_at_single m uv LineT ls l CL) in HL. apply (H l). congruence. }
  destruct ls as [|line_id [|x ls]]; [apply reports_none; apply (NO [] eq_refl); discriminate| |apply reports_none; apply (NO _ eq_refl); discriminate].
  assert (Hat : at_vertex m uv LineT line_id) by (apply CL; left; reflexivity).
  rewrite kind_is_active_ok; [|exact Hu|apply (Hl uv LineT); [exact Hat|discriminate]]. cbn [bind].
  assert (UNIQ : forall l, all_at m uv LineT [l] -> l = line_id).
  { intros l HL. apply (all_at_single m uv LineT _ l CL) in HL. congruence. }
  destruct (activeb m LineT line_id) eqn:E; cbn [negb].
  2:{ apply reports_none. intros (l & ss' & HL & HA & _). rewrite (UNIQ l HL) in HA. apply activeb_iff in HA. congruence. }
  apply activeb_iff in E. destruct (named_at LineT line_id) as [s Hs]; [discriminate|exact Hat|].
  assert (SPEC : single_line_invalid m uv <-> (2 < length ss \/
     (1 <= nb_embeddings m line_id /\ all_surfaces_have_polygons m /\ ~ (exists s, ss = [s] /\ inside m line_id s)) \/
     (nb_embeddings m line_id = 0 /\ exists s, In s ss /\ ~ bounds m line_id s))).
  { split.
    - intros (l & ss' & HL & HA & HS & K). rewrite (UNIQ l HL) in *. destruct (all_at_length m uv _ _ _ CS HS) as [L Q]. rewrite L.
      destruct K as [K|[(K1 & K2 & K3)|(K1 & s0 & K2 & K3)]]; [left; exact K|right; left|right; right].
      + split; [exact K1|]. split; [exact K2|]. intros (s0 & -> & Hi). apply K3. exists s0. split; [|exact Hi]. apply (all_at_single m uv SurfaceT ss' s0 HS). exact CS.
      + split; [exact K1|]. exists s0. rewrite Q. auto.
    - intros K. exists line_id, ss. auto. }
  destruct (Nat.ltb 2 (length ss)) eqn:E1.
  { rewrite Hs. cbn [bind]. apply reports_some. apply SPEC. left. apply Nat.ltb_lt. exact E1. }
  apply Nat.ltb_ge in E1. destruct (Nat.ltb 0 (nb_embeddings m line_id)) eqn:E2.
  - apply Nat.ltb_lt in E2. destruct (section_surfaces_are_meshed m) eqn:E3; cbn [andb].
    2:{ apply reports_none. rewrite SPEC. intros [K|[(_ & K & _)|(K & _)]]; [lia| |lia]. apply surfaces_meshed_iff in K. congruence. }
    assert (W : (match ss with [s0] => negb (is_internal m line_id s0) | _ => true end) = true <-> ~ exists s0, ss = [s0] /\ inside m line_id s0).
    { destruct ss as [|s0 [|s1 ss']].
      - split; [intros _ (x & K & _); discriminate|reflexivity].
      - rewrite (bool_not_iff _ _ (is_internal_iff m line_id s0)). split; [intros K (x & Hx & Hi); injection Hx as <-; tauto|]. intros K Hi. apply K. eauto.
      - split; [intros _ (x & K & _); discriminate|reflexivity]. }
    destruct (match ss with [s0] => negb (is_internal m line_id s0) | _ => true end).
    + rewrite Hs. cbn [bind]. apply reports_some. apply SPEC. right. left. split; [lia|]. split; [apply surfaces_meshed_iff; exact E3|]. apply W. reflexivity.
    + apply reports_none. rewrite SPEC. intros [K|[(_ & _ & K)|(K & _)]]; [lia| |lia]. apply W in K. discriminate.
  - apply Nat.ltb_ge in E2. eapply reports_ext; [apply (first_some_reports _ _ (fun s0 => ~ bounds m line_id s0))|].
    + intros s0 Hs0. destruct (is_boundary m line_id s0) eqn:B; cbn [negb].
      * apply reports_none. intros K. apply K, is_boundary_iff, B.
      * rewrite Hs. cbn [bind]. destruct (named_at SurfaceT s0) as [s' Hs']; [discriminate|apply CS; exact Hs0|]. rewrite Hs'. cbn [bind]. apply reports_some.
        intros K. apply is_boundary_iff in K. congruence.
    + rewrite SPEC. split; [intros K; right; right; split; [lia|exact K]|]. intros [K|[(K & _)|(_ & K)]]; [lia|lia|exact K].
Qed.

Hypothesis Hb : below_2_32 (length cmvs).
Lemma count_lines_ok : forall l nb corner, (forall c, In c l -> In c cmvs) -> (nb + N.of_nat (length l) < 2 ^ 32)%N ->
  count_lines_and_corner m l nb corner = Ok ((nb + N.of_nat (length (filter (active_cmv m LineT) l)))%N, corner || existsb (of_type CornerT) l).
Proof.
  induction l as [|c l IH]; intros nb corner Hin Hb'; cbn [count_lines_and_corner filter existsb].
  - cbn. rewrite N.add_0_r, orb_false_r. reflexivity.
  - rewrite act by (discriminate || (apply Hin; left; reflexivity)). cbn [bind].
    assert (Hin' : forall c, In c l -> In c cmvs) by (intros d Hd; apply Hin; right; exact Hd). cbn [length] in Hb'.
    destruct (active_cmv m LineT c) eqn:E.
    + unfold add32. rewrite u32_small by lia. rewrite IH by (assumption || lia). cbn [length]. assert (F : of_type CornerT c = false).
      { apply andb_true_iff in E. destruct E as [T _]. apply of_type_iff in T. unfold of_type. rewrite T. reflexivity. }
      rewrite F. cbn. f_equal. f_equal. lia.
    + rewrite IH by (assumption || lia). rewrite orb_assoc. reflexivity.
Qed.
Lemma lines_corner_ok : reports_iff (section_lines_but_not_corner m uv) (lines_without_corner m uv).
Proof.
  unfold section_lines_but_not_corner. unfold below_2_32 in Hb. rewrite count_lines_ok by (auto || lia). cbn [bind fst snd].
  assert (E : lines_without_corner m uv <-> (N.ltb 1 (0 + N.of_nat (length (filter (active_cmv m LineT) cmvs))) && negb (false || existsb (of_type CornerT) cmvs))%bool = true).
  { unfold lines_without_corner. rewrite linked_twice_iff, two_of_count, andb_true_iff, N.ltb_lt. cbn [orb].
    assert (C : negb (existsb (of_type CornerT) cmvs) = true <-> forall c, ~ at_vertex m uv CornerT c).
    { rewrite (bool_not_iff _ (exists c, at_vertex m uv CornerT c)).
      - split; [intros K c Hc; apply K; eauto|intros K [c Hc]; apply (K c Hc)].
      - rewrite existsb_exists. split; [intros (c & Hc & T); exists (cmv_id c); apply at_vertex_iff; eauto|]. intros [c Hc]. apply at_vertex_iff in Hc.
        destruct Hc as (d & Hd & T & _). eauto. }
    rewrite C. split; intros [H1 H2]; (split; [lia|exact H2]). }
  destruct (N.ltb 1 (0 + N.of_nat (length (filter (active_cmv m LineT) cmvs))) && negb (false || existsb (of_type CornerT) cmvs))%bool.
  - apply reports_some. apply E. reflexivity.
  - apply reports_none. intros K. apply E in K. discriminate.
Qed.
Lemma any_active_ok : forall t, t <> OtherT -> decides (anyM (is_active_of m t) cmvs) (exists id, active_at m uv t id).
Proof.
  intros t Ht. eapply decides_ext; [apply (anyM_decides _ _ (fun c => active_cmv m t c = true))|].
  - intros c Hc. rewrite act by assumption. apply decides_bool. tauto.
  - split; [intros (c & Hc & Ha); exists (cmv_id c); apply (active_cmv_at m uv t c Hc Ha)|]. intros (id & Hat). apply active_at_iff in Hat.
    destruct Hat as (c & Hc & Ha & _). eauto.
Qed.
Lemma linked_twice_active : forall t, linked_twice m uv t -> exists id, active_at m uv t id.
Proof.
  intros t (i & j & a & b & v & w & _ & H & Ha & _). exists a. split; [|exact Ha]. exists v. eapply nth_error_In. exact H.
Qed.
Lemma lines_valid_ok : decides (section_lines_topology_is_valid m uv)
  (~ line_without_relation m uv /\ ~ line_badly_embedded m uv /\ ~ single_line_invalid m uv /\ ~ lines_without_corner m uv).
Proof.
  unfold section_lines_topology_is_valid. destruct (any_active_ok LineT ltac:(discriminate)) as (b & Hb' & Hp). rewrite Hb'. cbn [bind].
  destruct b; cbn [negb].
  - eapply decides_ext; [apply (all_pass_decides _ [line_without_relation m; line_badly_embedded m; single_line_invalid m; lines_without_corner m])|].
    + repeat constructor; [apply line_relation_ok|apply embedded_line_ok|apply single_line_ok|apply lines_corner_ok].
    + split.
      * intros K. inversion K as [|? ? K1 Q1]; subst. inversion Q1 as [|? ? K2 Q2]; subst. inversion Q2 as [|? ? K3 Q3]; subst. inversion Q3; subst. auto.
      * intros (K1 & K2 & K3 & K4). repeat constructor; assumption.
  - apply decides_bool. split; [intros _|reflexivity]. assert (NO : forall id, ~ active_at m uv LineT id).
    { intros id K. assert (false = true); [apply Hp; eauto|discriminate]. }
    split; [intros (l & K & _); apply (NO l K)|]. split.
    + intros (pre & l & v & post & E & A & _). apply (NO l). split; [|exact A]. exists v. rewrite E. apply in_elt.
    + split; [intros (l & ss & HL & A & _); apply (NO l); split; [apply HL; left; reflexivity|exact A]|].
      intros (K & _). apply linked_twice_active in K. destruct K as [id K]. apply (NO id K).
Qed.

(** ** Section surfaces *)
Lemma two_surfaces_ok : reports_iff (section_invalid_embedded_surface m uv) (two_surfaces_without_common_line m uv).
Proof.
  unfold section_invalid_embedded_surface. assert (CS := components_uuids_all m uv SurfaceT). set (ss := components_uuids m uv SurfaceT) in *. clearbody ss.
  assert (LEN : forall s0 s1, all_at m uv SurfaceT [s0; s1] -> length ss = 2).
  { intros s0 s1 H. destruct (all_at_length m uv _ _ _ CS H) as [L _]. exact L. }
  destruct ss as [|s0 [|s1 [|s2 ss]]].
  - apply reports_none. intros (a & b & H & _). specialize (LEN a b H). discriminate.
  - apply reports_none. intros (a & b & H & _). specialize (LEN a b H). discriminate.
  - assert (X : existsb (fun c => of_type LineT c && (is_boundary m (cmv_id c) s0 && is_boundary m (cmv_id c) s1)) cmvs = true <->
       exists l, at_vertex m uv LineT l /\ bounds m l s0 /\ bounds m l s1).
    { rewrite existsb_exists. split.
      - intros (c & Hc & K). rewrite !andb_true_iff, !is_boundary_iff in K. exists (cmv_id c). split; [apply at_vertex_iff; exists c; tauto|tauto].
      - intros (l & Hat & H1 & H2). apply at_vertex_iff in Hat. destruct Hat as (c & Hc & T & <-). exists c. rewrite !andb_true_iff, !is_boundary_iff. auto. }
    destruct (existsb (fun c => of_type LineT c && (is_boundary m (cmv_id c) s0 && is_boundary m (cmv_id c) s1)) cmvs).
    + apply reports_none. intros (a & b & H & K). apply K. destruct (proj1 X eq_refl) as (l & H1 & H2 & H3). exists l. split; [exact H1|].
      destruct (all_at_length m uv _ _ _ CS H) as [_ Q].
      assert (Qa : In a [s0; s1]) by (apply Q; left; reflexivity). assert (Qb : In b [s0; s1]) by (apply Q; right; left; reflexivity).
      destruct Qa as [<-|[<-|[]]], Qb as [<-|[<-|[]]]; auto.
    + apply reports_some. exists s0, s1. split; [exact CS|]. intros K. apply X in K. discriminate.
  - apply reports_none. intros (a & b & H & _). specialize (LEN a b H). discriminate.
Qed.
Lemma off_border_ok : reports_iff (section_line_not_on_surface_border m uv) (line_vertex_off_border m uv).
Proof.
  unfold section_line_not_on_surface_border, line_vertex_off_border. destruct (section_surfaces_are_meshed m) eqn:F; cbn [negb].
  2:{ apply reports_none. intros (K & _). apply surfaces_meshed_iff in K. congruence. }
  apply surfaces_meshed_iff in F.
  set (off := exists s v, In s (m_surfaces m) /\ co_active s = true /\ In (mkCMV (mkCID SurfaceT (co_id s)) v) cmvs /\ sm_vertex_on_border (co_mesh s) v = false).
  eapply reports_ext; [apply (first_some_reports _ _ (fun c => active_cmv m LineT c = true /\ off))|].
  - intros c Hc. rewrite act by (discriminate || exact Hc). cbn [bind]. destruct (active_cmv m LineT c); cbn [negb]; [|apply reports_none; intros [K _]; discriminate].
    eapply reports_ext; [apply (first_some_reports _ _ (fun d => active_cmv m SurfaceT d = true /\
      exists s, find_component (cmv_id d) (m_surfaces m) = Some s /\ sm_vertex_on_border (co_mesh s) (cmv_vertex d) = false))|].
    + intros d Hd. rewrite act by (discriminate || exact Hd). cbn [bind]. destruct (active_cmv m SurfaceT d) eqn:E; cbn [negb]; [|apply reports_none; intros [K _]; discriminate].
      assert (Hex : In (cmv_id d) (component_ids m SurfaceT)) by (apply active_are_components; apply (active_cmv_at m uv SurfaceT d Hd E)).
      destruct (find_component_exists _ _ _ Hex) as [s Hs]. unfold get_surface. rewrite Hs. cbn [or_throw bind].
      destruct (sm_vertex_on_border (co_mesh s) (cmv_vertex d)) eqn:G; cbn [negb].
      * apply reports_none. intros (_ & s' & K1 & K2). injection K1 as <-. congruence.
      * destruct (kind_named_ok m SurfaceT (cmv_id d) Hex) as [s' Hs']. rewrite Hs'. cbn [bind]. apply reports_some. eauto.
    + unfold off. split.
      * intros ([[t id] v] & Hd & Ha & s & Hs & G). split; [reflexivity|]. destruct (find_component_Some _ _ _ _ Hs) as [Hin Hid]. exists s, v. split; [exact Hin|].
        apply andb_true_iff in Ha. destruct Ha as [T Ha]. apply of_type_iff in T. cbn in T, Hid. subst t id. unfold activeb in Ha. cbn [active_ids cmv_id cmv_component cid_id] in Ha.
        rewrite (in_active_ids_find _ _ (co_id s) s) in Ha; [|apply (unique_ids_facts m Hu)|exact Hs]. auto.
      * intros (_ & s & v & Hin & Ha & Hcmv & G). exists (mkCMV (mkCID SurfaceT (co_id s)) v). split; [exact Hcmv|].
        assert (Hf : find_component (co_id s) (m_surfaces m) = Some s) by (apply find_component_In; [apply (unique_ids_facts m Hu)|exact Hin]).
        split; [|exists s; auto]. unfold active_cmv. rewrite of_type_self. unfold activeb. cbn [active_ids cmv_id cmv_component cid_id andb].
        rewrite (in_active_ids_find _ _ (co_id s) s); [exact Ha|apply (unique_ids_facts m Hu)|exact Hf].
  - split.
    + intros (c & Hc & Ha & Hoff). split; [exact F|]. split; [exists (cmv_id c); apply (active_cmv_at m uv _ c Hc Ha)|exact Hoff].
    + intros (_ & (l & Hat) & Hoff). apply active_at_iff in Hat. destruct Hat as (c & Hc & Ha & _). eauto.
Qed.
Lemma surfaces_loop_ok : forall l, (forall c, In c l -> In c cmvs) ->
  decides (section_surfaces_loop m uv l)
    ((exists c, In c l /\ active_cmv m SurfaceT c = true) -> ~ two_surfaces_without_common_line m uv /\ ~ line_vertex_off_border m uv).
Proof.
  intros l Hin. induction l as [|c l IH]; cbn [section_surfaces_loop].
  - exists true. split; [reflexivity|]. split; [intros _ (c & [] & _)|reflexivity].
  - assert (Hin' : forall c, In c l -> In c cmvs) by (intros d Hd; apply Hin; right; exact Hd). specialize (IH Hin').
    rewrite act by (discriminate || (apply Hin; left; reflexivity)). cbn [bind]. destruct (active_cmv m SurfaceT c) eqn:E; cbn [negb].
    + destruct (all_pass_decides [section_invalid_embedded_surface m; section_line_not_on_surface_border m]
        [two_surfaces_without_common_line m; line_vertex_off_border m] uv) as (b & Hb' & Hp); [repeat constructor; [apply two_surfaces_ok|apply off_border_ok]|].
      rewrite Hb'. cbn [bind]. assert (Q : b = true <-> ~ two_surfaces_without_common_line m uv /\ ~ line_vertex_off_border m uv).
      { rewrite Hp. split; [intros K; inversion K as [|? ? K1 Q1]; subst; inversion Q1; subst; auto|intros [K1 K2]; repeat constructor; assumption]. }
      destruct b; cbn [negb].
      * eapply decides_ext; [exact IH|]. assert (K := proj1 Q eq_refl). split; auto.
      * apply decides_bool. split; [discriminate|]. intros K. apply Q, K. exists c. split; [left; reflexivity|exact E].
    + eapply decides_ext; [exact IH|]. split.
      * intros K (d & [<-|Hd] & Ha); [congruence|]. apply K. eauto.
      * intros K (d & Hd & Ha). apply K. exists d. split; [right; exact Hd|exact Ha].
Qed.
Lemma surfaces_valid_ok : decides (section_vertex_surfaces_topology_is_valid m uv)
  ((exists s, active_at m uv SurfaceT s) -> ~ two_surfaces_without_common_line m uv /\ ~ line_vertex_off_border m uv).
Proof.
  unfold section_vertex_surfaces_topology_is_valid. eapply decides_ext; [apply (surfaces_loop_ok cmvs (fun c H => H))|]. split; intros K.
  - intros (s & Hs). apply active_at_iff in Hs. destruct Hs as (c & Hc & Ha & _). apply K. eauto.
  - intros (c & Hc & Ha). apply K. exists (cmv_id c). apply (active_cmv_at m uv _ c Hc Ha).
Qed.
End Checks.
