(** BRep surfaces. *)
From Coq Require Import String Ascii List Arith NArith ZArith Bool Lia Sorted Permutation.
From Verif Require Import Base BaseFacts Model_Issues Types Model_Colocation Model_Topology Model_BRep Spec_Colocation Spec_Maps Spec_Adjacency
  Spec_Topology Spec_BRep Proof_Maps Proof_Colocation Proof_Colocation2 Proof_Colocation3 Proof_Adjacency Proof_Manifold Proof_Degeneration Proof_Topology
  Proof_Topology2 Proof_Topology3 Proof_Topology4 Proof_BRep Proof_BRep2 Proof_BRep3 Proof_BRep4.
Import ListNotations.
Open Scope list_scope.

Lemma count_active_ok : forall m t ids n, unique_ids m -> (forall i, In i ids -> In i (component_ids m t)) ->
  foldM (fun n id => let! a := kind_is_active m t id in Ok (if a then S n else n)) ids n = Ok (n + length (filter (activeb m t) ids)).
Proof.
  intros m t ids. induction ids as [|i ids IH]; intros n Hu H; cbn [foldM filter length]; [f_equal; lia|].
  rewrite kind_is_active_ok by (assumption || (apply H; left; reflexivity)). cbn [bind]. rewrite IH by (assumption || (intros x Hx; apply H; right; exact Hx)).
  destruct (activeb m t i); cbn [length]; f_equal; lia.
Qed.
Lemma filter_perm : forall A (p : A -> bool) l l', Permutation l l' -> length (filter p l) = length (filter p l').
Proof.
  intros A p l l' H. induction H as [|x l l' _ IH|x y l|l1 l2 l3 _ IH1 _ IH2]; cbn; [reflexivity|destruct (p x); cbn; congruence|destruct (p x), (p y); reflexivity|congruence].
Qed.
Lemma all_at_perm : forall m uv t l l', all_at m uv t l -> all_at m uv t l' -> Permutation l l'.
Proof. intros m uv t l l' [N H] [N' H']. apply NoDup_Permutation; [exact N|exact N'|]. intros x. rewrite H, H'. reflexivity. Qed.
Lemma two_distinct : forall A (p : A -> bool) l, NoDup l -> (2 <= length (filter p l) <-> exists a b, a <> b /\ In a l /\ In b l /\ p a = true /\ p b = true).
Proof.
  intros A p l N. split.
  - intros H. assert (N' : NoDup (filter p l)) by (apply NoDup_filter; exact N). destruct (filter p l) as [|a [|b q]] eqn:E; cbn in H; try lia.
    exists a, b. inversion N' as [|? ? K1 K2]; subst. assert (Ha : In a (filter p l)) by (rewrite E; left; reflexivity).
    assert (Hb : In b (filter p l)) by (rewrite E; right; left; reflexivity). apply filter_In in Ha, Hb. split; [intros ->; apply K1; left; reflexivity|]. tauto.
  - intros (a & b & D & Ha & Hb & Pa & Pb). assert (I1 : In a (filter p l)) by (apply filter_In; auto). assert (I2 : In b (filter p l)) by (apply filter_In; auto).
    destruct (filter p l) as [|x [|y q]]; cbn; [destruct I1| |lia]. destruct I1 as [->|[]]. destruct I2 as [->|[]]. congruence.
Qed.

Section Surfaces.
Context (tl : TopoLookup) (m : Model) (uv : nat).
Hypothesis Hok : brep_ok m.
Hypothesis Hlo : lookup_ok tl m.
Notation cmvs := (component_mesh_vertices m uv).
Let Hu := br_ids m Hok.
Let Hl := brep_links_exist m Hok.

Lemma uuids_exist : forall t i, t <> OtherT -> In i (components_uuids m uv t) -> In i (component_ids m t).
Proof. intros t i Ht Hi. apply (Hl uv t); [apply components_uuids_all; exact Hi|exact Ht]. Qed.
Lemma embedded_surface_ok : reports_iff (brep_invalid_embedded_surface m uv) (surface_badly_embedded m uv).
Proof.
  unfold brep_invalid_embedded_surface. assert (CS := components_uuids_all m uv SurfaceT). eapply reports_ext.
  - apply (first_some_reports _ _ (fun s => In s (active_ids m SurfaceT) /\ exists e, In e (embeddings m s) /\ (In (cid_id e) (active_ids m BlockT) /\
      (bounds m s (cid_id e) \/ (all_blocks_have_polyhedra m /\ forall t, ~ at_vertex m uv t (cid_id e)))))).
    intros s Hs. assert (Hse := uuids_exist SurfaceT s ltac:(discriminate) Hs). destruct (kind_active_case m Hok SurfaceT _ Hse) as (b1 & Hb1 & Hb2). rewrite Hb1. cbn [bind].
    destruct b1; cbn [negb]; [|apply reports_none; intros [K _]; apply Hb2 in K; discriminate]. assert (A := proj1 Hb2 eq_refl).
    eapply reports_ext; [apply (first_some_reports _ _ (fun e => In (cid_id e) (active_ids m BlockT) /\
      (bounds m s (cid_id e) \/ (all_blocks_have_polyhedra m /\ forall t, ~ at_vertex m uv t (cid_id e)))))|tauto].
    intros e He. assert (Hbe := br_surface_embeddings m Hok s e Hse He). destruct (kind_active_case m Hok BlockT _ Hbe) as (b2 & Hb3 & Hb4). rewrite Hb3. cbn [bind].
    destruct b2; cbn [negb]; [|apply reports_none; intros [K _]; apply Hb4 in K; discriminate]. assert (A' := proj1 Hb4 eq_refl).
    destruct (kind_title_ok m SurfaceT s Hse) as [n Hn]. destruct (kind_title_ok m BlockT _ Hbe) as [n' Hn']. rewrite Hn, Hn'. cbn [bind].
    destruct (is_boundary m s (cid_id e)) eqn:B; [apply is_boundary_iff in B; apply reports_some; auto|]. apply not_bounds in B.
    destruct (brep_blocks_are_meshed m) eqn:F; cbn [andb].
    + apply blocks_meshed_iff in F. destruct (existsb (fun c => Nat.eqb (cmv_id c) (cid_id e)) cmvs) eqn:G; cbn [negb].
      * apply at_any_type in G. destruct G as [t G]. apply reports_none. intros [_ [K|[_ K]]]; [tauto|apply (K t G)].
      * apply reports_some. split; [exact A'|]. right. split; [exact F|]. intros t K. assert (X : existsb (fun c => Nat.eqb (cmv_id c) (cid_id e)) cmvs = true) by (apply at_any_type; eauto). congruence.
    + apply reports_none. intros [_ [K|[K _]]]; [tauto|]. apply blocks_meshed_iff in K. congruence.
  - unfold surface_badly_embedded. split.
    + intros (s & Hs & A & e & H1 & H2 & H3). exists s, e. split; [split; [apply CS; exact Hs|exact A]|]. auto.
    + intros (s & e & [H0 A] & H1 & H2 & H3). exists s. split; [apply CS; exact H0|]. split; [exact A|]. exists e. auto.
Qed.

Lemma corner_point : forall c, In c cmvs -> of_type CornerT c = true -> exists cc p, In cc (m_corners m) /\ get_corner m (cmv_id c) = Ok cc /\
  nth_error (ps_points (co_mesh cc)) (cmv_vertex c) = Some p.
Proof.
  intros c Hc T. apply of_type_iff in T. unfold component_mesh_vertices in Hc. destruct (nth_in_or_default uv (m_cmvs m) []) as [K|K]; [|rewrite K in Hc; destruct Hc].
  destruct (br_links m Hok _ _ K Hc) as (p & Hp). inversion Hp; subst; try discriminate T. exists c0, p. cbn. split; [assumption|]. split; [|assumption]. apply get_corner_In; assumption.
Qed.
Definition bad_corner (ss : list uuid) (c : ComponentMeshVertex) : Prop :=
  of_type CornerT c = true /\ exists s, In s ss /\ In s (active_ids m SurfaceT) /\ ~ inside m (cmv_id c) s.
Lemma internal_corners_ok : forall ss l found, (forall s, In s ss -> In s (component_ids m SurfaceT)) -> (forall c, In c l -> In c cmvs) ->
  reports_iff (internal_corners_loop m uv ss found l) ((found = false /\ (forall c, In c l -> of_type CornerT c = false)) \/ exists c, In c l /\ bad_corner ss c).
Proof.
  intros ss l found Hss. revert found. induction l as [|c l IH]; intros found Hin; cbn [internal_corners_loop].
  - destruct found; [apply reports_none; intros [[K _]|(c & [] & _)]; discriminate|apply reports_some; left; split; [reflexivity|intros c []]].
  - assert (Hin' : forall c, In c l -> In c cmvs) by (intros d Hd; apply Hin; right; exact Hd).
    destruct (of_type CornerT c) eqn:T; cbn [negb].
    + destruct (corner_point c (Hin c (or_introl eq_refl)) T) as (cc & p & Hcc & Hg & Hp). rewrite Hg. cbn [bind].
      match goal with |- reports_iff (bind (first_some ?f _) _) _ => set (f1 := f) end.
      destruct (first_some_reports _ f1 (fun s => In s (active_ids m SurfaceT) /\ ~ inside m (cmv_id c) s) ss) as (r & Hr & Hp1).
      { intros s Hs. unfold f1. assert (Hse := Hss s Hs). destruct (find_component_exists _ (m_surfaces m) s Hse) as [sx Esx]. unfold get_surface. rewrite Esx. cbn [or_throw bind].
        assert (Q := in_active_ids_find _ (m_surfaces m) s sx (if_s m (unique_ids_facts m Hu)) Esx). rewrite Hp.
        destruct (co_active sx) eqn:A; cbn [andb].
        - destruct (is_internal m (cmv_id c) s) eqn:I; cbn [negb].
          + apply is_internal_iff in I. apply reports_none. tauto.
          + apply not_inside in I. apply reports_some. split; [apply memb_In; exact Q|exact I].
        - apply reports_none. intros [K _]. apply memb_In in K. change (memb s (map co_id (filter co_active (m_surfaces m))) = true) in K. rewrite Q in K. discriminate. }
      rewrite Hr. cbn [bind]. destruct r as [x|].
      * apply reports_some. right. exists c. split; [left; reflexivity|]. split; [exact T|]. destruct (proj1 Hp1 ltac:(discriminate)) as (s & K). exists s. tauto.
      * eapply reports_ext; [apply (IH true Hin')|]. assert (NB : ~ bad_corner ss c).
        { intros (_ & s & K1 & K2). destruct Hp1 as [_ Hp1]. apply Hp1; [|reflexivity]. eauto. }
        split.
        -- intros [[K _]|(d & Hd & K)]; [discriminate|]. right. exists d. split; [right; exact Hd|exact K].
        -- intros [[_ K]|(d & [<-|Hd] & K)]; [rewrite (K c (or_introl eq_refl)) in T; discriminate|contradiction|]. right. eauto.
    + eapply reports_ext; [apply (IH found Hin')|]. split.
      * intros [[K1 K2]|(d & Hd & K)]; [left; split; [exact K1|]; intros d [<-|Hd]; [exact T|apply K2, Hd]|]. right. exists d. split; [right; exact Hd|exact K].
      * intros [[K1 K2]|(d & [<-|Hd] & K)]; [left; split; [exact K1|]; intros d Hd; apply K2; right; exact Hd| |right; eauto]. destruct K as [K _]. congruence.
Qed.

Lemma inner_count : forall l ss r, (N.of_nat (r + length ss) < 2 ^ 32)%N ->
  fold_left (fun r s => if (is_boundary m l s || is_internal m l s)%bool then add32 r 1 else r) ss (N.of_nat r) =
  N.of_nat (r + length (filter (fun s => is_boundary m l s || is_internal m l s) ss)%bool).
Proof.
  intros l ss. induction ss as [|s ss IH]; intros r H; cbn [fold_left filter length]; [f_equal; lia|]. cbn [length] in H.
  destruct (is_boundary m l s || is_internal m l s)%bool.
  - rewrite add32_one by lia. rewrite IH by lia. cbn [length]. f_equal. lia.
  - apply IH. lia.
Qed.
Lemma line_links_count : forall ss l n r, (N.of_nat (n + length l) < 2 ^ 32)%N ->
  fst (fold_left (fun nr c => if of_type LineT c then
      (add32 (fst nr) 1, fold_left (fun r s => if (is_boundary m (cmv_id c) s || is_internal m (cmv_id c) s)%bool then add32 r 1 else r) ss (snd nr)) else nr) l (N.of_nat n, r))
  = N.of_nat (n + length (filter (of_type LineT) l)).
Proof.
  intros ss l. induction l as [|c l IH]; intros n r H; cbn [fold_left filter length fst snd]; [f_equal; lia|]. cbn [length] in H.
  destruct (of_type LineT c).
  - rewrite add32_one by lia. rewrite IH by lia. cbn [length]. f_equal. lia.
  - apply IH. lia.
Qed.
Lemma line_relationships_count : forall ss l line, (N.of_nat (length ss) < 2 ^ 32)%N -> length (filter (of_type LineT) l) <= 1 ->
  (forall c, In c l -> of_type LineT c = true -> cmv_id c = line) ->
  snd (fold_left (fun nr c => if of_type LineT c then
      (add32 (fst nr) 1, fold_left (fun r s => if (is_boundary m (cmv_id c) s || is_internal m (cmv_id c) s)%bool then add32 r 1 else r) ss (snd nr)) else nr) l (0%N, 0%N))
  = if Nat.eqb (length (filter (of_type LineT) l)) 0 then 0%N else N.of_nat (length (filter (fun s => is_boundary m line s || is_internal m line s)%bool ss)).
Proof.
  intros ss l line Hs. assert (G : forall l n r, filter (of_type LineT) l = [] ->
    snd (fold_left (fun nr c => if of_type LineT c then
      (add32 (fst nr) 1, fold_left (fun r s => if (is_boundary m (cmv_id c) s || is_internal m (cmv_id c) s)%bool then add32 r 1 else r) ss (snd nr)) else nr) l (n, r)) = r).
  { intros l0. induction l0 as [|c l0 IH]; intros n r H; cbn [fold_left filter] in *; [reflexivity|]. destruct (of_type LineT c); [discriminate|]. apply IH, H. }
  induction l as [|c l IH]; intros H1 Hid; cbn [fold_left filter fst snd]; [reflexivity|]. cbn [filter] in H1. destruct (of_type LineT c) eqn:T.
  - cbn [length] in *. rewrite G by (destruct (filter (of_type LineT) l); [reflexivity|cbn in H1; lia]). cbn [Nat.eqb]. rewrite (Hid c (or_introl eq_refl) T).
    change 0%N with (N.of_nat 0). rewrite inner_count by (cbn; exact Hs). reflexivity.
  - apply IH; [exact H1|]. intros d Hd. apply Hid. right. exact Hd.
Qed.
Lemma corner_at_existsb : (forall c, In c cmvs -> of_type CornerT c = false) <-> (forall c, ~ at_vertex m uv CornerT c).
Proof.
  split.
  - intros H c K. apply at_vertex_iff in K. destruct K as (d & Hd & T & _). rewrite (H d Hd) in T. discriminate.
  - intros H c Hc. destruct (of_type CornerT c) eqn:T; [|reflexivity]. exfalso. apply (H (cmv_id c)). apply at_vertex_iff. eauto.
Qed.
Lemma uuids_length : forall t, length (components_uuids m uv t) <= length cmvs.
Proof.
  intros t. destruct (components_uuids_all m uv t) as [N H]. assert (I : incl (components_uuids m uv t) (map cmv_id cmvs)).
  { intros x Hx. apply H in Hx. apply at_vertex_iff in Hx. destruct Hx as (c & Hc & _ & <-). apply in_map. exact Hc. }
  apply (NoDup_incl_length N) in I. rewrite map_length in I. exact I.
Qed.
Lemma nb_embeddings_length : forall a, nb_embeddings m a <= length (m_internal_rel m).
Proof.
  intros a. unfold nb_embeddings, embeddings. rewrite map_length. induction (m_internal_rel m) as [|r l IH]; cbn; [lia|]. destruct (Nat.eqb (cid_id (fst r)) a); cbn; lia.
Qed.
Lemma several_surfaces_ok : reports_iff (brep_invalid_multiple_surfaces m uv) (several_surfaces_wrong m uv).
Proof.
  unfold brep_invalid_multiple_surfaces. assert (CS := components_uuids_all m uv SurfaceT). assert (CL := components_uuids_all m uv LineT).
  assert (SE : forall s, In s (components_uuids m uv SurfaceT) -> In s (component_ids m SurfaceT)) by (intros s; apply uuids_exist; discriminate).
  assert (SLEN := uuids_length SurfaceT).
  set (ss := components_uuids m uv SurfaceT) in *. set (ls := components_uuids m uv LineT) in *. clearbody ss ls.
  unfold count_active. rewrite count_active_ok by assumption. cbn [bind plus].
  assert (TWO : two_active_surfaces m uv <-> 2 <= length (filter (activeb m SurfaceT) ss)).
  { rewrite two_distinct by apply CS. unfold two_active_surfaces. split.
    - intros (a & b & D & [A1 A2] & [B1 B2]). exists a, b. rewrite !activeb_iff. split; [exact D|]. split; [apply CS; exact A1|]. split; [apply CS; exact B1|auto].
    - intros (a & b & D & A1 & B1 & A2 & B2). rewrite activeb_iff in A2, B2. exists a, b. split; [exact D|]. split; (split; [apply CS; assumption|assumption]). }
  destruct (Nat.ltb_spec (length (filter (activeb m SurfaceT) ss)) 2) as [L|L].
  { apply reports_none. intros [K _]. apply TWO in K. lia. }
  assert (T2 := proj2 TWO L). clear TWO L.
  assert (NOLINE : ls <> [] -> ~ (forall l, ~ at_vertex m uv LineT l)).
  { intros N K. destruct ls as [|l ls']; [congruence|]. apply (K l), CL. left. reflexivity. }
  destruct ls as [|line [|l2 ls]].
  - eapply reports_ext; [apply (internal_corners_ok ss cmvs false SE (fun c H => H))|]. rewrite corner_at_existsb. unfold several_surfaces_wrong, bad_corner. split.
    + intros K. split; [exact T2|]. left. split; [intros l Hat; apply CL in Hat; destruct Hat|]. destruct K as [[_ K]|(c & Hc & T & s & H1 & H2 & H3)]; [left; exact K|right].
      exists (cmv_id c), s. split; [apply at_vertex_iff; eauto|]. split; [split; [apply CS; exact H1|exact H2]|exact H3].
    + intros [_ [[_ [K|(c & s & H1 & [H2 H3] & H4)]]|(l & ss' & c & r & HL & _)]].
      * left. auto.
      * right. apply at_vertex_iff in H1. destruct H1 as (d & Hd & T & <-). exists d. split; [exact Hd|]. split; [exact T|]. exists s. split; [apply CS; exact H2|auto].
      * exfalso. destruct HL as [_ HL]. assert (K : at_vertex m uv LineT l) by (apply HL; left; reflexivity). apply CL in K. destruct K.
  - assert (ALL : forall c, In c cmvs -> of_type LineT c = true -> cmv_id c = line).
    { intros c Hc T. assert (K : at_vertex m uv LineT (cmv_id c)) by (apply at_vertex_iff; eauto). apply CL in K. destruct K as [->|[]]. reflexivity. }
    assert (B : (N.of_nat (length cmvs + length (m_internal_rel m)) < 2 ^ 32)%N \/ cmvs = []).
    { unfold component_mesh_vertices. destruct (nth_in_or_default uv (m_cmvs m) []) as [K|K]; [left; apply (br_bound m Hok _ K)|right; exact K]. }
    assert (HAS : exists d, In d cmvs /\ of_type LineT d = true).
    { assert (K : at_vertex m uv LineT line) by (apply CL; left; reflexivity). apply at_vertex_iff in K. destruct K as (d & Hd & T & _). eauto. }
    destruct B as [B|B]; [|destruct HAS as (d & Hd & _); rewrite B in Hd; destruct Hd].
    assert (HAS1 : 1 <= length (filter (of_type LineT) cmvs)).
    { destruct HAS as (d & Hd & T). assert (I : In d (filter (of_type LineT) cmvs)) by (apply filter_In; auto). destruct (filter (of_type LineT) cmvs); [destruct I|cbn; lia]. }
    assert (LINKS : forall n, counts (fun k => cid_type (cmv_component k) = LineT) cmvs n <-> length (filter (of_type LineT) cmvs) = n).
    { intros n. apply counts_filter. intros x _. apply of_type_iff. }
    assert (REL : forall r, counts (fun s => bounds m line s \/ inside m line s) ss r <-> length (filter (fun s => is_boundary m line s || is_internal m line s)%bool ss) = r).
    { intros r. apply counts_filter. intros x _. rewrite orb_true_iff, is_boundary_iff, is_internal_iff. reflexivity. }
    assert (SPEC : several_surfaces_wrong m uv <-> length (filter (of_type LineT) cmvs) = 1 /\
      exists c, at_vertex m uv CornerT c /\ nb_embeddings m c + length (filter (fun s => is_boundary m line s || is_internal m line s)%bool ss) <> length ss).
    { unfold several_surfaces_wrong. split.
      - intros [_ [[K _]|(l & ss' & c & r & HL & HC & HS & Hc & HR & Q)]]; [exfalso; apply NOLINE; [discriminate|exact K]|].
        apply LINKS in HC. split; [exact HC|]. exists c. split; [exact Hc|]. apply (all_at_single m uv LineT _ l CL) in HL. injection HL as <-.
        assert (P := all_at_perm m uv _ _ _ CS HS). rewrite (Permutation_length P). rewrite (filter_perm _ _ _ _ P).
        assert (HR' : length (filter (fun s => is_boundary m line s || is_internal m line s)%bool ss') = r).
        { apply (counts_filter _ (fun s => bounds m line s \/ inside m line s)); [|exact HR]. intros x _. rewrite orb_true_iff, is_boundary_iff, is_internal_iff. reflexivity. }
        rewrite HR'. exact Q.
      - intros [HC (c & Hc & Q)]. split; [exact T2|]. right. exists line, ss, c, (length (filter (fun s => is_boundary m line s || is_internal m line s)%bool ss)).
        split; [exact CL|]. split; [apply LINKS; exact HC|]. split; [exact CS|]. split; [exact Hc|]. split; [apply REL; reflexivity|exact Q]. }
    unfold count_line_relationships. change (0%N, 0%N) with (N.of_nat 0, 0%N) at 1. rewrite line_links_count by (cbn [plus]; lia). cbn [plus].
    destruct (N.leb_spec 2 (N.of_nat (length (filter (of_type LineT) cmvs)))) as [L2|L2].
    { apply reports_none. rewrite SPEC. intros [K _]. lia. }
    assert (ONE : length (filter (of_type LineT) cmvs) = 1) by lia.
    rewrite (line_relationships_count ss cmvs line) by (assumption || lia). rewrite ONE. cbn [Nat.eqb].
    set (r := length (filter (fun s => is_boundary m line s || is_internal m line s)%bool ss)) in *.
    assert (RL : r <= length ss) by (unfold r; clear; induction ss as [|s ss IH]; cbn; [lia|destruct (_ || _)%bool; cbn; lia]).
    eapply reports_ext; [apply (first_some_reports _ _ (fun c => of_type CornerT c = true /\ nb_embeddings m (cmv_id c) + r <> length ss))|].
    + intros c Hc. destruct (of_type CornerT c); cbn [negb]; [|apply reports_none; intros [K _]; discriminate].
      assert (NE := nb_embeddings_length (cmv_id c)). rewrite u32_small by lia. rewrite add32_small by lia.
      destruct (N.ltb_spec (N.of_nat (nb_embeddings m (cmv_id c) + r)) (N.of_nat (length ss))) as [Q|Q]; [apply reports_some; split; [reflexivity|lia]|].
      destruct (N.ltb_spec (N.of_nat (length ss)) (N.of_nat (nb_embeddings m (cmv_id c) + r))) as [Q'|Q']; [apply reports_some; split; [reflexivity|lia]|].
      apply reports_none. lia.
    + rewrite SPEC. split.
      * intros (c & Hc & T & Q). split; [exact ONE|]. exists (cmv_id c). split; [apply at_vertex_iff; eauto|exact Q].
      * intros [_ (c & Hc & Q)]. apply at_vertex_iff in Hc. destruct Hc as (d & Hd & T & <-). eauto.
  - apply reports_none. intros [_ [[K _]|(l & ss' & c & r & HL & _)]]; [apply NOLINE; [discriminate|exact K]|].
    apply (all_at_single m uv LineT _ l CL) in HL. discriminate.
Qed.

Lemma border_ok : reports_iff (brep_line_not_on_surface_border m uv) (related_line_vertex_off_border m uv).
Proof.
  unfold brep_line_not_on_surface_border. assert (CL := components_uuids_all m uv LineT).
  assert (LE : forall s, In s (components_uuids m uv LineT) -> In s (component_ids m LineT)) by (intros s; apply uuids_exist; discriminate).
  set (ls := components_uuids m uv LineT) in *. clearbody ls.
  assert (G : reports_iff (first_some (fun c =>
      if negb (of_type SurfaceT c) then Ok None
      else
        let! surface := get_surface m (cmv_id c) in
        if sm_vertex_on_border (co_mesh surface) (cmv_vertex c) then Ok None
        else first_some (fun l =>
          let! a := kind_is_active m LineT l in
          if (a && (is_boundary m l (cmv_id c) || is_internal m l (cmv_id c)))%bool then
            Ok (Some (StrCat ["unique vertex "; str uv; " is part of a Line and of Surface "; named m (co_name surface) (cmv_id c);
                              " but the associated vertex in the Surface mesh is not on the mesh border."]%string))
          else Ok None) ls) cmvs) (related_line_vertex_off_border m uv)).
  { eapply reports_ext; [apply (first_some_reports _ _ (fun c => of_type SurfaceT c = true /\ exists s, In s (m_surfaces m) /\ co_id s = cmv_id c /\
      sm_vertex_on_border (co_mesh s) (cmv_vertex c) = false /\ exists l, In l ls /\ (In l (active_ids m LineT) /\ (bounds m l (cmv_id c) \/ inside m l (cmv_id c)))))|].
    - intros c Hc. destruct (of_type SurfaceT c) eqn:T; cbn [negb]; [|apply reports_none; intros [K _]; discriminate].
      assert (Hse : In (cmv_id c) (component_ids m SurfaceT)) by (apply (Hl uv SurfaceT); [apply at_vertex_iff; eauto|discriminate]).
      destruct (find_component_exists _ (m_surfaces m) _ Hse) as [sx Esx]. unfold get_surface. rewrite Esx. cbn [or_throw bind]. destruct (find_component_Some _ _ _ _ Esx) as [Hsx Hid].
      assert (UN : forall s', In s' (m_surfaces m) -> co_id s' = cmv_id c -> s' = sx).
      { intros s' H1 H2. assert (K1 := get_surface_In m s' Hu H1). unfold get_surface in K1. rewrite H2, Esx in K1. cbn in K1. congruence. }
      destruct (sm_vertex_on_border (co_mesh sx) (cmv_vertex c)) eqn:OB.
      { apply reports_none. intros (_ & s' & H1 & H2 & H3 & _). rewrite (UN s' H1 H2) in H3. congruence. }
      eapply reports_ext; [apply (first_some_reports _ _ (fun l => In l (active_ids m LineT) /\ (bounds m l (cmv_id c) \/ inside m l (cmv_id c))))|].
      + intros l Hlin. destruct (kind_active_case m Hok LineT _ (LE l Hlin)) as (b1 & Hb1 & Hb2). rewrite Hb1. cbn [bind].
        destruct b1; cbn [andb]; [|apply reports_none; intros [K _]; apply Hb2 in K; discriminate]. assert (A := proj1 Hb2 eq_refl).
        assert (Q : (is_boundary m l (cmv_id c) || is_internal m l (cmv_id c))%bool = true <-> bounds m l (cmv_id c) \/ inside m l (cmv_id c))
          by (rewrite orb_true_iff, is_boundary_iff, is_internal_iff; reflexivity).
        destruct (is_boundary m l (cmv_id c) || is_internal m l (cmv_id c))%bool; [apply reports_some; split; [exact A|apply Q; reflexivity]|].
        apply reports_none. intros [_ K]. apply Q in K. discriminate.
      + split; [intros K; split; [reflexivity|]; exists sx; auto|]. intros (_ & s' & _ & _ & _ & K). exact K.
    - unfold related_line_vertex_off_border. split.
      + intros ([[t i] v] & Hc & T & s & H1 & H2 & H3 & l & H4 & H5 & H6). apply of_type_iff in T. cbn in T, H2, H3, H6. subst t. cbn in H6. exists s, v, l. rewrite H2.
        split; [exact H1|]. split; [exact Hc|]. split; [exact H3|]. split; [split; [apply CL; exact H4|exact H5]|exact H6].
      + intros (s & v & l & H1 & H2 & H3 & [H4 H5] & H6). exists (mkCMV (mkCID SurfaceT (co_id s)) v). split; [exact H2|]. split; [apply of_type_self|]. exists s. cbn.
        split; [exact H1|]. split; [reflexivity|]. split; [exact H3|]. exists l. split; [apply CL; exact H4|auto]. }
  destruct ls as [|l ls]; [|exact G]. apply reports_none. intros (s & v & l & _ & _ & _ & [H4 _] & _). apply CL in H4. destruct H4.
Qed.
Lemma facet_ok : forall c p uvs, polygon_joins m c p uvs ->
  reports_iff (surface_facet_has_wrong_component_facets_around tl m c p) (facet_wrong m (co_id c) (tl_polygon_blocks tl uvs)).
Proof.
  intros c p uvs J. unfold surface_facet_has_wrong_component_facets_around, component_mesh_polygons. unfold polygon_joins in J.
  apply unique_vertices_some in J. unfold polygon_vertices. rewrite J. cbn [bind]. eapply reports_ext.
  - apply (first_some_reports _ _ (fun q => In (fst q) (active_ids m BlockT) /\
    ((bounds m (co_id c) (fst q) /\ snd q <> 1) \/ (~ bounds m (co_id c) (fst q) /\ inside m (co_id c) (fst q) /\ snd q <> 2) \/
     (~ bounds m (co_id c) (fst q) /\ ~ inside m (co_id c) (fst q))))).
    intros q Hq. assert (Hb : In (fst q) (component_ids m BlockT)) by (apply (lo_polygon_blocks_exist tl m Hlo uvs); apply in_map; exact Hq).
    destruct (kind_active_case m Hok BlockT _ Hb) as (b1 & Hb1 & Hb2). rewrite Hb1. cbn [bind].
    destruct (kind_named_ok m BlockT _ Hb) as [s1 Hn1]. rewrite Hn1. cbn [bind]. cbv zeta.
    destruct b1; cbn [negb]; [|apply reports_none; intros [K _]; apply Hb2 in K; discriminate]. assert (A := proj1 Hb2 eq_refl).
    destruct (is_boundary m (co_id c) (fst q)) eqn:B.
    + apply is_boundary_iff in B. destruct (Nat.eqb_spec (snd q) 1) as [Q|Q]; cbn [negb]; [apply reports_none; tauto|apply reports_some; tauto].
    + apply not_bounds in B. destruct (is_internal m (co_id c) (fst q)) eqn:I.
      * apply is_internal_iff in I. destruct (Nat.eqb_spec (snd q) 2) as [Q|Q]; cbn [negb]; [apply reports_none; tauto|apply reports_some; tauto].
      * apply not_inside in I. apply reports_some. tauto.
  - unfold facet_wrong. split; [intros ([b n] & H1 & H2); exists b, n; auto|intros (b & n & H1 & H2); exists (b, n); auto].
Qed.
End Surfaces.

Lemma brep_surfaces_spec : forall tl m, brep_ok m -> lookup_ok tl m ->
  exists r, brep_inspect_surfaces_topology tl m = Ok r /\
  components_reported SurfaceT has_points_and_polygons nb_points2 false m (m_surfaces m) (bs_not_meshed r) (bs_not_linked r) /\
  elements_reported SurfaceT nb_points2 (fun p => length (sm_polygons p)) (surface_facet_wrong tl m) m (m_surfaces m) (bs_wrong_facets r) /\
  lists_vertices m (surface_badly_embedded m) (ii_issues (bs_invalid_embeddings r)) /\
  lists_vertices m (several_surfaces_wrong m) (ii_issues (bs_several_invalid r)) /\
  lists_vertices m (related_line_vertex_off_border m) (ii_issues (bs_not_on_border r)).
Proof.
  intros tl m H Hlo. assert (Hu := br_ids m H). assert (Hl := brep_links_exist m H). unfold brep_inspect_surfaces_topology.
  destruct (inspect_elements_spec SurfaceMesh get_surface "Surface " SurfaceT surface_is_meshed has_points_and_polygons (fun p => List.length (sm_points p)) nb_polygons
               (brep_blocks_are_meshed m) (surface_facet_has_wrong_component_facets_around tl m)
               (fun c p => exists uvs, polygon_joins m c p uvs /\ facet_wrong m (co_id c) (tl_polygon_blocks tl uvs)) m (m_surfaces m)
               brep_surfaces_not_meshed_d surfaces_not_linked_d surface_facets_d) as (cs & E & C & W).
  - apply (unique_ids_facts m Hu).
  - intros c Hc. apply get_surface_In; assumption.
  - apply surface_meshed_iff.
  - apply (br_surface_bound m H).
  - intros _ c Hc Ha Hv p Hp. assert (exists uvs, polygon_joins m c p uvs) as (uvs & J).
    { unfold polygon_joins. assert (PV : forall v, In v (nth p (sm_polygons (co_mesh c)) []) -> exists uv, m_unique_vertex m (mkCMV (mkCID SurfaceT (co_id c)) v) = Some uv).
      { intros v Hv'. destruct (m_unique_vertex m (mkCMV (mkCID SurfaceT (co_id c)) v)) as [uv|] eqn:Q; [eauto|]. exfalso. apply (Hv v). split; [|exact Q].
        apply (br_polygons m H c (nth p (sm_polygons (co_mesh c)) []) v Hc); [|exact Hv']. apply nth_In. exact Hp. }
      revert PV. generalize (nth p (sm_polygons (co_mesh c)) []). induction l as [|v l IH]; intros PV; [exists []; constructor|].
      destruct (PV v (or_introl eq_refl)) as [uv Hq]. destruct IH as [l' IH]; [intros w Hw; apply PV; right; exact Hw|]. exists (uv :: l'). constructor; assumption. }
    eapply reports_ext; [apply (facet_ok tl m H Hlo c p uvs J)|]. split; [intros K; eauto|]. intros (uvs' & J' & K).
    unfold polygon_joins in J, J'. apply unique_vertices_some in J, J'. congruence.
  - rewrite E. cbn [bind].
    destruct (report_vertices_spec m [brep_invalid_embedded_surface m; brep_invalid_multiple_surfaces m; brep_line_not_on_surface_border m]
      [surface_badly_embedded m; several_surfaces_wrong m; related_line_vertex_off_border m] brep_surfaces_ds) as (rs & E' & F).
    + repeat constructor; intros uv Huv; [apply embedded_surface_ok|apply several_surfaces_ok|apply border_ok]; exact H.
    + reflexivity.
    + rewrite E'. cbn [bind]. inversion F as [|r1 P1 l1 q1 F1 G1]; subst. inversion G1 as [|r2 P2 l2 q2 F2 G2]; subst. inversion G2 as [|r3 P3 l3 q3 F3 G3]; subst.
      inversion G3; subst. eexists. split; [reflexivity|]. cbn [bs_not_meshed bs_not_linked bs_wrong_facets bs_invalid_embeddings bs_several_invalid bs_not_on_border].
      split; [exact C|]. split; [|auto].
      destruct W as [S1 S2 S3].
      assert (Q : forall id (es : list nat), (exists c, In c (m_surfaces m) /\ co_active c = true /\ co_id c = id /\
          (forall v, ~ unlinked m SurfaceT id (nb_points2 (co_mesh c)) v) /\ lists_exactly lt (fun e => e < length (sm_polygons (co_mesh c)) /\ surface_facet_wrong tl m c e) es) <->
         (exists c, In c (m_surfaces m) /\ co_active c = true /\ co_id c = id /\
          (forall v, ~ unlinked m SurfaceT id (length (sm_points (co_mesh c))) v) /\ lists_exactly lt (fun e => e < nb_polygons (co_mesh c) /\ brep_blocks_are_meshed m = true /\
            exists uvs, polygon_joins m c e uvs /\ facet_wrong m (co_id c) (tl_polygon_blocks tl uvs)) es)).
      { intros id es. pose proof (blocks_meshed_iff m) as BM. unfold surface_facet_wrong.
        split; intros (c & K1 & K2 & K3 & K4 & [K5 K6]); exists c; (split; [exact K1|split; [exact K2|split; [exact K3|split; [exact K4|split; [exact K5|]]]]]);
          intros e; rewrite K6; unfold nb_polygons; tauto. }
      constructor; [intros id r0 Hr; destruct (S1 id r0 Hr) as [N K]; split; [exact N|apply Q; exact K]|intros id vs Hs; apply S2, Q, Hs|exact S3].
Qed.
Lemma brep_surfaces_valid : forall m uv, brep_ok m -> decides (brep_surfaces_topology_is_valid m uv)
    ((exists s, active_at m uv SurfaceT s) -> ~ surface_badly_embedded m uv /\ ~ several_surfaces_wrong m uv /\ ~ related_line_vertex_off_border m uv).
Proof.
  intros m uv H. assert (Hu := br_ids m H). assert (Hl := brep_links_exist m H). unfold brep_surfaces_topology_is_valid.
  destruct (any_active_ok m uv Hu Hl SurfaceT ltac:(discriminate)) as (b & Hb' & Hp). rewrite Hb'. cbn [bind]. destruct b; cbn [negb].
  - eapply decides_ext; [apply (all_pass_decides _ [surface_badly_embedded m; several_surfaces_wrong m; related_line_vertex_off_border m])|].
    + repeat constructor; [apply embedded_surface_ok|apply several_surfaces_ok|apply border_ok]; exact H.
    + assert (X := proj1 Hp eq_refl). split.
      * intros K _. inversion K as [|? ? K1 Q1]; subst. inversion Q1 as [|? ? K2 Q2]; subst. inversion Q2; subst. auto.
      * intros K. destruct (K X) as (K1 & K2 & K3). repeat constructor; assumption.
  - apply decides_bool. split; [intros _ K|reflexivity]. apply Hp in K. discriminate.
Qed.
