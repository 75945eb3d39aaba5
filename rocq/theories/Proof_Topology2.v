(** Links between unique vertices and component mesh vertices (C35). *)
From Coq Require Import String Ascii List Arith NArith ZArith Bool Lia Sorted.
From Verif Require Import Base BaseFacts Model_Issues Types Model_Colocation Model_Topology Spec_Colocation Spec_Maps Spec_Adjacency
  Spec_Topology Proof_Maps Proof_Colocation Proof_Colocation2 Proof_Colocation3 Proof_Adjacency Proof_Manifold Proof_Degeneration Proof_Topology.
Import ListNotations.
Open Scope list_scope.

Lemma in_mesh_iff : forall M (l : list (Component M)) nbv t id v, NoDup (map co_id l) ->
  (in_mesh nbv l (mkCMV (mkCID t id) v) = true <-> exists c, In c l /\ co_id c = id /\ v < nbv (co_mesh c)).
Proof.
  intros M l nbv t id v Hn. unfold in_mesh. cbn [cmv_vertex cmv_id cmv_component cid_id]. destruct (find_component id l) as [c|] eqn:E.
  - destruct (find_component_Some M l id c E) as [Hin Hid]. rewrite Nat.ltb_lt. split; [eauto|].
    intros (d & Hd & Hdid & Hv). assert (K := find_component_In M l d Hn Hd). rewrite Hdid, E in K. injection K as <-. exact Hv.
  - split; [discriminate|]. intros (c & Hin & Hid & _). assert (K := find_component_In M l c Hn Hin). rewrite Hid in K. congruence.
Qed.
Lemma lt_nth_error : forall A (l : list A) v, v < length l <-> exists p, nth_error l v = Some p.
Proof. intros A l v. rewrite <- nth_error_Some. destruct (nth_error l v); split; eauto; try congruence. intros [p K]. discriminate. Qed.
Lemma cmv_exists_brep_iff : forall m c, unique_ids m -> (cmv_exists_in_brep m c = true <-> vertex_exists m c).
Proof.
  intros m [[t id] v] Hu. destruct (unique_ids_facts m Hu). unfold vertex_exists.
  assert (INV : forall p, has_position m (mkCMV (mkCID t id) v) p ->
    match t with
    | CornerT => exists c, In c (m_corners m) /\ co_id c = id /\ nth_error (ps_points (co_mesh c)) v = Some p
    | LineT => exists c, In c (m_lines m) /\ co_id c = id /\ nth_error (ec_points (co_mesh c)) v = Some p
    | SurfaceT => exists c, In c (m_surfaces m) /\ co_id c = id /\ nth_error (sm_points (co_mesh c)) v = Some p
    | BlockT => exists c, In c (m_blocks m) /\ co_id c = id /\ nth_error (so_points (co_mesh c)) v = Some p
    | OtherT => False
    end) by (intros p H; inversion H; subst; eauto).
  destruct t; cbn [cmv_exists_in_brep cmv_exists_in_section cmv_type cmv_component cid_type]; rewrite ?in_mesh_iff by assumption.
  - split; [intros (c & H1 & <- & H2)|intros [p Hp]]; [apply lt_nth_error in H2; destruct H2 as [p Hp]; exists p; constructor; assumption|].
    destruct (INV p Hp) as (c & H1 & H2 & H3). exists c. split; [exact H1|]. split; [exact H2|]. apply lt_nth_error. eauto.
  - split; [intros (c & H1 & <- & H2)|intros [p Hp]]; [apply lt_nth_error in H2; destruct H2 as [p Hp]; exists p; constructor; assumption|].
    destruct (INV p Hp) as (c & H1 & H2 & H3). exists c. split; [exact H1|]. split; [exact H2|]. apply lt_nth_error. eauto.
  - split; [intros (c & H1 & <- & H2)|intros [p Hp]]; [apply lt_nth_error in H2; destruct H2 as [p Hp]; exists p; constructor; assumption|].
    destruct (INV p Hp) as (c & H1 & H2 & H3). exists c. split; [exact H1|]. split; [exact H2|]. apply lt_nth_error. eauto.
  - split; [intros (c & H1 & <- & H2)|intros [p Hp]]; [apply lt_nth_error in H2; destruct H2 as [p Hp]; exists p; constructor; assumption|].
    destruct (INV p Hp) as (c & H1 & H2 & H3). exists c. split; [exact H1|]. split; [exact H2|]. apply lt_nth_error. eauto.
  - split; [discriminate|]. intros [p Hp]. destruct (INV p Hp).
Qed.
Lemma cmv_exists_section_iff : forall m c, unique_ids m -> m_blocks m = [] -> (cmv_exists_in_section m c = true <-> vertex_exists m c).
Proof.
  intros m c Hu Hb. rewrite <- cmv_exists_brep_iff by exact Hu. unfold cmv_exists_in_brep. destruct (cmv_type c) eqn:E; try tauto.
  unfold cmv_exists_in_section. rewrite E, Hb. unfold in_mesh. cbn. tauto.
Qed.
Lemma position_activity : forall m c p, has_position m c p -> exists a, has_activity m (cmv_id c) a.
Proof.
  intros m c p H. unfold has_activity, cmv_id.
  inversion H; subst; cbn; eexists; [left|right; left|right; right; left|right; right; right]; eexists; (split; [eassumption|split; reflexivity]).
Qed.

Section Links.
Context (m : Model) (ex : Model -> ComponentMeshVertex -> bool).
Hypothesis Hu : unique_ids m.
Hypothesis Hex : forall c, ex m c = true <-> vertex_exists m c.

Lemma opt_neq_iff : forall uv c, negb (opt_eqb (m_unique_vertex m c) (Some uv)) = true <-> m_unique_vertex m c <> Some uv.
Proof. intros uv c. apply bool_not_iff. apply opt_eqb_eq. Qed.
Lemma linked_elsewhere_ok : forall uv c, ex m c = true -> decides (linked_elsewhere m uv c) (linked_back_elsewhere m uv c).
Proof.
  intros uv c He. unfold linked_elsewhere. assert (Hv := proj1 (Hex c) He). destruct Hv as [p Hp].
  destruct (position_activity m c p Hp) as [a Ha]. assert (K := proj2 (component_is_active_spec m (cmv_id c) a Hu) Ha). rewrite K. cbn.
  eexists. split; [reflexivity|]. rewrite andb_true_iff, opt_neq_iff. unfold linked_back_elsewhere, is_active_cmv. fold (cmv_id c). split.
  - intros [-> H]. split; [eexists; exact Hp|]. auto.
  - intros (_ & H1 & H2). split; [|exact H2]. apply (component_is_active_spec m (cmv_id c) true Hu) in H1. congruence.
Qed.
Definition elsewhereb (uv : nat) (c : ComponentMeshVertex) : bool :=
  match linked_elsewhere m uv c with Ok b => b | _ => false end.
Lemma elsewhereb_ok : forall uv c, ex m c = true -> linked_elsewhere m uv c = Ok (elsewhereb uv c) /\ (elsewhereb uv c = true <-> linked_back_elsewhere m uv c).
Proof. intros uv c H. destruct (linked_elsewhere_ok uv c H) as (b & Hb & Hp). unfold elsewhereb. rewrite Hb. auto. Qed.

Lemma cmvs_are_right_ok : forall uv cmvs,
  decides (cmvs_are_right m ex uv cmvs) (forall c, In c cmvs -> vertex_exists m c /\ (is_active_cmv m c -> m_unique_vertex m c = Some uv)).
Proof.
  intros uv cmvs. induction cmvs as [|c cs IH]; cbn.
  - exists true. split; [reflexivity|]. split; [intros _ c []|reflexivity].
  - unfold decides. destruct (ex m c) eqn:E; cbn.
    + destruct (elsewhereb_ok uv c E) as [H1 H2]. rewrite H1. cbn. destruct (elsewhereb uv c).
      * exists false. split; [reflexivity|]. split; [discriminate|]. intros K. destruct (K c (or_introl eq_refl)) as [_ K2].
        destruct (proj1 H2 eq_refl) as (_ & Ha & Hn). exfalso. apply Hn, K2, Ha.
      * destruct IH as (b & Hb & Hp). exists b. split; [exact Hb|]. rewrite Hp. split.
        -- intros K d [<-|Hd]; [|apply K; exact Hd]. split; [apply Hex; exact E|]. intros Ha.
           destruct (m_unique_vertex m c) as [n|] eqn:Em.
           ++ destruct (Nat.eq_dec n uv) as [->|Hne]; [reflexivity|]. exfalso. assert (false = true); [|discriminate]. apply H2.
              split; [apply Hex; exact E|]. split; [exact Ha|]. rewrite Em. congruence.
           ++ exfalso. assert (false = true); [|discriminate]. apply H2. split; [apply Hex; exact E|]. split; [exact Ha|]. rewrite Em. congruence.
        -- intros K d Hd. apply K. right. exact Hd.
    + exists false. split; [reflexivity|]. split; [discriminate|]. intros K. destruct (K c (or_introl eq_refl)) as [K1 _].
      apply Hex in K1. congruence.
Qed.
Lemma bijective_ok : decides (unique_vertices_are_bijectively_linked m ex) (bijectively_linked m).
Proof.
  unfold unique_vertices_are_bijectively_linked.
  set (right := fun uv => component_mesh_vertices m uv <> [] /\ forall c, In c (component_mesh_vertices m uv) ->
      vertex_exists m c /\ (is_active_cmv m c -> m_unique_vertex m c = Some uv)).
  assert (B : forall uv, exists b, (match component_mesh_vertices m uv with [] => Ok true
     | c :: cs => let! r := cmvs_are_right m ex uv (c :: cs) in Ok (negb r) end) = Ok (negb b) /\ (b = true <-> right uv)).
  { intros uv. unfold right. destruct (component_mesh_vertices m uv) as [|c cs] eqn:E.
    - exists false. split; [reflexivity|]. split; [discriminate|]. intros [K _]. congruence.
    - destruct (cmvs_are_right_ok uv (c :: cs)) as (b & Hb & Hp). rewrite Hb. cbn [bind]. exists b. split; [reflexivity|]. rewrite Hp. split; [|tauto].
      intros K. split; [discriminate|exact K]. }
  destruct (anyM_decides nat (fun uv => match component_mesh_vertices m uv with [] => Ok true
     | c :: cs => let! r := cmvs_are_right m ex uv (c :: cs) in Ok (negb r) end) (fun uv => ~ right uv) (Range (nb_unique_vertices m))) as (b & Hb & Hp).
  { intros uv _. destruct (B uv) as (b & Hb & Hp). rewrite Hb. exists (negb b). split; [reflexivity|]. apply bool_not_iff. exact Hp. }
  rewrite Hb. cbn. exists (negb b). split; [reflexivity|]. unfold bijectively_linked. fold (right 0). split.
  - intros Hn uv Huv. destruct (B uv) as (b' & Hb' & Hp'). apply Hp'. destruct b'; [reflexivity|]. destruct b; [discriminate|]. exfalso.
    assert (false = true); [|discriminate]. apply Hp. exists uv. split; [apply in_Range; exact Huv|]. intros K. apply Hp' in K. discriminate.
  - intros Hall. destruct b; [|reflexivity]. destruct (proj1 Hp eq_refl) as (uv & Huv & Hnot). apply in_Range in Huv. exfalso. apply Hnot, Hall, Huv.
Qed.

Definition missingb (c : ComponentMeshVertex) : bool := negb (ex m c).
Definition emptyb (uv : nat) : bool := match component_mesh_vertices m uv with [] => true | _ => false end.
Definition wrongb (uv : nat) (c : ComponentMeshVertex) : bool := ex m c && elsewhereb uv c.
Definition per_link (p : ComponentMeshVertex -> bool) (uv : nat) : list nat := map (fun _ => uv) (filter p (component_mesh_vertices m uv)).
Lemma link_loop : forall uv cmvs r, exists r', foldM (add_wrong_cmv_link m ex uv) cmvs r = Ok r' /\
  ii_issues (li_not_linked r') = ii_issues (li_not_linked r) /\
  ii_issues (li_inexistant r') = ii_issues (li_inexistant r) ++ map (fun _ => uv) (filter missingb cmvs) /\
  ii_issues (li_nonbijective r') = ii_issues (li_nonbijective r) ++ map (fun _ => uv) (filter (wrongb uv) cmvs).
Proof.
  intros uv cmvs. induction cmvs as [|c cs IH]; intros r.
  - exists r. cbn. rewrite !app_nil_r. auto.
  - cbn [foldM]. unfold add_wrong_cmv_link at 1. cbn [filter]. unfold missingb at 1, wrongb at 1. destruct (ex m c) eqn:E; cbn [negb andb].
    + destruct (elsewhereb_ok uv c E) as [H1 H2]. rewrite H1. cbn [bind]. destruct (elsewhereb uv c); cbn [bind].
      * match goal with |- context [foldM _ cs ?s] => destruct (IH s) as (r' & K1 & K2 & K3 & K4) end. exists r'.
        split; [exact K1|]. split; [exact K2|]. split; [exact K3|]. rewrite K4. cbn. rewrite <- app_assoc. reflexivity.
      * destruct (IH r) as (r' & K). exists r'. exact K.
    + cbn [bind]. match goal with |- context [foldM _ cs ?s] => destruct (IH s) as (r' & K1 & K2 & K3 & K4) end. exists r'.
      split; [exact K1|]. split; [exact K2|]. split; [|exact K4]. rewrite K3. cbn. rewrite <- app_assoc. reflexivity.
Qed.
Lemma links_loop : forall l r, exists r',
  foldM (fun r uv =>
      match component_mesh_vertices m uv with
      | [] => Ok (mkLinks (add_issue uv (StrCat ["unique vertex "; str uv; " is not linked to any mesh vertex."]%string)
                            (li_not_linked r)) (li_inexistant r) (li_nonbijective r))
      | cmvs => foldM (add_wrong_cmv_link m ex uv) cmvs r
      end) l r = Ok r' /\
  ii_issues (li_not_linked r') = ii_issues (li_not_linked r) ++ filter emptyb l /\
  ii_issues (li_inexistant r') = ii_issues (li_inexistant r) ++ flat_map (per_link missingb) l /\
  ii_issues (li_nonbijective r') = ii_issues (li_nonbijective r) ++ flat_map (fun uv => per_link (wrongb uv) uv) l.
Proof.
  induction l as [|uv l IH]; intros r.
  - exists r. cbn. rewrite !app_nil_r. auto.
  - cbn [foldM filter flat_map]. unfold emptyb at 1. unfold per_link at 1, per_link at 2. destruct (component_mesh_vertices m uv) as [|c cs] eqn:E.
    + cbn [bind]. match goal with |- context [foldM _ l ?s] => destruct (IH s) as (r' & K1 & K2 & K3 & K4) end. exists r'.
      split; [exact K1|]. split; [|split; [exact K3|exact K4]]. rewrite K2. cbn. rewrite <- app_assoc. reflexivity.
    + destruct (link_loop uv (c :: cs) r) as (r1 & L1 & L2 & L3 & L4). cbn [foldM] in L1. rewrite L1. cbn [bind]. destruct (IH r1) as (r' & K1 & K2 & K3 & K4).
      exists r'. split; [exact K1|]. rewrite K2, K3, K4, L2, L3, L4, <- !app_assoc. auto.
Qed.
Lemma counts_filter : forall A (P : A -> Prop) p l, (forall x, p x = true <-> P x) -> counts P l (length (filter p l)).
Proof.
  intros A P p l H. induction l as [|x l IH]; cbn; [constructor|]. destruct (p x) eqn:E; cbn; constructor; auto; [apply H; exact E|].
  intros K. apply H in K. congruence.
Qed.
Lemma count_per_link : forall p uv x, count_occ Nat.eq_dec (per_link p uv) x = if Nat.eq_dec uv x then length (filter p (component_mesh_vertices m uv)) else 0.
Proof.
  intros p uv x. unfold per_link. induction (filter p (component_mesh_vertices m uv)) as [|c l IH]; cbn [map count_occ length]; [destruct (Nat.eq_dec uv x); reflexivity|].
  rewrite IH. destruct (Nat.eq_dec uv x); reflexivity.
Qed.
Lemma count_flat : forall (p : nat -> ComponentMeshVertex -> bool) l x, NoDup l ->
  count_occ Nat.eq_dec (flat_map (fun uv => per_link (p uv) uv) l) x = if in_dec Nat.eq_dec x l then length (filter (p x) (component_mesh_vertices m x)) else 0.
Proof.
  intros p l x. induction l as [|uv l IH]; intros Hn; [reflexivity|]. inversion Hn; subst. cbn [flat_map]. rewrite count_occ_app, count_per_link, IH by assumption.
  destruct (Nat.eq_dec uv x) as [->|Hne].
  - destruct (in_dec Nat.eq_dec x l); [tauto|]. destruct (in_dec Nat.eq_dec x (x :: l)) as [|n0]; [lia|]. exfalso. apply n0. left. reflexivity.
  - destruct (in_dec Nat.eq_dec x l) as [i|n0]; destruct (in_dec Nat.eq_dec x (uv :: l)) as [i'|n1]; try reflexivity.
    + exfalso. apply n1. right. exact i.
    + destruct i' as [->|i']; [congruence|tauto].
Qed.
Lemma flat_sorted : forall (p : nat -> ComponentMeshVertex -> bool) n k, StronglySorted le (flat_map (fun uv => per_link (p uv) uv) (seq k n)).
Proof.
  intros p n. induction n as [|n IH]; intros k; cbn [seq flat_map]; [constructor|].
  assert (G : forall (l : list ComponentMeshVertex) r, StronglySorted le r -> (forall x, In x r -> k <= x) -> StronglySorted le (map (fun _ => k) l ++ r)).
  { induction l as [|c l IHl]; intros r Hr Hle; cbn; [exact Hr|]. constructor; [apply IHl; assumption|]. apply Forall_forall. intros x Hx.
    apply in_app_iff in Hx. destruct Hx as [Hx|Hx]; [|apply Hle; exact Hx]. apply in_map_iff in Hx. destruct Hx as (? & <- & _). lia. }
  unfold per_link at 1. apply G; [apply IH|]. intros x Hx. apply in_flat_map in Hx. destruct Hx as (uv & Huv & Hx). unfold per_link in Hx.
  apply in_map_iff in Hx. destruct Hx as (? & <- & _). apply in_seq in Huv. lia.
Qed.
Lemma one_entry_flat : forall (p : nat -> ComponentMeshVertex -> bool) (P : nat -> ComponentMeshVertex -> Prop),
  (forall uv c, p uv c = true <-> P uv c) ->
  one_entry_per_link m P (flat_map (fun uv => per_link (p uv) uv) (Range (nb_unique_vertices m))).
Proof.
  intros p P H. split; [apply flat_sorted|]. split.
  - intros uv Huv. apply in_flat_map in Huv. destruct Huv as (u & Hu' & Hx). unfold per_link in Hx. apply in_map_iff in Hx. destruct Hx as (? & <- & _).
    apply in_Range in Hu'. exact Hu'.
  - intros uv Huv. rewrite count_flat by apply seq_NoDup. destruct (in_dec Nat.eq_dec uv (Range (nb_unique_vertices m))) as [i|n0].
    + apply counts_filter. apply H.
    + exfalso. apply n0. apply in_Range. exact Huv.
Qed.
Lemma links_ok : exists r, add_unique_vertices_with_wrong_cmv_link m ex no_links = Ok r /\
  lists_vertices m (fun uv => component_mesh_vertices m uv = []) (ii_issues (li_not_linked r)) /\
  one_entry_per_link m (fun _ c => ~ vertex_exists m c) (ii_issues (li_inexistant r)) /\
  one_entry_per_link m (linked_back_elsewhere m) (ii_issues (li_nonbijective r)).
Proof.
  unfold add_unique_vertices_with_wrong_cmv_link.
  destruct (links_loop (Range (nb_unique_vertices m)) no_links) as (r & H1 & H2 & H3 & H4). exists r. split; [exact H1|].
  rewrite H2, H3, H4. cbn [no_links li_not_linked li_inexistant li_nonbijective new_issues ii_issues app]. split; [|split].
  - apply filter_range_exact. intros uv. unfold emptyb. destruct (component_mesh_vertices m uv); split; intros [? ?]; split; auto; discriminate.
  - apply (one_entry_flat (fun _ => missingb)). intros _ c. apply bool_not_iff. apply Hex.
  - apply (one_entry_flat wrongb). intros uv c. unfold wrongb. rewrite andb_true_iff. split.
    + intros [E K]. apply (elsewhereb_ok uv c E). exact K.
    + intros K. assert (E : ex m c = true) by (apply Hex; apply K). split; [exact E|]. apply (elsewhereb_ok uv c E). exact K.
Qed.
Lemma counts_zero : forall A (P : A -> Prop) l, counts P l 0 -> forall x, In x l -> ~ P x.
Proof.
  intros A P l. remember 0 as n eqn:E. intros H. revert E. induction H; intros E x' Hx; [destruct Hx|discriminate|].
  destruct Hx as [<-|Hx]; [assumption|]. apply IHcounts; assumption.
Qed.
Lemma counts_pos : forall A (P : A -> Prop) l n, counts P l n -> 0 < n -> exists x, In x l /\ P x.
Proof.
  intros A P l n H. induction H as [|x l n Hx H IH|x l n Hx H IH]; intros Hn; [lia|exists x; split; [left; reflexivity|exact Hx]|].
  destruct (IH Hn) as (y & Hy & Py). exists y. split; [right; exact Hy|exact Py].
Qed.
Lemma one_entry_in : forall P l uv, one_entry_per_link m P l ->
  (In uv l <-> uv < nb_unique_vertices m /\ exists c, In c (component_mesh_vertices m uv) /\ P uv c).
Proof.
  intros P l uv (_ & Hb & Hc). split.
  - intros Hin. assert (Huv := Hb uv Hin). split; [exact Huv|]. specialize (Hc uv Huv). apply (counts_pos _ _ _ _ Hc).
    apply (count_occ_In Nat.eq_dec). exact Hin.
  - intros [Huv (c & Hin & HP)]. specialize (Hc uv Huv). apply (count_occ_In Nat.eq_dec). destruct (count_occ Nat.eq_dec l uv); [|lia].
    exfalso. apply (counts_zero _ _ _ Hc c Hin HP).
Qed.
Lemma bijective_iff_empty : forall r, 
  lists_vertices m (fun uv => component_mesh_vertices m uv = []) (ii_issues (li_not_linked r)) ->
  one_entry_per_link m (fun _ c => ~ vertex_exists m c) (ii_issues (li_inexistant r)) ->
  one_entry_per_link m (linked_back_elsewhere m) (ii_issues (li_nonbijective r)) ->
  (bijectively_linked m <-> ii_issues (li_not_linked r) = [] /\ ii_issues (li_inexistant r) = [] /\ ii_issues (li_nonbijective r) = []).
Proof.
  intros r [_ H1] H2 H3. assert (G2 := fun uv => one_entry_in _ _ uv H2). assert (G3 := fun uv => one_entry_in _ _ uv H3). split.
  - intros Hb. repeat split.
    + destruct (ii_issues (li_not_linked r)) as [|uv l]; [reflexivity|]. exfalso. destruct (proj1 (H1 uv) (or_introl eq_refl)) as [Huv E]. apply (Hb uv Huv). exact E.
    + destruct (ii_issues (li_inexistant r)) as [|uv l]; [reflexivity|]. exfalso. destruct (proj1 (G2 uv) (or_introl eq_refl)) as [Huv (c & Hc & Hn)].
      apply Hn. apply (Hb uv Huv). exact Hc.
    + destruct (ii_issues (li_nonbijective r)) as [|uv l]; [reflexivity|]. exfalso. destruct (proj1 (G3 uv) (or_introl eq_refl)) as [Huv (c & Hc & _ & Ha & Hn)].
      apply Hn. destruct (Hb uv Huv) as [_ K]. apply (K c Hc). exact Ha.
  - intros (E1 & E2 & E3) uv Huv. rewrite E1 in H1. rewrite E2 in G2. rewrite E3 in G3. split; [intros K; apply (proj2 (H1 uv)); auto|].
    intros c Hc. assert (V : vertex_exists m c).
    { destruct (ex m c) eqn:E; [apply Hex; exact E|]. exfalso. apply (proj2 (G2 uv)). split; [exact Huv|]. exists c. split; [exact Hc|].
      intros K. apply Hex in K. congruence. }
    split; [exact V|]. intros Ha. destruct (opt_eqb (m_unique_vertex m c) (Some uv)) eqn:E; [apply opt_eqb_eq; exact E|].
    exfalso. apply (proj2 (G3 uv)). split; [exact Huv|]. exists c. split; [exact Hc|]. split; [exact V|]. split; [exact Ha|]. intros K. apply opt_eqb_eq in K. congruence.
Qed.
End Links.
