(** Unique vertices: C07, C08 *)
From Coq Require Import String Ascii List Arith NArith ZArith Bool Lia Sorted.
From Verif Require Import Base BaseFacts Model_Issues Types Model_Colocation Spec_Colocation Proof_Issues Proof_Colocation.
Import ListNotations.
Open Scope list_scope.

(** ** Lookup of components *)
Lemma find_component_In : forall M (l : list (Component M)) c,
  NoDup (map co_id l) -> In c l -> find_component (co_id c) l = Some c.
Proof.
  intros M l c. induction l as [|d l IH]; intros Hn Hin; [destruct Hin|]. cbn in *.
  inversion Hn as [|? ? Hd Hn']; subst. destruct Hin as [->|Hin]; [rewrite Nat.eqb_refl; reflexivity|].
  destruct (Nat.eqb (co_id d) (co_id c)) eqn:He; [|apply IH; assumption].
  apply Nat.eqb_eq in He. exfalso. apply Hd. rewrite He. apply in_map. exact Hin.
Qed.
Lemma find_component_Some : forall M (l : list (Component M)) id c,
  find_component id l = Some c -> In c l /\ co_id c = id.
Proof.
  intros M l id c. induction l as [|d l IH]; cbn; [discriminate|].
  destruct (Nat.eqb (co_id d) id) eqn:He; intros H.
  - injection H as <-. apply Nat.eqb_eq in He. auto.
  - destruct (IH H); auto.
Qed.
Lemma find_component_None : forall M (l : list (Component M)) id,
  ~ In id (map co_id l) -> find_component id l = None.
Proof.
  intros M l id. induction l as [|d l IH]; cbn; intros H; [reflexivity|].
  destruct (Nat.eqb (co_id d) id) eqn:He; [apply Nat.eqb_eq in He; tauto|]. apply IH. tauto.
Qed.

Record ids_facts (m : Model) : Prop := {
  if_c : NoDup (map co_id (m_corners m));
  if_l : NoDup (map co_id (m_lines m));
  if_s : NoDup (map co_id (m_surfaces m));
  if_b : NoDup (map co_id (m_blocks m));
  if_cl : forall x, In x (map co_id (m_corners m)) -> In x (map co_id (m_lines m)) -> False;
  if_cs : forall x, In x (map co_id (m_corners m)) -> In x (map co_id (m_surfaces m)) -> False;
  if_cb : forall x, In x (map co_id (m_corners m)) -> In x (map co_id (m_blocks m)) -> False;
  if_ls : forall x, In x (map co_id (m_lines m)) -> In x (map co_id (m_surfaces m)) -> False;
  if_lb : forall x, In x (map co_id (m_lines m)) -> In x (map co_id (m_blocks m)) -> False;
  if_sb : forall x, In x (map co_id (m_surfaces m)) -> In x (map co_id (m_blocks m)) -> False }.
Lemma unique_ids_facts : forall m, unique_ids m -> ids_facts m.
Proof.
  intros m H. unfold unique_ids, all_ids in H.
  apply NoDup_app_inv in H. destruct H as (Hc & H & D1).
  apply NoDup_app_inv in H. destruct H as (Hl & H & D2).
  apply NoDup_app_inv in H. destruct H as (Hs & Hb & D3).
  constructor; try assumption; intros x Hx Hy.
  - apply (D1 x Hx). rewrite !in_app_iff. auto.
  - apply (D1 x Hx). rewrite !in_app_iff. auto.
  - apply (D1 x Hx). rewrite !in_app_iff. auto.
  - apply (D2 x Hx). rewrite !in_app_iff. auto.
  - apply (D2 x Hx). rewrite !in_app_iff. auto.
Qed.

Lemma component_is_active_spec : forall m id a, unique_ids m ->
  (component_is_active m id = Ok a <-> has_activity m id a).
Proof.
  intros m id a Hu. apply unique_ids_facts in Hu. unfold component_is_active, has_activity. split.
  - destruct (find_component id (m_corners m)) eqn:E1.
    { apply find_component_Some in E1. intros H. injection H as <-. left. destruct E1; eauto 6. }
    destruct (find_component id (m_lines m)) eqn:E2.
    { apply find_component_Some in E2. intros H. injection H as <-. right; left. destruct E2; eauto 6. }
    destruct (find_component id (m_surfaces m)) eqn:E3.
    { apply find_component_Some in E3. intros H. injection H as <-. right; right; left. destruct E3; eauto 6. }
    destruct (find_component id (m_blocks m)) eqn:E4; [|discriminate].
    apply find_component_Some in E4. intros H. injection H as <-. right; right; right. destruct E4; eauto 6.
  - intros [H|[H|[H|H]]]; destruct H as (c & Hin & <- & <-); pose proof (in_map co_id _ _ Hin) as Hm.
    + rewrite find_component_In; [reflexivity|apply Hu|exact Hin].
    + rewrite (find_component_None _ (m_corners m)) by (intros K; apply (if_cl m Hu _ K Hm)).
      rewrite find_component_In; [reflexivity|apply Hu|exact Hin].
    + rewrite (find_component_None _ (m_corners m)) by (intros K; apply (if_cs m Hu _ K Hm)).
      rewrite (find_component_None _ (m_lines m)) by (intros K; apply (if_ls m Hu _ K Hm)).
      rewrite find_component_In; [reflexivity|apply Hu|exact Hin].
    + rewrite (find_component_None _ (m_corners m)) by (intros K; apply (if_cb m Hu _ K Hm)).
      rewrite (find_component_None _ (m_lines m)) by (intros K; apply (if_lb m Hu _ K Hm)).
      rewrite (find_component_None _ (m_surfaces m)) by (intros K; apply (if_sb m Hu _ K Hm)).
      rewrite find_component_In; [reflexivity|apply Hu|exact Hin].
Qed.

Lemma position_activity : forall m c p, has_position m c p -> exists a, has_activity m (cid_id (cmv_component c)) a.
Proof.
  intros m c p H. unfold has_activity. destruct H as [c v p Hin _|c v p Hin _|c v p Hin _|c v p Hin _]; cbn;
    exists (co_active c); [left|right; left|right; right; left|right; right; right]; exists c; auto.
Qed.

Lemma model_cmv_point_ok : forall m c p, unique_ids m -> has_position m c p -> model_cmv_point m c = Ok p.
Proof.
  intros m c p Hu H. apply unique_ids_facts in Hu.
  unfold model_cmv_point, get_block, get_line, get_surface, get_corner, mesh_point, or_throw.
  destruct H as [c v p Hin Hp|c v p Hin Hp|c v p Hin Hp|c v p Hin Hp]; cbn [cmv_component cid_type cid_id cmv_vertex];
    rewrite find_component_In by (first [exact Hin | apply Hu]); cbn [bind]; rewrite Hp; reflexivity.
Qed.

(** each vertex is active with a position, or inactive *)
Definition cmv_known (m : Model) (c : ComponentMeshVertex) : Prop := exists p, has_position m c p.

Lemma activity_cases : forall m c, unique_ids m -> cmv_known m c ->
  exists a p, component_is_active m (cid_id (cmv_component c)) = Ok a /\ model_cmv_point m c = Ok p /\ has_position m c p
  /\ (a = true <-> is_active_cmv m c).
Proof.
  intros m c Hu (p & Hp). destruct (position_activity m c p Hp) as (a & Ha). exists a, p.
  pose proof (proj2 (component_is_active_spec m _ a Hu) Ha) as Hc. split; [exact Hc|].
  split; [apply model_cmv_point_ok; assumption|]. split; [exact Hp|]. unfold is_active_cmv.
  rewrite <- component_is_active_spec by exact Hu. rewrite Hc. split; congruence.
Qed.

Lemma position_unique : forall m c p q, unique_ids m -> has_position m c p -> has_position m c q -> p = q.
Proof.
  intros m c p q Hu H1 H2. apply model_cmv_point_ok in H1; [|exact Hu]. apply model_cmv_point_ok in H2; [|exact Hu].
  congruence.
Qed.

Lemma unique_vertex_point_spec : forall m cmvs, unique_ids m -> (forall c, In c cmvs -> cmv_known m c) ->
  exists o, model_unique_vertex_point m cmvs = Ok o /\
  (forall p, o = Some p <-> exists pre c0 post, cmvs = pre ++ c0 :: post /\
     (forall d, In d pre -> ~ is_active_cmv m d) /\ is_active_cmv m c0 /\ has_position m c0 p).
Proof.
  intros m cmvs Hu. induction cmvs as [|c cmvs IH]; intros Hk; cbn.
  - exists None. split; [reflexivity|]. intros p. split; [discriminate|].
    intros (pre & c0 & post & H & _). destruct pre; discriminate.
  - destruct (activity_cases m c Hu (Hk c (or_introl eq_refl))) as (a & q & Ha & Hq & Hpos & Hact).
    rewrite Ha. cbn [bind]. destruct a; cbn [negb].
    + rewrite Hq. cbn [bind]. exists (Some q). split; [reflexivity|]. intros p. split.
      * intros H. injection H as <-. exists [], c, cmvs. split; [reflexivity|]. split; [intros d []|]. tauto.
      * intros (pre & c0 & post & H & Hpre & Hc0 & Hp). destruct pre as [|d pre]; cbn in H.
        -- injection H as -> _. f_equal. apply (position_unique m c0); assumption.
        -- injection H as -> _. exfalso. apply (Hpre d (or_introl eq_refl)). apply Hact. reflexivity.
    + destruct IH as (o & Ho & IH); [intros d Hd; apply Hk; right; exact Hd|]. exists o. split; [exact Ho|].
      assert (Hna : ~ is_active_cmv m c) by (intros K; apply Hact in K; discriminate).
      intros p. rewrite IH. split.
      * intros (pre & c0 & post & -> & Hpre & H). exists (c :: pre), c0, post. split; [reflexivity|].
        split; [|exact H]. intros d [<-|Hd]; [exact Hna|apply Hpre; exact Hd].
      * intros (pre & c0 & post & H & Hpre & Hc0 & Hp). destruct pre as [|d pre]; cbn in H.
        -- injection H as -> _. contradiction.
        -- injection H as -> ->. exists pre, c0, post. split; [reflexivity|]. split; [|tauto].
           intros e He. apply Hpre. right. exact He.
Qed.

Lemma cmvs_colocated_spec : forall geo m cmvs q, unique_ids m -> (forall c, In c cmvs -> cmv_known m c) ->
  exists b, model_cmvs_are_colocated_on_point geo m cmvs q = Ok b /\
   (b = false <-> exists c p, In c cmvs /\ is_active_cmv m c /\ has_position m c p /\ g_inexact_equal geo q p = false).
Proof.
  intros geo m cmvs q Hu. induction cmvs as [|c cmvs IH]; intros Hk; cbn.
  - exists true. split; [reflexivity|]. split; [discriminate|]. intros (c & p & [] & _).
  - destruct (activity_cases m c Hu (Hk c (or_introl eq_refl))) as (a & p & Ha & Hp & Hpos & Hact).
    destruct IH as (b & Hb & IH); [intros d Hd; apply Hk; right; exact Hd|].
    rewrite Ha. cbn [bind]. destruct a; cbn [negb].
    + rewrite Hp. cbn [bind]. destruct (g_inexact_equal geo q p) eqn:He; cbn [negb].
      * exists b. split; [exact Hb|]. rewrite IH. split.
        -- intros (d & r & Hd & H). exists d, r. tauto.
        -- intros (d & r & [->|Hd] & H); [|exists d, r; tauto]. destruct H as (_ & H1 & H2).
           rewrite (position_unique m d r p Hu H1 Hpos) in H2. congruence.
      * exists false. split; [reflexivity|]. split; [|reflexivity]. intros _. exists c, p. tauto.
    + exists b. split; [exact Hb|]. rewrite IH. split.
      * intros (d & r & Hd & H). exists d, r. tauto.
      * intros (d & r & [->|Hd] & H); [|exists d, r; tauto]. destruct H as (H & _). apply Hact in H. discriminate.
Qed.

Lemma nth_error_map_seq : forall A (f : nat -> A) n i, i < n -> nth_error (map f (seq 0 n)) i = Some (f i).
Proof.
  intros A f n i H. apply map_nth_error. rewrite (nth_error_nth' _ 0) by (rewrite seq_length; exact H).
  rewrite seq_nth by exact H. reflexivity.
Qed.

(** ** The compacted point set *)
Definition compact (ps : list (option Point)) : list Point :=
  flat_map (fun o => match o with Some p => [p] | None => [] end) ps.
Definition ranks (start : nat) (ps : list (option Point)) : list (option nat) :=
  map (fun i => match nth i ps None with Some _ => Some (start + length (compact (firstn i ps))) | None => None end)
      (seq 0 (length ps)).

Lemma uvc_fold : forall ps u,
  fold_left uvc_add ps u = mkUVC (uvc_points u ++ compact ps) (uvc_old2new u ++ ranks (length (uvc_points u)) ps).
Proof.
  induction ps as [|o ps IH]; intros [pts o2n]; cbn [fold_left uvc_points uvc_old2new].
  - cbn. rewrite !app_nil_r. reflexivity.
  - rewrite IH. unfold ranks. cbn [length seq map nth firstn]. rewrite <- seq_shift, map_map.
    destruct o as [p|]; cbn [uvc_add uvc_points uvc_old2new compact flat_map app].
    + rewrite <- !app_assoc. cbn [app length]. f_equal. f_equal. f_equal; [f_equal; lia|].
      apply map_ext. intros i. cbn [nth firstn]. destruct (nth i ps None); [|reflexivity].
      f_equal. rewrite app_length. cbn. fold (compact (firstn i ps)). lia.
    + rewrite <- !app_assoc. cbn [app]. reflexivity.
Qed.

Lemma foldM_uvc : forall (f : nat -> outcome (option Point)) g l u,
  (forall x, In x l -> f x = Ok (g x)) ->
  foldM (fun u uv => let! p := f uv in Ok (uvc_add u p)) l u = Ok (fold_left uvc_add (map g l) u).
Proof.
  intros f g l. induction l as [|x l IH]; intros u H; cbn; [reflexivity|].
  rewrite (H x (or_introl eq_refl)). cbn [bind]. apply IH. intros y Hy. apply H. right. exact Hy.
Qed.

(** pairs (unique vertex, point) kept *)
Definition kept_pairs (start : nat) (ps : list (option Point)) : list (nat * Point) :=
  flat_map (fun io => match snd io with Some p => [(fst io, p)] | None => [] end) (combine (seq start (length ps)) ps).

Lemma kept_pairs_snd : forall ps k, map snd (kept_pairs k ps) = compact ps.
Proof.
  induction ps as [|o ps IH]; intros k; [reflexivity|]. unfold kept_pairs, compact in *. cbn [length seq combine flat_map].
  rewrite map_app, IH. destruct o; reflexivity.
Qed.
Lemma kept_pairs_in : forall ps k uv p, In (uv, p) (kept_pairs k ps) <-> k <= uv /\ nth_error ps (uv - k) = Some (Some p).
Proof.
  induction ps as [|o ps IH]; intros k uv p.
  - cbn. split; [tauto|]. intros [_ H]. destruct (uv - k); discriminate.
  - unfold kept_pairs in *. cbn [length seq combine flat_map fst snd]. rewrite in_app_iff, IH. split.
    + intros [H|[H1 H2]].
      * destruct o as [q|]; [|destruct H]. destruct H as [H|[]]. injection H as <- <-. split; [lia|].
        rewrite Nat.sub_diag. reflexivity.
      * split; [lia|]. replace (uv - k) with (S (uv - S k)) by lia. exact H2.
    + intros [H1 H2]. destruct (Nat.eq_dec uv k) as [->|Hn].
      * left. rewrite Nat.sub_diag in H2. cbn in H2. injection H2 as ->. left. reflexivity.
      * right. split; [lia|]. replace (uv - k) with (S (uv - S k)) in H2 by lia. exact H2.
Qed.
Lemma kept_pairs_sorted : forall ps k, StronglySorted lt (map fst (kept_pairs k ps)).
Proof.
  induction ps as [|o ps IH]; intros k; [constructor|].
  assert (G : forall x, In x (map fst (kept_pairs (S k) ps)) -> S k <= x).
  { intros x Hx. apply in_map_iff in Hx. destruct Hx as ([y p] & <- & H). apply kept_pairs_in in H. cbn. lia. }
  unfold kept_pairs in *. cbn [length seq combine flat_map fst snd]. destruct o; cbn [app map fst]; [|apply IH].
  constructor; [apply IH|]. rewrite Forall_forall. intros x Hx. apply G in Hx. lia.
Qed.
Lemma kept_pairs_rank : forall ps k i p, nth_error ps i = Some (Some p) ->
  nth_error (kept_pairs k ps) (length (compact (firstn i ps))) = Some (k + i, p).
Proof.
  induction ps as [|o ps IH]; intros k i p H; [destruct i; discriminate|].
  destruct i as [|i]; cbn in H.
  - injection H as ->. cbn. f_equal. f_equal. lia.
  - specialize (IH (S k) i p H). unfold kept_pairs in *. cbn [length seq combine flat_map fst snd firstn compact].
    fold (compact (firstn i ps)). destruct o as [q|]; cbn [app length]; rewrite ?Nat.add_0_l; cbn [nth_error].
    + rewrite IH. f_equal. f_equal. lia.
    + rewrite IH. f_equal. f_equal. lia.
Qed.
Lemma sorted_nth_error_inj : forall (l : list nat) a b x, StronglySorted lt l ->
  nth_error l a = Some x -> nth_error l b = Some x -> a = b.
Proof.
  intros l a b x Hs Ha Hb. apply StronglySorted_lt_NoDup in Hs.
  apply (proj1 (NoDup_nth_error l) Hs); [|congruence]. apply nth_error_Some. congruence.
Qed.
Lemma old2new_spec : forall ps i a,
  nth_error (ranks 0 ps) i = Some (Some a) <-> nth_error (map fst (kept_pairs 0 ps)) a = Some i.
Proof.
  intros ps i a.
  assert (R : forall i p, nth_error ps i = Some (Some p) -> nth_error (ranks 0 ps) i = Some (Some (length (compact (firstn i ps))))).
  { intros j p Hj. unfold ranks. assert (Hl : j < length ps) by (apply nth_error_Some; congruence).
    rewrite nth_error_map_seq by exact Hl. rewrite (nth_error_nth _ _ None Hj). reflexivity. }
  split.
  - intros H.
    assert (Hl : i < length ps).
    { assert (K : nth_error (ranks 0 ps) i <> None) by congruence. apply nth_error_Some in K. unfold ranks in K.
      rewrite map_length, seq_length in K. exact K. }
    destruct (nth_error ps i) as [[p|]|] eqn:E.
    + rewrite (R i p E) in H. injection H as <-. apply (map_nth_error fst _ _ (kept_pairs_rank ps 0 i p E)).
    + exfalso. unfold ranks in H. rewrite nth_error_map_seq in H by exact Hl.
      rewrite (nth_error_nth _ _ None E) in H. discriminate.
    + apply nth_error_None in E. lia.
  - intros H.
    assert (Hin : In i (map fst (kept_pairs 0 ps))) by (apply nth_error_In in H; exact H).
    apply in_map_iff in Hin. destruct Hin as ([j p] & Hj & Hin). cbn in Hj. subst j.
    apply kept_pairs_in in Hin. destruct Hin as [_ Hin]. rewrite Nat.sub_0_r in Hin.
    rewrite (R i p Hin). f_equal. f_equal.
    apply (sorted_nth_error_inj (map fst (kept_pairs 0 ps)) _ _ i); [apply kept_pairs_sorted| |exact H].
    apply (map_nth_error fst _ _ (kept_pairs_rank ps 0 i p Hin)).
Qed.

(** ** Construction *)
Lemma resolvable_known : forall m uv c, resolvable m -> uv < nb_unique_vertices m ->
  In c (component_mesh_vertices m uv) -> cmv_known m c.
Proof.
  intros m uv c H Huv Hin. apply (H (component_mesh_vertices m uv)); [|exact Hin].
  unfold component_mesh_vertices. apply nth_In. exact Huv.
Qed.

Lemma uvc_create_spec : forall m, unique_ids m -> resolvable m ->
  exists u l, uvc_create m = Ok u /\ positioned_vertices m l /\ uvc_points u = map snd l /\
    length (uvc_old2new u) = nb_unique_vertices m /\
    (forall i a, nth_error (uvc_old2new u) i = Some (Some a) <-> nth_error (map fst l) a = Some i).
Proof.
  intros m Hu Hr.
  assert (G : exists g, forall uv, uv < nb_unique_vertices m ->
     model_unique_vertex_point m (component_mesh_vertices m uv) = Ok (g uv) /\
     (forall p, g uv = Some p <-> unique_vertex_position m uv p)).
  { exists (fun uv => match model_unique_vertex_point m (component_mesh_vertices m uv) with Ok o => o | _ => None end).
    intros uv Huv. destruct (unique_vertex_point_spec m (component_mesh_vertices m uv) Hu) as (o & Ho & H).
    { intros c Hc. apply (resolvable_known m uv); assumption. }
    rewrite Ho. split; [reflexivity|]. intros p. rewrite H. unfold unique_vertex_position. split.
    - intros (pre & c0 & post & K). exists pre, c0, post. tauto.
    - intros (pre & c0 & post & K). exists pre, c0, post. tauto. }
  destruct G as (g & G). set (ps := map g (Range (nb_unique_vertices m))).
  exists (fold_left uvc_add ps (mkUVC [] [])), (kept_pairs 0 ps). rewrite uvc_fold. cbn [uvc_points uvc_old2new app length].
  assert (Hps : length ps = nb_unique_vertices m) by (unfold ps, Range; rewrite map_length, seq_length; reflexivity).
  split.
  { unfold uvc_create. rewrite (foldM_uvc _ g); [|intros x Hx; apply in_seq in Hx; apply G; lia].
    unfold ps. rewrite uvc_fold. reflexivity. }
  split.
  { split; [apply kept_pairs_sorted|]. intros uv p. rewrite kept_pairs_in, Nat.sub_0_r. unfold ps, Range. split.
    - intros [_ H]. assert (Hl : uv < nb_unique_vertices m).
      { rewrite <- Hps. unfold ps, Range. apply nth_error_Some. congruence. }
      rewrite nth_error_map_seq in H by exact Hl. injection H as H. apply G in H; assumption.
    - intros H. split; [lia|]. assert (Hl : uv < nb_unique_vertices m) by (destruct H as (? & ? & ? & H & _); exact H).
      rewrite nth_error_map_seq by exact Hl. f_equal. apply G; assumption. }
  split; [rewrite kept_pairs_snd; reflexivity|].
  split; [unfold ranks; rewrite map_length, seq_length; exact Hps|].
  intros i a. apply old2new_spec.
Qed.

(** ** C07 *)
Lemma uv_different_spec : forall geo m u l uv, unique_ids m -> resolvable m ->
  positioned_vertices m l -> uvc_points u = map snd l ->
  length (uvc_old2new u) = nb_unique_vertices m ->
  (forall i a, nth_error (uvc_old2new u) i = Some (Some a) <-> nth_error (map fst l) a = Some i) ->
  uv < nb_unique_vertices m ->
  exists b, uv_linked_to_different_points geo m u uv = Ok b /\ (b = true <-> different_points geo m uv).
Proof.
  intros geo m u l uv Hu Hr (Hs & Hl) Hp Hlen Hmap Huv. unfold uv_linked_to_different_points.
  destruct (nth uv (uvc_old2new u) None) as [a|] eqn:E.
  - assert (E' : nth_error (uvc_old2new u) uv = Some (Some a)).
    { rewrite (nth_error_nth' _ None) by lia. rewrite E. reflexivity. }
    apply Hmap in E'. rewrite nth_error_map in E'. destruct (nth_error l a) as [[uv' p]|] eqn:Ea; [|discriminate].
    cbn in E'. injection E' as ->. unfold mesh_point. rewrite Hp, nth_error_map, Ea. cbn [option_map snd bind].
    destruct (cmvs_colocated_spec geo m (component_mesh_vertices m uv) p Hu) as (b & Hb & Hbs).
    { intros c Hc. apply (resolvable_known m uv); assumption. }
    rewrite Hb. cbn [bind]. exists (negb b). split; [reflexivity|]. rewrite negb_true_iff, Hbs.
    assert (Hpos : unique_vertex_position m uv p) by (apply Hl; apply nth_error_In in Ea; exact Ea).
    destruct Hpos as (pre & c0 & post & _ & Hc & Hpre & Ha0 & Hp0). unfold different_points. split.
    + intros (c & q & Hin & Hact & Hq & Hne). exists pre, c0, post, c, p, q. split; [exact Hc|]. split; [exact Hpre|].
      split; [exact Ha0|]. split; [|tauto]. rewrite Hc in Hin. apply in_app_or in Hin.
      destruct Hin as [Hin|Hin]; [|exact Hin]. exfalso. apply (Hpre c Hin Hact).
    + intros (pre' & c0' & post' & c & p0 & q & Hc' & Hpre' & Ha0' & Hin & Hact & Hp0' & Hq & Hne).
      exists c, q. split; [rewrite Hc'; apply in_or_app; right; exact Hin|]. split; [exact Hact|]. split; [exact Hq|].
      assert (p0 = p); [|subst; exact Hne].
      assert (F : unique_vertex_position m uv p0) by (exists pre', c0', post'; auto).
      apply Hl in F. assert (F2 : In (uv, p) l) by (apply nth_error_In in Ea; exact Ea).
      clear -Hs F F2. apply In_nth_error in F. apply In_nth_error in F2. destruct F as (x & Fx), F2 as (y & Fy).
      assert (x = y).
      { apply (sorted_nth_error_inj (map fst l) _ _ uv Hs); [apply (map_nth_error fst _ _ Fx)|apply (map_nth_error fst _ _ Fy)]. }
      subst. congruence.
  - exists false. split; [reflexivity|]. split; [discriminate|].
    intros (pre & c0 & post & c & p0 & q & Hc & Hpre & Ha0 & _ & _ & Hp0 & _). exfalso.
    assert (F : In (uv, p0) l) by (apply Hl; exists pre, c0, post; auto).
    apply In_nth_error in F. destruct F as (a & Fa). apply (map_nth_error fst) in Fa. cbn in Fa. apply Hmap in Fa.
    apply (nth_error_nth _ _ None) in Fa. congruence.
Qed.

Lemma filter_loop : forall A (f : A -> outcome bool) (msg : A -> string) (g : A -> bool) l r,
  (forall x, In x l -> f x = Ok (g x)) ->
  exists r', foldM (fun r x => let! b := f x in Ok (if b then add_issue x (msg x) r else r)) l r = Ok r' /\
    ii_issues r' = ii_issues r ++ filter g l /\ ii_messages r' = ii_messages r ++ map msg (filter g l) /\
    ii_description r' = ii_description r.
Proof.
  intros A f msg g l. induction l as [|x l IH]; intros r H; cbn [foldM filter].
  - exists r. rewrite !app_nil_r. auto.
  - rewrite (H x (or_introl eq_refl)). cbn [bind].
    destruct (IH (if g x then add_issue x (msg x) r else r)) as (r' & H1 & H2 & H3 & H4).
    { intros y Hy. apply H. right. exact Hy. }
    exists r'. split; [exact H1|]. rewrite H2, H3, H4. destruct (g x); cbn; rewrite <- ?app_assoc; auto.
Qed.
Lemma anyM_pure : forall A (f : A -> outcome bool) g l,
  (forall x, In x l -> f x = Ok (g x)) -> anyM f l = Ok (existsb g l).
Proof.
  intros A f g l. induction l as [|x l IH]; intros H; cbn; [reflexivity|].
  rewrite (H x (or_introl eq_refl)). cbn [bind]. destruct (g x); [reflexivity|]. cbn. apply IH. intros y Hy. apply H. right. exact Hy.
Qed.

Lemma linked_to_different_points_spec : forall geo m r0, unique_ids m -> resolvable m ->
  exists r b l, unique_vertices_linked_to_different_points geo m r0 = Ok r /\
    model_has_unique_vertices_linked_to_different_points geo m = Ok b /\
    ii_issues r = ii_issues r0 ++ l /\ StronglySorted lt l /\
    (forall uv, In uv l <-> uv < nb_unique_vertices m /\ different_points geo m uv) /\
    (b = true <-> l <> []).
Proof.
  intros geo m r0 Hu Hr. destruct (uvc_create_spec m Hu Hr) as (u & l & Hc & Hl & Hp & Hlen & Hmap).
  pose (g := fun uv => match uv_linked_to_different_points geo m u uv with Ok b => b | _ => false end).
  assert (G : forall uv, In uv (Range (nb_unique_vertices m)) -> uv_linked_to_different_points geo m u uv = Ok (g uv) /\
     (g uv = true <-> different_points geo m uv)).
  { intros uv Huv. apply in_seq in Huv. destruct (uv_different_spec geo m u l uv) as (b & Hb & Hbs); try assumption; [lia|].
    unfold g. rewrite Hb. split; [reflexivity|exact Hbs]. }
  unfold unique_vertices_linked_to_different_points, model_has_unique_vertices_linked_to_different_points.
  rewrite Hc. cbn [bind].
  destruct (filter_loop _ (uv_linked_to_different_points geo m u) (fun uv => StrCat ["unique vertex "; str uv;
                 " is linked to several mesh vertices on different positions"]%string) g (Range (nb_unique_vertices m)) r0)
    as (r & H1 & H2 & _); [intros x Hx; apply G; exact Hx|].
  exists r, (existsb g (Range (nb_unique_vertices m))), (filter g (Range (nb_unique_vertices m))).
  split; [exact H1|]. split; [apply anyM_pure; intros x Hx; apply G; exact Hx|]. split; [exact H2|].
  split; [apply StronglySorted_filter, StronglySorted_seq|]. split.
  - intros uv. rewrite filter_In. split.
    + intros [Hin Hg]. split; [apply in_seq in Hin; lia|]. apply G; assumption.
    + intros [Hlt Hd]. assert (Hin : In uv (Range (nb_unique_vertices m))) by (apply in_seq; lia).
      split; [exact Hin|]. apply G; assumption.
  - apply existsb_filter_iff.
Qed.

(** ** C08 *)
Lemma out2in0_spec : forall u l a i,
  StronglySorted lt (map fst l) ->
  (forall i a, nth_error (uvc_old2new u) i = Some (Some a) <-> nth_error (map fst l) a = @Some nat i) ->
  nth_error (map (@fst nat Point) l) a = Some i -> out2in0 u a = Ok i.
Proof.
  intros u l a i Hs Hmap Ha. unfold out2in0.
  destruct (find (fun iv => opt_eqb (snd iv) (Some a)) (enum (uvc_old2new u))) as [[j v]|] eqn:E.
  - apply find_some in E. destruct E as [Hin Hv]. cbn in Hv. apply opt_eqb_eq in Hv. subst v.
    apply in_enum in Hin. apply Hmap in Hin. f_equal. congruence.
  - exfalso. apply Hmap in Ha. apply in_enum in Ha. apply (find_none _ _ E) in Ha. cbn in Ha.
    rewrite Nat.eqb_refl in Ha. discriminate.
Qed.
Lemma mapM_pure : forall A B (f : A -> outcome B) g l, (forall x, In x l -> f x = Ok (g x)) -> mapM f l = Ok (map g l).
Proof.
  intros A B f g l. induction l as [|x l IH]; intros H; cbn; [reflexivity|].
  rewrite (H x (or_introl eq_refl)). cbn. rewrite IH; [reflexivity|]. intros y Hy. apply H. right. exact Hy.
Qed.

Lemma sorted_map_nth : forall (ids : list nat) g, StronglySorted lt ids -> StronglySorted lt g ->
  (forall i, In i g -> i < length ids) -> StronglySorted lt (map (fun a => nth a ids 0) g).
Proof.
  intros ids g Hs Hg. induction Hg as [|a g Hg IH Ha]; intros Hr; cbn; constructor.
  - apply IH. intros i Hi. apply Hr. right. exact Hi.
  - rewrite Forall_forall in *. intros x Hx. apply in_map_iff in Hx. destruct Hx as (b & <- & Hb).
    assert (Hab := Ha b Hb). assert (Hbl := Hr b (or_intror Hb)).
    clear -Hs Hab Hbl. revert a b Hab Hbl. induction Hs as [|y ids Hs IHs Hy]; intros a b Hab Hbl; cbn in *; [lia|].
    rewrite Forall_forall in Hy. destruct b as [|b]; [lia|]. destruct a as [|a].
    + apply Hy. apply nth_In. lia.
    + apply IHs; lia.
Qed.

Lemma NoDup_map_inj_in : forall A B (f : A -> B) l, (forall a b, In a l -> In b l -> f a = f b -> a = b) -> NoDup l -> NoDup (map f l).
Proof.
  intros A B f l Hf Hn. induction Hn as [|a l Ha Hn IH]; cbn; constructor.
  - intros H. apply in_map_iff in H. destruct H as (b & Hb & Hin).
    assert (b = a) by (apply Hf; [right; exact Hin|left; reflexivity|exact Hb]). subst. contradiction.
  - apply IH. intros x y Hx Hy. apply Hf; right; assumption.
Qed.
Lemma nth_fst : forall (l : list (nat * Point)) a, a < length l -> nth_error (map fst l) a = Some (nth a (map fst l) 0).
Proof. intros l a H. apply nth_error_nth'. rewrite map_length. exact H. Qed.

Lemma colocated_unique_vertices_spec : forall geo m r0, unique_ids m -> resolvable m ->
  exists l, positioned_vertices m l /\
   (consistent (map snd l) (g_colocated geo (map snd l)) ->
    exists r groups b, colocated_unique_vertices_groups geo m r0 = Ok r /\ ii_issues r = ii_issues r0 ++ groups /\
    model_has_colocated_unique_vertices geo m = Ok b /\
    ((N.of_nat (length l) < 2 ^ 32)%N -> (b = true <-> groups <> [])) /\
    (forall i j, i <> j -> (exists g, In g groups /\ In i g /\ In j g) <->
       exists a b p q, nth_error l a = Some (i, p) /\ nth_error l b = Some (j, q) /\
                       same_place (g_colocated geo (map snd l)) a b) /\
    (forall g, In g groups -> 2 <= length g /\ StronglySorted lt g) /\ NoDup (concat groups) /\
    (forall g i, In g groups -> In i g -> exists p, unique_vertex_position m i p)).
Proof.
  intros geo m r0 Hu Hr. destruct (uvc_create_spec m Hu Hr) as (u & l & Hc & Hl & Hp & Hlen & Hmap).
  exists l. split; [exact Hl|]. intros Hcon. destruct Hl as [Hs Hl].
  unfold colocated_unique_vertices_groups. rewrite Hc. cbn [bind]. rewrite Hp.
  destruct (colocated_points_groups_spec geo (map snd l) Hcon) as (rg & Hrg & [P1 P2 P3 P4 P5]).
  rewrite Hrg. cbn [bind].
  assert (Hln : length (colocated_mapping (g_colocated geo (map snd l))) = length l).
  { destruct Hcon as [Hcl _]. rewrite Hcl, map_length. reflexivity. }
  set (back := fun a => nth a (map fst l) 0).
  assert (Hloop : forall gs r1, (forall g, In g gs -> In g (ii_issues rg)) ->
    exists r, foldM (fun r g => let! fixed := mapM (out2in0 u) g in
           let! p := mesh_point (map snd l) (nth 0 g 0) in
           Ok (add_issue fixed (StrCat ["unique vertices "; group_string fixed;
                 " are colocated at the position ["; g_point_string geo p; "]"]%string) r)) gs r1 = Ok r /\
      ii_issues r = ii_issues r1 ++ map (map back) gs).
  { induction gs as [|g gs IH]; intros r1 Hin; cbn [foldM map].
    - exists r1. rewrite app_nil_r. auto.
    - assert (Hg := Hin g (or_introl eq_refl)).
      rewrite (mapM_pure _ _ _ back).
      2:{ intros a Ha. apply (out2in0_spec u l); [exact Hs|exact Hmap|]. unfold back. apply nth_fst.
          specialize (P5 g a Hg Ha). lia. }
      cbn [bind]. unfold mesh_point at 1.
      destruct (nth_error (map snd l) (nth 0 g 0)) as [p|] eqn:E.
      2:{ exfalso. apply nth_error_None in E. rewrite map_length in E. specialize (P2 g Hg).
          assert (K := P5 g (nth 0 g 0) Hg). lapply K; [lia|]. apply nth_In. lia. }
      cbn [bind]. edestruct IH as (r & H1 & H2); [intros g' Hg'; apply Hin; right; exact Hg'|].
      exists r. split; [exact H1|]. rewrite H2. cbn. rewrite <- app_assoc. reflexivity. }
  destruct (Hloop (ii_issues rg) r0 (fun _ H => H)) as (r & H1 & H2).
  exists r, (map (map back) (ii_issues rg)), (mesh_has_colocated_points geo (map snd l)).
  split; [exact H1|]. split; [exact H2|].
  split; [unfold model_has_colocated_unique_vertices; rewrite Hc; cbn [bind]; rewrite Hp; reflexivity|].
  split.
  { intros Hsz. rewrite (has_colocated_iff geo (map snd l) Hcon) with (r := rg); [|rewrite map_length; exact Hsz|exact Hrg].
    destruct (ii_issues rg); cbn; split; congruence. }
  assert (Hback : forall g a, In g (ii_issues rg) -> In a g -> exists p, nth_error l a = Some (back a, p)).
  { intros g a Hg Ha. specialize (P5 g a Hg Ha). destruct (nth_error l a) as [[x p]|] eqn:E.
    - exists p. f_equal. f_equal. unfold back. apply (map_nth_error fst) in E. cbn in E.
      symmetry. apply (nth_error_nth _ _ 0) in E. exact E.
    - apply nth_error_None in E. lia. }
  assert (Hinj : forall a b x p q, nth_error l a = Some (x, p) -> nth_error l b = Some (x, q) -> a = b).
  { intros a b x p q Ha Hb. apply (sorted_nth_error_inj (map fst l) _ _ x Hs);
      [apply (map_nth_error fst _ _ Ha)|apply (map_nth_error fst _ _ Hb)]. }
  split; [|split; [|split]].
  - intros i j Hij. split.
    + intros (g & Hg & Hi & Hj). apply in_map_iff in Hg. destruct Hg as (h & <- & Hh).
      apply in_map_iff in Hi. destruct Hi as (a & Ha & Hi). apply in_map_iff in Hj. destruct Hj as (b & Hb & Hj).
      destruct (Hback h a Hh Hi) as (p & Hpa). destruct (Hback h b Hh Hj) as (q & Hqb).
      exists a, b, p, q. rewrite <- Ha, <- Hb. split; [exact Hpa|]. split; [exact Hqb|].
      apply P1; [intros K; apply Hij; rewrite <- Ha, <- Hb, K; reflexivity|]. exists h. auto.
    + intros (a & b & p & q & Ha & Hb & Hsp). apply P1 in Hsp.
      2:{ intros K. subst b. apply Hij. congruence. }
      destruct Hsp as (g & Hg & Hga & Hgb). exists (map back g). split; [apply in_map; exact Hg|].
      split; apply in_map_iff; [exists a|exists b]; (split; [|assumption]); unfold back;
        apply nth_error_nth; [apply (map_nth_error fst _ _ Ha)|apply (map_nth_error fst _ _ Hb)].
  - intros g Hg. apply in_map_iff in Hg. destruct Hg as (h & <- & Hh). rewrite map_length. split; [apply P2; exact Hh|].
    apply sorted_map_nth; [exact Hs|apply P3; exact Hh|]. intros i Hi. rewrite map_length. specialize (P5 h i Hh Hi). lia.
  - rewrite <- concat_map. apply NoDup_map_inj_in; [|exact P4].
    intros a b Ha Hb Hab. apply in_concat in Ha. destruct Ha as (g & Hg & Ha). apply in_concat in Hb. destruct Hb as (h & Hh & Hb).
    destruct (Hback g a Hg Ha) as (p & Hpa). destruct (Hback h b Hh Hb) as (q & Hqb). rewrite Hab in Hpa.
    apply (Hinj a b _ p q Hpa Hqb).
  - intros g i Hg Hi. apply in_map_iff in Hg. destruct Hg as (h & <- & Hh). apply in_map_iff in Hi.
    destruct Hi as (a & <- & Ha). destruct (Hback h a Hh Ha) as (p & Hpa). exists p. apply Hl.
    apply nth_error_In in Hpa. exact Hpa.
Qed.
