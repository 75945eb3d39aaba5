From Coq Require Import String Ascii List Arith NArith ZArith Bool Lia Sorted Permutation.
From Verif Require Import Base BaseFacts Model_Issues Types Model_Colocation Spec_Colocation.
Import ListNotations.
Open Scope list_scope.

(** ** Buckets *)
Lemma map_nth_seq : forall A (b : list A) d, map (fun i => nth i b d) (seq 0 (length b)) = b.
Proof.
  intros A b d.
  assert (G : forall k, map (fun i => nth (i - k) b d) (seq k (length b)) = b).
  { induction b as [|l b IH]; intros k; cbn; [reflexivity|]. rewrite Nat.sub_diag. f_equal.
    rewrite <- (IH (S k)) at 2. apply map_ext_in. intros i Hi. apply in_seq in Hi.
    replace (i - k) with (S (i - S k)) by lia. reflexivity. }
  rewrite <- (G 0) at 2. apply map_ext. intros i. rewrite Nat.sub_0_r. reflexivity.
Qed.

Lemma nth_map_seq : forall A (f : nat -> A) n i d, i < n -> nth i (map f (seq 0 n)) d = f i.
Proof.
  intros A f n i d H. rewrite (nth_indep _ d (f 0)) by (rewrite map_length, seq_length; exact H).
  rewrite map_nth, seq_nth by exact H. reflexivity.
Qed.

Lemma push_at_spec : forall A (b : list (list A)) i x,
  i < length b -> push_at i x b = Ok (map (fun k => nth k b [] ++ (if Nat.eqb i k then [x] else [])) (seq 0 (length b))).
Proof.
  induction b as [|l b IH]; intros i x Hi; cbn [length] in *; [lia|].
  destruct i as [|i]; cbn [push_at seq map nth Nat.eqb].
  - f_equal. f_equal. rewrite <- seq_shift, map_map. cbn [nth Nat.eqb].
    transitivity (map (fun k => nth k b []) (seq 0 (length b))).
    + symmetry. apply map_nth_seq.
    + apply map_ext. intros k. rewrite app_nil_r. reflexivity.
  - rewrite IH by lia. cbn [bind]. f_equal. rewrite app_nil_r. f_equal. rewrite <- seq_shift, map_map. reflexivity.
Qed.

Lemma push_at_oob : forall A (b : list (list A)) i x, length b <= i -> push_at i x b = UB.
Proof.
  induction b as [|l b IH]; intros i x Hi; cbn in *; [destruct i; reflexivity|].
  destruct i as [|i]; [lia|]. cbn. rewrite IH by lia. reflexivity.
Qed.

Definition bucket_of {A} (k : nat) (kvs : list (nat * A)) : list A :=
  map snd (filter (fun kv => Nat.eqb (fst kv) k) kvs).

Lemma bucketize_gen : forall A (kvs : list (nat * A)) b,
  (forall kv, In kv kvs -> fst kv < length b) ->
  foldM (fun b kv => push_at (fst kv) (snd kv) b) kvs b =
  Ok (map (fun k => nth k b [] ++ bucket_of k kvs) (seq 0 (length b))).
Proof.
  intros A kvs. induction kvs as [|[k x] kvs IH]; intros b H; cbn [foldM].
  - f_equal. transitivity (map (fun i => nth i b []) (seq 0 (length b))).
    + symmetry. apply map_nth_seq.
    + apply map_ext. intros i. unfold bucket_of. cbn. rewrite app_nil_r. reflexivity.
  - cbn [fst snd]. rewrite push_at_spec by (apply (H (k, x)); left; reflexivity). cbn [bind].
    rewrite IH; [|intros kv Hkv; rewrite map_length, seq_length; apply H; right; exact Hkv].
    rewrite map_length, seq_length. f_equal. apply map_ext_in. intros i Hi. apply in_seq in Hi.
    rewrite nth_map_seq by lia. rewrite <- app_assoc. f_equal.
    unfold bucket_of. cbn [filter fst]. destruct (Nat.eqb k i); reflexivity.
Qed.

Lemma bucketize_spec : forall A n (kvs : list (nat * A)),
  (forall kv, In kv kvs -> fst kv < n) ->
  bucketize n kvs = Ok (map (fun k => bucket_of k kvs) (seq 0 n)).
Proof.
  intros A n kvs H. unfold bucketize. rewrite bucketize_gen by (rewrite repeat_length; exact H).
  rewrite repeat_length. f_equal. apply map_ext. intros k.
  replace (nth k (repeat [] n) []) with (@nil A); [reflexivity|].
  symmetry. clear. revert k. induction n as [|n IH]; intros [|k]; cbn; auto.
Qed.

Lemma bucketize_oob : forall A (kvs : list (nat * A)) b,
  (exists kv, In kv kvs /\ length b <= fst kv) ->
  foldM (fun b kv => push_at (fst kv) (snd kv) b) kvs b = UB.
Proof.
  intros A kvs. induction kvs as [|[k x] kvs IH]; intros b (kv & Hin & Hk); [destruct Hin|].
  cbn [foldM fst snd]. destruct (Nat.lt_ge_cases k (length b)) as [Hlt|Hge].
  - rewrite push_at_spec by exact Hlt. cbn [bind]. apply IH. exists kv. split.
    + destruct Hin as [<-|Hin]; [cbn in Hk; lia|exact Hin].
    + rewrite map_length, seq_length. exact Hk.
  - rewrite push_at_oob by exact Hge. reflexivity.
Qed.

Lemma in_bucket_of : forall A k (kvs : list (nat * A)) x, In x (bucket_of k kvs) <-> In (k, x) kvs.
Proof.
  intros A k kvs x. unfold bucket_of. rewrite in_map_iff. split.
  - intros ([k' x'] & Hx & Hin). cbn in Hx. subst x'. apply filter_In in Hin. destruct Hin as [Hin Hk].
    cbn in Hk. apply Nat.eqb_eq in Hk. subst k'. exact Hin.
  - intros H. exists (k, x). split; [reflexivity|]. apply filter_In. split; [exact H|]. cbn. apply Nat.eqb_refl.
Qed.

(** ** Generic list facts *)
Lemma StronglySorted_filter : forall A (R : A -> A -> Prop) f l, StronglySorted R l -> StronglySorted R (filter f l).
Proof.
  intros A R f l H. induction H as [|a l Hl IH Ha]; cbn; [constructor|].
  destruct (f a); [|exact IH]. constructor; [exact IH|].
  rewrite Forall_forall in *. intros x Hx. apply filter_In in Hx. apply Ha. apply Hx.
Qed.

Lemma StronglySorted_seq : forall n k, StronglySorted lt (seq k n).
Proof.
  induction n as [|n IH]; intros k; cbn; constructor; [apply IH|].
  rewrite Forall_forall. intros x Hx. apply in_seq in Hx. lia.
Qed.

Lemma StronglySorted_lt_NoDup : forall l, StronglySorted lt l -> NoDup l.
Proof.
  intros l H. induction H as [|a l Hl IH Ha]; constructor; [|exact IH].
  intros Hin. rewrite Forall_forall in Ha. specialize (Ha a Hin). lia.
Qed.

Lemma NoDup_app_intro : forall A (l1 l2 : list A),
  NoDup l1 -> NoDup l2 -> (forall x, In x l1 -> In x l2 -> False) -> NoDup (l1 ++ l2).
Proof.
  intros A l1 l2 H1 H2 H. induction H1 as [|a l1 Ha H1 IH]; cbn; [exact H2|].
  constructor.
  - rewrite in_app_iff. intros [Hin|Hin]; [auto|]. apply (H a); [left; reflexivity|exact Hin].
  - apply IH. intros x Hx Hx2. apply (H x); [right; exact Hx|exact Hx2].
Qed.

Lemma NoDup_app_inv : forall A (l1 l2 : list A),
  NoDup (l1 ++ l2) -> NoDup l1 /\ NoDup l2 /\ (forall x, In x l1 -> In x l2 -> False).
Proof.
  intros A l1 l2. induction l1 as [|a l1 IH]; cbn; intros H.
  - split; [constructor|]. split; [exact H|]. intros x [].
  - inversion H as [|a' l' Ha H']; subst. destruct (IH H') as (H1 & H2 & H3).
    rewrite in_app_iff in Ha. split; [constructor; tauto|]. split; [exact H2|].
    intros x [->|Hx] Hx2; [tauto|]. apply (H3 x); assumption.
Qed.

Lemma NoDup_concat_filter : forall A (f : list A -> bool) ls, NoDup (concat ls) -> NoDup (concat (filter f ls)).
Proof.
  intros A f ls. induction ls as [|l ls IH]; cbn; intros H; [constructor|].
  apply NoDup_app_inv in H. destruct H as (H1 & H2 & H3).
  destruct (f l); cbn; [|apply IH; exact H2].
  apply NoDup_app_intro; [exact H1|apply IH; exact H2|].
  intros x Hx Hx2. apply (H3 x Hx). apply in_concat in Hx2. destruct Hx2 as (g & Hg & Hxg).
  apply in_concat. exists g. split; [|exact Hxg]. apply filter_In in Hg. apply Hg.
Qed.

Lemma NoDup_concat_keyed : forall A B (f : B -> list A) (ks : list B),
  NoDup ks -> (forall k, In k ks -> NoDup (f k)) ->
  (forall k k' x, In k ks -> In k' ks -> In x (f k) -> In x (f k') -> k = k') ->
  NoDup (concat (map f ks)).
Proof.
  intros A B f ks H. induction H as [|k ks Hk H IH]; intros H1 H2; cbn; [constructor|].
  apply NoDup_app_intro.
  - apply H1. left. reflexivity.
  - apply IH.
    + intros k' Hk'. apply H1. right. exact Hk'.
    + intros k1 k2 x Hk1 Hk2. apply H2; right; assumption.
  - intros x Hx Hx2. apply in_concat in Hx2. destruct Hx2 as (g & Hg & Hxg). apply in_map_iff in Hg.
    destruct Hg as (k' & <- & Hk'). assert (k = k'); [|subst; auto].
    apply (H2 k k' x); [left; reflexivity|right; exact Hk'|exact Hx|exact Hxg].
Qed.

(** ** C04 *)
Lemma in_combine_seq : forall (l : list nat) u i,
  In (u, i) (combine l (seq 0 (length l))) <-> nth_error l i = Some u.
Proof.
  intros l u i.
  assert (G : forall k, In (u, i) (combine l (seq k (length l))) <-> k <= i /\ nth_error l (i - k) = Some u).
  { induction l as [|y l IH]; intros k; cbn.
    - split; [tauto|]. intros [_ H]. destruct (i - k); discriminate.
    - rewrite IH. split.
      + intros [H|[Hk H]].
        * injection H as -> ->. split; [lia|]. rewrite Nat.sub_diag. reflexivity.
        * split; [lia|]. replace (i - k) with (S (i - S k)) by lia. exact H.
      + intros [Hk H]. destruct (Nat.eq_dec i k) as [->|Hn].
        * rewrite Nat.sub_diag in H. cbn in H. injection H as ->. left. reflexivity.
        * right. split; [lia|]. replace (i - k) with (S (i - S k)) in H by lia. exact H. }
  rewrite G. rewrite Nat.sub_0_r. split; [intros [_ H]; exact H|intros H; split; [lia|exact H]].
Qed.

Definition place_bucket (mapping : list nat) (u : nat) : list nat :=
  bucket_of u (combine mapping (seq 0 (length mapping))).

Lemma in_place_bucket : forall mapping u i, In i (place_bucket mapping u) <-> nth_error mapping i = Some u.
Proof. intros mapping u i. unfold place_bucket. rewrite in_bucket_of. apply in_combine_seq. Qed.

Lemma place_bucket_sorted : forall mapping u, StronglySorted lt (place_bucket mapping u).
Proof.
  intros mapping u. unfold place_bucket, bucket_of.
  assert (G : forall k, StronglySorted lt (map snd (filter (fun kv : nat * nat => Nat.eqb (fst kv) u)
      (combine mapping (seq k (length mapping))))) /\
    (forall x, In x (map snd (filter (fun kv : nat * nat => Nat.eqb (fst kv) u)
      (combine mapping (seq k (length mapping))))) -> k <= x)).
  { induction mapping as [|y l IH]; intros k; cbn [length seq combine filter].
    - cbn. split; [constructor|intros x []].
    - destruct (IH (S k)) as [H1 H2]. cbn [fst]. destruct (Nat.eqb y u); cbn [map snd].
      + split.
        * constructor; [exact H1|]. rewrite Forall_forall. intros x Hx. apply H2 in Hx. lia.
        * intros x [<-|Hx]; [lia|]. apply H2 in Hx. lia.
      + split; [exact H1|]. intros x Hx. apply H2 in Hx. lia. }
  apply G.
Qed.

Definition place_groups (c : ColocatedInfo) : list (list nat) :=
  filter (fun g : list nat => negb (Nat.ltb (length g) 2))
    (map (place_bucket (colocated_mapping c)) (seq 0 (length (unique_points c)))).

Lemma in_place_groups : forall c g,
  In g (place_groups c) <-> exists u, u < length (unique_points c) /\ g = place_bucket (colocated_mapping c) u /\ 2 <= length g.
Proof.
  intros c g. unfold place_groups. rewrite filter_In, in_map_iff. rewrite negb_true_iff, Nat.ltb_ge. split.
  - intros ((u & <- & Hu) & Hl). apply in_seq in Hu. exists u. split; [lia|]. split; [reflexivity|exact Hl].
  - intros (u & Hu & -> & Hl). split; [|exact Hl]. exists u. split; [reflexivity|]. apply in_seq. lia.
Qed.

Lemma two_distinct_length : forall (l : list nat) i j, In i l -> In j l -> i <> j -> 2 <= length l.
Proof.
  intros l i j Hi Hj Hn. destruct l as [|a [|b l]]; cbn in *; [tauto| |lia].
  destruct Hi as [<-|[]]. destruct Hj as [<-|[]]. congruence.
Qed.

Lemma place_groups_spec : forall c,
  (forall u, In u (colocated_mapping c) -> u < length (unique_points c)) ->
  colocation_groups c (place_groups c).
Proof.
  intros c Hr. constructor.
  - intros i j Hn. split.
    + intros (u & Hi & Hj). exists (place_bucket (colocated_mapping c) u).
      assert (Hbi : In i (place_bucket (colocated_mapping c) u)) by (apply in_place_bucket; exact Hi).
      assert (Hbj : In j (place_bucket (colocated_mapping c) u)) by (apply in_place_bucket; exact Hj).
      split; [|auto]. apply in_place_groups. exists u. split; [apply Hr; apply nth_error_In in Hi; exact Hi|].
      split; [reflexivity|]. exact (two_distinct_length _ i j Hbi Hbj Hn).
    + intros (g & Hg & Hi & Hj). apply in_place_groups in Hg. destruct Hg as (u & _ & -> & _).
      exists u. split; apply in_place_bucket; assumption.
  - intros g Hg. apply in_place_groups in Hg. destruct Hg as (u & _ & _ & H). exact H.
  - intros g Hg. apply in_place_groups in Hg. destruct Hg as (u & _ & -> & _). apply place_bucket_sorted.
  - unfold place_groups. apply NoDup_concat_filter. apply NoDup_concat_keyed.
    + apply seq_NoDup.
    + intros u _. apply StronglySorted_lt_NoDup, place_bucket_sorted.
    + intros u u' x _ _ Hx Hx'. apply in_place_bucket in Hx, Hx'. congruence.
  - intros g i Hg Hi. apply in_place_groups in Hg. destruct Hg as (u & _ & -> & _).
    apply in_place_bucket in Hi. apply nth_error_Some. congruence.
Qed.

Lemma add_groups_loop : forall geo (c : ColocatedInfo) groups r,
  (forall g, In g groups -> nth_error (unique_points c) (nth (nth 0 g 0) (colocated_mapping c) 0) <> None) ->
  exists r', foldM (fun r g =>
           match nth_error (unique_points c) (nth (nth 0 g 0) (colocated_mapping c) 0) with
           | Some p => Ok (add_issue g (StrCat ["vertices "; group_string g;
                         " are colocated at the position ["; g_point_string geo p; "]"]%string) r)
           | None => UB
           end) groups r = Ok r' /\ ii_issues r' = ii_issues r ++ groups.
Proof.
  intros geo c groups. induction groups as [|g gs IH]; intros r H; cbn [foldM].
  - exists r. rewrite app_nil_r. auto.
  - destruct (nth_error (unique_points c) (nth (nth 0 g 0) (colocated_mapping c) 0)) as [p|] eqn:E.
    + cbn [bind]. destruct (IH (add_issue g (StrCat ["vertices "; group_string g;
                         " are colocated at the position ["; g_point_string geo p; "]"]%string) r)) as (r' & H1 & H2).
      { intros g' Hg'. apply H. right. exact Hg'. }
      exists r'. split; [exact H1|]. rewrite H2. cbn. rewrite <- app_assoc. reflexivity.
    + exfalso. apply (H g); [left; reflexivity|exact E].
Qed.

Lemma colocated_points_groups_eq : forall geo points,
  (forall u, In u (colocated_mapping (g_colocated geo points)) -> u < length (unique_points (g_colocated geo points))) ->
  exists r, colocated_points_groups geo points = Ok r /\ ii_issues r = place_groups (g_colocated geo points).
Proof.
  intros geo points Hr. unfold colocated_points_groups, mesh_points_colocated_info, nb_unique_points.
  set (c := g_colocated geo points) in *.
  rewrite bucketize_spec.
  2:{ intros [u i] Hin. cbn. apply in_combine_l in Hin. apply Hr. exact Hin. }
  cbn [bind]. fold (place_bucket (colocated_mapping c)).
  change (map (fun k => bucket_of k (combine (colocated_mapping c) (seq 0 (length (colocated_mapping c))))) (seq 0 (length (unique_points c))))
    with (map (place_bucket (colocated_mapping c)) (seq 0 (length (unique_points c)))).
  fold (place_groups c).
  destruct (add_groups_loop geo c (place_groups c) (new_issues "groups of colocated points"%string)) as (r & H1 & H2).
  - intros g Hg. apply in_place_groups in Hg. destruct Hg as (u & Hu & Hgu & Hl).
    assert (Hin : In (nth 0 g 0) g) by (apply nth_In; lia).
    rewrite Hgu in Hin at 2. apply in_place_bucket in Hin.
    rewrite (nth_error_nth (colocated_mapping c) _ 0 Hin). apply nth_error_Some. exact Hu.
  - exists r. split; [exact H1|]. rewrite H2. reflexivity.
Qed.

Lemma colocated_points_groups_spec : forall geo points,
  consistent points (g_colocated geo points) ->
  exists r, colocated_points_groups geo points = Ok r /\ colocation_groups (g_colocated geo points) (ii_issues r).
Proof.
  intros geo points (_ & Hr & _).
  destruct (colocated_points_groups_eq geo points Hr) as (r & H1 & H2). exists r. split; [exact H1|].
  rewrite H2. apply place_groups_spec. exact Hr.
Qed.

(** An out-of-range mapping is an out-of-bounds write. *)
Lemma colocated_points_groups_oob : forall geo points,
  (exists u, In u (colocated_mapping (g_colocated geo points)) /\ length (unique_points (g_colocated geo points)) <= u) ->
  colocated_points_groups geo points = UB.
Proof.
  intros geo points (u & Hu & Hb). unfold colocated_points_groups, mesh_points_colocated_info, bucketize.
  rewrite bucketize_oob; [reflexivity|]. apply In_nth_error in Hu. destruct Hu as (i & Hi).
  exists (u, i). split; [apply in_combine_seq; exact Hi|]. rewrite repeat_length. exact Hb.
Qed.

(** ** C05 *)
Lemma NoDup_mapping_length : forall c,
  (forall u, In u (colocated_mapping c) -> u < length (unique_points c)) ->
  (forall u, u < length (unique_points c) -> In u (colocated_mapping c)) ->
  length (unique_points c) <= length (colocated_mapping c) /\
  (NoDup (colocated_mapping c) <-> length (colocated_mapping c) = length (unique_points c)).
Proof.
  intros c H1 H2.
  assert (Hincl : incl (seq 0 (length (unique_points c))) (colocated_mapping c)).
  { intros u Hu. apply H2. apply in_seq in Hu. lia. }
  assert (Hincl' : incl (colocated_mapping c) (seq 0 (length (unique_points c)))).
  { intros u Hu. apply in_seq. apply H1 in Hu. lia. }
  pose proof (NoDup_incl_length (seq_NoDup (length (unique_points c)) 0) Hincl) as Hlen.
  rewrite seq_length in Hlen. split; [exact Hlen|]. split.
  - intros Hnd. pose proof (NoDup_incl_length Hnd Hincl') as H. rewrite seq_length in H. lia.
  - intros Heq. apply (@NoDup_incl_NoDup _ (seq 0 (length (unique_points c)))).
    + apply seq_NoDup.
    + rewrite seq_length. lia.
    + exact Hincl.
Qed.

Lemma not_NoDup_pair : forall l : list nat, ~ NoDup l <->
  exists i j u, i <> j /\ nth_error l i = Some u /\ nth_error l j = Some u.
Proof.
  intros l. split.
  - induction l as [|a l IH]; intros H; [exfalso; apply H; constructor|].
    destruct (in_dec Nat.eq_dec a l) as [Hin|Hn].
    + apply In_nth_error in Hin. destruct Hin as (j & Hj). exists 0, (S j), a. split; [lia|]. auto.
    + destruct IH as (i & j & u & Hij & Hi & Hj).
      * intros Hnd. apply H. constructor; assumption.
      * exists (S i), (S j), u. split; [lia|]. auto.
  - intros (i & j & u & Hij & Hi & Hj) Hnd. apply Hij.
    rewrite NoDup_nth_error in Hnd. apply Hnd; [apply nth_error_Some; congruence|congruence].
Qed.

Lemma groups_nonempty_iff : forall c groups, colocation_groups c groups ->
  (groups <> [] <-> ~ NoDup (colocated_mapping c)).
Proof.
  intros c groups H. rewrite not_NoDup_pair. split.
  - intros Hne. destruct groups as [|g gs]; [congruence|].
    pose proof (cg_size _ _ H g (or_introl eq_refl)) as Hl.
    pose proof (cg_sorted _ _ H g (or_introl eq_refl)) as Hs.
    destruct g as [|i [|j g]]; cbn in Hl; try lia.
    assert (Hij : i <> j). { inversion Hs as [|a l Hs' Ha]; subst. inversion Ha; subst. lia. }
    destruct (proj2 (cg_pairs _ _ H i j Hij)) as (u & Hi & Hj).
    + exists (i :: j :: g). split; [left; reflexivity|]. split; [left; reflexivity|right; left; reflexivity].
    + exists i, j, u. auto.
  - intros (i & j & u & Hij & Hi & Hj) Hnil.
    destruct (proj1 (cg_pairs _ _ H i j Hij)) as (g & Hg & _); [exists u; auto|]. subst groups. destruct Hg.
Qed.

Lemma nb_colocated_small : forall c,
  length (unique_points c) <= length (colocated_mapping c) ->
  (N.of_nat (length (colocated_mapping c)) < 2 ^ 32)%N ->
  nb_colocated_points c = N.of_nat (length (colocated_mapping c) - length (unique_points c)).
Proof.
  intros c Hl Hs. unfold nb_colocated_points, nb_unique_points.
  rewrite Z.mod_small by lia. rewrite u32_small by lia. lia.
Qed.

Lemma has_colocated_iff : forall geo points,
  consistent points (g_colocated geo points) ->
  (N.of_nat (length points) < 2 ^ 32)%N ->
  forall r, colocated_points_groups geo points = Ok r ->
  (mesh_has_colocated_points geo points = true <-> ii_issues r <> []).
Proof.
  intros geo points Hc Hs r Hr.
  destruct (colocated_points_groups_spec geo points Hc) as (r' & H1 & H2).
  rewrite Hr in H1. injection H1 as <-.
  rewrite (groups_nonempty_iff _ _ H2). destruct Hc as (Hlen & Hrange & Hsurj).
  destruct (NoDup_mapping_length _ Hrange Hsurj) as (Hle & Hiff). rewrite Hiff.
  unfold mesh_has_colocated_points, mesh_points_colocated_info.
  rewrite N.ltb_lt. rewrite nb_colocated_small; [lia|exact Hle|rewrite Hlen; exact Hs].
Qed.

(** ** C06: the filter on unique vertices *)

Lemma opt_eqb_eq : forall a b, opt_eqb a b = true <-> a = b.
Proof.
  intros [x|] [y|]; cbn; split; intros H; try discriminate; try reflexivity.
  - apply Nat.eqb_eq in H. subst. reflexivity.
  - injection H as ->. apply Nat.eqb_refl.
Qed.

Lemma set_nth_length : forall A (l : list A) i x, length (set_nth i x l) = length l.
Proof. induction l as [|y l IH]; intros [|i] x; cbn; auto. Qed.

Lemma nth_set_nth : forall A (l : list A) i x k d,
  nth k (set_nth i x l) d = if Nat.eqb i k then (if Nat.ltb k (length l) then x else d) else nth k l d.
Proof.
  induction l as [|y l IH]; intros i x k d.
  - destruct i as [|i], k as [|k]; cbn; try reflexivity. destruct (Nat.eqb i k); reflexivity.
  - destruct i as [|i], k as [|k]; cbn [set_nth nth Nat.eqb length]; try reflexivity.
    rewrite IH. destruct (Nat.eqb i k); [|reflexivity]. reflexivity.
Qed.

Definition marks_justified (uv : nat -> option nat) (arr : list bool) : Prop :=
  forall k, k < length arr -> nth k arr false = false -> exists j, j <= k /\ uv j = uv (S k).

Lemma inner_marks : forall uv size first_id ids arr,
  (forall s, In s ids -> first_id < s < size) ->
  length arr = size - 1 ->
  let arr' := fold_left (fun arr s => if opt_eqb (uv first_id) (uv s) then set_nth (s - 1) false arr else arr) ids arr in
  length arr' = size - 1 /\
  (forall k, nth k arr false = false -> nth k arr' false = false) /\
  (forall s, In s ids -> uv first_id = uv s -> nth (s - 1) arr' false = false) /\
  (marks_justified uv arr -> marks_justified uv arr').
Proof.
  intros uv size first_id ids. induction ids as [|s ids IH]; intros arr Hs Hl; cbn [fold_left].
  - split; [exact Hl|]. split; [auto|]. split; [intros s []|auto].
  - set (arr1 := if opt_eqb (uv first_id) (uv s) then set_nth (s - 1) false arr else arr).
    assert (Hl1 : length arr1 = size - 1).
    { unfold arr1. destruct (opt_eqb _ _); [rewrite set_nth_length|]; exact Hl. }
    assert (Hss := Hs s (or_introl eq_refl)).
    assert (Hm1 : forall k, nth k arr false = false -> nth k arr1 false = false).
    { intros k Hk. unfold arr1. destruct (opt_eqb _ _); [|exact Hk]. rewrite nth_set_nth.
      destruct (Nat.eqb (s - 1) k); [destruct (Nat.ltb _ _)|]; auto. }
    destruct (IH arr1 (fun t Ht => Hs t (or_intror Ht)) Hl1) as (H1 & H2 & H3 & H4).
    split; [exact H1|]. split; [intros k Hk; apply H2, Hm1, Hk|]. split.
    + intros t [->|Ht] He; [|apply H3; assumption]. apply H2. unfold arr1.
      rewrite (proj2 (opt_eqb_eq _ _) He). rewrite nth_set_nth, Nat.eqb_refl.
      destruct (Nat.ltb _ _); reflexivity.
    + intros Hj. apply H4. intros k Hk Hn. unfold arr1 in *. destruct (opt_eqb (uv first_id) (uv s)) eqn:He.
      * rewrite set_nth_length in Hk. rewrite nth_set_nth in Hn.
        destruct (Nat.eqb (s - 1) k) eqn:Hsk.
        -- apply Nat.eqb_eq in Hsk. exists first_id. split; [lia|]. apply opt_eqb_eq in He.
           replace (S k) with s by lia. exact He.
        -- apply Hj; assumption.
      * apply Hj; assumption.
Qed.

Lemma step_marks : forall uv size first_id arr,
  length arr = size - 1 ->
  length (filter_step uv size arr first_id) = size - 1 /\
  (forall k, nth k arr false = false -> nth k (filter_step uv size arr first_id) false = false) /\
  (marks_justified uv arr -> marks_justified uv (filter_step uv size arr first_id)).
Proof.
  intros uv size first_id arr Hl. unfold filter_step. destruct (negb _); [auto|].
  pose proof (inner_marks uv size first_id (Range2 (first_id + 1) size) arr) as H. cbn in H.
  destruct H as (H1 & H2 & _ & H4); [intros s Hs; apply in_seq in Hs; lia|exact Hl|]. auto.
Qed.

Lemma steps_marks : forall uv size ids arr,
  length arr = size - 1 ->
  let arr' := fold_left (filter_step uv size) ids arr in
  length arr' = size - 1 /\
  (forall k, nth k arr false = false -> nth k arr' false = false) /\
  (marks_justified uv arr -> marks_justified uv arr').
Proof.
  intros uv size ids. induction ids as [|i ids IH]; intros arr Hl; cbn [fold_left]; [auto|].
  destruct (step_marks uv size i arr Hl) as (H1 & H2 & H3). destruct (IH _ H1) as (G1 & G2 & G3). auto.
Qed.

Lemma filter_marks_spec : forall uv size, 1 <= size ->
  length (filter_marks uv size) = size - 1 /\
  marks_justified uv (filter_marks uv size) /\
  (forall k, k < size - 1 -> uv (S k) = uv 0 -> nth k (filter_marks uv size) false = false).
Proof.
  intros uv size Hsz. unfold filter_marks.
  assert (Hl : length (repeat true (size - 1)) = size - 1) by apply repeat_length.
  destruct (steps_marks uv size (Range (size - 1)) _ Hl) as (H1 & H2 & H3). cbn zeta in *.
  split; [exact H1|]. split.
  - apply H3. intros k Hk Hn. rewrite repeat_length in Hk.
    assert (Ht : nth k (repeat true (size - 1)) false = true).
    { apply (repeat_spec (size - 1)). apply nth_In. rewrite repeat_length. exact Hk. }
    congruence.
  - intros k Hk He. unfold Range. destruct (size - 1) as [|n] eqn:Hn; [lia|].
    cbn [seq fold_left].
    assert (Hl' : length (repeat true (S n)) = size - 1) by (rewrite repeat_length; lia).
    assert (Hf : nth k (filter_step uv size (repeat true (S n)) 0) false = false).
    { unfold filter_step. cbn [nth repeat negb].
      pose proof (inner_marks uv size 0 (Range2 (0 + 1) size) (repeat true (S n))) as G. cbn zeta in G.
      destruct G as (_ & _ & G & _); [intros s Hs; apply in_seq in Hs; lia|exact Hl'|].
      specialize (G (S k)). replace (S k - 1) with k in G by lia. apply G; [|congruence].
      unfold Range2. apply in_seq. lia. }
    destruct (step_marks uv size 0 (repeat true (S n)) Hl') as (L & _ & _).
    destruct (steps_marks uv size (seq 1 n) _ L) as (_ & K & _). cbn zeta in K. apply K. exact Hf.
Qed.

Lemma subsequence_filter_map : forall A (marks : list bool) (rest : list A) (d : A),
  length marks = length rest ->
  subsequence (map (fun i => nth i rest d) (filter (fun i => nth i marks false) (Range (length marks)))) rest.
Proof.
  intros A marks. unfold Range. induction marks as [|b marks IH]; intros rest d Hl; destruct rest as [|x rest]; try discriminate.
  - constructor.
  - cbn [length seq]. rewrite <- seq_shift.
    assert (E : filter (fun i => nth i (b :: marks) false) (map S (seq 0 (length marks)))
                = map S (filter (fun i => nth i marks false) (seq 0 (length marks)))).
    { generalize (seq 0 (length marks)). intros l. induction l as [|y l IHl]; [reflexivity|].
      cbn [map filter]. cbn [nth] in *. destruct (nth y marks false); cbn [map]; rewrite IHl; reflexivity. }
    cbn [filter]. rewrite E. cbn [nth]. destruct b; cbn [map nth].
    + rewrite map_map. cbn [nth]. apply sub_keep. apply IH. injection Hl as Hl. exact Hl.
    + rewrite map_map. cbn [nth]. apply sub_skip. apply IH. injection Hl as Hl. exact Hl.
Qed.

(** the first position of a value *)
Lemma first_position : forall (f : nat -> option nat) n v, f n = v -> exists k, k <= n /\ f k = v /\ forall j, j < k -> f j <> v.
Proof.
  intros f n. induction n as [n IH] using lt_wf_ind. intros v Hv.
  assert (D : (exists j, j < n /\ f j = v) \/ (forall j, j < n -> f j <> v)).
  { clear -n. induction n as [|n IHn]; [right; intros j Hj; lia|].
    assert (Ed : {f n = v} + {f n <> v}) by (decide equality; apply Nat.eq_dec).
    destruct IHn as [(j & Hj & He)|Hn]; [left; exists j; split; [lia|exact He]|].
    destruct Ed as [He|He]; [left; exists n; split; [lia|exact He]|].
    right. intros j Hj. destruct (Nat.eq_dec j n) as [->|]; [exact He|]. apply Hn. lia. }
  destruct D as [(j & Hj & He)|Hn].
  - destruct (IH j Hj v He) as (k & Hk & H). exists k. split; [lia|exact H].
  - exists n. split; [lia|]. split; [exact Hv|exact Hn].
Qed.

Lemma filter_group_spec : forall uv first rest,
  exists r, filter_group uv (first :: rest) = Ok r /\
    (r <> None <-> spans_several uv (first :: rest)) /\
    (forall g, r = Some g -> filtered_report uv first rest g).
Proof.
  intros uv first rest. unfold filter_group.
  set (group := first :: rest). set (size := length group).
  set (uvi := fun i => uv (nth i group 0)).
  destruct (filter_marks_spec uvi size) as (HL & HJ & H0); [unfold size, group; cbn; lia|].
  set (marks := filter_marks uvi size) in *.
  assert (HLr : length marks = length rest) by (rewrite HL; unfold size, group; cbn; lia).
  set (kept := map (fun i => nth (i + 1) group 0) (filter (fun i => nth i marks false) (Range (length marks)))).
  assert (Ek : kept = map (fun i => nth i rest 0) (filter (fun i => nth i marks false) (Range (length marks)))).
  { unfold kept. apply map_ext. intros i. replace (i + 1) with (S i) by lia. reflexivity. }
  assert (Hsub : subsequence kept rest) by (rewrite Ek; apply subsequence_filter_map; exact HLr).
  assert (Hkept : forall w, In w kept -> exists k, k < length rest /\ w = nth (S k) group 0 /\ nth k marks false = true).
  { intros w Hw. unfold kept in Hw. apply in_map_iff in Hw. destruct Hw as (i & <- & Hi).
    apply filter_In in Hi. destruct Hi as [Hi Hm]. apply in_seq in Hi. exists i. split; [lia|].
    split; [|exact Hm]. replace (i + 1) with (S i) by lia. reflexivity. }
  assert (Hnf : forall w, In w kept -> uv w <> uv first).
  { intros w Hw He. destruct (Hkept w Hw) as (k & Hk & -> & Hm).
    assert (nth k marks false = false); [|congruence].
    apply H0; [unfold size, group; cbn; lia|]. unfold uvi. cbn [nth group]. exact He. }
  assert (Hcov : forall v, In v group -> uv v <> uv first -> exists w, In w kept /\ uv w = uv v).
  { intros v Hv Hne. apply (In_nth _ _ 0) in Hv. destruct Hv as (n & Hn & Hnv).
    destruct (first_position uvi n (uv v)) as (k & Hk & Hkv & Hfst).
    { unfold uvi. rewrite Hnv. reflexivity. }
    destruct k as [|k].
    { exfalso. apply Hne. rewrite <- Hkv. reflexivity. }
    assert (Hkr : k < length rest) by (unfold group in Hn; cbn in Hn; lia).
    exists (nth (S k) group 0). split; [|exact Hkv].
    unfold kept. apply in_map_iff. exists k. split; [f_equal; lia|].
    apply filter_In. split; [unfold Range; apply in_seq; lia|].
    destruct (nth k marks false) eqn:Hm; [reflexivity|]. exfalso.
    destruct (HJ k) as (j & Hj & He); [lia|exact Hm|]. apply (Hfst j); [lia|].
    rewrite He. exact Hkv. }
  assert (Hrep : filtered_report uv first rest (kept ++ [first])).
  { exists kept. split; [reflexivity|]. split; [exact Hsub|]. split; [exact Hnf|].
    intros v Hv. assert (Ed : {uv v = uv first} + {uv v <> uv first}) by (decide equality; apply Nat.eq_dec).
    destruct Ed as [He|He].
    - exists first. split; [apply in_or_app; right; left; reflexivity|congruence].
    - destruct (Hcov v Hv He) as (w & Hw & Hwe). exists w. split; [apply in_or_app; left; exact Hw|exact Hwe]. }
  assert (Hnonempty : kept <> [] <-> spans_several uv group).
  { split.
    - intros Hne. destruct kept as [|w kept'] eqn:Hk0; [congruence|].
      exists w, first. assert (Hw : In w (w :: kept')) by (left; reflexivity).
      split; [|split; [left; reflexivity|apply Hnf; left; reflexivity]].
      destruct (Hkept w Hw) as (k & Hk & -> & _). apply nth_In. unfold group. cbn. lia.
    - intros (a & b & Ha & Hb & Hne) Hk0.
      assert (Ed : {uv a = uv first} + {uv a <> uv first}) by (decide equality; apply Nat.eq_dec).
      assert (Hx : exists v, In v group /\ uv v <> uv first).
      { destruct Ed as [He|He]; [exists b|exists a]; split; try assumption. congruence. }
      destruct Hx as (v & Hv & Hvn). destruct (Hcov v Hv Hvn) as (w & Hw & _). rewrite Hk0 in Hw. destruct Hw. }
  destruct kept as [|w kept'] eqn:Hk0.
  - exists None. split; [reflexivity|]. split; [|intros g Hg; discriminate].
    rewrite <- Hnonempty. split; intros H; congruence.
  - exists (Some ((w :: kept') ++ [first])). split; [reflexivity|]. split.
    + rewrite <- Hnonempty. split; intros _; discriminate.
    + intros g Hg. injection Hg as <-. exact Hrep.
Qed.
