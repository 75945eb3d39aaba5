From Coq Require Import String Ascii List Arith NArith ZArith Bool Lia.
From Verif Require Import Base BaseFacts Model_Issues Types Spec_Maps Proof_Issues Proof_Colocation.
Import ListNotations.
Open Scope list_scope.

Lemma assoc_in_keys : forall T id (l : list (uuid * T)), assoc id l <> None <-> In id (map fst l).
Proof.
  intros T id l. induction l as [|[k v] l IH]; cbn; [split; [congruence|tauto]|].
  destruct (Nat.eqb_spec k id) as [->|Hn]; [split; [auto|discriminate]|]. rewrite IH. intuition congruence.
Qed.
Lemma assoc_app : forall T id (l1 l2 : list (uuid * T)),
  assoc id (l1 ++ l2) = match assoc id l1 with Some v => Some v | None => assoc id l2 end.
Proof.
  intros T id l1 l2. induction l1 as [|[k v] l1 IH]; cbn; [reflexivity|].
  destruct (Nat.eqb k id); [reflexivity|exact IH].
Qed.

(** One [add_issues_to_map] call for a key that is not yet present. *)
Lemma add_fresh : forall T id r (m : InspectionIssuesMap T),
  below_2_32 (length (ii_issues r)) -> assoc id (im_map m) = None ->
  im_map (add_issues_to_map id r m) = im_map m ++ match ii_issues r with [] => [] | _ => [(id, r)] end.
Proof.
  intros T id r m Hs Hn. unfold add_issues_to_map. destruct (N.eqb (nb_issues r) 0) eqn:E.
  - apply nb_zero_iff in E; [|exact Hs]. rewrite E, app_nil_r. reflexivity.
  - destruct (ii_issues r) eqn:Er.
    + exfalso. assert (N.eqb (nb_issues r) 0 = true); [|congruence]. apply nb_zero_iff; [rewrite Er; exact Hs|exact Er].
    + cbn [im_map]. unfold emplace. rewrite Hn. reflexivity.
Qed.

(** A loop over components with pairwise different identifiers. *)
Lemma component_loop : forall T C (cid : C -> uuid) (body : C -> outcome (InspectionIssues T)) comps acc,
  NoDup (map cid comps) ->
  (forall c, In c comps -> ~ In (cid c) (map fst (im_map acc))) ->
  (forall c, In c comps -> exists r, body c = Ok r /\ below_2_32 (length (ii_issues r))) ->
  exists m, foldM (fun acc c => let! r := body c in Ok (add_issues_to_map (cid c) r acc)) comps acc = Ok m /\
    (forall id r, assoc id (im_map m) = Some r <->
       assoc id (im_map acc) = Some r \/ exists c, In c comps /\ cid c = id /\ body c = Ok r /\ ii_issues r <> []) /\
    (forall id, In id (map fst (im_map m)) -> In id (map fst (im_map acc)) \/ In id (map cid comps)) /\
    (NoDup (map fst (im_map acc)) -> NoDup (map fst (im_map m))).
Proof.
  intros T C cid body comps. induction comps as [|c comps IH]; intros acc Hn Hd Hb; cbn [foldM].
  - exists acc. split; [reflexivity|]. split; [|split; [auto|auto]].
    intros id r. split; [auto|]. intros [H|(c & [] & _)]. exact H.
  - destruct (Hb c (or_introl eq_refl)) as (r & Hr & Hs). rewrite Hr. cbn [bind].
    cbn [map] in Hn. inversion Hn as [|? ? Hc Hn']; subst.
    assert (Hnone : assoc (cid c) (im_map acc) = None).
    { destruct (assoc (cid c) (im_map acc)) eqn:E; [|reflexivity]. exfalso. apply (Hd c (or_introl eq_refl)).
      apply assoc_in_keys. congruence. }
    pose proof (add_fresh T (cid c) r acc Hs Hnone) as Ha. set (acc1 := add_issues_to_map (cid c) r acc) in *.
    assert (Hkeys : forall id, In id (map fst (im_map acc1)) -> In id (map fst (im_map acc)) \/ id = cid c).
    { intros id. rewrite Ha, map_app, in_app_iff. destruct (ii_issues r); cbn; intuition. }
    destruct (IH acc1 Hn') as (m & H1 & H2 & H3 & H4).
    { intros d Hin Hk. apply Hkeys in Hk. destruct Hk as [Hk|Hk].
      - apply (Hd d (or_intror Hin) Hk).
      - apply Hc. rewrite <- Hk. apply in_map. exact Hin. }
    { intros d Hin. apply Hb. right. exact Hin. }
    exists m. split; [exact H1|]. split; [|split].
    + intros id q. rewrite H2, Ha, assoc_app. split.
      * intros [H|(d & Hin & H)]; [|right; exists d; split; [right; exact Hin|exact H]].
        destruct (assoc id (im_map acc)) eqn:E; [left; exact H|].
        destruct (ii_issues r) eqn:Er; cbn in H; [discriminate|].
        destruct (Nat.eqb_spec (cid c) id) as [<-|]; [|discriminate]. injection H as <-.
        right. exists c. split; [left; reflexivity|]. split; [reflexivity|]. split; [exact Hr|congruence].
      * intros [H|(d & [<-|Hin] & Hid & Hbd & Hne)].
        -- left. rewrite H. reflexivity.
        -- subst id. left. rewrite Hnone. rewrite Hr in Hbd. injection Hbd as <-.
           destruct (ii_issues r); [congruence|]. cbn. rewrite Nat.eqb_refl. reflexivity.
        -- right. exists d. auto.
    + intros id Hid. apply H3 in Hid. destruct Hid as [Hid|Hid]; [|right; right; exact Hid].
      apply Hkeys in Hid. destruct Hid as [Hid|Hid]; [left; exact Hid|right; left; congruence].
    + intros Hacc. apply H4. rewrite Ha, map_app.
      destruct (ii_issues r); cbn [map]; rewrite ?app_nil_r; [exact Hacc|].
      apply NoDup_app_intro; [exact Hacc|constructor; [intros []|constructor]|].
      intros x Hx [Hy|[]]. cbn in Hy. subst x. apply (Hd c (or_introl eq_refl) Hx).
Qed.

Lemma foldM_ext_in : forall A S (f g : S -> A -> outcome S) l s,
  (forall s x, In x l -> f s x = g s x) -> foldM f l s = foldM g l s.
Proof.
  intros A S f g l. induction l as [|x l IH]; intros s H; cbn; [reflexivity|].
  rewrite (H s x (or_introl eq_refl)). destruct (g s x); cbn; [|reflexivity|reflexivity].
  apply IH. intros s' y Hy. apply H. right. exact Hy.
Qed.

(** A single loop starting from an empty map. *)
Lemma component_loop_reports : forall T C (cid : C -> uuid) (body : C -> outcome (InspectionIssues T)) comps d
  (spec : uuid -> list T -> Prop),
  NoDup (map cid comps) ->
  (forall c, In c comps -> exists r, body c = Ok r /\ below_2_32 (length (ii_issues r)) /\ spec (cid c) (ii_issues r)) ->
  (forall id l, spec id l -> exists c, In c comps /\ cid c = id /\ forall r, body c = Ok r -> ii_issues r = [] -> l = []) ->
  exists m, foldM (fun acc c => let! r := body c in Ok (add_issues_to_map (cid c) r acc)) comps (new_issues_map d) = Ok m /\
    map_reports m spec.
Proof.
  intros T C cid body comps d spec Hn Hb Hc.
  destruct (component_loop T C cid body comps (new_issues_map d)) as (m & H1 & H2 & H3 & H4).
  - exact Hn.
  - intros c _ [].
  - intros c Hin. destruct (Hb c Hin) as (r & Hr & Hs & _). exists r. auto.
  - exists m. split; [exact H1|]. constructor.
    + intros id r H. apply H2 in H. destruct H as [H|(c & Hin & <- & Hbc & Hne)]; [discriminate|].
      split; [exact Hne|]. destruct (Hb c Hin) as (r' & Hr & _ & Hsp). rewrite Hbc in Hr. injection Hr as <-. exact Hsp.
    + intros id l Hsp Hl Hnone. destruct (Hc id l Hsp) as (c & Hin & <- & Hcl).
      destruct (Hb c Hin) as (r & Hr & _ & _). 
      assert (Hne : ii_issues r <> []) by (intros K; apply Hl; apply (Hcl r Hr K)).
      assert (assoc (cid c) (im_map m) = Some r); [|congruence]. apply H2. right. exists c. auto.
    + apply H4. constructor.
Qed.
