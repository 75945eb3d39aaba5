From Coq Require Import String Ascii List Arith NArith ZArith Bool Lia Permutation.
From Coq Require Import DecimalString.
From Coq Require DecimalNat DecimalFacts.
From Verif Require Import Base BaseFacts Model_Hash Model_Issues Spec_Issues.
Import ListNotations.
Open Scope list_scope.

Lemma performed_gen : forall T (calls : list (issue_call T)) r,
  let r' := fold_left perform calls r in
  ii_issues r' = ii_issues r ++ map fst (added calls) /\
  ii_messages r' = ii_messages r ++ map snd (added calls) /\
  ii_description r' = last_description (ii_description r) calls.
Proof.
  intros T calls. induction calls as [|c cs IH]; intros r; cbn.
  - rewrite !app_nil_r. auto.
  - destruct c as [t m|d]; cbn.
    + specialize (IH (add_issue t m r)). cbn in IH. destruct IH as (H1 & H2 & H3).
      rewrite H1, H2, H3. rewrite <- !app_assoc. auto.
    + specialize (IH (set_description d r)). cbn in IH. exact IH.
Qed.

Lemma performed_spec : forall T d (calls : list (issue_call T)),
  ii_issues (performed d calls) = map fst (added calls) /\
  ii_messages (performed d calls) = map snd (added calls) /\
  ii_description (performed d calls) = last_description d calls.
Proof.
  intros T d calls. unfold performed. pose proof (performed_gen T calls (new_issues d)) as H. exact H.
Qed.

Lemma nb_issues_performed : forall T d (calls : list (issue_call T)),
  nb_issues (performed d calls) = u32 (N.of_nat (length (added calls))).
Proof.
  intros T d calls. unfold nb_issues, size32.
  destruct (performed_spec T d calls) as (-> & _ & _). rewrite map_length. reflexivity.
Qed.

Lemma nb_issues_zero_iff : forall T d (calls : list (issue_call T)),
  (N.of_nat (length (added calls)) < 2 ^ 32)%N ->
  (nb_issues (performed d calls) = 0%N <-> added calls = []).
Proof.
  intros T d calls H. rewrite nb_issues_performed. rewrite u32_small by exact H.
  split; [|intros ->; reflexivity].
  destruct (added calls); [reflexivity|]. cbn. lia.
Qed.

Lemma added_repeat : forall T (t : T) m n, added (repeat (CallAdd t m) n) = repeat (t, m) n.
Proof. intros T t m n. induction n as [|n IH]; cbn; [reflexivity|]. rewrite IH. reflexivity. Qed.

Lemma nb_issues_wraps : exists calls : list (issue_call nat),
  added calls <> [] /\ nb_issues (performed EmptyString calls) = 0%N.
Proof.
  assert (H : exists n, N.of_nat n = (2 ^ 32)%N).
  { exists (N.to_nat (2 ^ 32)). apply N2Nat.id. }
  destruct H as [n Hn].
  exists (repeat (CallAdd 0 EmptyString) n). split.
  - rewrite added_repeat. destruct n; [discriminate|]. discriminate.
  - rewrite nb_issues_performed, added_repeat, repeat_length, Hn. reflexivity.
Qed.

(** ** Text *)
Lemma append_assoc : forall a b c : string, ((a ++ b) ++ c)%string = (a ++ (b ++ c))%string.
Proof. induction a as [|x a IH]; intros b c; cbn; [reflexivity|]. rewrite IH. reflexivity. Qed.
Lemma append_nil_r : forall a : string, (a ++ EmptyString)%string = a.
Proof. induction a as [|x a IH]; cbn; [reflexivity|]. rewrite IH. reflexivity. Qed.

Lemma fold_lines : forall ms acc,
  fold_left (fun acc m => StrCat [acc; newline; tab; m]) ms acc = (acc ++ lines ms)%string.
Proof.
  induction ms as [|m ms IH]; intros acc.
  - cbn. rewrite append_nil_r. reflexivity.
  - cbn [fold_left lines]. rewrite IH. unfold StrCat. cbn [fold_right].
    rewrite append_nil_r. rewrite !append_assoc. reflexivity.
Qed.

Lemma issues_string_spec : forall T d (calls : list (issue_call T)),
  issues_string (performed d calls) =
  match added calls with
  | [] => ("no issues with " ++ last_description d calls ++ newline)%string
  | _ => (str (length (added calls)) ++ " issues with " ++ last_description d calls
          ++ lines (map snd (added calls)) ++ newline)%string
  end.
Proof.
  intros T d calls. unfold issues_string.
  destruct (performed_spec T d calls) as (-> & -> & ->).
  destruct (added calls) as [|a l] eqn:E.
  - cbn [map]. unfold StrCat. cbn [fold_right]. rewrite append_nil_r. reflexivity.
  - cbn [map]. rewrite fold_lines. unfold StrCat. cbn [fold_right].
    rewrite !append_nil_r. cbn [length]. rewrite map_length. rewrite !append_assoc. reflexivity.
Qed.

(** The decimal text of a count starts with a digit. *)
Definition is_digit (c : ascii) : bool := let n := nat_of_ascii c in Nat.leb 48 n && Nat.leb n 57.
Lemma str_digit : forall n, exists c s, str n = String c s /\ is_digit c = true.
Proof.
  intros n. unfold str.
  assert (H : Nat.to_uint n <> Decimal.Nil).
  { rewrite <- (DecimalNat.Unsigned.of_to n), DecimalNat.Unsigned.to_of. apply DecimalFacts.unorm_nonnil. }
  destruct (Nat.to_uint n); [congruence| | | | | | | | | |]; cbn; eexists; eexists; split; reflexivity.
Qed.

Lemma str_value : forall n, option_map Nat.of_uint (NilEmpty.uint_of_string (str n)) = Some n.
Proof.
  intros n. unfold str. rewrite NilEmpty.usu. cbn. rewrite DecimalNat.Unsigned.of_to. reflexivity.
Qed.

Lemma str_inj : forall a b, str a = str b -> a = b.
Proof.
  intros a b H. pose proof (str_value a) as Ha. rewrite H, (str_value b) in Ha. congruence.
Qed.

Lemma no_issues_prefix_iff : forall T d (calls : list (issue_call T)),
  String.prefix "no issues with " (issues_string (performed d calls)) = true <-> added calls = [].
Proof.
  intros T d calls. rewrite issues_string_spec. destruct (added calls) as [|a l] eqn:E.
  - split; [reflexivity|]. intros _. cbn. destruct (last_description d calls); reflexivity.
  - split; [|discriminate]. destruct (str_digit (length (a :: l))) as (c & s & -> & Hc).
    cbn [append]. intros H. cbn [String.prefix] in H.
    destruct (ascii_dec "n" c) as [<-|]; [|discriminate]. discriminate Hc.
Qed.

(** ** Map *)
Section MapFacts.
  Context {T : Type}.

  Lemma assoc_app : forall id (l1 l2 : list (uuid * T)),
    assoc id (l1 ++ l2) = match assoc id l1 with Some v => Some v | None => assoc id l2 end.
  Proof.
    intros id l1 l2. induction l1 as [|[k v] l1 IH]; cbn; [reflexivity|].
    destruct (Nat.eqb k id); [reflexivity|exact IH].
  Qed.

  Lemma assoc_none : forall id (l : list (uuid * T)), assoc id l = None <-> ~ In id (map fst l).
  Proof.
    intros id l. induction l as [|[k v] l IH]; cbn.
    - split; [intros _ []|reflexivity].
    - destruct (Nat.eqb_spec k id) as [->|Hn].
      + split; [discriminate|]. intros H. exfalso. apply H. left. reflexivity.
      + rewrite IH. split; [intros H [H1|H1]; [congruence|auto]|intros H H1; apply H; right; exact H1].
  Qed.

  Lemma assoc_In : forall id (l : list (uuid * T)) v, assoc id l = Some v -> In (id, v) l.
  Proof.
    intros id l v. induction l as [|[k w] l IH]; cbn; [discriminate|].
    destruct (Nat.eqb_spec k id) as [->|Hn].
    - intros H. injection H as ->. left. reflexivity.
    - intros H. right. apply IH. exact H.
  Qed.

  Lemma assoc_NoDup_In : forall (l : list (uuid * T)) id v,
    NoDup (map fst l) -> In (id, v) l -> assoc id l = Some v.
  Proof.
    induction l as [|[k w] l IH]; cbn; intros id v Hn Hin; [tauto|].
    inversion Hn as [|k' l' Hk Hn']; subst. destruct Hin as [H|H].
    - injection H as -> ->. rewrite Nat.eqb_refl. reflexivity.
    - destruct (Nat.eqb_spec k id) as [->|_].
      + exfalso. apply Hk. change id with (fst (id, v)). apply in_map. exact H.
      + apply IH; assumption.
  Qed.

  Lemma emplace_keys_NoDup : forall id v (l : list (uuid * T)),
    NoDup (map fst l) -> NoDup (map fst (emplace id v l)).
  Proof.
    intros id v l H. unfold emplace. destruct (assoc id l) eqn:E; [exact H|].
    rewrite map_app. cbn. apply assoc_none in E.
    apply NoDup_rev in H. rewrite <- (rev_involutive (map fst l ++ [id])). apply NoDup_rev.
    rewrite rev_app_distr. cbn. constructor; [|exact H]. rewrite <- in_rev. exact E.
  Qed.

  Lemma assoc_emplace : forall id v k (l : list (uuid * T)),
    assoc k (emplace id v l) =
      match assoc k l with Some w => Some w | None => if Nat.eqb id k then Some v else None end.
  Proof.
    intros id v k l. unfold emplace. destruct (assoc id l) as [w|] eqn:E.
    - destruct (assoc k l) eqn:Ek; [reflexivity|].
      destruct (Nat.eqb_spec id k) as [->|]; [congruence|reflexivity].
    - rewrite assoc_app. cbn. reflexivity.
  Qed.
End MapFacts.

Lemma nb_zero_iff : forall T (r : InspectionIssues T),
  (N.of_nat (length (ii_issues r)) < 2 ^ 32)%N ->
  (N.eqb (nb_issues r) 0 = true <-> ii_issues r = []).
Proof.
  intros T r H. rewrite N.eqb_eq. unfold nb_issues. apply size32_zero_small. exact H.
Qed.

Definition calls_small {T} (calls : list (uuid * InspectionIssues T)) : Prop :=
  forall id r, In (id, r) calls -> (N.of_nat (length (ii_issues r)) < 2 ^ 32)%N.

Lemma map_performed_gen : forall T (calls : list (uuid * InspectionIssues T)) m,
  calls_small calls -> NoDup (map fst (im_map m)) ->
  let m' := fold_left (fun m c => add_issues_to_map (fst c) (snd c) m) calls m in
  NoDup (map fst (im_map m')) /\
  (forall id, assoc id (im_map m') =
     match assoc id (im_map m) with Some r => Some r | None => first_report id calls end) /\
  im_description m' = im_description m.
Proof.
  intros T calls. induction calls as [|[k r] cs IH]; intros m Hs Hm; cbn [fold_left].
  - cbn. split; [exact Hm|]. split; [|reflexivity]. intros id. destruct (assoc id (im_map m)); reflexivity.
  - assert (Hs' : calls_small cs) by (intros id r' Hin; apply (Hs id r'); right; exact Hin).
    assert (Hr : (N.of_nat (length (ii_issues r)) < 2 ^ 32)%N) by (apply (Hs k r); left; reflexivity).
    cbn [fst snd].
    assert (Hm1 : NoDup (map fst (im_map (add_issues_to_map k r m))) /\
      (forall id, assoc id (im_map (add_issues_to_map k r m)) =
        match assoc id (im_map m) with Some r => Some r | None =>
          if Nat.eqb k id then match ii_issues r with [] => None | _ => Some r end else None end) /\
      im_description (add_issues_to_map k r m) = im_description m).
    { unfold add_issues_to_map. destruct (N.eqb (nb_issues r) 0) eqn:E.
      - apply nb_zero_iff in E; [|exact Hr]. split; [exact Hm|]. split; [|reflexivity].
        intros id. rewrite E. destruct (assoc id (im_map m)); [reflexivity|]. destruct (Nat.eqb k id); reflexivity.
      - cbn [im_map im_description]. split; [apply emplace_keys_NoDup; exact Hm|]. split; [|reflexivity].
        intros id. rewrite assoc_emplace. destruct (assoc id (im_map m)); [reflexivity|].
        destruct (Nat.eqb k id); [|reflexivity].
        destruct (ii_issues r) as [|x l] eqn:El; [|reflexivity].
        exfalso. unfold nb_issues, size32 in E. rewrite El in E. discriminate E. }
    destruct Hm1 as (G1 & G2 & G3).
    destruct (IH (add_issues_to_map k r m) Hs' G1) as (H1 & H2 & H3).
    split; [exact H1|]. split; [|rewrite H3; exact G3].
    intros id. rewrite H2, G2. cbn [first_report]. destruct (assoc id (im_map m)); [reflexivity|].
    destruct (Nat.eqb k id); [|reflexivity]. destruct (ii_issues r); reflexivity.
Qed.

Lemma map_performed_spec : forall T d (calls : list (uuid * InspectionIssues T)),
  calls_small calls ->
  NoDup (map fst (im_map (map_performed d calls))) /\
  (forall id, assoc id (im_map (map_performed d calls)) = first_report id calls) /\
  im_description (map_performed d calls) = d.
Proof.
  intros T d calls H. unfold map_performed.
  destruct (map_performed_gen T calls (new_issues_map d) H) as (H1 & H2 & H3); [constructor|].
  split; [exact H1|]. split; [|exact H3]. intros id. rewrite H2. reflexivity.
Qed.

Lemma first_report_nonempty : forall T id (calls : list (uuid * InspectionIssues T)) r,
  first_report id calls = Some r -> ii_issues r <> [] /\ In (id, r) calls.
Proof.
  intros T id calls r. induction calls as [|[k r'] cs IH]; cbn; [discriminate|].
  destruct (Nat.eqb_spec k id) as [->|Hn].
  - destruct (ii_issues r') as [|x l] eqn:E.
    + intros H. apply IH in H. destruct H as [H1 H2]. auto.
    + intros H. injection H as ->. rewrite E. split; [discriminate|]. left. reflexivity.
  - intros H. apply IH in H. destruct H as [H1 H2]. auto.
Qed.

Lemma first_report_none : forall T id (calls : list (uuid * InspectionIssues T)),
  first_report id calls = None <-> (forall r, In (id, r) calls -> ii_issues r = []).
Proof.
  intros T id calls. induction calls as [|[k r'] cs IH]; cbn.
  - split; [intros _ r []|reflexivity].
  - destruct (Nat.eqb_spec k id) as [->|Hn].
    + destruct (ii_issues r') as [|x l] eqn:E.
      * rewrite IH. split.
        -- intros H r [Hr|Hr]; [injection Hr as <-; exact E|apply H; exact Hr].
        -- intros H r Hr. apply H. right. exact Hr.
      * split; [discriminate|]. intros H. rewrite (H r') in E by (left; reflexivity). discriminate.
    + rewrite IH. split.
      * intros H r [Hr|Hr]; [congruence|apply H; exact Hr].
      * intros H r Hr. apply H. right. exact Hr.
Qed.

(** ** Statements of the properties *)
Lemma map_contents : forall T d (calls : list (uuid * InspectionIssues T)),
  (forall id r, In (id, r) calls -> (N.of_nat (length (ii_issues r)) < 2 ^ 32)%N) ->
  let m := map_performed d calls in
  (forall id, assoc id (im_map m) = first_report id calls) /\
  (forall id, assoc id (im_map m) <> None <-> exists r, In (id, r) calls /\ ii_issues r <> []) /\
  (forall id r, assoc id (im_map m) = Some r -> ii_issues r <> []) /\
  (exists keys, NoDup keys /\ (forall id, In id keys <-> exists r, In (id, r) calls /\ ii_issues r <> []) /\
     map_nb_issues m = u32 (N.of_nat (length keys))).
Proof.
  intros T d calls Hs m. destruct (map_performed_spec T d calls Hs) as (H1 & H2 & _). fold m in H1, H2.
  assert (K : forall id, assoc id (im_map m) <> None <-> exists r, In (id, r) calls /\ ii_issues r <> []).
  { intros id. rewrite H2. split.
    - intros H. destruct (first_report id calls) as [r|] eqn:E; [|congruence].
      apply first_report_nonempty in E. exists r. tauto.
    - intros (r & Hin & Hne) Hn. apply first_report_none with (r := r) in Hn; [contradiction|exact Hin]. }
  split; [exact H2|]. split; [exact K|]. split.
  - intros id r H. rewrite H2 in H. apply first_report_nonempty in H. tauto.
  - exists (map fst (im_map m)). split; [exact H1|]. split.
    + intros id. rewrite <- K. split.
      * intros Hin Hn. apply assoc_none in Hn. contradiction.
      * intros Hn. destruct (in_dec Nat.eq_dec id (map fst (im_map m))) as [Hi|Hi]; [exact Hi|].
        apply assoc_none in Hi. contradiction.
    + unfold map_nb_issues, size32. rewrite map_length. reflexivity.
Qed.

(** The text of a map is the header followed by one tabulated report per component. *)
Lemma map_string_spec : forall T ho (m : InspectionIssuesMap T),
  exists entries, Permutation entries (im_map m) /\
  map_string ho m = match im_map m with
  | [] => ("no issues with " ++ im_description m ++ newline)%string
  | _ => (str (length (im_map m)) ++ " issues with " ++ im_description m
          ++ lines (map (fun kv => issues_string (snd kv)) entries) ++ newline)%string
  end.
Proof.
  intros T ho m. exists (visit ho (im_map m)). split; [apply visit_permutes|]. unfold map_string. destruct (im_map m) as [|a l] eqn:E.
  - unfold StrCat. cbn [fold_right]. rewrite append_nil_r. reflexivity.
  - assert (F : forall (kvs : list (uuid * InspectionIssues T)) acc,
      fold_left (fun acc kv => StrCat [acc; newline; tab; issues_string (snd kv)]) kvs acc =
      (acc ++ lines (map (fun kv => issues_string (snd kv)) kvs))%string).
    { intros kvs. induction kvs as [|kv kvs IH]; intros acc; cbn [fold_left map lines].
      - rewrite append_nil_r. reflexivity.
      - rewrite IH. unfold StrCat. cbn [fold_right]. rewrite append_nil_r, !append_assoc. reflexivity. }
    rewrite F. unfold StrCat. cbn [fold_right]. rewrite !append_nil_r, !append_assoc. reflexivity.
Qed.
