(** C01, C02, C03: the issue containers. *)
From Coq Require Import String Ascii List Arith NArith ZArith Bool Lia Permutation.
From Verif Require Import Base Model_Issues Spec_Issues Proof_Issues.
Import ListNotations.
Open Scope list_scope.

(** C01: after any history, issues and messages are those added, in order; the count is taken modulo 2^32. *)
Theorem C01_history : forall T d (calls : list (issue_call T)),
  ii_issues (performed d calls) = map fst (added calls) /\
  ii_messages (performed d calls) = map snd (added calls) /\
  ii_description (performed d calls) = last_description d calls.
Proof. exact performed_spec. Qed.
Print Assumptions C01_history.

Theorem C01_count : forall T d (calls : list (issue_call T)),
  nb_issues (performed d calls) = u32 (N.of_nat (length (added calls))).
Proof. exact nb_issues_performed. Qed.
Print Assumptions C01_count.

Theorem C01_count_zero_iff : forall T d (calls : list (issue_call T)),
  (N.of_nat (length (added calls)) < 2 ^ 32)%N ->
  (nb_issues (performed d calls) = 0%N <-> added calls = []).
Proof. exact nb_issues_zero_iff. Qed.
Print Assumptions C01_count_zero_iff.

(** Without the bound the equivalence fails. *)
Theorem C01_count_refuted : exists calls : list (issue_call nat),
  added calls <> [] /\ nb_issues (performed EmptyString calls) = 0%N.
Proof. exact nb_issues_wraps. Qed.
Print Assumptions C01_count_refuted.

(** C02: the whole text. *)
Theorem C02_text : forall T d (calls : list (issue_call T)),
  issues_string (performed d calls) =
  match added calls with
  | [] => ("no issues with " ++ last_description d calls ++ newline)%string
  | _ => (str (length (added calls)) ++ " issues with " ++ last_description d calls
          ++ lines (map snd (added calls)) ++ newline)%string
  end.
Proof. exact issues_string_spec. Qed.
Print Assumptions C02_text.

Theorem C02_no_issues_iff : forall T d (calls : list (issue_call T)),
  String.prefix "no issues with " (issues_string (performed d calls)) = true <-> added calls = [].
Proof. exact no_issues_prefix_iff. Qed.
Print Assumptions C02_no_issues_iff.

(** The printed count reads back as the number of issues. *)
Theorem C02_count_readable : forall n, option_map Nat.of_uint (DecimalString.NilEmpty.uint_of_string (str n)) = Some n.
Proof. exact str_value. Qed.
Print Assumptions C02_count_readable.

(** The report of a map: every entry once, in the visiting order of the hash map. *)
Theorem C02_map_text : forall T ho (m : InspectionIssuesMap T),
  exists entries, Permutation entries (im_map m) /\
  map_string ho m = match im_map m with
  | [] => ("no issues with " ++ im_description m ++ newline)%string
  | _ => (str (length (im_map m)) ++ " issues with " ++ im_description m
          ++ lines (map (fun kv => issues_string (snd kv)) entries) ++ newline)%string
  end.
Proof. exact map_string_spec. Qed.
Print Assumptions C02_map_text.

(** A list or a map that was never described says so. *)
Theorem C02_never_described : forall T,
  issues_string (@default_issues T) = ("no issues with Default inspection issue message. This message should have been overriden." ++ newline)%string /\
  (forall ho, map_string ho (@default_issues_map T) = ("no issues with Default inspection issue message. This message should have been overriden." ++ newline)%string) /\
  nb_issues (@default_issues T) = 0%N /\ map_nb_issues (@default_issues_map T) = 0%N.
Proof. intros T. split; [|split; [|split]]; try intros ho; reflexivity. Qed.
Print Assumptions C02_never_described.

(** C03: contents of the per-component map. *)
Theorem C03_map_contents : forall T d (calls : list (uuid * InspectionIssues T)),
  (forall id r, In (id, r) calls -> (N.of_nat (length (ii_issues r)) < 2 ^ 32)%N) ->
  let m := map_performed d calls in
  (forall id, assoc id (im_map m) = first_report id calls) /\
  (forall id, assoc id (im_map m) <> None <-> exists r, In (id, r) calls /\ ii_issues r <> []) /\
  (forall id r, assoc id (im_map m) = Some r -> ii_issues r <> []) /\
  (exists keys, NoDup keys /\ (forall id, In id keys <-> exists r, In (id, r) calls /\ ii_issues r <> []) /\
     map_nb_issues m = u32 (N.of_nat (length keys))).
Proof. exact map_contents. Qed.
Print Assumptions C03_map_contents.

(** Concrete, non-trivial instances. *)
Example C01_example :
  let calls := [CallAdd 7 "a"; CallDescribe "desc"; CallAdd 8 "b"]%string in
  added calls = [(7, "a"); (8, "b")]%string /\ (N.of_nat (length (added calls)) < 2 ^ 32)%N /\
  nb_issues (performed "d"%string calls) = 2%N.
Proof. vm_compute. auto. Qed.
Example C03_example :
  let r1 := add_issue 1 "x"%string (new_issues "r"%string) in
  let r2 := add_issue 2 "y"%string (new_issues "r"%string) in
  let calls := [(5, new_issues "r"%string); (5, r1); (6, r2); (5, r2)] in
  (forall id r, In (id, r) calls -> (N.of_nat (length (ii_issues r)) < 2 ^ 32)%N) /\
  im_map (map_performed "d"%string calls) = [(5, r1); (6, r2)].
Proof.
  split; [|vm_compute; reflexivity]. intros id r H. cbn in H.
  repeat (destruct H as [H|H]; [injection H as <- <-; reflexivity|]). destruct H.
Qed.
