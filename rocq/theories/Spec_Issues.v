(** Independent description of what a client of the two containers did: call histories. *)
From Coq Require Import String List Arith NArith Bool.
From Verif Require Import Base Model_Issues.
Import ListNotations.

(** A call made on an [InspectionIssues] object. *)
Inductive issue_call (T : Type) :=
| CallAdd (issue : T) (message : string)
| CallDescribe (description : string).
Arguments CallAdd {T} _ _.
Arguments CallDescribe {T} _.

Definition perform {T} (r : InspectionIssues T) (c : issue_call T) : InspectionIssues T :=
  match c with
  | CallAdd t m => add_issue t m r
  | CallDescribe d => set_description d r
  end.
(** The object after a whole history. *)
Definition performed {T} (d : string) (calls : list (issue_call T)) : InspectionIssues T :=
  fold_left perform calls (new_issues d).

(** What was added, in call order. *)
Fixpoint added {T} (calls : list (issue_call T)) : list (T * string) :=
  match calls with
  | [] => []
  | CallAdd t m :: cs => (t, m) :: added cs
  | CallDescribe _ :: cs => added cs
  end.
(** The last description given. *)
Fixpoint last_description {T} (d : string) (calls : list (issue_call T)) : string :=
  match calls with
  | [] => d
  | CallAdd _ _ :: cs => last_description d cs
  | CallDescribe d' :: cs => last_description d' cs
  end.

(** The tabulated lines of a report. *)
Fixpoint lines (messages : list string) : string :=
  match messages with
  | [] => EmptyString
  | m :: ms => String.append newline (String.append tab (String.append m (lines ms)))
  end.

(** A history of [add_issues_to_map] calls. *)
Definition map_performed {T} (d : string) (calls : list (uuid * InspectionIssues T)) : InspectionIssuesMap T :=
  fold_left (fun m c => add_issues_to_map (fst c) (snd c) m) calls (new_issues_map d).

(** The first call that brought at least one issue for [id] (fewer than 2^32 of them per call). *)
Fixpoint first_report {T} (id : uuid) (calls : list (uuid * InspectionIssues T)) : option (InspectionIssues T) :=
  match calls with
  | [] => None
  | (k, r) :: cs =>
      if Nat.eqb k id then
        match ii_issues r with [] => first_report id cs | _ => Some r end
      else first_report id cs
  end.
