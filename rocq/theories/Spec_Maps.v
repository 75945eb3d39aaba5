(** What a per-component result map should contain. *)
From Coq Require Import String List Arith NArith Bool.
From Verif Require Import Base Model_Issues Types.
Import ListNotations.

(** [spec id l]: component [id] is inspected and [l] is a right list of issues for it.  The map holds one entry per
    inspected component that has issues, never an empty one, and nothing else. *)
Record map_reports {T} (m : InspectionIssuesMap T) (spec : uuid -> list T -> Prop) : Prop := {
  mr_sound : forall id r, assoc id (im_map m) = Some r -> ii_issues r <> [] /\ spec id (ii_issues r);
  mr_complete : forall id l, spec id l -> l <> [] -> assoc id (im_map m) <> None;
  mr_keys : NoDup (map fst (im_map m)) }.

(** Every mesh of the model has fewer than 2^32 vertices and elements, as [index_t] requires. *)
Definition below_2_32 (n : nat) : Prop := (N.of_nat n < 2 ^ 32)%N.
