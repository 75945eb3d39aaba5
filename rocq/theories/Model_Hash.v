(** Hash maps with arbitrary keys, as used by the inspections (absl::flat_hash_map): the content is an association list,
    and the order in which a loop visits it is a parameter, any permutation. *)
From Coq Require Import List Arith Bool Permutation.
From Verif Require Import Base.
Import ListNotations.

(** One visiting order of hash containers: unspecified by the library, so theorems quantify over all of them. *)
Record HashOrder := mkHashOrder {
  visit : forall A : Type, list A -> list A;
  visit_permutes : forall A (l : list A), Permutation (visit A l) l }.
Arguments visit _ {A} _.

(** [try_emplace(k, init)] followed, when [k] was present, by an update [f] of its value *)
Fixpoint emplace_or_update {K V} (eqb : K -> K -> bool) (k : K) (init : V) (f : V -> V) (m : list (K * V)) : list (K * V) :=
  match m with
  | [] => [(k, init)]
  | (k', v) :: m' => if eqb k' k then (k', f v) :: m' else (k', v) :: emplace_or_update eqb k init f m'
  end.
(** [m.at(k)] *)
Fixpoint lookup {K V} (eqb : K -> K -> bool) (k : K) (m : list (K * V)) : option V :=
  match m with
  | [] => None
  | (k', v) :: m' => if eqb k' k then Some v else lookup eqb k m'
  end.
