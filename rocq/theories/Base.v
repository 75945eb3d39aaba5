(** Outcomes, machine integers, text and loops shared by the whole model.
    Nothing here is specific to the inspected code. *)
From Coq Require Import String Ascii List Arith NArith ZArith Bool Lia.
From Coq Require Import DecimalString DecimalN DecimalNat.
From Coq Require Import Floats.SpecFloat.
Import ListNotations.

(** ** Outcomes of C++ expressions *)

(** [OpenGeodeExn] is an exception of the OpenGeode hierarchy (the kind the code catches),
    [OtherExn] any other C++ exception. *)
Inductive exn := OpenGeodeExn | OtherExn.

(** A C++ evaluation returns, throws, or is undefined behaviour. *)
Inductive outcome (A : Type) : Type :=
| Ok : A -> outcome A
| Throw : exn -> outcome A
| UB : outcome A.
Arguments Ok {A} _.
Arguments Throw {A} _.
Arguments UB {A}.

Definition bind {A B} (o : outcome A) (f : A -> outcome B) : outcome B :=
  match o with
  | Ok a => f a
  | Throw e => Throw e
  | UB => UB
  end.

Declare Scope outcome_scope.
Notation "'let!' x ':=' o 'in' k" := (bind o (fun x => k))
  (at level 200, x pattern, o at level 100, k at level 200) : outcome_scope.
Open Scope outcome_scope.

Definition is_ok {A} (o : outcome A) : bool :=
  match o with Ok _ => true | _ => false end.

(** ** Machine integers *)

(** [index_t] is a 32-bit unsigned integer: conversion/arithmetic modulo 2^32. *)
Definition u32 (n : N) : N := N.modulo n (2 ^ 32).
(** [local_index_t] is an 8-bit unsigned integer. *)
Definition u8 (n : N) : N := N.modulo n (2 ^ 8).
(** [std::size_t] of a container, truncated to [index_t]. *)
Definition size32 {A} (l : list A) : N := u32 (N.of_nat (List.length l)).
(** [index_t] addition. *)
Definition add32 (a b : N) : N := u32 (a + b).

(** ** Text *)

(** [absl::StrCat] / [absl::StrAppend]. *)
Definition StrCat (l : list string) : string := List.fold_right String.append EmptyString l.
(** Decimal text of an index, as [absl::StrCat] prints it. *)
Definition str (n : nat) : string := NilEmpty.string_of_uint (Nat.to_uint n).
Definition newline : string := String (ascii_of_nat 10) EmptyString.
Definition tab : string := String (ascii_of_nat 9) EmptyString.

(** ** Doubles: IEEE-754 values, no axiom *)
Definition double := spec_float.
Definition dlt (x y : double) : bool := SFltb x y.
Definition dle (x y : double) : bool := SFleb x y.

(** ** Loops *)

(** [geode::Range{n}] *)
Definition Range (n : nat) : list nat := seq 0 n.
(** [geode::Range{a,b}] *)
Definition Range2 (a b : nat) : list nat := seq a (b - a).

(** [for (x : l) if (auto r = f(x)) return r; return nullopt;] with possibly throwing body *)
Fixpoint first_some {A B} (f : A -> outcome (option B)) (l : list A) : outcome (option B) :=
  match l with
  | [] => Ok None
  | x :: l' => let! r := f x in
      match r with
      | Some b => Ok (Some b)
      | None => first_some f l'
      end
  end.

(** [for (x : l) s = f(s, x);] with possibly throwing body *)
Fixpoint foldM {A S} (f : S -> A -> outcome S) (l : list A) (s : S) : outcome S :=
  match l with
  | [] => Ok s
  | x :: l' => let! s' := f s x in foldM f l' s'
  end.

(** [c_any_of] with a possibly throwing predicate, evaluated left to right with early exit *)
Fixpoint anyM {A} (f : A -> outcome bool) (l : list A) : outcome bool :=
  match l with
  | [] => Ok false
  | x :: l' => let! b := f x in if b then Ok true else anyM f l'
  end.

(** Enumeration of a list with positions, [for (i : Indices{l})]. *)
Definition enum {A} (l : list A) : list (nat * A) := combine (seq 0 (List.length l)) l.

(** [absl::c_contains] on indices *)
Definition memb (x : nat) (l : list nat) : bool := existsb (Nat.eqb x) l.
