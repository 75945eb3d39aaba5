(** Vertex cycles.  [detail::VertexCycle] and [detail::OrientedVertexCycle] are OpenGeode classes (not in /repo) used by
    criterion/adjacency/solid_adjacency.cpp:95-107 and criterion/manifold/*_manifold.cpp as keys of facets and edges.
    They are modelled after their documented normal form: smallest vertex first, and for the unoriented one the smaller
    of the two neighbours of that vertex second. *)
From Coq Require Import List Arith Bool.
From Verif Require Import Base.
Import ListNotations.

Definition rot {A} (k : nat) (l : list A) : list A := skipn k l ++ firstn k l.
Definition list_min (l : list nat) : nat := match l with [] => 0 | x :: l' => fold_left Nat.min l' x end.
(** position of the first occurrence *)
Fixpoint position (x : nat) (l : list nat) : nat :=
  match l with
  | [] => 0
  | y :: l' => if Nat.eqb y x then 0 else S (position x l')
  end.
(** [OrientedVertexCycle]: rotated so that the smallest vertex is first *)
Definition oriented_cycle (l : list nat) : list nat := rot (position (list_min l) l) l.
(** [OrientedVertexCycle::is_opposite]: same first vertex, the others in reverse order *)
Definition is_opposite (a b : list nat) : bool :=
  match oriented_cycle a, oriented_cycle b with
  | x :: a', y :: b' => Nat.eqb x y && if list_eq_dec Nat.eq_dec b' (rev a') then true else false
  | _, _ => false
  end.
(** [VertexCycle]: as above, then the other vertices are reversed when the second is greater than the last *)
Definition vertex_cycle (l : list nat) : list nat :=
  match oriented_cycle l with
  | [] => []
  | x :: t => if Nat.ltb (last t 0) (hd 0 t) then x :: rev t else x :: t
  end.
Definition cycle_eqb (a b : list nat) : bool := if list_eq_dec Nat.eq_dec a b then true else false.
