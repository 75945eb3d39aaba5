(** Cycles of vertices, without reference to a normal form. *)
From Coq Require Import List Arith.
Import ListNotations.
(** same cyclic order *)
Definition same_oriented_cycle {A} (a b : list A) : Prop := exists u v, a = u ++ v /\ b = v ++ u.
(** same cyclic order, up to the direction *)
Definition same_cycle {A} (a b : list A) : Prop := same_oriented_cycle a b \/ same_oriented_cycle (rev a) b.
(** same vertices run through in opposite directions *)
Definition opposite_cycle {A} (a b : list A) : Prop := same_oriented_cycle (rev a) b.
