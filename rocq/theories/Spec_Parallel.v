(** Independence of tasks. *)
From Coq Require Import List.
Import ListNotations.
From Verif Require Import Base Model_Parallel.

(** the actions of a program *)
Inductive acts {M} : proc M -> action M -> Prop :=
| acts_act : forall a, acts (Act a) a
| acts_seq_l : forall p q a, acts p a -> acts (Seq p q) a
| acts_seq_r : forall p q a, acts q a -> acts (Seq p q) a
| acts_par_l : forall p q a, acts p a -> acts (Par p q) a
| acts_par_r : forall p q a, acts q a -> acts (Par p q) a
| acts_catch : forall p a, acts p a -> acts (Catch p) a.
(** in both orders, two actions end the same way and leave the same memory *)
Definition commute {M} (a b : action M) : Prop :=
  forall m, fst (a (snd (b m))) = fst (a m) /\ fst (b (snd (a m))) = fst (b m) /\ snd (b (snd (a m))) = snd (a (snd (b m))).
(** tasks that may run at the same time have commuting actions *)
Fixpoint independent {M} (p : proc M) : Prop :=
  match p with
  | Done _ | Act _ => True
  | Seq p q => independent p /\ independent q
  | Par p q => independent p /\ independent q /\ (forall a b, acts p a -> acts q b -> commute a b)
  | Catch p => independent p
  end.
(** several tasks, no two of which interfere *)
Fixpoint tasks_independent {M} (l : list (proc M)) : Prop :=
  match l with
  | [] => True
  | p :: l' => independent p /\ (forall q, In q l' -> forall a b, acts p a -> acts q b -> commute a b) /\ tasks_independent l'
  end.
(** writing one region does not change the other, in any order *)
Definition disjoint {M A B} (r : region M A) (s : region M B) : Prop :=
  (forall m v, get r (set s v m) = get r m) /\ (forall m v, get s (set r v m) = get s m) /\
  (forall m v w, set r v (set s w m) = set s w (set r v m)).

(** [p], run alone from local variables [l] and result member [r], computes [o]: whatever steps it is made of *)
Definition computes {L R} (p : proc (L * R)) (l : L) (r : R) (o : outcome R) : Prop :=
  independent p /\
  match o with
  | Ok v => exists l', in_sequence p (l, r) = (Ok tt, (l', v))
  | Throw e => fst (in_sequence p (l, r)) = Throw e
  | UB => fst (in_sequence p (l, r)) = UB
  end.
(** ... and leaves its result member when it raises *)
Definition computes_or_leaves {L R} (p : proc (L * R)) (l : L) (r : R) (o : outcome R) : Prop :=
  computes p l r o /\ (forall e, o = Throw e -> snd (snd (in_sequence p (l, r))) = r).
(** every execution of [p] that ends from memory [m] ends as [o] says; when it is normal, [v] reads the result *)
Definition always_gives {M R} (p : proc M) (m : M) (read : M -> R) (o : outcome R) : Prop :=
  forall end_status m', execution (p, m) (Done end_status, m') ->
  match o with
  | Ok v => end_status = Ok tt /\ read m' = v
  | Throw e => end_status = Throw e
  | UB => end_status = UB
  end.
(** no infinite execution starts from [p]: every sequence of steps is finite *)
Definition terminates {M} (p : proc M) : Prop := Acc (fun q' q => exists l, step q l q') p.
(** the inspection of one category, in a report: complete if it ended, untouched if it raised *)
Definition complete_or_untouched {A} (inspection : outcome A) (untouched reported : A) : Prop :=
  inspection = Ok reported \/ (exists e, inspection = Throw e) /\ reported = untouched.
(** among tasks, the first one in the order of the call that raised raised [e] *)
Definition first_raised (l : list (outcome unit)) (e : exn) : Prop :=
  exists before after, l = before ++ Throw e :: after /\ forall o, In o before -> o = Ok tt.
(** [o], the end of a function running tasks that end as in [l]: OpenGeode exceptions never come out; when the first task to raise
    raised one, exceptions of the later tasks are swallowed with it; any other first exception comes out *)
Definition swallows {A} (l : list (outcome unit)) (o : outcome A) : Prop :=
  o <> Throw OpenGeodeExn /\
  (In UB l -> o = UB) /\
  (~ In UB l -> (forall e, first_raised l e -> e = OpenGeodeExn) -> exists r, o = Ok r) /\
  (~ In UB l -> first_raised l OtherExn -> o = Throw OtherExn).
