(** Tasks, schedules and the fork-join of [async::parallel_invoke].

    A program is built from atomic actions on a shared memory.  [async::parallel_invoke(f1 ... fn)] of async++ (not in this
    repository) is: split the functions in two halves, spawn a local task for the second half, run the first half on the
    current thread, wait for the second one; an exception of the first half is rethrown after the second half has ended, and
    hides one of the second half.  Anything may be interleaved in between. *)
From Coq Require Import String Ascii List Arith NArith ZArith Bool Lia.
From Verif Require Import Base.
Import ListNotations.

(** an atomic action: how it ends and the memory it leaves *)
Definition action (M : Type) := M -> outcome unit * M.
Inductive proc (M : Type) :=
| Done (o : outcome unit)
| Act (a : action M)
| Seq (p q : proc M)         (* p; q *)
| Par (p q : proc M)         (* spawn q; p; wait for q *)
| Catch (p : proc M).        (* try { p } catch (OpenGeodeException&) {} *)
Arguments Done {M} _.
Arguments Act {M} _.
Arguments Seq {M} _ _.
Arguments Par {M} _ _.
Arguments Catch {M} _.

(** how a pair of joined tasks ends *)
Definition join (l r : outcome unit) : outcome unit :=
  match l, r with
  | UB, _ | _, UB => UB
  | Throw e, _ => Throw e
  | Ok _, Throw e => Throw e
  | Ok _, Ok _ => Ok tt
  end.
Definition catch (o : outcome unit) : outcome unit := match o with Throw OpenGeodeExn => Ok tt | _ => o end.

(** one step of the program: [Some (a, o)] is the execution of action [a], ending with [o] *)
Inductive step {M} : proc M -> option (action M * outcome unit) -> proc M -> Prop :=
| step_act : forall a o, step (Act a) (Some (a, o)) (Done o)
| step_seq : forall p p' q l, step p l p' -> step (Seq p q) l (Seq p' q)
| step_seq_next : forall q, step (Seq (Done (Ok tt)) q) None q
| step_seq_throw : forall e q, step (Seq (Done (Throw e)) q) None (Done (Throw e))
| step_seq_ub : forall q, step (Seq (Done UB) q) None (Done UB)
| step_left : forall p p' q l, step p l p' -> step (Par p q) l (Par p' q)
| step_right : forall p q q' l, step q l q' -> step (Par p q) l (Par p q')
| step_join : forall o o', step (Par (Done o) (Done o')) None (Done (join o o'))
| step_catch : forall p p' l, step p l p' -> step (Catch p) l (Catch p')
| step_caught : forall o, step (Catch (Done o)) None (Done (catch o)).
(** executions: any scheduler, any interleaving *)
Inductive execution {M} : proc M * M -> proc M * M -> Prop :=
| exec_nil : forall c, execution c c
| exec_act : forall p m a o p' m' c, step p (Some (a, o)) p' -> a m = (o, m') -> execution (p', m') c -> execution (p, m) c
| exec_silent : forall p m p' c, step p None p' -> execution (p', m) c -> execution (p, m) c.

(** the tasks one after the other *)
Fixpoint in_sequence {M} (p : proc M) (m : M) : outcome unit * M :=
  match p with
  | Done o => (o, m)
  | Act a => a m
  | Seq p q => let '(o, m) := in_sequence p m in match o with Ok _ => in_sequence q m | _ => (o, m) end
  | Par p q => let '(o, m) := in_sequence p m in let '(o', m) := in_sequence q m in (join o o', m)
  | Catch p => let '(o, m) := in_sequence p m in (catch o, m)
  end.

(** the recursion of async++ (parallel_invoke_internal<Start, Count>): [n] functions *)
Fixpoint invoke_tree {M} (fuel : nat) (l : list (proc M)) : proc M :=
  match fuel, l with
  | _, [] => Done (Ok tt)
  | _, [p] => p
  | 0, _ => Done (Ok tt)
  | S fuel, _ => let half := Nat.div2 (length l) in Par (invoke_tree fuel (firstn half l)) (invoke_tree fuel (skipn half l))
  end.
Definition invoke {M} (l : list (proc M)) : proc M := invoke_tree (length l) l.
(** a loop *)
Fixpoint Seqs {M} (l : list (proc M)) : proc M :=
  match l with [] => Done (Ok tt) | p :: l' => Seq p (Seqs l') end.

(** part [A] of a memory [M] *)
Record region (M A : Type) := mkRegion { get : M -> A; set : A -> M -> M }.
Arguments mkRegion {M A} _ _.
Arguments get {M A} _ _.
Arguments set {M A} _ _ _.
(** an action on a region *)
Definition on {M A} (r : region M A) (f : A -> outcome unit * A) : action M :=
  fun m => let '(o, v) := f (get r m) in (o, set r v m).
(** [region = value], where computing the value may fail *)
Definition store {M A} (r : region M A) (v : outcome A) : action M :=
  on r (fun old => match v with Ok x => (Ok tt, x) | Throw e => (Throw e, old) | UB => (UB, old) end).

(** a program working on a region of a larger memory *)
Fixpoint embed {M A} (r : region M A) (p : proc A) : proc M :=
  match p with
  | Done o => Done o
  | Act a => Act (on r a)
  | Seq p q => Seq (embed r p) (embed r q)
  | Par p q => Par (embed r p) (embed r q)
  | Catch p => Catch (embed r p)
  end.
Definition fst_region {A B} : region (A * B) A := mkRegion fst (fun v m => (v, snd m)).
Definition snd_region {A B} : region (A * B) B := mkRegion snd (fun v m => (fst m, v)).
(** [[&result, this] { result.x = f(); }]: [p] is the body of [f] on its local variables, [value] what it returns *)
Definition assign_result {L R} (p : proc L) (value : L -> R) : proc (L * R) :=
  Seq (embed fst_region p) (Act (fun m => (Ok tt, (fst m, value (fst m))))).

(** eight separate variables or data members, enough for the calls below *)
Record Mem8 (F1 F2 F3 F4 F5 F6 F7 F8 : Type) := mkMem8 {
  v1 : F1; v2 : F2; v3 : F3; v4 : F4; v5 : F5; v6 : F6; v7 : F7; v8 : F8 }.
Arguments mkMem8 {F1 F2 F3 F4 F5 F6 F7 F8} _ _ _ _ _ _ _ _.
Arguments v1 {F1 F2 F3 F4 F5 F6 F7 F8} _.
Arguments v2 {F1 F2 F3 F4 F5 F6 F7 F8} _.
Arguments v3 {F1 F2 F3 F4 F5 F6 F7 F8} _.
Arguments v4 {F1 F2 F3 F4 F5 F6 F7 F8} _.
Arguments v5 {F1 F2 F3 F4 F5 F6 F7 F8} _.
Arguments v6 {F1 F2 F3 F4 F5 F6 F7 F8} _.
Arguments v7 {F1 F2 F3 F4 F5 F6 F7 F8} _.
Arguments v8 {F1 F2 F3 F4 F5 F6 F7 F8} _.
Section Regions.
Context {F1 F2 F3 F4 F5 F6 F7 F8 : Type}.
Notation M := (Mem8 F1 F2 F3 F4 F5 F6 F7 F8).
Definition g1 : region M F1 := mkRegion v1 (fun x m => mkMem8 x (v2 m) (v3 m) (v4 m) (v5 m) (v6 m) (v7 m) (v8 m)).
Definition g2 : region M F2 := mkRegion v2 (fun x m => mkMem8 (v1 m) x (v3 m) (v4 m) (v5 m) (v6 m) (v7 m) (v8 m)).
Definition g3 : region M F3 := mkRegion v3 (fun x m => mkMem8 (v1 m) (v2 m) x (v4 m) (v5 m) (v6 m) (v7 m) (v8 m)).
Definition g4 : region M F4 := mkRegion v4 (fun x m => mkMem8 (v1 m) (v2 m) (v3 m) x (v5 m) (v6 m) (v7 m) (v8 m)).
Definition g5 : region M F5 := mkRegion v5 (fun x m => mkMem8 (v1 m) (v2 m) (v3 m) (v4 m) x (v6 m) (v7 m) (v8 m)).
Definition g6 : region M F6 := mkRegion v6 (fun x m => mkMem8 (v1 m) (v2 m) (v3 m) (v4 m) (v5 m) x (v7 m) (v8 m)).
Definition g7 : region M F7 := mkRegion v7 (fun x m => mkMem8 (v1 m) (v2 m) (v3 m) (v4 m) (v5 m) (v6 m) x (v8 m)).
Definition g8 : region M F8 := mkRegion v8 (fun x m => mkMem8 (v1 m) (v2 m) (v3 m) (v4 m) (v5 m) (v6 m) (v7 m) x).
(** the calls of [async::parallel_invoke] in this repository: each function has its own variables and writes its own data
    member of the result *)
(** adjacency/brep_meshes_adjacency.cpp:157-165, colocation/unique_vertices_colocation.cpp:340-348, edgedcurve_inspector.cpp:63-72,
    brep_inspector.cpp:57-66, section_inspector.cpp:57-66 *)
Definition invoke2 (p1 : proc F1) (p2 : proc F2) : proc M := invoke [embed g1 p1; embed g2 p2].
(** topology/section_topology.cpp:178-191 *)
Definition invoke3 (p1 : proc F1) (p2 : proc F2) (p3 : proc F3) : proc M := invoke [embed g1 p1; embed g2 p2; embed g3 p3].
(** topology/brep_topology.cpp:182-198 *)
Definition invoke4 (p1 : proc F1) (p2 : proc F2) (p3 : proc F3) (p4 : proc F4) : proc M :=
  invoke [embed g1 p1; embed g2 p2; embed g3 p3; embed g4 p4].
(** criterion/brep_meshes_inspector.cpp:67-88, section_meshes_inspector.cpp:68-90 *)
Definition invoke7 (p1 : proc F1) (p2 : proc F2) (p3 : proc F3) (p4 : proc F4) (p5 : proc F5) (p6 : proc F6) (p7 : proc F7) : proc M :=
  invoke [embed g1 p1; embed g2 p2; embed g3 p3; embed g4 p4; embed g5 p5; embed g6 p6; embed g7 p7].
(** surface_inspector.cpp:77-107, solid_inspector.cpp:76-104 *)
Definition invoke8 (p1 : proc F1) (p2 : proc F2) (p3 : proc F3) (p4 : proc F4) (p5 : proc F5) (p6 : proc F6) (p7 : proc F7) (p8 : proc F8) : proc M :=
  invoke [embed g1 p1; embed g2 p2; embed g3 p3; embed g4 p4; embed g5 p5; embed g6 p6; embed g7 p7; embed g8 p8].
(** topology/section_topology.cpp:172-197 and brep_topology.cpp:176-205: exceptions caught, then the links of the unique vertices *)
Definition caught3 (p1 : proc F1) (p2 : proc F2) (p3 : proc F3) (links : proc F5) : proc M :=
  Seq (Catch (invoke3 p1 p2 p3)) (embed g5 links).
Definition caught4 (p1 : proc F1) (p2 : proc F2) (p3 : proc F3) (p4 : proc F4) (links : proc F5) : proc M :=
  Seq (Catch (invoke4 p1 p2 p3 p4)) (embed g5 links).
End Regions.
