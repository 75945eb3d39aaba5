(** Facets described from another vertex or backwards, edges from their other end; signs of volumes. *)
From Coq Require Import String Ascii List Arith NArith ZArith Bool Lia Permutation QArith Lqa.
From Verif Require Import Base BaseFacts Model_Issues Types Spec_Cycles Spec_Adjacency Spec_Manifold Spec_Renumber Spec_Redescribe Spec_RedescribeSolid Proof_Cycles Proof_Redescribe2.
Import ListNotations.
Open Scope nat_scope.
Open Scope list_scope.

Lemma numbered_length : forall A B (f : nat -> A -> B) l, length (numbered f l) = length l.
Proof. intros A B f l. unfold numbered. rewrite map_length, combine_length, seq_length. lia. Qed.
Lemma combine_seq : forall A (l : list A) s i, nth_error (combine (seq s (length l)) l) i = option_map (fun a => (s + i, a)) (nth_error l i).
Proof.
  intros A l. induction l as [|a l IH]; intros s [|i]; cbn [length seq combine nth_error option_map]; try reflexivity; [rewrite Nat.add_0_r; reflexivity|].
  rewrite IH. replace (S s + i) with (s + S i) by lia. reflexivity.
Qed.
Lemma numbered_at : forall A B (f : nat -> A -> B) l i, nth_error (numbered f l) i = option_map (f i) (nth_error l i).
Proof. intros A B f l i. unfold numbered. rewrite nth_error_map, combine_seq. destruct (nth_error l i); reflexivity. Qed.
Lemma from_vertex_cycle : forall k l, same_oriented_cycle l (from_vertex k l).
Proof.
  intros k l. destruct (Nat.eq_dec (length l) 0) as [Z|Z]; [destruct l; [exists [], []; auto|discriminate]|].
  pose proof (Nat.mod_upper_bound k (length l) Z) as U. set (j := Nat.modulo k (length l)) in *.
  exists (firstn j l), (skipn j l). split; [symmetry; apply firstn_skipn|]. apply (nth_ext _ _ 0 0); [rewrite from_vertex_length, app_length, skipn_length, firstn_length; lia|].
  intros i Hi. rewrite from_vertex_length in Hi. rewrite from_vertex_nth by exact Hi. rewrite <- Nat.add_mod_idemp_r by exact Z. fold j.
  rewrite <- (firstn_skipn j l) at 2. destruct (Nat.lt_ge_cases (i + j) (length l)) as [L|L].
  - rewrite Nat.mod_small by exact L. rewrite (app_nth1 (skipn j l)) by (rewrite skipn_length; lia). rewrite app_nth2 by (rewrite firstn_length; lia). f_equal. rewrite firstn_length. lia.
  - assert (M : Nat.modulo (i + j) (length l) = i + j - length l).
    { replace (i + j) with (i + j - length l + 1 * length l) at 1 by lia. rewrite Nat.mod_add by exact Z. apply Nat.mod_small. lia. }
    rewrite M. rewrite (app_nth2 (skipn j l)) by (rewrite skipn_length; lia). rewrite app_nth1 by (rewrite firstn_length; lia). f_equal. rewrite skipn_length. lia.
Qed.
Lemma turned_at : forall over k flip ae m p, p < nb_polyhedra m -> polyhedron (turned_solid over k flip ae m) p = turned_polyhedron over (k p) (flip p) (polyhedron m p).
Proof.
  intros over k flip ae m p Hp. unfold polyhedron at 1. cbn [turned_solid so_polyhedra]. apply nth_error_nth. rewrite numbered_at.
  rewrite (nth_error_nth' _ (mkPolyhedron [] [] []) Hp). reflexivity.
Qed.
Lemma same_numbers_number : forall n, numbers n (fun i => i).
Proof. intros n. split; auto. Qed.
Lemma turned_is : forall over k flip ae m, redescribed_solid over same_numbers m (turned_solid over k flip ae m).
Proof.
  intros over k flip ae m. constructor; try reflexivity.
  - unfold nb_polyhedra. cbn [turned_solid so_polyhedra]. apply numbered_length.
  - intros p Hp. rewrite turned_at by exact Hp. reflexivity.
  - intros p Hp. rewrite turned_at by exact Hp. apply numbered_length.
  - intros p Hp. rewrite turned_at by exact Hp. apply numbered_length.
  - intros p _. apply same_numbers_number.
  - intros p _. apply same_numbers_number.
  - intros p _. apply same_numbers_number.
  - intros p i v Hp E. rewrite turned_at by exact Hp. exact E.
  - intros p i f Hp E. rewrite turned_at by exact Hp. cbn [turned_polyhedron ph_facets same_numbers so_facet_number]. rewrite numbered_at, E. cbn [option_map].
    eexists. split; [reflexivity|]. apply from_vertex_cycle.
  - intros p i a b Hp E. rewrite turned_at by exact Hp. cbn [turned_polyhedron ph_edges same_numbers so_edge_number]. rewrite numbered_at, E. cbn [option_map fst snd].
    destruct (flip p i); auto.
  - intros [p i] _. reflexivity.
  - intros v _. cbn [turned_solid so_around_vertex]. unfold same_answer. destruct (so_around_vertex m v) as [l|x|]; [|reflexivity|exact Logic.I].
    apply Permutation_refl'. symmetry. rewrite <- map_id. apply map_ext. intros [p i]. reflexivity.
Qed.

(** ** Signs *)
Definition volume (f : Point -> Point -> Point -> Point -> Q) (l : list Point) : Q := match l with [a; b; c; d] => f a b c d | _ => 0%Q end.
Lemma swapped_length : forall A odd (l l' : list A), swapped odd l l' -> length l' = length l.
Proof. induction 1 as [l|odd l u a b v _ IH]; [reflexivity|]. rewrite <- IH, !app_length. reflexivity. Qed.
Lemma swapped_volume : forall f odd l l', alternating f -> length l = 4 -> swapped odd l l' -> (volume f l' == if odd then - volume f l else volume f l)%Q.
Proof.
  intros f odd l l' A L S. induction S as [l|odd l u a b v S IH]; [reflexivity|]. specialize (IH L). pose proof (swapped_length _ _ _ _ S) as L'. rewrite L in L'.
  assert (E : (volume f (u ++ b :: a :: v) == - volume f (u ++ a :: b :: v))%Q).
  { rewrite app_length in L'. cbn [length] in L'. destruct u as [|x [|y [|z u]]]; [destruct v as [|v0 [|v1 [|v2 v]]]|destruct v as [|v0 [|v1 v]]|destruct v as [|v0 v]|]; cbn [length] in L'; try lia; cbn [app volume].
    - apply (A a b v0 v1).
    - apply (A x a b v0).
    - apply (A x y a b). }
  rewrite E, IH. destruct odd; cbn [negb]; [apply Qopp_involutive|reflexivity].
Qed.
Lemma tetra_volume : forall ms f l, sign_of_volume ms f -> length l = 4 -> exists b, tetra_sign ms l = Some b /\ (b = true <-> (volume f l < 0)%Q).
Proof. intros ms f l S L. destruct l as [|a [|b [|c [|e [|x l]]]]]; try discriminate. exists (ms_tetra_negative ms a b c e). split; [reflexivity|]. apply S. Qed.
Lemma map_swapped : forall A B (g : A -> B) odd l l', swapped odd l l' -> swapped odd (map g l) (map g l').
Proof.
  intros A B g odd l l' S. induction S as [l|odd l u a b v _ IH]; [constructor|]. rewrite map_app in *. cbn [map] in *. apply swapped_more. exact IH.
Qed.
