(** What can be reached from a Python object. *)
From Coq Require Import String Ascii List Arith NArith ZArith Bool Lia.
From Verif Require Import Base BaseFacts Model_Hash Model_Issues Types Model_Degeneration Model_Intersections Model_Topology Model_BRep Model_Blocks Model_Results
  Model_Python Spec_Results Spec_Python Proof_Issues Proof_Results.
Import ListNotations.
Open Scope list_scope.

(** every container that can be reached, with its path *)
Fixpoint leaves (o : PyObject) : list (path * (N * string)) :=
  match o with
  | PyIssues n t => [([], (n, t))]
  | PyResult l _ _ => (fix go l := match l with [] => [] | (name, o') :: l' => map (fun x => (name :: fst x, snd x)) (leaves o') ++ go l' end) l
  end.
Lemma reached : forall p o n t, get p o = Some (PyIssues n t) -> In (p, (n, t)) (leaves o).
Proof.
  induction p as [|name p IH]; intros o n t H; cbn [get] in H.
  - injection H as ->. left. reflexivity.
  - destruct o as [|l t' n']; [discriminate H|]. cbn [leaves]. induction l as [|[name' o'] l IHl]; cbn [getattr] in H; [discriminate H|].
    destruct (String.eqb_spec name name') as [->|_].
    + apply in_or_app. left. apply in_map_iff. exists (p, (n, t)). split; [reflexivity|]. apply IH. exact H.
    + apply in_or_app. right. apply IHl. exact H.
Qed.

Lemma size32_mod : forall {T} (l : list T), size32 l = (N.of_nat (length l) mod 2 ^ 32)%N.
Proof. reflexivity. Qed.
(** the container a category shows as *)
Definition shown (c : category) : N * string := ((N.of_nat (cat_size c) mod 2 ^ 32)%N, cat_text c).
Lemma shown_list : forall T (x : InspectionIssues T), py_list x = PyIssues (fst (shown (of_list x))) (snd (shown (of_list x))).
Proof. reflexivity. Qed.
Lemma shown_map : forall T ho (x : InspectionIssuesMap T), py_map ho x = PyIssues (fst (shown (of_map ho x))) (snd (shown (of_map ho x))).
Proof. reflexivity. Qed.

(** ** Texts inside texts *)
Definition inside (s text : string) : Prop := exists a b, text = (a ++ (s ++ b))%string.
Lemma inside_refl : forall s, inside s s.
Proof. intros s. exists EmptyString, EmptyString. cbn. rewrite append_nil_r. reflexivity. Qed.
Lemma inside_trans : forall a b c, inside a b -> inside b c -> inside a c.
Proof.
  intros a b c [x [y ->]] [z [w ->]]. exists (z ++ x)%string, (y ++ w)%string.
  repeat rewrite append_assoc. reflexivity.
Qed.
Lemma inside_cat : forall s l, In s l -> inside s (StrCat l).
Proof.
  intros s l H. induction l as [|a l IH]; [destruct H|]. unfold StrCat in *. cbn [fold_right]. destruct H as [->|H].
  - exists EmptyString. eexists. cbn [String.append]. reflexivity.
  - destruct (IH H) as [x [y E]]. exists (a ++ x)%string, y. rewrite E. rewrite append_assoc. reflexivity.
Qed.
Lemma inside_shows : forall c l otherwise s, shows l otherwise s -> In c l -> ~ is_empty c -> inside (cat_text c) s.
Proof.
  intros c l otherwise s H Hc Hn. destruct H as [[H _]|[_ ->]].
  - unfold all_empty in H. rewrite Forall_forall in H. destruct (Hn (H _ Hc)).
  - assert (I : In (cat_text c) (non_empty_texts l)).
    { unfold non_empty_texts. apply in_map. apply filter_In. split; [exact Hc|]. destruct (Nat.eqb_spec (cat_size c) 0) as [E|_]; [destruct (Hn E)|reflexivity]. }
    revert I. generalize (non_empty_texts l). clear. intros l I. induction l as [|a l IH]; [destruct I|]. destruct I as [->|I].
    + exists EmptyString. destruct l; cbn [String.concat]; [exists EmptyString; rewrite append_nil_r; reflexivity|].
      eexists. cbn [String.append]. reflexivity.
    + destruct (IH I) as [x [y E]]. exists (a ++ x)%string, y. destruct l as [|b l]; [destruct I|].
      change (String.concat EmptyString (a :: b :: l)) with (a ++ (EmptyString ++ String.concat EmptyString (b :: l)))%string.
      cbn [String.append]. etransitivity; [exact (f_equal (String.append a) E)|]. rewrite append_assoc. reflexivity.
Qed.

(** ** Checking a view *)
Definition path_eqb (p q : path) : bool := if list_eq_dec string_dec p q then true else false.
Definition pathb (p : path) (l : list path) : bool := existsb (path_eqb p) l.
Lemma pathb_spec : forall p l, pathb p l = true <-> In p l.
Proof.
  intros p l. unfold pathb. rewrite existsb_exists. split.
  - intros [q [H E]]. unfold path_eqb in E. destruct (list_eq_dec string_dec p q) as [->|]; [exact H|discriminate E].
  - intros H. exists p. split; [exact H|]. unfold path_eqb. destruct (list_eq_dec string_dec p p) as [_|N]; [reflexivity|destruct N; reflexivity].
Qed.
Fixpoint distinctb (l : list path) : bool := match l with [] => true | p :: l' => negb (pathb p l') && distinctb l' end.
Lemma distinctb_spec : forall l, distinctb l = true -> NoDup l.
Proof.
  induction l as [|p l IH]; intros H; cbn [distinctb] in H; [constructor|]. apply andb_prop in H. destruct H as [H1 H2]. constructor; [|exact (IH H2)].
  intros H. apply pathb_spec in H. rewrite H in H1. discriminate H1.
Qed.
Definition leafb (members hidden : list path) (p : path) : bool := pathb p members && negb (pathb p hidden).
Definition read_back (o : PyObject) (hidden : list path) (x : path * category) : Prop :=
  pathb (fst x) hidden = true \/ get (fst x) o = Some (PyIssues (fst (shown (snd x))) (snd (shown (snd x)))).
