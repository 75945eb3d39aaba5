(** C88: the example program of the repository says whether the topology is valid, and stops on a method that no longer exists. *)
From Coq Require Import String Ascii List Arith NArith ZArith Bool Lia.
From Verif Require Import Base BaseFacts Model_Hash Model_Issues Types Model_Degeneration Model_Intersections Model_Topology Model_BRep Model_Blocks Model_Results Model_Python Model_Example Spec_Example
  Spec_Topology Spec_BRep Spec_Blocks Proof_GoodModels Properties_Topology Properties_BRep Properties_Blocks.
Import ListNotations.
Open Scope list_scope.

(** on every BRep: the verdict of C39, then AttributeError; an inspection that fails stops it before *)
Theorem C88_example : forall shown tl ho m, run_example shown tl ho m =
  match brep_topology_is_valid tl m with
  | Ok true => mkRun ["Model topology is valid."%string] (AttributeError "nb_corners_not_linked_to_a_unique_vertex")
  | Ok false => mkRun ["Model topology is invalid."%string] (AttributeError "nb_corners_not_linked_to_a_unique_vertex")
  | Throw x => mkRun [] (Raised x)
  | UB => mkRun [] Undefined
  end.
Proof.
  intros shown tl ho m. unfold run_example, example_program. cbn [run_program run_statement]. unfold py_call. cbn [topology_inspector String.eqb Ascii.eqb Bool.eqb].
  destruct (brep_topology_is_valid tl m) as [[|]| |]; reflexivity.
Qed.
Print Assumptions C88_example.
(** it never ends normally and never says how many issues there are *)
Theorem C88_never_finishes : forall shown tl ho m, ended (run_example shown tl ho m) <> Finished /\
  forall line, In line (printed (run_example shown tl ho m)) -> line = "Model topology is valid."%string \/ line = "Model topology is invalid."%string.
Proof.
  intros shown tl ho m. rewrite C88_example. destruct (brep_topology_is_valid tl m) as [[|]|x|]; cbn [printed ended In]; (split; [discriminate|]); intros line H; intuition.
Qed.
Print Assumptions C88_never_finishes.
(** none of the methods it calls afterwards exists *)
Definition called (s : PyStatement) : string := match s with Verdict n _ _ | Count n _ | Listing n _ _ => n end.
Theorem C88_no_such_method : forall tl ho m s, In s launch_topological_validity_checks -> topology_inspector tl ho m (called s) = None.
Proof. intros tl ho m s H. cbn in H. repeat (destruct H as [<-|H]; [reflexivity|]). destruct H. Qed.
Print Assumptions C88_no_such_method.

(** ** With an inspector that has these methods *)
(** the lines of one check *)
Definition check_lines (t : PyMethods) (s : PyStatement) (lines : list string) : Prop :=
  match s with
  | Verdict n yes no => exists b, t n = Some (Ok (PyBool b)) /\ lines = [if b then yes else no]
  | Count n after => exists k, t n = Some (Ok (PyNumber k)) /\ lines = [("There are  " ++ str k ++ " " ++ after)%string]
  | Listing n after each => exists l, t n = Some (Ok (PyIndices l)) /\
      lines = ("There are  " ++ str (length l) ++ " " ++ after)%string :: map (fun v => ("Model unique vertex with index  " ++ str v ++ " " ++ each)%string) l
  end.
Lemma append_nothing : forall s : string, (s ++ "")%string = s.
Proof. induction s as [|a s IH]; cbn; [reflexivity|rewrite IH; reflexivity]. Qed.
Lemma print3_is : forall a b c, print3 a b c = (a ++ " " ++ b ++ " " ++ c)%string.
Proof. intros a b c. unfold print3, StrCat. cbn [fold_right]. rewrite append_nothing. reflexivity. Qed.
Lemma checks_run : forall shown t program lines, Forall2 (check_lines t) program lines -> run_program shown t program = mkRun (concat lines) Finished.
Proof.
  intros shown t program lines H. induction H as [|s l program lines H _ IH]; [reflexivity|]. cbn [run_program concat].
  assert (E : run_statement shown t s = mkRun l Finished).
  { destruct s as [n yes no|n after|n after each]; destruct H as (v & E & ->); cbn [run_statement]; unfold py_call; rewrite E; [reflexivity| |].
    - cbn [py_text]. rewrite print3_is. reflexivity.
    - rewrite print3_is. f_equal. f_equal. apply map_ext. intros i. rewrite print3_is. reflexivity. }
  rewrite E. cbn [ended printed]. rewrite IH. reflexivity.
Qed.
(** it would print the lines of every check, in order, and end normally *)
Theorem C88_older_api : forall shown t lines, Forall2 (check_lines t) example_program lines -> run_program shown t example_program = mkRun (concat lines) Finished.
Proof. intros shown t lines. apply checks_run. Qed.
Print Assumptions C88_older_api.
(** said of each method by its name: the verdict, then the count of every kind of component, then the vertices of every check *)
Theorem C88_all_checks : forall shown t b ks ls, t "brep_topology_is_valid"%string = Some (Ok (PyBool b)) ->
  Forall2 (fun c k => t (fst c) = Some (Ok (PyNumber k))) counting_checks ks -> Forall2 (fun c l => t (fst c) = Some (Ok (PyIndices l))) listing_checks ls ->
  run_program shown t example_program =
    mkRun ((if b then "Model topology is valid." else "Model topology is invalid.")%string ::
      map (fun ck => count_line (fst ck) (snd ck)) (combine counting_checks ks) ++ flat_map (fun cl => listing_lines (fst cl) (snd cl)) (combine listing_checks ls)) Finished.
Proof.
  intros shown t b ks ls B K L.
  change example_program with ([Verdict "brep_topology_is_valid" "Model topology is valid." "Model topology is invalid."] ++
    (map (fun c => Count (fst c) (snd c)) counting_checks ++ map (fun c => Listing (fst c) (fst (snd c)) (snd (snd c))) listing_checks)).
  rewrite (checks_run shown t _ ([[(if b then "Model topology is valid." else "Model topology is invalid.")%string]] ++
    (map (fun ck => [count_line (fst ck) (snd ck)]) (combine counting_checks ks) ++ map (fun cl => listing_lines (fst cl) (snd cl)) (combine listing_checks ls)))).
  - rewrite !concat_app, flat_map_concat_map. cbn [concat app]. f_equal. f_equal. f_equal.
    generalize (combine counting_checks ks). intros l. induction l as [|x l IH]; [reflexivity|]. cbn [map concat app]. rewrite IH. reflexivity.
  - apply Forall2_app; [constructor; [exists b; split; [exact B|reflexivity]|constructor]|]. apply Forall2_app.
    + induction K as [|c k cs ks E _ IH]; [constructor|]. cbn [map combine]. constructor; [|exact IH]. exists k. split; [exact E|reflexivity].
    + induction L as [|c l cs ls E _ IH]; [constructor|]. cbn [map combine]. constructor; [|exact IH]. exists l. split; [exact E|reflexivity].
Qed.
Print Assumptions C88_all_checks.
(** and even so, the vertices of lines with invalid embeddings would not be looked for: the program ends the same way whatever that method answers *)
Theorem C88_forgotten_check : forall shown t t', (forall n, n <> "unique_vertices_linked_to_a_line_with_invalid_embeddings"%string -> t' n = t n) ->
  run_program shown t' example_program = run_program shown t example_program.
Proof.
  intros shown t t' E.
  assert (K : forall program, (forall s, In s program -> called s <> "unique_vertices_linked_to_a_line_with_invalid_embeddings"%string) -> run_program shown t' program = run_program shown t program).
  { induction program as [|s program IH]; intros H; [reflexivity|]. cbn [run_program].
    assert (S : run_statement shown t' s = run_statement shown t s).
    { pose proof (E (called s) (H s (or_introl eq_refl))) as Es. destruct s; cbn [run_statement called] in *; unfold py_call; rewrite Es; reflexivity. }
    rewrite S, (IH (fun x I => H x (or_intror I))). reflexivity. }
  apply K. intros s H. cbn in H. repeat (destruct H as [<-|H]; [discriminate|]). destruct H.
Qed.
Print Assumptions C88_forgotten_check.
(** while the vertices of single invalid lines would be printed twice *)
Theorem C88_printed_twice : forall t lines, Forall2 (check_lines t) example_program lines -> exists before l after, lines = before ++ l :: l :: after /\ check_lines t check_single_line l.
Proof.
  intros t lines H. change example_program with (firstn 11 example_program ++ check_single_line :: check_single_line :: skipn 13 example_program) in H.
  apply Forall2_app_inv_l in H as (before & rest & _ & H & ->). inversion H as [|? l1 ? rest1 H1 H' E1 E2]; subst. inversion H' as [|? l2 ? rest2 H2 _ E3 E4]; subst.
  exists before, l1, rest2. split; [|exact H1]. destruct H1 as (k1 & F1 & ->), H2 as (k2 & F2 & ->). rewrite F1 in F2. injection F2 as <-. reflexivity.
Qed.
Print Assumptions C88_printed_twice.

(** ** Examples *)
Example tet_run : forall shown ho, run_example shown tet_tl ho tet = mkRun ["Model topology is valid."%string] (AttributeError "nb_corners_not_linked_to_a_unique_vertex").
Proof. intros shown ho. rewrite C88_example, (proj1 tet_valid). reflexivity. Qed.
(** an inspector with all the methods: vertices 4 and 7 are on single invalid lines *)
Definition older : PyMethods := fun n =>
  if String.eqb n "brep_topology_is_valid" then Some (Ok (PyBool false))
  else if String.eqb n "unique_vertices_linked_to_a_single_and_invalid_line" then Some (Ok (PyIndices [4; 7]))
  else if String.prefix "nb_" n then Some (Ok (PyNumber 2)) else Some (Ok (PyIndices [])).
Definition older_lines (s : PyStatement) : list string :=
  match s with
  | Verdict _ _ no => [no]
  | Count _ after => [("There are  2 " ++ after)%string]
  | Listing n after each => if String.eqb n "unique_vertices_linked_to_a_single_and_invalid_line" then [("There are  2 " ++ after)%string; ("Model unique vertex with index  4 " ++ each)%string; ("Model unique vertex with index  7 " ++ each)%string]
      else [("There are  0 " ++ after)%string]
  end.
Example older_checks : Forall2 (check_lines older) example_program (map older_lines example_program).
Proof.
  assert (K : forall program, Forall (fun s => check_lines older s (older_lines s)) program -> Forall2 (check_lines older) program (map older_lines program)) by (induction 1; constructor; assumption).
  apply K. repeat (apply Forall_cons; [first [exists false; split; reflexivity|exists 2; split; reflexivity|exists []; split; reflexivity|exists [4; 7]; split; reflexivity]|]). apply Forall_nil.
Qed.
Example older_run : forall shown, ended (run_program shown older example_program) = Finished /\ length (printed (run_program shown older example_program)) = 23.
Proof. intros shown. rewrite (C88_older_api shown older _ older_checks). split; reflexivity. Qed.
Example older_all_checks : older "brep_topology_is_valid"%string = Some (Ok (PyBool false)) /\
  Forall2 (fun c k => older (fst c) = Some (Ok (PyNumber k))) counting_checks [2; 2; 2; 2] /\
  Forall2 (fun c l => older (fst c) = Some (Ok (PyIndices l))) listing_checks [[]; []; []; []; []; []; [4; 7]; [4; 7]; []; []; []; []; []; []].
Proof. split; [reflexivity|]. split; repeat (constructor; [reflexivity|]); constructor. Qed.
