(** Inspecting two pieces together or apart: intersecting polygons, and the pieces put in one mesh. *)
From Coq Require Import String Ascii List Arith NArith ZArith Bool Lia Permutation Sorted Mergesort.
From Verif Require Import Base BaseFacts Model_Issues Types Model_Hash Model_Adjacency Model_Colocation Model_Manifold Model_Degeneration Model_Negative Model_Results
  Spec_Cycles Spec_Maps Spec_Colocation Spec_Adjacency Spec_Manifold Spec_Degeneration Spec_Negative Spec_Renumber Spec_Pieces Model_Intersections Spec_Intersections
  Proof_Intersections Proof_Renumber Proof_Renumber2 Proof_Pieces Proof_Pieces2.
Import ListNotations.
Open Scope list_scope.

Lemma permutation_filter : forall A (p : A -> bool) a b, Permutation a b -> Permutation (filter p a) (filter p b).
Proof.
  intros A p a b Q. induction Q as [|x a b Q IH|x y a|a b c Q1 IH1 Q2 IH2]; cbn; [constructor|destruct (p x); [constructor; exact IH|exact IH]| |etransitivity; eassumption].
  destruct (p x), (p y); try apply Permutation_refl. apply perm_swap.
Qed.
Lemma filter_lists : forall A (p : A -> bool) l, lists_candidates (fun x => p x = true) l (filter p l).
Proof.
  intros A p l. split; [intros c; apply filter_In|]. exists (filter (fun x => negb (p x)) l). split.
  - induction l as [|x l IH]; [constructor|]. cbn [filter]. destruct (p x); cbn [negb app]; [constructor; exact IH|]. etransitivity; [constructor; exact IH|]. apply Permutation_middle.
  - intros c Hc. apply filter_In in Hc. destruct Hc as [_ Hc]. apply negb_true_iff in Hc. congruence.
Qed.

Section Two.
Context (px : Predicates) (n1 n2 : Numbering) (m1 m2 w : SurfaceMesh) (T : two_surfaces n1 n2 m1 m2 w)
  (B1 : blind_test px n1 m1 w) (B2 : blind_test px n2 m2 w).
Definition tested (p q : nat) : bool := px_polygons px w (polygon_vertices w p) (polygon_vertices w q).
Context (S : forall p q, p < nb_polygons m1 -> q < nb_polygons m2 -> tested (new_element n2 q) (new_element n1 p) = tested (new_element n1 p) (new_element n2 q)).
Local Notation f1 := (new_element n1).
Local Notation f2 := (new_element n2).

Lemma meetb_piece : forall n m, injects (nb_polygons m) (nb_polygons w) (new_element n) -> blind_test px n m w -> forall p q, p < nb_polygons m -> q < nb_polygons m ->
  meetb px w (new_element n p, new_element n q) = meetb px m (p, q) /\ meetb px w (new_element n q, new_element n p) = meetb px m (p, q).
Proof.
  intros n m [_ N] B p q Hp Hq. unfold meetb. cbn [fst snd].
  assert (E : Nat.eqb (new_element n p) (new_element n q) = Nat.eqb p q).
  { destruct (Nat.eqb_spec p q) as [->|D]; [apply Nat.eqb_refl|]. apply Nat.eqb_neq. intros K. apply D. apply N; assumption. }
  rewrite (Nat.eqb_sym (new_element n q)), E. destruct (B p q Hp Hq) as [X1 X2]. destruct (B q p Hq Hp) as [X3 X4]. rewrite X1, X3, X2. auto.
Qed.
Lemma meetb_across : forall p q, p < nb_polygons m1 -> q < nb_polygons m2 -> meetb px w (f1 p, f2 q) = tested (f1 p) (f2 q) /\ meetb px w (f2 q, f1 p) = tested (f1 p) (f2 q).
Proof.
  intros p q Hp Hq. unfold meetb. cbn [fst snd]. pose proof (proj2 (ts_polygons _ _ _ _ _ T) p q Hp Hq) as D.
  rewrite (Nat.eqb_sym (f2 q)). rewrite (proj2 (Nat.eqb_neq _ _) D). cbn [negb andb]. split; [reflexivity|]. apply S; assumption.
Qed.
(** two pairs that are the same but for the order, when the test does not depend on the order *)
Lemma meetb_undirected : forall a b c, meetb px w (a, b) = meetb px w (b, a) -> undirected c = undirected (a, b) -> meetb px w c = meetb px w (a, b) /\ meetb px w (undirected c) = meetb px w (a, b).
Proof.
  intros a b [x y] E K. assert (O : (x, y) = (a, b) \/ (x, y) = (b, a)).
  { unfold undirected in K. cbn [fst snd] in K. injection K as K1 K2. assert (x = a /\ y = b \/ x = b /\ y = a) as [[-> ->]|[-> ->]] by lia; auto. }
  destruct (undirected_cases (x, y)) as [U|U]; rewrite U; cbn [fst snd]; destruct O as [O|O]; injection O as -> ->; auto.
Qed.
Lemma candidates_two : forall c1 c2 across c l1 l2 l, candidates_of_both n1 n2 m1 m2 c1 c2 across c ->
  lists_candidates (surface_pair_meets px m1) c1 l1 -> lists_candidates (surface_pair_meets px m2) c2 l2 -> lists_candidates (surface_pair_meets px w) c l ->
  exists found, lists_candidates (fun pq => px_polygons px w (polygon_vertices w (f1 (fst pq))) (polygon_vertices w (f2 (snd pq))) = true) across found /\
    Permutation (map undirected l) (map (new_polygons n1) l1 ++ map (new_polygons n2) l2 ++ map (fun pq => undirected (f1 (fst pq), f2 (snd pq))) found).
Proof.
  intros c1 c2 across c l1 l2 l (R1 & R2 & R3 & P) L1 L2 L. apply candidates_filter in L1. apply candidates_filter in L2. apply candidates_filter in L.
  set (g := fun pq : nat * nat => undirected (f1 (fst pq), f2 (snd pq))) in *.
  assert (Q1 : forall x, In x c1 -> meetb px w (new_polygons n1 x) = meetb px m1 x).
  { intros [p q] I. destruct (R1 p q I) as [Hp Hq]. destruct (meetb_piece n1 m1 (pi_numbers _ _ _ (ts_first _ _ _ _ _ T)) B1 p q Hp Hq) as [X1 X2].
    unfold new_polygons. cbn [fst snd]. rewrite <- X1. apply (meetb_undirected (f1 p) (f1 q) (f1 p, f1 q)); [congruence|reflexivity]. }
  assert (Q2 : forall x, In x c2 -> meetb px w (new_polygons n2 x) = meetb px m2 x).
  { intros [p q] I. destruct (R2 p q I) as [Hp Hq]. destruct (meetb_piece n2 m2 (pi_numbers _ _ _ (ts_second _ _ _ _ _ T)) B2 p q Hp Hq) as [X1 X2].
    unfold new_polygons. cbn [fst snd]. rewrite <- X1. apply (meetb_undirected (f2 p) (f2 q) (f2 p, f2 q)); [congruence|reflexivity]. }
  assert (Q3 : forall x, In x across -> meetb px w (g x) = tested (f1 (fst x)) (f2 (snd x))).
  { intros [p q] I. destruct (R3 p q I) as [Hp Hq]. destruct (meetb_across p q Hp Hq) as [X1 X2]. unfold g. cbn [fst snd]. rewrite <- X1.
    apply (meetb_undirected (f1 p) (f2 q) (f1 p, f2 q)); [congruence|reflexivity]. }
  assert (Q : forall x, In x c -> meetb px w (undirected x) = meetb px w x).
  { intros x I. apply (in_map undirected) in I. apply (Permutation_in _ P) in I. rewrite !in_app_iff, !in_map_iff in I.
    assert (K : exists a b, undirected x = undirected (a, b) /\ meetb px w (a, b) = meetb px w (b, a)).
    { destruct I as [([p q] & E & I)|[([p q] & E & I)|([p q] & E & I)]].
      - exists (f1 p), (f1 q). split; [symmetry; exact E|]. destruct (R1 p q I) as [Hp Hq]. destruct (meetb_piece n1 m1 (pi_numbers _ _ _ (ts_first _ _ _ _ _ T)) B1 p q Hp Hq). congruence.
      - exists (f2 p), (f2 q). split; [symmetry; exact E|]. destruct (R2 p q I) as [Hp Hq]. destruct (meetb_piece n2 m2 (pi_numbers _ _ _ (ts_second _ _ _ _ _ T)) B2 p q Hp Hq). congruence.
      - exists (f1 p), (f2 q). split; [symmetry; exact E|]. destruct (R3 p q I) as [Hp Hq]. destruct (meetb_across p q Hp Hq). congruence. }
    destruct K as (a & b & E & K). destruct (meetb_undirected a b x K E) as [Y1 Y2]. congruence. }
  exists (filter (fun pq => tested (f1 (fst pq)) (f2 (snd pq))) across). split; [apply filter_lists|].
  etransitivity; [apply (Permutation_map _ L)|]. rewrite (filter_map_compat _ _ undirected (meetb px w) (meetb px w) c) by exact Q.
  etransitivity; [apply (permutation_filter _ _ _ _ P)|]. rewrite !filter_app.
  rewrite <- (filter_map_compat _ _ (new_polygons n1) (meetb px m1) (meetb px w) c1) by exact Q1.
  rewrite <- (filter_map_compat _ _ (new_polygons n2) (meetb px m2) (meetb px w) c2) by exact Q2.
  rewrite <- (filter_map_compat _ _ g (fun pq => tested (f1 (fst pq)) (f2 (snd pq))) (meetb px w) across) by exact Q3.
  apply Permutation_app; [apply Permutation_map; symmetry; exact L1|]. apply Permutation_app; [apply Permutation_map; symmetry; exact L2|]. apply Permutation_refl.
Qed.
End Two.

(** ** Counts *)
Lemma nb_both : forall A B (f g : A -> B) r1 r2 r, both f g r1 r2 r -> nb_issues r = add32 (nb_issues r1) (nb_issues r2).
Proof.
  intros A B f g r1 r2 r P. unfold nb_issues, size32, add32, u32. rewrite (Permutation_length P), app_length, !map_length, Nat2N.inj_add. rewrite <- N.add_mod by discriminate. reflexivity.
Qed.
Lemma add32_mod : forall a b, (add32 a b mod 2 ^ 32 = (a + b) mod 2 ^ 32)%N.
Proof. intros a b. unfold add32, u32. apply N.mod_mod. discriminate. Qed.
Lemma sum32_from : forall l a, (fold_left add32 l a mod 2 ^ 32 = (a + fold_left N.add l 0) mod 2 ^ 32)%N.
Proof.
  induction l as [|x l IH]; intros a; [cbn [fold_left]; rewrite N.add_0_r; reflexivity|]. cbn [fold_left]. rewrite IH.
  assert (E : forall l y, (fold_left N.add l y = y + fold_left N.add l 0)%N).
  { clear. induction l as [|z l IH]; intros y; [cbn; lia|]. cbn [fold_left]. rewrite IH, (IH (0 + z)%N). lia. }
  rewrite (E l (0 + x)%N). rewrite N.add_mod by discriminate. rewrite add32_mod. rewrite <- N.add_mod by discriminate. f_equal. lia.
Qed.
Lemma sum32_small : forall l, (sum32 l < 2 ^ 32)%N.
Proof.
  intros l. unfold sum32. assert (K : forall k a, (a < 2 ^ 32)%N -> (fold_left add32 k a < 2 ^ 32)%N).
  { induction k as [|x k IH]; intros a Ha; [exact Ha|]. cbn [fold_left]. apply IH. unfold add32, u32. apply N.mod_lt. discriminate. }
  apply K. reflexivity.
Qed.
Lemma sum32_mod : forall l, sum32 l = (fold_left N.add l 0 mod 2 ^ 32)%N.
Proof. intros l. rewrite <- (N.mod_small (sum32 l) (2 ^ 32)) by apply sum32_small. unfold sum32. rewrite sum32_from. reflexivity. Qed.
Lemma sum32_both : forall l1 l2 l, Forall2 (fun p x => x = add32 (fst p) (snd p)) (combine l1 l2) l -> length l1 = length l2 -> sum32 l = add32 (sum32 l1) (sum32 l2).
Proof.
  intros l1 l2 l F E. unfold add32, u32. rewrite !sum32_mod. rewrite <- N.add_mod by discriminate. 
  assert (A : forall l y, (fold_left N.add l y = y + fold_left N.add l 0)%N).
  { clear. induction l as [|z l IH]; intros y; [cbn; lia|]. cbn [fold_left]. rewrite IH, (IH (0 + z)%N). lia. }
  revert l2 l F E. induction l1 as [|a l1 IH]; intros [|b l2] l F E; try discriminate.
  - inversion F. reflexivity.
  - cbn [combine] in F. inversion F as [|? x ? l' E1 F' E2 E3]; subst. cbn [fst snd fold_left]. rewrite (A l' _), (A l1 _), (A l2 _).
    rewrite N.add_mod by discriminate. rewrite (IH l2 l' F') by (cbn in E; lia). rewrite N.add_0_l, add32_mod. rewrite <- N.add_mod by discriminate. f_equal. lia.
Qed.
