(** Searches that meet the contracts of OpenGeode's, for every model; an exact colocation that meets its contract. *)
From Coq Require Import String Ascii List Arith NArith ZArith Bool Lia Permutation Floats.SpecFloat.
From Verif Require Import Base BaseFacts Model_Issues Types Spec_Colocation Spec_Cycles Spec_Adjacency Proof_Adjacency Proof_GoodModels.
Import ListNotations.
Open Scope list_scope.

Definition option_is (x : option nat) (n : nat) : bool := match x with Some k => Nat.eqb k n | None => false end.
Lemma option_is_iff : forall x n, option_is x n = true <-> x = Some n.
Proof. intros [k|] n; cbn; [rewrite Nat.eqb_eq|]; split; congruence. Qed.
Definition search_lines (m : Model) (a b : nat) : list (uuid * nat) :=
  flat_map (fun c : Component EdgedCurve => let uv x := m_unique_vertex m (mkCMV (mkCID LineT (co_id c)) x) in
    map (fun e => (co_id c, fst e))
      (filter (fun e => (option_is (uv (fst (snd e))) a && option_is (uv (snd (snd e))) b) || (option_is (uv (fst (snd e))) b && option_is (uv (snd (snd e))) a))
         (combine (seq 0 (length (ec_edges (co_mesh c)))) (ec_edges (co_mesh c))))) (m_lines m).
Fixpoint rotations {A} (n : nat) (l : list A) : list (list A) :=
  match n with 0 => [l] | S k => l :: rotations k (match l with [] => [] | x :: l' => l' ++ [x] end) end.
Fixpoint all_some (l : list (option nat)) : option (list nat) :=
  match l with [] => Some [] | Some x :: l' => option_map (cons x) (all_some l') | None :: _ => None end.
Definition same_cycleb (a b : list nat) : bool :=
  existsb (fun r => if list_eq_dec Nat.eq_dec r b then true else false) (rotations (length a) a ++ rotations (length a) (rev a)).
Definition search_polygons (m : Model) (uvs : list nat) : list (uuid * nat) :=
  flat_map (fun c : Component SurfaceMesh => map (fun p => (co_id c, p))
    (filter (fun p => match all_some (map (fun x => m_unique_vertex m (mkCMV (mkCID SurfaceT (co_id c)) x)) (polygon_vertices (co_mesh c) p)) with
                      | Some cycle => same_cycleb uvs cycle | None => false end) (seq 0 (nb_polygons (co_mesh c))))) (m_surfaces m).
Definition search_lookup (m : Model) : Lookup := mkLookup (fun ab => Ok (search_lines m (fst ab) (snd ab))) (fun uvs => Ok (search_polygons m uvs)).

Lemma nonempty_flat_map : forall A B (f : A -> list B) l, flat_map f l <> [] <-> exists x, In x l /\ f x <> [].
Proof.
  intros A B f l. induction l as [|a l IH]; cbn; [split; [congruence|intros (x & [] & _)]|]. destruct (f a) as [|y k] eqn:E; cbn.
  - rewrite IH. split; [intros (x & I & N); eauto|intros (x & [<-|I] & N); [congruence|eauto]].
  - split; [intros _; exists a; rewrite E; split; [left; reflexivity|discriminate]|discriminate].
Qed.
Lemma nonempty_map_filter : forall A B (f : A -> B) p l, map f (filter p l) <> [] <-> exists x, In x l /\ p x = true.
Proof.
  intros A B f p l. induction l as [|a l IH]; cbn; [split; [congruence|intros (x & [] & _)]|]. destruct (p a) eqn:E; cbn.
  - split; [intros _; exists a; auto|discriminate].
  - rewrite IH. split; [intros (x & I & N); eauto|intros (x & [<-|I] & N); [congruence|eauto]].
Qed.
Lemma all_some_iff : forall l k, all_some l = Some k <-> l = map Some k.
Proof.
  induction l as [|[x|] l IH]; intros [|y k]; cbn; split; try discriminate; try reflexivity; intros E.
  - destruct (all_some l); discriminate.
  - destruct (all_some l) as [k'|]; [|discriminate]. cbn in E. injection E as -> ->. f_equal. apply IH. reflexivity.
  - injection E as -> E. rewrite (proj2 (IH k) E). reflexivity.
Qed.
Lemma rotations_app : forall A (v u : list A) n, length u <= n -> In (v ++ u) (rotations n (u ++ v)).
Proof.
  intros A v u. revert v. induction u as [|x u IH]; intros v n L.
  - rewrite app_nil_r. destruct n; left; reflexivity.
  - destruct n as [|n]; [cbn in L; lia|]. right. cbn [app]. rewrite <- app_assoc. specialize (IH (v ++ [x]) n ltac:(cbn in L; lia)). rewrite <- app_assoc in IH. exact IH.
Qed.
Lemma rotation_shift : forall A (x : A) l b, same_oriented_cycle (l ++ [x]) b -> same_oriented_cycle (x :: l) b.
Proof.
  intros A x l b (u & v & E & ->). destruct v as [|y v] using rev_ind.
  - rewrite app_nil_r in E. subst u. exists [x], l. auto.
  - rewrite app_assoc in E. apply app_inj_tail in E as [-> <-]. exists (x :: u), v. split; [reflexivity|]. rewrite <- app_assoc. reflexivity.
Qed.
Lemma rotations_iff : forall A (a b : list A), In b (rotations (length a) a) <-> same_oriented_cycle a b.
Proof.
  intros A a b. split.
  - generalize (length a). intros n. revert a. induction n as [|n IH]; intros a I; cbn in I.
    + destruct I as [->|[]]. exists [], b. rewrite app_nil_r. auto.
    + destruct I as [->|I]; [exists [], b; rewrite app_nil_r; auto|]. apply IH in I. destruct a as [|x a]; [exact I|]. apply rotation_shift, I.
  - intros (u & v & -> & ->). apply rotations_app. rewrite app_length. lia.
Qed.
Lemma same_cycleb_iff : forall a b, same_cycleb a b = true <-> same_cycle a b.
Proof.
  intros a b. unfold same_cycleb, same_cycle. rewrite <- !rotations_iff, existsb_exists, rev_length. split.
  - intros (r & I & E). destruct (list_eq_dec Nat.eq_dec r b) as [->|]; [|discriminate]. apply in_app_iff in I. exact I.
  - intros I. exists b. split; [apply in_app_iff; exact I|]. destruct (list_eq_dec Nat.eq_dec b b); congruence.
Qed.
Lemma in_numbered : forall A (l : list A) i x, In (i, x) (combine (seq 0 (length l)) l) <-> nth_error l i = Some x.
Proof.
  intros A l i x. assert (G : forall k j, In (j, x) (combine (seq k (length l)) l) <-> k <= j /\ nth_error l (j - k) = Some x).
  { induction l as [|a l IH]; intros k j; cbn [length seq combine In].
    - split; [intros []|]. intros [_ E]. destruct (j - k); discriminate.
    - rewrite IH. split.
      + intros [E|[L E]]; [injection E as <- <-; rewrite Nat.sub_diag; auto|]. split; [lia|]. replace (j - k) with (S (j - S k)) by lia. exact E.
      + intros [L E]. destruct (Nat.eq_dec j k) as [->|N]; [left; rewrite Nat.sub_diag in E; injection E as ->; reflexivity|]. right. split; [lia|].
        replace (j - k) with (S (j - S k)) in E by lia. exact E. }
  rewrite (G 0 i), Nat.sub_0_r. split; [tauto|]. split; [lia|assumption].
Qed.
Lemma search_right : forall m, lookup_right m (search_lookup m).
Proof.
  intros m. split.
  - intros a b _ _. exists (search_lines m a b). split; [reflexivity|]. unfold search_lines, joined_by_a_line. rewrite nonempty_flat_map. split.
    + intros (c & I & N). apply nonempty_map_filter in N as ((i & v & w) & J & E). cbn [fst snd] in E. apply in_numbered in J. exists c, i, v, w. split; [exact I|]. split; [exact J|].
      cbv zeta. apply orb_true_iff in E. rewrite !andb_true_iff, !option_is_iff in E. exact E.
    + intros (c & i & v & w & I & J & E). exists c. split; [exact I|]. apply nonempty_map_filter. exists (i, (v, w)). cbn [fst snd]. split; [apply in_numbered; exact J|].
      cbv zeta in E. apply orb_true_iff. rewrite !andb_true_iff, !option_is_iff. exact E.
  - intros uvs. exists (search_polygons m uvs). split; [reflexivity|]. unfold search_polygons, covered_by_a_surface. rewrite nonempty_flat_map. split.
    + intros (c & I & N). apply nonempty_map_filter in N as (p & J & E). apply in_seq in J. exists c, p. split; [exact I|]. split; [lia|].
      destruct (all_some _) as [cycle|] eqn:K; [|discriminate]. exists cycle. split; [apply all_some_iff, K|]. apply same_cycleb_iff, E.
    + intros (c & p & I & J & cycle & K & E). exists c. split; [exact I|]. apply nonempty_map_filter. exists p. split; [apply in_seq; lia|].
      apply all_some_iff in K. rewrite K. apply same_cycleb_iff, E.
Qed.

(** ** Exact colocation *)
Lemma index_of_bound : forall p l i j, index_of p l i = Some j -> i <= j < i + length l.
Proof.
  induction l as [|q l IH]; intros i j E; cbn in E; [discriminate|]. destruct (same_point q p); [injection E as <-; cbn; lia|]. apply IH in E. cbn. lia.
Qed.
Lemma exact_consistent : forall points, consistent points (g_colocated exact_geo points).
Proof.
  intros points. cbn [g_colocated exact_geo]. unfold exact_colocated.
  set (step := fun acc p => let '(map, u) := acc in match index_of p u 0 with Some i => (map ++ [i], u) | None => (map ++ [length u], u ++ [p]) end).
  assert (G : forall l (mp : list nat) (u : list Point) done, length mp = length done -> (forall x, In x mp -> x < length u) -> (forall x, x < length u -> In x mp) ->
    let r := fold_left step l (mp, u) in length (fst r) = length (done ++ l) /\ (forall x, In x (fst r) -> x < length (snd r)) /\ (forall x, x < length (snd r) -> In x (fst r))).
  { induction l as [|p l IH]; intros mp u done L B C; cbn [fold_left].
    - rewrite app_nil_r. cbn [fst snd]. auto.
    - cbn [step]. destruct (index_of p u 0) as [i|] eqn:E.
      + replace (done ++ p :: l) with ((done ++ [p]) ++ l) by (rewrite <- app_assoc; reflexivity). apply index_of_bound in E. apply IH.
        * rewrite !app_length, L. reflexivity.
        * intros x I. apply in_app_iff in I as [I|[<-|[]]]; [apply B, I|lia].
        * intros x X. apply in_app_iff. left. apply C, X.
      + replace (done ++ p :: l) with ((done ++ [p]) ++ l) by (rewrite <- app_assoc; reflexivity). apply IH.
        * rewrite !app_length, L. reflexivity.
        * intros x I. rewrite app_length. cbn. apply in_app_iff in I as [I|[<-|[]]]; [apply B in I; lia|lia].
        * intros x X. rewrite app_length in X. cbn in X. apply in_app_iff. destruct (Nat.eq_dec x (length u)) as [->|N]; [right; left; reflexivity|left; apply C; lia]. }
  destruct (G points [] [] [] eq_refl ltac:(intros x []) ltac:(intros x X; cbn in X; lia)) as (G1 & G2 & G3). cbv zeta. unfold consistent.
  split; [exact G1|]. split; [exact G2|exact G3].
Qed.
