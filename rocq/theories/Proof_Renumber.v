(** Renumbering a mesh renumbers its report: surfaces and curves. *)
From Coq Require Import String Ascii List Arith NArith ZArith Bool Lia Permutation Sorted Mergesort.
From Verif Require Import Base BaseFacts Model_Issues Types Model_Hash Model_Adjacency Model_Colocation Model_Manifold Model_Degeneration
  Spec_Cycles Spec_Maps Spec_Colocation Spec_Adjacency Spec_Manifold Spec_Degeneration Spec_Negative Spec_Renumber
  Proof_Colocation Proof_Adjacency Proof_Manifold Proof_Manifold2 Proof_Manifold3 Proof_Degeneration.
Import ListNotations.
Open Scope list_scope.

(** ** Generic *)
Lemma numbers_onto : forall n f, numbers n f -> forall y, y < n -> exists x, x < n /\ f x = y.
Proof.
  intros n f [H1 H2] y Hy. assert (I : In y (map f (seq 0 n))).
  { assert (N : NoDup (map f (seq 0 n))).
    { assert (G : forall l, NoDup l -> (forall i, In i l -> i < n) -> NoDup (map f l)).
      { induction l as [|x l IH]; intros ND B; [constructor|]. inversion ND as [|? ? K1 K2]; subst. cbn [map]. constructor.
        - rewrite in_map_iff. intros (z & E & Hz). apply H2 in E; [subst z; contradiction|apply B; right; exact Hz|apply B; left; reflexivity].
        - apply IH; [exact K2|]. intros i Hi. apply B. right. exact Hi. }
      apply G; [apply seq_NoDup|]. intros i Hi. apply in_seq in Hi. lia. }
    assert (L : incl (seq 0 n) (map f (seq 0 n))).
    { apply (NoDup_length_incl N); [rewrite map_length; lia|]. intros z Hz. apply in_map_iff in Hz. destruct Hz as (x & <- & Hx).
      apply in_seq in Hx. apply in_seq. specialize (H1 x). lia. }
    apply L. apply in_seq. lia. }
  apply in_map_iff in I. destruct I as (x & E & Hx). exists x. split; [apply in_seq in Hx; lia|exact E].
Qed.
Lemma sorted_lt_NoDup : forall l, StronglySorted lt l -> NoDup l.
Proof.
  induction 1 as [|x l H IH F]; constructor; [|exact IH]. intros K. rewrite Forall_forall in F. specialize (F x K). lia.
Qed.
Lemma sorted_lex_NoDup : forall l, StronglySorted lex_lt l -> NoDup l.
Proof.
  induction 1 as [|x l H IH F]; constructor; [|exact IH]. intros K. rewrite Forall_forall in F. specialize (F x K). unfold lex_lt in F. lia.
Qed.
Lemma NoDup_map_on : forall A B (f : A -> B) l, NoDup l -> (forall x y, In x l -> In y l -> f x = f y -> x = y) -> NoDup (map f l).
Proof.
  induction l as [|x l IH]; intros ND I; [constructor|]. inversion ND as [|? ? K1 K2]; subst. cbn [map]. constructor.
  - rewrite in_map_iff. intros (z & E & Hz). apply I in E; [subst z; contradiction|right; exact Hz|left; reflexivity].
  - apply IH; [exact K2|]. intros a b Ha Hb. apply I; right; assumption.
Qed.
Lemma transport_once : forall A B (f : A -> B) (P : A -> Prop) (P' : B -> Prop) l l',
  lists_once P l -> lists_once P' l' ->
  (forall x y, P x -> P y -> f x = f y -> x = y) ->
  (forall x, P x -> P' (f x)) -> (forall y, P' y -> exists x, P x /\ y = f x) -> Permutation l' (map f l).
Proof.
  intros A B f P P' l l' [N1 L1] [N2 L2] Hi Hf Hb. apply NoDup_Permutation; [exact N2| |].
  - apply NoDup_map_on; [exact N1|]. intros x y Hx Hy. apply Hi; apply L1; assumption.
  - intros y. rewrite L2, in_map_iff. split.
    + intros Hy. destruct (Hb y Hy) as (x & Hx & ->). exists x. split; [reflexivity|]. apply L1. exact Hx.
    + intros (x & <- & Hx). apply Hf. apply L1. exact Hx.
Qed.
Lemma exactly_once_lt : forall (P : nat -> Prop) l, lists_exactly lt P l -> lists_once P l.
Proof. intros P l [H1 H2]. split; [apply sorted_lt_NoDup; exact H1|exact H2]. Qed.
Lemma exactly_once_lex : forall (P : nat * nat -> Prop) l, lists_exactly lex_lt P l -> lists_once P l.
Proof. intros P l [H1 H2]. split; [apply sorted_lex_NoDup; exact H1|exact H2]. Qed.
(** a predicate on [0, ..., k - 1] *)
Lemma transport_range : forall (f : nat -> nat) k (P P' : nat -> Prop) l l', numbers k f ->
  lists_exactly lt P l -> lists_exactly lt P' l' -> (forall x, P x -> x < k) -> (forall x, P' x -> x < k) ->
  (forall x, x < k -> (P' (f x) <-> P x)) -> Permutation l' (map f l).
Proof.
  intros f k P P' l l' Hn L L' B B' H. apply (transport_once _ _ f P P' l l' (exactly_once_lt _ _ L) (exactly_once_lt _ _ L')).
  - intros x y Hx Hy. apply Hn; apply B; assumption.
  - intros x Hx. apply H; [apply B; exact Hx|exact Hx].
  - intros y Hy. destruct (numbers_onto k f Hn y (B' y Hy)) as (x & Hx & <-). exists x. split; [|reflexivity]. apply H; assumption.
Qed.
Lemma lists_once_map : forall A B (f : A -> B) (P : A -> Prop) (P' : B -> Prop) l, lists_once P l ->
  (forall x y, P x -> P y -> f x = f y -> x = y) -> (forall x, P x -> P' (f x)) -> (forall y, P' y -> exists x, P x /\ y = f x) ->
  lists_once P' (map f l).
Proof.
  intros A B f P P' l [N L] Hi Hf Hb. split.
  - apply NoDup_map_on; [exact N|]. intros x y Hx Hy. apply Hi; apply L; assumption.
  - intros y. rewrite in_map_iff. split.
    + intros (x & <- & Hx). apply Hf. apply L. exact Hx.
    + intros Hy. destruct (Hb y Hy) as (x & Hx & ->). exists x. split; [reflexivity|]. apply L. exact Hx.
Qed.
Lemma nth_map_in : forall A B (f : A -> B) l i d d', i < length l -> nth i (map f l) d' = f (nth i l d).
Proof. intros A B f l i d d' H. rewrite (nth_indep _ d' (f d)) by (rewrite map_length; exact H). apply map_nth. Qed.

(** ** Points *)
Lemma points_at : forall n pts pts' vs, renumbered_points n pts pts' -> (forall v, In v vs -> v < length pts) ->
  map (nth_error pts') (map (new_vertex n) vs) = map (nth_error pts) vs.
Proof. intros n pts pts' vs (_ & _ & H) Hv. rewrite map_map. apply map_ext_in. intros v I. apply H. apply Hv. exact I. Qed.

(** ** Stored edges *)
Lemma edges_range : forall n pts edges edges', renumbered_edges n (length pts) edges edges' -> edges_in_range pts edges.
Proof. intros n pts edges edges' (_ & _ & H) a b I. apply In_nth_error in I. destruct I as [k E]. destruct (H k a b E) as (A1 & A2 & _). auto. Qed.
Lemma edges_range' : forall n pts pts' edges edges', renumbered_points n pts pts' -> renumbered_edges n (length pts) edges edges' -> edges_in_range pts' edges'.
Proof.
  intros n pts pts' edges edges' (P1 & [P2 _] & _) (L & N & H) a b I. apply In_nth_error in I. destruct I as [k' E].
  assert (Hk : k' < length edges) by (rewrite <- L; apply nth_error_Some; congruence).
  destruct (numbers_onto _ _ N k' Hk) as (k & Hk1 & <-). destruct (nth_error edges k) as [[x y]|] eqn:E1; [|apply nth_error_None in E1; lia].
  destruct (H k x y E1) as (A1 & A2 & A3). rewrite E in A3. injection A3 as -> ->. rewrite P1. split; apply P2; assumption.
Qed.
Lemma shorter_renumbered : forall ms n pts pts' edges edges' t, renumbered_points n pts pts' -> renumbered_edges n (length pts) edges edges' ->
  forall k, k < length edges -> (shorter_edge ms pts' edges' t (new_edge n k) <-> shorter_edge ms pts edges t k).
Proof.
  intros ms n pts pts' edges edges' t (P1 & P2 & P3) (L & N & H) k Hk. unfold shorter_edge.
  destruct (nth_error edges k) as [[x y]|] eqn:E1; [|apply nth_error_None in E1; lia].
  destruct (H k x y E1) as (A1 & A2 & A3). split.
  - intros (a & b & p & q & B1 & B2 & B3 & B4). rewrite A3 in B1. injection B1 as <- <-. rewrite P3 in B2, B3 by assumption.
    exists x, y, p, q. auto.
  - intros (a & b & p & q & B1 & B2 & B3 & B4). injection B1 as <- <-. exists (new_vertex n x), (new_vertex n y), p, q.
    rewrite !P3 by assumption. auto.
Qed.
Lemma small_edges_renumbered : forall ms geo n pts pts' edges edges' t st st', renumbered_points n pts pts' ->
  renumbered_edges n (length pts) edges edges' ->
  exists r r', impl_small_edges ms geo pts edges t st = (Ok r, enable_edges_on_mesh st) /\
    impl_small_edges ms geo pts' edges' t st' = (Ok r', enable_edges_on_mesh st') /\ renumbered_issues (new_edge n) r r'.
Proof.
  intros ms geo n pts pts' edges edges' t st st' P E.
  destruct (impl_small_edges_spec ms geo pts edges t st (edges_range _ _ _ _ E)) as (r & R1 & R2).
  destruct (impl_small_edges_spec ms geo pts' edges' t st' (edges_range' _ _ _ _ _ P E)) as (r' & R1' & R2').
  exists r, r'. split; [exact R1|]. split; [exact R1'|].
  apply (transport_range (new_edge n) (length edges) _ _ _ _ (proj1 (proj2 E)) R2 R2').
  - apply shorter_bound.
  - intros x Hx. rewrite <- (proj1 E). apply (shorter_bound _ _ _ _ _ Hx).
  - apply (shorter_renumbered ms n pts pts' edges edges' t P E).
Qed.

(** ** Colocated points *)
Lemma groups_unique : forall (g h : list nat) l, NoDup (concat l) -> In g l -> In h l -> (exists x, In x g /\ In x h) -> g = h.
Proof.
  intros g h l. induction l as [|a l IH]; intros N Ig Ih (x & X1 & X2); [destruct Ig|]. cbn [concat] in N.
  assert (D : forall y, In y a -> ~ In y (concat l)).
  { intros y Hy K. apply in_split in Hy. destruct Hy as (u & v & ->). rewrite <- app_assoc in N. cbn [app] in N.
    apply NoDup_remove_2 in N. apply N. rewrite !in_app_iff. auto. }
  destruct Ig as [<-|Ig], Ih as [<-|Ih]; [reflexivity| | |].
  - exfalso. apply (D x X1). apply in_concat. eauto.
  - exfalso. apply (D x X2). apply in_concat. eauto.
  - apply IH; [|assumption|assumption|eauto]. clear -N. induction a as [|z a IHa]; [exact N|]. inversion N. auto.
Qed.
Lemma concat_NoDup_list : forall (l : list (list nat)), NoDup (concat l) -> (forall g, In g l -> g <> []) -> NoDup l.
Proof.
  induction l as [|a l IH]; intros N H; [constructor|]. constructor.
  - intros K. destruct a as [|x a]; [apply (H []); [left|]; reflexivity|]. cbn [concat app] in N. inversion N as [|? ? N1 N2]; subst.
    apply N1. apply in_app_iff. right. apply in_concat. exists (x :: a). split; [exact K|left; reflexivity].
  - apply IH; [|intros g Hg; apply H; right; exact Hg]. cbn [concat] in N. clear -N. induction a as [|z a IHa]; [exact N|]. inversion N. auto.
Qed.
Lemma nat_sort_sorted : forall l, NoDup l -> StronglySorted lt (NatSort.sort l).
Proof.
  intros l N. apply (Permutation_NoDup (NatSort.Permuted_sort l)) in N.
  assert (T : RelationClasses.Transitive (fun x y => is_true (NatOrder.leb x y))).
  { intros x y z. change (is_true (Nat.leb x y) -> is_true (Nat.leb y z) -> is_true (Nat.leb x z)). unfold is_true. rewrite !Nat.leb_le. lia. }
  pose proof (NatSort.StronglySorted_sort l T) as S. clear T. induction S as [|x k S IH F]; [constructor|].
  inversion N as [|? ? N1 N2]; subst. constructor; [apply IH; exact N2|].
  rewrite Forall_forall in *. intros y Hy. specialize (F y Hy). change (is_true (Nat.leb x y)) in F. unfold is_true in F. apply Nat.leb_le in F.
  destruct (Nat.eq_dec x y); [subst; contradiction|lia].
Qed.
Lemma nat_sort_in : forall l x, In x (NatSort.sort l) <-> In x l.
Proof. intros l x. split; apply Permutation_in; [symmetry|]; apply NatSort.Permuted_sort. Qed.
Lemma another_member : forall (g : list nat) i, 2 <= length g -> StronglySorted lt g -> In i g -> exists j, In j g /\ i <> j.
Proof.
  intros g i L S I. destruct g as [|a [|b g]]; cbn in L; [lia|lia|]. apply StronglySorted_inv in S. destruct S as [_ F].
  inversion F as [|? ? F1 _]; subst. destruct (Nat.eq_dec i a) as [->|D]; [exists b; split; [right; left; reflexivity|lia]|exists a; split; [left; reflexivity|exact D]].
Qed.
Lemma groups_renumbered : forall (c c' : ColocatedInfo) f groups groups' k, numbers k f ->
  length (colocated_mapping c) = k -> length (colocated_mapping c') = k ->
  (forall i j, i < k -> j < k -> (same_place c' (f i) (f j) <-> same_place c i j)) ->
  colocation_groups c groups -> colocation_groups c' groups' ->
  Permutation groups' (map (fun g => NatSort.sort (map f g)) groups).
Proof.
  intros c c' f groups groups' k N L L' H G G'.
  assert (NE : forall c0 gs, colocation_groups c0 gs -> forall g, In g gs -> g <> []).
  { intros c0 gs K g Hg ->. pose proof (cg_size _ _ K _ Hg). cbn in *. lia. }
  assert (R : forall g i, In g groups -> In i g -> i < k) by (intros g i Hg Hi; rewrite <- L; apply (cg_range _ _ G g i Hg Hi)).
  assert (R' : forall g i, In g groups' -> In i g -> i < k) by (intros g i Hg Hi; rewrite <- L'; apply (cg_range _ _ G' g i Hg Hi)).
  (* a group and a new group that share a vertex have the same vertices *)
  assert (M : forall g g' i, In g groups -> In g' groups' -> In i g -> In (f i) g' -> forall x, x < k -> (In (f x) g' <-> In x g)).
  { intros g g' i Ig Ig' Ii Ii' x Hx. pose proof (R g i Ig Ii) as Hi. destruct (Nat.eq_dec i x) as [<-|D]; [tauto|].
    assert (D' : f i <> f x) by (intros E; apply D; apply (proj2 N); assumption). split; intros K.
    - assert (S : same_place c' (f i) (f x)) by (apply (cg_pairs _ _ G' _ _ D'); eauto).
      apply (H i x Hi Hx) in S. apply (cg_pairs _ _ G _ _ D) in S. destruct S as (h & Ih & Hh1 & Hh2).
      rewrite (groups_unique g h groups (cg_disjoint _ _ G) Ig Ih); [exact Hh2|eauto].
    - assert (S : same_place c i x) by (apply (cg_pairs _ _ G _ _ D); eauto).
      apply (H i x Hi Hx) in S. apply (cg_pairs _ _ G' _ _ D') in S. destruct S as (h & Ih & Hh1 & Hh2).
      rewrite (groups_unique g' h groups' (cg_disjoint _ _ G') Ig' Ih); [exact Hh2|eauto]. }
  assert (Q : forall g g' i, In g groups -> In g' groups' -> In i g -> In (f i) g' -> g' = NatSort.sort (map f g)).
  { intros g g' i Ig Ig' Ii Ii'. apply (sorted_unique _ lt); [intros x; lia|intros; lia|apply (cg_sorted _ _ G' _ Ig')| |].
    - apply nat_sort_sorted. apply NoDup_map_on; [apply sorted_lt_NoDup; apply (cg_sorted _ _ G _ Ig)|].
      intros x y Hx Hy. apply N; apply (R g); assumption.
    - intros y. rewrite nat_sort_in, in_map_iff. split.
      + intros Hy. destruct (numbers_onto k f N y (R' g' y Ig' Hy)) as (x & Hx & <-). exists x. split; [reflexivity|]. apply (M g g' i); assumption.
      + intros (x & <- & Hx). apply (M g g' i); try assumption. apply (R g x Ig Hx). }
  apply NoDup_Permutation.
  - apply concat_NoDup_list; [apply (cg_disjoint _ _ G')|apply (NE _ _ G')].
  - apply NoDup_map_on; [apply concat_NoDup_list; [apply (cg_disjoint _ _ G)|apply (NE _ _ G)]|].
    intros g h Ig Ih E. pose proof (NE _ _ G g Ig) as Ng. destruct g as [|i g]; [congruence|]. apply (groups_unique _ _ groups (cg_disjoint _ _ G) Ig Ih).
    exists i. split; [left; reflexivity|]. assert (K : In (f i) (NatSort.sort (map f (i :: g)))) by (apply nat_sort_in; left; reflexivity).
    rewrite E in K. rewrite nat_sort_in in K. apply in_map_iff in K. destruct K as (x & Ex & Hx).
    apply (proj2 N) in Ex; [subst x; exact Hx|apply (R h); assumption|apply (R (i :: g)); [exact Ig|left; reflexivity]].
  - intros g'. rewrite in_map_iff. split.
    + intros Ig'. pose proof (NE _ _ G' g' Ig') as Ng. destruct g' as [|y t] eqn:Eg'; [congruence|]. rewrite <- Eg' in *. clear Ng.
      assert (Iy : In y g') by (rewrite Eg'; left; reflexivity).
      destruct (another_member g' y (cg_size _ _ G' _ Ig') (cg_sorted _ _ G' _ Ig') Iy) as (z & Iz & D').
      destruct (numbers_onto k f N y (R' g' y Ig' Iy)) as (i & Hi & Ei). destruct (numbers_onto k f N z (R' g' z Ig' Iz)) as (j & Hj & Ej). rewrite <- Ei, <- Ej in *.
      assert (D : i <> j) by (intros ->; congruence).
      assert (S : same_place c' (f i) (f j)) by (apply (cg_pairs _ _ G' _ _ D'); eauto).
      apply (H i j Hi Hj) in S. apply (cg_pairs _ _ G _ _ D) in S. destruct S as (h & Ih & Hh1 & Hh2).
      exists h. split; [|exact Ih]. symmetry. apply (Q h g' i); assumption.
    + intros (g & <- & Ig). pose proof (NE _ _ G g Ig) as Ng. destruct g as [|i t] eqn:Eg; [congruence|]. rewrite <- Eg in *. clear Ng.
      assert (Ii : In i g) by (rewrite Eg; left; reflexivity).
      destruct (another_member g i (cg_size _ _ G _ Ig) (cg_sorted _ _ G _ Ig) Ii) as (j & Ij & D).
      assert (D' : f i <> f j) by (intros E; apply D; apply (proj2 N); [apply (R g)|apply (R g)|]; assumption).
      assert (S : same_place c i j) by (apply (cg_pairs _ _ G _ _ D); eauto).
      apply (H i j (R g i Ig Ii) (R g j Ig Ij)) in S. apply (cg_pairs _ _ G' _ _ D') in S. destruct S as (h & Ih & Hh1 & Hh2).
      rewrite <- (Q g h i); assumption.
Qed.
Lemma colocation_renumbered : forall geo n pts pts', renumbered_points n pts pts' -> blind_search geo n pts pts' ->
  exists r r', colocated_points_groups geo pts = Ok r /\ colocated_points_groups geo pts' = Ok r' /\ renumbered_issues (new_group n) r r'.
Proof.
  intros geo n pts pts' (P1 & P2 & _) (C & C' & H).
  destruct (colocated_points_groups_spec geo pts C) as (r & R1 & R2). destruct (colocated_points_groups_spec geo pts' C') as (r' & R1' & R2').
  exists r, r'. split; [exact R1|]. split; [exact R1'|].
  apply (groups_renumbered _ _ (new_vertex n) _ _ (length pts) P2 (proj1 C) (eq_trans (proj1 C') P1) H R2 R2').
Qed.
