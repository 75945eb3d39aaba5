(** Inspecting two pieces together or apart: points, stored edges and surfaces. *)
From Coq Require Import String Ascii List Arith NArith ZArith Bool Lia Permutation Sorted Mergesort.
From Verif Require Import Base BaseFacts Model_Issues Types Model_Hash Model_Adjacency Model_Colocation Model_Manifold Model_Degeneration Model_Negative
  Spec_Cycles Spec_Maps Spec_Colocation Spec_Adjacency Spec_Manifold Spec_Degeneration Spec_Negative Spec_Renumber Spec_Pieces Model_Intersections Spec_Intersections
  Proof_Colocation Proof_Adjacency Proof_Manifold Proof_Manifold2 Proof_Manifold3 Proof_Degeneration Proof_Renumber Proof_Renumber2.
Import ListNotations.
Open Scope list_scope.

(** ** Generic *)
Lemma transport_two : forall A B (f g : A -> B) (P1 P2 : A -> Prop) (P' : B -> Prop) l1 l2 l',
  lists_once P1 l1 -> lists_once P2 l2 -> lists_once P' l' ->
  (forall x y, P1 x -> P1 y -> f x = f y -> x = y) -> (forall x y, P2 x -> P2 y -> g x = g y -> x = y) -> (forall x y, P1 x -> P2 y -> f x <> g y) ->
  (forall x, P1 x -> P' (f x)) -> (forall x, P2 x -> P' (g x)) ->
  (forall y, P' y -> (exists x, P1 x /\ y = f x) \/ (exists x, P2 x /\ y = g x)) -> Permutation l' (map f l1 ++ map g l2).
Proof.
  intros A B f g P1 P2 P' l1 l2 l' [N1 L1] [N2 L2] [N L] If Ig D Hf Hg Hb. apply NoDup_Permutation; [exact N| |].
  - assert (M1 : NoDup (map f l1)) by (apply NoDup_map_on; [exact N1|]; intros x y Hx Hy; apply If; apply L1; assumption).
    assert (M2 : NoDup (map g l2)) by (apply NoDup_map_on; [exact N2|]; intros x y Hx Hy; apply Ig; apply L2; assumption).
    assert (Q : forall y, In y (map f l1) -> ~ In y (map g l2)).
    { intros y I J. apply in_map_iff in I. destruct I as (a & <- & I). apply in_map_iff in J. destruct J as (b & E & J).
      apply (D a b); [apply L1; exact I|apply L2; exact J|congruence]. }
    clear - M1 M2 Q. induction (map f l1) as [|z k IH]; [exact M2|]. inversion M1 as [|? ? K1 K2]; subst. cbn [app]. constructor.
    + rewrite in_app_iff. intros [I|I]; [contradiction|]. apply (Q z); [left; reflexivity|exact I].
    + apply IH; [exact K2|]. intros y Hy. apply Q. right. exact Hy.
  - intros y. rewrite L, in_app_iff, !in_map_iff. split.
    + intros Hy. destruct (Hb y Hy) as [(x & Hx & ->)|(x & Hx & ->)]; [left|right]; exists x; (split; [reflexivity|]); [apply L1|apply L2]; exact Hx.
    + intros [(x & <- & Hx)|(x & <- & Hx)]; [apply Hf; apply L1|apply Hg; apply L2]; exact Hx.
Qed.
Lemma transport_two_ranges : forall (f g : nat -> nat) k k1 k2 (P1 P2 P' : nat -> Prop) l1 l2 l', injects k1 k f -> injects k2 k g -> shared_out k k1 k2 f g ->
  lists_exactly lt P1 l1 -> lists_exactly lt P2 l2 -> lists_exactly lt P' l' ->
  (forall x, P1 x -> x < k1) -> (forall x, P2 x -> x < k2) -> (forall x, P' x -> x < k) ->
  (forall x, x < k1 -> (P' (f x) <-> P1 x)) -> (forall x, x < k2 -> (P' (g x) <-> P2 x)) -> Permutation l' (map f l1 ++ map g l2).
Proof.
  intros f g k k1 k2 P1 P2 P' l1 l2 l' [_ If] [_ Ig] [C D] L1 L2 L' B1 B2 B' H1 H2.
  apply (transport_two _ _ f g P1 P2 P' l1 l2 l' (exactly_once_lt _ _ L1) (exactly_once_lt _ _ L2) (exactly_once_lt _ _ L')).
  - intros x y Hx Hy. apply If; apply B1; assumption.
  - intros x y Hx Hy. apply Ig; apply B2; assumption.
  - intros x y Hx Hy. apply D; [apply B1|apply B2]; assumption.
  - intros x Hx. apply H1; [apply B1; exact Hx|exact Hx].
  - intros x Hx. apply H2; [apply B2; exact Hx|exact Hx].
  - intros y Hy. destruct (C y (B' y Hy)) as [(x & Hx & <-)|(x & Hx & <-)]; [left|right]; exists x; (split; [|reflexivity]); [apply H1|apply H2]; assumption.
Qed.

(** ** Stored edges *)
Lemma piece_edges_range : forall n pts edges w, piece_edges n (length pts) edges w -> edges_in_range pts edges.
Proof. intros n pts edges w (_ & H) a b I. apply In_nth_error in I. destruct I as [k E]. destruct (H k a b E) as (A1 & A2 & _). auto. Qed.
Lemma piece_shorter : forall ms n pts pts' edges edges' t, piece_points n pts pts' -> piece_edges n (length pts) edges edges' ->
  forall k, k < length edges -> (shorter_edge ms pts' edges' t (new_edge n k) <-> shorter_edge ms pts edges t k).
Proof.
  intros ms n pts pts' edges edges' t (P2 & P3) (N & H) k Hk. unfold shorter_edge.
  destruct (nth_error edges k) as [[x y]|] eqn:E1; [|apply nth_error_None in E1; lia].
  destruct (H k x y E1) as (A1 & A2 & A3). split.
  - intros (a & b & p & q & B1 & B2 & B3 & B4). rewrite A3 in B1. injection B1 as <- <-. rewrite P3 in B2, B3 by assumption.
    exists x, y, p, q. auto.
  - intros (a & b & p & q & B1 & B2 & B3 & B4). injection B1 as <- <-. exists (new_vertex n x), (new_vertex n y), p, q.
    rewrite !P3 by assumption. auto.
Qed.
Lemma whole_edges_range : forall n1 n2 p1 p2 w e1 e2 we, piece_points n1 p1 w -> piece_points n2 p2 w -> piece_edges n1 (length p1) e1 we -> piece_edges n2 (length p2) e2 we ->
  shared_out (length we) (length e1) (length e2) (new_edge n1) (new_edge n2) -> edges_in_range w we.
Proof.
  intros n1 n2 p1 p2 w e1 e2 we [[P1 _] _] [[P2 _] _] (N1 & H1) (N2 & H2) [C _] a b I. apply In_nth_error in I. destruct I as [k' E].
  assert (Hk : k' < length we) by (apply nth_error_Some; congruence).
  destruct (C k' Hk) as [(k & Hk1 & <-)|(k & Hk1 & <-)].
  - destruct (nth_error e1 k) as [[x y]|] eqn:E1; [|apply nth_error_None in E1; lia]. destruct (H1 k x y E1) as (A1 & A2 & A3). rewrite E in A3. injection A3 as -> ->. auto.
  - destruct (nth_error e2 k) as [[x y]|] eqn:E1; [|apply nth_error_None in E1; lia]. destruct (H2 k x y E1) as (A1 & A2 & A3). rewrite E in A3. injection A3 as -> ->. auto.
Qed.
Lemma small_edges_two : forall ms geo n1 n2 p1 p2 w e1 e2 we t st1 st2 st, piece_points n1 p1 w -> piece_points n2 p2 w ->
  piece_edges n1 (length p1) e1 we -> piece_edges n2 (length p2) e2 we -> shared_out (length we) (length e1) (length e2) (new_edge n1) (new_edge n2) ->
  exists r1 r2 r, impl_small_edges ms geo p1 e1 t st1 = (Ok r1, enable_edges_on_mesh st1) /\ impl_small_edges ms geo p2 e2 t st2 = (Ok r2, enable_edges_on_mesh st2) /\
    impl_small_edges ms geo w we t st = (Ok r, enable_edges_on_mesh st) /\ both (new_edge n1) (new_edge n2) r1 r2 r.
Proof.
  intros ms geo n1 n2 p1 p2 w e1 e2 we t st1 st2 st P1 P2 E1 E2 S.
  destruct (impl_small_edges_spec ms geo p1 e1 t st1 (piece_edges_range _ _ _ _ E1)) as (r1 & R1 & Q1).
  destruct (impl_small_edges_spec ms geo p2 e2 t st2 (piece_edges_range _ _ _ _ E2)) as (r2 & R2 & Q2).
  destruct (impl_small_edges_spec ms geo w we t st (whole_edges_range _ _ _ _ _ _ _ _ P1 P2 E1 E2 S)) as (r & R & Q).
  exists r1, r2, r. split; [exact R1|]. split; [exact R2|]. split; [exact R|].
  apply (transport_two_ranges (new_edge n1) (new_edge n2) _ _ _ _ _ _ _ _ _ (proj1 E1) (proj1 E2) S Q1 Q2 Q).
  - intros x Hx. apply (shorter_bound _ _ _ _ _ Hx).
  - intros x Hx. apply (shorter_bound _ _ _ _ _ Hx).
  - intros x Hx. apply (shorter_bound _ _ _ _ _ Hx).
  - apply (piece_shorter ms n1 p1 w e1 we t P1 E1).
  - apply (piece_shorter ms n2 p2 w e2 we t P2 E2).
Qed.

(** ** Colocated points *)
Lemma group_nonempty : forall c0 gs, colocation_groups c0 gs -> forall g, In g gs -> g <> [].
Proof. intros c0 gs K g Hg ->. pose proof (cg_size _ _ K _ Hg). cbn in *. lia. Qed.
Section Groups.
Context (c c' : ColocatedInfo) (f : nat -> nat) (groups groups' : list (list nat)) (k k' : nat) (N : injects k k' f)
  (L : length (colocated_mapping c) = k) (L' : length (colocated_mapping c') = k')
  (H : forall i j, i < k -> j < k -> (same_place c' (f i) (f j) <-> same_place c i j))
  (Z : forall i y, i < k -> y < k' -> same_place c' (f i) y -> exists x, x < k /\ f x = y)
  (G : colocation_groups c groups) (G' : colocation_groups c' groups').
Local Notation new g := (NatSort.sort (map f g)).
Lemma group_range : forall g i, In g groups -> In i g -> i < k.
Proof. intros g i Hg Hi. rewrite <- L. apply (cg_range _ _ G g i Hg Hi). Qed.
Lemma group_range' : forall g i, In g groups' -> In i g -> i < k'.
Proof. intros g i Hg Hi. rewrite <- L'. apply (cg_range _ _ G' g i Hg Hi). Qed.
Lemma group_members : forall g g' i, In g groups -> In g' groups' -> In i g -> In (f i) g' -> forall x, x < k -> (In (f x) g' <-> In x g).
Proof.
  intros g g' i Ig Ig' Ii Ii' x Hx. pose proof (group_range g i Ig Ii) as Hi. destruct (Nat.eq_dec i x) as [<-|D]; [tauto|].
  assert (D' : f i <> f x) by (intros E; apply D; apply (proj2 N); assumption). split; intros K.
  - assert (S : same_place c' (f i) (f x)) by (apply (cg_pairs _ _ G' _ _ D'); eauto).
    apply (H i x Hi Hx) in S. apply (cg_pairs _ _ G _ _ D) in S. destruct S as (h & Ih & Hh1 & Hh2).
    rewrite (groups_unique g h groups (cg_disjoint _ _ G) Ig Ih); [exact Hh2|eauto].
  - assert (S : same_place c i x) by (apply (cg_pairs _ _ G _ _ D); eauto).
    apply (H i x Hi Hx) in S. apply (cg_pairs _ _ G' _ _ D') in S. destruct S as (h & Ih & Hh1 & Hh2).
    rewrite (groups_unique g' h groups' (cg_disjoint _ _ G') Ig' Ih); [exact Hh2|eauto].
Qed.
Lemma group_inside : forall g' i y, In g' groups' -> i < k -> In (f i) g' -> In y g' -> exists x, x < k /\ f x = y.
Proof.
  intros g' i y Ig' Hi Ii Iy. destruct (Nat.eq_dec (f i) y) as [<-|D]; [exists i; auto|]. apply (Z i y Hi (group_range' g' y Ig' Iy)). apply (cg_pairs _ _ G' _ _ D). eauto.
Qed.
Lemma group_is : forall g g' i, In g groups -> In g' groups' -> In i g -> In (f i) g' -> g' = new g.
Proof.
  intros g g' i Ig Ig' Ii Ii'. apply (sorted_unique _ lt); [intros x; lia|intros; lia|apply (cg_sorted _ _ G' _ Ig')| |].
  - apply nat_sort_sorted. apply NoDup_map_on; [apply sorted_lt_NoDup; apply (cg_sorted _ _ G _ Ig)|].
    intros x y Hx Hy. apply N; apply (group_range g); assumption.
  - intros y. rewrite nat_sort_in, in_map_iff. split.
    + intros Hy. destruct (group_inside g' i y Ig' (group_range g i Ig Ii) Ii' Hy) as (x & Hx & <-). exists x. split; [reflexivity|]. apply (group_members g g' i); assumption.
    + intros (x & <- & Hx). apply (group_members g g' i); try assumption. apply (group_range g x Ig Hx).
Qed.
Lemma group_new : forall g, In g groups -> In (new g) groups'.
Proof.
  intros g Ig. pose proof (group_nonempty _ _ G g Ig) as Ng. destruct g as [|i t] eqn:Eg; [congruence|]. rewrite <- Eg in *. clear Ng.
  assert (Ii : In i g) by (rewrite Eg; left; reflexivity).
  destruct (another_member g i (cg_size _ _ G _ Ig) (cg_sorted _ _ G _ Ig) Ii) as (j & Ij & D).
  assert (D' : f i <> f j) by (intros E; apply D; apply (proj2 N); [apply (group_range g)|apply (group_range g)|]; assumption).
  assert (S : same_place c i j) by (apply (cg_pairs _ _ G _ _ D); eauto).
  apply (H i j (group_range g i Ig Ii) (group_range g j Ig Ij)) in S. apply (cg_pairs _ _ G' _ _ D') in S. destruct S as (h & Ih & Hh1 & Hh2).
  rewrite <- (group_is g h i); assumption.
Qed.
Lemma group_back : forall g' i, In g' groups' -> i < k -> In (f i) g' -> exists g, In g groups /\ g' = new g.
Proof.
  intros g' i Ig' Hi Ii'. destruct (another_member g' (f i) (cg_size _ _ G' _ Ig') (cg_sorted _ _ G' _ Ig') Ii') as (z & Iz & D').
  destruct (group_inside g' i z Ig' Hi Ii' Iz) as (j & Hj & <-). assert (D : i <> j) by (intros ->; congruence).
  assert (S : same_place c' (f i) (f j)) by (apply (cg_pairs _ _ G' _ _ D'); eauto).
  apply (H i j Hi Hj) in S. apply (cg_pairs _ _ G _ _ D) in S. destruct S as (h & Ih & Hh1 & Hh2).
  exists h. split; [exact Ih|]. apply (group_is h g' i); assumption.
Qed.
Lemma group_inj : forall g h, In g groups -> In h groups -> new g = new h -> g = h.
Proof.
  intros g h Ig Ih E. pose proof (group_nonempty _ _ G g Ig) as Ng. destruct g as [|i g]; [congruence|]. apply (groups_unique _ _ groups (cg_disjoint _ _ G) Ig Ih).
  exists i. split; [left; reflexivity|]. assert (K : In (f i) (new (i :: g))) by (apply nat_sort_in; left; reflexivity).
  rewrite E in K. rewrite nat_sort_in in K. apply in_map_iff in K. destruct K as (x & Ex & Hx).
  apply (proj2 N) in Ex; [subst x; exact Hx|apply (group_range h); assumption|apply (group_range (i :: g)); [exact Ig|left; reflexivity]].
Qed.
End Groups.
Lemma colocation_two : forall geo n1 n2 p1 p2 w, two_clouds n1 n2 p1 p2 w -> apart geo n1 n2 p1 p2 w ->
  exists r1 r2 r, colocated_points_groups geo p1 = Ok r1 /\ colocated_points_groups geo p2 = Ok r2 /\ colocated_points_groups geo w = Ok r /\
    both (new_group n1) (new_group n2) r1 r2 r.
Proof.
  intros geo n1 n2 p1 p2 w ([N1 _] & [N2 _] & C & D) (C1 & C2 & C' & H1 & H2 & X).
  destruct (colocated_points_groups_spec geo p1 C1) as (r1 & R1 & G1). destruct (colocated_points_groups_spec geo p2 C2) as (r2 & R2 & G2).
  destruct (colocated_points_groups_spec geo w C') as (r & R & G). exists r1, r2, r. split; [exact R1|]. split; [exact R2|]. split; [exact R|].
  assert (X' : forall i j, i < length p2 -> j < length p1 -> ~ same_place (g_colocated geo w) (new_vertex n2 i) (new_vertex n1 j)).
  { intros i j Hi Hj K. apply (X j i Hj Hi). destruct K as (u & K1 & K2). exists u. auto. }
  assert (Z1 : forall i y, i < length p1 -> y < length w -> same_place (g_colocated geo w) (new_vertex n1 i) y -> exists x, x < length p1 /\ new_vertex n1 x = y).
  { intros i y Hi Hy K. destruct (C y Hy) as [E|(x & Hx & <-)]; [exact E|]. destruct (X i x Hi Hx K). }
  assert (Z2 : forall i y, i < length p2 -> y < length w -> same_place (g_colocated geo w) (new_vertex n2 i) y -> exists x, x < length p2 /\ new_vertex n2 x = y).
  { intros i y Hi Hy K. destruct (C y Hy) as [(x & Hx & <-)|E]; [|exact E]. destruct (X' i x Hi Hx K). }
  assert (O : forall (cc : ColocatedInfo) gs, colocation_groups cc gs -> lists_once (fun g => In g gs) gs).
  { intros cc gs K. split; [|reflexivity]. apply concat_NoDup_list; [apply (cg_disjoint _ _ K)|apply (group_nonempty _ _ K)]. }
  apply (transport_two _ _ (new_group n1) (new_group n2) _ _ _ _ _ _ (O _ _ G1) (O _ _ G2) (O _ _ G)).
  - intros x y Hx Hy. refine (group_inj (g_colocated geo p1) (new_vertex n1) (ii_issues r1) (length p1) (length w) N1 (proj1 C1) G1 x y Hx Hy).
  - intros x y Hx Hy. refine (group_inj (g_colocated geo p2) (new_vertex n2) (ii_issues r2) (length p2) (length w) N2 (proj1 C2) G2 x y Hx Hy).
  - intros x y Hx Hy E. unfold new_group in E. pose proof (group_nonempty _ _ G1 x Hx) as Ng. destruct x as [|i x]; [congruence|].
    assert (K : In (new_vertex n1 i) (NatSort.sort (map (new_vertex n1) (i :: x)))) by (apply nat_sort_in; left; reflexivity).
    rewrite E in K. rewrite nat_sort_in in K. apply in_map_iff in K. destruct K as (j & Ej & Hj).
    apply (D i j); [|rewrite <- (proj1 C2); apply (cg_range _ _ G2 y j Hy Hj)|congruence].
    rewrite <- (proj1 C1). apply (cg_range _ _ G1 _ i Hx (or_introl eq_refl)).
  - intros x Hx. apply (group_new _ _ _ _ _ _ _ N1 (proj1 C1) (proj1 C') H1 Z1 G1 G x Hx).
  - intros x Hx. apply (group_new _ _ _ _ _ _ _ N2 (proj1 C2) (proj1 C') H2 Z2 G2 G x Hx).
  - intros y Hy. pose proof (group_nonempty _ _ G y Hy) as Ny. destruct y as [|v y]; [congruence|].
    assert (Hv : v < length w) by (rewrite <- (proj1 C'); apply (cg_range _ _ G _ v Hy (or_introl eq_refl))).
    destruct (C v Hv) as [(i & Hi & Ei)|(i & Hi & Ei)]; [left|right].
    + apply (group_back _ _ _ _ _ _ _ N1 (proj1 C1) (proj1 C') H1 Z1 G1 G _ i Hy Hi). rewrite Ei. left. reflexivity.
    + apply (group_back _ _ _ _ _ _ _ N2 (proj1 C2) (proj1 C') H2 Z2 G2 G _ i Hy Hi). rewrite Ei. left. reflexivity.
Qed.
