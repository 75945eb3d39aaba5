(** Polygons described from another vertex, or backwards. *)
From Coq Require Import String Ascii List Arith NArith ZArith Bool Lia Permutation Sorted.
From Verif Require Import Base BaseFacts Model_Issues Types Spec_Adjacency Spec_Manifold Spec_Renumber Spec_Redescribe Proof_Redescribe.
Import ListNotations.
Open Scope list_scope.

Lemma nth_map_at : forall A B (f : A -> B) l i a b, i < length l -> nth i (map f l) b = f (nth i l a).
Proof. intros A B f l i a b Hi. rewrite (nth_indep _ b (f a)) by (rewrite map_length; exact Hi). apply map_nth. Qed.
Lemma nth_seq_map : forall B (f : nat -> B) k i b, i < k -> nth i (map f (seq 0 k)) b = f i.
Proof. intros B f k i b Hi. rewrite (nth_map_at _ _ f (seq 0 k) i 0 b) by (rewrite seq_length; exact Hi). rewrite seq_nth by exact Hi. reflexivity. Qed.
Lemma from_vertex_length : forall k l, length (from_vertex k l) = length l.
Proof. intros k l. unfold from_vertex. rewrite map_length, seq_length. reflexivity. Qed.
Lemma from_vertex_nth : forall k l i, i < length l -> nth i (from_vertex k l) 0 = nth (Nat.modulo (i + k) (length l)) l 0.
Proof. intros k l i Hi. unfold from_vertex. apply (nth_seq_map _ (fun i => nth (Nat.modulo (i + k) (length l)) l 0)). exact Hi. Qed.
Lemma there_and_back : forall n k i, i < n -> Nat.modulo (Nat.modulo (i + (n - Nat.modulo k n)) n + k) n = i.
Proof.
  intros n k i Hi. assert (n <> 0) by lia. rewrite Nat.add_mod_idemp_l by assumption.
  pose proof (Nat.div_mod k n ltac:(assumption)) as D. pose proof (Nat.mod_upper_bound k n ltac:(assumption)) as U.
  replace (i + (n - Nat.modulo k n) + k) with (i + (S (Nat.div k n)) * n) by (rewrite D at 3; nia). rewrite Nat.mod_add by assumption. apply Nat.mod_small. exact Hi.
Qed.
Lemma from_polygon : forall k m p, p < nb_polygons m -> polygon_vertices (described_from k m) p = from_vertex (k p) (polygon_vertices m p).
Proof. intros k m p Hp. unfold polygon_vertices at 1. cbn [described_from sm_polygons]. apply (nth_seq_map _ (fun p => from_vertex (k p) (polygon_vertices m p))). exact Hp. Qed.
Lemma from_nb_edges : forall k m p, p < nb_polygons m -> nb_polygon_edges (described_from k m) p = nb_polygon_edges m p.
Proof. intros k m p Hp. unfold nb_polygon_edges. rewrite from_polygon by exact Hp. apply from_vertex_length. Qed.
Lemma from_corner : forall k m p i, p < nb_polygons m -> i < nb_polygon_edges m p ->
  polygon_vertex (described_from k m) (p, i) = polygon_vertex m (p, Nat.modulo (i + k p) (nb_polygon_edges m p)).
Proof. intros k m p i Hp Hi. unfold polygon_vertex. cbn [fst snd]. rewrite from_polygon by exact Hp. apply from_vertex_nth. exact Hi. Qed.
Lemma on_answer_same : forall A B (f : A -> B) o, same_answer f o (on_answer f o).
Proof. intros A B f [l|x|]; cbn; auto. Qed.

Lemma described_from_is : forall k m, redescribed_surface false (from_vertices k m) m (described_from k m).
Proof.
  intros k m. assert (Z : forall p i, i < nb_polygon_edges m p -> corner_number (from_vertices k m) p i < nb_polygon_edges m p).
  { intros p i Hi. cbn [from_vertices corner_number]. apply Nat.mod_upper_bound. lia. }
  assert (N : forall p, numbers (nb_polygon_edges m p) (corner_number (from_vertices k m) p)).
  { intros p. split; [intros i; apply Z|]. intros i j Hi Hj E. rewrite <- (there_and_back _ (k p) i Hi), <- (there_and_back _ (k p) j Hj). cbn [from_vertices corner_number] in E. rewrite E. reflexivity. }
  constructor.
  - reflexivity.
  - reflexivity.
  - reflexivity.
  - unfold nb_polygons at 1. cbn [described_from sm_polygons]. rewrite map_length, seq_length. reflexivity.
  - apply from_nb_edges.
  - intros p _. apply N.
  - intros p _. apply N.
  - intros [p i] [Hp Hi]. cbn [fst snd] in *. unfold described_corner. cbn [fst snd]. rewrite from_corner by (try assumption; apply Z; exact Hi). f_equal. f_equal. apply there_and_back. exact Hi.
  - intros [p i] [Hp Hi]. cbn [fst snd] in *. unfold described_side. cbn [fst snd]. unfold polygon_edge_vertex0, polygon_edge_vertex1. cbn [fst snd].
    rewrite from_nb_edges by exact Hp. change (side_number (from_vertices k m) p i) with (corner_number (from_vertices k m) p i).
    assert (n0 : nb_polygon_edges m p <> 0) by lia. rewrite !from_corner by (try assumption; try (apply Z; exact Hi); apply Nat.mod_upper_bound; exact n0).
    cbn [from_vertices corner_number]. rewrite there_and_back by exact Hi. f_equal. f_equal. f_equal. rewrite Nat.add_mod_idemp_l by exact n0.
    rewrite <- (there_and_back (nb_polygon_edges m p) (k p) i Hi) at 2.
    set (x := Nat.modulo (i + (nb_polygon_edges m p - Nat.modulo (k p) (nb_polygon_edges m p))) (nb_polygon_edges m p)).
    replace (S x + k p) with (1 + (x + k p)) by lia. rewrite <- Nat.add_mod_idemp_r by exact n0. reflexivity.
  - intros [p i] [Hp Hi]. cbn [fst snd] in *. cbn [described_from sm_adjacent described_side fst snd from_vertices side_number]. rewrite there_and_back by exact Hi. reflexivity.
  - reflexivity.
  - intros v Hv. apply on_answer_same.
Qed.

Lemma back_polygon : forall m p, polygon_vertices (described_backwards m) p = rev (polygon_vertices m p).
Proof. intros m p. unfold polygon_vertices. cbn [described_backwards sm_polygons]. change (@nil nat) with (rev (@nil nat)) at 1. apply map_nth. Qed.
Lemma back_nb_edges : forall m p, nb_polygon_edges (described_backwards m) p = nb_polygon_edges m p.
Proof. intros m p. unfold nb_polygon_edges. rewrite back_polygon. apply rev_length. Qed.
Lemma back_corner : forall m p i, i < nb_polygon_edges m p -> polygon_vertex (described_backwards m) (p, i) = polygon_vertex m (p, nb_polygon_edges m p - S i).
Proof. intros m p i Hi. unfold polygon_vertex. cbn [fst snd]. rewrite back_polygon. apply rev_nth. exact Hi. Qed.
Lemma next_cases : forall n i, i < n -> (S i = n /\ Nat.modulo (S i) n = 0) \/ (S i < n /\ Nat.modulo (S i) n = S i).
Proof. intros n i Hi. destruct (Nat.eq_dec (S i) n) as [E|E]; [left|right]; (split; [lia|]); [rewrite E; apply Nat.mod_same; lia|apply Nat.mod_small; lia]. Qed.
Lemma described_backwards_is : forall m, redescribed_surface true (backwards m) m (described_backwards m).
Proof.
  intros m. constructor.
  - reflexivity.
  - reflexivity.
  - reflexivity.
  - unfold nb_polygons. cbn [described_backwards sm_polygons]. apply map_length.
  - intros p _. apply back_nb_edges.
  - intros p _. cbn [backwards corner_number]. split; intros; lia.
  - intros p _. cbn [backwards side_number]. split; [intros; lia|]. intros i j Hi Hj E. destruct (next_cases _ _ Hi) as [[A B]|[A B]], (next_cases _ _ Hj) as [[C D]|[C D]]; rewrite B, D in E; lia.
  - intros [p i] [Hp Hi]. cbn [fst snd] in *. unfold described_corner. cbn [fst snd backwards corner_number]. rewrite back_corner by lia. f_equal. f_equal. lia.
  - intros [p i] [Hp Hi]. cbn [fst snd] in *. unfold described_side. cbn [fst snd backwards side_number]. unfold polygon_edge_vertex0, polygon_edge_vertex1. cbn [fst snd]. rewrite back_nb_edges.
    assert (B : nb_polygon_edges m p - 1 - Nat.modulo (S i) (nb_polygon_edges m p) < nb_polygon_edges m p) by lia. rewrite (back_corner m p _ B).
    rewrite (back_corner m p) by (apply Nat.mod_upper_bound; lia). pose proof (Nat.mod_upper_bound (S i) (nb_polygon_edges m p) ltac:(lia)).
    f_equal; f_equal; f_equal; [lia|]. destruct (next_cases _ _ Hi) as [[A C]|[A C]]; rewrite C; destruct (next_cases _ _ B) as [[D E]|[D E]]; rewrite C in D, E; rewrite E; lia.
  - intros [p i] [Hp Hi]. cbn [fst snd] in *. cbn [described_backwards sm_adjacent]. f_equal. unfold described_side. cbn [fst snd backwards side_number]. f_equal.
    assert (B : nb_polygon_edges m p - 1 - Nat.modulo (S i) (nb_polygon_edges m p) < nb_polygon_edges m p) by lia.
    destruct (next_cases _ _ Hi) as [[A C]|[A C]]; rewrite C; destruct (next_cases _ _ B) as [[D E]|[D E]]; rewrite C in D, E; rewrite E; lia.
  - reflexivity.
  - intros v Hv. apply on_answer_same.
Qed.
