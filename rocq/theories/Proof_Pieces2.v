(** Inspecting two pieces together or apart: surfaces. *)
From Coq Require Import String Ascii List Arith NArith ZArith Bool Lia Permutation Sorted Mergesort.
From Verif Require Import Base BaseFacts Model_Issues Types Model_Hash Model_Adjacency Model_Colocation Model_Manifold Model_Degeneration Model_Negative
  Spec_Cycles Spec_Maps Spec_Colocation Spec_Adjacency Spec_Manifold Spec_Degeneration Spec_Negative Spec_Renumber Spec_Pieces Model_Intersections Spec_Intersections
  Proof_Colocation Proof_Adjacency Proof_Manifold Proof_Manifold2 Proof_Manifold3 Proof_Degeneration Proof_Renumber Proof_Renumber2 Proof_Pieces.
Import ListNotations.
Open Scope list_scope.

(** ** What is true of an element of a piece is true of it in the whole, and conversely *)
Section Piece.
Context (n : Numbering) (m m' : SurfaceMesh) (H : piece_surface n m m')
  (Hc : forall q v, q < nb_polygons m' -> v < length (sm_points m) -> In (new_vertex n v) (polygon_vertices m' q) -> exists p, p < nb_polygons m /\ new_element n p = q).
Local Notation s := (new_vertex n).
Local Notation t := (new_element n).

Lemma piece_element : forall p, p < nb_polygons m -> t p < nb_polygons m'.
Proof. intros p Hp. apply (pi_numbers _ _ _ H). exact Hp. Qed.
Lemma piece_vertex_inj : forall a b, a < length (sm_points m) -> b < length (sm_points m) -> s a = s b -> a = b.
Proof. apply (pi_points _ _ _ H). Qed.
Lemma q_vertex_eq : forall a b, a < length (sm_points m) -> b < length (sm_points m) -> (s a = s b <-> a = b).
Proof. intros a b A B. split; [apply piece_vertex_inj; assumption|congruence]. Qed.
Lemma q_nb_edges_same : forall p, p < nb_polygons m -> nb_polygon_edges m' (t p) = nb_polygon_edges m p.
Proof. intros p Hp. unfold nb_polygon_edges. rewrite (proj1 (pi_polygons _ _ _ H p Hp)). apply map_length. Qed.
Lemma q_edge_new : forall e, is_polygon_edge m e -> is_polygon_edge m' (new_corner n e).
Proof.
  intros [p i] [H1 H2]. cbn [fst snd] in *. split; cbn [fst snd new_corner]; [apply piece_element; exact H1|].
  rewrite q_nb_edges_same by exact H1. exact H2.
Qed.
Lemma edge_back : forall e' v, is_polygon_edge m' e' -> v < length (sm_points m) -> polygon_vertex m' e' = s v -> exists e, is_polygon_edge m e /\ new_corner n e = e'.
Proof.
  intros [p' i] v [H1 H2] Hv E. cbn [fst snd] in *.
  assert (I : In (s v) (polygon_vertices m' p')) by (rewrite <- E; unfold polygon_vertex; cbn [fst snd]; apply nth_In; exact H2).
  destruct (Hc p' v H1 Hv I) as (p & Hp & <-). exists (p, i).
  split; [|reflexivity]. split; [exact Hp|]. cbn [fst snd]. rewrite q_nb_edges_same in H2 by exact Hp. exact H2.
Qed.
Lemma q_corner_inj : forall e f, fst e < nb_polygons m -> fst f < nb_polygons m -> new_corner n e = new_corner n f -> e = f.
Proof.
  intros [p i] [q j] Hp Hq E. cbn [fst snd new_corner] in *. unfold new_corner in E. cbn [fst snd] in E. injection E as E1 E2.
  f_equal; [|exact E2]. apply (pi_numbers _ _ _ H); assumption.
Qed.
Lemma q_polygon_vertex_new : forall e, is_polygon_edge m e -> polygon_vertex m' (new_corner n e) = s (polygon_vertex m e).
Proof.
  intros [p i] [H1 H2]. cbn [fst snd] in *. unfold polygon_vertex, new_corner. cbn [fst snd].
  rewrite (proj1 (pi_polygons _ _ _ H p H1)). apply nth_map_in. exact H2.
Qed.
Lemma q_polygon_vertex_range : forall e, is_polygon_edge m e -> polygon_vertex m e < length (sm_points m).
Proof.
  intros [p i] [H1 H2]. cbn [fst snd] in *. unfold polygon_vertex. cbn [fst snd]. apply (proj2 (pi_polygons _ _ _ H p H1)). apply nth_In. exact H2.
Qed.
Lemma q_next_edge : forall e, is_polygon_edge m e -> is_polygon_edge m (fst e, Nat.modulo (S (snd e)) (nb_polygon_edges m (fst e))).
Proof. intros [p i] [H1 H2]. cbn [fst snd] in *. split; [exact H1|]. cbn [fst snd]. apply Nat.mod_upper_bound. lia. Qed.
Lemma q_ends_new : forall e, is_polygon_edge m e ->
  polygon_edge_vertex0 m' (new_corner n e) = s (polygon_edge_vertex0 m e) /\
  polygon_edge_vertex1 m' (new_corner n e) = s (polygon_edge_vertex1 m e).
Proof.
  intros e He. split; [apply q_polygon_vertex_new; exact He|]. unfold polygon_edge_vertex1.
  replace (fst (new_corner n e), snd (new_corner n e)) with (new_corner n e) by (destruct e; reflexivity).
  cbn [new_corner fst snd]. rewrite q_nb_edges_same by apply He. rewrite <- (q_polygon_vertex_new _ (q_next_edge e He)). reflexivity.
Qed.
Lemma q_ends_range : forall e, is_polygon_edge m e ->
  polygon_edge_vertex0 m e < length (sm_points m) /\ polygon_edge_vertex1 m e < length (sm_points m).
Proof. intros e He. split; [apply q_polygon_vertex_range; exact He|]. apply q_polygon_vertex_range. apply q_next_edge. exact He. Qed.
Lemma q_adjacent_new : forall e, is_polygon_edge m e -> sm_adjacent m' (new_corner n e) = option_map t (sm_adjacent m e).
Proof. intros [p i] [H1 H2]. apply (pi_adjacent _ _ _ H p i H1 H2). Qed.
Lemma q_adjacent_range : edge_adjacency_in_range m.
Proof. intros [p i] q [H1 H2] E. apply (proj2 (pi_adjacent _ _ _ H p i H1 H2) q E). Qed.
Lemma q_reciprocated_new : forall e q, is_polygon_edge m e -> q < nb_polygons m ->
  (edge_reciprocated m' (new_corner n e) (t q) <-> edge_reciprocated m e q).
Proof.
  intros e q He Hq. destruct (q_ends_new e He) as [N0 N1]. destruct (q_ends_range e He) as [R0 R1]. unfold edge_reciprocated. rewrite N0, N1.
  assert (K : forall i, i < nb_polygon_edges m q -> (polygon_edge_vertex0 m' (t q, i) = s (polygon_edge_vertex1 m e) /\
    polygon_edge_vertex1 m' (t q, i) = s (polygon_edge_vertex0 m e) /\ sm_adjacent m' (t q, i) = Some (t (fst e)) <->
    polygon_edge_vertex0 m (q, i) = polygon_edge_vertex1 m e /\ polygon_edge_vertex1 m (q, i) = polygon_edge_vertex0 m e /\ sm_adjacent m (q, i) = Some (fst e))).
  { intros i Hi. assert (Hf : is_polygon_edge m (q, i)) by (split; assumption). destruct (q_ends_new _ Hf) as [F0 F1]. destruct (q_ends_range _ Hf) as [G0 G1].
    change (t q, i) with (new_corner n (q, i)). rewrite F0, F1, (q_adjacent_new _ Hf), !q_vertex_eq by assumption.
    destruct (sm_adjacent m (q, i)) as [p|] eqn:Ep; cbn [option_map]; [|split; intros (? & ? & ?); discriminate].
    split; intros (A & B & C); (split; [exact A|]; split; [exact B|]); injection C as C; [|congruence].
    f_equal. apply (pi_numbers _ _ _ H); [apply (q_adjacent_range _ _ Hf Ep)|apply He|exact C]. }
  cbn [fst new_corner]. rewrite q_nb_edges_same by exact Hq. split; intros (i & Hi & R); exists i; (split; [exact Hi|]); apply K; assumption.
Qed.
Lemma q_wrong_edge_new : forall e, is_polygon_edge m e -> (wrong_edge m' (new_corner n e) <-> wrong_edge m e).
Proof.
  intros e He. unfold wrong_edge. rewrite q_adjacent_new by exact He. split.
  - intros (_ & q' & E & R). split; [exact He|]. destruct (sm_adjacent m e) as [q|] eqn:Eq; [|discriminate]. cbn [option_map] in E. injection E as <-.
    exists q. split; [reflexivity|]. intros K. apply R. apply q_reciprocated_new; [exact He|apply (q_adjacent_range _ _ He Eq)|exact K].
  - intros (_ & q & E & R). split; [apply q_edge_new; exact He|]. rewrite E. exists (t q). split; [reflexivity|]. intros K. apply R.
    apply q_reciprocated_new in K; [exact K|exact He|apply (q_adjacent_range _ _ He E)].
Qed.
Lemma q_joins_new : forall a b e, a < length (sm_points m) -> b < length (sm_points m) -> is_polygon_edge m e ->
  (joins m' (s a) (s b) (new_corner n e) <-> joins m a b e).
Proof.
  intros a b e Ha Hb He. destruct (q_ends_new e He) as [N0 N1]. destruct (q_ends_range e He) as [R0 R1]. unfold joins.
  rewrite N0, N1, !q_vertex_eq by assumption. pose proof (q_edge_new e He). tauto.
Qed.
Lemma joins_back : forall a b e', a < length (sm_points m) -> b < length (sm_points m) -> joins m' (s a) (s b) e' -> exists e, joins m a b e /\ e' = new_corner n e.
Proof.
  intros a b e' Ha Hb J. assert (V : exists v, v < length (sm_points m) /\ polygon_vertex m' e' = s v) by (destruct J as [_ [[J _]|[J _]]]; [exists a|exists b]; auto).
  destruct V as (v & Hv & V). destruct (edge_back e' v (proj1 J) Hv V) as (e & He & <-). exists e. split; [|reflexivity]. apply q_joins_new in J; assumption.
Qed.
Lemma q_uses_new : forall a b k, a < length (sm_points m) -> b < length (sm_points m) -> (uses m' (s a) (s b) k <-> uses m a b k).
Proof.
  intros a b k Ha Hb. split.
  - intros (l' & L' & <-).
    assert (J : exists l, lists_once (joins m a b) l).
    { exists (filter (fun e => (Nat.eqb (polygon_edge_vertex0 m e) a && Nat.eqb (polygon_edge_vertex1 m e) b) ||
                            (Nat.eqb (polygon_edge_vertex0 m e) b && Nat.eqb (polygon_edge_vertex1 m e) a))%bool (all_polygon_edges m)).
      split; [apply NoDup_filter; apply sorted_lex_NoDup; apply all_polygon_edges_sorted|].
      intros e. rewrite filter_In, in_all_polygon_edges, orb_true_iff, !andb_true_iff, !Nat.eqb_eq. reflexivity. }
    destruct J as (l & L). exists l. split; [exact L|].
    assert (P : Permutation l' (map (new_corner n) l)).
    { apply (transport_once _ _ _ _ _ _ _ L L').
      - intros x y Hx Hy. apply q_corner_inj; [apply Hx|apply Hy].
      - intros x Hx. apply q_joins_new; [exact Ha|exact Hb|apply Hx|exact Hx].
      - intros y Hy. apply joins_back; assumption. }
    apply Permutation_length in P. rewrite map_length in P. symmetry. exact P.
  - intros (l & L & <-). exists (map (new_corner n) l). split; [|apply map_length].
    apply (lists_once_map _ _ _ _ _ _ L).
    + intros x y Hx Hy. apply q_corner_inj; [apply Hx|apply Hy].
    + intros x Hx. apply q_joins_new; [exact Ha|exact Hb|apply Hx|exact Hx].
    + intros y Hy. apply joins_back; assumption.
Qed.
Lemma q_border_new : forall a b, a < length (sm_points m) -> b < length (sm_points m) -> (border_occurrence m' (s a) (s b) <-> border_occurrence m a b).
Proof.
  intros a b Ha Hb. split.
  - intros (e' & J & E). destruct (joins_back a b e' Ha Hb J) as (e & Je & ->). exists e. split; [exact Je|].
    rewrite q_adjacent_new in E by apply Je. destruct (sm_adjacent m e); [discriminate|reflexivity].
  - intros (e & J & E). exists (new_corner n e). split; [apply q_joins_new; [exact Ha|exact Hb|apply J|exact J]|].
    rewrite q_adjacent_new by apply J. rewrite E. reflexivity.
Qed.
Lemma q_edge_bad_new : forall eqm a b, a < length (sm_points m) -> b < length (sm_points m) -> a <= b ->
  (non_manifold_edge eqm m' (new_pair n (a, b)) <-> non_manifold_edge eqm m (a, b)).
Proof.
  intros eqm a b Ha Hb Hab. unfold new_pair. cbn [fst snd]. unfold non_manifold_edge. cbn [fst snd].
  set (x := Nat.min (s a) (s b)). set (y := Nat.max (s a) (s b)).
  assert (O : x = s a /\ y = s b \/ x = s b /\ y = s a) by (subst x y; lia).
  assert (U : forall k, uses m' x y k <-> uses m a b k).
  { intros k. destruct O as [[-> ->]|[-> ->]]; [apply q_uses_new; assumption|]. split; intros K; [apply q_uses_new; [assumption|assumption|apply uses_swap; exact K]|].
    apply uses_swap. apply q_uses_new; assumption. }
  assert (B : border_occurrence m' x y <-> border_occurrence m a b).
  { destruct O as [[-> ->]|[-> ->]]; [apply q_border_new; assumption|]. rewrite border_swap. apply q_border_new; assumption. }
  assert (X : x <= y) by (subst x y; lia). setoid_rewrite U. setoid_rewrite B. tauto.
Qed.
Lemma q_uses_range : forall a b k, uses m a b k -> 0 < k -> a < length (sm_points m) /\ b < length (sm_points m).
Proof.
  intros a b k (l & [_ L] & <-) Hk. destruct l as [|e l]; [cbn in Hk; lia|]. destruct (proj1 (L e) (or_introl eq_refl)) as [He J].
  destruct (q_ends_range e He) as [R0 R1]. destruct J as [[<- <-]|[<- <-]]; auto.
Qed.
Lemma q_min_max_inj : forall a b c d, a <= b -> c <= d -> a < length (sm_points m) -> b < length (sm_points m) -> c < length (sm_points m) -> d < length (sm_points m) ->
  new_pair n (a, b) = new_pair n (c, d) -> (a, b) = (c, d).
Proof.
  intros a b c d Hab Hcd A B C D E. unfold new_pair in E. cbn [fst snd] in E. injection E as E1 E2.
  assert (K : s a = s c /\ s b = s d \/ s a = s d /\ s b = s c) by lia.
  destruct K as [[K1 K2]|[K1 K2]]; apply piece_vertex_inj in K1; try assumption; apply piece_vertex_inj in K2; try assumption; subst; [reflexivity|].
  f_equal; lia.
Qed.
Lemma q_corner_new : forall v c, v < length (sm_points m) -> is_polygon_edge m c -> (surface_corner m' (s v) (new_corner n c) <-> surface_corner m v c).
Proof.
  intros v c Hv Hk. unfold surface_corner. rewrite q_polygon_vertex_new by exact Hk. rewrite q_vertex_eq by (try assumption; apply q_polygon_vertex_range; exact Hk).
  pose proof (q_edge_new c Hk). tauto.
Qed.
Lemma q_corner_onto : forall v c', v < length (sm_points m) -> surface_corner m' (s v) c' -> exists c, surface_corner m v c /\ c' = new_corner n c.
Proof.
  intros v c' Hv K. destruct (edge_back c' v (proj1 K) Hv (proj2 K)) as (c & Hk & <-). exists c. split; [|reflexivity]. apply q_corner_new in K; assumption.
Qed.
Lemma q_cornepi_new : forall v l l', v < length (sm_points m) -> Permutation l' (map (new_corner n) l) -> (forall p e, In (p, e) l -> p < nb_polygons m) ->
  (lists_once (surface_corner m' (s v)) l' <-> lists_once (surface_corner m v) l).
Proof.
  intros v l l' Hv P R. split.
  - intros K. apply (lists_once_same _ _ _ _ P) in K. destruct K as [N L]. split; [apply NoDup_map_inv in N; exact N|]. intros c. split.
    + intros I. pose proof (proj1 (L (new_corner n c)) (in_map _ _ _ I)) as C. destruct (q_corner_onto v _ Hv C) as (d & D & E).
      apply q_corner_inj in E; [subst d; exact D|destruct c as [p e]; apply (R p e I)|apply D].
    + intros C. assert (I : In (new_corner n c) (map (new_corner n) l)) by (apply L; apply q_corner_new; [exact Hv|apply C|exact C]).
      apply in_map_iff in I. destruct I as ([p e] & E & I). apply q_corner_inj in E; [subst c; exact I|apply (R p e I)|apply C].
  - intros L. apply (lists_once_same _ _ _ _ (Permutation_sym P)). apply (lists_once_map _ _ _ _ _ _ L).
    + intros x y Hx Hy. apply q_corner_inj; [apply Hx|apply Hy].
    + intros x Hx. apply q_corner_new; [exact Hv|apply Hx|exact Hx].
    + intros y Hy. apply q_corner_onto; assumption.
Qed.
Lemma q_vertex_bad_new : forall v, v < length (sm_points m) -> (surface_non_manifold_vertex m' (s v) <-> surface_non_manifold_vertex m v).
Proof.
  intros v Hv. destruct (pi_points _ _ _ H) as ([N _] & _). destruct (pi_around _ _ _ H v Hv) as [A R]. unfold surface_non_manifold_vertex.
  destruct (sm_around_vertex m v) as [fan|x|] eqn:E; destruct (sm_around_vertex m' (s v)) as [fan'|x'|] eqn:E'; cbn in A; try contradiction.
  - assert (R' : forall p e, In (p, e) fan -> p < nb_polygons m) by (intros p e; apply (R fan p e eq_refl)).
    split; intros (_ & f & Ef & K); injection Ef as <-; [split; [exact Hv|]; exists fan|split; [apply N; exact Hv|]; exists fan']; (split; [reflexivity|]);
      intros Q; apply K; apply (q_cornepi_new v fan fan' Hv A R'); exact Q.
  - split; intros (_ & f & Ef & _); discriminate.
  - split; intros (_ & f & Ef & _); discriminate.
Qed.
Lemma q_flat_new : forall p, p < nb_polygons m -> forall x, flat_polygon m' x (t p) <-> flat_polygon m x p.
Proof. intros p Hp x. unfold flat_polygon. rewrite (pi_height _ _ _ H p Hp). pose proof (piece_element p Hp). tauto. Qed.
Lemma q_points_exist : polygon_points_exist m.
Proof.
  intros vs v I J. apply In_nth with (d := []) in I. destruct I as (p & Hp & <-). apply (proj2 (pi_polygons _ _ _ H p Hp) v J).
Qed.
Lemma q_negative_new : forall ms p, p < nb_polygons m -> (negative_polygon ms m' (t p) <-> negative_polygon ms m p).
Proof.
  intros ms p Hp. unfold negative_polygon. rewrite (pi_dimension _ _ _ H), (polygon_at m p Hp), (polygon_at m' (t p) (piece_element p Hp)).
  destruct (pi_polygons _ _ _ H p Hp) as [P1 P2]. rewrite P1. assert (E : map (nth_error (sm_points m')) (map s (polygon_vertices m p)) = map (nth_error (sm_points m)) (polygon_vertices m p)) by (rewrite map_map; apply map_ext_in; intros v I; apply (pi_points _ _ _ H); apply P2; exact I).
  split; intros (D & vs & pts & A & B & C); (split; [exact D|]); injection A as <-.
  - exists (polygon_vertices m p), pts. rewrite <- E. auto.
  - exists (map s (polygon_vertices m p)), pts. rewrite E. auto.
Qed.
End Piece.

Lemma shared_swap : forall k k1 k2 f g, shared_out k k1 k2 f g -> shared_out k k2 k1 g f.
Proof. intros k k1 k2 f g [C D]. split; [intros y Hy; destruct (C y Hy); auto|]. intros x y Hx Hy E. apply (D y x Hy Hx). congruence. Qed.
Lemma two_surfaces_swap : forall n1 n2 m1 m2 w, two_surfaces n1 n2 m1 m2 w -> two_surfaces n2 n1 m2 m1 w.
Proof. intros n1 n2 m1 m2 w [A B V P E]. constructor; try assumption; apply shared_swap; assumption. Qed.
Lemma piece_complete : forall n1 n2 m1 m2 w, two_surfaces n1 n2 m1 m2 w ->
  forall q v, q < nb_polygons w -> v < length (sm_points m1) -> In (new_vertex n1 v) (polygon_vertices w q) -> exists p, p < nb_polygons m1 /\ new_element n1 p = q.
Proof.
  intros n1 n2 m1 m2 w T q v Hq Hv I. destruct (proj1 (ts_polygons _ _ _ _ _ T) q Hq) as [E|(p & Hp & <-)]; [exact E|]. exfalso.
  destruct (pi_polygons _ _ _ (ts_second _ _ _ _ _ T) p Hp) as [E R]. rewrite E in I. apply in_map_iff in I. destruct I as (x & Ex & I).
  apply (proj2 (ts_vertices _ _ _ _ _ T) v x Hv (R x I)). congruence.
Qed.

Section Two.
Context (n1 n2 : Numbering) (m1 m2 w : SurfaceMesh) (T : two_surfaces n1 n2 m1 m2 w).
Local Notation Z1 := (ts_first _ _ _ _ _ T).
Local Notation Z2 := (ts_second _ _ _ _ _ T).
Local Notation K1 := (piece_complete _ _ _ _ _ T).
Local Notation K2 := (piece_complete _ _ _ _ _ (two_surfaces_swap _ _ _ _ _ T)).
Lemma edge_cases : forall e', is_polygon_edge w e' -> (exists e, is_polygon_edge m1 e /\ new_corner n1 e = e') \/ (exists e, is_polygon_edge m2 e /\ new_corner n2 e = e').
Proof.
  intros [p' i] [A B]. cbn [fst snd] in *. destruct (proj1 (ts_polygons _ _ _ _ _ T) p' A) as [(p & Hp & <-)|(p & Hp & <-)]; [left|right]; exists (p, i); (split; [|reflexivity]);
    (split; [exact Hp|]); cbn [fst snd].
  - rewrite (q_nb_edges_same n1 m1 w Z1) in B by exact Hp. exact B.
  - rewrite (q_nb_edges_same n2 m2 w Z2) in B by exact Hp. exact B.
Qed.
Lemma corners_differ : forall e f, fst e < nb_polygons m1 -> fst f < nb_polygons m2 -> new_corner n1 e <> new_corner n2 f.
Proof. intros [p i] [q j] Hp Hq E. unfold new_corner in E. cbn [fst snd] in *. injection E as E _. apply (proj2 (ts_polygons _ _ _ _ _ T) p q Hp Hq E). Qed.
Lemma whole_adjacent_range : edge_adjacency_in_range w.
Proof.
  intros e' q' He E. destruct (edge_cases e' He) as [(e & He1 & <-)|(e & He1 & <-)].
  - rewrite (q_adjacent_new n1 m1 w Z1) in E by exact He1. destruct (sm_adjacent m1 e) as [q|] eqn:Eq; [|discriminate]. cbn [option_map] in E. injection E as <-.
    apply (piece_element n1 m1 w Z1). apply (q_adjacent_range n1 m1 w Z1 e q He1 Eq).
  - rewrite (q_adjacent_new n2 m2 w Z2) in E by exact He1. destruct (sm_adjacent m2 e) as [q|] eqn:Eq; [|discriminate]. cbn [option_map] in E. injection E as <-.
    apply (piece_element n2 m2 w Z2). apply (q_adjacent_range n2 m2 w Z2 e q He1 Eq).
Qed.
Lemma adjacency_two : forall name1 name2 name, exists r1 r2 r, polygon_edges_with_wrong_adjacency name1 m1 = Ok r1 /\ polygon_edges_with_wrong_adjacency name2 m2 = Ok r2 /\
  polygon_edges_with_wrong_adjacency name w = Ok r /\ both (new_corner n1) (new_corner n2) r1 r2 r.
Proof.
  intros name1 name2 name. destruct (surface_adjacency_spec name1 m1 (q_adjacent_range n1 m1 w Z1)) as (r1 & _ & R1 & Q1 & _).
  destruct (surface_adjacency_spec name2 m2 (q_adjacent_range n2 m2 w Z2)) as (r2 & _ & R2 & Q2 & _).
  destruct (surface_adjacency_spec name w whole_adjacent_range) as (r & _ & R & Q & _). exists r1, r2, r. split; [exact R1|]. split; [exact R2|]. split; [exact R|].
  apply (transport_two _ _ (new_corner n1) (new_corner n2) _ _ _ _ _ _ (exactly_once_lex _ _ Q1) (exactly_once_lex _ _ Q2) (exactly_once_lex _ _ Q)).
  - intros x y Hx Hy. apply (q_corner_inj n1 m1 w Z1); [apply Hx|apply Hy].
  - intros x y Hx Hy. apply (q_corner_inj n2 m2 w Z2); [apply Hx|apply Hy].
  - intros x y Hx Hy. apply corners_differ; [apply Hx|apply Hy].
  - intros x Hx. apply (q_wrong_edge_new n1 m1 w Z1); [apply Hx|exact Hx].
  - intros x Hx. apply (q_wrong_edge_new n2 m2 w Z2); [apply Hx|exact Hx].
  - intros y Hy. destruct (edge_cases y (proj1 Hy)) as [(e & He & <-)|(e & He & <-)]; [left|right]; exists e; (split; [|reflexivity]).
    + apply (q_wrong_edge_new n1 m1 w Z1); assumption.
    + apply (q_wrong_edge_new n2 m2 w Z2); assumption.
Qed.
(** an edge of the whole between the vertices of a polygon edge of one piece *)
Lemma pair_of_edge : forall n m e x y, piece_surface n m w -> is_polygon_edge m e -> joins w x y (new_corner n e) -> x <= y ->
  exists c d, c < length (sm_points m) /\ d < length (sm_points m) /\ c <= d /\ (x, y) = new_pair n (c, d).
Proof.
  intros n m e x y Hm He [_ J] Y. destruct (q_ends_new n m w Hm e He) as [N0 N1]. destruct (q_ends_range n m w Hm e He) as [R0 R1]. rewrite N0, N1 in J.
  destruct (Nat.le_ge_cases (polygon_edge_vertex0 m e) (polygon_edge_vertex1 m e)) as [G|G]; [exists (polygon_edge_vertex0 m e), (polygon_edge_vertex1 m e)|exists (polygon_edge_vertex1 m e), (polygon_edge_vertex0 m e)];
    (split; [assumption|]; split; [assumption|]; split; [assumption|]); unfold new_pair; cbn [fst snd]; destruct J as [[<- <-]|[<- <-]]; f_equal; lia.
Qed.
Lemma pairs_differ : forall a b c d, a < length (sm_points m1) -> b < length (sm_points m1) -> c < length (sm_points m2) -> d < length (sm_points m2) -> new_pair n1 (a, b) <> new_pair n2 (c, d).
Proof.
  intros a b c d Ha Hb Hc Hd E. unfold new_pair in E. cbn [fst snd] in E. injection E as E _. destruct (ts_vertices _ _ _ _ _ T) as [_ D].
  pose proof (D a c Ha Hc). pose proof (D a d Ha Hd). pose proof (D b c Hb Hc). pose proof (D b d Hb Hd). lia.
Qed.
Lemma manifold_edges_two : forall ho1 ho2 ho, both (new_pair n1) (new_pair n2) (surface_non_manifold_edges ho1 m1) (surface_non_manifold_edges ho2 m2) (surface_non_manifold_edges ho w).
Proof.
  intros ho1 ho2 ho. apply (transport_two _ _ _ _ _ _ _ _ _ _ (proj1 (surface_edges_spec ho1 ho1 m1)) (proj1 (surface_edges_spec ho2 ho2 m2)) (proj1 (surface_edges_spec ho ho w))).
  - intros [a b] [c d] (X1 & k & A1 & A2 & _) (Y1 & k' & B1 & B2 & _) E. cbn [fst snd] in *.
    destruct (q_uses_range n1 m1 w Z1 _ _ _ A2 A1). destruct (q_uses_range n1 m1 w Z1 _ _ _ B2 B1). apply (q_min_max_inj n1 m1 w Z1); assumption.
  - intros [a b] [c d] (X1 & k & A1 & A2 & _) (Y1 & k' & B1 & B2 & _) E. cbn [fst snd] in *.
    destruct (q_uses_range n2 m2 w Z2 _ _ _ A2 A1). destruct (q_uses_range n2 m2 w Z2 _ _ _ B2 B1). apply (q_min_max_inj n2 m2 w Z2); assumption.
  - intros [a b] [c d] (X1 & k & A1 & A2 & _) (Y1 & k' & B1 & B2 & _). cbn [fst snd] in *.
    destruct (q_uses_range n1 m1 w Z1 _ _ _ A2 A1). destruct (q_uses_range n2 m2 w Z2 _ _ _ B2 B1). apply pairs_differ; assumption.
  - intros [a b] X. pose proof X as (X1 & k & A1 & A2 & _). cbn [fst snd] in *. destruct (q_uses_range n1 m1 w Z1 _ _ _ A2 A1). apply (q_edge_bad_new n1 m1 w Z1 K1); assumption.
  - intros [a b] X. pose proof X as (X1 & k & A1 & A2 & _). cbn [fst snd] in *. destruct (q_uses_range n2 m2 w Z2 _ _ _ A2 A1). apply (q_edge_bad_new n2 m2 w Z2 K2); assumption.
  - intros [x y] Y. pose proof Y as (Y1 & k & A1 & (l & [_ L] & E) & _). cbn [fst snd] in *. destruct l as [|e' l]; [cbn in E; lia|].
    pose proof (proj1 (L e') (or_introl eq_refl)) as J. destruct (edge_cases e' (proj1 J)) as [(e & He & <-)|(e & He & <-)]; [left|right].
    + destruct (pair_of_edge n1 m1 e x y Z1 He J Y1) as (c & d & Hc & Hd & Hcd & Q). exists (c, d). split; [|exact Q]. rewrite Q in Y. apply (q_edge_bad_new n1 m1 w Z1 K1) in Y; assumption.
    + destruct (pair_of_edge n2 m2 e x y Z2 He J Y1) as (c & d & Hc & Hd & Hcd & Q). exists (c, d). split; [|exact Q]. rewrite Q in Y. apply (q_edge_bad_new n2 m2 w Z2 K2) in Y; assumption.
Qed.
Definition turns_or_refuses (m : SurfaceMesh) : Prop :=
  forall v, v < length (sm_points m) -> sm_around_vertex m v = Throw OpenGeodeExn \/ exists fan, sm_around_vertex m v = Ok fan.
Lemma manifold_vertices_two : forall geo1 geo2 geo, turns_or_refuses m1 -> turns_or_refuses m2 ->
  exists r1 r2 r, surface_non_manifold_vertices geo1 m1 = Ok r1 /\ surface_non_manifold_vertices geo2 m2 = Ok r2 /\ surface_non_manifold_vertices geo w = Ok r /\
    both (new_vertex n1) (new_vertex n2) r1 r2 r.
Proof.
  intros geo1 geo2 geo A1 A2.
  assert (V : surface_vertices_in_range w).
  { intros c' Hc. destruct (edge_cases c' Hc) as [(c & Hc1 & <-)|(c & Hc1 & <-)].
    - rewrite (q_polygon_vertex_new n1 m1 w Z1) by exact Hc1. apply (pi_points _ _ _ Z1). apply (q_polygon_vertex_range n1 m1 w Z1). exact Hc1.
    - rewrite (q_polygon_vertex_new n2 m2 w Z2) by exact Hc1. apply (pi_points _ _ _ Z2). apply (q_polygon_vertex_range n2 m2 w Z2). exact Hc1. }
  assert (A : forall v, v < length (sm_points w) -> sm_around_vertex w v = Throw OpenGeodeExn \/ exists fan, sm_around_vertex w v = Ok fan).
  { intros v' Hv'. destruct (proj1 (ts_vertices _ _ _ _ _ T) v' Hv') as [(v & Hv & <-)|(v & Hv & <-)].
    - destruct (pi_around _ _ _ Z1 v Hv) as [A _]. destruct (A1 v Hv) as [E|[fan E]]; rewrite E in A; destruct (sm_around_vertex w (new_vertex n1 v)) as [fan'|x'|]; cbn in A; try contradiction; [left; congruence|right; eauto].
    - destruct (pi_around _ _ _ Z2 v Hv) as [A _]. destruct (A2 v Hv) as [E|[fan E]]; rewrite E in A; destruct (sm_around_vertex w (new_vertex n2 v)) as [fan'|x'|]; cbn in A; try contradiction; [left; congruence|right; eauto]. }
  destruct (surface_vertices_spec geo1 m1 (q_polygon_vertex_range n1 m1 w Z1) A1) as (r1 & _ & R1 & Q1 & _).
  destruct (surface_vertices_spec geo2 m2 (q_polygon_vertex_range n2 m2 w Z2) A2) as (r2 & _ & R2 & Q2 & _).
  destruct (surface_vertices_spec geo w V A) as (r & _ & R & Q & _). exists r1, r2, r. split; [exact R1|]. split; [exact R2|]. split; [exact R|].
  apply (transport_two_ranges _ _ _ _ _ _ _ _ _ _ _ (proj1 (pi_points _ _ _ Z1)) (proj1 (pi_points _ _ _ Z2)) (ts_vertices _ _ _ _ _ T) Q1 Q2 Q).
  - intros x Hx. apply Hx.
  - intros x Hx. apply Hx.
  - intros x Hx. apply Hx.
  - apply (q_vertex_bad_new n1 m1 w Z1 K1).
  - apply (q_vertex_bad_new n2 m2 w Z2 K2).
Qed.
Lemma flat_two : both (new_element n1) (new_element n2) (degenerated_polygons m1) (degenerated_polygons m2) (degenerated_polygons w).
Proof.
  apply (transport_two_ranges _ _ _ _ _ _ _ _ _ _ _ (pi_numbers _ _ _ Z1) (pi_numbers _ _ _ Z2) (ts_polygons _ _ _ _ _ T) (flat_polygons_spec m1 _) (flat_polygons_spec m2 _) (flat_polygons_spec w _)).
  - intros x Hx. apply Hx.
  - intros x Hx. apply Hx.
  - intros x Hx. apply Hx.
  - intros x Hx. apply (q_flat_new n1 m1 w Z1 x Hx).
  - intros x Hx. apply (q_flat_new n2 m2 w Z2 x Hx).
Qed.
Lemma whole_points_exist : polygon_points_exist w.
Proof.
  intros vs v I J. apply In_nth with (d := []) in I. destruct I as (p' & Hp' & E). destruct (proj1 (ts_polygons _ _ _ _ _ T) p' Hp') as [(p & Hp & <-)|(p & Hp & <-)].
  - destruct (pi_polygons _ _ _ Z1 p Hp) as [P1 P2]. unfold polygon_vertices in P1 at 1. rewrite E in P1. rewrite P1 in J. apply in_map_iff in J. destruct J as (x & <- & J).
    apply (pi_points _ _ _ Z1). apply P2. exact J.
  - destruct (pi_polygons _ _ _ Z2 p Hp) as [P1 P2]. unfold polygon_vertices in P1 at 1. rewrite E in P1. rewrite P1 in J. apply in_map_iff in J. destruct J as (x & <- & J).
    apply (pi_points _ _ _ Z2). apply P2. exact J.
Qed.
Lemma negative_two : forall ms, both (new_element n1) (new_element n2) (negative_polygons ms m1) (negative_polygons ms m2) (negative_polygons ms w).
Proof.
  intros ms. apply (transport_two_ranges _ _ _ _ _ _ _ _ _ _ _ (pi_numbers _ _ _ Z1) (pi_numbers _ _ _ Z2) (ts_polygons _ _ _ _ _ T)
    (proj1 (surface_negative_spec ms m1 (q_points_exist n1 m1 w Z1))) (proj1 (surface_negative_spec ms m2 (q_points_exist n2 m2 w Z2))) (proj1 (surface_negative_spec ms w whole_points_exist))).
  - intros x (_ & vs & pts & E & _). apply nth_error_Some. congruence.
  - intros x (_ & vs & pts & E & _). apply nth_error_Some. congruence.
  - intros x (_ & vs & pts & E & _). apply nth_error_Some. congruence.
  - apply (q_negative_new n1 m1 w Z1).
  - apply (q_negative_new n2 m2 w Z2).
Qed.
End Two.
