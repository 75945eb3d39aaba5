(** Renumbering a mesh renumbers its report: surfaces. *)
From Coq Require Import String Ascii List Arith NArith ZArith Bool Lia Permutation Sorted.
From Verif Require Import Base BaseFacts Model_Issues Types Model_Hash Model_Adjacency Model_Colocation Model_Manifold Model_Degeneration Model_Negative
  Spec_Cycles Spec_Maps Spec_Colocation Spec_Adjacency Spec_Manifold Spec_Degeneration Spec_Negative Spec_Renumber Model_Intersections Spec_Intersections
  Proof_Colocation Proof_Adjacency Proof_Manifold Proof_Manifold2 Proof_Manifold3 Proof_Degeneration Proof_Renumber.
Import ListNotations.
Open Scope list_scope.

Section Surface.
Context (n : Numbering) (m m' : SurfaceMesh) (H : renumbered_surface n m m').
Local Notation s := (new_vertex n).
Local Notation t := (new_element n).

Lemma element_onto : forall p', p' < nb_polygons m' -> exists p, p < nb_polygons m /\ t p = p'.
Proof. intros p' Hp. rewrite (rs_nb_polygons _ _ _ H) in Hp. apply (numbers_onto _ _ (rs_numbers _ _ _ H) _ Hp). Qed.
Lemma element_range : forall p, p < nb_polygons m -> t p < nb_polygons m'.
Proof. intros p Hp. rewrite (rs_nb_polygons _ _ _ H). apply (rs_numbers _ _ _ H). exact Hp. Qed.
Lemma vertex_inj : forall a b, a < length (sm_points m) -> b < length (sm_points m) -> s a = s b -> a = b.
Proof. destruct (rs_points _ _ _ H) as (_ & N & _). apply N. Qed.
Lemma vertex_eq : forall a b, a < length (sm_points m) -> b < length (sm_points m) -> (s a = s b <-> a = b).
Proof. intros a b A B. split; [apply vertex_inj; assumption|congruence]. Qed.
Lemma vertex_onto : forall v', v' < length (sm_points m') -> exists v, v < length (sm_points m) /\ s v = v'.
Proof. destruct (rs_points _ _ _ H) as (L & N & _). intros v' Hv. rewrite L in Hv. apply (numbers_onto _ _ N _ Hv). Qed.
Lemma nb_edges_same : forall p, p < nb_polygons m -> nb_polygon_edges m' (t p) = nb_polygon_edges m p.
Proof. intros p Hp. unfold nb_polygon_edges. rewrite (proj1 (rs_polygons _ _ _ H p Hp)). apply map_length. Qed.
Lemma edge_new : forall e, is_polygon_edge m e -> is_polygon_edge m' (new_corner n e).
Proof.
  intros [p i] [H1 H2]. cbn [fst snd] in *. split; cbn [fst snd new_corner]; [apply element_range; exact H1|].
  rewrite nb_edges_same by exact H1. exact H2.
Qed.
Lemma edge_onto : forall e', is_polygon_edge m' e' -> exists e, is_polygon_edge m e /\ new_corner n e = e'.
Proof.
  intros [p' i] [H1 H2]. cbn [fst snd] in *. destruct (element_onto p' H1) as (p & Hp & <-). exists (p, i).
  split; [|reflexivity]. split; [exact Hp|]. cbn [fst snd]. rewrite nb_edges_same in H2 by exact Hp. exact H2.
Qed.
Lemma corner_inj : forall e f, fst e < nb_polygons m -> fst f < nb_polygons m -> new_corner n e = new_corner n f -> e = f.
Proof.
  intros [p i] [q j] Hp Hq E. cbn [fst snd new_corner] in *. unfold new_corner in E. cbn [fst snd] in E. injection E as E1 E2.
  f_equal; [|exact E2]. apply (rs_numbers _ _ _ H); assumption.
Qed.
Lemma polygon_vertex_new : forall e, is_polygon_edge m e -> polygon_vertex m' (new_corner n e) = s (polygon_vertex m e).
Proof.
  intros [p i] [H1 H2]. cbn [fst snd] in *. unfold polygon_vertex, new_corner. cbn [fst snd].
  rewrite (proj1 (rs_polygons _ _ _ H p H1)). apply nth_map_in. exact H2.
Qed.
Lemma polygon_vertex_range : forall e, is_polygon_edge m e -> polygon_vertex m e < length (sm_points m).
Proof.
  intros [p i] [H1 H2]. cbn [fst snd] in *. unfold polygon_vertex. cbn [fst snd]. apply (proj2 (rs_polygons _ _ _ H p H1)). apply nth_In. exact H2.
Qed.
Lemma next_edge : forall e, is_polygon_edge m e -> is_polygon_edge m (fst e, Nat.modulo (S (snd e)) (nb_polygon_edges m (fst e))).
Proof. intros [p i] [H1 H2]. cbn [fst snd] in *. split; [exact H1|]. cbn [fst snd]. apply Nat.mod_upper_bound. lia. Qed.
Lemma ends_new : forall e, is_polygon_edge m e ->
  polygon_edge_vertex0 m' (new_corner n e) = s (polygon_edge_vertex0 m e) /\
  polygon_edge_vertex1 m' (new_corner n e) = s (polygon_edge_vertex1 m e).
Proof.
  intros e He. split; [apply polygon_vertex_new; exact He|]. unfold polygon_edge_vertex1.
  replace (fst (new_corner n e), snd (new_corner n e)) with (new_corner n e) by (destruct e; reflexivity).
  cbn [new_corner fst snd]. rewrite nb_edges_same by apply He. rewrite <- (polygon_vertex_new _ (next_edge e He)). reflexivity.
Qed.
Lemma ends_range : forall e, is_polygon_edge m e ->
  polygon_edge_vertex0 m e < length (sm_points m) /\ polygon_edge_vertex1 m e < length (sm_points m).
Proof. intros e He. split; [apply polygon_vertex_range; exact He|]. apply polygon_vertex_range. apply next_edge. exact He. Qed.
Lemma adjacent_new : forall e, is_polygon_edge m e -> sm_adjacent m' (new_corner n e) = option_map t (sm_adjacent m e).
Proof. intros [p i] [H1 H2]. apply (rs_adjacent _ _ _ H p i H1 H2). Qed.
Lemma adjacent_range : edge_adjacency_in_range m.
Proof. intros [p i] q [H1 H2] E. apply (proj2 (rs_adjacent _ _ _ H p i H1 H2) q E). Qed.
Lemma adjacent_range' : edge_adjacency_in_range m'.
Proof.
  intros e' q' He E. destruct (edge_onto e' He) as (e & He1 & <-). rewrite adjacent_new in E by exact He1.
  destruct (sm_adjacent m e) as [q|] eqn:Eq; [|discriminate]. cbn [option_map] in E. injection E as <-. apply element_range. apply (adjacent_range e q He1 Eq).
Qed.

(** ** Adjacency *)
Lemma reciprocated_new : forall e q, is_polygon_edge m e -> q < nb_polygons m ->
  (edge_reciprocated m' (new_corner n e) (t q) <-> edge_reciprocated m e q).
Proof.
  intros e q He Hq. destruct (ends_new e He) as [N0 N1]. destruct (ends_range e He) as [R0 R1]. unfold edge_reciprocated. rewrite N0, N1.
  assert (K : forall i, i < nb_polygon_edges m q -> (polygon_edge_vertex0 m' (t q, i) = s (polygon_edge_vertex1 m e) /\
    polygon_edge_vertex1 m' (t q, i) = s (polygon_edge_vertex0 m e) /\ sm_adjacent m' (t q, i) = Some (t (fst e)) <->
    polygon_edge_vertex0 m (q, i) = polygon_edge_vertex1 m e /\ polygon_edge_vertex1 m (q, i) = polygon_edge_vertex0 m e /\ sm_adjacent m (q, i) = Some (fst e))).
  { intros i Hi. assert (Hf : is_polygon_edge m (q, i)) by (split; assumption). destruct (ends_new _ Hf) as [F0 F1]. destruct (ends_range _ Hf) as [G0 G1].
    change (t q, i) with (new_corner n (q, i)). rewrite F0, F1, (adjacent_new _ Hf), !vertex_eq by assumption.
    destruct (sm_adjacent m (q, i)) as [p|] eqn:Ep; cbn [option_map]; [|split; intros (? & ? & ?); discriminate].
    split; intros (A & B & C); (split; [exact A|]; split; [exact B|]); injection C as C; [|congruence].
    f_equal. apply (rs_numbers _ _ _ H); [apply (adjacent_range _ _ Hf Ep)|apply He|exact C]. }
  cbn [fst new_corner]. rewrite nb_edges_same by exact Hq. split; intros (i & Hi & R); exists i; (split; [exact Hi|]); apply K; assumption.
Qed.
Lemma wrong_edge_new : forall e, is_polygon_edge m e -> (wrong_edge m' (new_corner n e) <-> wrong_edge m e).
Proof.
  intros e He. unfold wrong_edge. rewrite adjacent_new by exact He. split.
  - intros (_ & q' & E & R). split; [exact He|]. destruct (sm_adjacent m e) as [q|] eqn:Eq; [|discriminate]. cbn [option_map] in E. injection E as <-.
    exists q. split; [reflexivity|]. intros K. apply R. apply reciprocated_new; [exact He|apply (adjacent_range _ _ He Eq)|exact K].
  - intros (_ & q & E & R). split; [apply edge_new; exact He|]. rewrite E. exists (t q). split; [reflexivity|]. intros K. apply R.
    apply reciprocated_new in K; [exact K|exact He|apply (adjacent_range _ _ He E)].
Qed.
Lemma adjacency_renumbered : forall name name', exists r r', polygon_edges_with_wrong_adjacency name m = Ok r /\
  polygon_edges_with_wrong_adjacency name' m' = Ok r' /\ renumbered_issues (new_corner n) r r'.
Proof.
  intros name name'. destruct (surface_adjacency_spec name m adjacent_range) as (r & _ & R1 & R2 & _).
  destruct (surface_adjacency_spec name' m' adjacent_range') as (r' & _ & R1' & R2' & _). exists r, r'. split; [exact R1|]. split; [exact R1'|].
  apply (transport_once _ _ (new_corner n) _ _ _ _ (exactly_once_lex _ _ R2) (exactly_once_lex _ _ R2')).
  - intros x y Hx Hy. apply corner_inj; [apply Hx|apply Hy].
  - intros x Hx. apply wrong_edge_new; [apply Hx|exact Hx].
  - intros y Hy. destruct (edge_onto y (proj1 Hy)) as (e & He & <-). exists e. split; [|reflexivity]. apply wrong_edge_new; assumption.
Qed.

(** ** Edges *)
Lemma joins_new : forall a b e, a < length (sm_points m) -> b < length (sm_points m) -> is_polygon_edge m e ->
  (joins m' (s a) (s b) (new_corner n e) <-> joins m a b e).
Proof.
  intros a b e Ha Hb He. destruct (ends_new e He) as [N0 N1]. destruct (ends_range e He) as [R0 R1]. unfold joins.
  rewrite N0, N1, !vertex_eq by assumption. pose proof (edge_new e He). tauto.
Qed.
Lemma uses_new : forall a b k, a < length (sm_points m) -> b < length (sm_points m) -> (uses m' (s a) (s b) k <-> uses m a b k).
Proof.
  intros a b k Ha Hb. split.
  - intros (l' & L' & <-).
    assert (J : exists l, lists_once (joins m a b) l).
    { exists (filter (fun e => (Nat.eqb (polygon_edge_vertex0 m e) a && Nat.eqb (polygon_edge_vertex1 m e) b) ||
                            (Nat.eqb (polygon_edge_vertex0 m e) b && Nat.eqb (polygon_edge_vertex1 m e) a))%bool (all_polygon_edges m)).
      split; [apply NoDup_filter; apply sorted_lex_NoDup; apply all_polygon_edges_sorted|].
      intros e. rewrite filter_In, in_all_polygon_edges, orb_true_iff, !andb_true_iff, !Nat.eqb_eq. reflexivity. }
    destruct J as (l & L). exists l. split; [exact L|].
    assert (P : Permutation l' (map (new_corner n) l)).
    { apply (transport_once _ _ _ _ _ _ _ L L').
      - intros x y Hx Hy. apply corner_inj; [apply Hx|apply Hy].
      - intros x Hx. apply joins_new; [exact Ha|exact Hb|apply Hx|exact Hx].
      - intros y Hy. destruct (edge_onto y (proj1 Hy)) as (e & He & <-). exists e. split; [|reflexivity]. apply joins_new in Hy; assumption. }
    apply Permutation_length in P. rewrite map_length in P. symmetry. exact P.
  - intros (l & L & <-). exists (map (new_corner n) l). split; [|apply map_length].
    apply (lists_once_map _ _ _ _ _ _ L).
    + intros x y Hx Hy. apply corner_inj; [apply Hx|apply Hy].
    + intros x Hx. apply joins_new; [exact Ha|exact Hb|apply Hx|exact Hx].
    + intros y Hy. destruct (edge_onto y (proj1 Hy)) as (e & He & <-). exists e. split; [|reflexivity]. apply joins_new in Hy; assumption.
Qed.
Lemma border_new : forall a b, a < length (sm_points m) -> b < length (sm_points m) -> (border_occurrence m' (s a) (s b) <-> border_occurrence m a b).
Proof.
  intros a b Ha Hb. split.
  - intros (e' & J & E). destruct (edge_onto e' (proj1 J)) as (e & He & <-). exists e. split; [apply joins_new in J; assumption|].
    rewrite adjacent_new in E by exact He. destruct (sm_adjacent m e); [discriminate|reflexivity].
  - intros (e & J & E). exists (new_corner n e). split; [apply joins_new; [exact Ha|exact Hb|apply J|exact J]|].
    rewrite adjacent_new by apply J. rewrite E. reflexivity.
Qed.
Lemma joins_swap : forall mm a b e, joins mm a b e <-> joins mm b a e.
Proof. intros mm a b e. unfold joins. tauto. Qed.
Lemma uses_swap : forall mm a b k, uses mm a b k -> uses mm b a k.
Proof. intros mm a b k (l & [N L] & E). exists l. split; [split; [exact N|]|exact E]. intros x. rewrite L. apply joins_swap. Qed.
Lemma border_swap : forall mm a b, border_occurrence mm a b <-> border_occurrence mm b a.
Proof. intros mm a b. split; intros (e & J & E); exists e; (split; [apply joins_swap; exact J|exact E]). Qed.
Lemma edge_bad_new : forall eqm a b, a < length (sm_points m) -> b < length (sm_points m) -> a <= b ->
  (non_manifold_edge eqm m' (new_pair n (a, b)) <-> non_manifold_edge eqm m (a, b)).
Proof.
  intros eqm a b Ha Hb Hab. unfold new_pair. cbn [fst snd]. unfold non_manifold_edge. cbn [fst snd].
  set (x := Nat.min (s a) (s b)). set (y := Nat.max (s a) (s b)).
  assert (O : x = s a /\ y = s b \/ x = s b /\ y = s a) by (subst x y; lia).
  assert (U : forall k, uses m' x y k <-> uses m a b k).
  { intros k. destruct O as [[-> ->]|[-> ->]]; [apply uses_new; assumption|]. split; intros K; [apply uses_new; [assumption|assumption|apply uses_swap; exact K]|].
    apply uses_swap. apply uses_new; assumption. }
  assert (B : border_occurrence m' x y <-> border_occurrence m a b).
  { destruct O as [[-> ->]|[-> ->]]; [apply border_new; assumption|]. rewrite border_swap. apply border_new; assumption. }
  assert (X : x <= y) by (subst x y; lia). setoid_rewrite U. setoid_rewrite B. tauto.
Qed.
Lemma uses_range : forall a b k, uses m a b k -> 0 < k -> a < length (sm_points m) /\ b < length (sm_points m).
Proof.
  intros a b k (l & [_ L] & <-) Hk. destruct l as [|e l]; [cbn in Hk; lia|]. destruct (proj1 (L e) (or_introl eq_refl)) as [He J].
  destruct (ends_range e He) as [R0 R1]. destruct J as [[<- <-]|[<- <-]]; auto.
Qed.
Lemma min_max_inj : forall a b c d, a <= b -> c <= d -> a < length (sm_points m) -> b < length (sm_points m) -> c < length (sm_points m) -> d < length (sm_points m) ->
  new_pair n (a, b) = new_pair n (c, d) -> (a, b) = (c, d).
Proof.
  intros a b c d Hab Hcd A B C D E. unfold new_pair in E. cbn [fst snd] in E. injection E as E1 E2.
  assert (K : s a = s c /\ s b = s d \/ s a = s d /\ s b = s c) by lia.
  destruct K as [[K1 K2]|[K1 K2]]; apply vertex_inj in K1; try assumption; apply vertex_inj in K2; try assumption; subst; [reflexivity|].
  f_equal; lia.
Qed.
Lemma edges_renumbered : forall ho ho', renumbered_issues (new_pair n) (surface_non_manifold_edges ho m) (surface_non_manifold_edges ho' m').
Proof.
  intros ho ho'. apply (transport_once _ _ _ _ _ _ _ (proj1 (surface_edges_spec ho ho m)) (proj1 (surface_edges_spec ho' ho' m'))).
  - intros [a b] [c d] (X1 & k & K1 & K2 & _) (Y1 & k' & K1' & K2' & _) E. cbn [fst snd] in *.
    destruct (uses_range _ _ _ K2 K1). destruct (uses_range _ _ _ K2' K1'). apply min_max_inj; assumption.
  - intros [a b] X. pose proof X as (X1 & k & K1 & K2 & _). cbn [fst snd] in *. destruct (uses_range _ _ _ K2 K1). apply edge_bad_new; assumption.
  - intros [x y] Y. pose proof Y as (Y1 & k & K1 & (l & [_ L] & E) & _). cbn [fst snd] in *. destruct l as [|e' l]; [cbn in E; lia|].
    destruct (proj1 (L e') (or_introl eq_refl)) as [He' J]. destruct (edge_onto e' He') as (e & He & <-). destruct (ends_new e He) as [N0 N1]. destruct (ends_range e He) as [R0 R1].
    rewrite N0, N1 in J. set (a := polygon_edge_vertex0 m e) in *. set (b := polygon_edge_vertex1 m e) in *.
    assert (Q : exists c d, c < length (sm_points m) /\ d < length (sm_points m) /\ c <= d /\ (x, y) = new_pair n (c, d)).
    { destruct (Nat.le_ge_cases a b) as [G|G]; [exists a, b|exists b, a]; (split; [assumption|]; split; [assumption|]; split; [assumption|]);
        unfold new_pair; cbn [fst snd]; destruct J as [[<- <-]|[<- <-]]; f_equal; lia. }
    destruct Q as (c & d & Hc & Hd & Hcd & Q). exists (c, d). split; [|exact Q]. rewrite Q in Y. apply edge_bad_new in Y; assumption.
Qed.

(** ** Vertices *)
Lemma corner_new : forall v c, v < length (sm_points m) -> is_polygon_edge m c -> (surface_corner m' (s v) (new_corner n c) <-> surface_corner m v c).
Proof.
  intros v c Hv Hc. unfold surface_corner. rewrite polygon_vertex_new by exact Hc. rewrite vertex_eq by (try assumption; apply polygon_vertex_range; exact Hc).
  pose proof (edge_new c Hc). tauto.
Qed.
Lemma corner_onto : forall v c', v < length (sm_points m) -> surface_corner m' (s v) c' -> exists c, surface_corner m v c /\ c' = new_corner n c.
Proof.
  intros v c' Hv K. destruct (edge_onto c' (proj1 K)) as (c & Hc & <-). exists c. split; [|reflexivity]. apply corner_new in K; assumption.
Qed.
Lemma lists_once_same : forall A (P : A -> Prop) l l', Permutation l l' -> lists_once P l -> lists_once P l'.
Proof. intros A P l l' E [N L]. split; [apply (Permutation_NoDup E N)|]. intros x. rewrite <- L. split; apply Permutation_in; [symmetry|]; exact E. Qed.
Lemma corners_new : forall v l l', v < length (sm_points m) -> Permutation l' (map (new_corner n) l) -> (forall p e, In (p, e) l -> p < nb_polygons m) ->
  (lists_once (surface_corner m' (s v)) l' <-> lists_once (surface_corner m v) l).
Proof.
  intros v l l' Hv P R. split.
  - intros K. apply (lists_once_same _ _ _ _ P) in K. destruct K as [N L]. split; [apply NoDup_map_inv in N; exact N|]. intros c. split.
    + intros I. pose proof (proj1 (L (new_corner n c)) (in_map _ _ _ I)) as C. destruct (corner_onto v _ Hv C) as (d & D & E).
      apply corner_inj in E; [subst d; exact D|destruct c as [p e]; apply (R p e I)|apply D].
    + intros C. assert (I : In (new_corner n c) (map (new_corner n) l)) by (apply L; apply corner_new; [exact Hv|apply C|exact C]).
      apply in_map_iff in I. destruct I as ([p e] & E & I). apply corner_inj in E; [subst c; exact I|apply (R p e I)|apply C].
  - intros L. apply (lists_once_same _ _ _ _ (Permutation_sym P)). apply (lists_once_map _ _ _ _ _ _ L).
    + intros x y Hx Hy. apply corner_inj; [apply Hx|apply Hy].
    + intros x Hx. apply corner_new; [exact Hv|apply Hx|exact Hx].
    + intros y Hy. apply corner_onto; assumption.
Qed.
Lemma vertex_bad_new : forall v, v < length (sm_points m) -> (surface_non_manifold_vertex m' (s v) <-> surface_non_manifold_vertex m v).
Proof.
  intros v Hv. destruct (rs_points _ _ _ H) as (L & [N _] & _). destruct (rs_around _ _ _ H v Hv) as [A R]. unfold surface_non_manifold_vertex. rewrite L.
  destruct (sm_around_vertex m v) as [fan|x|] eqn:E; destruct (sm_around_vertex m' (s v)) as [fan'|x'|] eqn:E'; cbn in A; try contradiction.
  - assert (R' : forall p e, In (p, e) fan -> p < nb_polygons m) by (intros p e; apply (R fan p e eq_refl)).
    split; intros (_ & f & Ef & K); injection Ef as <-; [split; [exact Hv|]; exists fan|split; [apply N; exact Hv|]; exists fan']; (split; [reflexivity|]);
      intros Q; apply K; apply (corners_new v fan fan' Hv A R'); exact Q.
  - split; intros (_ & f & Ef & _); discriminate.
  - split; intros (_ & f & Ef & _); discriminate.
Qed.
Lemma vertices_renumbered : forall geo geo',
  (forall v, v < length (sm_points m) -> sm_around_vertex m v = Throw OpenGeodeExn \/ exists fan, sm_around_vertex m v = Ok fan) ->
  exists r r', surface_non_manifold_vertices geo m = Ok r /\ surface_non_manifold_vertices geo' m' = Ok r' /\ renumbered_issues s r r'.
Proof.
  intros geo geo' Ha. destruct (rs_points _ _ _ H) as (L & N & _).
  assert (V' : surface_vertices_in_range m').
  { intros c' Hc. destruct (edge_onto c' Hc) as (c & Hc1 & <-). rewrite polygon_vertex_new by exact Hc1. rewrite L. apply N. apply polygon_vertex_range. exact Hc1. }
  assert (Ha' : forall v, v < length (sm_points m') -> sm_around_vertex m' v = Throw OpenGeodeExn \/ exists fan, sm_around_vertex m' v = Ok fan).
  { intros v' Hv'. destruct (vertex_onto v' Hv') as (v & Hv & <-). destruct (rs_around _ _ _ H v Hv) as [A _].
    destruct (Ha v Hv) as [E|[fan E]]; rewrite E in A; destruct (sm_around_vertex m' (s v)) as [fan'|x'|]; cbn in A; try contradiction; [left; congruence|right; eauto]. }
  destruct (surface_vertices_spec geo m polygon_vertex_range Ha) as (r & _ & R1 & R2 & _).
  destruct (surface_vertices_spec geo' m' V' Ha') as (r' & _ & R1' & R2' & _). exists r, r'. split; [exact R1|]. split; [exact R1'|].
  apply (transport_range s (length (sm_points m)) _ _ _ _ N R2 R2').
  - intros x Hx. apply Hx.
  - intros x Hx. rewrite <- L. apply Hx.
  - apply vertex_bad_new.
Qed.

(** ** Polygons *)
Lemma flat_renumbered : renumbered_issues t (degenerated_polygons m) (degenerated_polygons m').
Proof.
  apply (transport_range t (nb_polygons m) _ _ _ _ (rs_numbers _ _ _ H) (flat_polygons_spec m _) (flat_polygons_spec m' _)).
  - intros x Hx. apply Hx.
  - intros x Hx. rewrite <- (rs_nb_polygons _ _ _ H). apply Hx.
  - intros x Hx. unfold flat_polygon. rewrite (rs_height _ _ _ H x Hx). pose proof (element_range x Hx). tauto.
Qed.
Lemma points_exist : polygon_points_exist m.
Proof.
  intros vs v I J. apply In_nth with (d := []) in I. destruct I as (p & Hp & <-). apply (proj2 (rs_polygons _ _ _ H p Hp) v J).
Qed.
Lemma points_exist' : polygon_points_exist m'.
Proof.
  intros vs v I J. apply In_nth with (d := []) in I. destruct I as (p' & Hp' & E). destruct (element_onto p' Hp') as (p & Hp & <-).
  destruct (rs_polygons _ _ _ H p Hp) as [P1 P2]. unfold polygon_vertices in P1 at 1. rewrite E in P1. rewrite P1 in J. apply in_map_iff in J. destruct J as (w & <- & J).
  destruct (rs_points _ _ _ H) as (L & [N _] & _). rewrite L. apply N. apply P2. exact J.
Qed.
Lemma polygon_at : forall mm p, p < nb_polygons mm -> nth_error (sm_polygons mm) p = Some (polygon_vertices mm p).
Proof. intros mm p Hp. apply nth_error_nth'. exact Hp. Qed.
Lemma negative_new : forall ms p, p < nb_polygons m -> (negative_polygon ms m' (t p) <-> negative_polygon ms m p).
Proof.
  intros ms p Hp. unfold negative_polygon. rewrite (rs_dimension _ _ _ H), (polygon_at m p Hp), (polygon_at m' (t p) (element_range p Hp)).
  destruct (rs_polygons _ _ _ H p Hp) as [P1 P2]. rewrite P1. pose proof (points_at n _ _ (polygon_vertices m p) (rs_points _ _ _ H) P2) as E.
  split; intros (D & vs & pts & A & B & C); (split; [exact D|]); injection A as <-.
  - exists (polygon_vertices m p), pts. rewrite <- E. auto.
  - exists (map s (polygon_vertices m p)), pts. rewrite E. auto.
Qed.
Lemma negative_renumbered : forall ms, renumbered_issues t (negative_polygons ms m) (negative_polygons ms m').
Proof.
  intros ms. apply (transport_range t (nb_polygons m) _ _ _ _ (rs_numbers _ _ _ H) (proj1 (surface_negative_spec ms m points_exist)) (proj1 (surface_negative_spec ms m' points_exist'))).
  - intros x (_ & vs & pts & E & _). apply nth_error_Some. congruence.
  - intros x (_ & vs & pts & E & _). rewrite <- (rs_nb_polygons _ _ _ H). apply nth_error_Some. congruence.
  - apply negative_new.
Qed.

(** ** Intersecting polygons *)
Definition meetb (px : Predicates) (mm : SurfaceMesh) (c : nat * nat) : bool :=
  (negb (Nat.eqb (fst c) (snd c)) && px_polygons px mm (polygon_vertices mm (fst c)) (polygon_vertices mm (snd c)))%bool.
Lemma meetb_spec : forall px mm c, meetb px mm c = true <-> surface_pair_meets px mm c.
Proof. intros px mm c. unfold meetb, surface_pair_meets. rewrite andb_true_iff, negb_true_iff, Nat.eqb_neq. reflexivity. Qed.
Lemma candidates_filter : forall px mm candidates l, lists_candidates (surface_pair_meets px mm) candidates l -> Permutation l (filter (meetb px mm) candidates).
Proof.
  intros px mm candidates l (L & others & P & N). assert (F : forall p (a b : list (nat * nat)), Permutation a b -> Permutation (filter p a) (filter p b)).
  { intros p a b Q. induction Q as [|x a b Q IH|x y a|a b c Q1 IH1 Q2 IH2]; cbn; [constructor|destruct (p x); [constructor; exact IH|exact IH]| |etransitivity; eassumption].
    destruct (p x), (p y); try apply Permutation_refl. apply perm_swap. }
  rewrite (F _ _ _ P), filter_app.
  assert (E1 : filter (meetb px mm) l = l).
  { assert (G : forall k, (forall c, In c k -> meetb px mm c = true) -> filter (meetb px mm) k = k).
    { induction k as [|x k IH]; intros Q; [reflexivity|]. cbn [filter]. rewrite (Q x (or_introl eq_refl)). f_equal. apply IH. intros c Hc. apply Q. right. exact Hc. }
    apply G. intros c Hc. apply meetb_spec. apply L. exact Hc. }
  assert (E2 : filter (meetb px mm) others = []).
  { assert (G : forall k, (forall c, In c k -> meetb px mm c = false) -> filter (meetb px mm) k = []).
    { induction k as [|x k IH]; intros Q; [reflexivity|]. cbn [filter]. rewrite (Q x (or_introl eq_refl)). apply IH. intros c Hc. apply Q. right. exact Hc. }
    apply G. intros c Hc. apply not_true_iff_false. rewrite meetb_spec. apply N. exact Hc. }
  rewrite E1, E2, app_nil_r. apply Permutation_refl.
Qed.
Lemma filter_map_compat : forall A B (f : A -> B) p q l, (forall x, In x l -> q (f x) = p x) -> map f (filter p l) = filter q (map f l).
Proof.
  intros A B f p q l E. induction l as [|x l IH]; [reflexivity|]. cbn [map filter]. rewrite (E x (or_introl eq_refl)).
  rewrite <- IH by (intros y Hy; apply E; right; exact Hy). destruct (p x); reflexivity.
Qed.
Lemma undirected_cases : forall c, undirected c = c \/ undirected c = (snd c, fst c).
Proof. intros [a b]. unfold undirected. cbn [fst snd]. destruct (Nat.le_ge_cases a b); [left|right]; f_equal; lia. Qed.
Lemma candidates_renumbered : forall px candidates candidates' l l', blind_test px n m m' ->
  (forall p q, In (p, q) candidates -> p < nb_polygons m /\ q < nb_polygons m) ->
  Permutation (map undirected candidates') (map (new_polygons n) candidates) ->
  lists_candidates (surface_pair_meets px m) candidates l -> lists_candidates (surface_pair_meets px m') candidates' l' ->
  Permutation (map undirected l') (map (new_polygons n) l).
Proof.
  intros px candidates candidates' l l' B CR CP L L'. apply candidates_filter in L. apply candidates_filter in L'.
  assert (I : forall p q, p < nb_polygons m -> q < nb_polygons m -> Nat.eqb (t p) (t q) = Nat.eqb p q).
  { intros p q Hp Hq. destruct (Nat.eqb_spec p q) as [->|D]; [apply Nat.eqb_refl|]. apply Nat.eqb_neq. intros K. apply D. apply (rs_numbers _ _ _ H); assumption. }
  assert (M : forall p q, p < nb_polygons m -> q < nb_polygons m -> meetb px m' (t p, t q) = meetb px m (p, q) /\ meetb px m' (t q, t p) = meetb px m (p, q)).
  { intros p q Hp Hq. unfold meetb. cbn [fst snd]. rewrite !I by assumption. destruct (B p q Hp Hq) as [B1 B2]. destruct (B q p Hq Hp) as [B3 B4].
    rewrite B1, B3, B2, (Nat.eqb_sym q p). auto. }
  assert (Q : forall c, In c candidates -> meetb px m' (new_polygons n c) = meetb px m c).
  { intros [p q] Hc. destruct (CR p q Hc) as [Hp Hq]. unfold new_polygons. cbn [fst snd]. destruct (undirected_cases (t p, t q)) as [E|E]; rewrite E; cbn [fst snd]; apply M; assumption. }
  assert (Q' : forall c, In c candidates' -> meetb px m' (undirected c) = meetb px m' c).
  { intros c Hc. apply (in_map undirected) in Hc. apply (Permutation_in _ CP) in Hc. apply in_map_iff in Hc. destruct Hc as ([p q] & E & Hc). destruct (CR p q Hc) as [Hp Hq].
    unfold new_polygons in E. cbn [fst snd] in E. destruct (M p q Hp Hq) as [M1 M2].
    assert (O : c = (t p, t q) \/ c = (t q, t p)).
    { destruct c as [x y]. unfold undirected in E. cbn [fst snd] in E. injection E as E1 E2. assert (x = t p /\ y = t q \/ x = t q /\ y = t p) as [[-> ->]|[-> ->]] by lia; auto. }
    destruct (undirected_cases c) as [U|U]; rewrite U; [reflexivity|]. destruct O as [->| ->]; cbn [fst snd]; congruence. }
  etransitivity; [apply (Permutation_map _ L')|]. etransitivity; [|apply (Permutation_map _ (Permutation_sym L))].
  rewrite (filter_map_compat _ _ undirected (meetb px m') (meetb px m') candidates') by exact Q'.
  rewrite (filter_map_compat _ _ (new_polygons n) (meetb px m) (meetb px m') candidates) by exact Q.
  clear -CP. assert (F : forall p (a b : list (nat * nat)), Permutation a b -> Permutation (filter p a) (filter p b)).
  { intros p a b Q. induction Q as [|x a b Q IH|x y a|a b c Q1 IH1 Q2 IH2]; cbn; [constructor|destruct (p x); [constructor; exact IH|exact IH]| |etransitivity; eassumption].
    destruct (p x), (p y); try apply Permutation_refl. apply perm_swap. }
  apply F. exact CP.
Qed.
End Surface.
