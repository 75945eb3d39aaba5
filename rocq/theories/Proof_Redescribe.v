(** The report of a surface whose polygons are described otherwise. *)
From Coq Require Import String Ascii List Arith NArith ZArith Bool Lia Permutation Sorted.
From Verif Require Import Base BaseFacts Model_Issues Types Model_Hash Model_Adjacency Model_Colocation Model_Manifold Model_Degeneration Model_Negative Model_Results
  Spec_Cycles Spec_Maps Spec_Colocation Spec_Adjacency Spec_Manifold Spec_Degeneration Spec_Negative Spec_Renumber Spec_Redescribe
  Proof_Colocation Proof_Adjacency Proof_Manifold Proof_Manifold2 Proof_Manifold3 Proof_Degeneration Proof_Renumber Proof_Renumber2.
Import ListNotations.
Open Scope list_scope.

Section Surface.
Context (over : bool) (d : Redescription) (m m' : SurfaceMesh) (H : redescribed_surface over d m m') (I : inside_surface m).
Local Notation side := (described_side d).
Local Notation corner := (described_corner d).

Lemma d_side : forall e, is_polygon_edge m e -> is_polygon_edge m' (side e).
Proof.
  intros [p i] [Hp Hi]. cbn [fst snd] in *. split; cbn [fst snd described_side]; [rewrite (rd_nb_polygons _ _ _ _ H); exact Hp|].
  rewrite (rd_nb_edges _ _ _ _ H) by exact Hp. apply (rd_side_numbers _ _ _ _ H p Hp). exact Hi.
Qed.
Lemma d_corner : forall e, is_polygon_edge m e -> is_polygon_edge m' (corner e).
Proof.
  intros [p i] [Hp Hi]. cbn [fst snd] in *. split; cbn [fst snd described_corner]; [rewrite (rd_nb_polygons _ _ _ _ H); exact Hp|].
  rewrite (rd_nb_edges _ _ _ _ H) by exact Hp. apply (rd_corner_numbers _ _ _ _ H p Hp). exact Hi.
Qed.
Lemma d_side_onto : forall e', is_polygon_edge m' e' -> exists e, is_polygon_edge m e /\ side e = e'.
Proof.
  intros [p i'] [Hp Hi]. cbn [fst snd] in *. rewrite (rd_nb_polygons _ _ _ _ H) in Hp. rewrite (rd_nb_edges _ _ _ _ H) in Hi by exact Hp.
  destruct (numbers_onto _ _ (rd_side_numbers _ _ _ _ H p Hp) _ Hi) as (i & K & <-). exists (p, i). split; [split; assumption|reflexivity].
Qed.
Lemma d_corner_onto : forall e', is_polygon_edge m' e' -> exists e, is_polygon_edge m e /\ corner e = e'.
Proof.
  intros [p i'] [Hp Hi]. cbn [fst snd] in *. rewrite (rd_nb_polygons _ _ _ _ H) in Hp. rewrite (rd_nb_edges _ _ _ _ H) in Hi by exact Hp.
  destruct (numbers_onto _ _ (rd_corner_numbers _ _ _ _ H p Hp) _ Hi) as (i & K & <-). exists (p, i). split; [split; assumption|reflexivity].
Qed.
Lemma d_side_inj : forall e f, is_polygon_edge m e -> is_polygon_edge m f -> side e = side f -> e = f.
Proof.
  intros [p i] [q j] [Hp Hi] [Hq Hj] E. cbn [fst snd] in *. unfold described_side in E. cbn [fst snd] in E. injection E as E1 E2. subst q. f_equal.
  apply (rd_side_numbers _ _ _ _ H p Hp); assumption.
Qed.
Lemma d_corner_inj : forall e f, is_polygon_edge m e -> is_polygon_edge m f -> corner e = corner f -> e = f.
Proof.
  intros [p i] [q j] [Hp Hi] [Hq Hj] E. cbn [fst snd] in *. unfold described_corner in E. cbn [fst snd] in E. injection E as E1 E2. subst q. f_equal.
  apply (rd_corner_numbers _ _ _ _ H p Hp); assumption.
Qed.
Lemma d_adjacent_range : edge_adjacency_in_range m'.
Proof.
  intros e' q He E. destruct (d_side_onto e' He) as (e & He1 & <-). rewrite (rd_adjacent _ _ _ _ H e He1) in E. rewrite (rd_nb_polygons _ _ _ _ H). apply (proj1 I e q He1 E).
Qed.
Lemma d_vertices_range : surface_vertices_in_range m'.
Proof.
  intros c' Hc. destruct (d_corner_onto c' Hc) as (c & Hc1 & <-). rewrite (rd_corners _ _ _ _ H c Hc1), (rd_points _ _ _ _ H). apply (proj1 (proj2 I) c Hc1).
Qed.
Lemma d_ends : forall e, is_polygon_edge m e ->
  (over = false /\ polygon_edge_vertex0 m' (side e) = polygon_edge_vertex0 m e /\ polygon_edge_vertex1 m' (side e) = polygon_edge_vertex1 m e) \/
  (over = true /\ polygon_edge_vertex0 m' (side e) = polygon_edge_vertex1 m e /\ polygon_edge_vertex1 m' (side e) = polygon_edge_vertex0 m e).
Proof. intros e He. pose proof (rd_sides _ _ _ _ H e He) as K. destruct over; injection K as K1 K2; auto. Qed.
Lemma d_reciprocated : forall e q, is_polygon_edge m e -> q < nb_polygons m -> (edge_reciprocated m' (side e) q <-> edge_reciprocated m e q).
Proof.
  intros e q He Hq. unfold edge_reciprocated. cbn [described_side fst]. fold (side e). rewrite (rd_nb_edges _ _ _ _ H q Hq).
  assert (K : forall i, i < nb_polygon_edges m q ->
    (polygon_edge_vertex0 m' (q, side_number d q i) = polygon_edge_vertex1 m' (side e) /\ polygon_edge_vertex1 m' (q, side_number d q i) = polygon_edge_vertex0 m' (side e) /\ sm_adjacent m' (q, side_number d q i) = Some (fst e) <->
     polygon_edge_vertex0 m (q, i) = polygon_edge_vertex1 m e /\ polygon_edge_vertex1 m (q, i) = polygon_edge_vertex0 m e /\ sm_adjacent m (q, i) = Some (fst e))).
  { intros i Hi. assert (Hf : is_polygon_edge m (q, i)) by (split; assumption). change (q, side_number d q i) with (side (q, i)). rewrite (rd_adjacent _ _ _ _ H _ Hf).
    destruct (d_ends _ He) as [(O & -> & ->)|(O & -> & ->)]; destruct (d_ends _ Hf) as [(O' & -> & ->)|(O' & -> & ->)]; try congruence; [tauto|].
    split; intros (A & B & C); repeat split; congruence. }
  split.
  - intros (i' & Hi' & R). destruct (numbers_onto _ _ (rd_side_numbers _ _ _ _ H q Hq) _ Hi') as (i & Hi & <-). exists i. split; [exact Hi|]. apply K; assumption.
  - intros (i & Hi & R). exists (side_number d q i). split; [apply (rd_side_numbers _ _ _ _ H q Hq); exact Hi|]. apply K; assumption.
Qed.
Lemma d_wrong_edge : forall e, is_polygon_edge m e -> (wrong_edge m' (side e) <-> wrong_edge m e).
Proof.
  intros e He. unfold wrong_edge. rewrite (rd_adjacent _ _ _ _ H e He). split; intros (_ & q & E & R).
  - split; [exact He|]. exists q. split; [exact E|]. intros K. apply R. apply d_reciprocated; [exact He|apply (proj1 I _ _ He E)|exact K].
  - split; [apply d_side; exact He|]. exists q. split; [exact E|]. intros K. apply R. apply (proj1 (d_reciprocated e q He (proj1 I _ _ He E))). exact K.
Qed.
Lemma adjacency_redescribed : forall name name', exists r r', polygon_edges_with_wrong_adjacency name m = Ok r /\
  polygon_edges_with_wrong_adjacency name' m' = Ok r' /\ Permutation (ii_issues r') (map side (ii_issues r)).
Proof.
  intros name name'. destruct (surface_adjacency_spec name m (proj1 I)) as (r & _ & R1 & R2 & _).
  destruct (surface_adjacency_spec name' m' d_adjacent_range) as (r' & _ & R1' & R2' & _). exists r, r'. split; [exact R1|]. split; [exact R1'|].
  apply (transport_once _ _ side _ _ _ _ (exactly_once_lex _ _ R2) (exactly_once_lex _ _ R2')).
  - intros x y Hx Hy. apply d_side_inj; [apply Hx|apply Hy].
  - intros x Hx. apply d_wrong_edge; [apply Hx|exact Hx].
  - intros y Hy. destruct (d_side_onto y (proj1 Hy)) as (e & He & <-). exists e. split; [|reflexivity]. apply (proj1 (d_wrong_edge e He)). exact Hy.
Qed.

(** ** Edges *)
Lemma d_joins : forall a b e, is_polygon_edge m e -> (joins m' a b (side e) <-> joins m a b e).
Proof.
  intros a b e He. pose proof (d_side e He) as S. unfold joins. destruct (d_ends e He) as [(_ & -> & ->)|(_ & -> & ->)]; tauto.
Qed.
Lemma d_uses : forall a b k, uses m' a b k <-> uses m a b k.
Proof.
  intros a b k. split.
  - intros (l' & L' & <-).
    assert (J : exists l, lists_once (joins m a b) l).
    { exists (filter (fun e => (Nat.eqb (polygon_edge_vertex0 m e) a && Nat.eqb (polygon_edge_vertex1 m e) b) ||
                            (Nat.eqb (polygon_edge_vertex0 m e) b && Nat.eqb (polygon_edge_vertex1 m e) a))%bool (all_polygon_edges m)).
      split; [apply NoDup_filter; apply sorted_lex_NoDup; apply all_polygon_edges_sorted|].
      intros e. rewrite filter_In, in_all_polygon_edges, orb_true_iff, !andb_true_iff, !Nat.eqb_eq. reflexivity. }
    destruct J as (l & L). exists l. split; [exact L|].
    assert (P : Permutation l' (map side l)).
    { apply (transport_once _ _ _ _ _ _ _ L L').
      - intros x y Hx Hy. apply d_side_inj; [apply Hx|apply Hy].
      - intros x Hx. apply d_joins; [apply Hx|exact Hx].
      - intros y Hy. destruct (d_side_onto y (proj1 Hy)) as (e & He & <-). exists e. split; [|reflexivity]. apply (proj1 (d_joins a b e He)). exact Hy. }
    apply Permutation_length in P. rewrite map_length in P. symmetry. exact P.
  - intros (l & L & <-). exists (map side l). split; [|apply map_length].
    apply (lists_once_map _ _ _ _ _ _ L).
    + intros x y Hx Hy. apply d_side_inj; [apply Hx|apply Hy].
    + intros x Hx. apply d_joins; [apply Hx|exact Hx].
    + intros y Hy. destruct (d_side_onto y (proj1 Hy)) as (e & He & <-). exists e. split; [|reflexivity]. apply (proj1 (d_joins a b e He)). exact Hy.
Qed.
Lemma d_border : forall a b, border_occurrence m' a b <-> border_occurrence m a b.
Proof.
  intros a b. split.
  - intros (e' & J & E). destruct (d_side_onto e' (proj1 J)) as (e & He & <-). exists e. split; [apply (proj1 (d_joins a b e He)); exact J|]. rewrite <- (rd_adjacent _ _ _ _ H e He). exact E.
  - intros (e & J & E). exists (side e). split; [apply d_joins; [apply J|exact J]|]. rewrite (rd_adjacent _ _ _ _ H e (proj1 J)). exact E.
Qed.
Lemma edges_redescribed : forall ho ho', Permutation (ii_issues (surface_non_manifold_edges ho' m')) (ii_issues (surface_non_manifold_edges ho m)).
Proof.
  intros ho ho'. apply (lists_once_perm _ (non_manifold_edge same_modulo_256 m)); [|apply (surface_edges_spec ho ho m)].
  destruct (proj1 (surface_edges_spec ho' ho' m')) as [N L]. split; [exact N|]. intros x. rewrite L. unfold non_manifold_edge. setoid_rewrite d_uses. setoid_rewrite d_border. reflexivity.
Qed.

(** ** Vertices *)
Lemma d_corner_at : forall v c, is_polygon_edge m c -> (surface_corner m' v (corner c) <-> surface_corner m v c).
Proof. intros v c Hc. unfold surface_corner. rewrite (rd_corners _ _ _ _ H c Hc). pose proof (d_corner c Hc). tauto. Qed.
Lemma d_corners_onto : forall v c', surface_corner m' v c' -> exists c, surface_corner m v c /\ c' = corner c.
Proof. intros v c' K. destruct (d_corner_onto c' (proj1 K)) as (c & Hc & <-). exists c. split; [|reflexivity]. apply (proj1 (d_corner_at v c Hc)). exact K. Qed.
Lemma d_corners : forall v l l', Permutation l' (map corner l) -> (forall c, In c l -> is_polygon_edge m c) ->
  (lists_once (surface_corner m' v) l' <-> lists_once (surface_corner m v) l).
Proof.
  intros v l l' P R. split.
  - intros K. apply (lists_once_same _ _ _ _ P) in K. destruct K as [N L]. split; [apply NoDup_map_inv in N; exact N|]. intros c. split.
    + intros J. apply (proj1 (d_corner_at v c (R c J))). apply L. apply in_map. exact J.
    + intros C. assert (J : In (corner c) (map corner l)) by (apply L; apply d_corner_at; [apply C|exact C]).
      apply in_map_iff in J. destruct J as (c1 & E & J). apply d_corner_inj in E; [subst c1; exact J|apply (R c1 J)|apply C].
  - intros L. apply (lists_once_same _ _ _ _ (Permutation_sym P)). apply (lists_once_map _ _ _ _ _ _ L).
    + intros x y Hx Hy. apply d_corner_inj; [apply Hx|apply Hy].
    + intros x Hx. apply d_corner_at; [apply Hx|exact Hx].
    + intros y Hy. apply d_corners_onto; assumption.
Qed.
Lemma d_vertex_bad : forall v, surface_non_manifold_vertex m' v <-> surface_non_manifold_vertex m v.
Proof.
  intros v. unfold surface_non_manifold_vertex. rewrite (rd_points _ _ _ _ H). split; intros (Hv & fan & E & K); (split; [exact Hv|]); pose proof (rd_around _ _ _ _ H v Hv) as A; rewrite E in A.
  - destruct (sm_around_vertex m v) as [fan0|x|] eqn:E0; cbn in A; try contradiction. exists fan0. split; [reflexivity|]. intros Q. apply K.
    apply (d_corners v fan0 fan A); [|exact Q]. intros c. apply (proj2 (proj2 I) v fan0 c Hv E0).
  - destruct (sm_around_vertex m' v) as [fan0|x|] eqn:E0; cbn in A; try contradiction. exists fan0. split; [reflexivity|]. intros Q. apply K.
    apply (d_corners v fan fan0 A); [|exact Q]. intros c. apply (proj2 (proj2 I) v fan c Hv E).
Qed.
Lemma same_sorted_list : forall (P : nat -> Prop) l l', lists_exactly lt P l -> lists_exactly lt P l' -> l = l'.
Proof.
  intros P l l' [S E] [S' E']. assert (K : forall x, In x l <-> In x l') by (intros x; rewrite E, E'; reflexivity). clear E E'.
  revert l' S' K. induction S as [|a l S IH F]; intros l' S' K.
  - destruct l' as [|b l']; [reflexivity|]. destruct (proj2 (K b) (or_introl eq_refl)).
  - destruct S' as [|b l' S' F']; [destruct (proj1 (K a) (or_introl eq_refl))|]. rewrite Forall_forall in F, F'.
    assert (a = b) as <-.
    { destruct (proj1 (K a) (or_introl eq_refl)) as [->|A]; [reflexivity|]. destruct (proj2 (K b) (or_introl eq_refl)) as [->|B]; [reflexivity|]. specialize (F _ B). specialize (F' _ A). lia. }
    f_equal. apply IH; [exact S'|]. intros x. split; intros J.
    + destruct (proj1 (K x) (or_intror J)) as [<-|J']; [specialize (F _ J); lia|exact J'].
    + destruct (proj2 (K x) (or_intror J)) as [<-|J']; [specialize (F' _ J); lia|exact J'].
Qed.
Lemma vertices_redescribed : forall geo geo',
  (forall v, v < length (sm_points m) -> sm_around_vertex m v = Throw OpenGeodeExn \/ exists fan, sm_around_vertex m v = Ok fan) ->
  exists r r', surface_non_manifold_vertices geo m = Ok r /\ surface_non_manifold_vertices geo' m' = Ok r' /\ ii_issues r' = ii_issues r.
Proof.
  intros geo geo' Ha.
  assert (Ha' : forall v, v < length (sm_points m') -> sm_around_vertex m' v = Throw OpenGeodeExn \/ exists fan, sm_around_vertex m' v = Ok fan).
  { intros v Hv. rewrite (rd_points _ _ _ _ H) in Hv. pose proof (rd_around _ _ _ _ H v Hv) as A.
    destruct (Ha v Hv) as [E|[fan E]]; rewrite E in A; destruct (sm_around_vertex m' v) as [fan'|x'|]; cbn in A; try contradiction; [left; congruence|right; eauto]. }
  destruct (surface_vertices_spec geo m (proj1 (proj2 I)) Ha) as (r & _ & R1 & R2 & _).
  destruct (surface_vertices_spec geo' m' d_vertices_range Ha') as (r' & _ & R1' & R2' & _). exists r, r'. split; [exact R1|]. split; [exact R1'|].
  apply (same_sorted_list (surface_non_manifold_vertex m)); [|exact R2]. destruct R2' as [S L]. split; [exact S|]. intros x. rewrite L. apply d_vertex_bad.
Qed.

(** ** Polygons *)
Lemma fold_same : forall A B (f g : A -> B -> A) l a, (forall a x, In x l -> f a x = g a x) -> fold_left f l a = fold_left g l a.
Proof. intros A B f g l. induction l as [|x l IH]; intros a E; [reflexivity|]. cbn. rewrite (E a x (or_introl eq_refl)). apply IH. intros b y Hy. apply E. right. exact Hy. Qed.
Lemma in_range_lt : forall x k, In x (Range k) -> x < k.
Proof. intros x k J. apply in_seq in J. lia. Qed.
Lemma flat_redescribed : degenerated_polygons m' = degenerated_polygons m.
Proof.
  unfold degenerated_polygons, small_height_polygons. rewrite (rd_nb_polygons _ _ _ _ H). apply fold_same. intros r p Hp. rewrite (rd_height _ _ _ _ H p (in_range_lt _ _ Hp)). reflexivity.
Qed.
Lemma negative_redescribed : forall ms, same_sign ms m m' -> negative_polygons ms m' = negative_polygons ms m.
Proof.
  intros ms S. unfold negative_polygons. rewrite (rd_nb_polygons _ _ _ _ H), (rd_dimension _ _ _ _ H). cbv zeta. destruct (Nat.eqb (sm_dimension m) 2); [|reflexivity].
  apply fold_same. intros r p Hp. unfold polygon_is_negative, polygon_points. rewrite (rd_points _ _ _ _ H), (S p (in_range_lt _ _ Hp)). reflexivity.
Qed.
Lemma negative_redescribed_3d : forall ms, sm_dimension m <> 2 -> negative_polygons ms m' = negative_polygons ms m.
Proof.
  intros ms S. unfold negative_polygons. rewrite (rd_dimension _ _ _ _ H). destruct (Nat.eqb_spec (sm_dimension m) 2); [congruence|reflexivity].
Qed.
End Surface.
