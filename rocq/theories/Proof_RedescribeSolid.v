(** The report of a solid whose polyhedra are described otherwise. *)
From Coq Require Import String Ascii List Arith NArith ZArith Bool Lia Permutation Sorted Relations.
From Verif Require Import Base BaseFacts Model_Issues Types Model_Hash Model_Adjacency Model_Colocation Model_Manifold Model_Degeneration Model_Negative Model_Results
  Spec_Cycles Spec_Maps Spec_Colocation Spec_Adjacency Spec_Manifold Spec_Fans Spec_Degeneration Spec_Negative Spec_Renumber Spec_Redescribe Spec_RedescribeSolid
  Proof_Cycles Proof_Colocation Proof_Adjacency Proof_Manifold Proof_Manifold2 Proof_Manifold3 Proof_Degeneration Proof_Fans
  Proof_Renumber Proof_Renumber2 Proof_Renumber3 Proof_Renumber4 Proof_Redescribe.
Import ListNotations.
Open Scope list_scope.

(** two lists that represent the same cycles *)
Lemma same_cycles_represented : forall (P P' : list nat -> Prop) l l', (forall c, P' c <-> P c) -> represents_cycles P l -> represents_cycles P' l' ->
  exists k, Permutation l' k /\ Forall2 same_cycle l k.
Proof.
  intros P P' l l' PP (A1 & A2 & A3) (B1 & B2 & B3).
  assert (U : forall c d, In c l' -> In d l' -> same_cycle c d -> c = d).
  { intros c d Hc Hd S. apply In_nth_error in Hc. destruct Hc as [i Ei]. apply In_nth_error in Hd. destruct Hd as [j Ej].
    pose proof (B3 i j c d Ei Ej S). subst j. congruence. }
  destruct (choose_images _ _ (fun c c' : list nat => same_cycle c c') l l') as (k & F & K).
  { intros c Hc. apply B2. apply PP. apply A1. exact Hc. }
  exists k. split; [|exact F]. destruct (images_at _ _ _ _ _ F) as [L I]. apply NoDup_Permutation.
  - apply NoDup_nth_error. intros i j Hi E. destruct (nth_error l' i) as [c|] eqn:Ei; [|apply nth_error_None in Ei; lia].
    apply (B3 i j c c Ei (eq_sym E)). left. apply soc_refl.
  - apply NoDup_nth_error. intros i j Hi E. destruct (nth_error k i) as [c|] eqn:Ei; [|apply nth_error_None in Ei; lia]. symmetry in E.
    assert (Hj : j < length k) by (apply nth_error_Some; congruence).
    destruct (nth_error l i) as [a|] eqn:Ea; [|apply nth_error_None in Ea; lia]. destruct (nth_error l j) as [b|] eqn:Eb; [|apply nth_error_None in Eb; lia].
    apply (A3 i j a b Ea Eb). pose proof (I i a c Ea Ei) as R1. pose proof (I j b c Eb E) as R2.
    apply (same_cycle_trans _ _ c); [exact R1|apply same_cycle_sym; exact R2].
  - intros c'. split; [|apply K]. intros Hc'. destruct (A2 c' (proj1 (PP c') (B1 c' Hc'))) as (c & Hc & S).
    apply In_nth_error in Hc. destruct Hc as [i Ei]. destruct (nth_error k i) as [d|] eqn:Ed; [|apply nth_error_None in Ed; assert (i < length l) by (apply nth_error_Some; congruence); lia].
    pose proof (nth_error_In _ _ Ed) as Hd. rewrite (U c' d Hc' (K d Hd)); [exact Hd|].
    apply (same_cycle_trans _ _ c); [exact S|apply (I i c d Ei Ed)].
Qed.
Lemma turned_soc : forall A (over : bool) (a b a' b' : list A), same_oriented_cycle (if over then rev a else a) a' -> same_oriented_cycle (if over then rev b else b) b' ->
  (same_oriented_cycle a' b' <-> same_oriented_cycle a b).
Proof.
  intros A over a b a' b' Ha Hb. split; intros K.
  - assert (Q : same_oriented_cycle (if over then rev a else a) (if over then rev b else b)) by (apply (soc_trans _ _ a'); [exact Ha|]; apply (soc_trans _ _ b'); [exact K|apply soc_sym; exact Hb]).
    destruct over; [|exact Q]. apply soc_rev in Q. rewrite !rev_involutive in Q. exact Q.
  - apply (soc_trans _ _ (if over then rev a else a)); [apply soc_sym; exact Ha|]. apply (soc_trans _ _ (if over then rev b else b)); [|exact Hb]. destruct over; [apply soc_rev|]; exact K.
Qed.

Section Solid.
Context (over : bool) (d : SolidRedescription) (m m' : SolidMesh) (H : redescribed_solid over d m m') (I : inside_solid m).
Local Notation facet := (described_facet d).
Local Notation corner := (described_solid_corner d).
Definition is_corner (mm : SolidMesh) (c : nat * nat) : Prop := fst c < nb_polyhedra mm /\ snd c < length (ph_vertices (polyhedron mm (fst c))).

Lemma v_facet : forall f, is_polyhedron_facet m f -> is_polyhedron_facet m' (facet f).
Proof.
  intros [p i] [Hp Hi]. cbn [fst snd] in *. split; cbn [fst snd described_facet]; [rewrite (rv_nb_polyhedra _ _ _ _ H); exact Hp|].
  rewrite (rv_nb_facets _ _ _ _ H) by exact Hp. apply (rv_facet_numbers _ _ _ _ H p Hp). exact Hi.
Qed.
Lemma v_facet_onto : forall f', is_polyhedron_facet m' f' -> exists f, is_polyhedron_facet m f /\ facet f = f'.
Proof.
  intros [p i'] [Hp Hi]. cbn [fst snd] in *. rewrite (rv_nb_polyhedra _ _ _ _ H) in Hp. rewrite (rv_nb_facets _ _ _ _ H) in Hi by exact Hp.
  destruct (numbers_onto _ _ (rv_facet_numbers _ _ _ _ H p Hp) _ Hi) as (i & K & <-). exists (p, i). split; [split; assumption|reflexivity].
Qed.
Lemma v_facet_inj : forall e f, is_polyhedron_facet m e -> is_polyhedron_facet m f -> facet e = facet f -> e = f.
Proof.
  intros [p i] [q j] [Hp Hi] [Hq Hj] E. cbn [fst snd] in *. unfold described_facet in E. cbn [fst snd] in E. injection E as E1 E2. subst q. f_equal.
  apply (rv_facet_numbers _ _ _ _ H p Hp); assumption.
Qed.
Lemma v_corner : forall c, is_corner m c -> is_corner m' (corner c).
Proof.
  intros [p i] [Hp Hi]. cbn [fst snd] in *. split; cbn [fst snd described_solid_corner]; [rewrite (rv_nb_polyhedra _ _ _ _ H); exact Hp|].
  rewrite (rv_nb_corners _ _ _ _ H) by exact Hp. apply (rv_corner_numbers _ _ _ _ H p Hp). exact Hi.
Qed.
Lemma v_corner_onto : forall c', is_corner m' c' -> exists c, is_corner m c /\ corner c = c'.
Proof.
  intros [p i'] [Hp Hi]. cbn [fst snd] in *. rewrite (rv_nb_polyhedra _ _ _ _ H) in Hp. rewrite (rv_nb_corners _ _ _ _ H) in Hi by exact Hp.
  destruct (numbers_onto _ _ (rv_corner_numbers _ _ _ _ H p Hp) _ Hi) as (i & K & <-). exists (p, i). split; [split; assumption|reflexivity].
Qed.
Lemma v_corner_inj : forall e f, is_corner m e -> is_corner m f -> corner e = corner f -> e = f.
Proof.
  intros [p i] [q j] [Hp Hi] [Hq Hj] E. cbn [fst snd] in *. unfold described_solid_corner in E. cbn [fst snd] in E. injection E as E1 E2. subst q. f_equal.
  apply (rv_corner_numbers _ _ _ _ H p Hp); assumption.
Qed.
Lemma v_facet_cycle : forall f, is_polyhedron_facet m f ->
  same_oriented_cycle (if over then rev (polyhedron_facet_vertices m f) else polyhedron_facet_vertices m f) (polyhedron_facet_vertices m' (facet f)).
Proof.
  intros [p i] [Hp Hi]. cbn [fst snd] in *. destruct (rv_facets _ _ _ _ H p i _ Hp (nth_error_nth' _ [] Hi)) as (f' & E & K).
  unfold polyhedron_facet_vertices. cbn [fst snd described_facet]. rewrite (nth_error_nth _ _ [] E). exact K.
Qed.
Lemma v_facet_perm : forall f, is_polyhedron_facet m f -> Permutation (polyhedron_facet_vertices m f) (polyhedron_facet_vertices m' (facet f)).
Proof.
  intros f Hf. pose proof (soc_perm _ _ _ (v_facet_cycle f Hf)) as P. destruct over; [|exact P]. etransitivity; [apply Permutation_rev|exact P].
Qed.
Lemma v_same_cycle : forall f c, is_polyhedron_facet m f -> (same_cycle (polyhedron_facet_vertices m' (facet f)) c <-> same_cycle (polyhedron_facet_vertices m f) c).
Proof.
  intros f c Hf. assert (K : same_cycle (polyhedron_facet_vertices m f) (polyhedron_facet_vertices m' (facet f))).
  { pose proof (v_facet_cycle f Hf) as K. destruct over; [right|left]; exact K. }
  split; intros Q.
  - apply (same_cycle_trans _ _ _ _ K Q).
  - apply (same_cycle_trans _ _ _ _ (same_cycle_sym _ _ _ K) Q).
Qed.
Lemma v_simple : simple_facets m -> simple_facets m'.
Proof.
  intros S f' Hf'. destruct (v_facet_onto f' Hf') as (f & Hf & <-). destruct (S f Hf) as [S1 S2]. pose proof (v_facet_perm f Hf) as P.
  split; [|apply (Permutation_NoDup P S2)]. intros E. rewrite E in P. apply Permutation_sym, Permutation_nil in P. contradiction.
Qed.
Lemma v_well_formed : simple_facets m -> solid_well_formed m /\ solid_well_formed m'.
Proof.
  intros S. split; (split; [|first [exact S|apply v_simple; exact S]]); [exact (proj1 I)|].
  intros f' q Hf' E. destruct (v_facet_onto f' Hf') as (f & Hf & <-). rewrite (rv_adjacent _ _ _ _ H f Hf) in E. rewrite (rv_nb_polyhedra _ _ _ _ H). apply (proj1 I f q Hf E).
Qed.

(** ** Adjacency *)
Lemma v_reciprocated : forall f q, is_polyhedron_facet m f -> q < nb_polyhedra m -> (facet_reciprocated m' (facet f) q <-> facet_reciprocated m f q).
Proof.
  intros f q Hf Hq. unfold facet_reciprocated. cbn [described_facet fst]. fold (facet f). rewrite (rv_nb_facets _ _ _ _ H q Hq).
  assert (K : forall i, i < length (ph_facets (polyhedron m q)) ->
    (opposite_cycle (polyhedron_facet_vertices m' (facet f)) (polyhedron_facet_vertices m' (q, so_facet_number d q i)) /\ so_adjacent m' (q, so_facet_number d q i) = Some (fst f) <->
     opposite_cycle (polyhedron_facet_vertices m f) (polyhedron_facet_vertices m (q, i)) /\ so_adjacent m (q, i) = Some (fst f))).
  { intros i Hi. assert (Hg : is_polyhedron_facet m (q, i)) by (split; assumption). change (q, so_facet_number d q i) with (facet (q, i)).
    rewrite (rv_adjacent _ _ _ _ H _ Hg). unfold opposite_cycle.
    rewrite (turned_soc _ over (rev (polyhedron_facet_vertices m f)) (polyhedron_facet_vertices m (q, i)) _ _); [reflexivity| |apply v_facet_cycle; exact Hg].
    pose proof (soc_rev _ _ _ (v_facet_cycle f Hf)) as Q. destruct over; exact Q. }
  split.
  - intros (i' & Hi' & R). destruct (numbers_onto _ _ (rv_facet_numbers _ _ _ _ H q Hq) _ Hi') as (i & Hi & <-). exists i. split; [exact Hi|]. apply K; assumption.
  - intros (i & Hi & R). exists (so_facet_number d q i). split; [apply (rv_facet_numbers _ _ _ _ H q Hq); exact Hi|]. apply K; assumption.
Qed.
Lemma v_wrong_facet : forall f, is_polyhedron_facet m f -> (wrong_facet m' (facet f) <-> wrong_facet m f).
Proof.
  intros e He. unfold wrong_facet. rewrite (rv_adjacent _ _ _ _ H e He). split; intros (_ & q & E & R).
  - split; [exact He|]. exists q. split; [exact E|]. intros K. apply R. apply v_reciprocated; [exact He|apply (proj1 I _ _ He E)|exact K].
  - split; [apply v_facet; exact He|]. exists q. split; [exact E|]. intros K. apply R. apply (proj1 (v_reciprocated e q He (proj1 I _ _ He E))). exact K.
Qed.
Lemma solid_adjacency_redescribed : forall name name', simple_facets m -> exists r r', polyhedron_facets_with_wrong_adjacency name m = Ok r /\
  polyhedron_facets_with_wrong_adjacency name' m' = Ok r' /\ Permutation (ii_issues r') (map facet (ii_issues r)).
Proof.
  intros name name' S. destruct (v_well_formed S) as [W W']. destruct (solid_adjacency_spec name m W) as (r & _ & R1 & R2 & _).
  destruct (solid_adjacency_spec name' m' W') as (r' & _ & R1' & R2' & _). exists r, r'. split; [exact R1|]. split; [exact R1'|].
  apply (transport_once _ _ facet _ _ _ _ (exactly_once_lex _ _ R2) (exactly_once_lex _ _ R2')).
  - intros x y Hx Hy. apply v_facet_inj; [apply Hx|apply Hy].
  - intros x Hx. apply v_wrong_facet; [apply Hx|exact Hx].
  - intros y Hy. destruct (v_facet_onto y (proj1 Hy)) as (e & He & <-). exists e. split; [|reflexivity]. apply (proj1 (v_wrong_facet e He)). exact Hy.
Qed.

(** ** Facets used more than twice *)
Lemma v_overused : forall c, overused_facet m' c <-> overused_facet m c.
Proof.
  intros c. split.
  - intros (f' & g' & h' & D1 & D2 & D3 & K).
    destruct (v_facet_onto f' (proj1 (K f' (or_introl eq_refl)))) as (f & Hf & <-).
    destruct (v_facet_onto g' (proj1 (K g' (or_intror (or_introl eq_refl))))) as (g & Hg & <-).
    destruct (v_facet_onto h' (proj1 (K h' (or_intror (or_intror (or_introl eq_refl)))))) as (h & Hh & <-).
    exists f, g, h. split; [congruence|]. split; [congruence|]. split; [congruence|].
    intros x [E|[E|[E|[]]]]; rewrite <- E; (split; [assumption|]); apply v_same_cycle; try assumption; apply K; cbn; auto.
  - intros (f & g & h & D1 & D2 & D3 & K).
    assert (J : forall x y, In x [f; g; h] -> In y [f; g; h] -> x <> y -> facet x <> facet y).
    { intros x y Hx Hy D E. apply D. apply v_facet_inj; [apply (K x Hx)|apply (K y Hy)|exact E]. }
    exists (facet f), (facet g), (facet h). split; [apply J; cbn; auto|]. split; [apply J; cbn; auto|]. split; [apply J; cbn; auto|].
    intros x [E|[E|[E|[]]]]; rewrite <- E; (split; [apply v_facet; apply K; cbn; auto|]); apply v_same_cycle; apply K; cbn; auto.
Qed.
Lemma v_all_facets : length (all_polyhedron_facets m') = length (all_polyhedron_facets m).
Proof.
  assert (P : Permutation (all_polyhedron_facets m') (map facet (all_polyhedron_facets m))); [|apply Permutation_length in P; rewrite map_length in P; exact P].
  apply (transport_once _ _ facet (is_polyhedron_facet m) (is_polyhedron_facet m')).
  - split; [apply sorted_lex_NoDup; apply all_polyhedron_facets_sorted|apply in_all_polyhedron_facets].
  - split; [apply sorted_lex_NoDup; apply all_polyhedron_facets_sorted|apply in_all_polyhedron_facets].
  - apply v_facet_inj.
  - apply v_facet.
  - intros y Hy. destruct (v_facet_onto y Hy) as (x & Hx & <-). eauto.
Qed.
Lemma facets_redescribed : forall ho ho', simple_facets m -> below_2_32 (length (all_polyhedron_facets m)) ->
  exists l, Permutation (ii_issues (solid_non_manifold_facets ho' m')) l /\ Forall2 same_cycle (ii_issues (solid_non_manifold_facets ho m)) l.
Proof.
  intros ho ho' S B. apply (same_cycles_represented (overused_facet m) (overused_facet m')); [exact v_overused|apply (solid_facets_spec ho ho m S B)|].
  apply (solid_facets_spec ho' ho' m' (v_simple S)). rewrite v_all_facets. exact B.
Qed.

(** ** Vertices *)
Lemma v_corner_vertex : forall c v, is_corner m c -> (nth_error (ph_vertices (polyhedron m' (fst c))) (snd (corner c)) = Some v <-> nth_error (ph_vertices (polyhedron m (fst c))) (snd c) = Some v).
Proof.
  intros [p i] v [Hp Hi]. cbn [fst snd described_solid_corner] in *. pose proof (nth_error_nth' _ 0 Hi) as E. pose proof (rv_corners _ _ _ _ H p i _ Hp E) as E'.
  rewrite E, E'. reflexivity.
Qed.
Lemma v_is_corner : forall mm v c, solid_corner mm v c -> is_corner mm c.
Proof. intros mm v c [Hp E]. split; [exact Hp|]. apply nth_error_Some. congruence. Qed.
Lemma v_corner_at : forall v c, is_corner m c -> (solid_corner m' v (corner c) <-> solid_corner m v c).
Proof.
  intros v c Hc. unfold solid_corner. cbn [fst described_solid_corner]. fold (corner c). rewrite (v_corner_vertex c v Hc), (rv_nb_polyhedra _ _ _ _ H). reflexivity.
Qed.
Lemma v_corners_onto : forall v c', solid_corner m' v c' -> exists c, solid_corner m v c /\ c' = corner c.
Proof. intros v c' K. destruct (v_corner_onto c' (v_is_corner _ _ _ K)) as (c & Hc & <-). exists c. split; [|reflexivity]. apply (proj1 (v_corner_at v c Hc)). exact K. Qed.
Lemma v_corners : forall v l l', Permutation l' (map corner l) -> (forall c, In c l -> is_corner m c) ->
  (lists_once (solid_corner m' v) l' <-> lists_once (solid_corner m v) l).
Proof.
  intros v l l' P R. split.
  - intros K. apply (lists_once_same _ _ _ _ P) in K. destruct K as [N L]. split; [apply NoDup_map_inv in N; exact N|]. intros c. split.
    + intros J. apply (proj1 (v_corner_at v c (R c J))). apply L. apply in_map. exact J.
    + intros C. pose proof (v_is_corner _ _ _ C) as C'. assert (J : In (corner c) (map corner l)) by (apply L; apply v_corner_at; assumption).
      apply in_map_iff in J. destruct J as (c1 & E & J). apply v_corner_inj in E; [subst c1; exact J|apply (R c1 J)|exact C'].
  - intros L. apply (lists_once_same _ _ _ _ (Permutation_sym P)). apply (lists_once_map _ _ _ _ _ _ L).
    + intros x y Hx Hy. apply v_corner_inj; [apply (v_is_corner _ _ _ Hx)|apply (v_is_corner _ _ _ Hy)].
    + intros x Hx. apply v_corner_at; [apply (v_is_corner _ _ _ Hx)|exact Hx].
    + intros y Hy. apply v_corners_onto; assumption.
Qed.
Lemma v_vertex_bad : forall v, solid_non_manifold_vertex m' v <-> solid_non_manifold_vertex m v.
Proof.
  intros v. unfold solid_non_manifold_vertex. rewrite (rv_points _ _ _ _ H). split; intros (Hv & fan & E & K); (split; [exact Hv|]); pose proof (rv_around _ _ _ _ H v Hv) as A; rewrite E in A.
  - destruct (so_around_vertex m v) as [fan0|x|] eqn:E0; cbn in A; try contradiction. exists fan0. split; [reflexivity|]. intros Q. apply K.
    apply (v_corners v fan0 fan A); [|exact Q]. intros [p i]. apply (proj2 (proj2 I) v fan0 p i Hv E0).
  - destruct (so_around_vertex m' v) as [fan0|x|] eqn:E0; cbn in A; try contradiction. exists fan0. split; [reflexivity|]. intros Q. apply K.
    apply (v_corners v fan fan0 A); [|exact Q]. intros [p i]. apply (proj2 (proj2 I) v fan p i Hv E).
Qed.
Lemma solid_vertices_redescribed : forall geo geo',
  (forall v, v < length (so_points m) -> exists fan, so_around_vertex m v = Ok fan) ->
  exists r r', solid_non_manifold_vertices geo m = Ok r /\ solid_non_manifold_vertices geo' m' = Ok r' /\ ii_issues r' = ii_issues r.
Proof.
  intros geo geo' Ha.
  assert (V : solid_vertices_in_range m).
  { intros [p i] v [Hp E]. cbn [fst snd] in *. apply (proj1 (proj2 I) p v Hp (nth_error_In _ _ E)). }
  assert (V' : solid_vertices_in_range m').
  { intros c' v K. destruct (v_corners_onto v c' K) as (c & C & _). rewrite (rv_points _ _ _ _ H). apply (V c v C). }
  assert (Ha' : forall v, v < length (so_points m') -> exists fan, so_around_vertex m' v = Ok fan).
  { intros v Hv. rewrite (rv_points _ _ _ _ H) in Hv. pose proof (rv_around _ _ _ _ H v Hv) as A.
    destruct (Ha v Hv) as [fan E]; rewrite E in A; destruct (so_around_vertex m' v) as [fan'|x'|]; cbn in A; try contradiction; eauto. }
  destruct (solid_vertices_spec geo m V Ha) as (r & _ & R1 & R2 & _).
  destruct (solid_vertices_spec geo' m' V' Ha') as (r' & _ & R1' & R2' & _). exists r, r'. split; [exact R1|]. split; [exact R1'|].
  apply (same_sorted_list (solid_non_manifold_vertex m)); [|exact R2]. destruct R2' as [S L]. split; [exact S|]. intros x. rewrite L. apply v_vertex_bad.
Qed.

(** ** Edges *)
Lemma v_joins : forall a b p i, p < nb_polyhedra m -> i < length (ph_edges (polyhedron m p)) ->
  (polyhedron_edge_joins m' a b (p, so_edge_number d p i) <-> polyhedron_edge_joins m a b (p, i)).
Proof.
  intros a b p i Hp Hi. unfold polyhedron_edge_joins. cbn [fst snd]. rewrite (rv_nb_polyhedra _ _ _ _ H).
  pose proof (nth_error_nth' _ (0, 0) Hi) as E. destruct (nth i (ph_edges (polyhedron m p)) (0, 0)) as [x y]. rewrite E.
  destruct (rv_ph_edges _ _ _ _ H p i x y Hp E) as [E'|E']; rewrite E'; split; intros (_ & [K|K]); (split; [exact Hp|]); injection K as -> ->; auto.
Qed.
Lemma v_joins_onto : forall a b p i', polyhedron_edge_joins m' a b (p, i') -> exists i, i < length (ph_edges (polyhedron m p)) /\ so_edge_number d p i = i' /\ polyhedron_edge_joins m a b (p, i).
Proof.
  intros a b p i' J. pose proof J as [Hp K]. cbn [fst snd] in *. rewrite (rv_nb_polyhedra _ _ _ _ H) in Hp.
  assert (Hi : i' < length (ph_edges (polyhedron m' p))) by (apply nth_error_Some; destruct K; congruence). rewrite (rv_nb_edges _ _ _ _ H p Hp) in Hi.
  destruct (numbers_onto _ _ (rv_edge_numbers _ _ _ _ H p Hp) _ Hi) as (i & L & <-). exists i. split; [exact L|]. split; [reflexivity|]. apply v_joins; assumption.
Qed.
Lemma v_joins_in : forall a b p i, polyhedron_edge_joins m a b (p, i) -> p < nb_polyhedra m /\ i < length (ph_edges (polyhedron m p)).
Proof. intros a b p i [Hp K]. cbn [fst snd] in *. split; [exact Hp|]. apply nth_error_Some. destruct K; congruence. Qed.
Lemma v_uses_edge : forall ab p, uses_edge m' ab p <-> uses_edge m ab p.
Proof.
  intros [a b] p. unfold uses_edge. cbn [fst snd]. split; intros (i & K).
  - destruct (v_joins_onto a b p i K) as (j & _ & _ & J). exists j. exact J.
  - destruct (v_joins_in _ _ _ _ K) as [Hp Hi]. exists (so_edge_number d p i). apply v_joins; assumption.
Qed.
Lemma v_crosses : forall vs p q, crosses_facet_at m' vs p q <-> crosses_facet_at m vs p q.
Proof.
  intros vs p q. unfold crosses_facet_at. split.
  - intros (f' & F1 & F2 & F3 & F4). destruct (v_facet_onto f' F1) as (f & Hf & <-). exists f. split; [exact Hf|]. split; [exact F2|].
    rewrite (rv_adjacent _ _ _ _ H f Hf) in F4. split; [|exact F4]. intros v J. apply (Permutation_in _ (Permutation_sym (v_facet_perm f Hf)) (F3 v J)).
  - intros (f & Hf & F2 & F3 & F4). exists (facet f). split; [apply v_facet; exact Hf|]. split; [exact F2|]. rewrite (rv_adjacent _ _ _ _ H f Hf). split; [|exact F4].
    intros v J. apply (Permutation_in _ (v_facet_perm f Hf) (F3 v J)).
Qed.
Lemma v_fans : forall ab ab', undirected ab = undirected ab' ->
  (several_fans (uses_edge m' ab') (crosses_facet_at m' [fst ab'; snd ab']) <-> several_fans (uses_edge m ab) (crosses_facet_at m [fst ab; snd ab])).
Proof.
  intros [a b] [a' b'] E. unfold undirected in E. cbn [fst snd] in *. injection E as E1 E2. assert (O : a' = a /\ b' = b \/ a' = b /\ b' = a) by lia.
  rewrite (several_iff _ (uses_edge m' (a', b')) (uses_edge m (a', b')) (crosses_facet_at m' [a'; b']) (crosses_facet_at m [a'; b']) (v_uses_edge (a', b')) (v_crosses [a'; b'])).
  destruct O as [[-> ->]|[-> ->]]; [reflexivity|]. apply fans_swap.
Qed.
Lemma v_bad_edge : forall xy, same_failed_turns m m' -> (bad_edge m' xy <-> bad_edge m xy).
Proof.
  assert (D : forall mm e ab, first_occurrence mm e ab -> polyhedron_edge_joins mm (fst ab) (snd ab) e).
  { intros mm e [a b] (F1 & F2 & _). split; auto. }
  intros xy SF. split.
  - intros (e' & ab' & F' & <- & K). pose proof (D _ _ _ F') as J. destruct e' as [p i'].
    destruct (v_joins_onto _ _ _ _ J) as (i & _ & _ & J0). destruct (first_exists m _ _ _ J0) as (e & ab & F & E).
    assert (U : undirected ab = undirected ab') by (destruct ab' as [x y]; destruct E as [->| ->]; unfold undirected; cbn [fst snd]; f_equal; lia).
    exists e, ab. split; [exact F|]. split; [exact U|]. rewrite (SF e ab (p, i') ab' F F' U), (v_fans ab ab' U) in K. exact K.
  - intros (e & ab & F & <- & K). pose proof (D _ _ _ F) as J. destruct e as [p i].
    destruct (v_joins_in _ _ _ _ J) as [Hp Hi]. apply (v_joins _ _ p i Hp Hi) in J. destruct (first_exists m' _ _ _ J) as (e' & ab' & F' & E).
    assert (U : undirected ab = undirected ab') by (destruct ab as [x y]; destruct E as [->| ->]; unfold undirected; cbn [fst snd]; f_equal; lia).
    exists e', ab'. split; [exact F'|]. split; [symmetry; exact U|]. rewrite (SF (p, i) ab e' ab' F F' U), (v_fans ab ab' U). exact K.
Qed.
Lemma solid_edges_redescribed : simple_edges m -> turns_around_solid_edges m -> turns_around_solid_edges m' -> same_failed_turns m m' ->
  exists r r', solid_non_manifold_edges m = Ok r /\ solid_non_manifold_edges m' = Ok r' /\ Permutation (map undirected (ii_issues r')) (map undirected (ii_issues r)).
Proof.
  intros S T T' SF. assert (S' : simple_edges m').
  { intros a b p i' j' K1 K2. destruct (v_joins_onto _ _ _ _ K1) as (i & _ & <- & J1). destruct (v_joins_onto _ _ _ _ K2) as (j & _ & <- & J2). f_equal. apply (S a b p i j J1 J2). }
  destruct (bad_edges_listed m S T) as (r & R1 & R2). destruct (bad_edges_listed m' S' T') as (r' & R1' & R2').
  exists r, r'. split; [exact R1|]. split; [exact R1'|]. apply (lists_once_perm _ (bad_edge m)); [|exact R2].
  destruct R2' as [N L]. split; [exact N|]. intros x. rewrite L. apply v_bad_edge. exact SF.
Qed.

(** ** Polyhedra *)
Lemma flat_polyhedra_redescribed : degenerated_polyhedra m' = degenerated_polyhedra m.
Proof.
  unfold degenerated_polyhedra, small_height_polyhedra. rewrite (rv_nb_polyhedra _ _ _ _ H). apply fold_same. intros r p Hp. rewrite (rv_height _ _ _ _ H p (in_range_lt _ _ Hp)). reflexivity.
Qed.
Lemma negative_volume_sign : forall ms mm p, polyhedron_has_negative_volume ms mm p =
  match tetra_sign ms (solid_points mm p) with Some b => b | None => dlt (so_volume mm p) (SpecFloat.S754_zero false) end.
Proof.
  intros ms mm p. unfold polyhedron_has_negative_volume, solid_points. destruct (ph_vertices (polyhedron mm p)) as [|a [|b [|c [|e [|x l]]]]]; reflexivity.
Qed.
Lemma sign_of_four : forall ms l, (length l = 4 -> exists b, tetra_sign ms l = Some b) /\ (length l <> 4 -> tetra_sign ms l = None).
Proof. intros ms [|a [|b [|c [|e [|x l]]]]]; cbn; (split; intros K; try lia; eauto). Qed.
Lemma negative_polyhedra_redescribed : forall ms, same_volume_sign ms m m' -> negative_polyhedra ms m' = negative_polyhedra ms m.
Proof.
  intros ms S. unfold negative_polyhedra. rewrite (rv_nb_polyhedra _ _ _ _ H). apply fold_same. intros r p J. pose proof (in_range_lt _ _ J) as Hp. destruct (S p Hp) as [S1 S2].
  rewrite !negative_volume_sign, S1. destruct (Nat.eq_dec (length (ph_vertices (polyhedron m p))) 4) as [L|L].
  - destruct (proj1 (sign_of_four ms (solid_points m p))) as [b E]; [unfold solid_points; rewrite map_length; exact L|]. rewrite E. reflexivity.
  - rewrite (S2 L). reflexivity.
Qed.
End Solid.
