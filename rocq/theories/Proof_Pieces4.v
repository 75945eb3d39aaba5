(** Inspecting two pieces together or apart: solids. *)
From Coq Require Import String Ascii List Arith NArith ZArith Bool Lia Permutation Sorted Relations.
From Verif Require Import Base BaseFacts Model_Issues Types Model_Hash Model_Adjacency Model_Colocation Model_Manifold Model_Degeneration Model_Negative
  Spec_Cycles Spec_Maps Spec_Colocation Spec_Adjacency Spec_Manifold Spec_Fans Spec_Degeneration Spec_Negative Spec_Renumber Spec_Pieces Proof_Cycles
  Proof_Colocation Proof_Adjacency Proof_Manifold Proof_Manifold2 Proof_Manifold3 Proof_Degeneration Proof_Fans Proof_Renumber Proof_Renumber3 Proof_Renumber4 Proof_Pieces Proof_Pieces2.
Import ListNotations.
Open Scope list_scope.

(** a vertex appears in the description of a polyhedron *)
Definition appears (m : SolidMesh) (v p : nat) : Prop :=
  In v (ph_vertices (polyhedron m p)) \/ (exists f, In f (ph_facets (polyhedron m p)) /\ In v f) \/
  (exists a b, In (a, b) (ph_edges (polyhedron m p)) /\ (v = a \/ v = b)).

(** ** What is true of an element of a piece is true of it in the whole, and conversely *)
Section Piece.
Context (n : Numbering) (m m' : SolidMesh) (H : piece_solid n m m')
  (Hc : forall q v, q < nb_polyhedra m' -> v < length (so_points m) -> appears m' (new_vertex n v) q -> exists p, p < nb_polyhedra m /\ new_element n p = q).
Local Notation s := (new_vertex n).
Local Notation t := (new_element n).

Lemma o_polyhedron_range : forall p, p < nb_polyhedra m -> t p < nb_polyhedra m'.
Proof. intros p Hp. apply (po_numbers _ _ _ H). exact Hp. Qed.
Lemma o_so_vertex_inj : forall a b, a < length (so_points m) -> b < length (so_points m) -> s a = s b -> a = b.
Proof. apply (po_points _ _ _ H). Qed.
Lemma o_pair_inj : forall e f, fst e < nb_polyhedra m -> fst f < nb_polyhedra m -> new_corner n e = new_corner n f -> e = f.
Proof.
  intros [p i] [q j] Hp Hq E. unfold new_corner in E. cbn [fst snd] in *. injection E as E1 E2.
  f_equal; [|exact E2]. apply (po_numbers _ _ _ H); assumption.
Qed.
Lemma o_nb_facets_same : forall p, p < nb_polyhedra m -> length (ph_facets (polyhedron m' (t p))) = length (ph_facets (polyhedron m p)).
Proof. intros p Hp. rewrite (proj1 (po_facets _ _ _ H p Hp)). apply map_length. Qed.
Lemma o_facet_new : forall f, is_polyhedron_facet m f -> is_polyhedron_facet m' (new_corner n f).
Proof.
  intros [p i] [H1 H2]. cbn [fst snd] in *. split; cbn [fst snd new_corner]; [apply o_polyhedron_range; exact H1|].
  rewrite o_nb_facets_same by exact H1. exact H2.
Qed.
Lemma o_facet_vertices_new : forall f, is_polyhedron_facet m f -> polyhedron_facet_vertices m' (new_corner n f) = map s (polyhedron_facet_vertices m f).
Proof.
  intros [p i] [H1 H2]. cbn [fst snd] in *. unfold polyhedron_facet_vertices. cbn [fst snd new_corner].
  rewrite (proj1 (po_facets _ _ _ H p H1)). apply nth_map_in. exact H2.
Qed.
Lemma o_facet_vertices_range : forall f v, is_polyhedron_facet m f -> In v (polyhedron_facet_vertices m f) -> v < length (so_points m).
Proof.
  intros [p i] v [H1 H2] I. cbn [fst snd] in *. apply (proj2 (po_facets _ _ _ H p H1) _ v (nth_In _ [] H2)). exact I.
Qed.
Lemma o_facet_adjacent_new : forall f, is_polyhedron_facet m f -> so_adjacent m' (new_corner n f) = option_map t (so_adjacent m f).
Proof. intros [p i] [H1 H2]. apply (po_adjacent _ _ _ H p i H1 H2). Qed.
Lemma o_facet_adjacent_range : forall f q, is_polyhedron_facet m f -> so_adjacent m f = Some q -> q < nb_polyhedra m.
Proof. intros [p i] q [H1 H2] E. apply (proj2 (po_adjacent _ _ _ H p i H1 H2) q E). Qed.
Lemma o_facets_inj : forall f g, is_polyhedron_facet m f -> is_polyhedron_facet m g ->
  forall x y, In x (polyhedron_facet_vertices m f) -> In y (polyhedron_facet_vertices m g) -> s x = s y -> x = y.
Proof. intros f g Hf Hg x y Hx Hy. apply o_so_vertex_inj; [apply (o_facet_vertices_range f)|apply (o_facet_vertices_range g)]; assumption. Qed.
Lemma o_facet_of_image : forall p i, p < nb_polyhedra m -> is_polyhedron_facet m' (t p, i) -> is_polyhedron_facet m (p, i).
Proof. intros p i Hp [_ K]. split; [exact Hp|]. cbn [fst snd] in *. rewrite o_nb_facets_same in K by exact Hp. exact K. Qed.
Lemma facet_back : forall f' v, is_polyhedron_facet m' f' -> v < length (so_points m) -> In (s v) (polyhedron_facet_vertices m' f') -> exists f, is_polyhedron_facet m f /\ new_corner n f = f'.
Proof.
  intros [p' i] v F Hv I. destruct (Hc p' v (proj1 F) Hv) as (p & Hp & <-).
  - right. left. exists (polyhedron_facet_vertices m' (p', i)). split; [apply nth_In; apply F|exact I].
  - exists (p, i). split; [apply o_facet_of_image; assumption|reflexivity].
Qed.
Lemma o_facet_reciprocated_new : forall f q, is_polyhedron_facet m f -> q < nb_polyhedra m ->
  (facet_reciprocated m' (new_corner n f) (t q) <-> facet_reciprocated m f q).
Proof.
  intros f q Hf Hq. unfold facet_reciprocated. rewrite (o_facet_vertices_new f Hf), o_nb_facets_same by exact Hq.
  assert (K : forall i, i < length (ph_facets (polyhedron m q)) ->
    (opposite_cycle (map s (polyhedron_facet_vertices m f)) (polyhedron_facet_vertices m' (t q, i)) /\ so_adjacent m' (t q, i) = Some (t (fst f)) <->
     opposite_cycle (polyhedron_facet_vertices m f) (polyhedron_facet_vertices m (q, i)) /\ so_adjacent m (q, i) = Some (fst f))).
  { intros i Hi. assert (Hg : is_polyhedron_facet m (q, i)) by (split; assumption). change (t q, i) with (new_corner n (q, i)).
    rewrite (o_facet_vertices_new _ Hg), (o_facet_adjacent_new _ Hg). unfold opposite_cycle. rewrite <- map_rev.
    assert (E1 : same_oriented_cycle (map s (rev (polyhedron_facet_vertices m f))) (map s (polyhedron_facet_vertices m (q, i))) <->
                 same_oriented_cycle (rev (polyhedron_facet_vertices m f)) (polyhedron_facet_vertices m (q, i))).
    { split; [|apply oriented_map]. apply oriented_map_inv. intros x y Hx Hy. apply in_rev in Hx. apply (o_facets_inj f (q, i) Hf Hg x y Hx Hy). }
    rewrite E1. destruct (so_adjacent m (q, i)) as [p|] eqn:Ep; cbn [option_map]; [|split; intros (? & ?); discriminate].
    split; intros (A & C); (split; [exact A|]); injection C as C; [|congruence].
    f_equal. apply (po_numbers _ _ _ H); [apply (o_facet_adjacent_range _ _ Hg Ep)|apply Hf|exact C]. }
  cbn [fst new_corner]. split; intros (i & Hi & R); exists i; (split; [exact Hi|]); apply K; assumption.
Qed.
Lemma o_wrong_facet_new : forall f, is_polyhedron_facet m f -> (wrong_facet m' (new_corner n f) <-> wrong_facet m f).
Proof.
  intros e He. unfold wrong_facet. rewrite o_facet_adjacent_new by exact He. split.
  - intros (_ & q' & E & R). split; [exact He|]. destruct (so_adjacent m e) as [q|] eqn:Eq; [|discriminate]. cbn [option_map] in E. injection E as <-.
    exists q. split; [reflexivity|]. intros K. apply R. apply o_facet_reciprocated_new; [exact He|apply (o_facet_adjacent_range _ _ He Eq)|exact K].
  - intros (_ & q & E & R). split; [apply o_facet_new; exact He|]. rewrite E. exists (t q). split; [reflexivity|]. intros K. apply R.
    apply o_facet_reciprocated_new in K; [exact K|exact He|apply (o_facet_adjacent_range _ _ He E)].
Qed.
Lemma o_overused_new : forall c, overused_facet m c -> overused_facet m' (map s c).
Proof.
  intros c (f & g & h & D1 & D2 & D3 & K). exists (new_corner n f), (new_corner n g), (new_corner n h).
  assert (F : forall x, In x [f; g; h] -> fst x < nb_polyhedra m) by (intros x Hx; apply (K x Hx)).
  assert (I : forall x y, In x [f; g; h] -> In y [f; g; h] -> x <> y -> new_corner n x <> new_corner n y).
  { intros x y Hx Hy D E. apply D. apply o_pair_inj; auto. }
  split; [apply I; cbn; auto|]. split; [apply I; cbn; auto|]. split; [apply I; cbn; auto|].
  intros x Hx. assert (X : exists y, In y [f; g; h] /\ x = new_corner n y) by (destruct Hx as [<-|[<-|[<-|[]]]]; [exists f|exists g|exists h]; (split; [cbn; auto|reflexivity])).
  destruct X as (y & Hy & ->). destruct (K y Hy) as [K1 K2]. split; [apply o_facet_new; exact K1|]. rewrite o_facet_vertices_new by exact K1. apply cycle_map. exact K2.
Qed.
Lemma overused_back : forall c' v0, overused_facet m' c' -> v0 < length (so_points m) -> In (s v0) c' -> exists c, overused_facet m c /\ c' = map s c.
Proof.
  intros c' v0 (f' & g' & h' & D1 & D2 & D3 & K) Hv Iv.
  assert (Z : forall x, In x [f'; g'; h'] -> In (s v0) (polyhedron_facet_vertices m' x)) by (intros x Hx; apply (same_cycle_in _ _ c'); [apply (K x Hx)|exact Iv]).
  destruct (facet_back f' v0 (proj1 (K f' (or_introl eq_refl))) Hv (Z f' (or_introl eq_refl))) as (f & Hf & <-).
  destruct (facet_back g' v0 (proj1 (K g' (or_intror (or_introl eq_refl)))) Hv (Z g' (or_intror (or_introl eq_refl)))) as (g & Hg & <-).
  destruct (facet_back h' v0 (proj1 (K h' (or_intror (or_intror (or_introl eq_refl))))) Hv (Z h' (or_intror (or_intror (or_introl eq_refl))))) as (h & Hh & <-).
  pose proof (proj2 (K _ (or_introl eq_refl))) as Cf. rewrite o_facet_vertices_new in Cf by exact Hf.
  assert (E : exists c, c' = map s c /\ same_cycle (polyhedron_facet_vertices m f) c).
  { assert (G : forall a b, same_oriented_cycle (map s a) b -> exists c, b = map s c /\ same_oriented_cycle a c).
    { intros a b (u & v & E1 & ->). apply map_eq_app in E1. destruct E1 as (a1 & a2 & -> & <- & <-). exists (a2 ++ a1).
      split; [rewrite map_app; reflexivity|]. exists a1, a2. auto. }
    destruct Cf as [Cf|Cf]; [|rewrite <- map_rev in Cf]; destruct (G _ _ Cf) as (c & E1 & E2); exists c; (split; [exact E1|]); [left|right]; exact E2. }
  destruct E as (c & -> & Cc). exists c. split; [|reflexivity]. exists f, g, h.
  split; [congruence|]. split; [congruence|]. split; [congruence|].
  assert (I : forall x, In x c -> x < length (so_points m)) by (intros x Hx; apply (o_facet_vertices_range f x Hf); apply (same_cycle_in _ _ _ _ Cc Hx)).
  assert (Q : forall x, is_polyhedron_facet m x -> In (new_corner n x) [new_corner n f; new_corner n g; new_corner n h] -> same_cycle (polyhedron_facet_vertices m x) c).
  { intros x Hx Ix. apply (cycle_map_inv _ _ s); [intros a b Ha Hb; apply o_so_vertex_inj; [apply (o_facet_vertices_range x); assumption|apply I; exact Hb]|].
    rewrite <- o_facet_vertices_new by exact Hx. apply (K _ Ix). }
  intros x [E|[E|[E|[]]]]; rewrite <- E; (split; [assumption|]); apply Q; cbn; auto.
Qed.
Lemma o_overused_range : forall c x, overused_facet m c -> In x c -> x < length (so_points m).
Proof. intros c x (f & g & h & _ & _ & _ & K) Hx. destruct (K f (or_introl eq_refl)) as [K1 K2]. apply (o_facet_vertices_range f x K1). apply (same_cycle_in _ _ _ _ K2 Hx). Qed.
Lemma o_so_corner_new : forall v c, v < length (so_points m) -> fst c < nb_polyhedra m -> (solid_corner m' (s v) (new_corner n c) <-> solid_corner m v c).
Proof.
  intros v [p i] Hv Hp. unfold solid_corner. cbn [fst snd new_corner] in *. destruct (po_vertices _ _ _ H p Hp) as [P1 P2]. rewrite P1, nth_error_map.
  pose proof (o_polyhedron_range p Hp) as Hp'. destruct (nth_error (ph_vertices (polyhedron m p)) i) as [w|] eqn:E; cbn [option_map].
  - split; intros [_ K]; (split; [assumption|]); injection K as K; [|congruence]. f_equal. apply o_so_vertex_inj; [apply P2; apply (nth_error_In _ _ E)|exact Hv|exact K].
  - split; intros [_ K]; discriminate.
Qed.
Lemma o_so_corner_onto : forall v c', v < length (so_points m) -> solid_corner m' (s v) c' -> exists c, solid_corner m v c /\ c' = new_corner n c.
Proof.
  intros v [p' i] Hv K. destruct (Hc p' v (proj1 K) Hv (or_introl (nth_error_In _ _ (proj2 K)))) as (p & Hp & <-). exists (p, i). split; [|reflexivity].
  apply (o_so_corner_new v (p, i) Hv Hp). exact K.
Qed.
Lemma o_so_corners_new : forall v l l', v < length (so_points m) -> Permutation l' (map (new_corner n) l) -> (forall p e, In (p, e) l -> p < nb_polyhedra m) ->
  (lists_once (solid_corner m' (s v)) l' <-> lists_once (solid_corner m v) l).
Proof.
  intros v l l' Hv P R. split.
  - intros K. apply (lists_once_perm' _ _ _ _ P) in K. destruct K as [N L]. split; [apply NoDup_map_inv in N; exact N|]. intros c. split.
    + intros I. pose proof (proj1 (L (new_corner n c)) (in_map _ _ _ I)) as C. destruct (o_so_corner_onto v _ Hv C) as (d & D & E).
      apply o_pair_inj in E; [subst d; exact D|destruct c as [p e]; apply (R p e I)|apply D].
    + intros C. assert (I : In (new_corner n c) (map (new_corner n) l)) by (apply L; apply o_so_corner_new; [exact Hv|apply C|exact C]).
      apply in_map_iff in I. destruct I as ([p e] & E & I). apply o_pair_inj in E; [subst c; exact I|apply (R p e I)|apply C].
  - intros L. apply (lists_once_perm' _ _ _ _ (Permutation_sym P)). apply (lists_once_map _ _ _ _ _ _ L).
    + intros x y Hx Hy. apply o_pair_inj; [apply Hx|apply Hy].
    + intros x Hx. apply o_so_corner_new; [exact Hv|apply Hx|exact Hx].
    + intros y Hy. apply o_so_corner_onto; assumption.
Qed.
Lemma o_so_vertex_bad_new : forall v, v < length (so_points m) -> (solid_non_manifold_vertex m' (s v) <-> solid_non_manifold_vertex m v).
Proof.
  intros v Hv. destruct (po_points _ _ _ H) as ([N _] & _). destruct (po_around _ _ _ H v Hv) as [A R]. unfold solid_non_manifold_vertex.
  destruct (so_around_vertex m v) as [fan|x|] eqn:E; destruct (so_around_vertex m' (s v)) as [fan'|x'|] eqn:E'; cbn in A; try contradiction.
  - assert (R' : forall p e, In (p, e) fan -> p < nb_polyhedra m) by (intros p e; apply (R fan p e eq_refl)).
    split; intros (_ & f & Ef & K); injection Ef as <-; [split; [exact Hv|]; exists fan|split; [apply N; exact Hv|]; exists fan']; (split; [reflexivity|]);
      intros Q; apply K; apply (o_so_corners_new v fan fan' Hv A R'); exact Q.
  - split; intros (_ & f & Ef & _); discriminate.
  - split; intros (_ & f & Ef & _); discriminate.
Qed.
Lemma o_flat_new : forall p, p < nb_polyhedra m -> forall x, flat_polyhedron m' x (t p) <-> flat_polyhedron m x p.
Proof. intros p Hp x. unfold flat_polyhedron. rewrite (po_height _ _ _ H p Hp). pose proof (o_polyhedron_range p Hp). tauto. Qed.
Lemma o_polyhedron_points : polyhedron_points_exist m.
Proof. intros ph v I J. apply In_nth with (d := mkPolyhedron [] [] []) in I. destruct I as (p & Hp & E). rewrite <- E in J. apply (proj2 (po_vertices _ _ _ H p Hp) v J). Qed.
Lemma o_negative_polyhedron_new : forall ms p, p < nb_polyhedra m -> (negative_polyhedron ms m' (t p) <-> negative_polyhedron ms m p).
Proof.
  intros ms p Hp. unfold negative_polyhedron. rewrite (polyhedron_at m p Hp), (polyhedron_at m' (t p) (o_polyhedron_range p Hp)).
  destruct (po_vertices _ _ _ H p Hp) as [P1 P2]. assert (E : map (nth_error (so_points m')) (map s (ph_vertices (polyhedron m p))) = map (nth_error (so_points m)) (ph_vertices (polyhedron m p))) by (rewrite map_map; apply map_ext_in; intros v I; apply (po_points _ _ _ H); apply P2; exact I). rewrite (po_volume _ _ _ H p Hp).
  split; intros (ph & A & B); injection A as <-; eexists; (split; [reflexivity|]); rewrite P1 in *.
  - destruct B as [(a & b & c & d & pa & pb & pc & pd & V & Q & X)|[B X]]; [left|right; rewrite map_length in B; auto].
    destruct (ph_vertices (polyhedron m p)) as [|v0 [|v1 [|v2 [|v3 [|v4 vs]]]]]; try discriminate. cbn [map] in V. injection V as <- <- <- <-.
    cbn [map] in E, Q. rewrite E in Q. exists v0, v1, v2, v3, pa, pb, pc, pd. auto.
  - destruct B as [(a & b & c & d & pa & pb & pc & pd & V & Q & X)|[B X]]; [left|right; rewrite map_length; auto].
    rewrite V in *. exists (s a), (s b), (s c), (s d), pa, pb, pc, pd. split; [reflexivity|]. split; [|exact X]. cbn [map] in *. rewrite E. exact Q.
Qed.
Lemma o_edge_at_new : forall p i, p < nb_polyhedra m ->
  nth_error (ph_edges (polyhedron m' (t p))) i = option_map (fun ab => (s (fst ab), s (snd ab))) (nth_error (ph_edges (polyhedron m p)) i).
Proof. intros p i Hp. rewrite (proj1 (po_ph_edges _ _ _ H p Hp)). apply nth_error_map. Qed.
Lemma o_joined_range : forall a b e, polyhedron_edge_joins m a b e -> a < length (so_points m) /\ b < length (so_points m).
Proof.
  intros a b [p i] [Hp K]. cbn [fst snd] in *. destruct K as [K|K]; apply nth_error_In in K; destruct (proj2 (po_ph_edges _ _ _ H p Hp) _ _ K); auto.
Qed.
Lemma o_pe_new : forall a b e, a < length (so_points m) -> b < length (so_points m) -> fst e < nb_polyhedra m ->
  (polyhedron_edge_joins m' (s a) (s b) (new_corner n e) <-> polyhedron_edge_joins m a b e).
Proof.
  intros a b [p i] Ha Hb Hp. cbn [fst snd] in Hp. unfold polyhedron_edge_joins. cbn [fst snd new_corner]. rewrite o_edge_at_new by exact Hp.
  pose proof (o_polyhedron_range p Hp) as Hp'. destruct (nth_error (ph_edges (polyhedron m p)) i) as [[x y]|] eqn:E; cbn [option_map fst snd].
  - destruct (proj2 (po_ph_edges _ _ _ H p Hp) x y (nth_error_In _ _ E)) as [Hx Hy].
    assert (I : forall u v, u < length (so_points m) -> v < length (so_points m) -> s u = s v -> u = v) by apply (o_so_vertex_inj).
    split; intros [_ K]; (split; [assumption|]); (destruct K as [K|K]; [left|right]); injection K as K1 K2; subst; try reflexivity;
      f_equal; f_equal; apply I; assumption.
  - split; intros [_ [K|K]]; discriminate.
Qed.
Lemma pe_back : forall a b e', a < length (so_points m) -> b < length (so_points m) -> polyhedron_edge_joins m' (s a) (s b) e' -> exists e, polyhedron_edge_joins m a b e /\ e' = new_corner n e.
Proof.
  intros a b [p' i] Ha Hb K. destruct (Hc p' a (proj1 K) Ha) as (p & Hp & <-).
  - right. right. destruct K as [_ [K|K]]; apply nth_error_In in K; [exists (s a), (s b)|exists (s b), (s a)]; auto.
  - exists (p, i). split; [|reflexivity]. apply (o_pe_new a b (p, i) Ha Hb Hp). exact K.
Qed.
Lemma o_uses_edge_new : forall a b p, a < length (so_points m) -> b < length (so_points m) -> p < nb_polyhedra m ->
  (uses_edge m' (s a, s b) (t p) <-> uses_edge m (a, b) p).
Proof.
  intros a b p Ha Hb Hp. unfold uses_edge. cbn [fst snd]. split; intros (i & K); exists i.
  - apply (o_pe_new a b (p, i) Ha Hb Hp). exact K.
  - apply (o_pe_new a b (p, i) Ha Hb Hp). exact K.
Qed.
Lemma o_crosses_new : forall a b p q, a < length (so_points m) -> b < length (so_points m) -> p < nb_polyhedra m -> q < nb_polyhedra m ->
  (crosses_facet_at m' [s a; s b] (t p) (t q) <-> crosses_facet_at m [a; b] p q).
Proof.
  intros a b p q Ha Hb Hp Hq. unfold crosses_facet_at. split.
  - intros (f' & F1 & F2 & F3 & F4). assert (Z : exists f, is_polyhedron_facet m f /\ new_corner n f = f') by (destruct f' as [x i]; cbn [fst] in F2; subst x; exists (p, i); split; [apply o_facet_of_image; assumption|reflexivity]).
    destruct Z as (f & Hf & <-).
    rewrite (o_facet_vertices_new f Hf) in F3. rewrite (o_facet_adjacent_new f Hf) in F4. exists f. split; [exact Hf|].
    assert (Q : forall v, v < length (so_points m) -> In (s v) (map s (polyhedron_facet_vertices m f)) -> In v (polyhedron_facet_vertices m f)).
    { intros v Hv I. apply in_map_iff in I. destruct I as (w & E & I). apply (o_so_vertex_inj) in E; [congruence|apply (o_facet_vertices_range f w Hf I)|exact Hv]. }
    split; [|split].
    + cbn [fst new_corner] in F2. apply (po_numbers _ _ _ H) in F2; [exact F2|apply Hf|exact Hp].
    + intros v [<-|[<-|[]]]; apply Q; try assumption; apply F3; cbn; auto.
    + destruct (so_adjacent m f) as [r|] eqn:E; [|discriminate]. cbn [option_map] in F4. injection F4 as F4. f_equal.
      apply (po_numbers _ _ _ H) in F4; [exact F4|apply (o_facet_adjacent_range f r Hf E)|exact Hq].
  - intros (f & F1 & F2 & F3 & F4). exists (new_corner n f). split; [apply (o_facet_new); exact F1|].
    rewrite (o_facet_vertices_new f F1), (o_facet_adjacent_new f F1), F4. split; [cbn [fst new_corner]; congruence|]. split; [|reflexivity].
    intros v [<-|[<-|[]]]; apply in_map; apply F3; cbn; auto.
Qed.
Lemma o_fans_new : forall a b, a < length (so_points m) -> b < length (so_points m) ->
  (several_fans (uses_edge m' (s a, s b)) (crosses_facet_at m' [s a; s b]) <-> several_fans (uses_edge m (a, b)) (crosses_facet_at m [a; b])).
Proof.
  intros a b Ha Hb. assert (U : forall p, uses_edge m (a, b) p -> p < nb_polyhedra m) by (intros p (i & [K _]); exact K).
  apply (several_map _ _ t).
  - intros x y Hx Hy. apply (po_numbers _ _ _ H); auto.
  - intros x Hx. apply o_uses_edge_new; auto.
  - intros z Hz. pose proof Hz as (i & Kz). destruct (pe_back a b (z, i) Ha Hb Kz) as ([p j] & [Hp _] & E). cbn [fst] in Hp. unfold new_corner in E. cbn [fst snd] in E. injection E as -> ->. exists p. split; [|reflexivity]. apply o_uses_edge_new in Hz; assumption.
  - intros x y Hx Hy. apply o_crosses_new; auto.
Qed.
Lemma o_bad_transported : forall e ab e' ab', same_failures n m m' -> first_occurrence m e ab -> first_occurrence m' e' ab' ->
  (ab' = (s (fst ab), s (snd ab)) \/ ab' = (s (snd ab), s (fst ab))) ->
  ((so_around_edge m' ab' (fst e') = Throw OpenGeodeExn \/
     (so_around_edge m' ab' (fst e') <> Throw OpenGeodeExn /\ several_fans (uses_edge m' ab') (crosses_facet_at m' [fst ab'; snd ab']))) <->
   (so_around_edge m ab (fst e) = Throw OpenGeodeExn \/
     (so_around_edge m ab (fst e) <> Throw OpenGeodeExn /\ several_fans (uses_edge m ab) (crosses_facet_at m [fst ab; snd ab])))).
Proof.
  intros e [a b] e' ab' SF F F' E. rewrite (SF e (a, b) e' ab' F F' E). cbn [fst snd] in *.
  destruct F as (F1 & F2 & _). assert (J : polyhedron_edge_joins m a b e) by (split; auto). destruct (o_joined_range a b e J) as [Ha Hb].
  assert (K : several_fans (uses_edge m' ab') (crosses_facet_at m' [fst ab'; snd ab']) <-> several_fans (uses_edge m (a, b)) (crosses_facet_at m [a; b])).
  { destruct E as [->| ->]; cbn [fst snd]; [apply o_fans_new; assumption|]. rewrite fans_swap. apply o_fans_new; assumption. }
  rewrite K. reflexivity.
Qed.
End Piece.

Lemma two_solids_swap : forall n1 n2 m1 m2 w, two_solids n1 n2 m1 m2 w -> two_solids n2 n1 m2 m1 w.
Proof. intros n1 n2 m1 m2 w [A B V P E]. constructor; try assumption; apply shared_swap; assumption. Qed.
Lemma appears_range : forall n m w v p, piece_solid n m w -> p < nb_polyhedra m -> appears w v (new_element n p) -> exists x, x < length (so_points m) /\ new_vertex n x = v.
Proof.
  intros n m w v p H Hp [I|[(f & F & I)|(a & b & F & I)]].
  - destruct (po_vertices _ _ _ H p Hp) as [E R]. rewrite E in I. apply in_map_iff in I. destruct I as (x & <- & I). exists x. auto.
  - destruct (po_facets _ _ _ H p Hp) as [E R]. rewrite E in F. apply in_map_iff in F. destruct F as (g & <- & F). apply in_map_iff in I. destruct I as (x & <- & I). exists x. split; [apply (R g x F I)|reflexivity].
  - destruct (po_ph_edges _ _ _ H p Hp) as [E R]. rewrite E in F. apply in_map_iff in F. destruct F as ([x y] & F & J). cbn [fst snd] in F. injection F as <- <-.
    destruct (R x y J) as [Hx Hy]. destruct I as [->| ->]; [exists x|exists y]; auto.
Qed.
Lemma solid_complete : forall n1 n2 m1 m2 w, two_solids n1 n2 m1 m2 w ->
  forall q v, q < nb_polyhedra w -> v < length (so_points m1) -> appears w (new_vertex n1 v) q -> exists p, p < nb_polyhedra m1 /\ new_element n1 p = q.
Proof.
  intros n1 n2 m1 m2 w T q v Hq Hv I. destruct (proj1 (to_polyhedra _ _ _ _ _ T) q Hq) as [E|(p & Hp & <-)]; [exact E|]. exfalso.
  destruct (appears_range _ _ _ _ _ (to_second _ _ _ _ _ T) Hp I) as (x & Hx & E). apply (proj2 (to_vertices _ _ _ _ _ T) v x Hv Hx). congruence.
Qed.
Lemma NoDup_both : forall A (a b : list A), NoDup a -> NoDup b -> (forall x, In x a -> ~ In x b) -> NoDup (a ++ b).
Proof.
  intros A a b Na Nb D. induction Na as [|x a K Na IH]; [exact Nb|]. cbn [app]. constructor.
  - rewrite in_app_iff. intros [I|I]; [contradiction|]. apply (D x); [left; reflexivity|exact I].
  - apply IH. intros y Hy. apply D. right. exact Hy.
Qed.

Section Two.
Context (n1 n2 : Numbering) (m1 m2 w : SolidMesh) (T : two_solids n1 n2 m1 m2 w).
Local Notation Z1 := (to_first _ _ _ _ _ T).
Local Notation Z2 := (to_second _ _ _ _ _ T).
Local Notation Y1 := (solid_complete _ _ _ _ _ T).
Local Notation Y2 := (solid_complete _ _ _ _ _ (two_solids_swap _ _ _ _ _ T)).
Lemma facet_cases : forall f', is_polyhedron_facet w f' -> (exists f, is_polyhedron_facet m1 f /\ new_corner n1 f = f') \/ (exists f, is_polyhedron_facet m2 f /\ new_corner n2 f = f').
Proof.
  intros [p' i] F. destruct (proj1 (to_polyhedra _ _ _ _ _ T) p' (proj1 F)) as [(p & Hp & <-)|(p & Hp & <-)]; [left|right]; exists (p, i); (split; [|reflexivity]).
  - apply (o_facet_of_image n1 m1 w Z1); assumption.
  - apply (o_facet_of_image n2 m2 w Z2); assumption.
Qed.
Lemma so_corners_differ : forall e f, fst e < nb_polyhedra m1 -> fst f < nb_polyhedra m2 -> new_corner n1 e <> new_corner n2 f.
Proof. intros [p i] [q j] Hp Hq E. unfold new_corner in E. cbn [fst snd] in *. injection E as E _. apply (proj2 (to_polyhedra _ _ _ _ _ T) p q Hp Hq E). Qed.
Lemma simple_facets_two : simple_facets m1 -> simple_facets m2 -> simple_facets w.
Proof.
  intros S1 S2 f' Hf'. destruct (facet_cases f' Hf') as [(f & Hf & <-)|(f & Hf & <-)].
  - rewrite (o_facet_vertices_new n1 m1 w Z1) by exact Hf. destruct (S1 f Hf) as [A B]. split; [intros E; apply map_eq_nil in E; contradiction|].
    apply NoDup_map_on; [exact B|]. apply (o_facets_inj n1 m1 w Z1 f f Hf Hf).
  - rewrite (o_facet_vertices_new n2 m2 w Z2) by exact Hf. destruct (S2 f Hf) as [A B]. split; [intros E; apply map_eq_nil in E; contradiction|].
    apply NoDup_map_on; [exact B|]. apply (o_facets_inj n2 m2 w Z2 f f Hf Hf).
Qed.
Lemma well_formed_two : simple_facets m1 -> simple_facets m2 -> solid_well_formed m1 /\ solid_well_formed m2 /\ solid_well_formed w.
Proof.
  intros S1 S2. split; [split; [exact (o_facet_adjacent_range n1 m1 w Z1)|exact S1]|]. split; [split; [exact (o_facet_adjacent_range n2 m2 w Z2)|exact S2]|].
  split; [|apply simple_facets_two; assumption]. intros f' q' Hf' E. destruct (facet_cases f' Hf') as [(f & Hf & <-)|(f & Hf & <-)].
  - rewrite (o_facet_adjacent_new n1 m1 w Z1) in E by exact Hf. destruct (so_adjacent m1 f) as [q|] eqn:Eq; [|discriminate]. cbn [option_map] in E. injection E as <-.
    apply (o_polyhedron_range n1 m1 w Z1). apply (o_facet_adjacent_range n1 m1 w Z1 f q Hf Eq).
  - rewrite (o_facet_adjacent_new n2 m2 w Z2) in E by exact Hf. destruct (so_adjacent m2 f) as [q|] eqn:Eq; [|discriminate]. cbn [option_map] in E. injection E as <-.
    apply (o_polyhedron_range n2 m2 w Z2). apply (o_facet_adjacent_range n2 m2 w Z2 f q Hf Eq).
Qed.
Lemma so_adjacency_two : forall name1 name2 name, simple_facets m1 -> simple_facets m2 ->
  exists r1 r2 r, polyhedron_facets_with_wrong_adjacency name1 m1 = Ok r1 /\ polyhedron_facets_with_wrong_adjacency name2 m2 = Ok r2 /\
    polyhedron_facets_with_wrong_adjacency name w = Ok r /\ both (new_corner n1) (new_corner n2) r1 r2 r.
Proof.
  intros name1 name2 name S1 S2. destruct (well_formed_two S1 S2) as (W1 & W2 & W). destruct (solid_adjacency_spec name1 m1 W1) as (r1 & _ & R1 & Q1 & _).
  destruct (solid_adjacency_spec name2 m2 W2) as (r2 & _ & R2 & Q2 & _). destruct (solid_adjacency_spec name w W) as (r & _ & R & Q & _).
  exists r1, r2, r. split; [exact R1|]. split; [exact R2|]. split; [exact R|].
  apply (transport_two _ _ (new_corner n1) (new_corner n2) _ _ _ _ _ _ (exactly_once_lex _ _ Q1) (exactly_once_lex _ _ Q2) (exactly_once_lex _ _ Q)).
  - intros x y Hx Hy. apply (o_pair_inj n1 m1 w Z1); [apply Hx|apply Hy].
  - intros x y Hx Hy. apply (o_pair_inj n2 m2 w Z2); [apply Hx|apply Hy].
  - intros x y Hx Hy. apply so_corners_differ; [apply Hx|apply Hy].
  - intros x Hx. apply (o_wrong_facet_new n1 m1 w Z1); [apply Hx|exact Hx].
  - intros x Hx. apply (o_wrong_facet_new n2 m2 w Z2); [apply Hx|exact Hx].
  - intros y Hy. destruct (facet_cases y (proj1 Hy)) as [(e & He & <-)|(e & He & <-)]; [left|right]; exists e; (split; [|reflexivity]).
    + apply (o_wrong_facet_new n1 m1 w Z1); assumption.
    + apply (o_wrong_facet_new n2 m2 w Z2); assumption.
Qed.

(** ** Facets used more than twice *)
Lemma images_distinct : forall n m l k, piece_solid n m w -> represents_cycles (overused_facet m) l -> Forall2 (fun c c' => same_cycle (map (new_vertex n) c) c') l k -> NoDup k.
Proof.
  intros n m l k H (A1 & A2 & A3) F. destruct (images_at _ _ _ _ _ F) as [L I]. apply NoDup_nth_error. intros i j Hi E.
  destruct (nth_error k i) as [c|] eqn:Ei; [|apply nth_error_None in Ei; lia]. symmetry in E. assert (Hj : j < length k) by (apply nth_error_Some; congruence).
  destruct (nth_error l i) as [a|] eqn:Ea; [|apply nth_error_None in Ea; lia]. destruct (nth_error l j) as [b|] eqn:Eb; [|apply nth_error_None in Eb; lia].
  apply (A3 i j a b Ea Eb). pose proof (I i a c Ea Ei) as R1. pose proof (I j b c Eb E) as R2. apply (cycle_map_inv _ _ (new_vertex n)).
  - intros x y Hx Hy. apply (o_so_vertex_inj n m w H); [apply (o_overused_range n m w H a)|apply (o_overused_range n m w H b)]; try assumption; apply A1; [apply (nth_error_In _ _ Ea)|apply (nth_error_In _ _ Eb)].
  - apply (same_cycle_trans _ _ c); [exact R1|apply same_cycle_sym; exact R2].
Qed.
Lemma image_found : forall n m l k l' c0, represents_cycles (overused_facet w) l' -> represents_cycles (overused_facet m) l -> Forall2 (fun c c' => same_cycle (map (new_vertex n) c) c') l k ->
  (forall c, In c k -> In c l') -> overused_facet m c0 -> In (map (new_vertex n) c0) l' -> In (map (new_vertex n) c0) k.
Proof.
  intros n m l k l' c0 (B1 & B2 & B3) (A1 & A2 & A3) F K O Hc'. destruct (images_at _ _ _ _ _ F) as [L I]. destruct (A2 c0 O) as (c & Hc & S).
  assert (U : forall c d, In c l' -> In d l' -> same_cycle c d -> c = d).
  { intros a b Ha Hb Sab. apply In_nth_error in Ha. destruct Ha as [i Ei]. apply In_nth_error in Hb. destruct Hb as [j Ej]. pose proof (B3 i j a b Ei Ej Sab). subst j. congruence. }
  apply In_nth_error in Hc. destruct Hc as [i Ei]. destruct (nth_error k i) as [d|] eqn:Ed; [|apply nth_error_None in Ed; assert (i < length l) by (apply nth_error_Some; congruence); lia].
  pose proof (nth_error_In _ _ Ed) as Hd. rewrite (U _ d Hc' (K d Hd)); [exact Hd|].
  apply (same_cycle_trans _ _ (map (new_vertex n) c)); [apply cycle_map; exact S|apply (I i c d Ei Ed)].
Qed.
Lemma image_vertex : forall n l k c', Forall2 (fun c c' => same_cycle (map (new_vertex n) c) c') l k -> In c' k -> exists c, In c l /\ same_cycle (map (new_vertex n) c) c'.
Proof.
  intros n l k c' F. induction F as [|a b l k R F IH]; intros I; [destruct I|]. destruct I as [<-|I]; [exists a; split; [left; reflexivity|auto]|].
  destruct (IH I) as (c & J & Q). exists c. split; [right; exact J|exact Q].
Qed.
Lemma overused_nonempty : forall m c, simple_facets m -> overused_facet m c -> exists x, In x c.
Proof.
  intros m c S (f & g & h & _ & _ & _ & K). destruct (K f (or_introl eq_refl)) as [Hf C]. destruct (S f Hf) as [N _]. destruct (polyhedron_facet_vertices m f) as [|x l]; [congruence|].
  exists x. apply (same_cycle_in _ _ _ _ (same_cycle_sym _ _ _ C)). left. reflexivity.
Qed.
Lemma represented_two : forall l1 l2 l', simple_facets m1 -> simple_facets m2 -> represents_cycles (overused_facet m1) l1 -> represents_cycles (overused_facet m2) l2 -> represents_cycles (overused_facet w) l' ->
  exists k1 k2, Permutation l' (k1 ++ k2) /\ Forall2 (fun c c' => same_cycle (map (new_vertex n1) c) c') l1 k1 /\ Forall2 (fun c c' => same_cycle (map (new_vertex n2) c) c') l2 k2.
Proof.
  intros l1 l2 l' S1 S2 A B C. pose proof C as (C1 & C2 & C3).
  destruct (choose_images _ _ (fun c c' => same_cycle (map (new_vertex n1) c) c') l1 l') as (k1 & F1 & K1).
  { intros c Hc. apply C2. apply (o_overused_new n1 m1 w Z1). apply A. exact Hc. }
  destruct (choose_images _ _ (fun c c' => same_cycle (map (new_vertex n2) c) c') l2 l') as (k2 & F2 & K2).
  { intros c Hc. apply C2. apply (o_overused_new n2 m2 w Z2). apply B. exact Hc. }
  exists k1, k2. split; [|split; assumption]. apply NoDup_Permutation.
  - apply NoDup_nth_error. intros i j Hi E. destruct (nth_error l' i) as [c|] eqn:Ei; [|apply nth_error_None in Ei; lia].
    apply (C3 i j c c Ei (eq_sym E)). left. exists [], c. split; [reflexivity|rewrite app_nil_r; reflexivity].
  - apply NoDup_both; [apply (images_distinct n1 m1 l1 k1 Z1 A F1)|apply (images_distinct n2 m2 l2 k2 Z2 B F2)|]. intros c I1 I2.
    destruct (image_vertex n1 l1 k1 c F1 I1) as (a & Ia & Ra). destruct (image_vertex n2 l2 k2 c F2 I2) as (b & Ib & Rb).
    destruct (overused_nonempty m1 a S1 (proj1 A a Ia)) as (x & Hx).
    assert (J : In (new_vertex n1 x) (map (new_vertex n2) b)).
    { apply (same_cycle_in _ _ c); [exact Rb|]. apply (same_cycle_in _ _ _ _ (same_cycle_sym _ _ _ Ra)). apply in_map. exact Hx. }
    apply in_map_iff in J. destruct J as (y & E & Hy). apply (proj2 (to_vertices _ _ _ _ _ T) x y); [apply (o_overused_range n1 m1 w Z1 a x (proj1 A a Ia) Hx)|apply (o_overused_range n2 m2 w Z2 b y (proj1 B b Ib) Hy)|congruence].
  - intros c'. rewrite in_app_iff. split; [|intros [I|I]; [apply K1|apply K2]; exact I]. intros Hc'. pose proof (C1 c' Hc') as O.
    assert (Z : exists f, is_polyhedron_facet w f /\ same_cycle (polyhedron_facet_vertices w f) c') by (destruct O as (f & g & h & _ & _ & _ & K); exists f; apply (K f (or_introl eq_refl))).
    destruct Z as (f' & Hf' & Sf). destruct (facet_cases f' Hf') as [(f & Hf & <-)|(f & Hf & <-)].
    + left. rewrite (o_facet_vertices_new n1 m1 w Z1 f Hf) in Sf. destruct (S1 f Hf) as [N _]. destruct (polyhedron_facet_vertices m1 f) as [|x l] eqn:Ef; [congruence|].
      assert (Hx : x < length (so_points m1)) by (apply (o_facet_vertices_range n1 m1 w Z1 f x Hf); rewrite Ef; left; reflexivity).
      assert (Ix : In (new_vertex n1 x) c') by (apply (same_cycle_in _ _ _ _ (same_cycle_sym _ _ _ Sf)); left; reflexivity).
      destruct (overused_back n1 m1 w Z1 Y1 c' x O Hx Ix) as (c0 & O0 & ->). apply (image_found n1 m1 l1 k1 l' c0 C A F1 K1 O0 Hc').
    + right. rewrite (o_facet_vertices_new n2 m2 w Z2 f Hf) in Sf. destruct (S2 f Hf) as [N _]. destruct (polyhedron_facet_vertices m2 f) as [|x l] eqn:Ef; [congruence|].
      assert (Hx : x < length (so_points m2)) by (apply (o_facet_vertices_range n2 m2 w Z2 f x Hf); rewrite Ef; left; reflexivity).
      assert (Ix : In (new_vertex n2 x) c') by (apply (same_cycle_in _ _ _ _ (same_cycle_sym _ _ _ Sf)); left; reflexivity).
      destruct (overused_back n2 m2 w Z2 Y2 c' x O Hx Ix) as (c0 & O0 & ->). apply (image_found n2 m2 l2 k2 l' c0 C B F2 K2 O0 Hc').
Qed.
Lemma all_facets_two : Permutation (all_polyhedron_facets w) (map (new_corner n1) (all_polyhedron_facets m1) ++ map (new_corner n2) (all_polyhedron_facets m2)).
Proof.
  apply (transport_two _ _ (new_corner n1) (new_corner n2) (is_polyhedron_facet m1) (is_polyhedron_facet m2) (is_polyhedron_facet w)).
  - split; [apply sorted_lex_NoDup; apply all_polyhedron_facets_sorted|apply in_all_polyhedron_facets].
  - split; [apply sorted_lex_NoDup; apply all_polyhedron_facets_sorted|apply in_all_polyhedron_facets].
  - split; [apply sorted_lex_NoDup; apply all_polyhedron_facets_sorted|apply in_all_polyhedron_facets].
  - intros x y Hx Hy. apply (o_pair_inj n1 m1 w Z1); [apply Hx|apply Hy].
  - intros x y Hx Hy. apply (o_pair_inj n2 m2 w Z2); [apply Hx|apply Hy].
  - intros x y Hx Hy. apply so_corners_differ; [apply Hx|apply Hy].
  - apply (o_facet_new n1 m1 w Z1).
  - apply (o_facet_new n2 m2 w Z2).
  - intros y Hy. destruct (facet_cases y Hy) as [(x & Hx & <-)|(x & Hx & <-)]; [left|right]; exists x; auto.
Qed.
Lemma facets_two : forall ho1 ho2 ho, simple_facets m1 -> simple_facets m2 -> below_2_32 (length (all_polyhedron_facets w)) ->
  both_facets n1 n2 (solid_non_manifold_facets ho1 m1) (solid_non_manifold_facets ho2 m2) (solid_non_manifold_facets ho w).
Proof.
  intros ho1 ho2 ho S1 S2 B. assert (L : length (all_polyhedron_facets w) = length (all_polyhedron_facets m1) + length (all_polyhedron_facets m2)).
  { etransitivity; [apply (Permutation_length all_facets_two)|]. rewrite app_length, !map_length. reflexivity. }
  unfold below_2_32 in *.
  apply (represented_two _ _ _ S1 S2); [apply (solid_facets_spec ho1 ho1 m1 S1); unfold below_2_32; apply N.le_lt_trans with (2 := B); rewrite L; lia|apply (solid_facets_spec ho2 ho2 m2 S2); unfold below_2_32; apply N.le_lt_trans with (2 := B); rewrite L; lia|].
  apply (solid_facets_spec ho ho w (simple_facets_two S1 S2) B).
Qed.

(** ** Vertices and polyhedra *)
Lemma so_vertices_two : forall geo1 geo2 geo, (forall v, v < length (so_points m1) -> exists fan, so_around_vertex m1 v = Ok fan) -> (forall v, v < length (so_points m2) -> exists fan, so_around_vertex m2 v = Ok fan) ->
  exists r1 r2 r, solid_non_manifold_vertices geo1 m1 = Ok r1 /\ solid_non_manifold_vertices geo2 m2 = Ok r2 /\ solid_non_manifold_vertices geo w = Ok r /\ both (new_vertex n1) (new_vertex n2) r1 r2 r.
Proof.
  intros geo1 geo2 geo A1 A2.
  assert (R : forall n m, piece_solid n m w -> solid_vertices_in_range m).
  { intros n m H [p i] v [Hp E]. cbn [fst snd] in *. apply (proj2 (po_vertices _ _ _ H p Hp) v (nth_error_In _ _ E)). }
  assert (V : solid_vertices_in_range w).
  { intros [p' i] v' [Hp E]. cbn [fst snd] in *. apply nth_error_In in E. destruct (proj1 (to_polyhedra _ _ _ _ _ T) p' Hp) as [(p & Hp1 & <-)|(p & Hp1 & <-)].
    - destruct (appears_range n1 m1 w v' p Z1 Hp1 (or_introl E)) as (x & Hx & <-). apply (po_points _ _ _ Z1). exact Hx.
    - destruct (appears_range n2 m2 w v' p Z2 Hp1 (or_introl E)) as (x & Hx & <-). apply (po_points _ _ _ Z2). exact Hx. }
  assert (A : forall v, v < length (so_points w) -> exists fan, so_around_vertex w v = Ok fan).
  { intros v' Hv'. destruct (proj1 (to_vertices _ _ _ _ _ T) v' Hv') as [(v & Hv & <-)|(v & Hv & <-)].
    - destruct (po_around _ _ _ Z1 v Hv) as [A _]. destruct (A1 v Hv) as [fan E]; rewrite E in A; destruct (so_around_vertex w (new_vertex n1 v)) as [fan'|x'|]; cbn in A; try contradiction; eauto.
    - destruct (po_around _ _ _ Z2 v Hv) as [A _]. destruct (A2 v Hv) as [fan E]; rewrite E in A; destruct (so_around_vertex w (new_vertex n2 v)) as [fan'|x'|]; cbn in A; try contradiction; eauto. }
  destruct (solid_vertices_spec geo1 m1 (R _ _ Z1) A1) as (r1 & _ & R1 & Q1 & _). destruct (solid_vertices_spec geo2 m2 (R _ _ Z2) A2) as (r2 & _ & R2 & Q2 & _).
  destruct (solid_vertices_spec geo w V A) as (r & _ & R3 & Q & _). exists r1, r2, r. split; [exact R1|]. split; [exact R2|]. split; [exact R3|].
  apply (transport_two_ranges _ _ _ _ _ _ _ _ _ _ _ (proj1 (po_points _ _ _ Z1)) (proj1 (po_points _ _ _ Z2)) (to_vertices _ _ _ _ _ T) Q1 Q2 Q).
  - intros x Hx. apply Hx.
  - intros x Hx. apply Hx.
  - intros x Hx. apply Hx.
  - apply (o_so_vertex_bad_new n1 m1 w Z1 Y1).
  - apply (o_so_vertex_bad_new n2 m2 w Z2 Y2).
Qed.
Lemma flat_polyhedra_two : both (new_element n1) (new_element n2) (degenerated_polyhedra m1) (degenerated_polyhedra m2) (degenerated_polyhedra w).
Proof.
  apply (transport_two_ranges _ _ _ _ _ _ _ _ _ _ _ (po_numbers _ _ _ Z1) (po_numbers _ _ _ Z2) (to_polyhedra _ _ _ _ _ T) (flat_polyhedra_spec m1 _) (flat_polyhedra_spec m2 _) (flat_polyhedra_spec w _)).
  - intros x Hx. apply Hx.
  - intros x Hx. apply Hx.
  - intros x Hx. apply Hx.
  - intros x Hx. apply (o_flat_new n1 m1 w Z1 x Hx).
  - intros x Hx. apply (o_flat_new n2 m2 w Z2 x Hx).
Qed.
Lemma negative_polyhedra_two : forall ms, both (new_element n1) (new_element n2) (negative_polyhedra ms m1) (negative_polyhedra ms m2) (negative_polyhedra ms w).
Proof.
  intros ms.
  assert (X : polyhedron_points_exist w).
  { intros ph v I J. apply In_nth with (d := mkPolyhedron [] [] []) in I. destruct I as (p' & Hp & E). rewrite <- E in J. destruct (proj1 (to_polyhedra _ _ _ _ _ T) p' Hp) as [(p & Hp1 & <-)|(p & Hp1 & <-)].
    - destruct (appears_range n1 m1 w v p Z1 Hp1 (or_introl J)) as (x & Hx & <-). apply (po_points _ _ _ Z1). exact Hx.
    - destruct (appears_range n2 m2 w v p Z2 Hp1 (or_introl J)) as (x & Hx & <-). apply (po_points _ _ _ Z2). exact Hx. }
  apply (transport_two_ranges _ _ _ _ _ _ _ _ _ _ _ (po_numbers _ _ _ Z1) (po_numbers _ _ _ Z2) (to_polyhedra _ _ _ _ _ T) (proj1 (solid_negative_spec ms m1 (o_polyhedron_points n1 m1 w Z1)))
    (proj1 (solid_negative_spec ms m2 (o_polyhedron_points n2 m2 w Z2))) (proj1 (solid_negative_spec ms w X))).
  - intros x (ph & E & _). apply nth_error_Some. congruence.
  - intros x (ph & E & _). apply nth_error_Some. congruence.
  - intros x (ph & E & _). apply nth_error_Some. congruence.
  - apply (o_negative_polyhedron_new n1 m1 w Z1).
  - apply (o_negative_polyhedron_new n2 m2 w Z2).
Qed.

(** ** Edges *)
Lemma joined_cases : forall x y e', polyhedron_edge_joins w x y e' ->
  (exists a b e, polyhedron_edge_joins m1 a b e /\ x = new_vertex n1 a /\ y = new_vertex n1 b /\ e' = new_corner n1 e) \/
  (exists a b e, polyhedron_edge_joins m2 a b e /\ x = new_vertex n2 a /\ y = new_vertex n2 b /\ e' = new_corner n2 e).
Proof.
  intros x y [p' i] [Hp K]. cbn [fst snd] in *. destruct (proj1 (to_polyhedra _ _ _ _ _ T) p' Hp) as [(p & Hp1 & <-)|(p & Hp1 & <-)]; [left|right].
  - rewrite (o_edge_at_new n1 m1 w Z1) in K by exact Hp1. destruct (nth_error (ph_edges (polyhedron m1 p)) i) as [[a b]|] eqn:E; cbn [option_map fst snd] in K; [|destruct K; discriminate].
    destruct K as [K|K]; injection K as <- <-; [exists a, b, (p, i)|exists b, a, (p, i)]; (split; [split; cbn [fst snd]; auto|auto]).
  - rewrite (o_edge_at_new n2 m2 w Z2) in K by exact Hp1. destruct (nth_error (ph_edges (polyhedron m2 p)) i) as [[a b]|] eqn:E; cbn [option_map fst snd] in K; [|destruct K; discriminate].
    destruct K as [K|K]; injection K as <- <-; [exists a, b, (p, i)|exists b, a, (p, i)]; (split; [split; cbn [fst snd]; auto|auto]).
Qed.
Lemma simple_edges_two : simple_edges m1 -> simple_edges m2 -> simple_edges w.
Proof.
  intros S1 S2 x y p' i j A B. destruct (joined_cases _ _ _ A) as [(a & b & e & J1 & -> & -> & E)|(a & b & e & J1 & -> & -> & E)];
    destruct e as [p k]; unfold new_corner in E; cbn [fst snd] in E; injection E as -> ->; pose proof (proj1 J1) as Hp; cbn [fst] in Hp.
  - destruct (o_joined_range n1 m1 w Z1 _ _ _ J1) as [Ha Hb]. apply (S1 a b p k j J1). apply (o_pe_new n1 m1 w Z1 a b (p, j) Ha Hb Hp). exact B.
  - destruct (o_joined_range n2 m2 w Z2 _ _ _ J1) as [Ha Hb]. apply (S2 a b p k j J1). apply (o_pe_new n2 m2 w Z2 a b (p, j) Ha Hb Hp). exact B.
Qed.
Lemma first_joins : forall m e ab, first_occurrence m e ab -> polyhedron_edge_joins m (fst ab) (snd ab) e.
Proof. intros m e [a b] (F1 & F2 & _). split; auto. Qed.
Lemma bad_edge_inj : forall n m, piece_solid n m w -> forall x y, bad_edge m x -> bad_edge m y -> new_pair n x = new_pair n y -> x = y.
Proof.
  intros n m H x y (e & ab & F & <- & _) (e' & ab' & F' & <- & _) E. rewrite !new_pair_undirected in E.
  destruct (o_joined_range n m w H _ _ _ (first_joins _ _ _ F)) as [A B]. destruct (o_joined_range n m w H _ _ _ (first_joins _ _ _ F')) as [A' B']. destruct ab as [a b], ab' as [a' b']. cbn [fst snd] in *.
  unfold new_pair in E. cbn [fst snd] in E. injection E as E1 E2. assert (O : new_vertex n a = new_vertex n a' /\ new_vertex n b = new_vertex n b' \/ new_vertex n a = new_vertex n b' /\ new_vertex n b = new_vertex n a') by lia.
  pose proof (o_so_vertex_inj n m w H) as I. destruct O as [[O1 O2]|[O1 O2]]; apply I in O1; try assumption; apply I in O2; try assumption; subst; [reflexivity|]. unfold undirected. cbn [fst snd]. f_equal; lia.
Qed.
Lemma bad_edge_new : forall n m, piece_solid n m w -> (forall q v, q < nb_polyhedra w -> v < length (so_points m) -> appears w (new_vertex n v) q -> exists p, p < nb_polyhedra m /\ new_element n p = q) ->
  same_failures n m w -> forall x, bad_edge m x -> bad_edge w (new_pair n x).
Proof.
  intros n m H C SF x (e & ab & F & <- & K). rewrite new_pair_undirected. pose proof (first_joins _ _ _ F) as J. destruct (o_joined_range n m w H _ _ _ J) as [A B].
  apply (o_pe_new n m w H _ _ _ A B (proj1 J)) in J. destruct (first_exists w _ _ _ J) as (e' & ab' & F' & E').
  exists e', ab'. split; [exact F'|]. split; [apply new_pair_new; exact E'|]. apply (o_bad_transported n m w H C e ab e' ab' SF F F' E'). exact K.
Qed.
Lemma bad_edge_back : forall n m, piece_solid n m w -> (forall q v, q < nb_polyhedra w -> v < length (so_points m) -> appears w (new_vertex n v) q -> exists p, p < nb_polyhedra m /\ new_element n p = q) ->
  same_failures n m w -> forall e' ab' a b e0, first_occurrence w e' ab' ->
  (so_around_edge w ab' (fst e') = Throw OpenGeodeExn \/ (so_around_edge w ab' (fst e') <> Throw OpenGeodeExn /\ several_fans (uses_edge w ab') (crosses_facet_at w [fst ab'; snd ab']))) ->
  polyhedron_edge_joins m a b e0 -> fst ab' = new_vertex n a -> snd ab' = new_vertex n b -> exists x, bad_edge m x /\ undirected ab' = new_pair n x.
Proof.
  intros n m H C SF e' ab' a b e0 F' K' J E1 E2. destruct (first_exists m _ _ _ J) as (e & ab & F & E). exists (undirected ab). rewrite new_pair_undirected.
  assert (E' : ab' = (new_vertex n (fst ab), new_vertex n (snd ab)) \/ ab' = (new_vertex n (snd ab), new_vertex n (fst ab))) by (destruct ab' as [x y]; cbn [fst snd] in *; subst x y; destruct E as [->| ->]; cbn [fst snd]; auto).
  split; [|apply new_pair_new; exact E']. exists e, ab. split; [exact F|]. split; [reflexivity|]. apply (o_bad_transported n m w H C e ab e' ab' SF F F' E'). exact K'.
Qed.
Lemma solid_edges_two : simple_edges m1 -> simple_edges m2 -> turns_around_solid_edges m1 -> turns_around_solid_edges m2 -> turns_around_solid_edges w -> same_failures n1 m1 w -> same_failures n2 m2 w ->
  exists r1 r2 r, solid_non_manifold_edges m1 = Ok r1 /\ solid_non_manifold_edges m2 = Ok r2 /\ solid_non_manifold_edges w = Ok r /\ both_edges n1 n2 r1 r2 r.
Proof.
  intros S1 S2 T1 T2 T' SF1 SF2. destruct (bad_edges_listed m1 S1 T1) as (r1 & R1 & Q1). destruct (bad_edges_listed m2 S2 T2) as (r2 & R2 & Q2).
  destruct (bad_edges_listed w (simple_edges_two S1 S2) T') as (r & R & Q). exists r1, r2, r. split; [exact R1|]. split; [exact R2|]. split; [exact R|]. unfold both_edges.
  replace (map (new_pair n1) (ii_issues r1)) with (map (new_pair n1) (map undirected (ii_issues r1))) by (rewrite map_map; apply map_ext; apply new_pair_undirected).
  replace (map (new_pair n2) (ii_issues r2)) with (map (new_pair n2) (map undirected (ii_issues r2))) by (rewrite map_map; apply map_ext; apply new_pair_undirected).
  apply (transport_two _ _ (new_pair n1) (new_pair n2) _ _ _ _ _ _ Q1 Q2 Q).
  - apply (bad_edge_inj n1 m1 Z1).
  - apply (bad_edge_inj n2 m2 Z2).
  - intros x y (e & ab & F & <- & _) (e' & ab' & F' & <- & _) E. rewrite !new_pair_undirected in E.
    destruct (o_joined_range n1 m1 w Z1 _ _ _ (first_joins _ _ _ F)) as [A B]. destruct (o_joined_range n2 m2 w Z2 _ _ _ (first_joins _ _ _ F')) as [A' B']. destruct ab as [a b], ab' as [c d]. cbn [fst snd] in *.
    unfold new_pair in E. cbn [fst snd] in E. injection E as E _. destruct (to_vertices _ _ _ _ _ T) as [_ D].
    pose proof (D a c A A'). pose proof (D a d A B'). pose proof (D b c B A'). pose proof (D b d B B'). lia.
  - apply (bad_edge_new n1 m1 Z1 Y1 SF1).
  - apply (bad_edge_new n2 m2 Z2 Y2 SF2).
  - intros xy (e' & ab' & F' & <- & K'). destruct (joined_cases _ _ _ (first_joins _ _ _ F')) as [(a & b & e0 & J & E1 & E2 & _)|(a & b & e0 & J & E1 & E2 & _)]; [left|right].
    + apply (bad_edge_back n1 m1 Z1 Y1 SF1 e' ab' a b e0 F' K' J E1 E2).
    + apply (bad_edge_back n2 m2 Z2 Y2 SF2 e' ab' a b e0 F' K' J E1 E2).
Qed.
End Two.
