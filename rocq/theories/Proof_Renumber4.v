(** Renumbering a mesh renumbers its report: edges of solids, where the first occurrence of an edge may change. *)
From Coq Require Import String Ascii List Arith NArith ZArith Bool Lia Permutation Sorted Relations.
From Verif Require Import Base BaseFacts Model_Issues Types Model_Hash Model_Adjacency Model_Colocation Model_Manifold Model_Degeneration Model_Negative
  Spec_Cycles Spec_Maps Spec_Colocation Spec_Adjacency Spec_Manifold Spec_Fans Spec_Degeneration Spec_Negative Spec_Renumber Proof_Cycles
  Proof_Colocation Proof_Adjacency Proof_Manifold Proof_Manifold2 Proof_Manifold3 Proof_Degeneration Proof_Fans Proof_Renumber Proof_Renumber3.
Import ListNotations.
Open Scope list_scope.

Lemma sorted_filter : forall A (R : A -> A -> Prop) p l, StronglySorted R l -> StronglySorted R (filter p l).
Proof.
  intros A R p l S. induction S as [|x l S IH F]; [constructor|]. cbn [filter]. destruct (p x); [|exact IH]. constructor; [exact IH|].
  rewrite Forall_forall in *. intros y Hy. apply filter_In in Hy. apply F. apply Hy.
Qed.
Lemma pe_swap : forall m a b e, polyhedron_edge_joins m a b e <-> polyhedron_edge_joins m b a e.
Proof. intros m a b e. unfold polyhedron_edge_joins. tauto. Qed.
Lemma first_exists : forall m a b e, polyhedron_edge_joins m a b e -> exists e0 ab0, first_occurrence m e0 ab0 /\ (ab0 = (a, b) \/ ab0 = (b, a)).
Proof.
  intros m a b e J.
  set (l := filter (fun x => pair_eqb (pekey m x) (edge_key (a, b))) (all_polyhedron_edges m)).
  assert (L : forall x, In x l <-> polyhedron_edge_joins m a b x).
  { intros x. unfold l. rewrite filter_In, joins_iff, pair_eqb_eq. reflexivity. }
  assert (S : StronglySorted lex_lt l) by (apply sorted_filter; apply all_polyhedron_edges_sorted).
  destruct l as [|x l']; [apply L in J; destruct J|]. pose proof (proj1 (L x) (or_introl eq_refl)) as [Hx Jx].
  assert (F : forall ab, (ab = (a, b) \/ ab = (b, a)) -> forall y, polyhedron_edge_joins m (fst ab) (snd ab) y -> ~ lex_lt y x).
  { intros ab Eab y Jy K. assert (Jy' : polyhedron_edge_joins m a b y) by (destruct Eab as [->| ->]; [exact Jy|apply pe_swap; exact Jy]).
    apply L in Jy'. destruct Jy' as [<-|I]; [apply (lex_lt_irrefl _ K)|].
    apply StronglySorted_inv in S. destruct S as [_ S]. rewrite Forall_forall in S. apply (lex_lt_irrefl x). apply (lex_lt_trans _ y); [apply S; exact I|exact K]. }
  destruct Jx as [Jx|Jx]; [exists x, (a, b)|exists x, (b, a)]; (split; [split; [exact Hx|split; [exact Jx|apply F; auto]]|auto]).
Qed.
Lemma first_unique : forall m e ab e' ab', first_occurrence m e ab -> first_occurrence m e' ab' -> undirected ab = undirected ab' -> (e, ab) = (e', ab').
Proof.
  intros m e [a b] e' [a' b'] (A1 & A2 & A3) (B1 & B2 & B3) E. cbn [fst snd] in *. unfold undirected in E. cbn [fst snd] in E. injection E as E1 E2.
  assert (O : a' = a /\ b' = b \/ a' = b /\ b' = a) by lia.
  assert (J : polyhedron_edge_joins m a b e') by (split; [exact B1|]; destruct O as [[-> ->]|[-> ->]]; auto).
  assert (J' : polyhedron_edge_joins m a' b' e) by (split; [exact A1|]; destruct O as [[-> ->]|[-> ->]]; auto).
  pose proof (A3 e' J). pose proof (B3 e J'). destruct (lex_lt_total e e') as [K|[K|K]]; try contradiction. subst e'. rewrite A2 in B2. congruence.
Qed.
(** what is reported, without directions *)
Definition bad_edge (m : SolidMesh) (xy : nat * nat) : Prop :=
  exists e ab, first_occurrence m e ab /\ undirected ab = xy /\
    (so_around_edge m ab (fst e) = Throw OpenGeodeExn \/
     (so_around_edge m ab (fst e) <> Throw OpenGeodeExn /\ several_fans (uses_edge m ab) (crosses_facet_at m [fst ab; snd ab]))).
Lemma bad_edges_listed : forall m, simple_edges m -> turns_around_solid_edges m ->
  exists r, solid_non_manifold_edges m = Ok r /\ lists_once (bad_edge m) (map undirected (ii_issues r)).
Proof.
  intros m S T. destruct (solid_edges_fans m S T) as (r & el & R1 & R2 & [R3 R4]). exists r. split; [exact R1|]. rewrite R2.
  assert (Q : forall eab, In eab el <-> first_occurrence m (fst eab) (snd eab) /\ (so_around_edge m (snd eab) (fst (fst eab)) = Throw OpenGeodeExn \/
     (so_around_edge m (snd eab) (fst (fst eab)) <> Throw OpenGeodeExn /\ several_fans (uses_edge m (snd eab)) (crosses_facet_at m [fst (snd eab); snd (snd eab)])))).
  { intros eab. rewrite R4. unfold failed_edge, solid_edge_with_several_fans. split.
    - intros [[F E]|((F & K) & fan & E)]; (split; [exact F|]); [left; exact E|right; split; [congruence|exact K]].
    - intros [F [E|[E K]]]; [left; auto|right]. split; [auto|]. destruct (T _ _ F) as [X|(fan & X & _)]; [contradiction|eauto]. }
  split.
  - rewrite map_map. apply NoDup_map_on.
    + clear -R3. induction R3 as [|x l S IH F]; constructor; [|exact IH]. intros K. rewrite Forall_forall in F. apply (lex_lt_irrefl _ (F x K)).
    + intros [e ab] [e' ab'] I I' E. apply Q in I. apply Q in I'. cbn [fst snd] in *. apply (first_unique m e ab e' ab'); [apply I|apply I'|exact E].
  - intros xy. rewrite map_map, in_map_iff. split.
    + intros ([e ab] & E & I). apply Q in I. cbn [fst snd] in *. exists e, ab. split; [apply I|]. split; [exact E|apply I].
    + intros (e & ab & F & E & K). exists (e, ab). split; [exact E|]. apply Q. cbn [fst snd]. auto.
Qed.

Section Solid.
Context (n : Numbering) (m m' : SolidMesh) (H : renumbered_solid n m m').
Local Notation s := (new_vertex n).
Local Notation t := (new_element n).

Lemma edge_at_new : forall p i, p < nb_polyhedra m ->
  nth_error (ph_edges (polyhedron m' (t p))) i = option_map (fun ab => (s (fst ab), s (snd ab))) (nth_error (ph_edges (polyhedron m p)) i).
Proof. intros p i Hp. rewrite (proj1 (ro_ph_edges _ _ _ H p Hp)). apply nth_error_map. Qed.
Lemma joined_range : forall a b e, polyhedron_edge_joins m a b e -> a < length (so_points m) /\ b < length (so_points m).
Proof.
  intros a b [p i] [Hp K]. cbn [fst snd] in *. destruct K as [K|K]; apply nth_error_In in K; destruct (proj2 (ro_ph_edges _ _ _ H p Hp) _ _ K); auto.
Qed.
Lemma pe_new : forall a b e, a < length (so_points m) -> b < length (so_points m) -> fst e < nb_polyhedra m ->
  (polyhedron_edge_joins m' (s a) (s b) (new_corner n e) <-> polyhedron_edge_joins m a b e).
Proof.
  intros a b [p i] Ha Hb Hp. cbn [fst snd] in Hp. unfold polyhedron_edge_joins. cbn [fst snd new_corner]. rewrite edge_at_new by exact Hp.
  pose proof (polyhedron_range n m m' H p Hp) as Hp'. destruct (nth_error (ph_edges (polyhedron m p)) i) as [[x y]|] eqn:E; cbn [option_map fst snd].
  - destruct (proj2 (ro_ph_edges _ _ _ H p Hp) x y (nth_error_In _ _ E)) as [Hx Hy].
    assert (I : forall u v, u < length (so_points m) -> v < length (so_points m) -> s u = s v -> u = v) by apply (so_vertex_inj n m m' H).
    split; intros [_ K]; (split; [assumption|]); (destruct K as [K|K]; [left|right]); injection K as K1 K2; subst; try reflexivity;
      f_equal; f_equal; apply I; assumption.
  - split; intros [_ [K|K]]; discriminate.
Qed.
Lemma pe_onto : forall x y e', polyhedron_edge_joins m' x y e' -> exists a b e, polyhedron_edge_joins m a b e /\ x = s a /\ y = s b /\ e' = new_corner n e.
Proof.
  intros x y [p' i] [Hp K]. cbn [fst snd] in *. destruct (polyhedron_onto n m m' H p' Hp) as (p & Hp1 & <-). rewrite edge_at_new in K by exact Hp1.
  destruct (nth_error (ph_edges (polyhedron m p)) i) as [[a b]|] eqn:E; cbn [option_map fst snd] in K; [|destruct K; discriminate].
  destruct K as [K|K]; injection K as <- <-; [exists a, b, (p, i)|exists b, a, (p, i)]; (split; [split; cbn [fst snd]; auto|auto]).
Qed.
Lemma uses_edge_new : forall a b p, a < length (so_points m) -> b < length (so_points m) -> p < nb_polyhedra m ->
  (uses_edge m' (s a, s b) (t p) <-> uses_edge m (a, b) p).
Proof.
  intros a b p Ha Hb Hp. unfold uses_edge. cbn [fst snd]. split; intros (i & K); exists i.
  - apply (pe_new a b (p, i) Ha Hb Hp). exact K.
  - apply (pe_new a b (p, i) Ha Hb Hp). exact K.
Qed.
Lemma crosses_new : forall a b p q, a < length (so_points m) -> b < length (so_points m) -> p < nb_polyhedra m -> q < nb_polyhedra m ->
  (crosses_facet_at m' [s a; s b] (t p) (t q) <-> crosses_facet_at m [a; b] p q).
Proof.
  intros a b p q Ha Hb Hp Hq. unfold crosses_facet_at. split.
  - intros (f' & F1 & F2 & F3 & F4). destruct (facet_onto n m m' H f' F1) as (f & Hf & <-).
    rewrite (facet_vertices_new n m m' H f Hf) in F3. rewrite (facet_adjacent_new n m m' H f Hf) in F4. exists f. split; [exact Hf|].
    assert (Q : forall v, v < length (so_points m) -> In (s v) (map s (polyhedron_facet_vertices m f)) -> In v (polyhedron_facet_vertices m f)).
    { intros v Hv I. apply in_map_iff in I. destruct I as (w & E & I). apply (so_vertex_inj n m m' H) in E; [congruence|apply (facet_vertices_range n m m' H f w Hf I)|exact Hv]. }
    split; [|split].
    + cbn [fst new_corner] in F2. apply (ro_numbers _ _ _ H) in F2; [exact F2|apply Hf|exact Hp].
    + intros v [<-|[<-|[]]]; apply Q; try assumption; apply F3; cbn; auto.
    + destruct (so_adjacent m f) as [r|] eqn:E; [|discriminate]. cbn [option_map] in F4. injection F4 as F4. f_equal.
      apply (ro_numbers _ _ _ H) in F4; [exact F4|apply (facet_adjacent_range n m m' H f r Hf E)|exact Hq].
  - intros (f & F1 & F2 & F3 & F4). exists (new_corner n f). split; [apply (facet_new n m m' H); exact F1|].
    rewrite (facet_vertices_new n m m' H f F1), (facet_adjacent_new n m m' H f F1), F4. split; [cbn [fst new_corner]; congruence|]. split; [|reflexivity].
    intros v [<-|[<-|[]]]; apply in_map; apply F3; cbn; auto.
Qed.
Lemma fans_new : forall a b, a < length (so_points m) -> b < length (so_points m) ->
  (several_fans (uses_edge m' (s a, s b)) (crosses_facet_at m' [s a; s b]) <-> several_fans (uses_edge m (a, b)) (crosses_facet_at m [a; b])).
Proof.
  intros a b Ha Hb. assert (U : forall p, uses_edge m (a, b) p -> p < nb_polyhedra m) by (intros p (i & [K _]); exact K).
  apply (several_map _ _ t).
  - intros x y Hx Hy. apply (ro_numbers _ _ _ H); auto.
  - intros x Hx. apply uses_edge_new; auto.
  - intros z Hz. pose proof Hz as (i & [Kz _]). destruct (polyhedron_onto n m m' H z Kz) as (p & Hp & <-). exists p. split; [|reflexivity]. apply uses_edge_new in Hz; assumption.
  - intros x y Hx Hy. apply crosses_new; auto.
Qed.
Lemma several_iff : forall A (P Q : A -> Prop) (st st' : A -> A -> Prop), (forall x, P x <-> Q x) -> (forall x y, st x y <-> st' x y) ->
  (several_fans P st <-> several_fans Q st').
Proof.
  intros A P Q st st' E1 E2. symmetry. apply (several_map _ _ (fun x => x)); [intros; assumption|intros x Hx; apply E1; exact Hx|intros z Hz; exists z; split; [apply E1; exact Hz|reflexivity]|intros x y _ _; symmetry; apply E2].
Qed.
Lemma fans_swap : forall mm a b, several_fans (uses_edge mm (b, a)) (crosses_facet_at mm [b; a]) <-> several_fans (uses_edge mm (a, b)) (crosses_facet_at mm [a; b]).
Proof.
  intros mm a b. apply several_iff.
  - intros p. unfold uses_edge. cbn [fst snd]. split; intros (i & K); exists i; apply pe_swap; exact K.
  - intros x y. unfold crosses_facet_at. split; intros (f & F1 & F2 & F3 & F4); exists f; (split; [exact F1|]; split; [exact F2|]; split; [|exact F4]);
      intros v [<-|[<-|[]]]; apply F3; cbn; auto.
Qed.
(** the first occurrences of an edge in both meshes *)
Lemma bad_transported : forall e ab e' ab', same_failures n m m' -> first_occurrence m e ab -> first_occurrence m' e' ab' ->
  (ab' = (s (fst ab), s (snd ab)) \/ ab' = (s (snd ab), s (fst ab))) ->
  ((so_around_edge m' ab' (fst e') = Throw OpenGeodeExn \/
     (so_around_edge m' ab' (fst e') <> Throw OpenGeodeExn /\ several_fans (uses_edge m' ab') (crosses_facet_at m' [fst ab'; snd ab']))) <->
   (so_around_edge m ab (fst e) = Throw OpenGeodeExn \/
     (so_around_edge m ab (fst e) <> Throw OpenGeodeExn /\ several_fans (uses_edge m ab) (crosses_facet_at m [fst ab; snd ab])))).
Proof.
  intros e [a b] e' ab' SF F F' E. rewrite (SF e (a, b) e' ab' F F' E). cbn [fst snd] in *.
  destruct F as (F1 & F2 & _). assert (J : polyhedron_edge_joins m a b e) by (split; auto). destruct (joined_range a b e J) as [Ha Hb].
  assert (K : several_fans (uses_edge m' ab') (crosses_facet_at m' [fst ab'; snd ab']) <-> several_fans (uses_edge m (a, b)) (crosses_facet_at m [a; b])).
  { destruct E as [->| ->]; cbn [fst snd]; [apply fans_new; assumption|]. rewrite fans_swap. apply fans_new; assumption. }
  rewrite K. reflexivity.
Qed.
Lemma new_pair_undirected : forall ab, new_pair n (undirected ab) = new_pair n ab.
Proof. intros [a b]. unfold new_pair, undirected. cbn [fst snd]. destruct (Nat.le_ge_cases a b); [rewrite (Nat.min_l a b), (Nat.max_r a b) by lia; reflexivity|rewrite (Nat.min_r a b), (Nat.max_l a b) by lia; f_equal; lia]. Qed.
Lemma new_pair_new : forall ab ab', (ab' = (s (fst ab), s (snd ab)) \/ ab' = (s (snd ab), s (fst ab))) -> undirected ab' = new_pair n ab.
Proof. intros [a b] ab' [->| ->]; unfold new_pair, undirected; cbn [fst snd]; f_equal; lia. Qed.
Lemma solid_edges_renumbered : simple_edges m -> turns_around_solid_edges m -> turns_around_solid_edges m' -> same_failures n m m' ->
  exists r r', solid_non_manifold_edges m = Ok r /\ solid_non_manifold_edges m' = Ok r' /\ renumbered_edge_issues n r r'.
Proof.
  intros S T T' SF. assert (S' : simple_edges m').
  { intros x y p' i j K1 K2. destruct (pe_onto _ _ _ K1) as (a & b & e & J1 & -> & -> & E). destruct e as [p k]. unfold new_corner in E. cbn [fst snd] in E. injection E as -> ->.
    destruct (joined_range _ _ _ J1) as [Ha Hb]. pose proof (proj1 J1) as Hp. cbn [fst] in Hp.
    apply (S a b p k j J1). apply (pe_new a b (p, j) Ha Hb Hp). exact K2. }
  destruct (bad_edges_listed m S T) as (r & R1 & R2). destruct (bad_edges_listed m' S' T') as (r' & R1' & R2').
  exists r, r'. split; [exact R1|]. split; [exact R1'|]. unfold renumbered_edge_issues.
  replace (map (new_pair n) (ii_issues r)) with (map (new_pair n) (map undirected (ii_issues r))) by (rewrite map_map; apply map_ext; apply new_pair_undirected).
  assert (D : forall e ab, first_occurrence m e ab -> polyhedron_edge_joins m (fst ab) (snd ab) e).
  { intros e [a b] (F1 & F2 & _). split; auto. }
  assert (D' : forall e ab, first_occurrence m' e ab -> polyhedron_edge_joins m' (fst ab) (snd ab) e).
  { intros e [a b] (F1 & F2 & _). split; auto. }
  apply (transport_once _ _ (new_pair n) _ _ _ _ R2 R2').
  - intros xy xy' (e & ab & F & <- & _) (e' & ab' & F' & <- & _) E. rewrite !new_pair_undirected in E.
    destruct (joined_range _ _ _ (D _ _ F)) as [A B]. destruct (joined_range _ _ _ (D _ _ F')) as [A' B']. destruct ab as [a b], ab' as [a' b']. cbn [fst snd] in *.
    unfold new_pair in E. cbn [fst snd] in E. injection E as E1 E2. assert (O : s a = s a' /\ s b = s b' \/ s a = s b' /\ s b = s a') by lia.
    assert (I : forall u v, u < length (so_points m) -> v < length (so_points m) -> s u = s v -> u = v) by apply (so_vertex_inj n m m' H).
    destruct O as [[O1 O2]|[O1 O2]]; apply I in O1; try assumption; apply I in O2; try assumption; subst; [reflexivity|]. unfold undirected. cbn [fst snd]. f_equal; lia.
  - intros xy (e & ab & F & <- & K). rewrite new_pair_undirected. pose proof (D _ _ F) as J. destruct (joined_range _ _ _ J) as [A B].
    apply (pe_new _ _ _ A B (proj1 J)) in J. destruct (first_exists m' _ _ _ J) as (e' & ab' & F' & E').
    exists e', ab'. split; [exact F'|]. split; [apply new_pair_new; exact E'|]. apply (bad_transported e ab e' ab' SF F F' E'). exact K.
  - intros xy' (e' & ab' & F' & <- & K'). pose proof (D' _ _ F') as J'. destruct (pe_onto _ _ _ J') as (a & b & e0 & J & E1 & E2 & _).
    destruct (first_exists m _ _ _ J) as (e & ab & F & E). exists (undirected ab). rewrite new_pair_undirected.
    assert (E' : ab' = (s (fst ab), s (snd ab)) \/ ab' = (s (snd ab), s (fst ab))) by (destruct ab' as [x y]; cbn [fst snd] in *; subst x y; destruct E as [->| ->]; cbn [fst snd]; auto).
    split; [|apply new_pair_new; exact E']. exists e, ab. split; [exact F|]. split; [reflexivity|]. apply (bad_transported e ab e' ab' SF F F' E'). exact K'.
Qed.
End Solid.
