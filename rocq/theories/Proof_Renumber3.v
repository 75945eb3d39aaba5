(** Renumbering a mesh renumbers its report: solids. *)
From Coq Require Import String Ascii List Arith NArith ZArith Bool Lia Permutation Sorted Relations.
From Verif Require Import Base BaseFacts Model_Issues Types Model_Hash Model_Adjacency Model_Colocation Model_Manifold Model_Degeneration Model_Negative
  Spec_Cycles Spec_Maps Spec_Colocation Spec_Adjacency Spec_Manifold Spec_Fans Spec_Degeneration Spec_Negative Spec_Renumber Proof_Cycles
  Proof_Colocation Proof_Adjacency Proof_Manifold Proof_Manifold2 Proof_Manifold3 Proof_Degeneration Proof_Fans Proof_Renumber.
Import ListNotations.
Open Scope list_scope.

(** ** Cycles *)
Lemma map_inj_on : forall A B (f : A -> B) a b, (forall x y, In x a -> In y b -> f x = f y -> x = y) -> map f a = map f b -> a = b.
Proof.
  intros A B f a. induction a as [|x a IH]; intros [|y b] I E; try discriminate; [reflexivity|]. cbn [map] in E. injection E as E1 E2.
  f_equal; [apply I; [left; reflexivity|left; reflexivity|exact E1]|]. apply IH; [|exact E2]. intros u v Hu Hv. apply I; right; assumption.
Qed.
Lemma oriented_map : forall A B (f : A -> B) a b, same_oriented_cycle a b -> same_oriented_cycle (map f a) (map f b).
Proof. intros A B f a b (u & v & -> & ->). exists (map f u), (map f v). rewrite !map_app. auto. Qed.
Lemma oriented_map_inv : forall A B (f : A -> B) a b, (forall x y, In x a -> In y b -> f x = f y -> x = y) ->
  same_oriented_cycle (map f a) (map f b) -> same_oriented_cycle a b.
Proof.
  intros A B f a b I (u & v & Ea & Eb). apply map_eq_app in Ea. destruct Ea as (a1 & a2 & -> & Eu & Ev).
  apply map_eq_app in Eb. destruct Eb as (b1 & b2 & -> & Fv & Fu). exists a1, a2. split; [reflexivity|].
  assert (a2 = b1).
  { apply (map_inj_on _ _ f); [|congruence]. intros x y Hx Hy. apply I; apply in_app_iff; auto. }
  assert (a1 = b2).
  { apply (map_inj_on _ _ f); [|congruence]. intros x y Hx Hy. apply I; apply in_app_iff; auto. }
  congruence.
Qed.
Lemma cycle_map : forall A B (f : A -> B) a b, same_cycle a b -> same_cycle (map f a) (map f b).
Proof. intros A B f a b [H|H]; [left|right; rewrite <- map_rev]; apply oriented_map; exact H. Qed.
Lemma cycle_map_inv : forall A B (f : A -> B) a b, (forall x y, In x a -> In y b -> f x = f y -> x = y) ->
  same_cycle (map f a) (map f b) -> same_cycle a b.
Proof.
  intros A B f a b I [H|H]; [left; apply (oriented_map_inv _ _ f); assumption|right]. rewrite <- map_rev in H.
  apply (oriented_map_inv _ _ f); [|exact H]. intros x y Hx Hy. apply I; [apply in_rev; exact Hx|exact Hy].
Qed.
Lemma same_cycle_sym : forall A (a b : list A), same_cycle a b -> same_cycle b a.
Proof.
  intros A a b [H|H]; [left; apply soc_sym; exact H|right]. apply soc_rev in H. rewrite rev_involutive in H. apply soc_sym. exact H.
Qed.
Lemma same_cycle_trans : forall A (a b c : list A), same_cycle a b -> same_cycle b c -> same_cycle a c.
Proof.
  intros A a b c [H|H] [K|K].
  - left. apply (soc_trans _ _ b); assumption.
  - right. apply soc_rev in H. apply (soc_trans _ _ (rev b)); assumption.
  - right. apply (soc_trans _ _ b); assumption.
  - left. apply soc_rev in H. rewrite rev_involutive in H. apply (soc_trans _ _ (rev b)); assumption.
Qed.
Lemma same_cycle_in : forall A (a b : list A) x, same_cycle a b -> In x b -> In x a.
Proof.
  intros A a b x [H|H] I.
  - apply (Permutation_in _ (Permutation_sym (soc_perm _ _ _ H)) I).
  - apply in_rev. apply (Permutation_in _ (Permutation_sym (soc_perm _ _ _ H)) I).
Qed.

(** ** Fans *)
Lemma connected_cases : forall A (P : A -> Prop) step x y, connected P step x y -> x = y \/ (P x /\ P y).
Proof. induction 1 as [x y (H1 & H2 & _)|x|x y _ IH|x y z _ IH1 _ IH2]; [auto|auto| |]; intuition subst; auto. Qed.
Lemma connected_map : forall A B (f : A -> B) (P : A -> Prop) (step : A -> A -> Prop) (P' : B -> Prop) (step' : B -> B -> Prop),
  (forall x, P x -> P' (f x)) -> (forall x y, P x -> P y -> step x y -> step' (f x) (f y)) ->
  forall x y, connected P step x y -> connected P' step' (f x) (f y).
Proof.
  intros A B f P step P' step' H1 H2 x y C. induction C as [x y (K1 & K2 & K3)|x|x y _ IH|x y z _ IH1 _ IH2].
  - apply rst_step. auto.
  - apply rst_refl.
  - apply rst_sym. exact IH.
  - apply (rst_trans _ _ _ (f y)); assumption.
Qed.
Lemma connected_map_inv : forall A B (f : A -> B) (P : A -> Prop) (step : A -> A -> Prop) (P' : B -> Prop) (step' : B -> B -> Prop),
  (forall x y, P x -> P y -> f x = f y -> x = y) ->
  (forall z, P' z -> exists x, P x /\ z = f x) -> (forall x y, P x -> P y -> step' (f x) (f y) -> step x y) ->
  forall u v, connected P' step' u v -> forall x y, P x -> P y -> u = f x -> v = f y -> connected P step x y.
Proof.
  intros A B f P step P' step' Hi Ho Hs u v C. induction C as [u v (K1 & K2 & K3)|u|u v _ IH|u v w C1 IH1 C2 IH2]; intros x y Px Py Eu Ev.
  - subst. apply rst_step. auto.
  - subst u. rewrite (Hi x y Px Py Ev). apply rst_refl.
  - apply rst_sym. apply IH; assumption.
  - destruct (connected_cases _ _ _ _ _ C1) as [E|(_ & K)]; [apply IH2; try assumption; congruence|].
    destruct (Ho v K) as (z & Pz & Ez). apply (rst_trans _ _ _ z); [apply IH1|apply IH2]; assumption.
Qed.
Lemma several_map : forall A B (f : A -> B) (P : A -> Prop) (step : A -> A -> Prop) (P' : B -> Prop) (step' : B -> B -> Prop),
  (forall x y, P x -> P y -> f x = f y -> x = y) -> (forall x, P x -> P' (f x)) ->
  (forall z, P' z -> exists x, P x /\ z = f x) -> (forall x y, P x -> P y -> (step' (f x) (f y) <-> step x y)) ->
  (several_fans P' step' <-> several_fans P step).
Proof.
  intros A B f P step P' step' Hi Hf Ho Hs. split.
  - intros (u & v & Pu & Pv & N). destruct (Ho u Pu) as (x & Px & ->). destruct (Ho v Pv) as (y & Py & ->). exists x, y.
    split; [exact Px|]. split; [exact Py|]. intros C. apply N. apply (connected_map _ _ f P step P' step'); [exact Hf| |exact C]. intros a b Pa Pb. apply Hs; assumption.
  - intros (x & y & Px & Py & N). exists (f x), (f y). split; [auto|]. split; [auto|]. intros C. apply N.
    apply (connected_map_inv _ _ f P step P' step' Hi Ho (fun a b Pa Pb => proj1 (Hs a b Pa Pb)) _ _ C x y Px Py eq_refl eq_refl).
Qed.

Section Solid.
Context (n : Numbering) (m m' : SolidMesh) (H : renumbered_solid n m m').
Local Notation s := (new_vertex n).
Local Notation t := (new_element n).

Lemma polyhedron_onto : forall p', p' < nb_polyhedra m' -> exists p, p < nb_polyhedra m /\ t p = p'.
Proof. intros p' Hp. rewrite (ro_nb_polyhedra _ _ _ H) in Hp. apply (numbers_onto _ _ (ro_numbers _ _ _ H) _ Hp). Qed.
Lemma polyhedron_range : forall p, p < nb_polyhedra m -> t p < nb_polyhedra m'.
Proof. intros p Hp. rewrite (ro_nb_polyhedra _ _ _ H). apply (ro_numbers _ _ _ H). exact Hp. Qed.
Lemma so_vertex_inj : forall a b, a < length (so_points m) -> b < length (so_points m) -> s a = s b -> a = b.
Proof. destruct (ro_points _ _ _ H) as (_ & N & _). apply N. Qed.
Lemma so_vertex_onto : forall v', v' < length (so_points m') -> exists v, v < length (so_points m) /\ s v = v'.
Proof. destruct (ro_points _ _ _ H) as (L & N & _). intros v' Hv. rewrite L in Hv. apply (numbers_onto _ _ N _ Hv). Qed.
Lemma pair_inj : forall e f, fst e < nb_polyhedra m -> fst f < nb_polyhedra m -> new_corner n e = new_corner n f -> e = f.
Proof.
  intros [p i] [q j] Hp Hq E. unfold new_corner in E. cbn [fst snd] in *. injection E as E1 E2.
  f_equal; [|exact E2]. apply (ro_numbers _ _ _ H); assumption.
Qed.
Lemma nb_facets_same : forall p, p < nb_polyhedra m -> length (ph_facets (polyhedron m' (t p))) = length (ph_facets (polyhedron m p)).
Proof. intros p Hp. rewrite (proj1 (ro_facets _ _ _ H p Hp)). apply map_length. Qed.
Lemma facet_new : forall f, is_polyhedron_facet m f -> is_polyhedron_facet m' (new_corner n f).
Proof.
  intros [p i] [H1 H2]. cbn [fst snd] in *. split; cbn [fst snd new_corner]; [apply polyhedron_range; exact H1|].
  rewrite nb_facets_same by exact H1. exact H2.
Qed.
Lemma facet_onto : forall f', is_polyhedron_facet m' f' -> exists f, is_polyhedron_facet m f /\ new_corner n f = f'.
Proof.
  intros [p' i] [H1 H2]. cbn [fst snd] in *. destruct (polyhedron_onto p' H1) as (p & Hp & <-). exists (p, i).
  split; [|reflexivity]. split; [exact Hp|]. cbn [fst snd]. rewrite nb_facets_same in H2 by exact Hp. exact H2.
Qed.
Lemma facet_vertices_new : forall f, is_polyhedron_facet m f -> polyhedron_facet_vertices m' (new_corner n f) = map s (polyhedron_facet_vertices m f).
Proof.
  intros [p i] [H1 H2]. cbn [fst snd] in *. unfold polyhedron_facet_vertices. cbn [fst snd new_corner].
  rewrite (proj1 (ro_facets _ _ _ H p H1)). apply nth_map_in. exact H2.
Qed.
Lemma facet_vertices_range : forall f v, is_polyhedron_facet m f -> In v (polyhedron_facet_vertices m f) -> v < length (so_points m).
Proof.
  intros [p i] v [H1 H2] I. cbn [fst snd] in *. apply (proj2 (ro_facets _ _ _ H p H1) _ v (nth_In _ [] H2)). exact I.
Qed.
Lemma facet_adjacent_new : forall f, is_polyhedron_facet m f -> so_adjacent m' (new_corner n f) = option_map t (so_adjacent m f).
Proof. intros [p i] [H1 H2]. apply (ro_adjacent _ _ _ H p i H1 H2). Qed.
Lemma facet_adjacent_range : forall f q, is_polyhedron_facet m f -> so_adjacent m f = Some q -> q < nb_polyhedra m.
Proof. intros [p i] q [H1 H2] E. apply (proj2 (ro_adjacent _ _ _ H p i H1 H2) q E). Qed.
Lemma facets_inj : forall f g, is_polyhedron_facet m f -> is_polyhedron_facet m g ->
  forall x y, In x (polyhedron_facet_vertices m f) -> In y (polyhedron_facet_vertices m g) -> s x = s y -> x = y.
Proof. intros f g Hf Hg x y Hx Hy. apply so_vertex_inj; [apply (facet_vertices_range f)|apply (facet_vertices_range g)]; assumption. Qed.
Lemma simple_facets_new : simple_facets m -> simple_facets m'.
Proof.
  intros S f' Hf'. destruct (facet_onto f' Hf') as (f & Hf & <-). rewrite facet_vertices_new by exact Hf. destruct (S f Hf) as [S1 S2].
  split; [intros E; apply map_eq_nil in E; contradiction|]. apply NoDup_map_on; [exact S2|]. apply (facets_inj f f Hf Hf).
Qed.
Lemma well_formed_new : simple_facets m -> solid_well_formed m /\ solid_well_formed m'.
Proof.
  intros S. split; (split; [|first [exact S|apply simple_facets_new; exact S]]); [exact facet_adjacent_range|].
  intros f' q' Hf' E. destruct (facet_onto f' Hf') as (f & Hf & <-). rewrite facet_adjacent_new in E by exact Hf.
  destruct (so_adjacent m f) as [q|] eqn:Eq; [|discriminate]. cbn [option_map] in E. injection E as <-. apply polyhedron_range. apply (facet_adjacent_range f q Hf Eq).
Qed.

(** ** Adjacency *)
Lemma facet_reciprocated_new : forall f q, is_polyhedron_facet m f -> q < nb_polyhedra m ->
  (facet_reciprocated m' (new_corner n f) (t q) <-> facet_reciprocated m f q).
Proof.
  intros f q Hf Hq. unfold facet_reciprocated. rewrite (facet_vertices_new f Hf), nb_facets_same by exact Hq.
  assert (K : forall i, i < length (ph_facets (polyhedron m q)) ->
    (opposite_cycle (map s (polyhedron_facet_vertices m f)) (polyhedron_facet_vertices m' (t q, i)) /\ so_adjacent m' (t q, i) = Some (t (fst f)) <->
     opposite_cycle (polyhedron_facet_vertices m f) (polyhedron_facet_vertices m (q, i)) /\ so_adjacent m (q, i) = Some (fst f))).
  { intros i Hi. assert (Hg : is_polyhedron_facet m (q, i)) by (split; assumption). change (t q, i) with (new_corner n (q, i)).
    rewrite (facet_vertices_new _ Hg), (facet_adjacent_new _ Hg). unfold opposite_cycle. rewrite <- map_rev.
    assert (E1 : same_oriented_cycle (map s (rev (polyhedron_facet_vertices m f))) (map s (polyhedron_facet_vertices m (q, i))) <->
                 same_oriented_cycle (rev (polyhedron_facet_vertices m f)) (polyhedron_facet_vertices m (q, i))).
    { split; [|apply oriented_map]. apply oriented_map_inv. intros x y Hx Hy. apply in_rev in Hx. apply (facets_inj f (q, i) Hf Hg x y Hx Hy). }
    rewrite E1. destruct (so_adjacent m (q, i)) as [p|] eqn:Ep; cbn [option_map]; [|split; intros (? & ?); discriminate].
    split; intros (A & C); (split; [exact A|]); injection C as C; [|congruence].
    f_equal. apply (ro_numbers _ _ _ H); [apply (facet_adjacent_range _ _ Hg Ep)|apply Hf|exact C]. }
  cbn [fst new_corner]. split; intros (i & Hi & R); exists i; (split; [exact Hi|]); apply K; assumption.
Qed.
Lemma wrong_facet_new : forall f, is_polyhedron_facet m f -> (wrong_facet m' (new_corner n f) <-> wrong_facet m f).
Proof.
  intros e He. unfold wrong_facet. rewrite facet_adjacent_new by exact He. split.
  - intros (_ & q' & E & R). split; [exact He|]. destruct (so_adjacent m e) as [q|] eqn:Eq; [|discriminate]. cbn [option_map] in E. injection E as <-.
    exists q. split; [reflexivity|]. intros K. apply R. apply facet_reciprocated_new; [exact He|apply (facet_adjacent_range _ _ He Eq)|exact K].
  - intros (_ & q & E & R). split; [apply facet_new; exact He|]. rewrite E. exists (t q). split; [reflexivity|]. intros K. apply R.
    apply facet_reciprocated_new in K; [exact K|exact He|apply (facet_adjacent_range _ _ He E)].
Qed.
Lemma facets_adjacency_renumbered : forall name name', simple_facets m -> exists r r', polyhedron_facets_with_wrong_adjacency name m = Ok r /\
  polyhedron_facets_with_wrong_adjacency name' m' = Ok r' /\ renumbered_issues (new_corner n) r r'.
Proof.
  intros name name' S. destruct (well_formed_new S) as [W W']. destruct (solid_adjacency_spec name m W) as (r & _ & R1 & R2 & _).
  destruct (solid_adjacency_spec name' m' W') as (r' & _ & R1' & R2' & _). exists r, r'. split; [exact R1|]. split; [exact R1'|].
  apply (transport_once _ _ (new_corner n) _ _ _ _ (exactly_once_lex _ _ R2) (exactly_once_lex _ _ R2')).
  - intros x y Hx Hy. apply pair_inj; [apply Hx|apply Hy].
  - intros x Hx. apply wrong_facet_new; [apply Hx|exact Hx].
  - intros y Hy. destruct (facet_onto y (proj1 Hy)) as (e & He & <-). exists e. split; [|reflexivity]. apply wrong_facet_new; assumption.
Qed.

(** ** Facets used more than twice *)
Lemma overused_new : forall c, overused_facet m c -> overused_facet m' (map s c).
Proof.
  intros c (f & g & h & D1 & D2 & D3 & K). exists (new_corner n f), (new_corner n g), (new_corner n h).
  assert (F : forall x, In x [f; g; h] -> fst x < nb_polyhedra m) by (intros x Hx; apply (K x Hx)).
  assert (I : forall x y, In x [f; g; h] -> In y [f; g; h] -> x <> y -> new_corner n x <> new_corner n y).
  { intros x y Hx Hy D E. apply D. apply pair_inj; auto. }
  split; [apply I; cbn; auto|]. split; [apply I; cbn; auto|]. split; [apply I; cbn; auto|].
  intros x Hx. assert (X : exists y, In y [f; g; h] /\ x = new_corner n y) by (destruct Hx as [<-|[<-|[<-|[]]]]; [exists f|exists g|exists h]; (split; [cbn; auto|reflexivity])).
  destruct X as (y & Hy & ->). destruct (K y Hy) as [K1 K2]. split; [apply facet_new; exact K1|]. rewrite facet_vertices_new by exact K1. apply cycle_map. exact K2.
Qed.
Lemma overused_back : forall c', overused_facet m' c' -> exists c, overused_facet m c /\ c' = map s c.
Proof.
  intros c' (f' & g' & h' & D1 & D2 & D3 & K).
  destruct (facet_onto f' (proj1 (K f' (or_introl eq_refl)))) as (f & Hf & <-).
  destruct (facet_onto g' (proj1 (K g' (or_intror (or_introl eq_refl))))) as (g & Hg & <-).
  destruct (facet_onto h' (proj1 (K h' (or_intror (or_intror (or_introl eq_refl)))))) as (h & Hh & <-).
  pose proof (proj2 (K _ (or_introl eq_refl))) as Cf. rewrite facet_vertices_new in Cf by exact Hf.
  assert (E : exists c, c' = map s c /\ same_cycle (polyhedron_facet_vertices m f) c).
  { assert (G : forall a b, same_oriented_cycle (map s a) b -> exists c, b = map s c /\ same_oriented_cycle a c).
    { intros a b (u & v & E1 & ->). apply map_eq_app in E1. destruct E1 as (a1 & a2 & -> & <- & <-). exists (a2 ++ a1).
      split; [rewrite map_app; reflexivity|]. exists a1, a2. auto. }
    destruct Cf as [Cf|Cf]; [|rewrite <- map_rev in Cf]; destruct (G _ _ Cf) as (c & E1 & E2); exists c; (split; [exact E1|]); [left|right]; exact E2. }
  destruct E as (c & -> & Cc). exists c. split; [|reflexivity]. exists f, g, h.
  split; [congruence|]. split; [congruence|]. split; [congruence|].
  assert (I : forall x, In x c -> x < length (so_points m)) by (intros x Hx; apply (facet_vertices_range f x Hf); apply (same_cycle_in _ _ _ _ Cc Hx)).
  assert (Q : forall x, is_polyhedron_facet m x -> In (new_corner n x) [new_corner n f; new_corner n g; new_corner n h] -> same_cycle (polyhedron_facet_vertices m x) c).
  { intros x Hx Ix. apply (cycle_map_inv _ _ s); [intros a b Ha Hb; apply so_vertex_inj; [apply (facet_vertices_range x); assumption|apply I; exact Hb]|].
    rewrite <- facet_vertices_new by exact Hx. apply (K _ Ix). }
  intros x [E|[E|[E|[]]]]; rewrite <- E; (split; [assumption|]); apply Q; cbn; auto.
Qed.
Lemma overused_range : forall c x, overused_facet m c -> In x c -> x < length (so_points m).
Proof. intros c x (f & g & h & _ & _ & _ & K) Hx. destruct (K f (or_introl eq_refl)) as [K1 K2]. apply (facet_vertices_range f x K1). apply (same_cycle_in _ _ _ _ K2 Hx). Qed.
Lemma overused_cycle : forall mm c c', same_cycle c c' -> overused_facet mm c -> overused_facet mm c'.
Proof.
  intros mm c c' S (f & g & h & D1 & D2 & D3 & K). exists f, g, h. split; [exact D1|]. split; [exact D2|]. split; [exact D3|].
  intros x Hx. destruct (K x Hx) as [K1 K2]. split; [exact K1|]. apply (same_cycle_trans _ _ c); assumption.
Qed.
Lemma choose_images : forall A B (R : A -> B -> Prop) l (l' : list B), (forall c, In c l -> exists c', In c' l' /\ R c c') ->
  exists k, Forall2 R l k /\ (forall c, In c k -> In c l').
Proof.
  intros A B R l l'. induction l as [|a l IH]; intros X; [exists []; split; [constructor|intros c []]|].
  destruct (X a (or_introl eq_refl)) as (b & I & Rb). destruct IH as (k & F & K); [intros c Hc; apply X; right; exact Hc|].
  exists (b :: k). split; [constructor; assumption|]. intros c [<-|Hc]; auto.
Qed.
Lemma images_at : forall A B (R : A -> B -> Prop) l k, Forall2 R l k ->
  length k = length l /\ (forall i a b, nth_error l i = Some a -> nth_error k i = Some b -> R a b).
Proof.
  intros A B R l k F. induction F as [|a b l k Rab F [L I]]; [split; [reflexivity|intros [|i] a b E; discriminate]|].
  split; [cbn; congruence|]. intros [|i] x y E1 E2; cbn in E1, E2; [congruence|]. apply (I i); assumption.
Qed.
Lemma represented : forall l l', represents_cycles (overused_facet m) l -> represents_cycles (overused_facet m') l' ->
  exists k, Permutation l' k /\ Forall2 (fun c c' => same_cycle (map s c) c') l k.
Proof.
  intros l l' (A1 & A2 & A3) (B1 & B2 & B3).
  assert (U : forall c d, In c l' -> In d l' -> same_cycle c d -> c = d).
  { intros c d Hc Hd S. apply In_nth_error in Hc. destruct Hc as [i Ei]. apply In_nth_error in Hd. destruct Hd as [j Ej].
    pose proof (B3 i j c d Ei Ej S). subst j. congruence. }
  destruct (choose_images _ _ (fun c c' => same_cycle (map s c) c') l l') as (k & F & K).
  { intros c Hc. apply B2. apply overused_new. apply A1. exact Hc. }
  exists k. split; [|exact F]. destruct (images_at _ _ _ _ _ F) as [L I]. apply NoDup_Permutation.
  - apply NoDup_nth_error. intros i j Hi E. destruct (nth_error l' i) as [c|] eqn:Ei; [|apply nth_error_None in Ei; lia].
    apply (B3 i j c c Ei (eq_sym E)). left. exists [], c. split; [reflexivity|rewrite app_nil_r; reflexivity].
  - apply NoDup_nth_error. intros i j Hi E. destruct (nth_error k i) as [c|] eqn:Ei; [|apply nth_error_None in Ei; lia]. symmetry in E.
    assert (Hj : j < length k) by (apply nth_error_Some; congruence).
    destruct (nth_error l i) as [a|] eqn:Ea; [|apply nth_error_None in Ea; lia]. destruct (nth_error l j) as [b|] eqn:Eb; [|apply nth_error_None in Eb; lia].
    apply (A3 i j a b Ea Eb). pose proof (I i a c Ea Ei) as R1. pose proof (I j b c Eb E) as R2.
    apply (cycle_map_inv _ _ s).
    + intros x y Hx Hy. apply so_vertex_inj; [apply (overused_range a)|apply (overused_range b)]; try assumption; apply A1; [apply (nth_error_In _ _ Ea)|apply (nth_error_In _ _ Eb)].
    + apply (same_cycle_trans _ _ c); [exact R1|apply same_cycle_sym; exact R2].
  - intros c'. split; [|apply K]. intros Hc'. destruct (overused_back c' (B1 c' Hc')) as (c0 & O & ->). destruct (A2 c0 O) as (c & Hc & S).
    apply In_nth_error in Hc. destruct Hc as [i Ei]. destruct (nth_error k i) as [d|] eqn:Ed; [|apply nth_error_None in Ed; assert (i < length l) by (apply nth_error_Some; congruence); lia].
    pose proof (nth_error_In _ _ Ed) as Hd. rewrite (U (map s c0) d Hc' (K d Hd)); [exact Hd|].
    apply (same_cycle_trans _ _ (map s c)); [apply cycle_map; exact S|apply (I i c d Ei Ed)].
Qed.
Lemma all_facets_renumbered : Permutation (all_polyhedron_facets m') (map (new_corner n) (all_polyhedron_facets m)).
Proof.
  apply (transport_once _ _ (new_corner n) (is_polyhedron_facet m) (is_polyhedron_facet m')).
  - split; [apply sorted_lex_NoDup; apply all_polyhedron_facets_sorted|apply in_all_polyhedron_facets].
  - split; [apply sorted_lex_NoDup; apply all_polyhedron_facets_sorted|apply in_all_polyhedron_facets].
  - intros x y Hx Hy. apply pair_inj; [apply Hx|apply Hy].
  - apply facet_new.
  - intros y Hy. destruct (facet_onto y Hy) as (x & Hx & <-). eauto.
Qed.
Lemma facets_renumbered : forall ho ho', simple_facets m -> below_2_32 (length (all_polyhedron_facets m)) ->
  renumbered_facet_issues n (solid_non_manifold_facets ho m) (solid_non_manifold_facets ho' m').
Proof.
  intros ho ho' S B. assert (B' : below_2_32 (length (all_polyhedron_facets m'))).
  { rewrite (Permutation_length all_facets_renumbered), map_length. exact B. }
  apply represented; [apply (solid_facets_spec ho ho m S B)|apply (solid_facets_spec ho' ho' m' (simple_facets_new S) B')].
Qed.

(** ** Vertices *)
Lemma so_corner_new : forall v c, v < length (so_points m) -> fst c < nb_polyhedra m -> (solid_corner m' (s v) (new_corner n c) <-> solid_corner m v c).
Proof.
  intros v [p i] Hv Hp. unfold solid_corner. cbn [fst snd new_corner] in *. destruct (ro_vertices _ _ _ H p Hp) as [P1 P2]. rewrite P1, nth_error_map.
  pose proof (polyhedron_range p Hp) as Hp'. destruct (nth_error (ph_vertices (polyhedron m p)) i) as [w|] eqn:E; cbn [option_map].
  - split; intros [_ K]; (split; [assumption|]); injection K as K; [|congruence]. f_equal. apply so_vertex_inj; [apply P2; apply (nth_error_In _ _ E)|exact Hv|exact K].
  - split; intros [_ K]; discriminate.
Qed.
Lemma so_corner_onto : forall v c', v < length (so_points m) -> solid_corner m' (s v) c' -> exists c, solid_corner m v c /\ c' = new_corner n c.
Proof.
  intros v [p' i] Hv K. destruct (polyhedron_onto p' (proj1 K)) as (p & Hp & <-). exists (p, i). split; [|reflexivity].
  apply (so_corner_new v (p, i) Hv Hp). exact K.
Qed.
Lemma lists_once_perm' : forall A (P : A -> Prop) l l', Permutation l l' -> lists_once P l -> lists_once P l'.
Proof. intros A P l l' E [N L]. split; [apply (Permutation_NoDup E N)|]. intros x. rewrite <- L. split; apply Permutation_in; [symmetry|]; exact E. Qed.
Lemma so_corners_new : forall v l l', v < length (so_points m) -> Permutation l' (map (new_corner n) l) -> (forall p e, In (p, e) l -> p < nb_polyhedra m) ->
  (lists_once (solid_corner m' (s v)) l' <-> lists_once (solid_corner m v) l).
Proof.
  intros v l l' Hv P R. split.
  - intros K. apply (lists_once_perm' _ _ _ _ P) in K. destruct K as [N L]. split; [apply NoDup_map_inv in N; exact N|]. intros c. split.
    + intros I. pose proof (proj1 (L (new_corner n c)) (in_map _ _ _ I)) as C. destruct (so_corner_onto v _ Hv C) as (d & D & E).
      apply pair_inj in E; [subst d; exact D|destruct c as [p e]; apply (R p e I)|apply D].
    + intros C. assert (I : In (new_corner n c) (map (new_corner n) l)) by (apply L; apply so_corner_new; [exact Hv|apply C|exact C]).
      apply in_map_iff in I. destruct I as ([p e] & E & I). apply pair_inj in E; [subst c; exact I|apply (R p e I)|apply C].
  - intros L. apply (lists_once_perm' _ _ _ _ (Permutation_sym P)). apply (lists_once_map _ _ _ _ _ _ L).
    + intros x y Hx Hy. apply pair_inj; [apply Hx|apply Hy].
    + intros x Hx. apply so_corner_new; [exact Hv|apply Hx|exact Hx].
    + intros y Hy. apply so_corner_onto; assumption.
Qed.
Lemma so_vertex_bad_new : forall v, v < length (so_points m) -> (solid_non_manifold_vertex m' (s v) <-> solid_non_manifold_vertex m v).
Proof.
  intros v Hv. destruct (ro_points _ _ _ H) as (L & [N _] & _). destruct (ro_around _ _ _ H v Hv) as [A R]. unfold solid_non_manifold_vertex. rewrite L.
  destruct (so_around_vertex m v) as [fan|x|] eqn:E; destruct (so_around_vertex m' (s v)) as [fan'|x'|] eqn:E'; cbn in A; try contradiction.
  - assert (R' : forall p e, In (p, e) fan -> p < nb_polyhedra m) by (intros p e; apply (R fan p e eq_refl)).
    split; intros (_ & f & Ef & K); injection Ef as <-; [split; [exact Hv|]; exists fan|split; [apply N; exact Hv|]; exists fan']; (split; [reflexivity|]);
      intros Q; apply K; apply (so_corners_new v fan fan' Hv A R'); exact Q.
  - split; intros (_ & f & Ef & _); discriminate.
  - split; intros (_ & f & Ef & _); discriminate.
Qed.
Lemma so_vertices_renumbered : forall geo geo',
  (forall v, v < length (so_points m) -> exists fan, so_around_vertex m v = Ok fan) ->
  exists r r', solid_non_manifold_vertices geo m = Ok r /\ solid_non_manifold_vertices geo' m' = Ok r' /\ renumbered_issues s r r'.
Proof.
  intros geo geo' Ha. destruct (ro_points _ _ _ H) as (L & N & _).
  assert (V : solid_vertices_in_range m).
  { intros [p i] v [Hp E]. cbn [fst snd] in *. apply (proj2 (ro_vertices _ _ _ H p Hp) v (nth_error_In _ _ E)). }
  assert (V' : solid_vertices_in_range m').
  { intros [p' i] v' [Hp E]. cbn [fst snd] in *. destruct (polyhedron_onto p' Hp) as (p & Hp1 & <-). destruct (ro_vertices _ _ _ H p Hp1) as [P1 P2].
    rewrite P1 in E. apply nth_error_In in E. apply in_map_iff in E. destruct E as (v & <- & I). rewrite L. apply N. apply P2. exact I. }
  assert (Ha' : forall v, v < length (so_points m') -> exists fan, so_around_vertex m' v = Ok fan).
  { intros v' Hv'. destruct (so_vertex_onto v' Hv') as (v & Hv & <-). destruct (ro_around _ _ _ H v Hv) as [A _].
    destruct (Ha v Hv) as [fan E]; rewrite E in A; destruct (so_around_vertex m' (s v)) as [fan'|x'|]; cbn in A; try contradiction; eauto. }
  destruct (solid_vertices_spec geo m V Ha) as (r & _ & R1 & R2 & _).
  destruct (solid_vertices_spec geo' m' V' Ha') as (r' & _ & R1' & R2' & _). exists r, r'. split; [exact R1|]. split; [exact R1'|].
  apply (transport_range s (length (so_points m)) _ _ _ _ N R2 R2').
  - intros x Hx. apply Hx.
  - intros x Hx. rewrite <- L. apply Hx.
  - apply so_vertex_bad_new.
Qed.

(** ** Polyhedra *)
Lemma flat_polyhedra_renumbered : renumbered_issues t (degenerated_polyhedra m) (degenerated_polyhedra m').
Proof.
  apply (transport_range t (nb_polyhedra m) _ _ _ _ (ro_numbers _ _ _ H) (flat_polyhedra_spec m _) (flat_polyhedra_spec m' _)).
  - intros x Hx. apply Hx.
  - intros x Hx. rewrite <- (ro_nb_polyhedra _ _ _ H). apply Hx.
  - intros x Hx. unfold flat_polyhedron. rewrite (ro_height _ _ _ H x Hx). pose proof (polyhedron_range x Hx). tauto.
Qed.
Lemma polyhedron_at : forall mm p, p < nb_polyhedra mm -> nth_error (so_polyhedra mm) p = Some (polyhedron mm p).
Proof. intros mm p Hp. apply nth_error_nth'. exact Hp. Qed.
Lemma polyhedron_points : polyhedron_points_exist m /\ polyhedron_points_exist m'.
Proof.
  split; intros ph v I J; apply In_nth with (d := mkPolyhedron [] [] []) in I; destruct I as (p & Hp & E); rewrite <- E in J.
  - apply (proj2 (ro_vertices _ _ _ H p Hp) v J).
  - destruct (polyhedron_onto p Hp) as (q & Hq & <-). destruct (ro_vertices _ _ _ H q Hq) as [P1 P2]. change (In v (ph_vertices (polyhedron m' (t q)))) in J. rewrite P1 in J.
    apply in_map_iff in J. destruct J as (w & <- & J). destruct (ro_points _ _ _ H) as (L & [N _] & _). rewrite L. apply N. apply P2. exact J.
Qed.
Lemma negative_polyhedron_new : forall ms p, p < nb_polyhedra m -> (negative_polyhedron ms m' (t p) <-> negative_polyhedron ms m p).
Proof.
  intros ms p Hp. unfold negative_polyhedron. rewrite (polyhedron_at m p Hp), (polyhedron_at m' (t p) (polyhedron_range p Hp)).
  destruct (ro_vertices _ _ _ H p Hp) as [P1 P2]. pose proof (points_at n _ _ (ph_vertices (polyhedron m p)) (ro_points _ _ _ H) P2) as E. rewrite (ro_volume _ _ _ H p Hp).
  split; intros (ph & A & B); injection A as <-; eexists; (split; [reflexivity|]); rewrite P1 in *.
  - destruct B as [(a & b & c & d & pa & pb & pc & pd & V & Q & X)|[B X]]; [left|right; rewrite map_length in B; auto].
    destruct (ph_vertices (polyhedron m p)) as [|v0 [|v1 [|v2 [|v3 [|v4 vs]]]]]; try discriminate. cbn [map] in V. injection V as <- <- <- <-.
    cbn [map] in E, Q. rewrite E in Q. exists v0, v1, v2, v3, pa, pb, pc, pd. auto.
  - destruct B as [(a & b & c & d & pa & pb & pc & pd & V & Q & X)|[B X]]; [left|right; rewrite map_length; auto].
    rewrite V in *. exists (s a), (s b), (s c), (s d), pa, pb, pc, pd. split; [reflexivity|]. split; [|exact X]. cbn [map] in *. rewrite E. exact Q.
Qed.
Lemma negative_polyhedra_renumbered : forall ms, renumbered_issues t (negative_polyhedra ms m) (negative_polyhedra ms m').
Proof.
  intros ms. destruct polyhedron_points as [X X'].
  apply (transport_range t (nb_polyhedra m) _ _ _ _ (ro_numbers _ _ _ H) (proj1 (solid_negative_spec ms m X)) (proj1 (solid_negative_spec ms m' X'))).
  - intros x (ph & E & _). apply nth_error_Some. congruence.
  - intros x (ph & E & _). rewrite <- (ro_nb_polyhedra _ _ _ H). apply nth_error_Some. congruence.
  - apply negative_polyhedron_new.
Qed.
End Solid.
