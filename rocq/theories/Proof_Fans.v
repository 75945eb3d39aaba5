From Coq Require Import String Ascii List Arith NArith ZArith Bool Lia Sorted Permutation Relations.
From Verif Require Import Base BaseFacts Model_Issues Types Model_Colocation Model_Cycles Model_Hash Model_Manifold
  Spec_Colocation Spec_Maps Spec_Cycles Spec_Adjacency Spec_Manifold Spec_Fans
  Proof_Adjacency Proof_Hash Proof_Manifold Proof_Manifold2 Proof_Manifold3.
Import ListNotations.
Open Scope list_scope.

Lemma connected_sym : forall A (P : A -> Prop) step x y, connected P step x y -> connected P step y x.
Proof. intros. apply rst_sym. assumption. Qed.
Lemma connected_trans : forall A (P : A -> Prop) step x y z, connected P step x y -> connected P step y z -> connected P step x z.
Proof. intros. eapply rst_trans; eassumption. Qed.

(** either all the elements of [all] with [P] are in [fan], or one is not *)
Lemma missing_or_all : forall A (dec : forall x y : A, {x = y} + {x <> y}) (P : A -> Prop) (all fan : list A),
  (forall x, In x all -> P x) -> (forall x, In x all -> In x fan) \/ exists x, P x /\ ~ In x fan.
Proof.
  intros A dec P all fan H. induction all as [|a all IH]; [left; intros x []|].
  destruct IH as [IH|IH]; [intros x Hx; apply H; right; exact Hx| |right; exact IH].
  destruct (in_dec dec a fan) as [K|K]; [left; intros x [<-|Hx]; auto|right]. exists a. split; [apply H; left; reflexivity|exact K].
Qed.
Lemma one_fan_complete : forall A (dec : forall x y : A, {x = y} + {x <> y}) (P : A -> Prop) step all fan,
  (forall x, In x all <-> P x) -> one_fan P step fan -> (~ lists_once P fan <-> several_fans P step).
Proof.
  intros A dec P step all fan Ha [[Hn ->]|(x0 & H0 & Hd & Hf)].
  - split.
    + intros H. destruct H. split; [constructor|]. intros x. split; [intros []|intros K; exact (Hn x K)].
    + intros (x & y & K & _). destruct (Hn x K).
  - split.
    + intros H. destruct (missing_or_all A dec P all fan) as [K|(x & K1 & K2)]; [intros x; apply Ha| |].
      * destruct H. split; [exact Hd|]. intros x. split; [intros Q; apply Hf in Q; apply Q|intros Q; apply K, Ha, Q].
      * exists x0, x. split; [exact H0|]. split; [exact K1|]. intros Q. apply K2, Hf. split; assumption.
    + intros (x & y & Hx & Hy & Hxy) [_ H]. apply Hxy.
      apply connected_trans with x0; [apply connected_sym|]; apply Hf, H; assumption.
Qed.
Definition pair_dec : forall x y : nat * nat, {x = y} + {x <> y}.
Proof. decide equality; apply Nat.eq_dec. Defined.

Lemma surface_corners_listed : forall m v, exists all, forall c, In c all <-> surface_corner m v c.
Proof.
  intros m v. exists (filter (fun c => Nat.eqb (polygon_vertex m c) v) (all_polygon_edges m)). intros c.
  rewrite filter_In, in_all_polygon_edges, Nat.eqb_eq. reflexivity.
Qed.
Lemma solid_corners_listed : forall m v, exists all, forall c, In c all <-> solid_corner m v c.
Proof.
  intros m v. exists (filter (fun c => Nat.eqb (polyhedron_vertex m c) v) (all_polyhedron_vertices m)). intros c.
  rewrite filter_In, Nat.eqb_eq, flat_pairs_nth. reflexivity.
Qed.
Lemma lists_exactly_iff : forall A (R : A -> A -> Prop) P Q l, (forall x, P x <-> Q x) -> lists_exactly R P l -> lists_exactly R Q l.
Proof. intros A R P Q l H [H1 H2]. split; [exact H1|]. intros x. rewrite H2. apply H. Qed.

Lemma surface_vertices_fans : forall geo m, surface_vertices_in_range m -> turns_around_surface_vertices m ->
  (forall v, v < length (sm_points m) -> sm_around_vertex m v = Throw OpenGeodeExn \/ exists fan, sm_around_vertex m v = Ok fan) ->
  exists r b, surface_non_manifold_vertices geo m = Ok r /\
    lists_exactly lt (fun v => surface_vertex_with_several_fans m v /\ exists fan, sm_around_vertex m v = Ok fan) (ii_issues r) /\
    surface_vertices_are_manifold m = Ok b /\ (b = true <-> ii_issues r = []).
Proof.
  intros geo m Hr Ht Ha. destruct (surface_vertices_spec geo m Hr Ha) as (r & b & H1 & H2 & H3). exists r, b.
  split; [exact H1|]. split; [|exact H3]. eapply lists_exactly_iff; [|exact H2]. intros v. cbv beta.
  destruct (surface_corners_listed m v) as [all Hall]. split.
  - intros (Hv & fan & Hf & Hn). split; [|eauto]. split; [exact Hv|].
    apply (one_fan_complete _ pair_dec _ _ all fan Hall (Ht v fan Hv Hf)). exact Hn.
  - intros ((Hv & Hs) & fan & Hf). split; [exact Hv|]. exists fan. split; [exact Hf|].
    apply (one_fan_complete _ pair_dec _ _ all fan Hall (Ht v fan Hv Hf)). exact Hs.
Qed.

Lemma solid_vertices_fans : forall geo m, solid_vertices_in_range m -> turns_around_solid_vertices m ->
  (forall v, v < length (so_points m) -> exists fan, so_around_vertex m v = Ok fan) ->
  exists r b, solid_non_manifold_vertices geo m = Ok r /\
    lists_exactly lt (solid_vertex_with_several_fans m) (ii_issues r) /\
    solid_vertices_are_manifold m = Ok b /\ (b = true <-> ii_issues r = []).
Proof.
  intros geo m Hr Ht Ha. destruct (solid_vertices_spec geo m Hr Ha) as (r & b & H1 & H2 & H3). exists r, b.
  split; [exact H1|]. split; [|exact H3]. eapply lists_exactly_iff; [|exact H2]. intros v.
  destruct (solid_corners_listed m v) as [all Hall]. split.
  - intros (Hv & fan & Hf & Hn). split; [exact Hv|].
    apply (one_fan_complete _ pair_dec _ _ all fan Hall (Ht v fan Hv Hf)). exact Hn.
  - intros (Hv & Hs). split; [exact Hv|]. destruct (Ha v Hv) as [fan Hf]. exists fan. split; [exact Hf|].
    apply (one_fan_complete _ pair_dec _ _ all fan Hall (Ht v fan Hv Hf)). exact Hs.
Qed.

(** ** Solid edges *)
Lemma turns_contract : forall m, turns_around_solid_edges m -> around_edge_contract m.
Proof. intros m H e ab F. destruct (H e ab F) as [K|(fan & K & Kn & _)]; [left; exact K|right; eauto]. Qed.
Lemma map_fst_nodup : forall m a b (l : list (nat * nat)), simple_edges m -> NoDup l ->
  (forall e, In e l -> polyhedron_edge_joins m a b e) -> NoDup (map fst l).
Proof.
  intros m a b l Hs Hn Hl. induction Hn as [|e l H1 H2 IH]; [constructor|]. cbn [map]. constructor.
  - intros K. apply in_map_iff in K. destruct K as (e' & E & K). apply H1. destruct e as [p i], e' as [p' j]. cbn in E. subst p'.
    rewrite (Hs a b p i j); [exact K|apply Hl; left; reflexivity|apply Hl; right; exact K].
  - apply IH. intros x Hx. apply Hl. right. exact Hx.
Qed.
Lemma complete_fan_polyhedra : forall m e ab fan, simple_edges m -> first_occurrence m e ab ->
  (complete_fan m ab fan <-> lists_once (uses_edge m ab) fan).
Proof.
  intros m e ab fan Hs F. apply first_occurrence_iff in F. destruct F as [F ->]. apply firsts_incl in F.
  set (ab := polyhedron_edge_vertices m e) in *.
  assert (L : exists l, lists_once (polyhedron_edge_joins m (fst ab) (snd ab)) l).
  { pose proof (proj2 (complete_fan_iff m e (map fst (with_key pair_eqb (pekey m) (pekey m e) (all_polyhedron_edges m))) F)
      (Permutation_refl _)) as (l & Hl & _). exists l. exact Hl. }
  destruct L as [l Hl]. assert (U : lists_once (uses_edge m ab) (map fst l)).
  { split; [apply (map_fst_nodup m (fst ab) (snd ab)); [exact Hs|apply Hl|intros x Hx; apply Hl; exact Hx]|].
    intros p. rewrite in_map_iff. split.
    - intros ([q i] & <- & K). exists i. apply Hl in K. exact K.
    - intros [i K]. exists (p, i). split; [reflexivity|]. apply Hl. exact K. }
  split.
  - intros (l' & Hl' & Hp). assert (P : Permutation fan (map fst l)).
    { etransitivity; [exact Hp|]. apply Permutation_map. apply (lists_once_perm _ _ _ _ Hl' Hl). }
    split; [apply (Permutation_NoDup (Permutation_sym P)), U|]. intros p. rewrite <- (proj2 U). split; apply Permutation_in; [exact P|symmetry; exact P].
  - intros H. exists l. split; [exact Hl|]. apply (lists_once_perm _ _ _ _ H U).
Qed.
Lemma uses_edge_listed : forall m e ab, simple_edges m -> first_occurrence m e ab -> exists all, forall p, In p all <-> uses_edge m ab p.
Proof.
  intros m e ab Hs F. pose proof F as F'. apply first_occurrence_iff in F. destruct F as [F E]. apply firsts_incl in F.
  pose proof (proj2 (complete_fan_iff m e _ F) (Permutation_refl _)) as K. rewrite <- E in K.
  apply (complete_fan_polyhedra m e ab _ Hs F') in K. eexists. apply K.
Qed.
Lemma unfinished_fans : forall m eab, simple_edges m -> turns_around_solid_edges m ->
  (failed_edge m eab \/ unfinished_edge m eab <->
   first_occurrence m (fst eab) (snd eab) /\
   (so_around_edge m (snd eab) (fst (fst eab)) = Throw OpenGeodeExn \/
    (so_around_edge m (snd eab) (fst (fst eab)) <> Throw OpenGeodeExn /\ solid_edge_with_several_fans m eab))).
Proof.
  intros m [e ab] Hs Ht. unfold failed_edge, unfinished_edge, solid_edge_with_several_fans. cbn [fst snd].
  assert (Q : first_occurrence m e ab -> forall fan, so_around_edge m ab (fst e) = Ok fan ->
    (~ complete_fan m ab fan <-> several_fans (uses_edge m ab) (crosses_facet_at m [fst ab; snd ab]))).
  { intros F fan E. destruct (uses_edge_listed m e ab Hs F) as [all Hall].
    destruct (Ht e ab F) as [K|(fan' & K & Kl)]; [congruence|]. assert (fan' = fan) by congruence. subst fan'.
    rewrite (complete_fan_polyhedra m e ab fan Hs F). apply (one_fan_complete _ Nat.eq_dec _ _ all fan Hall). right.
    exists (fst e). split; [|exact Kl]. destruct F as (F1 & F2 & _). exists (snd e). split; [exact F1|]. left.
    destruct ab. exact F2. }
  split.
  - intros [[F E]|(F & fan & E & Hn)]; (split; [exact F|]); [left; exact E|right]. split; [congruence|]. split; [exact F|].
    apply (Q F fan E). exact Hn.
  - intros [F [E|(E & _ & K)]]; [left; split; assumption|right]. split; [exact F|].
    destruct (Ht e ab F) as [T|(fan & T & _)]; [congruence|]. exists fan. split; [exact T|]. apply (Q F fan T). exact K.
Qed.
Lemma solid_edges_fans : forall m, simple_edges m -> turns_around_solid_edges m ->
  exists r el, solid_non_manifold_edges m = Ok r /\ ii_issues r = map snd el /\
    lists_exactly (fun x y => lex_lt (fst x) (fst y)) (fun eab => failed_edge m eab \/
      (solid_edge_with_several_fans m eab /\ exists fan, so_around_edge m (snd eab) (fst (fst eab)) = Ok fan)) el.
Proof.
  intros m Hs Ht. destruct (solid_edges_spec m (turns_contract m Ht)) as (r & H1 & el & H2 & H3). exists r, el.
  split; [exact H1|]. split; [exact H2|]. eapply lists_exactly_iff; [|exact H3]. intros eab. cbv beta.
  rewrite (unfinished_fans m eab Hs Ht). unfold failed_edge. split.
  - intros [F [E|(E & K)]]; [left; split; assumption|right; split; [exact K|]].
    destruct (Ht _ _ F) as [T|(fan & T & _)]; [congruence|eauto].
  - intros [[F E]|(K & fan & E)]; [auto|]. split; [apply K|]. right. split; [congruence|exact K].
Qed.
Lemma solid_edges_fans_bool : forall m, simple_edges m -> turns_around_solid_edges m -> (forall eab, ~ failed_edge m eab) ->
  exists b, solid_edges_are_manifold m = Ok b /\ (b = true <-> forall eab, ~ solid_edge_with_several_fans m eab).
Proof.
  intros m Hs Ht Hf. destruct (solid_edges_bool m (turns_contract m Ht) Hf) as (r & b & H1 & H2 & H3).
  destruct (solid_edges_fans m Hs Ht) as (r' & el & K1 & K2 & _ & K3). assert (r' = r) by congruence. subst r'.
  exists b. split; [exact H2|]. rewrite H3, K2. split.
  - intros E [e ab] S. destruct el as [|]; [|discriminate E]. apply (K3 (e, ab)). right. split; [exact S|].
    destruct S as [F _]. destruct (Ht _ _ F) as [T|(fan & T & _)]; [destruct (Hf (e, ab)); split; assumption|eauto].
  - intros H. destruct el as [|x el]; [reflexivity|]. exfalso. destruct (proj1 (K3 x)) as [Q|[Q _]]; [left; reflexivity| |].
    + exact (Hf x Q).
    + exact (H x Q).
Qed.

(** ** Independence of the starting points *)
Lemma surface_start : forall geo m m', same_surface_but_turns m m' -> surface_vertices_in_range m ->
  turns_around_surface_vertices m -> turns_around_surface_vertices m' ->
  (forall v, v < length (sm_points m) -> sm_around_vertex m v = Throw OpenGeodeExn \/ exists fan, sm_around_vertex m v = Ok fan) ->
  exists r r', surface_non_manifold_vertices geo m = Ok r /\ surface_non_manifold_vertices geo m' = Ok r' /\
    ii_issues r' = ii_issues r /\ surface_vertices_are_manifold m' = surface_vertices_are_manifold m.
Proof.
  intros geo m m' (E1 & E2 & E3 & E4) Hr Ht Ht' Ha.
  assert (Hr' : surface_vertices_in_range m').
  { unfold surface_vertices_in_range, is_polygon_edge, nb_polygons, nb_polygon_edges, polygon_vertex, polygon_vertices in *.
    rewrite E1, E2. exact Hr. }
  assert (Ha' : forall v, v < length (sm_points m') -> sm_around_vertex m' v = Throw OpenGeodeExn \/ exists fan, sm_around_vertex m' v = Ok fan).
  { intros v Hv. rewrite E1 in Hv. destruct (Ha v Hv) as [K|K]; [left|right]; apply (E4 v Hv); exact K. }
  destruct (surface_vertices_fans geo m Hr Ht Ha) as (r & b & H1 & H2 & H3 & H4).
  destruct (surface_vertices_fans geo m' Hr' Ht' Ha') as (r' & b' & K1 & K2 & K3 & K4).
  assert (E : ii_issues r' = ii_issues r).
  { apply (lists_exactly_unique _ lt _ _ _ Nat.lt_irrefl Nat.lt_trans K2). eapply lists_exactly_iff; [|exact H2].
    intros v. cbv beta. assert (S : surface_vertex_with_several_fans m v <-> surface_vertex_with_several_fans m' v).
    { unfold surface_vertex_with_several_fans, surface_corner, crosses_edge_at, is_polygon_edge, nb_polygons, nb_polygon_edges,
        polygon_edge_vertex0, polygon_edge_vertex1, nb_polygon_edges, polygon_vertex, polygon_vertices. rewrite E1, E2, E3. reflexivity. }
    split; intros [Q1 Q2]; (split; [apply S; exact Q1|]); apply (E4 v); try exact Q2; [apply Q1|rewrite <- E1; apply Q1]. }
  exists r, r'. split; [exact H1|]. split; [exact K1|]. split; [exact E|]. rewrite H3, K3. f_equal.
  apply eq_true_iff_eq. rewrite H4, K4, E. reflexivity.
Qed.
Lemma solid_start : forall geo m m', same_solid_but_turns m m' -> solid_vertices_in_range m ->
  turns_around_solid_vertices m -> turns_around_solid_vertices m' ->
  (forall v, v < length (so_points m) -> (exists fan, so_around_vertex m v = Ok fan) /\ exists fan, so_around_vertex m' v = Ok fan) ->
  exists r r', solid_non_manifold_vertices geo m = Ok r /\ solid_non_manifold_vertices geo m' = Ok r' /\
    ii_issues r' = ii_issues r /\ solid_vertices_are_manifold m' = solid_vertices_are_manifold m.
Proof.
  intros geo m m' (E1 & E2 & E3) Hr Ht Ht' Ha.
  assert (Hr' : solid_vertices_in_range m').
  { unfold solid_vertices_in_range, solid_corner, nb_polyhedra, polyhedron in *. rewrite E1, E2. exact Hr. }
  destruct (solid_vertices_fans geo m Hr Ht (fun v Hv => proj1 (Ha v Hv))) as (r & b & H1 & H2 & H3 & H4).
  destruct (solid_vertices_fans geo m' Hr' Ht') as (r' & b' & K1 & K2 & K3 & K4); [intros v Hv; rewrite E1 in Hv; apply Ha, Hv|].
  assert (E : ii_issues r' = ii_issues r).
  { apply (lists_exactly_unique _ lt _ _ _ Nat.lt_irrefl Nat.lt_trans K2). eapply lists_exactly_iff; [|exact H2].
    intros v. unfold solid_vertex_with_several_fans, solid_corner, crosses_facet_at, is_polyhedron_facet, polyhedron_facet_vertices, nb_polyhedra, polyhedron.
    rewrite E1, E2, E3. reflexivity. }
  exists r, r'. split; [exact H1|]. split; [exact K1|]. split; [exact E|]. rewrite H3, K3. f_equal.
  apply eq_true_iff_eq. rewrite H4, K4, E. reflexivity.
Qed.
