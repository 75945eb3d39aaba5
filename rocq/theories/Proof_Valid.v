(** Validity of single meshes. *)
From Coq Require Import String Ascii List Arith NArith ZArith Bool Lia Permutation Sorted Floats.SpecFloat.
From Verif Require Import Base BaseFacts Model_Issues Types Model_Cycles Model_Hash Model_Colocation Model_Adjacency Model_Manifold Model_Degeneration Model_Negative Model_Intersections
  Model_Topology Model_Results Model_Validity Spec_Colocation Spec_Maps Spec_Cycles Spec_Adjacency Spec_Manifold Spec_Degeneration Spec_Negative Spec_Intersections Spec_Results Spec_Valid
  Proof_Cycles Proof_Colocation Proof_Adjacency Proof_Manifold Proof_Manifold2 Proof_Degeneration Proof_Intersections Proof_Intersections2 Proof_Results
  Properties_Colocation Properties_Adjacency Properties_Manifold Properties_Degeneration Properties_Intersections Properties_Results.
Import ListNotations.
Open Scope list_scope.

(** ** Decidability *)
Lemma bounded_dec : forall n (P : nat -> Prop), (forall i, i < n -> P i \/ ~ P i) -> (exists i, i < n /\ P i) \/ ~ (exists i, i < n /\ P i).
Proof.
  induction n as [|n IH]; intros P D; [right; intros (i & H & _); lia|].
  destruct (IH P (fun i H => D i (Nat.lt_trans _ _ _ H (Nat.lt_succ_diag_r n)))) as [(i & H & K)|N]; [left; exists i; split; [lia|exact K]|].
  destruct (D n (Nat.lt_succ_diag_r n)) as [K|K]; [left; exists n; split; [lia|exact K]|]. right. intros (i & H & Q).
  destruct (Nat.eq_dec i n) as [->|]; [contradiction|]. apply N. exists i. split; [lia|exact Q].
Qed.
Lemma option_nat_dec : forall a b : option nat, a = b \/ a <> b.
Proof. intros [a|] [b|]; try (right; discriminate); try (left; reflexivity). destruct (Nat.eq_dec a b) as [->|]; [left; reflexivity|right; congruence]. Qed.
Lemma and_dec : forall P Q, P \/ ~ P -> Q \/ ~ Q -> (P /\ Q) \/ ~ (P /\ Q).
Proof. tauto. Qed.
Lemma edge_reciprocated_dec : forall m e q, edge_reciprocated m e q \/ ~ edge_reciprocated m e q.
Proof.
  intros m e q. apply bounded_dec. intros i _. repeat apply and_dec; try apply option_nat_dec;
    match goal with |- ?a = ?b \/ _ => destruct (Nat.eq_dec a b); [left|right]; assumption end.
Qed.
Lemma facet_reciprocated_dec : forall m f q, polyhedron_facet_vertices m f <> [] -> NoDup (polyhedron_facet_vertices m f) ->
  facet_reciprocated m f q \/ ~ facet_reciprocated m f q.
Proof.
  intros m f q N D. apply bounded_dec. intros i _. apply and_dec; [|apply option_nat_dec].
  rewrite <- is_opposite_iff by assumption. destruct (is_opposite _ _); [left|right]; congruence.
Qed.
Lemma lists_once_dec : forall (P : nat * nat -> Prop) l0 l, lists_once P l0 -> lists_once P l \/ ~ lists_once P l.
Proof.
  intros P l0 l H. rewrite <- (around_same_iff tt P l0 l eq_refl H). destruct (around_are_the_same l0 l); [left|right]; congruence.
Qed.

(** ** Reports *)
Lemma none_listed : forall A (R : A -> A -> Prop) P l, lists_exactly R P l -> (l = [] <-> forall x, ~ P x).
Proof.
  intros A R P l [_ H]. split.
  - intros -> x K. apply (proj2 (H x) K).
  - intros N. destruct l as [|x l]; [reflexivity|]. exfalso. apply (N x), H. left. reflexivity.
Qed.
Lemma none_listed_once : forall A (P : A -> Prop) l, lists_once P l -> (l = [] <-> forall x, ~ P x).
Proof.
  intros A P l [_ H]. split.
  - intros -> x K. apply (proj2 (H x) K).
  - intros N. destruct l as [|x l]; [reflexivity|]. exfalso. apply (N x), H. left. reflexivity.
Qed.
Lemma none_colocated : forall geo points l, colocation_groups (g_colocated geo points) l -> (l = [] <-> points_apart geo points).
Proof.
  intros geo points l H. split.
  - intros -> i j N S. apply (cg_pairs _ _ H i j N) in S as (g & [] & _).
  - intros A. destruct l as [|g l]; [reflexivity|]. exfalso. pose proof (cg_size _ _ H g (or_introl eq_refl)) as L. pose proof (cg_sorted _ _ H g (or_introl eq_refl)) as S.
    destruct g as [|i [|j g]]; cbn in L; try lia. assert (N : i <> j).
    { inversion S as [|? ? _ F]; subst. inversion F; subst. lia. }
    apply (A i j N). apply (cg_pairs _ _ H i j N). exists (i :: j :: g). cbn. auto.
Qed.
Lemma is_empty_list : forall T (x : InspectionIssues T), is_empty (of_list x) <-> ii_issues x = [].
Proof. intros T x. unfold is_empty, of_list. cbn [cat_size]. rewrite length_zero_iff_nil. reflexivity. Qed.

Lemma pointset_valid_spec : forall geo m, consistent (ps_points m) (g_colocated geo (ps_points m)) ->
  exists r, inspect_point_set geo m = Ok r /\ is_pointset_valid geo m = Ok (pointset_validity r) /\ (all_empty (pointset_categories r) <-> points_apart geo (ps_points m)).
Proof.
  intros geo m C. destruct (C04_groups_are_classes geo (ps_points m) C) as (c & E & G). unfold is_pointset_valid, inspect_point_set. rewrite E. cbn [bind].
  eexists. split; [reflexivity|]. split; [reflexivity|]. unfold pointset_categories, all_empty. rewrite Forall_cons_iff, is_empty_list, (none_colocated _ _ _ G).
  split; [tauto|]. intros H. split; [exact H|constructor].
Qed.
Lemma curve_valid_spec : forall ms geo m, consistent (ec_points m) (g_colocated geo (ec_points m)) ->
  exists r, inspect_edged_curve ms geo m = Ok r /\ is_edged_curve_valid ms geo m = Ok (curve_validity r) /\ (all_empty (curve_categories r) <-> sound_curve geo m).
Proof.
  intros ms geo m C. destruct (C04_groups_are_classes geo (ec_points m) C) as (c & E & G). unfold is_edged_curve_valid, inspect_edged_curve. cbv zeta. rewrite E. cbn [bind status parallel_invoke assigned].
  eexists. split; [reflexivity|]. split; [reflexivity|]. unfold curve_categories, all_empty. rewrite !Forall_cons_iff, !is_empty_list. cbn [cr_colocated cr_edges].
  rewrite (none_colocated _ _ _ G), (none_listed _ _ _ _ (proj2 (C19_curve_small_edges ms geo m))). unfold sound_curve.
  split; [tauto|]. intros [H1 H2]. split; [exact H1|]. split; [exact H2|constructor].
Qed.

Lemma surface_valid_spec : forall ms geo ho name px candidates m st ints, surface_queries geo m -> surface_intersecting_elements px m candidates ints ->
  exists r, inspect_surface ms geo ho name m st ints = Ok r /\ is_surface_valid ms geo ho name m st ints = Ok (surface_validity r) /\
    (all_empty (surface_categories r) <-> sound_surface ms geo px candidates m).
Proof.
  intros ms geo ho name px candidates m st ints Q I. destruct Q as [Qc Qa Qe Qu Qv Qf Qp].
  destruct (C09_surface_adjacency name m Qa) as (ra & ba & Ea & La & _).
  destruct (C04_groups_are_classes geo (sm_points m) Qc) as (c & Ec & G).
  destruct (proj1 (C19_mesh_degenerated_edges ms geo st) m Qe) as (re & Ee & Le).
  pose proof (proj1 (C20_small_heights GLOBAL_EPSILON) m) as Lp.
  destruct (C13_surface_edges ho ho m Qu) as [Lu _].
  destruct (C14_surface_vertices geo m Qv Qf) as (rv & bv & Ev & Lv & _).
  destruct (C26_list_is_exact px m candidates ints I) as (ri & -> & Li & _).
  destruct (C24_surface ms m Qp) as [Ln _].
  unfold is_surface_valid, inspect_surface. cbv zeta. rewrite Ea, Ec, Ee, Ev. cbn [bind status parallel_invoke assigned].
  eexists. split; [reflexivity|]. split; [reflexivity|]. unfold surface_categories, all_empty. rewrite !Forall_cons_iff, !is_empty_list.
  cbn [sr_adjacency sr_colocated sr_edges sr_polygons sr_manifold_edges sr_manifold_vertices sr_intersections sr_negative].
  change (degenerated_polygons m) with (small_height_polygons m GLOBAL_EPSILON).
  rewrite (none_listed _ _ _ _ La), (none_colocated _ _ _ G), (none_listed _ _ _ _ Le), (none_listed _ _ _ _ Lp), (none_listed_once _ _ _ Lu), (none_listed _ _ _ _ Lv),
    (none_listed _ _ _ _ Ln).
  assert (Ki : ii_issues ri = [] <-> forall pq, In pq candidates -> ~ surface_pair_meets px m pq).
  { split.
    - intros E pq Ipq K. assert (X : In pq (ii_issues ri)) by (apply Li; auto). rewrite E in X. exact X.
    - intros N. destruct (ii_issues ri) as [|x l] eqn:E; [reflexivity|]. exfalso. destruct (proj1 (Li x) (or_introl eq_refl)) as [H1 H2]. exact (N x H1 H2). }
  rewrite Ki. split.
  - intros (A & B & C & D & E & F & H & K & _). constructor; try assumption.
    + intros e He q Hq. destruct (edge_reciprocated_dec m e q) as [X|X]; [exact X|]. exfalso. apply (A e). split; [exact He|]. exists q. auto.
    + intros a b Hab n Hn U. split; intros Hb.
      * destruct (Nat.eq_dec n 1) as [X|X]; [exact X|]. exfalso. apply (E (a, b)). split; [exact Hab|]. exists n. cbn [fst snd]. tauto.
      * destruct (Nat.eq_dec n 2) as [X|X]; [exact X|]. exfalso. apply (E (a, b)). split; [exact Hab|]. exists n. cbn [fst snd]. tauto.
    + intros v Hv fan Hf. destruct (surface_corners_ok m Qv) as (corners & _ & O). destruct (lists_once_dec _ _ fan (O v Hv)) as [X|X]; [exact X|].
      exfalso. apply (F v). split; [exact Hv|]. exists fan. auto.
  - intros [A B C D E F H K]. split; [|split; [exact B|split; [exact C|split; [exact D|split; [|split; [|split; [exact H|split; [exact K|constructor]]]]]]]].
    + intros e (He & q & Hq & N). apply N, (A e He q Hq).
    + intros [a b] (Hab & n & Hn & U & W). cbn [fst snd] in *. destruct (E a b Hab n Hn U) as [W1 W2]. tauto.
    + intros v (Hv & fan & Hf & N). apply N, (F v Hv fan Hf).
Qed.

Lemma in_polyhedron_edges : forall m e ab, first_occurrence m e ab -> In e (all_polyhedron_edges m) /\ polyhedron_edge_vertices m e = ab.
Proof.
  intros m [p i] ab (H1 & H2 & _). cbn [fst snd] in *. assert (E : polyhedron_edge_vertices m (p, i) = ab) by (apply nth_error_nth; exact H2).
  split; [|exact E]. apply in_all_polyhedron_edges. rewrite E. auto.
Qed.
Lemma complete_fan_dec : forall m e ab fan, NoDup fan -> first_occurrence m e ab -> complete_fan m ab fan \/ ~ complete_fan m ab fan.
Proof.
  intros m e ab fan N H. destruct (in_polyhedron_edges _ _ _ H) as [I <-]. rewrite (complete_fan_iff m e fan I), <- (same_perm _ _ N).
  destruct (polyhedra_around_edge_are_the_same _ _); [left|right]; congruence.
Qed.
Lemma solid_valid_spec : forall ms geo ho name m st, solid_queries geo m ->
  exists r, inspect_solid ms geo ho name m st = Ok r /\ is_solid_valid ms geo ho name m st = Ok (solid_validity r) /\
    (all_empty (solid_categories r) <-> sound_solid ms geo m).
Proof.
  intros ms geo ho name m st Q. destruct Q as [Qc Qa Qe Qv Qf Qfe Qn Qp].
  destruct (C10_solid_adjacency name m Qa) as (ra & ba & Ea & La & _).
  destruct (C04_groups_are_classes geo (so_points m) Qc) as (c & Ec & G).
  destruct (proj2 (C19_mesh_degenerated_edges ms geo st) m Qe) as (re & Ee & Le).
  pose proof (proj2 (C20_small_heights GLOBAL_EPSILON) m) as Lp.
  destruct (C15_solid_vertices geo m Qv Qf) as (rv & bv & Ev & Lv & _).
  destruct (C16_solid_edges m Qfe) as (rd & Ed & el & Eel & Ld).
  destruct (C17_solid_facets ho ho m (proj2 Qa) Qn) as [[Lf1 [Lf2 _]] _].
  destruct (C24_solid ms m Qp) as [Ln _].
  unfold is_solid_valid, inspect_solid. cbv zeta. rewrite Ea, Ec, Ee, Ev, Ed. cbn [bind status parallel_invoke assigned].
  eexists. split; [reflexivity|]. split; [reflexivity|]. unfold solid_categories, all_empty. rewrite !Forall_cons_iff, !is_empty_list.
  cbn [so_r_adjacency so_r_colocated so_r_edges so_r_polyhedra so_r_manifold_vertices so_r_manifold_edges so_r_manifold_facets so_r_negative].
  change (degenerated_polyhedra m) with (small_height_polyhedra m GLOBAL_EPSILON).
  rewrite (none_listed _ _ _ _ La), (none_colocated _ _ _ G), (none_listed _ _ _ _ Le), (none_listed _ _ _ _ Lp), (none_listed _ _ _ _ Lv),
    (none_listed _ _ _ _ Ln).
  assert (Kd : ii_issues rd = [] <-> forall eab, ~ (failed_edge m eab \/ unfinished_edge m eab)).
  { rewrite <- (none_listed _ _ _ _ Ld), Eel. split; [apply map_eq_nil|intros ->; reflexivity]. }
  assert (Kf : ii_issues (solid_non_manifold_facets ho m) = [] <-> forall c, ~ overused_facet m c).
  { split.
    - intros E x K. destruct (Lf2 x K) as (x' & X & _). rewrite E in X. exact X.
    - intros N. destruct (ii_issues (solid_non_manifold_facets ho m)) as [|x l] eqn:E; [reflexivity|]. exfalso. apply (N x), Lf1. left. reflexivity. }
  rewrite Kd, Kf. split.
  - intros (A & B & C & D & E & F & H & K & _). constructor; try assumption.
    + intros f Hf q Hq. destruct (proj2 Qa f Hf) as [Z1 Z2]. destruct (facet_reciprocated_dec m f q Z1 Z2) as [X|X]; [exact X|]. exfalso. apply (A f). split; [exact Hf|]. exists q. auto.
    + intros v Hv fan Hfan. destruct (solid_corners_ok m Qv) as (corners & _ & O). destruct (lists_once_dec _ _ fan (O v Hv)) as [X|X]; [exact X|].
      exfalso. apply (E v). split; [exact Hv|]. exists fan. auto.
    + intros e ab Hf. destruct (Qfe e ab Hf) as [T|(fan & O & N)].
      * exfalso. apply (F (e, ab)). left. split; assumption.
      * exists fan. split; [exact O|]. destruct (complete_fan_dec m e ab fan N Hf) as [X|X]; [exact X|]. exfalso. apply (F (e, ab)). right. split; [exact Hf|]. exists fan. auto.
  - intros [A B C D E F H K]. split; [|split; [exact B|split; [exact C|split; [exact D|split; [|split; [|split; [exact H|split; [exact K|constructor]]]]]]]].
    + intros f (Hf & q & Hq & N). apply N, (A f Hf q Hq).
    + intros v (Hv & fan & Hfan & N). apply N, (E v Hv fan Hfan).
    + intros [e ab] [[Hf T]|(Hf & fan & O & N)]; destruct (F e ab Hf) as (fan' & O' & K'); cbn [fst snd] in *; [congruence|]. apply N. congruence.
Qed.
