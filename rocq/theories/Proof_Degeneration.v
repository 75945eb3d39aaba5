From Coq Require Import String Ascii List Arith NArith ZArith Bool Lia Sorted Floats.SpecFloat.
From Verif Require Import Base BaseFacts Model_Issues Types Model_Degeneration Model_Negative Spec_Colocation Spec_Maps Spec_Adjacency
  Spec_Degeneration Spec_Negative Proof_Issues Proof_Maps Proof_Colocation Proof_Colocation2 Proof_Colocation3 Proof_Adjacency
  Proof_Manifold Proof_Manifold3.
Import ListNotations.
Open Scope list_scope.

(** ** Reports of the indices that satisfy a test *)
Lemma fold_report_id : forall (p : nat -> bool) msg l r,
  ii_issues (fold_left (fun r x => if p x then add_issue x (msg x) r else r) l r) = ii_issues r ++ filter p l.
Proof. intros p msg l r. rewrite (fold_report nat nat p (fun x => x) msg l r), map_id. reflexivity. Qed.
Lemma filter_range_exact : forall (p : nat -> bool) (P : nat -> Prop) n, (forall x, P x <-> x < n /\ p x = true) ->
  lists_exactly lt P (filter p (Range n)).
Proof.
  intros p P n H. split.
  - apply StronglySorted_filter. apply StronglySorted_seq.
  - intros x. rewrite filter_In, in_Range, H. tauto.
Qed.
Lemma filter_length_Range : forall (p : nat -> bool) n, length (filter p (Range n)) <= n.
Proof.
  intros p n. transitivity (length (Range n)); [|unfold Range; rewrite seq_length; lia].
  induction (Range n) as [|x l IH]; cbn; [lia|]. destruct (p x); cbn; lia.
Qed.

Lemma nth_point : forall (pts : list Point) a p, nth_error pts a = Some p -> nth a pts [] = p.
Proof. intros pts a p H. apply (nth_error_nth pts a _ H). Qed.
(** ** Small edges *)
Lemma enabled_after_enable : forall st, es_enabled (enable_edges_on_mesh st) = true.
Proof. intros [[] b]; reflexivity. Qed.
Lemma mesh_edges_enabled : forall st edges, mesh_edges (enable_edges_on_mesh st) edges = Ok edges.
Proof. intros st edges. unfold mesh_edges. rewrite enabled_after_enable. reflexivity. Qed.

Lemma edge_test : forall ms points edges t e, edges_in_range points edges -> e < length edges ->
  (edge_is_smaller_than_threshold ms points edges e t = true <-> shorter_edge ms points edges t e).
Proof.
  intros ms points edges t e Hr He. unfold edge_is_smaller_than_threshold, edge_points, shorter_edge.
  destruct (nth_error edges e) as [[a b]|] eqn:E; [|apply nth_error_None in E; lia].
  rewrite (nth_error_nth edges e (0, 0) E). cbn [fst snd].
  destruct (Hr a b) as [Ha Hb]; [apply nth_error_In in E; exact E|].
  destruct (nth_error points a) as [p|] eqn:Ea; [|apply nth_error_None in Ea; lia].
  destruct (nth_error points b) as [q|] eqn:Eb; [|apply nth_error_None in Eb; lia].
  rewrite (nth_point _ _ _ Ea), (nth_point _ _ _ Eb). split.
  - intros H. exists a, b, p, q. auto.
  - intros (a' & b' & p' & q' & H1 & H2 & H3 & H4). injection H1 as <- <-. rewrite Ea in H2. rewrite Eb in H3.
    injection H2 as <-. injection H3 as <-. exact H4.
Qed.
Lemma shorter_bound : forall ms points edges t e, shorter_edge ms points edges t e -> e < length edges.
Proof. intros ms points edges t e (a & b & p & q & H & _). apply nth_error_Some. congruence. Qed.

Lemma impl_small_edges_spec : forall ms geo points edges t st, edges_in_range points edges ->
  exists r, impl_small_edges ms geo points edges t st = (Ok r, enable_edges_on_mesh st) /\
    lists_exactly lt (shorter_edge ms points edges t) (ii_issues r).
Proof.
  intros ms geo points edges t st Hr. unfold impl_small_edges. rewrite mesh_edges_enabled. cbn [bind].
  eexists. split; [reflexivity|]. rewrite fold_report_id. cbn [new_issues ii_issues app].
  apply filter_range_exact. intros x. split.
  - intros H. pose proof (shorter_bound _ _ _ _ _ H). split; [assumption|]. apply edge_test; assumption.
  - intros [Hx H]. apply edge_test in H; assumption.
Qed.
Lemma impl_degenerated_spec : forall ms points edges st, edges_in_range points edges ->
  exists b, impl_is_mesh_degenerated ms points edges st = (Ok b, enable_edges_on_mesh st) /\
    (b = true <-> exists e, shorter_edge ms points edges GLOBAL_EPSILON e).
Proof.
  intros ms points edges st Hr. unfold impl_is_mesh_degenerated. rewrite mesh_edges_enabled. cbn [bind].
  eexists. split; [reflexivity|]. rewrite existsb_exists. split.
  - intros (x & Hx & H). apply in_Range in Hx. exists x. apply edge_test; assumption.
  - intros (x & H). pose proof (shorter_bound _ _ _ _ _ H). exists x. split; [apply in_Range; assumption|]. apply edge_test; assumption.
Qed.

Lemma curve_small_spec : forall ms geo c t, lists_exactly lt (short_curve_edge c t) (ii_issues (curve_small_edges ms geo c t)).
Proof.
  intros ms geo c t. unfold curve_small_edges. rewrite fold_report_id. cbn [new_issues ii_issues app].
  apply filter_range_exact. intros x. reflexivity.
Qed.
Lemma flat_polygons_spec : forall m t, lists_exactly lt (flat_polygon m t) (ii_issues (small_height_polygons m t)).
Proof.
  intros m t. unfold small_height_polygons. rewrite fold_report_id. cbn [new_issues ii_issues app].
  apply filter_range_exact. intros x. reflexivity.
Qed.
Lemma flat_polyhedra_spec : forall m t, lists_exactly lt (flat_polyhedron m t) (ii_issues (small_height_polyhedra m t)).
Proof.
  intros m t. unfold small_height_polyhedra. rewrite fold_report_id. cbn [new_issues ii_issues app].
  apply filter_range_exact. intros x. reflexivity.
Qed.

(** ** C19, C20 *)
Lemma small_edges_mesh : forall ms geo t st,
  (forall m, edges_in_range (sm_points m) (sm_edges m) ->
     exists r, fst (surface_small_edges ms geo m t st) = Ok r /\
       lists_exactly lt (shorter_edge ms (sm_points m) (sm_edges m) t) (ii_issues r)) /\
  (forall m, edges_in_range (so_points m) (so_edges m) ->
     exists r, fst (solid_small_edges ms geo m t st) = Ok r /\
       lists_exactly lt (shorter_edge ms (so_points m) (so_edges m) t) (ii_issues r)).
Proof.
  intros ms geo t st. split; intros m Hr; [unfold surface_small_edges|unfold solid_small_edges];
    (destruct (impl_small_edges_spec ms geo _ _ t st Hr) as (r & E & L)); exists r; rewrite E; auto.
Qed.
Lemma threshold_monotone : forall x t t', dle t t' = true -> (dlt x t = true -> dlt x t' = true) /\ (dle x t = true -> dle x t' = true).
Proof. intros x t t' H. split; intros K; [apply (dlt_le_trans _ _ _ K H)|apply (dle_trans _ _ _ K H)]. Qed.
Lemma lists_exactly_incl : forall A R (P Q : A -> Prop) l l', lists_exactly R P l -> lists_exactly R Q l' -> (forall x, P x -> Q x) -> incl l l'.
Proof. intros A R P Q l l' [_ H] [_ H'] K x Hx. apply H', K, H, Hx. Qed.

Lemma small_edges_monotone : forall ms geo t t', dle t t' = true ->
  (forall m st st' r r', edges_in_range (sm_points m) (sm_edges m) ->
     fst (surface_small_edges ms geo m t st) = Ok r -> fst (surface_small_edges ms geo m t' st') = Ok r' ->
     incl (ii_issues r) (ii_issues r')) /\
  (forall m st st' r r', edges_in_range (so_points m) (so_edges m) ->
     fst (solid_small_edges ms geo m t st) = Ok r -> fst (solid_small_edges ms geo m t' st') = Ok r' ->
     incl (ii_issues r) (ii_issues r')) /\
  (forall c, incl (ii_issues (curve_small_edges ms geo c t)) (ii_issues (curve_small_edges ms geo c t'))).
Proof.
  intros ms geo t t' Ht.
  assert (K : forall points edges e, shorter_edge ms points edges t e -> shorter_edge ms points edges t' e).
  { intros points edges e (a & b & p & q & H1 & H2 & H3 & H4). exists a, b, p, q. repeat (split; [assumption|]).
    apply (threshold_monotone _ _ _ Ht). exact H4. }
  split; [|split].
  - intros m st st' r r' Hr H H'. destruct (proj1 (small_edges_mesh ms geo t st) m Hr) as (r1 & E & L).
    destruct (proj1 (small_edges_mesh ms geo t' st') m Hr) as (r2 & E' & L').
    assert (r = r1) by congruence. assert (r' = r2) by congruence. subst. apply (lists_exactly_incl _ _ _ _ _ _ L L'). apply K.
  - intros m st st' r r' Hr H H'. destruct (proj2 (small_edges_mesh ms geo t st) m Hr) as (r1 & E & L).
    destruct (proj2 (small_edges_mesh ms geo t' st') m Hr) as (r2 & E' & L').
    assert (r = r1) by congruence. assert (r' = r2) by congruence. subst. apply (lists_exactly_incl _ _ _ _ _ _ L L'). apply K.
  - intros c. apply (lists_exactly_incl _ _ _ _ _ _ (curve_small_spec ms geo c t) (curve_small_spec ms geo c t')).
    intros e [He H]. split; [exact He|]. apply (threshold_monotone _ _ _ Ht). exact H.
Qed.
Lemma flat_monotone : forall t t', dle t t' = true ->
  (forall m, incl (ii_issues (small_height_polygons m t)) (ii_issues (small_height_polygons m t'))) /\
  (forall m, incl (ii_issues (small_height_polyhedra m t)) (ii_issues (small_height_polyhedra m t'))).
Proof.
  intros t t' Ht. split; intros m.
  - apply (lists_exactly_incl _ _ _ _ _ _ (flat_polygons_spec m t) (flat_polygons_spec m t')).
    intros e [He H]. split; [exact He|]. apply (threshold_monotone _ _ _ Ht). exact H.
  - apply (lists_exactly_incl _ _ _ _ _ _ (flat_polyhedra_spec m t) (flat_polyhedra_spec m t')).
    intros e [He H]. split; [exact He|]. apply (threshold_monotone _ _ _ Ht). exact H.
Qed.
Lemma edge_lengths_boundary : forall ms geo t c e m st r a b p q,
  edges_in_range (sm_points m) (sm_edges m) -> fst (surface_small_edges ms geo m t st) = Ok r ->
  nth_error (sm_edges m) e = Some (a, b) -> nth_error (sm_points m) a = Some p -> nth_error (sm_points m) b = Some q ->
  e < length (ec_edges c) ->
  (ms_distance ms p q = S754_nan -> ~ In e (ii_issues r)) /\
  (ec_edge_length c e = S754_nan -> ~ In e (ii_issues (curve_small_edges ms geo c t))) /\
  (t <> S754_nan -> ms_distance ms p q = t -> ec_edge_length c e = t ->
     ~ In e (ii_issues r) /\ In e (ii_issues (curve_small_edges ms geo c t))).
Proof.
  intros ms geo t c e m st r a b p q Hr E He Ha Hb Hc. destruct (proj1 (small_edges_mesh ms geo t st) m Hr) as (r1 & E1 & L).
  assert (r = r1) by congruence. subst r1. pose proof (curve_small_spec ms geo c t) as C.
  assert (N : dlt (ms_distance ms p q) t = false -> ~ In e (ii_issues r)).
  { intros Hd Hin. apply (proj2 L) in Hin. destruct Hin as (a' & b' & p' & q' & H1 & H2 & H3 & H4).
    rewrite He in H1. injection H1 as <- <-. rewrite Ha in H2. rewrite Hb in H3. injection H2 as <-. injection H3 as <-. congruence. }
  split; [|split].
  - intros Hn. apply N. rewrite Hn. apply dlt_nan_l.
  - intros Hn Hin. apply (proj2 C) in Hin. destruct Hin as [_ Hd]. rewrite Hn, dle_nan_l in Hd. discriminate.
  - intros Ht H1 H2. split.
    + apply N. rewrite H1. apply dlt_irrefl.
    + apply (proj2 C). split; [exact Hc|]. rewrite H2. apply dle_refl. exact Ht.
Qed.
Lemma nan_height_never_flat : forall t,
  (forall m p, sm_minimum_height m p = S754_nan -> ~ In p (ii_issues (small_height_polygons m t))) /\
  (forall m p, so_minimum_height m p = S754_nan -> ~ In p (ii_issues (small_height_polyhedra m t))).
Proof.
  intros t. split; intros m p Hn Hin.
  - apply (proj2 (flat_polygons_spec m t)) in Hin. destruct Hin as [_ H]. rewrite Hn, dle_nan_l in H. discriminate.
  - apply (proj2 (flat_polyhedra_spec m t)) in Hin. destruct Hin as [_ H]. rewrite Hn, dle_nan_l in H. discriminate.
Qed.

(** ** C21 *)
Lemma lists_nonempty : forall A R (P : A -> Prop) l, lists_exactly R P l -> (l <> [] <-> exists x, P x).
Proof.
  intros A R P l [_ H]. split.
  - destruct l as [|x l]; [congruence|]. intros _. exists x. apply H. left. reflexivity.
  - intros [x Hx] ->. apply H in Hx. destruct Hx.
Qed.
Lemma surface_degenerated_spec : forall ms geo m st st' r, edges_in_range (sm_points m) (sm_edges m) ->
  fst (surface_degenerated_edges ms geo m st') = Ok r ->
  exists b, fst (surface_is_degenerated ms m st) = Ok b /\
    (b = true <-> ii_issues r <> [] \/ exists p, p < nb_polygons m /\ sm_polygon_degenerated m p = true).
Proof.
  intros ms geo m st st' r Hr E. unfold surface_is_degenerated.
  destruct (impl_degenerated_spec ms _ _ st Hr) as (b & Eb & Hb). rewrite Eb. cbn [fst bind].
  destruct (proj1 (small_edges_mesh ms geo GLOBAL_EPSILON st') m Hr) as (r1 & E1 & L).
  assert (r = r1) by (unfold surface_degenerated_edges, impl_degenerated_edges, surface_small_edges in *; congruence). subst r1.
  pose proof (lists_nonempty _ _ _ _ L) as N. destruct b.
  - exists true. split; [reflexivity|]. rewrite N. intuition.
  - eexists. split; [reflexivity|]. rewrite N, existsb_exists. split.
    + intros (p & Hp & K). apply in_Range in Hp. right. exists p. auto.
    + intros [K|(p & Hp & K)]; [apply Hb in K; discriminate|]. exists p. split; [apply in_Range; exact Hp|exact K].
Qed.
Lemma solid_degenerated_spec : forall ms geo m st st' r, edges_in_range (so_points m) (so_edges m) ->
  fst (solid_degenerated_edges ms geo m st') = Ok r ->
  exists b, fst (solid_is_degenerated ms m st) = Ok b /\
    (b = true <-> ii_issues r <> [] \/ exists p, p < nb_polyhedra m /\ so_polyhedron_degenerated m p = true).
Proof.
  intros ms geo m st st' r Hr E. unfold solid_is_degenerated.
  destruct (impl_degenerated_spec ms _ _ st Hr) as (b & Eb & Hb). rewrite Eb. cbn [fst bind].
  destruct (proj2 (small_edges_mesh ms geo GLOBAL_EPSILON st') m Hr) as (r1 & E1 & L).
  assert (r = r1) by (unfold solid_degenerated_edges, impl_degenerated_edges, solid_small_edges in *; congruence). subst r1.
  pose proof (lists_nonempty _ _ _ _ L) as N. destruct b.
  - exists true. split; [reflexivity|]. rewrite N. intuition.
  - eexists. split; [reflexivity|]. rewrite N, existsb_exists. split.
    + intros (p & Hp & K). apply in_Range in Hp. right. exists p. auto.
    + intros [K|(p & Hp & K)]; [apply Hb in K; discriminate|]. exists p. split; [apply in_Range; exact Hp|exact K].
Qed.
Lemma degenerated_agree : forall ms geo,
  (forall m st st', edges_in_range (sm_points m) (sm_edges m) ->
     (forall p, p < nb_polygons m -> sm_polygon_degenerated m p = dle (sm_minimum_height m p) GLOBAL_EPSILON) ->
     exists b r, fst (surface_is_degenerated ms m st) = Ok b /\ fst (surface_degenerated_edges ms geo m st') = Ok r /\
       (b = true <-> ii_issues r <> [] \/ ii_issues (degenerated_polygons m) <> [])) /\
  (forall m st st', edges_in_range (so_points m) (so_edges m) ->
     (forall p, p < nb_polyhedra m -> so_polyhedron_degenerated m p = dle (so_minimum_height m p) GLOBAL_EPSILON) ->
     exists b r, fst (solid_is_degenerated ms m st) = Ok b /\ fst (solid_degenerated_edges ms geo m st') = Ok r /\
       (b = true <-> ii_issues r <> [] \/ ii_issues (degenerated_polyhedra m) <> [])) /\
  (forall c, (forall e, e < length (ec_edges c) -> ec_edge_degenerated c e = dle (ec_edge_length c e) GLOBAL_EPSILON) ->
     (curve_is_degenerated c = true <-> ii_issues (curve_degenerated_edges ms geo c) <> [])).
Proof.
  intros ms geo. split; [|split].
  - intros m st st' Hr Hp. destruct (proj1 (small_edges_mesh ms geo GLOBAL_EPSILON st') m Hr) as (r & E & _).
    change (fst (surface_degenerated_edges ms geo m st') = Ok r) in E.
    destruct (surface_degenerated_spec ms geo m st st' r Hr E) as (b & Eb & Hb). exists b, r. split; [exact Eb|]. split; [exact E|].
    rewrite Hb. unfold degenerated_polygons. rewrite (lists_nonempty _ _ _ _ (flat_polygons_spec m GLOBAL_EPSILON)). unfold flat_polygon.
    split; (intros [K|(p & H1 & H2)]; [left; exact K|right; exists p; split; [exact H1|]]); rewrite Hp in *; assumption.
  - intros m st st' Hr Hp. destruct (proj2 (small_edges_mesh ms geo GLOBAL_EPSILON st') m Hr) as (r & E & _).
    change (fst (solid_degenerated_edges ms geo m st') = Ok r) in E.
    destruct (solid_degenerated_spec ms geo m st st' r Hr E) as (b & Eb & Hb). exists b, r. split; [exact Eb|]. split; [exact E|].
    rewrite Hb. unfold degenerated_polyhedra. rewrite (lists_nonempty _ _ _ _ (flat_polyhedra_spec m GLOBAL_EPSILON)). unfold flat_polyhedron.
    split; (intros [K|(p & H1 & H2)]; [left; exact K|right; exists p; split; [exact H1|]]); rewrite Hp in *; assumption.
  - intros c Hc. unfold curve_degenerated_edges. rewrite (lists_nonempty _ _ _ _ (curve_small_spec ms geo c GLOBAL_EPSILON)).
    unfold curve_is_degenerated, short_curve_edge. rewrite existsb_exists. split.
    + intros (e & He & H). apply in_Range in He. exists e. split; [exact He|]. rewrite <- Hc; assumption.
    + intros (e & He & H). exists e. split; [apply in_Range; exact He|]. rewrite Hc; assumption.
Qed.

(** ** C24 *)
Lemma map_nth_error_points : forall (pts : list Point) vs, (forall v, In v vs -> v < length pts) ->
  map (nth_error pts) vs = map Some (map (fun v => nth v pts []) vs).
Proof.
  intros pts vs H. rewrite map_map. apply map_ext_in. intros v Hv. specialize (H v Hv).
  destruct (nth_error pts v) as [p|] eqn:E; [|apply nth_error_None in E; lia]. rewrite (nth_point _ _ _ E). reflexivity.
Qed.
Lemma negative_polygon_test : forall ms m p, polygon_points_exist m ->
  (negative_polygon ms m p <-> p < nb_polygons m /\ (if Nat.eqb (sm_dimension m) 2 then polygon_is_negative ms m p else false) = true).
Proof.
  intros ms m p Hm. unfold negative_polygon, polygon_is_negative, polygon_points, polygon_vertices, nb_polygons. split.
  - intros (Hd & vs & pts & H1 & H2 & H3). rewrite Hd. split; [apply nth_error_Some; congruence|]. cbn [Nat.eqb].
    rewrite (nth_error_nth _ _ [] H1). rewrite map_nth_error_points in H2 by (intros v Hv; apply (Hm vs v); [apply nth_error_In in H1; exact H1|exact Hv]).
    apply map_Some_inj in H2. rewrite H2. exact H3.
  - intros [Hp H]. destruct (Nat.eqb_spec (sm_dimension m) 2) as [Hd|]; [|discriminate]. split; [exact Hd|].
    destruct (nth_error (sm_polygons m) p) as [vs|] eqn:E; [|apply nth_error_None in E; lia]. rewrite (nth_error_nth _ _ [] E) in H.
    exists vs. eexists. split; [reflexivity|]. split; [|exact H].
    apply map_nth_error_points. intros v Hv. apply (Hm vs v); [apply nth_error_In in E; exact E|exact Hv].
Qed.
Lemma surface_negative_spec : forall ms m, polygon_points_exist m ->
  lists_exactly lt (negative_polygon ms m) (ii_issues (negative_polygons ms m)) /\
  (surface_has_negative_elements ms m = true <-> ii_issues (negative_polygons ms m) <> []).
Proof.
  intros ms m Hm. assert (L : lists_exactly lt (negative_polygon ms m) (ii_issues (negative_polygons ms m))).
  { assert (E : ii_issues (negative_polygons ms m) =
                filter (fun p => if Nat.eqb (sm_dimension m) 2 then polygon_is_negative ms m p else false) (Range (nb_polygons m))).
    { unfold negative_polygons. destruct (Nat.eqb (sm_dimension m) 2); [rewrite fold_report_id; reflexivity|].
      cbn. induction (Range (nb_polygons m)) as [|x l IH]; cbn; auto. }
    rewrite E. apply filter_range_exact. intros p. apply negative_polygon_test. exact Hm. }
  split; [exact L|]. rewrite (lists_nonempty _ _ _ _ L). unfold surface_has_negative_elements.
  setoid_rewrite (fun p => negative_polygon_test ms m p Hm).
  destruct (Nat.eqb (sm_dimension m) 2); [|split; [discriminate|intros (p & _ & H); discriminate]].
  rewrite existsb_exists. setoid_rewrite in_Range. reflexivity.
Qed.
Lemma no_negative_in_3d : forall ms m, sm_dimension m = 3 ->
  ii_issues (negative_polygons ms m) = [] /\ surface_has_negative_elements ms m = false.
Proof. intros ms m H. unfold negative_polygons, surface_has_negative_elements. rewrite H. split; reflexivity. Qed.
Lemma negative_polyhedron_test : forall ms m p, polyhedron_points_exist m ->
  (negative_polyhedron ms m p <-> p < nb_polyhedra m /\ polyhedron_has_negative_volume ms m p = true).
Proof.
  intros ms m p Hm. unfold negative_polyhedron, polyhedron_has_negative_volume, polyhedron, nb_polyhedra. split.
  - intros (ph & H1 & H2). split; [apply nth_error_Some; congruence|]. rewrite (nth_error_nth _ _ _ H1).
    destruct H2 as [(a & b & c & d & pa & pb & pc & pd & Hv & Hp & Hn)|[Hl Hn]].
    + rewrite Hv. cbn [length Nat.eqb nth]. cbn [map] in Hp. injection Hp as Ha Hb Hc Hd.
      rewrite (nth_point _ _ _ Ha), (nth_point _ _ _ Hb), (nth_point _ _ _ Hc), (nth_point _ _ _ Hd). exact Hn.
    + destruct (Nat.eqb_spec (length (ph_vertices ph)) 4); [contradiction|exact Hn].
  - intros [Hp H]. destruct (nth_error (so_polyhedra m) p) as [ph|] eqn:E; [|apply nth_error_None in E; lia].
    rewrite (nth_error_nth _ _ _ E) in H. exists ph. split; [reflexivity|].
    destruct (Nat.eqb_spec (length (ph_vertices ph)) 4) as [Hl|Hl]; [left|right; auto].
    pose proof (fun v => Hm ph v (nth_error_In _ _ E)) as Hr.
    destruct (ph_vertices ph) as [|a [|b [|c [|d [|]]]]]; try discriminate. cbn [nth] in H.
    exists a, b, c, d. do 4 eexists. split; [reflexivity|]. split; [|exact H].
    rewrite map_nth_error_points by exact Hr. reflexivity.
Qed.
Lemma solid_negative_spec : forall ms m, polyhedron_points_exist m ->
  lists_exactly lt (negative_polyhedron ms m) (ii_issues (negative_polyhedra ms m)) /\
  (solid_has_negative_elements ms m = true <-> ii_issues (negative_polyhedra ms m) <> []).
Proof.
  intros ms m Hm. assert (L : lists_exactly lt (negative_polyhedron ms m) (ii_issues (negative_polyhedra ms m))).
  { unfold negative_polyhedra. rewrite fold_report_id. cbn [new_issues ii_issues app]. apply filter_range_exact.
    intros p. apply negative_polyhedron_test. exact Hm. }
  split; [exact L|]. rewrite (lists_nonempty _ _ _ _ L). unfold solid_has_negative_elements.
  setoid_rewrite (fun p => negative_polyhedron_test ms m p Hm). rewrite existsb_exists. setoid_rewrite in_Range. reflexivity.
Qed.

(** ** Maps of pairs *)
Definition add_pair {T} (acc : InspectionIssuesMap T) (p : uuid * InspectionIssues T) := add_issues_to_map (fst p) (snd p) acc.
Lemma foldM_pure : forall A S (f : S -> A -> S) l s, foldM (fun s x => Ok (f s x)) l s = Ok (fold_left f l s).
Proof. intros A S f l. induction l as [|x l IH]; intros s; cbn; [reflexivity|apply IH]. Qed.
Lemma pairs_report : forall T (pairs : list (uuid * InspectionIssues T)) d (spec : uuid -> list T -> Prop),
  NoDup (map fst pairs) ->
  (forall id r, In (id, r) pairs -> below_2_32 (length (ii_issues r)) /\ spec id (ii_issues r)) ->
  (forall id l, spec id l -> exists r, In (id, r) pairs /\ (ii_issues r = [] -> l = [])) ->
  map_reports (fold_left add_pair pairs (new_issues_map d)) spec.
Proof.
  intros T pairs d spec Hn Hs Hc.
  destruct (component_loop_reports T _ fst (fun p => Ok (snd p)) pairs d spec Hn) as (m & E & R).
  - intros [id r] Hin. exists r. split; [reflexivity|]. apply (Hs id r Hin).
  - intros id l Hsp. destruct (Hc id l Hsp) as (r & Hin & K). exists (id, r). split; [exact Hin|]. split; [reflexivity|].
    intros r' Er Hr. injection Er as <-. auto.
  - pose proof (foldM_pure _ _ (@add_pair T) pairs (new_issues_map d)) as F. unfold add_pair in F. cbn [bind] in E.
    assert (K : m = fold_left add_pair pairs (new_issues_map d)) by (unfold add_pair; congruence). rewrite <- K. exact R.
Qed.
Lemma fold_add_pairs : forall T C (cid : C -> uuid) (body : C -> InspectionIssues T) l acc,
  fold_left (fun acc c => add_issues_to_map (cid c) (body c) acc) l acc = fold_left add_pair (map (fun c => (cid c, body c)) l) acc.
Proof. intros T C cid body l. induction l as [|c l IH]; intros acc; cbn; [reflexivity|apply IH]. Qed.

Lemma in_active_pairs : forall M T (l : list (Component M)) (body : Component M -> InspectionIssues T) id r,
  In (id, r) (map (fun c => (co_id c, body c)) (active l)) <-> exists c, In c l /\ co_active c = true /\ co_id c = id /\ r = body c.
Proof.
  intros M T l body id r. rewrite in_map_iff. setoid_rewrite in_active. split.
  - intros (c & E & H1 & H2). injection E as <- <-. exists c. auto.
  - intros (c & H1 & H2 & <- & ->). exists c. auto.
Qed.
Lemma NoDup_pairs : forall M T (l : list (Component M)) (body : Component M -> InspectionIssues T),
  NoDup (map co_id l) -> NoDup (map fst (map (fun c => (co_id c, body c)) (active l))).
Proof. intros M T l body H. rewrite map_map. apply NoDup_active_ids. exact H. Qed.

(** A map built from one kind of component. *)
Lemma one_kind_report : forall M T (l : list (Component M)) (body : Component M -> InspectionIssues T) (P : Component M -> T -> Prop)
  (R : T -> T -> Prop) d,
  NoDup (map co_id l) ->
  (forall c, In c l -> below_2_32 (length (ii_issues (body c))) /\ lists_exactly R (P c) (ii_issues (body c))) ->
  map_reports (fold_left add_pair (map (fun c => (co_id c, body c)) (active l)) (new_issues_map d))
    (fun id l' => exists c, In c l /\ co_active c = true /\ co_id c = id /\ lists_exactly R (P c) l').
Proof.
  intros M T l body P R d Hn H. apply pairs_report.
  - apply NoDup_pairs. exact Hn.
  - intros id r Hin. apply in_active_pairs in Hin. destruct Hin as (c & Hc & Ha & Hid & ->). destruct (H c Hc) as [H1 H2].
    split; [exact H1|]. exists c. auto.
  - intros id l' (c & Hc & Ha & Hid & L). exists (body c). split; [apply in_active_pairs; exists c; auto|].
    intros Hnil. apply (lists_exactly_nil _ _ _ _ _ (proj2 (H c Hc)) L Hnil).
Qed.
Lemma section_negative_map : forall ms m, unique_ids m ->
  (forall s, In s (m_surfaces m) -> polygon_points_exist (co_mesh s) /\ below_2_32 (nb_polygons (co_mesh s))) ->
  map_reports (section_negative_elements ms m) (negative_polygons_report ms m).
Proof.
  intros ms m Hu Hs. unfold section_negative_elements. rewrite fold_add_pairs.
  apply (one_kind_report SurfaceMesh nat (m_surfaces m) _ (fun s => negative_polygon ms (co_mesh s)) lt).
  - apply unique_ids_facts in Hu. apply (if_s m Hu).
  - intros s Hin. cbn [set_description ii_issues]. destruct (Hs s Hin) as [H1 H2].
    pose proof (proj1 (surface_negative_spec ms (co_mesh s) H1)) as L. split; [|exact L].
    pose proof (lists_lt_bound _ (nb_polygons (co_mesh s)) _ L) as B. unfold below_2_32 in *.
    specialize (B (fun x Hx => proj1 (proj1 (negative_polygon_test ms _ x H1) Hx))). lia.
Qed.
Lemma brep_negative_map : forall ms m, unique_ids m ->
  (forall b, In b (m_blocks m) -> polyhedron_points_exist (co_mesh b) /\ below_2_32 (nb_polyhedra (co_mesh b))) ->
  map_reports (brep_negative_elements ms m) (negative_polyhedra_report ms m).
Proof.
  intros ms m Hu Hs. unfold brep_negative_elements. rewrite fold_add_pairs.
  apply (one_kind_report SolidMesh nat (m_blocks m) _ (fun s => negative_polyhedron ms (co_mesh s)) lt).
  - apply unique_ids_facts in Hu. apply (if_b m Hu).
  - intros s Hin. cbn [set_description ii_issues]. destruct (Hs s Hin) as [H1 H2].
    pose proof (proj1 (solid_negative_spec ms (co_mesh s) H1)) as L. split; [|exact L].
    pose proof (lists_lt_bound _ (nb_polyhedra (co_mesh s)) _ L) as B. unfold below_2_32 in *.
    specialize (B (fun x Hx => proj1 (proj1 (negative_polyhedron_test ms _ x H1) Hx))). lia.
Qed.
