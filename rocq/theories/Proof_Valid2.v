(** Numbers of issues of single meshes. *)
From Coq Require Import String Ascii List Arith NArith ZArith Bool Lia Permutation Sorted Floats.SpecFloat.
From Verif Require Import Base BaseFacts Model_Issues Types Model_Cycles Model_Hash Model_Colocation Model_Adjacency Model_Manifold Model_Degeneration Model_Negative Model_Intersections
  Model_Topology Model_Results Model_Validity Spec_Colocation Spec_Maps Spec_Cycles Spec_Adjacency Spec_Manifold Spec_Degeneration Spec_Negative Spec_Intersections Spec_Results Spec_Valid
  Proof_Cycles Proof_Colocation Proof_Adjacency Proof_Manifold Proof_Manifold2 Proof_Degeneration Proof_Intersections Proof_Intersections2 Proof_Results
  Properties_Colocation Properties_Adjacency Properties_Manifold Properties_Degeneration Properties_Intersections Properties_Results Proof_Valid.
Import ListNotations.
Open Scope list_scope.

Lemma sorted_below : forall l n, StronglySorted lt l -> (forall x, In x l -> x < n) -> length l <= n.
Proof.
  intros l n S H. rewrite <- (seq_length n 0). apply NoDup_incl_length.
  - apply sorted_NoDup with (R := lt); [exact Nat.lt_irrefl|exact S].
  - intros x I. apply in_seq. specialize (H x I). lia.
Qed.
Lemma listed_below : forall P l n, lists_exactly lt P l -> (forall x, P x -> x < n) -> length l <= n.
Proof. intros P l n [S H] B. apply (sorted_below l n S). intros x I. apply B, H, I. Qed.
Lemma listed_among : forall P l l', lists_exactly lex_lt P l -> (forall x, P x -> In x l') -> length l <= length l'.
Proof.
  intros P l l' [S H] B. apply NoDup_incl_length; [apply lex_sorted_NoDup, S|]. intros x I. apply B, H, I.
Qed.
Lemma groups_below : forall c groups n, colocation_groups c groups -> length (colocated_mapping c) = n -> length groups <= n.
Proof.
  intros c groups n H E. apply Nat.le_trans with (length (concat groups)).
  - pose proof (cg_size _ _ H) as Z. clear -Z. induction groups as [|g l IH]; [apply le_n|]. cbn. rewrite app_length.
    pose proof (Z g (or_introl eq_refl)). specialize (IH (fun g' I => Z g' (or_intror I))). lia.
  - rewrite <- (seq_length n 0). apply NoDup_incl_length; [apply (cg_disjoint _ _ H)|]. intros x I. apply in_concat in I as (g & I1 & I2). apply in_seq.
    pose proof (cg_range _ _ H g x I1 I2). lia.
Qed.
Lemma Forall2_len : forall A B (R : A -> B -> Prop) l l', Forall2 R l l' -> length l = length l'.
Proof. intros A B R l l' F. induction F; cbn; congruence. Qed.
(** one witness per element, no two with the same *)
Lemma witnessed : forall A B (l : list A) (l' : list B) (R : B -> A -> Prop), (forall a, In a l -> exists b, In b l' /\ R b a) ->
  (forall i j a a' b, nth_error l i = Some a -> nth_error l j = Some a' -> R b a -> R b a' -> i = j) -> length l <= length l'.
Proof.
  intros A B l l' R H U. assert (W : exists w, incl w l' /\ Forall2 (fun a b => R b a) l w).
  { clear U. induction l as [|a l IH]; [exists []; split; [intros x []|constructor]|]. destruct (H a (or_introl eq_refl)) as (b & Ib & Rb).
    destruct IH as (w & Iw & F); [intros x I; apply H; right; exact I|]. exists (b :: w). split; [|constructor; assumption]. intros x [<-|I]; auto. }
  destruct W as (w & Iw & F). rewrite (Forall2_len _ _ _ _ _ F). apply NoDup_incl_length; [|exact Iw]. apply NoDup_nth_error. intros i j Hi E.
  assert (X : forall k b, nth_error w k = Some b -> exists a, nth_error l k = Some a /\ R b a).
  { clear -F. induction F as [|a b l w Rab F IH]; intros [|k] c K; cbn in *; try discriminate K; [injection K as <-; exists a; auto|apply IH, K]. }
  destruct (nth_error w i) as [b|] eqn:Ei; [|apply nth_error_None in Ei; lia]. symmetry in E. destruct (X i b Ei) as (a & Ea & Ra). destruct (X j b E) as (a' & Ea' & Ra').
  exact (U i j a a' b Ea Ea' Ra Ra').
Qed.

Lemma sum_below : forall a b c d e f g h E P S N C o : nat, a <= E -> b <= P -> c <= S -> d <= N -> e <= E -> f <= P -> C = g + o -> h <= N ->
  (N.of_nat (2 * E + 2 * P + S + 2 * N + C) < 2 ^ 32)%N -> (N.of_nat (a + (b + (c + (d + (e + (f + (g + (h + 0)))))))) < 2 ^ 32)%N.
Proof. intros. lia. Qed.
Lemma sum_below' : forall a b c d e f g h F P S N D : nat, a <= F -> b <= P -> c <= S -> d <= N -> e <= P -> f <= D -> g <= F -> h <= N ->
  (N.of_nat (2 * F + 2 * P + S + 2 * N + D) < 2 ^ 32)%N -> (N.of_nat (a + (b + (c + (d + (e + (f + (g + (h + 0)))))))) < 2 ^ 32)%N.
Proof. intros. lia. Qed.
Lemma pointset_countable : forall geo m r, consistent (ps_points m) (g_colocated geo (ps_points m)) -> inspect_point_set geo m = Ok r ->
  below_2_32 (length (ps_points m)) -> countable (pointset_categories r).
Proof.
  intros geo m r C H B. destruct (C04_groups_are_classes geo (ps_points m) C) as (c & E & G). unfold inspect_point_set in H. rewrite E in H. injection H as <-.
  pose proof (groups_below _ _ _ G (proj1 C)) as L. unfold countable, total, below_2_32 in *. cbn [pointset_categories map list_sum fold_right of_list cat_size pr_colocated]. lia.
Qed.
Lemma curve_countable : forall ms geo m r, consistent (ec_points m) (g_colocated geo (ec_points m)) -> inspect_edged_curve ms geo m = Ok r ->
  below_2_32 (length (ec_points m) + length (ec_edges m)) -> countable (curve_categories r).
Proof.
  intros ms geo m r C H B. destruct (C04_groups_are_classes geo (ec_points m) C) as (c & E & G). unfold inspect_edged_curve in H. cbv zeta in H. rewrite E in H. injection H as <-.
  pose proof (groups_below _ _ _ G (proj1 C)) as L. pose proof (listed_below _ _ (length (ec_edges m)) (proj2 (C19_curve_small_edges ms geo m)) (fun x K => proj1 K)) as L'.
  unfold countable, total, below_2_32 in *. cbn [curve_categories map list_sum fold_right of_list cat_size cr_colocated cr_edges assigned]. lia.
Qed.
Lemma surface_countable : forall ms geo ho name px candidates m st ints r, surface_queries geo m -> surface_intersecting_elements px m candidates ints ->
  inspect_surface ms geo ho name m st ints = Ok r -> below_2_32 (surface_size m candidates) -> countable (surface_categories r).
Proof.
  intros ms geo ho name px candidates m st ints r Q I H B. destruct Q as [Qc Qa Qe Qu Qv Qf Qp].
  destruct (C09_surface_adjacency name m Qa) as (ra & ba & Ea & La & _).
  destruct (C04_groups_are_classes geo (sm_points m) Qc) as (c & Ec & G).
  destruct (proj1 (C19_mesh_degenerated_edges ms geo st) m Qe) as (re & Ee & Le).
  pose proof (proj1 (C20_small_heights GLOBAL_EPSILON) m) as Lp.
  destruct (C13_surface_edges ho ho m Qu) as [Lu _].
  destruct (C14_surface_vertices geo m Qv Qf) as (rv & bv & Ev & Lv & _).
  destruct (C26_list_is_exact px m candidates ints I) as (ri & -> & _ & others & Pm & _).
  destruct (C24_surface ms m Qp) as [Ln _].
  unfold inspect_surface in H. cbv zeta in H. rewrite Ea, Ec, Ee, Ev in H. injection H as <-.
  apply listed_among with (l' := all_polygon_edges m) in La; [|intros e (X & _); apply in_all_polygon_edges, X].
  apply groups_below with (n := length (sm_points m)) in G; [|apply Qc].
  apply listed_below with (n := length (sm_edges m)) in Le; [|intros e (a & b & p & q & X & _); apply nth_error_Some; congruence].
  apply listed_below with (n := nb_polygons m) in Lp; [|intros p (X & _); exact X].
  assert (Lu' : length (ii_issues (surface_non_manifold_edges ho m)) <= length (all_polygon_edges m)).
  { apply witnessed with (R := fun e ab => joins m (fst ab) (snd ab) e /\ fst ab <= snd ab).
    - intros ab X. apply Lu in X. destruct X as (Hab & n & Hn & (l & [_ Hl] & Nl) & _). destruct l as [|e l]; [cbn in Nl; lia|]. exists e.
      assert (J : joins m (fst ab) (snd ab) e) by (apply Hl; left; reflexivity). split; [apply in_all_polygon_edges, J|]. split; assumption.
    - intros i j [a b] [a' b'] e Hi Hj [[_ J] O] [[_ J'] O']. cbn [fst snd] in *. assert (E : (a, b) = (a', b')) by (f_equal; lia).
      rewrite <- E in Hj. apply (proj1 (NoDup_nth_error _) (proj1 Lu)); [apply nth_error_Some; congruence|congruence]. }
  apply listed_below with (n := length (sm_points m)) in Lv; [|intros v (X & _); exact X].
  apply listed_below with (n := nb_polygons m) in Ln; [|intros p (_ & vs & pts & X & _); apply nth_error_Some; congruence].
  apply Permutation_length in Pm. rewrite app_length in Pm.
  unfold countable, total, below_2_32, surface_size in *. cbn [surface_categories map list_sum fold_right of_list cat_size assigned
    sr_adjacency sr_colocated sr_edges sr_polygons sr_manifold_edges sr_manifold_vertices sr_intersections sr_negative].
  change (degenerated_polygons m) with (small_height_polygons m GLOBAL_EPSILON). exact (sum_below _ _ _ _ _ _ _ _ _ _ _ _ _ _ La G Le Lp Lu' Lv Pm Ln B).
Qed.

Lemma flat_length : forall A B (f : A -> list B) l, length (flat_map f l) = list_sum (map (fun x => length (f x)) l).
Proof. intros A B f l. induction l as [|x l IH]; [reflexivity|]. cbn. rewrite app_length, IH. reflexivity. Qed.
Lemma polyhedron_edges_number : forall m, length (all_polyhedron_edges m) = list_sum (map (fun p => length (ph_edges (polyhedron m p))) (seq 0 (nb_polyhedra m))).
Proof. intros m. unfold all_polyhedron_edges, Range. rewrite flat_length. f_equal. apply map_ext. intros p. rewrite map_length, seq_length. reflexivity. Qed.
Lemma same_cycle_common : forall (f a b : list nat), NoDup f -> same_cycle f a -> same_cycle f b -> same_cycle a b.
Proof.
  intros f a b N A B. assert (Na : NoDup a) by (apply (Permutation_NoDup (same_cycle_perm _ _ _ A) N)).
  apply (vertex_cycle_iff a b Na). rewrite <- (proj2 (vertex_cycle_iff f a N) A). apply vertex_cycle_iff; assumption.
Qed.
Lemma solid_countable : forall ms geo ho name m st r, solid_queries geo m -> inspect_solid ms geo ho name m st = Ok r ->
  below_2_32 (solid_size m) -> countable (solid_categories r).
Proof.
  intros ms geo ho name m st r Q H B. destruct Q as [Qc Qa Qe Qv Qf Qfe Qn Qp].
  destruct (C10_solid_adjacency name m Qa) as (ra & ba & Ea & La & _).
  destruct (C04_groups_are_classes geo (so_points m) Qc) as (c & Ec & G).
  destruct (proj2 (C19_mesh_degenerated_edges ms geo st) m Qe) as (re & Ee & Le).
  pose proof (proj2 (C20_small_heights GLOBAL_EPSILON) m) as Lp.
  destruct (C15_solid_vertices geo m Qv Qf) as (rv & bv & Ev & Lv & _).
  destruct (C16_solid_edges m Qfe) as (rd & Ed & el & Eel & Sd & Ld).
  destruct (C17_solid_facets ho ho m (proj2 Qa) Qn) as [[Lf1 [_ Lf3]] _].
  destruct (C24_solid ms m Qp) as [Ln _].
  unfold inspect_solid in H. cbv zeta in H. rewrite Ea, Ec, Ee, Ev, Ed in H. injection H as <-.
  apply listed_among with (l' := all_polyhedron_facets m) in La; [|intros e (X & _); apply in_all_polyhedron_facets, X].
  apply groups_below with (n := length (so_points m)) in G; [|apply Qc].
  apply listed_below with (n := length (so_edges m)) in Le; [|intros e (a & b & p & q & X & _); apply nth_error_Some; congruence].
  apply listed_below with (n := nb_polyhedra m) in Lp; [|intros p (X & _); exact X].
  apply listed_below with (n := length (so_points m)) in Lv; [|intros v (X & _); exact X].
  apply listed_below with (n := nb_polyhedra m) in Ln; [|intros p (ph & X & _); apply nth_error_Some; congruence].
  assert (Ld' : length (ii_issues rd) <= length (all_polyhedron_edges m)).
  { rewrite Eel, map_length, <- (map_length fst el). apply NoDup_incl_length.
    - clear -Sd. induction Sd as [|x el Sd IH F]; [constructor|]. cbn. constructor; [|exact IH]. intros I. apply in_map_iff in I as (y & E & I).
      rewrite Forall_forall in F. specialize (F y I). rewrite E in F. exact (lex_lt_irrefl _ F).
    - intros e I. apply in_map_iff in I as ([e' ab] & <- & I). apply Ld in I. cbn [fst]. destruct I as [[X _]|[X _]]; apply (in_polyhedron_edges _ _ _ X). }
  assert (Lf' : length (ii_issues (solid_non_manifold_facets ho m)) <= length (all_polyhedron_facets m)).
  { apply witnessed with (R := fun f cy => is_polyhedron_facet m f /\ same_cycle (polyhedron_facet_vertices m f) cy).
    - intros cy X. destruct (Lf1 cy X) as (f & g & h & _ & _ & _ & Y). destruct (Y f (or_introl eq_refl)) as [Y1 Y2]. exists f. split; [apply in_all_polyhedron_facets, Y1|]. auto.
    - intros i j a a' f Hi Hj [X1 X2] [_ X3]. apply (Lf3 i j a a' Hi Hj). destruct (proj2 Qa f X1) as [_ N]. exact (same_cycle_common _ _ _ N X2 X3). }
  rewrite polyhedron_edges_number in Ld'.
  unfold countable, total, below_2_32, solid_size in *. cbn [solid_categories map list_sum fold_right of_list cat_size assigned
    so_r_adjacency so_r_colocated so_r_edges so_r_polyhedra so_r_manifold_vertices so_r_manifold_edges so_r_manifold_facets so_r_negative].
  change (degenerated_polyhedra m) with (small_height_polyhedra m GLOBAL_EPSILON). exact (sum_below' _ _ _ _ _ _ _ _ _ _ _ _ _ La G Le Lp Lv Ld' Lf' Ln B).
Qed.
