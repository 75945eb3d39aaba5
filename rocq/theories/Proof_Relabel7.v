(** Unique vertices numbered in another way: the whole reports, the number of complaints; an exact search is blind to the numbers. *)
From Coq Require Import String Ascii List Arith NArith ZArith Bool Lia Permutation Sorted Floats.SpecFloat.
From Verif Require Import Base BaseFacts Model_Issues Types Model_Hash Model_Colocation Model_Manifold Model_Topology Model_BRep Model_Blocks Model_Results Model_Validity
  Spec_Colocation Spec_Renumber Spec_Relabel Proof_GoodModels Proof_Searches.
Import ListNotations.
Open Scope list_scope.

(** ** An exact search *)
Lemma double_same_sym : forall a b, double_same a b = double_same b a.
Proof.
  intros [s|s| |s m e] [s'|s'| |s' m' e']; try reflexivity. cbn. rewrite (Pos.eqb_sym m m'), (Z.eqb_sym e e'). f_equal. f_equal. destruct s, s'; reflexivity.
Qed.
Lemma double_same_trans : forall a b c, double_same a b = true -> double_same b c = true -> double_same a c = true.
Proof.
  intros [s|s| |s m e] [s'|s'| |s' m' e'] [t|t| |t n g]; try discriminate; try reflexivity. cbn. rewrite !andb_true_iff, !Pos.eqb_eq, !Z.eqb_eq, !eqb_true_iff.
  intros [[-> ->] ->] [[-> ->] ->]. auto.
Qed.
Lemma same_point_sym : forall p q, same_point p q = true -> same_point q p = true.
Proof. intros [|a [|? ?]] [|b [|? ?]]; try discriminate; [reflexivity|]. cbn. rewrite double_same_sym. auto. Qed.
Lemma same_point_trans : forall p q r, same_point p q = true -> same_point q r = true -> same_point p r = true.
Proof. intros [|a [|? ?]] [|b [|? ?]] [|c [|? ?]]; try discriminate; [reflexivity|]. apply double_same_trans. Qed.
Lemma index_of_same : forall p u i k, index_of p u i = Some k -> exists q, nth_error u (k - i) = Some q /\ same_point q p = true /\ i <= k.
Proof.
  intros p u. induction u as [|q u IH]; intros i k E; [discriminate|]. cbn [index_of] in E. destruct (same_point q p) eqn:S.
  - injection E as <-. exists q. rewrite Nat.sub_diag. auto.
  - destruct (IH (Datatypes.S i) k E) as (q' & A & B & C). exists q'. replace (k - i) with (Datatypes.S (k - Datatypes.S i)) by lia. split; [exact A|]. split; [exact B|lia].
Qed.
Lemma index_of_none : forall p u i, index_of p u i = None -> forall q, In q u -> same_point q p = false.
Proof.
  intros p u. induction u as [|x u IH]; intros i E q I; [destruct I|]. cbn [index_of] in E. destruct (same_point x p) eqn:S; [discriminate|].
  destruct I as [<-|I]; [exact S|]. exact (IH _ E q I).
Qed.
Lemma nth_snoc : forall A (l : list A) x i y, nth_error (l ++ [x]) i = Some y <-> nth_error l i = Some y \/ (i = length l /\ x = y).
Proof.
  intros A l x i y. destruct (Nat.lt_ge_cases i (length l)) as [L|L].
  - rewrite nth_error_app1 by exact L. split; [auto|intros [E|[E _]]; [exact E|lia]].
  - rewrite nth_error_app2 by exact L. split.
    + intros E. right. destruct (i - length l) as [|k] eqn:K; [|destruct k; discriminate]. injection E as ->. split; [lia|reflexivity].
    + intros [E|[-> ->]]; [apply nth_error_None in L; congruence|rewrite Nat.sub_diag; reflexivity].
Qed.
Record seen (points : list Point) (mp : list nat) (u : list Point) : Prop := {
  sn_length : length mp = length points;
  sn_rep : forall i k p, nth_error mp i = Some k -> nth_error points i = Some p -> exists q, nth_error u k = Some q /\ (q = p \/ same_point q p = true);
  sn_distinct : forall k k' q q', nth_error u k = Some q -> nth_error u k' = Some q' -> same_point q q' = true -> k = k';
  sn_pairs : forall i j p q a b, i < j -> nth_error mp i = Some a -> nth_error mp j = Some b -> nth_error points i = Some p -> nth_error points j = Some q ->
    (a = b <-> same_point p q = true) }.
Definition see (acc : list nat * list Point) (p : Point) : list nat * list Point :=
  let '(map, u) := acc in match index_of p u 0 with Some i => (map ++ [i], u) | None => (map ++ [length u], u ++ [p]) end.
Lemma seen_next : forall points mp u p, seen points mp u -> seen (points ++ [p]) (fst (see (mp, u) p)) (snd (see (mp, u) p)).
Proof.
  intros points mp u p H. unfold see. destruct (index_of p u 0) as [k|] eqn:E; cbn [fst snd].
  - apply index_of_same in E as (q & E & S & _). rewrite Nat.sub_0_r in E. constructor.
    + rewrite !app_length, (sn_length _ _ _ H). reflexivity.
    + intros i k' x A B. rewrite nth_snoc in A, B. rewrite (sn_length _ _ _ H) in A. destruct A as [A|[-> <-]], B as [B|[B' <-]].
      * exact (sn_rep _ _ _ H i k' x A B).
      * assert (i < length mp) by (apply nth_error_Some; congruence). rewrite (sn_length _ _ _ H) in *. lia.
      * assert (length points < length points) by (apply nth_error_Some; congruence). lia.
      * exists q. auto.
    + exact (sn_distinct _ _ _ H).
    + intros i j x y a b L A B X Y. rewrite nth_snoc in A, B, X, Y. rewrite (sn_length _ _ _ H) in A, B.
      assert (J : j <= length points) by (destruct Y as [Y|[-> _]]; [|lia]; assert (j < length points) by (apply nth_error_Some; congruence); lia).
      destruct A as [A|[-> _]]; [|lia]. destruct X as [X|[-> _]]; [|lia]. destruct Y as [Y|[-> <-]].
      * assert (j < length points) by (apply nth_error_Some; congruence). destruct B as [B|[-> _]]; [|lia]. exact (sn_pairs _ _ _ H i j x y a b L A B X Y).
      * destruct B as [B|[_ <-]]; [assert (length points < length mp) by (apply nth_error_Some; congruence); rewrite (sn_length _ _ _ H) in *; lia|].
        destruct (sn_rep _ _ _ H i a x A X) as (r & Er & C). split.
        -- intros ->. rewrite E in Er. injection Er as <-. destruct C as [<-|C]; [exact S|]. eapply same_point_trans; [apply same_point_sym, C|exact S].
        -- intros T. apply (sn_distinct _ _ _ H a k r q Er E). assert (V : same_point r p = true) by (destruct C as [->|C]; [exact T|eapply same_point_trans; eassumption]).
           eapply same_point_trans; [exact V|apply same_point_sym, S].
  - pose proof (index_of_none _ _ _ E) as Z. constructor.
    + rewrite !app_length, (sn_length _ _ _ H). reflexivity.
    + intros i k' x A B. rewrite nth_snoc in A, B. rewrite (sn_length _ _ _ H) in A. destruct A as [A|[-> <-]], B as [B|[B' <-]].
      * destruct (sn_rep _ _ _ H i k' x A B) as (q & Q & C). exists q. split; [rewrite nth_snoc; auto|exact C].
      * assert (i < length mp) by (apply nth_error_Some; congruence). rewrite (sn_length _ _ _ H) in *. lia.
      * assert (length points < length points) by (apply nth_error_Some; congruence). lia.
      * exists p. split; [rewrite nth_snoc; auto|auto].
    + intros a b q q' A B S. rewrite nth_snoc in A, B. destruct A as [A|[-> <-]], B as [B|[-> <-]].
      * exact (sn_distinct _ _ _ H a b q q' A B S).
      * apply nth_error_In, Z in A. congruence.
      * apply nth_error_In, Z in B. apply same_point_sym in S. congruence.
      * reflexivity.
    + intros i j x y a b L A B X Y. rewrite nth_snoc in A, B, X, Y. rewrite (sn_length _ _ _ H) in A, B.
      assert (J : j <= length points) by (destruct Y as [Y|[-> _]]; [|lia]; assert (j < length points) by (apply nth_error_Some; congruence); lia).
      destruct A as [A|[-> _]]; [|lia]. destruct X as [X|[-> _]]; [|lia]. destruct Y as [Y|[-> <-]].
      * assert (j < length points) by (apply nth_error_Some; congruence). destruct B as [B|[-> _]]; [|lia]. exact (sn_pairs _ _ _ H i j x y a b L A B X Y).
      * destruct B as [B|[_ <-]]; [assert (length points < length mp) by (apply nth_error_Some; congruence); rewrite (sn_length _ _ _ H) in *; lia|].
        destruct (sn_rep _ _ _ H i a x A X) as (r & Er & C). split.
        -- intros ->. assert (length u < length u) by (apply nth_error_Some; congruence). lia.
        -- intros T. apply nth_error_In, Z in Er. destruct C as [->|C]; [congruence|]. rewrite (same_point_trans _ _ _ C T) in Er. discriminate.
Qed.
Lemma seen_all : forall l points mp u, seen points mp u -> seen (points ++ l) (fst (fold_left see l (mp, u))) (snd (fold_left see l (mp, u))).
Proof.
  induction l as [|p l IH]; intros points mp u H; [rewrite app_nil_r; exact H|]. cbn [fold_left]. apply seen_next with (p := p) in H.
  destruct (see (mp, u) p) as [mp' u']. cbn [fst snd] in H. apply IH in H. rewrite <- app_assoc in H. exact H.
Qed.
Lemma exact_seen : forall points, seen points (colocated_mapping (g_colocated exact_geo points)) (unique_points (g_colocated exact_geo points)).
Proof.
  intros points. apply (seen_all points [] [] []). constructor; [reflexivity| | |].
  - intros i k p E. destruct i; discriminate.
  - intros k k' q q' E. destruct k; discriminate.
  - intros i j p q a b _ E. destruct i; discriminate.
Qed.
Lemma exact_place : forall points i j p q, nth_error points i = Some p -> nth_error points j = Some q ->
  (same_place (g_colocated exact_geo points) i j <-> i = j \/ same_point p q = true).
Proof.
  intros points i j p q P Q. pose proof (exact_seen points) as H. set (mp := colocated_mapping (g_colocated exact_geo points)) in *.
  assert (X : forall k r, nth_error points k = Some r -> exists a, nth_error mp k = Some a).
  { intros k r E. assert (k < length mp) by (rewrite (sn_length _ _ _ H); apply nth_error_Some; congruence). destruct (nth_error mp k) eqn:N; [eauto|]. apply nth_error_None in N. lia. }
  destruct (X i p P) as (a & A), (X j q Q) as (b & B). unfold same_place. fold mp.
  assert (E : (exists u, nth_error mp i = Some u /\ nth_error mp j = Some u) <-> a = b) by (rewrite A, B; split; [intros (u & U & V); congruence|intros ->; eauto]).
  rewrite E. destruct (lt_eq_lt_dec i j) as [[L|L]|L].
  - rewrite (sn_pairs _ _ _ H i j p q a b L A B P Q). split; [auto|intros [->|S]; [lia|exact S]].
  - subst j. assert (a = b) by congruence. tauto.
  - pose proof (sn_pairs _ _ _ H j i q p b a L B A Q P) as S. split.
    + intros ->. right. apply same_point_sym, S. reflexivity.
    + intros [->|T]; [lia|]. symmetry. apply S, same_point_sym, T.
Qed.
Lemma sorted_nth : forall l i j (x : nat), StronglySorted lt l -> nth_error l i = Some x -> nth_error l j = Some x -> i = j.
Proof.
  intros l i j x S. revert i j. induction S as [|y l S IH F]; intros i j A B; [destruct i; discriminate|]. rewrite Forall_forall in F.
  destruct i as [|i], j as [|j]; cbn in A, B; [reflexivity| | |f_equal; apply IH; assumption].
  - injection A as ->. apply nth_error_In, F in B. lia.
  - injection B as ->. apply nth_error_In, F in A. lia.
Qed.
Lemma position_range : forall m uv p, unique_vertex_position m uv p -> uv < nb_unique_vertices m.
Proof. intros m uv p (pre & c0 & post & H & _). exact H. Qed.
Lemma exact_blind : forall f m m', numbers (nb_unique_vertices m) f -> blind_to_labels exact_geo f m m'.
Proof.
  intros f m m' N l l' [S P] [S' P']. split; [apply exact_consistent|]. split; [apply exact_consistent|].
  intros a b a' b' i j p q A B A' B'.
  assert (X : forall (k : list (nat * Point)) n x y, nth_error k n = Some (x, y) -> nth_error (map snd k) n = Some y /\ nth_error (map fst k) n = Some x).
  { intros k n x y E. rewrite !nth_error_map, E. split; reflexivity. }
  destruct (X _ _ _ _ A) as [A1 A2], (X _ _ _ _ B) as [B1 B2], (X _ _ _ _ A') as [A1' A2'], (X _ _ _ _ B') as [B1' B2'].
  rewrite (exact_place _ a b p q A1 B1), (exact_place _ a' b' p q A1' B1').
  assert (I : i < nb_unique_vertices m) by (eapply position_range, P, nth_error_In, A). assert (J : j < nb_unique_vertices m) by (eapply position_range, P, nth_error_In, B).
  split; (intros [E|E]; [left|right; exact E]).
  - subst b'. assert (f i = f j) by congruence. assert (i = j) by (apply (proj2 N); assumption). subst j. exact (sorted_nth _ _ _ _ S A2 B2).
  - subst b. assert (i = j) by congruence. subst j. exact (sorted_nth _ _ _ _ S' A2' B2').
Qed.

(** ** As many issues, as many complaints *)
Lemma renumbered_length : forall A B (g : A -> B) r r', renumbered_issues g r r' -> nb_issues r' = nb_issues r.
Proof. intros A B g r r' P. apply Permutation_length in P. rewrite map_length in P. unfold nb_issues, size32. rewrite P. reflexivity. Qed.
Lemma Forall2_same_length : forall A B (P : A -> B -> Prop) l k, Forall2 P l k -> length k = length l.
Proof. intros A B P l k F. induction F as [|x y a b _ _ IH]; [reflexivity|]. cbn. f_equal. exact IH. Qed.
Lemma edges_length : forall f r r', relabelled_edges f r r' -> nb_issues r' = nb_issues r.
Proof.
  intros f r r' (l & P & F). apply Permutation_length in P. apply Forall2_same_length in F. unfold nb_issues, size32. f_equal. f_equal. etransitivity; [symmetry; exact P|exact F].
Qed.
Lemma facets_length : forall f (r r' : InspectionIssues BRepNonManifoldFacet), ii_issues r' = map (new_facet f) (ii_issues r) -> nb_issues r' = nb_issues r.
Proof. intros f r r' E. unfold nb_issues, size32. f_equal. f_equal. etransitivity; [exact (f_equal (@length _) E)|apply map_length]. Qed.
Lemma add_list_length : forall A B (x : InspectionIssues A) (x' : InspectionIssues B) v v', nb_issues x' = nb_issues x -> length v' = length v -> length (add_list x' v') = length (add_list x v).
Proof. intros A B x x' v v' E L. unfold add_list. rewrite E. destruct (N.eqb (nb_issues x) 0); [exact L|]. rewrite !app_length, L. reflexivity. Qed.
Lemma add_map_length : forall A ho (x : InspectionIssuesMap A) v v', length v' = length v -> length (add_map ho x v') = length (add_map ho x v).
Proof. intros A ho x v v' L. unfold add_map. destruct (N.eqb (map_nb_issues x) 0); [exact L|]. rewrite !app_length, L. reflexivity. Qed.

Ltac same_count H := first [exact (f_equal nb_issues H)|eapply renumbered_length, H|eapply edges_length, H|eapply facets_length, H].
Section Counts.
Context (f : nat -> nat).
Lemma unique_vertices_counts : forall r r', relabelled_unique_vertices f r r' -> nb_issues (ur_colocated r') = nb_issues (ur_colocated r) /\ nb_issues (ur_different r') = nb_issues (ur_different r).
Proof. intros r r' [H1 H2]. split; [same_count H1|same_count H2]. Qed.
Lemma corners_counts : forall ho r r', relabelled_corners f r r' -> corners_nb_issues r' = corners_nb_issues r /\
  forall v v', length v' = length v -> length (add_corners_topology_issues ho r' v') = length (add_corners_topology_issues ho r v).
Proof.
  intros ho r r' [H1 H2 H3 H4 H5 H6]. apply renumbered_length in H3, H4, H5, H6. split.
  - unfold corners_nb_issues. rewrite H1, H2, H3, H4, H5, H6. reflexivity.
  - intros v v' L. unfold add_corners_topology_issues. cbv zeta. rewrite H1, H2.
    apply add_list_length; [exact H6|]. apply add_list_length; [exact H5|]. apply add_list_length; [exact H4|]. apply add_list_length; [exact H3|]. apply add_map_length. apply add_list_length; [reflexivity|exact L].
Qed.
Lemma links_counts : forall r r', relabelled_links f r r' ->
  (nb_issues (li_not_linked r') = nb_issues (li_not_linked r) /\ nb_issues (li_inexistant r') = nb_issues (li_inexistant r) /\ nb_issues (li_nonbijective r') = nb_issues (li_nonbijective r)) /\
  forall v v', length v' = length v -> length (add_uv_topology_issues r' v') = length (add_uv_topology_issues r v).
Proof.
  intros r r' [H1 H2 H3]. apply renumbered_length in H1, H2, H3. split; [auto|]. intros v v' L. unfold add_uv_topology_issues. cbv zeta.
  apply add_list_length; [exact H3|]. apply add_list_length; [exact H2|]. apply add_list_length; [exact H1|exact L].
Qed.
Lemma section_counts : forall ho a a' b b', relabelled_section_meshes f a a' -> relabelled_section_topology f b b' ->
  section_nb_issues (mkSectionResult a' b') = section_nb_issues (mkSectionResult a b) /\ length (section_validity ho (mkSectionResult a' b')) = length (section_validity ho (mkSectionResult a b)).
Proof.
  intros ho a a' b b' A B. destruct (unique_vertices_counts _ _ (lsm_unique_vertices _ _ _ A)) as [U1 U2]. destruct (corners_counts ho _ _ (lst_corners _ _ _ B)) as [C1 C2].
  destruct (links_counts _ _ (lst_links _ _ _ B)) as [[L1 [L2 L3]] L4]. destruct A as [_ A2 A3 A4 A5 A6 A7]. destruct B as [_ B1 B2 B3 B4 B5 B6 B7 B8 B9 B10 _].
  apply renumbered_length in B3, B4, B5, B6, B9, B10. split.
  - unfold section_nb_issues, section_meshes_nb_issues, section_topology_nb_issues, section_lines_nb_issues, section_surfaces_nb_issues, unique_vertices_nb_issues.
    cbn [r_section_meshes r_section_topology]. rewrite U1, U2, A2, A3, A4, A5, A6, A7, C1, L1, L2, L3, B1, B2, B3, B4, B5, B7, B8, B9, B10. reflexivity.
  - unfold section_validity. cbn [r_section_meshes r_section_topology]. unfold add_section_topology_invalidities. cbv zeta. apply L4.
    unfold add_section_surfaces_topology_issues. cbv zeta. rewrite B7, B8. apply add_list_length; [exact B10|]. apply add_list_length; [exact B9|]. apply add_map_length. apply add_list_length; [reflexivity|].
    unfold add_section_lines_topology_issues. cbv zeta. rewrite B1, B2. apply add_list_length; [exact B6|]. apply add_list_length; [exact B5|]. apply add_list_length; [exact B4|].
    apply add_list_length; [exact B3|]. apply add_map_length. apply add_list_length; [reflexivity|]. apply C2.
    unfold add_section_meshes_invalidities, add_section_manifold_issues, add_section_degeneration_issues, add_section_adjacencies_issues, add_colocation_issues. cbv zeta. rewrite A2, A3, A4, A5, A6, A7.
    apply add_map_length. apply add_map_length. apply add_map_length. apply add_list_length; [reflexivity|]. apply add_map_length. apply add_map_length. apply add_map_length. apply add_map_length.
    apply add_list_length; [exact U2|]. apply add_list_length; [exact U1|reflexivity].
Qed.
Lemma brep_counts : forall ho a a' b b', relabelled_brep_meshes f a a' -> relabelled_brep_topology f b b' ->
  brep_nb_issues (mkBRepResult a' b') = brep_nb_issues (mkBRepResult a b) /\ length (brep_validity ho (mkBRepResult a' b')) = length (brep_validity ho (mkBRepResult a b)).
Proof.
  intros ho a a' b b' A B. destruct (unique_vertices_counts _ _ (lbm_unique_vertices _ _ _ A)) as [U1 U2]. destruct (corners_counts ho _ _ (lbt_corners _ _ _ B)) as [C1 C2].
  destruct (links_counts _ _ (lbt_links _ _ _ B)) as [[L1 [L2 L3]] L4]. destruct A as [_ A2 A3 A4 A5 M1 M2 M3 M4 M5 A7].
  destruct B as [_ B1 B2 B3 B4 B5 B6 B7 S1 S2 S3 S4 S5 S6 K1 K2 K3 K4 K5 K6 K7 K8 K9 K10 _].
  apply renumbered_length in B4, B5, B6, B7, S4, S5, S6, K6, K7, K8, K9, K10. apply edges_length in M4. apply facets_length in M5. split.
  - unfold brep_nb_issues, brep_meshes_nb_issues, brep_topology_nb_issues, brep_lines_nb_issues, brep_surfaces_nb_issues, brep_blocks_nb_issues, brep_manifold_nb_issues, unique_vertices_nb_issues.
    cbn [r_brep_meshes r_brep_topology]. rewrite U1, U2, A2, A3, A4, A5, A7, M1, M2, M3, M4, M5, C1, L1, L2, L3, B1, B2, B3, B4, B5, B6, B7, S1, S2, S4, S5, S6, K1, K2, K3, K4, K5, K6, K7, K8, K9, K10. reflexivity.
  - unfold brep_validity. cbn [r_brep_meshes r_brep_topology]. unfold add_brep_topology_invalidities. cbv zeta. apply L4.
    unfold add_brep_blocks_topology_issues. cbv zeta. rewrite K1, K2, K3, K4, K5.
    repeat (first [apply add_list_length; [first [assumption|reflexivity]|]|apply add_map_length]).
    unfold add_brep_surfaces_topology_issues. cbv zeta. rewrite S1, S2, S3.
    repeat (first [apply add_list_length; [first [assumption|reflexivity]|]|apply add_map_length]).
    unfold add_brep_lines_topology_issues. cbv zeta. rewrite B1, B2, B3.
    repeat (first [apply add_list_length; [first [assumption|reflexivity]|]|apply add_map_length]).
    apply C2. unfold add_brep_meshes_invalidities, add_brep_manifold_issues, add_brep_degeneration_issues, add_brep_adjacencies_issues, add_colocation_issues. cbv zeta.
    rewrite A2, A3, A4, A5, A7, M1, M2, M3.
    repeat (first [apply add_list_length; [first [assumption|reflexivity]|]|apply add_map_length]). reflexivity.
Qed.
End Counts.
