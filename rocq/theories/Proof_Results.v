(** Counts, texts and validities of results. *)
From Coq Require Import String Ascii List Arith NArith ZArith Bool Lia.
From Verif Require Import Base BaseFacts Model_Issues Types Model_Degeneration Model_Intersections Model_Topology Model_BRep Model_Blocks Model_Results
  Model_Validity Spec_Results.
Import ListNotations.
Open Scope list_scope.

(** ** Sums *)
Definition counts (n : N) (k : nat) : Prop := n = u32 (N.of_nat k).
Lemma u32_add_l : forall a b, u32 (u32 a + b) = u32 (a + b).
Proof. intros. unfold u32. apply N.add_mod_idemp_l. discriminate. Qed.
Lemma u32_add_r : forall a b, u32 (a + u32 b) = u32 (a + b).
Proof. intros. unfold u32. apply N.add_mod_idemp_r. discriminate. Qed.
Lemma fold_counts : forall l ks, Forall2 counts l ks -> forall a k, counts a k -> counts (fold_left add32 l a) (k + list_sum ks).
Proof.
  intros l ks H. induction H; intros a k Ha; cbn [fold_left list_sum fold_right].
  - rewrite Nat.add_0_r. exact Ha.
  - rewrite Nat.add_assoc. apply IHForall2. unfold counts, add32 in *. subst. rewrite u32_add_l, u32_add_r, Nat2N.inj_add. reflexivity.
Qed.
Lemma sum_counts : forall l ks, Forall2 counts l ks -> counts (sum32 l) (list_sum ks).
Proof. intros. apply (fold_counts _ _ H 0%N 0). reflexivity. Qed.
Lemma list_counts : forall T (x : InspectionIssues T), counts (nb_issues x) (cat_size (of_list x)).
Proof. reflexivity. Qed.
Lemma map_counts : forall ho T (x : InspectionIssuesMap T), counts (map_nb_issues x) (cat_size (of_map ho x)).
Proof. reflexivity. Qed.
Ltac counting := repeat first [exact (list_counts _ _) | exact (map_counts _ _) | reflexivity | assumption
  | apply Forall2_cons | apply Forall2_nil | apply sum_counts].
Lemma counts_eq : forall n k k', counts n k -> k = k' -> counts n k'.
Proof. intros. subst. assumption. Qed.
Lemma counts_small : forall n k, counts n k -> (N.of_nat k < 2 ^ 32)%N -> n = N.of_nat k.
Proof. intros n k -> H. apply u32_small, H. Qed.
Lemma total_app : forall a b, total (a ++ b) = total a + total b.
Proof. intros. unfold total. rewrite map_app, list_sum_app. reflexivity. Qed.
Lemma all_empty_total : forall l, all_empty l <-> total l = 0.
Proof.
  unfold all_empty. induction l as [|c l IH]; [split; [reflexivity|constructor]|].
  change (total (c :: l)) with (cat_size c + total l). split.
  - intros H. apply Forall_cons_iff in H. destruct H as [H1 H2]. unfold is_empty in H1. apply IH in H2. lia.
  - intros H. constructor; [unfold is_empty; lia|]. apply IH. lia.
Qed.
Lemma counts_zero : forall n l, counts n (total l) -> countable l -> n = 0%N <-> all_empty l.
Proof. intros n l H B. rewrite (counts_small _ _ H B), all_empty_total. lia. Qed.

Lemma pointset_counts : forall r, counts (pointset_nb_issues r) (total (pointset_categories r)).
Proof. intros. unfold pointset_nb_issues, counts, nb_issues, size32. f_equal. cbn. lia. Qed.
Lemma curve_counts : forall r, counts (curve_nb_issues r) (total (curve_categories r)).
Proof. intros. apply sum_counts. counting. Qed.
Lemma surface_counts : forall r, counts (surface_nb_issues r) (total (surface_categories r)).
Proof. intros. apply sum_counts. counting. Qed.
Lemma solid_counts : forall r, counts (solid_nb_issues r) (total (solid_categories r)).
Proof. intros. apply sum_counts. counting. Qed.
Lemma unique_vertices_counts : forall r, counts (unique_vertices_nb_issues r) (total (unique_vertices_categories r)).
Proof. intros. apply sum_counts. counting. Qed.
Lemma brep_adjacency_counts : forall ho r, counts (brep_adjacency_nb_issues r) (total (brep_adjacency_categories ho r)).
Proof. intros. apply sum_counts. counting. Qed.
Lemma brep_degeneration_counts : forall ho r, counts (brep_degeneration_nb_issues r) (total (brep_degeneration_categories ho r)).
Proof. intros. apply sum_counts. counting. Qed.
Lemma section_degeneration_counts : forall ho r, counts (section_degeneration_nb_issues r) (total (section_degeneration_categories ho r)).
Proof. intros. apply sum_counts. counting. Qed.
Lemma brep_manifold_counts : forall ho r, counts (brep_manifold_nb_issues r) (total (brep_manifold_categories ho r)).
Proof. intros. apply sum_counts. counting. Qed.
Lemma section_manifold_counts : forall ho r, counts (section_manifold_nb_issues r) (total (section_manifold_categories ho r)).
Proof. intros. apply sum_counts. counting. Qed.
Lemma brep_meshes_counts : forall ho r, counts (brep_meshes_nb_issues r) (total (brep_meshes_categories ho r)).
Proof.
  intros ho r. unfold brep_meshes_categories. rewrite !total_app. eapply counts_eq.
  - apply sum_counts. repeat apply Forall2_cons; [apply unique_vertices_counts|apply (map_counts ho)|apply (brep_adjacency_counts ho)|apply (brep_degeneration_counts ho)|
      apply list_counts|apply (brep_manifold_counts ho)|apply (map_counts ho)|apply Forall2_nil].
  - unfold total, list_sum. cbn [map fold_right]. lia.
Qed.
Lemma section_meshes_counts : forall ho r, counts (section_meshes_nb_issues r) (total (section_meshes_categories ho r)).
Proof.
  intros ho r. unfold section_meshes_categories. rewrite !total_app. eapply counts_eq.
  - apply sum_counts. repeat apply Forall2_cons; [apply unique_vertices_counts|apply (map_counts ho)|apply (map_counts ho)|apply (section_degeneration_counts ho)|
      apply list_counts|apply (section_manifold_counts ho)|apply (map_counts ho)|apply Forall2_nil].
  - unfold total. unfold list_sum. cbn [map fold_right]. lia.
Qed.
Lemma corners_counts : forall ho r, counts (corners_nb_issues r) (total (corners_categories ho r)).
Proof. intros. apply sum_counts. counting. Qed.
Lemma section_lines_counts : forall ho r, counts (section_lines_nb_issues r) (total (section_lines_categories ho r) - section_lines_forgotten r).
Proof.
  intros ho r. eapply counts_eq; [apply sum_counts; repeat apply Forall2_cons; try apply list_counts; try apply (map_counts ho); apply Forall2_nil|].
  unfold total, section_lines_forgotten, section_lines_categories, list_sum. cbn [map fold_right cat_size of_list of_map]. lia.
Qed.
Lemma section_surfaces_counts : forall ho r, counts (section_surfaces_nb_issues r) (total (section_surfaces_categories ho r)).
Proof. intros. apply sum_counts. counting. Qed.
Lemma brep_lines_counts : forall ho r, counts (brep_lines_nb_issues r) (total (brep_lines_categories ho r)).
Proof. intros. apply sum_counts. counting. Qed.
Lemma brep_surfaces_counts : forall ho r, counts (brep_surfaces_nb_issues r) (total (brep_surfaces_categories ho r) - brep_surfaces_forgotten r).
Proof.
  intros ho r. eapply counts_eq; [apply sum_counts; repeat apply Forall2_cons; try apply list_counts; try apply (map_counts ho); apply Forall2_nil|].
  unfold total, brep_surfaces_forgotten, brep_surfaces_categories, list_sum. cbn [map fold_right cat_size of_list of_map]. lia.
Qed.
Lemma brep_blocks_counts : forall ho r, counts (brep_blocks_nb_issues r) (total (brep_blocks_categories ho r)).
Proof.
  intros ho r. eapply counts_eq; [apply sum_counts; repeat apply Forall2_cons; try apply list_counts; try apply (map_counts ho); apply Forall2_nil|].
  unfold total, brep_blocks_categories, list_sum. cbn [map fold_right cat_size of_list of_map]. lia.
Qed.
Lemma section_topology_counts : forall ho r,
  counts (section_topology_nb_issues r) (total (section_topology_categories ho r) - section_lines_forgotten (st_lines r)).
Proof.
  intros ho r. eapply counts_eq.
  - apply sum_counts. repeat apply Forall2_cons; [apply (corners_counts ho)|apply (section_lines_counts ho)|apply (section_surfaces_counts ho)|apply list_counts..|apply Forall2_nil].
  - unfold section_topology_categories. rewrite !total_app. unfold links_categories, section_lines_forgotten.
    assert (length (ii_issues (sl_several_not_corner (st_lines r))) <= total (section_lines_categories ho (st_lines r)))
      by (unfold total, section_lines_categories, list_sum; cbn [map fold_right cat_size of_list of_map]; lia).
    unfold total, list_sum in *. cbn [map fold_right] in *. lia.
Qed.
Lemma brep_topology_counts : forall ho r,
  counts (brep_topology_nb_issues r) (total (brep_topology_categories ho r) - brep_surfaces_forgotten (bt_surfaces r)).
Proof.
  intros ho r. eapply counts_eq.
  - apply sum_counts. repeat apply Forall2_cons; [apply (corners_counts ho)|apply (brep_lines_counts ho)|apply (brep_surfaces_counts ho)|apply (brep_blocks_counts ho)|apply list_counts..|
      apply Forall2_nil].
  - unfold brep_topology_categories. rewrite !total_app. unfold links_categories, brep_surfaces_forgotten.
    assert (length (im_map (bs_wrong_facets (bt_surfaces r))) <= total (brep_surfaces_categories ho (bt_surfaces r)))
      by (unfold total, brep_surfaces_categories, list_sum; cbn [map fold_right cat_size of_list of_map]; lia).
    unfold total, list_sum in *. cbn [map fold_right] in *. lia.
Qed.
Lemma forgotten_lines_le : forall ho r, section_lines_forgotten (st_lines r) <= total (section_topology_categories ho r).
Proof.
  intros ho r. unfold section_topology_categories. rewrite !total_app. unfold section_lines_forgotten.
  assert (length (ii_issues (sl_several_not_corner (st_lines r))) <= total (section_lines_categories ho (st_lines r)))
      by (unfold total, section_lines_categories, list_sum; cbn [map fold_right cat_size of_list of_map]; lia). lia.
Qed.
Lemma forgotten_facets_le : forall ho r, brep_surfaces_forgotten (bt_surfaces r) <= total (brep_topology_categories ho r).
Proof.
  intros ho r. unfold brep_topology_categories. rewrite !total_app. unfold brep_surfaces_forgotten.
  assert (length (im_map (bs_wrong_facets (bt_surfaces r))) <= total (brep_surfaces_categories ho (bt_surfaces r)))
      by (unfold total, brep_surfaces_categories, list_sum; cbn [map fold_right cat_size of_list of_map]; lia). lia.
Qed.
Lemma section_counts : forall ho r,
  counts (section_nb_issues r) (total (section_categories ho r) - section_lines_forgotten (st_lines (r_section_topology r))).
Proof.
  intros ho r. eapply counts_eq.
  - apply sum_counts. repeat apply Forall2_cons; [apply (section_meshes_counts ho)|apply (section_topology_counts ho)|apply Forall2_nil].
  - unfold section_categories. rewrite total_app. pose proof (forgotten_lines_le ho (r_section_topology r)). unfold list_sum. cbn [fold_right]. lia.
Qed.
Lemma brep_counts : forall ho r,
  counts (brep_nb_issues r) (total (brep_categories ho r) - brep_surfaces_forgotten (bt_surfaces (r_brep_topology r))).
Proof.
  intros ho r. eapply counts_eq.
  - apply sum_counts. repeat apply Forall2_cons; [apply (brep_meshes_counts ho)|apply (brep_topology_counts ho)|apply Forall2_nil].
  - unfold brep_categories. rewrite total_app. pose proof (forgotten_facets_le ho (r_brep_topology r)). unfold list_sum. cbn [fold_right]. lia.
Qed.

(** ** Texts *)
Lemma app_nil_s : forall s, (s ++ EmptyString)%string = s.
Proof. induction s; cbn; [reflexivity|rewrite IHs; reflexivity]. Qed.
Lemma app_assoc_s : forall a b c, ((a ++ b) ++ c)%string = (a ++ (b ++ c))%string.
Proof. induction a; intros; cbn; [reflexivity|rewrite IHa; reflexivity]. Qed.
Lemma concat_cons : forall a l, String.concat EmptyString (a :: l) = (a ++ String.concat EmptyString l)%string.
Proof. intros a [|b l]; cbn [String.concat]; [symmetry; apply app_nil_s|reflexivity]. Qed.
Lemma StrCat_concat : forall l, StrCat l = String.concat EmptyString l.
Proof. unfold StrCat. induction l; cbn [fold_right]; [reflexivity|]. rewrite IHl. symmetry. apply concat_cons. Qed.
(** [printed l s]: the chain of conditional appends over [l] starting from [s] *)
Definition printed (l : list category) (s : string) : string := (s ++ String.concat EmptyString (non_empty_texts l))%string.
Lemma non_empty_cons : forall c l, String.concat EmptyString (non_empty_texts (c :: l)) =
  ((if Nat.eqb (cat_size c) 0 then EmptyString else cat_text c) ++ String.concat EmptyString (non_empty_texts l))%string.
Proof. intros. unfold non_empty_texts. cbn [filter]. destruct (Nat.eqb (cat_size c) 0); cbn [negb map]; [reflexivity|apply concat_cons]. Qed.
Lemma u32_eqb : forall k, (N.of_nat k < 2 ^ 32)%N -> N.eqb (u32 (N.of_nat k)) 0 = Nat.eqb k 0.
Proof. intros k H. rewrite (u32_small _ H). destruct k; [reflexivity|]. cbn [Nat.eqb]. apply N.eqb_neq. lia. Qed.
Lemma append_step : forall n text c l s, counts n (cat_size c) -> (N.of_nat (cat_size c) < 2 ^ 32)%N -> StrCat text = cat_text c ->
  printed l (append_if n text s) = printed (c :: l) s.
Proof.
  intros n text c l s Hn Hb Ht. unfold printed, append_if. rewrite non_empty_cons. rewrite Hn, (u32_eqb _ Hb).
  destruct (Nat.eqb (cat_size c) 0); [reflexivity|]. change (StrCat (s :: text)) with (s ++ StrCat text)%string. rewrite Ht, app_assoc_s. reflexivity.
Qed.
Lemma printed_nil : forall s, printed [] s = s.
Proof. intros. apply app_nil_s. Qed.
Definition speaks (c : category) : Prop := cat_text c <> EmptyString.
Lemma app_newline : forall s t, (s ++ t)%string = EmptyString -> t = EmptyString.
Proof. intros [|a s] t H; cbn in H; [exact H|discriminate H]. Qed.
Lemma ends_newline : forall l, StrCat (l ++ [newline]) <> EmptyString.
Proof.
  induction l as [|a l IH]; intros H; [discriminate H|]. apply IH. change (StrCat ((a :: l) ++ [newline])) with (a ++ StrCat (l ++ [newline]))%string in H.
  apply app_newline in H. exact H.
Qed.
Lemma of_list_speaks : forall T (x : InspectionIssues T), speaks (of_list x).
Proof.
  intros T x. unfold speaks. cbn [of_list cat_text]. unfold issues_string.
  destruct (ii_issues x); [apply (ends_newline [_; _])|apply (ends_newline [_])].
Qed.
Lemma of_map_speaks : forall ho T (x : InspectionIssuesMap T), speaks (of_map ho x).
Proof.
  intros ho T x. unfold speaks. cbn [of_map cat_text]. unfold map_string.
  destruct (im_map x); [apply (ends_newline [_; _])|apply (ends_newline [_])].
Qed.
Lemma spaced_speaks : forall c, speaks (spaced c).
Proof. intros c H. unfold spaced in H. cbn [cat_text] in H. apply app_newline in H. discriminate H. Qed.
Lemma shows_or_else : forall l otherwise, Forall speaks l -> shows l otherwise (or_else (printed l EmptyString) otherwise).
Proof.
  intros l otherwise H. unfold shows, printed. cbn [append].
  assert (K : all_empty l /\ String.concat EmptyString (non_empty_texts l) = EmptyString \/ ~ all_empty l /\ String.concat EmptyString (non_empty_texts l) <> EmptyString).
  { induction H as [|c l Hc _ IH]; [left; split; [constructor|reflexivity]|]. rewrite non_empty_cons. unfold all_empty, is_empty in *.
    destruct (Nat.eqb_spec (cat_size c) 0) as [E|E].
    - destruct IH as [[A B]|[A B]]; [left|right].
      + split; [constructor; assumption|exact B].
      + split; [intros K; apply A; apply Forall_cons_iff in K; tauto|exact B].
    - right. split; [intros K; apply Forall_cons_iff in K; tauto|]. intros K. unfold speaks in Hc.
      destruct (cat_text c); [contradiction|discriminate]. }
  destruct K as [[A B]|[A B]]; [left|right]; (split; [exact A|]).
  - rewrite B. reflexivity.
  - unfold or_else. destruct (String.concat EmptyString (non_empty_texts l)); [contradiction|reflexivity].
Qed.
Lemma countable_in : forall l c, countable l -> In c l -> (N.of_nat (cat_size c) < 2 ^ 32)%N.
Proof.
  intros l c H I. unfold countable in H. assert (cat_size c <= total l); [|lia]. clear H. induction l; [destruct I|].
  change (total (a :: l)) with (cat_size a + total l). destruct I as [->|I]; [lia|]. specialize (IHl I). lia.
Qed.
Lemma spaced_text : forall T (x : InspectionIssues T), StrCat [issues_string x; newline] = cat_text (spaced (of_list x)).
Proof. intros. unfold StrCat. cbn [fold_right spaced cat_text of_list]. rewrite app_nil_s. reflexivity. Qed.
Lemma list_text : forall T (x : InspectionIssues T), StrCat [issues_string x] = cat_text (of_list x).
Proof. intros. apply app_nil_s. Qed.
Lemma map_text : forall ho T (x : InspectionIssuesMap T), StrCat [map_string ho x] = cat_text (of_map ho x).
Proof. intros. apply app_nil_s. Qed.
Ltac speaking := repeat constructor; first [apply of_list_speaks | apply of_map_speaks | apply spaced_speaks].
Lemma append_list : forall T (x : InspectionIssues T) l s, (N.of_nat (cat_size (of_list x)) < 2 ^ 32)%N ->
  printed l (append_if (nb_issues x) [issues_string x] s) = printed (of_list x :: l) s.
Proof. intros. apply append_step; [apply list_counts|assumption|apply list_text]. Qed.
Lemma append_map : forall ho T (x : InspectionIssuesMap T) l s, (N.of_nat (cat_size (of_map ho x)) < 2 ^ 32)%N ->
  printed l (append_if (map_nb_issues x) [map_string ho x] s) = printed (of_map ho x :: l) s.
Proof. intros. apply append_step; [apply map_counts|assumption|apply map_text]. Qed.
Lemma append_spaced : forall T (x : InspectionIssues T) l s, (N.of_nat (cat_size (spaced (of_list x))) < 2 ^ 32)%N ->
  printed l (append_if (nb_issues x) [issues_string x; newline] s) = printed (spaced (of_list x) :: l) s.
Proof. intros. apply append_step; [apply list_counts|assumption|apply spaced_text]. Qed.
(** the chain of the code against the list of categories *)
Ltac chain H :=
  match goal with |- shows ?l ?o (or_else ?chain ?o) =>
    let K := fresh in
    assert (K : chain = printed l EmptyString);
    [ rewrite <- (printed_nil chain);
      repeat first [rewrite append_list by (apply (countable_in l _ H); cbn [In]; tauto)
                  | rewrite append_map by (apply (countable_in l _ H); cbn [In]; tauto)
                  | rewrite append_spaced by (apply (countable_in l _ H); cbn [In]; tauto)]; reflexivity
    | rewrite K; apply shows_or_else; speaking ]
  end.
Lemma corners_shows : forall ho r, countable (corners_categories ho r) ->
  shows (corners_categories ho r) (StrCat ["no issues with Corners topology "; newline]%string) (corners_string ho r).
Proof. intros ho r H. unfold corners_string. cbv zeta. unfold corners_categories in *. chain H. Qed.
Lemma section_lines_shows : forall ho r, countable (section_lines_categories ho r) ->
  shows (section_lines_categories ho r) (StrCat ["no issues with Lines topology "; newline]%string) (section_lines_string ho r).
Proof. intros ho r H. unfold section_lines_string. cbv zeta. unfold section_lines_categories in *. chain H. Qed.
Lemma section_surfaces_shows : forall ho r, countable (section_surfaces_categories ho r) ->
  shows (section_surfaces_categories ho r) (StrCat ["no issues with Surfaces topology "; newline]%string) (section_surfaces_string ho r).
Proof. intros ho r H. unfold section_surfaces_string. cbv zeta. unfold section_surfaces_categories in *. chain H. Qed.
Lemma spaced_total : forall l, total (map spaced l) = total l.
Proof. intros. unfold total. rewrite map_map. reflexivity. Qed.
Lemma brep_lines_shows : forall ho r, countable (brep_lines_categories ho r) ->
  shows (brep_lines_printed ho r) (StrCat ["no issues with Lines topology "; newline]%string) (brep_lines_string ho r).
Proof.
  intros ho r H0. assert (H : countable (brep_lines_printed ho r)) by exact H0. clear H0. unfold brep_lines_string. cbv zeta. unfold brep_lines_printed in *. chain H.
Qed.
Lemma brep_surfaces_shows : forall ho r, countable (brep_surfaces_categories ho r) ->
  shows (brep_surfaces_printed ho r) (StrCat ["no issues with Surfaces topology "; newline]%string) (brep_surfaces_string ho r).
Proof.
  intros ho r H0. assert (H : countable (brep_surfaces_printed ho r)).
  { unfold countable, total, brep_surfaces_categories, brep_surfaces_printed, list_sum in *. cbn [map fold_right] in *. lia. }
  clear H0. unfold brep_surfaces_string. cbv zeta. unfold brep_surfaces_printed in *. chain H.
Qed.
Lemma brep_blocks_shows : forall ho r, countable (brep_blocks_categories ho r) ->
  shows (brep_blocks_printed ho r) (StrCat ["no issues with Blocks topology "; newline]%string) (brep_blocks_string ho r).
Proof.
  intros ho r H0. assert (H : countable (brep_blocks_printed ho r)).
  { unfold countable, total, brep_blocks_categories, brep_blocks_printed, list_sum in *. cbn [map fold_right cat_size spaced of_list of_map] in *. lia. }
  clear H0. unfold brep_blocks_string. cbv zeta. unfold brep_blocks_printed in *. chain H.
Qed.
Lemma brep_adjacency_shows : forall ho r, countable (brep_adjacency_categories ho r) -> shows (brep_adjacency_categories ho r) no_adjacency_text (brep_adjacency_string ho r).
Proof. intros ho r H. unfold brep_adjacency_string. cbv zeta. unfold brep_adjacency_categories in *. chain H. Qed.
Lemma brep_degeneration_shows : forall ho r, countable (brep_degeneration_categories ho r) ->
  shows (brep_degeneration_categories ho r) (StrCat ["no degeneration issues in model meshes"; newline]%string) (brep_degeneration_string ho r).
Proof. intros ho r H. unfold brep_degeneration_string. cbv zeta. unfold brep_degeneration_categories in *. chain H. Qed.
Lemma section_degeneration_shows : forall ho r, countable (section_degeneration_categories ho r) ->
  shows (section_degeneration_categories ho r) (StrCat ["no degeneration issues in model meshes "; newline]%string) (section_degeneration_string ho r).
Proof. intros ho r H. unfold section_degeneration_string. cbv zeta. unfold section_degeneration_categories in *. chain H. Qed.
Lemma brep_manifold_shows : forall ho r, countable (brep_manifold_categories ho r) -> shows (brep_manifold_categories ho r) no_manifold_text (brep_manifold_string ho r).
Proof. intros ho r H. unfold brep_manifold_string. cbv zeta. unfold brep_manifold_categories in *. chain H. Qed.
Lemma section_manifold_shows : forall ho r, countable (section_manifold_categories ho r) ->
  shows (section_manifold_categories ho r) no_manifold_text (section_manifold_string ho r).
Proof. intros ho r H. unfold section_manifold_string. cbv zeta. unfold section_manifold_categories in *. chain H. Qed.
Lemma map_or_shows : forall ho T (x : InspectionIssuesMap T) text, countable [of_map ho x] ->
  shows [of_map ho x] text (if N.eqb (map_nb_issues x) 0 then text else map_string ho x).
Proof.
  intros ho T x text H. unfold map_nb_issues, size32. rewrite u32_eqb by (apply (countable_in _ (of_map ho x) H); left; reflexivity). unfold shows, all_empty, is_empty.
  destruct (Nat.eqb_spec (length (im_map x)) 0) as [E|E]; [left|right].
  - split; [repeat constructor; exact E|reflexivity].
  - split; [intros K; apply Forall_cons_iff in K; tauto|]. unfold non_empty_texts. cbn [filter cat_size of_map].
    destruct (Nat.eqb_spec (length (im_map x)) 0); [contradiction|]. reflexivity.
Qed.

(** ** Validity *)
Lemma texts_app : forall a b, non_empty_texts (a ++ b) = non_empty_texts a ++ non_empty_texts b.
Proof. intros. unfold non_empty_texts. rewrite filter_app, map_app. reflexivity. Qed.
Lemma add_list_texts : forall T (x : InspectionIssues T) l, (N.of_nat (cat_size (of_list x)) < 2 ^ 32)%N ->
  add_list x (non_empty_texts l) = non_empty_texts (l ++ [of_list x]).
Proof.
  intros T x l H. rewrite texts_app. unfold add_list, nb_issues, size32. rewrite (u32_eqb (length (ii_issues x)) H).
  assert (E : non_empty_texts [of_list x] = if Nat.eqb (length (ii_issues x)) 0 then [] else [cat_text (of_list x)])
    by (unfold non_empty_texts; cbn [filter cat_size of_list]; destruct (Nat.eqb (length (ii_issues x)) 0); reflexivity).
  rewrite E. destruct (Nat.eqb (length (ii_issues x)) 0); [symmetry; apply app_nil_r|reflexivity].
Qed.
Lemma add_map_texts : forall ho T (x : InspectionIssuesMap T) l, (N.of_nat (cat_size (of_map ho x)) < 2 ^ 32)%N ->
  add_map ho x (non_empty_texts l) = non_empty_texts (l ++ [of_map ho x]).
Proof.
  intros ho T x l H. rewrite texts_app. unfold add_map, map_nb_issues, size32. rewrite (u32_eqb (length (im_map x)) H).
  assert (E : non_empty_texts [of_map ho x] = if Nat.eqb (length (im_map x)) 0 then [] else [cat_text (of_map ho x)])
    by (unfold non_empty_texts; cbn [filter cat_size of_map]; destruct (Nat.eqb (length (im_map x)) 0); reflexivity).
  rewrite E. destruct (Nat.eqb (length (im_map x)) 0); [symmetry; apply app_nil_r|reflexivity].
Qed.
Ltac texting H :=
  change (@nil string) with (non_empty_texts []);
  match goal with |- _ = non_empty_texts ?cats =>
    repeat first [rewrite add_list_texts by (apply (countable_in cats _ H); cbn [In app]; tauto)
                | rewrite add_map_texts by (apply (countable_in cats _ H); cbn [In app]; tauto)] end;
  reflexivity.
Lemma pointset_texts : forall r, countable (pointset_categories r) -> pointset_validity r = non_empty_texts (pointset_categories r).
Proof.
  intros r H. unfold pointset_validity, pointset_nb_issues, nb_issues, size32.
  rewrite u32_eqb by (apply (countable_in _ (of_list (pr_colocated r)) H); left; reflexivity).
  unfold non_empty_texts, pointset_categories. cbn [filter cat_size of_list]. destruct (Nat.eqb (length (ii_issues (pr_colocated r))) 0); reflexivity.
Qed.
Lemma curve_texts : forall r, countable (curve_categories r) -> curve_validity r = non_empty_texts (curve_categories r).
Proof. intros r H. unfold curve_validity. cbv zeta. unfold curve_categories in *. texting H. Qed.
Lemma surface_texts : forall r, countable (surface_categories r) -> surface_validity r = non_empty_texts (surface_categories r).
Proof. intros r H. unfold surface_validity. cbv zeta. unfold surface_categories in *. texting H. Qed.
Lemma solid_texts : forall r, countable (solid_categories r) -> solid_validity r = non_empty_texts (solid_categories r).
Proof. intros r H. unfold solid_validity. cbv zeta. unfold solid_categories in *. texting H. Qed.
Lemma brep_texts : forall ho r, countable (brep_categories ho r) -> brep_validity ho r = non_empty_texts (brep_categories ho r).
Proof.
  intros ho r H. unfold brep_validity, add_brep_topology_invalidities, add_brep_meshes_invalidities, add_colocation_issues, add_brep_adjacencies_issues,
    add_brep_degeneration_issues, add_brep_manifold_issues, add_corners_topology_issues, add_brep_lines_topology_issues, add_brep_surfaces_topology_issues,
    add_brep_blocks_topology_issues, add_uv_topology_issues. cbv zeta.
  assert (E : brep_categories ho r = brep_categories ho r) by reflexivity. unfold brep_categories at 2, brep_meshes_categories, brep_topology_categories,
    unique_vertices_categories, brep_adjacency_categories, brep_degeneration_categories, brep_manifold_categories, corners_categories, brep_lines_categories,
    brep_surfaces_categories, brep_blocks_categories, links_categories in E. cbn [app] in E. rewrite E in *. clear E. texting H.
Qed.
Lemma section_texts : forall ho r, countable (section_categories ho r) -> section_validity ho r = non_empty_texts (section_categories ho r).
Proof.
  intros ho r H. unfold section_validity, add_section_topology_invalidities, add_section_meshes_invalidities, add_colocation_issues, add_section_adjacencies_issues,
    add_section_degeneration_issues, add_section_manifold_issues, add_corners_topology_issues, add_section_lines_topology_issues, add_section_surfaces_topology_issues,
    add_uv_topology_issues. cbv zeta.
  assert (E : section_categories ho r = section_categories ho r) by reflexivity. unfold section_categories at 2, section_meshes_categories, section_topology_categories,
    unique_vertices_categories, section_degeneration_categories, section_manifold_categories, corners_categories, section_lines_categories,
    section_surfaces_categories, links_categories in E. cbn [app] in E. rewrite E in *. clear E. texting H.
Qed.
Lemma texts_valid : forall l, is_valid (non_empty_texts l) = true <-> all_empty l.
Proof.
  intros l. unfold non_empty_texts, all_empty. induction l as [|c l IH]; [split; [constructor|reflexivity]|]. cbn [filter].
  unfold is_empty at 1. destruct (Nat.eqb_spec (cat_size c) 0) as [E|E]; cbn [negb].
  - rewrite IH. split; [intros; constructor; assumption|intros K; apply Forall_cons_iff in K; tauto].
  - split; [intros K; discriminate K|intros K; apply Forall_cons_iff in K; unfold is_empty in K; tauto].
Qed.
Lemma validity_text : forall v, validity_string v = String.concat EmptyString v.
Proof.
  intros v. unfold validity_string. assert (K : forall v a, fold_left (fun acc s => StrCat [acc; s]) v a = (a ++ String.concat EmptyString v)%string).
  { clear v. induction v as [|s v IH]; intros a; [symmetry; apply app_nil_s|]. cbn [fold_left]. rewrite IH, concat_cons. unfold StrCat. cbn [fold_right].
    rewrite app_nil_s, app_assoc_s. reflexivity. }
  rewrite K. reflexivity.
Qed.
