(** Texts of the programs for models. *)
From Coq Require Import String Ascii List Arith NArith Bool Lia.
From Verif Require Import Base BaseFacts Model_Issues Types Model_Degeneration Model_Topology Model_BRep Model_Blocks Model_Results Model_Programs Spec_Results Spec_Messages
  Spec_TopologyMessages Proof_Results Proof_Messages Spec_Programs Proof_Programs.
Import ListNotations.
Open Scope list_scope.

(** A text made of parts *)
Record part := mkPart { p_categories : list category; p_otherwise : string; p_text : string }.
Definition shown (p : part) : Prop := shows (p_categories p) (p_otherwise p) (p_text p).
Definition parts_categories (l : list part) : list category := List.concat (map p_categories l).
Lemma all_empty_app : forall a b, all_empty (a ++ b) <-> all_empty a /\ all_empty b.
Proof. intros. apply Forall_app. Qed.
Lemma parts_clean : forall l, Forall shown l -> all_empty (parts_categories l) -> StrCat (map p_text l) = StrCat (map p_otherwise l).
Proof.
  intros l H. induction H as [|p l Hp _ IH]; intros E; [reflexivity|]. unfold parts_categories in E. cbn [map List.concat] in E.
  apply all_empty_app in E as [E1 E2]. cbn [map]. change (StrCat (p_text p :: map p_text l)) with (p_text p ++ StrCat (map p_text l))%string.
  change (StrCat (p_otherwise p :: map p_otherwise l)) with (p_otherwise p ++ StrCat (map p_otherwise l))%string. rewrite (shows_clean _ _ _ Hp E1), (IH E2). reflexivity.
Qed.
Lemma parts_announce : forall l, Forall shown l -> Forall tells (parts_categories l) -> ~ all_empty (parts_categories l) -> announces (StrCat (map p_text l)).
Proof.
  intros l H T N. destruct (not_all_empty _ N) as (c & C & K). unfold parts_categories in *. apply in_concat in C as (cs & C1 & C2).
  apply in_map_iff in C1 as (p & <- & P). apply (announces_StrCat _ (p_text p)); [apply in_map; exact P|]. rewrite Forall_forall in H.
  apply (shows_announces _ _ _ (ltac:(rewrite Forall_forall in T |- *; intros d D; apply T; apply in_concat; exists (p_categories p); split; [apply in_map; exact P|exact D])) (H p P)).
  intros E. unfold all_empty in E. rewrite Forall_forall in E. exact (K (E c C2)).
Qed.
Lemma StrCat_app : forall a b, StrCat (a ++ b) = (StrCat a ++ StrCat b)%string.
Proof. induction a as [|x a IH]; intros b; [reflexivity|]. change (StrCat ((x :: a) ++ b)) with (x ++ StrCat (a ++ b))%string. rewrite IH. symmetry. apply Proof_Programs.app_assoc_s. Qed.
Lemma list_shows : forall T d P (x : InspectionIssues T), explained d P x -> shows [of_list x] (no_issues d) (issues_string x).
Proof.
  intros T d P x X. destruct (Nat.eq_dec (List.length (ii_issues x)) 0) as [E|E].
  - left. split; [constructor; [exact E|constructor]|]. apply (clean_list _ _ _ _ X E).
  - right. split; [intros K; inversion K; contradiction|]. unfold non_empty_texts. cbn [filter cat_size of_list].
    destruct (Nat.eqb_spec (List.length (ii_issues x)) 0); [contradiction|]. reflexivity.
Qed.
Lemma countable_part : forall l c, countable l -> (exists a b, l = a ++ c ++ b) -> countable c.
Proof. intros l c H (a & b & ->). unfold countable in *. rewrite !total_app in H. lia. Qed.

Definition links_parts (r : LinkIssues) : list part :=
  [mkPart [of_list (li_not_linked r)] (no_issues "unique vertices not linked to Component") (issues_string (li_not_linked r));
   mkPart [of_list (li_inexistant r)] (no_issues "unique vertices linked to inexistant Component mesh vertex") (issues_string (li_inexistant r));
   mkPart [of_list (li_nonbijective r)] (no_issues "unique vertices with non-bijective links to Component mesh vertex") (issues_string (li_nonbijective r))].
Definition section_parts ho (r : SectionResult) : list part :=
  let a := r_section_meshes r in let b := r_section_topology r in
  [mkPart [of_list (ur_colocated (sc_unique_vertices a))] (no_issues "colocated unique vertices") (issues_string (ur_colocated (sc_unique_vertices a)));
   mkPart [of_list (ur_different (sc_unique_vertices a))] (no_issues "unique vertex refering multiple positions") (issues_string (ur_different (sc_unique_vertices a)));
   mkPart [of_map ho (sc_colocation a)] (line "no issues of colocation in meshes ") (meshes_colocation_string ho (sc_colocation a));
   mkPart [of_map ho (sc_adjacency a)] (line "no adjacency issues in model meshes ") (section_adjacency_string ho (sc_adjacency a));
   mkPart (section_degeneration_categories ho (sc_degeneration a)) (line "no degeneration issues in model meshes ") (section_degeneration_string ho (sc_degeneration a));
   mkPart [of_list (sc_intersections a)] (no_issues "intersections") (intersections_string (sc_intersections a));
   mkPart (section_manifold_categories ho (sc_manifold a)) (line "no manifold issues in model meshes ") (section_manifold_string ho (sc_manifold a));
   mkPart [of_map ho (sc_negative a)] (line "no negative polygons in model meshes") (section_negative_string ho (sc_negative a));
   mkPart (corners_categories ho (st_corners b)) (no_issues "Corners topology ") (corners_string ho (st_corners b));
   mkPart (section_lines_categories ho (st_lines b)) (no_issues "Lines topology ") (section_lines_string ho (st_lines b));
   mkPart (section_surfaces_categories ho (st_surfaces b)) (no_issues "Surfaces topology ") (section_surfaces_string ho (st_surfaces b))] ++ links_parts (st_links b).
Definition brep_parts ho (r : BRepResult) : list part :=
  let a := r_brep_meshes r in let b := r_brep_topology r in
  [mkPart [of_list (ur_colocated (br_unique_vertices a))] (no_issues "colocated unique vertices") (issues_string (ur_colocated (br_unique_vertices a)));
   mkPart [of_list (ur_different (br_unique_vertices a))] (no_issues "unique vertex refering multiple positions") (issues_string (ur_different (br_unique_vertices a)));
   mkPart [of_map ho (br_colocation a)] (line "no issues of colocation in meshes ") (meshes_colocation_string ho (br_colocation a));
   mkPart (brep_adjacency_categories ho (br_adjacency a)) (line "no adjacency issues in model meshes ") (brep_adjacency_string ho (br_adjacency a));
   mkPart (brep_degeneration_categories ho (br_degeneration a)) (line "no degeneration issues in model meshes") (brep_degeneration_string ho (br_degeneration a));
   mkPart [of_list (br_intersections a)] (no_issues "intersections") (intersections_string (br_intersections a));
   mkPart (brep_manifold_categories ho (br_manifold a)) (line "no manifold issues in model meshes ") (brep_manifold_string ho (br_manifold a));
   mkPart [of_map ho (br_negative a)] (line "no negative polyhedra in model meshes") (brep_negative_string ho (br_negative a));
   mkPart (corners_categories ho (bt_corners b)) (no_issues "Corners topology ") (corners_string ho (bt_corners b));
   mkPart (brep_lines_printed ho (bt_lines b)) (no_issues "Lines topology ") (brep_lines_string ho (bt_lines b));
   mkPart (brep_surfaces_printed ho (bt_surfaces b)) (no_issues "Surfaces topology ") (brep_surfaces_string ho (bt_surfaces b));
   mkPart (brep_blocks_printed ho (bt_blocks b)) (no_issues "Blocks topology ") (brep_blocks_string ho (bt_blocks b))] ++ links_parts (bt_links b).
Lemma section_parts_text : forall ho r, StrCat (map p_text (section_parts ho r)) = section_string ho r.
Proof.
  intros ho r. unfold section_string, section_meshes_string, section_topology_string, unique_vertices_string, section_parts, links_parts. cbv zeta.
  cbn [List.app map p_text StrCat fold_right]. rewrite !Proof_Programs.app_nil_s, !Proof_Programs.app_assoc_s. reflexivity.
Qed.
Lemma brep_parts_text : forall ho r, StrCat (map p_text (brep_parts ho r)) = brep_string ho r.
Proof.
  intros ho r. unfold brep_string, brep_meshes_string, brep_topology_string, unique_vertices_string, brep_parts, links_parts. cbv zeta.
  cbn [List.app map p_text StrCat fold_right]. rewrite !Proof_Programs.app_nil_s, !Proof_Programs.app_assoc_s. reflexivity.
Qed.
Lemma section_parts_clean : forall ho r, StrCat (map p_otherwise (section_parts ho r)) = clean_section.
Proof. intros ho r. unfold section_parts, links_parts. cbv zeta. reflexivity. Qed.
Lemma brep_parts_clean : forall ho r, StrCat (map p_otherwise (brep_parts ho r)) = clean_brep.
Proof. intros ho r. unfold brep_parts, links_parts. cbv zeta. reflexivity. Qed.
Lemma section_parts_categories : forall ho r, parts_categories (section_parts ho r) = section_categories ho r.
Proof. reflexivity. Qed.
Ltac all_tell := unfold parts_categories; cbn; repeat (apply Forall_cons; [first [apply tells_list|apply tells_map|apply tells_spaced, tells_list|apply tells_spaced, tells_map]|]); apply Forall_nil.
Ltac within H := apply (countable_part _ _ H); match goal with |- exists a b, ?l = a ++ ?c ++ b => idtac end.
Lemma countable_sub : forall l c, countable l -> total c <= total l -> countable c.
Proof. unfold countable. lia. Qed.
Ltac sub H := apply (countable_sub _ _ H); unfold section_categories, section_meshes_categories, section_topology_categories, brep_categories, brep_meshes_categories,
  brep_topology_categories; rewrite !total_app; cbn [total map cat_size of_map of_list list_sum fold_right]; unfold total, list_sum; cbn [map fold_right cat_size of_map of_list]; lia.
Lemma section_shown : forall o m r, section_meshes_explained o m (r_section_meshes r) -> links_explained m (st_links (r_section_topology r)) ->
  countable (section_categories (or_hash o) r) -> Forall shown (section_parts (or_hash o) r).
Proof.
  intros o m r ((X1 & X2) & _ & _ & _ & _ & X3 & _) (L1 & L2 & L3) C. unfold section_parts, links_parts. cbv zeta.
  repeat (apply Forall_cons; [unfold shown; cbn [p_categories p_otherwise p_text]|]); try apply Forall_nil.
  - eapply list_shows; exact X1.
  - eapply list_shows; exact X2.
  - apply map_or_shows. sub C.
  - apply map_or_shows. sub C.
  - apply section_degeneration_shows. sub C.
  - eapply list_shows; exact X3.
  - apply section_manifold_shows. sub C.
  - apply map_or_shows. sub C.
  - apply corners_shows. sub C.
  - apply section_lines_shows. sub C.
  - apply section_surfaces_shows. sub C.
  - eapply list_shows; exact L1.
  - eapply list_shows; exact L2.
  - eapply list_shows; exact L3.
Qed.
Lemma brep_shown : forall o m r, brep_meshes_explained o m (r_brep_meshes r) -> links_explained m (bt_links (r_brep_topology r)) ->
  countable (brep_categories (or_hash o) r) -> Forall shown (brep_parts (or_hash o) r).
Proof.
  intros o m r ((X1 & X2) & _ & _ & _ & _ & _ & _ & X3 & _) (L1 & L2 & L3) C. unfold brep_parts, links_parts. cbv zeta.
  repeat (apply Forall_cons; [unfold shown; cbn [p_categories p_otherwise p_text]|]); try apply Forall_nil.
  - eapply list_shows; exact X1.
  - eapply list_shows; exact X2.
  - apply map_or_shows. sub C.
  - apply brep_adjacency_shows. sub C.
  - apply brep_degeneration_shows. sub C.
  - eapply list_shows; exact X3.
  - apply brep_manifold_shows. sub C.
  - apply map_or_shows. sub C.
  - apply corners_shows. sub C.
  - apply brep_lines_shows. sub C.
  - apply brep_surfaces_shows. sub C.
  - apply brep_blocks_shows. sub C.
  - eapply list_shows; exact L1.
  - eapply list_shows; exact L2.
  - eapply list_shows; exact L3.
Qed.
(** the categories of a BRep that are printed *)
Lemma brep_printed_empty : forall ho r, all_empty (brep_categories ho r) <->
  all_empty (parts_categories (brep_parts ho r)) /\ im_map (bs_wrong_facets (bt_surfaces (r_brep_topology r))) = [].
Proof.
  intros ho r. rewrite !all_empty_total, <- length_zero_iff_nil. cbv [total brep_categories brep_meshes_categories brep_topology_categories parts_categories brep_parts links_parts p_categories
    unique_vertices_categories brep_adjacency_categories brep_degeneration_categories brep_manifold_categories corners_categories brep_lines_categories brep_surfaces_categories
    brep_blocks_categories links_categories brep_lines_printed brep_surfaces_printed brep_blocks_printed map List.concat List.app list_sum fold_right spaced cat_size of_list of_map]. lia.
Qed.
Section Text.
Context (o : Oracles) (m : Model).
Lemma section_text : forall r, section_meshes_explained o m (r_section_meshes r) -> links_explained m (st_links (r_section_topology r)) ->
  countable (section_categories (or_hash o) r) ->
  (all_empty (section_categories (or_hash o) r) -> section_string (or_hash o) r = clean_section) /\ (~ all_empty (section_categories (or_hash o) r) -> announces (section_string (or_hash o) r)).
Proof.
  intros r X L C. pose proof (section_shown o m r X L C) as S. rewrite <- section_parts_text, <- (section_parts_categories (or_hash o) r). split; intros E.
  - rewrite (parts_clean _ S E). apply section_parts_clean.
  - apply (parts_announce _ S); [|exact E]. all_tell.
Qed.
Lemma brep_text : forall r, brep_meshes_explained o m (r_brep_meshes r) -> links_explained m (bt_links (r_brep_topology r)) ->
  countable (brep_categories (or_hash o) r) ->
  (all_empty (parts_categories (brep_parts (or_hash o) r)) -> brep_string (or_hash o) r = clean_brep) /\ (~ all_empty (parts_categories (brep_parts (or_hash o) r)) -> announces (brep_string (or_hash o) r)).
Proof.
  intros r X L C. pose proof (brep_shown o m r X L C) as S. rewrite <- brep_parts_text. split; intros E.
  - rewrite (parts_clean _ S E). apply brep_parts_clean.
  - apply (parts_announce _ S); [|exact E]. all_tell.
Qed.
End Text.
