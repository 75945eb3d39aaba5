(** C30-C32: counts, validities and texts of the results. *)
From Coq Require Import String Ascii List Arith NArith ZArith Bool Lia Permutation Floats.SpecFloat.
From Verif Require Import Base BaseFacts Model_Issues Types Model_Hash Model_Colocation Model_Degeneration Model_Intersections Model_Topology Model_BRep Model_Blocks
  Model_Results Model_Validity Spec_Results Spec_Topology Spec_BRep Spec_Blocks Proof_BRepCheck Proof_Results Properties_Topology Properties_BRep Properties_Blocks Proof_GoodModels.
Import ListNotations.
Open Scope list_scope.

(** ** C30: counts *)
(** one object: the count is the number of entries, and is 0 exactly when nothing is listed *)
Definition counts_everything (n : N) (l : list category) : Prop :=
  n = N.of_nat (total l) /\ (n = 0%N <-> all_empty l).
Lemma counted : forall n l, counts n (total l) -> countable l -> counts_everything n l.
Proof. intros n l H B. split; [apply counts_small; assumption|apply counts_zero; assumption]. Qed.
Theorem C30_pointset : forall r, countable (pointset_categories r) -> counts_everything (pointset_nb_issues r) (pointset_categories r).
Proof. intros r. exact (counted _ _ (pointset_counts r)). Qed.
Theorem C30_curve : forall r, countable (curve_categories r) -> counts_everything (curve_nb_issues r) (curve_categories r).
Proof. intros r. exact (counted _ _ (curve_counts r)). Qed.
Theorem C30_surface : forall r, countable (surface_categories r) -> counts_everything (surface_nb_issues r) (surface_categories r).
Proof. intros r. exact (counted _ _ (surface_counts r)). Qed.
Theorem C30_solid : forall r, countable (solid_categories r) -> counts_everything (solid_nb_issues r) (solid_categories r).
Proof. intros r. exact (counted _ _ (solid_counts r)). Qed.
Theorem C30_unique_vertices : forall r, countable (unique_vertices_categories r) -> counts_everything (unique_vertices_nb_issues r) (unique_vertices_categories r).
Proof. intros r. exact (counted _ _ (unique_vertices_counts r)). Qed.
Theorem C30_adjacency : forall ho r, countable (brep_adjacency_categories ho r) -> counts_everything (brep_adjacency_nb_issues r) (brep_adjacency_categories ho r).
Proof. intros ho r. exact (counted _ _ (brep_adjacency_counts ho r)). Qed.
Theorem C30_brep_degeneration : forall ho r, countable (brep_degeneration_categories ho r) -> counts_everything (brep_degeneration_nb_issues r) (brep_degeneration_categories ho r).
Proof. intros ho r. exact (counted _ _ (brep_degeneration_counts ho r)). Qed.
Theorem C30_section_degeneration : forall ho r, countable (section_degeneration_categories ho r) ->
  counts_everything (section_degeneration_nb_issues r) (section_degeneration_categories ho r).
Proof. intros ho r. exact (counted _ _ (section_degeneration_counts ho r)). Qed.
Theorem C30_brep_manifold : forall ho r, countable (brep_manifold_categories ho r) -> counts_everything (brep_manifold_nb_issues r) (brep_manifold_categories ho r).
Proof. intros ho r. exact (counted _ _ (brep_manifold_counts ho r)). Qed.
Theorem C30_section_manifold : forall ho r, countable (section_manifold_categories ho r) -> counts_everything (section_manifold_nb_issues r) (section_manifold_categories ho r).
Proof. intros ho r. exact (counted _ _ (section_manifold_counts ho r)). Qed.
Theorem C30_brep_meshes : forall ho r, countable (brep_meshes_categories ho r) -> counts_everything (brep_meshes_nb_issues r) (brep_meshes_categories ho r).
Proof. intros ho r. exact (counted _ _ (brep_meshes_counts ho r)). Qed.
Theorem C30_section_meshes : forall ho r, countable (section_meshes_categories ho r) -> counts_everything (section_meshes_nb_issues r) (section_meshes_categories ho r).
Proof. intros ho r. exact (counted _ _ (section_meshes_counts ho r)). Qed.
Theorem C30_corners : forall ho r, countable (corners_categories ho r) -> counts_everything (corners_nb_issues r) (corners_categories ho r).
Proof. intros ho r. exact (counted _ _ (corners_counts ho r)). Qed.
Theorem C30_section_surfaces : forall ho r, countable (section_surfaces_categories ho r) -> counts_everything (section_surfaces_nb_issues r) (section_surfaces_categories ho r).
Proof. intros ho r. exact (counted _ _ (section_surfaces_counts ho r)). Qed.
Theorem C30_brep_lines : forall ho r, countable (brep_lines_categories ho r) -> counts_everything (brep_lines_nb_issues r) (brep_lines_categories ho r).
Proof. intros ho r. exact (counted _ _ (brep_lines_counts ho r)). Qed.
Theorem C30_brep_blocks : forall ho r, countable (brep_blocks_categories ho r) -> counts_everything (brep_blocks_nb_issues r) (brep_blocks_categories ho r).
Proof. intros ho r. exact (counted _ _ (brep_blocks_counts ho r)). Qed.

(** the lines of a Section, the surfaces of a BRep and what contains them: one category is not counted *)
Definition counts_all_but (forgotten : category) (n : N) (l : list category) : Prop :=
  In forgotten l /\ N.of_nat (total l) = (n + N.of_nat (cat_size forgotten))%N /\
  (n = 0%N <-> total l = cat_size forgotten).
Lemma counted_but : forall n l c, counts n (total l - cat_size c) -> In c l -> countable l -> counts_all_but c n l.
Proof.
  intros n l c H I B. assert (K : cat_size c <= total l).
  { clear - I. induction l; [destruct I|]. change (total (a :: l)) with (cat_size a + total l). destruct I as [->|I]; [lia|]. specialize (IHl I). lia. }
  unfold countable in B. apply counts_small in H; [|lia]. split; [exact I|]. lia.
Qed.
Definition section_forgotten (r : SectionTopology) : category := of_list (sl_several_not_corner (st_lines r)).
Definition brep_forgotten ho (r : BRepTopology) : category := of_map ho (bs_wrong_facets (bt_surfaces r)).
Theorem C30_section_lines : forall ho r, countable (section_lines_categories ho r) ->
  counts_all_but (of_list (sl_several_not_corner r)) (section_lines_nb_issues r) (section_lines_categories ho r).
Proof. intros ho r H. apply counted_but; [apply section_lines_counts|cbn; tauto|exact H]. Qed.
Theorem C30_section_topology : forall ho r, countable (section_topology_categories ho r) ->
  counts_all_but (section_forgotten r) (section_topology_nb_issues r) (section_topology_categories ho r).
Proof. intros ho r H. apply counted_but; [apply section_topology_counts|cbn; tauto|exact H]. Qed.
Theorem C30_section : forall ho r, countable (section_categories ho r) ->
  counts_all_but (section_forgotten (r_section_topology r)) (section_nb_issues r) (section_categories ho r).
Proof. intros ho r H. apply counted_but; [apply section_counts|apply in_or_app; right; cbn; tauto|exact H]. Qed.
Theorem C30_brep_surfaces : forall ho r, countable (brep_surfaces_categories ho r) ->
  counts_all_but (of_map ho (bs_wrong_facets r)) (brep_surfaces_nb_issues r) (brep_surfaces_categories ho r).
Proof. intros ho r H. apply counted_but; [apply brep_surfaces_counts|cbn; tauto|exact H]. Qed.
Theorem C30_brep_topology : forall ho r, countable (brep_topology_categories ho r) ->
  counts_all_but (brep_forgotten ho r) (brep_topology_nb_issues r) (brep_topology_categories ho r).
Proof. intros ho r H. apply counted_but; [apply brep_topology_counts|cbn; tauto|exact H]. Qed.
Theorem C30_brep : forall ho r, countable (brep_categories ho r) ->
  counts_all_but (brep_forgotten ho (r_brep_topology r)) (brep_nb_issues r) (brep_categories ho r).
Proof. intros ho r H. apply counted_but; [apply brep_counts|apply in_or_app; right; cbn; tauto|exact H]. Qed.

(** ** C31: validities *)
(** [v] has the text of every non-empty category, in order, and nothing else; it is valid iff there is none *)
Definition validates (v : ObjectValidity) (l : list category) : Prop :=
  v = non_empty_texts l /\ (is_valid v = true <-> all_empty l).
Lemma validated : forall v l, v = non_empty_texts l -> validates v l.
Proof. intros v l ->. split; [reflexivity|apply texts_valid]. Qed.
Lemma bound_inv : forall A B (o : outcome A) (f : A -> B) v, (let! r := o in Ok (f r)) = Ok v -> exists r, o = Ok r /\ v = f r.
Proof. intros A B [r|e|] f v H; try discriminate H. injection H as <-. exists r. split; reflexivity. Qed.
Theorem C31_pointset : forall geo m v, is_pointset_valid geo m = Ok v -> exists r, inspect_point_set geo m = Ok r /\
  (countable (pointset_categories r) -> validates v (pointset_categories r) /\ (is_valid v = true <-> pointset_nb_issues r = 0%N)).
Proof.
  intros geo m v H. apply bound_inv in H as (r & E & ->). exists r. split; [exact E|]. intros B.
  pose proof (validated _ _ (pointset_texts r B)) as V. split; [exact V|]. destruct V as [_ ->]. symmetry. apply C30_pointset, B.
Qed.
Theorem C31_curve : forall ms geo m v, is_edged_curve_valid ms geo m = Ok v -> exists r, inspect_edged_curve ms geo m = Ok r /\
  (countable (curve_categories r) -> validates v (curve_categories r) /\ (is_valid v = true <-> curve_nb_issues r = 0%N)).
Proof.
  intros ms geo m v H. apply bound_inv in H as (r & E & ->). exists r. split; [exact E|]. intros B.
  pose proof (validated _ _ (curve_texts r B)) as V. split; [exact V|]. destruct V as [_ ->]. symmetry. apply C30_curve, B.
Qed.
Theorem C31_surface : forall ms geo ho name m st ints v, is_surface_valid ms geo ho name m st ints = Ok v ->
  exists r, inspect_surface ms geo ho name m st ints = Ok r /\
  (countable (surface_categories r) -> validates v (surface_categories r) /\ (is_valid v = true <-> surface_nb_issues r = 0%N)).
Proof.
  intros ms geo ho name m st ints v H. apply bound_inv in H as (r & E & ->). exists r. split; [exact E|]. intros B.
  pose proof (validated _ _ (surface_texts r B)) as V. split; [exact V|]. destruct V as [_ ->]. symmetry. apply C30_surface, B.
Qed.
Theorem C31_solid : forall ms geo ho name m st v, is_solid_valid ms geo ho name m st = Ok v ->
  exists r, inspect_solid ms geo ho name m st = Ok r /\
  (countable (solid_categories r) -> validates v (solid_categories r) /\ (is_valid v = true <-> solid_nb_issues r = 0%N)).
Proof.
  intros ms geo ho name m st v H. apply bound_inv in H as (r & E & ->). exists r. split; [exact E|]. intros B.
  pose proof (validated _ _ (solid_texts r B)) as V. split; [exact V|]. destruct V as [_ ->]. symmetry. apply C30_solid, B.
Qed.
Lemma empty_part : forall l n c, counts_all_but c n l -> all_empty l -> n = 0%N.
Proof. intros l n c (I & E & Z) H. apply Z. apply all_empty_total in H. lia. Qed.
Theorem C31_brep : forall o m st ints v, is_brep_valid o m st ints = Ok v -> exists r, inspect_brep o m st ints = Ok r /\
  (countable (brep_categories (or_hash o) r) -> validates v (brep_categories (or_hash o) r) /\ (is_valid v = true -> brep_nb_issues r = 0%N)).
Proof.
  intros o m st ints v H. apply bound_inv in H as (r & E & ->). exists r. split; [exact E|]. intros B.
  pose proof (validated _ _ (brep_texts (or_hash o) r B)) as V. split; [exact V|]. destruct V as [_ ->]. apply (empty_part _ _ _ (C30_brep (or_hash o) r B)).
Qed.
Theorem C31_section : forall o m st ints v, is_section_valid o m st ints = Ok v -> exists r, inspect_section o m st ints = Ok r /\
  (countable (section_categories (or_hash o) r) -> validates v (section_categories (or_hash o) r) /\ (is_valid v = true -> section_nb_issues r = 0%N)).
Proof.
  intros o m st ints v H. apply bound_inv in H as (r & E & ->). exists r. split; [exact E|]. intros B.
  pose proof (validated _ _ (section_texts (or_hash o) r B)) as V. split; [exact V|]. destruct V as [_ ->]. apply (empty_part _ _ _ (C30_section (or_hash o) r B)).
Qed.
(** the validity fails (exception, undefined behaviour) exactly when the inspection fails, the same way *)
Theorem C31_failures : forall o m st ints, 
  (forall e, is_brep_valid o m st ints = Throw e <-> inspect_brep o m st ints = Throw e) /\
  (forall e, is_section_valid o m st ints = Throw e <-> inspect_section o m st ints = Throw e) /\
  (is_brep_valid o m st ints = UB <-> inspect_brep o m st ints = UB) /\
  (is_section_valid o m st ints = UB <-> inspect_section o m st ints = UB).
Proof.
  intros. unfold is_brep_valid, is_section_valid.
  destruct (inspect_brep o m st ints), (inspect_section o m st ints); cbn; repeat split; intros; congruence.
Qed.
(** the text of a validity is the concatenation of its entries *)
Theorem C31_text : forall v, validity_string v = String.concat EmptyString v.
Proof. exact validity_text. Qed.
Theorem C31_count : forall v, (N.of_nat (length v) < 2 ^ 32)%N -> validity_nb_issues v = N.of_nat (length v).
Proof. intros v H. apply u32_small, H. Qed.

(** ** C32: texts *)
Theorem C32_corners : forall ho r, countable (corners_categories ho r) ->
  shows (corners_categories ho r) (StrCat ["no issues with Corners topology "; newline]%string) (corners_string ho r).
Proof. exact corners_shows. Qed.
Theorem C32_section_lines : forall ho r, countable (section_lines_categories ho r) ->
  shows (section_lines_categories ho r) (StrCat ["no issues with Lines topology "; newline]%string) (section_lines_string ho r).
Proof. exact section_lines_shows. Qed.
Theorem C32_section_surfaces : forall ho r, countable (section_surfaces_categories ho r) ->
  shows (section_surfaces_categories ho r) (StrCat ["no issues with Surfaces topology "; newline]%string) (section_surfaces_string ho r).
Proof. exact section_surfaces_shows. Qed.
Theorem C32_brep_lines : forall ho r, countable (brep_lines_categories ho r) ->
  shows (brep_lines_printed ho r) (StrCat ["no issues with Lines topology "; newline]%string) (brep_lines_string ho r).
Proof. exact brep_lines_shows. Qed.
Theorem C32_brep_surfaces : forall ho r, countable (brep_surfaces_categories ho r) ->
  shows (brep_surfaces_printed ho r) (StrCat ["no issues with Surfaces topology "; newline]%string) (brep_surfaces_string ho r).
Proof. exact brep_surfaces_shows. Qed.
Theorem C32_brep_blocks : forall ho r, countable (brep_blocks_categories ho r) ->
  shows (brep_blocks_printed ho r) (StrCat ["no issues with Blocks topology "; newline]%string) (brep_blocks_string ho r).
Proof. exact brep_blocks_shows. Qed.
(** what is printed is, up to order and line breaks, every category, except that the facets of BRep surfaces never are *)
Definition same_categories (printed l : list category) : Prop :=
  exists l', Permutation l l' /\ Forall2 (fun p c => p = c \/ p = spaced c) printed l'.
Theorem C32_brep_lines_complete : forall ho r, same_categories (brep_lines_printed ho r) (brep_lines_categories ho r).
Proof. intros ho r. eexists. split; [apply Permutation_refl|]. unfold brep_lines_printed, brep_lines_categories. repeat constructor; tauto. Qed.
Theorem C32_brep_blocks_complete : forall ho r, same_categories (brep_blocks_printed ho r) (brep_blocks_categories ho r).
Proof.
  intros ho r. exists [of_list (bb_not_meshed r); of_list (bb_wrong_boundary r); of_map ho (bb_not_linked r); of_list (bb_not_closed r); of_list (bb_model_boundaries r);
    of_list (bb_two_blocks r); of_list (bb_wrong_count r); of_list (bb_wrong_relationship r); of_list (bb_single_invalid r); of_list (bb_multiple_invalid r)].
  split; [|unfold brep_blocks_printed; repeat constructor; tauto]. unfold brep_blocks_categories.
  do 3 constructor. apply (Permutation_app_swap_app [_; _; _; _] [_; _] [_]).
Qed.
Theorem C32_facets_never_printed : forall ho r, brep_surfaces_categories ho r = brep_surfaces_printed ho r ++ [of_map ho (bs_wrong_facets r)].
Proof. reflexivity. Qed.
(** changing that category does not change the text *)
Theorem C32_facets_do_not_matter : forall ho a b c d e facets facets',
  brep_surfaces_string ho (mkBRepSurfaces a b c d e facets) = brep_surfaces_string ho (mkBRepSurfaces a b c d e facets').
Proof. reflexivity. Qed.

(** ** C57: texts of the mesh results of models *)
Theorem C57_adjacency : forall ho r, countable (brep_adjacency_categories ho r) ->
  shows (brep_adjacency_categories ho r) (StrCat ["no adjacency issues in model meshes "; newline]%string) (brep_adjacency_string ho r).
Proof. exact brep_adjacency_shows. Qed.
Theorem C57_brep_degeneration : forall ho r, countable (brep_degeneration_categories ho r) ->
  shows (brep_degeneration_categories ho r) (StrCat ["no degeneration issues in model meshes"; newline]%string) (brep_degeneration_string ho r).
Proof. exact brep_degeneration_shows. Qed.
Theorem C57_section_degeneration : forall ho r, countable (section_degeneration_categories ho r) ->
  shows (section_degeneration_categories ho r) (StrCat ["no degeneration issues in model meshes "; newline]%string) (section_degeneration_string ho r).
Proof. exact section_degeneration_shows. Qed.
Theorem C57_brep_manifold : forall ho r, countable (brep_manifold_categories ho r) -> shows (brep_manifold_categories ho r) no_manifold_text (brep_manifold_string ho r).
Proof. exact brep_manifold_shows. Qed.
Theorem C57_section_manifold : forall ho r, countable (section_manifold_categories ho r) -> shows (section_manifold_categories ho r) no_manifold_text (section_manifold_string ho r).
Proof. exact section_manifold_shows. Qed.
Theorem C57_section_adjacency : forall ho r, countable [of_map ho r] ->
  shows [of_map ho r] (StrCat ["no adjacency issues in model meshes "; newline]%string) (section_adjacency_string ho r).
Proof. intros ho r. exact (map_or_shows ho _ r _). Qed.
Theorem C57_colocation : forall ho r, countable [of_map ho r] ->
  shows [of_map ho r] (StrCat ["no issues of colocation in meshes "; newline]%string) (meshes_colocation_string ho r).
Proof. intros ho r. exact (map_or_shows ho _ r _). Qed.
Theorem C57_brep_negative : forall ho r, countable [of_map ho r] ->
  shows [of_map ho r] (StrCat ["no negative polyhedra in model meshes"; newline]%string) (brep_negative_string ho r).
Proof. intros ho r. exact (map_or_shows ho _ r _). Qed.
Theorem C57_section_negative : forall ho r, countable [of_map ho r] ->
  shows [of_map ho r] (StrCat ["no negative polygons in model meshes"; newline]%string) (section_negative_string ho r).
Proof. intros ho r. exact (map_or_shows ho _ r _). Qed.

(** ** Counterexamples and instances *)
Definition good_section := good_triangle [good_corner 0 0; good_corner 1 1; good_corner 2 2] triangle_cmvs triangle_bnd.
(** the same triangle without corner 1: vertex 1 is on two lines *)
Definition cornerless := good_triangle [good_corner 0 0; good_corner 2 2]
  [[c_ 0 0; l_ 10 0; l_ 12 1; s_ 100 0]; [l_ 10 1; l_ 11 0; s_ 100 1]; [c_ 2 0; l_ 11 1; l_ 12 0; s_ 100 2]]
  (filter (fun x => negb (Nat.eqb (cid_id (fst x)) 1)) triangle_bnd).
(** a result whose only issue is not counted: [nb_issues()] is 0 and the object is not valid *)
Theorem C30_C31_section_refuted : exists o m st ints r v, inspect_section o m st ints = Ok r /\ is_section_valid o m st ints = Ok v /\
  countable (section_categories (or_hash o) r) /\ section_nb_issues r = 0%N /\ is_valid v = false /\ length v = 1 /\
  ii_issues (sl_several_not_corner (st_lines (r_section_topology r))) = [1].
Proof.
  exists triangle_oracles, cornerless, no_storage, (Ok empty_intersections). eexists. eexists.
  split; [vm_compute; reflexivity|]. split; [vm_compute; reflexivity|]. repeat split.
Qed.
Theorem C30_C31_C32_brep_refuted : exists o m st ints r v, inspect_brep o m st ints = Ok r /\ is_brep_valid o m st ints = Ok v /\
  countable (brep_categories (or_hash o) r) /\ brep_nb_issues r = 0%N /\ is_valid v = false /\ length v = 1 /\
  map fst (im_map (bs_wrong_facets (bt_surfaces (r_brep_topology r)))) = [100] /\
  brep_surfaces_string (or_hash o) (bt_surfaces (r_brep_topology r)) = StrCat ["no issues with Surfaces topology "; newline]%string.
Proof.
  exists (tet_oracles facet_tl), good_tet, no_storage, (Ok empty_intersections). eexists. eexists.
  split; [vm_compute; reflexivity|]. split; [vm_compute; reflexivity|]. repeat split.
Qed.
(** a valid BRep and a valid Section *)
Example good_brep_valid : exists r, inspect_brep (tet_oracles tet_tl) good_tet no_storage (Ok empty_intersections) = Ok r /\
  is_brep_valid (tet_oracles tet_tl) good_tet no_storage (Ok empty_intersections) = Ok [] /\ countable (brep_categories (or_hash (tet_oracles tet_tl)) r) /\ all_empty (brep_categories (or_hash (tet_oracles tet_tl)) r).
Proof. eexists. split; [vm_compute; reflexivity|]. split; [vm_compute; reflexivity|]. split; [reflexivity|]. apply all_empty_total. reflexivity. Qed.
Example good_section_valid : exists r, inspect_section triangle_oracles good_section no_storage (Ok empty_intersections) = Ok r /\
  is_section_valid triangle_oracles good_section no_storage (Ok empty_intersections) = Ok [] /\ countable (section_categories (or_hash triangle_oracles) r) /\ all_empty (section_categories (or_hash triangle_oracles) r).
Proof. eexists. split; [vm_compute; reflexivity|]. split; [vm_compute; reflexivity|]. split; [reflexivity|]. apply all_empty_total. reflexivity. Qed.
(** an invalid surface: its two first vertices coincide *)
Definition bent_surface := mkSurface 2 [pt 0; pt 0; pt 2] [[0; 1; 2]] (fun _ => None) [] (fun _ => false) (fun _ => d0) (fun v => Ok [(0, v)]) (fun _ => true).
Example bent_surface_invalid : exists r v, inspect_surface exact_measures exact_geo any_order EmptyString bent_surface (mkES false false)
    (Ok (new_issues EmptyString)) = Ok r /\
  is_surface_valid exact_measures exact_geo any_order EmptyString bent_surface (mkES false false) (Ok (new_issues EmptyString)) = Ok v /\
  countable (surface_categories r) /\ surface_nb_issues r = 2%N /\ length v = 2 /\ is_valid v = false.
Proof. eexists. eexists. split; [vm_compute; reflexivity|]. split; [vm_compute; reflexivity|]. repeat split. Qed.
Print Assumptions C30_solid.
Print Assumptions C30_brep_meshes.
Print Assumptions C30_section.
Print Assumptions C30_brep.
Print Assumptions C31_surface.
Print Assumptions C31_solid.
Print Assumptions C31_brep.
Print Assumptions C31_section.
Print Assumptions C31_text.
Print Assumptions C32_brep_blocks.
Print Assumptions C32_brep_blocks_complete.
Print Assumptions C57_brep_manifold.
Print Assumptions C30_C31_section_refuted.
Print Assumptions C30_C31_C32_brep_refuted.
