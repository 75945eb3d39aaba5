(** C84: what a Python program sees of the reports. *)
From Coq Require Import String Ascii List Arith NArith ZArith Bool Lia.
From Verif Require Import Base BaseFacts Model_Hash Model_Issues Types Model_Degeneration Model_Intersections Model_Topology Model_BRep Model_Blocks Model_Results
  Model_Validity Model_Python Spec_Results Spec_Python Proof_Issues Proof_Results Proof_Python Proof_GoodModels Properties_Topology Properties_BRep Properties_Blocks
  Properties_Results.
Import ListNotations.
Open Scope list_scope.

(** [object.a.b.c] is a container with the size (as [index_t]) and the text of the category *)
Definition reads (o : PyObject) (p : path) (c : category) : Prop :=
  exists n t, get p o = Some (PyIssues n t) /\ n = (N.of_nat (cat_size c) mod 2 ^ 32)%N /\ t = cat_text c.
(** of the members of the C++ result, Python reads those that are not hidden, under their C++ names, reads nothing else, and gets
    AttributeError for the hidden ones *)
Definition views (o : PyObject) (members : list (path * category)) (hidden : list path) : Prop :=
  NoDup (map fst members) /\ incl hidden (map fst members) /\
  (forall p c, In (p, c) members -> ~ In p hidden -> reads o p c) /\
  (forall p, In p hidden -> get p o = None) /\
  (forall p n t, get p o = Some (PyIssues n t) -> exists c, In (p, c) members /\ ~ In p hidden).

Lemma view_checked : forall o members hidden, distinctb (map fst members) = true -> forallb (fun p => pathb p (map fst members)) hidden = true ->
  Forall (read_back o hidden) members -> forallb (fun p => match get p o with None => true | Some _ => false end) hidden = true ->
  forallb (leafb (map fst members) hidden) (map fst (leaves o)) = true -> views o members hidden.
Proof.
  intros o members hidden H1 H2 H3 H4 H5. rewrite forallb_forall in H2, H4, H5. rewrite Forall_forall in H3. repeat split.
  - apply distinctb_spec. exact H1.
  - intros p Hp. apply pathb_spec. apply H2. exact Hp.
  - intros p c Hp Hn. destruct (H3 _ Hp) as [E|E]; cbn [fst snd] in E.
    + apply pathb_spec in E. destruct (Hn E).
    + eexists. eexists. split; [exact E|]. split; reflexivity.
  - intros p Hp. specialize (H4 p Hp). destruct (get p o); [discriminate H4|reflexivity].
  - intros p n t E. apply reached in E. apply (in_map fst) in E. specialize (H5 _ E). cbn [fst] in H5. unfold leafb in H5.
    apply andb_prop in H5. destruct H5 as [H5 H6]. apply pathb_spec in H5. apply in_map_iff in H5. destruct H5 as [[q c] [Eq Hc]]. cbn [fst] in Eq. subst q.
    exists c. split; [exact Hc|]. intros Hh. apply pathb_spec in Hh. rewrite Hh in H6. discriminate H6.
Qed.
Ltac view := apply view_checked; [vm_compute; reflexivity|vm_compute; reflexivity|
  repeat (apply Forall_cons; [first [left; vm_compute; reflexivity | right; reflexivity]|]); apply Forall_nil|vm_compute; reflexivity|vm_compute; reflexivity].

Theorem C84_pointset : forall r, views (py_pointset r) (pointset_members r) [].
Proof. intros r. view. Qed.
Theorem C84_curve : forall r, views (py_curve r) (curve_members r) [].
Proof. intros r. view. Qed.
Theorem C84_surface : forall r, views (py_surface r) (surface_members r) surface_hidden.
Proof. intros r. view. Qed.
Theorem C84_solid : forall r, views (py_solid r) (solid_members r) solid_hidden.
Proof. intros r. view. Qed.
Theorem C84_section : forall ho r, views (py_section ho r) (section_members ho r) section_hidden.
Proof. intros ho r. view. Qed.
Theorem C84_brep : forall ho r, views (py_brep ho r) (brep_members ho r) brep_hidden.
Proof. intros ho r. view. Qed.

(** the members are the categories that decide whether an object is valid *)
Theorem C84_members : forall ho,
  (forall r, map snd (pointset_members r) = pointset_categories r) /\ (forall r, map snd (curve_members r) = curve_categories r) /\
  (forall r, map snd (surface_members r) = surface_categories r) /\ (forall r, map snd (solid_members r) = solid_categories r) /\
  (forall r, map snd (section_members ho r) = section_categories ho r) /\ (forall r, map snd (brep_members ho r) = brep_categories ho r).
Proof. intros ho. repeat split. Qed.

(** only the result of a BRep offers [nb_issues()], which counts every issue but those of one category (C30) *)
Theorem C84_brep_count : forall ho r, countable (brep_categories ho r) ->
  exists n, py_nb_issues (py_brep ho r) = Some n /\ counts_all_but (brep_forgotten ho (r_brep_topology r)) n (brep_categories ho r).
Proof. intros ho r H. exists (brep_nb_issues r). split; [reflexivity|]. apply C30_brep. exact H. Qed.
Theorem C84_no_count : forall ho, (forall r, py_nb_issues (py_pointset r) = None) /\ (forall r, py_nb_issues (py_curve r) = None) /\
  (forall r, py_nb_issues (py_surface r) = None) /\ (forall r, py_nb_issues (py_solid r) = None) /\ (forall r, py_nb_issues (py_section ho r) = None).
Proof. intros ho. repeat split. Qed.

(** ** What a Python program can conclude *)
(** every list it can reach is empty *)
Definition looks_clean (o : PyObject) : Prop := forall p n t, get p o = Some (PyIssues n t) -> n = 0%N.
(** the members it cannot read are empty *)
Definition hidden_empty (members : list (path * category)) (hidden : list path) : Prop :=
  forall p c, In (p, c) members -> In p hidden -> is_empty c.
Lemma size_at_most : forall l c, In c l -> cat_size c <= total l.
Proof.
  induction l as [|a l IH]; intros c H; [destruct H|]. change (total (a :: l)) with (cat_size a + total l). destruct H as [->|H]; [lia|].
  specialize (IH _ H). lia.
Qed.
Lemma looks_clean_empty : forall o members hidden, views o members hidden -> countable (map snd members) ->
  (looks_clean o /\ hidden_empty members hidden <-> all_empty (map snd members)).
Proof.
  intros o members hidden (_ & _ & V & _ & W) B. unfold all_empty. rewrite Forall_forall. split.
  - intros [L H] c Hc. apply in_map_iff in Hc. destruct Hc as [[p c'] [E Hc]]. cbn [snd] in E. subst c'.
    destruct (in_dec (list_eq_dec string_dec) p hidden) as [I|I]; [exact (H _ _ Hc I)|].
    destruct (V _ _ Hc I) as (n & t & E & En & Et). specialize (L _ _ _ E). rewrite L in En.
    assert (S : (N.of_nat (cat_size c) < 2 ^ 32)%N).
    { unfold countable in B. pose proof (size_at_most (map snd members) c (in_map snd _ _ Hc)). lia. }
    rewrite N.mod_small in En by exact S. unfold is_empty. lia.
  - intros H. split.
    + intros p n t E. destruct (W _ _ _ E) as [c [Hc I]]. destruct (V _ _ Hc I) as (n' & t' & E' & En & Et).
      assert (X : Some (PyIssues n t) = Some (PyIssues n' t')) by (transitivity (get p o); [symmetry; exact E|exact E']).
      injection X as -> ->. specialize (H c (in_map snd _ _ Hc)). unfold is_empty in H. rewrite H in En. exact En.
    + intros p c Hc _. apply H. exact (in_map snd _ _ Hc).
Qed.
(** the object is valid iff every list Python can read is empty, and the ones it cannot read are empty too *)
Definition decided (o : PyObject) (members : list (path * category)) (hidden : list path) (v : ObjectValidity) : Prop :=
  is_valid v = true <-> looks_clean o /\ hidden_empty members hidden.
Lemma decides : forall o members hidden v, views o members hidden -> countable (map snd members) -> validates v (map snd members) ->
  decided o members hidden v.
Proof. intros o members hidden v V B [_ W]. unfold decided. rewrite W. symmetry. exact (looks_clean_empty o members hidden V B). Qed.
(** for point sets and curves, nothing is hidden *)
Theorem C84_pointset_verdict : forall geo m v, is_pointset_valid geo m = Ok v -> exists r, inspect_point_set geo m = Ok r /\
  (countable (pointset_categories r) -> (is_valid v = true <-> looks_clean (py_pointset r))).
Proof.
  intros geo m v H. destruct (C31_pointset geo m v H) as [r [E K]]. exists r. split; [exact E|]. intros B.
  pose proof (decides (py_pointset r) (pointset_members r) [] v (C84_pointset r) B (proj1 (K B))) as D. unfold decided in D. rewrite D.
  split; [intros [L _]; exact L|]. intros L. split; [exact L|]. intros p c _ [].
Qed.
Theorem C84_curve_verdict : forall ms geo m v, is_edged_curve_valid ms geo m = Ok v -> exists r, inspect_edged_curve ms geo m = Ok r /\
  (countable (curve_categories r) -> (is_valid v = true <-> looks_clean (py_curve r))).
Proof.
  intros ms geo m v H. destruct (C31_curve ms geo m v H) as [r [E K]]. exists r. split; [exact E|]. intros B.
  pose proof (decides (py_curve r) (curve_members r) [] v (C84_curve r) B (proj1 (K B))) as D. unfold decided in D. rewrite D.
  split; [intros [L _]; exact L|]. intros L. split; [exact L|]. intros p c _ [].
Qed.
Theorem C84_surface_verdict : forall ms geo ho name m st ints v, is_surface_valid ms geo ho name m st ints = Ok v ->
  exists r, inspect_surface ms geo ho name m st ints = Ok r /\
  (countable (surface_categories r) -> (is_valid v = true <-> looks_clean (py_surface r) /\ ii_issues (sr_negative r) = [])).
Proof.
  intros ms geo ho name m st ints v H. destruct (C31_surface ms geo ho name m st ints v H) as [r [E K]]. exists r. split; [exact E|]. intros B.
  pose proof (decides (py_surface r) (surface_members r) surface_hidden v (C84_surface r) B (proj1 (K B))) as D. unfold decided in D. rewrite D.
  split; (intros [L I]; split; [exact L|]).
  - assert (X : is_empty (of_list (sr_negative r))) by (apply (I ["negative_polygons"%string]); [cbn [surface_members member app In]; tauto|left; reflexivity]).
    apply length_zero_iff_nil. exact X.
  - intros p c Hc [<-|[]]. cbn [surface_members member app In] in Hc.
    repeat (destruct Hc as [Hc|Hc]; [first [discriminate Hc|injection Hc as <-; unfold is_empty, of_list, cat_size; rewrite I; reflexivity]|]). destruct Hc.
Qed.
Theorem C84_solid_verdict : forall ms geo ho name m st v, is_solid_valid ms geo ho name m st = Ok v ->
  exists r, inspect_solid ms geo ho name m st = Ok r /\
  (countable (solid_categories r) -> (is_valid v = true <-> looks_clean (py_solid r) /\ ii_issues (so_r_negative r) = [])).
Proof.
  intros ms geo ho name m st v H. destruct (C31_solid ms geo ho name m st v H) as [r [E K]]. exists r. split; [exact E|]. intros B.
  pose proof (decides (py_solid r) (solid_members r) solid_hidden v (C84_solid r) B (proj1 (K B))) as D. unfold decided in D. rewrite D.
  split; (intros [L I]; split; [exact L|]).
  - assert (X : is_empty (of_list (so_r_negative r))) by (apply (I ["negative_polyhedra"%string]); [cbn [solid_members member app In]; tauto|left; reflexivity]).
    apply length_zero_iff_nil. exact X.
  - intros p c Hc [<-|[]]. cbn [solid_members member app In] in Hc.
    repeat (destruct Hc as [Hc|Hc]; [first [discriminate Hc|injection Hc as <-; unfold is_empty, of_list, cat_size; rewrite I; reflexivity]|]). destruct Hc.
Qed.
Theorem C84_section_verdict : forall o m st ints v, is_section_valid o m st ints = Ok v -> exists r, inspect_section o m st ints = Ok r /\
  (countable (section_categories (or_hash o) r) ->
   decided (py_section (or_hash o) r) (section_members (or_hash o) r) section_hidden v).
Proof.
  intros o m st ints v H. destruct (C31_section o m st ints v H) as [r [E K]]. exists r. split; [exact E|]. intros B.
  exact (decides (py_section (or_hash o) r) (section_members (or_hash o) r) section_hidden v (C84_section (or_hash o) r) B (proj1 (K B))).
Qed.
Theorem C84_brep_verdict : forall o m st ints v, is_brep_valid o m st ints = Ok v -> exists r, inspect_brep o m st ints = Ok r /\
  (countable (brep_categories (or_hash o) r) ->
   decided (py_brep (or_hash o) r) (brep_members (or_hash o) r) brep_hidden v).
Proof.
  intros o m st ints v H. destruct (C31_brep o m st ints v H) as [r [E K]]. exists r. split; [exact E|]. intros B.
  exact (decides (py_brep (or_hash o) r) (brep_members (or_hash o) r) brep_hidden v (C84_brep (or_hash o) r) B (proj1 (K B))).
Qed.

(** ** The hidden members can be read in the text of the whole report *)
Definition told (o : PyObject) (members : list (path * category)) (hidden : list path) : Prop :=
  forall p c, In (p, c) members -> In p hidden -> ~ is_empty c -> exists a b, py_string o = (a ++ (cat_text c ++ b))%string.
Theorem C84_surface_text : forall r, told (py_surface r) (surface_members r) surface_hidden.
Proof.
  intros r p c Hc [<-|[]] _. cbn [surface_members member app In] in Hc. repeat (destruct Hc as [Hc|Hc]; [first [discriminate Hc|injection Hc as <-]|]); [|destruct Hc].
  apply (inside_cat (issues_string (sr_negative r))). cbn [In]. tauto.
Qed.
Theorem C84_solid_text : forall r, told (py_solid r) (solid_members r) solid_hidden.
Proof.
  intros r p c Hc [<-|[]] _. cbn [solid_members member app In] in Hc. repeat (destruct Hc as [Hc|Hc]; [first [discriminate Hc|injection Hc as <-]|]); [|destruct Hc].
  apply (inside_cat (issues_string (so_r_negative r))). cbn [In]. tauto.
Qed.
Lemma member_is : forall (l : list (path * category)) p c c', NoDup (map fst l) -> In (p, c) l -> In (p, c') l -> c = c'.
Proof.
  induction l as [|[q d] l IH]; intros p c c' N H H'; [destruct H|]. cbn [map fst] in N. inversion N as [|x y N1 N2]; subst.
  destruct H as [H|H], H' as [H'|H'].
  - congruence.
  - injection H as -> ->. destruct N1. apply (in_map fst) in H'. exact H'.
  - injection H' as -> ->. destruct N1. apply (in_map fst) in H. exact H.
  - exact (IH p c c' N2 H H').
Qed.
Ltac in_members := unfold section_members, section_meshes_members, section_topology_members, brep_members, brep_meshes_members, brep_topology_members,
  links_members, under, member; rewrite ?map_app; cbn [map fst snd app]; rewrite ?in_app_iff; cbn [In]; tauto.
Theorem C84_section_text : forall ho r, countable (section_categories ho r) -> told (py_section ho r) (section_members ho r) section_hidden.
Proof.
  intros ho r B p c Hc Hp Hn. pose proof (proj1 (C84_section ho r)) as ND. unfold py_section, py_string. change (inside (cat_text c) (section_string ho r)).
  destruct Hp as [<-|[<-|[<-|[]]]].
  - assert (E : c = of_map ho (sc_negative (r_section_meshes r))) by (apply (member_is _ _ _ _ ND Hc); in_members). subst c.
    apply inside_trans with (section_meshes_string ho (r_section_meshes r)); [|apply inside_cat; left; reflexivity].
    apply inside_trans with (section_negative_string ho (sc_negative (r_section_meshes r))); [|apply inside_cat; cbn [In]; tauto].
    eapply inside_shows; [apply C57_section_negative|left; reflexivity|exact Hn].
    unfold countable in *. pose proof (size_at_most (section_categories ho r) (of_map ho (sc_negative (r_section_meshes r)))).
    assert (In (of_map ho (sc_negative (r_section_meshes r))) (section_categories ho r)) by (unfold section_categories, section_meshes_categories; rewrite !in_app_iff; cbn [In]; tauto).
    change (total [of_map ho (sc_negative (r_section_meshes r))]) with (cat_size (of_map ho (sc_negative (r_section_meshes r))) + 0). specialize (H H0). lia.
  - assert (E : c = of_list (li_inexistant (st_links (r_section_topology r)))) by (apply (member_is _ _ _ _ ND Hc); in_members). subst c.
    apply inside_trans with (section_topology_string ho (r_section_topology r)); [|apply inside_cat; right; left; reflexivity].
    apply (inside_cat (issues_string (li_inexistant (st_links (r_section_topology r))))). cbn [In]. tauto.
  - assert (E : c = of_list (li_nonbijective (st_links (r_section_topology r)))) by (apply (member_is _ _ _ _ ND Hc); in_members). subst c.
    apply inside_trans with (section_topology_string ho (r_section_topology r)); [|apply inside_cat; right; left; reflexivity].
    apply (inside_cat (issues_string (li_nonbijective (st_links (r_section_topology r))))). cbn [In]. tauto.
Qed.
Lemma countable_part : forall l l', countable l -> total l' <= total l -> countable l'.
Proof. intros l l' B H. unfold countable in *. lia. Qed.
Lemma total_app : forall l l', total (l ++ l') = total l + total l'.
Proof. intros l l'. unfold total. rewrite map_app, list_sum_app. reflexivity. Qed.
Theorem C84_brep_text : forall ho r, countable (brep_categories ho r) -> told (py_brep ho r) (brep_members ho r) brep_hidden.
Proof.
  intros ho r B p c Hc Hp Hn. pose proof (proj1 (C84_brep ho r)) as ND. unfold py_brep, py_string. change (inside (cat_text c) (brep_string ho r)).
  destruct Hp as [<-|[<-|[<-|[<-|[]]]]].
  - assert (E : c = of_list (bm_model_facets (br_manifold (r_brep_meshes r)))) by (apply (member_is _ _ _ _ ND Hc); in_members). subst c.
    apply inside_trans with (brep_meshes_string ho (r_brep_meshes r)); [|apply inside_cat; left; reflexivity].
    apply inside_trans with (brep_manifold_string ho (br_manifold (r_brep_meshes r))); [|apply inside_cat; cbn [In]; tauto].
    eapply inside_shows; [apply C57_brep_manifold|cbn [brep_manifold_categories In]; tauto|exact Hn].
    apply (countable_part _ _ B). unfold brep_categories, brep_meshes_categories. rewrite !total_app. lia.
  - assert (E : c = of_map ho (br_negative (r_brep_meshes r))) by (apply (member_is _ _ _ _ ND Hc); in_members). subst c.
    apply inside_trans with (brep_meshes_string ho (r_brep_meshes r)); [|apply inside_cat; left; reflexivity].
    apply inside_trans with (brep_negative_string ho (br_negative (r_brep_meshes r))); [|apply inside_cat; cbn [In]; tauto].
    eapply inside_shows; [apply C57_brep_negative|left; reflexivity|exact Hn].
    apply (countable_part _ _ B). unfold brep_categories, brep_meshes_categories. rewrite !total_app. lia.
  - assert (E : c = of_list (li_inexistant (bt_links (r_brep_topology r)))) by (apply (member_is _ _ _ _ ND Hc); in_members). subst c.
    apply inside_trans with (brep_topology_string ho (r_brep_topology r)); [|apply inside_cat; right; left; reflexivity].
    apply (inside_cat (issues_string (li_inexistant (bt_links (r_brep_topology r))))). cbn [In]. tauto.
  - assert (E : c = of_list (li_nonbijective (bt_links (r_brep_topology r)))) by (apply (member_is _ _ _ _ ND Hc); in_members). subst c.
    apply inside_trans with (brep_topology_string ho (r_brep_topology r)); [|apply inside_cat; right; left; reflexivity].
    apply (inside_cat (issues_string (li_nonbijective (bt_links (r_brep_topology r))))). cbn [In]. tauto.
Qed.

(** ** Reports that look clean in Python, on invalid objects *)
(** measures for which every polygon and every polyhedron is turned inside out *)
Definition inside_out : Measures := mkMeasures (fun p _ => p) (fun _ _ => far) (fun _ => true) (fun _ _ _ _ => true).
Definition checkb (o : PyObject) : bool := forallb (fun x => N.eqb (fst (snd x)) 0) (leaves o).
Lemma checked_clean : forall o, checkb o = true -> looks_clean o.
Proof. intros o H p n t E. apply reached in E. unfold checkb in H. rewrite forallb_forall in H. apply N.eqb_eq. exact (H _ E). Qed.
Definition one_triangle := mkSurface 2 [pt 0; pt 1; pt 2] [[0; 1; 2]] (fun _ => None) [] (fun _ => true) (fun _ => far) (fun v => Ok [(0, v)]) (fun _ => true).
Theorem C84_surface_refuted : exists ms geo ho name m st ints r v, inspect_surface ms geo ho name m st ints = Ok r /\
  is_surface_valid ms geo ho name m st ints = Ok v /\ countable (surface_categories r) /\ looks_clean (py_surface r) /\ is_valid v = false.
Proof.
  exists inside_out, exact_geo, any_order, EmptyString, one_triangle, (mkES false false), (Ok (new_issues EmptyString)). eexists. eexists.
  split; [vm_compute; reflexivity|]. split; [vm_compute; reflexivity|]. split; [reflexivity|]. split; [apply checked_clean; vm_compute; reflexivity|reflexivity].
Qed.
Theorem C84_section_refuted : exists o m st ints r v, inspect_section o m st ints = Ok r /\ is_section_valid o m st ints = Ok v /\
  countable (section_categories (or_hash o) r) /\ looks_clean (py_section (or_hash o) r) /\ py_nb_issues (py_section (or_hash o) r) = None /\ is_valid v = false.
Proof.
  exists (mkOracles inside_out exact_geo any_order triangle_lk tet_tl), good_section, no_storage, (Ok empty_intersections). eexists. eexists.
  split; [vm_compute; reflexivity|]. split; [vm_compute; reflexivity|]. split; [reflexivity|]. split; [apply checked_clean; vm_compute; reflexivity|]. split; reflexivity.
Qed.
Theorem C84_brep_refuted : exists o m st ints r v, inspect_brep o m st ints = Ok r /\ is_brep_valid o m st ints = Ok v /\
  countable (brep_categories (or_hash o) r) /\ looks_clean (py_brep (or_hash o) r) /\ py_nb_issues (py_brep (or_hash o) r) = Some 1%N /\ is_valid v = false.
Proof.
  exists (mkOracles inside_out exact_geo any_order tet_lk tet_tl), good_tet, no_storage, (Ok empty_intersections). eexists. eexists.
  split; [vm_compute; reflexivity|]. split; [vm_compute; reflexivity|]. split; [reflexivity|]. split; [apply checked_clean; vm_compute; reflexivity|]. split; reflexivity.
Qed.
Definition one_tetrahedron :=
  mkSolid [pt 0; pt 1; pt 2; pt 3] [mkPolyhedron [0; 1; 2; 3] [[1; 2; 3]; [0; 3; 2]; [0; 1; 3]; [0; 2; 1]] [(0, 1); (0, 2); (0, 3); (1, 2); (1, 3); (2, 3)]]
     (fun _ => None) [] (fun _ => false) (fun _ => far) (fun _ => far) (fun v => Ok [(0, v)]) (fun _ _ => Ok [0]).
Theorem C84_solid_refuted : exists ms geo ho name m st r v, inspect_solid ms geo ho name m st = Ok r /\
  is_solid_valid ms geo ho name m st = Ok v /\ countable (solid_categories r) /\ looks_clean (py_solid r) /\ is_valid v = false.
Proof.
  exists inside_out, exact_geo, any_order, EmptyString, one_tetrahedron, (mkES false false). eexists. eexists.
  split; [vm_compute; reflexivity|]. split; [vm_compute; reflexivity|]. split; [reflexivity|]. split; [apply checked_clean; vm_compute; reflexivity|reflexivity].
Qed.
(** the other way round: objects on which Python and the verdict agree *)
Example clean_and_valid : exists r v, inspect_section triangle_oracles good_section no_storage (Ok empty_intersections) = Ok r /\
  is_section_valid triangle_oracles good_section no_storage (Ok empty_intersections) = Ok v /\ countable (section_categories any_order r) /\
  looks_clean (py_section any_order r) /\ is_valid v = true.
Proof.
  eexists. eexists. split; [vm_compute; reflexivity|]. split; [vm_compute; reflexivity|]. split; [reflexivity|].
  split; [apply checked_clean; vm_compute; reflexivity|reflexivity].
Qed.
Example cornerless_seen : exists r v, inspect_section triangle_oracles cornerless no_storage (Ok empty_intersections) = Ok r /\
  is_section_valid triangle_oracles cornerless no_storage (Ok empty_intersections) = Ok v /\ countable (section_categories any_order r) /\
  is_valid v = false /\ ~ looks_clean (py_section any_order r).
Proof.
  eexists. eexists. split; [vm_compute; reflexivity|]. split; [vm_compute; reflexivity|]. split; [reflexivity|]. split; [reflexivity|].
  intros H. specialize (H ["topology"; "lines"; "unique_vertices_linked_to_several_lines_but_not_linked_to_a_corner"]%string 1%N).
  assert (X : 1%N = 0%N) by (eapply H; vm_compute; reflexivity). discriminate X.
Qed.
Print Assumptions C84_surface.
Print Assumptions C84_section.
Print Assumptions C84_brep.
Print Assumptions C84_members.
Print Assumptions C84_pointset_verdict.
Print Assumptions C84_curve_verdict.
Print Assumptions C84_surface_verdict.
Print Assumptions C84_solid_verdict.
Print Assumptions C84_section_verdict.
Print Assumptions C84_brep_verdict.
Print Assumptions C84_section_text.
Print Assumptions C84_brep_text.
Print Assumptions C84_surface_refuted.
Print Assumptions C84_solid_refuted.
Print Assumptions C84_section_refuted.
Print Assumptions C84_brep_refuted.

(** ** C85: verdicts in Python *)
(** what Python reads of a verdict is what C++ holds *)
Theorem C85_same : forall v : ObjectValidity,
  pv_nb_issues (py_validity v) = validity_nb_issues v /\ pv_string (py_validity v) = validity_string v /\ pv_invalidities (py_validity v) = v.
Proof. intros v. repeat split. Qed.
Lemma texts_few : forall l, length (non_empty_texts l) <= length l.
Proof.
  intros l. unfold non_empty_texts. rewrite map_length. induction l as [|a l IH]; [apply le_n|]. cbn [filter length].
  destruct (negb (cat_size a =? 0)); cbn [length]; lia.
Qed.
(** [nb_issues()] of the verdict is the number of categories with issues: it is 0 iff there is no issue at all *)
Definition counted_verdict (v : ObjectValidity) (l : list category) : Prop :=
  pv_nb_issues (py_validity v) = N.of_nat (length (non_empty_texts l)) /\ (pv_nb_issues (py_validity v) = 0%N <-> all_empty l).
Lemma verdict_counted : forall v l, length l <= 100 -> validates v l -> counted_verdict v l.
Proof.
  intros v l L [E W]. pose proof (texts_few l) as T. rewrite <- E in T.
  assert (X : pv_nb_issues (py_validity v) = N.of_nat (length v)).
  { apply (C31_count v). assert (100 < 2 ^ 32)%N by reflexivity. lia. }
  split; [rewrite X, E; reflexivity|]. rewrite X, <- W. destruct v; cbn [is_valid length]; split; intros H; try reflexivity; try discriminate H; lia.
Qed.
Theorem C85_pointset : forall geo m v, is_pointset_valid geo m = Ok v -> exists r, inspect_point_set geo m = Ok r /\
  (countable (pointset_categories r) -> counted_verdict v (pointset_categories r)).
Proof. intros geo m v H. destruct (C31_pointset geo m v H) as [r [E K]]. exists r. split; [exact E|]. intros B. apply verdict_counted; [cbn; lia|exact (proj1 (K B))]. Qed.
Theorem C85_curve : forall ms geo m v, is_edged_curve_valid ms geo m = Ok v -> exists r, inspect_edged_curve ms geo m = Ok r /\
  (countable (curve_categories r) -> counted_verdict v (curve_categories r)).
Proof. intros ms geo m v H. destruct (C31_curve ms geo m v H) as [r [E K]]. exists r. split; [exact E|]. intros B. apply verdict_counted; [cbn; lia|exact (proj1 (K B))]. Qed.
Theorem C85_surface : forall ms geo ho name m st ints v, is_surface_valid ms geo ho name m st ints = Ok v ->
  exists r, inspect_surface ms geo ho name m st ints = Ok r /\ (countable (surface_categories r) -> counted_verdict v (surface_categories r)).
Proof.
  intros ms geo ho name m st ints v H. destruct (C31_surface ms geo ho name m st ints v H) as [r [E K]]. exists r. split; [exact E|]. intros B.
  apply verdict_counted; [cbn; lia|exact (proj1 (K B))].
Qed.
Theorem C85_solid : forall ms geo ho name m st v, is_solid_valid ms geo ho name m st = Ok v ->
  exists r, inspect_solid ms geo ho name m st = Ok r /\ (countable (solid_categories r) -> counted_verdict v (solid_categories r)).
Proof.
  intros ms geo ho name m st v H. destruct (C31_solid ms geo ho name m st v H) as [r [E K]]. exists r. split; [exact E|]. intros B.
  apply verdict_counted; [cbn; lia|exact (proj1 (K B))].
Qed.
Theorem C85_section : forall o m st ints v, is_section_valid o m st ints = Ok v -> exists r, inspect_section o m st ints = Ok r /\
  (countable (section_categories (or_hash o) r) -> counted_verdict v (section_categories (or_hash o) r)).
Proof. intros o m st ints v H. destruct (C31_section o m st ints v H) as [r [E K]]. exists r. split; [exact E|]. intros B. apply verdict_counted; [cbn; lia|exact (proj1 (K B))]. Qed.
Theorem C85_brep : forall o m st ints v, is_brep_valid o m st ints = Ok v -> exists r, inspect_brep o m st ints = Ok r /\
  (countable (brep_categories (or_hash o) r) -> counted_verdict v (brep_categories (or_hash o) r)).
Proof. intros o m st ints v H. destruct (C31_brep o m st ints v H) as [r [E K]]. exists r. split; [exact E|]. intros B. apply verdict_counted; [cbn; lia|exact (proj1 (K B))]. Qed.
(** [if verdict:] is always taken *)
Theorem C85_if_always_taken : forall v, py_truth (py_validity v) = true.
Proof. reflexivity. Qed.
(** so it is not the C++ conversion to bool: an object that is not valid *)
Theorem C85_truth_refuted : exists geo m v, is_pointset_valid geo m = Ok v /\ is_valid v = false /\ py_truth (py_validity v) = true /\
  pv_nb_issues (py_validity v) = 1%N.
Proof. exists exact_geo, (mkPointSet [pt 0; pt 0]). eexists. split; [vm_compute; reflexivity|]. repeat split. Qed.
Print Assumptions C85_same.
Print Assumptions C85_section.
Print Assumptions C85_brep.
Print Assumptions C85_surface.
Print Assumptions C85_if_always_taken.
Print Assumptions C85_truth_refuted.
