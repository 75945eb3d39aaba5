(** Components stored in another order: the topology of the model. *)
From Coq Require Import String Ascii List Arith NArith ZArith Bool Lia Permutation.
From Verif Require Import Base BaseFacts Model_Issues Types Model_Topology Model_BRep Model_Blocks Spec_Colocation Spec_Topology Spec_BRep Spec_Blocks Proof_Colocation2 Proof_Maps
  Proof_Safe Proof_Blocks Proof_Blocks4 Spec_Reproducible Proof_Reproducible Proof_Reproducible2 Spec_Order Proof_Order Proof_Order2 Proof_Order3.
Import ListNotations.
Open Scope list_scope.

(** ** Issues added in another order *)
Lemma same_trans : forall T (x y z : InspectionIssues T), same_issues x y -> same_issues y z -> same_issues x z.
Proof.
  intros T x y z (D & l & l' & P & I & M & I' & M') (D' & k & k' & P' & J & N & J' & N'). split; [congruence|]. exists l, k'.
  assert (X : l' = k).
  { assert (G : forall a b : list (T * string), map fst a = map fst b -> map snd a = map snd b -> a = b).
    { induction a as [|[p q] a IH]; intros [|[p' q'] b] E E'; try discriminate; [reflexivity|]. cbn in E, E'. injection E as -> E. injection E' as -> E'. rewrite (IH b E E'). reflexivity. }
    apply G; congruence. }
  subst k. split; [eapply Permutation_trans; eauto|]. auto.
Qed.
Lemma same_commute : forall T i t i' t' (x : InspectionIssues T), paired x -> same_issues (add_issue i' t' (add_issue i t x)) (add_issue i t (add_issue i' t' x)).
Proof.
  intros T i t i' t' x P. unfold paired in P. destruct (paired_pairs _ _ _ _ P) as (k & I & M). split; [reflexivity|].
  exists ((k ++ [(i, t)]) ++ [(i', t')]), ((k ++ [(i', t')]) ++ [(i, t)]). cbn [add_issue ii_issues ii_messages]. rewrite !map_app, <- I, <- M. repeat split.
  rewrite <- !app_assoc. apply Permutation_app_head, perm_swap.
Qed.
Definition maybe_issue {T} (i : T) (o : option string) (x : InspectionIssues T) : InspectionIssues T := match o with Some t => add_issue i t x | None => x end.
Lemma maybe_issue_paired : forall T i o (x : InspectionIssues T), paired x -> paired (maybe_issue i o x).
Proof. intros T i [t|] x P; [apply paired_add, P|exact P]. Qed.
Lemma maybe_issue_same : forall T i o (x y : InspectionIssues T), same_issues x y -> same_issues (maybe_issue i o x) (maybe_issue i o y).
Proof. intros T i [t|] x y R; [apply same_one_more, R|exact R]. Qed.
Lemma maybe_issue_commute : forall T i o i' o' (x : InspectionIssues T), paired x ->
  same_issues (maybe_issue i' o' (maybe_issue i o x)) (maybe_issue i o (maybe_issue i' o' x)).
Proof. intros T i [t|] i' [t'|] x P; cbn [maybe_issue]; try (apply same_refl; auto using paired_add; fail). apply same_commute, P. Qed.
Lemma maybe_add_same : forall T id o (x y : InspectionIssuesMap T), reordered_map x y -> reordered_map (maybe_add id o x) (maybe_add id o y).
Proof. intros T id [r|] x y R; [apply add_reordered, R|exact R]. Qed.
Lemma maybe_add_commute : forall T a b o o' (x : InspectionIssuesMap T), a <> b -> reordered_map (maybe_add b o' (maybe_add a o x)) (maybe_add a o (maybe_add b o' x)).
Proof. intros T a b [r|] [r'|] x N; cbn [maybe_add]; try apply reordered_map_refl. apply add_commute, N. Qed.

(** one component: an issue, an entry of each map *)
Definition entry := (option string * (option (InspectionIssues nat) * option (InspectionIssues nat)))%type.
Definition add_entry {M} (c : Component M) (x : entry) (s : ElementIssues) : ElementIssues :=
  mkElements (maybe_issue (co_id c) (fst x) (ei_not_meshed s)) (maybe_add (co_id c) (fst (snd x)) (ei_not_linked s)) (maybe_add (co_id c) (snd (snd x)) (ei_wrong s)).
Definition same_elements (s s' : ElementIssues) : Prop :=
  same_issues (ei_not_meshed s) (ei_not_meshed s') /\ reordered_map (ei_not_linked s) (ei_not_linked s') /\ reordered_map (ei_wrong s) (ei_wrong s').
Lemma element_loop : forall M (g : Component M -> outcome entry) F F' l l' s, Permutation l l' -> NoDup (map co_id l) -> paired (ei_not_meshed s) ->
  (forall c s, In c l -> F s c = let! x := g c in Ok (add_entry c x s)) -> (forall c s, In c l' -> F' s c = let! x := g c in Ok (add_entry c x s)) ->
  follows same_elements (foldM F l s) (foldM F' l' s).
Proof.
  intros M g F F' l l' s Q N P EF EF' r Er.
  assert (X : forall k G t, (forall c s, In c k -> G s c = let! x := g c in Ok (add_entry c x s)) -> foldM G k t = foldM (fun s c => let! x := g c in Ok (add_entry c x s)) k t).
  { intros k. induction k as [|c k IH]; intros G t HG; [reflexivity|]. cbn [foldM]. rewrite (HG c t (or_introl eq_refl)).
    destruct (let! x := g c in Ok (add_entry c x t)); cbn [bind]; auto. apply IH. intros. apply HG. right. assumption. }
  rewrite (X l F s EF) in Er. rewrite (X l' F' s EF').
  destruct (loop_reordered co_id (fun s => paired (ei_not_meshed s)) same_elements g add_entry) with (l := l) (l' := l') (s := s) (s' := s) (r := r) as (r' & E' & R' & _ & _); auto.
  - intros t Pt. split; [apply same_refl, Pt|split; apply reordered_map_refl].
  - intros t u v (A1 & A2 & A3) (B1 & B2 & B3). split; [eapply same_trans; eauto|split; eapply reordered_map_trans; eauto].
  - intros c x t Pt. apply maybe_issue_paired, Pt.
  - intros c x t t' _ _ (A1 & A2 & A3). split; [apply maybe_issue_same, A1|split; apply maybe_add_same; assumption].
  - intros a b x y t Nab Pt. split; [apply maybe_issue_commute, Pt|split; apply maybe_add_commute, Nab].
  - split; [apply same_refl, P|split; apply reordered_map_refl].
  - eauto.
Qed.

(** ** Alike endings *)
Definition ends_alike {X} (R : X -> X -> Prop) (x y : outcome X) : Prop :=
  match x, y with Ok a, Ok b => R a b | Throw e, Throw e' => e = e' | UB, UB => True | _, _ => False end.
Lemma ends_bind : forall X Y (R : X -> X -> Prop) (Q : Y -> Y -> Prop) x y f g, ends_alike R x y -> (forall a b, R a b -> ends_alike Q (f a) (g b)) -> ends_alike Q (bind x f) (bind y g).
Proof. intros X Y R Q [a|e|] [b|e'|] f g E G; cbn in *; auto; try contradiction. Qed.
Lemma ends_refl : forall X (x : outcome X), ends_alike eq x x.
Proof. intros X [a|e|]; cbn; auto. Qed.
Lemma ends_eq : forall X (x y : outcome X), x = y -> ends_alike eq x y.
Proof. intros X x y ->. apply ends_refl. Qed.
Lemma ends_follow : forall X (R : X -> X -> Prop) x y, ends_alike R x y -> follows R x y.
Proof. intros X R x y E r ->. destruct y; cbn in E; try contradiction. eauto. Qed.
Lemma follows_eq : forall X (x y : outcome X), x = y -> follows eq x y.
Proof. intros X x y -> r E. eauto. Qed.

Section Topology.
Context (m m' : Model) (H : reordered m m') (U : unique_ids m).
Let U' := unique_reordered m m' H U.
Let Pc := active_reordered _ _ _ (ro_corners _ _ H).
Let Pl := active_reordered _ _ _ (ro_lines _ _ H).
Let Ps := active_reordered _ _ _ (ro_surfaces _ _ H).
Let Pb := active_reordered _ _ _ (ro_blocks _ _ H).
Let Nc : NoDup (map co_id (active (m_corners m))). Proof. apply nodup_active, (nodup_parts m U). Qed.
Let Nl : NoDup (map co_id (active (m_lines m))). Proof. apply nodup_active, (nodup_parts m U). Qed.
Let Ns : NoDup (map co_id (active (m_surfaces m))). Proof. apply nodup_active, (nodup_parts m U). Qed.
Let Nb : NoDup (map co_id (active (m_blocks m))). Proof. apply nodup_active, (nodup_parts m U). Qed.

Definition reordered_pair (x y : InspectionIssues uuid * InspectionIssuesMap nat) : Prop := same_issues (fst x) (fst y) /\ reordered_map (snd x) (snd y).
Section Components.
Context {M : Type} (get : Model -> uuid -> outcome (Component M)) (kind suffix : string) (t : ComponentType) (meshed : M -> bool) (nb : M -> nat) (skip : bool).
Context (l l' : list (Component M)) (Pm : Permutation (active l) (active l')) (Nd : NoDup (map co_id (active l))).
Context (G : forall c, In c (active l) -> get m (co_id c) = Ok c) (G' : forall c, get m c = get m' c).
Let one (c : Component M) : entry :=
  let r := vertices_not_associated m (mkCID t (co_id c)) (nb (co_mesh c)) in
  (if meshed (co_mesh c) then None else Some (StrCat [kind; named m (co_name c) (co_id c); suffix]),
   (if skip && negb (meshed (co_mesh c)) then None else if N.eqb (nb_issues r) 0 then None
    else Some (set_description (StrCat [kind; named m (co_name c) (co_id c)]) r), None)).
Definition split_elements (r : ElementIssues) := (ei_not_meshed r, ei_not_linked r).
Lemma components_run : forall m0 k s, (forall c, In c k -> get m0 (co_id c) = Ok c) -> (forall x, vertices_not_associated m0 x = vertices_not_associated m x) ->
  (forall a b, named m0 a b = named m a b) ->
  foldM (inspect_component get kind suffix t meshed nb skip m0) k (split_elements s) = Ok (split_elements (fold_left (fun s c => add_entry c (one c) s) k s)).
Proof.
  intros m0 k. induction k as [|c k IH]; intros s Gk V Na; [reflexivity|]. cbn [foldM fold_left].
  assert (X : inspect_component get kind suffix t meshed nb skip m0 (split_elements s) c = Ok (split_elements (add_entry c (one c) s))).
  { unfold inspect_component. rewrite (Gk c (or_introl eq_refl)). cbn [bind]. cbv zeta. rewrite V, Na. unfold split_elements, add_entry, one. cbn [fst snd ei_not_meshed ei_not_linked].
    destruct (meshed (co_mesh c)), skip, (N.eqb (nb_issues (vertices_not_associated m (mkCID t (co_id c)) (nb (co_mesh c)))) 0); reflexivity. }
  rewrite X. cbn [bind]. apply IH; auto. intros d I. apply Gk. right. exact I.
Qed.
Lemma components_reordered : forall d1 d2, ends_alike reordered_pair (inspect_components get kind suffix t meshed nb skip m l d1 d2) (inspect_components get kind suffix t meshed nb skip m' l' d1 d2).
Proof.
  intros d1 d2. unfold inspect_components.
  set (s := mkElements (new_issues d1) (new_issues_map d2) (new_issues_map d2)). change (new_issues d1, new_issues_map d2) with (split_elements s).
  assert (Gm : forall c, In c (active l') -> get m' (co_id c) = Ok c) by (intros c I; rewrite <- G'; apply G; eapply Permutation_in; [apply Permutation_sym, Pm|exact I]).
  rewrite (components_run m (active l) s G (fun _ => eq_refl) (fun _ _ => eq_refl)).
  rewrite (components_run m' (active l') s Gm).
  2:{ intros x. unfold vertices_not_associated. rewrite (ro_unique _ _ H). reflexivity. }
  2:{ intros a b. symmetry. apply (o_named m m' H). }
  cbn [ends_alike].
  destruct (element_loop M (fun c => Ok (one c)) (fun s c => Ok (add_entry c (one c) s)) (fun s c => Ok (add_entry c (one c) s)) (active l) (active l') s Pm Nd) with (r := fold_left (fun s c => add_entry c (one c) s) (active l) s)
    as (r' & E' & A1 & A2 & _).
  - reflexivity.
  - reflexivity.
  - reflexivity.
  - apply pure_loop.
  - rewrite pure_loop in E'. injection E' as <-. split; assumption.
Qed.
End Components.

Section Elements.
Context {M : Type} (get : Model -> uuid -> outcome (Component M)) (kind : string) (t : ComponentType) (meshed : M -> bool) (nb ne : M -> nat) (en en' : bool).
Context (check check' : Component M -> nat -> outcome (option string)) (En : en = en') (Ch : forall c e, check c e = check' c e).
Context (l l' : list (Component M)) (Pm : Permutation (active l) (active l')) (Nd : NoDup (map co_id (active l))).
Context (G : forall c, In c (active l) -> get m (co_id c) = Ok c) (G' : forall c, get m c = get m' c).
Let one (c : Component M) : outcome entry :=
  let r := vertices_not_associated m (mkCID t (co_id c)) (nb (co_mesh c)) in
  let d := StrCat [kind; named m (co_name c) (co_id c)] in
  let nm := if meshed (co_mesh c) then None else Some (StrCat [kind; named m (co_name c) (co_id c); " is not meshed"%string]) in
  if negb (N.eqb (nb_issues r) 0) then Ok (nm, (Some (set_description d r), None))
  else if negb en then Ok (nm, (None, None))
  else let! w := foldM (fun w e => let! p := check c e in Ok (match p with Some message => add_issue e message w | None => w end)) (Range (ne (co_mesh c))) (new_issues d) in
    Ok (nm, (None, if negb (N.eqb (nb_issues w) 0) then Some w else None)).
Lemma elements_step : forall s c, get m (co_id c) = Ok c -> inspect_elements_of get kind t meshed nb ne en check m s c = let! x := one c in Ok (add_entry c x s).
Proof.
  intros s c Gc. unfold inspect_elements_of, one. rewrite Gc. cbn [bind]. cbv zeta. destruct (negb (N.eqb (nb_issues (vertices_not_associated m (mkCID t (co_id c)) (nb (co_mesh c)))) 0)).
  { unfold add_entry. cbn [bind fst snd maybe_add]. destruct (meshed (co_mesh c)); reflexivity. }
  destruct (negb en).
  { unfold add_entry. cbn [bind fst snd maybe_add]. destruct (meshed (co_mesh c)); reflexivity. }
  match goal with |- context [foldM ?f ?r ?w] => destruct (foldM f r w) as [w'| |] end; cbn [bind]; try reflexivity.
  unfold add_entry. cbn [fst snd maybe_add]. destruct (meshed (co_mesh c)), (negb (N.eqb (nb_issues w') 0)); reflexivity.
Qed.
Lemma elements_reordered : forall d1 d2 d3, follows same_elements (inspect_elements get kind t meshed nb ne en check m l d1 d2 d3) (inspect_elements get kind t meshed nb ne en' check' m' l' d1 d2 d3).
Proof.
  intros d1 d2 d3. unfold inspect_elements. apply (element_loop M one); [exact Pm|exact Nd|reflexivity| |].
  - intros c s I. apply elements_step, G, I.
  - intros c s I. rewrite <- elements_step by (apply G; eapply Permutation_in; [apply Permutation_sym, Pm|exact I]).
    unfold inspect_elements_of. rewrite <- G'. apply bind_eq; [reflexivity|]. intros c'. cbv zeta.
    rewrite <- (o_named m m' H). unfold vertices_not_associated. rewrite <- (ro_unique _ _ H), <- En. apply if_eq; [reflexivity|reflexivity|]. apply if_eq; [reflexivity|reflexivity|].
    apply bind_eq; [|reflexivity]. apply foldM_eq; [reflexivity|reflexivity|]. intros w e. rewrite Ch. reflexivity.
Qed.
End Elements.

Lemma got_own : forall M (l : list (Component M)) c, NoDup (map co_id l) -> In c (active l) -> find_component (co_id c) l = Some c.
Proof.
  intros M l c N I. apply filter_In in I as [I _]. induction l as [|d l IH]; [destruct I|]. cbn [find_component]. inversion N as [|k ks Nk Nks]; subst.
  destruct I as [->|I]; [rewrite Nat.eqb_refl; reflexivity|]. destruct (Nat.eqb_spec (co_id d) (co_id c)) as [E|E]; [|apply IH; assumption].
  exfalso. apply Nk. rewrite E. apply in_map, I.
Qed.

Let got_corner : forall c, In c (active (m_corners m)) -> get_corner m (co_id c) = Ok c.
Proof. intros c I. unfold get_corner. rewrite (got_own _ _ c); [reflexivity|apply (nodup_parts m U)|exact I]. Qed.
Let got_line : forall c, In c (active (m_lines m)) -> get_line m (co_id c) = Ok c.
Proof. intros c I. unfold get_line. rewrite (got_own _ _ c); [reflexivity|apply (nodup_parts m U)|exact I]. Qed.
Let got_surface : forall c, In c (active (m_surfaces m)) -> get_surface m (co_id c) = Ok c.
Proof. intros c I. unfold get_surface. rewrite (got_own _ _ c); [reflexivity|apply (nodup_parts m U)|exact I]. Qed.
Let got_block : forall c, In c (active (m_blocks m)) -> get_block m (co_id c) = Ok c.
Proof. intros c I. unfold get_block. rewrite (got_own _ _ c); [reflexivity|apply (nodup_parts m U)|exact I]. Qed.

Ltac chk L := first [apply (L m m' H U) | apply (L m m' H)].
Lemma make_corners_reordered : forall cs cs' rs, reordered_pair cs cs' -> ends_alike reordered_corners (make_corners cs rs) (make_corners cs' rs).
Proof.
  intros cs cs' rs [A B]. unfold make_corners. destruct rs as [|a [|b [|c [|d [|e rs]]]]]; try exact I. cbn [ends_alike]. constructor; cbn; auto.
Qed.
Lemma section_corners_reordered : ends_alike reordered_corners (section_inspect_corners_topology m) (section_inspect_corners_topology m').
Proof.
  unfold section_inspect_corners_topology. apply (ends_bind _ _ reordered_pair).
  - apply components_reordered; [exact Pc|exact Nc|exact got_corner|apply (o_corner m m' H U)].
  - intros cs cs' Rcs. apply (ends_bind _ _ eq); [|intros rs rs' <-; apply make_corners_reordered, Rcs].
    apply ends_eq, (o_report_vertices m m' H). constructor; [intros ?; chk o_unique_vertex_has_multiple_corners|constructor; [intros ?; chk o_corner_has_multiple_embeddings|
      constructor; [intros ?; chk o_corner_is_not_internal_nor_boundary|constructor; [intros ?; chk o_section_corner_is_part_of_line_but_not_boundary|constructor]]]].
Qed.
Lemma brep_corners_reordered : ends_alike reordered_corners (brep_inspect_corners_topology m) (brep_inspect_corners_topology m').
Proof.
  unfold brep_inspect_corners_topology. apply (ends_bind _ _ reordered_pair).
  - apply components_reordered; [exact Pc|exact Nc|exact got_corner|apply (o_corner m m' H U)].
  - intros cs cs' Rcs. apply (ends_bind _ _ eq); [|intros rs rs' <-; apply make_corners_reordered, Rcs].
    apply ends_eq, (o_report_vertices m m' H). constructor; [intros ?; chk o_unique_vertex_has_multiple_corners|constructor; [intros ?; chk o_corner_is_multiply_embedded|
      constructor; [intros ?; chk o_corner_is_not_internal_nor_boundary|constructor; [intros ?; chk o_brep_corner_is_part_of_line_but_not_boundary|constructor]]]].
Qed.
Lemma section_lines_reordered : ends_alike reordered_section_lines (section_inspect_lines_topology m) (section_inspect_lines_topology m').
Proof.
  unfold section_inspect_lines_topology. apply (ends_bind _ _ reordered_pair).
  - apply components_reordered; [exact Pl|exact Nl|exact got_line|apply (o_line m m' H U)].
  - intros cs cs' [A B]. apply (ends_bind _ _ eq).
    + apply ends_eq, (o_report_vertices m m' H). constructor; [intros ?; chk o_section_line_wrong_relationships|constructor; [intros ?; chk o_section_invalid_embedded_line|
      constructor; [intros ?; chk o_section_invalid_single_line|constructor; [intros ?; chk o_section_lines_but_not_corner|constructor]]]].
    + intros rs rs' <-. destruct rs as [|a [|b [|c [|d [|e rs]]]]]; try exact I. cbn [ends_alike]. constructor; cbn; auto.
Qed.
Lemma section_surfaces_reordered : ends_alike reordered_section_surfaces (section_inspect_surfaces m) (section_inspect_surfaces m').
Proof.
  unfold section_inspect_surfaces. apply (ends_bind _ _ reordered_pair).
  - apply components_reordered; [exact Ps|exact Ns|exact got_surface|apply (o_surface m m' H U)].
  - intros cs cs' [A B]. apply (ends_bind _ _ eq).
    + apply ends_eq, (o_report_vertices m m' H). constructor; [intros ?; chk o_section_invalid_embedded_surface|constructor; [intros ?; chk o_section_line_not_on_surface_border|constructor]].
    + intros rs rs' <-. destruct rs as [|a [|b [|c rs]]]; try exact I. cbn [ends_alike]. constructor; cbn; auto.
Qed.

(** *** The section *)
Lemma same_default : forall T d, same_issues (@new_issues T d) (new_issues d).
Proof. intros. apply same_refl. reflexivity. Qed.
Lemma assigned_alike : forall X (R : X -> X -> Prop) d x y, R d d -> ends_alike R x y -> R (assigned d x) (assigned d y).
Proof. intros X R d [a|e|] [b|e'|] Rd E; cbn in *; auto; contradiction. Qed.
Lemma status_alike : forall X (R : X -> X -> Prop) x y, ends_alike R x y -> status x = status y.
Proof. intros X R [a|e|] [b|e'|] E; cbn in *; try contradiction; congruence. Qed.
Lemma section_topology_reordered : ends_alike reordered_section_topology (inspect_section_topology m) (inspect_section_topology m').
Proof.
  unfold inspect_section_topology. cbv zeta. rewrite (status_alike _ _ _ _ section_corners_reordered), (status_alike _ _ _ _ section_lines_reordered), (status_alike _ _ _ _ section_surfaces_reordered).
  apply (ends_bind _ _ eq); [apply ends_refl|]. intros x x' _. apply (ends_bind _ _ eq).
  - apply ends_eq, (o_wrong_links m m' H U). intros c. apply (o_cmv_exists_in_section m m' H U).
  - intros k k' <-. cbn [ends_alike]. constructor; cbn [st_corners st_lines st_surfaces st_links]; [| | |reflexivity]; apply assigned_alike.
    1: constructor; cbn; auto using same_default, reordered_map_refl. 2: constructor; cbn; auto using same_default, reordered_map_refl. 3: constructor; cbn; auto using same_default, reordered_map_refl.
    + exact section_corners_reordered.
    + exact section_lines_reordered.
    + exact section_surfaces_reordered.
Qed.

(** *** Lines and surfaces of a BRep *)
Lemma brep_lines_reordered : forall tl, follows reordered_brep_lines (brep_inspect_lines_topology tl m) (brep_inspect_lines_topology tl m').
Proof.
  intros tl. unfold brep_inspect_lines_topology. apply (follows_bind _ _ same_elements).
  - apply elements_reordered; [reflexivity|apply (o_line_edge_has_wrong_component_edges_around m m' H U)|exact Pl|exact Nl|exact got_line|apply (o_line m m' H U)].
  - intros cs cs' (A & B & C). apply (follows_bind _ _ eq).
    + apply follows_eq, (o_report_vertices m m' H). constructor; [intros ?; chk o_brep_invalid_embedded_line|constructor; [intros ?; chk o_brep_line_wrong_relationships|
      constructor; [intros ?; chk o_brep_invalid_single_line|constructor; [intros ?; chk o_brep_lines_but_not_corner|constructor]]]].
    + intros rs rs' <-. destruct rs as [|a [|b [|c [|d [|e rs]]]]]; try (intros ? X; discriminate X). apply follows_ok. constructor; cbn; auto.
Qed.
Lemma brep_surfaces_reordered : forall tl, follows reordered_brep_surfaces (brep_inspect_surfaces_topology tl m) (brep_inspect_surfaces_topology tl m').
Proof.
  intros tl. unfold brep_inspect_surfaces_topology. apply (follows_bind _ _ same_elements).
  - apply elements_reordered; [apply (o_brep_blocks_are_meshed m m' H)|apply (o_surface_facet_has_wrong_component_facets_around m m' H U)|exact Ps|exact Ns|exact got_surface|apply (o_surface m m' H U)].
  - intros cs cs' (A & B & C). apply (follows_bind _ _ eq).
    + apply follows_eq, (o_report_vertices m m' H). constructor; [intros ?; chk o_brep_invalid_embedded_surface|constructor; [intros ?; chk o_brep_invalid_multiple_surfaces|
      constructor; [intros ?; chk o_brep_line_not_on_surface_border|constructor]]].
    + intros rs rs' <-. destruct rs as [|a [|b [|c [|d rs]]]]; try (intros ? X; discriminate X). apply follows_ok. constructor; cbn; auto.
Qed.
End Topology.
