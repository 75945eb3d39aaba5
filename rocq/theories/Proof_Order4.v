(** Components stored in another order: intersections, with the same box trees. *)
From Coq Require Import String Ascii List Arith NArith ZArith Bool Lia Permutation.
From Verif Require Import Base BaseFacts Model_Issues Types Model_Hash Model_Intersections Spec_Colocation Proof_Colocation2 Spec_Reproducible
  Proof_Reproducible Proof_Reproducible2 Spec_Order Proof_Order Proof_Order2.
Import ListNotations.
Open Scope list_scope.

(** ** Loops that append *)
Lemma loop_parts : forall A X (body : A -> list X -> outcome (list X) -> Prop) (W : A -> list X -> Prop),
  (forall a s s', body a s (Ok s') -> exists f, W a f /\ s' = s ++ f) ->
  forall l s x, loop body l s (Ok x) -> exists fs, Forall2 W l fs /\ x = s ++ concat fs.
Proof.
  intros A X body W B. induction l as [|a l IH]; intros s x L.
  - inversion L; subst. exists []. split; [constructor|]. cbn. rewrite app_nil_r. reflexivity.
  - inversion L as [|? ? ? s1 ? H1 H2| |]; subst. destruct (B _ _ _ H1) as (f & Wf & ->). destruct (IH _ _ H2) as (fs & F & ->).
    exists (f :: fs). split; [constructor; assumption|]. cbn. rewrite app_assoc. reflexivity.
Qed.
Lemma loop_follows : forall A X (body : A -> list X -> outcome (list X) -> Prop) (W : A -> list X -> Prop),
  (forall a f s r, W a f -> body a s r -> exists g, r = Ok (s ++ g) /\ Permutation f g) ->
  forall l fs, Forall2 W l fs -> forall s r, loop body l s r -> exists x, r = Ok (s ++ x) /\ Permutation (concat fs) x.
Proof.
  intros A X body W B l fs F. induction F as [|a f l fs Wf F IH]; intros s r L.
  - inversion L; subst. exists []. split; [rewrite app_nil_r; reflexivity|constructor].
  - inversion L as [|? ? ? s1 ? H1 H2|? ? ? e H1|? ? ? H1]; subst; destruct (B _ _ _ _ Wf H1) as (g & E & P); try discriminate E. injection E as ->.
    destruct (IH _ _ H2) as (x & -> & Q). exists (g ++ x). split; [rewrite app_assoc; reflexivity|]. cbn. apply Permutation_app; assumption.
Qed.

Lemma existsb_permuted : forall A (p : A -> bool) l l', Permutation l l' -> existsb p l = existsb p l'.
Proof.
  intros A p l l' Q. induction Q as [|x u v Q IH|x y u|u v w Q1 IH1 Q2 IH2]; cbn [existsb]; [reflexivity|congruence| |congruence]. destruct (p x), (p y); reflexivity.
Qed.

Section Order.
Context (m m' : Model) (H : reordered m m') (U : unique_ids m) (px : Predicates) (trees : Trees).
Let Ps := active_reordered _ _ _ (ro_surfaces _ _ H).
Let Pl := active_reordered _ _ _ (ro_lines _ _ H).
Lemma action_same : forall s1 s2 a, surfaces_action px m s1 s2 a = surfaces_action px m' s1 s2 a.
Proof. clear U. intros s1 s2 a. both_ordered m m' H. reflexivity. Qed.
Lemma pair_task_same : forall a s1 s2 c r, pair_task px m' a s1 s2 c r -> pair_task px m a s1 s2 c r.
Proof. intros a s1 s2 c r (f & F & ->). exists f. rewrite action_same. auto. Qed.
Lemma self_task_same : forall a s r, self_task px m' trees a s r -> self_task px m trees a s r.
Proof. intros a s r. unfold self_task. rewrite <- (o_surface m m' H U). destruct (get_surface m (co_id s)) as [s0|e|]; [|exact (fun X => X)|exact (fun X => X)]. destruct (mesh_tree_id _ _); [apply pair_task_same|exact (fun X => X)|exact (fun X => X)]. Qed.
Lemma overlap_task_same : forall a c r, overlap_task px m' trees a c r -> overlap_task px m trees a c r.
Proof.
  intros a c r. unfold overlap_task.
  assert (E : (let! id1 := at_index (tr_uuids trees) (fst c) in let! id2 := at_index (tr_uuids trees) (snd c) in let! s1 := get_surface m' id1 in let! s2 := get_surface m' id2 in Ok (s1, s2)) =
    (let! id1 := at_index (tr_uuids trees) (fst c) in let! id2 := at_index (tr_uuids trees) (snd c) in let! s1 := get_surface m id1 in let! s2 := get_surface m id2 in Ok (s1, s2))).
  { apply bind_eq; [reflexivity|]. intros id1. apply bind_eq; [reflexivity|]. intros id2. rewrite <- !(o_surface m m' H U). reflexivity. }
  match type of E with ?x = ?y => revert E; generalize x; intros w ->; generalize y end.
  intros [[s1 s2]|e|]; [apply pair_task_same|exact (fun X => X)|exact (fun X => X)].
Qed.
Lemma Forall2_weaken : forall A B (P Q : A -> B -> Prop) l k, (forall a b, P a b -> Q a b) -> Forall2 P l k -> Forall2 Q l k.
Proof. intros A B P Q l k I F. induction F; constructor; auto. Qed.
(** a run on the other model is a run on the first one whose tasks are gathered in another order *)
Lemma polygons_reordered : forall a x r, keeps_all a -> intersecting_polygons px m trees a (Ok x) -> intersecting_polygons px m' trees a r ->
  exists x', r = Ok x' /\ Permutation x x'.
Proof.
  intros a x r K. unfold intersecting_polygons.
  rewrite <- (existsb_permuted _ (fun s => Nat.eqb (nb_polygons (co_mesh s)) 0) _ _ Ps).
  destruct (existsb _ (active (m_surfaces m))); [intros E ->; injection E as ->; eauto|].
  intros (s & ov & os & S & O & T & E) (s' & ov' & os' & S' & O' & T' & ->). symmetry in E. apply gather_ok in E. destruct E as (ls & E & ->).
  symmetry in E. apply map_eq_app in E. destruct E as (l1 & l2 & -> & <- & <-).
  apply (Forall2_weaken _ _ _ _ _ _ (self_task_same a)) in S'. apply (Forall2_weaken _ _ _ _ _ _ (overlap_task_same a)) in T'.
  destruct (Forall2_permuted _ _ _ _ _ _ Ps S') as (k0 & Pk0 & Sk).
  destruct (tasks_settled _ _ _ _ _ (fun c => self_task_settled px m trees a c K) S Sk) as (l1' & -> & P1).
  destruct (two_runs _ _ _ _ _ (Permutation_refl _) O O') as (ov2 & E & PO). injection E as <-.
  destruct (Forall2_permuted _ _ _ _ _ _ PO T') as (k & Pk & Tk).
  destruct (tasks_settled _ _ _ _ _ (fun c => overlap_task_settled px m trees a c K) T Tk) as (l2' & -> & P2).
  apply Permutation_sym, Permutation_map_inv in Pk. apply Permutation_sym, Permutation_map_inv in Pk0.
  destruct Pk as (l3 & -> & P3). destruct Pk0 as (l4 & -> & P4). rewrite <- map_app, gather_all. eexists. split; [reflexivity|]. rewrite !concat_app. apply Permutation_app.
  - eapply Permutation_trans; [exact P1|]. apply concat_permuted, P4.
  - eapply Permutation_trans; [exact P2|]. apply concat_permuted, P3.
Qed.
Lemma surfaces_elements_reordered : forall x y r r', same_issues x y -> add_intersecting_surfaces_elements px m trees x (Ok r) ->
  add_intersecting_surfaces_elements px m' trees y r' -> exists l, r' = Ok l /\ same_issues r l.
Proof.
  intros x y r r' S (f & F & E) (f' & F' & ->). destruct f as [f| |]; try discriminate E. cbn [bind] in E. symmetry in E.
  destruct (polygons_reordered AllIntersections _ _ ltac:(discriminate) F F') as (g & -> & P). cbn [bind].
  match goal with |- exists l, foldM ?b _ _ = Ok l /\ _ => assert (B : foldM b g y = foldM (fun acc c =>
            let! s1 := get_surface m (element_component (fst c)) in
            let! s2 := get_surface m (element_component (snd c)) in
            Ok (add_issue c (StrCat ["Surfaces "; named m (co_name s1) (co_id s1); " and "; named m (co_name s2) (co_id s2);
                                     " intersect on polygons "; str (snd (fst c)); " and "; str (snd (snd c))]%string) acc)) g y) end.
  { apply foldM_eq; auto. intros s c. rewrite <- !(o_surface m m' H U). apply bind_eq; [reflexivity|]. intros s1. apply bind_eq; [reflexivity|]. intros s2.
    rewrite !(o_named m m' H). reflexivity. }
  rewrite B. clear B.
  refine (report_settled _ _ _ _ _ _ _ _ P S E). intros c; repeat (match goal with |- context [get_surface ?m ?x] => destruct (get_surface m x) | |- context [get_line ?m ?x] => destruct (get_line m x) end; cbn [bind]); first [left; eexists; reflexivity|right; discriminate].
Qed.
Lemma self_elements_reordered : forall x y r r', same_issues x y -> add_surface_auto_intersecting_elements px m trees x (Ok r) ->
  add_surface_auto_intersecting_elements px m' trees y r' -> exists l, r' = Ok l /\ same_issues r l.
Proof.
  intros x y r r' S (f & F & E) (f' & F' & ->). destruct f as [f| |]; try discriminate E. cbn [bind] in E. symmetry in E.
  destruct (polygons_reordered AutoIntersections _ _ ltac:(discriminate) F F') as (g & -> & P). cbn [bind].
  match goal with |- exists l, foldM ?b _ _ = Ok l /\ _ => assert (B : foldM b g y = foldM (fun acc c =>
            let! s := get_surface m (element_component (fst c)) in
            Ok (add_issue c (StrCat ["Surface "; named m (co_name s) (co_id s);
                                     " has a self intersection on polygons "; str (snd (fst c)); "and "; str (snd (snd c))]%string) acc)) g y) end.
  { apply foldM_eq; auto. intros s c. rewrite <- !(o_surface m m' H U). apply bind_eq; [reflexivity|]. intros s1.
    rewrite !(o_named m m' H). reflexivity. }
  rewrite B. clear B.
  refine (report_settled _ _ _ _ _ _ _ _ P S E). intros c; repeat (match goal with |- context [get_surface ?m ?x] => destruct (get_surface m x) | |- context [get_line ?m ?x] => destruct (get_line m x) end; cbn [bind]); first [left; eexists; reflexivity|right; discriminate].
Qed.

(** lines and surfaces *)
Context (lines : LineTrees).
(** [f] is found for a surface (its tree is [i]) and a line *)
Definition line_part (s : Component SurfaceMesh) (i : nat) (l : Component EdgedCurve) (f : IntersectionsResult) : Prop :=
  line_surface_step px m lines s i l [] (Ok f).
Lemma line_step_parts : forall s i l acc x, line_surface_step px m lines s i l acc (Ok x) -> exists f, line_part s i l f /\ x = acc ++ f.
Proof.
  intros s i l acc x. unfold line_part, line_surface_step. destruct (Nat.eqb _ 0).
  - intros E. injection E as ->. exists []. split; [reflexivity|]. rewrite app_nil_r. reflexivity.
  - destruct (let! s' := _ in _) as [[[s' l'] j]| |]; try discriminate. intros (f & F & E). destruct f as [f| |]; try discriminate E. injection E as ->.
    eexists. split; [|reflexivity]. exists (Ok f). split; [exact F|]. reflexivity.
Qed.
Lemma nb_embedding_same : forall id, nb_embedding_blocks m id = nb_embedding_blocks m' id.
Proof. intros id. clear U. both_ordered m m' H. reflexivity. Qed.
Lemma line_step_follows : forall s i l f acc r, line_part s i l f -> line_surface_step px m' lines s i l acc r -> exists g, r = Ok (acc ++ g) /\ Permutation f g.
Proof.
  intros s i l f acc r. unfold line_part, line_surface_step. rewrite <- nb_embedding_same, <- (o_surface m m' H U), <- (o_line m m' H U).
  destruct (Nat.eqb _ 0).
  - intros E ->. injection E as ->. exists []. rewrite app_nil_r. auto.
  - destruct (let! s' := _ in _) as [[[s' l'] j]| |]; try discriminate. intros (f0 & F & E) (f1 & F1 & ->). destruct f0 as [f0| |]; try discriminate E. injection E as ->.
    destruct (two_runs _ _ _ _ _ (Permutation_refl _) F F1) as (g & -> & Q). cbn [bind]. eexists. split; [reflexivity|]. apply located_permuted, Q.
Qed.
Definition surface_part (s : Component SurfaceMesh) (f : IntersectionsResult) : Prop :=
  exists i fs, mesh_tree_id (tr_uuids trees) (co_id s) = Ok i /\ Forall2 (line_part s i) (active (m_lines m)) fs /\ f = concat fs.
Lemma surface_step_parts : forall s acc x, surface_step px m trees lines s acc (Ok x) -> exists f, surface_part s f /\ x = acc ++ f.
Proof.
  intros s acc x. unfold surface_step, surface_part. destruct (mesh_tree_id _ _) as [i| |]; try discriminate. intros L.
  destruct (loop_parts _ _ _ (line_part s i) (line_step_parts s i) _ _ _ L) as (fs & F & ->). eauto 8.
Qed.
Lemma Forall2_other : forall A B (T : A -> B -> Prop) l l' k, Permutation l l' -> Forall2 T l k -> exists k', Permutation k k' /\ Forall2 T l' k'.
Proof. intros A B T l l' k P F. destruct (Forall2_permuted _ _ _ _ _ _ (Permutation_sym P) F) as (k' & Q & F'). eauto using Permutation_sym. Qed.
Lemma surface_step_follows : forall s f acc r, surface_part s f -> surface_step px m' trees lines s acc r -> exists g, r = Ok (acc ++ g) /\ Permutation f g.
Proof.
  intros s f acc r (i & fs & Ei & F & ->). unfold surface_step. rewrite Ei. intros L.
  destruct (Forall2_other _ _ _ _ _ _ Pl F) as (fs' & Q & F').
  destruct (loop_follows _ _ _ (line_part s i) (line_step_follows s i) _ _ F' _ _ L) as (g & -> & Qg). exists g. split; [reflexivity|].
  eapply Permutation_trans; [apply concat_permuted, Q|exact Qg].
Qed.
Lemma lines_surfaces_reordered : forall x r, intersecting_lines_surfaces px m trees lines (Ok x) -> intersecting_lines_surfaces px m' trees lines r ->
  exists x', r = Ok x' /\ Permutation x x'.
Proof.
  intros x r. unfold intersecting_lines_surfaces.
  rewrite <- (existsb_permuted _ (fun s => Nat.eqb (nb_polygons (co_mesh s)) 0) _ _ Ps), <- (existsb_permuted _ (fun l => Nat.eqb (List.length (ec_edges (co_mesh l))) 0) _ _ Pl).
  destruct (existsb _ (active (m_surfaces m))); [intros E ->; injection E as ->; eauto|]. destruct (existsb _ (active (m_lines m))); [intros E ->; injection E as ->; eauto|].
  intros L L'. destruct (loop_parts _ _ _ surface_part surface_step_parts _ _ _ L) as (fs & F & ->). destruct (Forall2_other _ _ _ _ _ _ Ps F) as (fs' & Q & F').
  destruct (loop_follows _ _ _ surface_part surface_step_follows _ _ F' _ _ L') as (g & -> & Qg). exists ([] ++ g). split; [reflexivity|].
  cbn. eapply Permutation_trans; [apply concat_permuted, Q|exact Qg].
Qed.
Lemma lines_elements_reordered : forall x y r r', same_issues x y -> add_intersecting_lines_surfaces_elements px m trees lines x (Ok r) ->
  add_intersecting_lines_surfaces_elements px m' trees lines y r' -> exists l, r' = Ok l /\ same_issues r l.
Proof.
  intros x y r r' S (f & F & E) (f' & F' & ->). destruct f as [f| |]; try discriminate E. cbn [bind] in E. symmetry in E.
  destruct (lines_surfaces_reordered _ _ F F') as (g & -> & P). cbn [bind].
  match goal with |- exists l, foldM ?b _ _ = Ok l /\ _ => assert (B : foldM b g y = foldM (fun acc c =>
            let! s := get_surface m (element_component (fst c)) in
            let! l := get_line m (element_component (snd c)) in
            Ok (add_issue c (StrCat ["Surface "; named m (co_name s) (co_id s); " and Line "; named m (co_name l) (co_id l);
                                     " intersect on polygon "; str (snd (fst c)); " and edge "; str (snd (snd c))]%string) acc)) g y) end.
  { apply foldM_eq; auto. intros s c. rewrite <- !(o_surface m m' H U), <- !(o_line m m' H U). apply bind_eq; [reflexivity|]. intros s1. apply bind_eq; [reflexivity|]. intros l1.
    rewrite !(o_named m m' H). reflexivity. }
  rewrite B. clear B.
  refine (report_settled _ _ _ _ _ _ _ _ P S E). intros c; repeat (match goal with |- context [get_surface ?m ?x] => destruct (get_surface m x) | |- context [get_line ?m ?x] => destruct (get_line m x) end; cbn [bind]); first [left; eexists; reflexivity|right; discriminate].
Qed.
Lemma section_intersections_reordered : forall x r, section_inspect_intersections px m trees (Ok x) -> section_inspect_intersections px m' trees r ->
  exists x', r = Ok x' /\ same_issues x x'.
Proof. intros x r. apply surfaces_elements_reordered, same_refl, paired_new. Qed.
Lemma self_intersections_reordered : forall x r, inspect_surfaces_self_intersections px m trees (Ok x) -> inspect_surfaces_self_intersections px m' trees r ->
  exists x', r = Ok x' /\ same_issues x x'.
Proof. intros x r. apply self_elements_reordered, same_refl, paired_new. Qed.
Lemma brep_intersections_reordered : forall x r, brep_inspect_intersections px m trees lines (Ok x) -> brep_inspect_intersections px m' trees lines r ->
  exists x', r = Ok x' /\ same_issues x x'.
Proof.
  intros x r (r1 & H1 & H2) (r1' & H1' & H2'). destruct r1 as [i1| |]; try discriminate H2.
  destruct (surfaces_elements_reordered _ _ _ _ (same_refl _ _ (paired_new _ _)) H1 H1') as (i1' & -> & S). exact (lines_elements_reordered _ _ _ _ S H2 H2').
Qed.
End Order.
