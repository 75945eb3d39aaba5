(** Manifold lists and intersections: two orders, the same lists. *)
From Coq Require Import String Ascii List Arith NArith Bool Lia Permutation.
From Verif Require Import Base BaseFacts Model_Hash Model_Issues Types Model_Colocation Model_Manifold Model_Intersections Model_Topology Model_BRep Model_Blocks Model_Results Spec_Reproducible Proof_Intersections Proof_Messages Proof_Reproducible.
Import ListNotations.
Open Scope list_scope.

(** ** Hash orders *)
Lemma visits_permute : forall (ho ho' : HashOrder) A (l : list A), Permutation (visit ho l) (visit ho' l).
Proof. intros ho ho' A l. eapply Permutation_trans; [apply visit_permutes|apply Permutation_sym, visit_permutes]. Qed.
Lemma fold_left_ext : forall A B (f g : A -> B -> A) l x, (forall a b, f a b = g a b) -> fold_left f l x = fold_left g l x.
Proof. intros A B f g l. induction l as [|b l IH]; intros x H; cbn; [reflexivity|]. rewrite H. apply IH, H. Qed.
Lemma visited_same : forall (ho ho' : HashOrder) K T (P : K -> bool) (i : K -> T) (t : K -> string) (body : InspectionIssues T -> K -> InspectionIssues T) l x y,
  (forall r k, body r k = if P k then add_issue (i k) (t k) r else r) -> same_issues x y ->
  same_issues (fold_left body (visit ho l) x) (fold_left body (visit ho' l) y).
Proof.
  intros ho ho' K T P i t body l x y E H.
  pose proof (same_added K T (fun k => if P k then Some (i k, t k) else None) _ _ x y (visits_permute ho ho' K l) H) as S.
  rewrite !(fold_left_ext _ _ body (fun r a => match (if P a then Some (i a, t a) else None) with Some p => add_issue (fst p) (snd p) r | None => r end)); [exact S| |];
    intros r k; rewrite E; destruct (P k); reflexivity.
Qed.
Lemma surface_edges_same : forall ho ho' m, same_issues (surface_non_manifold_edges ho m) (surface_non_manifold_edges ho' m).
Proof.
  intros ho ho' m. apply (visited_same ho ho' _ _ (fun kv => edge_entry_is_wrong (snd kv)) fst surface_edge_message); [reflexivity|apply same_refl, paired_new].
Qed.
Lemma solid_facets_same : forall ho ho' m, same_issues (solid_non_manifold_facets ho m) (solid_non_manifold_facets ho' m).
Proof.
  intros ho ho' m. apply (visited_same ho ho' _ _ (fun kv => N.ltb 2 (snd kv)) fst (fun kv => facet_message (fst kv))); [reflexivity|apply same_refl, paired_new].
Qed.
Lemma forallb_permuted : forall A (f : A -> bool) l l', Permutation l l' -> forallb f l = forallb f l'.
Proof.
  intros A f l l' P. induction P as [|x l l' P IH|x y l|l l' l'' P IH Q JH]; cbn; [reflexivity|rewrite IH; reflexivity| |congruence].
  destruct (f x), (f y); reflexivity.
Qed.
Lemma solid_edges_paired : forall m l checked r x, solid_edges_issues m checked l r = Ok x -> paired r -> paired x.
Proof.
  intros m. induction l as [|e l IH]; intros checked r x H P; cbn in H; [injection H as <-; exact P|]. destruct (existsb _ checked); [exact (IH _ _ _ H P)|].
  destruct (edge_differs m e) as [[|]|[|]|]; try discriminate H; (eapply IH; [exact H|]); try apply paired_add; exact P.
Qed.

(** ** Loops over components *)
Lemma foldM_agree : forall A S (R : S -> S -> Prop) (f g : S -> A -> outcome S) l x y, R x y ->
  (forall a s t, In a l -> R s t -> agree R (f s a) (g t a)) -> agree R (foldM f l x) (foldM g l y).
Proof.
  intros A S R f g. induction l as [|a l IH]; intros x y H F; cbn [foldM]; [constructor; exact H|].
  destruct (F a x y (or_introl eq_refl) H) as [s t K|e|]; cbn [bind]; [|constructor..]. apply IH; [exact K|]. intros b s' t' I. apply F. right. exact I.
Qed.
Lemma agree_bind : forall A B (R : A -> A -> Prop) (Q : B -> B -> Prop) o o' (f g : A -> outcome B), agree R o o' ->
  (forall a a', R a a' -> agree Q (f a) (g a')) -> agree Q (bind o f) (bind o' g).
Proof. intros A B R Q o o' f g [a a' H|e|] F; cbn [bind]; [apply F, H|constructor..]. Qed.
Lemma agree_refl : forall A (R : A -> A -> Prop) o, (forall a, o = Ok a -> R a a) -> agree R o o.
Proof. intros A R [a|e|] H; constructor. apply H. reflexivity. Qed.
Lemma agree_status : forall A (R : A -> A -> Prop) o o', agree R o o' -> status o = status o'.
Proof. intros A R o o' [a a' _|e|]; reflexivity. Qed.
Lemma surfaces_edges_agree : forall ho ho' m x y, same_map x y ->
  agree same_map (add_surfaces_meshes_non_manifold_edges ho m x) (add_surfaces_meshes_non_manifold_edges ho' m y).
Proof.
  intros ho ho' m x y H. apply foldM_agree; [exact H|]. intros s a b _ K. constructor. apply same_entry; [|exact K]. apply same_described, surface_edges_same.
Qed.
Lemma component_edges_agree : forall ho ho' m x y, same_map x y ->
  agree same_map (add_component_meshes_non_manifold_edges ho m x) (add_component_meshes_non_manifold_edges ho' m y).
Proof.
  intros ho ho' m x y H. unfold add_component_meshes_non_manifold_edges. eapply agree_bind; [apply surfaces_edges_agree, H|]. intros a b K.
  apply foldM_agree; [exact K|]. intros c s t _ L. apply (agree_bind _ _ (fun u v => u = v /\ paired u)); [apply agree_refl; intros u E; split; [reflexivity|]|].
  - apply (solid_edges_paired _ _ _ _ _ E), paired_new.
  - intros u v [<- P]. constructor. apply same_entry; [|exact L]. apply same_described, same_refl, P.
Qed.
Lemma component_facets_agree : forall ho ho' m x y, same_map x y ->
  agree same_map (add_component_meshes_non_manifold_facets ho m x) (add_component_meshes_non_manifold_facets ho' m y).
Proof.
  intros ho ho' m x y H. apply foldM_agree; [exact H|]. intros s a b _ K. constructor. apply same_entry; [|exact K]. apply same_described, solid_facets_same.
Qed.
Lemma same_one_more : forall T i t (x y : InspectionIssues T), same_issues x y -> same_issues (add_issue i t x) (add_issue i t y).
Proof.
  intros T i t x y (D & l & l' & P & I & M & I' & M'). split; [exact D|]. exists (l ++ [(i, t)]), (l' ++ [(i, t)]). split; [apply Permutation_app_tail, P|].
  cbn [add_issue ii_issues ii_messages]. rewrite I, M, I', M', !map_app. repeat split.
Qed.
Lemma model_edges_agree : forall ho ho' m x y, same_issues x y ->
  agree same_issues (add_model_non_manifold_edges ho m x) (add_model_non_manifold_edges ho' m y).
Proof.
  intros ho ho' m x y H. unfold add_model_non_manifold_edges. cbv zeta. apply foldM_agree.
  - apply (visited_same ho ho' _ _ (fun kv => negb (Nat.leb (List.length (snd kv)) 1)) (fun kv => kv) (model_edge_message m)); [|exact H].
    intros r k. destruct (Nat.leb _ 1); reflexivity.
  - intros l s t _ K. destruct (lonely_line m l) as [[vs|]|e|]; constructor; [apply same_one_more|]; exact K.
Qed.

(** ** Traversals that do not stop *)
Lemma full_run : forall hit fl cands found0 r, traverses (record_action hit false) fl cands found0 r -> fl = false -> forall f, r = Ok f ->
  forall c, In c cands -> exists b, hit c = Ok b.
Proof.
  intros hit fl cands found0 r H. induction H as [fl s|cands s|fl cands c rest s s' b r P A T IH|fl cands c rest s e P A|fl cands c rest s P A]; intros F f E x I.
  - destruct I.
  - discriminate F.
  - unfold record_action in A. destruct (hit c) as [h|e|] eqn:Hc; cbn in A; try discriminate A. apply (Permutation_in _ P) in I. destruct I as [<-|I]; [eauto|].
    apply (IH) with (f := f); [|exact E|exact I]. rewrite F. destruct h; injection A as _ <-; reflexivity.
  - discriminate E.
  - discriminate E.
Qed.
Lemma filter_permuted : forall A (f : A -> bool) l l', Permutation l l' -> Permutation (filter f l) (filter f l').
Proof.
  intros A f l l' P. induction P as [|x l l' P IH|x y l|l l' l'' P IH Q JH]; cbn.
  - constructor.
  - destruct (f x); [constructor|]; exact IH.
  - destruct (f x), (f y); try apply Permutation_refl. apply perm_swap.
  - eapply Permutation_trans; eassumption.
Qed.
Lemma full_found : forall hit cands r, traverses (record_action hit false) false cands [] r -> (forall c, In c cands -> exists b, hit c = Ok b) ->
  exists f, r = Ok f /\ Permutation f (filter (hit_of hit) cands).
Proof.
  intros hit cands r H K. destruct (traverses_record _ _ _ _ _ _ H K) as (visited & rest & P & -> & E). destruct E as [->|[E|[E _]]]; try discriminate E.
  exists (filter (hit_of hit) visited). split; [reflexivity|]. rewrite app_nil_r in P. apply filter_permuted, Permutation_sym, P.
Qed.
Lemma two_runs : forall hit cands cands' f r, Permutation cands cands' -> traverses (record_action hit false) false cands [] (Ok f) ->
  traverses (record_action hit false) false cands' [] r -> exists f', r = Ok f' /\ Permutation f f'.
Proof.
  intros hit cands cands' f r P H H'. assert (K : forall c, In c cands -> exists b, hit c = Ok b) by (intros c; apply (full_run _ _ _ _ _ H eq_refl f eq_refl)).
  destruct (full_found _ _ _ H K) as (f0 & E & F). injection E as <-. destruct (full_found _ _ _ H') as (f' & -> & F').
  { intros c I. apply K. apply (Permutation_in _ (Permutation_sym P)), I. }
  exists f'. split; [reflexivity|]. eapply Permutation_trans; [exact F|]. eapply Permutation_trans; [apply filter_permuted, P|apply Permutation_sym, F'].
Qed.
Lemma surface_intersections_agree : forall px m c c' r r', Permutation c c' -> surface_intersecting_elements px m c r -> surface_intersecting_elements px m c' r' ->
  agree same_issues r r'.
Proof.
  intros px m c c' r r' P (f & H & ->) (f' & H' & ->). assert (K : forall x, exists b, surface_pair_intersects px m x = Ok b).
  { intros x. unfold surface_pair_intersects. destruct (Nat.eqb _ _); eauto. }
  destruct (full_found _ _ _ H) as (l & -> & _); [intros; apply K|]. destruct (two_runs _ _ _ _ _ P H H') as (l' & -> & Q). cbn [bind]. constructor.
  unfold self_intersections_issues.
  apply (same_added _ _ (fun c => Some (c, StrCat ["Polygons "%string; str (fst c); " and "%string; str (snd c); " intersect"%string])) _ _ _ _ Q).
  apply same_refl, paired_new.
Qed.
Lemma curve_intersections_same : forall px s k c c' f r', Permutation c c' -> curve_intersecting_elements px s k c (Ok f) -> curve_intersecting_elements px s k c' r' ->
  exists f', r' = Ok f' /\ same_issues f f'.
Proof.
  intros px s k c c' f r' P (l & H & E) (l' & H' & ->). destruct l as [l| |]; try discriminate E. injection E as ->.
  destruct (two_runs _ _ _ _ _ P H H') as (l2 & -> & Q). cbn [bind]. eexists. split; [reflexivity|]. unfold curve_intersections_issues.
  apply (same_added _ _ (fun c => Some (c, StrCat ["Triangle "%string; str (fst c); " and edge"%string; str (snd c); " intersect"%string])) _ _ _ _ Q).
  apply same_refl, paired_new.
Qed.

(** ** Tasks *)
Definition settled {A} (R : A -> A -> Prop) (T : outcome A -> Prop) : Prop := forall x r, T (Ok x) -> T r -> exists x', r = Ok x' /\ R x x'.
Lemma settled_const : forall A (R : A -> A -> Prop) o, (forall x, R x x) -> settled R (fun r => r = o).
Proof. intros A R o Hr x r E ->. exists x. split; [congruence|apply Hr]. Qed.
Lemma located_permuted : forall a b l l', Permutation l l' -> Permutation (located a b l) (located a b l').
Proof. intros. apply Permutation_map. assumption. Qed.
Definition keeps_all (a : SurfacesAction) : Prop := a <> OneIntersection.
Lemma pair_task_settled : forall px m a s1 s2 c, keeps_all a -> settled (@Permutation _) (pair_task px m a s1 s2 c).
Proof.
  intros px m a s1 s2 c K x r (f & H & E) (f' & H' & ->). destruct f as [f| |]; try discriminate E. injection E as ->.
  unfold surfaces_action in H, H'. assert (S : (match a with OneIntersection => true | _ => false end) = false) by (destruct a; [exfalso; apply K; reflexivity|reflexivity..]).
  rewrite S in H, H'. destruct (two_runs _ _ _ _ _ (Permutation_refl _) H H') as (l & -> & P). cbn [bind]. eexists. split; [reflexivity|]. apply located_permuted, P.
Qed.
Lemma self_task_settled : forall px m trees a s, keeps_all a -> settled (@Permutation _) (self_task px m trees a s).
Proof.
  intros px m trees a s K. unfold self_task. destruct (get_surface m (co_id s)); [destruct (mesh_tree_id _ _)|..];
    try (apply settled_const; intros; apply Permutation_refl). apply pair_task_settled, K.
Qed.
Lemma overlap_task_settled : forall px m trees a c, keeps_all a -> settled (@Permutation _) (overlap_task px m trees a c).
Proof.
  intros px m trees a c K. unfold overlap_task. destruct (let! id1 := _ in _) as [[s1 s2]| |]; try (apply settled_const; intros; apply Permutation_refl). apply pair_task_settled, K.
Qed.
Lemma gather_ok : forall rs l, gather rs = Ok l -> exists ls, rs = map Ok ls /\ l = concat ls.
Proof.
  intros rs l H. unfold gather in H. destruct (existsb _ rs); [discriminate H|]. change l with ([] ++ l). cut (exists ls, rs = map Ok ls /\ l = [] ++ concat ls); [exact (fun x => x)|].
  revert H. generalize (@nil (ComponentMeshElement * ComponentMeshElement)). revert l. induction rs as [|r rs IH]; intros l acc H; cbn [foldM] in H.
  - injection H as <-. exists []. split; [reflexivity|]. cbn. rewrite app_nil_r. reflexivity.
  - destruct r as [r| |]; try discriminate H. cbn [bind] in H. destruct (IH _ _ H) as (ls & -> & ->). exists (r :: ls). split; [reflexivity|]. cbn. rewrite app_assoc. reflexivity.
Qed.
Lemma gather_all : forall ls, gather (map Ok ls) = Ok (concat ls).
Proof.
  intros ls. unfold gather. replace (existsb _ (map Ok ls)) with false by (induction ls; [reflexivity|exact IHls]).
  change (concat ls) with ([] ++ concat ls). generalize (@nil (ComponentMeshElement * ComponentMeshElement)). induction ls as [|x ls IH]; intros acc; cbn [map foldM bind concat].
  - rewrite app_nil_r. reflexivity.
  - rewrite IH, app_assoc. reflexivity.
Qed.
Lemma tasks_settled : forall A (T : A -> outcome IntersectionsResult -> Prop) as_ ls rs, (forall a, settled (@Permutation _) (T a)) ->
  Forall2 T as_ (map Ok ls) -> Forall2 T as_ rs -> exists ls', rs = map Ok ls' /\ Permutation (concat ls) (concat ls').
Proof.
  intros A T as_ ls rs S H. revert rs. remember (map Ok ls) as os eqn:E. revert ls E. induction H as [|a o as_ os Ha H IH]; intros [|l ls] E rs K; try discriminate E.
  - inversion K; subst. exists []. split; [reflexivity|constructor].
  - injection E as -> E. inversion K as [|? r ? rs' Kr Krs]; subst. destruct (S a _ _ Ha Kr) as (x & -> & P). destruct (IH ls eq_refl rs' Krs) as (ls' & -> & Q).
    exists (x :: ls'). split; [reflexivity|]. cbn. apply Permutation_app; assumption.
Qed.
Lemma Forall2_permuted : forall A B (T : A -> B -> Prop) l l' k, Permutation l l' -> Forall2 T l' k -> exists k', Permutation k' k /\ Forall2 T l k'.
Proof.
  intros A B T l l' k P. revert k. induction P as [|x l l' P IH|x y l|l l' l'' P IH Q JH]; intros k F.
  - exists k. auto.
  - inversion F as [|? b ? k0 H K]; subst. destruct (IH k0 K) as (k' & Pk & Fk). exists (b :: k'). split; [constructor; exact Pk|constructor; assumption].
  - inversion F as [|? b ? k0 H K]; subst. inversion K as [|? c ? k1 H' K']; subst. exists (c :: b :: k1). split; [apply perm_swap|]. repeat (constructor; [assumption|]). exact K'.
  - destruct (JH k F) as (k1 & P1 & F1). destruct (IH k1 F1) as (k2 & P2 & F2). exists k2. split; [eapply Permutation_trans; eassumption|exact F2].
Qed.
Lemma concat_permuted : forall A (l l' : list (list A)), Permutation l l' -> Permutation (concat l) (concat l').
Proof. intros A l l' P. rewrite <- (map_id l), <- (map_id l'), <- !flat_map_concat_map. apply flat_map_permuted, P. Qed.
Lemma polygons_settled : forall px m trees a, keeps_all a -> settled (@Permutation _) (intersecting_polygons px m trees a).
Proof.
  intros px m trees a K x r. unfold intersecting_polygons. destruct (existsb _ _); [apply settled_const; intros; apply Permutation_refl|].
  intros (s & ov & os & S & O & T & E) (s' & ov' & os' & S' & O' & T' & ->). symmetry in E. apply gather_ok in E. destruct E as (ls & E & ->).
  symmetry in E. apply map_eq_app in E. destruct E as (l1 & l2 & -> & <- & <-).
  destruct (tasks_settled _ _ _ _ _ (fun c => self_task_settled px m trees a c K) S S') as (l1' & -> & P1).
  destruct (two_runs _ _ _ _ _ (Permutation_refl _) O O') as (ov2 & E & PO). injection E as <-.
  destruct (Forall2_permuted _ _ _ _ _ _ PO T') as (k & Pk & Tk).
  destruct (tasks_settled _ _ _ _ _ (fun c => overlap_task_settled px m trees a c K) T Tk) as (l2' & -> & P2).
  apply Permutation_sym, Permutation_map_inv in Pk.
  destruct Pk as (l3 & -> & P3). rewrite <- map_app, gather_all. eexists. split; [reflexivity|]. rewrite !concat_app. apply Permutation_app; [exact P1|].
  eapply Permutation_trans; [exact P2|]. apply concat_permuted, P3.
Qed.

(** ** Reports of intersections *)
Definition tells_pair {C} (body : InspectionIssues C -> C -> outcome (InspectionIssues C)) : Prop :=
  forall c, (exists t, forall acc, body acc c = Ok (add_issue c t acc)) \/ (forall acc x, body acc c <> Ok x).
Lemma reported : forall C (body : InspectionIssues C -> C -> outcome (InspectionIssues C)) l x r, tells_pair body -> foldM body l x = Ok r ->
  exists pairs, l = map fst pairs /\ (forall p, In p pairs -> forall acc, body acc (fst p) = Ok (add_issue (fst p) (snd p) acc)).
Proof.
  intros C body l x r B. revert x. induction l as [|c l IH]; intros x H; [exists []; split; [reflexivity|intros p []]|]. cbn [foldM] in H.
  destruct (B c) as [[t E]|N]; [|destruct (body x c) eqn:F; try discriminate H; exfalso; apply (N _ _ F)].
  rewrite E in H. cbn [bind] in H. destruct (IH _ H) as (pairs & -> & K). exists ((c, t) :: pairs). split; [reflexivity|]. intros p [<-|I] acc; [apply E|apply K, I].
Qed.
Lemma report_all : forall C (body : InspectionIssues C -> C -> outcome (InspectionIssues C)) pairs x,
  (forall p, In p pairs -> forall acc, body acc (fst p) = Ok (add_issue (fst p) (snd p) acc)) ->
  foldM body (map fst pairs) x = Ok (fold_left (fun r p => add_issue (fst p) (snd p) r) pairs x).
Proof.
  intros C body. induction pairs as [|p pairs IH]; intros x H; [reflexivity|]. cbn [map foldM fold_left]. rewrite (H p (or_introl eq_refl)). cbn [bind]. apply IH.
  intros q I. apply H. right. exact I.
Qed.
Lemma report_settled : forall C (body : InspectionIssues C -> C -> outcome (InspectionIssues C)) l l' x y r, tells_pair body -> Permutation l l' -> same_issues x y ->
  foldM body l x = Ok r -> exists r', foldM body l' y = Ok r' /\ same_issues r r'.
Proof.
  intros C body l l' x y r B P S H. destruct (reported _ _ _ _ _ B H) as (pairs & -> & K). apply Permutation_sym, Permutation_map_inv in P. destruct P as (pairs' & -> & P).
  rewrite report_all in H by exact K. injection H as <-. eexists. split; [apply report_all; intros p I; apply K; apply (Permutation_in _ (Permutation_sym P)), I|].
  apply (same_added _ _ (fun p => Some p) _ _ _ _ P S).
Qed.
Lemma surfaces_report_settled : forall px m trees x y r r', same_issues x y -> add_intersecting_surfaces_elements px m trees x (Ok r) ->
  add_intersecting_surfaces_elements px m trees y r' -> exists l, r' = Ok l /\ same_issues r l.
Proof.
  intros px m trees x y r r' S (f & F & E) (f' & F' & ->). destruct f as [f| |]; try discriminate E. cbn [bind] in E. symmetry in E.
  destruct (polygons_settled px m trees AllIntersections ltac:(discriminate) _ _ F F') as (g & -> & P). cbn [bind].
  refine (report_settled _ _ _ _ _ _ _ _ P S E). intros c; repeat (match goal with |- context [get_surface ?m ?x] => destruct (get_surface m x) | |- context [get_line ?m ?x] => destruct (get_line m x) end; cbn [bind]); first [left; eexists; reflexivity|right; discriminate].
Qed.
Lemma self_report_settled : forall px m trees x y r r', same_issues x y -> add_surface_auto_intersecting_elements px m trees x (Ok r) ->
  add_surface_auto_intersecting_elements px m trees y r' -> exists l, r' = Ok l /\ same_issues r l.
Proof.
  intros px m trees x y r r' S (f & F & E) (f' & F' & ->). destruct f as [f| |]; try discriminate E. cbn [bind] in E. symmetry in E.
  destruct (polygons_settled px m trees AutoIntersections ltac:(discriminate) _ _ F F') as (g & -> & P). cbn [bind].
  refine (report_settled _ _ _ _ _ _ _ _ P S E). intros c; repeat (match goal with |- context [get_surface ?m ?x] => destruct (get_surface m x) | |- context [get_line ?m ?x] => destruct (get_line m x) end; cbn [bind]); first [left; eexists; reflexivity|right; discriminate].
Qed.
(** the loops over surfaces and lines *)
Definition steady {A} (body : A -> IntersectionsResult -> outcome IntersectionsResult -> Prop) : Prop :=
  forall a s t x r, Permutation s t -> body a s (Ok x) -> body a t r -> exists x', r = Ok x' /\ Permutation x x'.
Lemma loop_steady : forall A (body : A -> IntersectionsResult -> outcome IntersectionsResult -> Prop) l s t x r, steady body -> Permutation s t ->
  loop body l s (Ok x) -> loop body l t r -> exists x', r = Ok x' /\ Permutation x x'.
Proof.
  intros A body. induction l as [|a l IH]; intros s t x r B P H K.
  - inversion H; subst. inversion K; subst. eauto.
  - inversion H as [|? ? ? s1 ? H1 H2| |]; subst. inversion K as [|? ? ? t1 ? K1 K2|? ? ? e K1|? ? ? K1]; subst.
    + destruct (B _ _ _ _ _ P H1 K1) as (z & E & Q). injection E as ->. exact (IH _ _ _ _ B Q H2 K2).
    + destruct (B _ _ _ _ _ P H1 K1) as (z & E & _). discriminate E.
    + destruct (B _ _ _ _ _ P H1 K1) as (z & E & _). discriminate E.
Qed.
Lemma lines_steady : forall px m lines s i, steady (line_surface_step px m lines s i).
Proof.
  intros px m lines s i l a b x r P. unfold line_surface_step. destruct (Nat.eqb _ 0); [intros E ->; injection E as ->; eauto|].
  destruct (let! s' := _ in _) as [[[s' l'] j]| |]; [|intros E; discriminate E..].
  intros (f & F & E) (f' & F' & ->). destruct f as [f| |]; try discriminate E. cbn [bind] in E. injection E as ->.
  destruct (two_runs _ _ _ _ _ (Permutation_refl _) F F') as (g & -> & Q). cbn [bind]. eexists. split; [reflexivity|]. apply Permutation_app; [exact P|]. apply located_permuted, Q.
Qed.
Lemma surface_steady : forall px m trees lines, steady (surface_step px m trees lines).
Proof.
  intros px m trees lines s a b x r P. unfold surface_step. destruct (mesh_tree_id _ _); [|intros E; discriminate E..]. apply loop_steady; [apply lines_steady|exact P].
Qed.
Lemma lines_surfaces_settled : forall px m trees lines, settled (@Permutation _) (intersecting_lines_surfaces px m trees lines).
Proof.
  intros px m trees lines x r. unfold intersecting_lines_surfaces. destruct (existsb _ _); [apply settled_const; intros; apply Permutation_refl|].
  destruct (existsb _ _); [apply settled_const; intros; apply Permutation_refl|]. apply loop_steady; [apply surface_steady|constructor].
Qed.
Lemma lines_report_settled : forall px m trees lines x y r r', same_issues x y -> add_intersecting_lines_surfaces_elements px m trees lines x (Ok r) ->
  add_intersecting_lines_surfaces_elements px m trees lines y r' -> exists l, r' = Ok l /\ same_issues r l.
Proof.
  intros px m trees lines x y r r' S (f & F & E) (f' & F' & ->). destruct f as [f| |]; try discriminate E. cbn [bind] in E. symmetry in E.
  destruct (lines_surfaces_settled px m trees lines _ _ F F') as (g & -> & P). cbn [bind].
  refine (report_settled _ _ _ _ _ _ _ _ P S E). intros c; repeat (match goal with |- context [get_surface ?m ?x] => destruct (get_surface m x) | |- context [get_line ?m ?x] => destruct (get_line m x) end; cbn [bind]); first [left; eexists; reflexivity|right; discriminate].
Qed.
Lemma section_intersections_settled : forall px m trees, settled same_issues (section_inspect_intersections px m trees).
Proof. intros px m trees x r H H'. exact (surfaces_report_settled _ _ _ _ _ _ _ (same_refl _ _ (paired_new _ _)) H H'). Qed.
Lemma self_intersections_settled : forall px m trees, settled same_issues (inspect_surfaces_self_intersections px m trees).
Proof. intros px m trees x r H H'. exact (self_report_settled _ _ _ _ _ _ _ (same_refl _ _ (paired_new _ _)) H H'). Qed.
Lemma brep_intersections_settled : forall px m trees lines, settled same_issues (brep_inspect_intersections px m trees lines).
Proof.
  intros px m trees lines x r (r1 & H1 & H2) (r1' & H1' & H2'). destruct r1 as [i1| |]; try discriminate H2.
  destruct (surfaces_report_settled _ _ _ _ _ _ _ (same_refl _ _ (paired_new _ _)) H1 H1') as (i1' & -> & S). exact (lines_report_settled _ _ _ _ _ _ _ _ S H2 H2').
Qed.
