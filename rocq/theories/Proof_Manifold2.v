From Coq Require Import String Ascii List Arith NArith ZArith Bool Lia Sorted Permutation.
From Verif Require Import Base BaseFacts Model_Issues Types Model_Colocation Model_Cycles Model_Hash Model_Manifold
  Spec_Maps Spec_Cycles Spec_Adjacency Spec_Manifold
  Proof_Issues Proof_Colocation Proof_Colocation2 Proof_Maps Proof_Cycles Proof_Adjacency Proof_Hash Proof_Manifold.
Import ListNotations.
Open Scope list_scope.

(** ** C16 *)
Section Firsts.
Context {A : Type} (k : A -> nat * nat).
Fixpoint firsts (checked : list (nat * nat)) (l : list A) : list A :=
  match l with
  | [] => []
  | e :: l' => if existsb (pair_eqb (k e)) checked then firsts checked l' else e :: firsts (k e :: checked) l'
  end.
Lemma checked_iff : forall x checked, existsb (pair_eqb x) checked = true <-> In x checked.
Proof.
  intros x ck. rewrite existsb_exists. split.
  - intros (y & Hy & E). apply pair_eqb_eq in E. subst. exact Hy.
  - intros H. exists x. split; [exact H|apply pair_eqb_eq; reflexivity].
Qed.
Lemma in_firsts : forall l checked e, In e (firsts checked l) <->
  ~ In (k e) checked /\ exists l1 l2, l = l1 ++ e :: l2 /\ ~ In (k e) (map k l1).
Proof.
  induction l as [|x l IH]; intros ck e; cbn [firsts].
  - split; [intros []|]. intros (_ & l1 & l2 & E & _). destruct l1; discriminate.
  - destruct (existsb (pair_eqb (k x)) ck) eqn:E.
    + apply checked_iff in E. rewrite IH. split.
      * intros (H1 & l1 & l2 & -> & H2). split; [exact H1|]. exists (x :: l1), l2. split; [reflexivity|].
        intros [H|H]; [congruence|contradiction].
      * intros (H1 & l1 & l2 & El & H2). split; [exact H1|]. destruct l1 as [|y l1]; cbn in El; injection El as -> ->.
        -- contradiction.
        -- exists l1, l2. split; [reflexivity|]. intros H. apply H2. right. exact H.
    + assert (E' : ~ In (k x) ck) by (intros H; apply checked_iff in H; congruence). split.
      * intros [<-|H].
        -- split; [exact E'|]. exists [], l. split; [reflexivity|]. intros [].
        -- apply IH in H. destruct H as (H1 & l1 & l2 & -> & H2). split; [intros H; apply H1; right; exact H|].
           exists (x :: l1), l2. split; [reflexivity|]. intros [H|H]; [apply H1; left; exact H|contradiction].
      * intros (H1 & l1 & l2 & El & H2). destruct l1 as [|y l1]; cbn in El; injection El as -> ->; [left; reflexivity|].
        right. apply IH. split.
        -- intros [H|H]; [apply H2; left; exact H|contradiction].
        -- exists l1, l2. split; [reflexivity|]. intros H. apply H2. right. exact H.
Qed.
Lemma firsts_incl : forall l checked e, In e (firsts checked l) -> In e l.
Proof. intros l ck e H. apply in_firsts in H. destruct H as (_ & l1 & l2 & -> & _). apply in_or_app. right. left. reflexivity. Qed.
Lemma firsts_sorted : forall (R : A -> A -> Prop) l checked, StronglySorted R l -> StronglySorted R (firsts checked l).
Proof.
  intros R l. induction l as [|x l IH]; intros ck H; cbn; [constructor|]. inversion H as [|? ? Hs Ha]; subst.
  destruct (existsb _ ck); [apply IH; exact Hs|]. constructor; [apply IH; exact Hs|].
  rewrite Forall_forall in *. intros y Hy. apply Ha. apply (firsts_incl _ _ _ Hy).
Qed.
End Firsts.

Lemma sorted_split : forall A (R : A -> A -> Prop) l1 x l2, (forall a b c, R a b -> R b c -> R a c) ->
  StronglySorted R (l1 ++ x :: l2) -> (forall y, In y l1 -> R y x) /\ (forall y, In y l2 -> R x y).
Proof.
  intros A R l1. induction l1 as [|z l1 IH]; intros x l2 Ht H; cbn in H; inversion H as [|? ? Hs Ha]; subst; rewrite Forall_forall in Ha.
  - split; [intros y []|exact Ha].
  - destruct (IH x l2 Ht Hs) as [H1 H2]. split; [|exact H2]. intros y [<-|Hy]; [|auto].
    apply Ha. apply in_or_app. right. left. reflexivity.
Qed.
Lemma lex_lt_trans : forall a b c, lex_lt a b -> lex_lt b c -> lex_lt a c.
Proof. unfold lex_lt. intros a b c H1 H2. lia. Qed.
Lemma lex_lt_total : forall a b, lex_lt a b \/ a = b \/ lex_lt b a.
Proof.
  intros [a a'] [b b']. unfold lex_lt. cbn.
  destruct (lt_eq_lt_dec a b) as [[H|H]|H]; [left; lia| |right; right; lia].
  destruct (lt_eq_lt_dec a' b') as [[H'|H']|H']; [left; lia| |right; right; lia]. right. left. congruence.
Qed.
Lemma in_firsts_sorted : forall (k : nat * nat -> nat * nat) l e, StronglySorted lex_lt l ->
  (In e (firsts k [] l) <-> In e l /\ forall e', In e' l -> k e' = k e -> ~ lex_lt e' e).
Proof.
  intros k l e Hs. rewrite in_firsts. split.
  - intros (_ & l1 & l2 & -> & H). split; [apply in_or_app; right; left; reflexivity|].
    destruct (sorted_split _ _ _ _ _ lex_lt_trans Hs) as [S1 S2]. intros e' He' Hk Hlt.
    apply in_app_or in He'. destruct He' as [He'|[<-|He']].
    + apply H. rewrite <- Hk. apply in_map. exact He'.
    + apply (lex_lt_irrefl _ Hlt).
    + apply (lex_lt_irrefl e). apply (lex_lt_trans _ e'); [apply S2; exact He'|exact Hlt].
  - intros (Hin & H). split; [intros []|]. apply in_split in Hin. destruct Hin as (l1 & l2 & ->). exists l1, l2. split; [reflexivity|].
    intros K. apply in_map_iff in K. destruct K as (e' & Hk & He').
    destruct (sorted_split _ _ _ _ _ lex_lt_trans Hs) as [S1 _]. apply (H e'); [apply in_or_app; left; exact He'|exact Hk|apply S1; exact He'].
Qed.

Definition pekey (m : SolidMesh) (e : nat * nat) : nat * nat := edge_key (polyhedron_edge_vertices m e).
Lemma in_all_polyhedron_edges : forall m e, In e (all_polyhedron_edges m) <->
  fst e < nb_polyhedra m /\ nth_error (ph_edges (polyhedron m (fst e))) (snd e) = Some (polyhedron_edge_vertices m e).
Proof.
  intros m e. unfold all_polyhedron_edges. rewrite (flat_pairs_in (nb_polyhedra m) (fun p => length (ph_edges (polyhedron m p)))).
  unfold polyhedron_edge_vertices. split; intros [H1 H2]; (split; [exact H1|]).
  - apply nth_error_nth'. exact H2.
  - apply nth_error_Some. congruence.
Qed.
Lemma all_polyhedron_edges_sorted : forall m, StronglySorted lex_lt (all_polyhedron_edges m).
Proof. intros m. apply (flat_pairs_sorted (fun p => length (ph_edges (polyhedron m p)))). Qed.
Lemma joins_iff : forall m a b e, polyhedron_edge_joins m a b e <-> In e (all_polyhedron_edges m) /\ pekey m e = edge_key (a, b).
Proof.
  intros m a b e. rewrite in_all_polyhedron_edges. unfold polyhedron_edge_joins, pekey.
  assert (K : forall v w, edge_key (v, w) = edge_key (a, b) <-> (v, w) = (a, b) \/ (v, w) = (b, a)).
  { intros v w. unfold edge_key. cbn. split.
    - intros H. injection H as H1 H2. assert (v = a /\ w = b \/ v = b /\ w = a) as [[-> ->]|[-> ->]] by lia; auto.
    - intros [H|H]; injection H as -> ->; [reflexivity|]. f_equal; lia. }
  split.
  - intros [H1 H2]. assert (E : nth_error (ph_edges (polyhedron m (fst e))) (snd e) = Some (polyhedron_edge_vertices m e)).
    { unfold polyhedron_edge_vertices. destruct H2 as [H2|H2]; rewrite H2; f_equal; symmetry; apply nth_error_nth; exact H2. }
    split; [auto|]. destruct (polyhedron_edge_vertices m e) as [v w]. apply K. destruct H2 as [H2|H2]; rewrite E in H2; injection H2 as -> ->; auto.
  - intros [[H1 H2] H3]. split; [exact H1|]. destruct (polyhedron_edge_vertices m e) as [v w]. apply K in H3. rewrite H2.
    destruct H3 as [H3|H3]; rewrite H3; auto.
Qed.
Lemma first_occurrence_iff : forall m e ab, first_occurrence m e ab <->
  In e (firsts (pekey m) [] (all_polyhedron_edges m)) /\ ab = polyhedron_edge_vertices m e.
Proof.
  intros m e ab. rewrite in_firsts_sorted by apply all_polyhedron_edges_sorted. unfold first_occurrence. rewrite in_all_polyhedron_edges.
  split.
  - intros (H1 & H2 & H3). assert (E : ab = polyhedron_edge_vertices m e).
    { unfold polyhedron_edge_vertices. symmetry. apply nth_error_nth. exact H2. }
    split; [|exact E]. split; [split; [exact H1|congruence]|]. intros e' He' Hk. apply H3. apply joins_iff. split; [exact He'|].
    rewrite Hk, E. unfold pekey. destruct (polyhedron_edge_vertices m e). reflexivity.
  - intros (((H1 & H2) & H3) & ->). split; [exact H1|]. split; [exact H2|]. intros e' He'. apply joins_iff in He'. apply H3; [tauto|].
    destruct He' as [_ He']. rewrite He'. unfold pekey. destruct (polyhedron_edge_vertices m e). reflexivity.
Qed.

Lemma edges_map_lookup : forall m e, In e (all_polyhedron_edges m) ->
  lookup pair_eqb (pekey m e) (edges_to_polyhedra_around m) =
  Some (map fst (with_key pair_eqb (pekey m) (pekey m e) (all_polyhedron_edges m))).
Proof.
  intros m e He. change (edges_to_polyhedra_around m) with
    (group pair_eqb (pekey m) (fun e => [fst e]) (fun (e : nat * nat) l => l ++ [fst e]) (all_polyhedron_edges m) []).
  rewrite (group_lookup _ pair_eqb_eq). set (w := with_key _ _ _ _).
  assert (Hw : In e w) by (apply (in_with_key _ _ _ pair_eqb_eq); auto).
  destruct w as [|x xs]; [destruct Hw|]. cbn [value_of map]. f_equal. clear.
  change (fst x :: map fst xs) with ([fst x] ++ map fst xs). generalize [fst x].
  induction xs as [|y xs IH]; intros acc; cbn; [rewrite app_nil_r; reflexivity|]. rewrite IH, <- app_assoc. reflexivity.
Qed.
Lemma same_perm : forall l l', NoDup l -> (polyhedra_around_edge_are_the_same l l' = true <-> Permutation l l').
Proof.
  intros l l' Hn. unfold polyhedra_around_edge_are_the_same. rewrite andb_true_iff, Nat.eqb_eq, forallb_forall. split.
  - intros [Hl Hi]. assert (I : incl l l') by (intros x Hx; apply memb_In; apply Hi; exact Hx).
    apply NoDup_Permutation_bis; [exact Hn|lia|exact I].
  - intros H. split; [apply Permutation_length; exact H|]. intros x Hx. apply memb_In. apply (Permutation_in _ H Hx).
Qed.
Lemma complete_fan_iff : forall m e fan, In e (all_polyhedron_edges m) ->
  (complete_fan m (polyhedron_edge_vertices m e) fan <->
   Permutation fan (map fst (with_key pair_eqb (pekey m) (pekey m e) (all_polyhedron_edges m)))).
Proof.
  intros m e fan He. set (w := with_key _ _ _ _).
  assert (O : lists_once (polyhedron_edge_joins m (fst (polyhedron_edge_vertices m e)) (snd (polyhedron_edge_vertices m e))) w).
  { split; [apply NoDup_filter', lex_sorted_NoDup, all_polyhedron_edges_sorted|]. intros x. unfold w.
    rewrite (in_with_key _ _ _ pair_eqb_eq), joins_iff. unfold pekey. destruct (polyhedron_edge_vertices m e). reflexivity. }
  unfold complete_fan. split.
  - intros (l & Hl & Hp). rewrite Hp. apply Permutation_map. apply (lists_once_perm _ _ _ _ Hl O).
  - intros H. exists w. auto.
Qed.
Lemma edge_differs_spec : forall m e, In e (all_polyhedron_edges m) ->
  (forall fan, so_around_edge m (polyhedron_edge_vertices m e) (fst e) = Ok fan -> NoDup fan) ->
  match so_around_edge m (polyhedron_edge_vertices m e) (fst e) with
  | Ok fan => exists b, edge_differs m e = Ok b /\ (b = true <-> ~ complete_fan m (polyhedron_edge_vertices m e) fan)
  | Throw x => edge_differs m e = Throw x
  | UB => edge_differs m e = UB
  end.
Proof.
  intros m e He Hn. unfold edge_differs. destruct (so_around_edge _ _ _) as [fan|x|] eqn:E; cbn [bind]; try reflexivity.
  specialize (Hn fan eq_refl). fold (pekey m e). rewrite (edges_map_lookup m e He). eexists. split; [reflexivity|].
  rewrite negb_true_iff, <- not_true_iff_false, (same_perm _ _ Hn), (complete_fan_iff m e fan He). reflexivity.
Qed.

Definition edge_bad (m : SolidMesh) (e : nat * nat) : bool :=
  match edge_differs m e with Ok b => b | Throw _ => true | UB => false end.
Lemma issues_loop_firsts : forall m l checked r,
  (forall e, In e l -> edge_differs m e = Throw OpenGeodeExn \/ exists b, edge_differs m e = Ok b) ->
  exists r', solid_edges_issues m checked l r = Ok r' /\
    ii_issues r' = ii_issues r ++ map (polyhedron_edge_vertices m) (filter (edge_bad m) (firsts (pekey m) checked l)).
Proof.
  intros m l. induction l as [|e l IH]; intros ck r H; cbn [solid_edges_issues firsts].
  - exists r. cbn. rewrite app_nil_r. auto.
  - fold (pekey m e). assert (Hl : forall x, In x l -> edge_differs m x = Throw OpenGeodeExn \/ exists b, edge_differs m x = Ok b)
      by (intros x Hx; apply H; right; exact Hx).
    destruct (existsb (pair_eqb (pekey m e)) ck); [apply IH; exact Hl|]. cbn [filter]. unfold edge_bad at 1.
    destruct (H e (or_introl eq_refl)) as [E|([|] & E)]; rewrite E.
    + destruct (IH (pekey m e :: ck) (add_issue (polyhedron_edge_vertices m e) (solid_edge_failure_message (polyhedron_edge_vertices m e)) r) Hl) as (r' & H1 & H2).
      exists r'. split; [exact H1|]. rewrite H2. cbn. rewrite <- app_assoc. reflexivity.
    + destruct (IH (pekey m e :: ck) (add_issue (polyhedron_edge_vertices m e) (solid_edge_message (polyhedron_edge_vertices m e)) r) Hl) as (r' & H1 & H2).
      exists r'. split; [exact H1|]. rewrite H2. cbn. rewrite <- app_assoc. reflexivity.
    + apply IH. exact Hl.
Qed.
Lemma bool_loop_firsts : forall m l checked,
  solid_edges_loop m checked l = let! b := anyM (edge_differs m) (firsts (pekey m) checked l) in Ok (negb b).
Proof.
  intros m l. induction l as [|e l IH]; intros ck; cbn [solid_edges_loop firsts]; [reflexivity|].
  fold (pekey m e). destruct (existsb (pair_eqb (pekey m e)) ck); [apply IH|]. cbn [anyM].
  destruct (edge_differs m e) as [[|]| |]; cbn [bind]; try reflexivity. apply IH.
Qed.
Lemma edge_bad_iff : forall m e, around_edge_contract m -> In e (firsts (pekey m) [] (all_polyhedron_edges m)) ->
  (edge_differs m e = Throw OpenGeodeExn \/ exists b, edge_differs m e = Ok b) /\
  (edge_bad m e = true <-> failed_edge m (e, polyhedron_edge_vertices m e) \/ unfinished_edge m (e, polyhedron_edge_vertices m e)).
Proof.
  intros m e Hc He. assert (F : first_occurrence m e (polyhedron_edge_vertices m e)) by (apply first_occurrence_iff; auto).
  pose proof (edge_differs_spec m e (firsts_incl _ _ _ _ He)) as D. unfold edge_bad, failed_edge, unfinished_edge. cbn [fst snd].
  destruct (Hc _ _ F) as [E|(fan & E & Hn)]; rewrite E in D |- *.
  - rewrite D by (intros fan K; discriminate). split; [left; reflexivity|]. split; [|reflexivity]. intros _. left. auto.
  - destruct D as (b & -> & Hb); [intros fan' K; injection K as <-; exact Hn|]. split; [right; eauto|]. rewrite Hb. split.
    + intros K. right. split; [exact F|]. exists fan. auto.
    + intros [[_ K]|[_ (fan' & K & K')]]; [discriminate|]. injection K as <-. exact K'.
Qed.
(** the loop only looks at first occurrences *)
Lemma issues_loop_first_only : forall m l checked r,
  (forall e, In e (firsts (pekey m) checked l) -> edge_differs m e = Throw OpenGeodeExn \/ exists b, edge_differs m e = Ok b) ->
  exists r', solid_edges_issues m checked l r = Ok r' /\
    ii_issues r' = ii_issues r ++ map (polyhedron_edge_vertices m) (filter (edge_bad m) (firsts (pekey m) checked l)).
Proof.
  intros m l. induction l as [|e l IH]; intros ck r H; cbn [solid_edges_issues firsts].
  - exists r. cbn. rewrite app_nil_r. auto.
  - cbn [firsts] in H. fold (pekey m e).
    destruct (existsb (pair_eqb (pekey m e)) ck); [apply IH; exact H|]. cbn [filter]. unfold edge_bad at 1.
    assert (Hl : forall x, In x (firsts (pekey m) (pekey m e :: ck) l) -> edge_differs m x = Throw OpenGeodeExn \/ exists b, edge_differs m x = Ok b)
      by (intros x Hx; apply H; right; exact Hx).
    destruct (H e (or_introl eq_refl)) as [E|([|] & E)]; rewrite E.
    + destruct (IH (pekey m e :: ck) (add_issue (polyhedron_edge_vertices m e) (solid_edge_failure_message (polyhedron_edge_vertices m e)) r) Hl) as (r' & H1 & H2).
      exists r'. split; [exact H1|]. rewrite H2. cbn. rewrite <- app_assoc. reflexivity.
    + destruct (IH (pekey m e :: ck) (add_issue (polyhedron_edge_vertices m e) (solid_edge_message (polyhedron_edge_vertices m e)) r) Hl) as (r' & H1 & H2).
      exists r'. split; [exact H1|]. rewrite H2. cbn. rewrite <- app_assoc. reflexivity.
    + apply IH. exact Hl.
Qed.
Lemma StronglySorted_map : forall A B (R : A -> A -> Prop) (S : B -> B -> Prop) (f : A -> B) l,
  (forall a b, R a b -> S (f a) (f b)) -> StronglySorted R l -> StronglySorted S (map f l).
Proof.
  intros A B R S f l H Hs. induction Hs as [|a l Hs IH Ha]; cbn; constructor; [exact IH|]. rewrite Forall_forall in *.
  intros b Hb. apply in_map_iff in Hb. destruct Hb as (c & <- & Hc). apply H. apply Ha. exact Hc.
Qed.
Lemma solid_edges_spec : forall m, around_edge_contract m ->
  exists r, solid_non_manifold_edges m = Ok r /\ solid_edge_report m (ii_issues r).
Proof.
  intros m Hc. unfold solid_non_manifold_edges.
  destruct (issues_loop_first_only m (all_polyhedron_edges m) [] (new_issues "Non manifold edges"%string)) as (r & H1 & H2).
  { intros e He. apply edge_bad_iff; assumption. }
  exists r. split; [exact H1|]. cbn in H2. rewrite H2.
  exists (map (fun e => (e, polyhedron_edge_vertices m e)) (filter (edge_bad m) (firsts (pekey m) [] (all_polyhedron_edges m)))).
  split; [rewrite map_map; reflexivity|]. split.
  - apply (StronglySorted_map _ _ lex_lt); [cbn; auto|]. apply StronglySorted_filter, firsts_sorted, all_polyhedron_edges_sorted.
  - intros [e ab]. rewrite in_map_iff. split.
    + intros (e' & E & He'). injection E as -> <-. apply filter_In in He'. destruct He' as [He' Hb].
      apply (edge_bad_iff m e Hc He'). exact Hb.
    + intros H. assert (F : first_occurrence m e ab) by (destruct H as [[F _]|[F _]]; exact F).
      apply first_occurrence_iff in F. destruct F as [F ->]. exists e. split; [reflexivity|]. apply filter_In. split; [exact F|].
      apply (edge_bad_iff m e Hc F). exact H.
Qed.
Lemma solid_edges_bool : forall m, around_edge_contract m -> (forall eab, ~ failed_edge m eab) ->
  exists r b, solid_non_manifold_edges m = Ok r /\ solid_edges_are_manifold m = Ok b /\ (b = true <-> ii_issues r = []).
Proof.
  intros m Hc Hf. destruct (solid_edges_spec m Hc) as (r & H1 & (el & H2 & H3)). exists r.
  unfold solid_edges_are_manifold. rewrite bool_loop_firsts.
  assert (P : forall e, In e (firsts (pekey m) [] (all_polyhedron_edges m)) -> edge_differs m e = Ok (edge_bad m e)).
  { intros e He. destruct (edge_bad_iff m e Hc He) as [[E|(b & E)] _]; [|unfold edge_bad; rewrite E; reflexivity].
    exfalso. apply (Hf (e, polyhedron_edge_vertices m e)). split; [apply first_occurrence_iff; auto|]. cbn [fst snd].
    destruct (Hc e _ (proj2 (first_occurrence_iff m e _) (conj He eq_refl))) as [K|(fan & K & Kn)]; [exact K|].
    pose proof (edge_differs_spec m e (firsts_incl _ _ _ _ He)) as D. rewrite K in D.
    destruct D as (b & D & _); [intros f Q; injection Q as <-; exact Kn|]. congruence. }
  rewrite (anyM_pure PolyhedronEdge _ (edge_bad m) _ P). cbn [bind]. eexists. split; [exact H1|]. split; [reflexivity|].
  rewrite negb_true_iff, <- not_true_iff_false, H2, map_nil_iff, existsb_exists. split.
  - intros H. destruct el as [|[e ab] el]; [reflexivity|]. exfalso. apply H. destruct H3 as [_ H3].
    assert (K := proj1 (H3 (e, ab)) (or_introl eq_refl)).
    assert (F : first_occurrence m e ab) by (destruct K as [[F _]|[F _]]; exact F).
    apply first_occurrence_iff in F. destruct F as [F ->]. exists e. split; [exact F|]. apply (edge_bad_iff m e Hc F). exact K.
  - intros -> (e & He & Hb). destruct H3 as [_ H3]. apply (H3 (e, polyhedron_edge_vertices m e)). apply (edge_bad_iff m e Hc He). exact Hb.
Qed.
(** failures: reported by the list, raised by the yes/no query unless an earlier edge is not manifold *)
Lemma solid_edges_failure : forall m eab, around_edge_contract m -> failed_edge m eab ->
  (exists r, solid_non_manifold_edges m = Ok r /\ In (snd eab) (ii_issues r)) /\
  (solid_edges_are_manifold m = Throw OpenGeodeExn \/ solid_edges_are_manifold m = Ok false) /\
  ((forall e, ~ unfinished_edge m e) -> solid_edges_are_manifold m = Throw OpenGeodeExn).
Proof.
  intros m [e ab] Hc Hf. split.
  - destruct (solid_edges_spec m Hc) as (r & H1 & (el & H2 & H3)). exists r. split; [exact H1|]. rewrite H2. apply in_map. apply H3. left. exact Hf.
  - unfold solid_edges_are_manifold. rewrite bool_loop_firsts. destruct Hf as [F E]. cbn [fst snd] in *.
    apply first_occurrence_iff in F. destruct F as [F ->].
    pose proof (edge_differs_spec m e (firsts_incl _ _ _ _ F)) as D. rewrite E in D. specialize (D (fun f K => ltac:(discriminate))).
    assert (G : forall l, (forall x, In x l -> In x (firsts (pekey m) [] (all_polyhedron_edges m))) -> In e l ->
      (anyM (edge_differs m) l = Throw OpenGeodeExn \/ anyM (edge_differs m) l = Ok true) /\
      ((forall x, ~ unfinished_edge m x) -> anyM (edge_differs m) l = Throw OpenGeodeExn)).
    { intros l. induction l as [|x l IH]; intros Hl Hin; [destruct Hin|]. cbn [anyM].
      destruct (edge_bad_iff m x Hc (Hl x (or_introl eq_refl))) as [[K|([|] & K)] Kb]; rewrite K; cbn [bind].
      - auto.
      - split; [auto|]. intros Q. exfalso. unfold edge_bad in Kb. rewrite K in Kb. destruct (proj1 Kb eq_refl) as [[K1 K2]|K1]; [|apply (Q _ K1)].
        cbn [fst snd] in *. pose proof (edge_differs_spec m x (firsts_incl _ _ _ _ (Hl x (or_introl eq_refl)))) as D'. rewrite K2 in D'.
        specialize (D' (fun f K => ltac:(discriminate))). congruence.
      - destruct Hin as [->|Hin]; [congruence|]. apply IH; [intros y Hy; apply Hl; right; exact Hy|exact Hin]. }
    destruct (G _ (fun x H => H) F) as [[K|K] K'].
    + rewrite K. cbn [bind]. auto.
    + rewrite K. cbn [bind negb]. split; [auto|]. intros Q. specialize (K' Q). congruence.
Qed.

(** ** C17 *)
Lemma filter_length_le : forall A (f : A -> bool) l, length (filter f l) <= length l.
Proof. intros A f l. induction l as [|x l IH]; cbn; [lia|]. destruct (f x); cbn; lia. Qed.
Lemma vertex_cycle_same : forall a, same_cycle a (vertex_cycle a).
Proof.
  intros a. unfold vertex_cycle. pose proof (oriented_cycle_same a) as H. destruct (oriented_cycle a) as [|x t]; [left; exact H|].
  destruct (Nat.ltb _ _); [|left; exact H]. right. apply soc_rev in H. cbn [rev] in H.
  apply (soc_trans _ _ _ _ H). exists (rev t), [x]. auto.
Qed.
Lemma same_cycle_perm : forall A (a b : list A), same_cycle a b -> Permutation a b.
Proof. intros A a b [H|H]; apply soc_perm in H; [exact H|]. rewrite <- H. apply Permutation_rev. Qed.
Lemma same_cycle_sym : forall A (a b : list A), same_cycle a b -> same_cycle b a.
Proof.
  intros A a b [H|H]; [left; apply soc_sym; exact H|right]. apply soc_rev in H. rewrite rev_involutive in H. apply soc_sym. exact H.
Qed.
Lemma facet_map_group : forall m, facets_to_nb_adjacent_polyhedra m =
  group cycle_eqb (fun f => vertex_cycle (polyhedron_facet_vertices m f)) (fun _ => 1%N) (fun _ n => u32 (n + 1)) (all_polyhedron_facets m) [].
Proof. reflexivity. Qed.
Lemma count_fold : forall A (xs : list A) n0, (n0 + N.of_nat (length xs) < 2 ^ 32)%N ->
  fold_left (fun n _ => u32 (n + 1)) xs n0 = (n0 + N.of_nat (length xs))%N.
Proof.
  intros A xs. induction xs as [|x xs IH]; intros n0 H; cbn [fold_left length] in *; [lia|].
  rewrite u32_small by lia. rewrite IH by lia. lia.
Qed.
Definition same_facets (m : SolidMesh) (k : list nat) : list PolyhedronFacet :=
  with_key cycle_eqb (fun f => vertex_cycle (polyhedron_facet_vertices m f)) k (all_polyhedron_facets m).
Lemma in_same_facets : forall m k f, In f (same_facets m k) <-> is_polyhedron_facet m f /\ vertex_cycle (polyhedron_facet_vertices m f) = k.
Proof. intros m k f. unfold same_facets. rewrite (in_with_key _ _ _ cycle_eqb_eq). rewrite in_all_polyhedron_facets. reflexivity. Qed.
Lemma same_facets_NoDup : forall m k, NoDup (same_facets m k).
Proof. intros m k. apply NoDup_filter', lex_sorted_NoDup, all_polyhedron_facets_sorted. Qed.
Lemma same_facets_count : forall m k, length (same_facets m k) <= length (all_polyhedron_facets m).
Proof. intros m k. unfold same_facets, with_key. apply filter_length_le. Qed.
Lemma in_facet_map : forall m k n, below_2_32 (length (all_polyhedron_facets m)) ->
  (In (k, n) (facets_to_nb_adjacent_polyhedra m) <-> n = N.of_nat (length (same_facets m k)) /\ same_facets m k <> []).
Proof.
  intros m k n Hb. rewrite facet_map_group, (in_group _ cycle_eqb_eq). fold (same_facets m k).
  pose proof (same_facets_count m k) as C. unfold below_2_32 in Hb. split.
  - intros (f & fs & E & ->). rewrite E in C |- *. cbn [length] in C |- *. rewrite count_fold by lia. split; [lia|discriminate].
  - intros [-> Hne]. destruct (same_facets m k) as [|f fs]; [congruence|]. exists f, fs. split; [reflexivity|]. cbn [length] in *. rewrite count_fold by lia. lia.
Qed.
Lemma three_distinct : forall A (l : list A), NoDup l -> 2 < length l -> exists f g h, f <> g /\ g <> h /\ f <> h /\ incl [f; g; h] l.
Proof.
  intros A [|f [|g [|h l]]] H Hl; cbn in Hl; try lia. exists f, g, h. inversion H as [|? ? H1 H2]; subst. inversion H2 as [|? ? H3 H4]; subst.
  cbn in H1, H3. repeat split; try (intros ->; intuition). intros x [<-|[<-|[<-|[]]]]; cbn; auto.
Qed.
Lemma overused_key : forall m k, simple_facets m -> 2 < length (same_facets m k) -> overused_facet m k.
Proof.
  intros m k Hs Hl. destruct (three_distinct _ _ (same_facets_NoDup m k) Hl) as (f & g & h & H1 & H2 & H3 & Hi).
  exists f, g, h. split; [exact H1|]. split; [exact H2|]. split; [exact H3|].
  intros x Hx. apply Hi in Hx. apply in_same_facets in Hx. destruct Hx as [Hx <-]. split; [exact Hx|]. apply vertex_cycle_same.
Qed.
Lemma overused_count : forall m c, simple_facets m -> overused_facet m c -> 2 < length (same_facets m (vertex_cycle c)).
Proof.
  intros m c Hs (f & g & h & H1 & H2 & H3 & H).
  assert (I : incl [f; g; h] (same_facets m (vertex_cycle c))).
  { intros x Hx. destruct (H x Hx) as [Hf Hc]. apply in_same_facets. split; [exact Hf|].
    apply vertex_cycle_iff; [apply Hs; exact Hf|exact Hc]. }
  assert (Hn : NoDup [f; g; h]).
  { repeat constructor; cbn; [intros [K|[K|[]]]|intros [K|[]]|intros []]; congruence. }
  pose proof (NoDup_incl_length Hn I) as L. cbn in L. lia.
Qed.
Lemma solid_facets_spec : forall ho ho' m, simple_facets m -> below_2_32 (length (all_polyhedron_facets m)) ->
  represents_cycles (overused_facet m) (ii_issues (solid_non_manifold_facets ho m)) /\
  (solid_facets_are_manifold ho' m = true <-> ii_issues (solid_non_manifold_facets ho m) = []).
Proof.
  intros ho ho' m Hs Hb. unfold solid_non_manifold_facets, solid_facets_are_manifold.
  rewrite (fold_report _ _ (fun kv : list nat * N => N.ltb 2 (snd kv)) fst). cbn [ii_issues new_issues app].
  rewrite (forallb_negb_filter _ (fun kv : list nat * N => N.ltb 2 (snd kv))), map_nil_iff, !filter_visit_nil. split; [|tauto].
  set (L := map fst (filter (fun kv : list nat * N => (2 <? snd kv)%N) (visit ho (facets_to_nb_adjacent_polyhedra m)))).
  assert (HL : forall k, In k L <-> 2 < length (same_facets m k)).
  { intros k. unfold L. rewrite in_map_iff. split.
    - intros ([k' n] & E & H). cbn in E. subst k'. apply filter_In in H. destruct H as [H Hn]. apply visit_in in H.
      apply in_facet_map in H; [|exact Hb]. destruct H as [-> _]. cbn in Hn. apply N.ltb_lt in Hn. lia.
    - intros H. exists (k, N.of_nat (length (same_facets m k))). split; [reflexivity|]. apply filter_In. split.
      + apply visit_in. apply in_facet_map; [exact Hb|]. split; [reflexivity|]. intros K. rewrite K in H. cbn in H. lia.
      + cbn. apply N.ltb_lt. lia. }
  assert (Hk : forall c, In c L -> vertex_cycle c = c /\ NoDup c).
  { intros c Hc. apply HL in Hc. destruct (same_facets m c) as [|f fs] eqn:E; [cbn in Hc; lia|].
    assert (Hf : In f (same_facets m c)) by (rewrite E; left; reflexivity). apply in_same_facets in Hf. destruct Hf as [Hf Hv].
    destruct (Hs f Hf) as [_ Hn]. split.
    - rewrite <- Hv at 2. symmetry. apply vertex_cycle_iff; [exact Hn|]. rewrite <- Hv. apply vertex_cycle_same.
    - rewrite <- Hv. apply (Permutation_NoDup (same_cycle_perm _ _ _ (vertex_cycle_same _)) Hn). }
  split; [|split].
  - intros c Hc. apply overused_key; [exact Hs|]. apply HL. exact Hc.
  - intros c Hc. exists (vertex_cycle c). split; [apply HL; apply overused_count; assumption|apply vertex_cycle_same].
  - intros i j ci cj Hi Hj Hc. assert (NL : NoDup L).
    { apply keys_visit_NoDup. rewrite facet_map_group. apply (group_NoDup _ cycle_eqb_eq). }
    rewrite NoDup_nth_error in NL. apply NL; [apply nth_error_Some; congruence|]. rewrite Hi, Hj. f_equal.
    destruct (Hk ci (nth_error_In _ _ Hi)) as [E1 N1]. destruct (Hk cj (nth_error_In _ _ Hj)) as [E2 _].
    rewrite <- E1, <- E2. apply vertex_cycle_iff; assumption.
Qed.
