(** Unique vertices numbered in another way: the loops over unique vertices. *)
From Coq Require Import String Ascii List Arith NArith ZArith Bool Lia Permutation.
From Verif Require Import Base BaseFacts Model_Issues Types Model_Topology Model_BRep Model_Blocks Spec_Colocation Spec_Topology Spec_Reproducible Spec_Renumber Spec_Relabel Spec_Local
  Proof_Messages Proof_Order Proof_Colocation Proof_Renumber Proof_Local Proof_Local2 Proof_BRep6.
Import ListNotations.
Open Scope list_scope.

Lemma numbers_perm : forall n f, numbers n f -> Permutation (Range n) (map f (Range n)).
Proof.
  intros n f N. symmetry. apply NoDup_Permutation_bis.
  - assert (G : forall l, (forall x, In x l -> x < n) -> NoDup l -> NoDup (map f l)).
    { induction l as [|x l IH]; intros L D; [constructor|]. inversion D as [|? ? D1 D2]; subst. cbn [map]. constructor; [|apply IH; [intros y I; apply L; right; exact I|exact D2]].
      intros I. apply in_map_iff in I as (y & E & I). apply D1. replace x with y; [exact I|]. apply (proj2 N); [apply L; right; exact I|apply L; left; reflexivity|exact E]. }
    apply G; [intros x I; apply in_Range in I; exact I|apply NoDup_Range].
  - rewrite map_length. lia.
  - intros y I. apply in_map_iff in I as (x & <- & I). apply in_Range in I. apply in_Range. apply (proj1 N), I.
Qed.
Lemma renumbered_flat : forall n f (x x' : nat -> list nat), numbers n f -> (forall uv, uv < n -> x' (f uv) = map f (x uv)) ->
  Permutation (flat_map x' (Range n)) (map f (flat_map x (Range n))).
Proof.
  intros n f x x' N E. transitivity (flat_map x' (map f (Range n))).
  - apply Permutation_flat_map, numbers_perm, N.
  - replace (flat_map x' (map f (Range n))) with (map f (flat_map x (Range n))); [reflexivity|].
    assert (G : forall l, (forall v, In v l -> v < n) -> map f (flat_map x l) = flat_map x' (map f l)).
    { induction l as [|v l IH]; intros L; [reflexivity|]. cbn [flat_map map]. rewrite map_app, (E v (L v (or_introl eq_refl))), IH; [reflexivity|]. intros w I. apply L. right. exact I. }
    apply G. intros v I. apply in_Range in I. exact I.
Qed.

(** ** Loops of checks *)
Definition shows (c : nat -> outcome (option string)) (uv : nat) : list nat := match c uv with Ok (Some _) => [uv] | _ => [] end.
Lemma report_vertex_issues : forall checks rs w rs', report_vertex checks w rs = Ok rs' -> length checks = length rs ->
  length rs' = length rs /\ (forall c, In c checks -> exists o, c w = Ok o) /\
  forall i l l' c, nth_error rs i = Some l -> nth_error rs' i = Some l' -> nth_error checks i = Some c -> ii_issues l' = ii_issues l ++ shows c w.
Proof.
  induction checks as [|c checks IH]; intros [|r rs] w rs' E L; try discriminate L; cbn [report_vertex] in E.
  - injection E as <-. split; [reflexivity|]. split; [intros c []|]. intros [|i] l l' c X; discriminate X.
  - apply bind_Ok in E as (p & Ep & E). cbv zeta in E. apply bind_Ok in E as (rs2 & E2 & E). injection E as <-.
    apply IH in E2; [|cbn in L; congruence]. destruct E2 as (L2 & T2 & N2). split; [cbn [length]; rewrite L2; reflexivity|]. split.
    + intros d [<-|I]; [exists p; exact Ep|apply T2, I].
    + intros [|i] l l' d X X' D; cbn [nth_error] in X, X', D; [|apply (N2 i l l' d X X' D)]. injection X as <-. injection X' as <-. injection D as <-.
      unfold shows. rewrite Ep. destruct p; [reflexivity|symmetry; apply app_nil_r].
Qed.
Lemma report_fold_issues : forall checks ws rs rs', foldM (fun rs uv => report_vertex checks uv rs) ws rs = Ok rs' -> length checks = length rs ->
  length rs' = length rs /\ (forall w c, In w ws -> In c checks -> exists o, c w = Ok o) /\
  forall i l l' c, nth_error rs i = Some l -> nth_error rs' i = Some l' -> nth_error checks i = Some c -> ii_issues l' = ii_issues l ++ flat_map (shows c) ws.
Proof.
  intros checks ws. induction ws as [|w ws IH]; intros rs rs' E L; cbn [foldM] in E.
  - injection E as <-. split; [reflexivity|]. split; [intros w c []|]. intros i l l' c X X' _. rewrite X in X'. injection X' as <-. symmetry. apply app_nil_r.
  - apply bind_Ok in E as (rs1 & E1 & E2). apply report_vertex_issues in E1 as (L1 & T1 & N1); [|exact L]. apply IH in E2 as (L2 & T2 & N2); [|congruence].
    split; [congruence|]. split; [intros v c [<-|I] J; [apply T1, J|apply (T2 v c I J)]|]. intros i l l' c X X' C.
    destruct (nth_error rs1 i) as [l1|] eqn:X1.
    + rewrite (N2 i l1 l' c X1 X' C), (N1 i l l1 c X X1 C). cbn [flat_map]. rewrite app_assoc. reflexivity.
    + apply nth_error_None in X1. assert (i < length rs) by (apply nth_error_Some; congruence). lia.
Qed.
Lemma report_fold_total : forall checks ws rs, length checks = length rs -> (forall w c, In w ws -> In c checks -> exists o, c w = Ok o) ->
  exists rs', foldM (fun rs uv => report_vertex checks uv rs) ws rs = Ok rs'.
Proof.
  intros checks ws. induction ws as [|w ws IH]; intros rs L T; cbn [foldM]; [exists rs; reflexivity|].
  destruct (report_vertex_total checks w rs (eq_sym L) (fun c I => T w c (or_introl eq_refl) I)) as [rs1 E1]. rewrite E1. cbn [bind]. apply IH.
  - rewrite (report_vertex_length _ _ _ _ E1). exact L.
  - intros v c I. apply T. right. exact I.
Qed.
Lemma Forall2_nth : forall A B (R : A -> B -> Prop) l l', length l = length l' -> (forall i a b, nth_error l i = Some a -> nth_error l' i = Some b -> R a b) -> Forall2 R l l'.
Proof.
  intros A B R l. induction l as [|a l IH]; intros [|b l'] L N; try discriminate L; constructor.
  - apply (N 0); reflexivity.
  - apply IH; [cbn in L; congruence|]. intros i. apply (N (S i)).
Qed.
Lemma Forall2_nth_rev : forall A B (R : A -> B -> Prop) l l' i a b, Forall2 R l l' -> nth_error l i = Some a -> nth_error l' i = Some b -> R a b.
Proof.
  intros A B R l l' i a b F. revert i. induction F as [|x y l l' r F IH]; intros [|i] E E'; try discriminate; cbn [nth_error] in *.
  - injection E as <-. injection E' as <-. exact r.
  - apply (IH i E E').
Qed.
Lemma report_relabelled : forall f m m' checks checks' ds rs, numbers (nb_unique_vertices m) f -> nb_unique_vertices m' = nb_unique_vertices m ->
  report_vertices m checks ds = Ok rs -> length checks = length ds -> length checks' = length checks ->
  (forall uv, uv < nb_unique_vertices m -> Forall2 (fun c c' => agree (told uv (f uv)) (c uv) (c' (f uv))) checks checks') ->
  exists rs', report_vertices m' checks' ds = Ok rs' /\ Forall2 (renumbered_issues f) rs rs'.
Proof.
  intros f m m' checks checks' ds rs N NB E L L' F. unfold report_vertices in *. rewrite NB in *.
  apply report_fold_issues in E as (Lr & T & I); [|rewrite map_length; exact L]. rewrite map_length in Lr.
  destruct (report_fold_total checks' (Range (nb_unique_vertices m)) (map new_issues ds)) as [rs' E']; [rewrite map_length; congruence| |].
  { intros w c' Iw Ic. apply in_Range in Iw. destruct (numbers_onto _ _ N w Iw) as (uv & B & <-). specialize (F uv B).
    apply In_nth_error in Ic as [i Ic]. destruct (nth_error checks i) as [c|] eqn:C; [|apply nth_error_None in C; assert (i < length checks') by (apply nth_error_Some; congruence); lia].
    pose proof (Forall2_nth_rev _ _ _ _ _ i c c' F C Ic) as A. cbv beta in A. destruct (T uv c) as [o O]; [apply in_Range, B|eapply nth_error_In, C|]. rewrite O in A.
    inversion A. eexists. reflexivity. }
  exists rs'. split; [exact E'|]. apply report_fold_issues in E' as (Lr' & _ & I'); [|rewrite map_length; congruence]. rewrite map_length in Lr'.
  apply Forall2_nth; [congruence|]. intros i l l' X X'. assert (Bi : i < length rs) by (apply nth_error_Some; congruence).
  destruct (nth_error checks i) as [c|] eqn:C; [|apply nth_error_None in C; lia].
  destruct (nth_error checks' i) as [c'|] eqn:C'; [|apply nth_error_None in C'; lia].
  destruct (nth_error (map (@new_issues nat) ds) i) as [l0|] eqn:X0; [|apply nth_error_None in X0; rewrite map_length in X0; lia].
  unfold renumbered_issues. rewrite (I i l0 l c X0 X C), (I' i l0 l' c' X0 X' C').
  assert (Z : ii_issues l0 = []). { apply nth_error_In in X0. apply in_map_iff in X0 as (d & <- & _). reflexivity. }
  rewrite Z. cbn [app]. apply renumbered_flat; [exact N|]. intros uv B. pose proof (Forall2_nth_rev _ _ _ _ _ i c c' (F uv B) C C') as A. cbv beta in A. unfold shows.
  destruct A as [[s|] [s'|] t|e|]; try (cbn in t; contradiction); reflexivity.
Qed.

(** ** Links *)
Definition inexistant_of (m : Model) (ex : Model -> ComponentMeshVertex -> bool) (uv : nat) (cs : list ComponentMeshVertex) : list nat :=
  map (fun _ => uv) (filter (fun c => negb (ex m c)) cs).
Definition is_true (b : outcome bool) : bool := match b with Ok true => true | _ => false end.
Definition elsewhere_of (m : Model) (ex : Model -> ComponentMeshVertex -> bool) (uv : nat) (cs : list ComponentMeshVertex) : list nat :=
  map (fun _ => uv) (filter (fun c => ex m c && is_true (linked_elsewhere m uv c)) cs).
Definition unlinked_of (m : Model) (uv : nat) : list nat := match component_mesh_vertices m uv with [] => [uv] | _ => [] end.
Definition grown (r r' : LinkIssues) (a b c : list nat) : Prop :=
  ii_issues (li_not_linked r') = ii_issues (li_not_linked r) ++ a /\ ii_issues (li_inexistant r') = ii_issues (li_inexistant r) ++ b /\
  ii_issues (li_nonbijective r') = ii_issues (li_nonbijective r) ++ c.
Lemma grown_trans : forall r r1 r2 a b c a' b' c', grown r r1 a b c -> grown r1 r2 a' b' c' -> grown r r2 (a ++ a') (b ++ b') (c ++ c').
Proof. intros r r1 r2 a b c a' b' c' (A & B & C) (A' & B' & C'). unfold grown. rewrite A', B', C', A, B, C, !app_assoc. auto. Qed.
Lemma grown_nil : forall r, grown r r [] [] []. Proof. intros r. unfold grown. rewrite !app_nil_r. auto. Qed.
Lemma wrong_links_issues : forall m ex uv cs r r', foldM (add_wrong_cmv_link m ex uv) cs r = Ok r' ->
  (forall c, In c cs -> ex m c = true -> exists b, linked_elsewhere m uv c = Ok b) /\ grown r r' [] (inexistant_of m ex uv cs) (elsewhere_of m ex uv cs).
Proof.
  intros m ex uv cs. induction cs as [|c cs IH]; intros r r' E; cbn [foldM] in E.
  - injection E as <-. split; [intros c []|apply grown_nil].
  - apply bind_Ok in E as (r1 & E1 & E2). apply IH in E2 as [T G]. unfold add_wrong_cmv_link in E1. cbv zeta in E1. unfold inexistant_of, elsewhere_of. cbn [filter].
    destruct (ex m c) eqn:X; cbn [negb andb] in *.
    + apply bind_Ok in E1 as (b & Eb & E1). split; [intros d [<-|I] Y; [exists b; exact Eb|apply (T d I Y)]|]. rewrite Eb. cbn [is_true].
      destruct b; injection E1 as <-; [|exact G]. cbn [map]. apply (grown_trans _ _ _ [] [] [uv] [] _ _ ) with (2 := G). unfold grown. cbn. rewrite !app_nil_r. auto.
    + injection E1 as <-. split; [intros d [<-|I] Y; [congruence|apply (T d I Y)]|]. cbn [map]. apply (grown_trans _ _ _ [] [uv] [] [] _ _) with (2 := G). unfold grown. cbn. rewrite !app_nil_r. auto.
Qed.
Lemma wrong_links_total : forall m ex uv cs r, (forall c, In c cs -> ex m c = true -> exists b, linked_elsewhere m uv c = Ok b) -> exists r', foldM (add_wrong_cmv_link m ex uv) cs r = Ok r'.
Proof.
  intros m ex uv cs. induction cs as [|c cs IH]; intros r T; cbn [foldM]; [exists r; reflexivity|].
  assert (S : exists r1, add_wrong_cmv_link m ex uv r c = Ok r1).
  { unfold add_wrong_cmv_link. cbv zeta. destruct (ex m c) eqn:X; cbn [negb]; [|eexists; reflexivity]. destruct (T c (or_introl eq_refl) X) as [[|] ->]; cbn [bind]; eexists; reflexivity. }
  destruct S as [r1 ->]. cbn [bind]. apply IH. intros d I. apply T. right. exact I.
Qed.
Lemma links_issues : forall m ex ws r r', foldM (link_step m ex) ws r = Ok r' ->
  (forall w c, In w ws -> In c (component_mesh_vertices m w) -> ex m c = true -> exists b, linked_elsewhere m w c = Ok b) /\
  grown r r' (flat_map (unlinked_of m) ws) (flat_map (fun w => inexistant_of m ex w (component_mesh_vertices m w)) ws)
    (flat_map (fun w => elsewhere_of m ex w (component_mesh_vertices m w)) ws).
Proof.
  intros m ex ws. induction ws as [|w ws IH]; intros r r' E; cbn [foldM] in E.
  - injection E as <-. split; [intros w c []|apply grown_nil].
  - apply bind_Ok in E as (r1 & E1 & E2). apply IH in E2 as [T G]. cbn [flat_map].
    assert (K : (forall c, In c (component_mesh_vertices m w) -> ex m c = true -> exists b, linked_elsewhere m w c = Ok b) /\
      grown r r1 (unlinked_of m w) (inexistant_of m ex w (component_mesh_vertices m w)) (elsewhere_of m ex w (component_mesh_vertices m w))).
    { unfold link_step in E1. unfold unlinked_of. destruct (component_mesh_vertices m w) as [|c cs].
      - injection E1 as <-. split; [intros c []|]. unfold grown. cbn. rewrite !app_nil_r. auto.
      - apply wrong_links_issues in E1. exact E1. }
    destruct K as [K1 K2]. split; [intros v c [<-|I]; [apply K1|apply T, I]|]. apply (grown_trans _ _ _ _ _ _ _ _ _ K2 G).
Qed.
Lemma links_total : forall m ex ws r, (forall w c, In w ws -> In c (component_mesh_vertices m w) -> ex m c = true -> exists b, linked_elsewhere m w c = Ok b) ->
  exists r', foldM (link_step m ex) ws r = Ok r'.
Proof.
  intros m ex ws. induction ws as [|w ws IH]; intros r T; cbn [foldM]; [exists r; reflexivity|].
  assert (S : exists r1, link_step m ex r w = Ok r1).
  { unfold link_step. pose proof (fun c => T w c (or_introl eq_refl)) as T0. destruct (component_mesh_vertices m w) as [|c cs]; [eexists; reflexivity|]. apply wrong_links_total. exact T0. }
  destruct S as [r1 ->]. cbn [bind]. apply IH. intros v c I. apply T. right. exact I.
Qed.

Section LinksRelabelled.
Context (f : nat -> nat) (m m' : Model) (N : numbers (nb_unique_vertices m) f) (NB : nb_unique_vertices m' = nb_unique_vertices m).
Context (H : same_frame m m') (V : forall uv, uv < nb_unique_vertices m -> same_vertex m m' uv (f uv)).
Context (ex : Model -> ComponentMeshVertex -> bool) (EX : forall uv c, uv < nb_unique_vertices m -> In c (component_mesh_vertices m uv) -> ex m c = ex m' c).
Lemma links_relabelled : forall r, add_unique_vertices_with_wrong_cmv_link m ex no_links = Ok r ->
  exists r', add_unique_vertices_with_wrong_cmv_link m' ex no_links = Ok r' /\ relabelled_links f r r'.
Proof.
  intros r E. change (foldM (link_step m ex) (Range (nb_unique_vertices m)) no_links = Ok r) in E. apply links_issues in E as (T & G1 & G2 & G3).
  assert (LE : forall uv c, uv < nb_unique_vertices m -> In c (component_mesh_vertices m uv) -> linked_elsewhere m uv c = linked_elsewhere m' (f uv) c).
  { intros uv c B I. apply (elsewhere_same m m' H uv (f uv) (V uv B) c I). }
  destruct (links_total m' ex (Range (nb_unique_vertices m')) no_links) as [r' E'].
  { intros w c Iw Ic X. apply in_Range in Iw. rewrite NB in Iw. destruct (numbers_onto _ _ N w Iw) as (uv & B & <-). rewrite <- (sv_links _ _ _ _ (V uv B)) in Ic.
    rewrite <- (LE uv c B Ic). rewrite <- (EX uv c B Ic) in X. apply T; [apply in_Range, B|exact Ic|exact X]. }
  exists r'. split; [exact E'|]. apply links_issues in E' as (_ & G1' & G2' & G3'). rewrite NB in *. cbn [no_links li_not_linked li_inexistant li_nonbijective new_issues ii_issues app] in *.
  assert (FF : forall uv (p p' : ComponentMeshVertex -> bool) cs, (forall c, In c cs -> p' c = p c) -> map (fun _ => f uv) (filter p' cs) = map f (map (fun _ => uv) (filter p cs))).
  { intros uv p p' cs Q. rewrite map_map. induction cs as [|c cs IH]; [reflexivity|]. cbn [filter]. rewrite (Q c (or_introl eq_refl)). specialize (IH (fun d I => Q d (or_intror I))).
    destruct (p c); cbn [map]; rewrite IH; reflexivity. }
  constructor; unfold renumbered_issues; rewrite ?G1, ?G2, ?G3, ?G1', ?G2', ?G3'; (apply renumbered_flat; [exact N|]; intros uv B; pose proof (sv_links _ _ _ _ (V uv B)) as L).
  - unfold unlinked_of. rewrite <- L. destruct (component_mesh_vertices m uv); reflexivity.
  - unfold inexistant_of. rewrite <- L. apply FF. intros c I. rewrite (EX uv c B I). reflexivity.
  - unfold elsewhere_of. rewrite <- L. apply FF. intros c I. rewrite (EX uv c B I), (LE uv c B I). reflexivity.
Qed.
End LinksRelabelled.
