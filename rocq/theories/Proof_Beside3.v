(** Two models side by side (C93): reports, continued. *)
From Coq Require Import String Ascii List Arith NArith ZArith Bool Lia.
From Verif Require Import Base BaseFacts Model_Issues Types Model_Adjacency Model_Colocation Model_Topology
  Spec_Colocation Spec_Topology Spec_Reproducible Spec_Beside Proof_Messages Proof_Topology Proof_Local Proof_Relabel2 Proof_Beside Proof_Beside2.
Import ListNotations.
Open Scope list_scope.

Lemma foldM_app : forall A B (f : B -> A -> outcome B) l l' b, foldM f (l ++ l') b = let! b' := foldM f l b in foldM f l' b'.
Proof. intros A B f l. induction l as [|a l IH]; intros l' b; [reflexivity|]. cbn [app foldM]. destruct (f b a); cbn [bind]; [apply IH|reflexivity|reflexivity]. Qed.
Definition unmeshed {A} (g : uuid -> outcome (Component A)) (meshed : A -> bool) (c : Component A) : list uuid :=
  match g (co_id c) with Ok c' => if meshed (co_mesh c') then [] else [co_id c] | _ => [] end.
Lemma components_issues : forall A (get : Model -> uuid -> outcome (Component A)) kind suffix t meshed nb skip m l acc cs, foldM (inspect_component get kind suffix t meshed nb skip m) l acc = Ok cs ->
  (forall c, In c l -> exists c', get m (co_id c) = Ok c') /\ ii_issues (fst cs) = ii_issues (fst acc) ++ flat_map (unmeshed (get m) meshed) l.
Proof.
  intros A get kind suffix t meshed nb skip m l. induction l as [|c l IH]; intros acc cs E; cbn [foldM] in E.
  - injection E as <-. split; [intros c []|]. symmetry. apply app_nil_r.
  - apply bind_Ok in E as (a & Ea & E). apply IH in E as [T I]. unfold inspect_component in Ea. cbv zeta in Ea. apply bind_Ok in Ea as (c' & Ec & Ea).
    split; [intros d [<-|J]; [exists c'; exact Ec|apply T, J]|]. rewrite I. cbn [flat_map]. rewrite app_assoc. f_equal. unfold unmeshed at 1. rewrite Ec.
    destruct (meshed (co_mesh c')); cbn [negb] in Ea; rewrite ?andb_false_r, ?andb_true_r in Ea.
    + destruct (N.eqb _ _); injection Ea as <-; cbn [fst]; symmetry; apply app_nil_r.
    + destruct skip; [injection Ea as <-; reflexivity|]. destruct (N.eqb _ _); injection Ea as <-; reflexivity.
Qed.
Lemma components_total : forall A (get : Model -> uuid -> outcome (Component A)) kind suffix t meshed nb skip m l acc, (forall c, In c l -> exists c', get m (co_id c) = Ok c') ->
  exists cs, foldM (inspect_component get kind suffix t meshed nb skip m) l acc = Ok cs.
Proof.
  intros A get kind suffix t meshed nb skip m l. induction l as [|c l IH]; intros acc T; cbn [foldM]; [exists acc; reflexivity|].
  assert (X : exists a, inspect_component get kind suffix t meshed nb skip m acc c = Ok a).
  { unfold inspect_component. destruct (T c (or_introl eq_refl)) as [c' ->]. cbv zeta. cbn [bind]. destruct (skip && _)%bool; [eexists; reflexivity|]. destruct (N.eqb _ _); eexists; reflexivity. }
  destruct X as [a ->]. cbn [bind]. apply IH. intros d I. apply T. right. exact I.
Qed.
Lemma flat_map_same : forall A B (f g : A -> list B) l, (forall x, In x l -> f x = g x) -> flat_map f l = flat_map g l.
Proof. intros A B f g l E. induction l as [|x l IH]; [reflexivity|]. cbn [flat_map]. rewrite (E x (or_introl eq_refl)), IH; [reflexivity|]. intros y I. apply E. right. exact I. Qed.
Lemma seq_shift_by : forall k n, seq k n = map (fun v => k + v) (seq 0 n).
Proof. intros k n. induction k as [|k IH]; [symmetry; apply map_id|]. rewrite <- seq_shift, IH, map_map. apply map_ext. intros v. reflexivity. Qed.
Lemma range_both : forall a b, Range (a + b) = Range a ++ map (fun v => a + v) (Range b).
Proof. intros a b. unfold Range. rewrite seq_app, <- seq_shift_by. reflexivity. Qed.
Lemma flat_map_map : forall A B C (f : A -> B) (g : B -> list C) l, flat_map g (map f l) = flat_map (fun x => g (f x)) l.
Proof. intros A B C f g l. induction l as [|x l IH]; [reflexivity|]. cbn. rewrite IH. reflexivity. Qed.
Lemma map_flat_map : forall A B C (f : B -> C) (g : A -> list B) l, map f (flat_map g l) = flat_map (fun x => map f (g x)) l.
Proof. intros A B C f g l. induction l as [|x l IH]; [reflexivity|]. cbn. rewrite map_app, IH. reflexivity. Qed.

Section Reports.
Context (m1 m2 M : Model) (S : side_by_side m1 m2 M) (A : meshed_alike m1 m2).
Let k := nb_unique_vertices m1.
Let P1 := piece1 m1 m2 M S A.
Let P2 := piece2 m1 m2 M S A.
Lemma components_both : forall T (get : Model -> uuid -> outcome (Component T)) kind suffix t meshed nb skip l1 l2 d d' cs1 cs2,
  (forall c, In c l1 -> get M (co_id c) = get m1 (co_id c)) -> (forall c, In c l2 -> get M (co_id c) = get m2 (co_id c)) ->
  inspect_components get kind suffix t meshed nb skip m1 l1 d d' = Ok cs1 -> inspect_components get kind suffix t meshed nb skip m2 l2 d d' = Ok cs2 ->
  exists cs, inspect_components get kind suffix t meshed nb skip M (l1 ++ l2) d d' = Ok cs /\ components_of_both (fst cs1) (fst cs2) (fst cs).
Proof.
  intros T get kind suffix t meshed nb skip l1 l2 d d' cs1 cs2 G1 G2 E1 E2. unfold inspect_components in *. apply components_issues in E1 as [T1 I1]. apply components_issues in E2 as [T2 I2].
  assert (AC : forall l (c : Component T), In c (active l) -> In c l) by (intros l c I; apply filter_In in I; apply I).
  destruct (components_total T get kind suffix t meshed nb skip M (active (l1 ++ l2)) (new_issues d, new_issues_map d')) as [cs E].
  { intros c I. unfold active in I. rewrite filter_app in I. apply in_app_or in I as [I|I]; [rewrite (G1 c (AC _ _ I)); apply T1, I|rewrite (G2 c (AC _ _ I)); apply T2, I]. }
  exists cs. split; [exact E|]. apply components_issues in E as [_ I]. unfold components_of_both. rewrite I, I1, I2. cbn [fst new_issues ii_issues app]. unfold active. rewrite filter_app, flat_map_app.
  f_equal; apply flat_map_same; intros c J; unfold unmeshed; [rewrite (G1 c (AC _ _ J))|rewrite (G2 c (AC _ _ J))]; reflexivity.
Qed.
Lemma report_both : forall c1 c2 cM ds rs1 rs2, report_vertices m1 c1 ds = Ok rs1 -> report_vertices m2 c2 ds = Ok rs2 -> length c1 = length ds -> length c2 = length ds -> length cM = length ds ->
  (forall uv, uv < nb_unique_vertices m1 -> Forall2 (fun c c' => agree same_answer (c uv) (c' (0 + uv))) c1 cM) ->
  (forall uv, uv < nb_unique_vertices m2 -> Forall2 (fun c c' => agree same_answer (c uv) (c' (k + uv))) c2 cM) ->
  exists rs, report_vertices M cM ds = Ok rs /\ length rs = length ds /\ length rs1 = length ds /\ length rs2 = length ds /\
    forall i a b c, nth_error rs1 i = Some a -> nth_error rs2 i = Some b -> nth_error rs i = Some c -> vertices_of_both k a b c.
Proof.
  intros c1 c2 cM ds rs1 rs2 E1 E2 L1 L2 LM F1 F2. unfold report_vertices in *.
  apply report_fold_issues in E1 as (R1 & T1 & I1); [|rewrite map_length; exact L1]. apply report_fold_issues in E2 as (R2 & T2 & I2); [|rewrite map_length; exact L2]. rewrite map_length in R1, R2.
  assert (AT : forall (l : list (nat -> outcome (option string))) i, i < length l -> exists c, nth_error l i = Some c).
  { intros l i B. destruct (nth_error l i) as [c|] eqn:X; [exists c; reflexivity|]. apply nth_error_None in X. lia. }
  destruct (report_fold_total cM (Range (nb_unique_vertices M)) (map new_issues ds)) as [rs E]; [rewrite map_length; exact LM| |].
  { intros w c Iw Ic. apply In_nth_error in Ic as [i Ic]. assert (Bi : i < length cM) by (apply nth_error_Some; congruence).
    apply in_Range in Iw. rewrite (nb_both m1 m2 M S) in Iw. fold k in Iw. destruct (Nat.lt_ge_cases w k) as [B|B].
    - destruct (AT c1 i) as [c' C']; [lia|]. pose proof (Forall2_nth_rev _ _ _ _ _ i c' c (F1 w B) C' Ic) as G. cbv beta in G. destruct (T1 w c') as [o O]; [apply in_Range, B|eapply nth_error_In, C'|].
      rewrite O in G. inversion G. eexists. reflexivity.
    - destruct (AT c2 i) as [c' C']; [lia|]. assert (B2 : w - k < nb_unique_vertices m2) by lia. pose proof (Forall2_nth_rev _ _ _ _ _ i c' c (F2 _ B2) C' Ic) as G. cbv beta in G.
      replace (k + (w - k)) with w in G by lia. destruct (T2 (w - k) c') as [o O]; [apply in_Range, B2|eapply nth_error_In, C'|]. rewrite O in G. inversion G. eexists. reflexivity. }
  exists rs. split; [exact E|]. apply report_fold_issues in E as (R & _ & I); [|rewrite map_length; exact LM]. rewrite map_length in R. split; [exact R|]. split; [exact R1|]. split; [exact R2|].
  intros i a b c Xa Xb Xc. assert (Bi : i < length ds) by (rewrite <- R; apply nth_error_Some; congruence).
  destruct (AT c1 i) as [x1 X1]; [lia|]. destruct (AT c2 i) as [x2 X2]; [lia|]. destruct (AT cM i) as [x X]; [lia|].
  destruct (nth_error (map (@new_issues nat) ds) i) as [l0|] eqn:X0; [|apply nth_error_None in X0; rewrite map_length in X0; lia].
  unfold vertices_of_both. rewrite (I i l0 c x X0 Xc X), (I1 i l0 a x1 X0 Xa X1), (I2 i l0 b x2 X0 Xb X2).
  assert (Z : ii_issues l0 = []). { apply nth_error_In in X0. apply in_map_iff in X0 as (d & <- & _). reflexivity. }
  rewrite Z. cbn [app]. rewrite (nb_both m1 m2 M S), range_both, flat_map_app, flat_map_map, map_flat_map. f_equal; apply flat_map_same; intros uv J; apply in_Range in J.
  - pose proof (Forall2_nth_rev _ _ _ _ _ i x1 x (F1 uv J) X1 X) as G. cbv beta in G. cbn [Nat.add] in G. unfold shows. destruct G as [[s|] [s'|] t|e|]; try discriminate t; reflexivity.
  - pose proof (Forall2_nth_rev _ _ _ _ _ i x2 x (F2 uv J) X2 X) as G. cbv beta in G. unfold shows. fold k. destruct G as [[s|] [s'|] t|e|]; try discriminate t; reflexivity.
Qed.
Lemma get_both1 : forall id, In id (all_ids m1) -> get_corner M id = get_corner m1 id /\ get_line M id = get_line m1 id /\ get_surface M id = get_surface m1 id.
Proof. intros id I. unfold get_corner, get_line, get_surface, or_throw. rewrite (p_corner _ _ _ P1), (p_line _ _ _ P1), (p_surface _ _ _ P1), (p_missing _ _ _ P1) by exact I. auto. Qed.
Lemma get_both2 : forall id, In id (all_ids m2) -> get_corner M id = get_corner m2 id /\ get_line M id = get_line m2 id /\ get_surface M id = get_surface m2 id.
Proof. intros id I. unfold get_corner, get_line, get_surface, or_throw. rewrite (p_corner _ _ _ P2), (p_line _ _ _ P2), (p_surface _ _ _ P2), (p_missing _ _ _ P2) by exact I. auto. Qed.
Ltac own_id := unfold all_ids; rewrite !in_app_iff; match goal with I : In ?c _ |- _ => apply (in_map co_id) in I; tauto end.
Ltac each := repeat match goal with |- Forall2 _ [] [] => apply Forall2_nil | |- Forall2 _ _ _ => apply Forall2_cons end.
Ltac pick3 G i := eapply (G i); reflexivity.
Lemma corners_both : forall r1 r2, section_inspect_corners_topology m1 = Ok r1 -> section_inspect_corners_topology m2 = Ok r2 ->
  exists r, section_inspect_corners_topology M = Ok r /\ corners_of_both k r1 r2 r.
Proof.
  intros r1 r2 E1 E2. unfold section_inspect_corners_topology in *. apply bind_Ok in E1 as (cs1 & C1 & E1). apply bind_Ok in E2 as (cs2 & C2 & E2). apply bind_Ok in E1 as (rs1 & R1 & E1). apply bind_Ok in E2 as (rs2 & R2 & E2).
  rewrite (sb_corners _ _ _ S). edestruct components_both as (cs & C & D); [| |exact C1|exact C2|]; [intros c I; apply get_both1; own_id|intros c I; apply get_both2; own_id|]. rewrite C. cbn [bind].
  edestruct report_both as (rs & R & L & L1 & L2 & G);
    [exact R1|exact R2| | |instantiate (1 := [unique_vertex_has_multiple_corners M; corner_has_multiple_embeddings M; corner_is_not_internal_nor_boundary M; section_corner_is_part_of_line_but_not_boundary M])| | |]; try reflexivity.
  - intros uv B. each; [apply k_multiple_corners|apply k_multiple_embeddings|apply k_neither|apply k_corner_line]; assumption.
  - intros uv B. each; [apply k_multiple_corners|apply k_multiple_embeddings|apply k_neither|apply k_corner_line]; assumption.
  - rewrite R. cbn [bind]. cbn in L, L1, L2. destruct rs1 as [|a1 [|b1 [|c1 [|d1 [|? ?]]]]]; try discriminate L1. destruct rs2 as [|a2 [|b2 [|c2 [|d2 [|? ?]]]]]; try discriminate L2.
    destruct rs as [|a [|b [|c [|d [|? ?]]]]]; try discriminate L. cbn in E1, E2. injection E1 as <-. injection E2 as <-. eexists. split; [reflexivity|].
    constructor; cbn; [exact D|pick3 G 0|pick3 G 1|pick3 G 2|pick3 G 3].
Qed.
Lemma lines_both : forall r1 r2, section_inspect_lines_topology m1 = Ok r1 -> section_inspect_lines_topology m2 = Ok r2 ->
  exists r, section_inspect_lines_topology M = Ok r /\ lines_of_both k r1 r2 r.
Proof.
  intros r1 r2 E1 E2. unfold section_inspect_lines_topology in *. apply bind_Ok in E1 as (cs1 & C1 & E1). apply bind_Ok in E2 as (cs2 & C2 & E2). apply bind_Ok in E1 as (rs1 & R1 & E1). apply bind_Ok in E2 as (rs2 & R2 & E2).
  rewrite (sb_lines _ _ _ S). edestruct components_both as (cs & C & D); [| |exact C1|exact C2|]; [intros c I; apply get_both1; own_id|intros c I; apply get_both2; own_id|]. rewrite C. cbn [bind].
  edestruct report_both as (rs & R & L & L1 & L2 & G);
    [exact R1|exact R2| | |instantiate (1 := [section_line_wrong_relationships M; section_invalid_embedded_line M; section_invalid_single_line M; section_lines_but_not_corner M])| | |]; try reflexivity.
  - intros uv B. each; [apply k_relationship|apply k_embedded|apply k_single|apply k_not_corner]; assumption.
  - intros uv B. each; [apply k_relationship|apply k_embedded|apply k_single|apply k_not_corner]; assumption.
  - rewrite R. cbn [bind]. cbn in L, L1, L2. destruct rs1 as [|a1 [|b1 [|c1 [|d1 [|? ?]]]]]; try discriminate L1. destruct rs2 as [|a2 [|b2 [|c2 [|d2 [|? ?]]]]]; try discriminate L2.
    destruct rs as [|a [|b [|c [|d [|? ?]]]]]; try discriminate L. cbn in E1, E2. injection E1 as <-. injection E2 as <-. eexists. split; [reflexivity|].
    constructor; cbn; [exact D|pick3 G 0|pick3 G 1|pick3 G 2|pick3 G 3].
Qed.
Lemma surfaces_both : forall r1 r2, section_inspect_surfaces m1 = Ok r1 -> section_inspect_surfaces m2 = Ok r2 ->
  exists r, section_inspect_surfaces M = Ok r /\ surfaces_of_both k r1 r2 r.
Proof.
  intros r1 r2 E1 E2. unfold section_inspect_surfaces in *. apply bind_Ok in E1 as (cs1 & C1 & E1). apply bind_Ok in E2 as (cs2 & C2 & E2). apply bind_Ok in E1 as (rs1 & R1 & E1). apply bind_Ok in E2 as (rs2 & R2 & E2).
  rewrite (sb_surfaces _ _ _ S). edestruct components_both as (cs & C & D); [| |exact C1|exact C2|]; [intros c I; apply get_both1; own_id|intros c I; apply get_both2; own_id|]. rewrite C. cbn [bind].
  edestruct report_both as (rs & R & L & L1 & L2 & G);
    [exact R1|exact R2| | |instantiate (1 := [section_invalid_embedded_surface M; section_line_not_on_surface_border M])| | |]; try reflexivity.
  - intros uv B. each; [apply k_embedded_surface|apply k_border]; assumption.
  - intros uv B. each; [apply k_embedded_surface|apply k_border]; assumption.
  - rewrite R. cbn [bind]. cbn in L, L1, L2. destruct rs1 as [|a1 [|b1 [|? ?]]]; try discriminate L1. destruct rs2 as [|a2 [|b2 [|? ?]]]; try discriminate L2.
    destruct rs as [|a [|b [|? ?]]]; try discriminate L. cbn in E1, E2. injection E1 as <-. injection E2 as <-. eexists. split; [reflexivity|].
    constructor; cbn; [exact D|pick3 G 0|pick3 G 1].
Qed.
End Reports.
