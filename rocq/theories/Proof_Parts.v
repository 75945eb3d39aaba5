(** Parts of reports: groups of colocated vertices and sides with a neighbour. *)
From Coq Require Import String Ascii List Arith NArith ZArith Bool Lia Permutation Sorted Mergesort.
From Verif Require Import Base BaseFacts Model_Issues Types Model_Adjacency Model_Colocation Model_Degeneration Model_Intersections Model_BRep Model_Topology Model_Results
  Spec_Cycles Spec_Colocation Spec_Adjacency Spec_Degeneration Spec_Components Spec_Renumber Spec_Parts Proof_Colocation Proof_Adjacency Proof_Manifold Proof_Messages.
Import ListNotations.
Open Scope list_scope.

Definition spansb (uv : nat -> option nat) (g : list nat) : bool := existsb (fun a => existsb (fun b => negb (opt_eqb (uv a) (uv b))) g) g.
Lemma opt_eqb_iff : forall a b, opt_eqb a b = true <-> a = b.
Proof. intros [a|] [b|]; cbn; try rewrite Nat.eqb_eq; split; congruence. Qed.
Lemma spansb_iff : forall uv g, spansb uv g = true <-> spans_several uv g.
Proof.
  intros uv g. unfold spansb, spans_several. rewrite existsb_exists. split.
  - intros (a & A & K). apply existsb_exists in K. destruct K as (b & B & K). exists a, b. split; [exact A|]. split; [exact B|].
    intros E. apply negb_true_iff in K. apply opt_eqb_iff in E. congruence.
  - intros (a & b & A & B & K). exists a. split; [exact A|]. apply existsb_exists. exists b. split; [exact B|]. apply negb_true_iff.
    destruct (opt_eqb (uv a) (uv b)) eqn:E; [apply opt_eqb_iff in E; contradiction|reflexivity].
Qed.
Lemma reports_counted : forall uv gs rs, group_reports uv gs rs -> length rs = length (filter (spansb uv) gs).
Proof.
  intros uv gs rs G. induction G as [|g gs rs N G IH|first rest r gs rs S F G IH]; [reflexivity| |]; cbn [filter].
  - destruct (spansb uv g) eqn:E; [apply spansb_iff in E; contradiction|exact IH].
  - apply spansb_iff in S. rewrite S. cbn [length]. f_equal. exact IH.
Qed.
Lemma filter_map_length : forall A B (f : A -> B) p q l, (forall x, In x l -> p (f x) = q x) -> length (filter p (map f l)) = length (filter q l).
Proof.
  intros A B f p q l. induction l as [|x l IH]; intros E; [reflexivity|]. cbn [map filter]. rewrite (E x (or_introl eq_refl)).
  destruct (q x); cbn [length]; rewrite IH by (intros y Hy; apply E; right; exact Hy); reflexivity.
Qed.
Lemma as_many_reports : forall uv uv' (f : nat -> nat) (h : list nat -> list nat) k gs gs' rs rs', group_reports uv gs rs -> group_reports uv' gs' rs' ->
  Permutation gs' (map h gs) -> (forall g x, In x (h g) <-> In x (map f g)) -> (forall g i, In g gs -> In i g -> i < k) ->
  (forall v w, v < k -> w < k -> (uv' (f v) = uv' (f w) <-> uv v = uv w)) -> length rs' = length rs.
Proof.
  intros uv uv' f h k gs gs' rs rs' G G' P M R L. rewrite (reports_counted _ _ _ G), (reports_counted _ _ _ G').
  rewrite (Permutation_length (filter_perm _ (spansb uv') _ _ P)). apply filter_map_length. intros g Hg. apply eq_true_iff_eq. rewrite !spansb_iff. split.
  - intros (a & b & A & B & K). apply M in A. apply M in B. apply in_map_iff in A. apply in_map_iff in B. destruct A as (v & <- & A). destruct B as (w & <- & B).
    exists v, w. split; [exact A|]. split; [exact B|]. intros E. apply K. apply L; [apply (R g v Hg A)|apply (R g w Hg B)|exact E].
  - intros (a & b & A & B & K). exists (f a), (f b). split; [apply M; apply in_map; exact A|]. split; [apply M; apply in_map; exact B|].
    intros E. apply K. apply (L a b (R g a Hg A) (R g b Hg B)). exact E.
Qed.
Lemma in_new_group : forall n g x, In x (new_group n g) <-> In x (map (new_vertex n) g).
Proof. intros n g x. unfold new_group. split; apply Permutation_in; [symmetry|]; apply NatSort.Permuted_sort. Qed.

(** ** What the report on a mesh alone contains *)
Lemma alone_curve : forall ms geo m alone, inspect_edged_curve ms geo m = Ok alone -> consistent (ec_points m) (g_colocated geo (ec_points m)) ->
  forall g i, In g (ii_issues (cr_colocated alone)) -> In i g -> i < length (ec_points m).
Proof.
  intros ms geo m alone E C. destruct (colocated_points_groups_spec geo _ C) as (c & C1 & C2). unfold inspect_edged_curve in E. rewrite C1 in E. cbn in E. injection E as <-. cbn [cr_colocated].
  intros g i A B. rewrite <- (proj1 C). apply (cg_range _ _ C2 g i A B).
Qed.
Lemma alone_surface_colocated : forall ms geo ho name m st y alone, inspect_surface ms geo ho name m st y = Ok alone -> consistent (sm_points m) (g_colocated geo (sm_points m)) ->
  forall g i, In g (ii_issues (sr_colocated alone)) -> In i g -> i < length (sm_points m).
Proof.
  intros ms geo ho name m st y alone E C. destruct (colocated_points_groups_spec geo _ C) as (c & C1 & C2). unfold inspect_surface in E. cbv zeta in E. rewrite C1 in E.
  apply bind_Ok in E. destruct E as (u & _ & E). injection E as <-. cbn [sr_colocated assigned].
  intros g i A B. rewrite <- (proj1 C). apply (cg_range _ _ C2 g i A B).
Qed.
Lemma alone_surface_adjacency : forall ms geo ho name m st y alone, inspect_surface ms geo ho name m st y = Ok alone -> edge_adjacency_in_range m ->
  forall e, In e (ii_issues (sr_adjacency alone)) -> inner_side m e = true.
Proof.
  intros ms geo ho name m st y alone E C. destruct (surface_adjacency_spec name m C) as (c & b & C1 & C2 & _). unfold inspect_surface in E. cbv zeta in E. rewrite C1 in E.
  apply bind_Ok in E. destruct E as (u & _ & E). injection E as <-. cbn [sr_adjacency assigned].
  intros e A. apply C2 in A. destruct A as (_ & q & A & _). unfold inner_side. rewrite A. reflexivity.
Qed.
Lemma alone_solid_colocated : forall ms geo ho name m st alone, inspect_solid ms geo ho name m st = Ok alone -> consistent (so_points m) (g_colocated geo (so_points m)) ->
  forall g i, In g (ii_issues (so_r_colocated alone)) -> In i g -> i < length (so_points m).
Proof.
  intros ms geo ho name m st alone E C. destruct (colocated_points_groups_spec geo _ C) as (c & C1 & C2). unfold inspect_solid in E. cbv zeta in E. rewrite C1 in E.
  apply bind_Ok in E. destruct E as (u & _ & E). injection E as <-. cbn [so_r_colocated assigned].
  intros g i A B. rewrite <- (proj1 C). apply (cg_range _ _ C2 g i A B).
Qed.
Lemma alone_solid_adjacency : forall ms geo ho name m st alone, inspect_solid ms geo ho name m st = Ok alone -> solid_well_formed m ->
  forall e, In e (ii_issues (so_r_adjacency alone)) -> inner_facet m e = true.
Proof.
  intros ms geo ho name m st alone E C. destruct (solid_adjacency_spec name m C) as (c & b & C1 & C2 & _). unfold inspect_solid in E. cbv zeta in E. rewrite C1 in E.
  apply bind_Ok in E. destruct E as (u & _ & E). injection E as <-. cbn [so_r_adjacency assigned].
  intros e A. apply C2 in A. destruct A as (_ & q & A & _). unfold inner_facet. rewrite A. reflexivity.
Qed.
Lemma inner_part : forall A (inner : A -> bool) (P : A -> Prop) id m alone, as_alone_then P id m alone -> (forall x, P x -> inner x = false) ->
  (forall x, In x (ii_issues alone) -> inner x = true) -> filter inner (issues_for id m) = ii_issues alone.
Proof.
  intros A inner P id m alone (more & texts & E & _ & M) O I. rewrite E. clear E. rewrite filter_app.
  assert (F : forall l, (forall x, In x l -> inner x = true) -> filter inner l = l).
  { induction l as [|x l IH]; intros K; [reflexivity|]. cbn [filter]. rewrite (K x (or_introl eq_refl)), IH; [reflexivity|]. intros y Hy. apply K. right. exact Hy. }
  assert (G : forall l, (forall x, In x l -> inner x = false) -> filter inner l = []).
  { induction l as [|x l IH]; intros K; [reflexivity|]. cbn [filter]. rewrite (K x (or_introl eq_refl)). apply IH. intros y Hy. apply K. right. exact Hy. }
  rewrite (F _ I), (G more) by (intros x Hx; apply O, M, Hx). apply app_nil_r.
Qed.
