(** Texts of the programs. *)
From Coq Require Import String Ascii List Arith NArith Bool Lia.
From Verif Require Import Base BaseFacts Model_Issues Types Model_Degeneration Model_Topology Model_Blocks Model_Results Model_Programs Spec_Results Spec_Messages Spec_Programs
  Spec_TopologyMessages Proof_Results Proof_Messages Model_Hash Model_Manifold Model_BRep.
Import ListNotations.
Open Scope list_scope.

Lemma app_assoc_s : forall a b c : string, ((a ++ b) ++ c)%string = (a ++ (b ++ c))%string.
Proof. induction a as [|x a IH]; intros; [reflexivity|]. cbn. rewrite IH. reflexivity. Qed.
Lemma app_nil_s : forall a : string, (a ++ EmptyString)%string = a.
Proof. induction a as [|x a IH]; [reflexivity|]. cbn. rewrite IH. reflexivity. Qed.
Lemma announces_in : forall a t b, announces t -> announces (a ++ t ++ b)%string.
Proof.
  intros a t b (n & x & y & Hn & ->). exists n, (a ++ x)%string, (y ++ b)%string. split; [exact Hn|]. rewrite !app_assoc_s. reflexivity.
Qed.
Lemma announces_l : forall t b, announces t -> announces (t ++ b)%string.
Proof. intros t b H. exact (announces_in EmptyString t b H). Qed.
Lemma announces_r : forall a t, announces t -> announces (a ++ t)%string.
Proof. intros a t H. pose proof (announces_in a t EmptyString H) as K. rewrite app_nil_s in K. exact K. Qed.
Lemma announces_StrCat : forall l t, In t l -> announces t -> announces (StrCat l).
Proof.
  induction l as [|x l IH]; intros t [] A; cbn [StrCat fold_right].
  - subst x. apply announces_l, A.
  - apply announces_r. apply (IH t); assumption.
Qed.
Lemma concat_StrCat : forall l, String.concat EmptyString l = StrCat l.
Proof.
  induction l as [|x [|y l] IH]; [reflexivity|cbn; rewrite app_nil_s; reflexivity|].
  change (String.concat EmptyString (x :: y :: l)) with (x ++ EmptyString ++ String.concat EmptyString (y :: l))%string. rewrite IH. reflexivity.
Qed.
(** a category that announces itself when it is not empty *)
Definition tells (c : category) : Prop := ~ is_empty c -> announces (cat_text c).
Lemma tells_list : forall T (x : InspectionIssues T), tells (of_list x).
Proof.
  intros T x H. unfold is_empty, of_list in H. cbn [cat_size] in H. cbn [cat_text of_list]. unfold issues_string.
  destruct (ii_issues x) as [|i l] eqn:E; [exfalso; apply H; reflexivity|]. cbv zeta. set (m0 := StrCat [str (List.length (i :: l)); " issues with "%string; ii_description x]).
  assert (A : announces m0) by (subst m0; exists (List.length (i :: l)), EmptyString, (ii_description x ++ EmptyString)%string; split; [cbn; lia|reflexivity]).
  apply (announces_StrCat _ (fold_left (fun acc m => StrCat [acc; newline; tab; m]) (ii_messages x) m0)); [left; reflexivity|].
  clearbody m0. clear H E. revert m0 A. induction (ii_messages x) as [|m ms IH]; intros m0 A; cbn [fold_left]; [exact A|]. apply IH.
  apply (announces_StrCat _ m0); [left; reflexivity|exact A].
Qed.
Lemma tells_map : forall ho T (x : InspectionIssuesMap T), tells (of_map ho x).
Proof.
  intros ho T x H. unfold is_empty, of_map in H. cbn [cat_size] in H. cbn [cat_text of_map]. unfold map_string.
  destruct (im_map x) as [|i l] eqn:E; [exfalso; apply H; reflexivity|]. rewrite <- E in *. cbv zeta. set (m0 := StrCat [str (List.length (im_map x)); " issues with "%string; im_description x]).
  assert (A : announces m0) by (subst m0; exists (List.length (im_map x)), EmptyString, (im_description x ++ EmptyString)%string; split; [rewrite E; cbn; lia|reflexivity]).
  apply (announces_StrCat _ (fold_left (fun acc kv => StrCat [acc; newline; tab; issues_string (snd kv)]) (visit ho (im_map x)) m0)); [left; reflexivity|].
  clearbody m0. clear H E. revert m0 A. induction (visit ho (im_map x)) as [|m ms IH]; intros m0 A; cbn [fold_left]; [exact A|]. apply IH.
  apply (announces_StrCat _ m0); [left; reflexivity|exact A].
Qed.
Lemma tells_spaced : forall c, tells c -> tells (spaced c).
Proof. intros c H K. cbn [spaced cat_text]. apply announces_l, H, K. Qed.
Lemma not_all_empty : forall l, ~ all_empty l -> exists c, In c l /\ ~ is_empty c.
Proof.
  induction l as [|c l IH]; intros H; [exfalso; apply H; constructor|]. destruct (Nat.eq_dec (cat_size c) 0) as [E|E].
  - destruct IH as (d & D & K); [intros K; apply H; constructor; assumption|]. exists d. split; [right; exact D|exact K].
  - exists c. split; [left; reflexivity|exact E].
Qed.
Lemma shows_announces : forall l o s, Forall tells l -> shows l o s -> ~ all_empty l -> announces s.
Proof.
  intros l o s S [[H _]|[_ ->]] N; [contradiction|]. destruct (not_all_empty l N) as (c & C & E). rewrite concat_StrCat.
  apply (announces_StrCat _ (cat_text c)); [|rewrite Forall_forall in S; apply (S c C), E]. unfold non_empty_texts. apply in_map. apply filter_In. split; [exact C|].
  apply negb_true_iff, Nat.eqb_neq. exact E.
Qed.
Lemma shows_clean : forall l o s, shows l o s -> all_empty l -> s = o.
Proof. intros l o s [[_ H]|[H _]] E; [exact H|contradiction]. Qed.
(** the plain texts, empty categories included *)
Lemma plain_announces : forall l, Forall tells l -> ~ all_empty l -> announces (StrCat (map cat_text l)).
Proof.
  intros l S N. destruct (not_all_empty l N) as (c & C & E). apply (announces_StrCat _ (cat_text c)); [apply in_map; exact C|].
  rewrite Forall_forall in S. apply (S c C), E.
Qed.
Lemma clean_list : forall T d P (x : InspectionIssues T), explained d P x -> is_empty (of_list x) -> issues_string x = no_issues d.
Proof.
  intros T d P x [D _] E. unfold is_empty in E. cbn [of_list cat_size] in E. unfold issues_string. destruct (ii_issues x); [|discriminate E]. rewrite D.
  unfold no_issues, line. rewrite app_assoc_s. cbn [StrCat fold_right]. rewrite app_nil_s. reflexivity.
Qed.
Ltac telling := repeat (constructor; [first [apply tells_list|apply tells_map|apply tells_spaced, tells_list|apply tells_spaced, tells_map]|]); constructor.

Lemma pointset_clean : forall geo m r, point_set_explained geo m r -> all_empty (pointset_categories r) -> pointset_string r = clean_point_set.
Proof. intros geo m r X E. inversion E; subst. exact (clean_list _ _ _ _ X H1). Qed.
Lemma pointset_announces : forall r, ~ all_empty (pointset_categories r) -> announces (pointset_string r).
Proof. intros r N. destruct (not_all_empty _ N) as (c & [<-|[]] & K). exact (tells_list _ _ K). Qed.
Ltac empties E := repeat match type of E with Forall _ (_ :: _) => let H := fresh "E" in apply Forall_cons_iff in E; destruct E as [H E] | all_empty _ => unfold all_empty in E end.
Ltac cleaned := repeat match goal with X : explained _ _ ?x, K : is_empty (of_list ?x) |- context [issues_string ?x] => rewrite (clean_list _ _ _ _ X K) end.
Lemma curve_clean : forall ms geo m r, curve_report_explained ms geo m r -> all_empty (curve_categories r) -> curve_string r = clean_edged_curve.
Proof. intros ms geo m r (X1 & X2) E. unfold curve_categories in E. empties E. unfold curve_string. cleaned. reflexivity. Qed.
Lemma curve_announces : forall r, ~ all_empty (curve_categories r) -> announces (curve_string r).
Proof. intros r N. apply (plain_announces (curve_categories r)); [telling|exact N]. Qed.
Lemma surface_clean : forall geo name m r, surface_report_explained geo name m r -> all_empty (surface_categories r) -> surface_string r = clean_surface name.
Proof.
  intros geo name m r (X1 & X2 & X3 & X4 & X5 & X6 & X7 & X8) E. unfold surface_categories in E. empties E. unfold surface_string. cleaned. unfold clean_surface.
  cbn [StrCat fold_right]. rewrite !app_nil_s. reflexivity.
Qed.
Lemma surface_announces : forall r, ~ all_empty (surface_categories r) -> announces (surface_string r).
Proof. intros r N. apply (plain_announces (surface_categories r)); [telling|exact N]. Qed.
Lemma solid_clean : forall geo name m r, solid_report_explained geo name m r -> all_empty (solid_categories r) -> solid_string r = clean_solid name.
Proof.
  intros geo name m r (X1 & X2 & X3 & X4 & X5 & X6 & X7 & X8) E. unfold solid_categories in E. empties E. unfold solid_string. cleaned. unfold clean_solid.
  cbn [StrCat fold_right]. rewrite !app_nil_s. reflexivity.
Qed.
Lemma solid_announces : forall r, ~ all_empty (solid_categories r) -> announces (solid_string r).
Proof. intros r N. apply (plain_announces (solid_categories r)); [telling|exact N]. Qed.
