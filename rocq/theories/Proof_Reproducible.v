(** Two runs say the same thing. *)
From Coq Require Import String Ascii List Arith NArith Bool Lia Permutation.
From Verif Require Import Base BaseFacts Model_Hash Model_Issues Types Spec_Reproducible.
Import ListNotations.
Open Scope list_scope.

(** ** Texts *)
Lemma cat_assoc : forall a b c : string, ((a ++ b) ++ c)%string = (a ++ (b ++ c))%string.
Proof. induction a as [|x a IH]; intros; [reflexivity|]. cbn. rewrite IH. reflexivity. Qed.
Lemma cat_nil : forall a : string, (a ++ EmptyString)%string = a.
Proof. induction a as [|x a IH]; [reflexivity|]. cbn. rewrite IH. reflexivity. Qed.
Lemma lines_cons : forall s, exists l ls, lines s = l :: ls.
Proof.
  destruct s as [|c s]; [eexists; eexists; reflexivity|]. cbn. destruct (Ascii.eqb _ _); [eexists; eexists; reflexivity|].
  destruct (lines s); eexists; eexists; reflexivity.
Qed.
Lemma lines_newline : forall a b, lines (a ++ newline ++ b) = lines a ++ lines b.
Proof.
  induction a as [|c a IH]; intros b; [reflexivity|]. cbn [String.append lines]. rewrite IH. destruct (Ascii.eqb _ _); [reflexivity|].
  destruct (lines_cons a) as (l & ls & ->). reflexivity.
Qed.
(** a text made of complete lines *)
Definition closed (t : string) (L : list string) : Prop := forall b, lines (t ++ b) = L ++ lines b.
Lemma closed_nil : closed EmptyString [].
Proof. intros b. reflexivity. Qed.
Lemma closed_app : forall t u L M, closed t L -> closed u M -> closed (t ++ u) (L ++ M).
Proof. intros t u L M H K b. rewrite cat_assoc, H, K, app_assoc. reflexivity. Qed.
Lemma closed_line : forall t, closed (t ++ newline) (lines t).
Proof. intros t b. rewrite cat_assoc. apply lines_newline. Qed.
Lemma closed_unique : forall t L M, closed t L -> closed t M -> L = M.
Proof.
  intros t L M H K. specialize (H EmptyString). specialize (K EmptyString). rewrite H in K. cbn in K. apply app_inj_tail in K. apply K.
Qed.
Definition like (s s' : string) : Prop := exists L L', closed s L /\ closed s' L' /\ Permutation L L'.
Lemma like_lines : forall s s', like s s' -> same_lines s s'.
Proof.
  intros s s' (L & L' & H & H' & P). unfold same_lines. rewrite <- (cat_nil s), <- (cat_nil s'), H, H'. apply Permutation_app_tail, P.
Qed.
Lemma like_app : forall s s' t t', like s s' -> like t t' -> like (s ++ t) (s' ++ t').
Proof.
  intros s s' t t' (L & L' & H & H' & P) (M & M' & K & K' & Q). exists (L ++ M), (L' ++ M').
  split; [apply closed_app; assumption|]. split; [apply closed_app; assumption|]. apply Permutation_app; assumption.
Qed.
Lemma like_nil : like EmptyString EmptyString.
Proof. exists [], []. repeat split; constructor. Qed.
Lemma like_line : forall t, like (t ++ newline) (t ++ newline).
Proof. intros t. exists (lines t), (lines t). repeat split; try apply closed_line. apply Permutation_refl. Qed.
Lemma like_StrCat : forall l l', Forall2 like l l' -> like (StrCat l) (StrCat l').
Proof. intros l l' H. induction H as [|x y l l' R H IH]; [apply like_nil|]. cbn [StrCat fold_right]. apply like_app; assumption. Qed.
Lemma like_trans : forall a b c, like a b -> like b c -> like a c.
Proof.
  intros a b c (L & L' & H & H' & P) (M & M' & K & K' & Q). rewrite (closed_unique _ _ _ H' K) in P. exists L, M'. repeat split; try assumption.
  eapply Permutation_trans; eassumption.
Qed.
Lemma like_empty : forall s, like EmptyString s -> s = EmptyString.
Proof.
  intros s (L & L' & H & H' & P). rewrite (closed_unique _ _ _ H closed_nil) in P. apply Permutation_nil in P. subst L'.
  specialize (H' EmptyString). rewrite cat_nil in H'. cbn in H'. destruct s as [|c s]; [reflexivity|]. cbn in H'. exfalso.
  destruct (lines_cons s) as (l & ls & E). rewrite E in H'. destruct (Ascii.eqb _ _); discriminate H'.
Qed.
Lemma like_sym : forall a b, like a b -> like b a.
Proof. intros a b (L & L' & H & H' & P). exists L', L. repeat split; try assumption. apply Permutation_sym, P. Qed.
(** the same texts in another order *)
Lemma like_permuted : forall l l', Permutation l l' -> Forall (fun t => like t t) l -> like (StrCat l) (StrCat l').
Proof.
  intros l l' P. induction P as [|x l l' P IH|x y l|l l' l'' P IH Q JH]; intros H.
  - apply like_nil.
  - inversion H; subst. cbn [StrCat fold_right]. apply like_app; [assumption|]. apply IH. assumption.
  - inversion H as [|? ? Hy H']; subst. inversion H' as [|? ? Hx Hl]; subst. cbn [StrCat fold_right].
    assert (R : like (fold_right String.append EmptyString l) (fold_right String.append EmptyString l)).
    { apply (like_StrCat l l). clear - Hl. induction Hl; constructor; assumption. }
    rewrite <- !cat_assoc. apply like_app; [|exact R]. destruct Hx as (L & L' & A & A' & B). destruct Hy as (M & M' & C & C' & D).
    exists (M ++ L), (L ++ M). split; [apply closed_app; assumption|]. split; [apply closed_app; assumption|]. apply Permutation_app_comm.
  - eapply like_trans; [apply IH, H|]. apply JH. apply (Permutation_Forall P), H.
Qed.

(** ** Lists of issues *)
Lemma messages_text : forall A (f : A -> string) (l : list A) a,
  (fold_left (fun acc m => StrCat [acc; newline; tab; f m]) l a ++ newline = (a ++ newline) ++ StrCat (map (fun m => tab ++ f m ++ newline) l))%string.
Proof.
  intros A f. induction l as [|m l IH]; intros a; cbn [fold_left map].
  - cbn [StrCat fold_right]. rewrite cat_nil. reflexivity.
  - rewrite IH. cbn [StrCat fold_right]. rewrite !cat_assoc. cbn [String.append]. reflexivity.
Qed.
Definition header (n : nat) (d : string) : string := match n with 0 => StrCat ["no issues with "%string; d] | _ => StrCat [str n; " issues with "%string; d] end.
Lemma issues_text : forall T (x : InspectionIssues T), issues_string x =
  ((header (length (ii_issues x)) (ii_description x) ++ newline) ++
   StrCat (match ii_issues x with [] => [] | _ => map (fun m => tab ++ m ++ newline) (ii_messages x) end))%string.
Proof.
  intros T x. unfold issues_string. destruct (ii_issues x) as [|i l].
  - cbn [length header StrCat fold_right]. rewrite !cat_nil, !cat_assoc. reflexivity.
  - cbn [header length]. cbv zeta. rewrite <- (messages_text _ (fun m => m)). generalize (fold_left (fun acc m => StrCat [acc; newline; tab; m]) (ii_messages x)
      (StrCat [str (S (length l)); " issues with "%string; ii_description x])). intros a. cbn [StrCat fold_right]. rewrite cat_nil. reflexivity.
Qed.
Lemma like_messages : forall (l l' : list string), Permutation l l' ->
  like (StrCat (map (fun m => tab ++ m ++ newline)%string l)) (StrCat (map (fun m => tab ++ m ++ newline)%string l')).
Proof.
  intros l l' P. apply like_permuted; [apply Permutation_map, P|]. apply Forall_forall. intros t H. apply in_map_iff in H. destruct H as (m & <- & _).
  rewrite <- cat_assoc. apply like_line.
Qed.
Lemma like_issues : forall T (x y : InspectionIssues T) p, length (ii_issues x) = length (ii_issues y) -> ii_description x = ii_description y ->
  Permutation (ii_messages x) (ii_messages y) -> like (p ++ issues_string x) (p ++ issues_string y).
Proof.
  intros T x y p N D P. rewrite !issues_text, <- N, <- D, <- !cat_assoc. apply like_app; [apply like_line|].
  destruct (ii_issues x), (ii_issues y); try discriminate N; [apply like_nil|]. apply like_messages, P.
Qed.
Lemma issues_like : forall T (x : InspectionIssues T), like (issues_string x) (issues_string x).
Proof. intros T x. apply (like_issues T x x EmptyString); auto using Permutation_refl. Qed.
Lemma same_length : forall T (x y : InspectionIssues T), same_issues x y -> length (ii_issues x) = length (ii_issues y).
Proof. intros T x y (_ & l & l' & P & -> & _ & -> & _). rewrite !map_length. apply Permutation_length, P. Qed.
Lemma same_messages : forall T (x y : InspectionIssues T), same_issues x y -> Permutation (ii_messages x) (ii_messages y).
Proof. intros T x y (_ & l & l' & P & _ & -> & _ & ->). apply Permutation_map, P. Qed.
Lemma same_like : forall T (x y : InspectionIssues T) p, same_issues x y -> like (p ++ issues_string x) (p ++ issues_string y).
Proof. intros T x y p H. apply like_issues; [apply same_length, H|apply H|apply same_messages, H]. Qed.
Lemma same_count : forall T (x y : InspectionIssues T), same_issues x y -> nb_issues x = nb_issues y.
Proof. intros T x y H. unfold nb_issues, size32. rewrite (same_length _ _ _ H). reflexivity. Qed.

(** ** Maps *)
Lemma map_text : forall T (ho : HashOrder) (x : InspectionIssuesMap T), map_string ho x =
  ((header (length (im_map x)) (im_description x) ++ newline) ++
   StrCat (map (fun kv => tab ++ issues_string (snd kv) ++ newline) (visit ho (im_map x))))%string.
Proof.
  intros T ho x. unfold map_string. destruct (im_map x) as [|i l] eqn:E.
  - cbn [length header StrCat fold_right]. pose proof (visit_permutes ho _ (@nil (uuid * InspectionIssues T))) as P. apply Permutation_sym, Permutation_nil in P. rewrite P.
    cbn [map fold_right StrCat]. rewrite !cat_nil, !cat_assoc. reflexivity.
  - rewrite <- E. cbn [header]. cbv zeta. replace (header (length (im_map x)) (im_description x)) with (StrCat [str (length (im_map x)); " issues with "%string; im_description x]) by (rewrite E; reflexivity).
    rewrite <- (messages_text _ (fun kv => issues_string (snd kv))). generalize (fold_left (fun acc kv => StrCat [acc; newline; tab; issues_string (snd kv)]) (visit ho (im_map x))
      (StrCat [str (length (im_map x)); " issues with "%string; im_description x])). intros a. cbn [StrCat fold_right]. rewrite cat_nil. reflexivity.
Qed.
Lemma like_map : forall T ho ho' (x y : InspectionIssuesMap T), im_description x = im_description y ->
  Forall2 (fun a b => forall p, like (p ++ issues_string (snd a)) (p ++ issues_string (snd b))) (im_map x) (im_map y) ->
  like (map_string ho x) (map_string ho' y).
Proof.
  intros T ho ho' x y D F. rewrite !map_text, D. assert (N : length (im_map x) = length (im_map y)) by (clear - F; induction F; cbn; congruence). rewrite N.
  apply like_app; [apply like_line|]. assert (R : forall z : list (uuid * InspectionIssues T), Forall (fun t => like t t) (map (fun kv => tab ++ issues_string (snd kv) ++ newline)%string z)).
  { intros z. apply Forall_forall. intros t H. apply in_map_iff in H. destruct H as (kv & <- & _). rewrite <- cat_assoc. apply like_line. }
  eapply like_trans; [apply (like_permuted _ (map (fun kv => tab ++ issues_string (snd kv) ++ newline)%string (im_map x))); [apply Permutation_map, visit_permutes|apply R]|].
  eapply like_trans; [|apply like_permuted; [apply Permutation_map, Permutation_sym, (visit_permutes ho')|apply R]].
  apply like_StrCat. clear - F. induction F as [|a b l l' H F IH]; constructor; [|exact IH]. rewrite <- !cat_assoc. apply like_app; [apply H|]. apply (like_line EmptyString).
Qed.
Lemma map_like : forall T ho ho' (x : InspectionIssuesMap T), like (map_string ho x) (map_string ho' x).
Proof.
  intros T ho ho' x. apply like_map; [reflexivity|]. induction (im_map x) as [|a l IH]; constructor; [|exact IH].
  intros p. apply like_issues; auto using Permutation_refl.
Qed.
Lemma same_map_like : forall T ho ho' (x y : InspectionIssuesMap T), same_map x y -> like (map_string ho x) (map_string ho' y).
Proof.
  intros T ho ho' x y [D F]. apply like_map; [exact D|]. clear D. induction F as [|a b l l' [_ H] F IH]; constructor; [|exact IH]. intros p. apply same_like, H.
Qed.
Lemma same_map_length : forall T (x y : InspectionIssuesMap T), same_map x y -> length (im_map x) = length (im_map y).
Proof. intros T x y [_ F]. induction F; cbn; congruence. Qed.
Lemma same_map_count : forall T (x y : InspectionIssuesMap T), same_map x y -> map_nb_issues x = map_nb_issues y.
Proof. intros T x y H. unfold map_nb_issues, size32. rewrite (same_map_length _ _ _ H). reflexivity. Qed.

(** ** Building the same lists *)
(** as many messages as issues *)
Definition paired {T} (x : InspectionIssues T) : Prop := length (ii_issues x) = length (ii_messages x).
Lemma paired_pairs : forall A B (l : list A) (l' : list B), length l = length l' -> exists k : list (A * B), l = map fst k /\ l' = map snd k.
Proof.
  induction l as [|a l IH]; intros [|b l'] H; try discriminate H; [exists []; split; reflexivity|]. injection H as H. destruct (IH l' H) as (k & -> & ->).
  exists ((a, b) :: k). split; reflexivity.
Qed.
Lemma same_refl : forall T (x : InspectionIssues T), paired x -> same_issues x x.
Proof. intros T x H. destruct (paired_pairs _ _ _ _ H) as (k & E & E'). split; [reflexivity|]. exists k, k. repeat split; auto using Permutation_refl. Qed.
Lemma paired_add : forall T i m (x : InspectionIssues T), paired x -> paired (add_issue i m x).
Proof. intros T i m x H. unfold paired, add_issue in *. cbn. rewrite !app_length, H. reflexivity. Qed.
Lemma paired_new : forall T d, paired (@new_issues T d).
Proof. reflexivity. Qed.
(** adding the same things in another order *)
Lemma add_all : forall A T (f : A -> option (T * string)) (l : list A) (x : InspectionIssues T),
  let pairs := flat_map (fun a => match f a with Some p => [p] | None => [] end) l in
  let r := fold_left (fun r a => match f a with Some p => add_issue (fst p) (snd p) r | None => r end) l x in
  ii_description r = ii_description x /\ ii_issues r = ii_issues x ++ map fst pairs /\ ii_messages r = ii_messages x ++ map snd pairs.
Proof.
  intros A T f. induction l as [|a l IH]; intros x; cbn [fold_left flat_map map]; [rewrite !app_nil_r; auto|].
  destruct (f a) as [[i m]|]; [|exact (IH x)]. destruct (IH (add_issue i m x)) as (D & I & M). cbv zeta. cbn [fst snd]. rewrite D, I, M. cbn [add_issue ii_description ii_issues ii_messages].
  rewrite !map_app, <- !app_assoc. repeat split.
Qed.
Lemma flat_map_permuted : forall A B (f : A -> list B) l l', Permutation l l' -> Permutation (flat_map f l) (flat_map f l').
Proof.
  intros A B f l l' P. induction P as [|x l l' P IH|x y l|l l' l'' P IH Q JH]; cbn [flat_map].
  - constructor.
  - apply Permutation_app_head, IH.
  - rewrite !app_assoc. apply Permutation_app_tail, Permutation_app_comm.
  - eapply Permutation_trans; eassumption.
Qed.
Lemma same_added : forall A T (f : A -> option (T * string)) (l l' : list A) (x y : InspectionIssues T), Permutation l l' -> same_issues x y ->
  same_issues (fold_left (fun r a => match f a with Some p => add_issue (fst p) (snd p) r | None => r end) l x)
    (fold_left (fun r a => match f a with Some p => add_issue (fst p) (snd p) r | None => r end) l' y).
Proof.
  intros A T f l l' x y P (D & k & k' & K & I & M & I' & M'). destruct (add_all A T f l x) as (D1 & I1 & M1). destruct (add_all A T f l' y) as (D2 & I2 & M2).
  cbv zeta in *. split; [congruence|]. eexists (k ++ _), (k' ++ _). split; [apply Permutation_app; [exact K|apply (flat_map_permuted _ _ (fun a => match f a with Some p => [p] | None => [] end) _ _ P)]|].
  rewrite I1, M1, I2, M2, I, M, I', M', !map_app. repeat split.
Qed.
Lemma same_described : forall T d (x y : InspectionIssues T), same_issues x y -> same_issues (set_description d x) (set_description d y).
Proof. intros T d x y [_ H]. split; [reflexivity|exact H]. Qed.
Lemma same_entry : forall T id (x y : InspectionIssues T) (m n : InspectionIssuesMap T), same_issues x y -> same_map m n ->
  same_map (add_issues_to_map id x m) (add_issues_to_map id y n).
Proof.
  intros T id x y m n H [D F]. unfold add_issues_to_map. rewrite <- (same_count _ _ _ H). destruct (N.eqb _ 0); [split; assumption|]. split; [exact D|].
  cbn [im_map]. unfold emplace. assert (E : (exists a, assoc id (im_map m) = Some a /\ exists b, assoc id (im_map n) = Some b) \/ (assoc id (im_map m) = None /\ assoc id (im_map n) = None)).
  { clear - F. induction F as [|[a u] [b v] l l' [E _] F IH]; [right; split; reflexivity|]. cbn [fst] in E. subst b. cbn [assoc]. destruct (Nat.eqb a id); [left; eauto|exact IH]. }
  destruct E as [(a & -> & b & ->)|[-> ->]]; [exact F|]. apply Forall2_app; [exact F|]. constructor; [split; [reflexivity|exact H]|constructor].
Qed.
Lemma same_map_new : forall T d, same_map (@new_issues_map T d) (new_issues_map d).
Proof. split; [reflexivity|constructor]. Qed.
