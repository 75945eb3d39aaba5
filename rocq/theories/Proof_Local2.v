(** Reports on unique vertices, seen from one vertex. *)
From Coq Require Import String Ascii List Arith NArith ZArith Bool Lia.
From Verif Require Import Base BaseFacts Model_Issues Types Model_Hash Model_Adjacency Model_Colocation Model_Degeneration Model_Manifold Model_Topology Model_BRep
  Model_Blocks Model_Results Spec_Colocation Proof_Colocation Proof_Colocation2 Spec_Topology Spec_Reproducible Spec_Local Proof_Order Proof_Local Proof_Topology2 Proof_Messages.
Import ListNotations.
Open Scope list_scope.

(** ** Messages of one vertex *)
Definition even (l : InspectionIssues nat) : Prop := length (ii_issues l) = length (ii_messages l).
Lemma combine_app : forall A B (a a' : list A) (b b' : list B), length a = length b -> combine (a ++ a') (b ++ b') = combine a b ++ combine a' b'.
Proof. intros A B a. induction a as [|x a IH]; intros a' [|y b] b' E; try discriminate; [reflexivity|]. cbn in *. rewrite IH by congruence. reflexivity. Qed.
Lemma even_add : forall v s l, even l -> even (add_issue v s l).
Proof. intros v s l E. unfold even, add_issue in *. cbn. rewrite !app_length, E. reflexivity. Qed.
Lemma messages_add : forall uv v s l, even l -> messages_at uv (add_issue v s l) = messages_at uv l ++ (if Nat.eqb v uv then [s] else []).
Proof.
  intros uv v s l E. unfold messages_at, add_issue. cbn [ii_issues ii_messages]. rewrite combine_app by exact E. rewrite filter_app, map_app. f_equal. cbn.
  destruct (Nat.eqb v uv); reflexivity.
Qed.
Definition message_of (p : outcome (option string)) : list string := match p with Ok (Some s) => [s] | _ => [] end.

Lemma report_vertex_messages : forall checks rs w rs', report_vertex checks w rs = Ok rs' -> length checks = length rs -> Forall even rs ->
  Forall even rs' /\ length rs' = length rs /\
  forall i l, nth_error rs i = Some l -> exists l' c, nth_error rs' i = Some l' /\ nth_error checks i = Some c /\
    forall uv, messages_at uv l' = messages_at uv l ++ (if Nat.eqb w uv then message_of (c w) else []).
Proof.
  induction checks as [|c checks IH]; intros [|r rs] w rs' E L F; try discriminate L; cbn [report_vertex] in E.
  - injection E as <-. split; [constructor|]. split; [reflexivity|]. intros [|i] l X; discriminate X.
  - apply bind_Ok in E as (p & Ep & E). cbv zeta in E. apply bind_Ok in E as (rs2 & E2 & E). injection E as <-.
    inversion F as [|x y Er Frs]; subst. apply IH in E2; [|cbn in L; congruence|exact Frs]. destruct E2 as (F2 & L2 & N2). split; [|split].
    + constructor; [|exact F2]. destruct p; [apply even_add|]; exact Er.
    + cbn. rewrite L2. reflexivity.
    + intros [|i] l X; cbn [nth_error] in X |- *; [|apply N2, X]. injection X as <-. eexists _, c. split; [reflexivity|]. split; [reflexivity|]. intros uv. rewrite Ep.
      destruct p as [s|]; cbn [message_of].
      * apply messages_add, Er.
      * destruct (Nat.eqb w uv); rewrite app_nil_r; reflexivity.
Qed.
Lemma report_fold_messages : forall checks ws rs rs', foldM (fun rs uv => report_vertex checks uv rs) ws rs = Ok rs' -> length checks = length rs -> Forall even rs ->
  Forall even rs' /\ length rs' = length rs /\
  forall i l, nth_error rs i = Some l -> exists l' c, nth_error rs' i = Some l' /\ nth_error checks i = Some c /\
    forall uv, NoDup ws -> messages_at uv l' = messages_at uv l ++ (if existsb (Nat.eqb uv) ws then message_of (c uv) else []).
Proof.
  intros checks ws. induction ws as [|w ws IH]; intros rs rs' E L F; cbn [foldM] in E.
  - injection E as <-. split; [exact F|]. split; [reflexivity|]. intros i l X.
    destruct (nth_error checks i) as [c|] eqn:C; [|apply nth_error_None in C; assert (i < length rs) by (apply nth_error_Some; congruence); lia].
    exists l, c. split; [exact X|]. split; [reflexivity|]. intros uv _. cbn. rewrite app_nil_r. reflexivity.
  - apply bind_Ok in E as (rs1 & E1 & E). apply report_vertex_messages in E1; [|exact L|exact F]. destruct E1 as (F1 & L1 & N1).
    apply IH in E; [|lia|exact F1]. destruct E as (F2 & L2 & N2). split; [exact F2|]. split; [lia|]. intros i l X. destruct (N1 i l X) as (l1 & c & X1 & C & M1).
    destruct (N2 i l1 X1) as (l2 & c' & X2 & C' & M2). rewrite C in C'. injection C' as <-. exists l2, c. split; [exact X2|]. split; [exact C|]. intros uv D.
    inversion D as [|x y Nw Dw]; subst. rewrite (M2 uv Dw), M1. cbn [existsb]. rewrite <- app_assoc. f_equal. rewrite (Nat.eqb_sym uv w). destruct (Nat.eqb_spec w uv) as [->|N]; cbn [orb].
    + destruct (existsb (Nat.eqb uv) ws) eqn:X'; [|rewrite app_nil_r; reflexivity]. exfalso. apply existsb_exists in X' as (z & Iz & Ez). apply Nat.eqb_eq in Ez. subst z. contradiction.
    + reflexivity.
Qed.
Lemma NoDup_Range : forall n, NoDup (Range n). Proof. intros n. unfold Range. apply seq_NoDup. Qed.
Lemma in_Range_b : forall n uv, uv < n -> existsb (Nat.eqb uv) (Range n) = true.
Proof. intros n uv B. apply existsb_exists. exists uv. split; [apply in_seq; lia|apply Nat.eqb_refl]. Qed.
Lemma report_vertices_messages : forall m checks ds rs, report_vertices m checks ds = Ok rs -> length checks = length ds ->
  length rs = length ds /\ Forall2 (fun c l => forall uv, uv < nb_unique_vertices m -> messages_at uv l = message_of (c uv)) checks rs.
Proof.
  intros m checks ds rs E L. unfold report_vertices in E.
  apply report_fold_messages in E; [|rewrite map_length; exact L|apply Forall_forall; intros l I; apply in_map_iff in I as (d & <- & _); reflexivity].
  destruct E as (_ & Lr & N). rewrite map_length in Lr. split; [exact Lr|].
  assert (G : forall i c l, nth_error checks i = Some c -> nth_error rs i = Some l -> forall uv, uv < nb_unique_vertices m -> messages_at uv l = message_of (c uv)).
  { intros i c l C R uv B. destruct (nth_error (map (@new_issues nat) ds) i) as [l0|] eqn:X.
    - destruct (N i l0 X) as (l' & c' & R' & C' & M). rewrite R in R'. rewrite C in C'. injection R' as <-. injection C' as <-. rewrite (M uv (NoDup_Range _)), (in_Range_b _ _ B).
      rewrite nth_error_map in X. destruct (nth_error ds i); [|discriminate]. injection X as <-. reflexivity.
    - exfalso. apply nth_error_None in X. rewrite map_length in X. assert (i < length rs) by (apply nth_error_Some; congruence). lia. }
  clear N. revert rs Lr G. rewrite <- L. clear L. induction checks as [|c checks IH]; intros [|l rs] Lr G; try discriminate Lr; constructor.
  - exact (G 0 c l eq_refl eq_refl).
  - apply IH; [cbn in Lr; congruence|]. intros i c' l' C R. exact (G (S i) c' l' C R).
Qed.
Lemma told_says : forall uv uv' p p' l l', agree (told uv uv') p p' -> messages_at uv l = message_of p -> messages_at uv' l' = message_of p' -> says_same uv uv' l l'.
Proof.
  intros uv uv' p p' l l' A E E'. unfold says_same. rewrite E, E'. destruct A as [[s|] [s'|] T|e|]; try (cbn in T; contradiction); split; auto. intros X. cbn in T |- *. rewrite (T X). reflexivity.
Qed.
(** reports of two models, on two vertices that pass the same checks *)
Lemma reports_say : forall m m' uv uv' checks checks' ds rs rs', uv < nb_unique_vertices m -> uv' < nb_unique_vertices m' ->
  report_vertices m checks ds = Ok rs -> report_vertices m' checks' ds = Ok rs' -> length checks = length ds ->
  Forall2 (fun c c' => agree (told uv uv') (c uv) (c' uv')) checks checks' -> Forall2 (says_same uv uv') rs rs'.
Proof.
  intros m m' uv uv' checks checks' ds rs rs' B B' E E' L F.
  apply report_vertices_messages in E as (L1 & F1); [|exact L]. apply report_vertices_messages in E' as (L2 & F2); [|rewrite <- L; symmetry; clear - F; induction F as [|? ? ? ? ? ? IH]; [reflexivity|cbn; rewrite IH; reflexivity]].
  clear L L1 L2. revert rs rs' F1 F2. induction F as [|c c' checks checks' T F IH]; intros rs rs' F1 F2; inversion F1; inversion F2; subst; constructor.
  - eapply told_says; [exact T|auto|auto].
  - apply IH; assumption.
Qed.

(** ** Links *)
Definition links_even (r : LinkIssues) : Prop := even (li_not_linked r) /\ even (li_inexistant r) /\ even (li_nonbijective r).
Notation links_say := links_say_same.
Lemma says_add : forall uv uv' s s' l l', even l -> even l' -> says_same uv uv' l l' -> (uv = uv' -> s = s') -> says_same uv uv' (add_issue uv s l) (add_issue uv' s' l').
Proof.
  intros uv uv' s s' l l' E E' [L T] S. unfold says_same. rewrite !messages_add by assumption. rewrite !Nat.eqb_refl, !app_length, L. split; [reflexivity|]. intros X. rewrite (T X), (S X). reflexivity.
Qed.
Lemma says_other : forall uv w s l, even l -> w <> uv -> messages_at uv (add_issue w s l) = messages_at uv l.
Proof. intros uv w s l E N. rewrite messages_add by exact E. destruct (Nat.eqb_spec w uv); [contradiction|]. apply app_nil_r. Qed.
Definition links_at (uv : nat) (r r' : LinkIssues) : Prop :=
  messages_at uv (li_not_linked r) = messages_at uv (li_not_linked r') /\ messages_at uv (li_inexistant r) = messages_at uv (li_inexistant r') /\
  messages_at uv (li_nonbijective r) = messages_at uv (li_nonbijective r').
Definition link_step (m : Model) ex (r : LinkIssues) (uv : nat) : outcome LinkIssues :=
  match component_mesh_vertices m uv with
  | [] => Ok (mkLinks (add_issue uv (StrCat ["unique vertex "%string; str uv; " is not linked to any mesh vertex."%string]) (li_not_linked r)) (li_inexistant r) (li_nonbijective r))
  | cmvs => foldM (add_wrong_cmv_link m ex uv) cmvs r
  end.
Lemma wrong_link_other : forall m ex w c r r', add_wrong_cmv_link m ex w r c = Ok r' -> links_even r -> links_even r' /\ forall uv, w <> uv -> links_at uv r' r.
Proof.
  intros m ex w c r r' E (E1 & E2 & E3). unfold add_wrong_cmv_link in E. cbv zeta in E. destruct (negb (ex m c)).
  - injection E as <-. split; [repeat split; cbn; try assumption; apply even_add, E2|]. intros uv N. unfold links_at. cbn [li_not_linked li_inexistant li_nonbijective]. rewrite says_other; auto.
  - apply bind_Ok in E as (b & _ & E). destruct b; injection E as <-.
    + split; [repeat split; cbn; try assumption; apply even_add, E3|]. intros uv N. unfold links_at. cbn [li_not_linked li_inexistant li_nonbijective]. rewrite says_other; auto.
    + split; [repeat split; assumption|]. intros uv _. unfold links_at. auto.
Qed.
Lemma wrong_links_other : forall m ex w cs r r', foldM (add_wrong_cmv_link m ex w) cs r = Ok r' -> links_even r -> links_even r' /\ forall uv, w <> uv -> links_at uv r' r.
Proof.
  intros m ex w cs. induction cs as [|c cs IH]; intros r r' E Ev; cbn [foldM] in E.
  - injection E as <-. split; [exact Ev|]. intros uv _. unfold links_at. auto.
  - apply bind_Ok in E as (r1 & E1 & E). destruct (wrong_link_other _ _ _ _ _ _ E1 Ev) as [Ev1 O1]. destruct (IH _ _ E Ev1) as [Ev2 O2]. split; [exact Ev2|].
    intros uv N. specialize (O1 uv N). specialize (O2 uv N). unfold links_at in *. intuition congruence.
Qed.
Lemma link_step_other : forall m ex w r r', link_step m ex r w = Ok r' -> links_even r -> links_even r' /\ forall uv, w <> uv -> links_at uv r' r.
Proof.
  intros m ex w r r' E Ev. unfold link_step in E. destruct (component_mesh_vertices m w) as [|c cs]; [|eapply wrong_links_other; eassumption].
  injection E as <-. destruct Ev as (E1 & E2 & E3). split; [repeat split; cbn; try assumption; apply even_add, E1|]. intros uv N. unfold links_at. cbn [li_not_linked li_inexistant li_nonbijective]. rewrite says_other; auto.
Qed.
Lemma link_steps : forall m ex ws r r', foldM (link_step m ex) ws r = Ok r' -> links_even r -> links_even r' /\ forall uv, ~ In uv ws -> links_at uv r' r.
Proof.
  intros m ex ws. induction ws as [|w ws IH]; intros r r' E Ev; cbn [foldM] in E.
  - injection E as <-. split; [exact Ev|]. intros uv _. unfold links_at. auto.
  - apply bind_Ok in E as (r1 & E1 & E). destruct (link_step_other _ _ _ _ _ E1 Ev) as [Ev1 O1]. destruct (IH _ _ E Ev1) as [Ev2 O2]. split; [exact Ev2|].
    intros uv N. assert (N1 : w <> uv) by (intros ->; apply N; left; reflexivity). assert (N2 : ~ In uv ws) by (intros I; apply N; right; exact I).
    specialize (O1 uv N1). specialize (O2 uv N2). unfold links_at in *. intuition congruence.
Qed.
(** the part of the loop that counts for one vertex *)
Lemma links_focus : forall m ex r uv, add_unique_vertices_with_wrong_cmv_link m ex no_links = Ok r -> uv < nb_unique_vertices m ->
  exists r1 r2, links_even r1 /\ links_at uv r1 no_links /\ link_step m ex r1 uv = Ok r2 /\ links_at uv r r2.
Proof.
  intros m ex r uv E B. change (foldM (link_step m ex) (Range (nb_unique_vertices m)) no_links = Ok r) in E.
  assert (I : In uv (Range (nb_unique_vertices m))) by (apply in_seq; lia). pose proof (NoDup_Range (nb_unique_vertices m)) as D.
  destruct (in_split _ _ I) as (pre & post & S). rewrite S in E, D. apply NoDup_remove_2 in D.
  assert (A : forall l l' (s : LinkIssues), foldM (link_step m ex) (l ++ l') s = let! s1 := foldM (link_step m ex) l s in foldM (link_step m ex) l' s1).
  { induction l as [|x l IHl]; intros l' s; [reflexivity|]. cbn [app foldM]. destruct (link_step m ex s x); cbn [bind]; auto. }
  rewrite A in E. apply bind_Ok in E as (r1 & E1 & E). cbn [foldM] in E. apply bind_Ok in E as (r2 & E2 & E).
  assert (Ev0 : links_even no_links) by (repeat split; reflexivity).
  destruct (link_steps _ _ _ _ _ E1 Ev0) as [Ev1 O1]. destruct (link_step_other _ _ _ _ _ E2 Ev1) as [Ev2 _]. destruct (link_steps _ _ _ _ _ E Ev2) as [_ O3].
  exists r1, r2. split; [exact Ev1|]. split; [apply O1; intros X; apply D, in_or_app; left; exact X|]. split; [exact E2|]. apply O3. intros X. apply D, in_or_app. right. exact X.
Qed.

Section Links.
Context (m m' : Model) (H : same_frame m m') (uv uv' : nat) (V : same_vertex m m' uv uv').
Context (ex : Model -> ComponentMeshVertex -> bool) (EX : forall c, In c (component_mesh_vertices m uv) -> ex m c = ex m' c).
Lemma elsewhere_same : forall c, In c (component_mesh_vertices m uv) -> linked_elsewhere m uv c = linked_elsewhere m' uv' c.
Proof.
  intros c I. unfold linked_elsewhere. rewrite (l_component_is_active m m' H). apply bind_eq; [reflexivity|]. intros a. do 3 f_equal.
  apply eq_true_iff_eq. rewrite !opt_eqb_eq. apply (sv_back _ _ _ _ V _ I).
Qed.
Lemma wrong_links_same : forall cs r r' s s', incl cs (component_mesh_vertices m uv) -> links_even r -> links_even r' -> links_say uv uv' r r' ->
  foldM (add_wrong_cmv_link m ex uv) cs r = Ok s -> foldM (add_wrong_cmv_link m' ex uv') cs r' = Ok s' -> links_say uv uv' s s'.
Proof.
  induction cs as [|c cs IH]; intros r r' s s' L Ev Ev' S E E'; cbn [foldM] in E, E'.
  - injection E as <-. injection E' as <-. exact S.
  - apply bind_Ok in E as (r1 & E1 & E). apply bind_Ok in E' as (r1' & E1' & E').
    assert (Ic : In c (component_mesh_vertices m uv)) by (apply L; left; reflexivity).
    apply (IH r1 r1' s s'); auto.
    + intros x I. apply L. right. exact I.
    + eapply wrong_link_other; eassumption.
    + eapply wrong_link_other; eassumption.
    + destruct S as (S1 & S2 & S3), Ev as (V1 & V2 & V3), Ev' as (V1' & V2' & V3'). unfold add_wrong_cmv_link in E1, E1'. cbv zeta in E1, E1'. rewrite <- (EX c Ic) in E1'. destruct (negb (ex m c)).
      * injection E1 as <-. injection E1' as <-. split; [exact S1|]. split; [|exact S3]. cbn [li_inexistant]. apply says_add; auto. intros <-. rewrite (l_cmv_string m m' H). reflexivity.
      * rewrite <- (elsewhere_same c Ic) in E1'. apply bind_Ok in E1 as (b & Eb & E1). rewrite Eb in E1'. cbn [bind] in E1'. destruct b; injection E1 as <-; injection E1' as <-.
        -- split; [exact S1|]. split; [exact S2|]. cbn [li_nonbijective]. apply says_add; auto. intros <-. rewrite (l_cmv_string m m' H). reflexivity.
        -- split; [exact S1|]. split; [exact S2|exact S3].
Qed.
Lemma links_same : forall r r', uv < nb_unique_vertices m -> uv' < nb_unique_vertices m' ->
  add_unique_vertices_with_wrong_cmv_link m ex no_links = Ok r -> add_unique_vertices_with_wrong_cmv_link m' ex no_links = Ok r' -> links_say uv uv' r r'.
Proof.
  intros r r' B B' E E'. destruct (links_focus _ _ _ _ E B) as (a & b & Ea & A1 & S & A2). destruct (links_focus _ _ _ _ E' B') as (a' & b' & Ea' & A1' & S' & A2').
  assert (Z : links_say uv uv' a a').
  { destruct A1 as (X1 & X2 & X3), A1' as (X1' & X2' & X3'). repeat split; rewrite ?X1, ?X2, ?X3, ?X1', ?X2', ?X3'; reflexivity. }
  assert (W : links_say uv uv' b b').
  { unfold link_step in S, S'. rewrite <- (l_cmvs m m' uv uv' V) in S'. revert S S'. case_eq (component_mesh_vertices m uv); [intros C S S'|intros c cs C S S'].
    - injection S as <-. injection S' as <-. destruct Z as (Z1 & Z2 & Z3), Ea as (V1 & _), Ea' as (V1' & _). split; [|split; assumption]. cbn [li_not_linked]. apply says_add; auto. intros <-. reflexivity.
    - rewrite <- C in S, S'. eapply wrong_links_same; [| | |exact Z|exact S|exact S']; auto. intros x; auto. }
  destruct A2 as (Y1 & Y2 & Y3), A2' as (Y1' & Y2' & Y3'), W as (W1 & W2 & W3). unfold links_say_same, says_same in *. rewrite Y1, Y2, Y3, Y1', Y2', Y3'. auto.
Qed.
End Links.
Lemma exists_same_section : forall m m' uv uv', same_vertex m m' uv uv' -> unique_ids m -> unique_ids m' -> m_blocks m = [] -> m_blocks m' = [] ->
  forall c, In c (component_mesh_vertices m uv) -> cmv_exists_in_section m c = cmv_exists_in_section m' c.
Proof.
  intros m m' uv uv' V U U' B B' c I. apply eq_true_iff_eq. rewrite !cmv_exists_section_iff by assumption. unfold vertex_exists.
  split; intros (p & P); exists p; apply (sv_positions _ _ _ _ V c p I), P.
Qed.
Lemma exists_same_brep : forall m m' uv uv', same_vertex m m' uv uv' -> unique_ids m -> unique_ids m' ->
  forall c, In c (component_mesh_vertices m uv) -> cmv_exists_in_brep m c = cmv_exists_in_brep m' c.
Proof.
  intros m m' uv uv' V U U' c I. apply eq_true_iff_eq. rewrite !cmv_exists_brep_iff by assumption. unfold vertex_exists.
  split; intros (p & P); exists p; apply (sv_positions _ _ _ _ V c p I), P.
Qed.

(** ** Whole reports *)
Ltac says F := repeat match type of F with Forall2 _ (_ :: _) (_ :: _) => let A := fresh "S" in let B := fresh "F" in inversion F as [|? ? ? ? A B]; subst; clear F; rename B into F end.
Section Reports.
Context (m m' : Model) (H : same_frame m m') (U : unique_ids m) (uv uv' : nat) (V : same_vertex m m' uv uv').
Context (B : uv < nb_unique_vertices m) (B' : uv' < nb_unique_vertices m').
Lemma section_corners_say : forall r r', section_inspect_corners_topology m = Ok r -> section_inspect_corners_topology m' = Ok r' -> corners_say_same uv uv' r r'.
Proof.
  intros r r' E E'. unfold section_inspect_corners_topology in E, E'. apply bind_Ok in E as (cs & _ & E). apply bind_Ok in E as (rs & Er & E).
  apply bind_Ok in E' as (cs' & _ & E'). apply bind_Ok in E' as (rs' & Er' & E').
  assert (F : Forall2 (says_same uv uv') rs rs').
  { eapply reports_say; [exact B|exact B'|exact Er|exact Er'|reflexivity|]. repeat apply Forall2_cons; [| | | |apply Forall2_nil].
    - apply (l_multiple_corners m m' H uv uv' V).
    - apply (l_multiple_embeddings m m' H uv uv' V).
    - apply (l_neither m m' H uv uv' V).
    - apply (l_section_corner_line m m' H uv uv' V). }
  unfold make_corners in E, E'. destruct rs as [|a [|b [|c [|d [|? ?]]]]]; try discriminate. destruct rs' as [|a' [|b' [|c' [|d' [|? ?]]]]]; try discriminate.
  injection E as <-. injection E' as <-. says F. unfold corners_say_same. cbn [ct_multiple_corners ct_multiple_embeddings ct_not_internal_nor_boundary ct_not_boundary_line]. auto.
Qed.
Lemma brep_corners_say : forall r r', brep_inspect_corners_topology m = Ok r -> brep_inspect_corners_topology m' = Ok r' -> corners_say_same uv uv' r r'.
Proof.
  intros r r' E E'. unfold brep_inspect_corners_topology in E, E'. apply bind_Ok in E as (cs & _ & E). apply bind_Ok in E as (rs & Er & E).
  apply bind_Ok in E' as (cs' & _ & E'). apply bind_Ok in E' as (rs' & Er' & E').
  assert (F : Forall2 (says_same uv uv') rs rs').
  { eapply reports_say; [exact B|exact B'|exact Er|exact Er'|reflexivity|]. repeat apply Forall2_cons; [| | | |apply Forall2_nil].
    - apply (l_multiple_corners m m' H uv uv' V).
    - apply (l_multiply_embedded m m' H uv uv' V).
    - apply (l_neither m m' H uv uv' V).
    - apply (l_brep_corner_line m m' H uv uv' V). }
  unfold make_corners in E, E'. destruct rs as [|a [|b [|c [|d [|? ?]]]]]; try discriminate. destruct rs' as [|a' [|b' [|c' [|d' [|? ?]]]]]; try discriminate.
  injection E as <-. injection E' as <-. says F. unfold corners_say_same. cbn [ct_multiple_corners ct_multiple_embeddings ct_not_internal_nor_boundary ct_not_boundary_line]. auto.
Qed.
Lemma section_lines_say : forall r r', section_inspect_lines_topology m = Ok r -> section_inspect_lines_topology m' = Ok r' ->
  says_same uv uv' (sl_wrong_relationship r) (sl_wrong_relationship r') /\ says_same uv uv' (sl_invalid_embeddings r) (sl_invalid_embeddings r') /\
  says_same uv uv' (sl_single_invalid r) (sl_single_invalid r') /\ says_same uv uv' (sl_several_not_corner r) (sl_several_not_corner r').
Proof.
  intros r r' E E'. unfold section_inspect_lines_topology in E, E'. apply bind_Ok in E as (cs & _ & E). apply bind_Ok in E as (rs & Er & E).
  apply bind_Ok in E' as (cs' & _ & E'). apply bind_Ok in E' as (rs' & Er' & E').
  assert (F : Forall2 (says_same uv uv') rs rs').
  { eapply reports_say; [exact B|exact B'|exact Er|exact Er'|reflexivity|]. repeat apply Forall2_cons; [| | | |apply Forall2_nil].
    - apply (l_line_wrong m m' H uv uv' V).
    - apply (l_section_embedded m m' H uv uv' V).
    - apply (l_section_single m m' H uv uv' V).
    - apply (l_no_corner m m' H uv uv' V). }
  destruct rs as [|a [|b [|c [|d [|? ?]]]]]; try discriminate. destruct rs' as [|a' [|b' [|c' [|d' [|? ?]]]]]; try discriminate.
  injection E as <-. injection E' as <-. says F. cbn [sl_wrong_relationship sl_invalid_embeddings sl_single_invalid sl_several_not_corner]. auto.
Qed.
Lemma section_surfaces_say : forall r r', section_inspect_surfaces m = Ok r -> section_inspect_surfaces m' = Ok r' ->
  says_same uv uv' (ss_invalid_embeddings r) (ss_invalid_embeddings r') /\ says_same uv uv' (ss_not_on_border r) (ss_not_on_border r').
Proof.
  intros r r' E E'. unfold section_inspect_surfaces in E, E'. apply bind_Ok in E as (cs & _ & E). apply bind_Ok in E as (rs & Er & E).
  apply bind_Ok in E' as (cs' & _ & E'). apply bind_Ok in E' as (rs' & Er' & E').
  assert (F : Forall2 (says_same uv uv') rs rs').
  { eapply reports_say; [exact B|exact B'|exact Er|exact Er'|reflexivity|]. repeat apply Forall2_cons; [| |apply Forall2_nil].
    - apply (l_section_two m m' H uv uv' V).
    - apply (l_section_border m m' H uv uv' V). }
  destruct rs as [|a [|b [|? ?]]]; try discriminate. destruct rs' as [|a' [|b' [|? ?]]]; try discriminate.
  injection E as <-. injection E' as <-. says F. cbn [ss_invalid_embeddings ss_not_on_border]. auto.
Qed.
Lemma brep_lines_say : forall tl tl' r r', same_first_edges tl tl' m m' uv -> brep_inspect_lines_topology tl m = Ok r -> brep_inspect_lines_topology tl' m' = Ok r' ->
  says_same uv uv' (bl_wrong_relationship r) (bl_wrong_relationship r') /\ says_same uv uv' (bl_invalid_embeddings r) (bl_invalid_embeddings r') /\
  says_same uv uv' (bl_single_invalid r) (bl_single_invalid r') /\ says_same uv uv' (bl_several_not_corner r) (bl_several_not_corner r').
Proof.
  intros tl tl' r r' FE E E'. unfold brep_inspect_lines_topology in E, E'. apply bind_Ok in E as (cs & _ & E). apply bind_Ok in E as (rs & Er & E).
  apply bind_Ok in E' as (cs' & _ & E'). apply bind_Ok in E' as (rs' & Er' & E').
  assert (F : Forall2 (says_same uv uv') rs rs').
  { eapply reports_say; [exact B|exact B'|exact Er|exact Er'|reflexivity|]. repeat apply Forall2_cons; [| | | |apply Forall2_nil].
    - apply (l_brep_embedded m m' H uv uv' V).
    - apply (l_line_wrong_brep m m' H uv uv' V tl tl' FE).
    - apply (l_brep_single m m' H uv uv' V).
    - apply (l_no_corner m m' H uv uv' V). }
  destruct rs as [|a [|b [|c [|d [|? ?]]]]]; try discriminate. destruct rs' as [|a' [|b' [|c' [|d' [|? ?]]]]]; try discriminate.
  injection E as <-. injection E' as <-. says F. cbn [bl_wrong_relationship bl_invalid_embeddings bl_single_invalid bl_several_not_corner]. auto.
Qed.
Lemma brep_surfaces_say : forall tl tl' r r', brep_inspect_surfaces_topology tl m = Ok r -> brep_inspect_surfaces_topology tl' m' = Ok r' ->
  says_same uv uv' (bs_invalid_embeddings r) (bs_invalid_embeddings r') /\ says_same uv uv' (bs_several_invalid r) (bs_several_invalid r') /\
  says_same uv uv' (bs_not_on_border r) (bs_not_on_border r').
Proof.
  intros tl tl' r r' E E'. unfold brep_inspect_surfaces_topology in E, E'. apply bind_Ok in E as (cs & _ & E). apply bind_Ok in E as (rs & Er & E).
  apply bind_Ok in E' as (cs' & _ & E'). apply bind_Ok in E' as (rs' & Er' & E').
  assert (F : Forall2 (says_same uv uv') rs rs').
  { eapply reports_say; [exact B|exact B'|exact Er|exact Er'|reflexivity|]. repeat apply Forall2_cons; [| | |apply Forall2_nil].
    - apply (l_brep_embedded_surface m m' H uv uv' V).
    - apply (l_brep_multiple m m' H U uv uv' V (ids_frame m m' H U)).
    - apply (l_brep_border m m' H uv uv' V). }
  destruct rs as [|a [|b [|c [|? ?]]]]; try discriminate. destruct rs' as [|a' [|b' [|c' [|? ?]]]]; try discriminate.
  injection E as <-. injection E' as <-. says F. cbn [bs_invalid_embeddings bs_several_invalid bs_not_on_border]. auto.
Qed.
Lemma active_blocks : active (m_blocks m) = [] <-> active (m_blocks m') = [].
Proof.
  pose proof (sf_blocks _ _ H) as F. unfold active. clear - F. induction F as [|b b' l l' (_ & A & _) F IH]; [tauto|]. cbn [filter]. rewrite A. destruct (co_active b'); [split; discriminate|exact IH].
Qed.
Lemma brep_blocks_say : forall tl tl' r r', tl_inside_block tl = tl_inside_block tl' -> brep_inspect_blocks tl m = Ok r -> brep_inspect_blocks tl' m' = Ok r' ->
  says_same uv uv' (bb_two_blocks r) (bb_two_blocks r') /\ says_same uv uv' (bb_wrong_count r) (bb_wrong_count r') /\
  says_same uv uv' (bb_single_invalid r) (bb_single_invalid r') /\ says_same uv uv' (bb_wrong_relationship r) (bb_wrong_relationship r') /\
  says_same uv uv' (bb_multiple_invalid r) (bb_multiple_invalid r').
Proof.
  intros tl tl' r r' TI E E'. unfold brep_inspect_blocks in E, E'. pose proof active_blocks as AB. revert E E' AB.
  case_eq (active (m_blocks m)); [intros Z E|intros b0 l0 Z E]; (case_eq (active (m_blocks m')); [intros Z' E'|intros b0' l0' Z' E']); intros AB.
  - injection E as <-. injection E' as <-. repeat split.
  - destruct AB as [AB _]. discriminate (AB eq_refl).
  - destruct AB as [_ AB]. discriminate (AB eq_refl).
  - rewrite <- Z in E. rewrite <- Z' in E'. apply bind_Ok in E as (nb & Enb & E). apply bind_Ok in E as (dg & Edg & E). apply bind_Ok in E as (nl & _ & E). apply bind_Ok in E as (cl & _ & E). cbv zeta in E.
    apply bind_Ok in E as (rs & Er & E). apply bind_Ok in E as (bs & _ & E).
    apply bind_Ok in E' as (nb' & Enb' & E'). apply bind_Ok in E' as (dg' & Edg' & E'). apply bind_Ok in E' as (nl' & _ & E'). apply bind_Ok in E' as (cl' & _ & E'). cbv zeta in E'.
    apply bind_Ok in E' as (rs' & Er' & E'). apply bind_Ok in E' as (bs' & _ & E').
    rewrite <- (l_not_boundary m m' H), Enb in Enb'. injection Enb' as <-. rewrite <- (l_dangling m m' H tl tl' TI), Edg in Edg'. injection Edg' as <-.
    assert (F : Forall2 (says_same uv uv') rs rs').
    { eapply reports_say; [exact B|exact B'|exact Er|exact Er'|reflexivity|]. repeat apply Forall2_cons; [| | | | |apply Forall2_nil].
      - apply (l_two_blocks m m' H uv uv' V).
      - apply (l_block_count m m' H U uv uv' V (ids_frame m m' H U)).
      - apply (l_single_surface m m' H uv uv' V).
      - apply (l_wrong_surface m m' H uv uv' V).
      - apply (l_multiple_line m m' H uv uv' V). }
    destruct rs as [|a [|b [|c [|d [|e [|? ?]]]]]]; try discriminate. destruct rs' as [|a' [|b' [|c' [|d' [|e' [|? ?]]]]]]; try discriminate.
    injection E as <-. injection E' as <-. says F. cbn [bb_two_blocks bb_wrong_count bb_single_invalid bb_wrong_relationship bb_multiple_invalid]. auto.
Qed.
End Reports.
