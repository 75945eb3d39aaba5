(** Colocated points of the components of a model: C06, C44 *)
From Coq Require Import String Ascii List Arith NArith ZArith Bool Lia Sorted.
From Verif Require Import Base BaseFacts Model_Issues Types Model_Colocation Spec_Colocation Spec_Maps
  Proof_Issues Proof_Colocation Proof_Colocation2 Proof_Maps.
Import ListNotations.
Open Scope list_scope.

Lemma foldM_app : forall A S (f : S -> A -> outcome S) l1 l2 s,
  foldM f (l1 ++ l2) s = bind (foldM f l1 s) (foldM f l2).
Proof.
  intros A S f l1. induction l1 as [|x l1 IH]; intros l2 s; cbn; [reflexivity|].
  destruct (f s x); cbn; [apply IH|reflexivity|reflexivity].
Qed.
Lemma foldM_map : forall A B S (f : S -> B -> outcome S) (g : A -> B) l s,
  foldM f (map g l) s = foldM (fun s x => f s (g x)) l s.
Proof.
  intros A B S f g l. induction l as [|x l IH]; intros s; cbn; [reflexivity|].
  destruct (f s (g x)); cbn; [apply IH|reflexivity|reflexivity].
Qed.

Lemma in_active : forall M (l : list (Component M)) c, In c (active l) <-> In c l /\ co_active c = true.
Proof. intros M l c. unfold active. apply filter_In. Qed.
Lemma NoDup_map_filter : forall A B (f : A -> B) g l, NoDup (map f l) -> NoDup (map f (filter g l)).
Proof.
  intros A B f g l. induction l as [|x l IH]; cbn; intros H; [constructor|]. inversion H as [|? ? Hx Hl]; subst.
  destruct (g x); cbn; [|apply IH; exact Hl]. constructor; [|apply IH; exact Hl].
  intros K. apply Hx. apply in_map_iff in K. destruct K as (y & Hy & K). apply filter_In in K. rewrite <- Hy.
  apply in_map. apply K.
Qed.

Lemma filter_groups_loop : forall m c groups acc,
  (forall g, In g groups -> g <> []) ->
  exists out, foldM (fun acc group =>
           let! r := filter_group (fun v => m_unique_vertex m (mkCMV c v)) group in
           match r with
           | Some g => Ok (acc ++ [g])%list
           | None => Ok acc
           end) groups acc = Ok (acc ++ out) /\
    group_reports (fun v => m_unique_vertex m (mkCMV c v)) groups out.
Proof.
  intros m c groups. induction groups as [|g groups IH]; intros acc Hne; cbn [foldM].
  - exists []. rewrite app_nil_r. split; [reflexivity|constructor].
  - destruct g as [|first rest]; [exfalso; apply (Hne []); [left|]; reflexivity|].
    destruct (filter_group_spec (fun v => m_unique_vertex m (mkCMV c v)) first rest) as (r & Hr & Hs & Hrep).
    rewrite Hr. cbn [bind]. destruct r as [r|].
    + cbn [bind]. destruct (IH (acc ++ [r])) as (out & H1 & H2); [intros g Hg; apply Hne; right; exact Hg|].
      exists (r :: out). rewrite H1, <- app_assoc. split; [reflexivity|].
      apply gr_keep; [apply Hs; discriminate|apply Hrep; reflexivity|exact H2].
    + cbn [bind]. destruct (IH acc) as (out & H1 & H2); [intros g Hg; apply Hne; right; exact Hg|].
      exists out. rewrite H1. split; [reflexivity|]. apply gr_skip; [|exact H2]. rewrite <- Hs. intros K. congruence.
Qed.

Lemma group_reports_length : forall uv gs rs, group_reports uv gs rs -> length rs <= length gs.
Proof. intros uv gs rs H. induction H; cbn; lia. Qed.
Lemma group_reports_none : forall uv gs rs rs', group_reports uv gs rs -> group_reports uv gs rs' -> rs = [] -> rs' = [].
Proof.
  intros uv gs rs rs' H. revert rs'. induction H as [|g gs rs Hn H IH|first rest r gs rs Hs Hr H IH]; intros rs' H' E.
  - inversion H'. reflexivity.
  - inversion H' as [|? ? ? _ H2|? ? ? ? ? Hs _ H2]; subst; [apply IH; auto|contradiction].
  - discriminate.
Qed.

Lemma concat_length_ge : forall A (gs : list (list A)), (forall g, In g gs -> 2 <= length g) -> length gs <= length (concat gs).
Proof.
  intros A gs. induction gs as [|g gs IH]; intros H; cbn; [lia|]. rewrite app_length.
  assert (2 <= length g) by (apply H; left; reflexivity).
  assert (length gs <= length (concat gs)) by (apply IH; intros h Hh; apply H; right; exact Hh). lia.
Qed.
Lemma colocation_groups_count : forall c gs, colocation_groups c gs -> length gs <= length (colocated_mapping c).
Proof.
  intros c gs [P1 P2 P3 P4 P5]. apply Nat.le_trans with (length (concat gs)); [apply concat_length_ge; exact P2|].
  rewrite <- (seq_length (length (colocated_mapping c)) 0). apply NoDup_incl_length; [exact P4|].
  intros x Hx. apply in_concat in Hx. destruct Hx as (g & Hg & Hx). apply in_seq. specialize (P5 g x Hg Hx). lia.
Qed.
(** groups are determined up to whether some group spans several unique vertices *)
Lemma colocation_groups_same : forall c gs gs' uv rs rs',
  colocation_groups c gs -> colocation_groups c gs' ->
  group_reports uv gs rs -> group_reports uv gs' rs' -> rs = [] -> rs' = [].
Proof.
  intros c gs gs' uv rs rs' H H' R R' E. 
  assert (Hnone : forall g, In g gs -> ~ spans_several uv g).
  { clear -R E. induction R as [|g gs rs Hn R IH|first rest r gs rs Hs Hr R IH]; [intros g []| |discriminate].
    intros h [<-|Hh]; [exact Hn|apply IH; assumption]. }
  assert (Hnone' : forall g, In g gs' -> ~ spans_several uv g).
  { intros g Hg (a & b & Ha & Hb & Hne). destruct H as [P1 _ _ _ _], H' as [Q1 _ _ _ _].
    assert (Hab : a <> b) by congruence.
    assert (Hsp : same_place c a b) by (apply Q1; [exact Hab|exists g; auto]).
    apply P1 in Hsp; [|exact Hab]. destruct Hsp as (h & Hh & Hah & Hbh). apply (Hnone h Hh). exists a, b. auto. }
  clear -R' Hnone'. induction R' as [|g gs rs Hn R IH|first rest r gs rs Hs Hr R IH]; [reflexivity| |].
  - apply IH. intros h Hh. apply Hnone'. right. exact Hh.
  - exfalso. apply (Hnone' (first :: rest)); [left; reflexivity|exact Hs].
Qed.

(** ** One component *)
Record entry := mkEntry { en_kind : string; en_type : ComponentType; en_points : list Point; en_name : option string; en_id : uuid }.
Definition entry_issues (geo : Geometry) (m : Model) (e : entry) : outcome (InspectionIssues (list nat)) :=
  let! groups := colocated_points_groups geo (en_points e) in
  let! colocated_pts := filter_colocated_points_with_same_unique_vertex m (mkCID (en_type e) (en_id e)) (ii_issues groups) in
  Ok (fold_left (fun r g =>
        add_issue g (StrCat [en_kind e; named m (en_name e) (en_id e); " has vertices "; group_string g; " colocated at position [";
                             g_point_string geo (nth (nth 0 g 0) (en_points e) []); "]"]%string) r)
      colocated_pts (new_issues (StrCat [en_kind e; named m (en_name e) (en_id e); " colocated vertices"]%string))).
Lemma entry_eq : forall geo m e acc,
  add_component_colocated_points geo m (en_kind e) (en_type e) (en_points e) (en_name e) (en_id e) acc =
  let! r := entry_issues geo m e in Ok (add_issues_to_map (en_id e) r acc).
Proof.
  intros geo m e acc. unfold add_component_colocated_points, entry_issues.
  destruct (colocated_points_groups geo (en_points e)); cbn [bind]; try reflexivity.
  destruct (filter_colocated_points_with_same_unique_vertex _ _ _) as [[|g gs]| |]; cbn [bind]; reflexivity.
Qed.
Lemma fold_add_issues : forall A (f : A -> string) l r,
  ii_issues (fold_left (fun r g => add_issue g (f g) r) l r) = ii_issues r ++ l.
Proof.
  intros A f l. induction l as [|x l IH]; intros r; cbn; [rewrite app_nil_r; reflexivity|].
  rewrite IH. cbn. rewrite <- app_assoc. reflexivity.
Qed.
Lemma entry_issues_spec : forall geo m e, consistent (en_points e) (g_colocated geo (en_points e)) ->
  exists r groups, entry_issues geo m e = Ok r /\ colocation_groups (g_colocated geo (en_points e)) groups /\
    group_reports (fun v => m_unique_vertex m (mkCMV (mkCID (en_type e) (en_id e)) v)) groups (ii_issues r).
Proof.
  intros geo m e Hc. unfold entry_issues.
  destruct (colocated_points_groups_spec geo (en_points e) Hc) as (rg & Hrg & Hg). rewrite Hrg. cbn [bind].
  unfold filter_colocated_points_with_same_unique_vertex.
  destruct (filter_groups_loop m (mkCID (en_type e) (en_id e)) (ii_issues rg) []) as (out & H1 & H2).
  { intros g Hin Hnil. subst g. destruct Hg as [_ P2 _ _ _]. specialize (P2 [] Hin). cbn in P2. lia. }
  rewrite H1. cbn [bind app]. eexists. exists (ii_issues rg). split; [reflexivity|]. split; [exact Hg|].
  rewrite fold_add_issues. exact H2.
Qed.

Definition entries (m : Model) : list entry :=
  map (fun c => mkEntry "Line " LineT (ec_points (co_mesh c)) (co_name c) (co_id c)) (active (m_lines m)) ++
  map (fun c => mkEntry "Surface " SurfaceT (sm_points (co_mesh c)) (co_name c) (co_id c)) (active (m_surfaces m)) ++
  map (fun c => mkEntry "Block " BlockT (so_points (co_mesh c)) (co_name c) (co_id c)) (active (m_blocks m)).

Lemma in_entries : forall m t id pts, active_mesh m t id pts <->
  exists e, In e (entries m) /\ en_type e = t /\ en_id e = id /\ en_points e = pts.
Proof.
  intros m t id pts. unfold entries. split.
  - intros H. destruct H as [c Hc Ha|c Hc Ha|c Hc Ha].
    + eexists. split; [apply in_or_app; left; apply in_map_iff; exists c; split; [reflexivity|apply in_active; auto]|]. cbn; auto.
    + eexists. split; [apply in_or_app; right; apply in_or_app; left; apply in_map_iff; exists c; split; [reflexivity|apply in_active; auto]|]. cbn; auto.
    + eexists. split; [apply in_or_app; right; apply in_or_app; right; apply in_map_iff; exists c; split; [reflexivity|apply in_active; auto]|]. cbn; auto.
  - intros (e & Hin & <- & <- & <-). rewrite !in_app_iff, !in_map_iff in Hin.
    destruct Hin as [(c & <- & Hc)|[(c & <- & Hc)|(c & <- & Hc)]]; apply in_active in Hc; cbn; constructor; tauto.
Qed.
Lemma entries_ids : forall m, unique_ids m -> NoDup (map en_id (entries m)).
Proof.
  intros m Hu. apply unique_ids_facts in Hu. unfold entries. rewrite !map_app, !map_map. cbn [en_id].
  assert (K : forall M (l : list (Component M)) x, In x (map (fun c => co_id c) (active l)) -> In x (map co_id l)).
  { intros M l x H. apply in_map_iff in H. destruct H as (c & <- & H). apply in_active in H. apply in_map. apply H. }
  apply NoDup_app_intro; [apply NoDup_map_filter, Hu| |].
  - apply NoDup_app_intro; [apply NoDup_map_filter, Hu|apply NoDup_map_filter, Hu|].
    intros x H1 H2. apply K in H1. apply K in H2. apply (if_sb m Hu x H1 H2).
  - intros x H1 H2. apply K in H1. apply in_app_or in H2. destruct H2 as [H2|H2]; apply K in H2.
    + apply (if_ls m Hu x H1 H2).
    + apply (if_lb m Hu x H1 H2).
Qed.
Lemma model_loop_eq : forall geo m acc,
  add_model_components_colocated_points_groups geo m acc =
  foldM (fun acc e => let! r := entry_issues geo m e in Ok (add_issues_to_map (en_id e) r acc)) (entries m) acc.
Proof.
  intros geo m acc. unfold add_model_components_colocated_points_groups, add_lines_surfaces_colocated_points, entries.
  rewrite !foldM_app, !foldM_map.
  rewrite (foldM_ext_in _ _ _ (fun acc c => let! r := entry_issues geo m (mkEntry "Line " LineT (ec_points (co_mesh c)) (co_name c) (co_id c)) in
     Ok (add_issues_to_map (co_id c) r acc))) by (intros s x _; apply (entry_eq geo m (mkEntry "Line " LineT _ _ _))).
  cbn [en_id]. destruct (foldM _ (active (m_lines m)) acc) as [a| |]; cbn [bind]; try reflexivity.
  rewrite foldM_app, !foldM_map. cbn [en_id].
  rewrite (foldM_ext_in _ _ _ (fun acc c => let! r := entry_issues geo m (mkEntry "Surface " SurfaceT (sm_points (co_mesh c)) (co_name c) (co_id c)) in
     Ok (add_issues_to_map (co_id c) r acc))) by (intros s x _; apply (entry_eq geo m (mkEntry "Surface " SurfaceT _ _ _))).
  destruct (foldM _ (active (m_surfaces m)) a) as [b| |]; cbn [bind]; try reflexivity.
  rewrite foldM_map. apply foldM_ext_in. intros s x _. apply (entry_eq geo m (mkEntry "Block " BlockT _ _ _)).
Qed.

Lemma component_colocation_spec : forall geo m d, unique_ids m ->
  (forall points, consistent points (g_colocated geo points)) ->
  (forall t id points, active_mesh m t id points -> below_2_32 (length points)) ->
  exists r, add_model_components_colocated_points_groups geo m (new_issues_map d) = Ok r /\
    map_reports r (component_colocation geo m).
Proof.
  intros geo m d Hu Hc Hs. rewrite model_loop_eq.
  apply (component_loop_reports (list nat) entry en_id (entry_issues geo m) (entries m) d (component_colocation geo m)).
  - apply entries_ids. exact Hu.
  - intros e He. destruct (entry_issues_spec geo m e (Hc _)) as (r & gs & H1 & H2 & H3). exists r. split; [exact H1|].
    assert (Ham : active_mesh m (en_type e) (en_id e) (en_points e)) by (apply in_entries; exists e; auto).
    split.
    + specialize (Hs _ _ _ Ham). apply group_reports_length in H3. apply colocation_groups_count in H2.
      destruct (Hc (en_points e)) as (Hl & _). unfold below_2_32 in *. lia.
    + exists (en_type e), (en_points e), gs. auto.
  - intros id l (t & pts & gs & Ham & Hg & Hr). apply in_entries in Ham. destruct Ham as (e & He & <- & <- & <-).
    exists e. split; [exact He|]. split; [reflexivity|]. intros r Hre Hnil.
    destruct (entry_issues_spec geo m e (Hc _)) as (r' & gs' & H1 & H2 & H3). rewrite Hre in H1. injection H1 as <-.
    apply (colocation_groups_same _ _ _ _ _ _ H2 Hg H3 Hr Hnil).
Qed.
