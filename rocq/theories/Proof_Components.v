From Coq Require Import String Ascii List Arith NArith ZArith Bool Lia.
From Verif Require Import Base BaseFacts Model_Issues Types Model_Colocation Model_Adjacency Model_Degeneration Model_Negative Model_Manifold
  Model_Topology Model_Results Spec_Maps Spec_Colocation Spec_Degeneration Spec_Components Proof_Issues Proof_Colocation Proof_Colocation2
  Spec_Messages Proof_Messages Proof_Fusion Proof_Colocation3 Proof_Maps Proof_Degeneration Proof_Degeneration2 Proof_Order3 Proof_Adjacency.
Import ListNotations.
Open Scope list_scope.

(** ** A loop that records one report per component *)
Lemma add_other : forall T id id' r (m : InspectionIssuesMap T), id' <> id -> assoc id (im_map (add_issues_to_map id' r m)) = assoc id (im_map m).
Proof.
  intros T id id' r m Hn. unfold add_issues_to_map. destruct (N.eqb (nb_issues r) 0); [reflexivity|]. cbn [im_map]. unfold emplace.
  destruct (assoc id' (im_map m)); [reflexivity|]. rewrite assoc_app. destruct (assoc id (im_map m)); [reflexivity|]. cbn.
  destruct (Nat.eqb_spec id' id); [contradiction|reflexivity].
Qed.
Definition recording {T C} (cid : C -> uuid) (body : C -> outcome (InspectionIssues T)) (F : InspectionIssuesMap T -> C -> outcome (InspectionIssuesMap T)) : Prop :=
  forall acc c, F acc c = (let! r := body c in Ok (add_issues_to_map (cid c) r acc)).
Lemma loop_other : forall T C cid body F comps (acc m : InspectionIssuesMap T) id, @recording T C cid body F ->
  foldM F comps acc = Ok m -> ~ In id (map cid comps) -> assoc id (im_map m) = assoc id (im_map acc).
Proof.
  intros T C cid body F comps. induction comps as [|c comps IH]; intros acc m id HF E Hn; cbn [foldM] in E; [injection E as <-; reflexivity|].
  rewrite HF in E. destruct (body c) as [r| |]; try discriminate E. cbn [bind] in E. rewrite (IH _ _ _ HF E); [|intros K; apply Hn; right; exact K].
  apply add_other. intros K. apply Hn. left. exact K.
Qed.
Lemma loop_entry : forall T C cid body F comps (acc m : InspectionIssuesMap T) c, @recording T C cid body F ->
  foldM F comps acc = Ok m -> NoDup (map cid comps) -> In c comps -> assoc (cid c) (im_map acc) = None ->
  exists r, body c = Ok r /\ (short r -> issues_for (cid c) m = ii_issues r /\ (ii_issues r <> [] -> messages_for (cid c) m = ii_messages r) /\
                                         (ii_issues r = [] -> messages_for (cid c) m = [])).
Proof.
  intros T C cid body F comps. induction comps as [|d comps IH]; intros acc m c HF E Hnd Hin Hno; [destruct Hin|]. cbn [foldM] in E. rewrite HF in E.
  destruct (body d) as [r| |] eqn:Eb; try discriminate E. cbn [bind] in E. cbn [map] in Hnd. inversion Hnd as [|? ? Hd Hnd']; subst.
  destruct Hin as [<-|Hin].
  - exists r. split; [exact Eb|]. intros Hs. pose proof (loop_other _ _ _ _ _ _ _ _ _ HF E Hd) as K. unfold issues_for, messages_for. rewrite K.
    rewrite (add_fresh T (cid d) r acc Hs Hno), assoc_app, Hno. destruct (ii_issues r) eqn:Er; cbn [assoc].
    + repeat split; congruence.
    + rewrite Nat.eqb_refl. rewrite Er. repeat split; congruence.
  - apply (IH _ _ c HF E Hnd' Hin). rewrite add_other; [exact Hno|]. intros K. apply Hd. rewrite K. apply in_map. exact Hin.
Qed.
Lemma pure_loop_eq : forall T C (cid : C -> uuid) (body : C -> InspectionIssues T) comps acc,
  foldM (fun acc c => Ok (add_issues_to_map (cid c) (body c) acc)) comps acc = Ok (fold_left (fun acc c => add_issues_to_map (cid c) (body c) acc) comps acc).
Proof. intros. apply (foldM_pure C (InspectionIssuesMap T) (fun acc c => add_issues_to_map (cid c) (body c) acc)). Qed.
Lemma recorded : forall T C (cid : C -> uuid) (body : C -> InspectionIssues T), recording cid (fun c => Ok (body c)) (fun acc c => Ok (add_issues_to_map (cid c) (body c) acc)).
Proof. intros T C cid body acc c. reflexivity. Qed.
Lemma recorded_bind : forall T C (cid : C -> uuid) (body : C -> outcome (InspectionIssues T)) d, 
  recording cid (fun c => let! r := body c in Ok (set_description (d c) r)) (fun acc c => let! r := body c in Ok (add_issues_to_map (cid c) (set_description (d c) r) acc)).
Proof. intros T C cid body d acc c. destruct (body c); reflexivity. Qed.

(** ** Messages come with issues *)
Definition paired {T} (r : InspectionIssues T) : Prop := length (ii_messages r) = length (ii_issues r).
Lemma paired_nil : forall T (r : InspectionIssues T), paired r -> ii_issues r = [] -> ii_messages r = [].
Proof. intros T r H E. unfold paired in H. rewrite E in H. destruct (ii_messages r); [reflexivity|discriminate]. Qed.
Lemma as_alone_of : forall T id (m : InspectionIssuesMap T) (r : InspectionIssues T), paired r ->
  (issues_for id m = ii_issues r /\ (ii_issues r <> [] -> messages_for id m = ii_messages r) /\ (ii_issues r = [] -> messages_for id m = [])) -> as_alone id m r.
Proof.
  intros T id m r P (H1 & H2 & H3). split; [exact H1|]. destruct (ii_issues r) eqn:E; [|apply H2; congruence].
  rewrite (paired_nil _ r P E). apply H3. reflexivity.
Qed.
Lemma paired_explained : forall T d P (r : InspectionIssues T), Spec_Messages.explained d P r -> paired r.
Proof. intros T d P r [_ H]. symmetry. exact (Forall2_len H). Qed.
(** ** Lists of elements found wrong *)
Definition find_wrong {A} (f : A -> outcome bool) (text : A -> string) (l : list A) (r0 : InspectionIssues A) : outcome (InspectionIssues A) :=
  foldM (fun r x => let! b := f x in Ok (if b then add_issue x (text x) r else r)) l r0.
Lemma find_wrong_set : forall A (f : A -> outcome bool) text l d r0,
  find_wrong f text l (set_description d r0) = (let! r := find_wrong f text l r0 in Ok (set_description d r)).
Proof.
  intros A f text l. unfold find_wrong. induction l as [|x l IH]; intros d r0; cbn [foldM]; [reflexivity|].
  destruct (f x) as [[|]| |]; cbn [bind]; [exact (IH d (add_issue x (text x) r0))|exact (IH d r0)|reflexivity|reflexivity].
Qed.
Lemma find_wrong_more : forall A (f : A -> outcome bool) text l r0 r, find_wrong f text l r0 = Ok r ->
  exists more texts, ii_issues r = ii_issues r0 ++ more /\ ii_messages r = ii_messages r0 ++ texts /\ length more <= length l /\
    (more = [] -> texts = []) /\ forall x, In x more -> In x l /\ f x = Ok true.
Proof.
  intros A f text l. unfold find_wrong. induction l as [|x l IH]; intros r0 r E; cbn [foldM] in E.
  - injection E as <-. exists [], []. rewrite !app_nil_r. repeat split; auto; contradiction.
  - destruct (f x) as [[|]| |] eqn:Ef; cbn [bind] in E; try discriminate E; apply IH in E as (more & texts & E1 & E2 & E3 & E4 & E5).
    + exists (x :: more), (text x :: texts). cbn [add_issue ii_issues ii_messages] in E1, E2. rewrite <- app_assoc in E1, E2. split; [exact E1|].
      split; [exact E2|]. split; [cbn [length]; lia|]. split; [discriminate|].
      intros y [<-|Hy]; [split; [left; reflexivity|exact Ef]|]. destruct (E5 y Hy). split; [right|]; assumption.
    + exists more, texts. split; [exact E1|]. split; [exact E2|]. split; [cbn [length]; lia|]. split; [exact E4|].
      intros y Hy. destruct (E5 y Hy). split; [right|]; assumption.
Qed.

(** ** One entry *)
Lemma entry_alone : forall T C cid body d F comps (acc m : InspectionIssuesMap T) c,
  @recording T C cid (fun c => let! r := body c in Ok (set_description (d c) r)) F ->
  foldM F comps acc = Ok m -> NoDup (map cid comps) -> In c comps -> assoc (cid c) (im_map acc) = None ->
  (forall r, body c = Ok r -> paired r) -> exists r, body c = Ok r /\ (short r -> as_alone (cid c) m r).
Proof.
  intros T C cid body d F comps acc m c HF E Hnd Hin Hno P. destruct (loop_entry _ _ _ _ _ _ _ _ _ HF E Hnd Hin Hno) as (r & Er & H).
  apply bind_Ok in Er as (r0 & E0 & Er). injection Er as <-. exists r0. split; [exact E0|]. intros Hs. apply as_alone_of; [exact (P r0 E0)|exact (H Hs)].
Qed.
Lemma as_alone_later : forall T id (m m' : InspectionIssuesMap T) r, assoc id (im_map m') = assoc id (im_map m) -> as_alone id m r -> as_alone id m' r.
Proof. intros T id m m' r E H. unfold as_alone, issues_for, messages_for in *. rewrite E. exact H. Qed.
Lemma fold_entry : forall T C (cid : C -> uuid) (body : C -> InspectionIssues T) d comps acc c, NoDup (map cid comps) -> In c comps ->
  assoc (cid c) (im_map acc) = None -> paired (body c) -> short (body c) ->
  as_alone (cid c) (fold_left (fun acc c => add_issues_to_map (cid c) (set_description (d c) (body c)) acc) comps acc) (body c).
Proof.
  intros T C cid body d comps acc c Hnd Hin Hno P Hs.
  destruct (entry_alone T C cid (fun c => Ok (body c)) d (fun acc c => Ok (add_issues_to_map (cid c) (set_description (d c) (body c)) acc)) comps acc
    (fold_left (fun acc c => add_issues_to_map (cid c) (set_description (d c) (body c)) acc) comps acc) c) as (r & Er & H); auto.
  - intros x y. reflexivity.
  - apply (pure_loop_eq T C cid (fun c => set_description (d c) (body c))).
  - intros r Er. injection Er as <-. exact P.
  - injection Er as <-. apply H, Hs.
Qed.
Lemma pairs_entry : forall T (pairs : list (uuid * InspectionIssues T)) acc id r, NoDup (map fst pairs) -> In (id, r) pairs ->
  assoc id (im_map acc) = None -> paired r -> short r -> as_alone id (fold_left add_pair pairs acc) r.
Proof.
  intros T pairs acc id r Hnd Hin Hno P Hs.
  destruct (loop_entry T _ fst (fun p => Ok (snd p)) (fun acc p => Ok (add_pair acc p)) pairs acc (fold_left add_pair pairs acc) (id, r)) as (r' & Er & H); auto.
  - intros x y. reflexivity.
  - apply foldM_pure.
  - injection Er as <-. apply as_alone_of; [exact P|exact (H Hs)].
Qed.
Lemma as_alone_set : forall T id (m : InspectionIssuesMap T) d r, as_alone id m (set_description d r) -> as_alone id m r.
Proof. intros T id m d r H. exact H. Qed.
Lemma active_nodup : forall M (l : list (Component M)), NoDup (map co_id l) -> NoDup (map co_id (active l)).
Proof. intros M l H. apply Proof_Adjacency.NoDup_active_ids. exact H. Qed.

(** ** Colocation *)
Definition colocation_body (geo : Geometry) (m : Model) (kind : string) (t : ComponentType) (points : list Point) (name : option string) (id : uuid) :
  outcome (InspectionIssues (list nat)) :=
  let! groups := colocated_points_groups geo points in
  let! pts := filter_colocated_points_with_same_unique_vertex m (mkCID t id) (ii_issues groups) in
  Ok (fold_left (fun r g => add_issue g (StrCat [kind; named m name id; " has vertices "; group_string g; " colocated at position [";
                             g_point_string geo (nth (nth 0 g 0) points []); "]"]%string) r)
      pts (new_issues (StrCat [kind; named m name id; " colocated vertices"]%string))).
Lemma colocation_recorded : forall M geo m kind t (points : M -> list Point),
  recording (fun c : Component M => co_id c) (fun c => colocation_body geo m kind t (points (co_mesh c)) (co_name c) (co_id c))
    (fun acc c => add_component_colocated_points geo m kind t (points (co_mesh c)) (co_name c) (co_id c) acc).
Proof.
  intros M geo m kind t points acc c. unfold add_component_colocated_points, colocation_body.
  destruct (colocated_points_groups geo (points (co_mesh c))) as [g| |]; cbn [bind]; [|reflexivity|reflexivity].
  destruct (filter_colocated_points_with_same_unique_vertex _ _ _) as [[|x pts]| |]; cbn [bind]; try reflexivity.
Qed.
Lemma add_all_issues : forall T (text : T -> string) l r, ii_issues (fold_left (fun r g => add_issue g (text g) r) l r) = ii_issues r ++ l.
Proof.
  intros T text l. induction l as [|x l IH]; intros r; cbn [fold_left]; [symmetry; apply app_nil_r|]. rewrite IH. cbn [add_issue ii_issues].
  rewrite <- app_assoc. reflexivity.
Qed.
Lemma filter_nonempty : forall m c groups acc out, foldM (fun acc group =>
           let! r := filter_group (fun v => m_unique_vertex m (mkCMV c v)) group in
           match r with
           | Some g => Ok (acc ++ [g])%list
           | None => Ok acc
           end) groups acc = Ok out -> forall g, In g groups -> g <> [].
Proof.
  intros m c groups. induction groups as [|x groups IH]; intros acc out E g Hg; [destruct Hg|]. cbn [foldM] in E.
  destruct x as [|v x]; [discriminate E|]. destruct Hg as [<-|Hg]; [discriminate|].
  destruct (filter_group _ (v :: x)) as [[y|]| |]; cbn [bind] in E; try discriminate E; apply (IH _ _ E g Hg).
Qed.
Lemma colocation_entry : forall geo m kind t points name id r, colocation_body geo m kind t points name id = Ok r ->
  exists alone, colocated_points_groups geo points = Ok alone /\
    group_reports (fun v => m_unique_vertex m (mkCMV (mkCID t id) v)) (ii_issues alone) (ii_issues r).
Proof.
  intros geo m kind t points name id r E. unfold colocation_body in E. apply bind_Ok in E as (alone & E1 & E). apply bind_Ok in E as (pts & E2 & E).
  injection E as <-. exists alone. split; [exact E1|]. rewrite (add_all_issues _ (fun g => StrCat [kind; named m name id; " has vertices "; group_string g; " colocated at position [";
                             g_point_string geo (nth (nth 0 g 0) points []); "]"]%string)). cbn [new_issues ii_issues app].
  unfold filter_colocated_points_with_same_unique_vertex in E2.
  destruct (filter_groups_loop m (mkCID t id) (ii_issues alone) [] (filter_nonempty _ _ _ _ _ E2)) as (out & E3 & H).
  rewrite E3 in E2. injection E2 as <-. exact H.
Qed.
Lemma not_active : forall M (l : list (Component M)) id, ~ In id (map co_id l) -> ~ In id (map co_id (active l)).
Proof. intros M l id H K. apply H. apply active_id_in. exact K. Qed.
Lemma is_active : forall M (l : list (Component M)) c, In c l -> co_active c = true -> In c (active l).
Proof. intros M l c H1 H2. apply in_active. auto. Qed.

Lemma short_reports : forall uv gs (alone r : InspectionIssues (list nat)), gs = ii_issues alone -> group_reports uv gs (ii_issues r) -> short alone -> short r.
Proof. intros uv gs alone r -> H S. apply group_reports_length in H. unfold short, below_2_32 in *. lia. Qed.
Lemma colocation_step : forall M geo m kind t (points : M -> list Point) (l : list (Component M)) acc r c,
  foldM (fun acc c => add_component_colocated_points geo m kind t (points (co_mesh c)) (co_name c) (co_id c) acc) (active l) acc = Ok r ->
  NoDup (map co_id l) -> In c l -> co_active c = true -> assoc (co_id c) (im_map acc) = None ->
  exists alone, colocated_points_groups geo (points (co_mesh c)) = Ok alone /\ (short alone -> colocation_as_alone m (mkCID t (co_id c)) r alone).
Proof.
  intros M geo m kind t points l acc r c E Hn Hc Ha Hno.
  destruct (loop_entry _ _ _ _ _ _ _ _ c (colocation_recorded M geo m kind t points) E (active_nodup _ _ Hn) (is_active _ _ _ Hc Ha) Hno) as (x & Ex & H).
  apply colocation_entry in Ex as (alone & E1 & G). exists alone. split; [exact E1|]. intros S. unfold colocation_as_alone. cbn [cid_id].
  rewrite (proj1 (H (short_reports _ _ _ _ eq_refl G S))). exact G.
Qed.
Lemma colocation_later : forall m c (r r' : InspectionIssuesMap (list nat)) alone, assoc (cid_id c) (im_map r') = assoc (cid_id c) (im_map r) ->
  colocation_as_alone m c r alone -> colocation_as_alone m c r' alone.
Proof. intros m c r r' alone E H. unfold colocation_as_alone, issues_for in *. rewrite E. exact H. Qed.

Section Model.
Variable (m : Model).
Hypothesis (Hu : unique_ids m).
Let Hf := unique_ids_facts m Hu.
Lemma line_not_surface : forall c, In c (m_lines m) -> ~ In (co_id c) (map co_id (active (m_surfaces m))).
Proof. intros c H. apply not_active. intros K. apply (if_ls m Hf (co_id c)); [apply in_map, H|exact K]. Qed.
Lemma line_not_block : forall c, In c (m_lines m) -> ~ In (co_id c) (map co_id (active (m_blocks m))).
Proof. intros c H. apply not_active. intros K. apply (if_lb m Hf (co_id c)); [apply in_map, H|exact K]. Qed.
Lemma surface_not_line : forall c, In c (m_surfaces m) -> ~ In (co_id c) (map co_id (active (m_lines m))).
Proof. intros c H. apply not_active. intros K. apply (if_ls m Hf (co_id c)); [exact K|apply in_map, H]. Qed.
Lemma surface_not_block : forall c, In c (m_surfaces m) -> ~ In (co_id c) (map co_id (active (m_blocks m))).
Proof. intros c H. apply not_active. intros K. apply (if_sb m Hf (co_id c)); [apply in_map, H|exact K]. Qed.
Lemma block_not_line : forall c, In c (m_blocks m) -> ~ In (co_id c) (map co_id (active (m_lines m))).
Proof. intros c H. apply not_active. intros K. apply (if_lb m Hf (co_id c)); [exact K|apply in_map, H]. Qed.
Lemma block_not_surface : forall c, In c (m_blocks m) -> ~ In (co_id c) (map co_id (active (m_surfaces m))).
Proof. intros c H. apply not_active. intros K. apply (if_sb m Hf (co_id c)); [exact K|apply in_map, H]. Qed.

(** *** colocation *)
Lemma line_colocation : forall geo r c, inspect_meshes_point_colocations geo m = Ok r -> In c (m_lines m) -> co_active c = true ->
  exists alone, colocated_points_groups geo (ec_points (co_mesh c)) = Ok alone /\ (short alone -> colocation_as_alone m (mkCID LineT (co_id c)) r alone).
Proof.
  intros geo r c E Hc Ha. unfold inspect_meshes_point_colocations, add_model_components_colocated_points_groups, add_lines_surfaces_colocated_points in E.
  apply bind_Ok in E as (r2 & E & E3). apply bind_Ok in E as (r1 & E1 & E2).
  destruct (colocation_step _ geo m "Line " LineT ec_points _ _ _ c E1) as (alone & A & H); auto; [apply Hf|].
  exists alone. split; [exact A|]. intros S. apply (colocation_later m _ r1); [|exact (H S)]. cbn [cid_id].
  rewrite (loop_other _ _ _ _ _ _ _ _ _ (colocation_recorded _ geo m "Block " BlockT so_points) E3 (line_not_block c Hc)).
  exact (loop_other _ _ _ _ _ _ _ _ _ (colocation_recorded _ geo m "Surface " SurfaceT sm_points) E2 (line_not_surface c Hc)).
Qed.
Lemma surface_colocation : forall geo r c, inspect_meshes_point_colocations geo m = Ok r -> In c (m_surfaces m) -> co_active c = true ->
  exists alone, colocated_points_groups geo (sm_points (co_mesh c)) = Ok alone /\ (short alone -> colocation_as_alone m (mkCID SurfaceT (co_id c)) r alone).
Proof.
  intros geo r c E Hc Ha. unfold inspect_meshes_point_colocations, add_model_components_colocated_points_groups, add_lines_surfaces_colocated_points in E.
  apply bind_Ok in E as (r2 & E & E3). apply bind_Ok in E as (r1 & E1 & E2).
  destruct (colocation_step _ geo m "Surface " SurfaceT sm_points _ _ _ c E2) as (alone & A & H); auto; [apply Hf| |].
  - exact (loop_other _ _ _ _ _ _ _ _ _ (colocation_recorded _ geo m "Line " LineT ec_points) E1 (surface_not_line c Hc)).
  - exists alone. split; [exact A|]. intros S. apply (colocation_later m _ r2); [|exact (H S)]. cbn [cid_id].
    exact (loop_other _ _ _ _ _ _ _ _ _ (colocation_recorded _ geo m "Block " BlockT so_points) E3 (surface_not_block c Hc)).
Qed.
Lemma block_colocation : forall geo r c, inspect_meshes_point_colocations geo m = Ok r -> In c (m_blocks m) -> co_active c = true ->
  exists alone, colocated_points_groups geo (so_points (co_mesh c)) = Ok alone /\ (short alone -> colocation_as_alone m (mkCID BlockT (co_id c)) r alone).
Proof.
  intros geo r c E Hc Ha. unfold inspect_meshes_point_colocations, add_model_components_colocated_points_groups, add_lines_surfaces_colocated_points in E.
  apply bind_Ok in E as (r2 & E & E3). apply bind_Ok in E as (r1 & E1 & E2).
  apply (colocation_step _ geo m "Block " BlockT so_points _ _ _ c E3); auto; [apply Hf|].
  rewrite (loop_other _ _ _ _ _ _ _ _ _ (colocation_recorded _ geo m "Surface " SurfaceT sm_points) E2 (block_not_surface c Hc)).
  exact (loop_other _ _ _ _ _ _ _ _ _ (colocation_recorded _ geo m "Line " LineT ec_points) E1 (block_not_line c Hc)).
Qed.

(** *** adjacency *)
Lemma surface_adjacency_entry : forall lk acc r c name, add_surfaces_edges_with_wrong_adjacencies lk m acc = Ok r -> In c (m_surfaces m) -> co_active c = true ->
  assoc (co_id c) (im_map acc) = None ->
  exists alone, polygon_edges_with_wrong_adjacency name (co_mesh c) = Ok alone /\
    (below_2_32 (length (ii_issues alone) + length (all_polygon_edges (co_mesh c))) ->
     as_alone_then (edge_without_neighbour (co_mesh c)) (co_id c) r alone).
Proof.
  intros lk acc r c name E Hc Ha Hno. unfold add_surfaces_edges_with_wrong_adjacencies in E.
  destruct (loop_entry _ _ co_id (surface_adjacency_issues lk m) _ _ _ _ c (fun _ _ => eq_refl) E (active_nodup _ _ (if_s m Hf)) (is_active _ _ _ Hc Ha) Hno) as (x & Ex & H).
  unfold surface_adjacency_issues in Ex. apply bind_Ok in Ex as (a & Ea & Ex). cbv zeta in Ex.
  exists (set_description (StrCat ["Surface "; name; " polygon edges adjacencies issues"]%string) a). split.
  { unfold polygon_edges_with_wrong_adjacency in *.
    pose proof (find_wrong_set _ (edge_has_wrong_adjacency (co_mesh c)) (fun e => StrCat ["edge "; str (snd e); " of polygon "; str (fst e); " has wrong adjacencies"]%string)
      (all_polygon_edges (co_mesh c)) (StrCat ["Surface "; name; " polygon edges adjacencies issues"]%string)
      (new_issues (StrCat ["Surface "; ""; " polygon edges adjacencies issues"]%string))) as K. unfold find_wrong in K. rewrite Ea in K. exact K. }
  cbn [set_description ii_issues]. intros S.
  destruct (find_wrong_more _ (border_edge_is_wrong lk m c) border_edge_message _ _ _ Ex) as (more & texts & E1 & E2 & E3 & E4 & E5).
  cbn [set_description ii_issues ii_messages] in E1, E2.
  destruct H as (H1 & H2 & H3). { unfold short. rewrite E1, app_length. unfold below_2_32 in *. lia. }
  exists more, texts. cbn [set_description ii_issues ii_messages]. split; [rewrite H1; exact E1|]. split.
  - destruct (ii_issues x) eqn:Ei; [|rewrite H2; [exact E2|congruence]]. rewrite H3; [|reflexivity].
    symmetry in E1. apply app_eq_nil in E1 as [K1 K2]. rewrite (E4 K2), app_nil_r.
    apply adjacency_explained in Ea. symmetry. apply (paired_nil _ a (paired_explained _ _ _ _ Ea) K1).
  - intros e He. destruct (E5 e He) as [I W]. split; [exact I|]. unfold border_edge_is_wrong, is_edge_on_border in W.
    destruct (sm_adjacent (co_mesh c) e); [discriminate W|reflexivity].
Qed.
Lemma block_adjacency_entry : forall lk acc r c name, add_blocks_facets_with_wrong_adjacencies lk m acc = Ok r -> In c (m_blocks m) -> co_active c = true ->
  assoc (co_id c) (im_map acc) = None ->
  exists alone, polyhedron_facets_with_wrong_adjacency name (co_mesh c) = Ok alone /\
    (below_2_32 (length (ii_issues alone) + length (all_polyhedron_facets (co_mesh c))) ->
     as_alone_then (facet_without_neighbour (co_mesh c)) (co_id c) r alone).
Proof.
  intros lk acc r c name E Hc Ha Hno. unfold add_blocks_facets_with_wrong_adjacencies in E.
  destruct (loop_entry _ _ co_id (block_adjacency_issues lk m) _ _ _ _ c (fun _ _ => eq_refl) E (active_nodup _ _ (if_b m Hf)) (is_active _ _ _ Hc Ha) Hno) as (x & Ex & H).
  unfold block_adjacency_issues in Ex. apply bind_Ok in Ex as (a & Ea & Ex). cbv zeta in Ex.
  exists (set_description (StrCat ["Solid "; name; " polyhedron facets adjacencies issues"]%string) a). split.
  { unfold polyhedron_facets_with_wrong_adjacency in *.
    pose proof (find_wrong_set _ (facet_has_wrong_adjacency (co_mesh c)) (fun f => StrCat ["facet "; str (snd f); " of polyhedron "; str (fst f); " has wrong adjacencies"]%string)
      (all_polyhedron_facets (co_mesh c)) (StrCat ["Solid "; name; " polyhedron facets adjacencies issues"]%string)
      (new_issues (StrCat ["Solid "; ""; " polyhedron facets adjacencies issues"]%string))) as K. unfold find_wrong in K. rewrite Ea in K. exact K. }
  cbn [set_description ii_issues]. intros S.
  destruct (find_wrong_more _ (border_facet_is_wrong lk m c) border_facet_message _ _ _ Ex) as (more & texts & E1 & E2 & E3 & E4 & E5).
  cbn [set_description ii_issues ii_messages] in E1, E2.
  destruct H as (H1 & H2 & H3). { unfold short. rewrite E1, app_length. unfold below_2_32 in *. lia. }
  exists more, texts. cbn [set_description ii_issues ii_messages]. split; [rewrite H1; exact E1|]. split.
  - destruct (ii_issues x) eqn:Ei; [|rewrite H2; [exact E2|congruence]]. rewrite H3; [|reflexivity].
    symmetry in E1. apply app_eq_nil in E1 as [K1 K2]. rewrite (E4 K2), app_nil_r.
    apply facet_adjacency_explained in Ea. symmetry. apply (paired_nil _ a (paired_explained _ _ _ _ Ea) K1).
  - intros e He. destruct (E5 e He) as [I W]. split; [exact I|]. unfold border_facet_is_wrong, is_facet_on_border in W.
    destruct (so_adjacent (co_mesh c) e); [discriminate W|reflexivity].
Qed.
(** *** degeneration *)
Lemma alone_edges : forall ms geo points edges e, exists r, fst (impl_degenerated_edges ms geo points edges (new_inspector e)) = Ok r /\ paired r /\
  forall t', t' = GLOBAL_EPSILON -> fst (impl_small_edges ms geo points edges t' (new_inspector true)) = Ok r.
Proof.
  intros ms geo points edges e. unfold impl_degenerated_edges, impl_small_edges. rewrite !mesh_edges_enabled. cbn [bind fst].
  eexists. split; [reflexivity|]. split; [|intros t' ->; reflexivity].
  eapply paired_explained. apply (mesh_edges_explained ms geo points edges GLOBAL_EPSILON (new_inspector true)).
  unfold impl_small_edges. rewrite mesh_edges_enabled. reflexivity.
Qed.
Lemma surface_edges_alone : forall ms geo c e, exists r, fst (surface_degenerated_edges ms geo (co_mesh c) (new_inspector e)) = Ok r /\ paired r /\
  surface_pure ms geo m GLOBAL_EPSILON c = set_description (StrCat ["Surface "; named m (co_name c) (co_id c); " small facet edges"]%string) r.
Proof.
  intros ms geo c e. destruct (alone_edges ms geo (sm_points (co_mesh c)) (sm_edges (co_mesh c)) e) as (r & E & P & K). exists r. split; [exact E|]. split; [exact P|].
  specialize (K _ eq_refl). unfold surface_pure, surface_issues, surface_task, surface_small_edges.
  destruct (impl_small_edges ms geo (sm_points (co_mesh c)) (sm_edges (co_mesh c)) GLOBAL_EPSILON (new_inspector true)) as [o st]. cbn [fst] in K |- *. rewrite K. reflexivity.
Qed.
Lemma block_edges_alone : forall ms geo c e, exists r, fst (solid_degenerated_edges ms geo (co_mesh c) (new_inspector e)) = Ok r /\ paired r /\
  block_issues ms geo m GLOBAL_EPSILON c = set_description (StrCat ["Block "; named m (co_name c) (co_id c); " small edges polyhedra"]%string) r.
Proof.
  intros ms geo c e. destruct (alone_edges ms geo (so_points (co_mesh c)) (so_edges (co_mesh c)) e) as (r & E & P & K). exists r. split; [exact E|]. split; [exact P|].
  specialize (K _ eq_refl). unfold block_issues, solid_small_edges.
  destruct (impl_small_edges ms geo (so_points (co_mesh c)) (so_edges (co_mesh c)) GLOBAL_EPSILON (new_inspector true)) as [o st]. cbn [fst] in K |- *. rewrite K. reflexivity.
Qed.
(** the pairs of a section are those of a model whose blocks are left out *)
Definition pairs_of (with_blocks : bool) ms geo := if with_blocks then all_edge_pairs ms geo m GLOBAL_EPSILON else edge_pairs ms geo m GLOBAL_EPSILON.
Lemma pairs_nodup : forall b ms geo, NoDup (map fst (pairs_of b ms geo)).
Proof.
  intros b ms geo. pose proof (all_edge_pairs_NoDup ms geo m GLOBAL_EPSILON Hu) as K. destruct b; [exact K|]. unfold pairs_of, all_edge_pairs in *.
  rewrite map_app in K. apply NoDup_app_inv in K. apply K.
Qed.
Lemma line_pair : forall b ms geo c, In c (m_lines m) -> co_active c = true -> In (co_id c, line_small_edges ms geo m GLOBAL_EPSILON c) (pairs_of b ms geo).
Proof.
  intros b ms geo c Hc Ha. assert (K : In (co_id c, line_small_edges ms geo m GLOBAL_EPSILON c) (edge_pairs ms geo m GLOBAL_EPSILON)).
  { apply in_or_app. left. apply in_active_pairs. exists c. auto. }
  destruct b; [apply in_or_app; left|]; exact K.
Qed.
Lemma surface_pair : forall b ms geo c, In c (m_surfaces m) -> co_active c = true -> In (co_id c, surface_pure ms geo m GLOBAL_EPSILON c) (pairs_of b ms geo).
Proof.
  intros b ms geo c Hc Ha. assert (K : In (co_id c, surface_pure ms geo m GLOBAL_EPSILON c) (edge_pairs ms geo m GLOBAL_EPSILON)).
  { apply in_or_app. right. apply in_active_pairs. exists c. auto. }
  destruct b; [apply in_or_app; left|]; exact K.
Qed.
Lemma line_edges_entry : forall b ms geo d c, In c (m_lines m) -> co_active c = true -> short (curve_degenerated_edges ms geo (co_mesh c)) ->
  as_alone (co_id c) (fold_left add_pair (pairs_of b ms geo) (new_issues_map d)) (curve_degenerated_edges ms geo (co_mesh c)).
Proof.
  intros b ms geo d c Hc Ha S. eapply as_alone_set. apply pairs_entry; [apply pairs_nodup|apply (line_pair b ms geo c Hc Ha)|reflexivity| |exact S].
  apply (paired_explained _ _ _ _ (curve_edges_explained ms geo (co_mesh c) GLOBAL_EPSILON)).
Qed.
Lemma surface_edges_entry : forall b ms geo d c e, In c (m_surfaces m) -> co_active c = true ->
  exists r, fst (surface_degenerated_edges ms geo (co_mesh c) (new_inspector e)) = Ok r /\
    (short r -> as_alone (co_id c) (fold_left add_pair (pairs_of b ms geo) (new_issues_map d)) r).
Proof.
  intros b ms geo d c e Hc Ha. destruct (surface_edges_alone ms geo c e) as (r & E & P & K). exists r. split; [exact E|]. intros S.
  eapply as_alone_set. rewrite <- K. apply pairs_entry; [apply pairs_nodup|apply (surface_pair b ms geo c Hc Ha)|reflexivity| |]; rewrite K; [exact P|exact S].
Qed.
Lemma block_edges_entry : forall ms geo d c e, In c (m_blocks m) -> co_active c = true ->
  exists r, fst (solid_degenerated_edges ms geo (co_mesh c) (new_inspector e)) = Ok r /\
    (short r -> as_alone (co_id c) (fold_left add_pair (pairs_of true ms geo) (new_issues_map d)) r).
Proof.
  intros ms geo d c e Hc Ha. destruct (block_edges_alone ms geo c e) as (r & E & P & K). exists r. split; [exact E|]. intros S.
  eapply as_alone_set. rewrite <- K. apply pairs_entry; [apply pairs_nodup| |reflexivity| |]; [|rewrite K; exact P|rewrite K; exact S].
  apply in_or_app. right. apply in_active_pairs. exists c. auto.
Qed.
Lemma polygons_entry : forall d c, In c (m_surfaces m) -> co_active c = true -> short (degenerated_polygons (co_mesh c)) ->
  as_alone (co_id c) (add_small_height_polygons m GLOBAL_EPSILON (new_issues_map d)) (degenerated_polygons (co_mesh c)).
Proof.
  intros d c Hc Ha S. unfold add_small_height_polygons.
  apply (fold_entry nat _ co_id (fun c => degenerated_polygons (co_mesh c)) (fun s => StrCat ["Surface "; named m (co_name s) (co_id s); " small height polygons"]%string));
    [apply active_nodup, Hf|apply is_active; auto|reflexivity|apply (paired_explained _ _ _ _ (polygons_explained _ _))|exact S].
Qed.
Lemma polyhedra_entry : forall d c, In c (m_blocks m) -> co_active c = true -> short (degenerated_polyhedra (co_mesh c)) ->
  as_alone (co_id c) (fold_left add_pair (block_height_pairs m GLOBAL_EPSILON) (new_issues_map d)) (degenerated_polyhedra (co_mesh c)).
Proof.
  intros d c Hc Ha S. unfold block_height_pairs. rewrite <- fold_add_pairs.
  apply (fold_entry nat _ co_id (fun c => degenerated_polyhedra (co_mesh c)) (fun s => StrCat ["Block "; named m (co_name s) (co_id s); " small height polyhedra"]%string));
    [apply active_nodup, Hf|apply is_active; auto|reflexivity|apply (paired_explained _ _ _ _ (polyhedra_explained _ _))|exact S].
Qed.
Lemma brep_degeneration : forall ms geo st s0 b0 r, edges_inv s0 b0 st -> fst (inspect_elements_degeneration ms geo m st) = Ok r ->
  dr_edges r = fold_left add_pair (pairs_of true ms geo) (new_issues_map "degenerated edges"%string) /\
  dr_polygons r = add_small_height_polygons m GLOBAL_EPSILON (new_issues_map "degenerated polygons"%string) /\
  dr_polyhedra r = fold_left add_pair (block_height_pairs m GLOBAL_EPSILON) (new_issues_map "degenerated polyhedra"%string).
Proof.
  intros ms geo st s0 b0 r I E. unfold inspect_elements_degeneration in E. cbv zeta in E.
  destruct (add_small_edges_pairs ms geo m GLOBAL_EPSILON (dr_edges empty_degeneration) st s0 b0 I) as (st1 & E1 & I1). rewrite E1 in E.
  destruct (add_solid_pairs ms geo m GLOBAL_EPSILON (fold_left add_pair (edge_pairs ms geo m GLOBAL_EPSILON) (dr_edges empty_degeneration), dr_polyhedra empty_degeneration) st1 s0 b0 I1)
    as (st2 & E2 & _). rewrite E2 in E. cbn [bind fst snd] in E. injection E as <-. cbn [dr_edges dr_polygons dr_polyhedra]. split; [|split; reflexivity].
  unfold pairs_of, all_edge_pairs. rewrite fold_left_app. reflexivity.
Qed.
Lemma section_degeneration : forall ms geo st s0 b0 r, edges_inv s0 b0 st -> fst (section_inspect_elements_degeneration ms geo m st) = Ok r ->
  sd_edges r = fold_left add_pair (pairs_of false ms geo) (new_issues_map "degenerated edges"%string) /\
  sd_polygons r = add_small_height_polygons m GLOBAL_EPSILON (new_issues_map "degenerated polygons"%string).
Proof.
  intros ms geo st s0 b0 r I E. unfold section_inspect_elements_degeneration in E.
  destruct (add_small_edges_pairs ms geo m GLOBAL_EPSILON (new_issues_map "degenerated edges"%string) st s0 b0 I) as (st1 & E1 & I1). rewrite E1 in E.
  cbn [bind fst] in E. injection E as <-. split; reflexivity.
Qed.

(** *** manifold *)
Lemma surface_vertices_entry : forall geo acc r c, add_surfaces_meshes_non_manifold_vertices geo m acc = Ok r -> In c (m_surfaces m) -> co_active c = true ->
  assoc (co_id c) (im_map acc) = None ->
  exists alone, surface_non_manifold_vertices geo (co_mesh c) = Ok alone /\ (short alone -> as_alone (co_id c) r alone).
Proof.
  intros geo acc r c E Hc Ha Hno. unfold add_surfaces_meshes_non_manifold_vertices in E.
  eapply (entry_alone _ _ co_id (fun s => surface_non_manifold_vertices geo (co_mesh s)) _ _ _ _ _ c (recorded_bind _ _ co_id _ _) E);
    [apply active_nodup, Hf|apply is_active; auto|exact Hno|]. intros x Ex. apply (paired_explained _ _ _ _ (surface_vertices_explained _ _ _ Ex)).
Qed.
Lemma block_vertices_recorded : forall geo, recording co_id (fun b => let! r := solid_non_manifold_vertices geo (co_mesh b) in
    Ok (set_description (StrCat ["Block "; named m (co_name b) (co_id b); " non manifold vertices"]%string) r))
  (fun acc b => let! r := solid_non_manifold_vertices geo (co_mesh b) in
           Ok (add_issues_to_map (co_id b) (set_description (StrCat ["Block "; named m (co_name b) (co_id b); " non manifold vertices"]%string) r) acc)).
Proof. intros geo. apply (recorded_bind _ _ co_id (fun b => solid_non_manifold_vertices geo (co_mesh b))). Qed.
Lemma surface_vertices_recorded : forall geo, recording co_id (fun b => let! r := surface_non_manifold_vertices geo (co_mesh b) in
    Ok (set_description (StrCat ["Surface "; named m (co_name b) (co_id b); " non manifold vertices"]%string) r))
  (fun acc b => let! r := surface_non_manifold_vertices geo (co_mesh b) in
           Ok (add_issues_to_map (co_id b) (set_description (StrCat ["Surface "; named m (co_name b) (co_id b); " non manifold vertices"]%string) r) acc)).
Proof. intros geo. apply (recorded_bind _ _ co_id (fun b => surface_non_manifold_vertices geo (co_mesh b))). Qed.
Lemma brep_surface_vertices : forall geo d r c, add_component_meshes_non_manifold_vertices geo m (new_issues_map d) = Ok r -> In c (m_surfaces m) -> co_active c = true ->
  exists alone, surface_non_manifold_vertices geo (co_mesh c) = Ok alone /\ (short alone -> as_alone (co_id c) r alone).
Proof.
  intros geo d r c E Hc Ha. unfold add_component_meshes_non_manifold_vertices in E. apply bind_Ok in E as (r1 & E1 & E2).
  destruct (surface_vertices_entry _ _ _ c E1 Hc Ha eq_refl) as (x & Ex & H). exists x. split; [exact Ex|]. intros S.
  apply (as_alone_later _ _ r1); [|exact (H S)]. exact (loop_other _ _ _ _ _ _ _ _ _ (block_vertices_recorded geo) E2 (surface_not_block c Hc)).
Qed.
Lemma brep_block_vertices : forall geo d r c, add_component_meshes_non_manifold_vertices geo m (new_issues_map d) = Ok r -> In c (m_blocks m) -> co_active c = true ->
  exists alone, solid_non_manifold_vertices geo (co_mesh c) = Ok alone /\ (short alone -> as_alone (co_id c) r alone).
Proof.
  intros geo d r c E Hc Ha. unfold add_component_meshes_non_manifold_vertices in E. apply bind_Ok in E as (r1 & E1 & E2).
  apply (entry_alone _ _ co_id (fun s => solid_non_manifold_vertices geo (co_mesh s)) _ _ _ _ _ c (block_vertices_recorded geo) E2);
    [apply active_nodup, Hf|apply is_active; auto| |].
  - exact (loop_other _ _ _ _ _ _ _ _ _ (surface_vertices_recorded geo) E1 (block_not_surface c Hc)).
  - intros x Ex. apply (paired_explained _ _ _ _ (solid_vertices_explained _ _ _ Ex)).
Qed.
Lemma surface_edges_recorded : forall ho, recording co_id (fun b => let! r := Ok (surface_non_manifold_edges ho (co_mesh b)) in
    Ok (set_description (StrCat ["Surface "; named m (co_name b) (co_id b); " non manifold edges"]%string) r))
  (fun acc s => let r := surface_non_manifold_edges ho (co_mesh s) in
           Ok (add_issues_to_map (co_id s) (set_description (StrCat ["Surface "; named m (co_name s) (co_id s); " non manifold edges"]%string) r) acc)).
Proof. intros ho acc c. reflexivity. Qed.
Lemma block_edges_recorded : recording co_id (fun b => let! r := solid_non_manifold_edges (co_mesh b) in
    Ok (set_description (StrCat ["Block "; named m (co_name b) (co_id b); " non manifold edges"]%string) r))
  (fun acc b => let! r := solid_non_manifold_edges (co_mesh b) in
           Ok (add_issues_to_map (co_id b) (set_description (StrCat ["Block "; named m (co_name b) (co_id b); " non manifold edges"]%string) r) acc)).
Proof. apply (recorded_bind _ _ co_id (fun b => solid_non_manifold_edges (co_mesh b))). Qed.
Lemma surface_manifold_edges_entry : forall ho acc r c, add_surfaces_meshes_non_manifold_edges ho m acc = Ok r -> In c (m_surfaces m) -> co_active c = true ->
  assoc (co_id c) (im_map acc) = None -> short (surface_non_manifold_edges ho (co_mesh c)) -> as_alone (co_id c) r (surface_non_manifold_edges ho (co_mesh c)).
Proof.
  intros ho acc r c E Hc Ha Hno S. unfold add_surfaces_meshes_non_manifold_edges in E.
  destruct (entry_alone _ _ co_id (fun s => Ok (surface_non_manifold_edges ho (co_mesh s))) _ _ _ _ _ c (surface_edges_recorded ho) E) as (x & Ex & H);
    [apply active_nodup, Hf|apply is_active; auto|exact Hno| |].
  - intros x Ex. injection Ex as <-. apply (paired_explained _ _ _ _ (surface_edges_explained _ _)).
  - injection Ex as <-. exact (H S).
Qed.
Lemma brep_surface_manifold_edges : forall ho d r c, add_component_meshes_non_manifold_edges ho m (new_issues_map d) = Ok r -> In c (m_surfaces m) -> co_active c = true ->
  short (surface_non_manifold_edges ho (co_mesh c)) -> as_alone (co_id c) r (surface_non_manifold_edges ho (co_mesh c)).
Proof.
  intros ho d r c E Hc Ha S. unfold add_component_meshes_non_manifold_edges in E. apply bind_Ok in E as (r1 & E1 & E2).
  apply (as_alone_later _ _ r1); [|exact (surface_manifold_edges_entry _ _ _ c E1 Hc Ha eq_refl S)].
  exact (loop_other _ _ _ _ _ _ _ _ _ block_edges_recorded E2 (surface_not_block c Hc)).
Qed.
Lemma brep_block_manifold_edges : forall ho d r c, add_component_meshes_non_manifold_edges ho m (new_issues_map d) = Ok r -> In c (m_blocks m) -> co_active c = true ->
  exists alone, solid_non_manifold_edges (co_mesh c) = Ok alone /\ (short alone -> as_alone (co_id c) r alone).
Proof.
  intros ho d r c E Hc Ha. unfold add_component_meshes_non_manifold_edges in E. apply bind_Ok in E as (r1 & E1 & E2).
  apply (entry_alone _ _ co_id (fun s => solid_non_manifold_edges (co_mesh s)) _ _ _ _ _ c block_edges_recorded E2);
    [apply active_nodup, Hf|apply is_active; auto| |].
  - exact (loop_other _ _ _ _ _ _ _ _ _ (surface_edges_recorded ho) E1 (block_not_surface c Hc)).
  - intros x Ex. apply (paired_explained _ _ _ _ (solid_edges_explained _ _ Ex)).
Qed.
Lemma brep_block_facets : forall ho d r c, add_component_meshes_non_manifold_facets ho m (new_issues_map d) = Ok r -> In c (m_blocks m) -> co_active c = true ->
  short (solid_non_manifold_facets ho (co_mesh c)) -> as_alone (co_id c) r (solid_non_manifold_facets ho (co_mesh c)).
Proof.
  intros ho d r c E Hc Ha S. unfold add_component_meshes_non_manifold_facets in E.
  destruct (entry_alone _ _ co_id (fun s => Ok (solid_non_manifold_facets ho (co_mesh s))) (fun b => StrCat ["Block "; named m (co_name b) (co_id b); " non manifold facets"]%string) _ _ _ _ c (fun _ _ => eq_refl) E) as (x & Ex & H);
    [apply active_nodup, Hf|apply is_active; auto|reflexivity| |].
  - intros x Ex. injection Ex as <-. apply (paired_explained _ _ _ _ (facets_explained _ _)).
  - injection Ex as <-. exact (H S).
Qed.

(** *** negative elements *)
Lemma section_negative_entry : forall ms c, In c (m_surfaces m) -> co_active c = true -> short (negative_polygons ms (co_mesh c)) ->
  as_alone (co_id c) (section_negative_elements ms m) (negative_polygons ms (co_mesh c)).
Proof.
  intros ms c Hc Ha S. unfold section_negative_elements.
  apply (fold_entry nat _ co_id (fun c => negative_polygons ms (co_mesh c)) (fun s => StrCat ["Surface "; named m (co_name s) (co_id s); " negative polygons"]%string));
    [apply active_nodup, Hf|apply is_active; auto|reflexivity|apply (paired_explained _ _ _ _ (negative_polygons_explained _ _))|exact S].
Qed.
Lemma brep_negative_entry : forall ms c, In c (m_blocks m) -> co_active c = true -> short (negative_polyhedra ms (co_mesh c)) ->
  as_alone (co_id c) (brep_negative_elements ms m) (negative_polyhedra ms (co_mesh c)).
Proof.
  intros ms c Hc Ha S. unfold brep_negative_elements.
  apply (fold_entry nat _ co_id (fun c => negative_polyhedra ms (co_mesh c)) (fun s => StrCat ["Block "; named m (co_name s) (co_id s); " negative polyhedra"]%string));
    [apply active_nodup, Hf|apply is_active; auto|reflexivity|apply (paired_explained _ _ _ _ (negative_polyhedra_explained _ _))|exact S].
Qed.
End Model.
