(** Loops over components stored in another order: the meshes of the model. *)
From Coq Require Import String Ascii List Arith NArith ZArith Bool Lia Permutation.
From Verif Require Import Base BaseFacts Model_Issues Types Model_Hash Model_Adjacency Model_Colocation Model_Degeneration Model_Negative Model_Manifold
  Model_Intersections Model_Topology Model_BRep Model_Blocks Model_Results Spec_Colocation Proof_Colocation2 Proof_Maps Proof_Degeneration Proof_Degeneration2 Spec_Reproducible
  Proof_Reproducible Spec_Order Proof_Order.
Import ListNotations.
Open Scope list_scope.

(** ** Loops whose steps commute *)
Section Loop.
Context {A B S : Type} (key : A -> uuid) (P : S -> Prop) (E : S -> S -> Prop) (g : A -> outcome B) (h : A -> B -> S -> S).
Context (E_refl : forall s, P s -> E s s) (E_trans : forall s t u, E s t -> E t u -> E s u).
Context (h_P : forall a x s, P s -> P (h a x s)) (h_E : forall a x s s', P s -> P s' -> E s s' -> E (h a x s) (h a x s')).
Context (h_C : forall a b x y s, key a <> key b -> P s -> E (h b y (h a x s)) (h a x (h b y s))).
Let step s a := let! x := g a in Ok (h a x s).
Lemma step_ok : forall l s a r, foldM step (a :: l) s = Ok r -> exists x, g a = Ok x /\ foldM step l (h a x s) = Ok r.
Proof. intros l s a r E1. cbn [foldM] in E1. unfold step at 1 in E1. destruct (g a) as [x| |]; cbn [bind] in E1; try discriminate E1. eauto. Qed.
Lemma step_on : forall l s a x, g a = Ok x -> foldM step (a :: l) s = foldM step l (h a x s).
Proof. intros l s a x E1. cbn [foldM]. unfold step at 1. rewrite E1. reflexivity. Qed.
Lemma loop_related : forall l s s' r, P s -> P s' -> E s s' -> foldM step l s = Ok r -> exists r', foldM step l s' = Ok r' /\ E r r' /\ P r /\ P r'.
Proof.
  induction l as [|a l IH]; intros s s' r Ps Ps' R Er.
  - cbn in Er. injection Er as <-. exists s'. split; [reflexivity|]. auto.
  - apply step_ok in Er as (x & Ex & Er). rewrite (step_on _ _ _ _ Ex). exact (IH (h a x s) (h a x s') r (h_P _ _ _ Ps) (h_P _ _ _ Ps') (h_E _ _ _ _ Ps Ps' R) Er).
Qed.
Lemma loop_reordered : forall l l', Permutation l l' -> NoDup (map key l) -> forall s s' r, P s -> P s' -> E s s' -> foldM step l s = Ok r ->
  exists r', foldM step l' s' = Ok r' /\ E r r' /\ P r /\ P r'.
Proof.
  intros l l' Pm. induction Pm as [|a l l' Pm IH|a b l|l l' l'' Pm IH Pm' IH']; intros N s s' r Ps Ps' R Er.
  - exact (loop_related [] s s' r Ps Ps' R Er).
  - cbn [map] in N. inversion N as [|k ks Nk Nks]; subst. apply step_ok in Er as (x & Ex & Er). rewrite (step_on _ _ _ _ Ex).
    exact (IH Nks (h a x s) (h a x s') r (h_P _ _ _ Ps) (h_P _ _ _ Ps') (h_E _ _ _ _ Ps Ps' R) Er).
  - cbn [map] in N. inversion N as [|k ks Nk Nks]; subst. apply step_ok in Er as (y & Ey & Er). apply step_ok in Er as (x & Ex & Er).
    rewrite (step_on _ _ _ _ Ex), (step_on _ _ _ _ Ey). apply (loop_related l (h a x (h b y s))); auto.
    eapply E_trans; [apply h_C; [|exact Ps]|].
    + intros X. apply Nk. left. auto.
    + apply h_E; auto.
  - destruct (IH N s s r) as (r1 & E1 & R1 & P1 & P1'); auto.
    assert (N' : NoDup (map key l')) by (eapply Permutation_NoDup; [apply Permutation_map; exact Pm|exact N]).
    destruct (IH' N' s s' r1) as (r2 & E2 & R2 & P2 & P2'); auto. exists r2. split; [exact E2|]. split; [|auto]. eapply E_trans; eauto.
Qed.
End Loop.

Lemma pure_loop : forall A S (f : S -> A -> S) l s, foldM (fun s a => Ok (f s a)) l s = Ok (fold_left f l s).
Proof. intros A S f l. induction l as [|a l IH]; intros s; [reflexivity|]. cbn [foldM fold_left bind]. apply IH. Qed.

(** ** Maps *)
Lemma reordered_map_refl : forall T (x : InspectionIssuesMap T), reordered_map x x.
Proof. intros. split; [reflexivity|apply Permutation_refl]. Qed.
Lemma reordered_map_trans : forall T (x y z : InspectionIssuesMap T), reordered_map x y -> reordered_map y z -> reordered_map x z.
Proof. intros T x y z [D Q] [D' Q']. split; [congruence|eapply Permutation_trans; eauto]. Qed.
Lemma assoc_permuted : forall T id (l l' : list (uuid * T)), Permutation l l' -> (assoc id l = None <-> assoc id l' = None).
Proof.
  intros T id l l' Q. pose proof (assoc_in_keys T id l) as K. pose proof (assoc_in_keys T id l') as K'.
  assert (X : In id (map fst l) <-> In id (map fst l')).
  { split; apply Permutation_in; apply Permutation_map; [exact Q|apply Permutation_sym; exact Q]. }
  destruct (assoc id l), (assoc id l'); split; intros; try discriminate; try reflexivity; exfalso.
  - assert (Some t <> None) by discriminate. tauto.
  - assert (Some t <> None) by discriminate. tauto.
Qed.
Lemma emplace_permuted : forall T id (v : T) l l', Permutation l l' -> Permutation (emplace id v l) (emplace id v l').
Proof.
  intros T id v l l' Q. unfold emplace. pose proof (assoc_permuted T id l l' Q) as K. destruct (assoc id l), (assoc id l'); auto.
  - destruct K as [_ K]. discriminate (K eq_refl).
  - destruct K as [K _]. discriminate (K eq_refl).
  - apply Permutation_app_tail, Q.
Qed.
Lemma emplace_commute : forall T a b (x y : T) l, a <> b -> Permutation (emplace b y (emplace a x l)) (emplace a x (emplace b y l)).
Proof.
  intros T a b x y l N. unfold emplace.
  destruct (assoc a l) eqn:Ea, (assoc b l) eqn:Eb; rewrite ?assoc_app, ?Ea, ?Eb; cbn [assoc]; try apply Permutation_refl.
  - destruct (Nat.eqb_spec a b) as [X|X]; [contradiction|]. destruct (Nat.eqb_spec b a) as [Y|Y]; [congruence|].
    rewrite <- !app_assoc. apply Permutation_app_head. apply perm_swap.
Qed.
Lemma add_reordered : forall T id r (x y : InspectionIssuesMap T), reordered_map x y -> reordered_map (add_issues_to_map id r x) (add_issues_to_map id r y).
Proof.
  intros T id r x y [D Q]. unfold add_issues_to_map. destruct (N.eqb _ 0); [split; assumption|]. split; [exact D|]. apply emplace_permuted, Q.
Qed.
Lemma add_commute : forall T a b r r' (x : InspectionIssuesMap T), a <> b ->
  reordered_map (add_issues_to_map b r' (add_issues_to_map a r x)) (add_issues_to_map a r (add_issues_to_map b r' x)).
Proof.
  intros T a b r r' x N. unfold add_issues_to_map. destruct (N.eqb (nb_issues r) 0), (N.eqb (nb_issues r') 0); try apply reordered_map_refl.
  split; [reflexivity|]. apply emplace_commute, N.
Qed.
(** one entry, or nothing, for each component *)
Definition maybe_add {T} (id : uuid) (o : option (InspectionIssues T)) (x : InspectionIssuesMap T) : InspectionIssuesMap T :=
  match o with Some r => add_issues_to_map id r x | None => x end.
Lemma map_loop : forall T M (g : Component M -> outcome (option (InspectionIssues T))) l l' x y r, Permutation l l' -> NoDup (map co_id l) -> reordered_map x y ->
  foldM (fun s c => let! o := g c in Ok (maybe_add (co_id c) o s)) l x = Ok r ->
  exists r', foldM (fun s c => let! o := g c in Ok (maybe_add (co_id c) o s)) l' y = Ok r' /\ reordered_map r r'.
Proof.
  intros T M g l l' x y r Q N R Er.
  destruct (loop_reordered co_id (fun _ => True) reordered_map g (fun c o s => maybe_add (co_id c) o s)) with (l := l) (l' := l') (s := x) (s' := y) (r := r) as (r' & E' & R' & _ & _); auto.
  - intros. apply reordered_map_refl.
  - intros. eapply reordered_map_trans; eauto.
  - intros c [o|] s s' _ _ Rs; [apply add_reordered, Rs|exact Rs].
  - intros a b [o|] [o'|] s Ns _; cbn [maybe_add]; try apply reordered_map_refl. apply add_commute, Ns.
  - eauto.
Qed.
Lemma map_loop_some : forall T M (g : Component M -> outcome (InspectionIssues T)) l l' x y r, Permutation l l' -> NoDup (map co_id l) -> reordered_map x y ->
  foldM (fun s c => let! o := g c in Ok (add_issues_to_map (co_id c) o s)) l x = Ok r ->
  exists r', foldM (fun s c => let! o := g c in Ok (add_issues_to_map (co_id c) o s)) l' y = Ok r' /\ reordered_map r r'.
Proof.
  intros T M g l l' x y r Q N R Er.
  assert (X : forall l s, foldM (fun s c => let! o := g c in Ok (add_issues_to_map (co_id c) o s)) l s =
    foldM (fun s c => let! o := (let! v := g c in Ok (Some v)) in Ok (maybe_add (co_id c) o s)) l s).
  { intros k s. apply foldM_eq; auto. intros t c. destruct (g c); reflexivity. }
  rewrite X in Er. apply (map_loop _ _ _ _ _ _ _ _ Q N R) in Er as (r' & E' & R'). exists r'. rewrite X. auto.
Qed.
Lemma map_loop_pure : forall T M (g : Component M -> InspectionIssues T) l l' x y, Permutation l l' -> NoDup (map co_id l) -> reordered_map x y ->
  reordered_map (fold_left (fun s c => add_issues_to_map (co_id c) (g c) s) l x) (fold_left (fun s c => add_issues_to_map (co_id c) (g c) s) l' y).
Proof.
  intros T M g l l' x y Q N R.
  destruct (map_loop_some T M (fun c => Ok (g c)) l l' x y (fold_left (fun s c => add_issues_to_map (co_id c) (g c) s) l x) Q N R) as (r' & E' & R').
  - cbn [bind]. apply pure_loop.
  - cbn [bind] in E'. rewrite pure_loop in E'. injection E' as <-. exact R'.
Qed.
Lemma nodup_active : forall M (l : list (Component M)), NoDup (map co_id l) -> NoDup (map co_id (active l)).
Proof.
  intros M l. unfold active. induction l as [|c l IH]; intros N; [constructor|]. cbn [map] in N. inversion N as [|k ks Nk Nks]; subst. cbn [filter]. destruct (co_active c); [|auto].
  cbn [map]. constructor; auto. intros I. apply Nk. apply in_map_iff in I as (d & <- & I). apply in_map. apply filter_In in I. apply I.
Qed.

(** one of two orders ends well as soon as the other does *)
Definition follows {X} (R : X -> X -> Prop) (x y : outcome X) : Prop := forall r, x = Ok r -> exists r', y = Ok r' /\ R r r'.
Lemma follows_bind : forall X Y (R : X -> X -> Prop) (Q : Y -> Y -> Prop) x y f g, follows R x y -> (forall a b, R a b -> follows Q (f a) (g b)) -> follows Q (bind x f) (bind y g).
Proof. intros X Y R Q x y f g F G r Er. destruct x as [a| |]; try discriminate Er. destruct (F a eq_refl) as (b & -> & Rb). cbn [bind] in *. eapply G; eauto. Qed.
Lemma follows_ok : forall X (R : X -> X -> Prop) x y, R x y -> follows R (Ok x) (Ok y).
Proof. intros X R x y Rx r E. injection E as <-. eauto. Qed.

Section Meshes.
Context (m m' : Model) (H : reordered m m') (U : unique_ids m).
Let Pl := active_reordered _ _ _ (ro_lines _ _ H).
Let Ps := active_reordered _ _ _ (ro_surfaces _ _ H).
Let Pb := active_reordered _ _ _ (ro_blocks _ _ H).
Let Nl : NoDup (map co_id (active (m_lines m))). Proof. apply nodup_active, (nodup_parts m U). Qed.
Let Ns : NoDup (map co_id (active (m_surfaces m))). Proof. apply nodup_active, (nodup_parts m U). Qed.
Let Nb : NoDup (map co_id (active (m_blocks m))). Proof. apply nodup_active, (nodup_parts m U). Qed.
Ltac step_maps Q N := intros ? ?; eapply map_loop_some; [exact Q|exact N|assumption|eassumption].

(** colocation *)
Definition colocation_entry geo (n : Model) kind t points name id : outcome (option (InspectionIssues (list nat))) :=
  let! groups := colocated_points_groups geo points in
  let! pts := filter_colocated_points_with_same_unique_vertex n (mkCID t id) (ii_issues groups) in
  Ok (match pts with [] => None | _ => Some (fold_left (fun r g =>
        add_issue g (StrCat [kind; named n name id; " has vertices "; group_string g; " colocated at position [";
                             g_point_string geo (nth (nth 0 g 0) points []); "]"]%string) r)
      pts (new_issues (StrCat [kind; named n name id; " colocated vertices"]%string))) end).
Lemma colocation_step : forall geo n kind t points name id acc, add_component_colocated_points geo n kind t points name id acc =
  let! o := colocation_entry geo n kind t points name id in Ok (maybe_add id o acc).
Proof.
  intros. unfold add_component_colocated_points, colocation_entry. destruct (colocated_points_groups geo points) as [gs| |]; cbn [bind]; auto.
  destruct (filter_colocated_points_with_same_unique_vertex _ _ _) as [[|p ps]| |]; reflexivity.
Qed.
Lemma colocation_entry_same : forall geo kind t points name id, colocation_entry geo m kind t points name id = colocation_entry geo m' kind t points name id.
Proof. clear - H. intros. both_ordered m m' H. reflexivity. Qed.
Lemma colocation_loop : forall M kind t (pts : M -> list Point) geo (l l' : list (Component M)) x y, Permutation l l' -> NoDup (map co_id l) -> reordered_map x y ->
  follows reordered_map (foldM (fun acc l => add_component_colocated_points geo m kind t (pts (co_mesh l)) (co_name l) (co_id l) acc) l x)
    (foldM (fun acc l => add_component_colocated_points geo m' kind t (pts (co_mesh l)) (co_name l) (co_id l) acc) l' y).
Proof.
  intros M kind t pts geo l l' x y Q N R r Er.
  rewrite (foldM_eq _ _ _ (fun s c => let! o := colocation_entry geo m' kind t (pts (co_mesh c)) (co_name c) (co_id c) in Ok (maybe_add (co_id c) o s)) _ _ _ _ eq_refl eq_refl) in Er
    by (intros; rewrite colocation_step, colocation_entry_same; reflexivity).
  apply (map_loop _ _ _ _ _ _ _ _ Q N R) in Er as (r' & E' & R'). exists r'. split; [|exact R'].
  rewrite <- E'. apply foldM_eq; auto. intros. apply colocation_step.
Qed.
Lemma colocation_reordered : forall geo, follows reordered_map (inspect_meshes_point_colocations geo m) (inspect_meshes_point_colocations geo m').
Proof.
  intros geo. unfold inspect_meshes_point_colocations, add_model_components_colocated_points_groups, add_lines_surfaces_colocated_points.
  eapply follows_bind; [eapply follows_bind; [|intros]|intros].
  - apply (colocation_loop _ _ _ (fun x : EdgedCurve => ec_points x)); [apply Pl|apply Nl|apply reordered_map_refl].
  - apply (colocation_loop _ _ _ (fun x : SurfaceMesh => sm_points x)); [apply Ps|apply Ns|eassumption].
  - apply (colocation_loop _ _ _ (fun x : SolidMesh => so_points x)); [apply Pb|apply Nb|eassumption].
Qed.
(** loops with an entry for each component *)
Lemma entries : forall T M (g g' : Component M -> outcome (InspectionIssues T)) l l' x y, (forall c, g c = g' c) -> Permutation l l' -> NoDup (map co_id l) -> reordered_map x y ->
  follows reordered_map (foldM (fun s c => let! o := g c in Ok (add_issues_to_map (co_id c) o s)) l x) (foldM (fun s c => let! o := g' c in Ok (add_issues_to_map (co_id c) o s)) l' y).
Proof.
  intros T M g g' l l' x y G Q N R r Er. apply (map_loop_some _ _ _ _ _ _ _ _ Q N R) in Er as (r' & E' & R'). exists r'. split; [|exact R'].
  rewrite <- E'. apply foldM_eq; auto. intros. rewrite G. reflexivity.
Qed.
Lemma pure_entries : forall T M (g g' : Component M -> InspectionIssues T) l l' x y, (forall c, g c = g' c) -> Permutation l l' -> NoDup (map co_id l) -> reordered_map x y ->
  reordered_map (fold_left (fun s c => add_issues_to_map (co_id c) (g c) s) l x) (fold_left (fun s c => add_issues_to_map (co_id c) (g' c) s) l' y).
Proof.
  intros T M g g' l l' x y G Q N R. rewrite (fold_left_eq _ _ (fun s c => add_issues_to_map (co_id c) (g' c) s) (fun s c => add_issues_to_map (co_id c) (g c) s) l' l' y y) by (auto; intros; rewrite G; reflexivity).
  apply map_loop_pure; assumption.
Qed.
(** adjacency *)
Lemma surface_adjacency_reordered : forall lk x y, reordered_map x y -> follows reordered_map (add_surfaces_edges_with_wrong_adjacencies lk m x) (add_surfaces_edges_with_wrong_adjacencies lk m' y).
Proof. intros lk x y R. apply entries; [|apply Ps|apply Ns|exact R]. intros c. clear - H. both_ordered m m' H. reflexivity. Qed.
Lemma block_adjacency_reordered : forall lk x y, reordered_map x y -> follows reordered_map (add_blocks_facets_with_wrong_adjacencies lk m x) (add_blocks_facets_with_wrong_adjacencies lk m' y).
Proof. intros lk x y R. apply entries; [|apply Pb|apply Nb|exact R]. intros c. clear - H. both_ordered m m' H. reflexivity. Qed.
(** manifoldness *)
Lemma described : forall T M (kind what : string) (q : M -> outcome (InspectionIssues T)) F F' (l l' : list (Component M)) x y,
  (forall s c, F s c = let! o := q (co_mesh c) in Ok (add_issues_to_map (co_id c) (set_description (StrCat [kind; named m (co_name c) (co_id c); what]) o) s)) ->
  (forall s c, F' s c = let! o := q (co_mesh c) in Ok (add_issues_to_map (co_id c) (set_description (StrCat [kind; named m' (co_name c) (co_id c); what]) o) s)) ->
  Permutation l l' -> NoDup (map co_id l) -> reordered_map x y -> follows reordered_map (foldM F l x) (foldM F' l' y).
Proof.
  intros T M kind what q F F' l l' x y HF HF' Q N R.
  pose (g := fun (n : Model) (s : Component M) => let! r := q (co_mesh s) in Ok (set_description (StrCat [kind; named n (co_name s) (co_id s); what]) r)).
  assert (G : forall c, g m c = g m' c) by (intros c; unfold g; rewrite (o_named m m' H); reflexivity).
  pose proof (entries _ _ (g m) (g m') _ _ x y G Q N R) as X. intros r Er. destruct (X r) as (r' & E' & R').
  - rewrite <- Er. apply foldM_eq; auto. intros s c. rewrite HF. unfold g. destruct (q (co_mesh c)); reflexivity.
  - exists r'. split; [|exact R']. rewrite <- E'. apply foldM_eq; auto. intros s c. rewrite HF'. unfold g. destruct (q (co_mesh c)); reflexivity.
Qed.
Lemma surface_vertices_reordered : forall geo x y, reordered_map x y -> follows reordered_map (add_surfaces_meshes_non_manifold_vertices geo m x) (add_surfaces_meshes_non_manifold_vertices geo m' y).
Proof. intros geo x y R. apply (described _ _ "Surface " " non manifold vertices" (surface_non_manifold_vertices geo)); [reflexivity|reflexivity|apply Ps|apply Ns|exact R]. Qed.
Lemma surface_edges_reordered : forall ho x y, reordered_map x y -> follows reordered_map (add_surfaces_meshes_non_manifold_edges ho m x) (add_surfaces_meshes_non_manifold_edges ho m' y).
Proof. intros ho x y R. apply (described _ _ "Surface " " non manifold edges" (fun s => Ok (surface_non_manifold_edges ho s))); [reflexivity|reflexivity|apply Ps|apply Ns|exact R]. Qed.
Lemma vertices_reordered : forall geo x y, reordered_map x y -> follows reordered_map (add_component_meshes_non_manifold_vertices geo m x) (add_component_meshes_non_manifold_vertices geo m' y).
Proof.
  intros geo x y R. unfold add_component_meshes_non_manifold_vertices. eapply follows_bind; [apply surface_vertices_reordered, R|]. intros a b R'.
  apply (described _ _ "Block " " non manifold vertices" (solid_non_manifold_vertices geo)); [reflexivity|reflexivity|apply Pb|apply Nb|exact R'].
Qed.
Lemma edges_reordered : forall ho x y, reordered_map x y -> follows reordered_map (add_component_meshes_non_manifold_edges ho m x) (add_component_meshes_non_manifold_edges ho m' y).
Proof.
  intros ho x y R. unfold add_component_meshes_non_manifold_edges. eapply follows_bind; [apply surface_edges_reordered, R|]. intros a b R'.
  apply (described _ _ "Block " " non manifold edges" solid_non_manifold_edges); [reflexivity|reflexivity|apply Pb|apply Nb|exact R'].
Qed.
Lemma facets_reordered : forall ho x y, reordered_map x y -> follows reordered_map (add_component_meshes_non_manifold_facets ho m x) (add_component_meshes_non_manifold_facets ho m' y).
Proof. intros ho x y R. apply (described _ _ "Block " " non manifold facets" (fun s => Ok (solid_non_manifold_facets ho s))); [reflexivity|reflexivity|apply Pb|apply Nb|exact R]. Qed.
(** negative elements *)
Lemma section_negative_reordered : forall ms, reordered_map (section_negative_elements ms m) (section_negative_elements ms m').
Proof. intros ms. apply pure_entries; [|apply Ps|apply Ns|apply reordered_map_refl]. intros c. rewrite (o_named m m' H). reflexivity. Qed.
Lemma brep_negative_reordered : forall ms, reordered_map (brep_negative_elements ms m) (brep_negative_elements ms m').
Proof. intros ms. apply pure_entries; [|apply Pb|apply Nb|apply reordered_map_refl]. intros c. rewrite (o_named m m' H). reflexivity. Qed.
(** degeneration *)
Lemma heights_reordered : forall t x y, reordered_map x y -> reordered_map (add_small_height_polygons m t x) (add_small_height_polygons m' t y).
Proof. intros t x y R. apply pure_entries; [|apply Ps|apply Ns|exact R]. intros c. rewrite (o_named m m' H). reflexivity. Qed.
Lemma pairs_reordered : forall T M (g g' : Component M -> InspectionIssues T) l l' x y, (forall c, g c = g' c) -> Permutation l l' -> NoDup (map co_id l) -> reordered_map x y ->
  reordered_map (fold_left add_pair (map (fun c => (co_id c, g c)) l) x) (fold_left add_pair (map (fun c => (co_id c, g' c)) l') y).
Proof. intros. rewrite <- !fold_add_pairs. apply pure_entries; assumption. Qed.
Lemma line_small_same : forall ms geo t c, line_small_edges ms geo m t c = line_small_edges ms geo m' t c.
Proof. intros. unfold line_small_edges. rewrite (o_named m m' H). reflexivity. Qed.
Lemma surface_pure_same : forall ms geo t c, surface_pure ms geo m t c = surface_pure ms geo m' t c.
Proof.
  intros. unfold surface_pure, surface_issues, surface_task. destruct (surface_small_edges _ _ _ _ _) as [o es].
  destruct o; cbn [bind fst]; rewrite ?(o_named m m' H); reflexivity.
Qed.
Lemma block_issues_same : forall ms geo t c, block_issues ms geo m t c = block_issues ms geo m' t c.
Proof. intros. unfold block_issues. rewrite (o_named m m' H). reflexivity. Qed.
Lemma small_edges_reordered : forall ms geo t x y, reordered_map x y -> reordered_map (fold_left add_pair (edge_pairs ms geo m t) x) (fold_left add_pair (edge_pairs ms geo m' t) y).
Proof.
  intros ms geo t x y R. unfold edge_pairs. rewrite !fold_left_app. apply pairs_reordered; [apply surface_pure_same|apply Ps|apply Ns|].
  apply pairs_reordered; [apply line_small_same|apply Pl|apply Nl|exact R].
Qed.
Lemma block_edges_reordered : forall ms geo t x y, reordered_map x y -> reordered_map (fold_left add_pair (block_edge_pairs ms geo m t) x) (fold_left add_pair (block_edge_pairs ms geo m' t) y).
Proof. intros. apply pairs_reordered; [apply block_issues_same|apply Pb|apply Nb|assumption]. Qed.
Lemma block_heights_reordered : forall t x y, reordered_map x y -> reordered_map (fold_left add_pair (block_height_pairs m t) x) (fold_left add_pair (block_height_pairs m' t) y).
Proof. intros. apply pairs_reordered; [intros c; rewrite (o_named m m' H); reflexivity|apply Pb|apply Nb|assumption]. Qed.
Lemma edges_inv_any : forall st, exists s0 b0, edges_inv s0 b0 st.
Proof.
  intros st. exists (fun id => me_surface st id && negb (memb id (me_my_surfaces st))), (fun id => me_block st id && negb (memb id (me_my_blocks st))).
  split; intros id; split.
  - intros E. apply andb_true_iff in E as [E1 E2]. split; [exact E1|]. rewrite <- memb_In. rewrite negb_true_iff in E2. congruence.
  - intros E E1. rewrite E1 in E. cbn in E. apply negb_false_iff in E. apply memb_In, E.
  - intros E. apply andb_true_iff in E as [E1 E2]. split; [exact E1|]. rewrite <- memb_In. rewrite negb_true_iff in E2. congruence.
  - intros E E1. rewrite E1 in E. cbn in E. apply negb_false_iff in E. apply memb_In, E.
Qed.
Definition reordered_degeneration (r r' : DegenerationResult) : Prop :=
  reordered_map (dr_edges r) (dr_edges r') /\ reordered_map (dr_polygons r) (dr_polygons r') /\ reordered_map (dr_polyhedra r) (dr_polyhedra r').
Definition reordered_section_degeneration (r r' : SectionDegenerationResult) : Prop :=
  reordered_map (sd_edges r) (sd_edges r') /\ reordered_map (sd_polygons r) (sd_polygons r').
Lemma degeneration_reordered : forall ms geo st st', follows reordered_degeneration (fst (inspect_elements_degeneration ms geo m st)) (fst (inspect_elements_degeneration ms geo m' st')).
Proof.
  intros ms geo st st'. destruct (edges_inv_any st) as (s0 & b0 & I). destruct (edges_inv_any st') as (s0' & b0' & I'). unfold inspect_elements_degeneration.
  destruct (add_small_edges_pairs ms geo m GLOBAL_EPSILON (dr_edges empty_degeneration) st s0 b0 I) as (s1 & -> & I1).
  destruct (add_small_edges_pairs ms geo m' GLOBAL_EPSILON (dr_edges empty_degeneration) st' s0' b0' I') as (s1' & -> & I1').
  set (x := fold_left add_pair (edge_pairs ms geo m GLOBAL_EPSILON) _). set (y := fold_left add_pair (edge_pairs ms geo m' GLOBAL_EPSILON) _).
  assert (R : reordered_map x y) by (apply small_edges_reordered, reordered_map_refl).
  destruct (add_solid_pairs ms geo m GLOBAL_EPSILON (x, dr_polyhedra empty_degeneration) s1 s0 b0 I1) as (s2 & -> & _).
  destruct (add_solid_pairs ms geo m' GLOBAL_EPSILON (y, dr_polyhedra empty_degeneration) s1' s0' b0' I1') as (s2' & -> & _).
  cbn [fst snd bind]. apply follows_ok. split; [|split]; cbn [dr_edges dr_polygons dr_polyhedra].
  - apply block_edges_reordered, R.
  - apply heights_reordered, reordered_map_refl.
  - apply block_heights_reordered, reordered_map_refl.
Qed.
Lemma section_degeneration_reordered : forall ms geo st st', follows reordered_section_degeneration (fst (section_inspect_elements_degeneration ms geo m st))
  (fst (section_inspect_elements_degeneration ms geo m' st')).
Proof.
  intros ms geo st st'. destruct (edges_inv_any st) as (s0 & b0 & I). destruct (edges_inv_any st') as (s0' & b0' & I'). unfold section_inspect_elements_degeneration.
  match goal with |- context [add_small_edges ms geo m ?t ?e st] => destruct (add_small_edges_pairs ms geo m t e st s0 b0 I) as (s1 & -> & I1) end.
  match goal with |- context [add_small_edges ms geo m' ?t ?e st'] => destruct (add_small_edges_pairs ms geo m' t e st' s0' b0' I') as (s1' & -> & I1') end.
  cbn [fst snd bind]. apply follows_ok. split; cbn [sd_edges sd_polygons].
  - apply small_edges_reordered, reordered_map_refl.
  - apply heights_reordered, reordered_map_refl.
Qed.
End Meshes.
