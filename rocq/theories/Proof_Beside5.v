(** Two models side by side (C93): mesh vertices without unique vertex. *)
From Coq Require Import String Ascii List Arith NArith ZArith Bool Lia.
From Verif Require Import Base BaseFacts Model_Issues Types Model_Adjacency Model_Colocation Model_Topology
  Spec_Maps Spec_Colocation Spec_Topology Spec_Reproducible Spec_Beside Proof_Messages Proof_Topology Proof_Topology4 Proof_Local Proof_Relabel2 Proof_Beside Proof_Beside2 Proof_Beside3 Proof_Beside4.
Import ListNotations.
Open Scope list_scope.

Lemma assoc_in : forall T (l : list (uuid * T)) id, (exists v, assoc id l = Some v) <-> In id (map fst l).
Proof.
  intros T l id. induction l as [|[i v] l IH]; cbn [assoc map fst In]; [split; [intros [v E]; discriminate|intros []]|]. destruct (Nat.eqb_spec i id) as [->|N].
  - split; [left; reflexivity|intros _; exists v; reflexivity].
  - rewrite IH. split; [right; assumption|]. intros [E|I]; [destruct (N E)|exact I].
Qed.
Lemma unlinked_ids : forall r, map fst (unlinked_in r) = map fst (im_map r).
Proof. intros r. unfold unlinked_in. rewrite map_map. reflexivity. Qed.
(** adding an entry, seen on the entries *)
Definition with_entry (id : uuid) (l : list nat) (e : list (uuid * list nat)) : list (uuid * list nat) := match l with [] => e | _ => if existsb (Nat.eqb id) (map fst e) then e else e ++ [(id, l)] end.
Lemma some_or_none : forall T (l : list (uuid * T)) id, existsb (Nat.eqb id) (map fst l) = match assoc id l with Some _ => true | None => false end.
Proof.
  intros T l id. destruct (assoc id l) as [v|] eqn:E.
  - apply existsb_exists. exists id. split; [apply assoc_in; exists v; exact E|apply Nat.eqb_refl].
  - destruct (existsb (Nat.eqb id) (map fst l)) eqn:X; [|reflexivity]. apply existsb_exists in X as (j & I & X). apply Nat.eqb_eq in X as <-. apply assoc_in in I as [v I]. congruence.
Qed.
Lemma size_zero : forall T (r : InspectionIssues T), ii_issues r = [] -> N.eqb (nb_issues r) 0 = true.
Proof. intros T r E. unfold nb_issues. rewrite E. reflexivity. Qed.
Definition short (l : list nat) : Prop := N.eqb (size32 l) 0 = true -> l = [].
Lemma with_entry_is : forall id d r m, short (ii_issues r) -> N.eqb (nb_issues r) 0 = false -> unlinked_in (add_issues_to_map id (set_description d r) m) = with_entry id (ii_issues r) (unlinked_in m).
Proof.
  intros id d r m B Z. unfold add_issues_to_map. change (nb_issues (set_description d r)) with (nb_issues r). rewrite Z. unfold with_entry.
  destruct (ii_issues r) as [|v l] eqn:E; [rewrite (size_zero _ r E) in Z; discriminate|]. rewrite unlinked_ids, some_or_none. unfold emplace, unlinked_in. cbn [im_map].
  destruct (assoc id (im_map m)); [reflexivity|]. rewrite map_app. cbn [map fst snd set_description ii_issues]. rewrite E. reflexivity.
Qed.
Lemma with_entry_after : forall id l e e', ~ In id (map fst e) -> with_entry id l (e ++ e') = e ++ with_entry id l e'.
Proof.
  intros id l e e' N. unfold with_entry. destruct l as [|v l]; [reflexivity|]. rewrite map_app, existsb_app.
  match goal with |- context [(existsb ?f (map fst e) || _)%bool] => destruct (existsb f (map fst e)) eqn:X end.
  - apply existsb_exists in X as (j & I & X). apply Nat.eqb_eq in X as <-. destruct (N I).
  - unfold uuid in *. rewrite ?X. cbn [orb]. destruct (existsb (Nat.eqb id) (map fst e')); [reflexivity|]. rewrite app_assoc. reflexivity.
Qed.
Lemma with_entry_ids : forall id l e i, In i (map fst (with_entry id l e)) -> i = id \/ In i (map fst e).
Proof.
  intros id l e i I. unfold with_entry in I. destruct l as [|v l]; [right; exact I|]. destruct (existsb _ _); [right; exact I|]. rewrite map_app in I. apply in_app_or in I as [I|[<-|[]]]; [right; exact I|left; reflexivity].
Qed.

Section Entries.
Context {T : Type} (get : Model -> uuid -> outcome (Component T)) (kind suffix : string) (t : ComponentType) (meshed : T -> bool) (nb : T -> nat) (skip : bool).
Definition unlinked_vertices (m : Model) (c : Component T) : list nat :=
  match get m (co_id c) with Ok c' => if skip && negb (meshed (co_mesh c')) then [] else ii_issues (vertices_not_associated m (mkCID t (co_id c)) (nb (co_mesh c))) | _ => [] end.
Definition entries_short (m : Model) (l : list (Component T)) : Prop := forall c, In c l -> short (unlinked_vertices m c).
Lemma entries_of : forall m l acc cs, entries_short m l -> foldM (inspect_component get kind suffix t meshed nb skip m) l acc = Ok cs ->
  unlinked_in (snd cs) = fold_left (fun e c => with_entry (co_id c) (unlinked_vertices m c) e) l (unlinked_in (snd acc)).
Proof.
  intros m l. induction l as [|c l IH]; intros acc cs B E; cbn [foldM fold_left] in *; [injection E as <-; reflexivity|].
  apply bind_Ok in E as (a & Ea & E). rewrite (IH a cs (fun d I => B d (or_intror I)) E). f_equal. clear IH E. pose proof (B c (or_introl eq_refl)) as S.
  unfold inspect_component in Ea. cbv zeta in Ea. apply bind_Ok in Ea as (c' & Ec & Ea). unfold unlinked_vertices in *. rewrite Ec in *.
  destruct (skip && negb (meshed (co_mesh c')))%bool; [injection Ea as <-; reflexivity|].
  cbn [bind] in Ea. match type of Ea with (if ?b then _ else _) = _ => destruct b eqn:Z end; injection Ea as <-; cbn [snd].
  - rewrite (S Z). reflexivity.
  - apply with_entry_is; assumption.
Qed.
End Entries.
Lemma entries_ids : forall T (g : Component T -> list nat) (l : list (Component T)) e i, In i (map fst (fold_left (fun e c => with_entry (co_id c) (g c) e) l e)) -> In i (map co_id l) \/ In i (map fst e).
Proof.
  intros T g l. induction l as [|c l IH]; intros e i I; cbn [fold_left] in I; [right; exact I|]. apply IH in I as [I|I]; [left; right; exact I|].
  apply with_entry_ids in I as [->|I]; [left; left; reflexivity|right; exact I].
Qed.
Lemma entries_after : forall T (g : Component T -> list nat) (l : list (Component T)) e e', (forall c, In c l -> ~ In (co_id c) (map fst e)) ->
  fold_left (fun e c => with_entry (co_id c) (g c) e) l (e ++ e') = e ++ fold_left (fun e c => with_entry (co_id c) (g c) e) l e'.
Proof.
  intros T g l. induction l as [|c l IH]; intros e e' N; cbn [fold_left]; [reflexivity|]. rewrite with_entry_after by (apply N; left; reflexivity). apply IH. intros d I. apply N. right. exact I.
Qed.
Lemma entries_same : forall T (g g' : Component T -> list nat) (l : list (Component T)) e, (forall c, In c l -> g c = g' c) ->
  fold_left (fun e c => with_entry (co_id c) (g c) e) l e = fold_left (fun e c => with_entry (co_id c) (g' c) e) l e.
Proof.
  intros T g g' l. induction l as [|c l IH]; intros e E; cbn [fold_left]; [reflexivity|]. rewrite (E c (or_introl eq_refl)). apply IH. intros d I. apply E. right. exact I.
Qed.
Lemma not_associated_piece : forall k m M, piece k m M -> forall t id n, In id (all_ids m) -> ii_issues (vertices_not_associated M (mkCID t id) n) = ii_issues (vertices_not_associated m (mkCID t id) n).
Proof.
  intros k m M P t id n I. rewrite !vertices_not_associated_issues. apply filter_ext. intros v. rewrite (p_unique _ _ _ P) by exact I. destruct (m_unique_vertex m _); reflexivity.
Qed.

Section Both.
Context (m1 m2 M : Model) (S : side_by_side m1 m2 M) (A : meshed_alike m1 m2).
Let P1 := piece1 m1 m2 M S A.
Let P2 := piece2 m1 m2 M S A.
Lemma components_map_both : forall T (get : Model -> uuid -> outcome (Component T)) kind suffix t meshed nb skip l1 l2 d d' cs1 cs2 cs,
  (forall c, In c l1 -> In (co_id c) (all_ids m1) /\ get M (co_id c) = get m1 (co_id c)) -> (forall c, In c l2 -> In (co_id c) (all_ids m2) /\ get M (co_id c) = get m2 (co_id c)) ->
  entries_short get t meshed nb skip m1 l1 -> entries_short get t meshed nb skip m2 l2 ->
  inspect_components get kind suffix t meshed nb skip m1 l1 d d' = Ok cs1 -> inspect_components get kind suffix t meshed nb skip m2 l2 d d' = Ok cs2 ->
  inspect_components get kind suffix t meshed nb skip M (l1 ++ l2) d d' = Ok cs -> unlinked_in (snd cs) = unlinked_in (snd cs1) ++ unlinked_in (snd cs2).
Proof.
  intros T get kind suffix t meshed nb skip l1 l2 d d' cs1 cs2 cs G1 G2 B1 B2 E1 E2 E. unfold inspect_components in *.
  assert (AC : forall l (c : Component T), In c (active l) -> In c l) by (intros l c I; apply filter_In in I; apply I).
  assert (U1 : forall c, In c l1 -> unlinked_vertices get t meshed nb skip M c = unlinked_vertices get t meshed nb skip m1 c).
  { intros c I. destruct (G1 c I) as [I' Q]. unfold unlinked_vertices. rewrite Q. destruct (get m1 (co_id c)); [|reflexivity|reflexivity]. destruct (skip && _)%bool; [reflexivity|]. apply (not_associated_piece 0 m1 M P1), I'. }
  assert (U2 : forall c, In c l2 -> unlinked_vertices get t meshed nb skip M c = unlinked_vertices get t meshed nb skip m2 c).
  { intros c I. destruct (G2 c I) as [I' Q]. unfold unlinked_vertices. rewrite Q. destruct (get m2 (co_id c)); [|reflexivity|reflexivity]. destruct (skip && _)%bool; [reflexivity|]. apply (not_associated_piece _ m2 M P2), I'. }
  apply entries_of in E1; [|intros c I; apply B1, AC, I]. apply entries_of in E2; [|intros c I; apply B2, AC, I].
  apply entries_of in E; [|intros c I; apply AC, in_app_or in I as [I|I]; [rewrite (U1 c I); apply B1, I|rewrite (U2 c I); apply B2, I]].
  cbn [snd new_issues_map] in *. unfold active in E. rewrite filter_app, fold_left_app in E. fold (active l1) in E. fold (active l2) in E.
  rewrite (entries_same T _ (unlinked_vertices get t meshed nb skip m1) (active l1)) in E by (intros c I; apply U1, AC, I). rewrite <- E1 in E.
  rewrite (entries_same T _ (unlinked_vertices get t meshed nb skip m2) (active l2)) in E by (intros c I; apply U2, AC, I).
  rewrite <- (app_nil_r (unlinked_in (snd cs1))) in E. rewrite entries_after in E; [rewrite E, E2; reflexivity|].
  intros c I J. rewrite E1 in J. apply entries_ids in J as [J|[]]. apply in_map_iff in J as (c' & Ec & J). apply (apart m1 m2 M S (co_id c)); [rewrite <- Ec; apply G1, AC, J|apply G2, AC, I].
Qed.
Lemma few_short : forall T (get : Model -> uuid -> outcome (Component T)) t meshed nb skip m l, (forall c, In c l -> below_2_32 (nb (co_mesh c))) -> entries_short get t meshed nb skip m l.
Proof.
  intros T get t meshed nb skip m l B c I. specialize (B c I). unfold short, unlinked_vertices. intros Z. apply N.eqb_eq in Z. apply (size32_zero_small _ _); [|exact Z].
  destruct (get m (co_id c)); [|reflexivity|reflexivity]. destruct (skip && _)%bool; [reflexivity|].
  pose proof (vertices_not_associated_length m (mkCID t (co_id c)) (nb (co_mesh c))). unfold below_2_32 in B. lia.
Qed.
Lemma corners_map : forall m r, section_inspect_corners_topology m = Ok r -> exists cs, inspect_components get_corner "Corner "%string " is not meshed"%string CornerT corner_is_meshed
    (fun p => List.length (ps_points p)) true m (m_corners m) corners_not_meshed_d corners_not_linked_d = Ok cs /\ ct_not_linked r = snd cs.
Proof.
  intros m r E. unfold section_inspect_corners_topology in E. apply bind_Ok in E as (cs & C & E). apply bind_Ok in E as (rs & _ & E). exists cs. split; [exact C|].
  destruct rs as [|a [|b [|c [|d [|? ?]]]]]; try discriminate E. injection E as <-. reflexivity.
Qed.
Lemma lines_map : forall m r, section_inspect_lines_topology m = Ok r -> exists cs, inspect_components get_line "Line "%string " is not meshed"%string LineT line_is_meshed
    (fun p => List.length (ec_points p)) false m (m_lines m) lines_not_meshed_d lines_not_linked_d = Ok cs /\ sl_not_linked r = snd cs.
Proof.
  intros m r E. unfold section_inspect_lines_topology in E. apply bind_Ok in E as (cs & C & E). apply bind_Ok in E as (rs & _ & E). exists cs. split; [exact C|].
  destruct rs as [|a [|b [|c [|d [|? ?]]]]]; try discriminate E. injection E as <-. reflexivity.
Qed.
Lemma surfaces_map : forall m r, section_inspect_surfaces m = Ok r -> exists cs, inspect_components get_surface "Surface "%string " is not meshed"%string SurfaceT surface_is_meshed
    (fun p => List.length (sm_points p)) false m (m_surfaces m) surfaces_not_meshed_d surfaces_not_linked_d = Ok cs /\ ss_not_linked r = snd cs.
Proof.
  intros m r E. unfold section_inspect_surfaces in E. apply bind_Ok in E as (cs & C & E). apply bind_Ok in E as (rs & _ & E). exists cs. split; [exact C|].
  destruct rs as [|a [|b [|? ?]]]; try discriminate E. injection E as <-. reflexivity.
Qed.
Ltac own_id := unfold all_ids; rewrite !in_app_iff; match goal with I : In ?c _ |- _ => apply (in_map co_id) in I; tauto end.
Ltac own1 := intros ? ?; split; [own_id|apply (get_both1 m1 m2 M S A); own_id].
Ltac own2 := intros ? ?; split; [own_id|apply (get_both2 m1 m2 M S A); own_id].
Lemma mesh_vertices_both : forall r1 r2, section_ok m1 -> section_ok m2 -> inspect_section_topology m1 = Ok r1 -> inspect_section_topology m2 = Ok r2 ->
  exists r, inspect_section_topology M = Ok r /\ topology_of_both (nb_unique_vertices m1) r1 r2 r /\
    unlinked_of_both (ct_not_linked (st_corners r1)) (ct_not_linked (st_corners r2)) (ct_not_linked (st_corners r)) /\
    unlinked_of_both (sl_not_linked (st_lines r1)) (sl_not_linked (st_lines r2)) (sl_not_linked (st_lines r)) /\
    unlinked_of_both (ss_not_linked (st_surfaces r1)) (ss_not_linked (st_surfaces r2)) (ss_not_linked (st_surfaces r)).
Proof.
  intros r1 r2 K1 K2 E1 E2. destruct (section_topology_spec m1 K1) as (c1 & l1 & s1 & k1 & C1 & L1 & S1 & G1 & F1).
  destruct (section_topology_spec m2 K2) as (c2 & l2 & s2 & k2 & C2 & L2 & S2 & G2 & F2). rewrite F1 in E1. rewrite F2 in E2. injection E1 as <-. injection E2 as <-.
  destruct (corners_both m1 m2 M S A c1 c2 C1 C2) as (c & C & Rc). destruct (lines_both m1 m2 M S A l1 l2 L1 L2) as (l & L & Rl).
  destruct (surfaces_both m1 m2 M S A s1 s2 S1 S2) as (s & Q & Rs). destruct (links_both m1 m2 M S A k1 k2 G1 G2) as (i & K & Rk).
  exists (mkSectionTopology c l s i). split; [unfold inspect_section_topology; cbv zeta; rewrite C, L, Q; cbn; rewrite K; reflexivity|].
  split; [constructor; cbn; assumption|]. cbn [st_corners st_lines st_surfaces]. unfold unlinked_of_both. split; [|split].
  - apply corners_map in C as (x & X & ->). apply corners_map in C1 as (x1 & X1 & ->). apply corners_map in C2 as (x2 & X2 & ->). rewrite (sb_corners _ _ _ S) in X.
    eapply components_map_both; [| | | |exact X1|exact X2|exact X]; [own1|own2|apply few_short, (so_corner_bound _ K1)|apply few_short, (so_corner_bound _ K2)].
  - apply lines_map in L as (x & X & ->). apply lines_map in L1 as (x1 & X1 & ->). apply lines_map in L2 as (x2 & X2 & ->). rewrite (sb_lines _ _ _ S) in X.
    eapply components_map_both; [| | | |exact X1|exact X2|exact X]; [own1|own2|apply few_short, (so_line_bound _ K1)|apply few_short, (so_line_bound _ K2)].
  - apply surfaces_map in Q as (x & X & ->). apply surfaces_map in S1 as (x1 & X1 & ->). apply surfaces_map in S2 as (x2 & X2 & ->). rewrite (sb_surfaces _ _ _ S) in X.
    eapply components_map_both; [| | | |exact X1|exact X2|exact X]; [own1|own2|apply few_short, (so_surface_bound _ K1)|apply few_short, (so_surface_bound _ K2)].
Qed.
End Both.
