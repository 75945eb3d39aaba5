From Coq Require Import String Ascii List Arith NArith ZArith Bool Lia Permutation.
From Verif Require Import Base BaseFacts Model_Issues Types Model_Intersections Spec_Colocation Spec_Intersections Proof_Colocation2 Proof_Maps Proof_Intersections Proof_Intersections2 Proof_Intersections3.
Import ListNotations.
Open Scope list_scope.

Lemma fan_triangle_facts : forall polygon t, fan_triangle polygon t -> length t = 3 /\ incl t polygon /\ (NoDup polygon -> NoDup t).
Proof.
  intros polygon t (i & H1 & H2 & a & b & c & -> & A & B & C). cbn [fst snd] in *. split; [reflexivity|]. split.
  - intros x [<-|[<-|[<-|[]]]]; eapply nth_error_In; eassumption.
  - intros N. rewrite NoDup_nth_error in N.
    assert (a <> b) by (intros ->; assert (0 = i) by (apply N; [lia|congruence]); lia).
    assert (a <> c) by (intros ->; assert (0 = S i) by (apply N; [lia|congruence]); lia).
    assert (b <> c) by (intros ->; assert (i = S i) by (apply N; [lia|congruence]); lia).
    repeat constructor; cbn; intuition congruence.
Qed.

Section Pair.
Context (px : Predicates) (m : Model) (s1 s2 : Component SurfaceMesh).
Definition meet2 : list nat -> list nat -> Prop :=
  if Nat.eqb (sm_dimension (co_mesh s1)) 2 then triangles_meet_2d px m s1 s2 snd else triangles_meet_3d px m s1 s2.
Lemma triangle_pair_decides : forall t1 t2, indices_in_range px -> (sm_dimension (co_mesh s1) = 2 -> readable m s1 s2) ->
  length t1 = 3 -> length t2 = 3 -> NoDup t1 -> NoDup t2 -> in_mesh s1 t1 -> in_mesh s2 t2 ->
  exists b, triangles_intersection_detection px m s1 s2 t1 t2 = Ok b /\ (b = true <-> meet2 t1 t2).
Proof.
  intros t1 t2 Hix Hr H1 H2 N1 N2 M1 M2. unfold triangles_intersection_detection, triangles_intersect, meet2.
  destruct (Nat.eqb_spec (sm_dimension (co_mesh s1)) 2) as [E|E].
  - destruct (section_decides px m s1 s2 t1 t2 Hix H1 H2 N1 N2 M1 M2) as (b & Eb & Hb); [|exists b; split; assumption].
    intros v w Hv Hw U. apply (Hr E v w); auto.
  - exact (brep_decides px m s1 s2 t1 t2 Hix H1 H2 N1 M1 M2).
Qed.
Lemma polygons_decides : forall p q, indices_in_range px -> (sm_dimension (co_mesh s1) = 2 -> readable m s1 s2) ->
  polygons_ready (co_mesh s1) -> polygons_ready (co_mesh s2) -> p < nb_polygons (co_mesh s1) -> q < nb_polygons (co_mesh s2) ->
  exists b, polygons_intersect px m s1 s2 p q = Ok b /\ (b = true <-> polygons_meet s1 s2 meet2 p q).
Proof.
  intros p q Hix Hr R1 R2 Hp Hq. destruct (R1 p Hp) as (N1 & M1 & L1). destruct (R2 q Hq) as (N2 & M2 & L2).
  unfold polygons_intersect, polygons_meet. set (v1 := polygon_vertices (co_mesh s1) p) in *. set (v2 := polygon_vertices (co_mesh s2) q) in *.
  destruct (Nat.ltb_spec (length v1) 3) as [S1|S1]; [|destruct (Nat.ltb_spec (length v2) 3) as [S2|S2]]; cbn [orb].
  - exists false. split; [reflexivity|]. split; [discriminate|]. intros (t1 & t2 & F & _). exfalso. exact (small_no_fan _ _ S1 F).
  - exists false. split; [reflexivity|]. split; [discriminate|]. intros (t1 & t2 & _ & F & _). exfalso. exact (small_no_fan _ _ S2 F).
  - assert (D : forall t1 t2, fan_triangle v1 t1 -> fan_triangle v2 t2 ->
      exists b, triangles_intersection_detection px m s1 s2 t1 t2 = Ok b /\ (b = true <-> meet2 t1 t2)).
    { intros t1 t2 F1 F2. destruct (fan_triangle_facts _ _ F1) as (A1 & B1 & C1). destruct (fan_triangle_facts _ _ F2) as (A2 & B2 & C2).
      apply triangle_pair_decides; auto; intros v Hv; [apply M1, B1, Hv|apply M2, B2, Hv]. }
    destruct (Nat.eqb (length v1) 3 && Nat.eqb (length v2) 3) eqn:E3.
    + apply andb_true_iff in E3. rewrite !Nat.eqb_eq in E3. destruct E3 as [E1 E2].
      assert (F1 : forall t, fan_triangle v1 t <-> t = v1) by (clear - E1; destruct v1 as [|a [|b [|c [|]]]]; try discriminate; apply fan_of_triangle).
      assert (F2 : forall t, fan_triangle v2 t <-> t = v2) by (clear - E2; destruct v2 as [|a [|b [|c [|]]]]; try discriminate; apply fan_of_triangle).
      destruct (D v1 v2) as (b & Eb & Hb); [apply F1; reflexivity|apply F2; reflexivity|]. exists b. split; [exact Eb|]. rewrite Hb. split.
      * intros H. exists v1, v2. split; [apply F1; reflexivity|]. split; [apply F2; reflexivity|exact H].
      * intros (t1 & t2 & G1 & G2 & H). apply F1 in G1. apply F2 in G2. subst t1 t2. exact H.
    + destruct (fan_ok v1 0) as (ts1 & Et1 & _); [lia..|]. destruct (fan_ok v2 0) as (ts2 & Et2 & _); [lia..|]. rewrite Et1, Et2. cbn [bind].
      pose proof (fan_triangles_in v1 ts1 ltac:(lia) Et1) as I1. pose proof (fan_triangles_in v2 ts2 ltac:(lia) Et2) as I2.
      destruct (anyM_decides _ (fun t1 => anyM (fun t2 => triangles_intersection_detection px m s1 s2 t1 t2) ts2)
        (fun t1 => exists t2, In t2 ts2 /\ meet2 t1 t2) ts1) as (b & Eb & Hb).
      { intros t1 Ht1. apply I1 in Ht1. apply (anyM_decides _ _ (fun t2 => meet2 t1 t2)). intros t2 Ht2. apply I2 in Ht2. exact (D t1 t2 Ht1 Ht2). }
      exists b. split; [exact Eb|]. rewrite Hb. split.
      * intros (t1 & G1 & t2 & G2 & H). exists t1, t2. apply I1 in G1. apply I2 in G2. auto.
      * intros (t1 & t2 & G1 & G2 & H). exists t1. split; [apply I1, G1|]. exists t2. split; [apply I2, G2|exact H].
Qed.
Definition action_finds (a : SurfacesAction) (c : nat * nat) : Prop :=
  match a with AutoIntersections => co_id s1 = co_id s2 /\ surfaces_meet px m s1 s2 c | _ => surfaces_meet px m s1 s2 c end.
Lemma surfaces_hit_decides : forall a c, indices_in_range px -> (sm_dimension (co_mesh s1) = 2 -> readable m s1 s2) ->
  polygons_ready (co_mesh s1) -> polygons_ready (co_mesh s2) -> fst c < nb_polygons (co_mesh s1) -> snd c < nb_polygons (co_mesh s2) ->
  decides (surfaces_hit px m s1 s2 a) (action_finds a) c.
Proof.
  intros a c Hix Hr R1 R2 Hp Hq. destruct (polygons_decides (fst c) (snd c) Hix Hr R1 R2 Hp Hq) as (b & Eb & Hb).
  unfold decides, surfaces_hit, action_finds, surfaces_meet, same_surface. fold meet2.
  destruct (Nat.eqb_spec (co_id s1) (co_id s2)) as [E|E], (Nat.eqb_spec (fst c) (snd c)) as [F|F]; destruct a; cbn [negb andb];
    first [exists b; split; [exact Eb|rewrite Hb; tauto]|exists false; split; [reflexivity|]; split; [discriminate|tauto]].
Qed.
End Pair.

Definition lists_for (a : SurfacesAction) (P : nat * nat -> Prop) (cands found : list (nat * nat)) : Prop :=
  match a with
  | OneIntersection => (forall c, In c found -> In c cands /\ P c) /\ (found = [] <-> forall c, In c cands -> ~ P c)
  | _ => lists_candidates P cands found
  end.
Lemma position_of_spec : forall id l i, NoDup l -> (position_of id l = Some i <-> nth_error l i = Some id).
Proof.
  intros id l. induction l as [|x l IH]; intros i Hn; cbn.
  - split; [discriminate|destruct i; discriminate].
  - inversion Hn as [|? ? Hx Hn']; subst. destruct (Nat.eqb_spec x id) as [->|N].
    + split; [intros [= <-]; reflexivity|]. destruct i as [|i]; cbn; [reflexivity|]. intros H. exfalso. apply Hx. eapply nth_error_In, H.
    + destruct (position_of id l) as [j|] eqn:E; cbn.
      * assert (Hj : nth_error l j = Some id) by (apply IH; auto). split.
        -- intros [= <-]. exact Hj.
        -- destruct i as [|i]; cbn; [congruence|]. intros H. apply IH in H; [congruence|assumption].
      * split; [discriminate|]. destruct i as [|i]; cbn; [congruence|]. intros H. apply IH in H; [congruence|assumption].
Qed.
Lemma tree_id_ok : forall l id, NoDup l -> In id l -> exists i, mesh_tree_id l id = Ok i /\ nth_error l i = Some id.
Proof.
  intros l id Hn Hin. apply In_nth_error in Hin. destruct Hin as [i Hi]. exists i. split; [|exact Hi].
  unfold mesh_tree_id. apply position_of_spec in Hi; [|exact Hn]. rewrite Hi. reflexivity.
Qed.
Lemma get_surface_ok : forall m s, unique_ids m -> In s (m_surfaces m) -> get_surface m (co_id s) = Ok s.
Proof. intros m s U H. unfold get_surface. rewrite find_component_In; [reflexivity|apply (if_s _ (unique_ids_facts _ U))|exact H]. Qed.
Lemma get_line_ok : forall m l, unique_ids m -> In l (m_lines m) -> get_line m (co_id l) = Ok l.
Proof. intros m s U H. unfold get_line. rewrite find_component_In; [reflexivity|apply (if_l _ (unique_ids_facts _ U))|exact H]. Qed.
Lemma gather_ok : forall ls, gather (map Ok ls) = Ok (concat ls).
Proof.
  intros ls. unfold gather. assert (E : existsb (fun r : outcome IntersectionsResult => match r with UB => true | _ => false end) (map Ok ls) = false)
    by (induction ls; cbn; auto). rewrite E. clear E.
  assert (G : forall acc, foldM (fun acc (r : outcome IntersectionsResult) => let! r := r in Ok (acc ++ r)) (map Ok ls) acc = Ok (acc ++ concat ls)).
  { induction ls as [|l ls IH]; intros acc; cbn; [rewrite app_nil_r; reflexivity|]. rewrite IH, <- app_assoc. reflexivity. }
  apply G.
Qed.
Lemma located_pairs : forall s1 s2 found, located (mkCID SurfaceT (co_id s1)) (mkCID SurfaceT (co_id s2)) found = element_pairs s1 s2 found.
Proof. intros s1 s2 found. unfold located, element_pairs, surface_element. apply map_ext. intros [p q]. reflexivity. Qed.

Section Model.
Context (px : Predicates) (m : Model) (trees : Trees) (R : intersections_ready px m trees).
Lemma pair_task_ok : forall a s1 s2 cands r, In s1 (m_surfaces m) -> In s2 (m_surfaces m) ->
  candidates_in_range (nb_polygons (co_mesh s1)) (nb_polygons (co_mesh s2)) cands ->
  pair_task px m a s1 s2 cands r ->
  exists cs, r = Ok (element_pairs s1 s2 cs) /\ lists_for a (action_finds px m s1 s2 a) cands cs.
Proof.
  intros a s1 s2 cands r H1 H2 Hc (found & T & ->). destruct R as [U TR S I Sec].
  assert (D : forall c, In c cands -> decides (surfaces_hit px m s1 s2 a) (action_finds px m s1 s2 a) c).
  { intros [p q] Hin. destruct (Hc p q Hin). apply surfaces_hit_decides; auto.
    intros E v w Hv Hw HU. exact (Sec s1 H1 E s1 s2 v w H1 H2 Hv Hw HU). }
  unfold surfaces_action in T. unfold lists_for. destruct a.
  - destruct (some_found _ _ _ _ D T) as (l & -> & Hs & Hn). exists l. cbn [bind]. rewrite located_pairs. auto.
  - destruct (all_found _ _ _ _ D T) as (l & -> & H). exists l. cbn [bind]. rewrite located_pairs. auto.
  - destruct (all_found _ _ _ _ D T) as (l & -> & H). exists l. cbn [bind]. rewrite located_pairs. auto.
Qed.
Lemma Forall2_collect : forall A B (Q : A -> outcome B -> Prop) (P : A -> B -> Prop) l rs,
  (forall x r, In x l -> Q x r -> exists b, r = Ok b /\ P x b) -> Forall2 Q l rs -> exists bs, rs = map Ok bs /\ Forall2 P l bs.
Proof.
  intros A B Q P l rs H F. induction F as [|x r l rs Hx F IH]; [exists []; split; [reflexivity|constructor]|].
  destruct (H x r (or_introl eq_refl) Hx) as (b & -> & Hb). destruct IH as (bs & -> & Hbs); [intros y r' Hy; apply H; right; exact Hy|].
  exists (b :: bs). split; [reflexivity|constructor; assumption].
Qed.
Lemma intersecting_polygons_ok : forall a r, no_empty_surface m -> intersecting_polygons px m trees a r ->
  exists found, r = Ok found /\ surfaces_report (fun s1 s2 => lists_for a (action_finds px m s1 s2 a)) m trees found.
Proof.
  intros a r Hne H. unfold intersecting_polygons in H.
  assert (E : existsb (fun s => nb_polygons (co_mesh s) =? 0) (active (m_surfaces m)) = false).
  { apply not_true_iff_false. rewrite existsb_exists. intros (s & Hs & E). apply filter_In in Hs. destruct Hs as [Hs Ha].
    apply Nat.eqb_eq in E. exact (Hne s Hs Ha E). }
  rewrite E in H. destruct H as (selfs & overlaps & pairs & F1 & T & F2 & ->).
  destruct R as [U TR S I Sec] eqn:ER. pose proof TR as [T1 T2 T3 T4 T5 T6].
  set (Q1 := fun s l => exists i cs, nth_error (tr_uuids trees) i = Some (co_id s) /\
     lists_for a (action_finds px m s s a) (tr_self trees i) cs /\ l = element_pairs s s cs).
  assert (S1 : forall s r, In s (active (m_surfaces m)) -> self_task px m trees a s r -> exists b, r = Ok b /\ Q1 s b).
  { intros s r Hs Hq. apply filter_In in Hs. destruct Hs as [Hs Ha]. unfold self_task in Hq. rewrite get_surface_ok in Hq by assumption.
    destruct (tree_id_ok _ _ T1 (T3 s Hs Ha)) as (i & Ei & Hi). rewrite Ei in Hq.
    destruct (pair_task_ok a s s _ _ Hs Hs (T5 s i Hs Hi) Hq) as (cs & -> & Hl). eexists. split; [reflexivity|]. exists i, cs. auto. }
  destruct (Forall2_collect _ _ _ Q1 _ _ S1 F1) as (ls1 & -> & G1).
  assert (P : Permutation overlaps (tr_overlaps trees)).
  { destruct (all_found (fun _ => Ok true) (fun _ => True) (tr_overlaps trees) (Ok overlaps)) as (l & [= <-] & [_ (others & Hp & Ho)]).
    - intros c _. exists true. split; [reflexivity|]. tauto.
    - exact T.
    - destruct others as [|o others]; [rewrite app_nil_r in Hp; apply Permutation_sym, Hp|]. exfalso. apply (Ho o); [left; reflexivity|exact Logic.I]. }
  set (Q2 := fun (ij : nat * nat) l => exists s1 s2 cs, In s1 (m_surfaces m) /\ In s2 (m_surfaces m) /\
               nth_error (tr_uuids trees) (fst ij) = Some (co_id s1) /\ nth_error (tr_uuids trees) (snd ij) = Some (co_id s2) /\
               lists_for a (action_finds px m s1 s2 a) (tr_other trees (fst ij) (snd ij)) cs /\ l = element_pairs s1 s2 cs).
  assert (S2 : forall ij r, In ij overlaps -> overlap_task px m trees a ij r -> exists b, r = Ok b /\ Q2 ij b).
  { intros [i j] r Hij Hq. apply (Permutation_in _ P) in Hij. destruct (T4 i j Hij) as [Hi Hj].
    destruct (nth_error_lt _ _ _ Hi) as [id1 E1]. destruct (nth_error_lt _ _ _ Hj) as [id2 E2].
    destruct (T2 id1 (nth_error_In _ _ E1)) as (s1 & Hs1 & <-). destruct (T2 id2 (nth_error_In _ _ E2)) as (s2 & Hs2 & <-).
    unfold overlap_task in Hq. cbn [fst snd] in *. rewrite (at_index_ok _ _ _ _ E1), (at_index_ok _ _ _ _ E2) in Hq. cbn [bind] in Hq.
    rewrite !get_surface_ok in Hq by assumption. cbn [bind] in Hq.
    destruct (pair_task_ok a s1 s2 _ _ Hs1 Hs2 (T6 s1 s2 i j Hs1 Hs2 E1 E2) Hq) as (cs & -> & Hl). eexists. split; [reflexivity|].
    exists s1, s2, cs. auto 8. }
  destruct (Forall2_collect _ _ _ Q2 _ _ S2 F2) as (ls2 & -> & G2).
  rewrite <- map_app, gather_ok, concat_app. eexists. split; [reflexivity|].
  exists overlaps, ls1, ls2. auto.
Qed.
Lemma in_element_pairs : forall s1 s2 cs x, In x (element_pairs s1 s2 cs) <-> exists c, In c cs /\ x = (surface_element s1 (fst c), surface_element s2 (snd c)).
Proof. intros. unfold element_pairs. rewrite in_map_iff. split; intros (c & A & B); exists c; auto. Qed.
Lemma Forall2_concat_in : forall A B (P : A -> list B -> Prop) l ls x, Forall2 P l ls -> (In x (concat ls) <-> exists a b, In a l /\ P a b /\ In x b /\ In b ls).
Proof.
  intros A B P l ls x F. induction F as [|a b l ls Hab F IH]; cbn; [split; [contradiction|intros (?&?&[]&_)]|].
  rewrite in_app_iff, IH. split.
  - intros [H|(a' & b' & H1 & H2 & H3 & H4)]; [exists a, b; auto|exists a', b'; auto].
  - intros (a' & b' & H1 & H2 & H3 & [<-|H4]); [auto|]. right. 
    assert (G : In x (concat ls)) by (apply in_concat; eauto). apply IH, G.
Qed.
(** what is reported, as a set *)
Lemma report_members : forall (P : Component SurfaceMesh -> Component SurfaceMesh -> nat * nat -> Prop) (lists : Component SurfaceMesh -> Component SurfaceMesh -> list (nat * nat) -> list (nat * nat) -> Prop) found,
  (forall s1 s2 cands cs, lists s1 s2 cands cs -> forall c, In c cs <-> In c cands /\ P s1 s2 c) ->
  surfaces_report lists m trees found ->
  forall x, In x found <-> exists s1 s2 c, proposed m trees s1 s2 c /\ P s1 s2 c /\ x = (surface_element s1 (fst c), surface_element s2 (snd c)).
Proof.
  intros P lists found HL (overlaps & selfs & pairs & Pm & -> & F1 & F2) x. rewrite in_app_iff.
  destruct R as [U [T1 T2 T3 T4 T5 T6] S I Sec].
  assert (UID : forall s s' : Component SurfaceMesh, In s (m_surfaces m) -> In s' (m_surfaces m) -> co_id s = co_id s' -> s = s').
  { intros s s' Hs Hs' E. pose proof (get_surface_ok m s U Hs) as G. rewrite E, (get_surface_ok m s' U Hs') in G. congruence. }
  split.
  - intros [H|H].
    + apply (Forall2_concat_in _ _ _ _ _ _ F1) in H. destruct H as (s & l & Hs & (i & cs & Hi & Hl & ->) & Hx & _).
      apply in_element_pairs in Hx. destruct Hx as (c & Hc & ->). apply (HL _ _ _ _ Hl) in Hc. destruct Hc as [Hc HP].
      apply filter_In in Hs. destruct Hs as [Hs Ha]. exists s, s, c. split; [left; split; [reflexivity|]; split; [exact Hs|]; split; [exact Ha|]; exists i; auto|auto].
    + apply (Forall2_concat_in _ _ _ _ _ _ F2) in H. destruct H as ([i j] & l & Hij & (s1 & s2 & cs & H1 & H2 & E1 & E2 & Hl & ->) & Hx & _).
      apply in_element_pairs in Hx. destruct Hx as (c & Hc & ->). apply (HL _ _ _ _ Hl) in Hc. destruct Hc as [Hc HP].
      exists s1, s2, c. split; [right; split; [exact H1|]; split; [exact H2|]; exists i, j; split; [eapply Permutation_in; eauto|auto]|auto].
  - intros (s1 & s2 & c & [(-> & Hs & Ha & i & Hi & Hc)|(H1 & H2 & i & j & Hij & E1 & E2 & Hc)] & HP & ->).
    + left. assert (Hin : In s2 (active (m_surfaces m))) by (apply filter_In; auto).
      apply (Forall2_concat_in _ _ _ _ _ _ F1).
      assert (G : exists l, In l selfs /\ (exists i cs, nth_error (tr_uuids trees) i = Some (co_id s2) /\ lists s2 s2 (tr_self trees i) cs /\ l = element_pairs s2 s2 cs)).
      { clear - F1 Hin. induction F1 as [|s l ss ls Hl F IH]; [contradiction|]. destruct Hin as [->|Hin]; [exists l; split; [left; reflexivity|exact Hl]|].
        destruct (IH Hin) as (l' & H' & H''). exists l'. split; [right; exact H'|exact H'']. }
      destruct G as (l & Hlin & i' & cs & Hi' & Hl & ->). exists s2, (element_pairs s2 s2 cs). split; [exact Hin|]. split; [eauto|]. split; [|exact Hlin].
      apply in_element_pairs. exists c. split; [|reflexivity]. apply (HL _ _ _ _ Hl). split; [|exact HP].
      assert (i = i') as <-; [|exact Hc]. rewrite NoDup_nth_error in T1. apply T1; [apply nth_error_Some; congruence|congruence].
    + right. assert (Hin : In (i, j) overlaps) by (eapply Permutation_in; [apply Permutation_sym; exact Pm|exact Hij]).
      apply (Forall2_concat_in _ _ _ _ _ _ F2).
      assert (G : exists l, In l pairs /\ (exists s1 s2 cs, In s1 (m_surfaces m) /\ In s2 (m_surfaces m) /\
               nth_error (tr_uuids trees) i = Some (co_id s1) /\ nth_error (tr_uuids trees) j = Some (co_id s2) /\
               lists s1 s2 (tr_other trees i j) cs /\ l = element_pairs s1 s2 cs)).
      { clear - F2 Hin. induction F2 as [|s l ss ls Hl F IH]; [contradiction|]. destruct Hin as [->|Hin]; [exists l; split; [left; reflexivity|exact Hl]|].
        destruct (IH Hin) as (l' & H' & H''). exists l'. split; [right; exact H'|exact H'']. }
      destruct G as (l & Hlin & a & b & cs & Ha & Hb & Ea & Eb & Hl & ->).
      assert (a = s1) as -> by (apply UID; auto; congruence). assert (b = s2) as -> by (apply UID; auto; congruence).
      exists (i, j), (element_pairs s1 s2 cs). split; [exact Hin|]. split; [exists s1, s2, cs; cbn; auto 8|]. split; [|exact Hlin].
      apply in_element_pairs. exists c. split; [|reflexivity]. apply (HL _ _ _ _ Hl). auto.
Qed.

Lemma all_members : forall found, surfaces_report (fun s1 s2 => lists_candidates (surfaces_meet px m s1 s2)) m trees found ->
  forall x, In x found <-> exists s1 s2 c, proposed m trees s1 s2 c /\ surfaces_meet px m s1 s2 c /\ x = (surface_element s1 (fst c), surface_element s2 (snd c)).
Proof. intros found. apply report_members. intros s1 s2 cands cs [H _]. exact H. Qed.
Lemma report_exists : forall s (lists : Component SurfaceMesh -> Component SurfaceMesh -> list (nat * nat) -> list (nat * nat) -> Prop) found,
  (forall s1 s2 cands cs c, lists s1 s2 cands cs -> In c cs -> In c cands /\ surfaces_meet px m s1 s2 c) ->
  (forall s1 s2 cands cs c, lists s1 s2 cands cs -> In c cands -> surfaces_meet px m s1 s2 c -> cs <> []) ->
  surfaces_report lists m trees found -> s = tt ->
  (found <> [] <-> exists s1 s2 c, proposed m trees s1 s2 c /\ surfaces_meet px m s1 s2 c).
Proof.
  intros _ lists found HL1 HL2 (overlaps & selfs & pairs & Pm & -> & F1 & F2) _.
  destruct R as [U [T1 T2 T3 T4 T5 T6] S I Sec].
  assert (UID : forall s s' : Component SurfaceMesh, In s (m_surfaces m) -> In s' (m_surfaces m) -> co_id s = co_id s' -> s = s').
  { intros s s' Hs Hs' E. pose proof (get_surface_ok m s U Hs) as G. rewrite E, (get_surface_ok m s' U Hs') in G. congruence. }
  split.
  - intros Hx0. apply not_nil_exists in Hx0. destruct Hx0 as [x Hx]. apply in_app_iff in Hx. destruct Hx as [H|H].
    + apply (Forall2_concat_in _ _ _ _ _ _ F1) in H. destruct H as (s & l & Hs & (i & cs & Hi & Hl & ->) & Hx & _).
      apply in_element_pairs in Hx. destruct Hx as (c & Hc & ->). destruct (HL1 _ _ _ _ _ Hl Hc) as [Hin HP].
      apply filter_In in Hs. destruct Hs as [Hs Ha]. exists s, s, c. split; [left; split; [reflexivity|]; split; [exact Hs|]; split; [exact Ha|]; exists i; auto|auto].
    + apply (Forall2_concat_in _ _ _ _ _ _ F2) in H. destruct H as ([i j] & l & Hij & (s1 & s2 & cs & H1 & H2 & E1 & E2 & Hl & ->) & Hx & _).
      apply in_element_pairs in Hx. destruct Hx as (c & Hc & ->). destruct (HL1 _ _ _ _ _ Hl Hc) as [Hin HP].
      exists s1, s2, c. split; [right; split; [exact H1|]; split; [exact H2|]; exists i, j; split; [eapply Permutation_in; eauto|auto]|auto].
  - intros (s1 & s2 & c & [(-> & Hs & Ha & i & Hi & Hc)|(H1 & H2 & i & j & Hij & E1 & E2 & Hc)] & HP).
    + assert (Hin : In s2 (active (m_surfaces m))) by (apply filter_In; auto).
      assert (G : exists l, In l selfs /\ (exists i cs, nth_error (tr_uuids trees) i = Some (co_id s2) /\ lists s2 s2 (tr_self trees i) cs /\ l = element_pairs s2 s2 cs)).
      { clear - F1 Hin. induction F1 as [|s l ss ls Hl F IH]; [contradiction|]. destruct Hin as [->|Hin]; [exists l; split; [left; reflexivity|exact Hl]|].
        destruct (IH Hin) as (l' & H' & H''). exists l'. split; [right; exact H'|exact H'']. }
      destruct G as (l & Hlin & i' & cs & Hi' & Hl & ->).
      assert (i = i') as <- by (rewrite NoDup_nth_error in T1; apply T1; [apply nth_error_Some; congruence|congruence]).
      pose proof (HL2 _ _ _ _ _ Hl Hc HP) as Hne. apply not_nil_exists in Hne. destruct Hne as [d Hd].
      apply not_nil_exists. exists (surface_element s2 (fst d), surface_element s2 (snd d)). apply in_app_iff. left. apply in_concat.
      exists (element_pairs s2 s2 cs). split; [exact Hlin|]. apply in_element_pairs. eauto.
    + assert (Hin : In (i, j) overlaps) by (eapply Permutation_in; [apply Permutation_sym; exact Pm|exact Hij]).
      assert (G : exists l, In l pairs /\ (exists s1 s2 cs, In s1 (m_surfaces m) /\ In s2 (m_surfaces m) /\
               nth_error (tr_uuids trees) i = Some (co_id s1) /\ nth_error (tr_uuids trees) j = Some (co_id s2) /\
               lists s1 s2 (tr_other trees i j) cs /\ l = element_pairs s1 s2 cs)).
      { clear - F2 Hin. induction F2 as [|s l ss ls Hl F IH]; [contradiction|]. destruct Hin as [->|Hin]; [exists l; split; [left; reflexivity|exact Hl]|].
        destruct (IH Hin) as (l' & H' & H''). exists l'. split; [right; exact H'|exact H'']. }
      destruct G as (l & Hlin & a & b & cs & Ha & Hb & Ea & Eb & Hl & ->).
      assert (a = s1) as -> by (apply UID; auto; congruence). assert (b = s2) as -> by (apply UID; auto; congruence).
      pose proof (HL2 _ _ _ _ _ Hl Hc HP) as Hne. apply not_nil_exists in Hne. destruct Hne as [d Hd].
      apply not_nil_exists. exists (surface_element s1 (fst d), surface_element s2 (snd d)). apply in_app_iff. right. apply in_concat.
      exists (element_pairs s1 s2 cs). split; [exact Hlin|]. apply in_element_pairs. eauto.
Qed.
Lemma model_yes_no : forall r, no_empty_surface m -> model_has_intersecting_surfaces px m trees r ->
  exists b, r = Ok b /\ (b = true <-> exists s1 s2 c, proposed m trees s1 s2 c /\ surfaces_meet px m s1 s2 c).
Proof.
  intros r Hne (found & H & ->). destruct (intersecting_polygons_ok OneIntersection _ Hne H) as (l & -> & HR). cbn [bind].
  eexists. split; [reflexivity|]. rewrite match_nil_true. apply (report_exists tt _ _) with (3 := HR); [| |reflexivity].
  - intros s1 s2 cands cs c [HL _] Hc. exact (HL c Hc).
  - intros s1 s2 cands cs c [_ HL] Hc HP E. exact (proj1 HL E c Hc HP).
Qed.

(** the issue lists *)
Lemma add_fold : forall A (f : InspectionIssues A -> A -> outcome (InspectionIssues A)) l acc,
  (forall x acc, In x l -> exists msg, f acc x = Ok (add_issue x msg acc)) ->
  exists r, foldM f l acc = Ok r /\ ii_issues r = ii_issues acc ++ l /\ ii_description r = ii_description acc.
Proof.
  intros A f l. induction l as [|x l IH]; intros acc H; cbn; [exists acc; rewrite app_nil_r; auto|].
  destruct (H x acc (or_introl eq_refl)) as [msg E]. rewrite E. cbn.
  destruct (IH (add_issue x msg acc) (fun y a Hy => H y a (or_intror Hy))) as (r & Er & Hi & Hd). exists r. split; [exact Er|].
  rewrite Hi, Hd. cbn. rewrite <- app_assoc. auto.
Qed.
Lemma report_surfaces_exist : forall (lists : Component SurfaceMesh -> Component SurfaceMesh -> list (nat * nat) -> list (nat * nat) -> Prop) found x,
  surfaces_report lists m trees found -> In x found ->
  exists s1 s2 c, In s1 (m_surfaces m) /\ In s2 (m_surfaces m) /\ x = (surface_element s1 (fst c), surface_element s2 (snd c)).
Proof.
  intros lists found x (overlaps & selfs & pairs & Pm & -> & F1 & F2) Hx. apply in_app_iff in Hx. destruct Hx as [H|H].
  - apply (Forall2_concat_in _ _ _ _ _ _ F1) in H. destruct H as (s & l & Hs & (i & cs & Hi & Hl & ->) & Hx & _).
    apply in_element_pairs in Hx. destruct Hx as (c & Hc & ->). apply filter_In in Hs. destruct Hs as [Hs _]. exists s, s, c. auto.
  - apply (Forall2_concat_in _ _ _ _ _ _ F2) in H. destruct H as ([i j] & l & Hij & (s1 & s2 & cs & H1 & H2 & E1 & E2 & Hl & ->) & Hx & _).
    apply in_element_pairs in Hx. destruct Hx as (c & Hc & ->). exists s1, s2, c. auto.
Qed.
Lemma add_surfaces_ok : forall issues r, no_empty_surface m -> add_intersecting_surfaces_elements px m trees issues r ->
  exists out found, r = Ok out /\ ii_issues out = ii_issues issues ++ found /\ ii_description out = ii_description issues /\
    surfaces_report (fun s1 s2 => lists_candidates (surfaces_meet px m s1 s2)) m trees found.
Proof.
  intros issues r Hne (found & H & ->). destruct (intersecting_polygons_ok AllIntersections _ Hne H) as (l & -> & HR). cbn [bind].
  match goal with |- context[foldM ?f l issues] => destruct (add_fold _ f l issues) as (out & E & Hi & Hd) end.
  { intros x acc Hx. destruct (report_surfaces_exist _ _ _ HR Hx) as (s1 & s2 & c & H1 & H2 & ->). cbn [fst snd element_component surface_element cid_id].
    unfold element_component. cbn [fst snd surface_element cid_id]. rewrite !get_surface_ok by (try assumption; apply (ir_ids _ _ _ R)). cbn [bind]. eauto. }
  exists out, l. rewrite E. auto.
Qed.
Lemma auto_report_ok : forall issues r, no_empty_surface m -> add_surface_auto_intersecting_elements px m trees issues r ->
  exists out found, r = Ok out /\ ii_issues out = ii_issues issues ++ found /\
    surfaces_report (fun s1 s2 => lists_candidates (fun c => co_id s1 = co_id s2 /\ surfaces_meet px m s1 s2 c)) m trees found.
Proof.
  intros issues r Hne (found & H & ->). destruct (intersecting_polygons_ok AutoIntersections _ Hne H) as (l & -> & HR). cbn [bind].
  match goal with |- context[foldM ?f l issues] => destruct (add_fold _ f l issues) as (out & E & Hi & Hd) end.
  { intros x acc Hx. destruct (report_surfaces_exist _ _ _ HR Hx) as (s1 & s2 & c & H1 & H2 & ->).
    unfold element_component. cbn [fst snd surface_element cid_id]. rewrite !get_surface_ok by (try assumption; apply (ir_ids _ _ _ R)). cbn [bind]. eauto. }
  exists out, l. rewrite E. auto.
Qed.

(** lines and surfaces *)
Section Lines.
Context (lines : LineTrees) (LT : line_trees_of m trees lines) (LE : forall l, In l (m_lines m) -> edges_exist (co_mesh l)).
Lemma line_pair_decides : forall s l c, In s (m_surfaces m) -> In l (m_lines m) -> 3 <= length (polygon_vertices (co_mesh s) (fst c)) ->
  fst c < nb_polygons (co_mesh s) -> snd c < length (ec_edges (co_mesh l)) ->
  decides (polygon_edge_intersect px (co_mesh s) (co_mesh l)) (line_meets px (co_mesh s) (co_mesh l)) c.
Proof.
  intros s l c Hs Hl H3 Hp He. destruct (ir_surfaces _ _ _ R s Hs _ Hp) as (N & M & L). destruct (LE l Hl _ He) as [seg Hseg].
  unfold decides, polygon_edge_intersect, line_meets. set (vs := polygon_vertices (co_mesh s) (fst c)) in *.
  destruct (fan_ok vs 0) as (ts & Et & _); [lia..|]. rewrite Et, (curve_segment_ok _ _ _ Hseg). cbn [bind].
  pose proof (fan_triangles_in vs ts ltac:(lia) Et) as IN.
  match goal with |- exists b, anyM ?f _ = _ /\ _ => destruct (anyM_decides _ f (fun t => exists T, triangle_of (co_mesh s) t T /\
     let q := px_segment_triangle px seg T in fst q = Inside \/ snd q = Inside \/ on_triangle_edge (fst q) \/ on_triangle_edge (snd q)) ts) as (b & E & Hb) end.
  { intros t Ht. apply IN in Ht. destruct (fan_triangle_facts _ _ Ht) as (A & B & _).
    destruct (triangle_ok s t) as (T & HT & ET); [intros v Hv; apply M, B, Hv|exact A|]. unfold decides. rewrite ET. cbn [bind]. eexists. split; [reflexivity|].
    rewrite !orb_true_iff, !position_eqb_eq. unfold on_triangle_edge. split.
    - intros H. exists T. split; [exact HT|]. tauto.
    - intros (T' & HT' & H). rewrite (triangle_of_fun _ _ _ _ HT HT'). tauto. }
  exists b. split; [exact E|]. rewrite Hb. split.
  - intros (t & Ht & T & HT & H). exists t, T, seg. apply IN in Ht. auto.
  - intros (t & T & seg' & Ht & HT & Hseg' & H). exists t. split; [apply IN, Ht|]. exists T. split; [exact HT|]. rewrite (segment_of_fun _ _ _ _ Hseg Hseg'). exact H.
Qed.
Lemma nb_embedding_blocks_zero : forall id, nb_embedding_blocks m id = 0 <-> ~ embedded_in_block m id.
Proof.
  intros id. unfold nb_embedding_blocks, embedded_in_block. split.
  - intros H (t & b & Hin). apply length_zero_iff_nil in H. assert (G : In (mkCID BlockT b) (filter (fun c => ctype_eqb (cid_type c) BlockT) (embeddings m id))); [|rewrite H in G; exact G].
    apply filter_In. split; [|reflexivity]. unfold embeddings. apply in_map_iff. exists (mkCID t id, mkCID BlockT b). split; [reflexivity|].
    apply filter_In. split; [exact Hin|]. apply Nat.eqb_refl.
  - intros H. destruct (filter _ _) as [|c l] eqn:E; [reflexivity|]. exfalso. apply H.
    assert (G : In c (filter (fun c => ctype_eqb (cid_type c) BlockT) (embeddings m id))) by (rewrite E; left; reflexivity).
    apply filter_In in G. destruct G as [G Gt]. apply in_map_iff in G. destruct G as ([a b] & <- & G). apply filter_In in G. destruct G as [G Ge].
    apply Nat.eqb_eq in Ge. destruct a as [ta ida], b as [tb idb]. cbn in *. subst ida. destruct tb; try discriminate. eauto.
Qed.
Definition line_pairs (s : Component SurfaceMesh) (l : Component EdgedCurve) (cs : list (nat * nat)) : IntersectionsResult :=
  map (fun c => (surface_element s (fst c), line_element l (snd c))) cs.
Definition line_block (s : Component SurfaceMesh) (l : Component EdgedCurve) (out : IntersectionsResult) : Prop :=
  (~ embedded_in_block m (co_id l) /\ out = []) \/
  (embedded_in_block m (co_id l) /\ exists i j cs, nth_error (tr_uuids trees) i = Some (co_id s) /\ nth_error (lt_uuids lines) j = Some (co_id l) /\
     lists_candidates (line_meets px (co_mesh s) (co_mesh l)) (lt_other lines i j) cs /\ out = line_pairs s l cs).
Lemma located_lines : forall s l cs, located (mkCID SurfaceT (co_id s)) (mkCID LineT (co_id l)) cs = line_pairs s l cs.
Proof. intros. unfold located, line_pairs. apply map_ext. intros [p q]. reflexivity. Qed.
Lemma loop_ok : forall A B (body : A -> list B -> outcome (list B) -> Prop) (P : A -> list B -> Prop) l acc r,
  (forall a acc r, In a l -> body a acc r -> exists out, r = Ok (acc ++ out) /\ P a out) -> loop body l acc r ->
  exists outs, r = Ok (acc ++ concat outs) /\ Forall2 P l outs.
Proof.
  intros A B body P l acc r H L. induction L as [s|a l s s' r Hb L IH|a l s e Hb|a l s Hb].
  - exists []. cbn. rewrite app_nil_r. auto.
  - destruct (H a s _ (or_introl eq_refl) Hb) as (out & E & HP). injection E as ->.
    destruct IH as (outs & -> & F); [intros a' acc' r' Ha'; apply H; right; exact Ha'|]. exists (out :: outs). cbn. rewrite app_assoc. auto.
  - destruct (H a s _ (or_introl eq_refl) Hb) as (out & E & HP). discriminate.
  - destruct (H a s _ (or_introl eq_refl) Hb) as (out & E & HP). discriminate.
Qed.
Lemma line_step_ok : forall s i l acc r, big_polygons m -> In s (m_surfaces m) -> nth_error (tr_uuids trees) i = Some (co_id s) -> In l (active (m_lines m)) ->
  line_surface_step px m lines s i l acc r -> exists out, r = Ok (acc ++ out) /\ line_block s l out.
Proof.
  intros s i l acc r Big Hs Hi Hl H. apply filter_In in Hl. destruct Hl as [Hl Ha]. unfold line_surface_step in H.
  destruct (Nat.eqb_spec (nb_embedding_blocks m (co_id l)) 0) as [E|E].
  - subst r. exists []. rewrite app_nil_r. split; [reflexivity|]. left. split; [apply nb_embedding_blocks_zero, E|reflexivity].
  - rewrite get_surface_ok, get_line_ok in H by (try assumption; apply (ir_ids _ _ _ R)).
    destruct (tree_id_ok _ _ (lo_unique _ _ _ LT) (lo_active _ _ _ LT l Hl Ha)) as (j & Ej & Hj). rewrite Ej in H. cbn [bind] in H.
    destruct H as (found & T & ->).
    destruct (all_found _ (line_meets px (co_mesh s) (co_mesh l)) _ _ (fun c Hc => ltac:(destruct c as [p q]; destruct (lo_other _ _ _ LT s l i j Hs Hl Hi Hj p q Hc); apply line_pair_decides; auto)) T) as (cs & -> & HL).
    cbn [bind]. rewrite located_lines. eexists. split; [reflexivity|]. right. split.
    + destruct (nb_embedding_blocks m (co_id l)) eqn:En; [contradiction|].
      assert (D : embedded_in_block m (co_id l) \/ ~ embedded_in_block m (co_id l)).
      { unfold nb_embedding_blocks in En. destruct (filter (fun c => ctype_eqb (cid_type c) BlockT) (embeddings m (co_id l))) as [|c k] eqn:Ef; [discriminate|]. left.
        assert (G : In c (filter (fun c => ctype_eqb (cid_type c) BlockT) (embeddings m (co_id l)))) by (rewrite Ef; left; reflexivity).
        apply filter_In in G. destruct G as [G Gt]. apply in_map_iff in G. destruct G as ([a b] & <- & G). apply filter_In in G. destruct G as [G Ge].
        apply Nat.eqb_eq in Ge. destruct a as [ta ida], b as [tb idb]. cbn in *. subst ida. destruct tb; try discriminate. exists ta, idb. exact G. }
      destruct D as [D|D]; [exact D|]. apply nb_embedding_blocks_zero in D. congruence.
    + exists i, j, cs. auto.
Qed.
Lemma lines_report_ok : forall r, big_polygons m -> no_empty_surface m -> no_empty_line m -> intersecting_lines_surfaces px m trees lines r ->
  exists outs, r = Ok (concat (concat outs)) /\ Forall2 (fun s os => Forall2 (line_block s) (active (m_lines m)) os) (active (m_surfaces m)) outs.
Proof.
  intros r Big Hne Hnl H. unfold intersecting_lines_surfaces in H.
  assert (E : existsb (fun s => nb_polygons (co_mesh s) =? 0) (active (m_surfaces m)) = false).
  { apply not_true_iff_false. rewrite existsb_exists. intros (s & Hs & E). apply filter_In in Hs. destruct Hs as [Hs Ha].
    apply Nat.eqb_eq in E. exact (Hne s Hs Ha E). }
  assert (E' : existsb (fun l => length (ec_edges (co_mesh l)) =? 0) (active (m_lines m)) = false).
  { apply not_true_iff_false. rewrite existsb_exists. intros (s & Hs & E'). apply filter_In in Hs. destruct Hs as [Hs Ha].
    apply Nat.eqb_eq, length_zero_iff_nil in E'. exact (Hnl s Hs Ha E'). }
  rewrite E, E' in H. clear E E'.
  assert (ST : forall s acc r, In s (active (m_surfaces m)) -> surface_step px m trees lines s acc r ->
     exists out, r = Ok (acc ++ out) /\ exists os, out = concat os /\ Forall2 (line_block s) (active (m_lines m)) os).
  { intros s acc r0 Hs Hb. apply filter_In in Hs. destruct Hs as [Hs Ha]. unfold surface_step in Hb.
    destruct (tree_id_ok _ _ (to_unique _ _ (ir_trees _ _ _ R)) (to_active _ _ (ir_trees _ _ _ R) s Hs Ha)) as (i & Ei & Hi). rewrite Ei in Hb.
    destruct (loop_ok _ _ _ (line_block s) _ _ _ (fun l acc r Hl Hb => line_step_ok s i l acc r Big Hs Hi Hl Hb) Hb) as (outs & -> & F).
    exists (concat outs). split; [reflexivity|exists outs; auto]. }
  destruct (loop_ok _ _ _ _ _ _ _ ST H) as (outs & -> & F).
  cbn [app].
  assert (G : exists oss, outs = map (@concat _) oss /\ Forall2 (fun s os => Forall2 (line_block s) (active (m_lines m)) os) (active (m_surfaces m)) oss).
  { clear - F. induction F as [|s out ss outs (os & -> & Hos) F IH]; [exists []; split; [reflexivity|constructor]|].
    destruct IH as (oss & -> & G). exists (os :: oss). split; [reflexivity|constructor; assumption]. }
  destruct G as (oss & -> & G). exists oss. split; [|exact G]. f_equal. clear. induction oss as [|os oss IH]; [reflexivity|]. cbn. rewrite IH, concat_app. reflexivity.
Qed.
Lemma lines_members : forall outs x, Forall2 (fun s os => Forall2 (line_block s) (active (m_lines m)) os) (active (m_surfaces m)) outs ->
  (In x (concat (concat outs)) <-> exists s l c, proposed_line m trees lines s l c /\ embedded_in_block m (co_id l) /\
     line_meets px (co_mesh s) (co_mesh l) c /\ x = (surface_element s (fst c), line_element l (snd c))).
Proof.
  intros outs x F. rewrite in_concat. split.
  - intros (b & Hb & Hx). apply (Forall2_concat_in _ _ _ _ _ _ F) in Hb. destruct Hb as (s & os & Hs & Fs & Hb & _).
    assert (G : exists l, In l (active (m_lines m)) /\ line_block s l b).
    { clear - Fs Hb. induction Fs as [|l o ls os Hl F IH]; [contradiction|]. destruct Hb as [->|Hb]; [exists l; split; [left; reflexivity|exact Hl]|].
      destruct (IH Hb) as (l' & A & B). exists l'. split; [right; exact A|exact B]. }
    destruct G as (l & Hl & [[_ ->]|(Hemb & i & j & cs & Hi & Hj & HL & ->)]); [contradiction|].
    apply in_map_iff in Hx. destruct Hx as (c & <- & Hc). apply (proj1 HL) in Hc. destruct Hc as [Hc HP].
    apply filter_In in Hs, Hl. destruct Hs as [Hs Hsa], Hl as [Hl Hla]. exists s, l, c. split; [|auto].
    split; [exact Hs|]. split; [exact Hsa|]. split; [exact Hl|]. split; [exact Hla|]. exists i, j. auto.
  - intros (s & l & c & (Hs & Hsa & Hl & Hla & i & j & Hi & Hj & Hc) & Hemb & HP & ->).
    assert (Hs' : In s (active (m_surfaces m))) by (apply filter_In; auto). assert (Hl' : In l (active (m_lines m))) by (apply filter_In; auto).
    assert (G : exists os, In os outs /\ Forall2 (line_block s) (active (m_lines m)) os).
    { clear - F Hs'. induction F as [|s' os ss outs Hos F IH]; [contradiction|]. destruct Hs' as [->|Hs']; [exists os; split; [left; reflexivity|exact Hos]|].
      destruct (IH Hs') as (o & A & B). exists o. split; [right; exact A|exact B]. }
    destruct G as (os & Hos & Fs).
    assert (G : exists b, In b os /\ line_block s l b).
    { clear - Fs Hl'. induction Fs as [|l' o ls os Ho F IH]; [contradiction|]. destruct Hl' as [->|Hl']; [exists o; split; [left; reflexivity|exact Ho]|].
      destruct (IH Hl') as (o' & A & B). exists o'. split; [right; exact A|exact B]. }
    destruct G as (b & Hb & [[Hn _]|(_ & i' & j' & cs & Hi' & Hj' & HL & ->)]); [contradiction|].
    exists (line_pairs s l cs). split; [apply in_concat; eauto|]. apply in_map_iff. exists c. split; [reflexivity|]. apply (proj1 HL). split; [|exact HP].
    pose proof (to_unique _ _ (ir_trees _ _ _ R)) as T1. pose proof (lo_unique _ _ _ LT) as T2. rewrite NoDup_nth_error in T1, T2.
    assert (i = i') as <- by (apply T1; [apply nth_error_Some; congruence|congruence]).
    assert (j = j') as <- by (apply T2; [apply nth_error_Some; congruence|congruence]). exact Hc.
Qed.
Lemma add_lines_ok : forall issues r, big_polygons m -> no_empty_surface m -> no_empty_line m ->
  add_intersecting_lines_surfaces_elements px m trees lines issues r ->
  exists out found, r = Ok out /\ ii_issues out = ii_issues issues ++ found /\
    forall x, In x found <-> exists s l c, proposed_line m trees lines s l c /\ embedded_in_block m (co_id l) /\
     line_meets px (co_mesh s) (co_mesh l) c /\ x = (surface_element s (fst c), line_element l (snd c)).
Proof.
  intros issues r Big Hne Hnl (found & H & ->). destruct (lines_report_ok _ Big Hne Hnl H) as (outs & -> & F). cbn [bind].
  match goal with |- context[foldM ?f ?l issues] => destruct (add_fold _ f l issues) as (out & E & Hi & Hd) end.
  { intros x acc Hx. apply (lines_members _ _ F) in Hx. destruct Hx as (s & l & c & (Hs & _ & Hl & _) & _ & _ & ->).
    unfold element_component. cbn [fst snd surface_element line_element cid_id].
    rewrite get_surface_ok, get_line_ok by (try assumption; apply (ir_ids _ _ _ R)). cbn [bind]. eauto. }
  exists out, (concat (concat outs)). rewrite E. split; [reflexivity|]. split; [exact Hi|]. intros x. apply lines_members, F.
Qed.
End Lines.
End Model.
