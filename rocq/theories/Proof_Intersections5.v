From Coq Require Import String Ascii List Arith NArith ZArith Bool Lia Permutation.
From Verif Require Import Base BaseFacts Model_Issues Types Model_Intersections Spec_Colocation Spec_Intersections
  Proof_Intersections Proof_Intersections2 Proof_Intersections3 Proof_Intersections4.
Import ListNotations.
Open Scope list_scope.

Lemma fan_258 : forall polygon apex, length polygon = 258 -> polygon_fan_triangles polygon apex = Ok [].
Proof. intros polygon apex H. unfold polygon_fan_triangles. rewrite H. reflexivity. Qed.

Lemma surface_agree : forall px m candidates r1 r2,
  mesh_has_self_intersections px m candidates r1 -> surface_intersecting_elements px m candidates r2 ->
  exists b l, r1 = Ok b /\ r2 = Ok l /\ (b = true <-> ii_issues l <> []).
Proof.
  intros px m candidates r1 r2 H1 H2. destruct (surface_yes_no _ _ _ _ H1) as (b & -> & Hb). destruct (surface_list _ _ _ _ H2) as (l & -> & Hl).
  exists b, l. split; [reflexivity|]. split; [reflexivity|]. rewrite Hb, (lists_candidates_nonempty _ _ _ _ Hl). reflexivity.
Qed.
Lemma surface_complete : forall px m candidates l,
  (forall p q, p < nb_polygons m -> q < nb_polygons m -> surface_pair_meets px m (p, q) -> In (p, q) candidates \/ In (q, p) candidates) ->
  (forall p q, surface_pair_meets px m (p, q) -> surface_pair_meets px m (q, p)) ->
  surface_intersecting_elements px m candidates (Ok l) ->
  forall p q, p < nb_polygons m -> q < nb_polygons m -> surface_pair_meets px m (p, q) -> In (p, q) (ii_issues l) \/ In (q, p) (ii_issues l).
Proof.
  intros px m candidates l HT HS H p q Hp Hq HM. destruct (surface_list _ _ _ _ H) as (l' & E & [Hl _]). injection E as <-.
  destruct (HT p q Hp Hq HM) as [Hin|Hin]; [left|right]; apply Hl; auto.
Qed.
Lemma surface_runs : forall px m candidates,
  (exists r, surface_intersecting_elements px m candidates r) /\ (exists r, mesh_has_self_intersections px m candidates r).
Proof.
  intros px m candidates. split.
  - destruct (traverses_exists _ (record_action (surface_pair_intersects px m) false) candidates false []) as [r Hr]. eexists. exists r. split; [exact Hr|reflexivity].
  - destruct (traverses_exists _ (record_action (surface_pair_intersects px m) true) candidates false []) as [r Hr]. eexists. exists r. split; [exact Hr|reflexivity].
Qed.

(** C27 *)
Lemma empty_existsb : forall m, (exists s, In s (m_surfaces m) /\ co_active s = true /\ nb_polygons (co_mesh s) = 0) ->
  existsb (fun s => Nat.eqb (nb_polygons (co_mesh s)) 0) (active (m_surfaces m)) = true.
Proof. intros m (s & Hs & Ha & E). apply existsb_exists. exists s. split; [apply filter_In; auto|]. rewrite E. reflexivity. Qed.
Lemma empty_surfaces : forall px m trees issues r,
  (exists s, In s (m_surfaces m) /\ co_active s = true /\ nb_polygons (co_mesh s) = 0) ->
  add_intersecting_surfaces_elements px m trees issues r -> r = Ok issues.
Proof.
  intros px m trees issues r He (found & H & ->). unfold intersecting_polygons in H. rewrite (empty_existsb _ He) in H. subst found. reflexivity.
Qed.
Lemma empty_silences_lines : forall px m trees lines issues r,
  (exists s, In s (m_surfaces m) /\ co_active s = true /\ nb_polygons (co_mesh s) = 0) \/
  (exists l, In l (m_lines m) /\ co_active l = true /\ ec_edges (co_mesh l) = []) ->
  add_intersecting_lines_surfaces_elements px m trees lines issues r -> r = Ok issues.
Proof.
  intros px m trees lines issues r He (found & H & ->). unfold intersecting_lines_surfaces in H.
  assert (E : found = Ok []); [|subst found; reflexivity].
  destruct He as [He|(l & Hl & Ha & El)]; [rewrite (empty_existsb _ He) in H; exact H|].
  destruct (existsb _ (active (m_surfaces m))); [exact H|].
  replace (existsb (fun l => length (ec_edges (co_mesh l)) =? 0) (active (m_lines m))) with true in H; [exact H|].
  symmetry. apply existsb_exists. exists l. split; [apply filter_In; auto|]. rewrite El. reflexivity.
Qed.
Lemma empty_silences : forall px m trees,
  (exists s, In s (m_surfaces m) /\ co_active s = true /\ nb_polygons (co_mesh s) = 0) ->
  (forall issues r, add_intersecting_surfaces_elements px m trees issues r -> r = Ok issues) /\
  (forall r, section_inspect_intersections px m trees r -> exists l, r = Ok l /\ ii_issues l = []) /\
  (forall lines r, brep_inspect_intersections px m trees lines r -> exists l, r = Ok l /\ ii_issues l = []) /\
  (forall r, inspect_surfaces_self_intersections px m trees r -> exists l, r = Ok l /\ ii_issues l = []) /\
  (forall r, model_has_intersecting_surfaces px m trees r -> r = Ok false).
Proof.
  intros px m trees He. split; [|split; [|split; [|split]]].
  - intros issues r. apply empty_surfaces, He.
  - intros r H. apply empty_surfaces in H; [|exact He]. subst r. eexists. split; reflexivity.
  - intros lines r (r1 & H1 & H2). apply empty_surfaces in H1; [|exact He]. subst r1. apply empty_silences_lines in H2; [|left; exact He]. subst r. eexists. split; reflexivity.
  - intros r (found & H & ->). unfold intersecting_polygons in H. rewrite (empty_existsb _ He) in H. subst found. eexists. split; reflexivity.
  - intros r (found & H & ->). unfold intersecting_polygons in H. rewrite (empty_existsb _ He) in H. subst found. reflexivity.
Qed.
Lemma section_report : forall px m trees r, intersections_ready px m trees -> no_empty_surface m ->
  section_inspect_intersections px m trees r ->
  exists l, r = Ok l /\ surfaces_report (fun s1 s2 => lists_candidates (surfaces_meet px m s1 s2)) m trees (ii_issues l) /\
    forall x, In x (ii_issues l) <->
      exists s1 s2 c, proposed m trees s1 s2 c /\ surfaces_meet px m s1 s2 c /\ x = (surface_element s1 (fst c), surface_element s2 (snd c)).
Proof.
  intros px m trees r R Hne H. destruct (add_surfaces_ok px m trees R _ _ Hne H) as (out & found & -> & Hi & _ & HR).
  exists out. cbn in Hi. rewrite Hi. split; [reflexivity|]. split; [exact HR|]. apply all_members; assumption.
Qed.
Lemma empty_or_not : forall m, no_empty_surface m \/ exists s, In s (m_surfaces m) /\ co_active s = true /\ nb_polygons (co_mesh s) = 0.
Proof.
  intros m. destruct (existsb (fun s => Nat.eqb (nb_polygons (co_mesh s)) 0) (active (m_surfaces m))) eqn:E.
  - right. apply existsb_exists in E. destruct E as (s & Hs & E). apply filter_In in Hs. apply Nat.eqb_eq in E. exists s. tauto.
  - left. intros s Hs Ha E0. assert (G : existsb (fun s => Nat.eqb (nb_polygons (co_mesh s)) 0) (active (m_surfaces m)) = true); [|congruence].
    apply empty_existsb. exists s. auto.
Qed.
Lemma members_exist : forall A (B C : Type) (D : Type) (f : A -> B -> C -> D) (P : A -> B -> C -> Prop) (l : list D),
  (forall x, In x l <-> exists a b c, P a b c /\ x = f a b c) -> (l <> [] <-> exists a b c, P a b c).
Proof.
  intros A B C D f P l H. rewrite not_nil_exists. split.
  - intros [x Hx]. apply H in Hx. destruct Hx as (a & b & c & HP & _). eauto.
  - intros (a & b & c & HP). exists (f a b c). apply H. eauto.
Qed.
Lemma report_nonempty : forall px m trees found, intersections_ready px m trees ->
  surfaces_report (fun s1 s2 => lists_candidates (surfaces_meet px m s1 s2)) m trees found ->
  (found <> [] <-> exists s1 s2 c, proposed m trees s1 s2 c /\ surfaces_meet px m s1 s2 c).
Proof.
  intros px m trees found R HR. apply (members_exist _ _ _ _ (fun s1 s2 (c : nat * nat) => (surface_element s1 (fst c), surface_element s2 (snd c)))
    (fun s1 s2 c => proposed m trees s1 s2 c /\ surfaces_meet px m s1 s2 c)).
  intros x. pose proof (all_members px m trees R found HR x) as G. etransitivity; [exact G|].
  split; intros (a & b & c & H); exists a, b, c; tauto.
Qed.
Lemma model_agree : forall px m trees r1 r2, intersections_ready px m trees ->
  model_has_intersecting_surfaces px m trees r1 -> section_inspect_intersections px m trees r2 ->
  exists b l, r1 = Ok b /\ r2 = Ok l /\ (b = true <-> ii_issues l <> []).
Proof.
  intros px m trees r1 r2 R H1 H2. destruct (empty_or_not m) as [Hne|He].
  - destruct (model_yes_no px m trees R _ Hne H1) as (b & -> & Hb). destruct (section_report _ _ _ _ R Hne H2) as (l & -> & HR & _).
    exists b, l. split; [reflexivity|]. split; [reflexivity|]. etransitivity; [exact Hb|]. symmetry. apply report_nonempty; assumption.
  - destruct (empty_silences px m trees He) as (_ & A & _ & _ & B). apply B in H1. apply A in H2. destruct H2 as (l & -> & E).
    exists false, l. split; [exact H1|]. split; [reflexivity|]. rewrite E. split; [discriminate|congruence].
Qed.
Lemma self_report : forall px m trees r, intersections_ready px m trees -> no_empty_surface m ->
  inspect_surfaces_self_intersections px m trees r ->
  exists l, r = Ok l /\ forall x, In x (ii_issues l) <->
    exists s1 s2 c, proposed m trees s1 s2 c /\ co_id s1 = co_id s2 /\ surfaces_meet px m s1 s2 c /\
      x = (surface_element s1 (fst c), surface_element s2 (snd c)).
Proof.
  intros px m trees r R Hne H. destruct (auto_report_ok px m trees R _ _ Hne H) as (out & found & -> & Hi & HR).
  exists out. cbn in Hi. rewrite Hi. split; [reflexivity|]. intros x.
  pose proof (report_members px m trees R (fun s1 s2 c => co_id s1 = co_id s2 /\ surfaces_meet px m s1 s2 c) _ found (fun s1 s2 cands cs HL => proj1 HL) HR x) as G.
  etransitivity; [exact G|]. split; intros (a & b & c & K); exists a, b, c; tauto.
Qed.

(** C28 *)
Lemma curve_list : forall px surface curve candidates r, triangulated surface -> edges_exist curve ->
  candidates_in_range (nb_polygons surface) (length (ec_edges curve)) candidates ->
  curve_intersecting_elements px surface curve candidates r ->
  exists l, r = Ok l /\ lists_candidates (curve_meets px surface curve) candidates (ii_issues l).
Proof. intros px surface curve candidates r A B C. apply (curve_spec px surface curve candidates A B C). Qed.
Lemma curve_agree : forall px surface curve candidates r1 r2, triangulated surface -> edges_exist curve ->
  candidates_in_range (nb_polygons surface) (length (ec_edges curve)) candidates ->
  meshes_have_intersections px surface curve candidates r1 -> curve_intersecting_elements px surface curve candidates r2 ->
  exists b l, r1 = Ok b /\ r2 = Ok l /\ (b = true <-> ii_issues l <> []).
Proof.
  intros px surface curve candidates r1 r2 A B C H1 H2. destruct (curve_spec px surface curve candidates A B C) as [G1 G2].
  destruct (G1 _ H2) as (l & -> & Hl). destruct (G2 _ H1) as (b & -> & Hb). exists b, l.
  split; [reflexivity|]. split; [reflexivity|]. rewrite Hb, (lists_candidates_nonempty _ _ _ _ Hl). reflexivity.
Qed.
Lemma curve_vertex_contact : forall px surface curve c t s,
  sm_dimension surface <> 2 -> triangle_of surface (polygon_vertices surface (fst c)) t -> segment_of curve (snd c) s ->
  at_vertex (fst (px_segment_triangle px s t)) \/ fst (px_segment_triangle px s t) = Parallel -> at_vertex (snd (px_segment_triangle px s t)) ->
  (forall p, an_end s p -> px_point_triangle px p t = Outside \/ at_vertex (px_point_triangle px p t)) ->
  (forall p, an_end s p -> fst (px_segment_triangle px s t) = Parallel -> at_vertex (px_point_triangle px p t)) ->
  ~ curve_meets px surface curve c.
Proof.
  intros px surface curve c t s Hd Ht Hs H1 H2 H3 H4 (t' & s' & Ht' & Hs' & K).
  rewrite <- (triangle_of_fun _ _ _ _ Ht Ht'), <- (segment_of_fun _ _ _ _ Hs Hs') in K. clear Ht' Hs' t' s'.
  destruct (Nat.eqb_spec (sm_dimension surface) 2) as [E|_]; [contradiction|].
  destruct K as [(p & Hp & E)|(_ & _ & [E|[E|[E|[E (p & Hp & Hv)]]]])].
  - destruct (H3 p Hp) as [F|[F|[F|F]]]; congruence.
  - destruct H1 as [[F|[F|F]]|F]; congruence.
  - destruct H2 as [F|[F|F]]; congruence.
  - destruct H2 as [F|[F|F]], E as [E|[E|E]]; congruence.
  - apply Hv, H4; assumption.
Qed.

(** C29 *)
Lemma small_never : forall px m s1 s2 p q,
  length (polygon_vertices (co_mesh s1) p) < 3 \/ length (polygon_vertices (co_mesh s2) q) < 3 ->
  polygons_intersect px m s1 s2 p q = Ok false.
Proof.
  intros px m s1 s2 p q H. unfold polygons_intersect.
  destruct (Nat.ltb_spec (length (polygon_vertices (co_mesh s1) p)) 3); [reflexivity|].
  destruct (Nat.ltb_spec (length (polygon_vertices (co_mesh s2) q)) 3); [reflexivity|]. lia.
Qed.
Lemma common_full : forall m s1 s2 t1 t2, (forall v, In v t1 -> exists w, In w t2 /\ uv_of m s1 v = uv_of m s2 w) ->
  length (triangles_common_vertices m s1 s2 t1 t2) = length t1.
Proof.
  intros m s1 s2 t1 t2. induction t1 as [|v t1 IH]; intros H; [reflexivity|]. unfold triangles_common_vertices in *. cbn [flat_map].
  destruct (find _ t2) eqn:E.
  - cbn. rewrite IH; [reflexivity|]. intros w Hw. apply H. right. exact Hw.
  - exfalso. destruct (H v (or_introl eq_refl)) as (w & Hw & U). pose proof (find_none _ _ E w Hw) as F. cbn in F. apply same_uv_false in F. apply F. symmetry. exact U.
Qed.
Lemma three_shared : forall px m s1 s2 p q a b c t2,
  polygon_vertices (co_mesh s1) p = [a; b; c] -> polygon_vertices (co_mesh s2) q = t2 -> length t2 = 3 ->
  (forall v, In v [a; b; c] -> exists w, In w t2 /\ uv_of m s1 v = uv_of m s2 w) ->
  polygons_intersect px m s1 s2 p q = Ok true.
Proof.
  intros px m s1 s2 p q a b c t2 E1 E2 L H. unfold polygons_intersect. rewrite E1, E2. cbn [length Nat.ltb Nat.leb orb]. rewrite L. cbn [Nat.ltb Nat.leb Nat.eqb andb orb].
  unfold triangles_intersection_detection. rewrite common_full by exact H. reflexivity.
Qed.
Lemma unlinked_always : forall px m s1 s2 p q,
  length (polygon_vertices (co_mesh s1) p) = 3 -> length (polygon_vertices (co_mesh s2) q) = 3 ->
  (forall v, In v (polygon_vertices (co_mesh s1) p) -> uv_of m s1 v = None) ->
  (forall w, In w (polygon_vertices (co_mesh s2) q) -> uv_of m s2 w = None) ->
  polygons_intersect px m s1 s2 p q = Ok true.
Proof.
  intros px m s1 s2 p q H1 H2 U1 U2. destruct (polygon_vertices (co_mesh s1) p) as [|a [|b [|c [|]]]] eqn:E; try discriminate.
  eapply three_shared; [exact E|reflexivity|exact H2|]. intros v Hv. rewrite (U1 v Hv).
  destruct (polygon_vertices (co_mesh s2) q) as [|w t] eqn:E2; [discriminate|]. exists w. split; [left; reflexivity|]. symmetry. apply U2. left. reflexivity.
Qed.
Lemma inclusion_missed : forall px m s1 s2 p q t1 t2,
  sm_dimension (co_mesh s1) = 2 -> indices_in_range px -> polygons_ready (co_mesh s1) -> polygons_ready (co_mesh s2) -> readable m s1 s2 ->
  p < nb_polygons (co_mesh s1) -> q < nb_polygons (co_mesh s2) ->
  polygon_vertices (co_mesh s1) p = t1 -> polygon_vertices (co_mesh s2) q = t2 -> length t1 = 3 -> length t2 = 3 ->
  (forall v w, In v t1 -> In w t2 -> uv_of m s1 v <> uv_of m s2 w) ->
  (forall e1 e2 p1 q1 p2 q2, side t1 e1 -> side t2 e2 -> point_of (co_mesh s1) (fst e1) p1 -> point_of (co_mesh s1) (snd e1) q1 ->
     point_of (co_mesh s2) (fst e2) p2 -> point_of (co_mesh s2) (snd e2) q2 ->
     fst (px_segment_segment px (p1, q1) (p2, q2)) = Outside) ->
  polygons_intersect px m s1 s2 p q = Ok false.
Proof.
  intros px m s1 s2 p q t1 t2 Hd Hix R1 R2 Hr Hp Hq E1 E2 L1 L2 Hc Hs.
  destruct (polygons_decides px m s1 s2 p q Hix (fun _ => Hr) R1 R2 Hp Hq) as ([|] & E & Hb); [|exact E]. exfalso.
  destruct (proj1 Hb eq_refl) as (u1 & u2 & F1 & F2 & K). unfold meet2 in K. rewrite E1 in F1. rewrite E2 in F2.
  assert (u1 = t1) as -> by (clear - F1 L1; destruct t1 as [|a [|b [|c [|]]]]; try discriminate; apply fan_of_triangle, F1).
  assert (u2 = t2) as -> by (clear - F2 L2; destruct t2 as [|a [|b [|c [|]]]]; try discriminate; apply fan_of_triangle, F2).
  rewrite Hd in K. cbn [Nat.eqb] in K.
  assert (N : forall c, common_vertices m s1 s2 t2 t1 c -> c = []).
  { intros [|[v w] c] G; [reflexivity|]. exfalso. destruct (common_in _ _ _ _ _ _ v w G (or_introl eq_refl)) as (A & B & U). exact (Hc v w A B U). }
  destruct K as [c Hc' L|a b v w pa pb pv pw T1 T2 Hc'|c e1 e2 p1 q1 p2 q2 Hc' L S1 S2 P1 Q1 P2 Q2 (G & _)].
  - rewrite (N _ Hc') in L. discriminate.
  - discriminate (N _ Hc').
  - apply G. eapply Hs; eassumption.
Qed.

(** C47 *)
Lemma second_out_of_range : forall px m s1 s2 t1 t2 a b,
  sm_dimension (co_mesh s1) = 2 -> common_vertices m s1 s2 t2 t1 [a; b] -> fst a < length (sm_points (co_mesh s1)) ->
  length (sm_points (co_mesh s1)) <= snd b -> triangles_intersection_detection px m s1 s2 t1 t2 = UB.
Proof.
  intros px m s1 s2 t1 t2 a b Hd Hc Ha Hb. unfold triangles_intersection_detection, triangles_intersect.
  pose proof (common_spec m s1 s2 t1 t2) as Hc'. rewrite <- (common_fun _ _ _ _ _ _ _ Hc Hc'). cbn [length Nat.eqb]. rewrite Hd. cbn [Nat.eqb].
  unfold section_triangles_intersect. cbn [length Nat.eqb at_index nth_error bind].
  destruct (nth_error_lt _ _ _ Ha) as [p Hp]. unfold mesh_point. rewrite (at_index_ok _ _ _ _ Hp). cbn [bind].
  unfold at_index. rewrite (proj2 (nth_error_None _ _) Hb). reflexivity.
Qed.
Lemma same_numbers : forall px m s1 s2 t1 t2,
  (forall v w, In v t1 -> In w t2 -> uv_of m s1 v = uv_of m s2 w -> v = w) ->
  (triangles_meet_2d px m s1 s2 snd t1 t2 <-> triangles_meet_2d px m s1 s2 fst t1 t2).
Proof.
  intros px m s1 s2 t1 t2 H.
  assert (K : forall a b, common_vertices m s1 s2 t2 t1 [a; b] -> fst b = snd b).
  { intros a [b1 b2] Hc. destruct (common_in _ _ _ _ _ _ b1 b2 Hc) as (A & B & U); [right; left; reflexivity|]. cbn. apply H; assumption. }
  split; intros G; destruct G; try solve [eapply m2_three; eassumption|eapply m2_sides; eassumption].
  - eapply m2_two; try eassumption. rewrite (K _ _ H0). assumption.
  - eapply m2_two; try eassumption. rewrite <- (K _ _ H0). assumption.
Qed.

(** C48 *)
Lemma brep_report : forall px m trees lines r, intersections_ready px m trees -> line_trees_of m trees lines ->
  (forall l, In l (m_lines m) -> edges_exist (co_mesh l)) -> big_polygons m -> no_empty_surface m -> no_empty_line m ->
  brep_inspect_intersections px m trees lines r ->
  exists l surfaces_part lines_part, r = Ok l /\ ii_issues l = surfaces_part ++ lines_part /\
    surfaces_report (fun s1 s2 => lists_candidates (surfaces_meet px m s1 s2)) m trees surfaces_part /\
    forall x, In x lines_part <->
      exists s l c, proposed_line m trees lines s l c /\ embedded_in_block m (co_id l) /\
        line_meets px (co_mesh s) (co_mesh l) c /\ x = (surface_element s (fst c), line_element l (snd c)).
Proof.
  intros px m trees lines r R LT LE Big Hne Hnl (r1 & H1 & H2).
  destruct (add_surfaces_ok px m trees R _ _ Hne H1) as (out & found & -> & Hi & _ & HR).
  destruct (add_lines_ok px m trees R lines LT LE _ _ Big Hne Hnl H2) as (out2 & found2 & -> & Hi2 & HR2).
  exists out2, found, found2. split; [reflexivity|]. rewrite Hi2, Hi. auto.
Qed.
Lemma boolean_ignores_lines : forall px m trees lines r1 r2, intersections_ready px m trees -> line_trees_of m trees lines ->
  (forall l, In l (m_lines m) -> edges_exist (co_mesh l)) -> big_polygons m -> no_empty_surface m -> no_empty_line m ->
  model_has_intersecting_surfaces px m trees r1 -> brep_inspect_intersections px m trees lines r2 ->
  exists b l surfaces_part lines_part, r1 = Ok b /\ r2 = Ok l /\ ii_issues l = surfaces_part ++ lines_part /\
    (b = true <-> surfaces_part <> []) /\
    (forall x, In x surfaces_part -> exists s1 s2 c, x = (surface_element s1 (fst c), surface_element s2 (snd c))) /\
    (forall x, In x lines_part -> exists s l c, x = (surface_element s (fst c), line_element l (snd c))).
Proof.
  intros px m trees lines r1 r2 R LT LE Big Hne Hnl H1 H2. destruct (model_yes_no px m trees R _ Hne H1) as (b & -> & Hb).
  destruct (brep_report px m trees lines r2 R LT LE Big Hne Hnl H2) as (l & sp & lp & -> & Hi & HR & HL). exists b, l, sp, lp.
  split; [reflexivity|]. split; [reflexivity|]. split; [exact Hi|]. split; [etransitivity; [exact Hb|]; symmetry; apply report_nonempty; assumption|]. split.
  - intros x Hx. destruct (report_surfaces_exist _ _ _ _ _ HR Hx) as (s1 & s2 & c & _ & _ & E). eauto.
  - intros x Hx. apply HL in Hx. destruct Hx as (s & l' & c & _ & _ & _ & E). eauto.
Qed.

(** every query has an outcome *)
Lemma Forall2_exists : forall A B (R : A -> B -> Prop) l, (forall a, exists b, R a b) -> exists bs, Forall2 R l bs.
Proof. intros A B R l H. induction l as [|a l [bs IH]]; [exists []; constructor|]. destruct (H a) as [b Hb]. exists (b :: bs). constructor; assumption. Qed.
Lemma polygons_runs : forall px m trees a, exists r, intersecting_polygons px m trees a r.
Proof.
  intros px m trees a. unfold intersecting_polygons. destruct (existsb _ _); [eauto|].
  assert (PT : forall s1 s2 cands, exists r, pair_task px m a s1 s2 cands r).
  { intros s1 s2 cands. destruct (traverses_exists _ (surfaces_action px m s1 s2 a) cands false []) as [f Hf]. eexists. exists f. split; [exact Hf|reflexivity]. }
  assert (ST : forall s, exists r, self_task px m trees a s r).
  { intros s. unfold self_task. destruct (get_surface m (co_id s)); [|eauto..]. destruct (mesh_tree_id _ _); [|eauto..]. apply PT. }
  assert (OT : forall c, exists r, overlap_task px m trees a c r).
  { intros c. unfold overlap_task. match goal with |- exists r, match ?x with _ => _ end => destruct x as [[s1 s2]| |] end; [|eauto..]. apply PT. }
  destruct (Forall2_exists _ _ _ (active (m_surfaces m)) ST) as [sr Hsr].
  destruct (traverses_exists _ (record_action (fun _ => Ok true) false) (tr_overlaps trees) false []) as [o Ho].
  destruct (traverses_record _ _ _ _ _ _ Ho) as (vis & rest & _ & E & _); [intros c _; eauto|]. subst o. cbn [app] in Ho.
  destruct (Forall2_exists _ _ _ (filter (hit_of (fun _ : nat * nat => Ok true)) vis) OT) as [or Hor].
  eexists. exists sr, (filter (hit_of (fun _ : nat * nat => Ok true)) vis), or. auto.
Qed.
Lemma loop_runs : forall A S (body : A -> S -> outcome S -> Prop) l s, (forall a s, exists r, body a s r) -> exists r, loop body l s r.
Proof.
  intros A S body l s H. revert s. induction l as [|a l IH]; intros s; [exists (Ok s); constructor|].
  destruct (H a s) as [[s'|e|] Hr]; [destruct (IH s') as [r Hr']; exists r; eapply loop_step; eassumption|exists (Throw e); constructor; exact Hr|exists UB; constructor; exact Hr].
Qed.
Lemma lines_runs : forall px m trees lines, exists r, intersecting_lines_surfaces px m trees lines r.
Proof.
  intros. unfold intersecting_lines_surfaces. destruct (existsb _ _); [eauto|]. destruct (existsb _ _); [eauto|]. apply loop_runs. intros s acc.
  unfold surface_step. destruct (mesh_tree_id _ _) as [i| |]; [|eauto..]. apply loop_runs. intros l acc'. unfold line_surface_step.
  destruct (Nat.eqb _ _); [eauto|]. match goal with |- exists r, match ?x with _ => _ end => destruct x as [[[s' l'] j]| |] end; [|eauto..].
  destruct (traverses_exists _ (record_action (polygon_edge_intersect px (co_mesh s') (co_mesh l')) false) (lt_other lines i j) false []) as [f Hf].
  eexists. exists f. split; [exact Hf|reflexivity].
Qed.
Lemma model_runs : forall px m trees lines,
  (exists r, section_inspect_intersections px m trees r) /\ (exists r, brep_inspect_intersections px m trees lines r) /\
  (exists r, inspect_surfaces_self_intersections px m trees r) /\ (exists r, model_has_intersecting_surfaces px m trees r).
Proof.
  intros px m trees lines.
  assert (AS : forall issues, exists r, add_intersecting_surfaces_elements px m trees issues r).
  { intros issues. destruct (polygons_runs px m trees AllIntersections) as [f Hf]. eexists. exists f. split; [exact Hf|reflexivity]. }
  split; [|split; [|split]].
  - apply AS.
  - destruct (AS empty_intersections) as [r1 H1]. destruct r1 as [i1|e|].
    + destruct (lines_runs px m trees lines) as [f Hf]. eexists. exists (Ok i1). split; [exact H1|]. exists f. split; [exact Hf|reflexivity].
    + exists (Throw e), (Throw e). auto.
    + exists UB, UB. auto.
  - destruct (polygons_runs px m trees AutoIntersections) as [f Hf]. eexists. exists f. split; [exact Hf|reflexivity].
  - destruct (polygons_runs px m trees OneIntersection) as [f Hf]. eexists. exists f. split; [exact Hf|reflexivity].
Qed.
