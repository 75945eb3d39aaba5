(** Triangles, polygons and models. *)
From Coq Require Import String List Arith NArith ZArith Bool QArith Lqa Lia Permutation.
From Verif Require Import Base BaseFacts Model_Issues Types Model_Intersections Spec_Colocation Spec_Intersections Proof_Intersections Proof_Intersections2 Proof_Intersections3 Proof_Intersections4
  Proof_Intersections5 Spec_Symmetry Proof_Symmetry Spec_Geometry Proof_Geometry Proof_Geometry2 Proof_Geometry3 Proof_Geometry4.
Import ListNotations.
Open Scope nat_scope.
Open Scope list_scope.

Lemma triangle_in_mesh : forall (s : Component SurfaceMesh) t T, triangle_of (co_mesh s) t T -> in_mesh s t /\ List.length t = 3.
Proof.
  intros s t [[a b] c] (x & y & z & -> & A & B & C). split; [|reflexivity]. unfold point_of in *. cbn [fst snd] in *.
  intros v [<-|[<-|[<-|[]]]]; (match goal with H : nth_error ?l ?i = Some _ |- ?i < _ => apply nth_error_Some; rewrite H; discriminate end).
Qed.

(** *** A common side, "parallel" for all segments in the plane *)
Lemma side_plane : forall px m s1 s2 t1 t2 T1 T2 a b, triangle_of (co_mesh s1) t1 T1 -> triangle_of (co_mesh s2) t2 T2 ->
  finite_triangle T1 -> finite_triangle T2 -> real_triangle T1 -> real_triangle T2 ->
  common_vertices m s1 s2 t2 t1 [a; b] -> joined (co_mesh s1) (co_mesh s2) [a; b] -> parallel_is_plane px ->
  (triangles_meet_3d px m s1 s2 t1 t2 <-> forall i, i < 3 -> on_plane (corner T1 i) T2).
Proof.
  intros px m s1 s2 t1 t2 T1 T2 a b H1 H2 F1 F2 R1 R2 HC J PP.
  destruct (common_side_corners m s1 s2 t1 t2 T1 T2 a b H1 H2 R1 R2 HC J) as (v & w & pa & pb & pv & qa & qb & qw & V & W & Pa & Pb & Pv & Qa & Qb & Qw & S1 & S2 & EA & EB).
  assert (On2 : forall x, on_triangle x T2 <-> among x (place_of pa) (place_of pb) (place_of qw)).
  { intros x. rewrite (se_on _ _ _ _ S2 x). split; apply among_corners; assumption || (apply same_spot_sym; assumption). }
  assert (Pl2 : forall x, on_plane x T2 <-> of_plane x (place_of pa) (place_of pb) (place_of qw)).
  { intros x. rewrite (se_plane _ _ _ _ S2 x). split; apply plane_corners; assumption || (apply same_spot_sym; assumption). }
  destruct (third_in _ _ _ _ V) as (Iv & _). destruct a as [a1 a2], b as [b1 b2]. cbn [fst snd] in *.
  destruct (common_in m s1 s2 t1 t2 _ a1 a2 HC (or_introl eq_refl)) as (A1 & _).
  destruct (common_in m s1 s2 t1 t2 _ b1 b2 HC (or_intror (or_introl eq_refl))) as (B1 & _).
  pose proof (finite_vertex (co_mesh s1) t1 T1 a1 pa H1 F1 A1 Pa) as Fa. pose proof (finite_vertex (co_mesh s1) t1 T1 b1 pb H1 F1 B1 Pb) as Fb.
  pose proof (finite_vertex (co_mesh s1) t1 T1 v pv H1 F1 Iv Pv) as Fv.
  assert (Ca : on_plane (place_of pa) T2).
  { apply Pl2. exists 1%Q, 0%Q, 0%Q. split; [lra|]. destruct (place_of pa) as [[? ?] ?], (place_of pb) as [[? ?] ?], (place_of qw) as [[? ?] ?]. spots. repeat split; ring. }
  assert (Cb : on_plane (place_of pb) T2).
  { apply Pl2. exists 0%Q, 1%Q, 0%Q. split; [lra|]. destruct (place_of pa) as [[? ?] ?], (place_of pb) as [[? ?] ?], (place_of qw) as [[? ?] ?]. spots. repeat split; ring. }
  assert (Ta : exists x, on_segment x (pa, pv) /\ on_triangle x T2).
  { exists (place_of pa). split.
    - exists 1%Q, 0%Q. repeat (split; [lra|]). cbn [fst snd]. destruct (place_of pa) as [[? ?] ?], (place_of pv) as [[? ?] ?]. spots. repeat split; ring.
    - apply On2. exists 1%Q, 0%Q, 0%Q. repeat (split; [lra|]). destruct (place_of pa) as [[? ?] ?], (place_of pb) as [[? ?] ?], (place_of qw) as [[? ?] ?]. spots. repeat split; ring. }
  rewrite (two_meet px m s1 s2 t1 t2 T2 (a1, a2) (b1, b2) H2 HC). cbn [fst snd]. split.
  - intros (v' & pa' & pb' & pv' & V' & Pa' & Pb' & Pv' & K). rewrite <- (third_fun _ _ _ _ _ V V') in Pv'.
    rewrite <- (point_fun _ _ _ _ Pa Pa'), <- (point_fun _ _ _ _ Pb Pb'), <- (point_fun _ _ _ _ Pv Pv') in K. clear v' pa' pb' pv' V' Pa' Pb' Pv'.
    assert (Cv : on_plane (place_of pv) T2).
    { destruct K as [K|K]; apply PP in K; try (split; assumption); try assumption; destruct K as (_ & _ & K); exact K. }
    intros i Hi. destruct (se_corners _ _ _ _ S1 i Hi) as [ -> | [ -> | -> ] ]; assumption.
  - intros K. exists v, pa, pb, pv. repeat (split; [assumption|]). left. apply PP; [split; assumption|assumption..|]. split; [exact Ta|]. split; [exact Ca|].
    destruct (vertex_corner (co_mesh s1) t1 T1 v pv H1 Iv Pv) as (i & Li & _ & Ci). unfold segment_end. cbn [snd]. rewrite <- Ci. exact (K i Li).
Qed.

(** *** The test on two triangles *)
Lemma triangles_3d : forall px m s1 s2 t1 t2 T1 T2 c, triangle_of (co_mesh s1) t1 T1 -> triangle_of (co_mesh s2) t2 T2 ->
  finite_triangle T1 -> finite_triangle T2 -> real_triangle T1 -> real_triangle T2 ->
  common_vertices m s1 s2 t2 t1 c -> joined (co_mesh s1) (co_mesh s2) c -> exact_predicates px ->
  (triangles_meet_3d px m s1 s2 t1 t2 <-> List.length c = 3 \/ meet_beyond (co_mesh s1) c T1 T2 /\ ~ (List.length c = 2 /\ holds_corner T1 T2)).
Proof.
  intros px m s1 s2 t1 t2 T1 T2 c H1 H2 F1 F2 R1 R2 HC J (PO & PI & PL).
  pose proof (common_length m s1 s2 t1 t2 c HC) as L. destruct (triangle_in_mesh s1 t1 T1 H1) as (_ & L1). rewrite L1 in L.
  destruct (Nat.eq_dec (List.length c) 3) as [E3|N3].
  { split; [intros _; left; exact E3|]. intros _. eapply m3_three; eassumption. }
  destruct (Nat.eq_dec (List.length c) 2) as [E2|N2].
  - destruct c as [|a [|b [|? ?]]]; try discriminate E2.
    rewrite (side_overlap px m s1 s2 t1 t2 T1 T2 a b H1 H2 F1 F2 R1 R2 HC J PL). tauto.
  - assert (L2 : List.length c < 2) by lia. split.
    + intros M. right. split; [|intros (E & _); contradiction].
      inversion M as [c' C' L'|a' b' v pa pb pv T C' V Pa Pb Pv HT K|c' e p q T C' L' S P Q0 HT O K|c' e p q T C' L' S P Q0 HT O K];
        pose proof (common_fun m s1 s2 t1 t2 _ _ C' HC) as E; subst c || (rewrite <- E in * ); try (cbn in *; lia).
      * rewrite (triangle_fun _ _ _ _ HT H2) in O, K.
        exact (found_beyond_first px m s1 s2 t1 t2 T1 T2 c' H1 H2 F1 F2 HC J PI R1 R2 L2 e p q S P Q0 O K).
      * rewrite (triangle_fun _ _ _ _ HT H1) in O, K.
        exact (found_beyond_second px m s1 s2 t1 t2 T1 T2 c' H1 H2 F1 F2 HC J PI R1 R2 L2 e p q S P Q0 O K).
    + intros [K|(K & _)]; [contradiction|]. exact (beyond_found px m s1 s2 t1 t2 T1 T2 c H1 H2 F1 F2 HC J PO L2 K).
Qed.

Lemma triangle_test_3d : forall px m s1 s2 t1 t2 T1 T2 c, indices_in_range px -> exact_predicates px -> sm_dimension (co_mesh s1) <> 2 ->
  triangle_of (co_mesh s1) t1 T1 -> triangle_of (co_mesh s2) t2 T2 ->
  finite_triangle T1 -> finite_triangle T2 -> real_triangle T1 -> real_triangle T2 ->
  common_vertices m s1 s2 t2 t1 c -> joined (co_mesh s1) (co_mesh s2) c ->
  exists b, triangles_intersection_detection px m s1 s2 t1 t2 = Ok b /\
    (b = true <-> List.length c = 3 \/ meet_beyond (co_mesh s1) c T1 T2 /\ ~ (List.length c = 2 /\ holds_corner T1 T2)).
Proof.
  intros px m s1 s2 t1 t2 T1 T2 c Hix EX D H1 H2 F1 F2 R1 R2 HC J.
  destruct (triangle_in_mesh s1 t1 T1 H1) as (M1 & L1). destruct (triangle_in_mesh s2 t2 T2 H2) as (M2 & L2).
  destruct (triangle_pair_decides px m s1 s2 t1 t2 Hix) as (b & E & K); try assumption.
  - intros Z. contradiction.
  - exact (real_nodup _ _ _ H1 R1).
  - exact (real_nodup _ _ _ H2 R2).
  - exists b. split; [exact E|]. rewrite K. unfold meet2. destruct (Nat.eqb_spec (sm_dimension (co_mesh s1)) 2) as [Z|_]; [contradiction|].
    exact (triangles_3d px m s1 s2 t1 t2 T1 T2 c H1 H2 F1 F2 R1 R2 HC J EX).
Qed.
(** with predicates that overlook nothing and fewer than two common vertices, no contact is missed *)
Lemma triangle_never_missed : forall px m s1 s2 t1 t2 T1 T2 c, indices_in_range px -> overlooks_nothing px -> sm_dimension (co_mesh s1) <> 2 ->
  triangle_of (co_mesh s1) t1 T1 -> triangle_of (co_mesh s2) t2 T2 -> NoDup t1 -> NoDup t2 -> finite_triangle T1 -> finite_triangle T2 ->
  common_vertices m s1 s2 t2 t1 c -> joined (co_mesh s1) (co_mesh s2) c -> List.length c < 2 -> meet_beyond (co_mesh s1) c T1 T2 ->
  triangles_intersection_detection px m s1 s2 t1 t2 = Ok true.
Proof.
  intros px m s1 s2 t1 t2 T1 T2 c Hix PO D H1 H2 N1 N2 F1 F2 HC J L MB.
  destruct (triangle_in_mesh s1 t1 T1 H1) as (M1 & L1). destruct (triangle_in_mesh s2 t2 T2 H2) as (M2 & L2).
  destruct (triangle_pair_decides px m s1 s2 t1 t2 Hix) as (b & E & K); try assumption; [intros Z; contradiction|].
  rewrite E. f_equal. apply K. unfold meet2. destruct (Nat.eqb_spec (sm_dimension (co_mesh s1)) 2) as [Z|_]; [contradiction|].
  exact (beyond_found px m s1 s2 t1 t2 T1 T2 c H1 H2 F1 F2 HC J PO L MB).
Qed.
(** with predicates that invent nothing and fewer than two common vertices, no contact is invented *)
Lemma triangle_never_invented : forall px m s1 s2 t1 t2 T1 T2 c, indices_in_range px -> invents_nothing px -> sm_dimension (co_mesh s1) <> 2 ->
  triangle_of (co_mesh s1) t1 T1 -> triangle_of (co_mesh s2) t2 T2 -> finite_triangle T1 -> finite_triangle T2 -> real_triangle T1 -> real_triangle T2 ->
  common_vertices m s1 s2 t2 t1 c -> joined (co_mesh s1) (co_mesh s2) c -> List.length c < 2 ->
  triangles_intersection_detection px m s1 s2 t1 t2 = Ok true -> meet_beyond (co_mesh s1) c T1 T2.
Proof.
  intros px m s1 s2 t1 t2 T1 T2 c Hix PI D H1 H2 F1 F2 R1 R2 HC J L Et.
  destruct (triangle_in_mesh s1 t1 T1 H1) as (M1 & L1). destruct (triangle_in_mesh s2 t2 T2 H2) as (M2 & L2).
  destruct (triangle_pair_decides px m s1 s2 t1 t2 Hix) as (b & E & K); try assumption; [intros Z; contradiction|exact (real_nodup _ _ _ H1 R1)|exact (real_nodup _ _ _ H2 R2)|].
  rewrite Et in E. injection E as <-. pose proof (proj1 K eq_refl) as M. unfold meet2 in M. destruct (Nat.eqb_spec (sm_dimension (co_mesh s1)) 2) as [Z|_]; [contradiction|].
  inversion M as [c' C' L'|a' b' v pa pb pv T C' V Pa Pb Pv HT G|c' e p q T C' L' S P Q0 HT O G|c' e p q T C' L' S P Q0 HT O G];
    pose proof (common_fun m s1 s2 t1 t2 _ _ C' HC) as E; subst c || (rewrite <- E in * ); try (cbn in *; lia).
  - rewrite (triangle_fun _ _ _ _ HT H2) in O, G. exact (found_beyond_first px m s1 s2 t1 t2 T1 T2 c' H1 H2 F1 F2 HC J PI R1 R2 L e p q S P Q0 O G).
  - rewrite (triangle_fun _ _ _ _ HT H1) in O, G. exact (found_beyond_second px m s1 s2 t1 t2 T1 T2 c' H1 H2 F1 F2 HC J PI R1 R2 L e p q S P Q0 O G).
Qed.
Lemma triangle_plane : forall px m s1 s2 t1 t2 T1 T2 c, indices_in_range px -> parallel_is_plane px -> sm_dimension (co_mesh s1) <> 2 ->
  triangle_of (co_mesh s1) t1 T1 -> triangle_of (co_mesh s2) t2 T2 -> finite_triangle T1 -> finite_triangle T2 -> real_triangle T1 -> real_triangle T2 ->
  common_vertices m s1 s2 t2 t1 c -> joined (co_mesh s1) (co_mesh s2) c -> List.length c = 2 ->
  exists b, triangles_intersection_detection px m s1 s2 t1 t2 = Ok b /\ (b = true <-> forall i, i < 3 -> on_plane (corner T1 i) T2).
Proof.
  intros px m s1 s2 t1 t2 T1 T2 c Hix PP D H1 H2 F1 F2 R1 R2 HC J L.
  destruct (triangle_in_mesh s1 t1 T1 H1) as (M1 & L1). destruct (triangle_in_mesh s2 t2 T2 H2) as (M2 & L2).
  destruct (triangle_pair_decides px m s1 s2 t1 t2 Hix) as (b & E & K); try assumption; [intros Z; contradiction|exact (real_nodup _ _ _ H1 R1)|exact (real_nodup _ _ _ H2 R2)|].
  exists b. split; [exact E|]. rewrite K. unfold meet2. destruct (Nat.eqb_spec (sm_dimension (co_mesh s1)) 2) as [Z|_]; [contradiction|].
  destruct c as [|a [|b' [|? ?]]]; try discriminate L.
  exact (side_plane px m s1 s2 t1 t2 T1 T2 a b' H1 H2 F1 F2 R1 R2 HC J PP).
Qed.

(** *** Polygons *)
Lemma joined_here : forall m s1 s2 t1 t2 c, joined_surfaces m -> In s1 (m_surfaces m) -> In s2 (m_surfaces m) -> common_vertices m s1 s2 t2 t1 c ->
  joined (co_mesh s1) (co_mesh s2) c.
Proof.
  intros m s1 s2 t1 t2 c J I1 I2 C [v w] p q Ia P Q0. destruct (common_in m s1 s2 t1 t2 c v w C Ia) as (_ & _ & U). exact (J s1 s2 v w p q I1 I2 U P Q0).
Qed.
Lemma fan_in_mesh : forall (s : Component SurfaceMesh) p t, polygons_ready (co_mesh s) -> p < nb_polygons (co_mesh s) -> fan_triangle (polygon_vertices (co_mesh s) p) t ->
  exists T, triangle_of (co_mesh s) t T.
Proof.
  intros s p t R Hp F. destruct (R p Hp) as (N & M & _). destruct (fan_triangle_facts _ _ F) as (A & B & C).
  assert (K : forall v, In v t -> exists a, point_of (co_mesh s) v a).
  { intros v Hv. unfold point_of. destruct (nth_error (sm_points (co_mesh s)) v) as [a|] eqn:E; [exists a; reflexivity|].
    apply nth_error_None in E. specialize (M v (B v Hv)). lia. }
  destruct t as [|a [|b [|c [|]]]]; try discriminate A.
  destruct (K a) as [pa Ka]; [cbn; auto|]. destruct (K b) as [pb Kb]; [cbn; auto|]. destruct (K c) as [pc Kc]; [cbn; auto|].
  exists (pa, pb, pc), a, b, c. auto.
Qed.
Lemma meet_iff : forall px m s1 s2 t1 t2 T1 T2, exact_predicates px -> joined_surfaces m -> In s1 (m_surfaces m) -> In s2 (m_surfaces m) ->
  triangle_of (co_mesh s1) t1 T1 -> triangle_of (co_mesh s2) t2 T2 ->
  finite_triangle T1 /\ real_triangle T1 -> finite_triangle T2 /\ real_triangle T2 ->
  (triangles_meet_3d px m s1 s2 t1 t2 <-> reported_triangles m s1 s2 t1 t2).
Proof.
  intros px m s1 s2 t1 t2 T1 T2 EX J I1 I2 H1 H2 (F1 & R1) (F2 & R2).
  destruct (common_exists m s1 s2 t1 t2) as (c & HC).
  rewrite (triangles_3d px m s1 s2 t1 t2 T1 T2 c H1 H2 F1 F2 R1 R2 HC (joined_here _ _ _ _ _ _ J I1 I2 HC) EX).
  unfold reported_triangles, triangles_cross, nested_on_side. split.
  - intros K. split.
    + exists T1, T2, c. repeat (split; [assumption|]). tauto.
    + intros (T1' & T2' & c' & H1' & H2' & C' & L' & HH). rewrite (common_fun m s1 s2 t1 t2 _ _ C' HC) in L'.
      rewrite (triangle_fun _ _ _ _ H1' H1), (triangle_fun _ _ _ _ H2' H2) in HH. destruct K as [K|(_ & K)]; [lia|tauto].
  - intros ((T1' & T2' & c' & H1' & H2' & C' & K) & N). rewrite (common_fun m s1 s2 t1 t2 _ _ C' HC) in K.
    rewrite (triangle_fun _ _ _ _ H1' H1), (triangle_fun _ _ _ _ H2' H2) in K. destruct K as [K|K]; [left; exact K|]. right. split; [exact K|].
    intros (L & HH). apply N. exists T1, T2, c. tauto.
Qed.
Lemma polygons_3d : forall px m s1 s2 p q, indices_in_range px -> exact_predicates px -> sm_dimension (co_mesh s1) <> 2 -> joined_surfaces m ->
  In s1 (m_surfaces m) -> In s2 (m_surfaces m) -> polygons_ready (co_mesh s1) -> polygons_ready (co_mesh s2) ->
  solid_surface (co_mesh s1) -> solid_surface (co_mesh s2) -> p < nb_polygons (co_mesh s1) -> q < nb_polygons (co_mesh s2) ->
  polygons_meet s1 s2 (triangles_meet_3d px m s1 s2) p q <-> polygons_meet s1 s2 (reported_triangles m s1 s2) p q.
Proof.
  intros px m s1 s2 p q Hix EX D J I1 I2 P1 P2 S1 S2 Hp Hq. unfold polygons_meet. split; intros (t1 & t2 & F1 & F2 & K); exists t1, t2; (split; [exact F1|split; [exact F2|]]);
  destruct (fan_in_mesh s1 p t1 P1 Hp F1) as (T1 & H1); destruct (fan_in_mesh s2 q t2 P2 Hq F2) as (T2 & H2);
  apply (meet_iff px m s1 s2 t1 t2 T1 T2 EX J I1 I2 H1 H2 (S1 p t1 T1 Hp F1 H1) (S2 q t2 T2 Hq F2 H2)); exact K.
Qed.
Lemma polygon_test_3d : forall px m s1 s2 p q, indices_in_range px -> exact_predicates px -> sm_dimension (co_mesh s1) <> 2 -> joined_surfaces m ->
  In s1 (m_surfaces m) -> In s2 (m_surfaces m) -> polygons_ready (co_mesh s1) -> polygons_ready (co_mesh s2) ->
  solid_surface (co_mesh s1) -> solid_surface (co_mesh s2) -> p < nb_polygons (co_mesh s1) -> q < nb_polygons (co_mesh s2) ->
  exists b, polygons_intersect px m s1 s2 p q = Ok b /\ (b = true <-> polygons_meet s1 s2 (reported_triangles m s1 s2) p q).
Proof.
  intros px m s1 s2 p q Hix EX D J I1 I2 P1 P2 S1 S2 Hp Hq.
  destruct (polygons_decides px m s1 s2 p q Hix) as (b & E & K); try assumption; [intros Z; contradiction|]. exists b. split; [exact E|].
  rewrite K. unfold meet2. destruct (Nat.eqb_spec (sm_dimension (co_mesh s1)) 2) as [Z|_]; [contradiction|]. apply polygons_3d; assumption.
Qed.

(** *** Models *)
Lemma proposed_facts : forall px m trees s1 s2 c, intersections_ready px m trees -> proposed m trees s1 s2 c ->
  In s1 (m_surfaces m) /\ In s2 (m_surfaces m) /\ fst c < nb_polygons (co_mesh s1) /\ snd c < nb_polygons (co_mesh s2).
Proof.
  intros px m trees s1 s2 [p q] R [(<- & I & _ & i & Ei & Hc)|(I1 & I2 & i & j & Hij & E1 & E2 & Hc)].
  - destruct (to_self m trees (ir_trees _ _ _ R) s1 i I Ei p q Hc). tauto.
  - destruct (to_other m trees (ir_trees _ _ _ R) s1 s2 i j I1 I2 E1 E2 p q Hc). tauto.
Qed.
Lemma surfaces_meet_iff : forall px m trees s1 s2 c, intersections_ready px m trees -> exact_predicates px -> dimension_is m 3 -> joined_surfaces m -> solid_model m ->
  proposed m trees s1 s2 c ->
  (surfaces_meet px m s1 s2 c <-> different_polygons s1 s2 c /\ polygons_meet s1 s2 (reported_triangles m s1 s2) (fst c) (snd c)).
Proof.
  intros px m trees s1 s2 c R EX D J S P. destruct (proposed_facts px m trees s1 s2 c R P) as (I1 & I2 & Hp & Hq). unfold surfaces_meet.
  rewrite (D s1 I1). cbn [Nat.eqb]. apply and_iff_compat_both; [reflexivity|].
  apply polygons_3d; try assumption; try (apply (ir_surfaces _ _ _ R); assumption); try (apply S; assumption); [exact (ir_indices _ _ _ R)|rewrite (D s1 I1); discriminate].
Qed.
Lemma report_3d : forall px m trees r, intersections_ready px m trees -> no_empty_surface m -> exact_predicates px -> dimension_is m 3 -> joined_surfaces m -> solid_model m ->
  section_inspect_intersections px m trees r ->
  exists l, r = Ok l /\ forall x, In x (ii_issues l) <-> exists s1 s2 c, proposed m trees s1 s2 c /\ different_polygons s1 s2 c /\
    polygons_meet s1 s2 (reported_triangles m s1 s2) (fst c) (snd c) /\ x = (surface_element s1 (fst c), surface_element s2 (snd c)).
Proof.
  intros px m trees r R NE EX D J S H. destruct (section_report px m trees r R NE H) as (l & E & _ & K). exists l. split; [exact E|].
  intros x. rewrite (K x). split.
  - intros (s1 & s2 & c & P & M & X). apply (surfaces_meet_iff px m trees s1 s2 c R EX D J S P) in M. exists s1, s2, c. tauto.
  - intros (s1 & s2 & c & P & M1 & M2 & X). exists s1, s2, c. split; [exact P|]. split; [|exact X]. apply (surfaces_meet_iff px m trees s1 s2 c R EX D J S P). tauto.
Qed.
