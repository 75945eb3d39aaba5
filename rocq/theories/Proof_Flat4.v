(** Triangles, polygons and Sections. *)
From Coq Require Import String List Arith NArith ZArith Bool QArith Lqa Lia Permutation.
From Verif Require Import Base BaseFacts Model_Issues Types Model_Intersections Spec_Colocation Spec_Intersections Proof_Intersections Proof_Intersections2 Proof_Intersections3 Proof_Intersections4
  Proof_Intersections5 Spec_Symmetry Proof_Symmetry Spec_Geometry Proof_Geometry Proof_Geometry2 Proof_Geometry3 Proof_Geometry4 Proof_Geometry5 Proof_Geometry6
  Spec_Geometry2 Proof_Flat Proof_Flat2 Proof_Flat3.
Import ListNotations.
Open Scope nat_scope.
Open Scope list_scope.

Lemma triangle_test_2d : forall px m s1 s2 t1 t2 T1 T2 c, indices_in_range px -> exact_in_plane px -> sm_dimension (co_mesh s1) = 2 -> readable m s1 s2 ->
  triangle_of (co_mesh s1) t1 T1 -> triangle_of (co_mesh s2) t2 T2 -> plane_mesh (co_mesh s1) -> plane_mesh (co_mesh s2) -> real_triangle T1 -> real_triangle T2 ->
  common_vertices m s1 s2 t2 t1 c -> joined (co_mesh s1) (co_mesh s2) c -> second_right (co_mesh s1) c ->
  exists b, triangles_intersection_detection px m s1 s2 t1 t2 = Ok b /\
    (b = true <-> List.length c = 3 \/ meet_beyond (co_mesh s1) c T1 T2 /\
       ~ (List.length c < 2 /\ (engulfs (co_mesh s1) c T1 T2 \/ engulfs (co_mesh s1) c T2 T1))).
Proof.
  intros px m s1 s2 t1 t2 T1 T2 c Hix EX D RD H1 H2 P1 P2 R1 R2 HC J SR.
  destruct (triangle_in_mesh s1 t1 T1 H1) as (M1 & L1). destruct (triangle_in_mesh s2 t2 T2 H2) as (M2 & L2).
  destruct (triangle_pair_decides px m s1 s2 t1 t2 Hix) as (b & E & K); try assumption.
  - intros _. exact RD.
  - exact (real_nodup _ _ _ H1 R1).
  - exact (real_nodup _ _ _ H2 R2).
  - exists b. split; [exact E|]. rewrite K. unfold meet2. rewrite D. cbn [Nat.eqb].
    exact (triangles_2d px m s1 s2 t1 t2 T1 T2 c H1 H2 P1 P2 R1 R2 HC J EX RD SR).
Qed.
Lemma readable_self : forall m s, readable m s s.
Proof. intros m s v w _ H _. exact H. Qed.
Lemma right_self : forall mesh c, joined mesh mesh c -> second_right mesh c.
Proof. intros mesh c J a b p q -> P Q0. apply same_spot_sym. exact (J b p q (or_intror (or_introl eq_refl)) P Q0). Qed.
Lemma right_alike : forall m s1 s2 t1 t2 c, numbered_alike m -> In s1 (m_surfaces m) -> In s2 (m_surfaces m) -> common_vertices m s1 s2 t2 t1 c -> second_right (co_mesh s1) c.
Proof.
  intros m s1 s2 t1 t2 c N I1 I2 C a [v w] p q -> P Q0. destruct (common_in m s1 s2 t1 t2 _ v w C (or_intror (or_introl eq_refl))) as (_ & _ & U).
  exact (N s1 s2 v w p q I1 I2 U P Q0).
Qed.

(** *** Polygons *)
Lemma meet_iff_2d : forall px m s1 s2 t1 t2 T1 T2, exact_in_plane px -> joined_surfaces m -> readable m s1 s2 -> In s1 (m_surfaces m) -> In s2 (m_surfaces m) ->
  (forall c, common_vertices m s1 s2 t2 t1 c -> second_right (co_mesh s1) c) ->
  triangle_of (co_mesh s1) t1 T1 -> triangle_of (co_mesh s2) t2 T2 -> plane_mesh (co_mesh s1) -> plane_mesh (co_mesh s2) -> real_triangle T1 -> real_triangle T2 ->
  (triangles_meet_2d px m s1 s2 snd t1 t2 <-> reported_in_plane m s1 s2 t1 t2).
Proof.
  intros px m s1 s2 t1 t2 T1 T2 EX J RD I1 I2 SR H1 H2 P1 P2 R1 R2.
  destruct (common_exists m s1 s2 t1 t2) as (c & HC).
  rewrite (triangles_2d px m s1 s2 t1 t2 T1 T2 c H1 H2 P1 P2 R1 R2 HC (joined_here _ _ _ _ _ _ J I1 I2 HC) EX RD (SR c HC)).
  unfold reported_in_plane, triangles_cross, one_inside. split.
  - intros K. split.
    + exists T1, T2, c. repeat (split; [assumption|]). tauto.
    + intros (T1' & T2' & c' & H1' & H2' & C' & L' & HH). rewrite (common_fun m s1 s2 t1 t2 _ _ C' HC) in L', HH.
      rewrite (triangle_fun _ _ _ _ H1' H1), (triangle_fun _ _ _ _ H2' H2) in HH. destruct K as [K|(_ & K)]; [lia|tauto].
  - intros ((T1' & T2' & c' & H1' & H2' & C' & K) & N). rewrite (common_fun m s1 s2 t1 t2 _ _ C' HC) in K.
    rewrite (triangle_fun _ _ _ _ H1' H1), (triangle_fun _ _ _ _ H2' H2) in K. destruct K as [K|K]; [left; exact K|]. right. split; [exact K|].
    intros (L & HH). apply N. exists T1, T2, c. tauto.
Qed.
Lemma polygons_2d : forall px m s1 s2 p q, exact_in_plane px -> joined_surfaces m -> readable m s1 s2 ->
  In s1 (m_surfaces m) -> In s2 (m_surfaces m) -> (forall t1 t2 c, common_vertices m s1 s2 t2 t1 c -> second_right (co_mesh s1) c) ->
  polygons_ready (co_mesh s1) -> polygons_ready (co_mesh s2) ->
  solid_flat_surface (co_mesh s1) -> solid_flat_surface (co_mesh s2) -> p < nb_polygons (co_mesh s1) -> q < nb_polygons (co_mesh s2) ->
  polygons_meet s1 s2 (triangles_meet_2d px m s1 s2 snd) p q <-> polygons_meet s1 s2 (reported_in_plane m s1 s2) p q.
Proof.
  intros px m s1 s2 p q EX J RD I1 I2 SR P1 P2 (M1 & S1) (M2 & S2) Hp Hq. unfold polygons_meet. split; intros (t1 & t2 & F1 & F2 & K); exists t1, t2; (split; [exact F1|split; [exact F2|]]);
  destruct (fan_in_mesh s1 p t1 P1 Hp F1) as (T1 & H1); destruct (fan_in_mesh s2 q t2 P2 Hq F2) as (T2 & H2);
  apply (meet_iff_2d px m s1 s2 t1 t2 T1 T2 EX J RD I1 I2 (SR t1 t2) H1 H2 M1 M2 (S1 p t1 T1 Hp F1 H1) (S2 q t2 T2 Hq F2 H2)); exact K.
Qed.
Lemma polygon_test_2d : forall px m s1 s2 p q, indices_in_range px -> exact_in_plane px -> sm_dimension (co_mesh s1) = 2 -> joined_surfaces m -> numbered_alike m ->
  readable m s1 s2 -> In s1 (m_surfaces m) -> In s2 (m_surfaces m) -> polygons_ready (co_mesh s1) -> polygons_ready (co_mesh s2) ->
  solid_flat_surface (co_mesh s1) -> solid_flat_surface (co_mesh s2) -> p < nb_polygons (co_mesh s1) -> q < nb_polygons (co_mesh s2) ->
  exists b, polygons_intersect px m s1 s2 p q = Ok b /\ (b = true <-> polygons_meet s1 s2 (reported_in_plane m s1 s2) p q).
Proof.
  intros px m s1 s2 p q Hix EX D J N RD I1 I2 P1 P2 S1 S2 Hp Hq.
  destruct (polygons_decides px m s1 s2 p q Hix) as (b & E & K); try assumption; [intros _; exact RD|]. exists b. split; [exact E|].
  rewrite K. unfold meet2. rewrite D. cbn [Nat.eqb]. apply polygons_2d; try assumption. intros t1 t2 c C. exact (right_alike m s1 s2 t1 t2 c N I1 I2 C).
Qed.

(** *** Sections *)
Lemma surfaces_meet_2d : forall px m trees s1 s2 c, intersections_ready px m trees -> exact_in_plane px -> dimension_is m 2 -> joined_surfaces m ->
  (s1 = s2 \/ numbered_alike m) -> solid_section m -> proposed m trees s1 s2 c ->
  (surfaces_meet px m s1 s2 c <-> different_polygons s1 s2 c /\ polygons_meet s1 s2 (reported_in_plane m s1 s2) (fst c) (snd c)).
Proof.
  intros px m trees s1 s2 c R EX D J N S P. destruct (proposed_facts px m trees s1 s2 c R P) as (I1 & I2 & Hp & Hq). unfold surfaces_meet.
  rewrite (D s1 I1). cbn [Nat.eqb]. apply and_iff_compat_both; [reflexivity|].
  apply polygons_2d; try assumption; try (apply (ir_surfaces _ _ _ R); assumption); try (apply S; assumption).
  - intros v w Hv Hw U. exact (ir_second _ _ _ R s1 I1 (D s1 I1) s1 s2 v w I1 I2 Hv Hw U).
  - intros t1 t2 c' C. destruct N as [<-|N]; [apply right_self; exact (joined_here _ _ _ _ _ _ J I1 I1 C)|exact (right_alike m s1 s2 t1 t2 c' N I1 I2 C)].
Qed.
Lemma report_2d : forall px m trees r, intersections_ready px m trees -> no_empty_surface m -> exact_in_plane px -> dimension_is m 2 -> joined_surfaces m -> numbered_alike m ->
  solid_section m -> section_inspect_intersections px m trees r ->
  exists l, r = Ok l /\ forall x, In x (ii_issues l) <-> exists s1 s2 c, proposed m trees s1 s2 c /\ different_polygons s1 s2 c /\
    polygons_meet s1 s2 (reported_in_plane m s1 s2) (fst c) (snd c) /\ x = (surface_element s1 (fst c), surface_element s2 (snd c)).
Proof.
  intros px m trees r R NE EX D J N S H. destruct (section_report px m trees r R NE H) as (l & E & _ & K). exists l. split; [exact E|].
  intros x. rewrite (K x). split.
  - intros (s1 & s2 & c & P & M & X). apply (surfaces_meet_2d px m trees s1 s2 c R EX D J (or_intror N) S P) in M. exists s1, s2, c. tauto.
  - intros (s1 & s2 & c & P & M1 & M2 & X). exists s1, s2, c. split; [exact P|]. split; [|exact X]. apply (surfaces_meet_2d px m trees s1 s2 c R EX D J (or_intror N) S P). tauto.
Qed.
Lemma same_id : forall m s1 s2, unique_ids m -> In s1 (m_surfaces m) -> In s2 (m_surfaces m) -> co_id s1 = co_id s2 -> s1 = s2.
Proof.
  intros m s1 s2 U I1 I2 E. pose proof (get_surface_ok m s1 U I1) as E1. pose proof (get_surface_ok m s2 U I2) as E2. rewrite <- E, E1 in E2. injection E2. auto.
Qed.
Lemma self_report_2d : forall px m trees r, intersections_ready px m trees -> no_empty_surface m -> exact_in_plane px -> dimension_is m 2 -> joined_surfaces m ->
  solid_section m -> inspect_surfaces_self_intersections px m trees r ->
  exists l, r = Ok l /\ forall x, In x (ii_issues l) <-> exists s c, proposed m trees s s c /\ fst c <> snd c /\
    polygons_meet s s (reported_in_plane m s s) (fst c) (snd c) /\ x = (surface_element s (fst c), surface_element s (snd c)).
Proof.
  intros px m trees r R NE EX D J S H. destruct (self_report px m trees r R NE H) as (l & E & K). exists l. split; [exact E|].
  intros x. rewrite (K x). split.
  - intros (s1 & s2 & c & P & EI & M & X). destruct (proposed_facts px m trees s1 s2 c R P) as (I1 & I2 & _).
    pose proof (same_id m s1 s2 (ir_ids _ _ _ R) I1 I2 EI) as <-.
    apply (surfaces_meet_2d px m trees s1 s1 c R EX D J (or_introl eq_refl) S P) in M. destruct M as (M1 & M2).
    exists s1, c. split; [exact P|]. split; [intros Z; apply M1; tauto|]. tauto.
  - intros (s & c & P & M1 & M2 & X). exists s, s, c. split; [exact P|]. split; [reflexivity|]. split; [|exact X].
    apply (surfaces_meet_2d px m trees s s c R EX D J (or_introl eq_refl) S P). split; [intros (_ & Z); contradiction|exact M2].
Qed.

(** *** A silent inspection *)
Lemma engulfs_dec : forall m s1 s2 t1 t2 T1 T2 c T T', triangle_of (co_mesh s1) t1 T1 -> triangle_of (co_mesh s2) t2 T2 ->
  common_vertices m s1 s2 t2 t1 c -> joined (co_mesh s1) (co_mesh s2) c -> List.length c < 2 -> engulfs (co_mesh s1) c T T' \/ ~ engulfs (co_mesh s1) c T T'.
Proof.
  intros m s1 s2 t1 t2 T1 T2 c T T' H1 H2 HC J L. destruct (common_place m s1 s2 t1 t2 T1 T2 c H1 H2 HC J L) as (P & _ & _ & HP & _).
  destruct (inside_dec P (corner T 0) (corner T 1) (corner T 2) (corner T' 0) (corner T' 1) (corner T' 2)) as [K|(z & Z & O & NS)].
  - left. apply (engulfs_inside s1 c P T T' HP). exact K.
  - right. intros K. apply NS. apply (engulfs_inside s1 c P T T' HP) in K. exact (K z Z O).
Qed.
Lemma engulfs_same : forall mesh1 mesh2 c c' T T', (forall x, in_common mesh2 c' x -> in_common mesh1 c x) -> engulfs mesh2 c' T T' -> engulfs mesh1 c T T'.
Proof. intros mesh1 mesh2 c c' T T' X K i Li. destruct (K i Li) as [G|G]; [left; exact G|right; exact (X _ G)]. Qed.
Lemma silence_2d : forall px m trees s1 s2 p q t1 t2 T1 T2 c, intersections_ready px m trees -> no_empty_surface m -> exact_in_plane px -> dimension_is m 2 ->
  joined_surfaces m -> numbered_alike m -> solid_section m -> boxes_complete m trees -> model_has_intersecting_surfaces px m trees (Ok false) ->
  In s1 (m_surfaces m) -> In s2 (m_surfaces m) -> co_active s1 = true -> co_active s2 = true ->
  p < nb_polygons (co_mesh s1) -> q < nb_polygons (co_mesh s2) -> ~ (co_id s1 = co_id s2 /\ p = q) ->
  fan_triangle (polygon_vertices (co_mesh s1) p) t1 -> fan_triangle (polygon_vertices (co_mesh s2) q) t2 ->
  triangle_of (co_mesh s1) t1 T1 -> triangle_of (co_mesh s2) t2 T2 -> common_vertices m s1 s2 t2 t1 c ->
  List.length c <> 3 /\ (meet_beyond (co_mesh s1) c T1 T2 -> List.length c < 2 /\ (engulfs (co_mesh s1) c T1 T2 \/ engulfs (co_mesh s1) c T2 T1)).
Proof.
  intros px m trees s1 s2 p q t1 t2 T1 T2 c R NE EX D J NA S B H I1 I2 A1 A2 Hp Hq Df F1 F2 H1 H2 C.
  destruct (model_runs px m trees (mkLineTrees [] (fun _ _ => []))) as ((r & Hr) & _).
  destruct (report_2d px m trees r R NE EX D J NA S Hr) as (l & -> & K).
  destruct (model_agree px m trees _ _ R H Hr) as (b & l' & E1 & E2 & G). injection E1 as <-. injection E2 as <-.
  assert (Nil : forall x, ~ In x (ii_issues l)).
  { intros x Hx. assert (false = true); [|discriminate]. apply G. intros Z. rewrite Z in Hx. destruct Hx. }
  pose proof (proj2 (S s1 I1) p t1 T1 Hp F1 H1) as R1. pose proof (proj2 (S s2 I2) q t2 T2 Hq F2 H2) as R2.
  assert (M : List.length c = 3 \/ meet_beyond (co_mesh s1) c T1 T2 -> List.length c < 2 /\ (engulfs (co_mesh s1) c T1 T2 \/ engulfs (co_mesh s1) c T2 T1)).
  { intros X. destruct (Nat.lt_ge_cases (List.length c) 2) as [L|L].
    - destruct (engulfs_dec m s1 s2 t1 t2 T1 T2 c T1 T2 H1 H2 C (joined_here _ _ _ _ _ _ J I1 I2 C) L) as [G1|G1]; [tauto|].
      destruct (engulfs_dec m s1 s2 t1 t2 T1 T2 c T2 T1 H1 H2 C (joined_here _ _ _ _ _ _ J I1 I2 C) L) as [G2|G2]; [tauto|]. exfalso.
      assert (Y : exists x, on_triangle x T1 /\ on_triangle x T2) by (destruct X as [X|(x & X1 & X2 & _)]; [lia|exists x; tauto]).
      destruct Y as (x & X1 & X2). destruct (B s1 s2 p q t1 t2 T1 T2 x I1 I2 A1 A2 Hp Hq Df F1 F2 H1 H2 X1 X2) as [P|P].
      + apply (Nil (surface_element s1 p, surface_element s2 q)). apply K.
        exists s1, s2, (p, q). split; [exact P|]. split; [exact Df|]. split; [|reflexivity]. exists t1, t2. split; [exact F1|]. split; [exact F2|]. split.
        * exists T1, T2, c. tauto.
        * intros (T1' & T2' & c' & H1' & H2' & C' & L' & HH'). rewrite (triangle_fun _ _ _ _ H1' H1), (triangle_fun _ _ _ _ H2' H2), (common_fun m s1 s2 t1 t2 _ _ C' C) in HH'. tauto.
      + destruct (cross_swap m s1 s2 t1 t2 T1 T2 c J I1 I2 H1 H2 R1 R2 C X) as (c' & C' & EL & X').
        assert (Df' : ~ (co_id s2 = co_id s1 /\ q = p)) by (intros (E & E'); apply Df; split; congruence).
        apply (Nil (surface_element s2 q, surface_element s1 p)). apply K.
        exists s2, s1, (q, p). split; [exact P|]. split; [exact Df'|]. split; [|reflexivity]. exists t2, t1. split; [exact F2|]. split; [exact F1|]. split.
        * exists T2, T1, c'. tauto.
        * intros (T1' & T2' & c2 & H1' & H2' & C2 & L' & HH'). rewrite (triangle_fun _ _ _ _ H1' H2), (triangle_fun _ _ _ _ H2' H1), (common_fun m s2 s1 t2 t1 _ _ C2 C') in HH'.
          assert (CP : forall y, in_common (co_mesh s2) c' y -> in_common (co_mesh s1) c y) by (intros y; apply (common_part_swap m s1 s2 t1 t2 T1 T2 c c' y J I1 I2 H1 H2 R1 R2 C C')).
          destruct HH' as [HH'|HH']; apply (engulfs_same (co_mesh s1) (co_mesh s2) c c' _ _ CP) in HH'; tauto.
    - exfalso. assert (Y : exists x, on_triangle x T1 /\ on_triangle x T2).
      { apply (share_common m s1 s2 t1 t2 T1 T2 c J I1 I2 H1 H2 C). intros ->. cbn in L. lia. }
      destruct Y as (x & X1 & X2). destruct (B s1 s2 p q t1 t2 T1 T2 x I1 I2 A1 A2 Hp Hq Df F1 F2 H1 H2 X1 X2) as [P|P].
      + apply (Nil (surface_element s1 p, surface_element s2 q)). apply K.
        exists s1, s2, (p, q). split; [exact P|]. split; [exact Df|]. split; [|reflexivity]. exists t1, t2. split; [exact F1|]. split; [exact F2|]. split.
        * exists T1, T2, c. tauto.
        * intros (T1' & T2' & c' & H1' & H2' & C' & L' & HH'). rewrite (common_fun m s1 s2 t1 t2 _ _ C' C) in L'. lia.
      + destruct (cross_swap m s1 s2 t1 t2 T1 T2 c J I1 I2 H1 H2 R1 R2 C X) as (c' & C' & EL & X').
        assert (Df' : ~ (co_id s2 = co_id s1 /\ q = p)) by (intros (E & E'); apply Df; split; congruence).
        apply (Nil (surface_element s2 q, surface_element s1 p)). apply K.
        exists s2, s1, (q, p). split; [exact P|]. split; [exact Df'|]. split; [|reflexivity]. exists t2, t1. split; [exact F2|]. split; [exact F1|]. split.
        * exists T2, T1, c'. tauto.
        * intros (T1' & T2' & c2 & H1' & H2' & C2 & L' & HH'). rewrite (common_fun m s2 s1 t2 t1 _ _ C2 C') in L'. lia. }
  split.
  - intros L. destruct M as (L2 & _); [tauto|lia].
  - intros X. apply M. right. exact X.
Qed.
