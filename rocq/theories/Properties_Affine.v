(** C87: moving, turning, stretching or shearing an object changes none of the reported intersections: with exact predicates they are the same
    for any two positions related by a one-to-one affine map, whatever else differs between the two sets of predicates. *)
From Coq Require Import String List Arith NArith ZArith Bool QArith Lqa Lia Permutation SpecFloat.
From Verif Require Import Base BaseFacts Model_Issues Types Model_Intersections Spec_Colocation Spec_Intersections Spec_Geometry Spec_Geometry2 Spec_Geometry3 Spec_Moved Spec_Affine
  Proof_Intersections3 Proof_Intersections4 Proof_Intersections5 Proof_Geometry Proof_Geometry5 Proof_Locate2 Proof_Affine Proof_Affine2 Proof_Exact Proof_Exact2 Proof_Exact5
  Properties_Intersections Properties_Geometry Properties_Geometry2 Properties_Geometry3.
Import ListNotations.
Open Scope nat_scope.
Open Scope list_scope.

(** the affine maps that are meant: a one-to-one matrix and a translation *)
Definition matrix_map (m00 m01 m02 m10 m11 m12 m20 m21 m22 u0 u1 u2 : Q) (x : place) : place :=
  let '(x0, x1, x2) := x in (m00 * x0 + m01 * x1 + m02 * x2 + u0, m10 * x0 + m11 * x1 + m12 * x2 + u1, m20 * x0 + m21 * x1 + m22 * x2 + u2)%Q.
Theorem C87_matrices : forall m00 m01 m02 m10 m11 m12 m20 m21 m22 u0 u1 u2,
  ~ (m00 * (m11 * m22 - m12 * m21) - m01 * (m10 * m22 - m12 * m20) + m02 * (m10 * m21 - m11 * m20) == 0)%Q ->
  affine_one_to_one (matrix_map m00 m01 m02 m10 m11 m12 m20 m21 m22 u0 u1 u2).
Proof.
  intros m00 m01 m02 m10 m11 m12 m20 m21 m22 u0 u1 u2 D. constructor.
  - intros a b c [[p0 p1] p2] [[q0 q1] q2] [[r0 r1] r2] S. cbn. assert (E : (c == 1 - a - b)%Q) by lra. rewrite E. split; [ring|]. split; ring.
  - intros [[x0 x1] x2] [[y0 y1] y2]. cbn. intros (-> & -> & ->). split; [reflexivity|]. split; reflexivity.
  - intros [[x0 x1] x2] [[y0 y1] y2]. cbn. intros (E0 & E1 & E2).
    set (d := (m00 * (m11 * m22 - m12 * m21) - m01 * (m10 * m22 - m12 * m20) + m02 * (m10 * m21 - m11 * m20))%Q) in *.
    assert (K : forall z w : Q, (d * (z - w) == 0)%Q -> (z == w)%Q) by (intros z w H; apply Qmult_integral in H; destruct H as [H|H]; [destruct (D H)|lra]).
    set (e0 := (m00 * (x0 - y0) + m01 * (x1 - y1) + m02 * (x2 - y2))%Q). set (e1 := (m10 * (x0 - y0) + m11 * (x1 - y1) + m12 * (x2 - y2))%Q). set (e2 := (m20 * (x0 - y0) + m21 * (x1 - y1) + m22 * (x2 - y2))%Q).
    assert (F0 : (e0 == 0)%Q) by (unfold e0; lra). assert (F1 : (e1 == 0)%Q) by (unfold e1; lra). assert (F2 : (e2 == 0)%Q) by (unfold e2; lra).
    split; [|split]; apply K.
    + transitivity ((m11 * m22 - m12 * m21) * e0 - (m01 * m22 - m02 * m21) * e1 + (m01 * m12 - m02 * m11) * e2)%Q; [unfold d, e0, e1, e2; ring|rewrite F0, F1, F2; ring].
    + transitivity (- (m10 * m22 - m12 * m20) * e0 + (m00 * m22 - m02 * m20) * e1 - (m00 * m12 - m02 * m10) * e2)%Q; [unfold d, e0, e1, e2; ring|rewrite F0, F1, F2; ring].
    + transitivity ((m10 * m21 - m11 * m20) * e0 - (m00 * m21 - m01 * m20) * e1 + (m00 * m11 - m01 * m10) * e2)%Q; [unfold d, e0, e1, e2; ring|rewrite F0, F1, F2; ring].
Qed.
Print Assumptions C87_matrices.

(** *** The pairs of a report, for one meaning of "meet" *)
Lemma same_pairs : forall A g text m trees trees' (R : Component SurfaceMesh -> Component SurfaceMesh -> list nat -> list nat -> Prop) R', affine_one_to_one A -> joined_surfaces m ->
  same_touching_pairs m trees trees' ->
  (forall s1 s2 t1 t2, In s1 (m_surfaces m) -> In s2 (m_surfaces m) -> (R' (moved_component (moved_surface g) s1) (moved_component (moved_surface g) s2) t1 t2 <-> R s1 s2 t1 t2)) ->
  (forall s1 s2 t1 t2, R s1 s2 t1 t2 -> triangles_cross m s1 s2 t1 t2) ->
  forall x, (exists s1 s2 c, proposed (moved_model g text m) trees' s1 s2 c /\ different_polygons s1 s2 c /\ polygons_meet s1 s2 (R' s1 s2) (fst c) (snd c) /\ x = (surface_element s1 (fst c), surface_element s2 (snd c))) <->
    exists s1 s2 c, proposed m trees s1 s2 c /\ different_polygons s1 s2 c /\ polygons_meet s1 s2 (R s1 s2) (fst c) (snd c) /\ x = (surface_element s1 (fst c), surface_element s2 (snd c)).
Proof.
  intros A g text m trees trees' R R' HA J T E C x. split.
  - intros (s1' & s2' & c & P & D & M & X). apply proposed_moved in P as (s1 & s2 & -> & -> & P). destruct (proposed_in m trees' s1 s2 c P) as (I1 & I2).
    apply (meet_moved g s1 s2 (R s1 s2)) in M; [|intros t1 t2; apply E; assumption]. exists s1, s2, c. split; [|split; [exact D|split; [exact M|exact X]]].
    apply (T s1 s2 c); [|exact P]. exact (meeting_touches m s1 s2 (R s1 s2) c J I1 I2 (C s1 s2) M).
  - intros (s1 & s2 & c & P & D & M & X). destruct (proposed_in m trees s1 s2 c P) as (I1 & I2).
    exists (moved_component (moved_surface g) s1), (moved_component (moved_surface g) s2), c. split; [|split; [exact D|split; [|exact X]]].
    + apply proposed_moved. exists s1, s2. split; [reflexivity|]. split; [reflexivity|]. apply (T s1 s2 c); [|exact P]. exact (meeting_touches m s1 s2 (R s1 s2) c J I1 I2 (C s1 s2) M).
    + apply (meet_moved g s1 s2 (R s1 s2)); [intros t1 t2; apply E; assumption|exact M].
Qed.

(** ** The surfaces of a Section, in the plane *)
Theorem C87_section : forall A g text px px' m trees trees' r r', affine_one_to_one A -> surfaces_follow A g m -> (forall s, In s (m_surfaces m) -> stays_in_plane g (sm_points (co_mesh s))) ->
  exact_in_plane px -> exact_in_plane px' -> indices_in_range px' ->
  intersections_ready px m trees -> trees_of m trees' -> same_touching_pairs m trees trees' ->
  no_empty_surface m -> dimension_is m 2 -> joined_surfaces m -> numbered_alike m -> solid_section m ->
  section_inspect_intersections px m trees r -> section_inspect_intersections px' (moved_model g text m) trees' r' ->
  exists l l', r = Ok l /\ r' = Ok l' /\ forall x, In x (ii_issues l') <-> In x (ii_issues l).
Proof.
  intros A g text px px' m trees trees' r r' HA SF PL EX EX' IX R T' ST NE D J N S H H'.
  assert (R' : intersections_ready px' (moved_model g text m) trees') by (apply (ready_moved g text m px px' trees' IX); destruct R; constructor; assumption).
  destruct (C78_report px m trees r R NE EX D J N S H) as (l & -> & K).
  destruct (C78_report px' (moved_model g text m) trees' r' R' (not_empty_moved g text m NE) EX' (dimension_moved g text m 2 D) (joined_moved A HA g text m SF J) (numbered_moved A HA g text m SF N)
    (solid_section_moved A HA g text m SF PL S) H') as (l' & -> & K').
  exists l, l'. split; [reflexivity|]. split; [reflexivity|]. intros x. rewrite K, K'.
  apply (same_pairs A g text m trees trees' (reported_in_plane m) (reported_in_plane (moved_model g text m)) HA J ST); [|intros s1 s2 t1 t2 (C & _); exact C].
  intros s1 s2 t1 t2 I1 I2. exact (reported_plane_moved A HA g text m s1 s2 (SF s1 I1) (SF s2 I2) t1 t2).
Qed.
Print Assumptions C87_section.
(** ** The surfaces of a BRep, in space *)
Theorem C87_surfaces : forall A g text px px' m trees trees' r r', affine_one_to_one A -> surfaces_follow A g m ->
  exact_predicates px -> exact_predicates px' -> indices_in_range px' ->
  intersections_ready px m trees -> trees_of m trees' -> same_touching_pairs m trees trees' ->
  no_empty_surface m -> dimension_is m 3 -> joined_surfaces m -> solid_model m ->
  section_inspect_intersections px m trees r -> section_inspect_intersections px' (moved_model g text m) trees' r' ->
  exists l l', r = Ok l /\ r' = Ok l' /\ forall x, In x (ii_issues l') <-> In x (ii_issues l).
Proof.
  intros A g text px px' m trees trees' r r' HA SF EX EX' IX R T' ST NE D J S H H'.
  assert (R' : intersections_ready px' (moved_model g text m) trees') by (apply (ready_moved g text m px px' trees' IX); destruct R; constructor; assumption).
  destruct (C77_report px m trees r R NE EX D J S H) as (l & -> & K).
  destruct (C77_report px' (moved_model g text m) trees' r' R' (not_empty_moved g text m NE) EX' (dimension_moved g text m 3 D) (joined_moved A HA g text m SF J) (solid_moved A HA g text m SF S) H') as (l' & -> & K').
  exists l, l'. split; [reflexivity|]. split; [reflexivity|]. intros x. rewrite K, K'.
  apply (same_pairs A g text m trees trees' (reported_triangles m) (reported_triangles (moved_model g text m)) HA J ST); [|intros s1 s2 t1 t2 (C & _); exact C].
  intros s1 s2 t1 t2 I1 I2. exact (reported_moved A HA g text m s1 s2 (SF s1 I1) (SF s2 I2) t1 t2).
Qed.
Print Assumptions C87_surfaces.
(** the whole inspection of a BRep: surfaces, and lines embedded in blocks *)
Theorem C87_brep : forall A g text px px' r0 m trees trees' lines lines' r r', affine_one_to_one A -> surfaces_follow A g m -> lines_follow A g m ->
  exact_predicates px -> exact_predicates px' -> locates_on_triangles px r0 -> locates_on_triangles px' r0 -> indices_in_range px' ->
  intersections_ready px m trees -> trees_of m trees' -> line_trees_of m trees lines -> line_trees_of m trees' lines' ->
  same_touching_pairs m trees trees' -> same_touching_edges m trees trees' lines lines' ->
  (forall l, In l (m_lines m) -> edges_exist (co_mesh l)) -> big_polygons m -> no_empty_surface m -> no_empty_line m ->
  dimension_is m 3 -> joined_surfaces m -> solid_model m -> solid_lines m ->
  brep_inspect_intersections px m trees lines r -> brep_inspect_intersections px' (moved_model g text m) trees' lines' r' ->
  exists l l', r = Ok l /\ r' = Ok l' /\ forall x, In x (ii_issues l') <-> In x (ii_issues l).
Proof.
  intros A g text px px' r0 m trees trees' lines lines' r r' HA SF LF EX EX' LO LO' IX R T' LT LT' ST SE EE BP NE NL D J S SL H H'.
  assert (R' : intersections_ready px' (moved_model g text m) trees') by (apply (ready_moved g text m px px' trees' IX); destruct R; constructor; assumption).
  destruct (lines_report px r0 m trees lines r R LT EE BP NE NL LO S SL H) as (l & a & b & -> & Ea & Sa & Sb).
  pose proof (dimension_moved g text m 3 D) as D'. pose proof (joined_moved A HA g text m SF J) as J'. pose proof (solid_moved A HA g text m SF S) as S'.
  destruct (lines_report px' r0 (moved_model g text m) trees' lines' r' R' (line_trees_moved g text m trees' lines' LT') (edges_moved g text m EE) (big_moved g text m BP) (not_empty_moved g text m NE)
    (no_empty_line_moved g text m NL) LO' S' (solid_lines_moved A HA g text m LF SL) H') as (l' & a' & b' & -> & Ea' & Sa' & Sb').
  exists l, l'. split; [reflexivity|]. split; [reflexivity|]. intros x. rewrite Ea, Ea', !in_app_iff, (Sb x), (Sb' x), (all_members px m trees R a Sa x), (all_members px' _ trees' R' a' Sa' x).
  assert (X : (exists s1 s2 c, proposed m trees s1 s2 c /\ surfaces_meet px m s1 s2 c /\ x = (surface_element s1 (fst c), surface_element s2 (snd c))) <->
    exists s1 s2 c, proposed m trees s1 s2 c /\ different_polygons s1 s2 c /\ polygons_meet s1 s2 (reported_triangles m s1 s2) (fst c) (snd c) /\ x = (surface_element s1 (fst c), surface_element s2 (snd c))).
  { split; intros (s1 & s2 & c & P & M); exists s1, s2, c; (split; [exact P|]); rewrite (surfaces_meet_iff px m trees s1 s2 c R EX D J S P) in *; tauto. }
  assert (X' : (exists s1 s2 c, proposed (moved_model g text m) trees' s1 s2 c /\ surfaces_meet px' (moved_model g text m) s1 s2 c /\ x = (surface_element s1 (fst c), surface_element s2 (snd c))) <->
    exists s1 s2 c, proposed (moved_model g text m) trees' s1 s2 c /\ different_polygons s1 s2 c /\ polygons_meet s1 s2 (reported_triangles (moved_model g text m) s1 s2) (fst c) (snd c) /\ x = (surface_element s1 (fst c), surface_element s2 (snd c))).
  { split; intros (s1 & s2 & c & P & M); exists s1, s2, c; (split; [exact P|]); rewrite (surfaces_meet_iff px' (moved_model g text m) trees' s1 s2 c R' EX' D' J' S' P) in *; tauto. }
  rewrite X, X'. clear X X'.
  rewrite (same_pairs A g text m trees trees' (reported_triangles m) (reported_triangles (moved_model g text m)) HA J ST
    ltac:(intros s1 s2 t1 t2 I1 I2; exact (reported_moved A HA g text m s1 s2 (SF s1 I1) (SF s2 I2) t1 t2)) ltac:(intros s1 s2 t1 t2 (C & _); exact C) x).
  apply or_iff_compat_l.
  assert (TE : forall s k c, pierces r0 (co_mesh s) (co_mesh k) c -> edge_touches s k c) by (intros s k c (t & T & e & y & H1 & H2 & H3 & H4 & H5 & _); exists t, T, e, y; tauto).
  split.
  - intros (s' & k' & c & P & EB & M & ->). apply proposed_line_moved in P as (s & k & -> & -> & P). assert (IS : In s (m_surfaces m)) by apply P. assert (IK : In k (m_lines m)) by apply P.
    apply (pierces_image A HA g r0 (co_mesh s) (co_mesh k) c (SF s IS) (LF k IK)) in M. exists s, k, c. split; [apply (SE s k c (TE s k c M)), P|]. split; [exact EB|]. split; [exact M|reflexivity].
  - intros (s & k & c & P & EB & M & ->). assert (IS : In s (m_surfaces m)) by apply P. assert (IK : In k (m_lines m)) by apply P.
    exists (moved_component (moved_surface g) s), (moved_component (moved_curve g) k), c. split; [apply proposed_line_moved; exists s, k; split; [reflexivity|]; split; [reflexivity|]; apply (SE s k c (TE s k c M)), P|].
    split; [exact EB|]. split; [apply (pierces_image A HA g r0 (co_mesh s) (co_mesh k) c (SF s IS) (LF k IK)), M|reflexivity].
Qed.
Print Assumptions C87_brep.
(** ** A curve and a triangulated surface *)
Theorem C87_curve : forall A g px px' r0 surface curve candidates candidates' r r', affine_one_to_one A -> follows_map A g (sm_points surface) -> follows_map A g (ec_points curve) ->
  (sm_dimension surface = 2 -> stays_in_plane g (sm_points surface) /\ stays_in_plane g (ec_points curve)) ->
  locates_for px r0 (sm_dimension surface) -> locates_for px' r0 (sm_dimension surface) ->
  triangulated surface -> edges_exist curve -> solid_triangles surface -> solid_curve curve (sm_dimension surface) ->
  candidates_in_range (nb_polygons surface) (length (ec_edges curve)) candidates -> candidates_in_range (nb_polygons surface) (length (ec_edges curve)) candidates' ->
  (forall c, curve_crosses r0 surface curve c -> (In c candidates <-> In c candidates')) ->
  curve_intersecting_elements px surface curve candidates r -> curve_intersecting_elements px' (moved_surface g surface) (moved_curve g curve) candidates' r' ->
  exists l l', r = Ok l /\ r' = Ok l' /\ forall c, In c (ii_issues l') <-> In c (ii_issues l).
Proof.
  intros A g px px' r0 surface curve cs cs' r r' HA FS FC PL LO LO' TR EE ST SC CR CR' SA H H'.
  destruct (C80_list px r0 surface curve cs r TR EE CR LO ST SC H) as (l & -> & K & _).
  assert (TR' : triangulated (moved_surface g surface)) by (intros p L; destruct (TR p L) as (T & HT); exists (moved_triangle g T); apply triangle_of_moved; exists T; split; [reflexivity|exact HT]).
  assert (EE' : edges_exist (moved_curve g curve)) by (intros e L; destruct (EE e L) as (s & Hs); exists (moved_segment g s); apply segment_of_moved; exists s; split; [reflexivity|exact Hs]).
  assert (ST' : solid_triangles (moved_surface g surface)).
  { intros p T' L HT. apply triangle_of_moved in HT as (T & -> & HT). destruct (ST p T L HT) as ((_ & RT) & PT). destruct (follows_triangle A g surface _ T FS HT) as (FT & C). split.
    - split; [exact FT|]. apply (real_image A HA g T C), RT.
    - intros D. destruct (PT D) as (P0 & P1 & P2). destruct (PL D) as (PS & _). destruct T as [[p0 p1] p2]. destruct HT as (a & b & c & _ & H0 & H1 & H2). cbn [fst snd] in *.
      split; [exact (PS p0 (nth_error_In _ _ H0) P0)|]. split; [exact (PS p1 (nth_error_In _ _ H1) P1)|exact (PS p2 (nth_error_In _ _ H2) P2)]. }
  assert (SC' : solid_curve (moved_curve g curve) (sm_dimension (moved_surface g surface))).
  { intros e s' Hs. apply segment_of_moved in Hs as (s & -> & Hs). destruct (SC e s Hs) as ((_ & RS) & PT). destruct (follows_segment A g curve _ s FC Hs) as (FT & C). split.
    - split; [exact FT|]. apply (real_segment_image A HA g s C), RS.
    - intros D. destruct (PT D) as (P0 & P1). destruct (PL D) as (_ & PS). destruct s as [p0 p1]. destruct Hs as (a & b & _ & H0 & H1). cbn [fst snd] in *.
      split; [exact (PS p0 (nth_error_In _ _ H0) P0)|exact (PS p1 (nth_error_In _ _ H1) P1)]. }
  destruct (C80_list px' r0 (moved_surface g surface) (moved_curve g curve) cs' r' TR' EE' CR' LO' ST' SC' H') as (l' & -> & K' & _).
  exists l, l'. split; [reflexivity|]. split; [reflexivity|]. intros c. rewrite K, K'. rewrite (curve_crosses_image A HA g r0 surface curve c FS FC). split; intros (I & M); (split; [apply (SA c M), I|exact M]).
Qed.
Print Assumptions C87_curve.

(** ** Examples: a shear, which changes lengths, angles and boxes *)
Definition sheared (p : Point) : Point := match p with x :: y :: rest => SFadd 53 1024 x y :: y :: rest | _ => p end.
Definition shear : place -> place := matrix_map 1 1 0 0 1 0 0 0 1 0 0 0.
Lemma shear_affine : affine_one_to_one shear.
Proof. apply C87_matrices. intros E. vm_compute in E. discriminate E. Qed.
Ltac sheared_points := let p := fresh in let H := fresh in let d := fresh in let K := fresh in
  intros p H; cbn [In] in H; repeat (destruct H as [<-|H]; [split; [intros d K; vm_compute in K; intuition (subst; exact I)|split; [intros d K; vm_compute in K; intuition (subst; exact I)|vm_compute; repeat split]]|]); destruct H.
Lemma edge_follows : surfaces_follow shear sheared (edge_model [1; 1; -1]%Z [1; 1; 1]%Z) /\ lines_follow shear sheared (edge_model [1; 1; -1]%Z [1; 1; 1]%Z).
Proof.
  split.
  - intros s [<-|[]]. cbn [co_mesh]. sheared_points.
  - intros s [<-|[]]. cbn [co_mesh]. sheared_points.
Qed.
(** the line through the triangle is reported after the shear too *)
Example sheared_line : forall r', brep_inspect_intersections (spot_px Overlapping) (moved_model sheared (fun _ => ""%string) (edge_model [1; 1; -1]%Z [1; 1; 1]%Z)) edge_trees edge_lines r' ->
  exists l, r' = Ok l /\ In (surface_element (Properties_Geometry.comp 0 Properties_Geometry.ground) 0, line_element (the_line [1; 1; -1]%Z [1; 1; 1]%Z) 0) (ii_issues l).
Proof.
  intros r' H'. set (m := edge_model [1; 1; -1]%Z [1; 1; 1]%Z) in *. destruct (spot_ok Overlapping) as (Ix & L & _). destruct (edge_model_ready (spot_px Overlapping) [1; 1; -1]%Z [1; 1; 1]%Z Ix) as (R & LT & LE & BP & NE & NL & SM).
  destruct (model_runs (spot_px Overlapping) m edge_trees edge_lines) as (_ & (r & H) & _). destruct edge_follows as (SF & LF).
  destruct (line_through Overlapping r H) as (l0 & -> & F).
  destruct (C87_brep shear sheared (fun _ => ""%string) (spot_px Overlapping) (spot_px Overlapping) Overlapping m edge_trees edge_trees edge_lines edge_lines (Ok l0) r' shear_affine SF LF
    (spot_exact _) (spot_exact _) L L Ix R (ir_trees _ _ _ R) LT LT) as (l & l' & E & -> & K); try assumption.
  - intros s1 s2 c _. reflexivity.
  - intros s1 s2 c _. reflexivity.
  - intros s [<-|[]]. reflexivity.
  - intros s1 s2 v w p q [<-|[]] [<-|[]] E Hp Hq. injection E as ->. red in Hp, Hq. rewrite Hp in Hq. injection Hq as ->. apply same_spot_refl.
  - apply edge_solid. solid_edge.
  - injection E as <-. exists l'. split; [reflexivity|]. apply K, F.
Qed.

(** two triangles of the plane that cross do so after the shear *)
Lemma pair_follows : let m := pair Properties_Geometry2.ground crossing (shared 0) in
  surfaces_follow shear sheared m /\ forall s, In s (m_surfaces m) -> stays_in_plane sheared (sm_points (co_mesh s)).
Proof.
  split.
  - intros s [<-|[<-|[]]]; cbn [co_mesh]; sheared_points.
  - intros s _ [|x [|y p]] _ L; exact L.
Qed.
Example sheared_crossing : forall r', section_inspect_intersections plane_px (moved_model sheared (fun _ => ""%string) (pair Properties_Geometry2.ground crossing (shared 0))) Properties_Geometry2.two_trees r' ->
  exists l, r' = Ok l /\ In ((mkCID SurfaceT 0, 0), (mkCID SurfaceT 1, 0)) (ii_issues l).
Proof.
  intros r' H'. set (m := pair Properties_Geometry2.ground crossing (shared 0)) in *. set (trees := Properties_Geometry2.two_trees) in *.
  destruct Properties_Geometry2.all_plane as (PG & _ & _ & _ & _ & PC), Properties_Geometry2.all_real as (RG & _ & _ & _ & _ & RC). destruct pair_follows as (SF & PL). destruct plane_ok as (Ix & EX & _).
  assert (R : intersections_ready plane_px m trees) by (apply pair_ready, Ix). assert (NE : no_empty_surface m) by (intros s [<-|[<-|[]]] _; discriminate).
  destruct (model_runs plane_px m trees (mkLineTrees [] (fun _ _ => []))) as ((r & H) & _).
  destruct (C27_report plane_px m trees r R NE H) as (l0 & -> & _ & F).
  destruct (C87_section shear sheared (fun _ => ""%string) plane_px plane_px m trees trees (Ok l0) r' shear_affine SF PL EX EX Ix R (ir_trees _ _ _ R)) as (l & l' & E & -> & K); try assumption.
  - intros s1 s2 c _. reflexivity.
  - intros s [<-|[<-|[]]]; reflexivity.
  - unfold m. places.
  - unfold m. places.
  - apply pair_solid; assumption.
  - injection E as <-. exists l'. split; [reflexivity|]. apply K, F. set (a := Properties_Geometry2.comp 0 Properties_Geometry2.ground). set (b := Properties_Geometry2.comp 1 crossing). exists a, b, (0, 0).
    split; [right; split; [left; reflexivity|]; split; [right; left; reflexivity|]; exists 0, 1; cbn; auto|]. split; [|reflexivity]. split; [intros (Q & _); discriminate Q|].
    destruct (C29_polygons plane_px m a b 0 0 Ix) as (x & Ex & Hx); [intros _ v w _ Hw _; exact Hw|apply (ir_surfaces _ _ _ R); left; reflexivity|apply (ir_surfaces _ _ _ R); right; left; reflexivity|cbn; lia|cbn; lia|].
    apply Hx. vm_compute in Ex. injection Ex as <-. reflexivity.
Qed.
