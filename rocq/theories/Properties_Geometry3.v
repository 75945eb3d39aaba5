(** C79, C80: lines and curves against surfaces, with predicates that locate contacts. *)
From Coq Require Import String List Arith NArith ZArith Bool QArith Lqa Lia Permutation SpecFloat.
From Verif Require Import Base BaseFacts Model_Issues Types Model_Intersections Spec_Colocation Spec_Intersections Proof_Intersections4 Proof_Intersections5 Properties_Intersections
  Spec_Geometry Proof_Geometry Proof_Exact Proof_Exact2 Spec_Geometry2 Properties_Geometry Spec_Geometry3 Proof_Locate Proof_Locate2 Proof_Exact4 Proof_Locate3 Proof_Locate4 Proof_Locate5.
Import ListNotations.
Open Scope nat_scope.
Open Scope list_scope.

(** predicates that keep every promise exist, for both readings of "parallel" *)
Theorem C79_C80_locating_predicates_exist : forall r, exists px,
  indices_in_range px /\ locates_on_triangles px r /\ locates_on_segments px r /\ locates_points px.
Proof.
  intros r. exists (mkPredicates locate_point (locate_on_segment r) (locate_on_triangle r) vertex_index (fun _ _ _ => false)).
  split; [apply locating_indices|]. split; [apply locating_triangles|]. split; [apply locating_segments|apply locating_points].
Qed.
Print Assumptions C79_C80_locating_predicates_exist.
(** an edge of a line and a polygon of a surface: they touch elsewhere than with an end of the edge at a corner of a triangle, and the
    edge is not "parallel" to the triangle there *)
Theorem C79_edge_and_polygon : forall px r m trees s l c, intersections_ready px m trees -> locates_on_triangles px r ->
  In s (m_surfaces m) -> In l (m_lines m) -> (forall l, In l (m_lines m) -> edges_exist (co_mesh l)) -> solid_surface (co_mesh s) -> solid_line (co_mesh l) ->
  fst c < nb_polygons (co_mesh s) -> snd c < length (ec_edges (co_mesh l)) -> 3 <= length (polygon_vertices (co_mesh s) (fst c)) ->
  exists b, polygon_edge_intersect px (co_mesh s) (co_mesh l) c = Ok b /\ (b = true <-> pierces r (co_mesh s) (co_mesh l) c).
Proof.
  intros px r m trees s l c R L Hs Hl LE SS SL Hp He H3. destruct (line_pair_decides px m trees R LE s l c Hs Hl H3 Hp He) as (b & E & Hb).
  exists b. split; [exact E|]. rewrite Hb. apply line_pierces; assumption.
Qed.
Print Assumptions C79_edge_and_polygon.
(** the lines of the report: those of proposed pairs that pierce polygons, for lines embedded in a block *)
Theorem C79_report : forall px r0 m trees lines r, intersections_ready px m trees -> line_trees_of m trees lines ->
  (forall l, In l (m_lines m) -> edges_exist (co_mesh l)) -> big_polygons m -> no_empty_surface m -> no_empty_line m ->
  locates_on_triangles px r0 -> solid_model m -> solid_lines m ->
  brep_inspect_intersections px m trees lines r ->
  exists l surfaces_part lines_part, r = Ok l /\ ii_issues l = surfaces_part ++ lines_part /\
    surfaces_report (fun s1 s2 => lists_candidates (surfaces_meet px m s1 s2)) m trees surfaces_part /\
    forall x, In x lines_part <->
      exists s l c, proposed_line m trees lines s l c /\ embedded_in_block m (co_id l) /\
        pierces r0 (co_mesh s) (co_mesh l) c /\ x = (surface_element s (fst c), line_element l (snd c)).
Proof. exact lines_report. Qed.
Print Assumptions C79_report.
(** an embedded line without issue: its edges touch the triangles of surfaces only with an end at a corner, or are "parallel" to them *)
Theorem C79_silence : forall px r0 m trees lines issues, intersections_ready px m trees -> line_trees_of m trees lines ->
  (forall l, In l (m_lines m) -> edges_exist (co_mesh l)) -> big_polygons m -> no_empty_surface m -> no_empty_line m ->
  locates_on_triangles px r0 -> solid_model m -> solid_lines m -> line_boxes_complete m trees lines ->
  brep_inspect_intersections px m trees lines (Ok issues) ->
  forall l, In l (m_lines m) -> co_active l = true -> embedded_in_block m (co_id l) ->
  ((forall a e, ~ In (a, line_element l e) (ii_issues issues)) <->
   forall s p e t T g x, In s (m_surfaces m) -> co_active s = true -> p < nb_polygons (co_mesh s) ->
     fan_triangle (polygon_vertices (co_mesh s) p) t -> triangle_of (co_mesh s) t T -> segment_of (co_mesh l) e g ->
     on_segment x g -> on_triangle x T -> parallel_to_triangle r0 g T \/ at_end x g /\ at_corner_of x T).
Proof. exact lines_silence. Qed.
Print Assumptions C79_silence.

(** C80: an edge of a curve and a triangle, in space and in the plane *)
Theorem C80_edge_in_space : forall px r s t, locates_on_triangles px r -> locates_points px -> finite_edge s -> finite_face t ->
  (segment_meets_triangle_3d px s t <-> crosses_in_space r s t).
Proof. exact curve_test_3d. Qed.
Print Assumptions C80_edge_in_space.
Theorem C80_edge_in_plane : forall px r s t, locates_on_segments px r -> locates_points px -> flat_edge s -> finite_face t -> plane_triangle t ->
  (segment_meets_triangle_2d px s t <-> crosses_in_plane s t).
Proof. exact curve_test_2d. Qed.
Print Assumptions C80_edge_in_plane.
(** the list: every candidate pair that crosses, as often as it is a candidate *)
Theorem C80_list : forall px r0 surface curve candidates r, triangulated surface -> edges_exist curve ->
  candidates_in_range (nb_polygons surface) (length (ec_edges curve)) candidates ->
  locates_for px r0 (sm_dimension surface) -> solid_triangles surface -> solid_curve curve (sm_dimension surface) ->
  curve_intersecting_elements px surface curve candidates r ->
  exists l, r = Ok l /\ lists_candidates (curve_crosses r0 surface curve) candidates (ii_issues l).
Proof. exact curve_list_geometry. Qed.
Print Assumptions C80_list.
Theorem C80_silence : forall px r0 surface curve candidates r, triangulated surface -> edges_exist curve ->
  candidates_in_range (nb_polygons surface) (length (ec_edges curve)) candidates ->
  locates_for px r0 (sm_dimension surface) -> solid_triangles surface -> solid_curve curve (sm_dimension surface) -> curve_boxes_complete surface curve candidates ->
  meshes_have_intersections px surface curve candidates r ->
  exists b, r = Ok b /\ (b = false <-> forall p e, p < nb_polygons surface -> ~ curve_crosses r0 surface curve (p, e)).
Proof. exact curve_silence. Qed.
Print Assumptions C80_silence.
(** an edge inside a side of the triangle, but not the whole side, is reported in space and never in the plane *)
Theorem C80_part_of_a_side : forall px px' r r' s t, locates_on_segments px r -> locates_points px -> locates_on_triangles px' r' -> locates_points px' ->
  flat_edge s -> finite_face t -> plane_triangle t -> along_a_side s t -> (exists i, i < 2 /\ ~ at_corner_of (segment_end s i) t) ->
  ~ segment_meets_triangle_2d px s t /\ segment_meets_triangle_3d px' (lifted_segment s) (lifted_triangle t).
Proof. exact partial_side. Qed.
Print Assumptions C80_part_of_a_side.

(** ** Concrete instances *)
Definition spot_px (r : reading) : Predicates := mkPredicates locate_point (locate_on_segment r) (locate_on_triangle r) vertex_index (fun _ _ _ => false).
Lemma spot_ok : forall r, indices_in_range (spot_px r) /\ locates_on_triangles (spot_px r) r /\ locates_on_segments (spot_px r) r /\ locates_points (spot_px r).
Proof. intros r. split; [apply locating_indices|]. split; [apply locating_triangles|]. split; [apply locating_segments|apply locating_points]. Qed.
Definition one_edge (a b : list Z) : EdgedCurve := mkCurve (map Properties_Intersections.pt [a; b]) [(0, 1)] (fun _ => S754_zero false) (fun _ => false).
(** a surface of one triangle and a line of one edge, embedded in a block *)
Definition edge_model (a b : list Z) : Model := ex_surfaces [ground] [one_edge a b] (fun s v => Some (8 * s + v)) [(mkCID LineT 10, mkCID BlockT 99)].
Definition edge_trees := mkTrees [0] [] (fun _ => [(0, 0)]) (fun _ _ => []).
Definition edge_lines := mkLineTrees [10] (fun _ _ => [(0, 0)]).
Definition the_line (a b : list Z) : Component EdgedCurve := mkComponent 10 None true (one_edge a b).
Definition the_edge (a b : list Z) : Segment := (Properties_Intersections.pt a, Properties_Intersections.pt b).
Lemma edge_segment : forall a b e s, segment_of (one_edge a b) e s <-> e = 0 /\ s = the_edge a b.
Proof.
  intros a b e s. split.
  - intros (u & v & E & A & B). destruct e as [|[|e]]; try discriminate E. injection E as <- <-. cbn in A, B. injection A as A. injection B as B.
    split; [reflexivity|]. unfold the_edge. destruct s. cbn in A, B. congruence.
  - intros (-> & ->). exists 0, 1. repeat split.
Qed.
Lemma edge_model_ready : forall px a b, indices_in_range px -> let m := edge_model a b in
  intersections_ready px m edge_trees /\ line_trees_of m edge_trees edge_lines /\ (forall l, In l (m_lines m) -> edges_exist (co_mesh l)) /\
  big_polygons m /\ no_empty_surface m /\ no_empty_line m /\ solid_model m.
Proof.
  intros px a b Hpx m.
  assert (SS : forall s, In s (m_surfaces m) -> s = comp 0 ground) by (intros s [<-|[]]; reflexivity).
  assert (LL : forall l, In l (m_lines m) -> l = the_line a b) by (intros l [<-|[]]; reflexivity).
  split; [|split; [|split; [|split; [|split; [|split]]]]].
  - constructor.
    + repeat constructor; cbn; intuition discriminate.
    + constructor.
      * repeat constructor; cbn; intuition discriminate.
      * intros id [<-|[]]. exists (comp 0 ground). cbn; auto.
      * intros s Hs _. rewrite (SS s Hs). cbn; auto.
      * intros i j [].
      * intros s i Hs Hi p q [[= <- <-]|[]]. rewrite (SS s Hs). cbn; lia.
      * intros s1 s2 i j H1 H2 E1 E2 p q [].
    + intros s Hs p Hp. rewrite (SS s Hs) in *. cbn in Hp; destruct p as [|p]; try lia; cbn;
        (split; [repeat constructor; cbn; intuition discriminate|split; [intuition lia|lia]]).
    + exact Hpx.
    + intros s Hs. rewrite (SS s Hs). discriminate.
  - constructor.
    + repeat constructor; cbn; intuition discriminate.
    + intros l Hl _. rewrite (LL l Hl). cbn; auto.
    + intros s l i j Hs Hl Ei Ej p q [[= <- <-]|[]]. rewrite (SS s Hs), (LL l Hl). cbn. lia.
  - intros l Hl e He. rewrite (LL l Hl) in *. cbn in He. assert (e = 0) as -> by lia. exists (the_edge a b). apply edge_segment. auto.
  - intros s p Hs Hp. rewrite (SS s Hs) in *. cbn in Hp. assert (p = 0) as -> by lia. cbn; lia.
  - intros s Hs _. rewrite (SS s Hs). discriminate.
  - intros l Hl _. rewrite (LL l Hl). discriminate.
  - intros s Hs p t T Hp Ht HT. rewrite (SS s Hs) in *. cbn [co_mesh comp] in *. pose proof (tri_fan _ _ _ _ _ Hp Ht) as ->. apply tri_triangle in HT. subst T. apply all_real.
Qed.
Lemma edge_boxes : forall a b, line_boxes_complete (edge_model a b) edge_trees edge_lines.
Proof.
  intros a b s l p e t T g x [<-|[]] _ [<-|[]] _ Hp _ _ Hg _ _. apply edge_segment in Hg. destruct Hg as (-> & _). cbn in Hp. assert (p = 0) as -> by lia.
  split; [left; reflexivity|]. split; [reflexivity|]. split; [left; reflexivity|]. split; [reflexivity|]. exists 0, 0. cbn. auto.
Qed.
Lemma edge_solid : forall a b, finite_edge (the_edge a b) -> solid_lines (edge_model a b).
Proof. intros a b F l [<-|[]] e s H. apply edge_segment in H. destruct H as (_ & ->). exact F. Qed.
(** the only possible issue *)
Lemma edge_answer : forall r0 a b r, finite_edge (the_edge a b) -> brep_inspect_intersections (spot_px r0) (edge_model a b) edge_trees edge_lines r ->
  exists l, r = Ok l /\ forall x, In x (ii_issues l) <-> x = (surface_element (comp 0 ground) 0, line_element (the_line a b) 0) /\ pierces r0 ground (one_edge a b) (0, 0).
Proof.
  intros r0 a b r F H. destruct (spot_ok r0) as (Ix & L & _). destruct (edge_model_ready (spot_px r0) a b Ix) as (R & LT & LE & BP & NE & NL & SM).
  destruct (lines_report _ r0 _ _ _ r R LT LE BP NE NL L SM (edge_solid a b F) H) as (l & sp & lp & -> & E & SR & HL). exists l. split; [reflexivity|].
  assert (Z : sp = []).
  { destruct SR as (ov & selfs & pairs & P & -> & F1 & F2). assert (ov = []) as -> by (apply Permutation_nil, Permutation_sym; exact P).
    inversion F2. subst. cbn in F1. inversion F1 as [|s0 l0 ss ls K F1' E0 E1]. subst. inversion F1'. subst. destruct K as (i & cs & Hi & (HC & _) & ->). cbn [concat app].
    destruct cs as [|c cs]; [reflexivity|]. exfalso. destruct (proj1 (HC c) (or_introl eq_refl)) as (I1 & NS & _). cbn in I1. destruct I1 as [<-|[]]. apply NS. auto. }
  rewrite E, Z. cbn [app]. intros x. rewrite HL. split.
  - intros (s & g & c & P & _ & M & ->). destruct (line_range _ _ _ _ _ _ LT P) as ([<-|[]] & _ & [<-|[]] & _ & Hp & He). destruct c as [p e]. cbn in Hp, He.
    assert (p = 0) as -> by lia. assert (e = 0) as -> by lia. split; [reflexivity|exact M].
  - intros (-> & M). exists (comp 0 ground), (the_line a b), (0, 0). split; [|split; [|split; [exact M|reflexivity]]].
    + split; [left; reflexivity|]. split; [reflexivity|]. split; [left; reflexivity|]. split; [reflexivity|]. exists 0, 0. cbn. auto.
    + exists LineT, 99. left. reflexivity.
Qed.
Ltac solid_edge := split; [split; intros ?d ?H; cbn in *; intuition (subst; exact I)|let E := fresh in intros E; vm_compute in E; destruct E as (? & ? & ?); discriminate].
(** a line through the triangle is reported, one that ends at its corner is not *)
Example line_through : forall r0 r, brep_inspect_intersections (spot_px r0) (edge_model [1; 1; -1]%Z [1; 1; 1]%Z) edge_trees edge_lines r ->
  exists l, r = Ok l /\ In (surface_element (comp 0 ground) 0, line_element (the_line [1; 1; -1]%Z [1; 1; 1]%Z) 0) (ii_issues l).
Proof.
  intros r0 r H. assert (F : finite_edge (the_edge [1; 1; -1]%Z [1; 1; 1]%Z)) by solid_edge. destruct (edge_answer r0 _ _ r F H) as (l & -> & HL). exists l. split; [reflexivity|]. apply HL. split; [reflexivity|].
  destruct (spot_ok r0) as (Ix & L & _). destruct (edge_model_ready (spot_px r0) [1; 1; -1]%Z [1; 1; 1]%Z Ix) as (R & _ & LE & _ & _ & _ & SM).
  destruct (C79_edge_and_polygon (spot_px r0) r0 _ _ (comp 0 ground) (the_line [1; 1; -1]%Z [1; 1; 1]%Z) (0, 0) R L ltac:(left; reflexivity) ltac:(left; reflexivity) LE (SM (comp 0 ground) ltac:(left; reflexivity))
    (edge_solid [1; 1; -1]%Z [1; 1; 1]%Z F (the_line [1; 1; -1]%Z [1; 1; 1]%Z) ltac:(left; reflexivity))) as (b & E & Hb); [cbn; lia|cbn; lia|cbn; lia|].
  apply Hb. destruct r0; vm_compute in E; congruence.
Qed.
Example line_at_corner : forall r0 r, brep_inspect_intersections (spot_px r0) (edge_model [0; 0; 0]%Z [-1; -1; 1]%Z) edge_trees edge_lines r ->
  exists l, r = Ok l /\ ii_issues l = [].
Proof.
  intros r0 r H. assert (F : finite_edge (the_edge [0; 0; 0]%Z [-1; -1; 1]%Z)) by solid_edge. destruct (edge_answer r0 _ _ r F H) as (l & -> & HL). exists l. split; [reflexivity|].
  destruct (ii_issues l) as [|x k]; [reflexivity|]. exfalso. destruct (proj1 (HL x) (or_introl eq_refl)) as (_ & M).
  destruct (spot_ok r0) as (Ix & L & _). destruct (edge_model_ready (spot_px r0) [0; 0; 0]%Z [-1; -1; 1]%Z Ix) as (R & _ & LE & _ & _ & _ & SM).
  destruct (C79_edge_and_polygon (spot_px r0) r0 _ _ (comp 0 ground) (the_line [0; 0; 0]%Z [-1; -1; 1]%Z) (0, 0) R L ltac:(left; reflexivity) ltac:(left; reflexivity) LE (SM (comp 0 ground) ltac:(left; reflexivity))
    (edge_solid [0; 0; 0]%Z [-1; -1; 1]%Z F (the_line [0; 0; 0]%Z [-1; -1; 1]%Z) ltac:(left; reflexivity))) as (b & E & Hb); [cbn; lia|cbn; lia|cbn; lia|].
  apply Hb in M. destruct r0; vm_compute in E; congruence.
Qed.
(** with exact predicates, a line drawn inside a surface is not reported at all *)
Theorem C79_line_inside_a_surface_missed : forall r0, exists px m trees lines s l p e T g,
  intersections_ready px m trees /\ line_trees_of m trees lines /\ (forall l, In l (m_lines m) -> edges_exist (co_mesh l)) /\ big_polygons m /\
  no_empty_surface m /\ no_empty_line m /\ locates_on_triangles px r0 /\ solid_model m /\ solid_lines m /\ line_boxes_complete m trees lines /\
  In s (m_surfaces m) /\ co_active s = true /\ In l (m_lines m) /\ co_active l = true /\ embedded_in_block m (co_id l) /\
  triangle_of (co_mesh s) (polygon_vertices (co_mesh s) p) T /\ segment_of (co_mesh l) e g /\
  (forall x, on_segment x g -> strictly_among x (corner T 0) (corner T 1) (corner T 2)) /\
  forall r, brep_inspect_intersections px m trees lines r -> exists issues, r = Ok issues /\ ii_issues issues = [].
Proof.
  intros r0. set (a := [1; 1; 0]%Z). set (b := [2; 1; 0]%Z). exists (spot_px r0), (edge_model a b), edge_trees, edge_lines, (comp 0 ground), (the_line a b), 0, 0, (tri_of ground), (the_edge a b).
  destruct (spot_ok r0) as (Ix & L & _). destruct (edge_model_ready (spot_px r0) a b Ix) as (R & LT & LE & BP & NE & NL & SM).
  assert (F : finite_edge (the_edge a b)) by (unfold a, b; solid_edge).
  split; [exact R|]. split; [exact LT|]. split; [exact LE|]. split; [exact BP|]. split; [exact NE|]. split; [exact NL|]. split; [exact L|]. split; [exact SM|].
  split; [exact (edge_solid a b F)|]. split; [apply edge_boxes|]. split; [left; reflexivity|]. split; [reflexivity|]. split; [left; reflexivity|]. split; [reflexivity|].
  split; [exists LineT, 99; left; reflexivity|]. split; [apply tri_triangle; reflexivity|]. split; [apply edge_segment; auto|].
  assert (SI : forall x, on_segment x (the_edge a b) -> strictly_among x (corner (tri_of ground) 0) (corner (tri_of ground) 1) (corner (tri_of ground) 2)).
  { intros [[x0 x1] x2] (u & v & U & V & S & E). exists ((1 # 2) - (1 # 4) * v)%Q, ((1 # 4) + (1 # 4) * v)%Q, (1 # 4)%Q.
    vm_compute place_of in E. vm_compute corner. unfold same_spot, mean2 in E. destruct E as (E0 & E1 & E2).
    split; [lra|]. split; [lra|]. split; [lra|]. split; [lra|]. unfold same_spot, mean3. repeat split; lra. }
  split; [exact SI|]. intros r H. destruct (edge_answer r0 a b r F H) as (l & -> & HL). exists l. split; [reflexivity|].
  destruct (ii_issues l) as [|x k]; [reflexivity|]. exfalso. destruct (proj1 (HL x) (or_introl eq_refl)) as (_ & (t & T & s & y & FT & HT & Hs & _ & _ & NP & _)).
  apply edge_segment in Hs. destruct Hs as (_ & ->). pose proof (tri_fan _ _ _ 0 t ltac:(cbn; lia) FT) as ->. apply tri_triangle in HT. subst T.
  apply NP. assert (O : parallel_to_triangle Overlapping (the_edge a b) (tri_of ground)).
  { exists (segment_end (the_edge a b) 0), (segment_end (the_edge a b) 1). split; [apply end_on_segment; lia|]. split; [apply strictly_weak, SI, end_on_segment; lia|].
    split; [apply end_on_segment; lia|]. split; [apply strictly_weak, SI, end_on_segment; lia|exact (proj2 F)]. }
  destruct r0; [exact O|apply overlapping_coplanar, O].
Qed.
Print Assumptions C79_line_inside_a_surface_missed.
(** curves: answers of the tests *)
Definition tri2 := ex_mesh 2 [[0; 0]; [4; 0]; [0; 4]]%Z [[0; 1; 2]].
Definition ask (surface : SurfaceMesh) (a b : list Z) : outcome bool := edge_intersects_triangle (spot_px Overlapping) surface (one_edge a b) (0, 0).
Example plane_answers : ask tri2 [1; 1]%Z [2; 1]%Z = Ok true /\ ask tri2 [-1; 1]%Z [9; 1]%Z = Ok true /\ ask tri2 [-1; -1]%Z [0; 0]%Z = Ok false /\
  ask tri2 [0; 0]%Z [4; 0]%Z = Ok false /\ ask tri2 [1; 0]%Z [3; 0]%Z = Ok false /\ ask tri2 [1; 0]%Z [5; 0]%Z = Ok true /\ ask tri2 [0; 0]%Z [9; 9]%Z = Ok true.
Proof. vm_compute. repeat split; reflexivity. Qed.
Example space_answers : ask ground [1; 1; 0]%Z [2; 1; 0]%Z = Ok true /\ ask ground [1; 1; -1]%Z [1; 1; 1]%Z = Ok true /\ ask ground [-1; -1; 1]%Z [0; 0; 0]%Z = Ok false /\
  ask ground [0; 0; 0]%Z [4; 0; 0]%Z = Ok false /\ ask ground [1; 0; 0]%Z [3; 0; 0]%Z = Ok true /\ ask ground [0; 0; -1]%Z [0; 0; 1]%Z = Ok true.
Proof. vm_compute. repeat split; reflexivity. Qed.
Example curve_hypotheses_met : forall r, let surface := tri2 in let curve := one_edge [1; 0]%Z [3; 0]%Z in
  triangulated surface /\ edges_exist curve /\ candidates_in_range (nb_polygons surface) (length (ec_edges curve)) [(0, 0)] /\
  locates_for (spot_px r) r (sm_dimension surface) /\ solid_triangles surface /\ solid_curve curve (sm_dimension surface) /\ curve_boxes_complete surface curve [(0, 0)] /\
  along_a_side (the_edge [1; 0]%Z [3; 0]%Z) (tri_of tri2) /\ exists i, i < 2 /\ ~ at_corner_of (segment_end (the_edge [1; 0]%Z [3; 0]%Z) i) (tri_of tri2).
Proof.
  intros r surface curve.
  assert (TT : forall p t, p < 1 -> triangle_of surface (polygon_vertices surface p) t -> t = tri_of tri2).
  { intros p t Hp (x & y & z & E & A & B & C). assert (p = 0) as -> by lia. injection E as <- <- <-. destruct t as [[? ?] ?]. cbn in A, B, C. injection A as <-. injection B as <-. injection C as <-. reflexivity. }
  split; [|split; [|split; [|split; [|split; [|split; [|split; [|split]]]]]]].
  - intros p Hp. cbn in Hp. assert (p = 0) as -> by lia. exists (tri_of tri2). exists 0, 1, 2. repeat split.
  - intros e He. cbn in He. assert (e = 0) as -> by lia. exists (the_edge [1; 0]%Z [3; 0]%Z). apply edge_segment. auto.
  - intros p q [[= <- <-]|[]]. cbn. lia.
  - destruct (spot_ok r) as (_ & _ & B & C). split; [exact C|exact B].
  - intros p t Hp Ht. rewrite (TT p t Hp Ht). split; [split; [finite_tri|real]|]. intros _. repeat split.
  - intros e s Hs. apply edge_segment in Hs. destruct Hs as (-> & ->). split; [solid_edge|]. intros _. split; reflexivity.
  - intros p e t s x Hp Ht Hs _ _. apply edge_segment in Hs. destruct Hs as (-> & _). cbn in Hp. assert (p = 0) as -> by lia. left. reflexivity.
  - exists 0, 1. split; [lia|]. split; [lia|]. intros [|[|i]] Li; [exists (3 # 4)%Q, (1 # 4)%Q|exists (1 # 4)%Q, (3 # 4)%Q|lia];
      (split; [lra|]; split; [lra|]; split; [lra|]; vm_compute; repeat split; reflexivity).
  - exists 0. split; [lia|]. intros ([|[|[|j]]] & Lj & E); [| | |lia]; vm_compute in E; destruct E as (E0 & E1 & _); discriminate.
Qed.
