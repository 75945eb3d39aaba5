(** C77: with exact predicates, the surfaces of a BRep are reported as intersecting exactly when they do in space, with one exception. *)
From Coq Require Import String List Arith NArith ZArith Bool QArith Lqa Lia Permutation.
From Verif Require Import Base BaseFacts Model_Issues Types Model_Intersections Spec_Colocation Spec_Intersections Proof_Intersections3 Proof_Intersections4 Proof_Intersections5 Proof_Symmetry Properties_Intersections
  Spec_Geometry Proof_Geometry Proof_Geometry2 Proof_Geometry3 Proof_Geometry4 Proof_Geometry5 Proof_Geometry6 Proof_Exact Proof_Exact2.
Import ListNotations.
Open Scope nat_scope.
Open Scope list_scope.

(** predicates that keep every promise exist *)
Theorem C77_exact_predicates_exist : exists px, indices_in_range px /\ exact_predicates px.
Proof.
  exists (mkPredicates (fun _ _ => Outside) (fun _ _ => (Outside, Outside)) sharp_triangle vertex_index (fun _ _ _ => false)). split.
  - split; [discriminate|]. split; [discriminate|]. intros s t i. cbn [px_index px_segment_triangle]. generalize (snd (sharp_triangle s t)). intros p. destruct p; cbn; intros [= <-]; lia.
  - split; [apply sharp_overlooks_nothing|]. split; [apply sharp_invents_nothing|apply sharp_parallel].
Qed.
Print Assumptions C77_exact_predicates_exist.
(** two triangles of BRep surfaces: same vertices, or a contact beyond the common vertices, unless the second triangle is inside
    the first one and shares a side with it *)
Theorem C77_triangles : forall px m s1 s2 t1 t2 T1 T2 c, indices_in_range px -> exact_predicates px -> sm_dimension (co_mesh s1) <> 2 ->
  triangle_of (co_mesh s1) t1 T1 -> triangle_of (co_mesh s2) t2 T2 ->
  finite_triangle T1 -> finite_triangle T2 -> real_triangle T1 -> real_triangle T2 ->
  common_vertices m s1 s2 t2 t1 c -> joined (co_mesh s1) (co_mesh s2) c ->
  exists b, triangles_intersection_detection px m s1 s2 t1 t2 = Ok b /\
    (b = true <-> length c = 3 \/ meet_beyond (co_mesh s1) c T1 T2 /\ ~ (length c = 2 /\ holds_corner T1 T2)).
Proof. exact triangle_test_3d. Qed.
Print Assumptions C77_triangles.
(** each half needs half of the promises; flat triangles are allowed in the first one *)
Theorem C77_never_missed : forall px m s1 s2 t1 t2 T1 T2 c, indices_in_range px -> overlooks_nothing px -> sm_dimension (co_mesh s1) <> 2 ->
  triangle_of (co_mesh s1) t1 T1 -> triangle_of (co_mesh s2) t2 T2 -> NoDup t1 -> NoDup t2 -> finite_triangle T1 -> finite_triangle T2 ->
  common_vertices m s1 s2 t2 t1 c -> joined (co_mesh s1) (co_mesh s2) c -> length c < 2 -> meet_beyond (co_mesh s1) c T1 T2 ->
  triangles_intersection_detection px m s1 s2 t1 t2 = Ok true.
Proof. exact triangle_never_missed. Qed.
Print Assumptions C77_never_missed.
Theorem C77_never_invented : forall px m s1 s2 t1 t2 T1 T2 c, indices_in_range px -> invents_nothing px -> sm_dimension (co_mesh s1) <> 2 ->
  triangle_of (co_mesh s1) t1 T1 -> triangle_of (co_mesh s2) t2 T2 -> finite_triangle T1 -> finite_triangle T2 -> real_triangle T1 -> real_triangle T2 ->
  common_vertices m s1 s2 t2 t1 c -> joined (co_mesh s1) (co_mesh s2) c -> length c < 2 ->
  triangles_intersection_detection px m s1 s2 t1 t2 = Ok true -> meet_beyond (co_mesh s1) c T1 T2.
Proof. exact triangle_never_invented. Qed.
Print Assumptions C77_never_invented.
(** if "parallel" is rather every segment in the plane of the triangle, triangles on a common side are reported exactly when they are
    in one plane, also on either side of it *)
Theorem C77_plane_reading : forall px m s1 s2 t1 t2 T1 T2 c, indices_in_range px -> parallel_is_plane px -> sm_dimension (co_mesh s1) <> 2 ->
  triangle_of (co_mesh s1) t1 T1 -> triangle_of (co_mesh s2) t2 T2 -> finite_triangle T1 -> finite_triangle T2 -> real_triangle T1 -> real_triangle T2 ->
  common_vertices m s1 s2 t2 t1 c -> joined (co_mesh s1) (co_mesh s2) c -> length c = 2 ->
  exists b, triangles_intersection_detection px m s1 s2 t1 t2 = Ok b /\ (b = true <-> forall i, i < 3 -> on_plane (corner T1 i) T2).
Proof. exact triangle_plane. Qed.
Print Assumptions C77_plane_reading.
(** polygons, cut into triangles from their first vertex *)
Theorem C77_polygons : forall px m s1 s2 p q, indices_in_range px -> exact_predicates px -> sm_dimension (co_mesh s1) <> 2 -> joined_surfaces m ->
  In s1 (m_surfaces m) -> In s2 (m_surfaces m) -> polygons_ready (co_mesh s1) -> polygons_ready (co_mesh s2) ->
  solid_surface (co_mesh s1) -> solid_surface (co_mesh s2) -> p < nb_polygons (co_mesh s1) -> q < nb_polygons (co_mesh s2) ->
  exists b, polygons_intersect px m s1 s2 p q = Ok b /\ (b = true <-> polygons_meet s1 s2 (reported_triangles m s1 s2) p q).
Proof. exact polygon_test_3d. Qed.
Print Assumptions C77_polygons.
(** the report of a model: the proposed pairs of polygons that meet in space *)
Theorem C77_report : forall px m trees r, intersections_ready px m trees -> no_empty_surface m -> exact_predicates px -> dimension_is m 3 ->
  joined_surfaces m -> solid_model m -> section_inspect_intersections px m trees r ->
  exists l, r = Ok l /\ forall x, In x (ii_issues l) <-> exists s1 s2 c, proposed m trees s1 s2 c /\ different_polygons s1 s2 c /\
    polygons_meet s1 s2 (reported_triangles m s1 s2) (fst c) (snd c) /\ x = (surface_element s1 (fst c), surface_element s2 (snd c)).
Proof. exact report_3d. Qed.
Print Assumptions C77_report.
(** "no intersection": the triangles of two polygons meet only in their common vertices and sides, or one is inside the other with a
    common side *)
Theorem C77_silence : forall px m trees s1 s2 p q t1 t2 T1 T2 c, intersections_ready px m trees -> no_empty_surface m -> exact_predicates px -> dimension_is m 3 ->
  joined_surfaces m -> solid_model m -> boxes_complete m trees -> model_has_intersecting_surfaces px m trees (Ok false) ->
  In s1 (m_surfaces m) -> In s2 (m_surfaces m) -> co_active s1 = true -> co_active s2 = true ->
  p < nb_polygons (co_mesh s1) -> q < nb_polygons (co_mesh s2) -> ~ (co_id s1 = co_id s2 /\ p = q) ->
  fan_triangle (polygon_vertices (co_mesh s1) p) t1 -> fan_triangle (polygon_vertices (co_mesh s2) q) t2 ->
  triangle_of (co_mesh s1) t1 T1 -> triangle_of (co_mesh s2) t2 T2 -> common_vertices m s1 s2 t2 t1 c ->
  length c <> 3 /\ (meet_beyond (co_mesh s1) c T1 T2 -> length c = 2 /\ (holds_corner T1 T2 \/ holds_corner T2 T1)).
Proof. exact silence_3d. Qed.
Print Assumptions C77_silence.

(** ** Concrete instances *)
Definition sharp_px : Predicates := mkPredicates (fun _ _ => Outside) (fun _ _ => (Outside, Outside)) sharp_triangle vertex_index (fun _ _ _ => false).
Definition flat_px : Predicates := mkPredicates (fun _ _ => Outside) (fun _ _ => (Outside, Outside)) flat_triangle vertex_index (fun _ _ _ => false).
Lemma sharp_ok : indices_in_range sharp_px /\ exact_predicates sharp_px.
Proof.
  split.
  - split; [discriminate|]. split; [discriminate|]. intros s t i. cbn [px_index px_segment_triangle sharp_px]. generalize (snd (sharp_triangle s t)). intros p. destruct p; cbn; intros [= <-]; lia.
  - split; [apply sharp_overlooks_nothing|]. split; [apply sharp_invents_nothing|apply sharp_parallel].
Qed.
Lemma flat_ok : indices_in_range flat_px /\ parallel_is_plane flat_px.
Proof.
  split; [|apply flat_parallel]. split; [discriminate|]. split; [discriminate|]. intros s t i. cbn [px_index px_segment_triangle flat_px].
  generalize (snd (flat_triangle s t)). intros p. destruct p; cbn; intros [= <-]; lia.
Qed.
Ltac real := let N := fresh in let S := fresh in let E := fresh in intros (? & ? & ? & N & S & E); vm_compute place_of in E; cbn [same_spot mean3] in E; apply N; repeat split; lra.
Ltac finite_tri := split; [|split]; intros ?d ?H; cbn in *; intuition (subst; exact I).
(** a triangle, one inside it on a side, one across the side, one folded up along the side, one through it, one touching a corner *)
Definition tri (a b c : list Z) := ex_mesh 3 [a; b; c] [[0; 1; 2]].
Definition ground := tri [0; 0; 0]%Z [4; 0; 0]%Z [0; 4; 0]%Z.
Definition inside_on_side := tri [0; 0; 0]%Z [4; 0; 0]%Z [1; 1; 0]%Z.
Definition across := tri [0; 0; 0]%Z [4; 0; 0]%Z [1; -2; 0]%Z.
Definition folded := tri [0; 0; 0]%Z [4; 0; 0]%Z [1; 1; 3]%Z.
Definition through := tri [1; 1; -1]%Z [1; 1; 1]%Z [9; 9; 0]%Z.
Definition at_corner := tri [0; 0; 0]%Z [-1; -1; 1]%Z [-1; -1; 2]%Z.
Definition comp (id : nat) (mesh : SurfaceMesh) : Component SurfaceMesh := mkComponent id None true mesh.
(** [shared]: how many vertices of the second surface are the same as those of the first one *)
Definition two (a b : SurfaceMesh) (shared : nat) : Model :=
  ex_surfaces [a; b] [] (fun s v => Some (match s with 0 => v | _ => if Nat.ltb v shared then v else 3 + v end)) [].
Definition two_trees := mkTrees [0; 1] [(0, 1)] (fun _ => [(0, 0)]) (fun _ _ => [(0, 0)]).
Definition test (px : Predicates) (a b : SurfaceMesh) (shared : nat) : outcome bool :=
  triangles_intersection_detection px (two a b shared) (comp 0 a) (comp 1 b) [0; 1; 2] [0; 1; 2].
Example sharp_answers :
  test sharp_px ground through 0 = Ok true /\ test sharp_px ground at_corner 1 = Ok false /\ test sharp_px ground at_corner 0 = Ok true /\
  test sharp_px ground folded 2 = Ok false /\ test sharp_px ground across 2 = Ok false /\
  test sharp_px ground inside_on_side 2 = Ok false /\ test sharp_px inside_on_side ground 2 = Ok true.
Proof. vm_compute. repeat split; reflexivity. Qed.
Example flat_answers : test flat_px ground across 2 = Ok true /\ test flat_px ground folded 2 = Ok false.
Proof. vm_compute. repeat split; reflexivity. Qed.

Definition tri_of (mesh : SurfaceMesh) : Triangle := (nth 0 (sm_points mesh) [], nth 1 (sm_points mesh) [], nth 2 (sm_points mesh) []).
Lemma tri_triangle : forall a b c T, triangle_of (tri a b c) [0; 1; 2] T <-> T = tri_of (tri a b c).
Proof.
  intros a b c T. split.
  - intros (x & y & z & E & A & B & C). injection E as <- <- <-. destruct T as [[p q] r]. cbn in A, B, C. injection A as <-. injection B as <-. injection C as <-. reflexivity.
  - intros ->. exists 0, 1, 2. repeat split.
Qed.
Lemma tri_fan : forall a b c p t, p < nb_polygons (tri a b c) -> fan_triangle (polygon_vertices (tri a b c) p) t -> t = [0; 1; 2].
Proof.
  intros a b c p t Hp (i & L & U & H). cbn in Hp. assert (p = 0) as -> by lia. cbn in U. assert (i = 1) as -> by lia.
  destruct H as (x & y & z & -> & A & B & C). cbn in A, B, C. injection A as <-. injection B as <-. injection C as <-. reflexivity.
Qed.
Lemma all_real : (finite_triangle (tri_of ground) /\ real_triangle (tri_of ground)) /\ (finite_triangle (tri_of inside_on_side) /\ real_triangle (tri_of inside_on_side)) /\
  (finite_triangle (tri_of across) /\ real_triangle (tri_of across)) /\ (finite_triangle (tri_of folded) /\ real_triangle (tri_of folded)) /\
  (finite_triangle (tri_of through) /\ real_triangle (tri_of through)) /\ (finite_triangle (tri_of at_corner) /\ real_triangle (tri_of at_corner)).
Proof. repeat (split; [split; [finite_tri|real]|]). split; [finite_tri|real]. Qed.
(** models of two such triangles meet the hypotheses *)
Lemma two_ready : forall px a b c a' b' c' k, indices_in_range px -> intersections_ready px (two (tri a b c) (tri a' b' c') k) two_trees.
Proof.
  intros px a b c a' b' c' k Hpx. set (A := tri a b c). set (B := tri a' b' c').
  assert (SS : forall s, In s (m_surfaces (two A B k)) -> s = comp 0 A \/ s = comp 1 B) by (intros s [<-|[<-|[]]]; [left|right]; reflexivity).
  constructor.
  - repeat constructor; cbn; intuition discriminate.
  - constructor.
    + repeat constructor; cbn; intuition discriminate.
    + intros id [<-|[<-|[]]]; [exists (comp 0 A)|exists (comp 1 B)]; cbn; auto.
    + intros s Hs _. destruct (SS s Hs) as [->| ->]; cbn; auto.
    + intros i j [[= <- <-]|[]]. cbn. lia.
    + intros s i Hs Hi p q [[= <- <-]|[]]. destruct (SS s Hs) as [->| ->]; cbn; lia.
    + intros s1 s2 i j H1 H2 E1 E2 p q [[= <- <-]|[]]. destruct (SS s1 H1) as [->| ->], (SS s2 H2) as [->| ->]; cbn; lia.
  - intros s Hs p Hp. destruct (SS s Hs) as [->| ->]; cbn in Hp; destruct p as [|p]; try lia; cbn;
      (split; [repeat constructor; cbn; intuition discriminate|split; [intuition lia|lia]]).
  - exact Hpx.
  - intros s Hs. destruct (SS s Hs) as [->| ->]; discriminate.
Qed.
Lemma two_boxes : forall a b c a' b' c' k, boxes_complete (two (tri a b c) (tri a' b' c') k) two_trees.
Proof.
  intros a b c a' b' c' k s1 s2 p q t1 t2 T1 T2 x H1 H2 _ _ Hp Hq Hd _ _ _ _ _ _. set (A := tri a b c) in *. set (B := tri a' b' c') in *.
  assert (SS : forall s, In s (m_surfaces (two A B k)) -> s = comp 0 A \/ s = comp 1 B) by (intros s [<-|[<-|[]]]; [left|right]; reflexivity).
  assert (P : proposed_pair (two A B k) two_trees (comp 0 A) (comp 1 B) (0, 0)).
  { split; [left; reflexivity|]. split; [right; left; reflexivity|]. exists 0, 1. cbn. auto. }
  destruct (SS s1 H1) as [->| ->], (SS s2 H2) as [->| ->]; cbn in Hp, Hq; assert (p = 0) as -> by lia; assert (q = 0) as -> by lia.
  - destruct Hd. auto.
  - left. right. exact P.
  - right. right. exact P.
  - destruct Hd. auto.
Qed.
Lemma two_solid : forall a b c a' b' c' k, finite_triangle (tri_of (tri a b c)) /\ real_triangle (tri_of (tri a b c)) ->
  finite_triangle (tri_of (tri a' b' c')) /\ real_triangle (tri_of (tri a' b' c')) -> solid_model (two (tri a b c) (tri a' b' c') k).
Proof.
  intros a b c a' b' c' k H H' s Hs p t T Hp Ht HT. destruct Hs as [<-|[<-|[]]]; cbn [co_mesh fst snd enum] in *;
    pose proof (tri_fan _ _ _ _ _ Hp Ht) as ->; apply tri_triangle in HT; subst T; assumption.
Qed.
Lemma two_joined : forall a b c a' b' c' k, k <= 3 ->
  (forall v p q, v < k -> point_of (tri a b c) v p -> point_of (tri a' b' c') v q -> same_spot (place_of p) (place_of q)) ->
  joined_surfaces (two (tri a b c) (tri a' b' c') k).
Proof.
  intros a b c a' b' c' k Hk J s1 s2 v w p q H1 H2 E Hp Hq. set (A := tri a b c) in *. set (B := tri a' b' c') in *.
  assert (SS : forall s, In s (m_surfaces (two A B k)) -> s = comp 0 A \/ s = comp 1 B) by (intros s [<-|[<-|[]]]; [left|right]; reflexivity).
  assert (R : forall x, same_spot x x) by (intros [[? ?] ?]; repeat split; reflexivity).
  assert (F : forall m x y z, point_of m x y -> point_of m x z -> y = z) by (intros m x y z U W; red in U, W; congruence).
  assert (La : forall x y, point_of A x y -> x < 3) by (intros x y U; change 3 with (length (sm_points A)); apply nth_error_Some; red in U; congruence).
  assert (Lb : forall x y, point_of B x y -> x < 3) by (intros x y U; change 3 with (length (sm_points B)); apply nth_error_Some; red in U; congruence).
  destruct (SS s1 H1) as [->| ->], (SS s2 H2) as [->| ->]; cbn [co_mesh comp] in Hp, Hq; unfold uv_of, two, ex_surfaces in E; cbn [m_unique_vertex cmv_component cmv_vertex cid_id co_id comp] in E.
  - assert (v = w) as -> by (injection E; auto). rewrite (F _ _ _ _ Hp Hq). apply R.
  - injection E as E. specialize (La _ _ Hp). destruct (Nat.ltb_spec w k); [|lia]. subst w. apply (J v); assumption.
  - injection E as E. specialize (La _ _ Hq). destruct (Nat.ltb_spec v k); [|lia]. subst w.
    assert (S : same_spot (place_of q) (place_of p)) by (apply (J v); assumption).
    destruct (place_of q) as [[? ?] ?], (place_of p) as [[? ?] ?], S as (? & ? & ?). repeat split; symmetry; assumption.
  - injection E as E. assert (v = w) as -> by (destruct (Nat.ltb_spec v k), (Nat.ltb_spec w k); lia). rewrite (F _ _ _ _ Hp Hq). apply R.
Qed.
Example hypotheses_met : forall k, k <= 2 ->
  let m := two ground inside_on_side k in intersections_ready sharp_px m two_trees /\ no_empty_surface m /\ exact_predicates sharp_px /\ dimension_is m 3 /\
  joined_surfaces m /\ solid_model m /\ boxes_complete m two_trees.
Proof.
  intros k Hk m. destruct all_real as (G & N & _). split; [apply two_ready; apply sharp_ok|].
  split; [intros s [<-|[<-|[]]] _; discriminate|]. split; [apply sharp_ok|]. split; [intros s [<-|[<-|[]]]; reflexivity|].
  split; [|split; [apply two_solid; assumption|apply two_boxes]].
  apply two_joined; [lia|]. intros v p q Hv Hp Hq. assert (K : v = 0 \/ v = 1) by lia.
  destruct K as [->| ->]; cbn in Hp, Hq; injection Hp as <-; injection Hq as <-; vm_compute; auto.
Qed.
Lemma two_answer : forall px a b c a' b' c' k x, indices_in_range px ->
  let m := two (tri a b c) (tri a' b' c') k in polygons_intersect px m (comp 0 (tri a b c)) (comp 1 (tri a' b' c')) 0 0 = Ok x ->
  forall r, model_has_intersecting_surfaces px m two_trees r <-> r = Ok x.
Proof.
  intros px a b c a' b' c' k x Hpx m Hx. set (A := tri a b c) in *. set (B := tri a' b' c') in *.
  assert (SS : forall s, In s (m_surfaces m) -> s = comp 0 A \/ s = comp 1 B) by (intros s [<-|[<-|[]]]; [left|right]; reflexivity).
  pose proof (two_ready px a b c a' b' c' k Hpx) as R. fold A B m in R.
  assert (NE : no_empty_surface m) by (intros s [<-|[<-|[]]] _; discriminate).
  destruct (polygons_decides px m (comp 0 A) (comp 1 B) 0 0 Hpx ltac:(intros E; discriminate E)) as (b0 & E & Hb).
  { apply (ir_surfaces _ _ _ R). left. reflexivity. } { apply (ir_surfaces _ _ _ R). right. left. reflexivity. } { cbn; lia. } { cbn; lia. }
  rewrite Hx in E. injection E as <-.
  assert (W : forall r, model_has_intersecting_surfaces px m two_trees r -> r = Ok x).
  { intros r H. destruct (model_yes_no px m two_trees R r NE H) as (y & -> & Hy). f_equal. apply eq_true_iff_eq. rewrite Hb, Hy. split.
    - intros (s1 & s2 & d & P & N & M). destruct P as [(<- & Hs & _ & i & _ & Hd)|(H1 & H2 & i & j & Hij & Ei & Ej & Hd)].
      + exfalso. apply N. cbn in Hd. destruct Hd as [<-|[]]. auto.
      + cbn in Hd. destruct Hd as [<-|[]]. cbn in Hij. destruct Hij as [E|[]]. injection E as <- <-.
        destruct (SS s1 H1) as [->| ->]; [|discriminate Ei]. destruct (SS s2 H2) as [->| ->]; [discriminate Ej|]. exact M.
    - intros M. exists (comp 0 A), (comp 1 B), (0, 0). split; [right|split].
      + split; [left; reflexivity|]. split; [right; left; reflexivity|]. exists 0, 1. cbn. auto.
      + intros (K & _). discriminate K.
      + exact M. }
  intros r. split; [apply W|]. intros ->. destruct (model_runs px m two_trees (mkLineTrees [] (fun _ _ => []))) as (_ & _ & _ & (r & Hr)).
  rewrite (W r Hr) in Hr. exact Hr.
Qed.
(** which of the two surfaces comes first matters: with exact predicates, the same two triangles are reported in one order and not in the other *)
Theorem C77_order_matters : exists px m trees m' trees' a b,
  intersections_ready px m trees /\ no_empty_surface m /\ exact_predicates px /\ dimension_is m 3 /\ joined_surfaces m /\ solid_model m /\ boxes_complete m trees /\
  intersections_ready px m' trees' /\ no_empty_surface m' /\ dimension_is m' 3 /\ joined_surfaces m' /\ solid_model m' /\ boxes_complete m' trees' /\
  map co_mesh (m_surfaces m) = [a; b] /\ map co_mesh (m_surfaces m') = [b; a] /\
  (forall r, model_has_intersecting_surfaces px m trees r <-> r = Ok false) /\ (forall r, model_has_intersecting_surfaces px m' trees' r <-> r = Ok true).
Proof.
  exists sharp_px, (two ground inside_on_side 2), two_trees, (two inside_on_side ground 2), two_trees, ground, inside_on_side.
  destruct (hypotheses_met 2 (le_n 2)) as (A & B & C & D & E & F & G). repeat (split; [assumption|]). destruct all_real as (HG & HN & _).
  split; [apply two_ready; apply sharp_ok|]. split; [intros s [<-|[<-|[]]] _; discriminate|]. split; [intros s [<-|[<-|[]]]; reflexivity|].
  split.
  { apply two_joined; [lia|]. intros v p q Hv Hp Hq. assert (K : v = 0 \/ v = 1) by lia.
    destruct K as [->| ->]; cbn in Hp, Hq; injection Hp as <-; injection Hq as <-; vm_compute; auto. }
  split; [apply two_solid; assumption|]. split; [apply two_boxes|]. split; [reflexivity|]. split; [reflexivity|].
  split; apply two_answer; try apply sharp_ok; vm_compute; reflexivity.
Qed.
Print Assumptions C77_order_matters.
(** two triangles that cross are reported, whatever their order *)
Example through_reported : forall r, model_has_intersecting_surfaces sharp_px (two ground through 0) two_trees r <-> r = Ok true.
Proof. apply two_answer; [apply sharp_ok|]. vm_compute. reflexivity. Qed.
Example through_reported' : forall r, model_has_intersecting_surfaces sharp_px (two through ground 0) two_trees r <-> r = Ok true.
Proof. apply two_answer; [apply sharp_ok|]. vm_compute. reflexivity. Qed.
