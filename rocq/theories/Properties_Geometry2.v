(** C78: with exact predicates, the surfaces of a Section are reported as intersecting exactly when they do in the plane, except that a
    triangle inside another one is missed. *)
From Coq Require Import String List Arith NArith ZArith Bool QArith Lqa Lia Permutation.
From Verif Require Import Base BaseFacts Model_Issues Types Model_Intersections Spec_Colocation Spec_Intersections Proof_Intersections Proof_Intersections2 Proof_Intersections3 Proof_Intersections4 Proof_Intersections5 Proof_Symmetry Properties_Intersections
  Spec_Geometry Proof_Geometry Proof_Geometry2 Proof_Geometry3 Proof_Geometry4 Proof_Geometry5 Proof_Geometry6 Proof_Exact Proof_Exact2 Spec_Geometry2 Proof_Flat Proof_Flat2 Proof_Flat3 Proof_Flat4 Proof_Exact3.
Import ListNotations.
Open Scope nat_scope.
Open Scope list_scope.

Definition plane_px : Predicates := mkPredicates sharp_point sharp_segment sharp_triangle vertex_index (fun _ _ _ => false).
Lemma plane_ok : indices_in_range plane_px /\ exact_in_plane plane_px /\ exact_predicates plane_px.
Proof.
  split; [|split; [apply sharp_in_plane|split; [apply sharp_overlooks_nothing|split; [apply sharp_invents_nothing|apply sharp_parallel]]]].
  split; [intros s s' i; apply sharp_segment_range|]. split; [intros s s' i; apply sharp_segment_range|].
  intros s t i. cbn [px_index px_segment_triangle plane_px]. generalize (snd (sharp_triangle s t)). intros p. destruct p; cbn; intros [= <-]; lia.
Qed.
(** predicates that keep every promise exist, for Sections and BReps together *)
Theorem C78_exact_predicates_exist : exists px, indices_in_range px /\ exact_in_plane px /\ exact_predicates px.
Proof. exists plane_px. exact plane_ok. Qed.
Print Assumptions C78_exact_predicates_exist.
(** two triangles of Section surfaces: same vertices, or a contact beyond the common vertices, unless they have at most one common
    vertex and one is inside the other *)
Theorem C78_triangles : forall px m s1 s2 t1 t2 T1 T2 c, indices_in_range px -> exact_in_plane px -> sm_dimension (co_mesh s1) = 2 -> readable m s1 s2 ->
  triangle_of (co_mesh s1) t1 T1 -> triangle_of (co_mesh s2) t2 T2 -> plane_mesh (co_mesh s1) -> plane_mesh (co_mesh s2) -> real_triangle T1 -> real_triangle T2 ->
  common_vertices m s1 s2 t2 t1 c -> joined (co_mesh s1) (co_mesh s2) c -> second_right (co_mesh s1) c ->
  exists b, triangles_intersection_detection px m s1 s2 t1 t2 = Ok b /\
    (b = true <-> length c = 3 \/ meet_beyond (co_mesh s1) c T1 T2 /\
       ~ (length c < 2 /\ (engulfs (co_mesh s1) c T1 T2 \/ engulfs (co_mesh s1) c T2 T1))).
Proof. exact triangle_test_2d. Qed.
Print Assumptions C78_triangles.
(** for two triangles of one surface nothing is asked about the numbers of the vertices *)
Theorem C78_one_surface : forall px m s t1 t2 T1 T2 c, indices_in_range px -> exact_in_plane px -> sm_dimension (co_mesh s) = 2 ->
  triangle_of (co_mesh s) t1 T1 -> triangle_of (co_mesh s) t2 T2 -> plane_mesh (co_mesh s) -> real_triangle T1 -> real_triangle T2 ->
  common_vertices m s s t2 t1 c -> joined (co_mesh s) (co_mesh s) c ->
  exists b, triangles_intersection_detection px m s s t1 t2 = Ok b /\
    (b = true <-> length c = 3 \/ meet_beyond (co_mesh s) c T1 T2 /\
       ~ (length c < 2 /\ (engulfs (co_mesh s) c T1 T2 \/ engulfs (co_mesh s) c T2 T1))).
Proof.
  intros px m s t1 t2 T1 T2 c Hix EX D H1 H2 P R1 R2 C J.
  exact (triangle_test_2d px m s s t1 t2 T1 T2 c Hix EX D (readable_self m s) H1 H2 P P R1 R2 C J (right_self _ _ J)).
Qed.
Print Assumptions C78_one_surface.
(** polygons, cut into triangles from their first vertex *)
Theorem C78_polygons : forall px m s1 s2 p q, indices_in_range px -> exact_in_plane px -> sm_dimension (co_mesh s1) = 2 -> joined_surfaces m -> numbered_alike m ->
  readable m s1 s2 -> In s1 (m_surfaces m) -> In s2 (m_surfaces m) -> polygons_ready (co_mesh s1) -> polygons_ready (co_mesh s2) ->
  solid_flat_surface (co_mesh s1) -> solid_flat_surface (co_mesh s2) -> p < nb_polygons (co_mesh s1) -> q < nb_polygons (co_mesh s2) ->
  exists b, polygons_intersect px m s1 s2 p q = Ok b /\ (b = true <-> polygons_meet s1 s2 (reported_in_plane m s1 s2) p q).
Proof. exact polygon_test_2d. Qed.
Print Assumptions C78_polygons.
(** the report of a Section: the proposed pairs of polygons that meet in the plane *)
Theorem C78_report : forall px m trees r, intersections_ready px m trees -> no_empty_surface m -> exact_in_plane px -> dimension_is m 2 ->
  joined_surfaces m -> numbered_alike m -> solid_section m -> section_inspect_intersections px m trees r ->
  exists l, r = Ok l /\ forall x, In x (ii_issues l) <-> exists s1 s2 c, proposed m trees s1 s2 c /\ different_polygons s1 s2 c /\
    polygons_meet s1 s2 (reported_in_plane m s1 s2) (fst c) (snd c) /\ x = (surface_element s1 (fst c), surface_element s2 (snd c)).
Proof. exact report_2d. Qed.
Print Assumptions C78_report.
(** the report of the surfaces with themselves asks nothing about the numbers of the vertices *)
Theorem C78_self_report : forall px m trees r, intersections_ready px m trees -> no_empty_surface m -> exact_in_plane px -> dimension_is m 2 -> joined_surfaces m ->
  solid_section m -> inspect_surfaces_self_intersections px m trees r ->
  exists l, r = Ok l /\ forall x, In x (ii_issues l) <-> exists s c, proposed m trees s s c /\ fst c <> snd c /\
    polygons_meet s s (reported_in_plane m s s) (fst c) (snd c) /\ x = (surface_element s (fst c), surface_element s (snd c)).
Proof. exact self_report_2d. Qed.
Print Assumptions C78_self_report.
(** "no intersection": the triangles of two polygons meet only in their common vertices and sides, or one is inside the other *)
Theorem C78_silence : forall px m trees s1 s2 p q t1 t2 T1 T2 c, intersections_ready px m trees -> no_empty_surface m -> exact_in_plane px -> dimension_is m 2 ->
  joined_surfaces m -> numbered_alike m -> solid_section m -> boxes_complete m trees -> model_has_intersecting_surfaces px m trees (Ok false) ->
  In s1 (m_surfaces m) -> In s2 (m_surfaces m) -> co_active s1 = true -> co_active s2 = true ->
  p < nb_polygons (co_mesh s1) -> q < nb_polygons (co_mesh s2) -> ~ (co_id s1 = co_id s2 /\ p = q) ->
  fan_triangle (polygon_vertices (co_mesh s1) p) t1 -> fan_triangle (polygon_vertices (co_mesh s2) q) t2 ->
  triangle_of (co_mesh s1) t1 T1 -> triangle_of (co_mesh s2) t2 T2 -> common_vertices m s1 s2 t2 t1 c ->
  length c <> 3 /\ (meet_beyond (co_mesh s1) c T1 T2 -> length c < 2 /\ (engulfs (co_mesh s1) c T1 T2 \/ engulfs (co_mesh s1) c T2 T1)).
Proof. exact silence_2d. Qed.
Print Assumptions C78_silence.

(** ** Concrete instances *)
Definition tri (a b c : list Z) := ex_mesh 2 [a; b; c] [[0; 1; 2]].
Definition ground := tri [0; 0]%Z [8; 0]%Z [0; 8]%Z.
Definition hole := tri [1; 1]%Z [2; 1]%Z [1; 2]%Z.
Definition hung := tri [0; 0]%Z [2; 1]%Z [1; 2]%Z.
Definition across := tri [0; 0]%Z [8; 0]%Z [1; -2]%Z.
Definition across_turned := tri [0; 0]%Z [1; -2]%Z [8; 0]%Z.
Definition over := tri [0; 0]%Z [8; 0]%Z [1; 1]%Z.
Definition crossing := tri [1; 1]%Z [9; 9]%Z [1; 2]%Z.
Definition at_corner := tri [0; 0]%Z [-1; -1]%Z [-1; -2]%Z.
Definition comp (id : nat) (mesh : SurfaceMesh) : Component SurfaceMesh := mkComponent id None true mesh.
Definition pair (a b : SurfaceMesh) (f : nat -> nat -> option nat) : Model := ex_surfaces [a; b] [] f [].
(** [k] vertices of the second surface are the same as those of the first one *)
Definition shared (k : nat) (s v : nat) : option nat := Some (match s with 0 => v | _ => if Nat.ltb v k then v else 3 + v end).
(** the last vertex of the second surface is vertex 1 of the first one *)
Definition turned (s v : nat) : option nat := Some (match s, v with 0, _ => v | _, 0 => 0 | _, 2 => 1 | _, _ => 3 + v end).
Definition two_trees := mkTrees [0; 1] [(0, 1)] (fun _ => [(0, 0)]) (fun _ _ => [(0, 0)]).
Definition test (a b : SurfaceMesh) (f : nat -> nat -> option nat) : outcome bool :=
  triangles_intersection_detection plane_px (pair a b f) (comp 0 a) (comp 1 b) [0; 1; 2] [0; 1; 2].
Example plane_answers :
  test ground crossing (shared 0) = Ok true /\ test crossing ground (shared 0) = Ok true /\
  test ground hole (shared 0) = Ok false /\ test hole ground (shared 0) = Ok false /\ test ground hung (shared 1) = Ok false /\
  test ground at_corner (shared 1) = Ok false /\ test ground at_corner (shared 0) = Ok true /\
  test ground across (shared 2) = Ok false /\ test ground over (shared 2) = Ok true /\ test over ground (shared 2) = Ok true /\
  test ground across_turned turned = Ok true.
Proof. vm_compute. repeat split; reflexivity. Qed.

Definition tri_of (mesh : SurfaceMesh) : Triangle := (nth 0 (sm_points mesh) [], nth 1 (sm_points mesh) [], nth 2 (sm_points mesh) []).
Lemma tri_triangle : forall a b c T, triangle_of (tri a b c) [0; 1; 2] T <-> T = tri_of (tri a b c).
Proof.
  intros a b c T. split.
  - intros (x & y & z & E & A & B & C). injection E as <- <- <-. destruct T as [[p q] r]. cbn in A, B, C. injection A as <-. injection B as <-. injection C as <-. reflexivity.
  - intros ->. exists 0, 1, 2. repeat split.
Qed.
Lemma tri_fan : forall a b c p t, p < nb_polygons (tri a b c) -> fan_triangle (polygon_vertices (tri a b c) p) t -> t = [0; 1; 2].
Proof.
  intros a b c p t Hp (i & L & U & H). cbn in Hp. assert (p = 0) as -> by lia. cbn in U. assert (i = 1) as -> by lia.
  destruct H as (x & y & z & -> & A & B & C). cbn in A, B, C. injection A as <-. injection B as <-. injection C as <-. reflexivity.
Qed.
Lemma pair_ready : forall px a b c a' b' c' f, indices_in_range px -> intersections_ready px (pair (tri a b c) (tri a' b' c') f) two_trees.
Proof.
  intros px a b c a' b' c' f Hpx. set (A := tri a b c). set (B := tri a' b' c').
  assert (SS : forall s, In s (m_surfaces (pair A B f)) -> s = comp 0 A \/ s = comp 1 B) by (intros s [<-|[<-|[]]]; [left|right]; reflexivity).
  constructor.
  - repeat constructor; cbn; intuition discriminate.
  - constructor.
    + repeat constructor; cbn; intuition discriminate.
    + intros id [<-|[<-|[]]]; [exists (comp 0 A)|exists (comp 1 B)]; cbn; auto.
    + intros s Hs _. destruct (SS s Hs) as [->| ->]; cbn; auto.
    + intros i j [[= <- <-]|[]]. cbn. lia.
    + intros s i Hs Hi p q [[= <- <-]|[]]. destruct (SS s Hs) as [->| ->]; cbn; lia.
    + intros s1 s2 i j H1 H2 E1 E2 p q [[= <- <-]|[]]. destruct (SS s1 H1) as [->| ->], (SS s2 H2) as [->| ->]; cbn; lia.
  - intros s Hs p Hp. destruct (SS s Hs) as [->| ->]; cbn in Hp; destruct p as [|p]; try lia; cbn;
      (split; [repeat constructor; cbn; intuition discriminate|split; [intuition lia|lia]]).
  - exact Hpx.
  - intros s Hs _ s1 s2 v w H1 H2 Hv Hw _. destruct (SS s1 H1) as [->| ->], (SS s2 H2) as [->| ->]; exact Hw.
Qed.
Lemma pair_boxes : forall a b c a' b' c' f, boxes_complete (pair (tri a b c) (tri a' b' c') f) two_trees.
Proof.
  intros a b c a' b' c' f s1 s2 p q t1 t2 T1 T2 x H1 H2 _ _ Hp Hq Hd _ _ _ _ _ _. set (A := tri a b c) in *. set (B := tri a' b' c') in *.
  assert (SS : forall s, In s (m_surfaces (pair A B f)) -> s = comp 0 A \/ s = comp 1 B) by (intros s [<-|[<-|[]]]; [left|right]; reflexivity).
  assert (P : proposed_pair (pair A B f) two_trees (comp 0 A) (comp 1 B) (0, 0)).
  { split; [left; reflexivity|]. split; [right; left; reflexivity|]. exists 0, 1. cbn. auto. }
  destruct (SS s1 H1) as [->| ->], (SS s2 H2) as [->| ->]; cbn in Hp, Hq; assert (p = 0) as -> by lia; assert (q = 0) as -> by lia.
  - destruct Hd. auto.
  - left. right. exact P.
  - right. right. exact P.
  - destruct Hd. auto.
Qed.
Lemma pair_solid : forall a b c a' b' c' f, plane_mesh (tri a b c) -> real_triangle (tri_of (tri a b c)) ->
  plane_mesh (tri a' b' c') -> real_triangle (tri_of (tri a' b' c')) -> solid_section (pair (tri a b c) (tri a' b' c') f).
Proof.
  intros a b c a' b' c' f P R P' R' s Hs. destruct Hs as [<-|[<-|[]]]; (split; [assumption|]); intros p t T Hp Ht HT; cbn [co_mesh fst snd enum] in *;
    pose proof (tri_fan _ _ _ _ _ Hp Ht) as ->; apply tri_triangle in HT; subst T; assumption.
Qed.
Lemma pair_answer : forall px a b c a' b' c' f x, indices_in_range px ->
  let m := pair (tri a b c) (tri a' b' c') f in polygons_intersect px m (comp 0 (tri a b c)) (comp 1 (tri a' b' c')) 0 0 = Ok x ->
  forall r, model_has_intersecting_surfaces px m two_trees r <-> r = Ok x.
Proof.
  intros px a b c a' b' c' f x Hpx m Hx. set (A := tri a b c) in *. set (B := tri a' b' c') in *.
  assert (SS : forall s, In s (m_surfaces m) -> s = comp 0 A \/ s = comp 1 B) by (intros s [<-|[<-|[]]]; [left|right]; reflexivity).
  pose proof (pair_ready px a b c a' b' c' f Hpx) as R. fold A B m in R.
  assert (NE : no_empty_surface m) by (intros s [<-|[<-|[]]] _; discriminate).
  destruct (polygons_decides px m (comp 0 A) (comp 1 B) 0 0 Hpx) as (b0 & E & Hb).
  { intros _ v w Hv Hw _. exact Hw. }
  { apply (ir_surfaces _ _ _ R). left. reflexivity. } { apply (ir_surfaces _ _ _ R). right. left. reflexivity. } { cbn; lia. } { cbn; lia. }
  rewrite Hx in E. injection E as <-.
  assert (W : forall r, model_has_intersecting_surfaces px m two_trees r -> r = Ok x).
  { intros r H. destruct (model_yes_no px m two_trees R r NE H) as (y & -> & Hy). f_equal. apply eq_true_iff_eq. rewrite Hb, Hy. split.
    - intros (s1 & s2 & d & P & N & M). destruct P as [(<- & Hs & _ & i & _ & Hd)|(H1 & H2 & i & j & Hij & Ei & Ej & Hd)].
      + exfalso. apply N. cbn in Hd. destruct Hd as [<-|[]]. auto.
      + cbn in Hd. destruct Hd as [<-|[]]. cbn in Hij. destruct Hij as [E|[]]. injection E as <- <-.
        destruct (SS s1 H1) as [->| ->]; [|discriminate Ei]. destruct (SS s2 H2) as [->| ->]; [discriminate Ej|]. exact M.
    - intros M. exists (comp 0 A), (comp 1 B), (0, 0). split; [right|split].
      + split; [left; reflexivity|]. split; [right; left; reflexivity|]. exists 0, 1. cbn. auto.
      + intros (K & _). discriminate K.
      + exact M. }
  intros r. split; [apply W|]. intros ->. destruct (model_runs px m two_trees (mkLineTrees [] (fun _ _ => []))) as (_ & _ & _ & (r & Hr)).
  rewrite (W r Hr) in Hr. exact Hr.
Qed.
Ltac real := let N := fresh in let S := fresh in let E := fresh in intros (? & ? & ? & N & S & E); vm_compute place_of in E; cbn [same_spot mean3] in E; apply N; repeat split; lra.
Ltac plane := intros ?p ?H; cbn in *; (split; [intros ?d ?K; intuition (subst; cbn in *; intuition (subst; exact I))|intuition (subst; reflexivity)]).
Lemma all_plane : plane_mesh ground /\ plane_mesh hole /\ plane_mesh hung /\ plane_mesh across /\ plane_mesh across_turned /\ plane_mesh crossing.
Proof. repeat (split; [plane|]). plane. Qed.
Lemma all_real : real_triangle (tri_of ground) /\ real_triangle (tri_of hole) /\ real_triangle (tri_of hung) /\ real_triangle (tri_of across) /\
  real_triangle (tri_of across_turned) /\ real_triangle (tri_of crossing).
Proof. repeat (split; [real|]). real. Qed.
Ltac places := intros ?s1 ?s2 ?v ?w ?p ?q [<-|[<-|[]]] [<-|[<-|[]]] ?E ?Hp ?Hq;
  match goal with E : uv_of _ _ ?v = uv_of _ _ ?w, Hp : point_of _ ?v ?p, Hq : point_of _ ?w ?q |- _ =>
    destruct v as [|[|[|v]]]; [| | |destruct v; discriminate Hp]; (destruct w as [|[|[|w]]]; [| | |destruct w; discriminate Hq]);
    cbn in E; try discriminate E; cbn in Hp, Hq; injection Hp as <-; injection Hq as <-; vm_compute; auto end.
Lemma hole_joined : joined_surfaces (pair ground hole (shared 0)) /\ numbered_alike (pair ground hole (shared 0)).
Proof. split; places. Qed.
Lemma hung_joined : joined_surfaces (pair ground hung (shared 1)) /\ numbered_alike (pair ground hung (shared 1)).
Proof. split; places. Qed.
Lemma turned_joined : joined_surfaces (pair ground across_turned turned).
Proof. places. Qed.
(** a triangle with two common vertices, on the other side of them: the hypotheses, a right answer *)
Example hypotheses_met : let m := pair ground across (shared 2) in
  intersections_ready plane_px m two_trees /\ no_empty_surface m /\ exact_in_plane plane_px /\ dimension_is m 2 /\ joined_surfaces m /\ numbered_alike m /\ solid_section m /\
  boxes_complete m two_trees /\ forall r, model_has_intersecting_surfaces plane_px m two_trees r <-> r = Ok false.
Proof.
  destruct all_plane as (PG & _ & _ & PA & _), all_real as (RG & _ & _ & RA & _). intros m. split; [apply pair_ready; apply plane_ok|].
  split; [intros s [<-|[<-|[]]] _; discriminate|]. split; [apply plane_ok|]. split; [intros s [<-|[<-|[]]]; reflexivity|].
  split; [unfold m; places|]. split; [unfold m; places|]. split; [apply pair_solid; assumption|]. split; [apply pair_boxes|].
  apply pair_answer; [apply plane_ok|]. vm_compute. reflexivity.
Qed.
Example crossing_reported : forall r, model_has_intersecting_surfaces plane_px (pair ground crossing (shared 0)) two_trees r <-> r = Ok true.
Proof. apply pair_answer; [apply plane_ok|]. vm_compute. reflexivity. Qed.
(** what is missed: with exact predicates, one triangle inside another one, whichever comes first *)
Theorem C78_hole_missed : exists px m trees s1 s2 T1 T2,
  intersections_ready px m trees /\ no_empty_surface m /\ exact_in_plane px /\ dimension_is m 2 /\ joined_surfaces m /\ numbered_alike m /\ solid_section m /\ boxes_complete m trees /\
  In s1 (m_surfaces m) /\ In s2 (m_surfaces m) /\ co_id s1 <> co_id s2 /\
  triangle_of (co_mesh s1) (polygon_vertices (co_mesh s1) 0) T1 /\ triangle_of (co_mesh s2) (polygon_vertices (co_mesh s2) 0) T2 /\
  (forall x, on_triangle x T2 -> on_triangle x T1) /\ (forall v w, v < 3 -> w < 3 -> uv_of m s1 v <> uv_of m s2 w) /\
  forall r, model_has_intersecting_surfaces px m trees r <-> r = Ok false.
Proof.
  destruct all_plane as (PG & PH & _), all_real as (RG & RH & _), hole_joined as (J & N).
  exists plane_px, (pair ground hole (shared 0)), two_trees, (comp 0 ground), (comp 1 hole), (tri_of ground), (tri_of hole).
  split; [apply pair_ready; apply plane_ok|]. split; [intros s [<-|[<-|[]]] _; discriminate|]. split; [apply plane_ok|]. split; [intros s [<-|[<-|[]]]; reflexivity|].
  split; [exact J|]. split; [exact N|]. split; [apply pair_solid; assumption|]. split; [apply pair_boxes|].
  split; [left; reflexivity|]. split; [right; left; reflexivity|]. split; [discriminate|]. split; [apply tri_triangle; reflexivity|]. split; [apply tri_triangle; reflexivity|].
  split; [|split].
  - intros [[x0 x1] x2] (a & b & c & A & B & C & S & E). vm_compute place_of in E. cbn [same_spot mean3] in E. destruct E as (E0 & E1 & E2).
    exists (1 - x0 * (1 # 8) - x1 * (1 # 8))%Q, (x0 * (1 # 8))%Q, (x1 * (1 # 8))%Q. vm_compute place_of. cbn [same_spot mean3].
    split; [lra|]. split; [lra|]. split; [lra|]. split; [lra|]. split; [lra|]. split; lra.
  - intros v w Hv Hw E. destruct v as [|[|[|v]]], w as [|[|[|w]]]; try lia; discriminate E.
  - apply pair_answer; [apply plane_ok|]. vm_compute. reflexivity.
Qed.
Print Assumptions C78_hole_missed.

Lemma turned_common : common_vertices (pair ground across_turned turned) (comp 0 ground) (comp 1 across_turned) [0; 1; 2] [0; 1; 2] [(0, 0); (1, 2)].
Proof.
  apply cv_common; [exists [], [1; 2]; split; [reflexivity|split; [reflexivity|intros x []]]|].
  apply cv_common; [exists [0; 1], []; split; [reflexivity|split; [reflexivity|intros x [<-|[<-|[]]]; discriminate]]|].
  apply cv_other; [intros w [<-|[<-|[<-|[]]]]; discriminate|]. apply cv_nil.
Qed.
(** the condition on the numbers matters (C47): with exact predicates, two triangles on either side of their common side are reported *)
Theorem C78_numbering_matters : exists px m trees,
  intersections_ready px m trees /\ no_empty_surface m /\ exact_in_plane px /\ dimension_is m 2 /\ joined_surfaces m /\ solid_section m /\ boxes_complete m trees /\
  (forall s1 s2 c, proposed m trees s1 s2 c -> different_polygons s1 s2 c -> ~ polygons_meet s1 s2 (triangles_cross m s1 s2) (fst c) (snd c)) /\
  forall r, model_has_intersecting_surfaces px m trees r <-> r = Ok true.
Proof.
  destruct all_plane as (PG & _ & _ & _ & PA & _), all_real as (RG & _ & _ & _ & RA & _).
  exists plane_px, (pair ground across_turned turned), two_trees.
  split; [apply pair_ready; apply plane_ok|]. split; [intros s [<-|[<-|[]]] _; discriminate|]. split; [apply plane_ok|]. split; [intros s [<-|[<-|[]]]; reflexivity|].
  split; [exact turned_joined|]. split; [apply pair_solid; assumption|]. split; [apply pair_boxes|]. split; [|apply pair_answer; [apply plane_ok|]; vm_compute; reflexivity].
  intros s1 s2 d P D (t1 & t2 & F1 & F2 & T1 & T2 & c & H1 & H2 & C & K).
  assert (E : s1 = comp 0 ground /\ s2 = comp 1 across_turned /\ d = (0, 0)).
  { destruct P as [(<- & Hs & _ & i & _ & Hd)|(I1 & I2 & i & j & Hij & Ei & Ej & Hd)].
    - exfalso. apply D. cbn in Hd. destruct Hd as [<-|[]]. auto.
    - cbn in Hd. destruct Hd as [<-|[]]. cbn in Hij. destruct Hij as [E|[]]. injection E as <- <-.
      destruct I1 as [<-|[<-|[]]]; [|discriminate Ei]. destruct I2 as [<-|[<-|[]]]; [discriminate Ej|]. repeat split. }
  destruct E as (-> & -> & ->). cbn [fst snd co_mesh comp] in *.
  pose proof (tri_fan _ _ _ 0 t1 ltac:(cbn; lia) F1) as ->. pose proof (tri_fan _ _ _ 0 t2 ltac:(cbn; lia) F2) as ->.
  apply tri_triangle in H1, H2. subst T1 T2. rewrite (common_fun _ _ _ _ _ _ _ C turned_common) in K.
  destruct K as [K|K]; [discriminate K|]. destruct K as ([[x0 x1] x2] & (a & b & e & A & B & G & S & E) & (a' & b' & e' & A' & B' & G' & S' & E') & N).
  vm_compute place_of in E, E'. cbn [same_spot mean3] in E, E'. destruct E as (E0 & E1 & E2), E' as (E0' & E1' & E2').
  apply N. eapply (ic_side ground (0, 0) (1, 2)); [reflexivity|reflexivity|]. exists (1 - x0 * (1 # 8))%Q, (x0 * (1 # 8))%Q. vm_compute place_of. cbn [same_spot mean2].
  split; [lra|]. split; [lra|]. split; [lra|]. split; [lra|]. split; lra.
Qed.
Print Assumptions C78_numbering_matters.
