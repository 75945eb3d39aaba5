(** Moving, turning, stretching and shearing: maps of space that keep weighted means, and objects whose points follow such a map (C87). *)
From Coq Require Import String List Arith NArith ZArith Bool QArith SpecFloat.
From Verif Require Import Base Types Model_Intersections Spec_Intersections Spec_Geometry Spec_Geometry2 Spec_Geometry3.
Import ListNotations.
Local Open Scope Q_scope.

(** an affine map that takes different places to different places *)
Record affine_one_to_one (A : place -> place) : Prop := {
  af_mean : forall a b c p q r, a + b + c == 1 -> same_spot (A (mean3 a b c p q r)) (mean3 a b c (A p) (A q) (A r));
  af_proper : forall x y, same_spot x y -> same_spot (A x) (A y);
  af_one_to_one : forall x y, same_spot (A x) (A y) -> same_spot x y }.

Local Open Scope nat_scope.
Local Open Scope list_scope.
(** points with finite coordinates that [g] takes, without any rounding, where [A] takes their places *)
Definition follows_map (A : place -> place) (g : Point -> Point) (points : list Point) : Prop :=
  forall p, In p points -> finite_point p /\ finite_point (g p) /\ same_spot (place_of (g p)) (A (place_of p)).
Definition surfaces_follow (A : place -> place) (g : Point -> Point) (m : Model) : Prop :=
  forall s, In s (m_surfaces m) -> follows_map A g (sm_points (co_mesh s)).
Definition lines_follow (A : place -> place) (g : Point -> Point) (m : Model) : Prop :=
  forall l, In l (m_lines m) -> follows_map A g (ec_points (co_mesh l)).
(** points of the plane stay in the plane *)
Definition stays_in_plane (g : Point -> Point) (points : list Point) : Prop := forall p, In p points -> plane_point p -> plane_point (g p).

(** two polygons, or a polygon and an edge, that touch *)
Definition polygons_touch (s1 s2 : Component SurfaceMesh) (c : nat * nat) : Prop :=
  exists t1 t2 T1 T2 x, fan_triangle (polygon_vertices (co_mesh s1) (fst c)) t1 /\ fan_triangle (polygon_vertices (co_mesh s2) (snd c)) t2 /\
    triangle_of (co_mesh s1) t1 T1 /\ triangle_of (co_mesh s2) t2 T2 /\ on_triangle x T1 /\ on_triangle x T2.
Definition edge_touches (s : Component SurfaceMesh) (l : Component EdgedCurve) (c : nat * nat) : Prop :=
  exists t T e x, fan_triangle (polygon_vertices (co_mesh s) (fst c)) t /\ triangle_of (co_mesh s) t T /\ segment_of (co_mesh l) (snd c) e /\
    on_segment x e /\ on_triangle x T.
(** the boxes of the new position propose the polygons that touch exactly when the old ones did; what they propose besides is free *)
Definition same_touching_pairs (m : Model) (trees trees' : Trees) : Prop :=
  forall s1 s2 c, polygons_touch s1 s2 c -> (proposed m trees s1 s2 c <-> proposed m trees' s1 s2 c).
Definition same_touching_edges (m : Model) (trees trees' : Trees) (lines lines' : LineTrees) : Prop :=
  forall s l c, edge_touches s l c -> (proposed_line m trees lines s l c <-> proposed_line m trees' lines' s l c).
