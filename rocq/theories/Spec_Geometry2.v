(** Segments and triangles of the plane: what the predicates of Sections may promise, and what their surfaces do. *)
From Coq Require Import String List Arith NArith ZArith Bool QArith SpecFloat.
From Verif Require Import Base Types Model_Intersections Spec_Intersections Spec_Geometry.
Import ListNotations.
Local Open Scope nat_scope.
Local Open Scope list_scope.

(** points of the plane have two coordinates; [place_of] gives them the third coordinate 0 *)
Definition plane_point (p : Point) : Prop := List.length p = 2.
Definition plane_triangle (t : Triangle) : Prop := plane_point (fst (fst t)) /\ plane_point (snd (fst t)) /\ plane_point (snd t).
Definition plane_segment (s : Segment) : Prop := plane_point (fst s) /\ plane_point (snd s).
(** the second segment is on the line of the first one *)
Definition one_line (s s' : Segment) : Prop :=
  aligned (segment_end s' 0) (segment_end s 0) (segment_end s 1) /\ aligned (segment_end s' 1) (segment_end s 0) (segment_end s 1).

(** ** What the predicates on two segments, and on a point and a triangle, may promise *)
Record exact_in_plane (px : Predicates) : Prop := {
  (** "outside" means that they do not touch *)
  pl_contact : forall s s', finite_segment s -> finite_segment s' -> plane_segment s -> plane_segment s' ->
    (fst (px_segment_segment px s s') <> Outside <-> exists x, on_segment x s /\ on_segment x s');
  (** only segments on one line are "parallel" *)
  pl_parallel : forall s s', finite_segment s -> finite_segment s' -> plane_segment s -> plane_segment s' ->
    real_segment s -> real_segment s' -> fst (px_segment_segment px s s') = Parallel -> one_line s s';
  (** "vertex on vertex" is said only if they touch nowhere else *)
  pl_vertex : forall s s' i j x, finite_segment s -> finite_segment s' -> plane_segment s -> plane_segment s' ->
    px_index px (fst (px_segment_segment px s s')) = Some i -> px_index px (snd (px_segment_segment px s s')) = Some j ->
    on_segment x s -> on_segment x s' -> same_spot x (segment_end s i) /\ same_spot x (segment_end s' j);
  (** and it is said of segments that have an end in common, unless they are "parallel" or touch elsewhere *)
  pl_same : forall s s' i j, finite_segment s -> finite_segment s' -> plane_segment s -> plane_segment s' -> real_segment s -> real_segment s' ->
    i < 2 -> j < 2 -> same_spot (segment_end s i) (segment_end s' j) -> fst (px_segment_segment px s s') <> Parallel ->
    (px_index px (fst (px_segment_segment px s s')) = Some i /\ px_index px (snd (px_segment_segment px s s')) = Some j) \/
    exists x, on_segment x s /\ on_segment x s' /\ ~ same_spot x (segment_end s i);
  pl_point : forall p t, finite_point p -> finite_triangle t -> plane_point p -> plane_triangle t ->
    (px_point_triangle px p t <> Outside <-> on_triangle (place_of p) t) }.

(** ** Triangles of the surfaces of a Section *)
(** every corner of the second triangle is strictly inside the first one, or common to both *)
Definition engulfs (mesh1 : SurfaceMesh) (c : list (nat * nat)) (T1 T2 : Triangle) : Prop :=
  forall i, i < 3 -> strictly_among (corner T2 i) (corner T1 0) (corner T1 1) (corner T1 2) \/ in_common mesh1 c (corner T2 i).
(** the vertex of the first mesh with the number of the second common vertex in the second mesh is at the same place (C47) *)
Definition second_right (mesh1 : SurfaceMesh) (c : list (nat * nat)) : Prop :=
  forall a b p q, c = [a; b] -> point_of mesh1 (fst b) p -> point_of mesh1 (snd b) q -> same_spot (place_of q) (place_of p).
(** the vertices are finite points of the plane *)
Definition plane_mesh (mesh : SurfaceMesh) : Prop := forall p, In p (sm_points mesh) -> finite_point p /\ plane_point p.
(** every triangle that polygons are cut into has an area *)
Definition solid_flat_surface (mesh : SurfaceMesh) : Prop :=
  plane_mesh mesh /\
  forall p t T, p < nb_polygons mesh -> fan_triangle (polygon_vertices mesh p) t -> triangle_of mesh t T -> real_triangle T.
Definition solid_section (m : Model) : Prop := forall s, In s (m_surfaces m) -> solid_flat_surface (co_mesh s).
(** shared vertices have one number in all the surfaces that share them, as far as places go *)
Definition numbered_alike (m : Model) : Prop :=
  forall s1 s2 v w p q, In s1 (m_surfaces m) -> In s2 (m_surfaces m) -> uv_of m s1 v = uv_of m s2 w ->
    point_of (co_mesh s1) v p -> point_of (co_mesh s1) w q -> same_spot (place_of q) (place_of p).
(** one of two triangles with at most one common vertex is inside the other *)
Definition one_inside (m : Model) (s1 s2 : Component SurfaceMesh) (t1 t2 : list nat) : Prop :=
  exists T1 T2 c, triangle_of (co_mesh s1) t1 T1 /\ triangle_of (co_mesh s2) t2 T2 /\ common_vertices m s1 s2 t2 t1 c /\
    List.length c < 2 /\ (engulfs (co_mesh s1) c T1 T2 \/ engulfs (co_mesh s1) c T2 T1).
Definition reported_in_plane (m : Model) (s1 s2 : Component SurfaceMesh) (t1 t2 : list nat) : Prop :=
  triangles_cross m s1 s2 t1 t2 /\ ~ one_inside m s1 s2 t1 t2.
