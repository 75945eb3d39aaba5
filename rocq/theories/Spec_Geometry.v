(** Points, segments and triangles in space, over the rational numbers: what the geometric predicates speak about.

    Every finite double is a rational number, so the corners of all meshes are rational points, and segments and triangles with
    rational corners share a point of real space exactly when they share a rational one. *)
From Coq Require Import String List Arith NArith ZArith Bool QArith SpecFloat.
From Verif Require Import Base Types Model_Intersections Spec_Intersections.
Import ListNotations.
Local Open Scope Q_scope.

(** ** Coordinates *)
Definition finite (d : double) : Prop := match d with S754_zero _ | S754_finite _ _ _ => True | _ => False end.
(** the number a finite double stands for *)
Definition value (d : double) : Q :=
  match d with S754_finite s m e => inject_Z (if s then Zneg m else Zpos m) * (2 # 1) ^ e | _ => 0 end.
Definition place := (Q * Q * Q)%type.
(** where a point is; the third coordinate of a point of the plane is 0 *)
Definition place_of (p : Point) : place :=
  (value (nth 0 p (S754_zero false)), value (nth 1 p (S754_zero false)), value (nth 2 p (S754_zero false))).
Definition finite_point (p : Point) : Prop := forall d, In d p -> finite d.

(** ** Segments and triangles: all weighted means of their corners *)
Definition same_spot (x y : place) : Prop :=
  let '(x0, x1, x2) := x in let '(y0, y1, y2) := y in x0 == y0 /\ x1 == y1 /\ x2 == y2.
Definition mean2 (a b : Q) (p q : place) : place :=
  let '(p0, p1, p2) := p in let '(q0, q1, q2) := q in (a * p0 + b * q0, a * p1 + b * q1, a * p2 + b * q2).
Definition mean3 (a b c : Q) (p q r : place) : place :=
  let '(p0, p1, p2) := p in let '(q0, q1, q2) := q in let '(r0, r1, r2) := r in
  (a * p0 + b * q0 + c * r0, a * p1 + b * q1 + c * r1, a * p2 + b * q2 + c * r2).
Definition between (x p q : place) : Prop :=
  exists a b, 0 <= a /\ 0 <= b /\ a + b == 1 /\ same_spot x (mean2 a b p q).
Definition among (x p q r : place) : Prop :=
  exists a b c, 0 <= a /\ 0 <= b /\ 0 <= c /\ a + b + c == 1 /\ same_spot x (mean3 a b c p q r).
Definition strictly_among (x p q r : place) : Prop :=
  exists a b c, 0 < a /\ 0 < b /\ 0 < c /\ a + b + c == 1 /\ same_spot x (mean3 a b c p q r).
(** all weights allowed: the line and the plane *)
Definition aligned (x p q : place) : Prop := exists a b, a + b == 1 /\ same_spot x (mean2 a b p q).
Definition of_plane (x p q r : place) : Prop := exists a b c, a + b + c == 1 /\ same_spot x (mean3 a b c p q r).
(** a triangle with an area *)
Definition flat (p q r : place) : Prop :=
  exists a b c, ~ (a == 0 /\ b == 0 /\ c == 0) /\ a + b + c == 0 /\ same_spot (mean3 a b c p q r) (0, 0, 0).

Definition on_segment (x : place) (s : Segment) : Prop := between x (place_of (fst s)) (place_of (snd s)).
Definition on_triangle (x : place) (t : Triangle) : Prop :=
  among x (place_of (fst (fst t))) (place_of (snd (fst t))) (place_of (snd t)).
Definition on_plane (x : place) (t : Triangle) : Prop :=
  of_plane x (place_of (fst (fst t))) (place_of (snd (fst t))) (place_of (snd t)).
Definition finite_segment (s : Segment) : Prop := finite_point (fst s) /\ finite_point (snd s).
Definition finite_triangle (t : Triangle) : Prop :=
  finite_point (fst (fst t)) /\ finite_point (snd (fst t)) /\ finite_point (snd t).
Definition real_triangle (t : Triangle) : Prop :=
  ~ flat (place_of (fst (fst t))) (place_of (snd (fst t))) (place_of (snd t)).
Definition segment_end (s : Segment) (i : nat) : place := place_of (match i with O => fst s | _ => snd s end).
Definition corner (t : Triangle) (i : nat) : place :=
  place_of (match i with O => fst (fst t) | 1%nat => snd (fst t) | _ => snd t end).
Definition real_segment (s : Segment) : Prop := ~ same_spot (segment_end s 0) (segment_end s 1).

(** ** What the predicate on a segment and a triangle may promise *)
(** it never overlooks a contact, and says "a vertex of the segment on a vertex of the triangle" only if they touch nowhere else *)
Record overlooks_nothing (px : Predicates) : Prop := {
  on_contact : forall s t x, finite_segment s -> finite_triangle t -> on_segment x s -> on_triangle x t ->
    fst (px_segment_triangle px s t) <> Outside;
  on_vertex : forall s t i j x, finite_segment s -> finite_triangle t ->
    px_index px (fst (px_segment_triangle px s t)) = Some i -> px_index px (snd (px_segment_triangle px s t)) = Some j ->
    on_segment x s -> on_triangle x t -> same_spot x (segment_end s i) /\ same_spot x (corner t j) }.
(** it invents no contact, and recognises a contact that is just a vertex of both: when a vertex of the segment is a vertex of the
    triangle, it says so unless they touch elsewhere *)
Record invents_nothing (px : Predicates) : Prop := {
  in_contact : forall s t, finite_segment s -> finite_triangle t -> fst (px_segment_triangle px s t) <> Outside ->
    exists x, on_segment x s /\ on_triangle x t;
  in_vertex : forall s t i j, finite_segment s -> finite_triangle t -> real_segment s -> real_triangle t ->
    (i < 2)%nat -> (j < 3)%nat -> same_spot (segment_end s i) (corner t j) ->
    (px_index px (fst (px_segment_triangle px s t)) = Some i /\ px_index px (snd (px_segment_triangle px s t)) = Some j) \/
    exists x, on_segment x s /\ on_triangle x t /\ ~ same_spot x (segment_end s i) }.
(** "parallel" means that they touch along a segment *)
Definition parallel_is_overlap (px : Predicates) : Prop :=
  forall s t, finite_segment s -> finite_triangle t -> real_triangle t ->
    (fst (px_segment_triangle px s t) = Parallel <->
     exists x y, on_segment x s /\ on_triangle x t /\ on_segment y s /\ on_triangle y t /\ ~ same_spot x y).
(** "parallel" means that the segment touches the triangle and is in its plane *)
Definition parallel_is_plane (px : Predicates) : Prop :=
  forall s t, finite_segment s -> finite_triangle t -> real_triangle t ->
    (fst (px_segment_triangle px s t) = Parallel <->
     (exists x, on_segment x s /\ on_triangle x t) /\ on_plane (segment_end s 0) t /\ on_plane (segment_end s 1) t).

(** ** Two triangles of two surfaces, with their common vertices *)
(** the part they share by construction: nothing, a vertex or a side *)
Inductive in_common (mesh1 : SurfaceMesh) : list (nat * nat) -> place -> Prop :=
| ic_vertex : forall a p x, point_of mesh1 (fst a) p -> same_spot x (place_of p) -> in_common mesh1 [a] x
| ic_side : forall a b p q x, point_of mesh1 (fst a) p -> point_of mesh1 (fst b) q -> between x (place_of p) (place_of q) ->
    in_common mesh1 [a; b] x.
(** they meet beyond it *)
Definition meet_beyond (mesh1 : SurfaceMesh) (c : list (nat * nat)) (T1 T2 : Triangle) : Prop :=
  exists x, on_triangle x T1 /\ on_triangle x T2 /\ ~ in_common mesh1 c x.
(** a corner of the second triangle strictly inside the first one *)
Definition holds_corner (T1 T2 : Triangle) : Prop :=
  exists i, (i < 3)%nat /\ strictly_among (corner T2 i) (corner T1 0) (corner T1 1) (corner T1 2).
(** common vertices are at one place *)
Definition joined (mesh1 mesh2 : SurfaceMesh) (c : list (nat * nat)) : Prop :=
  forall a p q, In a c -> point_of mesh1 (fst a) p -> point_of mesh2 (snd a) q -> same_spot (place_of p) (place_of q).

(** ** Polygons of the surfaces of a model *)
Definition exact_predicates (px : Predicates) : Prop := overlooks_nothing px /\ invents_nothing px /\ parallel_is_overlap px.
(** every triangle that polygons are cut into has finite corners and an area *)
Definition solid_surface (mesh : SurfaceMesh) : Prop :=
  forall p t T, (p < nb_polygons mesh)%nat -> fan_triangle (polygon_vertices mesh p) t -> triangle_of mesh t T -> finite_triangle T /\ real_triangle T.
(** vertices of surfaces that are one unique vertex are at one place (no issue of C07) *)
Definition joined_surfaces (m : Model) : Prop :=
  forall s1 s2 v w p q, In s1 (m_surfaces m) -> In s2 (m_surfaces m) -> uv_of m s1 v = uv_of m s2 w ->
    point_of (co_mesh s1) v p -> point_of (co_mesh s2) w q -> same_spot (place_of p) (place_of q).
(** two triangles have the same vertices or meet beyond their common vertices *)
Definition triangles_cross (m : Model) (s1 s2 : Component SurfaceMesh) (t1 t2 : list nat) : Prop :=
  exists T1 T2 c, triangle_of (co_mesh s1) t1 T1 /\ triangle_of (co_mesh s2) t2 T2 /\ common_vertices m s1 s2 t2 t1 c /\
    (List.length c = 3%nat \/ meet_beyond (co_mesh s1) c T1 T2).
(** the second triangle is inside the first one, with which it shares a side *)
Definition nested_on_side (m : Model) (s1 s2 : Component SurfaceMesh) (t1 t2 : list nat) : Prop :=
  exists T1 T2 c, triangle_of (co_mesh s1) t1 T1 /\ triangle_of (co_mesh s2) t2 T2 /\ common_vertices m s1 s2 t2 t1 c /\
    List.length c = 2%nat /\ holds_corner T1 T2.
Definition reported_triangles (m : Model) (s1 s2 : Component SurfaceMesh) (t1 t2 : list nat) : Prop :=
  triangles_cross m s1 s2 t1 t2 /\ ~ nested_on_side m s1 s2 t1 t2.
Definition solid_model (m : Model) : Prop := forall s, In s (m_surfaces m) -> solid_surface (co_mesh s).
Definition different_polygons (s1 s2 : Component SurfaceMesh) (c : nat * nat) : Prop := ~ (co_id s1 = co_id s2 /\ fst c = snd c).
(** the boxes miss no pair of polygons of active surfaces that share a point: it is proposed in one order or in the other *)
Definition boxes_complete (m : Model) (trees : Trees) : Prop :=
  forall s1 s2 p q t1 t2 T1 T2 x, In s1 (m_surfaces m) -> In s2 (m_surfaces m) -> co_active s1 = true -> co_active s2 = true ->
    (p < nb_polygons (co_mesh s1))%nat -> (q < nb_polygons (co_mesh s2))%nat -> ~ (co_id s1 = co_id s2 /\ p = q) ->
    fan_triangle (polygon_vertices (co_mesh s1) p) t1 -> fan_triangle (polygon_vertices (co_mesh s2) q) t2 ->
    triangle_of (co_mesh s1) t1 T1 -> triangle_of (co_mesh s2) t2 T2 -> on_triangle x T1 -> on_triangle x T2 ->
    proposed m trees s1 s2 (p, q) \/ proposed m trees s2 s1 (q, p).
