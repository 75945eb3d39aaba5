(** Edges of lines and curves against triangles: what the predicates may promise about the place of a contact, and which
    contacts are worth a report. *)
From Coq Require Import String List Arith NArith ZArith Bool QArith SpecFloat.
From Verif Require Import Base Types Model_Intersections Spec_Intersections Spec_Geometry Spec_Geometry2.
Import ListNotations.
Local Open Scope nat_scope.
Local Open Scope list_scope.

(** ** Where a point is *)
(** strictly between the ends *)
Definition within (x p q : place) : Prop := between x p q /\ ~ same_spot x p /\ ~ same_spot x q.
Definition at_end (x : place) (s : Segment) : Prop := exists i, i < 2 /\ same_spot x (segment_end s i).
Definition at_corner_of (x : place) (t : Triangle) : Prop := exists j, j < 3 /\ same_spot x (corner t j).
(** what a position says of a point of a segment, and of a point of a triangle; the numbers of sides do not matter *)
Definition tells_segment (q : Position) (s : Segment) (x : place) : Prop :=
  match q with
  | Inside => within x (segment_end s 0) (segment_end s 1)
  | Vertex0 => same_spot x (segment_end s 0)
  | Vertex1 => same_spot x (segment_end s 1)
  | _ => False
  end.
Definition tells_triangle (q : Position) (t : Triangle) (x : place) : Prop :=
  match q with
  | Inside => strictly_among x (corner t 0) (corner t 1) (corner t 2)
  | Edge0 | Edge1 | Edge2 => within x (corner t 0) (corner t 1) \/ within x (corner t 1) (corner t 2) \/ within x (corner t 2) (corner t 0)
  | Vertex0 => same_spot x (corner t 0)
  | Vertex1 => same_spot x (corner t 1)
  | Vertex2 => same_spot x (corner t 2)
  | _ => False
  end.

(** ** Two readings of "parallel": sharing two points, or touching while in one plane (on one line, for segments) *)
Inductive reading := Overlapping | Coplanar.
Definition parallel_to_triangle (r : reading) (s : Segment) (t : Triangle) : Prop :=
  match r with
  | Overlapping => exists x y, on_segment x s /\ on_triangle x t /\ on_segment y s /\ on_triangle y t /\ ~ same_spot x y
  | Coplanar => (exists x, on_segment x s /\ on_triangle x t) /\ on_plane (segment_end s 0) t /\ on_plane (segment_end s 1) t
  end.
Definition parallel_to_segment (r : reading) (s s' : Segment) : Prop :=
  match r with
  | Overlapping => exists x y, on_segment x s /\ on_segment x s' /\ on_segment y s /\ on_segment y s' /\ ~ same_spot x y
  | Coplanar => (exists x, on_segment x s /\ on_segment x s') /\ one_line s s'
  end.

(** ** What the predicates may promise: "outside", "parallel", or where the contact is *)
Definition finite_edge (s : Segment) : Prop := finite_segment s /\ real_segment s.
Definition finite_face (t : Triangle) : Prop := finite_triangle t /\ real_triangle t.
Record locates_on_triangles (px : Predicates) (r : reading) : Prop := {
  lt_apart : forall s t, finite_edge s -> finite_face t -> (forall x, on_segment x s -> ~ on_triangle x t) ->
    px_segment_triangle px s t = (Outside, Outside);
  lt_parallel : forall s t, finite_edge s -> finite_face t -> parallel_to_triangle r s t ->
    px_segment_triangle px s t = (Parallel, Parallel);
  lt_contact : forall s t x, finite_edge s -> finite_face t -> on_segment x s -> on_triangle x t -> ~ parallel_to_triangle r s t ->
    tells_segment (fst (px_segment_triangle px s t)) s x /\ tells_triangle (snd (px_segment_triangle px s t)) t x }.
Definition flat_edge (s : Segment) : Prop := finite_edge s /\ plane_segment s.
Record locates_on_segments (px : Predicates) (r : reading) : Prop := {
  lg_apart : forall s s', flat_edge s -> flat_edge s' -> (forall x, on_segment x s -> ~ on_segment x s') ->
    px_segment_segment px s s' = (Outside, Outside);
  lg_parallel : forall s s', flat_edge s -> flat_edge s' -> parallel_to_segment r s s' ->
    px_segment_segment px s s' = (Parallel, Parallel);
  lg_contact : forall s s' x, flat_edge s -> flat_edge s' -> on_segment x s -> on_segment x s' -> ~ parallel_to_segment r s s' ->
    tells_segment (fst (px_segment_segment px s s')) s x /\ tells_segment (snd (px_segment_segment px s s')) s' x }.
Record locates_points (px : Predicates) : Prop := {
  lp_outside : forall p t, finite_point p -> finite_face t -> ~ on_triangle (place_of p) t -> px_point_triangle px p t = Outside;
  lp_on : forall p t, finite_point p -> finite_face t -> on_triangle (place_of p) t -> tells_triangle (px_point_triangle px p t) t (place_of p) }.

(** ** Lines and surfaces of a BRep (C79) *)
(** the edge touches a triangle of the polygon elsewhere than with an end at a corner, and is not "parallel" to it *)
Definition pierces (r : reading) (surface : SurfaceMesh) (line : EdgedCurve) (c : nat * nat) : Prop :=
  exists t T s x, fan_triangle (polygon_vertices surface (fst c)) t /\ triangle_of surface t T /\ segment_of line (snd c) s /\
    on_segment x s /\ on_triangle x T /\ ~ parallel_to_triangle r s T /\ ~ (at_end x s /\ at_corner_of x T).
Definition solid_line (line : EdgedCurve) : Prop := forall e s, segment_of line e s -> finite_edge s.
Definition solid_lines (m : Model) : Prop := forall l, In l (m_lines m) -> solid_line (co_mesh l).
(** the boxes miss no polygon and edge of active components that share a point *)
Definition line_boxes_complete (m : Model) (trees : Trees) (lines : LineTrees) : Prop :=
  forall s l p e t T g x, In s (m_surfaces m) -> co_active s = true -> In l (m_lines m) -> co_active l = true ->
    p < nb_polygons (co_mesh s) -> fan_triangle (polygon_vertices (co_mesh s) p) t -> triangle_of (co_mesh s) t T ->
    segment_of (co_mesh l) e g -> on_segment x g -> on_triangle x T -> proposed_line m trees lines s l (p, e).

(** ** Curves and triangulated surfaces (C80) *)
(** the edge and the triangle touch; not just with an end of the edge at a corner; and the edge is not between two corners *)
Definition crosses_in_space (r : reading) (s : Segment) (t : Triangle) : Prop :=
  exists x, on_segment x s /\ on_triangle x t /\
    (parallel_to_triangle r s t -> exists i, i < 2 /\ ~ at_corner_of (segment_end s i) t) /\
    (~ parallel_to_triangle r s t -> ~ (at_end x s /\ at_corner_of x t)).
(** in the plane: no edge inside a side is reported *)
Definition along_a_side (s : Segment) (t : Triangle) : Prop :=
  exists j k, j < 3 /\ k < 3 /\ forall i, i < 2 -> between (segment_end s i) (corner t j) (corner t k).
Definition crosses_in_plane (s : Segment) (t : Triangle) : Prop :=
  (exists x, on_segment x s /\ on_triangle x t /\ ~ (at_end x s /\ at_corner_of x t)) /\ ~ along_a_side s t.
(** a triangle of a surface and an edge of a curve *)
Definition curve_crosses (r : reading) (surface : SurfaceMesh) (curve : EdgedCurve) (c : nat * nat) : Prop :=
  exists t s, triangle_of surface (polygon_vertices surface (fst c)) t /\ segment_of curve (snd c) s /\
    if Nat.eqb (sm_dimension surface) 2 then crosses_in_plane s t else crosses_in_space r s t.
Definition solid_triangles (surface : SurfaceMesh) : Prop :=
  forall p t, p < nb_polygons surface -> triangle_of surface (polygon_vertices surface p) t ->
    finite_face t /\ (sm_dimension surface = 2 -> plane_triangle t).
Definition solid_curve (curve : EdgedCurve) (dimension : nat) : Prop :=
  forall e s, segment_of curve e s -> finite_edge s /\ (dimension = 2 -> plane_segment s).
(** what each dimension needs *)
Definition locates_for (px : Predicates) (r : reading) (dimension : nat) : Prop :=
  locates_points px /\ (if Nat.eqb dimension 2 then locates_on_segments px r else locates_on_triangles px r).
Definition curve_boxes_complete (surface : SurfaceMesh) (curve : EdgedCurve) (candidates : list (nat * nat)) : Prop :=
  forall p e t s x, p < nb_polygons surface -> triangle_of surface (polygon_vertices surface p) t -> segment_of curve e s ->
    on_segment x s -> on_triangle x t -> In (p, e) candidates.
(** a point of the plane in space *)
Definition lifted (p : Point) : Point := p ++ [S754_zero false].
Definition lifted_segment (s : Segment) : Segment := (lifted (fst s), lifted (snd s)).
Definition lifted_triangle (t : Triangle) : Triangle := (lifted (fst (fst t)), lifted (snd (fst t)), lifted (snd t)).
