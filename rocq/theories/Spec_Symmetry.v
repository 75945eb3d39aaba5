(** When it does not matter which of two polygons is taken first by an intersection test (C71). *)
From Coq Require Import String List Arith NArith Bool Permutation.
From Verif Require Import Base Model_Issues Types Model_Intersections Spec_Intersections.
Import ListNotations.

Definition swap {A B} (c : A * B) : B * A := (snd c, fst c).

(** no two vertices of one polygon have the same unique vertex *)
Definition distinct_unique_vertices (m : Model) (s : Component SurfaceMesh) : Prop :=
  forall p, p < nb_polygons (co_mesh s) -> forall v w, In v (polygon_vertices (co_mesh s) p) -> In w (polygon_vertices (co_mesh s) p) ->
    uv_of m s v = uv_of m s w -> v = w.
(** vertices of two surfaces with the same unique vertex are at the same point (no issue of C07) *)
Definition same_points (m : Model) (s1 s2 : Component SurfaceMesh) : Prop :=
  forall v w a b, uv_of m s1 v = uv_of m s2 w -> point_of (co_mesh s1) v a -> point_of (co_mesh s2) w b -> a = b.
(** ... and have the same number in both meshes *)
Definition same_vertex_numbers (m : Model) (s1 s2 : Component SurfaceMesh) : Prop :=
  forall v w, v < List.length (sm_points (co_mesh s1)) -> w < List.length (sm_points (co_mesh s2)) -> uv_of m s1 v = uv_of m s2 w -> v = w.

(** What is needed of the predicates of OpenGeode: exchanging two segments exchanges their positions; both or none of the two
    positions are "outside" ("parallel") *)
Definition segments_symmetric (px : Predicates) : Prop :=
  forall s t, px_segment_segment px t s = swap (px_segment_segment px s t) /\
    (fst (px_segment_segment px s t) = Outside <-> snd (px_segment_segment px s t) = Outside) /\
    (fst (px_segment_segment px s t) = Parallel <-> snd (px_segment_segment px s t) = Parallel).
(** two triangles on the same edge are in one plane whichever is asked *)
Definition corners_of (t : Triangle) (a b c : Point) : Prop := Permutation [fst (fst t); snd (fst t); snd t] [a; b; c].
Definition in_plane (px : Predicates) (a b v : Point) (t : Triangle) : Prop :=
  fst (px_segment_triangle px (a, v) t) = Parallel \/ fst (px_segment_triangle px (b, v) t) = Parallel.
Definition planes_symmetric (px : Predicates) : Prop :=
  forall a b v w t1 t2, corners_of t1 a b v -> corners_of t2 a b w -> (in_plane px a b v t2 <-> in_plane px a b w t1).

(** the boxes of both models propose the same pairs of polygons, one or the other first *)
Definition same_proposals (m m' : Model) (trees trees' : Trees) : Prop :=
  forall s1 s2 c, proposed m trees s1 s2 c -> proposed m' trees' s1 s2 c \/ proposed m' trees' s2 s1 (swap c).
(** both lists have the same pairs of elements, one or the other first *)
Definition same_pairs (l l' : list (ComponentMeshElement * ComponentMeshElement)) : Prop :=
  (forall x, In x l -> In x l' \/ In (swap x) l') /\ (forall x, In x l' -> In x l \/ In (swap x) l).

(** surfaces of a BRep; of a Section *)
Definition symmetric_brep (px : Predicates) (m : Model) : Prop :=
  planes_symmetric px /\ dimension_is m 3 /\
  forall s1 s2, In s1 (m_surfaces m) -> In s2 (m_surfaces m) -> distinct_unique_vertices m s1 /\ same_points m s1 s2.
Definition symmetric_section (px : Predicates) (m : Model) : Prop :=
  segments_symmetric px /\ dimension_is m 2 /\
  forall s1 s2, In s1 (m_surfaces m) -> In s2 (m_surfaces m) ->
    distinct_unique_vertices m s1 /\ same_points m s1 s2 /\ same_vertex_numbers m s1 s2.
