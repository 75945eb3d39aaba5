(** What intersection inspections should say, independently of how they compute it. *)
From Coq Require Import String List Arith NArith Bool Permutation.
From Verif Require Import Base Model_Issues Types Model_Intersections Spec_Colocation.
Import ListNotations.

(** ** Fans (positions in a polygon of [n] vertices, seen from position [apex]) *)
Definition next_position (n j : nat) : nat := if Nat.eqb (S j) n then 0 else S j.
Record is_fan (n apex : nat) (fan : list (nat * nat * nat)) : Prop := {
  fan_size : List.length fan = n - 2;
  fan_triangles : forall a b c, In (a, b, c) fan ->
    a = apex /\ b < n /\ c = next_position n b /\ a <> b /\ b <> c /\ a <> c;
  fan_edges : forall j, j < n -> j <> apex -> next_position n j <> apex -> In (apex, j, next_position n j) fan;
  fan_once : NoDup fan }.
(** the vertices at three positions *)
Definition triangle_at (polygon : list nat) (t : nat * nat * nat) (vs : list nat) : Prop :=
  exists a b c, vs = [a; b; c] /\ nth_error polygon (fst (fst t)) = Some a /\ nth_error polygon (snd (fst t)) = Some b /\
    nth_error polygon (snd t) = Some c.
(** a triangle of the fan from the first vertex *)
Definition fan_triangle (polygon t : list nat) : Prop :=
  exists i, 1 <= i /\ S i < List.length polygon /\ triangle_at polygon (0, i, S i) t.

(** ** Reports of candidate pairs *)
(** [l] lists the candidates that satisfy [P], each as often as it is a candidate *)
Definition lists_candidates {A} (P : A -> Prop) (candidates l : list A) : Prop :=
  (forall c, In c l <-> In c candidates /\ P c) /\
  exists others, Permutation candidates (l ++ others) /\ forall c, In c others -> ~ P c.

(** A surface mesh is ready: every polygon has distinct vertices, at most 256 of them, which are points of the mesh *)
Definition polygons_ready (m : SurfaceMesh) : Prop :=
  forall p, p < nb_polygons m ->
    NoDup (polygon_vertices m p) /\ (forall v, In v (polygon_vertices m p) -> v < List.length (sm_points m)) /\
    List.length (polygon_vertices m p) <= 256.
Definition candidates_in_range (n1 n2 : nat) (candidates : list (nat * nat)) : Prop :=
  forall p q, In (p, q) candidates -> p < n1 /\ q < n2.
(** [position_to_index] gives positions that exist in a segment and in a triangle *)
Definition indices_in_range (px : Predicates) : Prop :=
  (forall s1 s2 i, px_index px (fst (px_segment_segment px s1 s2)) = Some i -> i < 2) /\
  (forall s1 s2 i, px_index px (snd (px_segment_segment px s1 s2)) = Some i -> i < 2) /\
  (forall s t i, px_index px (snd (px_segment_triangle px s t)) = Some i -> i < 3).

(** ** One surface: two different polygons that meet *)
Definition surface_pair_meets (px : Predicates) (m : SurfaceMesh) (c : nat * nat) : Prop :=
  fst c <> snd c /\ px_polygons px m (polygon_vertices m (fst c)) (polygon_vertices m (snd c)) = true.

(** ** Surface and curve: the edge meets the triangle elsewhere than at vertices of the triangle *)
Definition point_of (m : SurfaceMesh) (v : nat) (p : Point) : Prop := nth_error (sm_points m) v = Some p.
Definition triangle_of (m : SurfaceMesh) (vs : list nat) (t : Triangle) : Prop :=
  exists a b c, vs = [a; b; c] /\ point_of m a (fst (fst t)) /\ point_of m b (snd (fst t)) /\ point_of m c (snd t).
Definition segment_of (c : EdgedCurve) (e : nat) (s : Segment) : Prop :=
  exists a b, nth_error (ec_edges c) e = Some (a, b) /\
    nth_error (ec_points c) a = Some (fst s) /\ nth_error (ec_points c) b = Some (snd s).
Definition segment_side (t : Triangle) (s : Segment) : Prop :=
  let '(a, b, c) := t in s = (a, b) \/ s = (b, c) \/ s = (c, a).
Definition an_end (s : Segment) (p : Point) : Prop := p = fst s \/ p = snd s.
Definition at_vertex (q : Position) : Prop := q = Vertex0 \/ q = Vertex1 \/ q = Vertex2.
Definition on_triangle_edge (q : Position) : Prop := q = Edge0 \/ q = Edge1 \/ q = Edge2.
Definition segment_meets_triangle_2d (px : Predicates) (s : Segment) (t : Triangle) : Prop :=
  (exists p, an_end s p /\ px_point_triangle px p t = Inside) \/
  (exists side, segment_side t side /\
     (fst (px_segment_segment px s side) = Inside \/ snd (px_segment_segment px s side) = Inside)).
Definition segment_meets_triangle_3d (px : Predicates) (s : Segment) (t : Triangle) : Prop :=
  let q := px_segment_triangle px s t in
  (exists p, an_end s p /\ px_point_triangle px p t = Inside) \/
  (fst q <> Outside /\ snd q <> Outside /\
   (fst q = Inside \/ snd q = Inside \/ on_triangle_edge (snd q) \/
    (fst q = Parallel /\ exists p, an_end s p /\ ~ at_vertex (px_point_triangle px p t)))).
(** triangle [t] of the surface and edge [e] of the curve *)
Definition curve_meets (px : Predicates) (surface : SurfaceMesh) (curve : EdgedCurve) (c : nat * nat) : Prop :=
  exists t s, triangle_of surface (polygon_vertices surface (fst c)) t /\ segment_of curve (snd c) s /\
    if Nat.eqb (sm_dimension surface) 2 then segment_meets_triangle_2d px s t else segment_meets_triangle_3d px s t.
Definition triangulated (m : SurfaceMesh) : Prop :=
  forall p, p < nb_polygons m -> exists t, triangle_of m (polygon_vertices m p) t.
Definition edges_exist (c : EdgedCurve) : Prop :=
  forall e, e < List.length (ec_edges c) -> exists s, segment_of c e s.

(** ** Two triangles of model surfaces *)
Section Pair.
Context (px : Predicates) (m : Model) (s1 s2 : Component SurfaceMesh).
Definition uv_of (s : Component SurfaceMesh) (v : nat) : option nat := m_unique_vertex m (mkCMV (mkCID SurfaceT (co_id s)) v).
(** [w] is the first vertex of [t2] with the unique vertex of [v]; two vertices without unique vertex match *)
Definition counterpart (t2 : list nat) (v w : nat) : Prop :=
  exists pre post, t2 = pre ++ w :: post /\ uv_of s2 w = uv_of s1 v /\ forall x, In x pre -> uv_of s2 x <> uv_of s1 v.
(** the common vertices, in the order of the first triangle *)
Inductive common_vertices (t2 : list nat) : list nat -> list (nat * nat) -> Prop :=
| cv_nil : common_vertices t2 [] []
| cv_common : forall v w t1 l, counterpart t2 v w -> common_vertices t2 t1 l -> common_vertices t2 (v :: t1) ((v, w) :: l)
| cv_other : forall v t1 l, (forall w, In w t2 -> uv_of s2 w <> uv_of s1 v) -> common_vertices t2 t1 l -> common_vertices t2 (v :: t1) l.
(** the vertex of a triangle that is neither [a] nor [b] *)
Definition third_vertex (t : list nat) (a b v : nat) : Prop :=
  exists pre post, t = pre ++ v :: post /\ v <> a /\ v <> b /\ forall x, In x pre -> x = a \/ x = b.
Definition side (t : list nat) (e : nat * nat) : Prop :=
  exists a b c, t = [a; b; c] /\ (e = (a, b) \/ e = (b, c) \/ e = (c, a)).
Definition side_end (e : nat * nat) (i : nat) : nat := if Nat.eqb i 0 then fst e else snd e.

(** a contact at positions [q] of a side [e] and of the element [others] of the other triangle is only the common vertex *)
Definition only_common (q : Position * Position) (e : nat * nat) (others : list nat) (common : list (nat * nat)) (first : bool) : Prop :=
  exists c i j w, common = [c] /\ px_index px (fst q) = Some i /\ px_index px (snd q) = Some j /\
    side_end e i = (if first then fst c else snd c) /\
    nth_error others j = Some w /\ w = (if first then snd c else fst c).

(** 3D, the surfaces of a BRep *)
Inductive triangles_meet_3d (t1 t2 : list nat) : Prop :=
| m3_three : forall c, common_vertices t2 t1 c -> List.length c = 3 -> triangles_meet_3d t1 t2
| m3_two : forall a b v pa pb pv T,
    common_vertices t2 t1 [a; b] -> third_vertex t1 (fst a) (fst b) v ->
    point_of (co_mesh s1) (fst a) pa -> point_of (co_mesh s1) (fst b) pb -> point_of (co_mesh s1) v pv ->
    triangle_of (co_mesh s2) t2 T ->
    fst (px_segment_triangle px (pa, pv) T) = Parallel \/ fst (px_segment_triangle px (pb, pv) T) = Parallel ->
    triangles_meet_3d t1 t2
| m3_first : forall c e p q T,
    common_vertices t2 t1 c -> List.length c < 2 -> side t1 e ->
    point_of (co_mesh s1) (fst e) p -> point_of (co_mesh s1) (snd e) q -> triangle_of (co_mesh s2) t2 T ->
    fst (px_segment_triangle px (p, q) T) <> Outside ->
    ~ only_common (px_segment_triangle px (p, q) T) e t2 c true -> triangles_meet_3d t1 t2
| m3_second : forall c e p q T,
    common_vertices t2 t1 c -> List.length c < 2 -> side t2 e ->
    point_of (co_mesh s2) (fst e) p -> point_of (co_mesh s2) (snd e) q -> triangle_of (co_mesh s1) t1 T ->
    fst (px_segment_triangle px (p, q) T) <> Outside ->
    ~ only_common (px_segment_triangle px (p, q) T) e t1 c false -> triangles_meet_3d t1 t2.

(** 2D, the surfaces of a Section; [second b] is the vertex of the first mesh taken for the second common vertex *)
Inductive triangles_meet_2d (second : nat * nat -> nat) (t1 t2 : list nat) : Prop :=
| m2_three : forall c, common_vertices t2 t1 c -> List.length c = 3 -> triangles_meet_2d second t1 t2
| m2_two : forall a b v w pa pb pv pw T1 T2,
    common_vertices t2 t1 [a; b] -> third_vertex t1 (fst a) (fst b) v -> third_vertex t2 (snd a) (snd b) w ->
    point_of (co_mesh s1) (fst a) pa -> point_of (co_mesh s1) (second b) pb ->
    point_of (co_mesh s1) v pv -> point_of (co_mesh s2) w pw ->
    triangle_of (co_mesh s1) t1 T1 -> triangle_of (co_mesh s2) t2 T2 ->
    fst (px_segment_segment px (pa, pv) (pb, pw)) <> Outside \/
    fst (px_segment_segment px (pb, pv) (pa, pw)) <> Outside \/
    px_point_triangle px pv T2 <> Outside \/ px_point_triangle px pw T1 <> Outside ->
    triangles_meet_2d second t1 t2
| m2_sides : forall c e1 e2 p1 q1 p2 q2,
    common_vertices t2 t1 c -> List.length c < 2 -> side t1 e1 -> side t2 e2 ->
    point_of (co_mesh s1) (fst e1) p1 -> point_of (co_mesh s1) (snd e1) q1 ->
    point_of (co_mesh s2) (fst e2) p2 -> point_of (co_mesh s2) (snd e2) q2 ->
    (let q := px_segment_segment px (p1, q1) (p2, q2) in
     fst q <> Outside /\ fst q <> Parallel /\ ~ only_common q e1 [fst e2; snd e2] c true) ->
    triangles_meet_2d second t1 t2.

Definition polygons_meet (meet : list nat -> list nat -> Prop) (p q : nat) : Prop :=
  exists t1 t2, fan_triangle (polygon_vertices (co_mesh s1) p) t1 /\ fan_triangle (polygon_vertices (co_mesh s2) q) t2 /\ meet t1 t2.
End Pair.

(** ** The whole model *)
(** the surfaces meet at polygons [p] and [q]: two different polygons if it is one surface *)
Definition surfaces_meet (px : Predicates) (m : Model) (s1 s2 : Component SurfaceMesh) (c : nat * nat) : Prop :=
  ~ (co_id s1 = co_id s2 /\ fst c = snd c) /\
  polygons_meet s1 s2 (if Nat.eqb (sm_dimension (co_mesh s1)) 2 then triangles_meet_2d px m s1 s2 snd else triangles_meet_3d px m s1 s2)
    (fst c) (snd c).
Definition surface_element (s : Component SurfaceMesh) (p : nat) : ComponentMeshElement := (mkCID SurfaceT (co_id s), p).
Definition line_element (l : Component EdgedCurve) (e : nat) : ComponentMeshElement := (mkCID LineT (co_id l), e).
(** a pair of elements that the trees propose: in one active surface, or in two surfaces of the tree whose boxes meet *)
Definition proposed_self (m : Model) (trees : Trees) (s : Component SurfaceMesh) (c : nat * nat) : Prop :=
  In s (m_surfaces m) /\ co_active s = true /\
  exists i, nth_error (tr_uuids trees) i = Some (co_id s) /\ In c (tr_self trees i).
Definition proposed_pair (m : Model) (trees : Trees) (s1 s2 : Component SurfaceMesh) (c : nat * nat) : Prop :=
  In s1 (m_surfaces m) /\ In s2 (m_surfaces m) /\
  exists i j, In (i, j) (tr_overlaps trees) /\ nth_error (tr_uuids trees) i = Some (co_id s1) /\
    nth_error (tr_uuids trees) j = Some (co_id s2) /\ In c (tr_other trees i j).
Definition proposed (m : Model) (trees : Trees) (s1 s2 : Component SurfaceMesh) (c : nat * nat) : Prop :=
  (s1 = s2 /\ proposed_self m trees s1 c) \/ proposed_pair m trees s1 s2 c.

(** every active surface has polygons *)
Definition no_empty_surface (m : Model) : Prop :=
  forall s, In s (m_surfaces m) -> co_active s = true -> nb_polygons (co_mesh s) <> 0.
Definition no_empty_line (m : Model) : Prop :=
  forall l, In l (m_lines m) -> co_active l = true -> ec_edges (co_mesh l) <> [].
(** the trees were built from this model: surfaces that exist, once each, all the active ones; pairs of elements that exist *)
Record trees_of (m : Model) (trees : Trees) : Prop := {
  to_unique : NoDup (tr_uuids trees);
  to_exist : forall id, In id (tr_uuids trees) -> exists s, In s (m_surfaces m) /\ co_id s = id;
  to_active : forall s, In s (m_surfaces m) -> co_active s = true -> In (co_id s) (tr_uuids trees);
  to_overlaps : forall i j, In (i, j) (tr_overlaps trees) -> i < List.length (tr_uuids trees) /\ j < List.length (tr_uuids trees);
  to_self : forall s i, In s (m_surfaces m) -> nth_error (tr_uuids trees) i = Some (co_id s) ->
    candidates_in_range (nb_polygons (co_mesh s)) (nb_polygons (co_mesh s)) (tr_self trees i);
  to_other : forall s1 s2 i j, In s1 (m_surfaces m) -> In s2 (m_surfaces m) -> nth_error (tr_uuids trees) i = Some (co_id s1) ->
    nth_error (tr_uuids trees) j = Some (co_id s2) ->
    candidates_in_range (nb_polygons (co_mesh s1)) (nb_polygons (co_mesh s2)) (tr_other trees i j) }.
Definition surfaces_ready (m : Model) : Prop := forall s, In s (m_surfaces m) -> polygons_ready (co_mesh s).
(** all surfaces have the dimension of the model *)
Definition dimension_is (m : Model) (d : nat) : Prop := forall s, In s (m_surfaces m) -> sm_dimension (co_mesh s) = d.
(** one pair of surfaces *)
Definition readable (m : Model) (s1 s2 : Component SurfaceMesh) : Prop :=
  forall v w, v < List.length (sm_points (co_mesh s1)) -> w < List.length (sm_points (co_mesh s2)) -> uv_of m s1 v = uv_of m s2 w ->
    w < List.length (sm_points (co_mesh s1)).
(** where the second common vertex is looked for by the Section: it is a point of the first mesh *)
Definition second_readable (m : Model) : Prop :=
  forall s1 s2 v w, In s1 (m_surfaces m) -> In s2 (m_surfaces m) ->
    v < List.length (sm_points (co_mesh s1)) -> w < List.length (sm_points (co_mesh s2)) ->
    uv_of m s1 v = uv_of m s2 w -> w < List.length (sm_points (co_mesh s1)).

(** everything an inspection of intersections relies on; the last condition is only for Sections *)
Record intersections_ready (px : Predicates) (m : Model) (trees : Trees) : Prop := {
  ir_ids : unique_ids m;
  ir_trees : trees_of m trees;
  ir_surfaces : surfaces_ready m;
  ir_indices : indices_in_range px;
  ir_second : forall s, In s (m_surfaces m) -> sm_dimension (co_mesh s) = 2 -> second_readable m }.
(** the report: first every active surface with itself, then every overlapping pair, each with its own candidates; [lists]
    says what one pair of surfaces contributes *)
Definition element_pairs (s1 s2 : Component SurfaceMesh) (found : list (nat * nat)) : IntersectionsResult :=
  map (fun c => (surface_element s1 (fst c), surface_element s2 (snd c))) found.
Definition surfaces_report (lists : Component SurfaceMesh -> Component SurfaceMesh -> list (nat * nat) -> list (nat * nat) -> Prop)
  (m : Model) (trees : Trees) (found : IntersectionsResult) : Prop :=
  exists overlaps selfs pairs,
    Permutation overlaps (tr_overlaps trees) /\ found = concat selfs ++ concat pairs /\
    Forall2 (fun s l => exists i cs, nth_error (tr_uuids trees) i = Some (co_id s) /\ lists s s (tr_self trees i) cs /\ l = element_pairs s s cs)
      (active (m_surfaces m)) selfs /\
    Forall2 (fun ij l => exists s1 s2 cs, In s1 (m_surfaces m) /\ In s2 (m_surfaces m) /\
               nth_error (tr_uuids trees) (fst ij) = Some (co_id s1) /\ nth_error (tr_uuids trees) (snd ij) = Some (co_id s2) /\
               lists s1 s2 (tr_other trees (fst ij) (snd ij)) cs /\ l = element_pairs s1 s2 cs)
      overlaps pairs.

(** ** Lines and surfaces of a BRep *)
Definition line_meets (px : Predicates) (surface : SurfaceMesh) (line : EdgedCurve) (c : nat * nat) : Prop :=
  exists t T s, fan_triangle (polygon_vertices surface (fst c)) t /\ triangle_of surface t T /\ segment_of line (snd c) s /\
    let q := px_segment_triangle px s T in
    fst q = Inside \/ snd q = Inside \/ on_triangle_edge (fst q) \/ on_triangle_edge (snd q).
Definition embedded_in_block (m : Model) (id : uuid) : Prop :=
  exists t b, In (mkCID t id, mkCID BlockT b) (m_internal_rel m).
Definition proposed_line (m : Model) (trees : Trees) (lines : LineTrees) (s : Component SurfaceMesh) (l : Component EdgedCurve) (c : nat * nat) : Prop :=
  In s (m_surfaces m) /\ co_active s = true /\ In l (m_lines m) /\ co_active l = true /\
  exists i j, nth_error (tr_uuids trees) i = Some (co_id s) /\ nth_error (lt_uuids lines) j = Some (co_id l) /\
    In c (lt_other lines i j).
Record line_trees_of (m : Model) (trees : Trees) (lines : LineTrees) : Prop := {
  lo_unique : NoDup (lt_uuids lines);
  lo_active : forall l, In l (m_lines m) -> co_active l = true -> In (co_id l) (lt_uuids lines);
  lo_other : forall s l i j, In s (m_surfaces m) -> In l (m_lines m) -> nth_error (tr_uuids trees) i = Some (co_id s) ->
    nth_error (lt_uuids lines) j = Some (co_id l) ->
    candidates_in_range (nb_polygons (co_mesh s)) (List.length (ec_edges (co_mesh l))) (lt_other lines i j) }.
(** every polygon has three vertices at least *)
Definition big_polygons (m : Model) : Prop := forall s p, In s (m_surfaces m) -> p < nb_polygons (co_mesh s) -> 3 <= List.length (polygon_vertices (co_mesh s) p).
