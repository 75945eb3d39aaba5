(** What a valid mesh is. *)
From Coq Require Import String List Arith NArith Bool Floats.SpecFloat.
From Verif Require Import Base Model_Issues Types Model_Degeneration Model_Intersections Spec_Colocation Spec_Maps Spec_Cycles Spec_Adjacency Spec_Manifold Spec_Degeneration
  Spec_Negative Spec_Intersections.
Import ListNotations.

(** no two points at the same place *)
Definition points_apart (geo : Geometry) (points : list Point) : Prop :=
  forall i j, i <> j -> ~ same_place (g_colocated geo points) i j.
Definition sound_curve (geo : Geometry) (c : EdgedCurve) : Prop :=
  points_apart geo (ec_points c) /\ (forall e, ~ short_curve_edge c GLOBAL_EPSILON e).
Record sound_surface (ms : Measures) (geo : Geometry) (px : Predicates) (candidates : list (nat * nat)) (m : SurfaceMesh) : Prop := {
  su_adjacency : forall e, is_polygon_edge m e -> forall q, sm_adjacent m e = Some q -> edge_reciprocated m e q;
  su_points : points_apart geo (sm_points m);
  su_edges : forall e, ~ shorter_edge ms (sm_points m) (sm_edges m) GLOBAL_EPSILON e;
  su_polygons : forall p, ~ flat_polygon m GLOBAL_EPSILON p;
  su_manifold_edges : forall a b, a <= b -> forall n, 0 < n -> uses m a b n ->
    (border_occurrence m a b -> n = 1) /\ (~ border_occurrence m a b -> n = 2);
  su_manifold_vertices : forall v, v < length (sm_points m) -> forall fan, sm_around_vertex m v = Ok fan -> lists_once (surface_corner m v) fan;
  su_intersections : forall pq, In pq candidates -> ~ surface_pair_meets px m pq;
  su_orientation : forall p, ~ negative_polygon ms m p }.
Record sound_solid (ms : Measures) (geo : Geometry) (m : SolidMesh) : Prop := {
  so_s_adjacency : forall f, is_polyhedron_facet m f -> forall q, so_adjacent m f = Some q -> facet_reciprocated m f q;
  so_s_points : points_apart geo (so_points m);
  so_s_edges : forall e, ~ shorter_edge ms (so_points m) (so_edges m) GLOBAL_EPSILON e;
  so_s_polyhedra : forall p, ~ flat_polyhedron m GLOBAL_EPSILON p;
  so_s_manifold_vertices : forall v, v < length (so_points m) -> forall fan, so_around_vertex m v = Ok fan -> lists_once (solid_corner m v) fan;
  so_s_manifold_edges : forall e ab, first_occurrence m e ab -> exists fan, so_around_edge m ab (fst e) = Ok fan /\ complete_fan m ab fan;
  so_s_manifold_facets : forall c, ~ overused_facet m c;
  so_s_orientation : forall p, ~ negative_polyhedron ms m p }.
(** well-formed meshes and answers of the OpenGeode queries they are asked *)
Record surface_queries (geo : Geometry) (m : SurfaceMesh) : Prop := {
  sq_colocation : consistent (sm_points m) (g_colocated geo (sm_points m));
  sq_adjacency : edge_adjacency_in_range m;
  sq_edges : edges_in_range (sm_points m) (sm_edges m);
  sq_uses : forall a b n, uses m a b n -> n <= 256;
  sq_vertices : surface_vertices_in_range m;
  sq_around : forall v, v < length (sm_points m) -> sm_around_vertex m v = Throw OpenGeodeExn \/ exists fan, sm_around_vertex m v = Ok fan;
  sq_points : polygon_points_exist m }.
Record solid_queries (geo : Geometry) (m : SolidMesh) : Prop := {
  vq_colocation : consistent (so_points m) (g_colocated geo (so_points m));
  vq_well_formed : solid_well_formed m;
  vq_edges : edges_in_range (so_points m) (so_edges m);
  vq_vertices : solid_vertices_in_range m;
  vq_around : forall v, v < length (so_points m) -> exists fan, so_around_vertex m v = Ok fan;
  vq_around_edge : around_edge_contract m;
  vq_facets : below_2_32 (length (all_polyhedron_facets m));
  vq_points : polyhedron_points_exist m }.
(** numbers of elements an inspection goes through: no more issues than that *)
Definition surface_size (m : SurfaceMesh) (candidates : list (nat * nat)) : nat :=
  2 * length (all_polygon_edges m) + 2 * length (sm_points m) + length (sm_edges m) + 2 * nb_polygons m + length candidates.
Definition solid_size (m : SolidMesh) : nat :=
  2 * length (all_polyhedron_facets m) + 2 * length (so_points m) + length (so_edges m) + 2 * nb_polyhedra m +
  list_sum (map (fun p => length (ph_edges (polyhedron m p))) (seq 0 (nb_polyhedra m))).
