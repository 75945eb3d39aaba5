(** What negative element inspections should say. *)
From Coq Require Import String List Arith NArith Bool Sorted Floats.SpecFloat.
From Verif Require Import Base Model_Issues Types Spec_Maps Spec_Adjacency.
Import ListNotations.

(** a polygon of a 2D surface whose points turn clockwise *)
Definition negative_polygon (ms : Measures) (m : SurfaceMesh) (p : nat) : Prop :=
  sm_dimension m = 2 /\ exists vs points, nth_error (sm_polygons m) p = Some vs /\
    map (nth_error (sm_points m)) vs = map Some points /\ ms_area_negative ms points = true.
(** a tetrahedron whose vertices, in order, have a negative volume, or another polyhedron of negative volume *)
Definition negative_polyhedron (ms : Measures) (m : SolidMesh) (p : nat) : Prop :=
  exists ph, nth_error (so_polyhedra m) p = Some ph /\
    ((exists a b c d pa pb pc pd, ph_vertices ph = [a; b; c; d] /\
        map (nth_error (so_points m)) [a; b; c; d] = map Some [pa; pb; pc; pd] /\ ms_tetra_negative ms pa pb pc pd = true) \/
     (length (ph_vertices ph) <> 4 /\ dlt (so_volume m p) (S754_zero false) = true)).
(** vertices of elements have a point *)
Definition polygon_points_exist (m : SurfaceMesh) : Prop :=
  forall vs v, In vs (sm_polygons m) -> In v vs -> v < length (sm_points m).
Definition polyhedron_points_exist (m : SolidMesh) : Prop :=
  forall ph v, In ph (so_polyhedra m) -> In v (ph_vertices ph) -> v < length (so_points m).
Definition negative_polygons_report (ms : Measures) (m : Model) (id : uuid) (l : list nat) : Prop :=
  exists s, In s (m_surfaces m) /\ co_active s = true /\ co_id s = id /\ lists_exactly lt (negative_polygon ms (co_mesh s)) l.
Definition negative_polyhedra_report (ms : Measures) (m : Model) (id : uuid) (l : list nat) : Prop :=
  exists b, In b (m_blocks m) /\ co_active b = true /\ co_id b = id /\ lists_exactly lt (negative_polyhedron ms (co_mesh b)) l.
