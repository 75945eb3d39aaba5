(** A Section as a whole in the plane (C82). *)
From Coq Require Import String List Arith NArith ZArith Bool QArith.
From Verif Require Import Base Model_Issues Types Model_Degeneration Model_Negative Model_Results Model_Manifold Model_Intersections Model_Topology Spec_Colocation Spec_Manifold Spec_Negative Spec_Intersections Spec_Topology
  Spec_Valid Spec_ValidModels Spec_Geometry Spec_Geometry2 Spec_Geometry4.
Import ListNotations.
Local Open Scope nat_scope.
Local Open Scope list_scope.

(** the triangles of different polygons have nothing in common but common vertices and sides, unless they have at most one common vertex and
    one is inside the other *)
Definition apart_or_engulfed (who : Component SurfaceMesh -> Prop) (m : Model) : Prop :=
  forall s1 s2 p q T1 T2 c, neighbours m s1 s2 p q T1 T2 c -> who s1 -> who s2 ->
    List.length c <> 3 /\ (meet_beyond (co_mesh s1) c T1 T2 -> List.length c < 2 /\ (engulfs (co_mesh s1) c T1 T2 \/ engulfs (co_mesh s1) c T2 T1)).
(** the conditions of [sound_section] that are not about intersections *)
Record sound_section_besides (ms : Measures) (geo : Geometry) (m : Model) : Prop := {
  sb_vertices : sound_vertices geo m;
  sb_lines : forall c, inspected (m_lines m) c -> sound_line_mesh (co_mesh c);
  sb_surfaces : forall s, inspected (m_surfaces m) s -> sound_surface_mesh ms m s /\ forall p, ~ negative_polygon ms (co_mesh s) p;
  sb_topology : sound_section_topology m }.
(** a Section in the plane with real triangles, whose shared vertices are at one place and have one number *)
Record section_in_plane (m : Model) (trees : Trees) : Prop := {
  ip_dimension : dimension_is m 2;
  ip_joined : joined_surfaces m;
  ip_numbers : numbered_alike m;
  ip_solid : solid_section m;
  ip_boxes : boxes_complete m trees }.
