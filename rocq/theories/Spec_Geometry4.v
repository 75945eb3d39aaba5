(** A BRep as a whole in space (C81): what its surfaces and lines may have in common, and the conditions of a sound BRep besides. *)
From Coq Require Import String List Arith NArith ZArith Bool QArith.
From Verif Require Import Base Model_Issues Types Model_Degeneration Model_Results Model_Manifold Model_Intersections Model_Topology Model_BRep Model_Blocks Spec_Colocation Spec_Manifold Spec_Intersections Spec_Topology Spec_BRep
  Spec_Blocks Spec_ValidModels Spec_Geometry Spec_Geometry3.
Import ListNotations.
Local Open Scope nat_scope.
Local Open Scope list_scope.

(** two triangles of different polygons of surfaces, with their common vertices *)
Record neighbours (m : Model) (s1 s2 : Component SurfaceMesh) (p q : nat) (T1 T2 : Triangle) (c : list (nat * nat)) : Prop := {
  ng_first : In s1 (m_surfaces m) /\ p < nb_polygons (co_mesh s1);
  ng_second : In s2 (m_surfaces m) /\ q < nb_polygons (co_mesh s2);
  ng_different : ~ (co_id s1 = co_id s2 /\ p = q);
  ng_triangles : exists t1 t2, fan_triangle (polygon_vertices (co_mesh s1) p) t1 /\ fan_triangle (polygon_vertices (co_mesh s2) q) t2 /\
    triangle_of (co_mesh s1) t1 T1 /\ triangle_of (co_mesh s2) t2 T2 /\ common_vertices m s1 s2 t2 t1 c }.
(** they have nothing in common but common vertices and sides *)
Definition surfaces_embedded (m : Model) : Prop :=
  forall s1 s2 p q T1 T2 c, neighbours m s1 s2 p q T1 T2 c -> List.length c <> 3 /\ ~ meet_beyond (co_mesh s1) c T1 T2.
(** the same for active surfaces, but a triangle may be inside another one with which it shares a side *)
Definition surfaces_embedded_or_nested (m : Model) : Prop :=
  forall s1 s2 p q T1 T2 c, neighbours m s1 s2 p q T1 T2 c -> co_active s1 = true -> co_active s2 = true ->
    List.length c <> 3 /\ (meet_beyond (co_mesh s1) c T1 T2 -> List.length c = 2 /\ (holds_corner T1 T2 \/ holds_corner T2 T1)).
(** the edges of lines embedded in a block touch triangles of surfaces only along them ("parallel") or with an end at a corner *)
Definition lines_embedded (r : reading) (m : Model) : Prop :=
  forall l s p e t T g x, In l (m_lines m) -> co_active l = true -> embedded_in_block m (co_id l) ->
    In s (m_surfaces m) -> co_active s = true -> p < nb_polygons (co_mesh s) -> fan_triangle (polygon_vertices (co_mesh s) p) t -> triangle_of (co_mesh s) t T ->
    segment_of (co_mesh l) e g -> on_segment x g -> on_triangle x T -> parallel_to_triangle r g T \/ at_end x g /\ at_corner_of x T.

(** the conditions of [sound_brep] that are not about intersections *)
Record sound_brep_besides (ms : Measures) (geo : Geometry) (tl : TopoLookup) (m : Model) (parts : uuid -> list (list uuid)) : Prop := {
  be_vertices : sound_vertices geo m;
  be_lines : forall c, inspected (m_lines m) c -> sound_line_mesh (co_mesh c);
  be_surfaces : forall s, inspected (m_surfaces m) s -> sound_surface_mesh ms m s;
  be_blocks : forall b, inspected (m_blocks m) b -> sound_block_mesh ms m b;
  be_model_edges : forall x, ~ shared_interior_edge m x;
  be_lonely_lines : forall l, inspected (m_lines m) l -> forall x, ~ lonely_line_issue m l x;
  be_lonely_surfaces : forall s, inspected (m_surfaces m) s -> forall x, ~ lonely_surface_issue m s x;
  be_topology : sound_brep_topology tl m parts }.

(** a BRep in space whose elements are all real, and whose shared vertices are at one place *)
Record brep_in_space (m : Model) (trees : Trees) (lines : LineTrees) : Prop := {
  is_dimension : dimension_is m 3;
  is_joined : joined_surfaces m;
  is_solid : solid_model m;
  is_lines : solid_lines m;
  is_boxes : boxes_complete m trees;
  is_line_boxes : line_boxes_complete m trees lines }.
