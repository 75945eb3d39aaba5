(** What adjacency inspections should say. *)
From Coq Require Import String List Arith NArith Bool Sorted.
From Verif Require Import Base Model_Issues Types Spec_Maps Spec_Cycles.
Import ListNotations.

(** [l] lists exactly the elements that satisfy [P], once each, in the order [R]. *)
Definition lists_exactly {A} (R : A -> A -> Prop) (P : A -> Prop) (l : list A) : Prop :=
  StronglySorted R l /\ forall x, In x l <-> P x.
(** element first, then local index *)
Definition lex_lt (a b : nat * nat) : Prop := fst a < fst b \/ (fst a = fst b /\ snd a < snd b).

Definition is_polygon_edge (m : SurfaceMesh) (e : PolygonEdge) : Prop :=
  fst e < nb_polygons m /\ snd e < nb_polygon_edges m (fst e).
(** Edge [e] is adjacent to [q] and some edge of [q] joins the same vertices backwards and is adjacent to [e]'s polygon. *)
Definition edge_reciprocated (m : SurfaceMesh) (e : PolygonEdge) (q : nat) : Prop :=
  exists e', e' < nb_polygon_edges m q /\
    polygon_edge_vertex0 m (q, e') = polygon_edge_vertex1 m e /\
    polygon_edge_vertex1 m (q, e') = polygon_edge_vertex0 m e /\ sm_adjacent m (q, e') = Some (fst e).
Definition wrong_edge (m : SurfaceMesh) (e : PolygonEdge) : Prop :=
  is_polygon_edge m e /\ exists q, sm_adjacent m e = Some q /\ ~ edge_reciprocated m e q.
Definition edge_adjacency_in_range (m : SurfaceMesh) : Prop :=
  forall e q, is_polygon_edge m e -> sm_adjacent m e = Some q -> q < nb_polygons m.

Definition is_polyhedron_facet (m : SolidMesh) (f : PolyhedronFacet) : Prop :=
  fst f < nb_polyhedra m /\ snd f < length (ph_facets (polyhedron m (fst f))).
Definition facet_reciprocated (m : SolidMesh) (f : PolyhedronFacet) (q : nat) : Prop :=
  exists f', f' < length (ph_facets (polyhedron m q)) /\
    opposite_cycle (polyhedron_facet_vertices m f) (polyhedron_facet_vertices m (q, f')) /\
    so_adjacent m (q, f') = Some (fst f).
Definition wrong_facet (m : SolidMesh) (f : PolyhedronFacet) : Prop :=
  is_polyhedron_facet m f /\ exists q, so_adjacent m f = Some q /\ ~ facet_reciprocated m f q.
(** Adjacent polyhedra exist and no facet is empty or visits a vertex twice. *)
Definition solid_well_formed (m : SolidMesh) : Prop :=
  (forall f q, is_polyhedron_facet m f -> so_adjacent m f = Some q -> q < nb_polyhedra m) /\
  (forall f, is_polyhedron_facet m f -> polyhedron_facet_vertices m f <> [] /\ NoDup (polyhedron_facet_vertices m f)).

(** ** Models *)
(** An edge of a line joins the two unique vertices. *)
Definition joined_by_a_line (m : Model) (a b : nat) : Prop :=
  exists c i v w, In c (m_lines m) /\ nth_error (ec_edges (co_mesh c)) i = Some (v, w) /\
    let uv x := m_unique_vertex m (mkCMV (mkCID LineT (co_id c)) x) in
    (uv v = Some a /\ uv w = Some b \/ uv v = Some b /\ uv w = Some a).
(** A polygon of a surface is the cycle of unique vertices [uvs]. *)
Definition covered_by_a_surface (m : Model) (uvs : list nat) : Prop :=
  exists c p, In c (m_surfaces m) /\ p < nb_polygons (co_mesh c) /\
    exists cycle, map (fun x => m_unique_vertex m (mkCMV (mkCID SurfaceT (co_id c)) x)) (polygon_vertices (co_mesh c) p)
      = map Some cycle /\ same_cycle uvs cycle.
(** Contract of the searches of OpenGeode. *)
Definition lookup_right (m : Model) (lk : Lookup) : Prop :=
  (forall a b, a < nb_unique_vertices m -> b < nb_unique_vertices m ->
     exists l, lk_line_edges lk (a, b) = Ok l /\ (l <> [] <-> joined_by_a_line m a b)) /\
  (forall uvs, exists l, lk_surface_polygons lk uvs = Ok l /\ (l <> [] <-> covered_by_a_surface m uvs)).

(** A border edge of surface [s] without a line, or with a vertex that has no valid unique vertex. *)
Definition wrong_border_edge (m : Model) (s : Component SurfaceMesh) (e : PolygonEdge) : Prop :=
  is_polygon_edge (co_mesh s) e /\ sm_adjacent (co_mesh s) e = None /\
  let uv x := m_unique_vertex m (mkCMV (mkCID SurfaceT (co_id s)) x) in
  ~ exists a b, uv (polygon_edge_vertex0 (co_mesh s) e) = Some a /\ uv (polygon_edge_vertex1 (co_mesh s) e) = Some b /\
      a < nb_unique_vertices m /\ b < nb_unique_vertices m /\ joined_by_a_line m a b.
(** Right report for surface [id] of the model. *)
Definition surface_adjacency_report (m : Model) (id : uuid) (l : list PolygonEdge) : Prop :=
  exists s l1 l2, In s (m_surfaces m) /\ co_active s = true /\ co_id s = id /\ l = l1 ++ l2 /\
    lists_exactly lex_lt (wrong_edge (co_mesh s)) l1 /\ lists_exactly lex_lt (wrong_border_edge m s) l2.

(** A border facet of block [b], all of whose vertices have a unique vertex, without a surface. *)
Definition wrong_border_facet (m : Model) (b : Component SolidMesh) (f : PolyhedronFacet) : Prop :=
  is_polyhedron_facet (co_mesh b) f /\ so_adjacent (co_mesh b) f = None /\
  exists uvs, map (fun x => m_unique_vertex m (mkCMV (mkCID BlockT (co_id b)) x)) (polyhedron_facet_vertices (co_mesh b) f)
    = map Some uvs /\ ~ covered_by_a_surface m uvs.
Definition block_adjacency_report (m : Model) (id : uuid) (l : list PolyhedronFacet) : Prop :=
  exists b l1 l2, In b (m_blocks m) /\ co_active b = true /\ co_id b = id /\ l = l1 ++ l2 /\
    lists_exactly lex_lt (wrong_facet (co_mesh b)) l1 /\ lists_exactly lex_lt (wrong_border_facet m b) l2.
