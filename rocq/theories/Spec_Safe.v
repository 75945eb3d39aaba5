(** When an inspection may read outside of what it inspects.  [sane]: the arrays of a mesh or model have no dangling index
    and the searches of OpenGeode are themselves defined.  Nothing is asked of the adjacencies being reciprocal, of the
    orientation, of the relationships between components, of the links being complete, bijective or naming registered
    components, nor of the names, activity and exceptions. *)
From Coq Require Import String List Arith NArith Bool.
From Verif Require Import Base Model_Issues Types Model_Intersections Model_BRep Model_Results Spec_Adjacency Spec_Colocation Spec_Manifold Spec_Intersections.
Import ListNotations.

Definition defined {A} (o : outcome A) : Prop := o <> UB.

(** ** Meshes *)
Record sane_surface (m : SurfaceMesh) : Prop := {
  sane_edges : edge_adjacency_in_range m;
  sane_polygons : surface_vertices_in_range m;
  sane_polygons_around : forall v, defined (sm_around_vertex m v) }.
Record sane_solid (m : SolidMesh) : Prop := {
  sane_facets : forall f q, is_polyhedron_facet m f -> so_adjacent m f = Some q -> q < nb_polyhedra m;
  sane_polyhedra : solid_vertices_in_range m;
  sane_polyhedra_around : forall v, defined (so_around_vertex m v);
  sane_around_edge : forall e p, defined (so_around_edge m e p) }.
Definition sane_search (geo : Geometry) : Prop := forall points, consistent points (g_colocated geo points).

(** ** Links *)
(** If the component of a link is registered, its mesh has the vertex.  Only the corners, lines, surfaces and blocks have
    a mesh; other components are looked up among the corners. *)
Definition link_in_range (m : Model) (c : ComponentMeshVertex) : Prop :=
  let id := cid_id (cmv_component c) in
  match cid_type (cmv_component c) with
  | LineT => forall l, In l (m_lines m) -> co_id l = id -> cmv_vertex c < length (ec_points (co_mesh l))
  | SurfaceT => forall s, In s (m_surfaces m) -> co_id s = id -> cmv_vertex c < length (sm_points (co_mesh s))
  | BlockT => forall b, In b (m_blocks m) -> co_id b = id -> cmv_vertex c < length (so_points (co_mesh b))
  | CornerT | OtherT => forall k, In k (m_corners m) -> co_id k = id -> cmv_vertex c < length (ps_points (co_mesh k))
  end.
Definition no_dangling_link (m : Model) : Prop := forall uv c, uv < nb_unique_vertices m -> In c (component_mesh_vertices m uv) -> link_in_range m c.

(** ** Models *)
Record sane_section (o : Oracles) (m : Model) : Prop := {
  ss_search : sane_search (or_geometry o);
  ss_lines_found : forall e, defined (lk_line_edges (or_lookup o) e);
  ss_links : no_dangling_link m;
  ss_surfaces : forall s, In s (m_surfaces m) -> sane_surface (co_mesh s);
  ss_blocks : forall b, In b (m_blocks m) -> sane_solid (co_mesh b) }.

Definition fits_32_bits (n : nat) : Prop := (N.of_nat n < 2 ^ 32)%N.
(** The surfaces of the model boundaries, with repetitions. *)
Definition boundary_surfaces (m : Model) : list uuid := flat_map snd (m_model_boundaries m).
Record sane_brep (o : Oracles) (m : Model) : Prop := {
  sb_section : sane_section o m;
  sb_surfaces_found : forall vs, defined (lk_surface_polygons (or_lookup o) vs);
  sb_inside_block : forall s b, defined (tl_inside_block (or_topo o) s b);
  sb_inside_surface : forall f p, defined (tl_inside_closed (or_topo o) f p);
  sb_edges : forall l v w, In l (m_lines m) -> In (v, w) (ec_edges (co_mesh l)) ->
    v < length (ec_points (co_mesh l)) /\ w < length (ec_points (co_mesh l));
  sb_sizes : (forall l, In l (m_lines m) -> fits_32_bits (length (ec_points (co_mesh l)))) /\
    (forall s, In s (m_surfaces m) -> fits_32_bits (length (sm_points (co_mesh s))));
  sb_unique_vertices : forall c uv, m_unique_vertex m c = Some uv -> uv < nb_unique_vertices m;
  sb_relations : fits_32_bits (length (m_boundary_rel m));
  sb_boundaries : fits_32_bits (length (boundary_surfaces m)) }.

(** ** The places where the code itself forgets to look *)
Definition is_linked (m : Model) (t : ComponentType) (id : uuid) (v : nat) : Prop := m_unique_vertex m (mkCMV (mkCID t id) v) <> None.
(** The first edge of every active line that some unique vertex names is linked. *)
Definition first_edges_are_linked (m : Model) : Prop :=
  forall l v w rest, In l (m_lines m) -> co_active l = true -> ec_edges (co_mesh l) = (v, w) :: rest ->
    (exists uv c, uv < nb_unique_vertices m /\ In c (component_mesh_vertices m uv) /\ cmv_component c = mkCID LineT (co_id l)) ->
    is_linked m LineT (co_id l) v /\ is_linked m LineT (co_id l) w.
(** A line of a single edge inside a surface and a surface of a single polygon inside a block are linked. *)
Definition lonely_lines_linked (m : Model) : Prop :=
  forall l v w, In l (m_lines m) -> co_active l = true -> ec_edges (co_mesh l) = [(v, w)] ->
    (exists e, In e (embeddings m (co_id l)) /\ cid_type e = SurfaceT) -> is_linked m LineT (co_id l) v /\ is_linked m LineT (co_id l) w.
Definition lonely_surfaces_linked (m : Model) : Prop :=
  forall s vs v, In s (m_surfaces m) -> co_active s = true -> sm_polygons (co_mesh s) = [vs] ->
    (exists e, In e (embeddings m (co_id s)) /\ cid_type e = BlockT) -> In v vs -> is_linked m SurfaceT (co_id s) v.
(** Model boundaries, if there are any and a block is active, have a surface. *)
Definition boundaries_have_a_surface (m : Model) : Prop :=
  m_model_boundaries m <> [] -> active (m_blocks m) <> [] -> boundary_surfaces m <> [].

(** ** Searches of intersections *)
(** The trees only propose elements that exist.  In a Section a vertex shared by two surfaces is looked up in the first one
    with its number in the second one: it exists there too ([readable]). *)
Record sane_trees (px : Predicates) (m : Model) (trees : Trees) : Prop := {
  st_predicates : indices_in_range px;
  st_overlaps : forall i j, In (i, j) (tr_overlaps trees) -> i < length (tr_uuids trees) /\ j < length (tr_uuids trees);
  st_self : forall s i, In s (m_surfaces m) -> nth_error (tr_uuids trees) i = Some (co_id s) ->
    candidates_in_range (nb_polygons (co_mesh s)) (nb_polygons (co_mesh s)) (tr_self trees i);
  st_other : forall s1 s2 i j, In s1 (m_surfaces m) -> In s2 (m_surfaces m) -> nth_error (tr_uuids trees) i = Some (co_id s1) ->
    nth_error (tr_uuids trees) j = Some (co_id s2) ->
    candidates_in_range (nb_polygons (co_mesh s1)) (nb_polygons (co_mesh s2)) (tr_other trees i j);
  st_second : forall s1 s2, In s1 (m_surfaces m) -> In s2 (m_surfaces m) -> sm_dimension (co_mesh s1) = 2 -> readable m s1 s2 }.
Record sane_line_trees (m : Model) (trees : Trees) (lines : LineTrees) : Prop := {
  st_lines : forall s l i j, In s (m_surfaces m) -> In l (m_lines m) -> nth_error (tr_uuids trees) i = Some (co_id s) ->
    nth_error (lt_uuids lines) j = Some (co_id l) ->
    candidates_in_range (nb_polygons (co_mesh s)) (length (ec_edges (co_mesh l))) (lt_other lines i j);
  st_polygons : forall s, In s (m_surfaces m) -> ~ In [] (sm_polygons (co_mesh s)) }.

(** ** A link that dangles *)
(** The component of the link is in the model, among those of its type. *)
Definition link_registered (m : Model) (c : ComponentMeshVertex) : Prop :=
  let id := cid_id (cmv_component c) in
  match cid_type (cmv_component c) with
  | LineT => exists l, In l (m_lines m) /\ co_id l = id
  | SurfaceT => exists s, In s (m_surfaces m) /\ co_id s = id
  | BlockT => exists b, In b (m_blocks m) /\ co_id b = id
  | CornerT | OtherT => exists k, In k (m_corners m) /\ co_id k = id
  end.
(** [c] is the first link of an active component at unique vertex [uv]. *)
Definition first_active_link (m : Model) (uv : nat) (c : ComponentMeshVertex) : Prop :=
  exists pre post, uv < nb_unique_vertices m /\ component_mesh_vertices m uv = pre ++ c :: post /\
    (forall d, In d pre -> ~ is_active_cmv m d) /\ is_active_cmv m c.

(** ** What breaks them *)
(** Going through the vertices [vs] of a component, a vertex without unique vertex is met before one that has several links. *)
Definition meets_unlinked (m : Model) (t : ComponentType) (id : uuid) (vs : list nat) : Prop :=
  exists before v after, vs = (before ++ v :: after)%list /\ ~ is_linked m t id v /\
    forall x u, In x before -> m_unique_vertex m (mkCMV (mkCID t id) x) = Some u -> length (component_mesh_vertices m u) <= 1.
