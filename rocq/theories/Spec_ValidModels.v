(** What a valid Section and a valid BRep are. *)
From Coq Require Import String List Arith NArith Bool Floats.SpecFloat.
From Verif Require Import Base Model_Issues Types Model_Degeneration Model_Intersections Model_Topology Model_BRep Model_Blocks Model_Results Spec_Colocation Spec_Maps Spec_Cycles Spec_Adjacency Spec_Manifold
  Spec_Degeneration Spec_Negative Spec_Intersections Spec_Topology Spec_BRep Spec_Blocks Spec_Valid.
Import ListNotations.

(** [c] is an active component of [l] *)
Definition inspected {M} (l : list (Component M)) (c : Component M) : Prop := In c l /\ co_active c = true.

(** ** Meshes *)
(** unique vertices are at different places, the vertices of one are at one place, and colocated vertices of a component
    have the same unique vertex *)
Record sound_vertices (geo : Geometry) (m : Model) : Prop := {
  sv_apart : forall l, positioned_vertices m l -> points_apart geo (map snd l);
  sv_together : forall uv, uv < nb_unique_vertices m -> ~ different_points geo m uv;
  sv_components : forall t id points i j, active_mesh m t id points -> same_place (g_colocated geo points) i j ->
    m_unique_vertex m (mkCMV (mkCID t id) i) = m_unique_vertex m (mkCMV (mkCID t id) j) }.
Definition sound_line_mesh (c : EdgedCurve) : Prop := forall e, ~ short_curve_edge c GLOBAL_EPSILON e.
Record sound_surface_mesh (ms : Measures) (m : Model) (s : Component SurfaceMesh) : Prop := {
  sf_adjacency : forall e, is_polygon_edge (co_mesh s) e -> forall q, sm_adjacent (co_mesh s) e = Some q -> edge_reciprocated (co_mesh s) e q;
  sf_borders : forall e, is_polygon_edge (co_mesh s) e -> sm_adjacent (co_mesh s) e = None ->
    let uv x := m_unique_vertex m (mkCMV (mkCID SurfaceT (co_id s)) x) in
    exists a b, uv (polygon_edge_vertex0 (co_mesh s) e) = Some a /\ uv (polygon_edge_vertex1 (co_mesh s) e) = Some b /\
      a < nb_unique_vertices m /\ b < nb_unique_vertices m /\ joined_by_a_line m a b;
  sf_edges : forall e, ~ shorter_edge ms (sm_points (co_mesh s)) (sm_edges (co_mesh s)) GLOBAL_EPSILON e;
  sf_polygons : forall p, ~ flat_polygon (co_mesh s) GLOBAL_EPSILON p;
  sf_manifold_edges : forall a b, a <= b -> forall n, 0 < n -> uses (co_mesh s) a b n ->
    (border_occurrence (co_mesh s) a b -> n = 1) /\ (~ border_occurrence (co_mesh s) a b -> n = 2);
  sf_manifold_vertices : forall v, v < length (sm_points (co_mesh s)) -> forall fan, sm_around_vertex (co_mesh s) v = Ok fan ->
    lists_once (surface_corner (co_mesh s) v) fan }.
(** ** Topology *)
(** every active component of [l] is meshed, and its vertices have a unique vertex *)
Definition meshed_and_linked {M} (t : ComponentType) (meshed : M -> Prop) (nb_vertices : M -> nat) (m : Model) (l : list (Component M)) : Prop :=
  forall c, inspected l c -> meshed (co_mesh c) /\ forall v, v < nb_vertices (co_mesh c) -> m_unique_vertex m (mkCMV (mkCID t (co_id c)) v) <> None.
Record sound_section_topology (m : Model) : Prop := {
  st_bijective : bijectively_linked m;
  st_corners_meshed : meshed_and_linked CornerT has_points nb_points0 m (m_corners m);
  st_lines_meshed : meshed_and_linked LineT has_points_and_edges nb_points1 m (m_lines m);
  st_surfaces_meshed : meshed_and_linked SurfaceT has_points_and_polygons nb_points2 m (m_surfaces m);
  st_vertices : forall uv, uv < nb_unique_vertices m ->
    (~ several_corners m uv /\ ~ corner_with_several_embeddings m uv /\ ~ corner_without_relation m uv /\ ~ corner_not_bounding_a_line m uv) /\
    (~ line_without_relation m uv /\ ~ line_badly_embedded m uv /\ ~ single_line_invalid m uv /\ ~ lines_without_corner m uv) /\
    (~ two_surfaces_without_common_line m uv /\ ~ line_vertex_off_border m uv) }.
Record sound_section (ms : Measures) (geo : Geometry) (px : Predicates) (trees : Trees) (m : Model) : Prop := {
  sd_vertices : sound_vertices geo m;
  sd_lines : forall c, inspected (m_lines m) c -> sound_line_mesh (co_mesh c);
  sd_surfaces : forall s, inspected (m_surfaces m) s -> sound_surface_mesh ms m s /\ forall p, ~ negative_polygon ms (co_mesh s) p;
  sd_intersections : forall s1 s2 c, proposed m trees s1 s2 c -> ~ surfaces_meet px m s1 s2 c;
  sd_topology : sound_section_topology m }.

(** ** What is asked of the answers of OpenGeode, and sizes *)
Record surface_ready (m : SurfaceMesh) : Prop := {
  sy_adjacency : edge_adjacency_in_range m;
  sy_edges : edges_in_range (sm_points m) (sm_edges m);
  sy_uses : forall a b n, uses m a b n -> n <= 256;
  sy_vertices : surface_vertices_in_range m;
  sy_around : forall v, v < length (sm_points m) -> sm_around_vertex m v = Throw OpenGeodeExn \/ exists fan, sm_around_vertex m v = Ok fan;
  sy_points : polygon_points_exist m;
  sy_size : below_2_32 (length (sm_points m) + length (sm_edges m) + nb_polygons m + 2 * length (all_polygon_edges m)) }.
Record section_ready (o : Oracles) (px : Predicates) (trees : Trees) (m : Model) : Prop := {
  sr_ok : section_ok m;
  sr_links : resolvable m;
  sr_colocation : forall points, consistent points (g_colocated (or_geometry o) points);
  sr_lookup : lookup_right m (or_lookup o);
  sr_lines : forall c, In c (m_lines m) -> below_2_32 (length (ec_points (co_mesh c)) + length (ec_edges (co_mesh c)));
  sr_surfaces : forall s, In s (m_surfaces m) -> surface_ready (co_mesh s);
  sr_intersections_ready : intersections_ready px m trees }.

(** ** BRep *)
Record sound_block_mesh (ms : Measures) (m : Model) (b : Component SolidMesh) : Prop := {
  sb_adjacency : forall f, is_polyhedron_facet (co_mesh b) f -> forall q, so_adjacent (co_mesh b) f = Some q -> facet_reciprocated (co_mesh b) f q;
  sb_borders : forall f uvs, is_polyhedron_facet (co_mesh b) f -> so_adjacent (co_mesh b) f = None ->
    map (fun x => m_unique_vertex m (mkCMV (mkCID BlockT (co_id b)) x)) (polyhedron_facet_vertices (co_mesh b) f) = map Some uvs -> covered_by_a_surface m uvs;
  sb_edges : forall e, ~ shorter_edge ms (so_points (co_mesh b)) (so_edges (co_mesh b)) GLOBAL_EPSILON e;
  sb_polyhedra : forall p, ~ flat_polyhedron (co_mesh b) GLOBAL_EPSILON p;
  sb_manifold_vertices : forall v, v < length (so_points (co_mesh b)) -> forall fan, so_around_vertex (co_mesh b) v = Ok fan ->
    lists_once (solid_corner (co_mesh b) v) fan;
  sb_manifold_edges : forall e ab, first_occurrence (co_mesh b) e ab -> exists fan, so_around_edge (co_mesh b) ab (fst e) = Ok fan /\ complete_fan (co_mesh b) ab fan;
  sb_manifold_facets : forall c, ~ overused_facet (co_mesh b) c;
  sb_orientation : forall p, ~ negative_polyhedron ms (co_mesh b) p }.
(** [parts] gives the connected parts of the boundary of every block *)
Record sound_blocks_topology (tl : TopoLookup) (m : Model) (parts : uuid -> list (list uuid)) : Prop := {
  bk_meshed : (exists c, inspected (m_blocks m) c /\ has_points_and_polyhedra (co_mesh c)) ->
    forall c, inspected (m_blocks m) c -> has_points_and_polyhedra (co_mesh c) /\
      forall v, v < nb_points3 (co_mesh c) -> m_unique_vertex m (mkCMV (mkCID BlockT (co_id c)) v) <> None;
  bk_free : forall b, In b (active_ids m BlockT) -> ~ boundary_has_free_line m b;
  bk_closed : forall b, In b (active_ids m BlockT) -> counted_as_closed tl m (parts b);
  bk_model : all_linked m (model_boundary_surfaces m);
  bk_vertices : forall uv, uv < nb_unique_vertices m ->
    ~ two_blocks_apart m uv /\ ~ block_count_wrong m uv /\ ~ only_surface_wrong m uv /\ ~ surface_relation_wrong tl m uv }.
Record sound_brep_topology (tl : TopoLookup) (m : Model) (parts : uuid -> list (list uuid)) : Prop := {
  bt_s_bijective : bijectively_linked m;
  bt_corners_meshed : meshed_and_linked CornerT has_points nb_points0 m (m_corners m);
  bt_lines_meshed : meshed_and_linked LineT has_points_and_edges nb_points1 m (m_lines m);
  bt_surfaces_meshed : meshed_and_linked SurfaceT has_points_and_polygons nb_points2 m (m_surfaces m);
  bt_line_edges : forall c e, inspected (m_lines m) c -> e < length (ec_edges (co_mesh c)) -> ~ line_edge_wrong tl m c e;
  bt_surface_facets : forall c p, inspected (m_surfaces m) c -> p < length (sm_polygons (co_mesh c)) -> ~ surface_facet_wrong tl m c p;
  bt_vertices : forall uv, uv < nb_unique_vertices m ->
    (~ several_corners m uv /\ ~ corner_in_block_and_elsewhere m uv /\ ~ corner_without_relation m uv /\ ~ corner_unrelated_to_line m uv) /\
    (~ line_embedding_wrong m uv /\ ~ line_relationship_wrong tl m uv /\ ~ only_line_wrong m uv /\ ~ lines_without_corner m uv) /\
    (~ surface_badly_embedded m uv /\ ~ several_surfaces_wrong m uv /\ ~ related_line_vertex_off_border m uv);
  bt_s_blocks : active_ids m BlockT <> [] -> sound_blocks_topology tl m parts }.
Record sound_brep (ms : Measures) (geo : Geometry) (px : Predicates) (tl : TopoLookup) (trees : Trees) (lines : LineTrees) (m : Model)
    (parts : uuid -> list (list uuid)) : Prop := {
  sbr_vertices : sound_vertices geo m;
  sbr_lines : forall c, inspected (m_lines m) c -> sound_line_mesh (co_mesh c);
  sbr_surfaces : forall s, inspected (m_surfaces m) s -> sound_surface_mesh ms m s;
  sbr_blocks : forall b, inspected (m_blocks m) b -> sound_block_mesh ms m b;
  (** no edge is interior to two places of the surfaces, no single-edge line or single-polygon surface floats alone *)
  sbr_model_edges : forall x, ~ shared_interior_edge m x;
  sbr_lonely_lines : forall l, inspected (m_lines m) l -> forall x, ~ lonely_line_issue m l x;
  sbr_lonely_surfaces : forall s, inspected (m_surfaces m) s -> forall x, ~ lonely_surface_issue m s x;
  sbr_surfaces_apart : forall s1 s2 c, proposed m trees s1 s2 c -> ~ surfaces_meet px m s1 s2 c;
  sbr_lines_apart : forall s l c, proposed_line m trees lines s l c -> embedded_in_block m (co_id l) -> ~ line_meets px (co_mesh s) (co_mesh l) c;
  sbr_topology : sound_brep_topology tl m parts }.
Record block_ready (m : SolidMesh) : Prop := {
  by_well_formed : solid_well_formed m;
  by_edges : edges_in_range (so_points m) (so_edges m);
  by_vertices : solid_vertices_in_range m;
  by_around : forall v, v < length (so_points m) -> exists fan, so_around_vertex m v = Ok fan;
  by_around_edge : around_edge_contract m;
  by_points : polyhedron_points_exist m;
  by_size : below_2_32 (length (so_points m) + length (so_edges m) + nb_polyhedra m + 2 * length (all_polyhedron_facets m) + list_sum (map (fun p => length (ph_edges (polyhedron m p))) (seq 0 (nb_polyhedra m)))) }.
Record brep_ready (o : Oracles) (px : Predicates) (trees : Trees) (lines : LineTrees) (m : Model) : Prop := {
  bd_ok : blocks_ok (or_topo o) m;
  bd_topo : lookup_ok (or_topo o) m;
  bd_inspectable : lines_inspectable m;
  bd_colocation : forall points, consistent points (g_colocated (or_geometry o) points);
  bd_lookup : lookup_right m (or_lookup o);
  bd_lines : forall c, In c (m_lines m) -> below_2_32 (length (ec_points (co_mesh c)) + length (ec_edges (co_mesh c))) /\ edges_exist (co_mesh c);
  bd_surfaces : forall s, In s (m_surfaces m) -> surface_ready (co_mesh s);
  bd_blocks : forall b, In b (m_blocks m) -> block_ready (co_mesh b);
  bd_single_edges : forall l v w, In l (m_lines m) -> co_active l = true -> ec_edges (co_mesh l) = [(v, w)] -> linked m LineT (co_id l) v /\ linked m LineT (co_id l) w;
  bd_single_polygons : forall s vs v, In s (m_surfaces m) -> co_active s = true -> sm_polygons (co_mesh s) = [vs] -> In v vs -> linked m SurfaceT (co_id s) v;
  bd_intersections : intersections_ready px m trees;
  bd_line_trees : line_trees_of m trees lines;
  bd_polygons : big_polygons m }.
