{"id": "C01", "title": "Issue lists never lose or pair up wrongly an issue and its message", "statement": "After any sequence of add_issue / set_description calls on an InspectionIssues object, issues() holds exactly the added issues in call order, string() shows exactly their messages in the same order, nb_issues() is the number of add_issue calls modulo 2^32, and nb_issues()==0 is equivalent to 'no issue was added' as long as fewer than 2^32 issues were added (and only then: 2^32 issues give nb_issues()==0).", "quantifier": "every finite history of calls on one InspectionIssues object, every issue type", "why_tests_cant": "a test adds a handful of issues; the claim is about every history, including the 32-bit truncation of the count", "anchors": ["include/geode/inspector/inspection/information.hpp: InspectionIssues::add_issue, nb_issues, issues, string, set_description"]}
{"id": "C02", "title": "The textual report of an issue list is complete", "statement": "InspectionIssues::string() starts with 'no issues with ' exactly when no issue was added; otherwise it starts with the exact (untruncated) number of issues and contains every message, in order, one per tabulated line; it always ends with a newline.", "quantifier": "every history of calls, every description and message text", "why_tests_cant": "texts and histories are unbounded", "anchors": ["include/geode/inspector/inspection/information.hpp: InspectionIssues::string"]}
{"id": "C03", "title": "The per-component issue map keeps the first non-empty report of each component and nothing else", "statement": "After any sequence of add_issues_to_map(id, issues) calls, a component is present iff some call for it carried at least one issue; what is stored is the FIRST such call's issues (later ones for the same component are silently dropped); no stored entry is empty; nb_issues() is the number of components present, not the number of issues.", "quantifier": "every history of add_issues_to_map calls on one InspectionIssuesMap", "why_tests_cant": "the drop of later reports depends on the history; tests never add twice for one id", "anchors": ["include/geode/inspector/inspection/information.hpp: InspectionIssuesMap::add_issues_to_map, nb_issues, issues_map"]}
{"id": "C04", "title": "Colocated point groups are exactly the classes of the colocation mapping", "statement": "colocated_points_groups() of a point set, curve, surface or solid returns groups such that: two distinct vertices are in a common group iff the nearest-neighbour search maps them to the same unique point; every group has at least two vertices in increasing order; groups are pairwise disjoint; no vertex index is out of range.", "quantifier": "every mesh (any number of vertices) and every colocation mapping returned by the search", "why_tests_cant": "any size, any coincidence pattern", "anchors": ["src/geode/inspector/inspection/criterion/internal/colocation_impl.cpp: colocated_points_groups, mesh_colocated_points_groups", "src/geode/inspector/inspection/criterion/colocation/pointset_colocation.cpp", "src/geode/inspector/inspection/criterion/colocation/edgedcurve_colocation.cpp", "src/geode/inspector/inspection/criterion/colocation/surface_colocation.cpp", "src/geode/inspector/inspection/criterion/colocation/solid_colocation.cpp"]}
{"id": "C05", "title": "The yes/no colocation answer agrees with the list of groups", "statement": "mesh_has_colocated_points() is true iff colocated_points_groups() reports at least one group, for every result of the nearest-neighbour search that is a consistent mapping (each vertex mapped to the index of its unique point, every unique point hit).", "quantifier": "every mesh and every consistent colocation mapping", "why_tests_cant": "equivalence over all inputs", "anchors": ["src/geode/inspector/inspection/criterion/internal/colocation_impl.cpp: mesh_has_colocated_points, mesh_colocated_points_groups"]}
{"id": "C06", "title": "A colocated group of a model component is reported iff it spans several unique vertices", "statement": "For model components, a group of colocated mesh vertices is reported iff at least two of its vertices are linked to different unique vertices (two unlinked vertices count as having the same one); the report is a sub-list of the group containing the group's first vertex and at least one vertex of every unique vertex of the group. It is NOT true that reported vertices always have pairwise different unique vertices: the filter's marker array is read with an off-by-one index.", "quantifier": "every group of two or more colocated vertices and every assignment of unique vertices", "why_tests_cant": "needs all assignments of unique vertices; the off-by-one only shows on interleaved patterns", "anchors": ["src/geode/inspector/inspection/criterion/colocation/component_meshes_colocation.cpp: filter_colocated_points_with_same_unique_vertex"]}
{"id": "C07", "title": "A unique vertex is reported as geometrically inconsistent iff its active vertices disagree", "statement": "A unique vertex is listed in unique_vertices_linked_to_different_points iff it has an active component mesh vertex whose position is not within GLOBAL_EPSILON of the position of its first active component mesh vertex; vertices of inactive components never matter; the boolean query is true iff the list is non-empty.", "quantifier": "every model, every number of unique vertices and component mesh vertices, every activity pattern", "why_tests_cant": "all models", "anchors": ["src/geode/inspector/inspection/criterion/colocation/unique_vertices_colocation.cpp: model_cmvs_are_colocated_on_point, model_unique_vertex_point, unique_vertices_linked_to_different_points"]}
{"id": "C08", "title": "Colocated unique vertices are reported with model indices of active vertices only", "statement": "Every index in colocated_unique_vertices_groups is a valid unique vertex index that has at least one active component mesh vertex (never an index of the internal compacted point set); two active unique vertices are grouped iff the search says their points coincide; boolean query and list agree.", "quantifier": "every model and every colocation mapping of the active points", "why_tests_cant": "the compaction renumbers vertices; wrong back-mapping only shows when inactive vertices are interleaved", "anchors": ["src/geode/inspector/inspection/criterion/colocation/unique_vertices_colocation.cpp: Impl constructor, model_has_colocated_unique_vertices, colocated_unique_vertices_groups"]}
{"id": "C09", "title": "Surface adjacency: an edge is reported iff its stored adjacency is not reciprocated", "statement": "SurfaceMeshAdjacency reports polygon edge (p,e) iff p has an adjacent polygon q through e and no edge of q both joins the same two vertices in reverse order and is adjacent back to p. Each edge is reported at most once, in (polygon, edge) order; mesh_has_wrong_adjacencies is true iff the list is non-empty.", "quantifier": "every surface mesh, every adjacency table (in range)", "why_tests_cant": "all meshes/adjacency tables", "anchors": ["src/geode/inspector/inspection/criterion/adjacency/surface_adjacency.cpp: mesh_has_wrong_adjacencies, polygon_edges_with_wrong_adjacency, edge_has_right_adjacency"]}
{"id": "C10", "title": "Solid adjacency: a facet is reported iff its stored adjacency is not reciprocated", "statement": "SolidMeshAdjacency reports polyhedron facet (p,f) iff p has an adjacent polyhedron q through f and no facet of q is the same vertex cycle in opposite orientation and adjacent back to p; at most once per facet; boolean query iff list non-empty.", "quantifier": "every solid mesh, every adjacency table (in range)", "why_tests_cant": "all meshes/adjacency tables", "anchors": ["src/geode/inspector/inspection/criterion/adjacency/solid_adjacency.cpp"]}
{"id": "C11", "title": "Surface border edges of a model must lie on lines, and a failed lookup is reported, not lost", "statement": "For every active surface of a model, a border edge of its mesh is reported iff the edge is not on a Line of the model or the lookup raised because one of its vertices has no (or an out-of-range) unique vertex. Inactive surfaces never contribute, and no lookup failure escapes the inspection.", "quantifier": "every model, every surface mesh, every unique-vertex assignment", "why_tests_cant": "all models, including the broken ones the tool exists for", "anchors": ["src/geode/inspector/inspection/criterion/internal/component_meshes_adjacency.cpp: polygon_edge_is_on_a_line, add_surfaces_edges_with_wrong_adjacencies"]}
{"id": "C12", "title": "Block border facets must lie on surfaces; facets with an unlinked vertex are skipped", "statement": "For every active block, a border facet is reported iff all its vertices have a unique vertex and the facet is not on a Surface of the model. A border facet one of whose vertices has no unique vertex is NOT reported (unlike the surface case C11), so a block whose vertices are all unlinked gets no border issue.", "quantifier": "every model, every block mesh, every unique-vertex assignment", "why_tests_cant": "all models", "anchors": ["src/geode/inspector/inspection/criterion/adjacency/brep_meshes_adjacency.cpp: add_block_facets_with_wrong_adjacencies"]}
{"id": "C13", "title": "Surface edge manifoldness is exact up to 256 polygons per edge, and wrong beyond", "statement": "mesh_edges_are_manifold is true iff every edge that carries a border occurrence is used exactly once and every other edge exactly twice; non_manifold_edges lists exactly the offending edges, each once. This holds when no edge is used by more than 256 polygons; the occurrence counter is 8 bits, so 257 polygons around a border edge are reported manifold.", "quantifier": "every surface mesh with at most 256 uses per edge; plus the existence of a mesh beyond the bound", "why_tests_cant": "needs all meshes; the wrap needs 257 polygons on one edge", "anchors": ["src/geode/inspector/inspection/criterion/manifold/surface_edge_manifold.cpp"]}
{"id": "C14", "title": "Surface vertex manifoldness compares the local fan with all polygons at the vertex", "statement": "A vertex is listed in non_manifold_vertices iff the polygons reached by turning around the vertex from one of its polygons are not exactly all the polygon corners at this vertex, given that turning around did not raise; vertices on which it raised are silently treated as manifold; the boolean query is the negation of 'list non-empty'.", "quantifier": "every surface mesh, every answer of the turn-around query", "why_tests_cant": "all meshes", "anchors": ["src/geode/inspector/inspection/criterion/manifold/surface_vertex_manifold.cpp"]}
{"id": "C15", "title": "Solid vertex manifoldness compares the local star with all polyhedra at the vertex", "statement": "Same as C14 for polyhedra around a vertex of a solid mesh; here a failure of the turn-around query is not caught.", "quantifier": "every solid mesh, every answer of the turn-around query", "why_tests_cant": "all meshes", "anchors": ["src/geode/inspector/inspection/criterion/manifold/solid_vertex_manifold.cpp"]}
{"id": "C16", "title": "Solid edge manifoldness: each offending edge once; list and boolean differ on failures", "statement": "When turning around edges never raises, non_manifold_edges lists, once each, exactly the edges whose turn-around polyhedra differ from all polyhedra using the edge, and mesh_edges_are_manifold is the negation of 'list non-empty'. When the turn-around raises on an edge, the list reports that edge as an issue whereas the boolean query raises.", "quantifier": "every solid mesh and every answer/raise pattern of the turn-around query", "why_tests_cant": "all meshes and failure patterns", "anchors": ["src/geode/inspector/inspection/criterion/manifold/solid_edge_manifold.cpp"]}
{"id": "C17", "title": "Solid facet manifoldness: a facet is reported iff more than two polyhedra use it", "statement": "non_manifold_facets lists exactly, once each, the facets (as vertex cycles, whatever their orientation and start) used by more than two polyhedron facets; mesh_facets_are_manifold iff the list is empty.", "quantifier": "every solid mesh (fewer than 2^32 uses per facet)", "why_tests_cant": "all meshes", "anchors": ["src/geode/inspector/inspection/criterion/manifold/solid_facet_manifold.cpp"]}
{"id": "C18", "title": "Model-level non-manifold edges and facets of a BRep", "statement": "inspect_brep_manifold reports a unique-vertex edge iff it occurs more than once as an interior polygon edge of active surfaces (the same surface counting twice if it uses the edge twice), listing one surface id per occurrence, plus single-edge embedded lines none of whose vertices is shared; facets: single-polygon embedded surfaces none of whose vertices is shared.", "quantifier": "every BRep", "why_tests_cant": "all models", "anchors": ["src/geode/inspector/inspection/criterion/manifold/brep_meshes_manifold.cpp: add_model_non_manifold_edges, add_model_non_manifold_facets"]}
{"id": "C19", "title": "Small-edge detection is exact and monotone in the threshold, but strict for surfaces and non-strict for curves", "statement": "small_edges(threshold) lists, in increasing order and once each, exactly the edges shorter than the threshold for surfaces and solids, and the edges not longer than the threshold for curves; raising the threshold never removes an edge; edges of NaN length are never listed; degenerated_edges() is small_edges(GLOBAL_EPSILON). An edge of length exactly equal to the threshold is therefore reported on a curve and not on a surface.", "quantifier": "every mesh, every edge length (any IEEE-754 double) and threshold", "why_tests_cant": "all doubles, including NaN and the boundary", "anchors": ["src/geode/inspector/inspection/criterion/internal/degeneration_impl.cpp", "src/geode/inspector/inspection/criterion/degeneration/edgedcurve_degeneration.cpp"]}
{"id": "C20", "title": "Small-height polygons and polyhedra are exactly those with minimum height at most the threshold", "statement": "small_height_polygons(t) / small_height_polyhedra(t) list in increasing order exactly the elements whose minimum height is <= t, monotone in t, never an element of NaN height.", "quantifier": "every mesh, every double height and threshold", "why_tests_cant": "all doubles", "anchors": ["src/geode/inspector/inspection/criterion/degeneration/surface_degeneration.cpp", "src/geode/inspector/inspection/criterion/degeneration/solid_degeneration.cpp"]}
{"id": "C21", "title": "Degeneration yes/no answers agree with the lists when the mesh predicates agree with the measures", "statement": "is_mesh_degenerated() is true iff degenerated_edges() or degenerated_polygons()/polyhedra() is non-empty, provided the mesh's own is_polygon_degenerated / is_polyhedron_degenerated / is_edge_degenerated predicates agree with the measures used by the lists; for the edge part of surfaces and solids no such proviso is needed.", "quantifier": "every mesh; every degeneracy predicate", "why_tests_cant": "two implementations of one notion", "anchors": ["src/geode/inspector/inspection/criterion/internal/degeneration_impl.cpp: is_mesh_degenerated", "src/geode/inspector/inspection/criterion/degeneration/edgedcurve_degeneration.cpp", "src/geode/inspector/inspection/criterion/degeneration/surface_degeneration.cpp", "src/geode/inspector/inspection/criterion/degeneration/solid_degeneration.cpp"]}
{"id": "C22", "title": "Degeneration inspectors leave the mesh's edge storage as they found it", "statement": "For every sequence of queries on surface/solid degeneration inspectors (any number of them, constructed, queried and destroyed in any order), after their destruction the edges of the inspected mesh are enabled iff they were before their construction; edges enabled by the user are never disabled; and edges are available during the queries.", "quantifier": "every history construct / any queries / destroy, and any initial edge state", "why_tests_cant": "all histories", "anchors": ["src/geode/inspector/inspection/criterion/internal/degeneration_impl.cpp: constructor, destructor, check_edges", "src/geode/inspector/inspection/criterion/internal/component_meshes_degeneration.cpp: destructor, surfaces_on_which_enable_edges"]}
{"id": "C23", "title": "Model degeneration inspection reads a dead loop variable under some schedules", "statement": "In ComponentMeshesDegeneration::add_small_edges the spawned surface tasks capture a loop-local flag by reference: there is a schedule (a task starting after its loop iteration ended) in which it reads a variable whose lifetime is over (undefined behaviour); in every schedule in which each surface task runs before its iteration ends, the result is the sequential one and depends on no schedule.", "quantifier": "every number of surfaces and every interleaving of the spawning loop with the tasks", "why_tests_cant": "schedules cannot be enumerated by tests; the read usually returns a plausible value", "anchors": ["src/geode/inspector/inspection/criterion/internal/component_meshes_degeneration.cpp: add_small_edges"]}
{"id": "C24", "title": "Negative elements are exactly the elements of negative orientation, and no 3D surface has any", "statement": "surface: in 2D the polygons whose area sign is negative, in increasing order, in 3D none; solid: polyhedra with four vertices whose tetrahedron sign is negative and others whose volume is < 0; boolean query iff list non-empty.", "quantifier": "every mesh", "why_tests_cant": "all meshes", "anchors": ["src/geode/inspector/inspection/criterion/negative_elements/surface_negative_elements.cpp", "src/geode/inspector/inspection/criterion/negative_elements/solid_negative_elements.cpp"]}
{"id": "C25", "title": "Fan triangulation used for intersections covers the polygon exactly", "statement": "For every polygon with n>=3 vertices and every apex, the fan used to test polygons for intersection has exactly n-2 triangles, all containing the apex, using only consecutive vertices, no triangle repeats a vertex, and every polygon edge not touching the apex is in exactly one triangle.", "quantifier": "every n>=3 (n < 2^8, the local index range) and apex < n", "why_tests_cant": "all sizes", "anchors": ["src/geode/inspector/inspection/criterion/intersections/model_intersections.cpp: polygon_fan_triangles"]}
{"id": "C26", "title": "Surface self-intersection: detection and listing agree, no polygon intersects itself", "statement": "For a surface mesh inspector, intersecting_elements lists exactly the candidate pairs (as visited by the box tree) of distinct polygons whose triangles intersect outside shared vertices/edges; mesh_has_self_intersections is true iff that list is non-empty, for every order in which the tree visits candidates.", "quantifier": "every mesh, every candidate set and visiting order", "why_tests_cant": "all meshes and traversals", "anchors": ["src/geode/inspector/inspection/criterion/intersections/surface_intersections.cpp"]}
{"id": "C27", "title": "One empty surface silences model surface-surface intersection detection", "statement": "If some active surface has no polygon, the model intersection inspection reports no surface-surface intersection whatever the other surfaces; if none is empty, it reports for each surface its self intersections and for each overlapping pair the intersections of the two, in a schedule-independent order, and the boolean query is true iff the list is non-empty.", "quantifier": "every model, every schedule of the spawned tasks", "why_tests_cant": "all models and schedules", "anchors": ["src/geode/inspector/inspection/criterion/intersections/model_intersections.cpp: intersecting_polygons, model_has_intersecting_surfaces, intersecting_surfaces_elements"]}
{"id": "C28", "title": "Surface/curve intersection: detection and listing agree", "statement": "The yes/no query of SurfaceCurveIntersections is true iff the list of intersecting pairs is non-empty, every listed pair is a candidate pair whose edge meets the polygon other than at shared vertices, for every visiting order.", "quantifier": "every surface, curve and traversal", "why_tests_cant": "all meshes", "anchors": ["src/geode/inspector/inspection/criterion/intersections/surface_curve_intersections.cpp"]}
{"id": "C29", "title": "Two triangles sharing all three vertices are always reported, and shared vertices are matched by unique vertex", "statement": "Polygon pairs are decided over all fan-triangle pairs; triangles sharing three unique vertices always intersect; polygons with fewer than three vertices never do; the decision for two triangles with 0,1,2 common vertices only depends on the geometric predicates at those triangles.", "quantifier": "every pair of polygons and every unique vertex assignment", "why_tests_cant": "all polygon sizes", "anchors": ["src/geode/inspector/inspection/criterion/intersections/model_intersections.cpp: polygons_intersect, triangles_intersection_detection, triangles_common_vertices"]}
{"id": "C30", "title": "Total issue counts are the sum of the categories", "statement": "For every inspection result (point set, curve, surface, solid, section and BRep, at every nesting level) whose total number of issues is below 2^32: nb_issues()==0 iff every category counted is empty. Two categories are not counted: surface_polygons_with_wrong_component_facets_around of the BRep surface topology result and unique_vertices_linked_to_several_lines_but_not_linked_to_a_corner of the Section line topology result.", "quantifier": "every result value", "why_tests_cant": "all result values; the two omissions need a result with only that category non-empty", "anchors": ["src/geode/inspector/inspection/topology/brep_surfaces_topology.cpp: nb_issues", "src/geode/inspector/inspection/topology/section_lines_topology.cpp: nb_issues", "src/geode/inspector/inspection/solid_inspector.cpp", "src/geode/inspector/inspection/surface_inspector.cpp", "src/geode/inspector/inspection/criterion/brep_meshes_inspector.cpp", "src/geode/inspector/inspection/criterion/section_meshes_inspector.cpp"]}
{"id": "C31", "title": "Object validity is the absence of any issue, category by category", "statement": "is_X_valid(...) returns a validity whose list of invalidities has exactly one entry per non-empty category (in a fixed order) and converts to true iff all categories are empty. For point sets, curves, surfaces and solids this is equivalent to nb_issues()==0 of the inspector (below 2^32 issues). For BRep and Section it is not: a model can have nb_issues()==0 and be invalid.", "quantifier": "every inspected object / result", "why_tests_cant": "all results", "anchors": ["src/geode/inspector/validity/pointset_validity.cpp", "src/geode/inspector/validity/edgedcurve_validity.cpp", "src/geode/inspector/validity/surface_validity.cpp", "src/geode/inspector/validity/solid_validity.cpp", "src/geode/inspector/validity/brep_validity.cpp", "src/geode/inspector/validity/section_validity.cpp", "src/geode/inspector/validity/object_validity.cpp"]}
{"id": "C32", "title": "Topology reports print every counted category and say 'no issues' otherwise", "statement": "string() of each topology result concatenates the report of exactly its non-empty categories and otherwise returns 'no issues with ... topology'; the category surface_polygons_with_wrong_component_facets_around is never printed although it can be non-empty.", "quantifier": "every result value", "why_tests_cant": "all result values", "anchors": ["src/geode/inspector/inspection/topology/brep_topology.cpp: string", "src/geode/inspector/inspection/topology/brep_corners_topology.cpp: string", "src/geode/inspector/inspection/topology/brep_lines_topology.cpp: string", "src/geode/inspector/inspection/topology/brep_surfaces_topology.cpp: string", "src/geode/inspector/inspection/topology/brep_blocks_topology.cpp: string", "src/geode/inspector/inspection/topology/section_topology.cpp: string", "src/geode/inspector/inspection/topology/section_corners_topology.cpp: string", "src/geode/inspector/inspection/topology/section_lines_topology.cpp: string", "src/geode/inspector/inspection/topology/section_surfaces_topology.cpp: string"]}
{"id": "C33", "title": "Parallel inspection gives the sequential result under every schedule", "statement": "Every inspector built on parallel_invoke (unique vertices, BRep adjacency, edged curve, surface, solid, meshes of BRep and Section, topology of BRep and Section, inspect_brep and inspect_section) gives, for every interleaving of its tasks and of the tasks they start themselves, the result of running them one after the other, because tasks write disjoint parts of the result; every run ends; when tasks raise, all of them still end and the exception of the first one in the order of the call comes out.", "quantifier": "every interleaving of any number of tasks, each made of any number of steps, on every model", "why_tests_cant": "schedules cannot be enumerated", "anchors": ["src/geode/inspector/inspection/criterion/brep_meshes_inspector.cpp", "src/geode/inspector/inspection/criterion/section_meshes_inspector.cpp", "src/geode/inspector/inspection/criterion/adjacency/brep_meshes_adjacency.cpp", "src/geode/inspector/inspection/criterion/colocation/unique_vertices_colocation.cpp", "src/geode/inspector/inspection/surface_inspector.cpp", "src/geode/inspector/inspection/solid_inspector.cpp", "src/geode/inspector/inspection/brep_inspector.cpp", "src/geode/inspector/inspection/section_inspector.cpp", "src/geode/inspector/inspection/topology/brep_topology.cpp", "src/geode/inspector/inspection/topology/section_topology.cpp"]}
{"id": "C34", "title": "A failing topology category disappears silently from the report", "statement": "inspect_brep_topology / inspect_section_topology never let an OpenGeode exception escape; a category that raised is left empty while all the other categories are complete, and when the first category to raise raised an OpenGeode exception, any exception of a later category is lost with it. Hence nb_issues()==0, and even validity of the BRep, do not imply that every category was inspected.", "quantifier": "every model with distinct ids and every pattern of raising categories", "why_tests_cant": "all failure patterns", "anchors": ["src/geode/inspector/inspection/topology/brep_topology.cpp: inspect_brep_topology", "src/geode/inspector/inspection/topology/section_topology.cpp: inspect_section_topology"]}
{"id": "C35", "title": "Unique vertices are reported iff not bijectively linked to existing component vertices", "statement": "brep_/section_unique_vertices_are_bijectively_linked_to_an_existing_component_vertex() is true iff for every unique vertex: it has at least one component mesh vertex, each of them exists in the model (component of that type exists and vertex in range), and each active one is linked back to it; and this is equivalent to the three corresponding issue lists of the inspection being empty; each list contains exactly the offending unique vertices.", "quantifier": "every model, including links to components that do not exist", "why_tests_cant": "all models", "anchors": ["src/geode/inspector/inspection/topology/brep_topology.cpp", "src/geode/inspector/inspection/topology/section_topology.cpp"]}
{"id": "C36", "title": "Corner topology of a BRep vertex", "statement": "For every unique vertex whose linked corners exist, each of the four corner issue lists contains it iff the corresponding condition holds (several active corners; an active corner embedded several times with an active block among the embeddings; an active corner neither internal nor boundary; an active corner of a line it does not bound the right number of times).", "quantifier": "every BRep", "why_tests_cant": "all models", "anchors": ["src/geode/inspector/inspection/topology/brep_corners_topology.cpp"]}
{"id": "C37", "title": "A valid closed line is reported as a corner issue", "statement": "For a closed line (its corner linked twice to the line in the boundary corner's unique vertex) the check 'corner is part of a line but not boundary' counts the corner's own occurrences instead of the line's: a consistent closed line can be reported.", "quantifier": "every BRep; existence of a consistent model that is reported", "why_tests_cant": "needs a model with a closed line", "anchors": ["src/geode/inspector/inspection/topology/brep_corners_topology.cpp: corner_is_part_of_line_but_not_boundary"]}
{"id": "C38", "title": "Section corner/line/surface topology: vertex validity and issue lists agree", "statement": "For a Section whose linked components exist, every per-vertex issue list contains a unique vertex iff its stated condition holds; if no list contains the vertex, the lines and surfaces predicates hold, and the corner predicate can only fail because an embedded corner has several incidences (a condition no list reports). Conversely the corner and lines predicates imply absence from their lists; the surfaces predicate does so only for vertices of active surfaces (a vertex of two inactive surfaces can be listed while the predicate holds). The whole-Section answer is the conjunction of these, of bijective links and of every meshed component being entirely linked.", "quantifier": "every Section and unique vertex", "why_tests_cant": "all models", "anchors": ["src/geode/inspector/inspection/topology/section_corners_topology.cpp", "src/geode/inspector/inspection/topology/section_lines_topology.cpp", "src/geode/inspector/inspection/topology/section_surfaces_topology.cpp"]}
{"id": "C39", "title": "BRep topology validity is neither implied by nor implies an empty report", "statement": "brep_topology_is_valid() checks only part of what inspect_brep_topology() reports (e.g. not the line-edge, facet and most block checks, nor unmeshed components) and one condition more (embedded corners with several incidences; no unique vertices at all).", "quantifier": "every BRep; existence of witnesses in both directions", "why_tests_cant": "witness models", "anchors": ["src/geode/inspector/inspection/topology/brep_topology.cpp: brep_topology_is_valid, inspect_brep_topology"]}
{"id": "C40", "title": "Linked boundary parts are the connected components of the boundary surfaces", "statement": "The grouping of boundary surfaces used for closedness checks terminates for every non-empty list of surfaces, returns exactly the surfaces connected to the first one through shared boundary lines, and leaves exactly the others; repeated, it partitions the block boundary into connected components.", "quantifier": "every list of surfaces (with repetitions) and every incidence relation", "why_tests_cant": "termination and graph reachability over all inputs", "anchors": ["src/geode/inspector/inspection/topology/brep_blocks_topology.cpp: closed_linked_surfaces, find_linked_processed_surface, block_boundaries_are_closed"]}
{"id": "C41", "title": "Model boundaries without any surface are undefined behaviour", "statement": "If a BRep has an active block and at least one model boundary but no surface in any model boundary, the inspection of its block topology pops an empty queue (undefined behaviour); otherwise the model boundary issue is reported iff the model boundary surfaces are not all connected through shared lines (closedness itself is not checked).", "quantifier": "every BRep", "why_tests_cant": "needs all incidence relations", "anchors": ["src/geode/inspector/inspection/topology/brep_blocks_topology.cpp: brep_boundaries_are_closed, queue_with_model_boundaries"]}
{"id": "C42", "title": "Surfaces that cannot bound a block are found exactly", "statement": "The iterative pruning terminates, and a surface is kept as a possible block boundary iff it belongs to a set of surfaces in which every boundary line of every member is incident to another member of the set.", "quantifier": "every BRep (any number of lines and surfaces)", "why_tests_cant": "a greatest fixpoint over all incidence relations", "anchors": ["src/geode/inspector/inspection/topology/brep_blocks_topology.cpp: create_graph, find_not_boundary_surfaces"]}
{"id": "C43", "title": "The 'should not be embedded' block error is unreachable", "statement": "vertex_is_part_of_surface_with_wrong_relationships_to_block never returns its second message during an inspection, because dangling surfaces are always among the non-boundary ones; the other two messages are returned exactly under their stated conditions.", "quantifier": "every BRep", "why_tests_cant": "absence over all inputs", "anchors": ["src/geode/inspector/inspection/topology/brep_blocks_topology.cpp: find_dangling_surfaces, vertex_is_part_of_surface_with_wrong_relationships_to_block"]}
{"id": "C44", "title": "Only active components are reported by mesh inspections", "statement": "In the model mesh inspections (colocation, degeneration, adjacency, manifold, negative elements) every component id appearing in a result map is the id of an active component of the right type with at least one issue, and every active component with a mesh-level issue appears.", "quantifier": "every model and activity pattern", "why_tests_cant": "all models", "anchors": ["src/geode/inspector/inspection/criterion/internal/component_meshes_manifold.cpp", "src/geode/inspector/inspection/criterion/internal/component_meshes_degeneration.cpp", "src/geode/inspector/inspection/criterion/negative_elements/brep_meshes_negative_elements.cpp", "src/geode/inspector/inspection/criterion/colocation/component_meshes_colocation.cpp"]}
{"id": "C45", "title": "Every unlinked mesh vertex of a component is reported, and only those", "statement": "A component is in the *_not_linked_to_a_unique_vertex map iff one of its mesh vertices has no unique vertex, with exactly those vertices listed in order; the yes/no helper is its negation.", "quantifier": "every model and component mesh", "why_tests_cant": "all models", "anchors": ["src/geode/inspector/inspection/topology/internal/topology_helpers.cpp"]}
{"id": "C46", "title": "Expected number of block vertices: the computed prediction is the stated formula while no subtraction wraps", "statement": "unique_vertex_block_cmvs_count_is_incorrect reports iff the number of block vertices at the unique vertex differs from the predicted number; the prediction uses 32-bit unsigned arithmetic whose intermediate wrap-arounds cancel, so it equals the integer formula modulo 2^32, and exactly the integer formula whenever that lies in [0,2^32); next to an odd number of lines along several sides of the block, that many more vertices are accepted too (the prediction is then the actual number).", "quantifier": "every configuration of counts at a vertex", "why_tests_cant": "arithmetic over all counts", "anchors": ["src/geode/inspector/inspection/topology/internal/expected_nb_cmvs.cpp"]}
{"id": "C47", "title": "Section polygons sharing two vertices are tested with the right points only when the shared vertices have the same numbers", "statement": "Testing two triangles of two Section surfaces that share exactly two vertices reads the second shared point in the first mesh with its vertex number in the second mesh: out of range it is undefined behaviour, otherwise another point may be used, so that two conformal triangles on both sides of an edge can be reported; when shared vertices have the same number in both meshes (in particular inside one surface) the test is the intended one.", "quantifier": "every pair of triangles, meshes and unique vertex assignment", "why_tests_cant": "depends on the vertex numbering of both meshes", "anchors": ["src/geode/inspector/inspection/criterion/intersections/model_intersections.cpp: triangles_intersect (2D)"]}
{"id": "C48", "title": "Line/surface intersections of a BRep: exactly the embedded lines that cross, and silenced by any empty mesh", "statement": "A BRep intersection report is the surface/surface report followed by exactly the candidate (polygon, edge) pairs of an active surface and an active line embedded in at least one block whose edge meets a fan triangle in its interior or on its edges; if an active surface has no polygon or an active line no edge, no pair is reported; the yes/no query ignores lines.", "quantifier": "every BRep, candidate sets and visiting orders", "why_tests_cant": "all models and traversals", "anchors": ["src/geode/inspector/inspection/criterion/intersections/model_intersections.cpp: intersecting_lines_surfaces, add_intersecting_lines_surfaces_elements"]}
{"id": "C49", "title": "The Section check of embedded lines depends on the order of the links", "statement": "section lines: an active line without embedding linked before a badly embedded one hides it, so two Sections that differ only by the order of the links of a unique vertex can get different reports; when every active line at the vertex has an embedding the answer is order independent and exact.", "quantifier": "every Section and unique vertex; existence of a pair of Sections that differ by the order only", "why_tests_cant": "all orders of all link lists", "anchors": ["src/geode/inspector/inspection/topology/section_lines_topology.cpp: vertex_is_part_of_invalid_embedded_line (return std::nullopt inside the loop)"]}
{"id": "C50", "title": "BRep line inspection lists exactly the wrong vertices and edges", "statement": "inspect_brep_topology lists in its line results exactly: the unique vertices where an active line has an embedding it bounds or that is not linked there, those whose incident/embedding surfaces do not have the right number of edges along edge 0 of an active line, those with a single unrelated line, those with several active lines and no corner, and the edges of entirely linked active lines whose surrounding surface or block edges contradict the relationships; the vertex predicate is absence from the four vertex lists.", "quantifier": "every BRep without the two failing situations of C52 and C53, every answer of the edge searches", "why_tests_cant": "all models, relationships and link lists", "anchors": ["src/geode/inspector/inspection/topology/brep_lines_topology.cpp"]}
{"id": "C51", "title": "BRep surface inspection lists exactly the wrong vertices and polygons", "statement": "inspect_brep_topology lists in its surface results exactly: the unique vertices with an active surface both internal to and bounding an active block or whose embedding block is not linked there, those with several active surfaces and an inconsistent line or corner, those with a surface vertex off its border although a related line passes there, and the polygons of entirely linked active surfaces whose surrounding facets contradict the relationships; the vertex predicate is absence from the three vertex lists at vertices of an active surface.", "quantifier": "every BRep and every answer of the facet searches", "why_tests_cant": "all models, relationships and link lists", "anchors": ["src/geode/inspector/inspection/topology/brep_surfaces_topology.cpp"]}
{"id": "C52", "title": "A line embedded in a block it is not linked to makes the line inspection raise", "statement": "When an active line is internal to a block (all blocks being meshed) and one of its unique vertices is not linked to that block, the line topology inspection does not report the vertex: building the message looks the block up among the surfaces and raises, so the whole line inspection is lost.", "quantifier": "every BRep with such a line, whatever else it contains", "why_tests_cant": "an error path over all models", "anchors": ["src/geode/inspector/inspection/topology/brep_lines_topology.cpp: vertex_is_part_of_invalid_embedded_line (model.surface( embedding.id() ).name())"]}
{"id": "C53", "title": "The guard on the first edge of a line tests the vertices too late", "statement": "The line relationship check reads the unique vertices of edge 0 of an active line without testing that they are set: when one is not, the inspection has undefined behaviour instead of listing the vertex as not linked.", "quantifier": "every BRep having an active line met at a linked vertex with an unlinked vertex on its first edge", "why_tests_cant": "depends on which mesh vertices are linked", "anchors": ["src/geode/inspector/inspection/topology/brep_lines_topology.cpp: vertex_is_part_of_line_with_wrong_relationships_to_surfaces"]}
{"id": "C54", "title": "Closedness of a block boundary is a bounding-box test between connected parts", "statement": "A block boundary is counted closed iff its surfaces form fewer than two parts connected through shared boundary lines, or the first part whose bounding box encloses the others glued into one surface, contains all their points; in particular a boundary in one connected piece is never reported, even if it is open (a block whose boundary has a hole passes).", "quantifier": "every BRep, block and geometry", "why_tests_cant": "all models; the negative half needs an open connected boundary", "anchors": ["src/geode/inspector/inspection/topology/brep_blocks_topology.cpp: block_boundaries_are_closed, enclosing_surface_list"]}
{"id": "C55", "title": "The check of blocks with multiple surfaces or lines on their boundary can never report", "statement": "The per-vertex check of block links against the number of surfaces and lines never returns a message, for any BRep and any unique vertex: its condition can never be met, so its list is always empty whatever the model.", "quantifier": "every BRep and unique vertex", "why_tests_cant": "the absence of a report over all inputs", "anchors": ["src/geode/inspector/inspection/topology/brep_blocks_topology.cpp"]}
{"id": "C56", "title": "Block inspection lists exactly the wrong blocks and vertices", "statement": "inspect_brep_topology lists in its block results exactly: the active blocks without mesh (only when another active block is meshed), the mesh vertices of meshed blocks that have no unique vertex, the blocks whose boundary is not closed, and at each unique vertex the conditions of C42, C43 and C46; without any active block nothing is listed; the vertex predicate is stated exactly as well.", "quantifier": "every BRep satisfying the stated conditions on lookups, every oracle answer", "why_tests_cant": "all models, relationships and link lists", "anchors": ["src/geode/inspector/inspection/topology/brep_blocks_topology.cpp: inspect_blocks"]}
{"id": "C57", "title": "Mesh reports of models print every non-empty category and say there is no issue otherwise", "statement": "string() of each mesh result of a BRep or Section (adjacency, colocation, degeneration, manifold, negative elements) is the concatenation of the reports of exactly its non-empty categories and, when all are empty, the sentence saying there is no such issue in the model meshes.", "quantifier": "every result value with fewer than 2^32 entries", "why_tests_cant": "all combinations of empty and non-empty categories with arbitrary contents", "anchors": ["src/geode/inspector/inspection/criterion/adjacency/brep_meshes_adjacency.cpp: string", "src/geode/inspector/inspection/criterion/degeneration/brep_meshes_degeneration.cpp: string", "src/geode/inspector/inspection/criterion/manifold/brep_meshes_manifold.cpp: string"]}
{"id": "C58", "title": "A single mesh is found valid exactly when it satisfies every mesh condition", "statement": "is_pointset_valid, is_edged_curve_valid, is_surface_valid and is_solid_valid answer without failing, and the answer is valid iff the mesh is sound: no two points colocated, no degenerated edge, and for a surface or solid also no degenerated element, reciprocal adjacencies, manifold vertices, edges (and facets), no negative polyhedron and no intersecting elements.", "quantifier": "every mesh of each type whose geometric queries terminate and whose number of possible issues fits index_t", "why_tests_cant": "all meshes; the converse (valid implies sound) is about every defect at once", "anchors": ["src/geode/inspector/validity/pointset_validity.cpp", "src/geode/inspector/validity/edgedcurve_validity.cpp", "src/geode/inspector/validity/surface_validity.cpp", "src/geode/inspector/validity/solid_validity.cpp"]}
{"id": "C59", "title": "A Section is found valid exactly when its meshes and its topology are sound", "statement": "is_section_valid answers without failing, and the answer is valid iff the Section is sound: unique vertices apart and consistent with the component meshes, no degenerated edge or polygon, reciprocal adjacencies and borders on lines, manifold surfaces, no negative polygon, no two surfaces that meet outside of what they share, every active component meshed and linked, and every unique vertex satisfying the corner, line and surface conditions. (valid implies sound needs fewer than 2^32 issues: the counters are index_t.)", "quantifier": "every Section whose relations name existing components and whose OpenGeode queries meet their contracts, every spatial tree, every traversal order", "why_tests_cant": "all Sections; the converse is about every defect at once", "anchors": ["src/geode/inspector/validity/section_validity.cpp", "src/geode/inspector/inspection/section_inspector.cpp"]}
{"id": "C60", "title": "A BRep is found valid exactly when its meshes and its topology are sound", "statement": "is_brep_valid answers without failing, and the answer is valid iff the BRep is sound: the conditions of a Section on corners, lines and surfaces in their BRep form, and also sound block meshes (adjacencies, degenerations, manifold vertices, edges and facets, orientation), no edge interior to two places, no lonely line or surface, no surface or embedded line that meets a surface, and every block boundary without free line and closed.", "quantifier": "every BRep whose relations name existing components and whose OpenGeode queries meet their contracts, every spatial tree, every traversal order", "why_tests_cant": "all BReps; the converse is about every defect at once", "anchors": ["src/geode/inspector/validity/brep_validity.cpp", "src/geode/inspector/inspection/brep_inspector.cpp"]}
{"id": "C61", "title": "The report of a mesh has one message per issue, naming the element and its position", "statement": "In every result of inspecting a point set, edged curve, surface or solid mesh, each category carries its own fixed description and exactly one message per issue in the same order, and that message names the very element (and the position of that element, the kind of failure, border or not) of the issue beside it: no message is attributed to another issue or another category.", "quantifier": "every mesh, every storage state, hash order and answer of the geometric queries for which the inspection returns a result", "why_tests_cant": "all meshes and any number of issues; a test only sees a few printed lines", "anchors": ["src/geode/inspector/inspection/criterion/adjacency/surface_adjacency.cpp", "src/geode/inspector/inspection/criterion/adjacency/solid_adjacency.cpp", "src/geode/inspector/inspection/surface_inspector.cpp", "src/geode/inspector/inspection/solid_inspector.cpp"]}
{"id": "C62", "title": "The report of the meshes of a model names the component each issue belongs to", "statement": "In every result of inspecting the meshes of a Section or a BRep, each list of a map is filed under the identifier of an active component of the kind stated in its description, the description gives that component's name (its identifier if unnamed) and identifier, and each message names the element of its issue; model edges, facets and intersections name the components of the issue, and all names are those of components of the model.", "quantifier": "every Section or BRep with distinct component identifiers and resolvable unique vertices, every storage state, spatial tree and traversal order", "why_tests_cant": "all models, names and numbers of components", "anchors": ["src/geode/inspector/inspection/section_inspector.cpp", "src/geode/inspector/inspection/brep_inspector.cpp"]}
{"id": "C63", "title": "The topology report names the vertex or element of each issue and the components at fault", "statement": "In every topology report of a Section or a BRep each category carries its own description and exactly one message per issue; the message names the unique vertex (or the component and its edge or facet) of the issue beside it, and every Corner, Line, Surface and Block it names is a component of the model of that kind, at that vertex, really in the faulty relation the sentence describes; numbers of links, edges and facets printed are the real ones. The one exception: the number of block links announced as expected can be a negative prediction printed as an unsigned number.", "quantifier": "every Section with distinct component identifiers, every BRep whose relations name existing components, every answer of the model queries for which the inspection returns a report (parts that fail are reported empty)", "why_tests_cant": "all models; each sentence is one of dozens of cases and must be true in every model it is printed for", "anchors": ["src/geode/inspector/inspection/topology/brep_corners_topology.cpp", "src/geode/inspector/inspection/topology/brep_lines_topology.cpp", "src/geode/inspector/inspection/topology/brep_surfaces_topology.cpp", "src/geode/inspector/inspection/topology/brep_blocks_topology.cpp", "src/geode/inspector/inspection/topology/section_corners_topology.cpp", "src/geode/inspector/inspection/topology/section_lines_topology.cpp", "src/geode/inspector/inspection/topology/section_surfaces_topology.cpp", "src/geode/inspector/inspection/topology/brep_topology.cpp", "src/geode/inspector/inspection/topology/section_topology.cpp"]}
{"id": "C64", "title": "Command line programs: status and printed report", "statement": "Each of the eleven command line programs reads its input file (or a documented default path) with the first input factory, in a fixed order, that knows the extension of the file, inspects the object and prints one report: it exits with status 0 exactly when it printed that report, and otherwise prints nothing and exits with the status given to the exception (unknown extension, file that cannot be loaded). The printed text is the fixed 'no issues' text of the program when the object is sound, and otherwise contains the number and description of issues, which makes it different from the clean text; so the status tells nothing about the issues. For a BRep this fails in one case: wrong facets of blocks around surface polygons are never printed, and a BRep whose only defect is that gets the clean text.", "quantifier": "every file system content, extension, flag value, loaded object whose geometric queries respect their contracts, and every schedule of the search for intersections", "why_tests_cant": "a test runs the programs on a few files; the claim is about every file, every loaded object and every error", "anchors": ["src/bin/geode-inspector-pointset.cpp:main", "src/bin/geode-inspector-edgedcurve.cpp:main", "src/bin/geode-inspector-surface.cpp:main", "src/bin/geode-inspector-solid.cpp:main", "src/bin/geode-inspector-surface-curve-intersections.cpp:main", "src/bin/geode-inspector-section.cpp:main", "src/bin/geode-inspector-brep.cpp:main"]}
{"id": "C65", "title": "The enclosing part of a block boundary is glued faithfully", "statement": "When a block boundary falls in several parts, the surface in which the points of the other parts are located is the surfaces of the enclosing part glued together: one polygon per polygon of these surfaces, in order and with as many vertices, two polygon vertices being identified exactly when they have the same unique vertex, no unused vertex; if all polygon vertices are linked, and linked together only at equal points, every polygon keeps its points. Polygon vertices without unique vertex are all identified with one another, wherever they are, so that the geometry is lost for an unlinked boundary.", "quantifier": "every BRep whose relations name existing components and whose polygons name existing vertices, every list of surfaces of it", "why_tests_cant": "the identification is between all pairs of polygon vertices of all surfaces, for all link tables; the surface is never visible in the result, only the verdict on closedness", "anchors": ["src/geode/inspector/inspection/topology/brep_blocks_topology.cpp: fuse_brep_surfaces_from_list, block_boundaries_are_closed"]}
{"id": "C66", "title": "Inspections are reproducible: hash order and traversal order only permute reports", "statement": "Run twice on the same object, with any two visiting orders of the hash maps and any two traversals of the box trees, an inspection ends the same way and says the same things: the lists filled from a hash map or from a tree traversal differ only by a permutation of their (issue, message) pairs, all the others are equal; the number of issues is the same, the printed reports and the entries of the validity have the same lines, the verdict of validity is the same, and the yes/no queries answer the same. For the intersections of the surfaces of a model this is subject to one run not failing: then no run fails.", "quantifier": "every surface, solid, Section and BRep, every two hash orders, every two traversals of the same candidate pairs, every oracle of the geometry", "why_tests_cant": "a test sees one hash seed, one standard library and one thread schedule per run; the claim compares all pairs of runs", "anchors": ["src/geode/inspector/inspection/surface_inspector.cpp", "src/geode/inspector/inspection/solid_inspector.cpp", "src/geode/inspector/inspection/section_inspector.cpp", "src/geode/inspector/inspection/brep_inspector.cpp", "src/geode/inspector/inspection/criterion/manifold/surface_edge_manifold.cpp", "src/geode/inspector/inspection/criterion/manifold/solid_facet_manifold.cpp", "src/geode/inspector/inspection/criterion/manifold/brep_meshes_manifold.cpp", "src/geode/inspector/inspection/criterion/intersections/model_intersections.cpp", "src/geode/inspector/inspection/criterion/intersections/surface_intersections.cpp"]}
{"id": "C67", "title": "Inspecting a broken object never reads outside of it", "statement": "Whatever else is wrong with a mesh or a model (adjacencies not reciprocal, wrong orientation, missing or contradictory relations between components, components not meshed, vertices not linked or linked several times, links naming unknown components, inactive components, queries that raise), an inspection, and the validity computed from it, ends with a result or an exception and never accesses an element that does not exist, provided that the indices stored in the object (polygon and polyhedron vertices, edges, adjacent elements, linked vertices) are in range and that the trees propose elements that exist. For a BRep four further conditions are needed, because the code forgets to look: the first edge of every line met at a unique vertex is linked, so are the single edge of a line inside a surface and the single polygon of a surface inside a block, and the model boundaries have a surface; for a Section a vertex shared by two surfaces must have a number that exists in the first of them. The yes/no topology queries need nothing (Section) or lines with edges in range (BRep). In particular the links are read before they are checked: a link to a vertex that its mesh does not have makes the inspection of the whole model undefined when it is the first active one of its unique vertex, so that the list of such links can only be obtained from the topology inspection.", "quantifier": "every mesh, Section and BRep with indices in range, every exception and answer of the geometric queries, every traversal order and storage state", "why_tests_cant": "undefined behaviour may go unnoticed in a test that happens to read valid memory; the claim is about all broken objects, which no test suite enumerates", "anchors": ["src/geode/inspector/inspection/surface_inspector.cpp", "src/geode/inspector/inspection/solid_inspector.cpp", "src/geode/inspector/inspection/section_inspector.cpp", "src/geode/inspector/inspection/brep_inspector.cpp", "src/geode/inspector/inspection/criterion/colocation/unique_vertices_colocation.cpp", "src/geode/inspector/inspection/criterion/manifold/brep_meshes_manifold.cpp", "src/geode/inspector/inspection/criterion/intersections/model_intersections.cpp", "src/geode/inspector/inspection/topology/brep_lines_topology.cpp", "src/geode/inspector/inspection/topology/brep_blocks_topology.cpp"]}
{"id": "C68", "title": "Inactive components do not influence the inspection of meshes, but they do influence borders and topology", "statement": "If two models have the same active components, unique vertices and relationships and differ only by the names and meshes of inactive components, the inspection of the component meshes (colocation, unique vertices, adjacency, degeneration, manifold, negative elements) ends in the same way with the same issues and the same messages, and the searches for intersections have the same possible results, given the same answers of the searches by unique vertices and trees made of active surfaces. The searches by unique vertices themselves see inactive components: the border edges of a surface are reported or not according to the edges of an inactive line. The topology inspection is influenced too: an inactive surface without polygons makes it silent about a line vertex inside an active surface, which is reported when the inactive surface has polygons.", "quantifier": "every two Sections and every two BReps that agree on their active components, every state of the edge storages, every oracle", "why_tests_cant": "a test compares one model with one variant of it; the claim is about all contents an inactive component can have", "anchors": ["src/geode/inspector/inspection/criterion/brep_meshes_inspector.cpp", "src/geode/inspector/inspection/criterion/section_meshes_inspector.cpp", "src/geode/inspector/inspection/criterion/colocation/unique_vertices_colocation.cpp", "src/geode/inspector/inspection/criterion/adjacency/component_meshes_adjacency.cpp", "src/geode/inspector/inspection/criterion/manifold/brep_meshes_manifold.cpp", "src/geode/inspector/inspection/criterion/intersections/model_intersections.cpp", "src/geode/inspector/inspection/topology/internal/topology_helpers.cpp"]}
{"id": "C69", "title": "A vertex or edge is non manifold exactly when the elements around it form several fans", "statement": "Call two polygons at a vertex linked when they are adjacent through an edge that ends at the vertex (two polyhedra: through a facet that contains the vertex, or both ends of the edge). A surface or solid vertex is listed as non manifold exactly when some two of its corners are not linked, directly or through others; an edge of a solid exactly when some two polyhedra that have it are not, or when turning around it fails. The yes/no queries agree. The answers do not depend on the polygon or polyhedron, kept by the mesh from its history, from which it starts turning, nor on the order in which it meets the others.", "quantifier": "every surface and solid whose stored vertices are in range, every choice of starting elements, assuming that turning around meets exactly the elements linked to the starting one (or raises, where the code catches it)", "why_tests_cant": "whether two corners are linked is a statement about all paths through all adjacencies; a test sees one starting element per vertex", "anchors": ["src/geode/inspector/inspection/criterion/manifold/surface_vertex_manifold.cpp", "src/geode/inspector/inspection/criterion/manifold/solid_vertex_manifold.cpp", "src/geode/inspector/inspection/criterion/manifold/solid_edge_manifold.cpp"]}
{"id": "C70", "title": "The order in which a model stores its components only permutes the reports", "statement": "OpenGeode keeps components in hash maps, so the order in which a BRep or a Section lists its corners, lines, surfaces and blocks changes from one process to the next and when the model is saved and loaded. Two models with the same components, unique vertices and relationships, listed in different orders, get the same report: identical yes/no answers, identical lists by unique vertex, the same entries by component in another order, the same pairs of intersecting elements, the same number of issues.", "quantifier": "every model with distinct identifiers and every permutation of each of its component lists; for the blocks of a BRep, models whose relationships name components of the model", "why_tests_cant": "there are factorially many orders, and the order of an absl hash map is random per process: a test runs one of them", "anchors": ["src/geode/inspector/inspection/section_inspector.cpp", "src/geode/inspector/inspection/brep_inspector.cpp", "src/geode/inspector/inspection/topology/brep_blocks_topology.cpp", "src/geode/inspector/inspection/topology/section_topology.cpp", "src/geode/inspector/inspection/criterion/manifold/brep_meshes_manifold.cpp", "src/geode/inspector/inspection/criterion/intersections/model_intersections.cpp"]}
{"id": "C71", "title": "Which of two surfaces comes first does not matter for BRep intersections, but does for Sections", "statement": "Testing polygon p of a surface against polygon q of another gives the same answer as testing q against p in a BRep whose polygons have distinct unique vertices placed consistently (with predicates that see coplanarity symmetrically); reports of the same BRep stored in two orders, with boxes that propose the same pairs, list the same pairs of elements, one or the other first, and the yes/no answers are equal. In a Section this needs shared vertices to have the same numbers in both meshes: there is a conformal Section without any intersection for which one storage order reports two triangles and the other order reports nothing.", "quantifier": "every pair of polygons and surfaces, every BRep or Section and order of its surfaces; existence of the Section", "why_tests_cant": "all geometries, numberings and orders; the order of a hash map cannot be chosen in a test", "anchors": ["src/geode/inspector/inspection/criterion/intersections/model_intersections.cpp: polygons_intersect, triangles_common_vertices, triangles_intersect (2D and 3D)"]}
{"id": "C72", "title": "The inspection of a model judges each component like the inspection of its mesh alone", "statement": "When the inspection of the meshes of a Section or BRep returns, the inspection of the mesh of each active line, surface or block alone returns too, and the entry of the component in the report of the model has the same degenerated edges, polygons and polyhedra, the same non manifold vertices, edges and facets, and the same negative elements, with the same messages in the same order; its colocated points are the groups of the mesh, less those linked to a single unique vertex; its wrong adjacencies are those of the mesh, in the same order, followed only by edges or facets without neighbour. This holds whatever was asked before, whatever the name of the mesh, and whether the mesh stores its edges or not.", "quantifier": "every model with unique identifiers, every active component of it, every history of degeneration queries, every mesh name and edge storage; lists shorter than 2^32", "why_tests_cant": "all models, components and histories; the model loops share edge storages and maps between components", "anchors": ["src/geode/inspector/inspection/brep_inspector.cpp, section_inspector.cpp, surface_inspector.cpp, solid_inspector.cpp, edgedcurve_inspector.cpp", "src/geode/inspector/inspection/criterion/internal/component_meshes_*.cpp", "src/geode/inspector/inspection/criterion/*/brep_meshes_*.cpp, section_meshes_*.cpp"]}
{"id": "C73", "title": "Renumbering a mesh renumbers its report", "statement": "Give other numbers to the vertices, the elements and the stored edges of a mesh, without changing anything else. The inspection of the mesh returns before and after, and the report lists the same issues under their new numbers: the same wrong adjacencies, groups of colocated vertices, degenerated edges, flat elements, negative elements, non manifold vertices, edges and facets, intersecting polygons, and the same number of issues. Only the order of the list, the direction of a reported edge of a solid, the order of two intersecting polygons and the vertex from which a facet is written may change.", "quantifier": "every point set, edged curve, surface and solid, every renumbering of its vertices, elements and stored edges, every name, edge storage and hash order; searches of OpenGeode that do not depend on the numbers", "why_tests_cant": "all meshes and all permutations; results pass through hash maps, sorted pairs and searches that start at the first occurrence of an edge", "anchors": ["src/geode/inspector/inspection/pointset_inspector.cpp, edgedcurve_inspector.cpp, surface_inspector.cpp, solid_inspector.cpp", "src/geode/inspector/inspection/criterion/adjacency/, colocation/, degeneration/, manifold/, negative_elements/"]}
{"id": "C74", "title": "The topology verdict on a unique vertex is local", "statement": "Whether the topology inspection of a Section or BRep reports a unique vertex, in each of its lists by unique vertex (corners, lines, surfaces, blocks, links), and with which message, depends only on the components of the model (identifiers, names, activity, whether surfaces and blocks are meshed), their relationships, and on the mesh vertices linked to this very unique vertex (their points, whether they are on the border of their surface, whether they are linked back to it) - not on the other unique vertices, nor on its number, which only appears in the messages. One thing in a BRep escapes this: the check of the relationships of a line looks at the first edge of the line, also from vertices away from this edge.", "quantifier": "every two Sections or BReps with the same components and relationships, every unique vertex of the first and of the second with the same links; every other content of the meshes and every other unique vertex", "why_tests_cant": "a test shows one model before and after one repair; that a repair elsewhere neither hides nor creates an issue at this vertex is about all pairs of models", "anchors": ["src/geode/inspector/inspection/topology/section_topology.cpp: inspect_section_topology, section_topology_is_valid", "src/geode/inspector/inspection/topology/brep_topology.cpp: inspect_brep_topology", "src/geode/inspector/inspection/topology/brep_lines_topology.cpp: vertex_is_part_of_line_with_wrong_relationships_to_surface", "src/geode/inspector/inspection/topology/brep_blocks_topology.cpp: inspect_blocks, nb_expected_block_cmvs"]}
{"id": "C75", "title": "Renumbering the unique vertices of a model renumbers its report", "statement": "If the unique vertices of a Section or BRep get other numbers - the links of each unique vertex and the unique vertex of each mesh vertex staying what they are under the new numbers - then the report of the inspection is the same under the new numbers: the lists about mesh elements, components, pairs of intersecting elements are equal to the old ones, texts included; the lists about unique vertices hold the same vertices (groups of vertices, edges and facets of the model) under their new numbers, in an order that may change; the inspection succeeds as before, counts as many issues, and the validity check makes as many complaints (in particular the model is valid under the new numbers if and only if it was).", "quantifier": "every Section and BRep within the assumptions of the topology inspection, every renumbering of its unique vertices, every colocation search that depends on points only, every OpenGeode search by unique vertices that finds the same elements under the new numbers", "why_tests_cant": "a test fixes the numbers a model was saved with; that no verdict depends on this arbitrary choice is about all models and all permutations of their vertices", "anchors": ["src/geode/inspector/inspection/brep_inspector.cpp: inspect", "src/geode/inspector/inspection/section_inspector.cpp: inspect", "src/geode/inspector/inspection/criterion/colocation/unique_vertices_colocation.cpp: inspect_unique_vertices", "src/geode/inspector/inspection/criterion/manifold/brep_meshes_manifold.cpp: inspect_brep_manifold", "src/geode/inspector/inspection/topology/section_topology.cpp: inspect_section_topology", "src/geode/inspector/inspection/topology/brep_topology.cpp: inspect_brep_topology"]}
{"id": "C76", "title": "Renaming the components of a model renames its report", "statement": "If the components of a Section or BRep get other identifiers (uuids) - their names, meshes, activity, links and relationships staying what they are under the new identifiers - then the report of the inspection is the same under the new identifiers: the lists of components hold the same components under their new identifiers, in the same order; the lists about mesh elements hold the same issues for each component under its new identifier; the intersecting elements are the same pairs of the renamed components; the lists about unique vertices are equal; the topology is valid under the new identifiers if and only if it was; the inspection succeeds as before, counts as many issues, and the validity check makes as many complaints.", "quantifier": "every Section and BRep within the assumptions of the topology inspection, every one-to-one change of identifiers, every run of the search for intersections, every OpenGeode search that finds the same elements of the renamed components in any order of its hash maps", "why_tests_cant": "identifiers are drawn at random for each model a program builds: a test only meets the ones it drew or loaded, and a verdict that depends on their values or on their order would appear now and then only", "anchors": ["src/geode/inspector/inspection/brep_inspector.cpp: inspect", "src/geode/inspector/inspection/section_inspector.cpp: inspect", "src/geode/inspector/inspection/criterion/intersections/model_intersections.cpp: inspect_intersections", "src/geode/inspector/inspection/criterion/manifold/brep_meshes_manifold.cpp: inspect_brep_manifold", "src/geode/inspector/inspection/criterion/adjacency/brep_meshes_adjacency.cpp: inspect_brep_meshes_adjacencies", "src/geode/inspector/inspection/topology/section_topology.cpp: inspect_section_topology", "src/geode/inspector/inspection/topology/brep_topology.cpp: inspect_brep_topology", "src/geode/inspector/inspection/topology/brep_blocks_topology.cpp: inspect_brep_blocks"]}
{"id": "C77", "title": "With exact geometric predicates, the reported intersections of BRep surfaces are the real ones", "statement": "Take a BRep whose surfaces are cut into triangles with an area and finite coordinates, whose shared vertices are at one place, and a segment-triangle predicate that is exact (it overlooks and invents no contact, reports 'vertex on vertex' only when that is the whole contact, and 'parallel' exactly when they touch along a segment). Then two triangles are found to intersect exactly when they have the same three vertices or have a point of space in common beyond their common vertex or side, with one exception: a triangle that shares a side with the first one and has its third corner strictly inside it is overlooked. The report lists exactly the proposed pairs of polygons with such triangles; and if it is empty and the bounding boxes miss no pair that touches, then any two triangles of different polygons meet only in their common vertices, or are nested on a common side. Whether a nested pair is reported depends on which surface comes first. If 'parallel' means instead lying in the plane of the triangle, all flat neighbours across a side are reported.", "quantifier": "every pair of triangles with finite coordinates, every pair of polygons, every BRep, every predicate that keeps the stated promises (one is exhibited), every schedule of the search", "why_tests_cant": "real intersections are a statement about all points of space: a test compares the answer for a few drawn triangles with what the author knows of them, and nested or coplanar triangles with common vertices in every order and orientation are rarely among them", "anchors": ["src/geode/inspector/inspection/criterion/intersections/model_intersections.cpp: inspect_intersections, model_has_intersecting_surfaces, triangles_intersection_detection, triangles_intersect, triangle_intersects_other"]}
{"id": "C78", "title": "With exact geometric predicates, the reported intersections of Section surfaces are the real ones, except containment", "statement": "Take a Section whose surfaces are cut into triangles with an area and finite coordinates, whose shared vertices are at one place, and predicates on two segments and on a point and a triangle that are exact (they overlook and invent no contact, report 'vertex on vertex' only when that is the whole contact, and 'parallel' only for segments on one line). Then two triangles are found to intersect exactly when they have the same three vertices or have a point of the plane in common beyond their common vertex or side, with one exception: when they have at most one vertex in common and one of them lies inside the other (all its corners strictly inside, but for the common vertex), nothing is found, whichever comes first. Pairs of different surfaces that share a side also need their shared vertices to have the same number in both surfaces (C47); one surface with itself does not. The report lists exactly the proposed pairs of polygons with such triangles, and a Section without reported intersection has only overlaps of the exceptional kind.", "quantifier": "every pair of triangles of the plane with finite coordinates, every pair of polygons, every Section, every predicate that keeps the stated promises (one is exhibited), every schedule of the search", "why_tests_cant": "real intersections are a statement about all points of the plane: a test compares the answer for a few drawn triangles with what the author knows of them, and whether testing pairs of sides while skipping parallel ones suffices depends on every way two triangles can overlap", "anchors": ["src/geode/inspector/inspection/criterion/intersections/model_intersections.cpp: inspect_intersections, inspect_surfaces_self_intersections, model_has_intersecting_surfaces, triangles_intersection_detection, triangles_intersect"]}
{"id": "C79", "title": "With predicates that locate contacts, the reported line/surface intersections of a BRep are the real ones, except lines drawn on surfaces", "statement": "Take a BRep whose surfaces are cut into triangles with an area, whose lines have edges of positive length, all with finite coordinates, and a predicate on a segment and a triangle that says 'outside' when they do not touch, 'parallel' when they overlap (or, in the other reading, touch while in one plane) and otherwise where the contact is on both. Then an edge and a polygon are found to intersect exactly when the edge touches some triangle of the polygon elsewhere than with one of its ends at a corner of the triangle and is not 'parallel' to it. The report lists exactly the proposed such pairs of lines embedded in a block. Hence an embedded line without reported issue touches surfaces only with its vertices at corners of their triangles or along them, and conversely; in particular a line drawn strictly inside a surface is not reported.", "quantifier": "every edge and triangle with finite coordinates, every polygon, every BRep, both readings of 'parallel', every predicate that keeps the stated promises (they are exhibited), every schedule of the search", "why_tests_cant": "the contact of a segment and a triangle is a statement about all points of space: tests try a few edges, and cannot tell that every contact not at a vertex is found nor that lines along surfaces are the only ones that go unseen", "anchors": ["src/geode/inspector/inspection/criterion/intersections/model_intersections.cpp: intersecting_lines_surfaces, add_intersecting_lines_surfaces_elements, inspect_intersections"]}
{"id": "C80", "title": "With predicates that locate contacts, the surface/curve intersections are the real ones, in space and in the plane, except along sides", "statement": "Take a triangulated surface whose triangles have an area and a curve whose edges have a positive length, all with finite coordinates, and predicates that locate contacts. In space an edge and a triangle are listed exactly when they touch, not just with an end of the edge at a corner of the triangle, and the edge does not join two corners. In the plane they are listed exactly when they touch elsewhere than with an end of the edge at a corner and the edge is not contained in a side of the triangle. So part of a side is reported in space and never in the plane. The yes/no query answers no exactly when no edge crosses any triangle in this sense.", "quantifier": "every edge and triangle with finite coordinates in the plane and in space, every triangulated surface and curve, both readings of 'parallel', every predicate that keeps the stated promises (they are exhibited), every traversal", "why_tests_cant": "whether testing the ends of an edge and its crossings with the three sides finds every overlap depends on every position of a segment relative to a triangle; tests draw a few", "anchors": ["src/geode/inspector/inspection/criterion/intersections/surface_curve_intersections.cpp"]}
{"id": "C81", "title": "A BRep found valid is really embedded in space, except for triangles nested with a common side", "statement": "Take a BRep in space whose triangles have an area and whose edges have a positive length, all with finite coordinates, whose shared unique vertices are at one place, and predicates that keep the promises of C77 and of C79 (one predicate keeps all of them). The list of issues holds exactly the pairs of polygons that meet beyond what they share (but for a nested triangle in one order, C77) and the pairs of a polygon and an edge of a line embedded in a block that it really pierces. If the BRep is found valid, then besides all conditions of C60 that are not about intersections: no two triangles of active surfaces have the same three vertices; two of them have nothing in common but their common vertices and sides, unless one has a corner strictly inside the other and they share a side; and an edge of an embedded line touches a triangle only along it or with an end at a corner. Conversely a BRep that satisfies these conditions, with no nested triangles, is found valid.", "quantifier": "every BRep in space with finite coordinates and real elements, every predicate that keeps the stated promises, every set of boxes that misses no contact, every traversal", "why_tests_cant": "a verdict of validity is a statement about all pairs of elements of all models; a test suite checks the verdict on a few models and cannot see what a wrong verdict would have missed", "anchors": ["src/geode/inspector/inspection/criterion/intersections/model_intersections.cpp", "src/geode/inspector/inspection/brep_inspector.cpp", "src/geode/inspector/validity/brep_validity.cpp"]}
{"id": "C82", "title": "A Section found valid is really drawn in the plane, except for triangles inside other ones", "statement": "Take a Section in the plane whose triangles have an area, with finite coordinates, whose shared unique vertices are at one place and have one number in the surfaces that share them, and predicates that keep the promises of C78. Then it is found valid exactly when all conditions of C59 that are not about intersections hold, no two triangles have the same three vertices, and two triangles have nothing in common but their common vertices and sides unless they have at most one common vertex and one is inside the other. The exception is real: a Section with a surface entirely inside another one is found valid.", "quantifier": "every Section in the plane with finite coordinates and real triangles, every predicate that keeps the stated promises, every set of boxes that misses no contact, every traversal", "why_tests_cant": "a verdict of validity is a statement about all pairs of elements of all models; a test suite checks the verdict on a few models and cannot see what a wrong verdict would have missed", "anchors": ["src/geode/inspector/inspection/criterion/intersections/model_intersections.cpp", "src/geode/inspector/inspection/section_inspector.cpp", "src/geode/inspector/validity/section_validity.cpp"]}
{"id": "C83", "title": "The verdict on a model belongs to the object, not to its description", "statement": "Take a Section or a BRep, store its components in any other order, give them any other identifiers, then give its unique vertices any other numbers. Every inspection of the new description succeeds as the inspection of the old one did, whatever its own search for intersections did; its report has the same contents (in the order, with the identifiers and the numbers of the new description), it counts as many issues and the validity check makes as many complaints. So a sound model is found valid under every description of it, and one valid verdict on any description shows that the model is sound.", "quantifier": "every Section and BRep within the assumptions of the topology inspection, every order of its components, one-to-one change of identifiers and numbering of its unique vertices, every run of the searches for intersections of both descriptions", "why_tests_cant": "tests inspect a model as it was built: orders, identifiers and numbers are all changed at once only when a model is rebuilt or reloaded", "anchors": ["src/geode/inspector/inspection/brep_inspector.cpp", "src/geode/inspector/inspection/section_inspector.cpp", "src/geode/inspector/validity/brep_validity.cpp", "src/geode/inspector/validity/section_validity.cpp"]}
{"id": "C84", "title": "What a Python program can read of a report", "statement": "The Python object returned by an inspection gives, under the names of the C++ data members, exactly the lists of issues of the C++ report (same number of issues, same text), except these, which raise AttributeError: negative_polygons of a surface, negative_polyhedra of a solid, meshes.meshes_negative_elements of a Section and of a BRep, meshes.meshes_non_manifolds.brep_non_manifold_facets of a BRep, and topology.unique_vertices_linked_to_inexistant_cmv and topology.unique_vertices_nonbijectively_linked_to_cmv of a Section and of a BRep. So for a point set or a curve the object is valid iff every list Python can read is empty; for the others this also takes the hidden lists to be empty, and there are surfaces, solids, Sections and BReps on which every list Python can read is empty and the validity check complains. The hidden issues can be read only in string(), which always contains them.", "quantifier": "every report of every kind, every attribute path, every object whose report counts fewer than 2^32 issues", "why_tests_cant": "the Python tests read some attributes of the reports of a few objects; which attributes are missing, and what their absence hides, shows on no object those tests load", "anchors": ["bindings/python/src/inspection/information.hpp", "bindings/python/src/inspection/surface_inspector.hpp", "bindings/python/src/inspection/solid_inspector.hpp", "bindings/python/src/inspection/section_inspector.hpp", "bindings/python/src/inspection/brep_inspector.hpp", "bindings/python/src/inspection/topology/section_topology.hpp", "bindings/python/src/inspection/topology/brep_topology.hpp", "bindings/python/src/inspection/criterion/section_meshes_inspector.hpp", "bindings/python/src/inspection/criterion/brep_meshes_inspector.hpp", "bindings/python/src/inspection/criterion/manifold/brep_meshes_manifold.hpp"]}
{"id": "C85", "title": "In Python a verdict must be counted, not tested", "statement": "For every object, the verdict that is_*_valid returns to Python holds the same complaints and the same text as in C++, and its nb_issues() is the number of categories with issues, so it is 0 iff the object has no issue. But the conversion of a verdict to a Boolean is not bound: in Python `if is_brep_valid(brep):` is taken for every model, valid or not, whereas the same test in C++ is taken for the valid ones only.", "quantifier": "every object of every kind whose report counts fewer than 2^32 issues, every verdict", "why_tests_cant": "the Python tests count the issues of the verdicts of a few objects and never test a verdict", "anchors": ["bindings/python/src/validity/object_validity.hpp", "include/geode/inspector/validity/object_validity.hpp", "src/geode/inspector/validity/object_validity.cpp"]}
{"id": "C86", "title": "Where the object is does not matter", "statement": "Replace every point of a mesh or model by its image under a map g (a translation, a rotation...) such that what OpenGeode computes from points - which points are colocated or inexactly equal, distances, signs of areas and volumes, positions found by the intersection predicates, points inside closed surfaces - is the same about the images. Then every inspection ends the same way (report, exception or undefined behaviour): single meshes and the meshes of models get the same issues, in the same order, whatever the texts; the report on the topology lists the same issues component by component; searches for intersections through the same candidates end identically, texts included; if the boxes of the new position propose other candidates, the same pairs are reported as long as both propose the pairs that meet; counts and the number of complaints of the validity functions are the same.", "quantifier": "for every map g, every mesh, Section and BRep (also ill-formed ones for the meshes), every pair of oracles that follow g, every state of the inspectors and every search for intersections", "why_tests_cant": "a test moves a few objects by a few motions; that no criterion reads coordinates other than through the predicates must hold for every object and motion", "anchors": ["src/geode/inspector/inspection/criterion/colocation/component_meshes_colocation.cpp", "src/geode/inspector/inspection/criterion/colocation/unique_vertices_colocation.cpp", "src/geode/inspector/inspection/criterion/degeneration/surface_degeneration.cpp", "src/geode/inspector/inspection/criterion/degeneration/solid_degeneration.cpp", "src/geode/inspector/inspection/criterion/negative_elements/surface_negative_elements.cpp", "src/geode/inspector/inspection/criterion/negative_elements/solid_negative_elements.cpp", "src/geode/inspector/inspection/criterion/intersections/model_intersections.cpp", "src/geode/inspector/inspection/criterion/intersections/surface_curve_intersections.cpp", "src/geode/inspector/inspection/topology/brep_blocks_topology.cpp", "src/geode/inspector/inspection/brep_inspector.cpp", "src/geode/inspector/inspection/section_inspector.cpp"]}
{"id": "C87", "title": "Moving, turning, stretching or shearing a model changes none of its intersections", "statement": "Take a Section, a BRep, or a curve and a triangulated surface, and move all points by one affine one-to-one map of space (an invertible matrix and a translation: rotations, changes of unit or of vertical scale, shears), without rounding. With exact predicates in both positions - which need not be related otherwise - the search for intersections ends normally in both and reports the same pairs of polygons, and of polygons and edges, whatever pairs the boxes propose besides those that touch.", "quantifier": "for every affine one-to-one map, every such model or pair of meshes, every two exact sets of predicates, every two families of candidate pairs that agree on polygons and edges that touch", "why_tests_cant": "a test tries a few maps on a few models; that nothing in the decision depends on lengths, angles, orientation or the position of the axes must hold for all of them", "anchors": ["src/geode/inspector/inspection/criterion/intersections/model_intersections.cpp", "src/geode/inspector/inspection/criterion/intersections/surface_curve_intersections.cpp"]}
{"id": "C88", "title": "The example program tells the verdict on the topology, then fails", "statement": "The example program of the repository, run on any BRep that loads, prints whether the topology is valid (the verdict of C39) and then always stops with AttributeError, before its first count: the inspector class bound to Python has none of the counting and listing methods the program calls. It never ends normally and no number of issues is ever printed. With an inspector that has all these methods it would print the lines of every check in order and end normally, those of the vertices of single invalid lines twice, and would print nothing that depends on the vertices of lines with invalid embeddings, which it never asks for.", "quantifier": "every BRep, every answer of the inspection (also failures), every inspector object", "why_tests_cant": "the example is run by no test, and running it once on one file cannot show that no input passes", "anchors": ["examples/model_inspection.py", "bindings/python/src/inspection/topology/brep_topology.hpp"]}
{"id": "C89", "title": "Inspecting two meshes together or apart", "statement": "When a mesh (point set, curve, surface or solid) is made of two pieces that share no vertex, whatever numbers their vertices and elements have in it, and no point of one piece is found at the place of a point of the other, the report of the inspection is exactly the issues of the first piece and those of the second under the numbers of the whole, check by check, and the number of issues is the sum of both (modulo 2^32): no piece hides an issue of the other or adds one to it. The intersecting polygons of a surface are those of each piece and the pairs of polygons, one in each piece, that are proposed and meet; none is added when no box of one piece meets a box of the other. Any two surfaces of the same dimension can be put in one mesh so.", "quantifier": "every pair of meshes, every way of numbering them in the whole, every hash order, every geometry in which no point of one is found with a point of the other", "why_tests_cant": "a test inspects a few meshes made by hand and never compares the report of a mesh with those of its parts", "anchors": ["src/geode/inspector/inspection/pointset_inspector.cpp", "src/geode/inspector/inspection/edgedcurve_inspector.cpp", "src/geode/inspector/inspection/surface_inspector.cpp", "src/geode/inspector/inspection/solid_inspector.cpp", "src/geode/inspector/inspection/criterion/adjacency/surface_adjacency.cpp", "src/geode/inspector/inspection/criterion/manifold/surface_edge_manifold.cpp", "src/geode/inspector/inspection/criterion/manifold/solid_edge_manifold.cpp", "src/geode/inspector/inspection/criterion/intersections/surface_intersections.cpp"]}
{"id": "C90", "title": "The first vertex and the direction of polygons do not matter", "statement": "When the polygons of a surface mesh are described otherwise, each from any of its vertices, or all in the other direction, with the same adjacencies, the inspection finds the same issues: the same sides with wrong adjacencies (under their new numbers in the polygon), the same colocated vertices, degenerated edges and polygons, non manifold edges and vertices, and the same intersecting polygons. In the plane the same polygons are found negative from any first vertex, and no polygon is found negative in both directions, when the sign is that of the exact area; in space no polygon is found negative. Any surface can be described so.", "quantifier": "every surface mesh, every new numbering of the corners and sides of each polygon, both directions, every hash order", "why_tests_cant": "a test describes a mesh in one way; it cannot compare all the descriptions of all meshes", "anchors": ["src/geode/inspector/inspection/surface_inspector.cpp", "src/geode/inspector/inspection/criterion/adjacency/surface_adjacency.cpp", "src/geode/inspector/inspection/criterion/manifold/surface_edge_manifold.cpp", "src/geode/inspector/inspection/criterion/manifold/surface_vertex_manifold.cpp", "src/geode/inspector/inspection/criterion/negative_elements/surface_negative_elements.cpp"]}
{"id": "C91", "title": "The order and direction in which a polyhedron is described do not matter", "statement": "When the polyhedra of a solid mesh are described otherwise - corners, facets and edges in any order, each facet from any of its vertices, all facets in the other direction or none, each edge from either end - with the same adjacencies, the inspection finds the same issues: the same facets with wrong adjacencies (under their new numbers in the polyhedron), the same colocated vertices, degenerated edges and polyhedra, non manifold vertices, edges (whatever their direction) and facets (whatever their first vertex and direction); and the same negative polyhedra and as many issues if the sign of the volume of each polyhedron is the same in both descriptions. For tetrahedra and the exact volume this is so when their corners were swapped an even number of times; after an odd number of swaps no tetrahedron is negative in both, and one of nonzero volume is negative in exactly one. Any solid can be described so.", "quantifier": "every solid mesh, every new numbering of the corners, facets and edges of each polyhedron, every first vertex, both directions, every hash order", "why_tests_cant": "a test describes a mesh in one way; it cannot compare all the descriptions of all meshes", "anchors": ["src/geode/inspector/inspection/solid_inspector.cpp", "src/geode/inspector/inspection/criterion/adjacency/solid_adjacency.cpp", "src/geode/inspector/inspection/criterion/manifold/solid_vertex_manifold.cpp", "src/geode/inspector/inspection/criterion/manifold/solid_edge_manifold.cpp", "src/geode/inspector/inspection/criterion/manifold/solid_facet_manifold.cpp", "src/geode/inspector/inspection/criterion/negative_elements/solid_negative_elements.cpp"]}
{"id": "C92", "title": "The numbers and descriptions of the meshes of a model do not matter for what is said of them", "statement": "Take a line, a surface (of a Section or a BRep) or a block of a BRep, and a component of another model (or of the same model described again, with any identifiers) whose mesh is the same with other numbers of vertices and elements, or with its polygons or polyhedra described otherwise. The reports on the meshes of the two models say the same of the two components, under the new numbers and whatever the other components and the past use of the inspectors: the same degenerated edges and elements, the same non manifold vertices, edges and facets, the same negative elements, the same wrong adjacencies of sides (facets) that have a neighbour, and as many groups of vertices at one place that are not linked to one unique vertex, when the same vertices are linked in both models.", "quantifier": "every two Sections and BReps with a component in common, every numbering and description of its mesh, all other components, every use of the inspectors before, every hash order", "why_tests_cant": "a test inspects one model with one numbering; it cannot compare the reports on all models that share a component", "anchors": ["src/geode/inspector/inspection/brep_inspector.cpp", "src/geode/inspector/inspection/section_inspector.cpp", "src/geode/inspector/inspection/criterion/internal/component_meshes_adjacency.cpp", "src/geode/inspector/inspection/criterion/internal/component_meshes_degeneration.cpp", "src/geode/inspector/inspection/criterion/internal/component_meshes_manifold.cpp", "src/geode/inspector/inspection/criterion/colocation/component_meshes_colocation.cpp", "src/geode/inspector/inspection/criterion/adjacency/brep_meshes_adjacency.cpp", "src/geode/inspector/inspection/criterion/negative_elements/brep_meshes_negative_elements.cpp"]}
{"id": "C93", "title": "The topology of two Sections put side by side is that of each", "statement": "When a Section is made of the components, unique vertices and relationships of two Sections that share nothing - those of the first, then those of the second, its unique vertices numbered after those of the first - and either all surfaces of both have polygons or each Section has a surface without, the topology inspection of the whole lists, for every kind of issue, the unmeshed components and the unique vertices it lists for the first Section, then those it lists for the second under their new numbers; and, component by component, the mesh vertices linked to no unique vertex of the first, then of the second. When both have unique vertices, the whole is valid iff both are. Without the condition on polygons this is refuted: adding a Section with a single surface without polygons, linked to nothing, hides issues of the other Section.", "quantifier": "every two Sections with distinct identifiers and relationships within each, any faults in each", "why_tests_cant": "a test inspects one Section and what was put in it; it cannot separate the parts of all models", "anchors": ["src/geode/inspector/inspection/topology/section_topology.cpp", "src/geode/inspector/inspection/topology/section_corners_topology.cpp", "src/geode/inspector/inspection/topology/section_lines_topology.cpp", "src/geode/inspector/inspection/topology/section_surfaces_topology.cpp", "src/geode/inspector/inspection/topology/internal/topology_helpers.cpp"]}
