{
 "Model_Colocation.nb_colocated_points: 2 -> 3": {
  "claim": "none: equivalent edit: the base of the modulus 2^32 of a subtraction whose result is taken modulo 2^32 again and is never negative (no more unique points than points)",
  "failed": [],
  "tightened": []
 },
 "Model_Blocks.first_block_position: UB -> (Throw OpenGeodeExn)": {
  "claim": "none: equivalent edit: the list of positions of a component with a mesh in this loop is never empty (C40-C42 only reach it for listed components)",
  "failed": [],
  "tightened": []
 },
 "Model_Blocks.linked_parts: UB -> (Throw OpenGeodeExn)": {
  "claim": "none: equivalent edit: exhausted fuel, proved unreachable (C41)",
  "failed": [],
  "tightened": []
 },
 "Model_BRep.component_mesh_polygons: UB -> (Throw OpenGeodeExn)": {
  "claim": "none: equivalent edit: a component that does not exist: excluded by the contract of relations (brep_ok); outside it nothing is claimed",
  "failed": [],
  "tightened": []
 },
 "Model_BRep.brep_inspect_lines_topology: UB -> (Throw OpenGeodeExn)": {
  "claim": "none: equivalent edit: number of results different from the number of checks: impossible",
  "failed": [],
  "tightened": []
 },
 "Model_Manifold.polyhedron_edge_vertices: 0 -> 1": {
  "claim": "none: equivalent edit: default of nth for an edge index in range",
  "failed": [],
  "tightened": []
 },
 "Model_Colocation.mesh_point: UB -> (Throw OpenGeodeExn)": {
  "claim": "none: equivalent edit: vertex out of range: excluded by the contract of unique vertices; outside it nothing is claimed",
  "failed": [],
  "tightened": []
 },
 "Model_Cycles.list_min: 0 -> 1": {
  "claim": "none: equivalent edit: minimum of an empty facet: all facets with no vertex are rotated to the same empty list",
  "failed": [],
  "tightened": []
 },
 "Model_Blocks.line_is_boundary_of_at_least_two_surfaces_or_one_embedding_surface: 0 -> 1": {
  "claim": "none: equivalent edit: the only caller never reports anything, whatever this test answers (C55)",
  "failed": [],
  "tightened": []
 },
 "Model_Colocation.filter_step: false -> true": {
  "claim": "none: equivalent edit: default of nth for an index in range of the marker array",
  "failed": [],
  "tightened": []
 },
 "Model_BRep.internal_corners_loop: UB -> (Throw OpenGeodeExn)": {
  "claim": "none: equivalent edit: a component that does not exist: excluded by the contract of relations (brep_ok)",
  "failed": [],
  "tightened": []
 },
 "Model_Topology.make_corners: UB -> (Throw OpenGeodeExn)": {
  "claim": "none: equivalent edit: number of results different from the number of checks: impossible",
  "failed": [],
  "tightened": []
 },
 "Model_Programs.load_pair: UB -> (Throw OpenGeodeExn)": {
  "claim": "none: equivalent edit: loading a file is never undefined for the library modelled (load_ok); outside it nothing is claimed",
  "failed": [],
  "tightened": []
 },
 "Model_Results.inspect_edged_curve: \"Colocation of vertices not tested\" -> \"olocation of vertices not tested\"": {
  "claim": "none: equivalent edit: default of a list that is only visible when its task failed, in which case the inspection fails as a whole",
  "failed": [],
  "tightened": []
 },
 "Model_Cycles.position: 0 -> 1": {
  "claim": "none: equivalent edit: default of the position of a value in a list that always contains it",
  "failed": [],
  "tightened": []
 },
 "Model_Degeneration.alive: i j -> j i": {
  "claim": "none: equivalent edit: equality of numbers is symmetric",
  "failed": [],
  "tightened": []
 },
 "Model_Degeneration.mesh_edges: OpenGeodeExn -> OtherExn": {
  "claim": "none: equivalent edit: kind of the exception raised when the edges of a mesh are read before being enabled; the inspectors always enable them first (mesh_edges_enabled)",
  "failed": [],
  "tightened": []
 },
 "Model_Intersections.line_surface_step: UB -> (Throw OpenGeodeExn)": {
  "claim": "none: equivalent edit: a surface or line that does not exist: the loops only visit existing components",
  "failed": [],
  "tightened": []
 },
 "Model_Manifold.solid_edges_issues: UB -> (Throw OpenGeodeExn)": {
  "claim": "none: the mesh function polyhedra_around_edge is never undefined for a mesh meeting the contract (sane_solid, C67); outside it nothing is claimed",
  "failed": [],
  "tightened": []
 },
 "Model_Results.brep_surfaces_nb_issues: [nb_issues (bs_not_meshed r); map_nb_issues (bs_not_linked r); nb_issues (bs_invalid_embeddings r); nb_issues (bs_not_on_border r);\n         nb_issues (bs_several_invalid r)] -> [nb_issues (bs_not_meshed r); nb_issues (bs_invalid_embeddings r); map_nb_issues (bs_not_linked r); nb_issues (bs_not_on_border r);\n         nb_issues (bs_several_invalid r)]": {
  "claim": "none: equivalent edit: order of the terms of a sum",
  "failed": [],
  "tightened": []
 },
 "Model_Results.section_lines_nb_issues: [nb_issues (sl_not_meshed r); map_nb_issues (sl_not_linked r); nb_issues (sl_wrong_relationship r);\n         nb_issues (sl_invalid_embeddings r); nb_issues (sl_single_invalid r)] -> [nb_issues (sl_not_meshed r); map_nb_issues (sl_not_linked r); nb_issues (sl_wrong_relationship r); nb_issues (sl_single_invalid r);\n         nb_issues (sl_invalid_embeddings r)]": {
  "claim": "none: equivalent edit: order of the terms of a sum",
  "failed": [],
  "tightened": []
 },
 "Model_Issues.default_description: \"Default inspection issue message. This message should have been overriden.\" -> \"efault inspection issue message. This message should have been overriden.\"": {
  "claim": "C02 (text of a list that was never described)",
  "failed": [],
  "tightened": [
   "C02_never_described (added)"
  ]
 },
 "Model_Results.inspect_surface: [status adjacency; status colocated; status edges; Ok tt; Ok tt; status vertices; status intersections; Ok tt] -> [status adjacency; status colocated; status edges; Ok tt; Ok tt; status vertices; Ok tt; status intersections]": {
  "claim": "equivalent: the order of the tasks given to parallel_invoke cannot be seen (same outcome)",
  "failed": [],
  "tightened": []
 },
 "Model_Results.empty_section_meshes: \"non manifold mesh edges\" -> \"on manifold mesh edges\"": {
  "claim": "equivalent: the text of the default value is overwritten before the inspection returns, or the inspection raises",
  "failed": [],
  "tightened": []
 },
 "Model_Intersections.pair_at: Nat.eqb -> Nat.leb": {
  "claim": "none: equivalent program (n <= 0 means n = 0)",
  "failed": [],
  "tightened": []
 },
 "Model_Degeneration.impl_small_edges: 0 -> 1": {
  "claim": "none: equivalent program (default of an index always in range)",
  "failed": [],
  "tightened": []
 },
 "Model_Intersections.polygon_fan_triangles: UB -> (Throw OpenGeodeExn)": {
  "claim": "none: polygon without vertices, no claim covers them (both programs fail)",
  "failed": [],
  "tightened": []
 },
 "Model_Colocation.opt_eqb: x y -> y x": {
  "claim": "none: equivalent program (equality is symmetric)",
  "failed": [],
  "tightened": []
 },
 "Model_Intersections.same_unique_vertex: x y -> y x": {
  "claim": "none: equivalent program (equality is symmetric)",
  "failed": [],
  "tightened": []
 },
 "Model_Results.section_topology_nb_issues: [corners_nb_issues (st_corners r); section_lines_nb_issues (st_lines r); section_surfaces_nb_issues (st_surfaces r);\n         nb_issues (li_not_linked (st_links r)); nb_issues (li_inexistant (st_links r)); nb_issues (li_nonbijective (st_links r))] -> [corners_nb_issues (st_corners r); section_lines_nb_issues (st_lines r); section_surfaces_nb_issues (st_surfaces r); nb_issues (li_inexistant (st_links r));\n         nb_issues (li_not_linked (st_links r)); nb_issues (li_nonbijective (st_links r))]": {
  "claim": "none: equivalent program (order of the terms of a sum)",
  "failed": [],
  "tightened": []
 },
 "Model_Results.section_lines_nb_issues: [nb_issues (sl_not_meshed r); map_nb_issues (sl_not_linked r); nb_issues (sl_wrong_relationship r);\n         nb_issues (sl_invalid_embeddings r); nb_issues (sl_single_invalid r)] -> [\n         nb_issues (sl_invalid_embeddings r); map_nb_issues (sl_not_linked r); nb_issues (sl_wrong_relationship r);nb_issues (sl_not_meshed r); nb_issues (sl_single_invalid r)]": {
  "claim": "none: equivalent program (order of the terms of a sum)",
  "failed": [],
  "tightened": []
 },
 "Model_Results.brep_surfaces_nb_issues: [nb_issues (bs_not_meshed r); map_nb_issues (bs_not_linked r); nb_issues (bs_invalid_embeddings r); nb_issues (bs_not_on_border r);\n         nb_issues (bs_several_invalid r)] -> [nb_issues (bs_not_meshed r); map_nb_issues (bs_not_linked r);\n         nb_issues (bs_several_invalid r); nb_issues (bs_not_on_border r); nb_issues (bs_invalid_embeddings r)]": {
  "claim": "none: equivalent program (order of the terms of a sum)",
  "failed": [],
  "tightened": []
 },
 "Model_Blocks.brep_multiple_surfaces_invalid_line: [\"unique vertex \"; str uv; \" is part of multiple Surfaces and multiple Lines, but Line \"; n;\n                              \" is neither internal, nor a boundary of at least two Surfaces or one embedding Surface.\"] -> [\"unique vertex \"; str uv; n; \" is part of multiple Surfaces and multiple Lines, but Line \";\n                              \" is neither internal, nor a boundary of at least two Surfaces or one embedding Surface.\"]": {
  "claim": "none: text of a message that no model gets (C56: this list stays empty)",
  "failed": [],
  "tightened": []
 },
 "Model_Results.empty_surface_result: \"Degeneration of edges not tested\" -> \"egeneration of edges not tested\"": {
  "claim": "none: description overwritten before the result is returned",
  "failed": [],
  "tightened": []
 },
 "Model_Results.empty_surface_result: \"Manifold of vertices not tested\" -> \"anifold of vertices not tested\"": {
  "claim": "none: description overwritten before the result is returned",
  "failed": [],
  "tightened": []
 },
 "Model_Results.empty_brep_manifold: \"non manifold mesh facets\" -> \"on manifold mesh facets\"": {
  "claim": "none: description overwritten before the result is returned",
  "failed": [],
  "tightened": []
 },
 "Model_Results.empty_brep_manifold: \"non manifold mesh edges\" -> \"on manifold mesh edges\"": {
  "claim": "none: description overwritten before the result is returned",
  "failed": [],
  "tightened": []
 },
 "Model_Results.empty_solid_result: \"Colocation of vertices not tested\" -> \"olocation of vertices not tested\"": {
  "claim": "none: description overwritten before the result is returned",
  "failed": [],
  "tightened": []
 },
 "Model_Results.empty_solid_result: \"Negative polyhedra not tested\" -> \"egative polyhedra not tested\"": {
  "claim": "none: description overwritten before the result is returned",
  "failed": [],
  "tightened": []
 },
 "Model_Results.empty_section_meshes: \"non manifold mesh vertices\" -> \"on manifold mesh vertices\"": {
  "claim": "none: the description of the list is only printed with issues, and a default list has none",
  "failed": [],
  "tightened": []
 },
 "Model_Results.brep_topology_nb_issues: [corners_nb_issues (bt_corners r); brep_lines_nb_issues (bt_lines r); brep_surfaces_nb_issues (bt_surfaces r);\n         brep_blocks_nb_issues (bt_blocks r); nb_issues (li_not_linked (bt_links r)); nb_issues (li_inexistant (bt_links r));\n         nb_issues (li_nonbijective (bt_links r))] -> [corners_nb_issues (bt_corners r); brep_lines_nb_issues (bt_lines r); brep_surfaces_nb_issues (bt_surfaces r);\n         brep_blocks_nb_issues (bt_blocks r); nb_issues (li_not_linked (bt_links r));\n         nb_issues (li_nonbijective (bt_links r)); nb_issues (li_inexistant (bt_links r))]": {
  "claim": "none: a sum in another order",
  "failed": [],
  "tightened": []
 },
 "Model_Cycles.is_opposite: x y -> y x": {
  "claim": "none: equality of two numbers is symmetric",
  "failed": [],
  "tightened": []
 },
 "Model_Results.inspect_solid: [status adjacency; status colocated; status edges; Ok tt; status vertices; status manifold_edges; Ok tt; Ok tt] -> [status adjacency; status colocated; status edges; status vertices; status manifold_edges; Ok tt; Ok tt]": {
  "claim": "equivalent: one task that cannot fail less in parallel_invoke (its result is computed anyway in the model)",
  "failed": [],
  "tightened": []
 },
 "Model_Results.empty_brep_meshes: \"negative polyhedra\" -> \"egative polyhedra\"": {
  "claim": "none: description overwritten before the result is returned",
  "failed": [],
  "tightened": []
 }
}