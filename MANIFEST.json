{
 "claims": [
  {
   "property": "C01",
   "status": "proved",
   "theorems": [
    "C01_history",
    "C01_count",
    "C01_count_zero_iff",
    "C01_count_refuted"
   ],
   "note": "the count wraps at 2^32 issues (C01_count_refuted); exact below"
  },
  {
   "property": "C02",
   "status": "proved",
   "theorems": [
    "C02_text",
    "C02_no_issues_iff",
    "C02_count_readable",
    "C02_map_text",
    "C02_never_described"
   ],
   "note": ""
  },
  {
   "property": "C03",
   "status": "proved",
   "theorems": [
    "C03_map_contents"
   ],
   "note": ""
  },
  {
   "property": "C04",
   "status": "proved",
   "theorems": [
    "C04_groups_are_classes",
    "C04_out_of_range_mapping_is_ub"
   ],
   "note": "the colocation mapping of the nearest neighbour search is arbitrary, subject to the stated contract; a mapping out of range is UB"
  },
  {
   "property": "C05",
   "status": "proved",
   "theorems": [
    "C05_query_agrees"
   ],
   "note": ""
  },
  {
   "property": "C06",
   "status": "proved",
   "theorems": [
    "C06_reported_iff_spans",
    "C06_one_per_unique_vertex_refuted",
    "C06_C44_component_map"
   ],
   "note": "'at most one vertex per unique vertex in a reported group' is false (C06_one_per_unique_vertex_refuted); reporting itself is exact"
  },
  {
   "property": "C07",
   "status": "proved",
   "theorems": [
    "C07_linked_to_different_points"
   ],
   "note": ""
  },
  {
   "property": "C08",
   "status": "proved",
   "theorems": [
    "C08_colocated_unique_vertices"
   ],
   "note": ""
  },
  {
   "property": "C09",
   "status": "proved",
   "theorems": [
    "C09_surface_adjacency"
   ],
   "note": ""
  },
  {
   "property": "C10",
   "status": "proved",
   "theorems": [
    "C10_solid_adjacency",
    "C10_opposite_facets"
   ],
   "note": ""
  },
  {
   "property": "C11",
   "status": "proved",
   "theorems": [
    "C11_C44_surface_borders"
   ],
   "note": ""
  },
  {
   "property": "C12",
   "status": "proved",
   "theorems": [
    "C12_C44_block_borders",
    "C12_unlinked_block_is_silent"
   ],
   "note": "a block none of whose border facets is linked is never reported (C12_unlinked_block_is_silent)"
  },
  {
   "property": "C13",
   "status": "proved",
   "theorems": [
    "C13_surface_edges",
    "C13_surface_edges_any_mesh",
    "C13_257_uses_are_manifold"
   ],
   "note": "exact while every edge has at most 256 uses; 257 uses wrap the 8-bit counter (C13_257_uses_are_manifold)"
  },
  {
   "property": "C14",
   "status": "proved",
   "theorems": [
    "C14_surface_vertices"
   ],
   "note": ""
  },
  {
   "property": "C15",
   "status": "proved",
   "theorems": [
    "C15_solid_vertices",
    "C15_failure_escapes"
   ],
   "note": "an exception of the turn around a vertex escapes (C15_failure_escapes)"
  },
  {
   "property": "C16",
   "status": "proved",
   "theorems": [
    "C16_solid_edges",
    "C16_solid_edges_yes_no",
    "C16_failure"
   ],
   "note": "list and yes/no answer differ when the turn around an edge fails (C16_failure)"
  },
  {
   "property": "C17",
   "status": "proved",
   "theorems": [
    "C17_solid_facets"
   ],
   "note": ""
  },
  {
   "property": "C18",
   "status": "proved",
   "theorems": [
    "C18_model_edges",
    "C18_model_facets"
   ],
   "note": ""
  },
  {
   "property": "C19",
   "status": "proved",
   "theorems": [
    "C19_mesh_small_edges",
    "C19_mesh_degenerated_edges",
    "C19_curve_small_edges",
    "C19_monotone",
    "C19_boundary",
    "C19_C20_default_threshold"
   ],
   "note": ""
  },
  {
   "property": "C20",
   "status": "proved",
   "theorems": [
    "C20_small_heights",
    "C20_monotone",
    "C20_nan",
    "C19_C20_default_threshold"
   ],
   "note": ""
  },
  {
   "property": "C21",
   "status": "proved",
   "theorems": [
    "C21_surface",
    "C21_solid",
    "C21_agreement"
   ],
   "note": ""
  },
  {
   "property": "C22",
   "status": "proved",
   "theorems": [
    "C22_mesh_history",
    "C22_model_history"
   ],
   "note": ""
  },
  {
   "property": "C23",
   "status": "proved",
   "theorems": [
    "C23_dangling_read",
    "C23_prompt_is_safe",
    "C23_schedule_independent",
    "C23_safe_schedule_exists"
   ],
   "note": "some schedules read a dead loop variable (C23_dangling_read); every schedule that does not gives the same result"
  },
  {
   "property": "C24",
   "status": "proved",
   "theorems": [
    "C24_surface",
    "C24_no_negative_in_3d",
    "C24_solid",
    "C24_C44_section",
    "C24_C44_brep"
   ],
   "note": ""
  },
  {
   "property": "C25",
   "status": "proved",
   "theorems": [
    "C25_fan_triangulates",
    "C25_fan_loses_triangles"
   ],
   "note": "a polygon of 258 vertices yields no triangle (C25_fan_loses_triangles)"
  },
  {
   "property": "C26",
   "status": "proved",
   "theorems": [
    "C26_list_is_exact",
    "C26_boolean_agrees",
    "C26_complete",
    "C26_queries_terminate"
   ],
   "note": ""
  },
  {
   "property": "C27",
   "status": "proved",
   "theorems": [
    "C27_empty_surface_silences",
    "C27_report",
    "C27_boolean_agrees",
    "C27_self_intersections",
    "C27_C48_queries_terminate"
   ],
   "note": "one active surface without polygon hides all intersections (C27_empty_surface_silences); exact otherwise"
  },
  {
   "property": "C28",
   "status": "proved",
   "theorems": [
    "C28_list_is_exact",
    "C28_boolean_agrees",
    "C28_contact_at_a_vertex"
   ],
   "note": ""
  },
  {
   "property": "C29",
   "status": "proved",
   "theorems": [
    "C29_polygons",
    "C29_small_polygons_never",
    "C29_three_shared_always",
    "C29_unlinked_always",
    "C29_section_inclusion_missed"
   ],
   "note": "inclusions between Section triangles that share two vertices are missed (C29_section_inclusion_missed)"
  },
  {
   "property": "C30",
   "status": "proved",
   "theorems": [
    "C30_pointset",
    "C30_curve",
    "C30_surface",
    "C30_solid",
    "C30_unique_vertices",
    "C30_adjacency",
    "C30_brep_degeneration",
    "C30_section_degeneration",
    "C30_brep_manifold",
    "C30_section_manifold",
    "C30_brep_meshes",
    "C30_section_meshes",
    "C30_corners",
    "C30_section_surfaces",
    "C30_brep_lines",
    "C30_brep_blocks",
    "C30_section_lines",
    "C30_section_topology",
    "C30_section",
    "C30_brep_surfaces",
    "C30_brep_topology",
    "C30_brep",
    "C30_C31_section_refuted",
    "C30_C31_C32_brep_refuted"
   ],
   "note": "two categories are not counted (C30_C31_section_refuted, C30_C31_C32_brep_refuted); all other counts exact modulo 2^32"
  },
  {
   "property": "C31",
   "status": "proved",
   "theorems": [
    "C31_pointset",
    "C31_curve",
    "C31_surface",
    "C31_solid",
    "C31_brep",
    "C31_section",
    "C31_failures",
    "C31_text",
    "C31_count",
    "C30_C31_section_refuted",
    "C30_C31_C32_brep_refuted"
   ],
   "note": "validity is exact for every category; nb_issues()=0 does not imply it (refuted theorems)"
  },
  {
   "property": "C32",
   "status": "proved",
   "theorems": [
    "C32_corners",
    "C32_section_lines",
    "C32_section_surfaces",
    "C32_brep_lines",
    "C32_brep_surfaces",
    "C32_brep_blocks",
    "C32_brep_lines_complete",
    "C32_brep_blocks_complete",
    "C32_facets_never_printed",
    "C32_facets_do_not_matter",
    "C30_C31_C32_brep_refuted"
   ],
   "note": "complete except for the facets of BRep surfaces, never printed (C32_facets_never_printed)"
  },
  {
   "property": "C33",
   "status": "proved",
   "theorems": [
    "C33_every_schedule",
    "C33_no_deadlock",
    "C33_parallel_invoke",
    "C33_unique_vertices",
    "C33_adjacency",
    "C33_curve",
    "C33_surface",
    "C33_solid",
    "C33_brep_meshes",
    "C33_section_meshes",
    "C33_section_topology",
    "C33_brep_topology",
    "C33_section",
    "C33_brep",
    "C33_adjacency_steps",
    "C33_brep_steps"
   ],
   "note": "fork/join tasks, every interleaving; async++ itself is trusted"
  },
  {
   "property": "C34",
   "status": "proved",
   "theorems": [
    "C34_section_report",
    "C34_brep_report",
    "C34_untouched_is_empty",
    "C34_section_never_escapes",
    "C34_brep_never_escapes",
    "C34_empty_report_refuted",
    "C34_valid_refuted"
   ],
   "note": "an exception in one topology category is swallowed; the report then looks empty (C34_empty_report_refuted, C34_valid_refuted)"
  },
  {
   "property": "C35",
   "status": "proved",
   "theorems": [
    "C35_section_links",
    "C35_brep_links"
   ],
   "note": ""
  },
  {
   "property": "C36",
   "status": "proved",
   "theorems": [
    "C36_C45_brep_corners",
    "C36_predicate_and_lists"
   ],
   "note": ""
  },
  {
   "property": "C37",
   "status": "proved",
   "theorems": [
    "C37_closed_line_reported",
    "C37_consistent_model_reported"
   ],
   "note": "the natural property is false; the theorems show the false report on a consistent model"
  },
  {
   "property": "C38",
   "status": "proved",
   "theorems": [
    "C38_C45_section_corners",
    "C38_C45_section_lines",
    "C38_C45_section_surfaces",
    "C38_predicates_and_lists",
    "C38_section_validity",
    "C38_section_inspection",
    "C38_surface_lists_imply_predicate_not_conversely",
    "C38_invalid_but_not_reported"
   ],
   "note": "vertex predicates and lists agree except for surfaces, in one direction (C38_surface_lists_imply_predicate_not_conversely, C38_invalid_but_not_reported)"
  },
  {
   "property": "C39",
   "status": "proved",
   "theorems": [
    "C39_brep_validity",
    "C39_brep_inspection",
    "C39_valid_but_reported",
    "C39_empty_report_but_invalid",
    "C39_no_vertex_is_invalid"
   ],
   "note": "neither direction holds in general: witnesses both ways; exact characterisations of both sides"
  },
  {
   "property": "C40",
   "status": "proved",
   "theorems": [
    "C40_first_part",
    "C40_connected_parts"
   ],
   "note": ""
  },
  {
   "property": "C41",
   "status": "proved",
   "theorems": [
    "C41_no_surface_is_undefined",
    "C41_reported_iff_not_connected"
   ],
   "note": "a model boundary without surface is UB (C41_no_surface_is_undefined); exact otherwise"
  },
  {
   "property": "C42",
   "status": "proved",
   "theorems": [
    "C42_not_boundary_surfaces"
   ],
   "note": ""
  },
  {
   "property": "C43",
   "status": "proved",
   "theorems": [
    "C43_reported_iff",
    "C43_only_two_messages"
   ],
   "note": "one of the documented errors is unreachable (C43_only_two_messages)"
  },
  {
   "property": "C44",
   "status": "proved",
   "theorems": [
    "C11_C44_surface_borders",
    "C12_C44_block_borders",
    "C06_C44_component_map",
    "C24_C44_section",
    "C24_C44_brep",
    "C44_degeneration_maps",
    "C44_vertex_manifold_map",
    "C44_edge_manifold_map",
    "C44_facet_manifold_map"
   ],
   "note": ""
  },
  {
   "property": "C45",
   "status": "proved",
   "theorems": [
    "C36_C45_brep_corners",
    "C50_C45_brep_lines",
    "C51_C45_brep_surfaces",
    "C45_yes_no",
    "C45_vertices_listed",
    "C38_C45_section_corners",
    "C38_C45_section_lines",
    "C38_C45_section_surfaces"
   ],
   "note": ""
  },
  {
   "property": "C46",
   "status": "proved",
   "theorems": [
    "C46_expected_count",
    "C46_reported_iff",
    "C46_exact_in_range"
   ],
   "note": "the prediction is computed modulo 2^32; exact under a bound on the number of links"
  },
  {
   "property": "C47",
   "status": "proved",
   "theorems": [
    "C47_out_of_range",
    "C47_same_numbers"
   ],
   "note": "right only when the shared vertices have the same numbers in both meshes (C47_same_numbers), out of range accesses otherwise (C47_out_of_range)"
  },
  {
   "property": "C48",
   "status": "proved",
   "theorems": [
    "C27_C48_queries_terminate",
    "C48_brep_report",
    "C48_empty_mesh_silences_lines",
    "C48_boolean_ignores_lines"
   ],
   "note": ""
  },
  {
   "property": "C49",
   "status": "proved",
   "theorems": [
    "C49_link_order_matters",
    "C49_order_irrelevant_when_all_embedded"
   ],
   "note": "the outcome depends on the order of links (C49_link_order_matters) unless all lines are embedded"
  },
  {
   "property": "C50",
   "status": "proved",
   "theorems": [
    "C50_C45_brep_lines",
    "C50_predicate_and_lists"
   ],
   "note": ""
  },
  {
   "property": "C51",
   "status": "proved",
   "theorems": [
    "C51_C45_brep_surfaces",
    "C51_predicate_and_lists"
   ],
   "note": ""
  },
  {
   "property": "C52",
   "status": "proved",
   "theorems": [
    "C52_block_embedding_raises"
   ],
   "note": "the inspection raises (C52_block_embedding_raises)"
  },
  {
   "property": "C53",
   "status": "proved",
   "theorems": [
    "C53_unlinked_first_edge"
   ],
   "note": "a first edge with an unlinked vertex makes the inspection raise or be undefined (C53_unlinked_first_edge)"
  },
  {
   "property": "C54",
   "status": "proved",
   "theorems": [
    "C54_closedness",
    "C54_connected_never_reported"
   ],
   "note": ""
  },
  {
   "property": "C55",
   "status": "proved",
   "theorems": [
    "C55_never_reports"
   ],
   "note": "the check can never report (C55_never_reports)"
  },
  {
   "property": "C56",
   "status": "proved",
   "theorems": [
    "C56_blocks",
    "C56_no_active_block",
    "C56_predicate_and_lists"
   ],
   "note": ""
  },
  {
   "property": "C57",
   "status": "proved",
   "theorems": [
    "C57_adjacency",
    "C57_brep_degeneration",
    "C57_section_degeneration",
    "C57_brep_manifold",
    "C57_section_manifold",
    "C57_section_adjacency",
    "C57_colocation",
    "C57_brep_negative",
    "C57_section_negative"
   ],
   "note": ""
  },
  {
   "property": "C58",
   "status": "proved",
   "theorems": [
    "C58_pointset",
    "C58_curve",
    "C58_surface",
    "C58_solid"
   ],
   "note": ""
  },
  {
   "property": "C59",
   "status": "proved",
   "theorems": [
    "C59_section"
   ],
   "note": ""
  },
  {
   "property": "C60",
   "status": "proved",
   "theorems": [
    "C60_brep"
   ],
   "note": "stated with the connected parts of the boundary surfaces of each block"
  },
  {
   "property": "C61",
   "status": "proved",
   "theorems": [
    "C61_point_set",
    "C61_edged_curve",
    "C61_surface",
    "C61_solid",
    "C61_curve_intersections"
   ],
   "note": ""
  },
  {
   "property": "C62",
   "status": "proved",
   "theorems": [
    "C62_unique_vertices",
    "C62_section_meshes",
    "C62_brep_meshes",
    "C62_self_intersections"
   ],
   "note": ""
  },
  {
   "property": "C63",
   "status": "proved",
   "theorems": [
    "C63_section_topology",
    "C63_brep_topology",
    "C63_expected_number_refuted"
   ],
   "note": "the announced number of expected links can be 4294967295 (C63_expected_number_refuted)"
  },
  {
   "property": "C64",
   "status": "proved",
   "theorems": [
    "C64_status",
    "C64_defaults",
    "C64_unknown_extension",
    "C64_load_error",
    "C64_pointset",
    "C64_edged_curve",
    "C64_surface",
    "C64_solid",
    "C64_surface_curve",
    "C64_surface_curve_error",
    "C64_section",
    "C64_brep",
    "C64_texts_differ",
    "C64_runs",
    "C64_clean_output_refuted"
   ],
   "note": "clean text iff sound, except that wrong facets of a BRep are never printed (C64_clean_output_refuted)"
  },
  {
   "property": "C65",
   "status": "proved",
   "theorems": [
    "C65_enclosing_surface",
    "C65_glued_unique",
    "C65_vertices_used",
    "C65_geometry_kept",
    "C65_unlinked_merged",
    "C65_geometry_lost_when_unlinked"
   ],
   "note": "unlinked polygon vertices are merged into one vertex (C65_geometry_lost_when_unlinked)"
  },
  {
   "property": "C66",
   "status": "proved",
   "theorems": [
    "C66_surface",
    "C66_solid",
    "C66_queries",
    "C66_intersections",
    "C66_curve_intersections",
    "C66_section",
    "C66_brep",
    "C66_verdicts"
   ],
   "note": "when no run of the intersection search of a model ends well, two runs may fail differently; nothing is claimed then"
  },
  {
   "property": "C67",
   "status": "proved",
   "theorems": [
    "C67_curve",
    "C67_surface",
    "C67_solid",
    "C67_section",
    "C67_brep",
    "C67_section_topology_query",
    "C67_brep_topology_query",
    "C67_dangling_link_undefined",
    "C67_unlinked_line_undefined",
    "C67_unlinked_surface_undefined",
    "C67_empty_boundaries_undefined",
    "C67_unlinked_first_edge_undefined"
   ],
   "note": "the conditions of C67_brep are necessary: a dangling first link, an unlinked single-edge line, an unlinked single-polygon surface, an unlinked first edge and an empty model boundary are each shown to prevent any result (the *_undefined theorems, with concrete models); the other conditions are necessary in the sense of C41, C47, C53; only the accesses the model marks as partial are covered (DESIGN.md)"
  },
  {
   "property": "C68",
   "status": "proved",
   "theorems": [
    "C68_brep_meshes",
    "C68_section_meshes",
    "C68_intersections",
    "C68_borders_refuted",
    "C68_topology_refuted"
   ],
   "note": "false of the searches along borders (C68_borders_refuted) and of topology (C68_topology_refuted)"
  },
  {
   "property": "C69",
   "status": "proved",
   "theorems": [
    "C69_surface_vertices",
    "C69_solid_vertices",
    "C69_solid_edges",
    "C69_solid_edges_yes_no",
    "C69_surface_starting_polygons",
    "C69_solid_starting_polyhedra"
   ],
   "note": "contract of OpenGeode's turn-around queries: they meet the elements linked to one of them; a vertex of a surface whose query raises is not listed; solid edges: no polyhedron has the same edge twice"
  },
  {
   "property": "C70",
   "status": "proved",
   "theorems": [
    "C70_queries",
    "C70_section_meshes",
    "C70_brep_meshes",
    "C70_section_intersections",
    "C70_brep_intersections",
    "C70_section_topology",
    "C70_brep_topology",
    "C70_brep_topology_returns",
    "C70_section",
    "C70_brep",
    "C70_counts"
   ],
   "note": "the answers of OpenGeode searches by unique vertices, and the box trees of the intersection searches, are taken to be the same for both orders (C71 lets the box trees differ); the message of a non manifold edge of the model names its surfaces in the order of the model; BRep topology: both orders are assumed to return (C70_brep_topology_returns gives when they do)"
  },
  {
   "property": "C71",
   "status": "proved",
   "theorems": [
    "C71_brep_polygons",
    "C71_section_polygons",
    "C71_brep",
    "C71_section",
    "C71_yes_no",
    "C71_section_order_matters"
   ],
   "note": "symmetry of the OpenGeode predicates is a hypothesis (segments_symmetric, planes_symmetric), proved for exact predicates; false for Sections whose shared vertices have different numbers (C71_section_order_matters)"
  },
  {
   "property": "C72",
   "status": "proved",
   "theorems": [
    "C72_section_line",
    "C72_brep_line",
    "C72_section_surface",
    "C72_brep_surface",
    "C72_brep_block"
   ],
   "note": "intersections are left out: a model compares vertices by unique vertex and reports pairs of components, a mesh alone by vertex number (C27, C47)"
  },
  {
   "property": "C73",
   "status": "proved",
   "theorems": [
    "C73_point_set",
    "C73_curve",
    "C73_surface",
    "C73_solid",
    "C73_intersections"
   ],
   "note": "the searches of OpenGeode (colocated points, turns around vertices and edges, polygon intersections) are assumed not to depend on the numbers; the pairs of intersecting polygons are compared in C73_intersections, apart from the other fields of a surface report"
  },
  {
   "property": "C74",
   "status": "proved",
   "theorems": [
    "C74_section_checks",
    "C74_brep_checks",
    "C74_section",
    "C74_brep",
    "C74_first_edge"
   ],
   "note": "C74_first_edge shows that the first edge of a line counts at all its vertices; the lists by component (unmeshed components, unlinked mesh vertices, wrong edges and facets, closed boundaries) are not by unique vertex and not part of this property"
  },
  {
   "property": "C75",
   "status": "proved",
   "theorems": [
    "C75_unique_vertices",
    "C75_meshes",
    "C75_intersections",
    "C75_brep_manifold",
    "C75_section_topology",
    "C75_brep_topology",
    "C75_section_meshes",
    "C75_brep_meshes",
    "C75_section",
    "C75_brep"
   ],
   "note": "the inspections of intersections are related by C75_intersections (the same outcomes are possible) and then given to the whole inspection; exact_search_blind and the two examples show that the hypotheses hold; texts that print the number of a unique vertex are not compared (C62 and C63 say what they contain)"
  },
  {
   "property": "C76",
   "status": "proved",
   "theorems": [
    "C76_back",
    "C76_section_topology",
    "C76_brep_topology",
    "C76_brep_topology_valid",
    "C76_unique_vertices",
    "C76_section_intersections",
    "C76_brep_intersections",
    "C76_section_meshes",
    "C76_brep_meshes",
    "C76_section",
    "C76_brep"
   ],
   "note": "C76_back gives the converse directions (every run of the search in the renamed model is one in the model); texts, which print identifiers and names, are not compared except where they print neither (unique vertices); the three examples reverse the order of all identifiers"
  },
  {
   "property": "C77",
   "status": "proved",
   "theorems": [
    "C77_exact_predicates_exist",
    "C77_triangles",
    "C77_never_missed",
    "C77_never_invented",
    "C77_plane_reading",
    "C77_polygons",
    "C77_report",
    "C77_silence",
    "C77_order_matters"
   ],
   "note": "points are rational (finite doubles are rational, so touching in real space is touching at a rational point); C77_exact_predicates_exist exhibits predicates that keep all promises (a Fourier-Motzkin decision procedure); findings: C77_order_matters (a triangle nested on a common side is overlooked when the containing one comes first: only the sides of the first triangle are tested), C77_plane_reading (flat neighbours are all reported if 'parallel' means in the plane); what OpenGeode's floating point predicates really return is not modelled"
  },
  {
   "property": "C78",
   "status": "proved",
   "theorems": [
    "C78_exact_predicates_exist",
    "C78_triangles",
    "C78_one_surface",
    "C78_polygons",
    "C78_report",
    "C78_self_report",
    "C78_silence",
    "C78_hole_missed",
    "C78_numbering_matters"
   ],
   "note": "the 2D counterpart of C77: pairs of sides are tested and sides on one line are skipped; proved that every overlap beyond the common part makes two sides that are not on one line touch off the common vertex, unless one triangle is inside the other; C78_exact_predicates_exist exhibits predicates that keep the promises of C77 and C78 together; findings: C78_hole_missed (containment is overlooked in both orders), C78_numbering_matters (without the condition on vertex numbers a conformal pair is reported even with exact predicates, cf. C47); OpenGeode's floating point predicates are not modelled"
  },
  {
   "property": "C79",
   "status": "proved",
   "theorems": [
    "C79_C80_locating_predicates_exist",
    "C79_edge_and_polygon",
    "C79_report",
    "C79_silence",
    "C79_line_inside_a_surface_missed"
   ],
   "note": "C48 stated with positions; here they are tied to real geometry over the rationals; both readings of 'parallel' (overlap, or touching in one plane) are covered and predicates for both are built (C79_C80_locating_predicates_exist); C79_silence is an equivalence; finding: C79_line_inside_a_surface_missed; OpenGeode's floating point predicates are not modelled"
  },
  {
   "property": "C80",
   "status": "proved",
   "theorems": [
    "C79_C80_locating_predicates_exist",
    "C80_edge_in_space",
    "C80_edge_in_plane",
    "C80_list",
    "C80_silence",
    "C80_part_of_a_side"
   ],
   "note": "C28 tied to real geometry: C80_edge_in_space, C80_edge_in_plane for one edge and one triangle, C80_list and C80_silence for meshes; finding: C80_part_of_a_side (the plane version overlooks an edge inside a side, the space version reports it); OpenGeode's floating point predicates are not modelled"
  },
  {
   "property": "C81",
   "status": "proved",
   "theorems": [
    "C81_one_predicate",
    "C81_report",
    "C81_valid_is_embedded"
   ],
   "note": "C60, C77 and C79 combined: C81_one_predicate (the promises are compatible), C81_report, C81_valid_is_embedded (both directions); met by a tetrahedron in space (real_tet_valid, real_tet_embedded); OpenGeode's floating point predicates are not modelled"
  },
  {
   "property": "C82",
   "status": "proved",
   "theorems": [
    "C82_valid_is_drawn",
    "C82_valid_iff",
    "C82_covered_is_valid"
   ],
   "note": "C59 and C78 combined: C82_valid_is_drawn (both directions), C82_valid_iff (equivalence when all surfaces are active), met by a square cut in two (square_valid); finding: C82_covered_is_valid; OpenGeode's floating point predicates are not modelled"
  },
  {
   "property": "C83",
   "status": "proved",
   "theorems": [
    "C83_section",
    "C83_brep",
    "C83_same_verdict",
    "C83_sound_section",
    "C83_sound_brep"
   ],
   "note": "C70, C76 and C75 composed, with hypotheses on the first description only; the box trees of the second description are those of the first under the new identifiers (C71 covers other trees); C83_sound_section and C83_sound_brep combine with C59 and C60; the examples change everything at once in a triangle and a tetrahedron, sound and not"
  },
  {
   "property": "C84",
   "status": "proved",
   "theorems": [
    "C84_pointset",
    "C84_curve",
    "C84_surface",
    "C84_solid",
    "C84_section",
    "C84_brep",
    "C84_members",
    "C84_brep_count",
    "C84_no_count",
    "C84_pointset_verdict",
    "C84_curve_verdict",
    "C84_surface_verdict",
    "C84_solid_verdict",
    "C84_section_verdict",
    "C84_brep_verdict",
    "C84_surface_text",
    "C84_solid_text",
    "C84_section_text",
    "C84_brep_text",
    "C84_surface_refuted",
    "C84_section_refuted",
    "C84_brep_refuted",
    "C84_solid_refuted"
   ],
   "note": "exact list of what Python cannot read, proved for every report; four counterexamples (surface, solid, Section, BRep) where everything readable is empty and the object is invalid. BRep alone has nb_issues() in Python, which does count the hidden lists (C30)."
  },
  {
   "property": "C85",
   "status": "proved",
   "theorems": [
    "C85_same",
    "C85_pointset",
    "C85_curve",
    "C85_surface",
    "C85_solid",
    "C85_section",
    "C85_brep",
    "C85_if_always_taken",
    "C85_truth_refuted"
   ],
   "note": "the counts by C31; C85_if_always_taken and C85_truth_refuted: ObjectValidity has no __bool__ in Python. Truth value testing is that of the Python language reference (trusted)."
  },
  {
   "property": "C86",
   "status": "proved",
   "theorems": [
    "C86_point_set",
    "C86_edged_curve",
    "C86_surface",
    "C86_solid",
    "C86_self_intersections",
    "C86_curve_intersections",
    "C86_section_intersections",
    "C86_brep_intersections",
    "C86_model_self_intersections",
    "C86_section_other_boxes",
    "C86_brep_other_boxes",
    "C86_section_topology",
    "C86_brep_topology",
    "C86_brep_topology_valid",
    "C86_section_meshes",
    "C86_brep_meshes",
    "C86_section",
    "C86_brep"
   ],
   "note": "motions enter through the records geometry_follows, measures_follow, topo_follows and predicates_follow of Spec_Moved: OpenGeode's answers about moved points are those about the points (exact for OpenGeode up to rounding; trusted). Searches for intersections are compared through the same candidate pairs of the box trees, and (C86_section_other_boxes, C86_brep_other_boxes) through other ones that agree on the pairs that meet. back_oracles_follow / back_predicates_follow: such oracles exist for every invertible g."
  },
  {
   "property": "C87",
   "status": "proved",
   "theorems": [
    "C87_matrices",
    "C87_section",
    "C87_surfaces",
    "C87_brep",
    "C87_curve"
   ],
   "note": "exactness is the promise of the predicates used in C77-C80 (trusted of OpenGeode). follows_map asks that the moved points are finite and exactly at the images (no rounding). C87_matrices: every invertible matrix with a translation is such a map. Examples: a shear of a crossing of two triangles and of a line through a triangle."
  },
  {
   "property": "C88",
   "status": "proved",
   "theorems": [
    "C88_example",
    "C88_never_finishes",
    "C88_no_such_method",
    "C88_older_api",
    "C88_all_checks",
    "C88_forgotten_check",
    "C88_printed_twice"
   ],
   "note": "Model_Example.v transcribes examples/model_inspection.py and the three methods bound in brep_topology.hpp. Simplified: imports and the loading of the file succeed; print joins its arguments with single spaces; values other than numbers are written by a parameter. C88_older_api, C88_forgotten_check and C88_printed_twice range over every inspector object, so also over past or future versions of the class. C88_all_checks names the methods and texts apart from the model (Spec_Example)."
  },
  {
   "property": "C89",
   "status": "proved",
   "theorems": [
    "C89_point_set",
    "C89_curve",
    "C89_surface",
    "C89_intersections",
    "C89_far_pieces",
    "C89_solid",
    "C89_together"
   ],
   "note": "the searches of OpenGeode are assumed to answer inside a piece as when it is alone (colocated points: apart; turns around vertices and edges: pi_around, po_around, turns_around_solid_edges, same_failures; polygon intersections: blind_test). A solid whose turn around a vertex fails is outside the theorem, and a solid has simple facets and edges as in C73. The intersecting polygons are in C89_intersections and C89_far_pieces, apart from the other fields of a surface report. C89_together shows that any two closed surfaces can be put in one."
  },
  {
   "property": "C90",
   "status": "proved",
   "theorems": [
    "C90_surface",
    "C90_intersections",
    "C90_described_from",
    "C90_described_backwards",
    "C90_same_sign",
    "C90_opposite_sign"
   ],
   "note": "the turns around vertices answered by OpenGeode are assumed to be the same corners under their new numbers (rd_around), the heights of polygons and the geometric test of two polygons not to depend on the description; the sign of the area is compared when it is that of a sum over the sides (sign_by_sides), as the exact area is, which the rounded fan sum of OpenGeode only approaches. Polygons turned over one by one are outside: adjacent polygons then no longer agree on the direction of their common side, and the adjacency check reports it by design."
  },
  {
   "property": "C91",
   "status": "proved",
   "theorems": [
    "C91_solid",
    "C91_turned",
    "C91_even_swaps",
    "C91_odd_swaps",
    "C91_same_volumes"
   ],
   "note": "the turns around vertices answered by OpenGeode are assumed to be the same corners under their new numbers (rv_around) and the heights of polyhedra not to depend on the description; turning around edges is described as in C73 (each turn lists the polyhedra of one fan, in both meshes, and fails for the same edges in both); facets have distinct vertices, polyhedra distinct edges. The sign of the volume of a polyhedron with other than 4 vertices is OpenGeode's and is compared only when it is the same in both descriptions."
  },
  {
   "property": "C92",
   "status": "proved",
   "theorems": [
    "C92_section_line",
    "C92_brep_line",
    "C92_section_surface",
    "C92_brep_surface",
    "C92_section_surface_described",
    "C92_brep_surface_described",
    "C92_brep_block",
    "C92_brep_block_described"
   ],
   "note": "the same assumptions on the mesh and OpenGeode as C73, C90 and C91, for each component. Wrong adjacencies of border sides and facets are left out of the comparison: they are judged with the lines and surfaces around them, which may differ. Groups of colocated vertices are compared by their number, and only when two vertices of the component have one unique vertex in one model iff they have in the other (same_links); their members are those of C72. The report on each mesh alone is shorter than 2^32."
  },
  {
   "property": "C93",
   "status": "proved",
   "theorems": [
    "C93_section_topology",
    "C93_mesh_vertices",
    "C93_verdict",
    "C93_meshed_refuted"
   ],
   "note": "both Sections satisfy section_ok (unique identifiers, no blocks, links and embeddings to components of the Section, sizes below 2^32), with links and relationships inside each (closed_model). Messages are not compared."
  }
 ]
}