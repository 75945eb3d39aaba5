{
 "C01": {
  "note": "the count wraps at 2^32 issues (C01_count_refuted); exact below"
 },
 "C04": {
  "note": "the colocation mapping of the nearest neighbour search is arbitrary, subject to the stated contract; a mapping out of range is UB"
 },
 "C06": {
  "note": "'at most one vertex per unique vertex in a reported group' is false (C06_one_per_unique_vertex_refuted); reporting itself is exact"
 },
 "C12": {
  "note": "a block none of whose border facets is linked is never reported (C12_unlinked_block_is_silent)"
 },
 "C13": {
  "note": "exact while every edge has at most 256 uses; 257 uses wrap the 8-bit counter (C13_257_uses_are_manifold)"
 },
 "C15": {
  "note": "an exception of the turn around a vertex escapes (C15_failure_escapes)"
 },
 "C16": {
  "note": "list and yes/no answer differ when the turn around an edge fails (C16_failure)"
 },
 "C23": {
  "note": "some schedules read a dead loop variable (C23_dangling_read); every schedule that does not gives the same result"
 },
 "C25": {
  "note": "a polygon of 258 vertices yields no triangle (C25_fan_loses_triangles)"
 },
 "C27": {
  "note": "one active surface without polygon hides all intersections (C27_empty_surface_silences); exact otherwise"
 },
 "C29": {
  "note": "inclusions between Section triangles that share two vertices are missed (C29_section_inclusion_missed)"
 },
 "C30": {
  "note": "two categories are not counted (C30_C31_section_refuted, C30_C31_C32_brep_refuted); all other counts exact modulo 2^32"
 },
 "C31": {
  "note": "validity is exact for every category; nb_issues()=0 does not imply it (refuted theorems)"
 },
 "C32": {
  "note": "complete except for the facets of BRep surfaces, never printed (C32_facets_never_printed)"
 },
 "C33": {
  "note": "fork/join tasks, every interleaving; async++ itself is trusted"
 },
 "C34": {
  "note": "an exception in one topology category is swallowed; the report then looks empty (C34_empty_report_refuted, C34_valid_refuted)"
 },
 "C37": {
  "note": "the natural property is false; the theorems show the false report on a consistent model"
 },
 "C38": {
  "note": "vertex predicates and lists agree except for surfaces, in one direction (C38_surface_lists_imply_predicate_not_conversely, C38_invalid_but_not_reported)"
 },
 "C39": {
  "note": "neither direction holds in general: witnesses both ways; exact characterisations of both sides"
 },
 "C41": {
  "note": "a model boundary without surface is UB (C41_no_surface_is_undefined); exact otherwise"
 },
 "C43": {
  "note": "one of the documented errors is unreachable (C43_only_two_messages)"
 },
 "C46": {
  "note": "the prediction is computed modulo 2^32; exact under a bound on the number of links"
 },
 "C47": {
  "note": "right only when the shared vertices have the same numbers in both meshes (C47_same_numbers), out of range accesses otherwise (C47_out_of_range)"
 },
 "C49": {
  "note": "the outcome depends on the order of links (C49_link_order_matters) unless all lines are embedded"
 },
 "C52": {
  "note": "the inspection raises (C52_block_embedding_raises)"
 },
 "C53": {
  "note": "a first edge with an unlinked vertex makes the inspection raise or be undefined (C53_unlinked_first_edge)"
 },
 "C55": {
  "note": "the check can never report (C55_never_reports)"
 },
 "C60": {
  "note": "stated with the connected parts of the boundary surfaces of each block"
 },
 "C63": {
  "note": "the announced number of expected links can be 4294967295 (C63_expected_number_refuted)"
 },
 "C64": {
  "note": "clean text iff sound, except that wrong facets of a BRep are never printed (C64_clean_output_refuted)"
 },
 "C65": {
  "note": "unlinked polygon vertices are merged into one vertex (C65_geometry_lost_when_unlinked)"
 },
 "C66": {
  "note": "when no run of the intersection search of a model ends well, two runs may fail differently; nothing is claimed then"
 },
 "C67": {
  "note": "the conditions of C67_brep are necessary: a dangling first link, an unlinked single-edge line, an unlinked single-polygon surface, an unlinked first edge and an empty model boundary are each shown to prevent any result (the *_undefined theorems, with concrete models); the other conditions are necessary in the sense of C41, C47, C53; only the accesses the model marks as partial are covered (DESIGN.md)"
 },
 "C68": {
  "note": "false of the searches along borders (C68_borders_refuted) and of topology (C68_topology_refuted)"
 },
 "C69": {
  "note": "contract of OpenGeode's turn-around queries: they meet the elements linked to one of them; a vertex of a surface whose query raises is not listed; solid edges: no polyhedron has the same edge twice"
 },
 "C70": {
  "note": "the answers of OpenGeode searches by unique vertices, and the box trees of the intersection searches, are taken to be the same for both orders (C71 lets the box trees differ); the message of a non manifold edge of the model names its surfaces in the order of the model; BRep topology: both orders are assumed to return (C70_brep_topology_returns gives when they do)"
 },
 "C71": {
  "note": "symmetry of the OpenGeode predicates is a hypothesis (segments_symmetric, planes_symmetric), proved for exact predicates; false for Sections whose shared vertices have different numbers (C71_section_order_matters)"
 },
 "C72": {
  "note": "intersections are left out: a model compares vertices by unique vertex and reports pairs of components, a mesh alone by vertex number (C27, C47)"
 },
 "C73": {
  "note": "the searches of OpenGeode (colocated points, turns around vertices and edges, polygon intersections) are assumed not to depend on the numbers; the pairs of intersecting polygons are compared in C73_intersections, apart from the other fields of a surface report"
 },
 "C74": {
  "note": "C74_first_edge shows that the first edge of a line counts at all its vertices; the lists by component (unmeshed components, unlinked mesh vertices, wrong edges and facets, closed boundaries) are not by unique vertex and not part of this property"
 },
 "C75": {
  "note": "the inspections of intersections are related by C75_intersections (the same outcomes are possible) and then given to the whole inspection; exact_search_blind and the two examples show that the hypotheses hold; texts that print the number of a unique vertex are not compared (C62 and C63 say what they contain)"
 },
 "C76": {
  "note": "C76_back gives the converse directions (every run of the search in the renamed model is one in the model); texts, which print identifiers and names, are not compared except where they print neither (unique vertices); the three examples reverse the order of all identifiers"
 },
 "C77": {
  "note": "points are rational (finite doubles are rational, so touching in real space is touching at a rational point); C77_exact_predicates_exist exhibits predicates that keep all promises (a Fourier-Motzkin decision procedure); findings: C77_order_matters (a triangle nested on a common side is overlooked when the containing one comes first: only the sides of the first triangle are tested), C77_plane_reading (flat neighbours are all reported if 'parallel' means in the plane); what OpenGeode's floating point predicates really return is not modelled"
 },
 "C78": {
  "note": "the 2D counterpart of C77: pairs of sides are tested and sides on one line are skipped; proved that every overlap beyond the common part makes two sides that are not on one line touch off the common vertex, unless one triangle is inside the other; C78_exact_predicates_exist exhibits predicates that keep the promises of C77 and C78 together; findings: C78_hole_missed (containment is overlooked in both orders), C78_numbering_matters (without the condition on vertex numbers a conformal pair is reported even with exact predicates, cf. C47); OpenGeode's floating point predicates are not modelled"
 },
 "C79": {
  "note": "C48 stated with positions; here they are tied to real geometry over the rationals; both readings of 'parallel' (overlap, or touching in one plane) are covered and predicates for both are built (C79_C80_locating_predicates_exist); C79_silence is an equivalence; finding: C79_line_inside_a_surface_missed; OpenGeode's floating point predicates are not modelled"
 },
 "C80": {
  "note": "C28 tied to real geometry: C80_edge_in_space, C80_edge_in_plane for one edge and one triangle, C80_list and C80_silence for meshes; finding: C80_part_of_a_side (the plane version overlooks an edge inside a side, the space version reports it); OpenGeode's floating point predicates are not modelled"
 },
 "C81": {
  "note": "C60, C77 and C79 combined: C81_one_predicate (the promises are compatible), C81_report, C81_valid_is_embedded (both directions); met by a tetrahedron in space (real_tet_valid, real_tet_embedded); OpenGeode's floating point predicates are not modelled"
 },
 "C82": {
  "note": "C59 and C78 combined: C82_valid_is_drawn (both directions), C82_valid_iff (equivalence when all surfaces are active), met by a square cut in two (square_valid); finding: C82_covered_is_valid; OpenGeode's floating point predicates are not modelled"
 },
 "C83": {
  "note": "C70, C76 and C75 composed, with hypotheses on the first description only; the box trees of the second description are those of the first under the new identifiers (C71 covers other trees); C83_sound_section and C83_sound_brep combine with C59 and C60; the examples change everything at once in a triangle and a tetrahedron, sound and not"
 },
 "C84": {
  "note": "exact list of what Python cannot read, proved for every report; four counterexamples (surface, solid, Section, BRep) where everything readable is empty and the object is invalid. BRep alone has nb_issues() in Python, which does count the hidden lists (C30)."
 },
 "C85": {
  "note": "the counts by C31; C85_if_always_taken and C85_truth_refuted: ObjectValidity has no __bool__ in Python. Truth value testing is that of the Python language reference (trusted)."
 },
 "C86": {
  "note": "motions enter through the records geometry_follows, measures_follow, topo_follows and predicates_follow of Spec_Moved: OpenGeode's answers about moved points are those about the points (exact for OpenGeode up to rounding; trusted). Searches for intersections are compared through the same candidate pairs of the box trees, and (C86_section_other_boxes, C86_brep_other_boxes) through other ones that agree on the pairs that meet. back_oracles_follow / back_predicates_follow: such oracles exist for every invertible g."
 },
 "C87": {
  "note": "exactness is the promise of the predicates used in C77-C80 (trusted of OpenGeode). follows_map asks that the moved points are finite and exactly at the images (no rounding). C87_matrices: every invertible matrix with a translation is such a map. Examples: a shear of a crossing of two triangles and of a line through a triangle."
 },
 "C88": {
  "note": "Model_Example.v transcribes examples/model_inspection.py and the three methods bound in brep_topology.hpp. Simplified: imports and the loading of the file succeed; print joins its arguments with single spaces; values other than numbers are written by a parameter. C88_older_api, C88_forgotten_check and C88_printed_twice range over every inspector object, so also over past or future versions of the class. C88_all_checks names the methods and texts apart from the model (Spec_Example)."
 },
 "C89": {
  "note": "the searches of OpenGeode are assumed to answer inside a piece as when it is alone (colocated points: apart; turns around vertices and edges: pi_around, po_around, turns_around_solid_edges, same_failures; polygon intersections: blind_test). A solid whose turn around a vertex fails is outside the theorem, and a solid has simple facets and edges as in C73. The intersecting polygons are in C89_intersections and C89_far_pieces, apart from the other fields of a surface report. C89_together shows that any two closed surfaces can be put in one."
 },
 "C90": {
  "note": "the turns around vertices answered by OpenGeode are assumed to be the same corners under their new numbers (rd_around), the heights of polygons and the geometric test of two polygons not to depend on the description; the sign of the area is compared when it is that of a sum over the sides (sign_by_sides), as the exact area is, which the rounded fan sum of OpenGeode only approaches. Polygons turned over one by one are outside: adjacent polygons then no longer agree on the direction of their common side, and the adjacency check reports it by design."
 },
 "C91": {
  "note": "the turns around vertices answered by OpenGeode are assumed to be the same corners under their new numbers (rv_around) and the heights of polyhedra not to depend on the description; turning around edges is described as in C73 (each turn lists the polyhedra of one fan, in both meshes, and fails for the same edges in both); facets have distinct vertices, polyhedra distinct edges. The sign of the volume of a polyhedron with other than 4 vertices is OpenGeode's and is compared only when it is the same in both descriptions."
 },
 "C92": {
  "note": "the same assumptions on the mesh and OpenGeode as C73, C90 and C91, for each component. Wrong adjacencies of border sides and facets are left out of the comparison: they are judged with the lines and surfaces around them, which may differ. Groups of colocated vertices are compared by their number, and only when two vertices of the component have one unique vertex in one model iff they have in the other (same_links); their members are those of C72. The report on each mesh alone is shorter than 2^32."
 },
 "C93": {
  "note": "both Sections satisfy section_ok (unique identifiers, no blocks, links and embeddings to components of the Section, sizes below 2^32), with links and relationships inside each (closed_model). Messages are not compared."
 }
}
