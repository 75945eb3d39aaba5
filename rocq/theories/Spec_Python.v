(** The data members of the C++ results, with their names in include/geode/inspector/inspection, each with the category it is;
    and the members a Python program cannot name. *)
From Coq Require Import String List Arith NArith Bool.
From Verif Require Import Base Model_Hash Model_Issues Types Model_Degeneration Model_Intersections Model_Topology Model_BRep Model_Blocks Model_Results Spec_Results.
Import ListNotations.
Local Open Scope string_scope.

Definition path := list string.
Definition under (name : string) (l : list (path * category)) : list (path * category) := map (fun x => (name :: fst x, snd x)) l.
Definition member (name : string) (c : category) : list (path * category) := [([name], c)].

(** pointset_inspector.hpp, edgedcurve_inspector.hpp, surface_inspector.hpp, solid_inspector.hpp *)
Definition pointset_members (r : PointSetResult) : list (path * category) := member "colocated_points_groups" (of_list (pr_colocated r)).
Definition curve_members (r : CurveResult) : list (path * category) :=
  (member "colocated_points_groups" (of_list (cr_colocated r)) ++ member "degenerated_edges" (of_list (cr_edges r)))%list.
Definition surface_members (r : SurfaceResult) : list (path * category) :=
  (member "polygon_edges_with_wrong_adjacency" (of_list (sr_adjacency r)) ++ member "colocated_points_groups" (of_list (sr_colocated r)) ++
   member "degenerated_edges" (of_list (sr_edges r)) ++ member "degenerated_polygons" (of_list (sr_polygons r)) ++
   member "non_manifold_edges" (of_list (sr_manifold_edges r)) ++ member "non_manifold_vertices" (of_list (sr_manifold_vertices r)) ++
   member "intersecting_elements" (of_list (sr_intersections r)) ++ member "negative_polygons" (of_list (sr_negative r)))%list.
Definition solid_members (r : SolidResult) : list (path * category) :=
  (member "polyhedron_facets_with_wrong_adjacency" (of_list (so_r_adjacency r)) ++ member "colocated_points_groups" (of_list (so_r_colocated r)) ++
   member "degenerated_edges" (of_list (so_r_edges r)) ++ member "degenerated_polyhedra" (of_list (so_r_polyhedra r)) ++
   member "non_manifold_vertices" (of_list (so_r_manifold_vertices r)) ++ member "non_manifold_edges" (of_list (so_r_manifold_edges r)) ++
   member "non_manifold_facets" (of_list (so_r_manifold_facets r)) ++ member "negative_polyhedra" (of_list (so_r_negative r)))%list.
(** criterion/colocation, criterion/adjacency, criterion/degeneration, criterion/intersections, criterion/manifold,
    criterion/negative_elements; criterion/section_meshes_inspector.hpp:38-47, criterion/brep_meshes_inspector.hpp:37-46 *)
Definition unique_vertices_members (r : UniqueVerticesResult) : list (path * category) :=
  (member "colocated_unique_vertices_groups" (of_list (ur_colocated r)) ++ member "unique_vertices_linked_to_different_points" (of_list (ur_different r)))%list.
Definition section_meshes_members ho (r : SectionMeshesResult) : list (path * category) :=
  (under "unique_vertices_colocation" (unique_vertices_members (sc_unique_vertices r)) ++
   under "meshes_colocation" (member "colocated_points_groups" (of_map ho (sc_colocation r))) ++
   under "meshes_adjacencies" (member "surfaces_edges_with_wrong_adjacencies" (of_map ho (sc_adjacency r))) ++
   under "meshes_degenerations" (member "degenerated_edges" (of_map ho (sd_edges (sc_degeneration r))) ++
                                 member "degenerated_polygons" (of_map ho (sd_polygons (sc_degeneration r)))) ++
   under "meshes_intersections" (member "elements_intersections" (of_list (sc_intersections r))) ++
   under "meshes_non_manifolds" (member "meshes_non_manifold_vertices" (of_map ho (sn_vertices (sc_manifold r))) ++
                                 member "meshes_non_manifold_edges" (of_map ho (sn_edges (sc_manifold r)))) ++
   under "meshes_negative_elements" (member "negative_polygons" (of_map ho (sc_negative r))))%list.
Definition brep_meshes_members ho (r : BRepMeshesResult) : list (path * category) :=
  (under "unique_vertices_colocation" (unique_vertices_members (br_unique_vertices r)) ++
   under "meshes_colocation" (member "colocated_points_groups" (of_map ho (br_colocation r))) ++
   under "meshes_adjacencies" (member "surfaces_edges_with_wrong_adjacencies" (of_map ho (ba_surfaces (br_adjacency r))) ++
                               member "blocks_facets_with_wrong_adjacencies" (of_map ho (ba_blocks (br_adjacency r)))) ++
   under "meshes_degenerations" (member "degenerated_edges" (of_map ho (dr_edges (br_degeneration r))) ++
                                 member "degenerated_polygons" (of_map ho (dr_polygons (br_degeneration r))) ++
                                 member "degenerated_polyhedra" (of_map ho (dr_polyhedra (br_degeneration r)))) ++
   under "meshes_intersections" (member "elements_intersections" (of_list (br_intersections r))) ++
   under "meshes_non_manifolds" (member "meshes_non_manifold_vertices" (of_map ho (bm_vertices (br_manifold r))) ++
                                 member "meshes_non_manifold_edges" (of_map ho (bm_edges (br_manifold r))) ++
                                 member "meshes_non_manifold_facets" (of_map ho (bm_facets (br_manifold r))) ++
                                 member "brep_non_manifold_edges" (of_list (bm_model_edges (br_manifold r))) ++
                                 member "brep_non_manifold_facets" (of_list (bm_model_facets (br_manifold r)))) ++
   under "meshes_negative_elements" (member "negative_polyhedra" (of_map ho (br_negative r))))%list.
(** topology/section_corners_topology.hpp, topology/brep_corners_topology.hpp (another name for the fourth list) *)
Definition corners_members (embedded : string) ho (r : CornersTopology) : list (path * category) :=
  (member "corners_not_meshed" (of_list (ct_not_meshed r)) ++ member "corners_not_linked_to_a_unique_vertex" (of_map ho (ct_not_linked r)) ++
   member "unique_vertices_linked_to_multiple_corners" (of_list (ct_multiple_corners r)) ++ member embedded (of_list (ct_multiple_embeddings r)) ++
   member "unique_vertices_linked_to_not_internal_nor_boundary_corner" (of_list (ct_not_internal_nor_boundary r)) ++
   member "unique_vertices_linked_to_not_boundary_line_corner" (of_list (ct_not_boundary_line r)))%list.
(** topology/section_lines_topology.hpp, topology/section_surfaces_topology.hpp, topology/section_topology.hpp *)
Definition section_lines_members ho (r : SectionLinesTopology) : list (path * category) :=
  (member "lines_not_meshed" (of_list (sl_not_meshed r)) ++ member "lines_not_linked_to_a_unique_vertex" (of_map ho (sl_not_linked r)) ++
   member "unique_vertices_linked_to_line_with_wrong_relationship_to_surface" (of_list (sl_wrong_relationship r)) ++
   member "unique_vertices_linked_to_a_line_with_invalid_embeddings" (of_list (sl_invalid_embeddings r)) ++
   member "unique_vertices_linked_to_a_single_and_invalid_line" (of_list (sl_single_invalid r)) ++
   member "unique_vertices_linked_to_several_lines_but_not_linked_to_a_corner" (of_list (sl_several_not_corner r)))%list.
Definition section_surfaces_members ho (r : SectionSurfacesTopology) : list (path * category) :=
  (member "surfaces_not_meshed" (of_list (ss_not_meshed r)) ++ member "surfaces_not_linked_to_a_unique_vertex" (of_map ho (ss_not_linked r)) ++
   member "unique_vertices_linked_to_a_surface_with_invalid_embbedings" (of_list (ss_invalid_embeddings r)) ++
   member "unique_vertices_linked_to_a_line_but_is_not_on_a_surface_border" (of_list (ss_not_on_border r)))%list.
Definition links_members (r : LinkIssues) : list (path * category) :=
  (member "unique_vertices_not_linked_to_any_component" (of_list (li_not_linked r)) ++
   member "unique_vertices_linked_to_inexistant_cmv" (of_list (li_inexistant r)) ++
   member "unique_vertices_nonbijectively_linked_to_cmv" (of_list (li_nonbijective r)))%list.
Definition section_topology_members ho (r : SectionTopology) : list (path * category) :=
  (under "corners" (corners_members "unique_vertices_linked_to_multiple_internals_corner" ho (st_corners r)) ++
   under "lines" (section_lines_members ho (st_lines r)) ++ under "surfaces" (section_surfaces_members ho (st_surfaces r)) ++ links_members (st_links r))%list.
(** topology/brep_lines_topology.hpp, topology/brep_surfaces_topology.hpp, topology/brep_blocks_topology.hpp, topology/brep_topology.hpp *)
Definition brep_lines_members ho (r : BRepLinesTopology) : list (path * category) :=
  (member "lines_not_meshed" (of_list (bl_not_meshed r)) ++
   member "unique_vertices_linked_to_line_with_wrong_relationship_to_surface" (of_list (bl_wrong_relationship r)) ++
   member "lines_not_linked_to_a_unique_vertex" (of_map ho (bl_not_linked r)) ++
   member "unique_vertices_linked_to_a_line_with_invalid_embeddings" (of_list (bl_invalid_embeddings r)) ++
   member "unique_vertices_linked_to_a_single_and_invalid_line" (of_list (bl_single_invalid r)) ++
   member "unique_vertices_linked_to_several_lines_but_not_linked_to_a_corner" (of_list (bl_several_not_corner r)) ++
   member "line_edges_with_wrong_component_edges_around" (of_map ho (bl_wrong_edges r)))%list.
Definition brep_surfaces_members ho (r : BRepSurfacesTopology) : list (path * category) :=
  (member "surfaces_not_meshed" (of_list (bs_not_meshed r)) ++ member "surfaces_not_linked_to_a_unique_vertex" (of_map ho (bs_not_linked r)) ++
   member "unique_vertices_linked_to_a_surface_with_invalid_embbedings" (of_list (bs_invalid_embeddings r)) ++
   member "unique_vertices_linked_to_several_and_invalid_surfaces" (of_list (bs_several_invalid r)) ++
   member "unique_vertices_linked_to_a_line_but_is_not_on_a_surface_border" (of_list (bs_not_on_border r)) ++
   member "surface_polygons_with_wrong_component_facets_around" (of_map ho (bs_wrong_facets r)))%list.
Definition brep_blocks_members ho (r : BRepBlocksTopology) : list (path * category) :=
  (member "some_blocks_not_meshed" (of_list (bb_not_meshed r)) ++ member "wrong_block_boundary_surface" (of_list (bb_wrong_boundary r)) ++
   member "blocks_not_linked_to_a_unique_vertex" (of_map ho (bb_not_linked r)) ++
   member "unique_vertices_part_of_two_blocks_and_no_boundary_surface" (of_list (bb_two_blocks r)) ++
   member "unique_vertices_with_incorrect_block_cmvs_count" (of_list (bb_wrong_count r)) ++
   member "unique_vertices_linked_to_surface_with_wrong_relationship_to_blocks" (of_list (bb_wrong_relationship r)) ++
   member "unique_vertices_linked_to_a_single_and_invalid_surface" (of_list (bb_single_invalid r)) ++
   member "blocks_with_not_closed_boundary_surfaces" (of_list (bb_not_closed r)) ++
   member "model_boundaries_dont_form_a_closed_surface" (of_list (bb_model_boundaries r)) ++
   member "unique_vertex_linked_to_multiple_invalid_surfaces" (of_list (bb_multiple_invalid r)))%list.
Definition brep_topology_members ho (r : BRepTopology) : list (path * category) :=
  (under "corners" (corners_members "unique_vertices_linked_to_multiply_embedded_corner" ho (bt_corners r)) ++
   under "lines" (brep_lines_members ho (bt_lines r)) ++ under "surfaces" (brep_surfaces_members ho (bt_surfaces r)) ++
   under "blocks" (brep_blocks_members ho (bt_blocks r)) ++ links_members (bt_links r))%list.
(** section_inspector.hpp, brep_inspector.hpp *)
Definition section_members ho (r : SectionResult) : list (path * category) :=
  (under "meshes" (section_meshes_members ho (r_section_meshes r)) ++ under "topology" (section_topology_members ho (r_section_topology r)))%list.
Definition brep_members ho (r : BRepResult) : list (path * category) :=
  (under "meshes" (brep_meshes_members ho (r_brep_meshes r)) ++ under "topology" (brep_topology_members ho (r_brep_topology r)))%list.

(** ** The members that cannot be read in Python *)
Definition surface_hidden : list path := [["negative_polygons"]].
Definition solid_hidden : list path := [["negative_polyhedra"]].
Definition section_hidden : list path :=
  [["meshes"; "meshes_negative_elements"; "negative_polygons"]; ["topology"; "unique_vertices_linked_to_inexistant_cmv"];
   ["topology"; "unique_vertices_nonbijectively_linked_to_cmv"]].
Definition brep_hidden : list path :=
  [["meshes"; "meshes_non_manifolds"; "brep_non_manifold_facets"]; ["meshes"; "meshes_negative_elements"; "negative_polyhedra"];
   ["topology"; "unique_vertices_linked_to_inexistant_cmv"]; ["topology"; "unique_vertices_nonbijectively_linked_to_cmv"]].
