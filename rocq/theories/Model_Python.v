(** Model of the Python view of the inspection results, bindings/python/src/inspection: what [inspect_*] returns to a Python
    program is an object whose attributes are those that [def_readwrite] lists, and nothing else of the C++ object can be read.
    Simplifications: attributes are only read (they are also writable), the lists of issues themselves ([issues()],
    [issues_map()]) are represented by their number and their text, and [inspection_type] is left out. *)
From Coq Require Import String Ascii List Arith NArith ZArith Bool.
From Verif Require Import Base Model_Hash Model_Issues Types Model_Degeneration Model_Intersections Model_Topology Model_BRep Model_Blocks Model_Results.
Import ListNotations.
Local Open Scope string_scope.

(** a Python object of the module: a container of issues (inspection/information.hpp:34-53) with [nb_issues()] and [string()], or a
    result with named attributes, [string()] and, for some classes only, [nb_issues()] *)
Inductive PyObject :=
| PyIssues (nb_issues : N) (text : string)
| PyResult (attributes : list (string * PyObject)) (text : string) (nb_issues : option N).

(** [object.name]; [None] is AttributeError *)
Fixpoint getattr (name : string) (l : list (string * PyObject)) : option PyObject :=
  match l with [] => None | (n, o) :: l' => if String.eqb name n then Some o else getattr name l' end.
(** [object.a.b.c] *)
Fixpoint get (path : list string) (o : PyObject) : option PyObject :=
  match path with
  | [] => Some o
  | name :: path' =>
    match o with
    | PyIssues _ _ => None
    | PyResult l _ _ => match getattr name l with Some o' => get path' o' | None => None end
    end
  end.
(** [object.string()] and [object.nb_issues()] ([None] is AttributeError) *)
Definition py_string (o : PyObject) : string := match o with PyIssues _ t => t | PyResult _ t _ => t end.
Definition py_nb_issues (o : PyObject) : option N := match o with PyIssues n _ => Some n | PyResult _ _ n => n end.

(** information.hpp:37-44 *)
Definition py_list {T} (x : InspectionIssues T) : PyObject := PyIssues (nb_issues x) (issues_string x).
(** information.hpp:46-53 *)
Definition py_map {T} (ho : HashOrder) (x : InspectionIssuesMap T) : PyObject := PyIssues (map_nb_issues x) (map_string ho x).

(** pointset_inspector.hpp:53-60 *)
Definition py_pointset (r : PointSetResult) : PyObject :=
  PyResult [("colocated_points_groups", py_list (pr_colocated r))] (pointset_string r) None.
(** edgedcurve_inspector.hpp:56-65 *)
Definition py_curve (r : CurveResult) : PyObject :=
  PyResult [("colocated_points_groups", py_list (cr_colocated r)); ("degenerated_edges", py_list (cr_edges r))] (curve_string r) None.
(** surface_inspector.hpp:59-78: no [negative_polygons] *)
Definition py_surface (r : SurfaceResult) : PyObject :=
  PyResult [("polygon_edges_with_wrong_adjacency", py_list (sr_adjacency r)); ("colocated_points_groups", py_list (sr_colocated r));
            ("degenerated_edges", py_list (sr_edges r)); ("degenerated_polygons", py_list (sr_polygons r));
            ("non_manifold_edges", py_list (sr_manifold_edges r)); ("non_manifold_vertices", py_list (sr_manifold_vertices r));
            ("intersecting_elements", py_list (sr_intersections r))] (surface_string r) None.
(** solid_inspector.hpp:57-75: no [negative_polyhedra] *)
Definition py_solid (r : SolidResult) : PyObject :=
  PyResult [("polyhedron_facets_with_wrong_adjacency", py_list (so_r_adjacency r)); ("colocated_points_groups", py_list (so_r_colocated r));
            ("degenerated_edges", py_list (so_r_edges r)); ("degenerated_polyhedra", py_list (so_r_polyhedra r));
            ("non_manifold_vertices", py_list (so_r_manifold_vertices r)); ("non_manifold_edges", py_list (so_r_manifold_edges r));
            ("non_manifold_facets", py_list (so_r_manifold_facets r))] (solid_string r) None.

(** criterion/colocation/unique_vertices_colocation.hpp:33-44 *)
Definition py_unique_vertices (r : UniqueVerticesResult) : PyObject :=
  PyResult [("colocated_unique_vertices_groups", py_list (ur_colocated r));
            ("unique_vertices_linked_to_different_points", py_list (ur_different r))] (unique_vertices_string r) None.
(** criterion/colocation/component_meshes_colocation.hpp:43-50 *)
Definition py_meshes_colocation ho (r : InspectionIssuesMap (list nat)) : PyObject :=
  PyResult [("colocated_points_groups", py_map ho r)] (meshes_colocation_string ho r) None.
(** criterion/adjacency/brep_meshes_adjacency.hpp:32-43 *)
Definition py_brep_adjacency ho (r : BRepAdjacencyResult) : PyObject :=
  PyResult [("surfaces_edges_with_wrong_adjacencies", py_map ho (ba_surfaces r)); ("blocks_facets_with_wrong_adjacencies", py_map ho (ba_blocks r))]
    (brep_adjacency_string ho r) None.
(** criterion/adjacency/section_meshes_adjacency.hpp:32-40 *)
Definition py_section_adjacency ho (r : InspectionIssuesMap PolygonEdge) : PyObject :=
  PyResult [("surfaces_edges_with_wrong_adjacencies", py_map ho r)] (section_adjacency_string ho r) None.
(** criterion/degeneration/brep_meshes_degeneration.hpp:32-43 *)
Definition py_brep_degeneration ho (r : DegenerationResult) : PyObject :=
  PyResult [("degenerated_edges", py_map ho (dr_edges r)); ("degenerated_polygons", py_map ho (dr_polygons r));
            ("degenerated_polyhedra", py_map ho (dr_polyhedra r))] (brep_degeneration_string ho r) None.
(** criterion/degeneration/section_meshes_degeneration.hpp:32-42 *)
Definition py_section_degeneration ho (r : SectionDegenerationResult) : PyObject :=
  PyResult [("degenerated_edges", py_map ho (sd_edges r)); ("degenerated_polygons", py_map ho (sd_polygons r))]
    (section_degeneration_string ho r) None.
(** criterion/intersections/model_intersections.hpp:44-51 *)
Definition py_intersections (r : Intersections) : PyObject :=
  PyResult [("elements_intersections", py_list r)] (intersections_string r) None.
(** criterion/manifold/brep_meshes_manifold.hpp:43-58: no [brep_non_manifold_facets] *)
Definition py_brep_manifold ho (r : BRepManifoldResult) : PyObject :=
  PyResult [("meshes_non_manifold_vertices", py_map ho (bm_vertices r)); ("meshes_non_manifold_edges", py_map ho (bm_edges r));
            ("meshes_non_manifold_facets", py_map ho (bm_facets r)); ("brep_non_manifold_edges", py_list (bm_model_edges r))]
    (brep_manifold_string ho r) None.
(** criterion/manifold/section_meshes_manifold.hpp:32-43 *)
Definition py_section_manifold ho (r : SectionManifoldResult) : PyObject :=
  PyResult [("meshes_non_manifold_vertices", py_map ho (sn_vertices r)); ("meshes_non_manifold_edges", py_map ho (sn_edges r))]
    (section_manifold_string ho r) None.
(** criterion/brep_meshes_inspector.hpp:32-49: no [meshes_negative_elements] *)
Definition py_brep_meshes ho (r : BRepMeshesResult) : PyObject :=
  PyResult [("unique_vertices_colocation", py_unique_vertices (br_unique_vertices r)); ("meshes_colocation", py_meshes_colocation ho (br_colocation r));
            ("meshes_adjacencies", py_brep_adjacency ho (br_adjacency r)); ("meshes_degenerations", py_brep_degeneration ho (br_degeneration r));
            ("meshes_intersections", py_intersections (br_intersections r)); ("meshes_non_manifolds", py_brep_manifold ho (br_manifold r))]
    (brep_meshes_string ho r) None.
(** criterion/section_meshes_inspector.hpp:32-49: no [meshes_negative_elements] *)
Definition py_section_meshes ho (r : SectionMeshesResult) : PyObject :=
  PyResult [("unique_vertices_colocation", py_unique_vertices (sc_unique_vertices r)); ("meshes_colocation", py_meshes_colocation ho (sc_colocation r));
            ("meshes_adjacencies", py_section_adjacency ho (sc_adjacency r)); ("meshes_degenerations", py_section_degeneration ho (sc_degeneration r));
            ("meshes_intersections", py_intersections (sc_intersections r)); ("meshes_non_manifolds", py_section_manifold ho (sc_manifold r))]
    (section_meshes_string ho r) None.

(** topology/section_topology.hpp:32-57; topology/brep_topology.hpp:33-58 has "multiply_embedded" for "multiple_internals" *)
Definition py_corners (embedded : string) ho (r : CornersTopology) : PyObject :=
  PyResult [("corners_not_meshed", py_list (ct_not_meshed r)); ("corners_not_linked_to_a_unique_vertex", py_map ho (ct_not_linked r));
            ("unique_vertices_linked_to_multiple_corners", py_list (ct_multiple_corners r)); (embedded, py_list (ct_multiple_embeddings r));
            ("unique_vertices_linked_to_not_internal_nor_boundary_corner", py_list (ct_not_internal_nor_boundary r));
            ("unique_vertices_linked_to_not_boundary_line_corner", py_list (ct_not_boundary_line r))] (corners_string ho r) None.
(** topology/section_topology.hpp:59-85 *)
Definition py_section_lines ho (r : SectionLinesTopology) : PyObject :=
  PyResult [("lines_not_meshed", py_list (sl_not_meshed r)); ("lines_not_linked_to_a_unique_vertex", py_map ho (sl_not_linked r));
            ("unique_vertices_linked_to_line_with_wrong_relationship_to_surface", py_list (sl_wrong_relationship r));
            ("unique_vertices_linked_to_a_line_with_invalid_embeddings", py_list (sl_invalid_embeddings r));
            ("unique_vertices_linked_to_a_single_and_invalid_line", py_list (sl_single_invalid r));
            ("unique_vertices_linked_to_several_lines_but_not_linked_to_a_corner", py_list (sl_several_not_corner r))] (section_lines_string ho r) None.
(** topology/section_topology.hpp:87-105 *)
Definition py_section_surfaces ho (r : SectionSurfacesTopology) : PyObject :=
  PyResult [("surfaces_not_meshed", py_list (ss_not_meshed r)); ("surfaces_not_linked_to_a_unique_vertex", py_map ho (ss_not_linked r));
            ("unique_vertices_linked_to_a_surface_with_invalid_embbedings", py_list (ss_invalid_embeddings r));
            ("unique_vertices_linked_to_a_line_but_is_not_on_a_surface_border", py_list (ss_not_on_border r))] (section_surfaces_string ho r) None.
(** topology/section_topology.hpp:107-120: only one of the three lists of links *)
Definition py_section_topology ho (r : SectionTopology) : PyObject :=
  PyResult [("corners", py_corners "unique_vertices_linked_to_multiple_internals_corner" ho (st_corners r)); ("lines", py_section_lines ho (st_lines r));
            ("surfaces", py_section_surfaces ho (st_surfaces r));
            ("unique_vertices_not_linked_to_any_component", py_list (li_not_linked (st_links r)))] (section_topology_string ho r) None.
(** topology/brep_topology.hpp:60-89 *)
Definition py_brep_lines ho (r : BRepLinesTopology) : PyObject :=
  PyResult [("lines_not_meshed", py_list (bl_not_meshed r)); ("lines_not_linked_to_a_unique_vertex", py_map ho (bl_not_linked r));
            ("unique_vertices_linked_to_line_with_wrong_relationship_to_surface", py_list (bl_wrong_relationship r));
            ("unique_vertices_linked_to_a_line_with_invalid_embeddings", py_list (bl_invalid_embeddings r));
            ("unique_vertices_linked_to_a_single_and_invalid_line", py_list (bl_single_invalid r));
            ("unique_vertices_linked_to_several_lines_but_not_linked_to_a_corner", py_list (bl_several_not_corner r));
            ("line_edges_with_wrong_component_edges_around", py_map ho (bl_wrong_edges r))] (brep_lines_string ho r) None.
(** topology/brep_topology.hpp:91-117 *)
Definition py_brep_surfaces ho (r : BRepSurfacesTopology) : PyObject :=
  PyResult [("surfaces_not_meshed", py_list (bs_not_meshed r)); ("surfaces_not_linked_to_a_unique_vertex", py_map ho (bs_not_linked r));
            ("unique_vertices_linked_to_a_surface_with_invalid_embbedings", py_list (bs_invalid_embeddings r));
            ("unique_vertices_linked_to_several_and_invalid_surfaces", py_list (bs_several_invalid r));
            ("unique_vertices_linked_to_a_line_but_is_not_on_a_surface_border", py_list (bs_not_on_border r));
            ("surface_polygons_with_wrong_component_facets_around", py_map ho (bs_wrong_facets r))] (brep_surfaces_string ho r) None.
(** topology/brep_topology.hpp:119-156 *)
Definition py_brep_blocks ho (r : BRepBlocksTopology) : PyObject :=
  PyResult [("some_blocks_not_meshed", py_list (bb_not_meshed r)); ("wrong_block_boundary_surface", py_list (bb_wrong_boundary r));
            ("blocks_not_linked_to_a_unique_vertex", py_map ho (bb_not_linked r));
            ("unique_vertices_part_of_two_blocks_and_no_boundary_surface", py_list (bb_two_blocks r));
            ("unique_vertices_with_incorrect_block_cmvs_count", py_list (bb_wrong_count r));
            ("unique_vertices_linked_to_surface_with_wrong_relationship_to_blocks", py_list (bb_wrong_relationship r));
            ("unique_vertices_linked_to_a_single_and_invalid_surface", py_list (bb_single_invalid r));
            ("unique_vertex_linked_to_multiple_invalid_surfaces", py_list (bb_multiple_invalid r));
            ("blocks_with_not_closed_boundary_surfaces", py_list (bb_not_closed r));
            ("model_boundaries_dont_form_a_closed_surface", py_list (bb_model_boundaries r))] (brep_blocks_string ho r) None.
(** topology/brep_topology.hpp:158-171: only one of the three lists of links *)
Definition py_brep_topology ho (r : BRepTopology) : PyObject :=
  PyResult [("corners", py_corners "unique_vertices_linked_to_multiply_embedded_corner" ho (bt_corners r)); ("lines", py_brep_lines ho (bt_lines r));
            ("surfaces", py_brep_surfaces ho (bt_surfaces r)); ("blocks", py_brep_blocks ho (bt_blocks r));
            ("unique_vertices_not_linked_to_any_component", py_list (li_not_linked (bt_links r)))] (brep_topology_string ho r) None.
(** section_inspector.hpp:34-41: no [nb_issues] *)
Definition py_section ho (r : SectionResult) : PyObject :=
  PyResult [("meshes", py_section_meshes ho (r_section_meshes r)); ("topology", py_section_topology ho (r_section_topology r))] (section_string ho r) None.
(** brep_inspector.hpp:32-39 *)
Definition py_brep ho (r : BRepResult) : PyObject :=
  PyResult [("meshes", py_brep_meshes ho (r_brep_meshes r)); ("topology", py_brep_topology ho (r_brep_topology r))] (brep_string ho r) (Some (brep_nb_issues r)).

(** ** The verdicts in Python *)
(** bindings/python/src/validity/object_validity.hpp:30-38: what the class gives to Python; [pv_bool] and [pv_len] are the special methods
    [__bool__] and [__len__], which the class does not define (the C++ conversion to bool, include/.../object_validity.hpp:32-35, is not bound) *)
Record PyValidity := mkPyValidity {
  pv_nb_issues : N;
  pv_string : string;
  pv_invalidities : list string;
  pv_bool : option bool;
  pv_len : option N }.
Definition py_validity (v : list string) : PyValidity :=
  mkPyValidity (size32 v) (fold_left (fun acc s => StrCat [acc; s]) v EmptyString) v None None.
(** [if validity:] in Python (truth value testing of the language): [__bool__] if there is one, else whether [__len__] is not 0,
    else true *)
Definition py_truth (v : PyValidity) : bool :=
  match pv_bool v with
  | Some b => b
  | None => match pv_len v with Some n => negb (N.eqb n 0) | None => true end
  end.
