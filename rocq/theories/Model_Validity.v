(** Model of src/geode/inspector/validity: one text per non-empty category of an inspection result. *)
From Coq Require Import String Ascii List Arith NArith ZArith Bool Lia.
From Verif Require Import Base Model_Issues Types Model_Hash Model_Degeneration Model_Intersections Model_Topology Model_BRep Model_Blocks Model_Results.
Import ListNotations.
Local Open Scope string_scope.

(** include/geode/inspector/validity/object_validity.hpp:30-43: [invalidities], and the conversion to bool *)
Definition ObjectValidity := list string.
Definition is_valid (v : ObjectValidity) : bool := match v with [] => true | _ => false end.
(** validity/object_validity.cpp:28-31 *)
Definition validity_nb_issues (v : ObjectValidity) : N := size32 v.
(** object_validity.cpp:33-41 *)
Definition validity_string (v : ObjectValidity) : string := fold_left (fun acc s => StrCat [acc; s]) v EmptyString.
(** [if (x.nb_issues() != 0) invalidities.emplace_back(x.string());] for a list and for a map *)
Definition add_list {T} (x : InspectionIssues T) (v : ObjectValidity) : ObjectValidity :=
  if N.eqb (nb_issues x) 0 then v else (v ++ [issues_string x])%list.
Definition add_map {T} (ho : HashOrder) (x : InspectionIssuesMap T) (v : ObjectValidity) : ObjectValidity :=
  if N.eqb (map_nb_issues x) 0 then v else (v ++ [map_string ho x])%list.

(** validity/pointset_validity.cpp:33-46 *)
Definition pointset_validity (r : PointSetResult) : ObjectValidity :=
  if N.eqb (pointset_nb_issues r) 0 then [] else [pointset_string r].
Definition is_pointset_valid geo (m : PointSet) : outcome ObjectValidity :=
  let! r := inspect_point_set geo m in Ok (pointset_validity r).
(** edgedcurve_validity.cpp:33-52 *)
Definition curve_validity (r : CurveResult) : ObjectValidity :=
  let v := [] in
  let v := add_list (cr_colocated r) v in
  let v := add_list (cr_edges r) v in v.
Definition is_edged_curve_valid ms geo (m : EdgedCurve) : outcome ObjectValidity :=
  let! r := inspect_edged_curve ms geo m in Ok (curve_validity r).
(** surface_validity.cpp:32-81 *)
Definition surface_validity (r : SurfaceResult) : ObjectValidity :=
  let v := [] in
  let v := add_list (sr_adjacency r) v in
  let v := add_list (sr_colocated r) v in
  let v := add_list (sr_edges r) v in
  let v := add_list (sr_polygons r) v in
  let v := add_list (sr_manifold_edges r) v in
  let v := add_list (sr_manifold_vertices r) v in
  let v := add_list (sr_intersections r) v in
  let v := add_list (sr_negative r) v in v.
Definition is_surface_valid ms geo ho name (m : SurfaceMesh) (st : EdgeState) intersections : outcome ObjectValidity :=
  let! r := inspect_surface ms geo ho name m st intersections in Ok (surface_validity r).
(** solid_validity.cpp:32-81 *)
Definition solid_validity (r : SolidResult) : ObjectValidity :=
  let v := [] in
  let v := add_list (so_r_adjacency r) v in
  let v := add_list (so_r_colocated r) v in
  let v := add_list (so_r_edges r) v in
  let v := add_list (so_r_polyhedra r) v in
  let v := add_list (so_r_manifold_vertices r) v in
  let v := add_list (so_r_manifold_edges r) v in
  let v := add_list (so_r_manifold_facets r) v in
  let v := add_list (so_r_negative r) v in v.
Definition is_solid_valid ms geo ho name (m : SolidMesh) (st : EdgeState) : outcome ObjectValidity :=
  let! r := inspect_solid ms geo ho name m st in Ok (solid_validity r).

(** brep_validity.cpp:33-55 and section_validity.cpp:33-55 *)
Definition add_colocation_issues ho (u : UniqueVerticesResult) (c : InspectionIssuesMap (list nat)) (v : ObjectValidity) : ObjectValidity :=
  let v := add_list (ur_colocated u) v in
  let v := add_list (ur_different u) v in
  let v := add_map ho c v in v.
(** brep_validity.cpp:57-72 *)
Definition add_brep_adjacencies_issues ho (r : BRepAdjacencyResult) (v : ObjectValidity) : ObjectValidity :=
  let v := add_map ho (ba_surfaces r) v in
  let v := add_map ho (ba_blocks r) v in v.
(** brep_validity.cpp:74-94 *)
Definition add_brep_degeneration_issues ho (r : DegenerationResult) (v : ObjectValidity) : ObjectValidity :=
  let v := add_map ho (dr_edges r) v in
  let v := add_map ho (dr_polygons r) v in
  let v := add_map ho (dr_polyhedra r) v in v.
(** brep_validity.cpp:96-126 *)
Definition add_brep_manifold_issues ho (r : BRepManifoldResult) (v : ObjectValidity) : ObjectValidity :=
  let v := add_map ho (bm_vertices r) v in
  let v := add_map ho (bm_edges r) v in
  let v := add_map ho (bm_facets r) v in
  let v := add_list (bm_model_edges r) v in
  let v := add_list (bm_model_facets r) v in v.
(** brep_validity.cpp:128-148 *)
Definition add_brep_meshes_invalidities ho (r : BRepMeshesResult) (v : ObjectValidity) : ObjectValidity :=
  let v := add_colocation_issues ho (br_unique_vertices r) (br_colocation r) v in
  let v := add_brep_adjacencies_issues ho (br_adjacency r) v in
  let v := add_brep_degeneration_issues ho (br_degeneration r) v in
  let v := add_list (br_intersections r) v in
  let v := add_brep_manifold_issues ho (br_manifold r) v in
  let v := add_map ho (br_negative r) v in v.
(** brep_validity.cpp:150-196, section_validity.cpp:125-171 *)
Definition add_corners_topology_issues ho (r : CornersTopology) (v : ObjectValidity) : ObjectValidity :=
  let v := add_list (ct_not_meshed r) v in
  let v := add_map ho (ct_not_linked r) v in
  let v := add_list (ct_multiple_corners r) v in
  let v := add_list (ct_multiple_embeddings r) v in
  let v := add_list (ct_not_internal_nor_boundary r) v in
  let v := add_list (ct_not_boundary_line r) v in v.
(** brep_validity.cpp:198-253 *)
Definition add_brep_lines_topology_issues ho (r : BRepLinesTopology) (v : ObjectValidity) : ObjectValidity :=
  let v := add_list (bl_not_meshed r) v in
  let v := add_list (bl_wrong_relationship r) v in
  let v := add_map ho (bl_not_linked r) v in
  let v := add_list (bl_invalid_embeddings r) v in
  let v := add_list (bl_single_invalid r) v in
  let v := add_list (bl_several_not_corner r) v in
  let v := add_map ho (bl_wrong_edges r) v in v.
(** brep_validity.cpp:255-305 *)
Definition add_brep_surfaces_topology_issues ho (r : BRepSurfacesTopology) (v : ObjectValidity) : ObjectValidity :=
  let v := add_list (bs_not_meshed r) v in
  let v := add_map ho (bs_not_linked r) v in
  let v := add_list (bs_invalid_embeddings r) v in
  let v := add_list (bs_several_invalid r) v in
  let v := add_list (bs_not_on_border r) v in
  let v := add_map ho (bs_wrong_facets r) v in v.
(** brep_validity.cpp:307-380 *)
Definition add_brep_blocks_topology_issues ho (r : BRepBlocksTopology) (v : ObjectValidity) : ObjectValidity :=
  let v := add_list (bb_not_meshed r) v in
  let v := add_list (bb_wrong_boundary r) v in
  let v := add_map ho (bb_not_linked r) v in
  let v := add_list (bb_two_blocks r) v in
  let v := add_list (bb_wrong_count r) v in
  let v := add_list (bb_wrong_relationship r) v in
  let v := add_list (bb_single_invalid r) v in
  let v := add_list (bb_not_closed r) v in
  let v := add_list (bb_model_boundaries r) v in
  let v := add_list (bb_multiple_invalid r) v in v.
(** brep_validity.cpp:382-404, section_validity.cpp:260-282 *)
Definition add_uv_topology_issues (r : LinkIssues) (v : ObjectValidity) : ObjectValidity :=
  let v := add_list (li_not_linked r) v in
  let v := add_list (li_inexistant r) v in
  let v := add_list (li_nonbijective r) v in v.
(** brep_validity.cpp:406-415 *)
Definition add_brep_topology_invalidities ho (r : BRepTopology) (v : ObjectValidity) : ObjectValidity :=
  let v := add_corners_topology_issues ho (bt_corners r) v in
  let v := add_brep_lines_topology_issues ho (bt_lines r) v in
  let v := add_brep_surfaces_topology_issues ho (bt_surfaces r) v in
  let v := add_brep_blocks_topology_issues ho (bt_blocks r) v in
  let v := add_uv_topology_issues (bt_links r) v in v.
(** brep_validity.cpp:420-429 *)
Definition brep_validity ho (r : BRepResult) : ObjectValidity :=
  add_brep_topology_invalidities ho (r_brep_topology r) (add_brep_meshes_invalidities ho (r_brep_meshes r) []).
Definition is_brep_valid (o : Oracles) (m : Model) (st : ModelEdges) intersections : outcome ObjectValidity :=
  let! r := inspect_brep o m st intersections in Ok (brep_validity (or_hash o) r).

(** section_validity.cpp:57-67 *)
Definition add_section_adjacencies_issues ho (r : InspectionIssuesMap PolygonEdge) (v : ObjectValidity) : ObjectValidity := add_map ho r v.
(** section_validity.cpp:69-84 *)
Definition add_section_degeneration_issues ho (r : SectionDegenerationResult) (v : ObjectValidity) : ObjectValidity :=
  let v := add_map ho (sd_edges r) v in
  let v := add_map ho (sd_polygons r) v in v.
(** section_validity.cpp:86-101 *)
Definition add_section_manifold_issues ho (r : SectionManifoldResult) (v : ObjectValidity) : ObjectValidity :=
  let v := add_map ho (sn_vertices r) v in
  let v := add_map ho (sn_edges r) v in v.
(** section_validity.cpp:103-123 *)
Definition add_section_meshes_invalidities ho (r : SectionMeshesResult) (v : ObjectValidity) : ObjectValidity :=
  let v := add_colocation_issues ho (sc_unique_vertices r) (sc_colocation r) v in
  let v := add_section_adjacencies_issues ho (sc_adjacency r) v in
  let v := add_section_degeneration_issues ho (sc_degeneration r) v in
  let v := add_list (sc_intersections r) v in
  let v := add_section_manifold_issues ho (sc_manifold r) v in
  let v := add_map ho (sc_negative r) v in v.
(** section_validity.cpp:173-222 *)
Definition add_section_lines_topology_issues ho (r : SectionLinesTopology) (v : ObjectValidity) : ObjectValidity :=
  let v := add_list (sl_not_meshed r) v in
  let v := add_map ho (sl_not_linked r) v in
  let v := add_list (sl_wrong_relationship r) v in
  let v := add_list (sl_invalid_embeddings r) v in
  let v := add_list (sl_single_invalid r) v in
  let v := add_list (sl_several_not_corner r) v in v.
(** section_validity.cpp:224-258 *)
Definition add_section_surfaces_topology_issues ho (r : SectionSurfacesTopology) (v : ObjectValidity) : ObjectValidity :=
  let v := add_list (ss_not_meshed r) v in
  let v := add_map ho (ss_not_linked r) v in
  let v := add_list (ss_invalid_embeddings r) v in
  let v := add_list (ss_not_on_border r) v in v.
(** section_validity.cpp:284-293 *)
Definition add_section_topology_invalidities ho (r : SectionTopology) (v : ObjectValidity) : ObjectValidity :=
  let v := add_corners_topology_issues ho (st_corners r) v in
  let v := add_section_lines_topology_issues ho (st_lines r) v in
  let v := add_section_surfaces_topology_issues ho (st_surfaces r) v in
  let v := add_uv_topology_issues (st_links r) v in v.
(** section_validity.cpp:297-307 *)
Definition section_validity ho (r : SectionResult) : ObjectValidity :=
  add_section_topology_invalidities ho (r_section_topology r) (add_section_meshes_invalidities ho (r_section_meshes r) []).
Definition is_section_valid (o : Oracles) (m : Model) (st : ModelEdges) intersections : outcome ObjectValidity :=
  let! r := inspect_section o m st intersections in Ok (section_validity (or_hash o) r).
