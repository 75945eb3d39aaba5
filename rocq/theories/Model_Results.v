(** Result objects of the inspectors: their data members, [nb_issues()], [string()]; the functions that fill them; the
    validity objects (src/geode/inspector/validity).  Sums are [index_t] sums (modulo 2^32).  [ho] in a [string()] is the visiting
    order of the hash maps of the result.  [inspection_type()] is not modelled. *)
From Coq Require Import String Ascii List Arith NArith ZArith Bool Lia.
From Verif Require Import Base Model_Issues Types Model_Hash Model_Adjacency Model_Colocation Model_Degeneration Model_Negative Model_Manifold
  Model_Intersections Model_Topology Model_BRep Model_Blocks.
Import ListNotations.
Local Open Scope string_scope.

(** [a + b + c ...] of [index_t] *)
Definition sum32 (l : list N) : N := fold_left add32 l 0%N.
(** [if (x.nb_issues() != 0) absl::StrAppend(&message, x.string() [, "\n"])] *)
Definition append_if (n : N) (text : list string) (message : string) : string :=
  if N.eqb n 0 then message else StrCat (message :: text).
(** [if (!message.empty()) return message; return otherwise;] *)
Definition or_else (message otherwise : string) : string := match message with EmptyString => otherwise | _ => message end.

(** [async::parallel_invoke] whose exceptions are not caught: every task has run, the exception of the first raising task
    in argument order is rethrown (fork-join recursion of async++, see Model_Parallel). *)
Fixpoint parallel_invoke (l : list (outcome unit)) : outcome unit :=
  match l with
  | [] => Ok tt
  | UB :: _ => UB
  | Ok _ :: l' => parallel_invoke l'
  | Throw e :: l' => if existsb (fun o => match o with UB => true | _ => false end) l' then UB else Throw e
  end.

(** ** Single meshes *)

(** inspection/pointset_inspector.cpp:29-65, pointset_inspector.hpp:32-41 *)
Record PointSetResult := mkPointSetResult { pr_colocated : InspectionIssues (list nat) }.
Definition pointset_nb_issues (r : PointSetResult) : N := nb_issues (pr_colocated r).
Definition pointset_string (r : PointSetResult) : string := issues_string (pr_colocated r).
Definition inspect_point_set (geo : Geometry) (m : PointSet) : outcome PointSetResult :=
  let! c := colocated_points_groups geo (ps_points m) in Ok (mkPointSetResult c).

(** edgedcurve_inspector.cpp:31-75 *)
Record CurveResult := mkCurveResult { cr_colocated : InspectionIssues (list nat); cr_edges : InspectionIssues nat }.
Definition curve_nb_issues (r : CurveResult) : N := sum32 [nb_issues (cr_colocated r); nb_issues (cr_edges r)].
Definition curve_string (r : CurveResult) : string := StrCat [issues_string (cr_colocated r); issues_string (cr_edges r)].
Definition inspect_edged_curve (ms : Measures) (geo : Geometry) (m : EdgedCurve) : outcome CurveResult :=
  let colocated := colocated_points_groups geo (ec_points m) in
  let! _ := parallel_invoke [status colocated; Ok tt] in
  Ok (mkCurveResult (assigned (new_issues "Colocation of vertices not tested") colocated) (curve_degenerated_edges ms geo m)).

(** surface_inspector.cpp:32-109 *)
Record SurfaceResult := mkSurfaceResult {
  sr_adjacency : InspectionIssues PolygonEdge;
  sr_colocated : InspectionIssues (list nat);
  sr_edges : InspectionIssues nat;
  sr_polygons : InspectionIssues nat;
  sr_manifold_edges : InspectionIssues (nat * nat);
  sr_manifold_vertices : InspectionIssues nat;
  sr_intersections : InspectionIssues (nat * nat);
  sr_negative : InspectionIssues nat }.
Definition surface_nb_issues (r : SurfaceResult) : N :=
  sum32 [nb_issues (sr_adjacency r); nb_issues (sr_colocated r); nb_issues (sr_edges r); nb_issues (sr_polygons r);
         nb_issues (sr_manifold_edges r); nb_issues (sr_manifold_vertices r); nb_issues (sr_intersections r); nb_issues (sr_negative r)].
Definition surface_string (r : SurfaceResult) : string :=
  StrCat [issues_string (sr_adjacency r); issues_string (sr_colocated r); issues_string (sr_edges r); issues_string (sr_polygons r);
         issues_string (sr_manifold_edges r); issues_string (sr_manifold_vertices r); issues_string (sr_intersections r);
         issues_string (sr_negative r)].
(** surface_inspector.hpp:40-63 *)
Definition empty_surface_result : SurfaceResult :=
  mkSurfaceResult (new_issues "Adjacencies between polygon edges not tested") (new_issues "Colocation of vertices not tested")
    (new_issues "Degeneration of edges not tested") (new_issues "Degeneration of polygons not tested") (new_issues "Manifold of edges not tested")
    (new_issues "Manifold of vertices not tested") (new_issues "Intersection between mesh elements not tested")
    (new_issues "Negative polygons not tested").
(** the oracles a single mesh inspection needs; [o_intersections]: what the search for intersecting elements returned *)
Definition inspect_surface (ms : Measures) (geo : Geometry) (ho : HashOrder) (name : string) (m : SurfaceMesh) (st : EdgeState)
    (intersections : outcome (InspectionIssues (nat * nat))) : outcome SurfaceResult :=
  let d := empty_surface_result in
  let adjacency := polygon_edges_with_wrong_adjacency name m in
  let colocated := colocated_points_groups geo (sm_points m) in
  let edges := fst (surface_degenerated_edges ms geo m st) in
  let vertices := surface_non_manifold_vertices geo m in
  let! _ := parallel_invoke [status adjacency; status colocated; status edges; Ok tt; Ok tt; status vertices; status intersections; Ok tt] in
  Ok (mkSurfaceResult (assigned (sr_adjacency d) adjacency) (assigned (sr_colocated d) colocated) (assigned (sr_edges d) edges)
        (degenerated_polygons m) (surface_non_manifold_edges ho m) (assigned (sr_manifold_vertices d) vertices)
        (assigned (sr_intersections d) intersections) (negative_polygons ms m)).

(** solid_inspector.cpp:32-106 *)
Record SolidResult := mkSolidResult {
  so_r_adjacency : InspectionIssues PolyhedronFacet;
  so_r_colocated : InspectionIssues (list nat);
  so_r_edges : InspectionIssues nat;
  so_r_polyhedra : InspectionIssues nat;
  so_r_manifold_vertices : InspectionIssues nat;
  so_r_manifold_edges : InspectionIssues (nat * nat);
  so_r_manifold_facets : InspectionIssues (list nat);
  so_r_negative : InspectionIssues nat }.
Definition solid_nb_issues (r : SolidResult) : N :=
  sum32 [nb_issues (so_r_adjacency r); nb_issues (so_r_colocated r); nb_issues (so_r_edges r); nb_issues (so_r_polyhedra r);
         nb_issues (so_r_manifold_vertices r); nb_issues (so_r_manifold_edges r); nb_issues (so_r_manifold_facets r);
         nb_issues (so_r_negative r)].
Definition solid_string (r : SolidResult) : string :=
  StrCat [issues_string (so_r_adjacency r); issues_string (so_r_colocated r); issues_string (so_r_edges r); issues_string (so_r_polyhedra r);
         issues_string (so_r_manifold_vertices r); issues_string (so_r_manifold_edges r); issues_string (so_r_manifold_facets r);
         issues_string (so_r_negative r)].
(** solid_inspector.hpp:40-64 *)
Definition empty_solid_result : SolidResult :=
  mkSolidResult (new_issues "Adjacencies of facets not tested") (new_issues "Colocation of vertices not tested")
    (new_issues "Degeneration of edges not tested") (new_issues "Degeneration of polyhedra not tested")
    (new_issues "Manifold of vertices not tested") (new_issues "Manifold of edges not tested") (new_issues "Manifold of facets not tested")
    (new_issues "Negative polyhedra not tested").
Definition inspect_solid (ms : Measures) (geo : Geometry) (ho : HashOrder) (name : string) (m : SolidMesh) (st : EdgeState) : outcome SolidResult :=
  let d := empty_solid_result in
  let adjacency := polyhedron_facets_with_wrong_adjacency name m in
  let colocated := colocated_points_groups geo (so_points m) in
  let edges := fst (solid_degenerated_edges ms geo m st) in
  let vertices := solid_non_manifold_vertices geo m in
  let manifold_edges := solid_non_manifold_edges m in
  let! _ := parallel_invoke [status adjacency; status colocated; status edges; Ok tt; status vertices; status manifold_edges; Ok tt; Ok tt] in
  Ok (mkSolidResult (assigned (so_r_adjacency d) adjacency) (assigned (so_r_colocated d) colocated) (assigned (so_r_edges d) edges)
        (degenerated_polyhedra m) (assigned (so_r_manifold_vertices d) vertices) (assigned (so_r_manifold_edges d) manifold_edges)
        (solid_non_manifold_facets ho m) (negative_polyhedra ms m)).

(** ** Meshes of models *)

(** criterion/colocation/unique_vertices_colocation.cpp:175-190, .hpp:41-45 *)
Record UniqueVerticesResult := mkUniqueVerticesResult {
  ur_colocated : InspectionIssues (list nat);
  ur_different : InspectionIssues nat }.
Definition empty_unique_vertices : UniqueVerticesResult :=
  mkUniqueVerticesResult (new_issues "colocated unique vertices") (new_issues "unique vertex refering multiple positions").
Definition unique_vertices_nb_issues (r : UniqueVerticesResult) : N := sum32 [nb_issues (ur_colocated r); nb_issues (ur_different r)].
Definition unique_vertices_string (r : UniqueVerticesResult) : string := StrCat [issues_string (ur_colocated r); issues_string (ur_different r)].
(** unique_vertices_colocation.cpp:335-350 *)
Definition inspect_unique_vertices (geo : Geometry) (m : Model) : outcome UniqueVerticesResult :=
  let colocated := colocated_unique_vertices_groups geo m (ur_colocated empty_unique_vertices) in
  let different := unique_vertices_linked_to_different_points geo m (ur_different empty_unique_vertices) in
  let! _ := parallel_invoke [status colocated; status different] in
  Ok (mkUniqueVerticesResult (assigned (ur_colocated empty_unique_vertices) colocated) (assigned (ur_different empty_unique_vertices) different)).

(** criterion/colocation/component_meshes_colocation.cpp:235-253, 277-286 *)
Definition meshes_colocation_nb_issues (r : InspectionIssuesMap (list nat)) : N := map_nb_issues r.
Definition meshes_colocation_string ho (r : InspectionIssuesMap (list nat)) : string :=
  if N.eqb (map_nb_issues r) 0 then StrCat ["no issues of colocation in meshes "; newline] else map_string ho r.
Definition inspect_meshes_point_colocations (geo : Geometry) (m : Model) : outcome (InspectionIssuesMap (list nat)) :=
  add_model_components_colocated_points_groups geo m (new_issues_map "colocated points").

(** criterion/adjacency/brep_meshes_adjacency.cpp:43-67, 153-167 *)
Record BRepAdjacencyResult := mkBRepAdjacency {
  ba_surfaces : InspectionIssuesMap PolygonEdge;
  ba_blocks : InspectionIssuesMap PolyhedronFacet }.
Definition no_adjacency_text : string := StrCat ["no adjacency issues in model meshes "; newline].
Definition brep_adjacency_nb_issues (r : BRepAdjacencyResult) : N := sum32 [map_nb_issues (ba_surfaces r); map_nb_issues (ba_blocks r)].
Definition brep_adjacency_string ho (r : BRepAdjacencyResult) : string :=
  let message := EmptyString in
  let message := append_if (map_nb_issues (ba_surfaces r)) [map_string ho (ba_surfaces r)] message in
  let message := append_if (map_nb_issues (ba_blocks r)) [map_string ho (ba_blocks r)] message in
  or_else message no_adjacency_text.
Definition empty_brep_adjacency : BRepAdjacencyResult :=
  mkBRepAdjacency (new_issues_map "polygon edges adjacencies") (new_issues_map "polyhedron facets adjacencies").
Definition inspect_brep_meshes_adjacencies (lk : Lookup) (m : Model) : outcome BRepAdjacencyResult :=
  let surfaces := add_surfaces_edges_with_wrong_adjacencies lk m (ba_surfaces empty_brep_adjacency) in
  let blocks := add_blocks_facets_with_wrong_adjacencies lk m (ba_blocks empty_brep_adjacency) in
  let! _ := parallel_invoke [status surfaces; status blocks] in
  Ok (mkBRepAdjacency (assigned (ba_surfaces empty_brep_adjacency) surfaces) (assigned (ba_blocks empty_brep_adjacency) blocks)).
(** criterion/adjacency/section_meshes_adjacency.cpp:45-81 *)
Definition section_adjacency_nb_issues (r : InspectionIssuesMap PolygonEdge) : N := map_nb_issues r.
Definition section_adjacency_string ho (r : InspectionIssuesMap PolygonEdge) : string :=
  if N.eqb (map_nb_issues r) 0 then no_adjacency_text else map_string ho r.
Definition inspect_section_meshes_adjacencies (lk : Lookup) (m : Model) : outcome (InspectionIssuesMap PolygonEdge) :=
  add_surfaces_edges_with_wrong_adjacencies lk m (new_issues_map "polygon edges adjacencies").

(** criterion/degeneration/brep_meshes_degeneration.cpp:39-65 (note: no space before the line break) *)
Definition brep_degeneration_nb_issues (r : DegenerationResult) : N :=
  sum32 [map_nb_issues (dr_edges r); map_nb_issues (dr_polygons r); map_nb_issues (dr_polyhedra r)].
Definition brep_degeneration_string ho (r : DegenerationResult) : string :=
  let message := EmptyString in
  let message := append_if (map_nb_issues (dr_edges r)) [map_string ho (dr_edges r)] message in
  let message := append_if (map_nb_issues (dr_polygons r)) [map_string ho (dr_polygons r)] message in
  let message := append_if (map_nb_issues (dr_polyhedra r)) [map_string ho (dr_polyhedra r)] message in
  or_else message (StrCat ["no degeneration issues in model meshes"; newline]).
(** criterion/degeneration/section_meshes_degeneration.cpp:35-56, 83-91 *)
Record SectionDegenerationResult := mkSectionDegeneration {
  sd_edges : InspectionIssuesMap nat;
  sd_polygons : InspectionIssuesMap nat }.
Definition section_degeneration_nb_issues (r : SectionDegenerationResult) : N := sum32 [map_nb_issues (sd_edges r); map_nb_issues (sd_polygons r)].
Definition section_degeneration_string ho (r : SectionDegenerationResult) : string :=
  let message := EmptyString in
  let message := append_if (map_nb_issues (sd_edges r)) [map_string ho (sd_edges r)] message in
  let message := append_if (map_nb_issues (sd_polygons r)) [map_string ho (sd_polygons r)] message in
  or_else message (StrCat ["no degeneration issues in model meshes "; newline]).
Definition section_inspect_elements_degeneration ms geo m (st : ModelEdges) : outcome SectionDegenerationResult * ModelEdges :=
  let '(edges, st) := add_small_edges ms geo m GLOBAL_EPSILON (new_issues_map "degenerated edges") st in
  (let! edges := edges in
   Ok (mkSectionDegeneration edges (add_small_height_polygons m GLOBAL_EPSILON (new_issues_map "degenerated polygons"))), st).

(** criterion/intersections/model_intersections.cpp:569-577 *)
Definition intersections_nb_issues (r : Intersections) : N := nb_issues r.
Definition intersections_string (r : Intersections) : string := issues_string r.

(** criterion/manifold/brep_meshes_manifold.cpp:48-85, 303-316; .hpp:60-76 *)
Record BRepManifoldResult := mkBRepManifold {
  bm_vertices : InspectionIssuesMap nat;
  bm_edges : InspectionIssuesMap (nat * nat);
  bm_facets : InspectionIssuesMap (list nat);
  bm_model_edges : InspectionIssues BRepNonManifoldEdge;
  bm_model_facets : InspectionIssues BRepNonManifoldFacet }.
Definition no_manifold_text : string := StrCat ["no manifold issues in model meshes "; newline].
Definition brep_manifold_nb_issues (r : BRepManifoldResult) : N :=
  sum32 [map_nb_issues (bm_vertices r); map_nb_issues (bm_edges r); map_nb_issues (bm_facets r); nb_issues (bm_model_edges r);
         nb_issues (bm_model_facets r)].
Definition brep_manifold_string ho (r : BRepManifoldResult) : string :=
  let message := EmptyString in
  let message := append_if (map_nb_issues (bm_vertices r)) [map_string ho (bm_vertices r)] message in
  let message := append_if (map_nb_issues (bm_edges r)) [map_string ho (bm_edges r)] message in
  let message := append_if (map_nb_issues (bm_facets r)) [map_string ho (bm_facets r)] message in
  let message := append_if (nb_issues (bm_model_edges r)) [issues_string (bm_model_edges r)] message in
  let message := append_if (nb_issues (bm_model_facets r)) [issues_string (bm_model_facets r)] message in
  or_else message no_manifold_text.
Definition inspect_brep_manifold (geo : Geometry) (ho : HashOrder) (m : Model) : outcome BRepManifoldResult :=
  let! vertices := add_component_meshes_non_manifold_vertices geo m (new_issues_map "non manifold mesh vertices") in
  let! edges := add_component_meshes_non_manifold_edges ho m (new_issues_map "non manifold mesh edges") in
  let! facets := add_component_meshes_non_manifold_facets ho m (new_issues_map "non manifold mesh facets") in
  let! model_edges := add_model_non_manifold_edges ho m (new_issues "non manifold model edges") in
  let! model_facets := add_model_non_manifold_facets m (new_issues "non manifold model facets") in
  Ok (mkBRepManifold vertices edges facets model_edges model_facets).
(** criterion/manifold/section_meshes_manifold.cpp:35-57, 82-91 *)
Record SectionManifoldResult := mkSectionManifold {
  sn_vertices : InspectionIssuesMap nat;
  sn_edges : InspectionIssuesMap (nat * nat) }.
Definition section_manifold_nb_issues (r : SectionManifoldResult) : N := sum32 [map_nb_issues (sn_vertices r); map_nb_issues (sn_edges r)].
Definition section_manifold_string ho (r : SectionManifoldResult) : string :=
  let message := EmptyString in
  let message := append_if (map_nb_issues (sn_vertices r)) [map_string ho (sn_vertices r)] message in
  let message := append_if (map_nb_issues (sn_edges r)) [map_string ho (sn_edges r)] message in
  or_else message no_manifold_text.
Definition inspect_section_manifold (geo : Geometry) (ho : HashOrder) (m : Model) : outcome SectionManifoldResult :=
  let! vertices := add_surfaces_meshes_non_manifold_vertices geo m (new_issues_map "non manifold mesh vertices") in
  let! edges := add_surfaces_meshes_non_manifold_edges ho m (new_issues_map "non manifold mesh edges") in
  Ok (mkSectionManifold vertices edges).

(** criterion/negative_elements/brep_meshes_negative_elements.cpp:36-48 and section_meshes_negative_elements.cpp:38-50 *)
Definition negative_nb_issues (r : InspectionIssuesMap nat) : N := map_nb_issues r.
Definition brep_negative_string ho (r : InspectionIssuesMap nat) : string :=
  if N.eqb (map_nb_issues r) 0 then StrCat ["no negative polyhedra in model meshes"; newline] else map_string ho r.
Definition section_negative_string ho (r : InspectionIssuesMap nat) : string :=
  if N.eqb (map_nb_issues r) 0 then StrCat ["no negative polygons in model meshes"; newline] else map_string ho r.

(** criterion/brep_meshes_inspector.cpp:30-90 *)
Record BRepMeshesResult := mkBRepMeshes {
  br_unique_vertices : UniqueVerticesResult;
  br_colocation : InspectionIssuesMap (list nat);
  br_adjacency : BRepAdjacencyResult;
  br_degeneration : DegenerationResult;
  br_intersections : Intersections;
  br_manifold : BRepManifoldResult;
  br_negative : InspectionIssuesMap nat }.
Definition brep_meshes_nb_issues (r : BRepMeshesResult) : N :=
  sum32 [unique_vertices_nb_issues (br_unique_vertices r); meshes_colocation_nb_issues (br_colocation r);
         brep_adjacency_nb_issues (br_adjacency r); brep_degeneration_nb_issues (br_degeneration r);
         intersections_nb_issues (br_intersections r); brep_manifold_nb_issues (br_manifold r); negative_nb_issues (br_negative r)].
Definition brep_meshes_string ho (r : BRepMeshesResult) : string :=
  StrCat [unique_vertices_string (br_unique_vertices r); meshes_colocation_string ho (br_colocation r); brep_adjacency_string ho (br_adjacency r);
          brep_degeneration_string ho (br_degeneration r); intersections_string (br_intersections r); brep_manifold_string ho (br_manifold r);
          brep_negative_string ho (br_negative r)].
Definition empty_brep_manifold : BRepManifoldResult :=
  mkBRepManifold (new_issues_map "non manifold mesh vertices") (new_issues_map "non manifold mesh edges")
    (new_issues_map "non manifold mesh facets") (new_issues "non manifold model edges") (new_issues "non manifold model facets").
Definition empty_brep_meshes : BRepMeshesResult :=
  mkBRepMeshes empty_unique_vertices (new_issues_map "colocated points") empty_brep_adjacency empty_degeneration empty_intersections
    empty_brep_manifold (new_issues_map "negative polyhedra").
(** the oracles of an inspection of a whole model *)
Record Oracles := mkOracles {
  or_measures : Measures; or_geometry : Geometry; or_hash : HashOrder; or_lookup : Lookup; or_topo : TopoLookup }.
Definition inspect_brep_meshes (o : Oracles) (m : Model) (st : ModelEdges) (intersections : outcome Intersections) : outcome BRepMeshesResult :=
  let d := empty_brep_meshes in
  let unique_vertices := inspect_unique_vertices (or_geometry o) m in
  let colocation := inspect_meshes_point_colocations (or_geometry o) m in
  let adjacency := inspect_brep_meshes_adjacencies (or_lookup o) m in
  let degeneration := fst (inspect_elements_degeneration (or_measures o) (or_geometry o) m st) in
  let manifold := inspect_brep_manifold (or_geometry o) (or_hash o) m in
  let! _ := parallel_invoke [status unique_vertices; status colocation; status adjacency; status degeneration; status intersections;
                             status manifold; Ok tt] in
  Ok (mkBRepMeshes (assigned (br_unique_vertices d) unique_vertices) (assigned (br_colocation d) colocation)
        (assigned (br_adjacency d) adjacency) (assigned (br_degeneration d) degeneration) (assigned (br_intersections d) intersections)
        (assigned (br_manifold d) manifold) (brep_negative_elements (or_measures o) m)).

(** criterion/section_meshes_inspector.cpp:30-92 *)
Record SectionMeshesResult := mkSectionMeshes {
  sc_unique_vertices : UniqueVerticesResult;
  sc_colocation : InspectionIssuesMap (list nat);
  sc_adjacency : InspectionIssuesMap PolygonEdge;
  sc_degeneration : SectionDegenerationResult;
  sc_intersections : Intersections;
  sc_manifold : SectionManifoldResult;
  sc_negative : InspectionIssuesMap nat }.
Definition section_meshes_nb_issues (r : SectionMeshesResult) : N :=
  sum32 [unique_vertices_nb_issues (sc_unique_vertices r); meshes_colocation_nb_issues (sc_colocation r);
         section_adjacency_nb_issues (sc_adjacency r); section_degeneration_nb_issues (sc_degeneration r);
         intersections_nb_issues (sc_intersections r); section_manifold_nb_issues (sc_manifold r); negative_nb_issues (sc_negative r)].
Definition section_meshes_string ho (r : SectionMeshesResult) : string :=
  StrCat [unique_vertices_string (sc_unique_vertices r); meshes_colocation_string ho (sc_colocation r); section_adjacency_string ho (sc_adjacency r);
          section_degeneration_string ho (sc_degeneration r); intersections_string (sc_intersections r); section_manifold_string ho (sc_manifold r);
          section_negative_string ho (sc_negative r)].
Definition empty_section_meshes : SectionMeshesResult :=
  mkSectionMeshes empty_unique_vertices (new_issues_map "colocated points") (new_issues_map "polygon edges adjacencies")
    (mkSectionDegeneration (new_issues_map "degenerated edges") (new_issues_map "degenerated polygons")) empty_intersections
    (mkSectionManifold (new_issues_map "non manifold mesh vertices") (new_issues_map "non manifold mesh edges"))
    (new_issues_map "negative polygons").
Definition inspect_section_meshes (o : Oracles) (m : Model) (st : ModelEdges) (intersections : outcome Intersections) :
    outcome SectionMeshesResult :=
  let d := empty_section_meshes in
  let unique_vertices := inspect_unique_vertices (or_geometry o) m in
  let colocation := inspect_meshes_point_colocations (or_geometry o) m in
  let adjacency := inspect_section_meshes_adjacencies (or_lookup o) m in
  let degeneration := fst (section_inspect_elements_degeneration (or_measures o) (or_geometry o) m st) in
  let manifold := inspect_section_manifold (or_geometry o) (or_hash o) m in
  let! _ := parallel_invoke [status unique_vertices; status colocation; status adjacency; status degeneration; status intersections;
                             status manifold; Ok tt] in
  Ok (mkSectionMeshes (assigned (sc_unique_vertices d) unique_vertices) (assigned (sc_colocation d) colocation)
        (assigned (sc_adjacency d) adjacency) (assigned (sc_degeneration d) degeneration) (assigned (sc_intersections d) intersections)
        (assigned (sc_manifold d) manifold) (section_negative_elements (or_measures o) m)).

(** ** Topology *)

(** topology/section_corners_topology.cpp:37-90; topology/brep_corners_topology.cpp:38-91 is the same text with the list
    "multiply_embedded" for "multiple_internals" *)
Definition corners_nb_issues (r : CornersTopology) : N :=
  sum32 [nb_issues (ct_not_meshed r); map_nb_issues (ct_not_linked r); nb_issues (ct_multiple_corners r); nb_issues (ct_multiple_embeddings r);
         nb_issues (ct_not_internal_nor_boundary r); nb_issues (ct_not_boundary_line r)].
Definition corners_string ho (r : CornersTopology) : string :=
  let message := EmptyString in
  let message := append_if (nb_issues (ct_not_meshed r)) [issues_string (ct_not_meshed r)] message in
  let message := append_if (map_nb_issues (ct_not_linked r)) [map_string ho (ct_not_linked r)] message in
  let message := append_if (nb_issues (ct_multiple_corners r)) [issues_string (ct_multiple_corners r)] message in
  let message := append_if (nb_issues (ct_multiple_embeddings r)) [issues_string (ct_multiple_embeddings r)] message in
  let message := append_if (nb_issues (ct_not_internal_nor_boundary r)) [issues_string (ct_not_internal_nor_boundary r)] message in
  let message := append_if (nb_issues (ct_not_boundary_line r)) [issues_string (ct_not_boundary_line r)] message in
  or_else message (StrCat ["no issues with Corners topology "; newline]).

(** topology/section_lines_topology.cpp:42-100: the count forgets the last list, the text does not *)
Definition section_lines_nb_issues (r : SectionLinesTopology) : N :=
  sum32 [nb_issues (sl_not_meshed r); map_nb_issues (sl_not_linked r); nb_issues (sl_wrong_relationship r);
         nb_issues (sl_invalid_embeddings r); nb_issues (sl_single_invalid r)].
Definition section_lines_string ho (r : SectionLinesTopology) : string :=
  let message := EmptyString in
  let message := append_if (nb_issues (sl_not_meshed r)) [issues_string (sl_not_meshed r)] message in
  let message := append_if (map_nb_issues (sl_not_linked r)) [map_string ho (sl_not_linked r)] message in
  let message := append_if (nb_issues (sl_wrong_relationship r)) [issues_string (sl_wrong_relationship r)] message in
  let message := append_if (nb_issues (sl_invalid_embeddings r)) [issues_string (sl_invalid_embeddings r)] message in
  let message := append_if (nb_issues (sl_single_invalid r)) [issues_string (sl_single_invalid r)] message in
  let message := append_if (nb_issues (sl_several_not_corner r)) [issues_string (sl_several_not_corner r)] message in
  or_else message (StrCat ["no issues with Lines topology "; newline]).

(** topology/section_surfaces_topology.cpp:42-85 *)
Definition section_surfaces_nb_issues (r : SectionSurfacesTopology) : N :=
  sum32 [nb_issues (ss_not_meshed r); map_nb_issues (ss_not_linked r); nb_issues (ss_invalid_embeddings r); nb_issues (ss_not_on_border r)].
Definition section_surfaces_string ho (r : SectionSurfacesTopology) : string :=
  let message := EmptyString in
  let message := append_if (nb_issues (ss_not_meshed r)) [issues_string (ss_not_meshed r)] message in
  let message := append_if (map_nb_issues (ss_not_linked r)) [map_string ho (ss_not_linked r)] message in
  let message := append_if (nb_issues (ss_invalid_embeddings r)) [issues_string (ss_invalid_embeddings r)] message in
  let message := append_if (nb_issues (ss_not_on_border r)) [issues_string (ss_not_on_border r)] message in
  or_else message (StrCat ["no issues with Surfaces topology "; newline]).

(** topology/section_topology.cpp:42-57 *)
Definition section_topology_nb_issues (r : SectionTopology) : N :=
  sum32 [corners_nb_issues (st_corners r); section_lines_nb_issues (st_lines r); section_surfaces_nb_issues (st_surfaces r);
         nb_issues (li_not_linked (st_links r)); nb_issues (li_inexistant (st_links r)); nb_issues (li_nonbijective (st_links r))].
Definition section_topology_string ho (r : SectionTopology) : string :=
  StrCat [corners_string ho (st_corners r); section_lines_string ho (st_lines r); section_surfaces_string ho (st_surfaces r);
          issues_string (li_not_linked (st_links r)); issues_string (li_inexistant (st_links r)); issues_string (li_nonbijective (st_links r))].

(** topology/brep_lines_topology.cpp:44-111 *)
Definition brep_lines_nb_issues (r : BRepLinesTopology) : N :=
  sum32 [nb_issues (bl_not_meshed r); nb_issues (bl_wrong_relationship r); map_nb_issues (bl_not_linked r); nb_issues (bl_invalid_embeddings r);
         nb_issues (bl_single_invalid r); nb_issues (bl_several_not_corner r); map_nb_issues (bl_wrong_edges r)].
Definition brep_lines_string ho (r : BRepLinesTopology) : string :=
  let message := EmptyString in
  let message := append_if (nb_issues (bl_not_meshed r)) [issues_string (bl_not_meshed r)] message in
  let message := append_if (nb_issues (bl_wrong_relationship r)) [issues_string (bl_wrong_relationship r); newline] message in
  let message := append_if (map_nb_issues (bl_not_linked r)) [map_string ho (bl_not_linked r)] message in
  let message := append_if (nb_issues (bl_invalid_embeddings r)) [issues_string (bl_invalid_embeddings r)] message in
  let message := append_if (nb_issues (bl_single_invalid r)) [issues_string (bl_single_invalid r); newline] message in
  let message := append_if (nb_issues (bl_several_not_corner r)) [issues_string (bl_several_not_corner r)] message in
  let message := append_if (map_nb_issues (bl_wrong_edges r)) [map_string ho (bl_wrong_edges r)] message in
  or_else message (StrCat ["no issues with Lines topology "; newline]).

(** topology/brep_surfaces_topology.cpp:48-100: the polygons with wrong facets are neither counted nor printed *)
Definition brep_surfaces_nb_issues (r : BRepSurfacesTopology) : N :=
  sum32 [nb_issues (bs_not_meshed r); map_nb_issues (bs_not_linked r); nb_issues (bs_invalid_embeddings r); nb_issues (bs_not_on_border r);
         nb_issues (bs_several_invalid r)].
Definition brep_surfaces_string ho (r : BRepSurfacesTopology) : string :=
  let message := EmptyString in
  let message := append_if (nb_issues (bs_not_meshed r)) [issues_string (bs_not_meshed r)] message in
  let message := append_if (map_nb_issues (bs_not_linked r)) [map_string ho (bs_not_linked r)] message in
  let message := append_if (nb_issues (bs_invalid_embeddings r)) [issues_string (bs_invalid_embeddings r)] message in
  let message := append_if (nb_issues (bs_several_invalid r)) [issues_string (bs_several_invalid r)] message in
  let message := append_if (nb_issues (bs_not_on_border r)) [issues_string (bs_not_on_border r)] message in
  or_else message (StrCat ["no issues with Surfaces topology "; newline]).

(** topology/brep_blocks_topology.cpp:515-600 *)
Definition brep_blocks_nb_issues (r : BRepBlocksTopology) : N :=
  sum32 [nb_issues (bb_not_meshed r); nb_issues (bb_wrong_boundary r); map_nb_issues (bb_not_linked r); nb_issues (bb_not_closed r);
         nb_issues (bb_model_boundaries r); nb_issues (bb_two_blocks r); nb_issues (bb_wrong_count r); nb_issues (bb_wrong_relationship r);
         nb_issues (bb_single_invalid r); nb_issues (bb_multiple_invalid r)].
Definition brep_blocks_string ho (r : BRepBlocksTopology) : string :=
  let message := EmptyString in
  let message := append_if (nb_issues (bb_not_meshed r)) [issues_string (bb_not_meshed r); newline] message in
  let message := append_if (nb_issues (bb_wrong_boundary r)) [issues_string (bb_wrong_boundary r)] message in
  let message := append_if (map_nb_issues (bb_not_linked r)) [map_string ho (bb_not_linked r)] message in
  let message := append_if (nb_issues (bb_not_closed r)) [issues_string (bb_not_closed r)] message in
  let message := append_if (nb_issues (bb_model_boundaries r)) [issues_string (bb_model_boundaries r)] message in
  let message := append_if (nb_issues (bb_two_blocks r)) [issues_string (bb_two_blocks r); newline] message in
  let message := append_if (nb_issues (bb_wrong_count r)) [issues_string (bb_wrong_count r); newline] message in
  let message := append_if (nb_issues (bb_wrong_relationship r)) [issues_string (bb_wrong_relationship r); newline] message in
  let message := append_if (nb_issues (bb_single_invalid r)) [issues_string (bb_single_invalid r); newline] message in
  let message := append_if (nb_issues (bb_multiple_invalid r)) [issues_string (bb_multiple_invalid r); newline] message in
  or_else message (StrCat ["no issues with Blocks topology "; newline]).

(** topology/brep_topology.cpp:44-60 *)
Definition brep_topology_nb_issues (r : BRepTopology) : N :=
  sum32 [corners_nb_issues (bt_corners r); brep_lines_nb_issues (bt_lines r); brep_surfaces_nb_issues (bt_surfaces r);
         brep_blocks_nb_issues (bt_blocks r); nb_issues (li_not_linked (bt_links r)); nb_issues (li_inexistant (bt_links r));
         nb_issues (li_nonbijective (bt_links r))].
Definition brep_topology_string ho (r : BRepTopology) : string :=
  StrCat [corners_string ho (bt_corners r); brep_lines_string ho (bt_lines r); brep_surfaces_string ho (bt_surfaces r); brep_blocks_string ho (bt_blocks r);
          issues_string (li_not_linked (bt_links r)); issues_string (li_inexistant (bt_links r)); issues_string (li_nonbijective (bt_links r))].

(** ** Whole models: brep_inspector.cpp:32-65, section_inspector.cpp:32-65 *)
Record BRepResult := mkBRepResult { r_brep_meshes : BRepMeshesResult; r_brep_topology : BRepTopology }.
Definition brep_nb_issues (r : BRepResult) : N := sum32 [brep_meshes_nb_issues (r_brep_meshes r); brep_topology_nb_issues (r_brep_topology r)].
Definition brep_string ho (r : BRepResult) : string := StrCat [brep_meshes_string ho (r_brep_meshes r); brep_topology_string ho (r_brep_topology r)].
Definition empty_brep_topology : BRepTopology :=
  mkBRepTopology brep_corners_default brep_lines_default brep_surfaces_default brep_blocks_default no_links.
Definition inspect_brep (o : Oracles) (m : Model) (st : ModelEdges) (intersections : outcome Intersections) : outcome BRepResult :=
  let meshes := inspect_brep_meshes o m st intersections in
  let topology := inspect_brep_topology (or_topo o) m in
  let! _ := parallel_invoke [status meshes; status topology] in
  Ok (mkBRepResult (assigned empty_brep_meshes meshes) (assigned empty_brep_topology topology)).

Record SectionResult := mkSectionResult { r_section_meshes : SectionMeshesResult; r_section_topology : SectionTopology }.
Definition section_nb_issues (r : SectionResult) : N :=
  sum32 [section_meshes_nb_issues (r_section_meshes r); section_topology_nb_issues (r_section_topology r)].
Definition section_string ho (r : SectionResult) : string :=
  StrCat [section_meshes_string ho (r_section_meshes r); section_topology_string ho (r_section_topology r)].
Definition empty_section_topology : SectionTopology :=
  mkSectionTopology section_corners_default section_lines_default section_surfaces_default no_links.
Definition inspect_section (o : Oracles) (m : Model) (st : ModelEdges) (intersections : outcome Intersections) : outcome SectionResult :=
  let meshes := inspect_section_meshes o m st intersections in
  let topology := inspect_section_topology m in
  let! _ := parallel_invoke [status meshes; status topology] in
  Ok (mkSectionResult (assigned empty_section_meshes meshes) (assigned empty_section_topology topology)).
