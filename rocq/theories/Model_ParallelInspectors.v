(** The programs run by the parallel inspections: their memories and what is read from them in the end. *)
From Coq Require Import String Ascii List Arith NArith ZArith Bool Lia.
From Verif Require Import Base Model_Issues Types Model_Hash Model_Adjacency Model_Colocation Model_Degeneration Model_Negative Model_Manifold
  Model_Intersections Model_Topology Model_BRep Model_Blocks Model_Results Model_Parallel.
Import ListNotations.

(** In each memory, [Li] are the local variables of function [i], paired with the data member of the result it fills.  The
    members begin as in the default result, the locals at any value.
    criterion/brep_meshes_inspector.cpp:64-89, section_meshes_inspector.cpp:65-91 *)
Section Meshes.
Context {L1 L2 L3 L4 L5 L6 L7 : Type}.
Variables (l1 : L1) (l2 : L2) (l3 : L3) (l4 : L4) (l5 : L5) (l6 : L6) (l7 : L7).
Definition read_brep_meshes (x : Mem8 (L1 * UniqueVerticesResult) (L2 * InspectionIssuesMap (list nat)) (L3 * BRepAdjacencyResult) (L4 * DegenerationResult)
    (L5 * Intersections) (L6 * BRepManifoldResult) (L7 * InspectionIssuesMap nat) unit) : BRepMeshesResult :=
  mkBRepMeshes (snd (v1 x)) (snd (v2 x)) (snd (v3 x)) (snd (v4 x)) (snd (v5 x)) (snd (v6 x)) (snd (v7 x)).
Definition start_brep_meshes :=
  let d := empty_brep_meshes in
  mkMem8 (l1, br_unique_vertices d) (l2, br_colocation d) (l3, br_adjacency d) (l4, br_degeneration d) (l5, br_intersections d) (l6, br_manifold d)
    (l7, br_negative d) tt.
Definition read_section_meshes (x : Mem8 (L1 * UniqueVerticesResult) (L2 * InspectionIssuesMap (list nat)) (L3 * InspectionIssuesMap PolygonEdge)
    (L4 * SectionDegenerationResult) (L5 * Intersections) (L6 * SectionManifoldResult) (L7 * InspectionIssuesMap nat) unit) : SectionMeshesResult :=
  mkSectionMeshes (snd (v1 x)) (snd (v2 x)) (snd (v3 x)) (snd (v4 x)) (snd (v5 x)) (snd (v6 x)) (snd (v7 x)).
Definition start_section_meshes :=
  let d := empty_section_meshes in
  mkMem8 (l1, sc_unique_vertices d) (l2, sc_colocation d) (l3, sc_adjacency d) (l4, sc_degeneration d) (l5, sc_intersections d) (l6, sc_manifold d)
    (l7, sc_negative d) tt.
End Meshes.
(** calls with two functions, see [invoke2] *)
Section Pairs.
Context {L1 L2 : Type}.
Variables (l1 : L1) (l2 : L2).
Notation Mem2 A B := (Mem8 (L1 * A) (L2 * B) unit unit unit unit unit unit).
Definition start2 {A B} (a : A) (b : B) : Mem2 A B := mkMem8 (l1, a) (l2, b) tt tt tt tt tt tt.
Definition read2 {A B C} (f : A -> B -> C) (x : Mem2 A B) : C := f (snd (v1 x)) (snd (v2 x)).
End Pairs.
(** surface_inspector.cpp:74-109, solid_inspector.cpp:73-106 *)
Section Single.
Context {L1 L2 L3 L4 L5 L6 L7 L8 : Type}.
Variables (l1 : L1) (l2 : L2) (l3 : L3) (l4 : L4) (l5 : L5) (l6 : L6) (l7 : L7) (l8 : L8).
Definition read_surface (x : Mem8 (L1 * InspectionIssues PolygonEdge) (L2 * InspectionIssues (list nat)) (L3 * InspectionIssues nat) (L4 * InspectionIssues nat)
    (L5 * InspectionIssues (nat * nat)) (L6 * InspectionIssues nat) (L7 * InspectionIssues (nat * nat)) (L8 * InspectionIssues nat)) : SurfaceResult :=
  mkSurfaceResult (snd (v1 x)) (snd (v2 x)) (snd (v3 x)) (snd (v4 x)) (snd (v5 x)) (snd (v6 x)) (snd (v7 x)) (snd (v8 x)).
Definition start_surface :=
  let d := empty_surface_result in
  mkMem8 (l1, sr_adjacency d) (l2, sr_colocated d) (l3, sr_edges d) (l4, sr_polygons d) (l5, sr_manifold_edges d) (l6, sr_manifold_vertices d)
    (l7, sr_intersections d) (l8, sr_negative d).
Definition read_solid (x : Mem8 (L1 * InspectionIssues PolyhedronFacet) (L2 * InspectionIssues (list nat)) (L3 * InspectionIssues nat) (L4 * InspectionIssues nat)
    (L5 * InspectionIssues nat) (L6 * InspectionIssues (nat * nat)) (L7 * InspectionIssues (list nat)) (L8 * InspectionIssues nat)) : SolidResult :=
  mkSolidResult (snd (v1 x)) (snd (v2 x)) (snd (v3 x)) (snd (v4 x)) (snd (v5 x)) (snd (v6 x)) (snd (v7 x)) (snd (v8 x)).
Definition start_solid :=
  let d := empty_solid_result in
  mkMem8 (l1, so_r_adjacency d) (l2, so_r_colocated d) (l3, so_r_edges d) (l4, so_r_polyhedra d) (l5, so_r_manifold_vertices d) (l6, so_r_manifold_edges d)
    (l7, so_r_manifold_facets d) (l8, so_r_negative d).
End Single.
(** topology/section_topology.cpp:172-197, brep_topology.cpp:176-205 *)
Section Topology.
Context {L1 L2 L3 L4 L5 : Type}.
Variables (l1 : L1) (l2 : L2) (l3 : L3) (l4 : L4) (l5 : L5).
Definition read_section_topology (x : Mem8 (L1 * CornersTopology) (L2 * SectionLinesTopology) (L3 * SectionSurfacesTopology) unit (L5 * LinkIssues) unit unit unit) : SectionTopology :=
  mkSectionTopology (snd (v1 x)) (snd (v2 x)) (snd (v3 x)) (snd (v5 x)).
Definition start_section_topology :=
  mkMem8 (l1, section_corners_default) (l2, section_lines_default) (l3, section_surfaces_default) tt (l5, no_links) tt tt tt.
Definition read_brep_topology (x : Mem8 (L1 * CornersTopology) (L2 * BRepLinesTopology) (L3 * BRepSurfacesTopology) (L4 * BRepBlocksTopology) (L5 * LinkIssues)
    unit unit unit) : BRepTopology :=
  mkBRepTopology (snd (v1 x)) (snd (v2 x)) (snd (v3 x)) (snd (v4 x)) (snd (v5 x)).
Definition start_brep_topology :=
  mkMem8 (l1, brep_corners_default) (l2, brep_lines_default) (l3, brep_surfaces_default) (l4, brep_blocks_default) (l5, no_links) tt tt tt.
End Topology.

(** a function call filling a variable at once, when its steps do not matter *)
Definition at_once {R} (o : outcome R) : proc (unit * R) := Act (store snd_region o).
(** [for (x : l) r = f(r, x);] where [r] is a result member passed by reference *)
Definition loop {A R} (f : R -> A -> outcome R) (l : list A) : proc (unit * R) :=
  Seqs (map (fun x => Act (on snd_region (fun r => match f r x with Ok v => (Ok tt, v) | Throw e => (Throw e, r) | UB => (UB, r) end))) l).
(** the steps of brep_meshes_adjacency.cpp:157-165: one component at a time *)
Definition adjacency_program (lk : Lookup) (m : Model) : proc (Mem8 _ _ unit unit unit unit unit unit) :=
  invoke2 (loop (fun acc s => let! r := surface_adjacency_issues lk m s in Ok (add_issues_to_map (co_id s) r acc)) (active (m_surfaces m)))
          (loop (fun acc b => let! r := block_adjacency_issues lk m b in Ok (add_issues_to_map (co_id b) r acc)) (active (m_blocks m))).
(** the steps of brep_meshes_degeneration.cpp:140-149: edge storages of the meshes, and the local [result]; the surface
    tasks are one step here (their own schedules: [spawned_tasks] in Model_Degeneration) *)
Record DegenerationMemory := mkDM { dm_storage : ModelEdges; dm_result : DegenerationResult }.
Definition degeneration_program (ms : Measures) (geo : Geometry) (m : Model) : proc DegenerationMemory :=
  Seq (Act (fun x => let '(o, st) := add_small_edges ms geo m GLOBAL_EPSILON (dr_edges (dm_result x)) (dm_storage x) in
                     let r := dm_result x in
                     (status o, mkDM st (mkDegenerationResult (assigned (dr_edges r) o) (dr_polygons r) (dr_polyhedra r)))))
 (Seq (Act (fun x => let r := dm_result x in
                     (Ok tt, mkDM (dm_storage x) (mkDegenerationResult (dr_edges r) (add_small_height_polygons m GLOBAL_EPSILON (dr_polygons r)) (dr_polyhedra r)))))
      (Seqs (map (fun b => Act (fun x =>
                     let r := dm_result x in
                     let '(o, st) := block_small_elements ms geo m GLOBAL_EPSILON b (Ok (dr_edges r, dr_polyhedra r), dm_storage x) in
                     let maps := assigned (dr_edges r, dr_polyhedra r) o in
                     (status o, mkDM st (mkDegenerationResult (fst maps) (dr_polygons r) (snd maps)))))
                 (active (m_blocks m))))).

(** brep_inspector.cpp:53-68 with everything it calls: the mesh inspections (two of them parallel themselves) beside the
    topology inspection *)
Section WholeBRep.
Context {U1 U2 C A1 A2 D I N G T1 T2 T3 T4 T5 : Type}.
Variables (unique1 : proc (U1 * InspectionIssues (list nat))) (unique2 : proc (U2 * InspectionIssues nat)) (colocation : proc (C * InspectionIssuesMap (list nat)))
  (adjacency1 : proc (A1 * InspectionIssuesMap PolygonEdge)) (adjacency2 : proc (A2 * InspectionIssuesMap PolyhedronFacet)) (degeneration : proc (D * DegenerationResult))
  (intersections : proc (I * Intersections)) (manifold : proc (N * BRepManifoldResult)) (negative : proc (G * InspectionIssuesMap nat))
  (corners : proc (T1 * CornersTopology)) (lines : proc (T2 * BRepLinesTopology)) (surfaces : proc (T3 * BRepSurfacesTopology)) (blocks : proc (T4 * BRepBlocksTopology))
  (links : proc (T5 * LinkIssues)).
Definition whole_brep_program : proc (Mem8 _ _ unit unit unit unit unit unit) :=
  invoke2
    (assign_result
       (invoke7 (assign_result (invoke2 unique1 unique2) (read2 mkUniqueVerticesResult)) colocation
          (assign_result (invoke2 adjacency1 adjacency2) (read2 mkBRepAdjacency)) degeneration intersections manifold negative) read_brep_meshes)
    (assign_result (caught4 corners lines surfaces blocks links) read_brep_topology).
Variables (u1 : U1) (u2 : U2) (c : C) (a1 : A1) (a2 : A2) (d : D) (i : I) (n : N) (g : G) (t1 : T1) (t2 : T2) (t3 : T3) (t4 : T4) (t5 : T5).
Definition whole_brep_start :=
  start2
    (start_brep_meshes (start2 u1 u2 (ur_colocated empty_unique_vertices) (ur_different empty_unique_vertices)) c
       (start2 a1 a2 (ba_surfaces empty_brep_adjacency) (ba_blocks empty_brep_adjacency)) d i n g)
    (start_brep_topology t1 t2 t3 t4 t5) empty_brep_meshes empty_brep_topology.
End WholeBRep.
