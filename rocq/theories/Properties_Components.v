(** C72: the inspection of a model judges each component like the inspection of its mesh alone. *)
From Coq Require Import String Ascii List Arith NArith ZArith Bool Lia Permutation SpecFloat.
From Verif Require Import Base BaseFacts Model_Issues Types Model_Degeneration Model_Intersections Model_BRep Model_Results Spec_Colocation Spec_Degeneration Spec_Components
  Proof_Components2 Proof_TopologyCheck Properties_Topology Properties_BRep Properties_Blocks Proof_GoodModels.
Import ListNotations.
Open Scope list_scope.

(** A line: the degenerated edges are those of its curve; the colocated points are those of its curve, less the groups linked to
    a single unique vertex. *)
Theorem C72_section_line : forall o m qs s0 b0 st x r c, unique_ids m ->
  model_queries (or_measures o) (or_geometry o) m qs (new_model_inspector s0 b0) = Ok st ->
  inspect_section_meshes o m st x = Ok r -> In c (m_lines m) -> co_active c = true ->
  exists alone, inspect_edged_curve (or_measures o) (or_geometry o) (co_mesh c) = Ok alone /\ (curve_short alone ->
    colocation_as_alone m (mkCID LineT (co_id c)) (sc_colocation r) (cr_colocated alone) /\
    as_alone (co_id c) (sd_edges (sc_degeneration r)) (cr_edges alone)).
Proof. intros o m qs s0 b0 st x r c Hu Hq. exact (section_line o m st s0 b0 Hu (history_inv _ _ _ _ _ _ _ Hq) x r c). Qed.
Print Assumptions C72_section_line.
Theorem C72_brep_line : forall o m qs s0 b0 st x r c, unique_ids m ->
  model_queries (or_measures o) (or_geometry o) m qs (new_model_inspector s0 b0) = Ok st ->
  inspect_brep_meshes o m st x = Ok r -> In c (m_lines m) -> co_active c = true ->
  exists alone, inspect_edged_curve (or_measures o) (or_geometry o) (co_mesh c) = Ok alone /\ (curve_short alone ->
    colocation_as_alone m (mkCID LineT (co_id c)) (br_colocation r) (cr_colocated alone) /\
    as_alone (co_id c) (dr_edges (br_degeneration r)) (cr_edges alone)).
Proof. intros o m qs s0 b0 st x r c Hu Hq. exact (brep_line o m st s0 b0 Hu (history_inv _ _ _ _ _ _ _ Hq) x r c). Qed.
Print Assumptions C72_brep_line.
(** A surface, whatever the name of its mesh, whether its edges are stored or not ([e]), and whatever is found to intersect in it
    ([y]); the adjacency list of the model goes on with border edges. *)
Theorem C72_section_surface : forall o m qs s0 b0 st x r c name e y, unique_ids m ->
  model_queries (or_measures o) (or_geometry o) m qs (new_model_inspector s0 b0) = Ok st ->
  inspect_section_meshes o m st x = Ok r -> In c (m_surfaces m) -> co_active c = true ->
  exists alone, inspect_surface (or_measures o) (or_geometry o) (or_hash o) name (co_mesh c) (new_inspector e) (Ok y) = Ok alone /\
    (surface_short (co_mesh c) alone ->
     as_alone_then (edge_without_neighbour (co_mesh c)) (co_id c) (sc_adjacency r) (sr_adjacency alone) /\
     colocation_as_alone m (mkCID SurfaceT (co_id c)) (sc_colocation r) (sr_colocated alone) /\
     as_alone (co_id c) (sd_edges (sc_degeneration r)) (sr_edges alone) /\
     as_alone (co_id c) (sd_polygons (sc_degeneration r)) (sr_polygons alone) /\
     as_alone (co_id c) (sn_edges (sc_manifold r)) (sr_manifold_edges alone) /\
     as_alone (co_id c) (sn_vertices (sc_manifold r)) (sr_manifold_vertices alone) /\
     as_alone (co_id c) (sc_negative r) (sr_negative alone)).
Proof. intros o m qs s0 b0 st x r c name e y Hu Hq. exact (section_surface o m st s0 b0 Hu (history_inv _ _ _ _ _ _ _ Hq) x r c name e y). Qed.
Print Assumptions C72_section_surface.
Theorem C72_brep_surface : forall o m qs s0 b0 st x r c name e y, unique_ids m ->
  model_queries (or_measures o) (or_geometry o) m qs (new_model_inspector s0 b0) = Ok st ->
  inspect_brep_meshes o m st x = Ok r -> In c (m_surfaces m) -> co_active c = true ->
  exists alone, inspect_surface (or_measures o) (or_geometry o) (or_hash o) name (co_mesh c) (new_inspector e) (Ok y) = Ok alone /\
    (surface_short (co_mesh c) alone ->
     as_alone_then (edge_without_neighbour (co_mesh c)) (co_id c) (ba_surfaces (br_adjacency r)) (sr_adjacency alone) /\
     colocation_as_alone m (mkCID SurfaceT (co_id c)) (br_colocation r) (sr_colocated alone) /\
     as_alone (co_id c) (dr_edges (br_degeneration r)) (sr_edges alone) /\
     as_alone (co_id c) (dr_polygons (br_degeneration r)) (sr_polygons alone) /\
     as_alone (co_id c) (bm_edges (br_manifold r)) (sr_manifold_edges alone) /\
     as_alone (co_id c) (bm_vertices (br_manifold r)) (sr_manifold_vertices alone)).
Proof. intros o m qs s0 b0 st x r c name e y Hu Hq. exact (brep_surface o m st s0 b0 Hu (history_inv _ _ _ _ _ _ _ Hq) x r c name e y). Qed.
Print Assumptions C72_brep_surface.
Theorem C72_brep_block : forall o m qs s0 b0 st x r c name e, unique_ids m ->
  model_queries (or_measures o) (or_geometry o) m qs (new_model_inspector s0 b0) = Ok st ->
  inspect_brep_meshes o m st x = Ok r -> In c (m_blocks m) -> co_active c = true ->
  exists alone, inspect_solid (or_measures o) (or_geometry o) (or_hash o) name (co_mesh c) (new_inspector e) = Ok alone /\
    (solid_short (co_mesh c) alone ->
     as_alone_then (facet_without_neighbour (co_mesh c)) (co_id c) (ba_blocks (br_adjacency r)) (so_r_adjacency alone) /\
     colocation_as_alone m (mkCID BlockT (co_id c)) (br_colocation r) (so_r_colocated alone) /\
     as_alone (co_id c) (dr_edges (br_degeneration r)) (so_r_edges alone) /\
     as_alone (co_id c) (dr_polyhedra (br_degeneration r)) (so_r_polyhedra alone) /\
     as_alone (co_id c) (bm_vertices (br_manifold r)) (so_r_manifold_vertices alone) /\
     as_alone (co_id c) (bm_edges (br_manifold r)) (so_r_manifold_edges alone) /\
     as_alone (co_id c) (bm_facets (br_manifold r)) (so_r_manifold_facets alone) /\
     as_alone (co_id c) (br_negative r) (so_r_negative alone)).
Proof. intros o m qs s0 b0 st x r c name e Hu Hq. exact (brep_block o m st s0 b0 Hu (history_inv _ _ _ _ _ _ _ Hq) x r c name e). Qed.
Print Assumptions C72_brep_block.

(** ** A concrete case: a tetrahedron whose first line, first surface and block have defects *)
Definition scratched_measures : Measures :=
  mkMeasures (fun p _ => p) (fun p q => if same_point p q then d0 else far) (fun _ => true) (fun _ _ _ _ => true).
Definition scratched_line := mkComponent 10 None true
  (mkCurve [pt 0; pt 1; pt 1] [(0, 1); (1, 2)] (fun e => if Nat.eqb e 1 then d0 else far) (fun e => Nat.eqb e 1)).
Definition scratched_surface := mkComponent 100 None true
  (mkSurface 3 [pt 1; pt 2; pt 3; pt 3] [[0; 1; 2]; [0; 1; 2]; [0; 1; 3]] (fun e => if Nat.eqb (snd e) 0 then Some 2 else None) [(0, 1); (1, 2); (2, 3)]
     (fun p => Nat.eqb p 1) (fun p => if Nat.eqb p 1 then d0 else far) (fun v => Ok [(0, v)]) (fun _ => true)).
Definition scratched_block := mkComponent 1000 None true
  (mkSolid [pt 0; pt 1; pt 2; pt 3] [mkPolyhedron [0; 1; 2; 3] [[1; 2; 3]; [0; 3; 2]; [0; 1; 3]; [0; 2; 1]] [(0, 1); (0, 2); (0, 3); (1, 2); (1, 3); (2, 3)]]
     (fun _ => None) [(0, 1); (0, 0)] (fun _ => true) (fun _ => d0) (fun _ => far) (fun v => Ok [(0, v)]) (fun _ _ => Ok [0])).
Definition scratched_tet := a_brep [good_corner 0 0; good_corner 1 1; good_corner 2 2; good_corner 3 3]
  [scratched_line; good_line 11 0 2; good_line 12 0 3; good_line 13 1 2; good_line 14 1 3; good_line 15 2 3]
  [scratched_surface; good_surface 101 3 0 2 3; good_surface 102 3 0 1 3; good_surface 103 3 0 1 2]
  [scratched_block] [(5000, [100; 101; 102; 103])] tet_cmvs tet_bnd [].
Definition scratched_oracles := mkOracles scratched_measures exact_geo any_order tet_lk tet_tl.
Example scratched_report : unique_ids scratched_tet /\
  match inspect_brep_meshes scratched_oracles scratched_tet no_storage (Ok empty_intersections) with
  | Ok r => issues_for 10 (br_colocation r) = [[2; 1]] /\ issues_for 10 (dr_edges (br_degeneration r)) = [1] /\
            issues_for 100 (dr_edges (br_degeneration r)) = [2] /\ issues_for 100 (dr_polygons (br_degeneration r)) = [1] /\
            length (issues_for 100 (ba_surfaces (br_adjacency r))) = 5 /\ issues_for 100 (bm_edges (br_manifold r)) = [(0, 1); (1, 2); (0, 2)] /\
            issues_for 1000 (dr_edges (br_degeneration r)) = [1] /\ issues_for 1000 (br_negative r) = [0]
  | _ => False end /\
  match inspect_edged_curve scratched_measures exact_geo (co_mesh scratched_line) with
  | Ok r => ii_issues (cr_colocated r) = [[1; 2]] /\ ii_issues (cr_edges r) = [1] | _ => False end /\
  match inspect_surface scratched_measures exact_geo any_order "s"%string (co_mesh scratched_surface) (new_inspector true) (Ok (new_issues EmptyString)) with
  | Ok r => ii_issues (sr_edges r) = [2] /\ ii_issues (sr_polygons r) = [1] /\ length (ii_issues (sr_adjacency r)) = 3 /\ ii_issues (sr_manifold_edges r) = [(0, 1); (1, 2); (0, 2)]
  | _ => False end.
Proof. split; [apply nodupb_ok; vm_compute; reflexivity|]. vm_compute. repeat split; reflexivity. Qed.
