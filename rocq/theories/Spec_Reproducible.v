(** When two runs of an inspection "say the same thing": the same issues, up to the order of the lists that come out of hash
    maps or of box tree traversals. *)
From Coq Require Import String Ascii List Arith Bool Permutation.
From Verif Require Import Base Model_Issues Types Model_Hash Model_Degeneration Model_Intersections Model_Topology Model_BRep Model_Blocks Model_Results.
Import ListNotations.
Open Scope list_scope.

(** the same pairs (issue, message), in some order *)
Definition same_issues {T} (x y : InspectionIssues T) : Prop :=
  ii_description x = ii_description y /\
  exists l l' : list (T * string), Permutation l l' /\ ii_issues x = map fst l /\ ii_messages x = map snd l /\
    ii_issues y = map fst l' /\ ii_messages y = map snd l'.
(** the same components, with the same issues *)
Definition same_map {T} (x y : InspectionIssuesMap T) : Prop :=
  im_description x = im_description y /\
  Forall2 (fun a b => fst a = fst b /\ same_issues (snd a) (snd b)) (im_map x) (im_map y).
(** the lines of a text *)
Fixpoint lines (s : string) : list string :=
  match s with
  | EmptyString => [EmptyString]
  | String c s' =>
    if Ascii.eqb c (ascii_of_nat 10) then EmptyString :: lines s'
    else match lines s' with [] => [String c EmptyString] | l :: ls => String c l :: ls end
  end.
Definition same_lines (s s' : string) : Prop := Permutation (lines s) (lines s').

(** ** Results: what does not depend on an order is equal *)
Record same_surface_result (r r' : SurfaceResult) : Prop := {
  sur_adjacency : sr_adjacency r = sr_adjacency r';
  sur_colocated : sr_colocated r = sr_colocated r';
  sur_edges : sr_edges r = sr_edges r';
  sur_polygons : sr_polygons r = sr_polygons r';
  sur_manifold_edges : same_issues (sr_manifold_edges r) (sr_manifold_edges r');
  sur_manifold_vertices : sr_manifold_vertices r = sr_manifold_vertices r';
  sur_intersections : same_issues (sr_intersections r) (sr_intersections r');
  sur_negative : sr_negative r = sr_negative r' }.
Record same_solid_result (r r' : SolidResult) : Prop := {
  sor_adjacency : so_r_adjacency r = so_r_adjacency r';
  sor_colocated : so_r_colocated r = so_r_colocated r';
  sor_edges : so_r_edges r = so_r_edges r';
  sor_polyhedra : so_r_polyhedra r = so_r_polyhedra r';
  sor_manifold_vertices : so_r_manifold_vertices r = so_r_manifold_vertices r';
  sor_manifold_edges : so_r_manifold_edges r = so_r_manifold_edges r';
  sor_manifold_facets : same_issues (so_r_manifold_facets r) (so_r_manifold_facets r');
  sor_negative : so_r_negative r = so_r_negative r' }.
Record same_section_result (r r' : SectionResult) : Prop := {
  ser_topology : r_section_topology r = r_section_topology r';
  ser_unique_vertices : sc_unique_vertices (r_section_meshes r) = sc_unique_vertices (r_section_meshes r');
  ser_colocation : sc_colocation (r_section_meshes r) = sc_colocation (r_section_meshes r');
  ser_adjacency : sc_adjacency (r_section_meshes r) = sc_adjacency (r_section_meshes r');
  ser_degeneration : sc_degeneration (r_section_meshes r) = sc_degeneration (r_section_meshes r');
  ser_intersections : same_issues (sc_intersections (r_section_meshes r)) (sc_intersections (r_section_meshes r'));
  ser_manifold_vertices : sn_vertices (sc_manifold (r_section_meshes r)) = sn_vertices (sc_manifold (r_section_meshes r'));
  ser_manifold_edges : same_map (sn_edges (sc_manifold (r_section_meshes r))) (sn_edges (sc_manifold (r_section_meshes r')));
  ser_negative : sc_negative (r_section_meshes r) = sc_negative (r_section_meshes r') }.
Record same_brep_result (r r' : BRepResult) : Prop := {
  bre_topology : r_brep_topology r = r_brep_topology r';
  bre_unique_vertices : br_unique_vertices (r_brep_meshes r) = br_unique_vertices (r_brep_meshes r');
  bre_colocation : br_colocation (r_brep_meshes r) = br_colocation (r_brep_meshes r');
  bre_adjacency : br_adjacency (r_brep_meshes r) = br_adjacency (r_brep_meshes r');
  bre_degeneration : br_degeneration (r_brep_meshes r) = br_degeneration (r_brep_meshes r');
  bre_intersections : same_issues (br_intersections (r_brep_meshes r)) (br_intersections (r_brep_meshes r'));
  bre_manifold_vertices : bm_vertices (br_manifold (r_brep_meshes r)) = bm_vertices (br_manifold (r_brep_meshes r'));
  bre_manifold_edges : same_map (bm_edges (br_manifold (r_brep_meshes r))) (bm_edges (br_manifold (r_brep_meshes r')));
  bre_manifold_facets : same_map (bm_facets (br_manifold (r_brep_meshes r))) (bm_facets (br_manifold (r_brep_meshes r')));
  bre_model_edges : same_issues (bm_model_edges (br_manifold (r_brep_meshes r))) (bm_model_edges (br_manifold (r_brep_meshes r')));
  bre_model_facets : bm_model_facets (br_manifold (r_brep_meshes r)) = bm_model_facets (br_manifold (r_brep_meshes r'));
  bre_negative : br_negative (r_brep_meshes r) = br_negative (r_brep_meshes r') }.
(** the same oracles, with another visiting order of the hash maps *)
Definition with_hash (o : Oracles) (ho : HashOrder) : Oracles :=
  mkOracles (or_measures o) (or_geometry o) ho (or_lookup o) (or_topo o).
(** two computations end the same way, with related results *)
Inductive agree {A} (R : A -> A -> Prop) : outcome A -> outcome A -> Prop :=
| agree_ok : forall a a', R a a' -> agree R (Ok a) (Ok a')
| agree_throw : forall e, agree R (Throw e) (Throw e)
| agree_ub : agree R UB UB.
