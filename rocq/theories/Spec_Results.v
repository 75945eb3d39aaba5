(** What a result holds, category by category: a category is a data member of the result, with its number of entries (for
    a map: the number of components that have issues) and its text. *)
From Coq Require Import String List Arith NArith Bool.
From Verif Require Import Base Model_Hash Model_Issues Types Model_Degeneration Model_Intersections Model_Topology Model_BRep Model_Blocks Model_Results.
Import ListNotations.
Open Scope list_scope.

Record category := mkCategory { cat_size : nat; cat_text : string }.
Definition of_list {T} (x : InspectionIssues T) : category := mkCategory (length (ii_issues x)) (issues_string x).
Definition of_map {T} (ho : HashOrder) (x : InspectionIssuesMap T) : category := mkCategory (length (im_map x)) (map_string ho x).
Definition is_empty (c : category) : Prop := cat_size c = 0.
Definition total (l : list category) : nat := list_sum (map cat_size l).
(** fewer entries than [index_t] can count *)
Definition countable (l : list category) : Prop := (N.of_nat (total l) < 2 ^ 32)%N.
Definition all_empty (l : list category) : Prop := Forall is_empty l.
(** the texts of the non-empty categories, in order *)
Definition non_empty_texts (l : list category) : list string := map cat_text (filter (fun c => negb (Nat.eqb (cat_size c) 0)) l).
(** a text that shows the non-empty categories, or says there is none *)
Definition shows (l : list category) (otherwise s : string) : Prop :=
  (all_empty l /\ s = otherwise) \/ (~ all_empty l /\ s = String.concat EmptyString (non_empty_texts l)).
(** a category printed with one more line break *)
Definition spaced (c : category) : category := mkCategory (cat_size c) (cat_text c ++ newline)%string.

(** ** Single meshes *)
Definition pointset_categories (r : PointSetResult) := [of_list (pr_colocated r)].
Definition curve_categories (r : CurveResult) := [of_list (cr_colocated r); of_list (cr_edges r)].
Definition surface_categories (r : SurfaceResult) :=
  [of_list (sr_adjacency r); of_list (sr_colocated r); of_list (sr_edges r); of_list (sr_polygons r); of_list (sr_manifold_edges r);
   of_list (sr_manifold_vertices r); of_list (sr_intersections r); of_list (sr_negative r)].
Definition solid_categories (r : SolidResult) :=
  [of_list (so_r_adjacency r); of_list (so_r_colocated r); of_list (so_r_edges r); of_list (so_r_polyhedra r); of_list (so_r_manifold_vertices r);
   of_list (so_r_manifold_edges r); of_list (so_r_manifold_facets r); of_list (so_r_negative r)].

(** ** Models, mesh part *)
Definition unique_vertices_categories (r : UniqueVerticesResult) := [of_list (ur_colocated r); of_list (ur_different r)].
Definition brep_adjacency_categories ho (r : BRepAdjacencyResult) := [of_map ho (ba_surfaces r); of_map ho (ba_blocks r)].
Definition brep_degeneration_categories ho (r : DegenerationResult) := [of_map ho (dr_edges r); of_map ho (dr_polygons r); of_map ho (dr_polyhedra r)].
Definition section_degeneration_categories ho (r : SectionDegenerationResult) := [of_map ho (sd_edges r); of_map ho (sd_polygons r)].
Definition brep_manifold_categories ho (r : BRepManifoldResult) :=
  [of_map ho (bm_vertices r); of_map ho (bm_edges r); of_map ho (bm_facets r); of_list (bm_model_edges r); of_list (bm_model_facets r)].
Definition section_manifold_categories ho (r : SectionManifoldResult) := [of_map ho (sn_vertices r); of_map ho (sn_edges r)].
Definition brep_meshes_categories ho (r : BRepMeshesResult) :=
  unique_vertices_categories (br_unique_vertices r) ++ [of_map ho (br_colocation r)] ++ brep_adjacency_categories ho (br_adjacency r) ++
  brep_degeneration_categories ho (br_degeneration r) ++ [of_list (br_intersections r)] ++ brep_manifold_categories ho (br_manifold r) ++
  [of_map ho (br_negative r)].
Definition section_meshes_categories ho (r : SectionMeshesResult) :=
  unique_vertices_categories (sc_unique_vertices r) ++ [of_map ho (sc_colocation r)] ++ [of_map ho (sc_adjacency r)] ++
  section_degeneration_categories ho (sc_degeneration r) ++ [of_list (sc_intersections r)] ++ section_manifold_categories ho (sc_manifold r) ++
  [of_map ho (sc_negative r)].

(** ** Models, topology part *)
Definition corners_categories ho (r : CornersTopology) :=
  [of_list (ct_not_meshed r); of_map ho (ct_not_linked r); of_list (ct_multiple_corners r); of_list (ct_multiple_embeddings r);
   of_list (ct_not_internal_nor_boundary r); of_list (ct_not_boundary_line r)].
Definition section_lines_categories ho (r : SectionLinesTopology) :=
  [of_list (sl_not_meshed r); of_map ho (sl_not_linked r); of_list (sl_wrong_relationship r); of_list (sl_invalid_embeddings r);
   of_list (sl_single_invalid r); of_list (sl_several_not_corner r)].
Definition section_surfaces_categories ho (r : SectionSurfacesTopology) :=
  [of_list (ss_not_meshed r); of_map ho (ss_not_linked r); of_list (ss_invalid_embeddings r); of_list (ss_not_on_border r)].
Definition links_categories (r : LinkIssues) := [of_list (li_not_linked r); of_list (li_inexistant r); of_list (li_nonbijective r)].
Definition section_topology_categories ho (r : SectionTopology) :=
  corners_categories ho (st_corners r) ++ section_lines_categories ho (st_lines r) ++ section_surfaces_categories ho (st_surfaces r) ++ links_categories (st_links r).
Definition brep_lines_categories ho (r : BRepLinesTopology) :=
  [of_list (bl_not_meshed r); of_list (bl_wrong_relationship r); of_map ho (bl_not_linked r); of_list (bl_invalid_embeddings r);
   of_list (bl_single_invalid r); of_list (bl_several_not_corner r); of_map ho (bl_wrong_edges r)].
Definition brep_surfaces_categories ho (r : BRepSurfacesTopology) :=
  [of_list (bs_not_meshed r); of_map ho (bs_not_linked r); of_list (bs_invalid_embeddings r); of_list (bs_several_invalid r); of_list (bs_not_on_border r);
   of_map ho (bs_wrong_facets r)].
Definition brep_blocks_categories ho (r : BRepBlocksTopology) :=
  [of_list (bb_not_meshed r); of_list (bb_wrong_boundary r); of_map ho (bb_not_linked r); of_list (bb_two_blocks r); of_list (bb_wrong_count r);
   of_list (bb_wrong_relationship r); of_list (bb_single_invalid r); of_list (bb_not_closed r); of_list (bb_model_boundaries r); of_list (bb_multiple_invalid r)].
Definition brep_topology_categories ho (r : BRepTopology) :=
  corners_categories ho (bt_corners r) ++ brep_lines_categories ho (bt_lines r) ++ brep_surfaces_categories ho (bt_surfaces r) ++
  brep_blocks_categories ho (bt_blocks r) ++ links_categories (bt_links r).
Definition brep_categories ho (r : BRepResult) := brep_meshes_categories ho (r_brep_meshes r) ++ brep_topology_categories ho (r_brep_topology r).
Definition section_categories ho (r : SectionResult) := section_meshes_categories ho (r_section_meshes r) ++ section_topology_categories ho (r_section_topology r).

(** ** The categories that are not counted *)
Definition section_lines_forgotten (r : SectionLinesTopology) : nat := length (ii_issues (sl_several_not_corner r)).
Definition brep_surfaces_forgotten (r : BRepSurfacesTopology) : nat := length (im_map (bs_wrong_facets r)).

(** ** What the topology texts print, in their order *)
Definition brep_lines_printed ho (r : BRepLinesTopology) :=
  [of_list (bl_not_meshed r); spaced (of_list (bl_wrong_relationship r)); of_map ho (bl_not_linked r); of_list (bl_invalid_embeddings r);
   spaced (of_list (bl_single_invalid r)); of_list (bl_several_not_corner r); of_map ho (bl_wrong_edges r)].
Definition brep_surfaces_printed ho (r : BRepSurfacesTopology) :=
  [of_list (bs_not_meshed r); of_map ho (bs_not_linked r); of_list (bs_invalid_embeddings r); of_list (bs_several_invalid r); of_list (bs_not_on_border r)].
Definition brep_blocks_printed ho (r : BRepBlocksTopology) :=
  [spaced (of_list (bb_not_meshed r)); of_list (bb_wrong_boundary r); of_map ho (bb_not_linked r); of_list (bb_not_closed r); of_list (bb_model_boundaries r);
   spaced (of_list (bb_two_blocks r)); spaced (of_list (bb_wrong_count r)); spaced (of_list (bb_wrong_relationship r));
   spaced (of_list (bb_single_invalid r)); spaced (of_list (bb_multiple_invalid r))].
