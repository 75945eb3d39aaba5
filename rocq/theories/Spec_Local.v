(** What the topology report says about one unique vertex, and what it may depend on (C74). *)
From Coq Require Import String Ascii List Arith NArith ZArith Bool.
From Verif Require Import Base Model_Issues Types Model_Topology Model_BRep Model_Blocks Spec_Colocation Spec_Topology.
Import ListNotations.
Local Open Scope string_scope.

(** ** The same components and relationships; the meshes may differ (but an empty mesh stays empty) *)
Definition same_header {M} (filled : M -> Prop) (c c' : Component M) : Prop :=
  co_id c = co_id c' /\ co_active c = co_active c' /\ co_name c = co_name c' /\ (filled (co_mesh c) <-> filled (co_mesh c')).
Record same_frame (m m' : Model) : Prop := {
  sf_corners : Forall2 (same_header (fun _ => True)) (m_corners m) (m_corners m');
  sf_lines : Forall2 (same_header (fun _ => True)) (m_lines m) (m_lines m');
  sf_surfaces : Forall2 (same_header (fun s => sm_polygons s <> [])) (m_surfaces m) (m_surfaces m');
  sf_blocks : Forall2 (same_header (fun b => so_polyhedra b <> [])) (m_blocks m) (m_blocks m');
  sf_boundary_rel : m_boundary_rel m = m_boundary_rel m';
  sf_internal_rel : m_internal_rel m = m_internal_rel m';
  sf_missing : m_missing_exn m = m_missing_exn m';
  sf_uuid_string : m_uuid_string m = m_uuid_string m';
  sf_point_string : m_point_string m = m_point_string m';
  sf_cmv_string : m_cmv_string m = m_cmv_string m';
  sf_cid_string : m_cid_string m = m_cid_string m' }.

(** ** The same neighbourhood: unique vertex [uv] of [m] and [uv'] of [m'] are linked to the same mesh vertices, which are at the
    same points, on the border of their surface or not, and linked back or not *)
Record same_vertex (m m' : Model) (uv uv' : nat) : Prop := {
  sv_links : component_mesh_vertices m uv = component_mesh_vertices m' uv';
  sv_positions : forall c p, In c (component_mesh_vertices m uv) -> (has_position m c p <-> has_position m' c p);
  sv_borders : forall s s' v, In s (m_surfaces m) -> In s' (m_surfaces m') -> co_id s = co_id s' ->
    In (mkCMV (mkCID SurfaceT (co_id s)) v) (component_mesh_vertices m uv) ->
    sm_vertex_on_border (co_mesh s) v = sm_vertex_on_border (co_mesh s') v;
  sv_back : forall c, In c (component_mesh_vertices m uv) -> (m_unique_vertex m c = Some uv <-> m_unique_vertex m' c = Some uv') }.
(** The one thing away from the vertex that is looked at: the first edge of the lines through it. *)
Definition same_first_edges (tl tl' : TopoLookup) (m m' : Model) (uv : nat) : Prop :=
  forall l l', In l (m_lines m) -> In l' (m_lines m') -> co_id l = co_id l' -> at_vertex m uv LineT (co_id l) ->
    (ec_edges (co_mesh l) = [] <-> ec_edges (co_mesh l') = []) /\ component_mesh_edges tl m l 0 = component_mesh_edges tl' m' l' 0.

(** ** What a list says about a vertex: the messages beside it *)
Definition messages_at (uv : nat) (l : InspectionIssues nat) : list string :=
  map snd (filter (fun p => Nat.eqb (fst p) uv) (combine (ii_issues l) (ii_messages l))).
(** as many messages; the same ones if the vertex has the same number (which is part of the messages) *)
Definition says_same (uv uv' : nat) (l l' : InspectionIssues nat) : Prop :=
  List.length (messages_at uv l) = List.length (messages_at uv' l') /\ (uv = uv' -> messages_at uv l = messages_at uv' l').

(** ** The lists by unique vertex of the topology reports *)
Definition corners_say_same (uv uv' : nat) (c c' : CornersTopology) : Prop :=
  says_same uv uv' (ct_multiple_corners c) (ct_multiple_corners c') /\ says_same uv uv' (ct_multiple_embeddings c) (ct_multiple_embeddings c') /\
  says_same uv uv' (ct_not_internal_nor_boundary c) (ct_not_internal_nor_boundary c') /\ says_same uv uv' (ct_not_boundary_line c) (ct_not_boundary_line c').
Definition links_say_same (uv uv' : nat) (r r' : LinkIssues) : Prop :=
  says_same uv uv' (li_not_linked r) (li_not_linked r') /\ says_same uv uv' (li_inexistant r) (li_inexistant r') /\
  says_same uv uv' (li_nonbijective r) (li_nonbijective r').
Record section_says_same (uv uv' : nat) (r r' : SectionTopology) : Prop := {
  sy_corners : corners_say_same uv uv' (st_corners r) (st_corners r');
  sy_line_relationship : says_same uv uv' (sl_wrong_relationship (st_lines r)) (sl_wrong_relationship (st_lines r'));
  sy_line_embeddings : says_same uv uv' (sl_invalid_embeddings (st_lines r)) (sl_invalid_embeddings (st_lines r'));
  sy_single_line : says_same uv uv' (sl_single_invalid (st_lines r)) (sl_single_invalid (st_lines r'));
  sy_not_corner : says_same uv uv' (sl_several_not_corner (st_lines r)) (sl_several_not_corner (st_lines r'));
  sy_surface_embeddings : says_same uv uv' (ss_invalid_embeddings (st_surfaces r)) (ss_invalid_embeddings (st_surfaces r'));
  sy_not_on_border : says_same uv uv' (ss_not_on_border (st_surfaces r)) (ss_not_on_border (st_surfaces r'));
  sy_links : links_say_same uv uv' (st_links r) (st_links r') }.
Record brep_says_same (uv uv' : nat) (r r' : BRepTopology) : Prop := {
  by_corners : corners_say_same uv uv' (bt_corners r) (bt_corners r');
  by_line_relationship : says_same uv uv' (bl_wrong_relationship (bt_lines r)) (bl_wrong_relationship (bt_lines r'));
  by_line_embeddings : says_same uv uv' (bl_invalid_embeddings (bt_lines r)) (bl_invalid_embeddings (bt_lines r'));
  by_single_line : says_same uv uv' (bl_single_invalid (bt_lines r)) (bl_single_invalid (bt_lines r'));
  by_not_corner : says_same uv uv' (bl_several_not_corner (bt_lines r)) (bl_several_not_corner (bt_lines r'));
  by_surface_embeddings : says_same uv uv' (bs_invalid_embeddings (bt_surfaces r)) (bs_invalid_embeddings (bt_surfaces r'));
  by_several_surfaces : says_same uv uv' (bs_several_invalid (bt_surfaces r)) (bs_several_invalid (bt_surfaces r'));
  by_not_on_border : says_same uv uv' (bs_not_on_border (bt_surfaces r)) (bs_not_on_border (bt_surfaces r'));
  by_two_blocks : says_same uv uv' (bb_two_blocks (bt_blocks r)) (bb_two_blocks (bt_blocks r'));
  by_wrong_count : says_same uv uv' (bb_wrong_count (bt_blocks r)) (bb_wrong_count (bt_blocks r'));
  by_single_surface : says_same uv uv' (bb_single_invalid (bt_blocks r)) (bb_single_invalid (bt_blocks r'));
  by_block_relationship : says_same uv uv' (bb_wrong_relationship (bt_blocks r)) (bb_wrong_relationship (bt_blocks r'));
  by_multiple_surfaces : says_same uv uv' (bb_multiple_invalid (bt_blocks r)) (bb_multiple_invalid (bt_blocks r'));
  by_links : links_say_same uv uv' (bt_links r) (bt_links r') }.
