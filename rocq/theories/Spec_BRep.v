(** What the corner, line and surface topology inspections of a BRep should say. *)
From Coq Require Import String List Arith NArith Bool Sorted.
From Verif Require Import Base Model_Issues Types Model_BRep Spec_Colocation Spec_Maps Spec_Adjacency Spec_Topology.
Import ListNotations.

(** A BRep as the typed builders of OpenGeode make them: lines bound surfaces, surfaces bound blocks, lines are internal
    to surfaces or blocks, surfaces to blocks; every link designates an existing mesh vertex; mesh elements refer to
    vertices of their mesh; sizes fit [index_t]. *)
Record brep_ok (m : Model) : Prop := {
  br_ids : unique_ids m;
  br_links : resolvable m;
  br_line_incidences : forall l e, In l (component_ids m LineT) -> In e (incidences m l) -> In (cid_id e) (component_ids m SurfaceT);
  br_surface_boundaries : forall s e, In s (component_ids m SurfaceT) -> In e (boundaries m s) -> In (cid_id e) (component_ids m LineT);
  br_block_boundaries : forall b e, In b (component_ids m BlockT) -> In e (boundaries m b) -> In (cid_id e) (component_ids m SurfaceT);
  br_surface_embeddings : forall s e, In s (component_ids m SurfaceT) -> In e (embeddings m s) -> In (cid_id e) (component_ids m BlockT);
  br_line_embeddings : forall l e, In l (component_ids m LineT) -> In e (embeddings m l) -> cid_type e = SurfaceT \/ cid_type e = BlockT;
  br_embeddings : forall a e, In e (embeddings m a) -> cid_type e <> OtherT -> In (cid_id e) (component_ids m (cid_type e));
  br_bound : forall cmvs, In cmvs (m_cmvs m) -> below_2_32 (length cmvs + length (m_internal_rel m));
  br_corner_bound : forall c, In c (m_corners m) -> below_2_32 (nb_points0 (co_mesh c));
  br_line_bound : forall c, In c (m_lines m) -> below_2_32 (nb_points1 (co_mesh c)) /\ below_2_32 (length (ec_edges (co_mesh c)));
  br_surface_bound : forall c, In c (m_surfaces m) -> below_2_32 (nb_points2 (co_mesh c)) /\ below_2_32 (length (sm_polygons (co_mesh c)));
  br_block_bound : forall c, In c (m_blocks m) -> below_2_32 (nb_points3 (co_mesh c));
  br_edges : forall c a b, In c (m_lines m) -> In (a, b) (ec_edges (co_mesh c)) -> a < nb_points1 (co_mesh c) /\ b < nb_points1 (co_mesh c);
  br_polygons : forall c p v, In c (m_surfaces m) -> In p (sm_polygons (co_mesh c)) -> In v p -> v < nb_points2 (co_mesh c) }.
(** Searches answer each component once, and components of the model only. *)
Record lookup_ok (tl : TopoLookup) (m : Model) : Prop := {
  lo_surfaces : forall a b, NoDup (map fst (me_surfaces (tl_edges tl a b)));
  lo_surfaces_exist : forall a b s, In s (map fst (me_surfaces (tl_edges tl a b))) -> In s (component_ids m SurfaceT);
  lo_blocks : forall a b, NoDup (map fst (me_blocks (tl_edges tl a b)));
  lo_blocks_exist : forall a b s, In s (map fst (me_blocks (tl_edges tl a b))) -> In s (component_ids m BlockT);
  lo_polygon_blocks_exist : forall l s, In s (map fst (tl_polygon_blocks tl l)) -> In s (component_ids m BlockT) }.

(** ** Corners *)
Definition corner_in_block_and_elsewhere (m : Model) (uv : nat) : Prop :=
  exists c e, active_at m uv CornerT c /\ 1 < nb_embeddings m c /\
    In e (embeddings m c) /\ cid_type e = BlockT /\ In (cid_id e) (active_ids m BlockT).
(** an active corner and an active line at the same vertex: the corner should bound the line, or be internal to it and
    (as the code counts) linked exactly twice to the vertex *)
Definition corner_unrelated_to_line (m : Model) (uv : nat) : Prop :=
  exists c l, active_at m uv CornerT c /\ active_at m uv LineT l /\ ~ bounds m c l /\
    ~ (inside m c l /\ counts (fun k => cid_id (cmv_component k) = c) (component_mesh_vertices m uv) 2).
Definition embedded_corner_bounding_several (m : Model) (uv : nat) : Prop :=
  exists c, active_at m uv CornerT c /\ 1 <= nb_embeddings m c /\ 1 < nb_incidences m c.

(** ** Lines *)
(** an embedding of an active line is also bounded by it, or is not linked to the vertex (blocks only count when all
    blocks are meshed) *)
Definition embedding_wrong (m : Model) (uv : nat) (l : uuid) (e : ComponentID) : Prop :=
  bounds m l (cid_id e) \/
  ((cid_type e = BlockT -> all_blocks_have_polyhedra m) /\ ~ at_vertex m uv (cid_type e) (cid_id e)).
Definition line_embedding_wrong (m : Model) (uv : nat) : Prop :=
  exists l e, active_at m uv LineT l /\ In e (embeddings m l) /\ embedding_wrong m uv l e.
Definition block_embedding_wrong (m : Model) (uv : nat) : Prop :=
  exists l e, active_at m uv LineT l /\ In e (embeddings m l) /\ embedding_wrong m uv l e /\ cid_type e = BlockT.
Definition surface_embedding_wrong (m : Model) (uv : nat) : Prop :=
  exists l e, active_at m uv LineT l /\ In e (embeddings m l) /\ embedding_wrong m uv l e /\ cid_type e = SurfaceT.
Definition in_surface (m : Model) (l s : uuid) : Prop := In (mkCID SurfaceT s) (embeddings m l).
Definition in_block (m : Model) (l b : uuid) : Prop := In (mkCID BlockT b) (embeddings m l).
Definition only_line_wrong (m : Model) (uv : nat) : Prop :=
  exists l ss bs, all_at m uv LineT [l] /\ In l (active_ids m LineT) /\ all_at m uv SurfaceT ss /\ all_at m uv BlockT bs /\
    ((exists s, in_surface m l s) \/ 1 <= nb_incidences m l) /\
    ((exists s, ss = [s] /\ ~ inside m l s /\ nb_embeddings m s = 0 /\ ~ bounds m l s) \/
     (ss = [] /\ all_blocks_have_polyhedra m /\ ~ (exists b, bs = [b] /\ inside m l b)) \/
     (2 <= length ss /\ exists s, In s ss /\ ~ bounds m l s /\ ~ inside m l s)).
(** number of edges of component [k] *)
Definition edges_of (l : list (uuid * nat)) (k : uuid) (n : nat) : Prop := In (k, n) l \/ (~ In k (map fst l) /\ n = 0).
(** the edges of the surfaces along edge 0 of the line do not fit its relationships *)
Definition edge0_wrong (m : Model) (l : uuid) (E : MeshEdges) : Prop :=
  exists s n, In s (active_ids m SurfaceT) /\ edges_of (me_surfaces E) s n /\
    ((bounds m l s /\ n <> 1) \/ (in_surface m l s /\ n <= 1) \/
     (nb_incidences m l = 0 /\ (forall s', ~ in_surface m l s') /\ In s (map fst (me_surfaces E)))).
(** the unique vertices of edge [e] of a line *)
Definition edge_joins (m : Model) (c : Component EdgedCurve) (e a b : nat) : Prop :=
  exists v0 v1, nth_error (ec_edges (co_mesh c)) e = Some (v0, v1) /\
    m_unique_vertex m (mkCMV (mkCID LineT (co_id c)) v0) = Some a /\ m_unique_vertex m (mkCMV (mkCID LineT (co_id c)) v1) = Some b.
Definition line_relationship_wrong (tl : TopoLookup) (m : Model) (uv : nat) : Prop :=
  exists c a b, In c (m_lines m) /\ co_active c = true /\ at_vertex m uv LineT (co_id c) /\ edge_joins m c 0 a b /\
    edge0_wrong m (co_id c) (tl_edges tl a b).
(** both vertices of edge 0 of every active line met at a unique vertex are linked *)
Definition first_edges_linked (m : Model) (uv : nat) : Prop :=
  forall c, In c (m_lines m) -> co_active c = true -> at_vertex m uv LineT (co_id c) -> ec_edges (co_mesh c) <> [] ->
    exists a b, edge_joins m c 0 a b.
(** No line inspection of a vertex fails (C52, C53). *)
Definition lines_inspectable (m : Model) : Prop :=
  forall uv, uv < nb_unique_vertices m -> ~ block_embedding_wrong m uv /\ first_edges_linked m uv.
Definition edge_wrong (m : Model) (l : uuid) (E : MeshEdges) : Prop :=
  (exists s n, In (s, n) (me_surfaces E) /\ In s (active_ids m SurfaceT) /\
     ((bounds m l s /\ n <> 1) \/ (~ bounds m l s /\ inside m l s /\ n <> 2) \/ (~ bounds m l s /\ ~ inside m l s))) \/
  (exists s, In s (active_ids m SurfaceT) /\ (in_surface m l s \/ bounds m l s) /\ ~ In s (map fst (me_surfaces E))) \/
  (exists b n, In (b, n) (me_blocks E) /\ In b (active_ids m BlockT) /\ inside m l b /\ n <> 1) \/
  (exists b, In b (m_blocks m) /\ co_active b = true /\ so_polyhedra (co_mesh b) <> [] /\ in_block m l (co_id b) /\
     ~ In (co_id b) (map fst (me_blocks E))).
Definition line_edge_wrong (tl : TopoLookup) (m : Model) (c : Component EdgedCurve) (e : nat) : Prop :=
  exists a b, edge_joins m c e a b /\ edge_wrong m (co_id c) (tl_edges tl a b).

(** Elements of the active, entirely linked components [l] for which [wrong] holds: one entry per component having some,
    listing them in order. *)
Definition elements_reported {M} (t : ComponentType) (nb_vertices nb_elements : M -> nat) (wrong : Component M -> nat -> Prop)
    (m : Model) (l : list (Component M)) (r : InspectionIssuesMap nat) : Prop :=
  map_reports r (fun id es => exists c, In c l /\ co_active c = true /\ co_id c = id /\
    (forall v, ~ unlinked m t id (nb_vertices (co_mesh c)) v) /\
    lists_exactly lt (fun e => e < nb_elements (co_mesh c) /\ wrong c e) es).

(** ** Surfaces *)
Definition surface_badly_embedded (m : Model) (uv : nat) : Prop :=
  exists s e, active_at m uv SurfaceT s /\ In e (embeddings m s) /\ In (cid_id e) (active_ids m BlockT) /\
    (bounds m s (cid_id e) \/ (all_blocks_have_polyhedra m /\ forall t, ~ at_vertex m uv t (cid_id e))).
Definition two_active_surfaces (m : Model) (uv : nat) : Prop :=
  exists s1 s2, s1 <> s2 /\ active_at m uv SurfaceT s1 /\ active_at m uv SurfaceT s2.
Definition several_surfaces_wrong (m : Model) (uv : nat) : Prop :=
  two_active_surfaces m uv /\
  (((forall l, ~ at_vertex m uv LineT l) /\
    ((forall c, ~ at_vertex m uv CornerT c) \/
     exists c s, at_vertex m uv CornerT c /\ active_at m uv SurfaceT s /\ ~ inside m c s)) \/
   (exists l ss c r, all_at m uv LineT [l] /\ counts (fun k => cid_type (cmv_component k) = LineT) (component_mesh_vertices m uv) 1 /\
      all_at m uv SurfaceT ss /\ at_vertex m uv CornerT c /\ counts (fun s => bounds m l s \/ inside m l s) ss r /\
      nb_embeddings m c + r <> length ss)).
Definition related_line_vertex_off_border (m : Model) (uv : nat) : Prop :=
  exists s v l, In s (m_surfaces m) /\ In (mkCMV (mkCID SurfaceT (co_id s)) v) (component_mesh_vertices m uv) /\
    sm_vertex_on_border (co_mesh s) v = false /\ active_at m uv LineT l /\ (bounds m l (co_id s) \/ inside m l (co_id s)).
Definition facet_wrong (m : Model) (s : uuid) (l : list (uuid * nat)) : Prop :=
  exists b n, In (b, n) l /\ In b (active_ids m BlockT) /\
    ((bounds m s b /\ n <> 1) \/ (~ bounds m s b /\ inside m s b /\ n <> 2) \/ (~ bounds m s b /\ ~ inside m s b)).
(** unique vertices of the vertices of a polygon *)
Definition polygon_joins (m : Model) (c : Component SurfaceMesh) (p : nat) (uvs : list nat) : Prop :=
  Forall2 (fun v uv => m_unique_vertex m (mkCMV (mkCID SurfaceT (co_id c)) v) = Some uv) (nth p (sm_polygons (co_mesh c)) []) uvs.
Definition surface_facet_wrong (tl : TopoLookup) (m : Model) (c : Component SurfaceMesh) (p : nat) : Prop :=
  all_blocks_have_polyhedra m /\ exists uvs, polygon_joins m c p uvs /\ facet_wrong m (co_id c) (tl_polygon_blocks tl uvs).
