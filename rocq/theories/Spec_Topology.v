(** What topology inspections should say, in terms of links (component mesh vertices of unique vertices), activity and
    relationships only. *)
From Coq Require Import String List Arith NArith Bool Sorted.
From Verif Require Import Base Model_Issues Types Spec_Colocation Spec_Maps Spec_Adjacency.
Import ListNotations.

(** [o] ends normally and answers whether [P] holds / reports something iff [P] holds. *)
Definition decides (o : outcome bool) (P : Prop) : Prop := exists b, o = Ok b /\ (b = true <-> P).
Definition reports_iff (o : outcome (option string)) (P : Prop) : Prop := exists r, o = Ok r /\ (r <> None <-> P).

(** ** Components and links *)
Definition component_ids (m : Model) (t : ComponentType) : list uuid :=
  match t with
  | CornerT => map co_id (m_corners m)
  | LineT => map co_id (m_lines m)
  | SurfaceT => map co_id (m_surfaces m)
  | BlockT => map co_id (m_blocks m)
  | OtherT => []
  end.
Definition active_ids (m : Model) (t : ComponentType) : list uuid :=
  match t with
  | CornerT => map co_id (filter co_active (m_corners m))
  | LineT => map co_id (filter co_active (m_lines m))
  | SurfaceT => map co_id (filter co_active (m_surfaces m))
  | BlockT => map co_id (filter co_active (m_blocks m))
  | OtherT => []
  end.
(** Component [id] of type [t] is (active and) linked to unique vertex [uv]. *)
Definition at_vertex (m : Model) (uv : nat) (t : ComponentType) (id : uuid) : Prop :=
  exists v, In (mkCMV (mkCID t id) v) (component_mesh_vertices m uv).
Definition active_at (m : Model) (uv : nat) (t : ComponentType) (id : uuid) : Prop :=
  at_vertex m uv t id /\ In id (active_ids m t).
(** Two different links of [uv] belong to active components of type [t]. *)
Definition linked_twice (m : Model) (uv : nat) (t : ComponentType) : Prop :=
  exists i j a b v w, i <> j /\
    nth_error (component_mesh_vertices m uv) i = Some (mkCMV (mkCID t a) v) /\ In a (active_ids m t) /\
    nth_error (component_mesh_vertices m uv) j = Some (mkCMV (mkCID t b) w) /\ In b (active_ids m t).
(** Every linked component exists in the model. *)
Definition links_exist (m : Model) : Prop :=
  forall uv t id, at_vertex m uv t id -> t <> OtherT -> In id (component_ids m t).
(** The components of type [t] linked to [uv], once each. *)
Definition all_at (m : Model) (uv : nat) (t : ComponentType) (ids : list uuid) : Prop :=
  NoDup ids /\ forall id, In id ids <-> at_vertex m uv t id.

(** [a] is a boundary of / internal to [b] *)
Definition bounds (m : Model) (a b : uuid) : Prop := exists ta tb, In (mkCID ta a, mkCID tb b) (m_boundary_rel m).
Definition inside (m : Model) (a b : uuid) : Prop := exists ta tb, In (mkCID ta a, mkCID tb b) (m_internal_rel m).

Definition all_surfaces_have_polygons (m : Model) : Prop :=
  forall s, In s (m_surfaces m) -> sm_polygons (co_mesh s) <> [].
Definition all_blocks_have_polyhedra (m : Model) : Prop :=
  forall b, In b (m_blocks m) -> so_polyhedra (co_mesh b) <> [].

(** ** Unlinked mesh vertices (C45) *)
Definition unlinked (m : Model) (t : ComponentType) (id : uuid) (n : nat) (v : nat) : Prop :=
  v < n /\ m_unique_vertex m (mkCMV (mkCID t id) v) = None.
(** For the components [l] of type [t]: exactly the active components without mesh, in model order, and one entry per
    active (and, when [skip], meshed) component with unlinked vertices, listing them in order. *)
Record components_reported {M} (t : ComponentType) (meshed : M -> Prop) (nb_vertices : M -> nat) (skip : bool)
    (m : Model) (l : list (Component M)) (nm : InspectionIssues uuid) (nl : InspectionIssuesMap nat) : Prop := {
  cr_order : subsequence (ii_issues nm) (map co_id l);
  cr_meshed : forall id, In id (ii_issues nm) <-> exists c, In c l /\ co_active c = true /\ co_id c = id /\ ~ meshed (co_mesh c);
  cr_linked : map_reports nl (fun id vs => exists c, In c l /\ co_active c = true /\ co_id c = id /\
                (skip = true -> meshed (co_mesh c)) /\ lists_exactly lt (unlinked m t id (nb_vertices (co_mesh c))) vs) }.
Definition has_points (p : PointSet) : Prop := ps_points p <> [].
Definition has_points_and_edges (e : EdgedCurve) : Prop := ec_points e <> [] /\ ec_edges e <> [].
Definition has_points_and_polygons (s : SurfaceMesh) : Prop := sm_points s <> [] /\ sm_polygons s <> [].
Definition has_points_and_polyhedra (s : SolidMesh) : Prop := so_points s <> [] /\ so_polyhedra s <> [].
Definition nb_points0 (p : PointSet) : nat := length (ps_points p).
Definition nb_points1 (p : EdgedCurve) : nat := length (ec_points p).
Definition nb_points2 (p : SurfaceMesh) : nat := length (sm_points p).
Definition nb_points3 (p : SolidMesh) : nat := length (so_points p).
(** every active meshed component is entirely linked *)
Definition meshed_linked {M} (t : ComponentType) (meshed : M -> Prop) (nb_vertices : M -> nat)
    (m : Model) (l : list (Component M)) : Prop :=
  forall c, In c l -> co_active c = true -> meshed (co_mesh c) ->
    forall v, ~ unlinked m t (co_id c) (nb_vertices (co_mesh c)) v.

(** ** Links (C35) *)
Definition vertex_exists (m : Model) (c : ComponentMeshVertex) : Prop := exists p, has_position m c p.
(** the vertex exists, its component is active, and it is not linked back to [uv] *)
Definition linked_back_elsewhere (m : Model) (uv : nat) (c : ComponentMeshVertex) : Prop :=
  vertex_exists m c /\ is_active_cmv m c /\ m_unique_vertex m c <> Some uv.
Definition bijectively_linked (m : Model) : Prop :=
  forall uv, uv < nb_unique_vertices m ->
    component_mesh_vertices m uv <> [] /\
    forall c, In c (component_mesh_vertices m uv) ->
      vertex_exists m c /\ (is_active_cmv m c -> m_unique_vertex m c = Some uv).
(** number of elements satisfying [P] *)
Inductive counts {A} (P : A -> Prop) : list A -> nat -> Prop :=
| counts_nil : counts P [] 0
| counts_yes : forall x l n, P x -> counts P l n -> counts P (x :: l) (S n)
| counts_no : forall x l n, ~ P x -> counts P l n -> counts P (x :: l) n.
(** unique vertices in increasing order, each as many times as it has links satisfying [P] *)
Definition one_entry_per_link (m : Model) (P : nat -> ComponentMeshVertex -> Prop) (l : list nat) : Prop :=
  StronglySorted le l /\ (forall uv, In uv l -> uv < nb_unique_vertices m) /\
  forall uv, uv < nb_unique_vertices m -> counts (P uv) (component_mesh_vertices m uv) (count_occ Nat.eq_dec l uv).

(** ** Section *)
(** A Section: unique ids, no blocks, linked components exist, lines are embedded in surfaces of the model, fewer than
    2^32 links per vertex and vertices per mesh. *)
Record section_ok (m : Model) : Prop := {
  so_ids : unique_ids m;
  so_no_block : m_blocks m = [];
  so_links : links_exist m;
  so_embeddings : forall uv l e, active_at m uv LineT l -> In e (embeddings m l) -> In (cid_id e) (component_ids m SurfaceT);
  so_bound : forall cmvs, In cmvs (m_cmvs m) -> below_2_32 (length cmvs);
  so_corner_bound : forall c, In c (m_corners m) -> below_2_32 (nb_points0 (co_mesh c));
  so_line_bound : forall c, In c (m_lines m) -> below_2_32 (nb_points1 (co_mesh c));
  so_surface_bound : forall c, In c (m_surfaces m) -> below_2_32 (nb_points2 (co_mesh c)) }.

(** corners *)
Definition several_corners (m : Model) (uv : nat) : Prop := linked_twice m uv CornerT.
Definition corner_with_several_embeddings (m : Model) (uv : nat) : Prop :=
  exists c, active_at m uv CornerT c /\ 1 < nb_embeddings m c.
Definition corner_without_relation (m : Model) (uv : nat) : Prop :=
  exists c, active_at m uv CornerT c /\ nb_embeddings m c = 0 /\ nb_incidences m c = 0.
Definition corner_not_bounding_a_line (m : Model) (uv : nat) : Prop :=
  exists c l, active_at m uv CornerT c /\ at_vertex m uv LineT l /\ ~ bounds m c l.
Definition embedded_corner_with_several_incidences (m : Model) (uv : nat) : Prop :=
  exists c, active_at m uv CornerT c /\ nb_embeddings m c = 1 /\ 1 < nb_incidences m c.

(** lines *)
Definition line_without_relation (m : Model) (uv : nat) : Prop :=
  exists l, active_at m uv LineT l /\ nb_embeddings m l = 0 /\ nb_incidences m l = 0.
(** an embedding of [l] is an active surface the vertex is not linked to *)
Definition embedding_missed (m : Model) (uv : nat) (l : uuid) : Prop :=
  all_surfaces_have_polygons m /\
  exists e, In e (embeddings m l) /\ In (cid_id e) (active_ids m SurfaceT) /\ forall t, ~ at_vertex m uv t (cid_id e).
(** a link to an active embedded line that is wrongly embedded, no earlier link being to an active line without
    embedding (such a line stops the search) *)
Definition line_badly_embedded (m : Model) (uv : nat) : Prop :=
  exists pre l v post, component_mesh_vertices m uv = pre ++ mkCMV (mkCID LineT l) v :: post /\
    In l (active_ids m LineT) /\ 1 <= nb_embeddings m l /\
    (forall l' v', In (mkCMV (mkCID LineT l') v') pre -> In l' (active_ids m LineT) -> 1 <= nb_embeddings m l') /\
    (1 < nb_embeddings m l \/ 1 <= nb_incidences m l \/ embedding_missed m uv l).
Definition single_line_invalid (m : Model) (uv : nat) : Prop :=
  exists l ss, all_at m uv LineT [l] /\ In l (active_ids m LineT) /\ all_at m uv SurfaceT ss /\
    (2 < length ss \/
     (1 <= nb_embeddings m l /\ all_surfaces_have_polygons m /\ ~ (exists s, ss = [s] /\ inside m l s)) \/
     (nb_embeddings m l = 0 /\ exists s, In s ss /\ ~ bounds m l s)).
Definition lines_without_corner (m : Model) (uv : nat) : Prop :=
  linked_twice m uv LineT /\ forall c, ~ at_vertex m uv CornerT c.

(** surfaces *)
Definition two_surfaces_without_common_line (m : Model) (uv : nat) : Prop :=
  exists s0 s1, all_at m uv SurfaceT [s0; s1] /\
    ~ exists l, at_vertex m uv LineT l /\ bounds m l s0 /\ bounds m l s1.
Definition line_vertex_off_border (m : Model) (uv : nat) : Prop :=
  all_surfaces_have_polygons m /\ (exists l, active_at m uv LineT l) /\
  exists s v, In s (m_surfaces m) /\ co_active s = true /\
    In (mkCMV (mkCID SurfaceT (co_id s)) v) (component_mesh_vertices m uv) /\ sm_vertex_on_border (co_mesh s) v = false.

(** [l] lists exactly the unique vertices with [P], in increasing order *)
Definition lists_vertices (m : Model) (P : nat -> Prop) (l : list nat) : Prop :=
  lists_exactly lt (fun uv => uv < nb_unique_vertices m /\ P uv) l.
