(** What colocation inspections should say, independently of how they compute it. *)
From Coq Require Import String List Arith NArith Bool Sorted.
From Verif Require Import Base Model_Issues Types.
Import ListNotations.

(** A well-formed answer of the nearest-neighbour search for these points: one unique point per point, all of them
    used. *)
Definition consistent (points : list Point) (c : ColocatedInfo) : Prop :=
  List.length (colocated_mapping c) = List.length points /\
  (forall u, In u (colocated_mapping c) -> u < List.length (unique_points c)) /\
  (forall u, u < List.length (unique_points c) -> In u (colocated_mapping c)).

(** Points [i] and [j] were mapped to the same unique point. *)
Definition same_place (c : ColocatedInfo) (i j : nat) : Prop :=
  exists u, nth_error (colocated_mapping c) i = Some u /\ nth_error (colocated_mapping c) j = Some u.

(** Groups of coinciding points: every coinciding pair and nothing else, no singleton, increasing, disjoint. *)
Record colocation_groups (c : ColocatedInfo) (groups : list (list nat)) : Prop := {
  cg_pairs : forall i j, i <> j -> (same_place c i j <-> exists g, In g groups /\ In i g /\ In j g);
  cg_size : forall g, In g groups -> 2 <= List.length g;
  cg_sorted : forall g, In g groups -> StronglySorted lt g;
  cg_disjoint : NoDup (concat groups);
  cg_range : forall g i, In g groups -> In i g -> i < List.length (colocated_mapping c) }.

(** Positions and activity of the vertices of a model. *)
Definition component_of_kind {M} (l : list (Component M)) (id : uuid) (c : Component M) : Prop :=
  In c l /\ co_id c = id.
Inductive has_position (m : Model) : ComponentMeshVertex -> Point -> Prop :=
| pos_corner : forall c v p, In c (m_corners m) -> nth_error (ps_points (co_mesh c)) v = Some p ->
    has_position m (mkCMV (mkCID CornerT (co_id c)) v) p
| pos_line : forall c v p, In c (m_lines m) -> nth_error (ec_points (co_mesh c)) v = Some p ->
    has_position m (mkCMV (mkCID LineT (co_id c)) v) p
| pos_surface : forall c v p, In c (m_surfaces m) -> nth_error (sm_points (co_mesh c)) v = Some p ->
    has_position m (mkCMV (mkCID SurfaceT (co_id c)) v) p
| pos_block : forall c v p, In c (m_blocks m) -> nth_error (so_points (co_mesh c)) v = Some p ->
    has_position m (mkCMV (mkCID BlockT (co_id c)) v) p.
(** The component with identifier [id] has activity [a]. *)
Definition has_activity (m : Model) (id : uuid) (a : bool) : Prop :=
  (exists c, In c (m_corners m) /\ co_id c = id /\ co_active c = a) \/
  (exists c, In c (m_lines m) /\ co_id c = id /\ co_active c = a) \/
  (exists c, In c (m_surfaces m) /\ co_id c = id /\ co_active c = a) \/
  (exists c, In c (m_blocks m) /\ co_id c = id /\ co_active c = a).
(** Identifiers are unique over all components (OpenGeode draws random UUIDs). *)
Definition all_ids (m : Model) : list uuid :=
  map co_id (m_corners m) ++ map co_id (m_lines m) ++ map co_id (m_surfaces m) ++ map co_id (m_blocks m).
Definition unique_ids (m : Model) : Prop := NoDup (all_ids m).
(** Every component mesh vertex known to the model designates a vertex that exists. *)
Definition resolvable (m : Model) : Prop :=
  forall cmvs c, In cmvs (m_cmvs m) -> In c cmvs -> exists p, has_position m c p.
Definition is_active_cmv (m : Model) (c : ComponentMeshVertex) : Prop :=
  has_activity m (cid_id (cmv_component c)) true.

(** Unique vertex [uv] has an active vertex not at the place of its first active vertex. *)
Definition different_points (geo : Geometry) (m : Model) (uv : nat) : Prop :=
  exists pre c0 post c p0 p,
    component_mesh_vertices m uv = pre ++ c0 :: post /\
    (forall d, In d pre -> ~ is_active_cmv m d) /\ is_active_cmv m c0 /\
    In c (c0 :: post) /\ is_active_cmv m c /\
    has_position m c0 p0 /\ has_position m c p /\ g_inexact_equal geo p0 p = false.

(** [l] is obtained from [l'] by deleting elements. *)
Inductive subsequence {A} : list A -> list A -> Prop :=
| sub_nil : subsequence [] []
| sub_skip : forall x l l', subsequence l l' -> subsequence l (x :: l')
| sub_keep : forall x l l', subsequence l l' -> subsequence (x :: l) (x :: l').

(** Two vertices of the group are linked to different unique vertices ([None]: linked to none). *)
Definition spans_several (uv : nat -> option nat) (group : list nat) : Prop :=
  exists a b, In a group /\ In b group /\ uv a <> uv b.

(** What may be reported for a group [first :: rest] of colocated vertices: some of [rest], none of them linked like
    [first], then [first]; every unique vertex of the group is represented. *)
Definition filtered_report (uv : nat -> option nat) (first : nat) (rest report : list nat) : Prop :=
  exists kept, report = kept ++ [first] /\ subsequence kept rest /\
    (forall w, In w kept -> uv w <> uv first) /\
    (forall v, In v (first :: rest) -> exists w, In w report /\ uv w = uv v).

(** The position of a unique vertex: the position of its first active vertex. *)
Definition unique_vertex_position (m : Model) (uv : nat) (p : Point) : Prop :=
  exists pre c0 post, uv < nb_unique_vertices m /\
    component_mesh_vertices m uv = pre ++ c0 :: post /\
    (forall d, In d pre -> ~ is_active_cmv m d) /\ is_active_cmv m c0 /\ has_position m c0 p.
(** The unique vertices that have a position, in increasing order, with it. *)
Definition positioned_vertices (m : Model) (l : list (nat * Point)) : Prop :=
  StronglySorted lt (map fst l) /\ forall uv p, In (uv, p) l <-> unique_vertex_position m uv p.

(** The reports of the groups of a component, in order: none for a group linked to a single unique vertex. *)
Inductive group_reports (uv : nat -> option nat) : list (list nat) -> list (list nat) -> Prop :=
| gr_nil : group_reports uv [] []
| gr_skip : forall g gs rs, ~ spans_several uv g -> group_reports uv gs rs -> group_reports uv (g :: gs) rs
| gr_keep : forall first rest r gs rs, spans_several uv (first :: rest) -> filtered_report uv first rest r ->
    group_reports uv gs rs -> group_reports uv ((first :: rest) :: gs) (r :: rs).

(** [id] is an active line, surface or block, of type [t], whose mesh has these points. *)
Inductive active_mesh (m : Model) : ComponentType -> uuid -> list Point -> Prop :=
| am_line : forall c, In c (m_lines m) -> co_active c = true -> active_mesh m LineT (co_id c) (ec_points (co_mesh c))
| am_surface : forall c, In c (m_surfaces m) -> co_active c = true -> active_mesh m SurfaceT (co_id c) (sm_points (co_mesh c))
| am_block : forall c, In c (m_blocks m) -> co_active c = true -> active_mesh m BlockT (co_id c) (so_points (co_mesh c)).

(** Right reports of colocated points for component [id]. *)
Definition component_colocation (geo : Geometry) (m : Model) (id : uuid) (reports : list (list nat)) : Prop :=
  exists t points groups, active_mesh m t id points /\ colocation_groups (g_colocated geo points) groups /\
    group_reports (fun v => m_unique_vertex m (mkCMV (mkCID t id) v)) groups reports.
