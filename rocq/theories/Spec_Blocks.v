(** What the block topology inspection of a BRep should say. *)
From Coq Require Import String List Arith NArith ZArith Bool Sorted.
From Verif Require Import Base Model_Issues Types Model_Topology Model_BRep Model_Blocks Spec_Fusion Spec_Colocation Spec_Maps Spec_Adjacency Spec_Topology Spec_BRep.
Import ListNotations.

(** ** C42: surfaces that can bound blocks *)
(** a set of surfaces in which every boundary line of a member bounds another member *)
Definition closed_set (m : Model) (K : uuid -> Prop) : Prop :=
  (forall s, K s -> In s (component_ids m SurfaceT)) /\
  forall s l, K s -> bounds m l s -> exists s', K s' /\ s' <> s /\ bounds m l s'.
Definition in_closed_set (m : Model) (s : uuid) : Prop := exists K, closed_set m K /\ K s.

(** ** C40: connected parts *)
Definition share_a_line (m : Model) (s t : uuid) : Prop := exists l, bounds m l s /\ bounds m l t.
(** linked by a chain of surfaces of [L], each sharing a boundary line with the next one *)
Inductive linked_within (m : Model) (L : list uuid) : uuid -> uuid -> Prop :=
| linked_self : forall s, In s L -> linked_within m L s s
| linked_next : forall s t u, linked_within m L s t -> In u L -> share_a_line m t u -> linked_within m L s u.
(** [parts] are the connected components of [L] *)
Record connected_parts (m : Model) (L : list uuid) (parts : list (list uuid)) : Prop := {
  cp_nonempty : forall p, In p parts -> p <> [];
  cp_disjoint : NoDup (concat parts);
  cp_cover : forall s, In s (concat parts) <-> In s L;
  cp_linked : forall p s, In p parts -> In s p -> forall t, In t p <-> linked_within m L s t }.
(** surfaces listed by the model boundaries *)
Definition model_boundary_surfaces (m : Model) : list uuid := concat (map snd (m_model_boundaries m)).
Definition block_surfaces (m : Model) (b : uuid) : list uuid := map cid_id (boundaries m b).
Definition all_linked (m : Model) (L : list uuid) : Prop := forall s t, In s L -> In t L -> linked_within m L s t.

(** ** C54: closedness of the boundary of a block *)
(** the bounding box of part [i] contains those of the other parts *)
Definition encloses (tl : TopoLookup) (parts : list (list uuid)) (i : nat) : Prop :=
  exists p, nth_error parts i = Some p /\ forall j q, j <> i -> nth_error parts j = Some q -> tl_box_contains tl p q = true.
(** one part (or none), or the surfaces of the first enclosing part, glued together, contain all points of the other ones *)
Definition counted_as_closed (tl : TopoLookup) (m : Model) (parts : list (list uuid)) : Prop :=
  length parts < 2 \/
  exists i p cs g, nth_error parts i = Some p /\ encloses tl parts i /\ (forall j, j < i -> ~ encloses tl parts j) /\
    surfaces_of m p cs /\ glued m cs g /\
    forall j q c x, j <> i -> nth_error parts j = Some q -> In c (m_surfaces m) -> In (co_id c) q -> In x (sm_points (co_mesh c)) ->
      tl_inside_closed tl g x = Ok true.
(** an active boundary surface of the block has a boundary line shared with no other boundary surface of the block *)
Definition boundary_has_free_line (m : Model) (b : uuid) : Prop :=
  exists s l, In s (active_ids m SurfaceT) /\ bounds m s b /\ bounds m l s /\ forall s', s' <> s -> bounds m s' b -> ~ bounds m l s'.

(** ** Unique vertices (C43, C55, C56) *)
(** two blocks only, both active, without a surface bounding both, nor a line bounding a surface of one of them *)
Definition two_blocks_apart (m : Model) (uv : nat) : Prop :=
  exists b1 b2, all_at m uv BlockT [b1; b2] /\ In b1 (active_ids m BlockT) /\ In b2 (active_ids m BlockT) /\
    forall s, at_vertex m uv SurfaceT s ->
      ~ (bounds m s b1 /\ bounds m s b2) /\
      forall l, at_vertex m uv LineT l -> bounds m l s -> ~ bounds m s b1 /\ ~ bounds m s b2.
(** cannot bound a block, and the barycenter of its first polygon is in no block *)
Definition dangling (tl : TopoLookup) (m : Model) (s : uuid) : Prop :=
  ~ in_closed_set m s /\ exists c, In c (m_surfaces m) /\ co_id c = s /\ sm_polygons (co_mesh c) <> [] /\
    forall b, In b (component_ids m BlockT) -> tl_inside_block tl s b = Ok false.
Definition wrongly_bounding (m : Model) (s : uuid) : Prop := 1 <= nb_incidences m s /\ ~ in_closed_set m s.
Definition without_relation (tl : TopoLookup) (m : Model) (s : uuid) : Prop :=
  nb_incidences m s = 0 /\ nb_embeddings m s = 0 /\ ~ dangling tl m s.
Definition surface_relation_wrong (tl : TopoLookup) (m : Model) (uv : nat) : Prop :=
  exists s, active_at m uv SurfaceT s /\ (wrongly_bounding m s \/ without_relation tl m s).
Definition only_surface_wrong (m : Model) (uv : nat) : Prop :=
  exists s bs, all_at m uv SurfaceT [s] /\ In s (active_ids m SurfaceT) /\ in_closed_set m s /\ all_at m uv BlockT bs /\
    (2 < length bs \/
     (1 <= nb_embeddings m s /\ all_blocks_have_polyhedra m /\ ~ exists b, bs = [b] /\ inside m s b) \/
     (nb_embeddings m s = 0 /\ exists b, In b bs /\ ~ bounds m s b)).

(** ** C46: the number of vertices a block should have at a unique vertex *)
Inductive sums {A} (f : A -> nat -> Prop) : list A -> nat -> Prop :=
| sums_nil : sums f [] 0
| sums_cons : forall x l a b, f x a -> sums f l b -> sums f (x :: l) (a + b).
(** how many times the line goes along the boundary of the block: a bounding line counts for half a boundary surface, a
    line internal to a boundary surface for one *)
Definition sides (m : Model) (b l : uuid) (k : nat) : Prop :=
  exists p q, counts (fun s => bounds m l s) (block_surfaces m b) p /\ counts (fun s => inside m l s) (block_surfaces m b) q /\
    k = Nat.div (p + 2 * q) 2.
Definition free_of_blocks (m : Model) (l : uuid) : Prop := forall b, ~ in_block m l b.
(** [k] for the link of a line that is not inside a block, 0 for the other links *)
Definition line_sides (m : Model) (b : uuid) (c : ComponentMeshVertex) (k : nat) : Prop :=
  (exists l, cmv_component c = mkCID LineT l /\ free_of_blocks m l /\ sides m b l k) \/
  (k = 0 /\ ~ exists l, cmv_component c = mkCID LineT l /\ free_of_blocks m l).
Definition line_within_block (m : Model) (b : uuid) (c : ComponentMeshVertex) : Prop :=
  exists l, cmv_component c = mkCID LineT l /\ free_of_blocks m l /\ sides m b l 0 /\
    ((exists s, in_surface m l s /\ inside m s b) \/
     ((forall s, ~ in_surface m l s) /\ forall s, bounds m l s -> inside m s b)).
Record block_counts (m : Model) (uv : nat) (b : uuid) := mkBlockCounts {
  bc_blocks : nat; bc_bounding : nat; bc_internal : nat; bc_corners : nat; bc_sides : nat; bc_extra : nat; bc_several : nat; bc_within : nat;
  bc_blocks_ok : counts (fun c => cmv_component c = mkCID BlockT b) (component_mesh_vertices m uv) bc_blocks;
  bc_bounding_ok : counts (fun c => exists s, cmv_component c = mkCID SurfaceT s /\ bounds m s b) (component_mesh_vertices m uv) bc_bounding;
  bc_internal_ok : counts (fun c => exists s, cmv_component c = mkCID SurfaceT s /\ inside m s b /\ ~ bounds m s b) (component_mesh_vertices m uv) bc_internal;
  bc_corners_ok : counts (fun c => cid_type (cmv_component c) = CornerT) (component_mesh_vertices m uv) bc_corners;
  bc_sides_ok : sums (line_sides m b) (component_mesh_vertices m uv) bc_sides;
  bc_extra_ok : sums (fun c e => exists k, line_sides m b c k /\ e = k - 1) (component_mesh_vertices m uv) bc_extra;
  bc_several_ok : counts (fun c => exists k, line_sides m b c k /\ 2 <= k) (component_mesh_vertices m uv) bc_several;
  bc_within_ok : counts (line_within_block m b) (component_mesh_vertices m uv) bc_within }.
(** the prediction, in integers *)
Definition expected {m uv b} (k : block_counts m uv b) : Z :=
  (1 + Z.of_nat (bc_internal _ _ _ k)
   + (if Nat.eqb (bc_bounding _ _ _ k) 0 then 0 else Z.of_nat (bc_bounding _ _ _ k) - 1 - Z.of_nat (bc_sides _ _ _ k))
   - Z.of_nat (bc_within _ _ _ k)
   + (if Nat.eqb (bc_within _ _ _ k) 0 && Nat.eqb (bc_sides _ _ _ k) 0 then 0
      else Z.of_nat (bc_corners _ _ _ k) + Z.of_nat (Nat.div (bc_extra _ _ _ k) 2)))%Z.
Definition same_index (x y : Z) : Prop := (x mod 2 ^ 32 = y mod 2 ^ 32)%Z.
(** accepted: the prediction, or, next to an odd number of lines going along several sides, that number more *)
Definition count_accepted {m uv b} (k : block_counts m uv b) : Prop :=
  same_index (Z.of_nat (bc_blocks _ _ _ k)) (expected k) \/
  (Nat.Odd (bc_several _ _ _ k) /\ same_index (Z.of_nat (bc_blocks _ _ _ k)) (expected k + Z.of_nat (bc_several _ _ _ k))%Z).
Definition block_count_wrong (m : Model) (uv : nat) : Prop :=
  exists b, active_at m uv BlockT b /\ exists k : block_counts m uv b, ~ count_accepted k.
(** sums of these counts fit [index_t] *)
Definition counts_fit (m : Model) : Prop :=
  forall cmvs, In cmvs (m_cmvs m) -> below_2_32 (length cmvs * (3 * length (m_boundary_rel m) + 1)).

(** ** C56: the whole inspection of blocks *)
(** Answers of the geometric searches: whether points are inside closed surfaces (OpenGeode exceptions are handled), and
    whether the first polygon of a surface is inside a block. *)
Definition inside_safe (tl : TopoLookup) : Prop := forall p x, tl_inside_closed tl p x <> UB /\ tl_inside_closed tl p x <> Throw OtherExn.
Definition inside_block_ok (tl : TopoLookup) : Prop := forall s b, exists r, tl_inside_block tl s b = Ok r.
Record blocks_ok (tl : TopoLookup) (m : Model) : Prop := {
  bo_brep : brep_ok m;
  bo_surfaces : forall s, In s (model_boundary_surfaces m) -> In s (component_ids m SurfaceT);
  bo_nonempty : m_model_boundaries m = [] \/ model_boundary_surfaces m <> [];
  bo_bound : below_2_32 (length (model_boundary_surfaces m));
  bo_rel_bound : below_2_32 (length (m_boundary_rel m));
  bo_inside : inside_safe tl;
  bo_inside_block : inside_block_ok tl;
  bo_fit : counts_fit m }.
(** [l] lists the active blocks satisfying [P], in model order *)
Definition lists_blocks (m : Model) (P : uuid -> Prop) (l : list uuid) : Prop :=
  subsequence l (component_ids m BlockT) /\ forall b, In b l <-> In b (active_ids m BlockT) /\ P b.
Definition block_has_mesh (m : Model) (b : uuid) : Prop := exists c, In c (m_blocks m) /\ co_id c = b /\ has_points_and_polyhedra (co_mesh c).
(** what the result of the inspection says when some block is active *)
Record blocks_report (tl : TopoLookup) (m : Model) (r : BRepBlocksTopology) : Prop := {
  rb_meshed : lists_blocks m (fun b => ~ block_has_mesh m b /\ exists b', In b' (active_ids m BlockT) /\ block_has_mesh m b') (ii_issues (bb_not_meshed r));
  rb_linked : map_reports (bb_not_linked r) (fun id vs => exists c, In c (m_blocks m) /\ co_active c = true /\ co_id c = id /\
    has_points_and_polyhedra (co_mesh c) /\ lists_exactly lt (unlinked m BlockT id (nb_points3 (co_mesh c))) vs);
  rb_free : lists_blocks m (boundary_has_free_line m) (ii_issues (bb_wrong_boundary r));
  rb_closed : exists parts, (forall b, In b (component_ids m BlockT) -> connected_parts m (block_surfaces m b) (parts b)) /\
    lists_blocks m (fun b => ~ counted_as_closed tl m (parts b)) (ii_issues (bb_not_closed r));
  rb_model : (all_linked m (model_boundary_surfaces m) /\ ii_issues (bb_model_boundaries r) = []) \/
             (~ all_linked m (model_boundary_surfaces m) /\ ii_issues (bb_model_boundaries r) = [0]);
  rb_two : lists_vertices m (two_blocks_apart m) (ii_issues (bb_two_blocks r));
  rb_count : lists_vertices m (block_count_wrong m) (ii_issues (bb_wrong_count r));
  rb_single : lists_vertices m (only_surface_wrong m) (ii_issues (bb_single_invalid r));
  rb_relation : lists_vertices m (surface_relation_wrong tl m) (ii_issues (bb_wrong_relationship r));
  rb_multiple : ii_issues (bb_multiple_invalid r) = [] }.
(** ** C39: no vertex check of the validity predicate fails *)
Definition brep_vertex_fine (tl : TopoLookup) (m : Model) (uv : nat) : Prop :=
  (~ several_corners m uv /\ ~ corner_in_block_and_elsewhere m uv /\ ~ corner_without_relation m uv /\ ~ corner_unrelated_to_line m uv /\
   ~ embedded_corner_bounding_several m uv) /\
  (~ line_embedding_wrong m uv /\ ~ only_line_wrong m uv /\ ~ line_relationship_wrong tl m uv /\ ~ lines_without_corner m uv) /\
  ((exists s, active_at m uv SurfaceT s) -> ~ surface_badly_embedded m uv /\ ~ several_surfaces_wrong m uv /\ ~ related_line_vertex_off_border m uv) /\
  (~ two_blocks_apart m uv /\ ~ block_count_wrong m uv).
