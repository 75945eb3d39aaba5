(** What degeneration inspections should say. *)
From Coq Require Import String List Arith NArith Bool Sorted Floats.SpecFloat.
From Verif Require Import Base Model_Issues Types Spec_Maps Spec_Adjacency Model_Degeneration.
Import ListNotations.

(** ** Small elements *)
(** edge [e] joins two points at a distance below [t] *)
Definition shorter_edge (ms : Measures) (points : list Point) (edges : list (nat * nat)) (t : double) (e : nat) : Prop :=
  exists a b p q, nth_error edges e = Some (a, b) /\ nth_error points a = Some p /\ nth_error points b = Some q /\
    dlt (ms_distance ms p q) t = true.
(** edge [e] of the curve has a length of at most [t] *)
Definition short_curve_edge (c : EdgedCurve) (t : double) (e : nat) : Prop :=
  e < length (ec_edges c) /\ dle (ec_edge_length c e) t = true.
Definition flat_polygon (m : SurfaceMesh) (t : double) (p : nat) : Prop :=
  p < nb_polygons m /\ dle (sm_minimum_height m p) t = true.
Definition flat_polyhedron (m : SolidMesh) (t : double) (p : nat) : Prop :=
  p < nb_polyhedra m /\ dle (so_minimum_height m p) t = true.
Definition edges_in_range (points : list Point) (edges : list (nat * nat)) : Prop :=
  forall a b, In (a, b) edges -> a < length points /\ b < length points.

(** ** Model reports *)
Definition small_edges_report (ms : Measures) (m : Model) (t : double) (id : uuid) (l : list nat) : Prop :=
  (exists c, In c (m_lines m) /\ co_active c = true /\ co_id c = id /\ lists_exactly lt (short_curve_edge (co_mesh c) t) l) \/
  (exists s, In s (m_surfaces m) /\ co_active s = true /\ co_id s = id /\
     lists_exactly lt (shorter_edge ms (sm_points (co_mesh s)) (sm_edges (co_mesh s)) t) l).
Definition block_small_edges_report (ms : Measures) (m : Model) (t : double) (id : uuid) (l : list nat) : Prop :=
  exists b, In b (m_blocks m) /\ co_active b = true /\ co_id b = id /\
    lists_exactly lt (shorter_edge ms (so_points (co_mesh b)) (so_edges (co_mesh b)) t) l.
Definition flat_polygons_report (m : Model) (t : double) (id : uuid) (l : list nat) : Prop :=
  exists s, In s (m_surfaces m) /\ co_active s = true /\ co_id s = id /\ lists_exactly lt (flat_polygon (co_mesh s) t) l.
Definition flat_polyhedra_report (m : Model) (t : double) (id : uuid) (l : list nat) : Prop :=
  exists b, In b (m_blocks m) /\ co_active b = true /\ co_id b = id /\ lists_exactly lt (flat_polyhedron (co_mesh b) t) l.
(** Edges join existing points and numbers fit [index_t]. *)
Definition degeneration_ready (m : Model) : Prop :=
  (forall c, In c (m_lines m) -> below_2_32 (length (ec_edges (co_mesh c)))) /\
  (forall s, In s (m_surfaces m) -> edges_in_range (sm_points (co_mesh s)) (sm_edges (co_mesh s)) /\
     below_2_32 (length (sm_edges (co_mesh s))) /\ below_2_32 (nb_polygons (co_mesh s))) /\
  (forall b, In b (m_blocks m) -> edges_in_range (so_points (co_mesh b)) (so_edges (co_mesh b)) /\
     below_2_32 (length (so_edges (co_mesh b))) /\ below_2_32 (nb_polyhedra (co_mesh b))).

(** ** Histories of inspectors on one mesh *)
Inductive AnyMesh := ASurface (m : SurfaceMesh) | ASolid (m : SolidMesh).
Inductive MeshQuery := QDegenerated | QSmallEdges (t : double) | QDegeneratedEdges.
(** The client constructs, queries and destroys inspectors, designated by numbers, in any order. *)
Inductive MeshCall := Construct (k : nat) | Query (k : nat) (q : MeshQuery) | Destroy (k : nat).
(** the edge storage of the mesh and, for each living inspector, its private flag *)
Record MeshWorld := mkWorld { w_enabled : bool; w_living : nat -> option bool }.
Definition set_living (f : nat -> option bool) (k : nat) (v : option bool) := fun j => if Nat.eqb j k then v else f j.
Definition ask (ms : Measures) (geo : Geometry) (mesh : AnyMesh) (q : MeshQuery) (st : EdgeState) : outcome unit * EdgeState :=
  let forget {A} (r : outcome A * EdgeState) := (let! _ := fst r in Ok tt, snd r) in
  match mesh, q with
  | ASurface m, QDegenerated => forget (surface_is_degenerated ms m st)
  | ASurface m, QSmallEdges t => forget (surface_small_edges ms geo m t st)
  | ASurface m, QDegeneratedEdges => forget (surface_degenerated_edges ms geo m st)
  | ASolid m, QDegenerated => forget (solid_is_degenerated ms m st)
  | ASolid m, QSmallEdges t => forget (solid_small_edges ms geo m t st)
  | ASolid m, QDegeneratedEdges => forget (solid_degenerated_edges ms geo m st)
  end.
(** calls on objects that do not exist are no program: they are skipped *)
Definition mesh_call ms geo mesh (w : MeshWorld) (c : MeshCall) : outcome MeshWorld :=
  match c with
  | Construct k =>
    match w_living w k with
    | None => Ok (mkWorld (w_enabled w) (set_living (w_living w) k (Some (es_mine (new_inspector (w_enabled w))))))
    | Some _ => Ok w
    end
  | Query k q =>
    match w_living w k with
    | None => Ok w
    | Some mine =>
      let '(r, st) := ask ms geo mesh q (mkES (w_enabled w) mine) in
      let! _ := r in Ok (mkWorld (es_enabled st) (set_living (w_living w) k (Some (es_mine st))))
    end
  | Destroy k =>
    match w_living w k with
    | None => Ok w
    | Some mine => Ok (mkWorld (destroy_inspector (mkES (w_enabled w) mine)) (set_living (w_living w) k None))
    end
  end.
Definition mesh_calls ms geo mesh (calls : list MeshCall) (w : MeshWorld) : outcome MeshWorld :=
  foldM (mesh_call ms geo mesh) calls w.
Definition nothing_living (w : MeshWorld) : Prop := forall k, w_living w k = None.

(** ** Histories of one model inspector *)
Inductive ModelQuery := QElements | QEdges (t : double) | QPolygons (t : double) | QPolyhedra (t : double).
Definition ask_model ms geo m (q : ModelQuery) (st : ModelEdges) : outcome DegenerationResult * ModelEdges :=
  match q with
  | QElements => inspect_elements_degeneration ms geo m st
  | QEdges t => inspect_edges_degeneration ms geo m t st
  | QPolygons t => inspect_polygons_degeneration m t st
  | QPolyhedra t => inspect_polyhedra_degeneration ms geo m t st
  end.
Definition model_queries ms geo m (qs : list ModelQuery) (st : ModelEdges) : outcome ModelEdges :=
  foldM (fun st q => let '(r, st) := ask_model ms geo m q st in let! _ := r in Ok st) qs st.

(** ** The spawning loop *)
Definition all_done (surfaces : list (Component SurfaceMesh)) (st : LoopState) : Prop :=
  forall i, i < length surfaces -> exists r, lp_tasks st i = Done r.
(** Every iteration ends only after its task has read the flag. *)
Definition prompt ms geo m threshold to_enable surfaces (stored : nat -> bool) (schedule : list Actor) : Prop :=
  forall before after st i, schedule = before ++ Main :: after ->
    loop_run ms geo m threshold to_enable surfaces before (loop_init stored) = Ok st -> lp_main st = MainIn i ->
    lp_tasks st i <> Spawned.
(** results of the tasks, in the order in which they were spawned *)
Definition task_results (surfaces : list (Component SurfaceMesh)) (st : LoopState) : list (uuid * TaskState) :=
  map (fun '(i, s) => (co_id s, lp_tasks st i)) (enum surfaces).
