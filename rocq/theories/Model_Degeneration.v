(** Model of criterion/degeneration/*.cpp, criterion/internal/degeneration_impl.cpp and
    criterion/internal/component_meshes_degeneration.cpp *)
From Coq Require Import String Ascii List Arith NArith ZArith Bool Lia Floats.SpecFloat.
From Verif Require Import Base Model_Issues Types.
Import ListNotations.
Local Open Scope string_scope.

(** OpenGeode: [GLOBAL_EPSILON], the double nearest to 1e-6 *)
Definition GLOBAL_EPSILON : double := S754_finite false 4722366482869645 (-72).

(** ** edgedcurve_degeneration.cpp *)

(** edgedcurve_degeneration.cpp:42-52 *)
Definition curve_is_degenerated (c : EdgedCurve) : bool :=
  existsb (ec_edge_degenerated c) (Range (List.length (ec_edges c))).
Definition edge_points (points : list Point) (edges : list (nat * nat)) (e : nat) : Point * Point :=
  let vs := nth e edges (0, 0) in (nth (fst vs) points [], nth (snd vs) points []).
(** edgedcurve_degeneration.cpp:54-70 *)
Definition curve_small_edges (ms : Measures) (geo : Geometry) (c : EdgedCurve) (threshold : double) : InspectionIssues nat :=
  fold_left (fun r e =>
      if dle (ec_edge_length c e) threshold
      then let p := edge_points (ec_points c) (ec_edges c) e in
           add_issue e (StrCat ["degenerated edge "; str e; ", at position [";
                                g_point_string geo (ms_barycenter ms (fst p) (snd p)); "]"]) r
      else r)
    (Range (List.length (ec_edges c))) (new_issues "degenerated edges.").
(** edgedcurve_degeneration.cpp:72-75 *)
Definition curve_degenerated_edges (ms : Measures) (geo : Geometry) (c : EdgedCurve) : InspectionIssues nat :=
  curve_small_edges ms geo c GLOBAL_EPSILON.

(** ** degeneration_impl.cpp: one inspector and the edge storage of its mesh *)

(** [es_enabled]: [mesh.are_edges_enabled()]; [es_mine]: data member [enabled_edges_] of the inspector *)
Record EdgeState := mkES { es_enabled : bool; es_mine : bool }.
(** degeneration_impl.cpp:40-44 *)
Definition new_inspector (enabled : bool) : EdgeState := mkES enabled false.
(** degeneration_impl.cpp:46-53: edge storage of the mesh after the destruction of the inspector *)
Definition destroy_inspector (st : EdgeState) : bool := if es_mine st then false else es_enabled st.
(** degeneration_impl.cpp:111-119 *)
Definition enable_edges_on_mesh (st : EdgeState) : EdgeState := if es_enabled st then st else mkES true true.
(** OpenGeode: [mesh.edges()] raises when edges are not enabled *)
Definition mesh_edges (st : EdgeState) (edges : list (nat * nat)) : outcome (list (nat * nat)) :=
  if es_enabled st then Ok edges else Throw OpenGeodeExn.

(** A mesh as seen by [DegenerationImpl]: its points and the edges it stores when they are enabled.
    degeneration_impl.cpp:100-109 *)
Definition edge_is_smaller_than_threshold (ms : Measures) (points : list Point) (edges : list (nat * nat)) (e : nat)
  (threshold : double) : bool :=
  let p := edge_points points edges e in dlt (ms_distance ms (fst p) (snd p)) threshold.
(** degeneration_impl.cpp:121-126 *)
Definition edge_is_degenerated ms points edges e : bool := edge_is_smaller_than_threshold ms points edges e GLOBAL_EPSILON.
(** degeneration_impl.cpp:55-67 *)
Definition impl_is_mesh_degenerated (ms : Measures) (points : list Point) (edges : list (nat * nat)) (st : EdgeState) :
  outcome bool * EdgeState :=
  let st := enable_edges_on_mesh st in
  (let! es := mesh_edges st edges in Ok (existsb (edge_is_degenerated ms points es) (Range (List.length es))), st).
(** degeneration_impl.cpp:69-91 *)
Definition impl_small_edges (ms : Measures) (geo : Geometry) (points : list Point) (edges : list (nat * nat))
  (threshold : double) (st : EdgeState) : outcome (InspectionIssues nat) * EdgeState :=
  let st := enable_edges_on_mesh st in
  (let! es := mesh_edges st edges in
   Ok (fold_left (fun r e =>
         if edge_is_smaller_than_threshold ms points es e threshold
         then let vs := nth e es (0, 0) in
              add_issue e (StrCat ["degenerated edge between vertices "; str (fst vs); " and "; str (snd vs);
                                   ", at position ["; g_point_string geo (nth (fst vs) points []); "]"]) r
         else r)
       (Range (List.length es)) (new_issues "degenerated edges")), st).
(** degeneration_impl.cpp:93-98 *)
Definition impl_degenerated_edges ms geo points edges st := impl_small_edges ms geo points edges GLOBAL_EPSILON st.

(** ** surface_degeneration.cpp *)

(** surface_degeneration.cpp:49-64 *)
Definition surface_is_degenerated (ms : Measures) (m : SurfaceMesh) (st : EdgeState) : outcome bool * EdgeState :=
  let '(b, st) := impl_is_mesh_degenerated ms (sm_points m) (sm_edges m) st in
  (let! b := b in if b then Ok true else Ok (existsb (sm_polygon_degenerated m) (Range (nb_polygons m))), st).
Definition surface_small_edges ms geo m threshold st := impl_small_edges ms geo (sm_points m) (sm_edges m) threshold st.
Definition surface_degenerated_edges ms geo m st := impl_degenerated_edges ms geo (sm_points m) (sm_edges m) st.
(** surface_degeneration.cpp:66-82 *)
Definition small_height_polygons (m : SurfaceMesh) (threshold : double) : InspectionIssues nat :=
  fold_left (fun r p => if dle (sm_minimum_height m p) threshold
                        then add_issue p (StrCat ["degenerated polygons "; str p]) r else r)
    (Range (nb_polygons m)) (new_issues "Degenerated Polygons.").
(** surface_degeneration.cpp:84-87 *)
Definition degenerated_polygons m := small_height_polygons m GLOBAL_EPSILON.

(** ** solid_degeneration.cpp *)

(** solid_degeneration.cpp:49-65 *)
Definition solid_is_degenerated (ms : Measures) (m : SolidMesh) (st : EdgeState) : outcome bool * EdgeState :=
  let '(b, st) := impl_is_mesh_degenerated ms (so_points m) (so_edges m) st in
  (let! b := b in if b then Ok true else Ok (existsb (so_polyhedron_degenerated m) (Range (nb_polyhedra m))), st).
Definition solid_small_edges ms geo m threshold st := impl_small_edges ms geo (so_points m) (so_edges m) threshold st.
Definition solid_degenerated_edges ms geo m st := impl_degenerated_edges ms geo (so_points m) (so_edges m) st.
(** solid_degeneration.cpp:67-85 *)
Definition small_height_polyhedra (m : SolidMesh) (threshold : double) : InspectionIssues nat :=
  fold_left (fun r p => if dle (so_minimum_height m p) threshold
                        then add_issue p (StrCat ["degenerated polyhedra "; str p]) r else r)
    (Range (nb_polyhedra m)) (new_issues "Degenerated Polyhedra.").
(** solid_degeneration.cpp:87-90 *)
Definition degenerated_polyhedra m := small_height_polyhedra m GLOBAL_EPSILON.

(** ** component_meshes_degeneration.cpp and {brep,section}_meshes_degeneration.cpp *)

(** Edge storages of the meshes of the model, and the data members [enabled_edges_surfaces_], [enabled_edges_blocks_]
    of the inspector (sets of identifiers as lists). *)
Record ModelEdges := mkME {
  me_surface : uuid -> bool;
  me_block : uuid -> bool;
  me_my_surfaces : list uuid;
  me_my_blocks : list uuid }.
Definition update (f : uuid -> bool) (id : uuid) (b : bool) : uuid -> bool := fun x => if Nat.eqb x id then b else f x.

(** component_meshes_degeneration.cpp:44-49 *)
Definition new_model_inspector (surfaces blocks : uuid -> bool) : ModelEdges := mkME surfaces blocks [] [].
(** brep_meshes_degeneration.cpp:81-87 then component_meshes_degeneration.cpp:50-57: edge storages after destruction *)
Definition destroy_model_inspector (st : ModelEdges) : (uuid -> bool) * (uuid -> bool) :=
  (fold_left (fun f id => update f id false) (me_my_surfaces st) (me_surface st),
   fold_left (fun f id => update f id false) (me_my_blocks st) (me_block st)).

(** component_meshes_degeneration.cpp:68-87 *)
Definition line_small_edges (ms : Measures) (geo : Geometry) (m : Model) (threshold : double) (c : Component EdgedCurve) :
  InspectionIssues nat :=
  set_description (StrCat ["Line "; named m (co_name c) (co_id c); " small edges"])
    (curve_small_edges ms geo (co_mesh c) threshold).
Definition add_lines_small_edges ms geo m threshold (acc : InspectionIssuesMap nat) : InspectionIssuesMap nat :=
  fold_left (fun acc c => add_issues_to_map (co_id c) (line_small_edges ms geo m threshold c) acc) (active (m_lines m)) acc.
(** component_meshes_degeneration.cpp:176-192 *)
Definition surfaces_on_which_enable_edges (m : Model) (st : ModelEdges) : list uuid * ModelEdges :=
  fold_left (fun '(result, st) s =>
      if negb (me_surface st (co_id s)) && negb (memb (co_id s) (me_my_surfaces st))
      then ((result ++ [co_id s])%list,
            mkME (me_surface st) (me_block st) (me_my_surfaces st ++ [co_id s]) (me_my_blocks st))
      else (result, st))
    (active (m_surfaces m)) ([], st).
(** component_meshes_degeneration.cpp:99-111: the task of surface [s], the value read from [enable_edges] being given;
    the result and the edge storage of the mesh after the task *)
Definition surface_task ms geo m threshold (s : Component SurfaceMesh) (enable_edges : bool) (stored : bool) :
  outcome (InspectionIssues nat) * bool :=
  let stored := if enable_edges then true else stored in
  let '(issues, st) := surface_small_edges ms geo (co_mesh s) threshold (new_inspector stored) in
  (let! issues := issues in
   Ok (set_description (StrCat ["Surface "; named m (co_name s) (co_id s); " small facet edges"]) issues),
   destroy_inspector st).
(** component_meshes_degeneration.cpp:92-121, the tasks run one after the other ([spawned_tasks] below: any schedule) *)
Definition run_surface_tasks ms geo m threshold (to_enable : list uuid) (st : ModelEdges) :
  list (uuid * outcome (InspectionIssues nat)) * ModelEdges :=
  fold_left (fun '(results, st) s =>
      let '(r, stored) := surface_task ms geo m threshold s (memb (co_id s) to_enable) (me_surface st (co_id s)) in
      ((results ++ [(co_id s, r)])%list,
       mkME (update (me_surface st) (co_id s) stored) (me_block st) (me_my_surfaces st) (me_my_blocks st)))
    (active (m_surfaces m)) ([], st).
Definition collect (results : list (uuid * outcome (InspectionIssues nat))) (acc : InspectionIssuesMap nat) :
  outcome (InspectionIssuesMap nat) :=
  foldM (fun acc '(id, r) => let! r := r in Ok (add_issues_to_map id r acc)) results acc.
(** component_meshes_degeneration.cpp:59-122 *)
Definition add_small_edges ms geo m threshold (acc : InspectionIssuesMap nat) (st : ModelEdges) :
  outcome (InspectionIssuesMap nat) * ModelEdges :=
  let acc := add_lines_small_edges ms geo m threshold acc in
  let '(to_enable, st) := surfaces_on_which_enable_edges m st in
  let '(results, st) := run_surface_tasks ms geo m threshold to_enable st in
  (collect results acc, st).
(** component_meshes_degeneration.cpp:131-159; these inspectors never touch the edge storage *)
Definition add_small_height_polygons (m : Model) (threshold : double) (acc : InspectionIssuesMap nat) : InspectionIssuesMap nat :=
  fold_left (fun acc s =>
      add_issues_to_map (co_id s)
        (set_description (StrCat ["Surface "; named m (co_name s) (co_id s); " small height polygons"])
           (small_height_polygons (co_mesh s) threshold)) acc) (active (m_surfaces m)) acc.
(** brep_meshes_degeneration.cpp:94-116, one block *)
Definition block_small_elements ms geo m threshold (b : Component SolidMesh)
  (acc : outcome (InspectionIssuesMap nat * InspectionIssuesMap nat) * ModelEdges) :
  outcome (InspectionIssuesMap nat * InspectionIssuesMap nat) * ModelEdges :=
  let '(maps, st) := acc in
  let st := if negb (me_block st (co_id b))
            then mkME (me_surface st) (update (me_block st) (co_id b) true) (me_my_surfaces st)
                      (me_my_blocks st ++ [co_id b])
            else st in
  let '(small_edges, inspector) :=
    solid_small_edges ms geo (co_mesh b) threshold (new_inspector (me_block st (co_id b))) in
  (let! maps := maps in
   let! small_edges := small_edges in
   let small_edges := set_description (StrCat ["Block "; named m (co_name b) (co_id b); " small edges polyhedra"]) small_edges in
   let small_polyhedra :=
     set_description (StrCat ["Block "; named m (co_name b) (co_id b); " small height polyhedra"])
       (small_height_polyhedra (co_mesh b) threshold) in
   Ok (add_issues_to_map (co_id b) small_edges (fst maps), add_issues_to_map (co_id b) small_polyhedra (snd maps)),
   mkME (me_surface st) (update (me_block st) (co_id b) (destroy_inspector inspector)) (me_my_surfaces st) (me_my_blocks st)).
(** brep_meshes_degeneration.cpp:89-117 *)
Definition add_solid_small_elements ms geo m threshold (maps : InspectionIssuesMap nat * InspectionIssuesMap nat)
  (st : ModelEdges) : outcome (InspectionIssuesMap nat * InspectionIssuesMap nat) * ModelEdges :=
  fold_left (fun acc b => block_small_elements ms geo m threshold b acc) (active (m_blocks m)) (Ok maps, st).

(** brep_meshes_degeneration.hpp / section_meshes_degeneration.hpp: result *)
Record DegenerationResult := mkDegenerationResult {
  dr_edges : InspectionIssuesMap nat;
  dr_polygons : InspectionIssuesMap nat;
  dr_polyhedra : InspectionIssuesMap nat }.
(** brep_meshes_degeneration.hpp:44-50: descriptions of an empty result *)
Definition empty_degeneration : DegenerationResult :=
  mkDegenerationResult (new_issues_map "degenerated edges") (new_issues_map "degenerated polygons")
    (new_issues_map "degenerated polyhedra").
(** brep_meshes_degeneration.cpp:140-149 ([section_meshes_degeneration.cpp:83-91] is the case without blocks) *)
Definition inspect_elements_degeneration ms geo m (st : ModelEdges) : outcome DegenerationResult * ModelEdges :=
  let r := empty_degeneration in
  let '(edges, st) := add_small_edges ms geo m GLOBAL_EPSILON (dr_edges r) st in
  match edges with
  | Ok edges =>
    let polygons := add_small_height_polygons m GLOBAL_EPSILON (dr_polygons r) in
    let '(maps, st) := add_solid_small_elements ms geo m GLOBAL_EPSILON (edges, dr_polyhedra r) st in
    (let! maps := maps in Ok (mkDegenerationResult (fst maps) polygons (snd maps)), st)
  | Throw e => (Throw e, st)
  | UB => (UB, st)
  end.
(** brep_meshes_degeneration.cpp:151-158 *)
Definition inspect_edges_degeneration ms geo m threshold (st : ModelEdges) : outcome DegenerationResult * ModelEdges :=
  let '(edges, st) := add_small_edges ms geo m threshold (dr_edges empty_degeneration) st in
  (let! edges := edges in
   Ok (mkDegenerationResult edges (dr_polygons empty_degeneration) (dr_polyhedra empty_degeneration)), st).
(** brep_meshes_degeneration.cpp:160-168 *)
Definition inspect_polygons_degeneration m threshold (st : ModelEdges) : outcome DegenerationResult * ModelEdges :=
  (Ok (mkDegenerationResult (dr_edges empty_degeneration)
         (add_small_height_polygons m threshold (dr_polygons empty_degeneration)) (dr_polyhedra empty_degeneration)), st).
(** brep_meshes_degeneration.cpp:170-178 *)
Definition inspect_polyhedra_degeneration ms geo m threshold (st : ModelEdges) : outcome DegenerationResult * ModelEdges :=
  let '(maps, st) := add_solid_small_elements ms geo m threshold (dr_edges empty_degeneration, dr_polyhedra empty_degeneration) st in
  (let! maps := maps in Ok (mkDegenerationResult (fst maps) (dr_polygons empty_degeneration) (snd maps)), st).

(** ** The spawning loop of component_meshes_degeneration.cpp:93-121 under any schedule

    [MainAt i]: the loop is about to begin iteration [i] (after the last one, it waits for the tasks);
    [MainIn i]: iteration [i] is running, its local variable [enable_edges] is alive.
    A task goes through: reading [enable_edges], enabling the edges, inspecting, destroying its inspector.  Actors that
    cannot move are skipped.  Surfaces have different meshes, so each task has its own edge storage. *)
Inductive MainState := MainAt (i : nat) | MainIn (i : nat).
Inductive TaskState :=
| NotSpawned
| Spawned
| FlagRead (enable_edges : bool)
| EdgesEnabled
| Inspected (r : outcome (InspectionIssues nat)) (inspector : EdgeState)
| Done (r : outcome (InspectionIssues nat)).
Record LoopState := mkLoop {
  lp_main : MainState;
  lp_tasks : nat -> TaskState;
  lp_stored : nat -> bool }.          (* edge storage of the mesh of each task *)
Inductive Actor := Main | Task (i : nat).
Definition set_task (f : nat -> TaskState) (i : nat) (t : TaskState) : nat -> TaskState :=
  fun j => if Nat.eqb j i then t else f j.

Section Loop.
Context (ms : Measures) (geo : Geometry) (m : Model) (threshold : double) (to_enable : list uuid)
        (surfaces : list (Component SurfaceMesh)).
Definition main_step (st : LoopState) : LoopState :=
  match lp_main st with
  | MainAt i => if Nat.ltb i (List.length surfaces) then mkLoop (MainIn i) (lp_tasks st) (lp_stored st) else st
  | MainIn i =>
    match lp_tasks st i with
    | NotSpawned => mkLoop (MainIn i) (set_task (lp_tasks st) i Spawned) (lp_stored st)   (* emplace_back(spawn(...)) *)
    | _ => mkLoop (MainAt (S i)) (lp_tasks st) (lp_stored st)                             (* end of the iteration *)
    end
  end.
(** the reference is dangling once the iteration that declared the variable is over *)
Definition alive (st : LoopState) (i : nat) : bool :=
  match lp_main st with MainIn j => Nat.eqb i j | MainAt _ => false end.
Definition task_step (st : LoopState) (i : nat) : outcome LoopState :=
  match nth_error surfaces i with
  | None => Ok st
  | Some s =>
    let move t := Ok (mkLoop (lp_main st) (set_task (lp_tasks st) i t) (lp_stored st)) in
    match lp_tasks st i with
    | NotSpawned | Done _ => Ok st
    | Spawned => if alive st i then move (FlagRead (memb (co_id s) to_enable)) else UB
    | FlagRead b => Ok (mkLoop (lp_main st) (set_task (lp_tasks st) i EdgesEnabled)
                               (fun j => if Nat.eqb j i then (if b then true else lp_stored st i) else lp_stored st j))
    | EdgesEnabled =>
      let '(r, inspector) := surface_small_edges ms geo (co_mesh s) threshold (new_inspector (lp_stored st i)) in
      Ok (mkLoop (lp_main st)
            (set_task (lp_tasks st) i
               (Inspected (let! r := r in
                           Ok (set_description (StrCat ["Surface "; named m (co_name s) (co_id s); " small facet edges"]) r)) inspector))
            (fun j => if Nat.eqb j i then es_enabled inspector else lp_stored st j))
    | Inspected r inspector =>
      Ok (mkLoop (lp_main st) (set_task (lp_tasks st) i (Done r))
            (fun j => if Nat.eqb j i then destroy_inspector inspector else lp_stored st j))
    end
  end.
Definition loop_step (st : LoopState) (a : Actor) : outcome LoopState :=
  match a with Main => Ok (main_step st) | Task i => task_step st i end.
(** any schedule: the actors in the order in which they move *)
Definition loop_run (schedule : list Actor) (st : LoopState) : outcome LoopState := foldM loop_step schedule st.
Definition loop_init (stored : nat -> bool) : LoopState := mkLoop (MainAt 0) (fun _ => NotSpawned) stored.
End Loop.
