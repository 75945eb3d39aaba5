(** C19 - C24 and the degeneration and negative element parts of C44. *)
From Coq Require Import String Ascii List Arith NArith ZArith Bool Lia Sorted Floats.SpecFloat.
From Verif Require Import Base Model_Issues Types Model_Degeneration Model_Negative Spec_Colocation Spec_Maps Spec_Adjacency
  Spec_Degeneration Spec_Negative Proof_Degeneration Proof_Degeneration2.
Import ListNotations.
Open Scope list_scope.

(** C19: surfaces and solids list the edges strictly below the threshold, whatever the edge storage *)
Theorem C19_mesh_small_edges : forall ms geo t st,
  (forall m, edges_in_range (sm_points m) (sm_edges m) ->
     exists r, fst (surface_small_edges ms geo m t st) = Ok r /\
       lists_exactly lt (shorter_edge ms (sm_points m) (sm_edges m) t) (ii_issues r)) /\
  (forall m, edges_in_range (so_points m) (so_edges m) ->
     exists r, fst (solid_small_edges ms geo m t st) = Ok r /\
       lists_exactly lt (shorter_edge ms (so_points m) (so_edges m) t) (ii_issues r)).
Proof. exact small_edges_mesh. Qed.
Print Assumptions C19_mesh_small_edges.
Theorem C19_mesh_degenerated_edges : forall ms geo st,
  (forall m, edges_in_range (sm_points m) (sm_edges m) ->
     exists r, fst (surface_degenerated_edges ms geo m st) = Ok r /\
       lists_exactly lt (shorter_edge ms (sm_points m) (sm_edges m) GLOBAL_EPSILON) (ii_issues r)) /\
  (forall m, edges_in_range (so_points m) (so_edges m) ->
     exists r, fst (solid_degenerated_edges ms geo m st) = Ok r /\
       lists_exactly lt (shorter_edge ms (so_points m) (so_edges m) GLOBAL_EPSILON) (ii_issues r)).
Proof. exact (fun ms geo => small_edges_mesh ms geo GLOBAL_EPSILON). Qed.
Print Assumptions C19_mesh_degenerated_edges.
(** curves list the edges at or below the threshold *)
Theorem C19_curve_small_edges : forall ms geo c,
  (forall t, lists_exactly lt (short_curve_edge c t) (ii_issues (curve_small_edges ms geo c t))) /\
  lists_exactly lt (short_curve_edge c GLOBAL_EPSILON) (ii_issues (curve_degenerated_edges ms geo c)).
Proof. exact (fun ms geo c => conj (curve_small_spec ms geo c) (curve_small_spec ms geo c GLOBAL_EPSILON)). Qed.
Print Assumptions C19_curve_small_edges.
Theorem C19_monotone : forall ms geo t t', dle t t' = true ->
  (forall m st st' r r', edges_in_range (sm_points m) (sm_edges m) ->
     fst (surface_small_edges ms geo m t st) = Ok r -> fst (surface_small_edges ms geo m t' st') = Ok r' ->
     incl (ii_issues r) (ii_issues r')) /\
  (forall m st st' r r', edges_in_range (so_points m) (so_edges m) ->
     fst (solid_small_edges ms geo m t st) = Ok r -> fst (solid_small_edges ms geo m t' st') = Ok r' ->
     incl (ii_issues r) (ii_issues r')) /\
  (forall c, incl (ii_issues (curve_small_edges ms geo c t)) (ii_issues (curve_small_edges ms geo c t'))).
Proof. exact small_edges_monotone. Qed.
Print Assumptions C19_monotone.
(** NaN lengths are never listed; a length equal to the threshold is listed on a curve and not on a surface *)
Theorem C19_boundary : forall ms geo t c e m st r a b p q,
  edges_in_range (sm_points m) (sm_edges m) -> fst (surface_small_edges ms geo m t st) = Ok r ->
  nth_error (sm_edges m) e = Some (a, b) -> nth_error (sm_points m) a = Some p -> nth_error (sm_points m) b = Some q ->
  e < length (ec_edges c) ->
  (ms_distance ms p q = S754_nan -> ~ In e (ii_issues r)) /\
  (ec_edge_length c e = S754_nan -> ~ In e (ii_issues (curve_small_edges ms geo c t))) /\
  (t <> S754_nan -> ms_distance ms p q = t -> ec_edge_length c e = t ->
     ~ In e (ii_issues r) /\ In e (ii_issues (curve_small_edges ms geo c t))).
Proof. exact edge_lengths_boundary. Qed.
Print Assumptions C19_boundary.

(** C20 *)
Theorem C20_small_heights : forall t,
  (forall m, lists_exactly lt (flat_polygon m t) (ii_issues (small_height_polygons m t))) /\
  (forall m, lists_exactly lt (flat_polyhedron m t) (ii_issues (small_height_polyhedra m t))).
Proof. exact (fun t => conj (fun m => flat_polygons_spec m t) (fun m => flat_polyhedra_spec m t)). Qed.
Print Assumptions C20_small_heights.
Theorem C20_monotone : forall t t', dle t t' = true ->
  (forall m, incl (ii_issues (small_height_polygons m t)) (ii_issues (small_height_polygons m t'))) /\
  (forall m, incl (ii_issues (small_height_polyhedra m t)) (ii_issues (small_height_polyhedra m t'))).
Proof. exact flat_monotone. Qed.
Print Assumptions C20_monotone.
Theorem C20_nan : forall t,
  (forall m p, sm_minimum_height m p = S754_nan -> ~ In p (ii_issues (small_height_polygons m t))) /\
  (forall m p, so_minimum_height m p = S754_nan -> ~ In p (ii_issues (small_height_polyhedra m t))).
Proof. exact nan_height_never_flat. Qed.
Print Assumptions C20_nan.

(** C21: the edge part needs no proviso *)
Theorem C21_surface : forall ms geo m st st' r, edges_in_range (sm_points m) (sm_edges m) ->
  fst (surface_degenerated_edges ms geo m st') = Ok r ->
  exists b, fst (surface_is_degenerated ms m st) = Ok b /\
    (b = true <-> ii_issues r <> [] \/ exists p, p < nb_polygons m /\ sm_polygon_degenerated m p = true).
Proof. exact surface_degenerated_spec. Qed.
Print Assumptions C21_surface.
Theorem C21_solid : forall ms geo m st st' r, edges_in_range (so_points m) (so_edges m) ->
  fst (solid_degenerated_edges ms geo m st') = Ok r ->
  exists b, fst (solid_is_degenerated ms m st) = Ok b /\
    (b = true <-> ii_issues r <> [] \/ exists p, p < nb_polyhedra m /\ so_polyhedron_degenerated m p = true).
Proof. exact solid_degenerated_spec. Qed.
Print Assumptions C21_solid.
(** with predicates that agree with the measures, yes/no and lists agree *)
Theorem C21_agreement : forall ms geo,
  (forall m st st', edges_in_range (sm_points m) (sm_edges m) ->
     (forall p, p < nb_polygons m -> sm_polygon_degenerated m p = dle (sm_minimum_height m p) GLOBAL_EPSILON) ->
     exists b r, fst (surface_is_degenerated ms m st) = Ok b /\ fst (surface_degenerated_edges ms geo m st') = Ok r /\
       (b = true <-> ii_issues r <> [] \/ ii_issues (degenerated_polygons m) <> [])) /\
  (forall m st st', edges_in_range (so_points m) (so_edges m) ->
     (forall p, p < nb_polyhedra m -> so_polyhedron_degenerated m p = dle (so_minimum_height m p) GLOBAL_EPSILON) ->
     exists b r, fst (solid_is_degenerated ms m st) = Ok b /\ fst (solid_degenerated_edges ms geo m st') = Ok r /\
       (b = true <-> ii_issues r <> [] \/ ii_issues (degenerated_polyhedra m) <> [])) /\
  (forall c, (forall e, e < length (ec_edges c) -> ec_edge_degenerated c e = dle (ec_edge_length c e) GLOBAL_EPSILON) ->
     (curve_is_degenerated c = true <-> ii_issues (curve_degenerated_edges ms geo c) <> [])).
Proof. exact degenerated_agree. Qed.
Print Assumptions C21_agreement.

(** C22: any number of inspectors of one mesh, constructed, queried and destroyed in any order.  No query fails; once no
    inspector is left the storage is as before; edges that were enabled are never disabled. *)
Theorem C22_mesh_history : forall ms geo mesh before calls,
  exists w, mesh_calls ms geo mesh calls (mkWorld before (fun _ => None)) = Ok w /\
    (nothing_living w -> w_enabled w = before) /\ (before = true -> w_enabled w = true).
Proof. exact mesh_history. Qed.
Print Assumptions C22_mesh_history.
(** one inspector of a model and any queries *)
Theorem C22_model_history : forall ms geo m qs s0 b0,
  exists st, model_queries ms geo m qs (new_model_inspector s0 b0) = Ok st /\
    (forall id, fst (destroy_model_inspector st) id = s0 id /\ snd (destroy_model_inspector st) id = b0 id) /\
    (forall id, (s0 id = true -> me_surface st id = true) /\ (b0 id = true -> me_block st id = true)).
Proof. exact model_history. Qed.
Print Assumptions C22_model_history.

(** C23: every surface task can be the one that reads a dead variable *)
Theorem C23_dangling_read : forall ms geo m t to_enable surfaces stored i, i < length surfaces ->
  exists schedule, loop_run ms geo m t to_enable surfaces schedule (loop_init stored) = UB.
Proof. exact (fun ms geo m t to_enable surfaces stored i H => ex_intro _ _ (dangling ms geo m t to_enable surfaces stored i H)). Qed.
Print Assumptions C23_dangling_read.
(** a schedule in which every task reads its flag before its iteration ends is safe *)
Theorem C23_prompt_is_safe : forall ms geo m t to_enable surfaces stored schedule,
  prompt ms geo m t to_enable surfaces stored schedule ->
  exists st, loop_run ms geo m t to_enable surfaces schedule (loop_init stored) = Ok st.
Proof. exact prompt_safe. Qed.
Print Assumptions C23_prompt_is_safe.
(** every complete schedule that is not undefined gives the results and the edge storages of the sequential run *)
Theorem C23_schedule_independent : forall ms geo m t to_enable st0 schedule st, unique_ids m ->
  let surfaces := active (m_surfaces m) in
  let stored i := match nth_error surfaces i with Some s => me_surface st0 (co_id s) | None => false end in
  loop_run ms geo m t to_enable surfaces schedule (loop_init stored) = Ok st -> all_done surfaces st ->
  let sequential := run_surface_tasks ms geo m t to_enable st0 in
  task_results surfaces st = map (fun '(id, r) => (id, Done r)) (fst sequential) /\
  forall i s, nth_error surfaces i = Some s -> lp_stored st i = me_surface (snd sequential) (co_id s).
Proof. exact schedule_independent. Qed.
Print Assumptions C23_schedule_independent.
Theorem C23_safe_schedule_exists : forall ms geo m t to_enable surfaces stored,
  exists schedule st, loop_run ms geo m t to_enable surfaces schedule (loop_init stored) = Ok st /\ all_done surfaces st.
Proof. exact safe_schedule_exists. Qed.
Print Assumptions C23_safe_schedule_exists.

(** C24 *)
Theorem C24_surface : forall ms m, polygon_points_exist m ->
  lists_exactly lt (negative_polygon ms m) (ii_issues (negative_polygons ms m)) /\
  (surface_has_negative_elements ms m = true <-> ii_issues (negative_polygons ms m) <> []).
Proof. exact surface_negative_spec. Qed.
Print Assumptions C24_surface.
Theorem C24_no_negative_in_3d : forall ms m, sm_dimension m = 3 ->
  ii_issues (negative_polygons ms m) = [] /\ surface_has_negative_elements ms m = false.
Proof. exact no_negative_in_3d. Qed.
Print Assumptions C24_no_negative_in_3d.
Theorem C24_solid : forall ms m, polyhedron_points_exist m ->
  lists_exactly lt (negative_polyhedron ms m) (ii_issues (negative_polyhedra ms m)) /\
  (solid_has_negative_elements ms m = true <-> ii_issues (negative_polyhedra ms m) <> []).
Proof. exact solid_negative_spec. Qed.
Print Assumptions C24_solid.
Theorem C24_C44_section : forall ms m, unique_ids m ->
  (forall s, In s (m_surfaces m) -> polygon_points_exist (co_mesh s) /\ below_2_32 (nb_polygons (co_mesh s))) ->
  map_reports (section_negative_elements ms m) (negative_polygons_report ms m).
Proof. exact section_negative_map. Qed.
Print Assumptions C24_C44_section.
Theorem C24_C44_brep : forall ms m, unique_ids m ->
  (forall b, In b (m_blocks m) -> polyhedron_points_exist (co_mesh b) /\ below_2_32 (nb_polyhedra (co_mesh b))) ->
  map_reports (brep_negative_elements ms m) (negative_polyhedra_report ms m).
Proof. exact brep_negative_map. Qed.
Print Assumptions C24_C44_brep.

(** C44: the degeneration maps, whatever queries came before *)
Theorem C44_degeneration_maps : forall ms geo m qs s0 b0 st, unique_ids m -> degeneration_ready m ->
  model_queries ms geo m qs (new_model_inspector s0 b0) = Ok st ->
  (exists r, fst (inspect_elements_degeneration ms geo m st) = Ok r /\
     map_reports (dr_edges r) (fun id l => small_edges_report ms m GLOBAL_EPSILON id l \/ block_small_edges_report ms m GLOBAL_EPSILON id l) /\
     map_reports (dr_polygons r) (flat_polygons_report m GLOBAL_EPSILON) /\
     map_reports (dr_polyhedra r) (flat_polyhedra_report m GLOBAL_EPSILON)) /\
  (forall t, exists r, fst (inspect_edges_degeneration ms geo m t st) = Ok r /\
     map_reports (dr_edges r) (small_edges_report ms m t) /\ im_map (dr_polygons r) = [] /\ im_map (dr_polyhedra r) = []) /\
  (forall t, exists r, fst (inspect_polygons_degeneration m t st) = Ok r /\
     im_map (dr_edges r) = [] /\ map_reports (dr_polygons r) (flat_polygons_report m t) /\ im_map (dr_polyhedra r) = []) /\
  (forall t, exists r, fst (inspect_polyhedra_degeneration ms geo m t st) = Ok r /\
     map_reports (dr_edges r) (block_small_edges_report ms m t) /\ im_map (dr_polygons r) = [] /\
     map_reports (dr_polyhedra r) (flat_polyhedra_report m t)).
Proof. exact degeneration_maps. Qed.
Print Assumptions C44_degeneration_maps.

(** ** Concrete instances *)
(** points are numbers on a line; the distance is looked up so that edges have lengths 0, epsilon, 1 and NaN *)
Definition d0 : double := S754_zero false.
Definition d1 : double := S754_finite false 1 0.
Definition ex_measures : Measures :=
  mkMeasures (fun p _ => p) (fun p q => match p, q with [a], [b] => if dlt a b then b else if dlt b a then S754_nan else d0 | _, _ => d0 end)
    (fun l => Nat.eqb (length l) 4) (fun a b c d => dlt (nth 0 a d0) (nth 0 b d0)).
Definition ex_points : list Point := [[d0]; [GLOBAL_EPSILON]; [d1]].
Definition ex_edges : list (nat * nat) := [(0, 0); (0, 1); (0, 2); (2, 0)].
Definition ex_surface : SurfaceMesh :=
  mkSurface 2 ex_points [[0; 1; 2]; [0; 1; 2; 1]] (fun _ => None) ex_edges (fun p => Nat.eqb p 1)
    (fun p => if Nat.eqb p 1 then GLOBAL_EPSILON else S754_nan) (fun _ => Ok []) (fun _ => false).
Definition ex_solid : SolidMesh :=
  mkSolid ex_points [mkPolyhedron [1; 0; 2; 2] [] []; mkPolyhedron [0; 1; 2; 2] [] []; mkPolyhedron [0; 1; 2; 2; 1] [] []]
    (fun _ => None) ex_edges (fun _ => false) (fun p => if Nat.eqb p 2 then d0 else d1)
    (fun p => if Nat.eqb p 2 then S754_finite true 1 0 else d0) (fun _ => Ok []) (fun _ _ => Ok []).
Definition ex_curve : EdgedCurve := mkCurve ex_points [(0, 1); (1, 2)] (fun e => if Nat.eqb e 0 then GLOBAL_EPSILON else d1) (fun e => Nat.eqb e 0).
Definition ex_model : Model :=
  mkModel [] [mkComponent 1 None true ex_curve] [mkComponent 2 None true ex_surface; mkComponent 3 None false ex_surface; mkComponent 4 None true ex_surface]
    [mkComponent 5 None true ex_solid] [] [] (fun _ => None) [] [] OpenGeodeExn (fun _ => ""%string) (fun _ => ""%string) (fun _ => ""%string) (fun _ => ""%string).
Definition ex_geo := mkGeometry (fun _ => mkColocated [] []) (fun _ _ => true) (fun _ => ""%string).
Example ex_edges_in_range : edges_in_range ex_points ex_edges.
Proof. intros a b H. cbn in *. repeat (destruct H as [H|H]; [injection H as <- <-; lia|]). destruct H. Qed.
Example ex_ready : degeneration_ready ex_model /\ unique_ids ex_model.
Proof.
  split; [split; [|split]|repeat constructor; cbn; intuition discriminate].
  - intros c [<-|[]]. reflexivity.
  - intros s Hs. cbn in Hs. repeat (destruct Hs as [<-|Hs]; [split; [exact ex_edges_in_range|split; reflexivity]|]). destruct Hs.
  - intros s [<-|[]]. split; [exact ex_edges_in_range|split; reflexivity].
Qed.
(** the surface edge of length epsilon is not listed, the curve edge is *)
Example ex_small_edges :
  (exists r, fst (surface_degenerated_edges ex_measures ex_geo ex_surface (new_inspector false)) = Ok r /\ ii_issues r = [0]) /\
  ii_issues (curve_degenerated_edges ex_measures ex_geo ex_curve) = [0] /\
  (exists r, fst (surface_small_edges ex_measures ex_geo ex_surface (S754_infinity false) (new_inspector true)) = Ok r /\ ii_issues r = [0; 1; 2]) /\
  ii_issues (degenerated_polygons ex_surface) = [1] /\ ii_issues (degenerated_polyhedra ex_solid) = [2].
Proof. repeat split; try (eexists; split; vm_compute; reflexivity); vm_compute; reflexivity. Qed.
Example ex_predicates_agree :
  (forall p, p < nb_polygons ex_surface -> sm_polygon_degenerated ex_surface p = dle (sm_minimum_height ex_surface p) GLOBAL_EPSILON) /\
  (forall e, e < length (ec_edges ex_curve) -> ec_edge_degenerated ex_curve e = dle (ec_edge_length ex_curve e) GLOBAL_EPSILON).
Proof. split; intros p Hp; cbn in Hp; destruct p as [|[|p]]; try lia; vm_compute; reflexivity. Qed.
(** two overlapping inspectors; the one that enabled the edges is destroyed first *)
Example ex_history : exists w,
  mesh_calls ex_measures ex_geo (ASurface ex_surface)
    [Construct 0; Construct 1; Query 0 QDegenerated; Query 1 QDegeneratedEdges; Destroy 0; Query 1 (QSmallEdges d1); Destroy 1]
    (mkWorld false (fun _ => None)) = Ok w /\ nothing_living w /\ w_enabled w = false.
Proof. eexists. split; [vm_compute; reflexivity|]. split; [|reflexivity]. intros k. cbn. destruct k as [|[|k]]; reflexivity. Qed.
Example ex_model_history : exists st r,
  model_queries ex_measures ex_geo ex_model [QEdges d1; QElements; QPolyhedra d0] (new_model_inspector (fun id => Nat.eqb id 4) (fun _ => false)) = Ok st /\
  fst (inspect_elements_degeneration ex_measures ex_geo ex_model st) = Ok r /\
  map fst (im_map (dr_edges r)) = [1; 2; 4; 5] /\ map fst (im_map (dr_polygons r)) = [2; 4] /\ map fst (im_map (dr_polyhedra r)) = [5] /\
  me_surface st 2 = true /\ me_my_surfaces st = [2] /\ me_block st 5 = true.
Proof. eexists. eexists. split; [vm_compute; reflexivity|]. repeat split; vm_compute; reflexivity. Qed.
(** a prompt schedule of two surfaces in which the tasks overlap *)
Definition ex_schedule : list Actor :=
  [Main; Main; Task 0; Main; Main; Main; Task 1; Task 0; Main; Task 1; Task 1; Task 0; Task 0; Task 1].
Example ex_prompt : prompt ex_measures ex_geo ex_model d1 [2] (active (m_surfaces ex_model)) (fun _ => false) ex_schedule.
Proof.
  intros before after st i E R M.
  do 15 (destruct before as [|a before];
    [cbn in E; first [discriminate E|vm_compute in R; injection R as <-; cbn in M; first [discriminate M|injection M as <-; cbn; discriminate]]
    |cbn in E; first [discriminate E|injection E as <- E]]).
Qed.
Example ex_schedule_complete : exists st, loop_run ex_measures ex_geo ex_model d1 [2] (active (m_surfaces ex_model)) ex_schedule (loop_init (fun _ => false)) = Ok st /\
  all_done (active (m_surfaces ex_model)) st.
Proof.
  eexists. split; [vm_compute; reflexivity|]. intros i Hi. cbn in Hi. destruct i as [|[|i]]; [| |lia]; eexists; reflexivity.
Qed.
Example ex_negative :
  polygon_points_exist ex_surface /\ polyhedron_points_exist ex_solid /\
  ii_issues (negative_polygons ex_measures ex_surface) = [1] /\ ii_issues (negative_polyhedra ex_measures ex_solid) = [1; 2].
Proof.
  split; [|split; [|split; vm_compute; reflexivity]].
  - intros vs v [<-|[<-|[]]] Hv; cbn in Hv; intuition (subst; cbn; lia).
  - intros vs v [<-|[<-|[<-|[]]]] Hv; cbn in Hv; intuition (subst; cbn; lia).
Qed.

(** the default threshold of the degeneration inspectors is the double nearest to 10^-6: [mantissa * 2^-72] with a 53-bit
    mantissa, at less than half a unit in the last place *)
Theorem C19_C20_default_threshold : exists mantissa : positive, GLOBAL_EPSILON = S754_finite false mantissa (-72) /\
  (2 ^ 52 <= Z.pos mantissa < 2 ^ 53)%Z /\ (2 * Z.abs (Z.pos mantissa * 10 ^ 6 - 2 ^ 72) < 10 ^ 6)%Z.
Proof. exists 4722366482869645%positive. split; [reflexivity|]. split; vm_compute; [split; [discriminate|reflexivity]|reflexivity]. Qed.
Print Assumptions C19_C20_default_threshold.
