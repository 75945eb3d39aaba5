(** C13 - C18 (and the manifold part of C44). *)
From Coq Require Import String Ascii List Arith NArith ZArith Bool Lia Sorted Permutation Floats.SpecFloat.
From Verif Require Import Base Model_Issues Types Model_Colocation Model_Cycles Model_Hash Model_Manifold
  Spec_Colocation Spec_Maps Spec_Cycles Spec_Adjacency Spec_Manifold
  Proof_Adjacency Proof_Hash Proof_Manifold Proof_Manifold2 Proof_Manifold3.
Import ListNotations.
Open Scope list_scope.

(** C13: exact while no edge is used more than 256 times, for all visiting orders of the two hash maps *)
Theorem C13_surface_edges : forall ho ho' m, (forall a b n, uses m a b n -> n <= 256) ->
  lists_once (non_manifold_edge eq m) (ii_issues (surface_non_manifold_edges ho m)) /\
  (surface_edges_are_manifold ho' m = true <-> ii_issues (surface_non_manifold_edges ho m) = []).
Proof. exact surface_edges_exact. Qed.
Print Assumptions C13_surface_edges.
(** without that bound: the numbers of uses are compared modulo 256 *)
Theorem C13_surface_edges_any_mesh : forall ho ho' m,
  lists_once (non_manifold_edge same_modulo_256 m) (ii_issues (surface_non_manifold_edges ho m)) /\
  (surface_edges_are_manifold ho' m = true <-> ii_issues (surface_non_manifold_edges ho m) = []).
Proof. exact surface_edges_spec. Qed.
Print Assumptions C13_surface_edges_any_mesh.

(** C14 *)
Theorem C14_surface_vertices : forall geo m, surface_vertices_in_range m ->
  (forall v, v < length (sm_points m) -> sm_around_vertex m v = Throw OpenGeodeExn \/ exists fan, sm_around_vertex m v = Ok fan) ->
  exists r b, surface_non_manifold_vertices geo m = Ok r /\ lists_exactly lt (surface_non_manifold_vertex m) (ii_issues r) /\
    surface_vertices_are_manifold m = Ok b /\ (b = true <-> ii_issues r = []).
Proof. exact surface_vertices_spec. Qed.
Print Assumptions C14_surface_vertices.

(** C15 *)
Theorem C15_solid_vertices : forall geo m, solid_vertices_in_range m ->
  (forall v, v < length (so_points m) -> exists fan, so_around_vertex m v = Ok fan) ->
  exists r b, solid_non_manifold_vertices geo m = Ok r /\ lists_exactly lt (solid_non_manifold_vertex m) (ii_issues r) /\
    solid_vertices_are_manifold m = Ok b /\ (b = true <-> ii_issues r = []).
Proof. exact solid_vertices_spec. Qed.
Print Assumptions C15_solid_vertices.
(** the first failure escapes; the yes/no query answers only if a smaller vertex is not manifold *)
Theorem C15_failure_escapes : forall geo m v e, solid_vertices_in_range m -> v < length (so_points m) ->
  so_around_vertex m v = Throw e -> (forall w, w < v -> exists fan, so_around_vertex m w = Ok fan) ->
  solid_non_manifold_vertices geo m = Throw e /\
  ((exists w, w < v /\ solid_non_manifold_vertex m w) -> solid_vertices_are_manifold m = Ok false) /\
  (~ (exists w, w < v /\ solid_non_manifold_vertex m w) -> solid_vertices_are_manifold m = Throw e).
Proof. exact solid_vertices_failure. Qed.
Print Assumptions C15_failure_escapes.

(** C16 *)
Theorem C16_solid_edges : forall m, around_edge_contract m ->
  exists r, solid_non_manifold_edges m = Ok r /\ solid_edge_report m (ii_issues r).
Proof. exact solid_edges_spec. Qed.
Print Assumptions C16_solid_edges.
Theorem C16_solid_edges_yes_no : forall m, around_edge_contract m -> (forall eab, ~ failed_edge m eab) ->
  exists r b, solid_non_manifold_edges m = Ok r /\ solid_edges_are_manifold m = Ok b /\ (b = true <-> ii_issues r = []).
Proof. exact solid_edges_bool. Qed.
Print Assumptions C16_solid_edges_yes_no.
Theorem C16_failure : forall m eab, around_edge_contract m -> failed_edge m eab ->
  (exists r, solid_non_manifold_edges m = Ok r /\ In (snd eab) (ii_issues r)) /\
  (solid_edges_are_manifold m = Throw OpenGeodeExn \/ solid_edges_are_manifold m = Ok false) /\
  ((forall e, ~ unfinished_edge m e) -> solid_edges_are_manifold m = Throw OpenGeodeExn).
Proof. exact solid_edges_failure. Qed.
Print Assumptions C16_failure.

(** C17 *)
Theorem C17_solid_facets : forall ho ho' m, simple_facets m -> below_2_32 (length (all_polyhedron_facets m)) ->
  represents_cycles (overused_facet m) (ii_issues (solid_non_manifold_facets ho m)) /\
  (solid_facets_are_manifold ho' m = true <-> ii_issues (solid_non_manifold_facets ho m) = []).
Proof. exact solid_facets_spec. Qed.
Print Assumptions C17_solid_facets.

(** C18 *)
Theorem C18_model_edges : forall ho m d,
  (forall l v w, In l (m_lines m) -> co_active l = true -> ec_edges (co_mesh l) = [(v, w)] ->
     linked m LineT (co_id l) v /\ linked m LineT (co_id l) w) ->
  exists r l1 l2, add_model_non_manifold_edges ho m (new_issues d) = Ok r /\ ii_issues r = l1 ++ l2 /\
    lists_once (shared_interior_edge m) l1 /\
    reports_in_order (lonely_line_issue m) (filter co_active (m_lines m)) l2.
Proof. exact model_edges_spec. Qed.
Print Assumptions C18_model_edges.
Theorem C18_model_facets : forall m d,
  (forall s vs v, In s (m_surfaces m) -> co_active s = true -> sm_polygons (co_mesh s) = [vs] -> In v vs ->
     linked m SurfaceT (co_id s) v) ->
  exists r, add_model_non_manifold_facets m (new_issues d) = Ok r /\
    reports_in_order (lonely_surface_issue m) (filter co_active (m_surfaces m)) (ii_issues r).
Proof. exact model_facets_spec. Qed.
Print Assumptions C18_model_facets.

(** C44, manifold part *)
Theorem C44_vertex_manifold_map : forall geo m d, unique_ids m ->
  (forall s, In s (m_surfaces m) -> co_active s = true -> surface_vertices_in_range (co_mesh s) /\
     below_2_32 (length (sm_points (co_mesh s))) /\
     forall v, v < length (sm_points (co_mesh s)) ->
       sm_around_vertex (co_mesh s) v = Throw OpenGeodeExn \/ exists fan, sm_around_vertex (co_mesh s) v = Ok fan) ->
  (forall b, In b (m_blocks m) -> co_active b = true -> solid_vertices_in_range (co_mesh b) /\
     below_2_32 (length (so_points (co_mesh b))) /\
     forall v, v < length (so_points (co_mesh b)) -> exists fan, so_around_vertex (co_mesh b) v = Ok fan) ->
  exists r, add_component_meshes_non_manifold_vertices geo m (new_issues_map d) = Ok r /\
    map_reports r (vertex_manifold_report m).
Proof. exact vertex_manifold_map. Qed.
Print Assumptions C44_vertex_manifold_map.
Theorem C44_edge_manifold_map : forall ho m d, unique_ids m ->
  (forall s, In s (m_surfaces m) -> co_active s = true -> below_2_32 (length (all_polygon_edges (co_mesh s)))) ->
  (forall b, In b (m_blocks m) -> co_active b = true ->
     around_edge_contract (co_mesh b) /\ below_2_32 (length (all_polyhedron_edges (co_mesh b)))) ->
  exists r, add_component_meshes_non_manifold_edges ho m (new_issues_map d) = Ok r /\
    map_reports r (edge_manifold_report m).
Proof. exact edge_manifold_map. Qed.
Print Assumptions C44_edge_manifold_map.
Theorem C44_facet_manifold_map : forall ho m d, unique_ids m ->
  (forall b, In b (m_blocks m) -> co_active b = true ->
     simple_facets (co_mesh b) /\ below_2_32 (length (all_polyhedron_facets (co_mesh b)))) ->
  exists r, add_component_meshes_non_manifold_facets ho m (new_issues_map d) = Ok r /\
    map_reports r (facet_manifold_report m).
Proof. exact facet_manifold_map. Qed.
Print Assumptions C44_facet_manifold_map.

(** ** Concrete instances *)
Definition zero := S754_zero false.
Definition in_order : HashOrder := mkHashOrder (fun A l => l) (fun A l => Permutation_refl l).
Definition backwards : HashOrder := mkHashOrder (fun A l => rev l) (fun A l => Permutation_sym (Permutation_rev l)).
Definition surface_of (points : nat) (polygons : list (list nat)) adj around : SurfaceMesh :=
  mkSurface 3 (repeat [zero] points) polygons adj [] (fun _ => false) (fun _ => zero) around (fun _ => false).

(** 257 triangles on the border edge 0-1, every edge of each on the border: the 8-bit counter is back to 1 *)
Definition ex_257 : SurfaceMesh := surface_of 259 (map (fun k => [0; 1; k + 2]) (seq 0 257)) (fun _ => None) (fun _ => Ok []).
Theorem C13_257_uses_are_manifold : forall ho ho',
  uses ex_257 0 1 257 /\ non_manifold_edge eq ex_257 (0, 1) /\
  surface_edges_are_manifold ho ex_257 = true /\ ii_issues (surface_non_manifold_edges ho' ex_257) = [].
Proof.
  intros ho ho'.
  assert (U : uses ex_257 0 1 257) by (apply uses_joining; [lia|vm_compute; reflexivity]).
  split; [exact U|]. split.
  { split; [cbn; lia|]. exists 257. split; [lia|]. split; [exact U|]. left. split; [|lia].
    exists (0, 0). split; [|reflexivity]. split; [|left; split; reflexivity]. split; vm_compute; lia. }
  assert (K : ii_issues (surface_non_manifold_edges in_order ex_257) = []) by (vm_compute; reflexivity).
  split; [apply (surface_edges_spec in_order ho); exact K|].
  apply (surface_edges_spec ho' in_order). apply (surface_edges_spec in_order in_order). exact K.
Qed.
Print Assumptions C13_257_uses_are_manifold.

(** three triangles around edge 0-1 with adjacencies, one of them isolated from the others at vertex 0 *)
Definition ex_fan : SurfaceMesh :=
  surface_of 5 [[0; 1; 2]; [1; 0; 3]; [0; 1; 4]]
    (fun e => match e with (0, 0) => Some 1 | (1, 0) => Some 0 | (2, 0) => Some 0 | _ => None end)
    (fun v => match v with
       | 0 => Ok [(1, 1); (0, 0)] | 1 => Throw OpenGeodeExn
       | 2 => Ok [(0, 2)] | 3 => Ok [(1, 2)] | _ => Ok [(2, 2)] end).
Example ex_fan_hypotheses : (forall a b n, uses ex_fan a b n -> n <= 256) /\ surface_vertices_in_range ex_fan /\
  (forall v, v < length (sm_points ex_fan) -> sm_around_vertex ex_fan v = Throw OpenGeodeExn \/ exists fan, sm_around_vertex ex_fan v = Ok fan).
Proof.
  split; [|split].
  - intros a b n (l & [Hn Hl] & <-). apply Nat.le_trans with (length (all_polygon_edges ex_fan)); [|vm_compute; lia].
    apply NoDup_incl_length; [exact Hn|]. intros e He. apply in_all_polygon_edges. apply Hl in He. apply He.
  - intros c Hc. apply in_all_polygon_edges in Hc. vm_compute in Hc.
    repeat (destruct Hc as [<-|Hc]; [vm_compute; lia|]). destruct Hc.
  - intros v Hv. destruct v as [|[|[|[|v]]]]; cbn; eauto.
Qed.
Example ex_fan_results : ii_issues (surface_non_manifold_edges in_order ex_fan) = [(0, 1)] /\
  exists r, surface_non_manifold_vertices (mkGeometry (fun _ => mkColocated [] []) (fun _ _ => true) (fun _ => ""%string)) ex_fan = Ok r /\
    ii_issues r = [0].
Proof. split; [vm_compute; reflexivity|]. eexists. split; vm_compute; reflexivity. Qed.

(** three tetrahedra on one facet; turning around sees one polyhedron only, and fails from edge 0-2 *)
Definition tet (a b c d : nat) : Polyhedron :=
  mkPolyhedron [a; b; c; d] [[b; d; c]; [a; c; d]; [d; b; a]; [a; b; c]] [(a, b); (a, c); (a, d); (b, c); (b, d); (c, d)].
Definition ex_solid : SolidMesh :=
  mkSolid (repeat [zero] 6) [tet 0 1 2 3; tet 2 0 1 4; tet 1 0 2 5] (fun _ => None) [] (fun _ => false)
    (fun _ => zero) (fun _ => zero)
    (fun v => match v with 0 => Ok [(0, 0)] | 1 => Ok [(2, 0); (1, 2); (0, 1)] | 2 => Ok [] | 3 => Ok [(0, 3)] | 4 => Ok [(1, 3)] | _ => Ok [(2, 3)] end)
    (fun ab p => if pair_eqb ab (0, 2) then Throw OpenGeodeExn else Ok [p]).
Example ex_solid_hypotheses : solid_vertices_in_range ex_solid /\
  (forall v, v < length (so_points ex_solid) -> exists fan, so_around_vertex ex_solid v = Ok fan) /\
  around_edge_contract ex_solid /\ simple_facets ex_solid /\ below_2_32 (length (all_polyhedron_facets ex_solid)).
Proof.
  split; [|split; [|split; [|split]]].
  - intros c v Hc. apply flat_pairs_nth in Hc. destruct Hc as [Hc <-]. vm_compute in Hc.
    repeat (destruct Hc as [<-|Hc]; [vm_compute; lia|]). destruct Hc.
  - intros v Hv. destruct v as [|[|[|[|[|v]]]]]; cbn; eauto.
  - intros e ab _. cbn. destruct (pair_eqb ab (0, 2)); [left; reflexivity|right]. eexists. split; [reflexivity|].
    repeat constructor. intros [].
  - intros f Hf. apply in_all_polyhedron_facets in Hf. vm_compute in Hf.
    repeat (destruct Hf as [<-|Hf]; [vm_compute; split; [discriminate|repeat constructor; cbn; intuition discriminate]|]). destruct Hf.
  - reflexivity.
Qed.
Example ex_solid_results :
  (exists r, solid_non_manifold_vertices (mkGeometry (fun _ => mkColocated [] []) (fun _ _ => true) (fun _ => ""%string)) ex_solid = Ok r /\
     ii_issues r = [0; 2]) /\
  (exists r, solid_non_manifold_edges ex_solid = Ok r /\ ii_issues r = [(0, 1); (0, 2); (1, 2)] /\
     map (fun m => String.length m) (ii_messages r) = [42; 112; 42]) /\
  ii_issues (solid_non_manifold_facets backwards ex_solid) = [[0; 1; 2]] /\
  failed_edge ex_solid ((0, 1), (0, 2)).
Proof.
  split; [eexists; split; vm_compute; reflexivity|]. split; [eexists; split; [vm_compute; reflexivity|split; vm_compute; reflexivity]|].
  split; [vm_compute; reflexivity|]. split; [|reflexivity]. apply first_occurrence_iff. split; [|reflexivity]. vm_compute. tauto.
Qed.

(** two surfaces with the same interior edge, an embedded line of one edge, an embedded surface of one triangle *)
Definition ex_diamond : SurfaceMesh :=
  surface_of 4 [[0; 1; 2]; [2; 1; 3]] (fun e => match e with (0, 1) => Some 1 | (1, 0) => Some 0 | _ => None end) (fun _ => Ok []).
Definition ex_triangle : SurfaceMesh := surface_of 3 [[0; 1; 2]] (fun _ => None) (fun _ => Ok []).
Definition ex_model : Model :=
  mkModel [] [mkComponent 10 None true (mkCurve (repeat [zero] 2) [(0, 1)] (fun _ => zero) (fun _ => false))]
    [mkComponent 1 None true ex_diamond; mkComponent 2 None false ex_diamond; mkComponent 3 None true ex_diamond; mkComponent 4 None true ex_triangle]
    [] [] (repeat [] 20)
    (fun c => match cid_id (cmv_component c), cmv_vertex c with
       | 10, v => Some (10 + v) | 4, v => Some (15 + v) | 1, v => Some v | _, v => Some (3 - v) end)
    [] [(mkCID LineT 10, mkCID SurfaceT 1); (mkCID SurfaceT 4, mkCID BlockT 9)] OpenGeodeExn (fun _ => ""%string) (fun _ => ""%string) (fun _ => ""%string) (fun _ => ""%string).
Example ex_model_hypotheses :
  unique_ids ex_model /\
  (forall l v w, In l (m_lines ex_model) -> co_active l = true -> ec_edges (co_mesh l) = [(v, w)] ->
     linked ex_model LineT (co_id l) v /\ linked ex_model LineT (co_id l) w) /\
  (forall s vs v, In s (m_surfaces ex_model) -> co_active s = true -> sm_polygons (co_mesh s) = [vs] -> In v vs ->
     linked ex_model SurfaceT (co_id s) v).
Proof.
  split; [unfold unique_ids; cbn; repeat constructor; cbn; intuition discriminate|]. split.
  - intros l v w [<-|[]] _ E. cbn in E. injection E as <- <-. split; eexists; (split; [reflexivity|cbn; lia]).
  - intros s vs v [<-|[<-|[<-|[<-|[]]]]] _ E; try discriminate. cbn in E. injection E as <-.
    intros [<-|[<-|[<-|[]]]]; eexists; (split; [reflexivity|cbn; lia]).
Qed.
Example ex_model_results :
  (exists r, add_model_non_manifold_edges in_order ex_model (new_issues "") = Ok r /\
     ii_issues r = [((Some 1, Some 2), [1; 3]); ((Some 10, Some 11), [10])]) /\
  (exists r, add_model_non_manifold_facets ex_model (new_issues "") = Ok r /\
     ii_issues r = [([Some 15; Some 16; Some 17], [4])]).
Proof. split; eexists; split; vm_compute; reflexivity. Qed.
