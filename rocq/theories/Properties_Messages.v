(** C61, C62: the texts of the reports say what the issues are and where. *)
From Coq Require Import String Ascii List Arith NArith ZArith Bool Lia.
From Verif Require Import Base BaseFacts Model_Issues Types Model_Colocation Model_Adjacency Model_Negative Model_Degeneration Model_Manifold Model_Intersections
  Model_Topology Model_Results Spec_Colocation Spec_Manifold Spec_Messages Proof_Messages Proof_Messages2 Proof_Parallel2.
Import ListNotations.
Open Scope list_scope.

Ltac peel_ok H := repeat (apply invoke_ok in H as [? H]).
Lemma status_ok_inv : forall A (o : outcome A), status o = Ok tt -> exists a, o = Ok a.
Proof. intros A [a| |] H; try discriminate H. exists a. reflexivity. Qed.
Lemma invoke_bind : forall A (l : list (outcome unit)) (x r : A), (let! _ := parallel_invoke l in Ok x) = Ok r -> parallel_invoke l = Ok tt /\ x = r.
Proof. intros A l x r H. apply bind_Ok in H. destruct H as ([] & H & E). injection E as <-. auto. Qed.

(** ** C61: one mesh *)
Theorem C61_point_set : forall geo m r, inspect_point_set geo m = Ok r -> point_set_explained geo m r.
Proof. intros geo m r H. unfold inspect_point_set in H. apply bind_Ok in H. destruct H as (c & H & E). injection E as <-. apply colocated_explained. exact H. Qed.
Theorem C61_edged_curve : forall ms geo m r, inspect_edged_curve ms geo m = Ok r -> curve_report_explained ms geo m r.
Proof.
  intros ms geo m r H. unfold inspect_edged_curve in H. cbv zeta in H. apply invoke_bind in H. destruct H as [H <-]. peel_ok H.
  match goal with K : status _ = _ |- _ => apply status_ok_inv in K; destruct K as (c & K) end. split; cbn [cr_colocated cr_edges].
  - match goal with K : colocated_points_groups _ _ = _ |- _ => rewrite K; apply colocated_explained; exact K end.
  - apply curve_edges_explained.
Qed.
Theorem C61_surface : forall ms geo ho name m st px candidates ints r, surface_intersecting_elements px m candidates ints ->
  inspect_surface ms geo ho name m st ints = Ok r -> surface_report_explained geo name m r.
Proof.
  intros ms geo ho name m st px candidates ints r HI H. unfold inspect_surface in H. cbv zeta in H. apply invoke_bind in H. destruct H as [H <-]. peel_ok H.
  repeat match goal with K : status _ = Ok tt |- _ => apply status_ok_inv in K; destruct K as (? & K) end. subst ints.
  unfold surface_report_explained. cbn [sr_adjacency sr_colocated sr_edges sr_polygons sr_manifold_edges sr_manifold_vertices sr_intersections sr_negative].
  repeat match goal with K : ?o = Ok _ |- context [assigned _ ?o] => rewrite K; cbn [assigned] end.
  repeat match goal with |- _ /\ _ => split end.
  - eapply explained_weaken; [|eapply adjacency_explained; eassumption]. intros e t [K _]. exact K.
  - eapply colocated_explained; eassumption.
  - eapply mesh_edges_explained; eassumption.
  - apply polygons_explained.
  - apply surface_edges_explained.
  - eapply surface_vertices_explained; eassumption.
  - eapply self_explained; eassumption.
  - apply negative_polygons_explained.
Qed.
Theorem C61_solid : forall ms geo ho name m st r, inspect_solid ms geo ho name m st = Ok r -> solid_report_explained geo name m r.
Proof.
  intros ms geo ho name m st r H. unfold inspect_solid in H. cbv zeta in H. apply invoke_bind in H. destruct H as [H <-]. peel_ok H.
  repeat match goal with K : status _ = Ok tt |- _ => apply status_ok_inv in K; destruct K as (? & K) end.
  unfold solid_report_explained. cbn [so_r_adjacency so_r_colocated so_r_edges so_r_polyhedra so_r_manifold_vertices so_r_manifold_edges so_r_manifold_facets so_r_negative].
  repeat match goal with K : ?o = Ok _ |- context [assigned _ ?o] => rewrite K; cbn [assigned] end.
  repeat match goal with |- _ /\ _ => split end.
  - eapply explained_weaken; [|eapply facet_adjacency_explained; eassumption]. intros e t [K _]. exact K.
  - eapply colocated_explained; eassumption.
  - eapply mesh_edges_explained; eassumption.
  - apply polyhedra_explained.
  - eapply solid_vertices_explained; eassumption.
  - eapply solid_edges_explained; eassumption.
  - apply facets_explained.
  - apply negative_polyhedra_explained.
Qed.
Theorem C61_curve_intersections : forall px surface curve candidates r, curve_intersecting_elements px surface curve candidates (Ok r) ->
  explained "intersections between triangles and edges"%string (says triangle_edge_text) r.
Proof. exact curve_explained. Qed.

(** ** C62: the meshes of a model *)
Theorem C62_unique_vertices : forall geo m r, unique_ids m -> resolvable m -> inspect_unique_vertices geo m = Ok r -> unique_vertices_explained geo m r.
Proof.
  intros geo m r Hu Hr H. unfold inspect_unique_vertices in H. cbv zeta in H. apply invoke_bind in H. destruct H as [H <-]. peel_ok H.
  repeat match goal with K : status _ = Ok tt |- _ => apply status_ok_inv in K; destruct K as (? & K) end.
  unfold unique_vertices_explained. cbn [ur_colocated ur_different].
  repeat match goal with K : ?o = Ok _ |- context [assigned _ ?o] => rewrite K; cbn [assigned] end. split.
  - eapply unique_colocated_explained; [exact Hu|exact Hr|apply explained_new|eassumption].
  - eapply unique_different_explained; [apply explained_new|eassumption].
Qed.
Theorem C62_section_meshes : forall o m st px trees ints r, unique_ids m -> resolvable m -> section_inspect_intersections px m trees ints ->
  inspect_section_meshes o m st ints = Ok r -> section_meshes_explained o m r.
Proof.
  intros o m st px trees ints r Hu Hr HI H. unfold inspect_section_meshes in H. cbv zeta in H. apply invoke_bind in H. destruct H as [H <-]. peel_ok H.
  repeat match goal with K : status _ = Ok tt |- _ => apply status_ok_inv in K; destruct K as (? & K) end. subst ints.
  unfold section_meshes_explained. cbv zeta.
  cbn [sc_unique_vertices sc_colocation sc_adjacency sc_degeneration sc_intersections sc_manifold sc_negative].
  repeat match goal with K : ?o = Ok _ |- context [assigned _ ?o] => rewrite K; cbn [assigned] end.
  match goal with K : fst (section_inspect_elements_degeneration _ _ _ _) = Ok ?d |- _ =>
    unfold section_inspect_elements_degeneration in K; destruct (add_small_edges _ _ _ _ _ _) as [e st'] eqn:E; cbn [fst] in K;
    apply bind_Ok in K; destruct K as (e' & -> & K); injection K as <- end.
  match goal with K : inspect_section_manifold _ _ _ = Ok ?d |- _ =>
    unfold inspect_section_manifold in K; apply bind_Ok in K; destruct K as (vs & HV & K); apply bind_Ok in K; destruct K as (es & HE & K); injection K as <- end.
  cbn [sd_edges sd_polygons sn_vertices sn_edges].
  split; [eapply C62_unique_vertices; eassumption|].
  repeat match goal with |- _ /\ _ => split end.
  - apply colocation_map_explained. assumption.
  - eapply surfaces_adjacency_map; [apply explained_map_new|eassumption].
  - eapply small_edges_map; [apply explained_map_new|]. rewrite E. reflexivity.
  - apply polygons_map. apply explained_map_new.
  - eapply section_intersections_explained; eassumption.
  - eapply surface_vertices_map; [apply explained_map_new|eassumption].
  - eapply surface_edges_map; [apply explained_map_new|eassumption].
  - apply section_negative_explained.
Qed.
Theorem C62_brep_meshes : forall o m st px trees lines ints r, unique_ids m -> resolvable m -> brep_inspect_intersections px m trees lines ints ->
  inspect_brep_meshes o m st ints = Ok r -> brep_meshes_explained o m r.
Proof.
  intros o m st px trees lines ints r Hu Hr HI H. unfold inspect_brep_meshes in H. cbv zeta in H. apply invoke_bind in H. destruct H as [H <-]. peel_ok H.
  repeat match goal with K : status _ = Ok tt |- _ => apply status_ok_inv in K; destruct K as (? & K) end. subst ints.
  unfold brep_meshes_explained. cbv zeta.
  cbn [br_unique_vertices br_colocation br_adjacency br_degeneration br_intersections br_manifold br_negative].
  repeat match goal with K : ?o = Ok _ |- context [assigned _ ?o] => rewrite K; cbn [assigned] end.
  match goal with K : inspect_brep_meshes_adjacencies _ _ = Ok ?d |- _ =>
    unfold inspect_brep_meshes_adjacencies in K; cbv zeta in K; apply invoke_bind in K; destruct K as [K <-]; peel_ok K end.
  repeat match goal with K : status _ = Ok tt |- _ => apply status_ok_inv in K; destruct K as (? & K) end.
  match goal with K : fst (inspect_elements_degeneration _ _ _ _) = Ok ?d |- _ =>
    unfold inspect_elements_degeneration in K; cbv zeta in K; destruct (add_small_edges _ _ _ _ _ _) as [e st'] eqn:E; destruct e as [e| |]; try discriminate K;
    destruct (add_solid_small_elements _ _ _ _ _ _) as [maps st''] eqn:E'; cbn [fst] in K;
    apply bind_Ok in K; destruct K as (maps' & -> & K); injection K as <- end.
  match goal with K : inspect_brep_manifold _ _ _ = Ok ?d |- _ =>
    unfold inspect_brep_manifold in K; apply bind_Ok in K; destruct K as (vs & HV & K); apply bind_Ok in K; destruct K as (es & HE & K);
    apply bind_Ok in K; destruct K as (fs & HF & K); apply bind_Ok in K; destruct K as (mes & HME & K); apply bind_Ok in K; destruct K as (mfs & HMF & K);
    injection K as <- end.
  cbn [dr_edges dr_polygons dr_polyhedra bm_vertices bm_edges bm_facets bm_model_edges bm_model_facets ba_surfaces ba_blocks].
  repeat match goal with K : ?o = Ok _ |- context [assigned _ ?o] => rewrite K; cbn [assigned] end.
  split; [eapply C62_unique_vertices; eassumption|].
  assert (D : explained_map "degenerated edges"%string (model_edges_degeneration (or_measures o) (or_geometry o) m) (fst maps') /\
              explained_map "degenerated polyhedra"%string (model_polyhedra_degeneration m) (snd maps')).
  { eapply solid_elements_maps; [| |rewrite E'; reflexivity]; cbn [fst snd].
    - apply (small_edges_map _ _ _ GLOBAL_EPSILON _ (dr_edges empty_degeneration) st); [apply explained_map_new|]. rewrite E. reflexivity.
    - apply explained_map_new. }
  destruct D as [D1 D2].
  repeat match goal with |- _ /\ _ => split end.
  - apply colocation_map_explained. assumption.
  - eapply surfaces_adjacency_map; [apply explained_map_new|eassumption].
  - eapply blocks_adjacency_map; [apply explained_map_new|eassumption].
  - exact D1.
  - apply polygons_map. apply explained_map_new.
  - exact D2.
  - eapply brep_intersections_explained; eassumption.
  - eapply vertices_map; [apply explained_map_new|eassumption].
  - eapply edges_map; [apply explained_map_new|eassumption].
  - eapply facets_map; [apply explained_map_new|eassumption].
  - eapply model_edges_explained; [apply explained_new|eassumption].
  - eapply model_facets_explained; [apply explained_new|eassumption].
  - apply brep_negative_explained.
Qed.
Theorem C62_self_intersections : forall px m trees r, inspect_surfaces_self_intersections px m trees (Ok r) ->
  explained "intersections"%string (self_intersection_text m) r.
Proof. intros px m trees r H. eapply self_elements_explained; [|exact H]. apply explained_new. Qed.

(** ** Examples: a surface whose two first vertices coincide, alone then in a Section *)
From Verif Require Import Proof_GoodModels Properties_Topology Properties_Results Properties_ValidModels Spec_Results Spec_Intersections Proof_TopologyCheck Properties_BRep Properties_Blocks.
From Coq Require Import Floats.SpecFloat.
Definition shown_geo : Geometry := mkGeometry exact_colocated same_point (fun p => if same_point p (pt 0) then "0, 0" else "elsewhere")%string.
Definition shown_measures : Measures :=
  mkMeasures (fun p _ => p) (fun p q => if same_point p q then S754_zero false else far) (fun _ => false) (fun _ _ _ _ => false).
Definition bent := mkSurface 2 [pt 0; pt 0; pt 2] [[0; 1; 2]] (fun _ => None) [(0, 1); (1, 2); (0, 2)] (fun _ => false) (fun _ => far) (fun v => Ok [(0, v)]) (fun _ => true).
Example bent_texts : exists r, inspect_surface shown_measures shown_geo any_order "s"%string bent (mkES false false) (Ok (self_intersections_issues [])) = Ok r /\
  surface_intersecting_elements quiet_px bent [] (Ok (self_intersections_issues [])) /\
  ii_messages (sr_colocated r) = ["vertices  0 1 are colocated at the position [0, 0]"]%string /\
  ii_messages (sr_edges r) = ["degenerated edge between vertices 0 and 1, at position [0, 0]"]%string.
Proof.
  eexists. split; [vm_compute; reflexivity|]. split; [|split; vm_compute; reflexivity].
  exists (Ok []). split; [apply tr_all_visited|reflexivity].
Qed.
Definition bent_section := a_section [good_corner 0 0; good_corner 1 1; good_corner 2 2] [good_line 10 0 1; good_line 11 1 2; good_line 12 2 0]
  [mkComponent 100 (Some "top"%string) true bent] triangle_cmvs triangle_bnd [].
Definition no_trees := mkTrees [100] [] (fun _ => []) (fun _ _ => []).
Example bent_section_texts : unique_ids bent_section /\ resolvable bent_section /\ section_inspect_intersections quiet_px bent_section no_trees (Ok empty_intersections) /\
  exists r, inspect_section_meshes (mkOracles shown_measures shown_geo any_order triangle_lk tet_tl) bent_section no_storage (Ok empty_intersections) = Ok r /\
  ii_messages (ur_different (sc_unique_vertices r)) = ["unique vertex 1 is linked to several mesh vertices on different positions"]%string /\
  map (fun kv => (ii_description (snd kv), ii_messages (snd kv))) (im_map (sc_colocation r)) =
    [("Surface top () colocated vertices", ["Surface top () has vertices  1 0 colocated at position [0, 0]"])]%string /\
  map (fun kv => (ii_description (snd kv), ii_messages (snd kv))) (im_map (sd_edges (sc_degeneration r))) =
    [("Surface top () small facet edges", ["degenerated edge between vertices 0 and 1, at position [0, 0]"])]%string.
Proof.
  split; [apply nodupb_ok; reflexivity|]. split; [apply links_ok; reflexivity|]. split.
  - exists (Ok []). split; [|reflexivity]. unfold intersecting_polygons. change (existsb _ _) with false. cbv iota.
    exists [Ok []], [], []. split.
    + constructor; [|constructor]. exists (Ok []). split; [apply tr_all_visited|reflexivity].
    + split; [apply tr_all_visited|]. split; [constructor|reflexivity].
  - eexists. split; [vm_compute; reflexivity|]. split; [vm_compute; reflexivity|]. split; vm_compute; reflexivity.
Qed.
Print Assumptions C61_point_set.
Print Assumptions C61_edged_curve.
Print Assumptions C61_surface.
Print Assumptions C61_solid.
Print Assumptions C61_curve_intersections.
Print Assumptions C62_unique_vertices.
Print Assumptions C62_section_meshes.
Print Assumptions C62_brep_meshes.
Print Assumptions C62_self_intersections.
