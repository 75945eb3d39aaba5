(** C67: an inspection never reads outside of what it inspects, however broken; what it relies on for that. *)
From Coq Require Import String Ascii List Arith NArith Bool Lia.
From Verif Require Import Base BaseFacts Model_Hash Model_Issues Types Model_Colocation Model_Degeneration Model_Adjacency Model_Manifold Model_Intersections
  Model_Topology Model_BRep Model_Blocks Model_Results Model_Validity Spec_Adjacency Spec_Colocation Spec_Manifold Spec_Intersections Spec_Safe
  Proof_Safe Proof_Safe2 Proof_Safe3 Proof_Safe4 Proof_Safe5 Proof_Searches Proof_TopologyCheck Proof_GoodModels Properties_Topology Properties_BRep Properties_ValidModels.
Import ListNotations.
Open Scope list_scope.

(** ** Meshes *)
Theorem C67_curve : forall ms geo m, sane_search geo -> defined (inspect_edged_curve ms geo m) /\ defined (is_edged_curve_valid ms geo m).
Proof. intros ms geo m H. assert (D := defined_inspect_curve ms geo m H). split; [exact D|]. apply defined_bind; [exact D|discriminate]. Qed.
Theorem C67_surface : forall px ms geo ho name m st candidates intersections, sane_search geo -> sane_surface m ->
  surface_intersecting_elements px m candidates intersections ->
  defined (inspect_surface ms geo ho name m st intersections) /\ defined (is_surface_valid ms geo ho name m st intersections).
Proof.
  intros px ms geo ho name m st cands inter H Hm I. assert (Di : defined inter).
  { destruct I as (found & T & ->). apply defined_bind; [|discriminate]. eapply defined_record; [|exact T]. intros c _. unfold surface_pair_intersects. destruct (Nat.eqb _ _); discriminate. }
  assert (D := defined_inspect_surface ms geo ho name m st inter H Hm Di). split; [exact D|]. apply defined_bind; [exact D|discriminate].
Qed.
Theorem C67_solid : forall ms geo ho name m st, sane_search geo -> sane_solid m ->
  defined (inspect_solid ms geo ho name m st) /\ defined (is_solid_valid ms geo ho name m st).
Proof. intros ms geo ho name m st H Hm. assert (D := defined_inspect_solid ms geo ho name m st H Hm). split; [exact D|]. apply defined_bind; [exact D|discriminate]. Qed.

(** ** Models *)
Theorem C67_section : forall o px trees m st intersections, sane_section o m -> sane_trees px m trees ->
  section_inspect_intersections px m trees intersections ->
  defined (inspect_section o m st intersections) /\ defined (is_section_valid o m st intersections).
Proof.
  intros o px trees m st inter H T I. assert (Di : defined inter) by (eapply defined_section_intersections; [exact T|apply H|exact I]).
  assert (D := defined_inspect_section o m st inter H Di). split; [exact D|]. apply defined_bind; [exact D|discriminate].
Qed.
Theorem C67_brep : forall o px trees lines m st intersections, sane_brep o m -> sane_trees px m trees -> sane_line_trees m trees lines ->
  first_edges_are_linked m -> lonely_lines_linked m -> lonely_surfaces_linked m -> boundaries_have_a_surface m ->
  brep_inspect_intersections px m trees lines intersections ->
  defined (inspect_brep o m st intersections) /\ defined (is_brep_valid o m st intersections).
Proof.
  intros o px trees lines m st inter H T L FE LL LS B I.
  assert (Di : defined inter) by (eapply defined_brep_intersections; [exact T|apply (sb_section _ _ H)|exact L|apply (sb_edges _ _ H)|exact I]).
  assert (D := defined_inspect_brep o m H LL LS FE B st inter Di). split; [exact D|]. apply defined_bind; [exact D|discriminate].
Qed.
(** the yes/no queries on the topology need almost nothing: all the rest is checked before it is used *)
Theorem C67_section_topology_query : forall m, defined (section_topology_is_valid m).
Proof. exact defined_section_is_valid. Qed.
Theorem C67_brep_topology_query : forall tl m,
  (forall l v w, In l (m_lines m) -> In (v, w) (ec_edges (co_mesh l)) -> v < length (ec_points (co_mesh l)) /\ w < length (ec_points (co_mesh l))) ->
  defined (brep_topology_is_valid tl m).
Proof. exact defined_brep_is_valid. Qed.

(** ** The links are read before they are checked *)
(** the list of links to vertices that do not exist is never returned by an inspection of the whole model *)
Theorem C67_dangling_link_undefined : forall o m st intersections uv c, unique_ids m ->
  (forall uv c, uv < nb_unique_vertices m -> In c (component_mesh_vertices m uv) -> link_registered m c) ->
  first_active_link m uv c -> ~ link_in_range m c ->
  inspect_section o m st intersections = UB /\ inspect_brep o m st intersections = UB.
Proof.
  intros o m st inter uv c U R F N. assert (E := links_dangle (or_geometry o) m uv c U R F N). split; [apply dangling_section, E|apply dangling_brep, E].
Qed.

(** ** The conditions on the rest are needed *)
(** a line of a single edge inside a surface: its unlinked vertices are looked at before anything says that they are not linked *)
Theorem C67_unlinked_line_undefined : forall o m st intersections l v w, In l (m_lines m) -> co_active l = true -> ec_edges (co_mesh l) = [(v, w)] ->
  (exists e, In e (embeddings m (co_id l)) /\ cid_type e = SurfaceT) -> meets_unlinked m LineT (co_id l) [v; w] ->
  (forall r, inspect_brep_meshes o m st intersections <> Ok r) /\ (forall r, inspect_brep o m st intersections <> Ok r).
Proof. intros o m st inter l v w Hl A E He N. apply no_result, (manifold_line o m l Hl A). eapply line_undefined; eassumption. Qed.
Theorem C67_unlinked_surface_undefined : forall o m st intersections s vs, In s (m_surfaces m) -> co_active s = true -> sm_polygons (co_mesh s) = [vs] ->
  (exists e, In e (embeddings m (co_id s)) /\ cid_type e = BlockT) -> meets_unlinked m SurfaceT (co_id s) vs ->
  (forall r, inspect_brep_meshes o m st intersections <> Ok r) /\ (forall r, inspect_brep o m st intersections <> Ok r).
Proof. intros o m st inter s vs Hs A E He N. apply no_result, (manifold_surface o m s Hs A). eapply surface_undefined; eassumption. Qed.
(** a model boundary without surface: the inspection of the blocks never ends well *)
Theorem C67_empty_boundaries_undefined : forall o m, active (m_blocks m) <> [] -> m_model_boundaries m <> [] -> boundary_surfaces m = [] ->
  forall r, brep_inspect_blocks (or_topo o) m <> Ok r.
Proof. exact blocks_undefined. Qed.
(** the first link of a unique vertex is one of an active line of which an end of the first edge is not linked *)
Theorem C67_unlinked_first_edge_undefined : forall tl m uv c rest l v w es, uv < nb_unique_vertices m -> component_mesh_vertices m uv = c :: rest -> unique_ids m ->
  In l (m_lines m) -> cmv_component c = mkCID LineT (co_id l) -> co_active l = true -> ec_edges (co_mesh l) = (v, w) :: es ->
  (~ is_linked m LineT (co_id l) v \/ ~ is_linked m LineT (co_id l) w) -> forall r, brep_inspect_lines_topology tl m <> Ok r.
Proof. exact first_edge_undefined. Qed.
Print Assumptions C67_unlinked_first_edge_undefined.
Print Assumptions C67_unlinked_line_undefined.
Print Assumptions C67_unlinked_surface_undefined.
Print Assumptions C67_empty_boundaries_undefined.
Print Assumptions C67_curve.
Print Assumptions C67_surface.
Print Assumptions C67_solid.
Print Assumptions C67_section.
Print Assumptions C67_brep.
Print Assumptions C67_section_topology_query.
Print Assumptions C67_brep_topology_query.
Print Assumptions C67_dangling_link_undefined.

(** ** Concrete cases *)
(** a tetrahedron with most things wrong: relations lost or contradictory, an adjacency without answer, a polygon with twice
    the same vertex, a query that raises, a corner and a vertex of a surface without link *)
Definition broken_surface := mkComponent 100 None true
  (mkSurface 3 [pt 1; pt 2; pt 3; pt 3] [[0; 1; 2]; [0; 1; 1]] (fun e => if Nat.eqb (snd e) 0 then Some 1 else None) [(0, 1); (1, 2); (0, 2)]
     (fun _ => true) (fun _ => far) (fun v => if Nat.eqb v 3 then Throw OpenGeodeExn else Ok []) (fun _ => false)).
Definition broken_cmvs :=
  [[l_ 10 0; l_ 11 0; l_ 12 0; s_ 101 0; s_ 102 0; s_ 103 0; b_ 1000 0];
   [c_ 1 0; l_ 10 1; l_ 13 0; l_ 14 0; s_ 100 0; s_ 102 1; s_ 103 1; b_ 1000 1];
   [c_ 2 0; l_ 11 1; l_ 13 1; l_ 15 0; s_ 100 1; s_ 101 1; s_ 103 2; b_ 1000 2];
   [c_ 3 0; l_ 12 1; l_ 14 1; l_ 15 1; s_ 100 2; s_ 101 2; s_ 102 2; b_ 1000 3]].
Definition broken_tet := a_brep [good_corner 0 0; good_corner 1 1; good_corner 2 2; good_corner 3 3]
  [good_line 10 0 1; good_line 11 0 2; good_line 12 0 3; good_line 13 1 2; good_line 14 1 3; good_line 15 2 3]
  [broken_surface; good_surface 101 3 0 2 3; good_surface 102 3 0 1 3; good_surface 103 3 0 1 2]
  [good_block 1000] [(5000, [103; 103])] broken_cmvs ((lid_ 10, sid_ 101) :: skipn 4 tet_bnd) [(cid_ 0, sid_ 100); (cid_ 0, bid_ 1000)].
Definition broken_oracles := mkOracles exact_measures exact_geo any_order tet_lk tet_tl.
Lemma found_defined : forall l k, defined (found l k).
Proof. intros l k. unfold found. destruct (find _ l); discriminate. Qed.
Lemma sane_surfaceb : forall m, forallb (fun e => match sm_adjacent m e with Some q => Nat.ltb q (nb_polygons m) | None => true end) (all_polygon_edges m) = true ->
  forallb (fun e => Nat.ltb (polygon_edge_vertex0 m e) (length (sm_points m))) (all_polygon_edges m) = true -> (forall v, defined (sm_around_vertex m v)) -> sane_surface m.
Proof.
  intros m A B C. rewrite forallb_forall in A, B. assert (I : forall e, is_polygon_edge m e -> In e (all_polygon_edges m)).
  { intros [p e] [Hp He]. apply in_flat_map. exists p. split; [apply in_Range; exact Hp|]. apply in_map_iff. exists e. split; [reflexivity|apply in_Range; exact He]. }
  constructor; [| |exact C].
  - intros e q He E. specialize (A e (I e He)). rewrite E in A. apply Nat.ltb_lt, A.
  - intros e He. apply Nat.ltb_lt, (B e (I e He)).
Qed.
Lemma broken_sane : sane_brep broken_oracles broken_tet.
Proof.
  assert (L : forall l, In l (m_lines broken_tet) -> exists id u v, l = good_line id u v).
  { intros l H. cbn in H. repeat (destruct H as [<-|H]; [do 3 eexists; reflexivity|]). destruct H. }
  constructor.
  - constructor.
    + exact exact_consistent.
    + intros e. apply found_defined.
    + intros uv c Huv H. cbn in Huv. assert (K : uv = 0 \/ uv = 1 \/ uv = 2 \/ uv = 3) by lia.
      destruct K as [->|[->|[->| ->]]]; cbn in H; repeat (destruct H as [<-|H]; [intros x Hx; cbn in Hx; repeat (destruct Hx as [<-|Hx]; [intros E; first [discriminate E|cbn; lia]|]); destruct Hx|]); destruct H.
    + intros s H. cbn in H. destruct H as [<-|H]; [apply sane_surfaceb; [reflexivity|reflexivity|intros v; cbn; destruct (Nat.eqb v 3); discriminate]|].
      repeat (destruct H as [<-|H]; [apply sane_surfaceb; [reflexivity|reflexivity|discriminate]|]). destruct H.
    + intros b [<-|[]]. constructor; try discriminate. intros [p v] x [Hp Hx]. cbn in Hp. assert (p = 0) by lia. subst p. unfold polyhedron_vertex in Hx. cbn in Hx. cbn. do 4 (destruct v as [|v]; [injection Hx as <-; lia|]). destruct v; discriminate.
  - intros vs. apply found_defined.
  - discriminate.
  - discriminate.
  - intros l v w H E. destruct (L l H) as (id & a & b & ->). destruct E as [[= <- <-]|[]]. cbn. lia.
  - split; [intros l H; destruct (L l H) as (id & a & b & ->); reflexivity|]. intros s H. cbn in H. repeat (destruct H as [<-|H]; [reflexivity|]). destruct H.
  - intros c uv H. destruct (Nat.lt_ge_cases uv 4) as [K|K]; [exact K|]. exfalso. cbn [m_unique_vertex broken_tet a_brep] in H. unfold broken_cmvs in H. cbn [owner] in H.
    repeat match type of H with (if ?b then _ else _) = _ => destruct b; [injection H as <-; lia|] end. discriminate H.
  - reflexivity.
  - reflexivity.
Qed.
Lemma broken_places : first_edges_are_linked broken_tet /\ lonely_lines_linked broken_tet /\ lonely_surfaces_linked broken_tet /\ boundaries_have_a_surface broken_tet.
Proof.
  split; [|split; [|split]].
  - intros l v w rest H _ E _. cbn in H. repeat (destruct H as [<-|H]; [injection E as <- <- <-; split; discriminate|]). destruct H.
  - intros l v w H _ E _. cbn in H. repeat (destruct H as [<-|H]; [injection E as <- <-; split; discriminate|]). destruct H.
  - intros s vs v H _ E (e & He & T) Hv. cbn in H. repeat (destruct H as [<-|H]; [destruct He|]). destruct H.
  - discriminate.
Qed.
(** ... is inspected to the end, with many issues *)
Example broken_inspected : (match inspect_brep broken_oracles broken_tet no_storage (Ok empty_intersections) with Ok r => N.ltb 15 (brep_nb_issues r) | _ => false end) = true /\
  (match is_brep_valid broken_oracles broken_tet no_storage (Ok empty_intersections) with Ok v => negb (is_valid v) | _ => false end) = true /\
  brep_topology_is_valid tet_tl broken_tet = Ok false.
Proof. split; [vm_compute; reflexivity|]. split; vm_compute; reflexivity. Qed.
(** the same with one link more, to a vertex that line 15 does not have *)
Definition dangling_tet := a_brep [good_corner 0 0; good_corner 1 1; good_corner 2 2; good_corner 3 3]
  [good_line 10 0 1; good_line 11 0 2; good_line 12 0 3; good_line 13 1 2; good_line 14 1 3; good_line 15 2 3]
  [good_surface 101 3 0 2 3] [good_block 1000] [] [[l_ 15 2; l_ 15 0]; [l_ 15 1]] [] [].
Example dangling_undefined : forall o st ints, inspect_brep o dangling_tet st ints = UB.
Proof.
  intros o st ints. eapply (C67_dangling_link_undefined o dangling_tet st ints 0 (l_ 15 2)).
  - apply nodupb_ok. vm_compute. reflexivity.
  - intros uv c Huv H. cbn in Huv. assert (K : uv = 0 \/ uv = 1) by lia.
    assert (E : cmv_component c = lid_ 15) by (destruct K as [->| ->]; cbn in H; repeat (destruct H as [<-|H]; [reflexivity|]); destruct H).
    unfold link_registered. rewrite E. exists (good_line 15 2 3). cbn. tauto.
  - exists [], [l_ 15 0]. split; [cbn; lia|]. split; [reflexivity|]. split; [intros d []|]. right. left. exists (good_line 15 2 3). cbn. repeat split. tauto.
  - intros H. specialize (H (good_line 15 2 3)). cbn in H. assert (K : 2 < 2) by (apply H; [tauto|reflexivity]). lia.
Qed.
(** ... while its topology alone is inspected, and the link listed *)
Example dangling_topology : exists r, inspect_brep_topology tet_tl dangling_tet = Ok r /\ ii_issues (li_inexistant (bt_links r)) = [0] /\
  brep_topology_is_valid tet_tl dangling_tet = Ok false.
Proof. eexists. split; [vm_compute; reflexivity|]. split; [vm_compute; reflexivity|vm_compute; reflexivity]. Qed.
(** the tetrahedron with an internal line, one more corner apart, of which the unique vertices are not known *)
Definition loose_line_tet := a_brep [good_corner 0 0; good_corner 1 1; good_corner 2 2; good_corner 3 3]
  [good_line 10 0 1; good_line 11 0 2; good_line 12 0 3; good_line 13 1 2; good_line 14 1 3; good_line 15 2 3; good_line 16 0 1]
  [good_surface 100 3 1 2 3; good_surface 101 3 0 2 3; good_surface 102 3 0 1 3; good_surface 103 3 0 1 2]
  [good_block 1000] [(5000, [100; 101; 102; 103])] tet_cmvs tet_bnd [(lid_ 16, sid_ 100)].
Example loose_line_undefined : forall o st ints r, inspect_brep o loose_line_tet st ints <> Ok r.
Proof.
  intros o st ints. apply (C67_unlinked_line_undefined o loose_line_tet st ints (good_line 16 0 1) 0 1); [cbn; tauto|reflexivity|reflexivity|exists (sid_ 100); split; [left; reflexivity|reflexivity]|].
  exists [], 0, [1]. split; [reflexivity|]. split; [intros H; apply H; vm_compute; reflexivity|intros x u []].
Qed.
(** nothing raises first here: it is undefined behaviour *)
Example loose_line_really : inspect_brep broken_oracles loose_line_tet no_storage (Ok empty_intersections) = UB.
Proof. vm_compute. reflexivity. Qed.
Definition loose_surface_tet := a_brep [good_corner 0 0; good_corner 1 1; good_corner 2 2; good_corner 3 3]
  [good_line 10 0 1; good_line 11 0 2; good_line 12 0 3; good_line 13 1 2; good_line 14 1 3; good_line 15 2 3]
  [good_surface 100 3 1 2 3; good_surface 101 3 0 2 3; good_surface 102 3 0 1 3; good_surface 103 3 0 1 2; good_surface 104 3 0 1 2]
  [good_block 1000] [(5000, [100; 101; 102; 103])] tet_cmvs tet_bnd [(sid_ 104, bid_ 1000)].
Example loose_surface_undefined : forall o st ints r, inspect_brep o loose_surface_tet st ints <> Ok r.
Proof.
  intros o st ints. apply (C67_unlinked_surface_undefined o loose_surface_tet st ints (good_surface 104 3 0 1 2) [0; 1; 2]); [cbn; tauto|reflexivity|reflexivity|exists (bid_ 1000); split; [left; reflexivity|reflexivity]|].
  exists [], 0, [1; 2]. split; [reflexivity|]. split; [intros H; apply H; vm_compute; reflexivity|intros x u []].
Qed.
Example loose_surface_really : inspect_brep broken_oracles loose_surface_tet no_storage (Ok empty_intersections) = UB.
Proof. vm_compute. reflexivity. Qed.
(** the good tetrahedron, but its model boundary has lost its surfaces *)
Definition bare_boundary_tet := a_brep [good_corner 0 0; good_corner 1 1; good_corner 2 2; good_corner 3 3]
  [good_line 10 0 1; good_line 11 0 2; good_line 12 0 3; good_line 13 1 2; good_line 14 1 3; good_line 15 2 3]
  [good_surface 100 3 1 2 3; good_surface 101 3 0 2 3; good_surface 102 3 0 1 3; good_surface 103 3 0 1 2]
  [good_block 1000] [(5000, [])] tet_cmvs tet_bnd [].
Example bare_boundary : (forall r, brep_inspect_blocks tet_tl bare_boundary_tet <> Ok r) /\ inspect_brep broken_oracles bare_boundary_tet no_storage (Ok empty_intersections) = UB.
Proof.
  split; [|vm_compute; reflexivity]. apply (C67_empty_boundaries_undefined broken_oracles); [discriminate|discriminate|reflexivity].
Qed.
(** the good tetrahedron with one more line, of which only the second vertex is linked *)
Definition half_linked_tet := a_brep [good_corner 0 0; good_corner 1 1; good_corner 2 2; good_corner 3 3]
  [good_line 10 0 1; good_line 11 0 2; good_line 12 0 3; good_line 13 1 2; good_line 14 1 3; good_line 15 2 3; good_line 16 0 1]
  [good_surface 100 3 1 2 3; good_surface 101 3 0 2 3; good_surface 102 3 0 1 3; good_surface 103 3 0 1 2]
  [good_block 1000] [(5000, [100; 101; 102; 103])] (tet_cmvs ++ [[l_ 16 1]]) tet_bnd [].
Example half_linked : (forall r, brep_inspect_lines_topology tet_tl half_linked_tet <> Ok r) /\ inspect_brep broken_oracles half_linked_tet no_storage (Ok empty_intersections) = UB.
Proof.
  split; [|vm_compute; reflexivity]. apply (C67_unlinked_first_edge_undefined _ half_linked_tet 4 (l_ 16 1) [] (good_line 16 0 1) 0 1 []); [cbn; lia|reflexivity|apply nodupb_ok; vm_compute; reflexivity|cbn; tauto|reflexivity|reflexivity|reflexivity|].
  left. intros H. apply H. vm_compute. reflexivity.
Qed.
