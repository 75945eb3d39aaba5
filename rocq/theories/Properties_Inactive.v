(** C68: what an inspection reads of inactive components. *)
From Coq Require Import String Ascii List Arith NArith ZArith Bool Lia Permutation.
From Verif Require Import Base BaseFacts Model_Issues Types Model_Hash Spec_Colocation Model_Colocation Model_Adjacency Model_Degeneration Model_Negative
  Model_Manifold Model_Intersections Model_Topology Model_BRep Model_Blocks Model_Results Spec_Adjacency Spec_Inactive Proof_Inactive Proof_Inactive2 Proof_TopologyCheck
  Proof_Searches Properties_Topology Properties_BRep Proof_GoodModels.
Import ListNotations.
Open Scope list_scope.

(** Two models that only differ by the names and meshes of inactive components: the inspection of the meshes gives the same
    result, exceptions included, provided the searches by unique vertices answer the same. *)
Theorem C68_brep_meshes : forall o m m' st intersections, same_but_inactive m m' -> unique_ids m ->
  inspect_brep_meshes o m st intersections = inspect_brep_meshes o m' st intersections.
Proof.
  intros o m m' st inter H U. unfold inspect_brep_meshes. cbv zeta.
  rewrite (same_unique_vertices m m' H U), (same_colocations m m' H), (same_brep_adjacency m m' H), (same_brep_degeneration m m' H), (same_brep_manifold m m' H U), (same_brep_negative m m' H).
  reflexivity.
Qed.
Print Assumptions C68_brep_meshes.
Theorem C68_section_meshes : forall o m m' st intersections, same_but_inactive m m' -> unique_ids m ->
  inspect_section_meshes o m st intersections = inspect_section_meshes o m' st intersections.
Proof.
  intros o m m' st inter H U. unfold inspect_section_meshes. cbv zeta.
  rewrite (same_unique_vertices m m' H U), (same_colocations m m' H), (same_section_adjacency m m' H), (same_section_degeneration m m' H), (same_section_manifold m m' H), (same_section_negative m m' H).
  reflexivity.
Qed.
Print Assumptions C68_section_meshes.
(** The searches for intersections may give the same results, when the trees hold active surfaces only. *)
Theorem C68_intersections : forall px m m' trees lines, same_but_inactive m m' -> unique_ids m -> only_active_surfaces m trees ->
  forall r, (brep_inspect_intersections px m trees lines r <-> brep_inspect_intersections px m' trees lines r) /\
            (section_inspect_intersections px m trees r <-> section_inspect_intersections px m' trees r) /\
            (inspect_surfaces_self_intersections px m trees r <-> inspect_surfaces_self_intersections px m' trees r).
Proof.
  intros px m m' trees lines H U T r. pose proof (same_but_sym _ _ H) as H'. pose proof (unique_same _ _ H U) as U'. pose proof (only_active_same _ _ _ H T) as T'.
  split; [|split]; split.
  - apply brep_intersections_same; assumption.
  - apply brep_intersections_same; assumption.
  - apply surfaces_elements_same; assumption.
  - apply surfaces_elements_same; assumption.
  - apply auto_elements_same; assumption.
  - apply auto_elements_same; assumption.
Qed.
Print Assumptions C68_intersections.

(** The searches themselves see inactive components.  A triangle, its three lines inactive: with their edges no border edge
    is reported; without, all three are, though nothing active has changed. *)
Definition idle_line id v w edges := mkComponent id None false (mkCurve [pt v; pt w] edges (fun _ => far) (fun _ => false)).
Definition idle_triangle edges := a_section [good_corner 0 0; good_corner 1 1; good_corner 2 2]
  [idle_line 10 0 1 edges; idle_line 11 1 2 edges; idle_line 12 2 0 edges] [good_surface 100 2 0 1 2] triangle_cmvs triangle_bnd [].
Theorem C68_borders_refuted : exists m m', same_but_inactive m m' /\ unique_ids m /\
  lookup_right m (search_lookup m) /\ lookup_right m' (search_lookup m') /\
  (exists r, inspect_section_meshes_adjacencies (search_lookup m) m = Ok r /\ section_adjacency_nb_issues r = 0%N) /\
  (exists r l, inspect_section_meshes_adjacencies (search_lookup m') m' = Ok r /\ im_map r = [(100, l)] /\ ii_issues l = [(0, 0); (0, 1); (0, 2)]).
Proof.
  exists (idle_triangle [(0, 1)]), (idle_triangle []). split; [|split; [|split; [|split; [|split]]]].
  - constructor; try reflexivity; cbn; repeat constructor; try (left; reflexivity); right; cbn; auto.
  - apply nodupb_ok. vm_compute. reflexivity.
  - apply search_right.
  - apply search_right.
  - eexists. split; [vm_compute; reflexivity|vm_compute; reflexivity].
  - eexists. eexists. split; [vm_compute; reflexivity|]. split; [reflexivity|vm_compute; reflexivity].
Qed.
Print Assumptions C68_borders_refuted.
(** Topology checks read inactive components: a line vertex inside a surface is reported and makes the Section invalid;
    an inactive surface without polygons silences both. *)
Definition idle_surface id polygons := mkComponent id None false
  (mkSurface 2 [[]; []; []] polygons (fun _ => None) [] (fun _ => false) (fun _ => d0) (fun _ => Ok []) (fun _ => true)).
Definition watched_triangle polygons := a_section [a_corner 0 true; a_corner 1 true; a_corner 2 true] [a_line 10 true; a_line 11 true; a_line 12 true]
  [a_surface 100 true (fun _ => false); idle_surface 200 polygons] triangle_cmvs triangle_bnd [].
Theorem C68_topology_refuted : exists m m', same_but_inactive m m' /\ unique_ids m /\
  section_topology_is_valid m = Ok true /\ section_topology_is_valid m' = Ok false /\
  (exists r, inspect_section_topology m = Ok r /\ section_topology_nb_issues r = 0%N) /\
  (exists r, inspect_section_topology m' = Ok r /\ section_topology_nb_issues r = 3%N).
Proof.
  exists (watched_triangle []), (watched_triangle [[0; 1; 2]]). split; [|split; [|split; [|split; [|split]]]].
  - constructor; try reflexivity; cbn; repeat constructor; try (left; reflexivity); right; cbn; auto.
  - apply nodupb_ok. vm_compute. reflexivity.
  - vm_compute. reflexivity.
  - vm_compute. reflexivity.
  - eexists. split; [vm_compute; reflexivity|vm_compute; reflexivity].
  - eexists. split; [vm_compute; reflexivity|vm_compute; reflexivity].
Qed.
Print Assumptions C68_topology_refuted.

(** ** Concrete instance: inactive lines with and without edges, one surface with an issue *)
Definition blind_oracles := mkOracles exact_measures exact_geo any_order (mkLookup (fun _ => Ok []) (fun _ => Ok [])) tet_tl.
Example C68_example : same_but_inactive (idle_triangle [(0, 1)]) (idle_triangle []) /\ unique_ids (idle_triangle [(0, 1)]) /\
  exists r, inspect_section_meshes blind_oracles (idle_triangle []) no_storage (Ok empty_intersections) = Ok r /\ section_meshes_nb_issues r = 1%N.
Proof.
  split; [|split].
  - constructor; try reflexivity; cbn; repeat constructor; try (left; reflexivity); right; cbn; auto.
  - apply nodupb_ok. vm_compute. reflexivity.
  - eexists. split; [vm_compute; reflexivity|vm_compute; reflexivity].
Qed.
(** trees that hold the only surface of the triangle *)
Example C68_trees : only_active_surfaces (idle_triangle []) (mkTrees [100] [] (fun _ => []) (fun _ _ => [])).
Proof. intros id [<-|[]]. exists (good_surface 100 2 0 1 2). cbn. auto. Qed.
