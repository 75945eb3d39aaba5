(** C58: what a valid mesh is. *)
From Coq Require Import String Ascii List Arith NArith ZArith Bool Lia Permutation Floats.SpecFloat.
From Verif Require Import Base BaseFacts Model_Issues Types Model_Cycles Model_Hash Model_Colocation Model_Adjacency Model_Manifold Model_Degeneration Model_Negative Model_Intersections
  Model_Topology Model_Results Model_Validity Spec_Colocation Spec_Maps Spec_Cycles Spec_Adjacency Spec_Manifold Spec_Degeneration Spec_Negative Spec_Intersections Spec_Results Spec_Valid
  Proof_Adjacency Proof_Results Proof_Valid Proof_Valid2 Properties_Results Properties_Intersections Proof_GoodModels.
Import ListNotations.
Open Scope list_scope.

(** the validity functions answer without failing, and say "valid" exactly of sound meshes *)
Theorem C58_pointset : forall geo m, consistent (ps_points m) (g_colocated geo (ps_points m)) -> below_2_32 (length (ps_points m)) ->
  exists v, is_pointset_valid geo m = Ok v /\ (is_valid v = true <-> points_apart geo (ps_points m)).
Proof.
  intros geo m C B. destruct (pointset_valid_spec geo m C) as (r & E & V & H). exists (pointset_validity r). split; [exact V|].
  destruct (validated _ _ (pointset_texts r (pointset_countable geo m r C E B))) as [_ ->]. exact H.
Qed.
Print Assumptions C58_pointset.
Theorem C58_curve : forall ms geo m, consistent (ec_points m) (g_colocated geo (ec_points m)) -> below_2_32 (length (ec_points m) + length (ec_edges m)) ->
  exists v, is_edged_curve_valid ms geo m = Ok v /\ (is_valid v = true <-> sound_curve geo m).
Proof.
  intros ms geo m C B. destruct (curve_valid_spec ms geo m C) as (r & E & V & H). exists (curve_validity r). split; [exact V|].
  destruct (validated _ _ (curve_texts r (curve_countable ms geo m r C E B))) as [_ ->]. exact H.
Qed.
Print Assumptions C58_curve.
Theorem C58_surface : forall ms geo ho name px candidates m st ints, surface_queries geo m -> surface_intersecting_elements px m candidates ints ->
  below_2_32 (surface_size m candidates) ->
  exists v, is_surface_valid ms geo ho name m st ints = Ok v /\ (is_valid v = true <-> sound_surface ms geo px candidates m).
Proof.
  intros ms geo ho name px candidates m st ints Q I B. destruct (surface_valid_spec ms geo ho name px candidates m st ints Q I) as (r & E & V & H). exists (surface_validity r). split; [exact V|].
  destruct (validated _ _ (surface_texts r (surface_countable _ _ _ _ _ _ _ _ _ r Q I E B))) as [_ ->]. exact H.
Qed.
Print Assumptions C58_surface.
Theorem C58_solid : forall ms geo ho name m st, solid_queries geo m -> below_2_32 (solid_size m) ->
  exists v, is_solid_valid ms geo ho name m st = Ok v /\ (is_valid v = true <-> sound_solid ms geo m).
Proof.
  intros ms geo ho name m st Q B. destruct (solid_valid_spec ms geo ho name m st Q) as (r & E & V & H). exists (solid_validity r). split; [exact V|].
  destruct (validated _ _ (solid_texts r (solid_countable _ _ _ _ _ _ r Q E B))) as [_ ->]. exact H.
Qed.
Print Assumptions C58_solid.

(** Two triangles glued along an edge, and a tetrahedron: well formed, and sound since they are found valid *)
Definition square : SurfaceMesh := mkSurface 3 [pt 0; pt 1; pt 2; pt 3] [[0; 1; 2]; [0; 2; 3]]
  (fun e => match e with (0, 2) => Some 1 | (1, 0) => Some 0 | _ => None end) [(0, 1); (1, 2); (0, 2); (2, 3); (0, 3)] (fun _ => false) (fun _ => far)
  (fun v => Ok (nth v [[(0, 0); (1, 0)]; [(0, 1)]; [(0, 2); (1, 1)]; [(1, 2)]] [])) (fun _ => true).
Lemma few_uses : forall m a b n, uses m a b n -> n <= length (all_polygon_edges m).
Proof.
  intros m a b n (l & [N H] & <-). apply NoDup_incl_length; [exact N|]. intros e I. apply in_all_polygon_edges. apply (proj1 (H e) I).
Qed.
Lemma exact_four : consistent [pt 0; pt 1; pt 2; pt 3] (g_colocated exact_geo [pt 0; pt 1; pt 2; pt 3]).
Proof. repeat split; cbn; intros; lia. Qed.
Ltac each H := repeat (destruct H as [<-|H]; [cbn; try lia; eauto|]); try destruct H.
Lemma square_queries : surface_queries exact_geo square.
Proof.
  constructor.
  - exact exact_four.
  - intros e q He Hq. apply in_all_polygon_edges in He. cbn in He. repeat (destruct He as [<-|He]; [cbn in Hq; try discriminate Hq; injection Hq as <-; cbn; lia|]). destruct He.
  - intros a b H. cbn in H. repeat (destruct H as [H|H]; [injection H as <- <-; cbn; lia|]). destruct H.
  - intros a b n H. apply few_uses in H. cbn in H. lia.
  - intros c H. apply in_all_polygon_edges in H. cbn in H. each H.
  - intros v _. right. eexists. reflexivity.
  - intros vs v H Hv. cbn in H. repeat (destruct H as [<-|H]; [cbn in Hv; cbn; lia|]). destruct H.
Qed.
Example square_sound : forall px, sound_surface exact_measures exact_geo px [] square.
Proof.
  intros px. destruct (proj1 (C26_queries_terminate px square [])) as (ints & I).
  destruct (C58_surface exact_measures exact_geo any_order EmptyString px [] square (mkES false false) ints square_queries I) as (v & V & H); [vm_compute; reflexivity|].
  apply H. destruct (C26_list_is_exact px square [] ints I) as (l & -> & L & _).
  destruct l as [d i t]. cbn [ii_issues] in L.
  assert (Z : i = []) by (destruct i as [|x k]; [reflexivity|]; destruct (proj1 (L x) (or_introl eq_refl)) as [[] _]). subst i.
  vm_compute in V. injection V as <-. reflexivity.
Qed.
(** the same with a wrong adjacency is not *)
Definition torn_square : SurfaceMesh := mkSurface 3 (sm_points square) (sm_polygons square) (fun e => match e with (0, 2) => Some 1 | _ => None end)
  (sm_edges square) (fun _ => false) (fun _ => far) (sm_around_vertex square) (fun _ => true).
Example torn_square_unsound : forall px c, ~ sound_surface exact_measures exact_geo px c torn_square.
Proof.
  intros px c H. destruct (su_adjacency _ _ _ _ _ H (0, 2) ltac:(split; cbn; lia) 1 eq_refl) as (e & He & _ & _ & K). cbn in He, K.
  destruct e as [|[|[|e]]]; discriminate K.
Qed.
Definition tetrahedron : SolidMesh := co_mesh (good_block 0).
Lemma tetrahedron_queries : solid_queries exact_geo tetrahedron.
Proof.
  constructor.
  - exact exact_four.
  - split.
    + intros f q _ H. discriminate H.
    + intros f H. apply in_all_polyhedron_facets in H. cbn in H. repeat (destruct H as [<-|H]; [cbn; split; [discriminate|repeat constructor; cbn; lia]|]). destruct H.
  - intros a b H. cbn in H. repeat (destruct H as [H|H]; [injection H as <- <-; cbn; lia|]). destruct H.
  - intros [p i] v [H K]. cbn in H, K. assert (p = 0) by lia. subst p. do 4 (destruct i as [|i]; [injection K as <-; cbn; lia|]). cbn in K. destruct i; discriminate K.
  - intros v _. eexists. reflexivity.
  - intros e ab _. right. exists [0]. split; [reflexivity|]. repeat constructor. intros [].
  - vm_compute. reflexivity.
  - intros ph v [<-|[]] Hv. cbn in Hv. cbn. lia.
Qed.
Example tetrahedron_sound : sound_solid exact_measures exact_geo tetrahedron.
Proof.
  destruct (C58_solid exact_measures exact_geo any_order EmptyString tetrahedron (mkES false false) tetrahedron_queries) as (v & V & H); [vm_compute; reflexivity|].
  apply H. vm_compute in V. injection V as <-. reflexivity.
Qed.
Example curve_sound : sound_curve exact_geo (co_mesh (good_line 0 0 1)) /\ ~ sound_curve exact_geo (co_mesh (good_line 0 1 1)).
Proof.
  split.
  - destruct (C58_curve exact_measures exact_geo (co_mesh (good_line 0 0 1))) as (v & V & H).
    + repeat split; cbn; intros; lia.
    + vm_compute. reflexivity.
    + apply H. vm_compute in V. injection V as <-. reflexivity.
  - intros [A _]. apply (A 0 1); [lia|]. exists 0. split; reflexivity.
Qed.
