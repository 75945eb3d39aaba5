(** C04 - C08 (and the colocation part of C44). *)
From Coq Require Import String Ascii List Arith NArith ZArith Bool Lia Sorted Floats.SpecFloat.
From Verif Require Import Base Model_Issues Types Model_Colocation Spec_Colocation Spec_Maps
  Proof_Colocation Proof_Colocation2 Proof_Colocation3.
Import ListNotations.
Open Scope list_scope.

(** C04: the reported groups are the classes of the colocation mapping. *)
Theorem C04_groups_are_classes : forall geo points,
  consistent points (g_colocated geo points) ->
  exists r, colocated_points_groups geo points = Ok r /\ colocation_groups (g_colocated geo points) (ii_issues r).
Proof. exact colocated_points_groups_spec. Qed.
Print Assumptions C04_groups_are_classes.

(** A mapping that points outside the unique points is the only way to leave the vector bounds. *)
Theorem C04_out_of_range_mapping_is_ub : forall geo points,
  (exists u, In u (colocated_mapping (g_colocated geo points)) /\ length (unique_points (g_colocated geo points)) <= u) ->
  colocated_points_groups geo points = UB.
Proof. exact colocated_points_groups_oob. Qed.
Print Assumptions C04_out_of_range_mapping_is_ub.

(** C05: the yes/no answer agrees with the list. *)
Theorem C05_query_agrees : forall geo points,
  consistent points (g_colocated geo points) ->
  (N.of_nat (length points) < 2 ^ 32)%N ->
  forall r, colocated_points_groups geo points = Ok r ->
  (mesh_has_colocated_points geo points = true <-> ii_issues r <> []).
Proof. exact has_colocated_iff. Qed.
Print Assumptions C05_query_agrees.

(** C06: a group is reported iff it spans several unique vertices, and what the report contains. *)
Theorem C06_reported_iff_spans : forall uv first rest,
  exists r, filter_group uv (first :: rest) = Ok r /\
    (r <> None <-> spans_several uv (first :: rest)) /\
    (forall g, r = Some g -> filtered_report uv first rest g).
Proof. exact filter_group_spec. Qed.
Print Assumptions C06_reported_iff_spans.

(** The expected "one vertex per unique vertex" is false: unique vertices 1,2,1,2 leave two vertices of unique
    vertex 2 in the report. *)
Theorem C06_one_per_unique_vertex_refuted : exists uv group g,
  filter_group uv group = Ok (Some g) /\ NoDup group /\
  exists a b, In a g /\ In b g /\ a <> b /\ uv a = uv b.
Proof.
  exists (fun v => nth v [Some 1; Some 2; Some 1; Some 2] None), [0; 1; 2; 3], [1; 3; 0].
  split; [vm_compute; reflexivity|]. split; [repeat constructor; cbn; intuition discriminate|].
  exists 1, 3. cbn. intuition discriminate.
Qed.
Print Assumptions C06_one_per_unique_vertex_refuted.

(** C06, C44: the map of colocated points of the active components of a model. *)
Theorem C06_C44_component_map : forall geo m d, unique_ids m ->
  (forall points, consistent points (g_colocated geo points)) ->
  (forall t id points, active_mesh m t id points -> below_2_32 (length points)) ->
  exists r, add_model_components_colocated_points_groups geo m (new_issues_map d) = Ok r /\
    map_reports r (component_colocation geo m).
Proof. exact component_colocation_spec. Qed.
Print Assumptions C06_C44_component_map.

(** C07: unique vertices linked to different points. *)
Theorem C07_linked_to_different_points : forall geo m r0, unique_ids m -> resolvable m ->
  exists r b l, unique_vertices_linked_to_different_points geo m r0 = Ok r /\
    model_has_unique_vertices_linked_to_different_points geo m = Ok b /\
    ii_issues r = ii_issues r0 ++ l /\ StronglySorted lt l /\
    (forall uv, In uv l <-> uv < nb_unique_vertices m /\ different_points geo m uv) /\
    (b = true <-> l <> []).
Proof. exact linked_to_different_points_spec. Qed.
Print Assumptions C07_linked_to_different_points.

(** C08: colocated unique vertices, in model indices. *)
Theorem C08_colocated_unique_vertices : forall geo m r0, unique_ids m -> resolvable m ->
  exists l, positioned_vertices m l /\
   (consistent (map snd l) (g_colocated geo (map snd l)) ->
    exists r groups b, colocated_unique_vertices_groups geo m r0 = Ok r /\ ii_issues r = ii_issues r0 ++ groups /\
    model_has_colocated_unique_vertices geo m = Ok b /\
    ((N.of_nat (length l) < 2 ^ 32)%N -> (b = true <-> groups <> [])) /\
    (forall i j, i <> j -> (exists g, In g groups /\ In i g /\ In j g) <->
       exists a b p q, nth_error l a = Some (i, p) /\ nth_error l b = Some (j, q) /\
                       same_place (g_colocated geo (map snd l)) a b) /\
    (forall g, In g groups -> 2 <= length g /\ StronglySorted lt g) /\ NoDup (concat groups) /\
    (forall g i, In g groups -> In i g -> exists p, unique_vertex_position m i p)).
Proof. exact colocated_unique_vertices_spec. Qed.
Print Assumptions C08_colocated_unique_vertices.

(** ** Concrete instances *)

(** a search for which all points coincide *)
Definition ex_geo : Geometry :=
  mkGeometry (fun pts => mkColocated (repeat 0 (length pts)) (firstn 1 pts))
    (fun p q => Nat.eqb (length p) (length q)) (fun _ => "p"%string).
Lemma ex_geo_consistent : forall points, consistent points (g_colocated ex_geo points).
Proof.
  intros points. unfold consistent. cbn. split; [apply repeat_length|]. split.
  - intros u Hu. apply repeat_spec in Hu as Hu0. subst u. destruct points; [destruct Hu|cbn; lia].
  - intros u Hu. destruct points as [|p points]; cbn in Hu; [lia|]. left. lia.
Qed.
Definition ex_curve : EdgedCurve := mkCurve [[]; []; [S754_zero false]; []] [(0, 1)] (fun _ => S754_zero false) (fun _ => false).
(** a line with 4 coinciding vertices, a corner, an inactive line *)
Definition ex_model : Model :=
  mkModel [mkComponent 1 None true (mkPointSet [[S754_zero false]])]
    [mkComponent 2 None true ex_curve; mkComponent 3 None false ex_curve] [] [] []
    [ [mkCMV (mkCID LineT 3) 0];
      [mkCMV (mkCID LineT 3) 1; mkCMV (mkCID CornerT 1) 0; mkCMV (mkCID LineT 2) 0];
      [mkCMV (mkCID LineT 2) 2; mkCMV (mkCID CornerT 1) 0] ]
    (fun c => match cid_id (cmv_component c), cmv_vertex c with 2, 0 => Some 1 | 2, 2 => Some 2 | _, _ => None end)
    [] [] OpenGeodeExn (fun _ => "id"%string) (fun _ => ""%string) (fun _ => ""%string) (fun _ => ""%string).
Example ex_unique_ids : unique_ids ex_model.
Proof. unfold unique_ids. cbn. repeat constructor; cbn; intuition discriminate. Qed.
Example ex_resolvable : resolvable ex_model.
Proof.
  assert (L : forall c, In c (m_lines ex_model) -> forall v, v < 4 -> exists p, has_position ex_model (mkCMV (mkCID LineT (co_id c)) v) p).
  { intros c Hc v Hv. destruct (nth_error (ec_points (co_mesh c)) v) as [p|] eqn:E.
    - exists p. apply pos_line; assumption.
    - exfalso. apply nth_error_None in E. destruct Hc as [<-|[<-|[]]]; cbn in E; lia. }
  assert (K : exists p, has_position ex_model (mkCMV (mkCID CornerT 1) 0) p).
  { exists [S754_zero false]. apply (pos_corner ex_model (mkComponent 1 None true (mkPointSet [[S754_zero false]]))); [left|]; reflexivity. }
  intros cmvs c Hm Hc. cbn in Hm. destruct Hm as [<-|[<-|[<-|[]]]]; cbn in Hc.
  - destruct Hc as [<-|[]]. apply (L (mkComponent 3 None false ex_curve)); [cbn; auto|lia].
  - destruct Hc as [<-|[<-|[<-|[]]]].
    + apply (L (mkComponent 3 None false ex_curve)); [cbn; auto|lia].
    + exact K.
    + apply (L (mkComponent 2 None true ex_curve)); [cbn; auto|lia].
  - destruct Hc as [<-|[<-|[]]]; [|exact K]. apply (L (mkComponent 2 None true ex_curve)); [cbn; auto|lia].
Qed.
Example ex_small : forall t id points, active_mesh ex_model t id points -> below_2_32 (length points).
Proof.
  intros t id points H. destruct H as [c Hc Ha|c Hc Ha|c Hc Ha]; cbn in Hc; [|destruct Hc|destruct Hc].
  destruct Hc as [<-|[<-|[]]]; [reflexivity|discriminate].
Qed.
(** vertex 1 of the model has vertices at different positions; 1 and 2 are colocated; the active line is reported *)
Example ex_results :
  (exists r, unique_vertices_linked_to_different_points ex_geo ex_model (new_issues ""%string) = Ok r /\ ii_issues r = [1]) /\
  (exists r, colocated_unique_vertices_groups ex_geo ex_model (new_issues ""%string) = Ok r /\ ii_issues r = [[1; 2]]) /\
  (exists r, add_model_components_colocated_points_groups ex_geo ex_model (new_issues_map ""%string) = Ok r /\
     map (fun kv => (fst kv, ii_issues (snd kv))) (im_map r) = [(2, [[1; 2; 0]])]).
Proof. split; [|split]; eexists; (split; [vm_compute; reflexivity|vm_compute; reflexivity]). Qed.
