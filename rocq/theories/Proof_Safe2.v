(** Definedness of the topological checks. *)
From Coq Require Import String Ascii List Arith NArith ZArith Bool Lia.
From Verif Require Import Base BaseFacts Model_Issues Types Model_Hash Model_Colocation Model_Topology Model_BRep Model_Blocks Model_Results
  Spec_Adjacency Spec_Colocation Spec_Manifold Spec_Safe Proof_Topology Proof_Safe.
Import ListNotations.
Open Scope list_scope.

(** ** Combinators *)
Lemma defined_report_vertex : forall checks uv rs, (forall check, In check checks -> defined (check uv)) -> defined (report_vertex checks uv rs).
Proof.
  induction checks as [|check checks IH]; intros uv rs H; [discriminate|]. destruct rs as [|r rs]; [discriminate|]. cbn [report_vertex].
  defined_step; [apply H; left; reflexivity|]. cbv zeta. defined_step; [|discriminate]. apply IH. intros c Hc. apply H. right. exact Hc.
Qed.
Lemma report_vertex_length : forall checks uv rs rs', report_vertex checks uv rs = Ok rs' -> length rs' = length rs.
Proof.
  induction checks as [|check checks IH]; intros uv rs rs' E; [cbn in E; injection E as <-; reflexivity|]. destruct rs as [|r rs]; [cbn in E; injection E as <-; reflexivity|].
  cbn [report_vertex] in E. destruct (check uv) as [p|e|]; [|discriminate|discriminate]. cbn [bind] in E. cbv zeta in E.
  destruct (report_vertex checks uv rs) as [rs1|e|] eqn:E1; [|discriminate|discriminate]. cbn in E. injection E as <-. cbn. f_equal. eapply IH, E1.
Qed.
Lemma defined_report : forall m checks ds, (forall check uv, In check checks -> uv < nb_unique_vertices m -> defined (check uv)) -> defined (report_vertices m checks ds).
Proof. intros m checks ds H. unfold report_vertices. defined_step. apply in_Range in H0. apply defined_report_vertex. intros check Hc. apply H; assumption. Qed.
Lemma report_length : forall m checks ds rs, report_vertices m checks ds = Ok rs -> length rs = length ds.
Proof.
  intros m checks ds rs E. unfold report_vertices in E. revert E. apply (foldM_inv _ _ (fun rs => length rs = length ds)); [apply map_length|].
  intros s x s' Hs _ E. apply report_vertex_length in E. lia.
Qed.
Lemma defined_all_pass : forall checks uv, (forall check, In check checks -> defined (check uv)) -> defined (all_pass checks uv).
Proof.
  induction checks as [|check checks IH]; intros uv H; [discriminate|]. cbn [all_pass]. defined_step; [apply H; left; reflexivity|].
  defined_step; [|discriminate]. apply IH. intros c Hc. apply H. right. exact Hc.
Qed.
Lemma defined_allM : forall A (l : list (A -> outcome bool)) x, (forall p, In p l -> defined (p x)) -> defined (allM l x).
Proof.
  intros A. induction l as [|p l IH]; intros x H; [discriminate|]. cbn [allM]. defined_step; [apply H; left; reflexivity|].
  defined_step; [|discriminate]. apply IH. intros c Hc. apply H. right. exact Hc.
Qed.
Lemma defined_every_vertex : forall m ps, (forall p uv, In p ps -> uv < nb_unique_vertices m -> defined (p uv)) -> defined (every_vertex m ps).
Proof.
  intros m ps H. unfold every_vertex. defined_step; [|discriminate]. defined_step. apply in_Range in H0. defined_step; [|discriminate]. apply defined_allM. intros p Hp. apply H; assumption.
Qed.
Lemma defined_inspect_components : forall M get kind suffix t (meshed : M -> bool) nb skip m l d1 d2, (forall id, defined (get m id)) ->
  defined (inspect_components get kind suffix t meshed nb skip m l d1 d2).
Proof. intros. unfold inspect_components. defined_step. unfold inspect_component. defined_step; [apply H|]. cbv zeta. defined_all. Qed.

(** ** Checks of unique vertices, common and Section *)
Lemma defined_second : forall m cs found, defined (second_active_corner m found cs).
Proof. intros m. induction cs as [|c cs IH]; intros found; [discriminate|]. cbn [second_active_corner]. defined_step; [defined_all|]. defined_step; [apply IH|]. defined_step; [discriminate|apply IH]. Qed.
Lemma defined_multiple_corners : forall m uv, defined (unique_vertex_has_multiple_corners m uv).
Proof. intros. unfold unique_vertex_has_multiple_corners. defined_step; [apply defined_second|discriminate]. Qed.
Lemma defined_not_internal : forall m uv, defined (corner_is_not_internal_nor_boundary m uv).
Proof. intros. unfold corner_is_not_internal_nor_boundary. defined_all. Qed.
Lemma defined_multiple_embeddings : forall m uv, defined (corner_has_multiple_embeddings m uv).
Proof. intros. unfold corner_has_multiple_embeddings. defined_all. Qed.
Lemma defined_part_of_line : forall m uv, defined (section_corner_is_part_of_line_but_not_boundary m uv).
Proof. intros. unfold section_corner_is_part_of_line_but_not_boundary. defined_all. Qed.
Lemma defined_section_corner_loop : forall m all cs found, defined (section_corner_loop m all found cs).
Proof.
  intros m all. induction cs as [|c cs IH]; intros found; [discriminate|]. cbn [section_corner_loop]. defined_step; [defined_all|]. defined_step; [apply IH|].
  defined_step; [discriminate|]. defined_step; [discriminate|]. match goal with |- defined (if ?b then _ else _) => destruct b end; [discriminate|]. match goal with |- defined (if ?b then _ else _) => destruct b end; [discriminate|apply IH].
Qed.
Lemma defined_section_line_relationships : forall m uv, defined (section_line_wrong_relationships m uv).
Proof. intros. unfold section_line_wrong_relationships. defined_all. Qed.
Lemma defined_section_embedded : forall m uv, defined (section_invalid_embedded_line m uv).
Proof.
  intros m uv. unfold section_invalid_embedded_line. induction (component_mesh_vertices m uv) as [|c cs IH]; [discriminate|]. cbn [section_embedded_loop]. defined_step; [defined_all|].
  defined_step; [exact IH|]. defined_step; [discriminate|]. defined_step; [defined_all|]. defined_step; [defined_all|]. defined_step; [|defined_step; [discriminate|exact IH]].
  defined_step. unfold section_embedding_check. defined_all.
Qed.
Lemma defined_section_single : forall m uv, defined (section_invalid_single_line m uv).
Proof. intros. unfold section_invalid_single_line. defined_all. Qed.
Lemma defined_count_lines : forall m cs nb corner, defined (count_lines_and_corner m cs nb corner).
Proof. intros m. induction cs as [|c cs IH]; intros nb corner; [discriminate|]. cbn [count_lines_and_corner]. defined_step; [defined_all|]. defined_step; apply IH. Qed.
Lemma defined_not_corner : forall m uv, defined (section_lines_but_not_corner m uv).
Proof. intros. unfold section_lines_but_not_corner. defined_step; [apply defined_count_lines|discriminate]. Qed.
Lemma defined_section_embedded_surface : forall m uv, defined (section_invalid_embedded_surface m uv).
Proof. intros. unfold section_invalid_embedded_surface. defined_all. Qed.
Lemma defined_section_border : forall m uv, defined (section_line_not_on_surface_border m uv).
Proof. intros. unfold section_line_not_on_surface_border. defined_all. Qed.
#[export] Hint Resolve defined_multiple_corners defined_not_internal defined_multiple_embeddings defined_part_of_line defined_section_line_relationships
  defined_section_embedded defined_section_single defined_not_corner defined_section_embedded_surface defined_section_border : defined.

Ltac each_check := let check := fresh "check" in let uv := fresh "uv" in let Hc := fresh in let Hu := fresh in
  intros check uv Hc Hu; repeat (destruct Hc as [<-|Hc]; [try solve [auto with defined]|]); [..|destruct Hc].
Ltac made E := let L := fresh in pose proof (report_length _ _ _ _ E) as L;
  repeat (match goal with rs : list (InspectionIssues nat) |- _ => destruct rs; try discriminate L end); clear L.
Lemma defined_wrong_links : forall m ex r, defined (add_unique_vertices_with_wrong_cmv_link m ex r).
Proof.
  intros. unfold add_unique_vertices_with_wrong_cmv_link. defined_step. defined_step; [discriminate|]. defined_step. unfold add_wrong_cmv_link, linked_elsewhere. defined_all.
Qed.
Lemma defined_section_corners : forall m, defined (section_inspect_corners_topology m).
Proof.
  intros m. unfold section_inspect_corners_topology. defined_step; [apply defined_inspect_components; auto with defined|]. defined_step; [apply defined_report; each_check|].
  made H0. discriminate.
Qed.
Lemma defined_section_lines : forall m, defined (section_inspect_lines_topology m).
Proof.
  intros m. unfold section_inspect_lines_topology. defined_step; [apply defined_inspect_components; auto with defined|]. defined_step; [apply defined_report; each_check|].
  made H0. discriminate.
Qed.
Lemma defined_section_surfaces : forall m, defined (section_inspect_surfaces m).
Proof.
  intros m. unfold section_inspect_surfaces. defined_step; [apply defined_inspect_components; auto with defined|]. defined_step; [apply defined_report; each_check|].
  made H0. discriminate.
Qed.
Lemma defined_section_topology : forall m, defined (inspect_section_topology m).
Proof.
  intros m. unfold inspect_section_topology. cbv zeta. defined_step.
  - apply defined_parallel_caught. repeat (apply Forall_cons; [apply defined_status|]); [apply defined_section_corners|apply defined_section_lines|apply defined_section_surfaces|apply Forall_nil].
  - defined_step; [apply defined_wrong_links|discriminate].
Qed.
Lemma defined_inspect_section : forall o m st inter, sane_section o m -> defined inter -> defined (inspect_section o m st inter).
Proof.
  intros o m st inter H I. unfold inspect_section. cbv zeta. defined_step; [|discriminate]. each_task; apply defined_status; [apply defined_inspect_section_meshes; assumption|apply defined_section_topology].
Qed.
Lemma defined_bijective : forall m ex, defined (unique_vertices_are_bijectively_linked m ex).
Proof.
  intros m ex. unfold unique_vertices_are_bijectively_linked. defined_step; [|discriminate]. defined_step. defined_step; [discriminate|]. defined_step; [|discriminate].
  match goal with |- defined (cmvs_are_right _ _ _ ?l) => generalize l end. clear. intros cs. induction cs as [|c cs IH]; [discriminate|]. cbn [cmvs_are_right].
  defined_step; [discriminate|]. defined_step; [unfold linked_elsewhere; defined_all|]. defined_step; [discriminate|exact IH].
Qed.
Lemma defined_section_is_valid : forall m, defined (section_topology_is_valid m).
Proof.
  intros m. unfold section_topology_is_valid. defined_step; [discriminate|]. defined_step; [discriminate|]. defined_step; [apply defined_bijective|]. defined_step; [discriminate|].
  apply defined_every_vertex. each_check.
  - apply defined_section_corner_loop.
  - unfold section_lines_topology_is_valid. defined_step; [defined_all|]. defined_step; [discriminate|]. apply defined_all_pass. intros c Hc. repeat (destruct Hc as [<-|Hc]; [auto with defined|]). destruct Hc.
  - unfold section_vertex_surfaces_topology_is_valid. generalize (component_mesh_vertices m uv). intros cs. induction cs as [|c cs IH]; [discriminate|]. cbn [section_surfaces_loop].
    defined_step; [defined_all|]. defined_step; [exact IH|]. defined_step; [|defined_step; [discriminate|exact IH]].
    apply defined_all_pass. intros k Hc. repeat (destruct Hc as [<-|Hc]; [auto with defined|]). destruct Hc.
Qed.

(** ** BRep: checks that read nothing but relations *)
Lemma defined_multiply_embedded : forall m uv, defined (corner_is_multiply_embedded m uv).
Proof. intros. unfold corner_is_multiply_embedded. defined_all. Qed.
Lemma defined_brep_part_of_line : forall m uv, defined (brep_corner_is_part_of_line_but_not_boundary m uv).
Proof. intros. unfold brep_corner_is_part_of_line_but_not_boundary. defined_all. Qed.
Lemma defined_brep_corner_valid : forall m uv, defined (brep_corner_topology_is_valid m uv).
Proof.
  intros m uv. unfold brep_corner_topology_is_valid. defined_step.
  - generalize false. generalize (component_mesh_vertices m uv). intros cs. induction cs as [|c cs IH]; intros found; [discriminate|]. cbn [brep_corner_loop]. defined_step; [defined_all|].
    defined_step; [apply IH|]. defined_step; [discriminate|]. defined_step; [defined_step; [discriminate|apply IH]|]. defined_step; [discriminate|apply IH].
  - defined_step; [discriminate|]. apply defined_all_pass. intros k Hc. destruct Hc as [<-|[<-|[]]]; [apply defined_multiply_embedded|apply defined_brep_part_of_line].
Qed.
Lemma defined_brep_embedded : forall m uv, defined (brep_invalid_embedded_line m uv).
Proof. intros. unfold brep_invalid_embedded_line, brep_embedding_check. defined_all. Qed.
Lemma defined_brep_single_line : forall m uv, defined (brep_invalid_single_line m uv).
Proof. intros. unfold brep_invalid_single_line. defined_all. Qed.
Lemma defined_relationships : forall m uv line cme, defined (brep_line_relationships m uv line cme).
Proof. intros. unfold brep_line_relationships. defined_all. Qed.
Lemma defined_brep_embedded_surface : forall m uv, defined (brep_invalid_embedded_surface m uv).
Proof. intros. unfold brep_invalid_embedded_surface. defined_all. Qed.
Lemma defined_brep_border : forall m uv, defined (brep_line_not_on_surface_border m uv).
Proof. intros. unfold brep_line_not_on_surface_border. defined_all. Qed.
Lemma defined_two_blocks : forall m uv, defined (unique_vertex_is_part_of_two_blocks_and_no_boundary_surface m uv).
Proof. intros. unfold unique_vertex_is_part_of_two_blocks_and_no_boundary_surface. defined_all. Qed.
Lemma defined_single_surface : forall m nb uv, defined (brep_invalid_single_surface m nb uv).
Proof. intros. unfold brep_invalid_single_surface. defined_all. Qed.
Lemma defined_surface_relationships : forall m nb d uv, defined (surface_with_wrong_relationships_to_block m nb d uv).
Proof. intros. unfold surface_with_wrong_relationships_to_block. defined_all. Qed.
Lemma in_insert_unique : forall x y l, In x (insert_unique y l) -> x = y \/ In x l.
Proof.
  intros x y. induction l as [|z l IH]; intros H; [cbn in H; destruct H as [->|[]]; auto|]. cbn [insert_unique] in H. destruct (Nat.ltb y z); [destruct H as [->|H]; auto|].
  destruct (Nat.eqb y z); [auto|]. destruct H as [->|H]; [right; left; reflexivity|]. destruct (IH H); [auto|right; right; assumption].
Qed.
Lemma in_components : forall m uv t id, In id (components_uuids m uv t) -> exists c, In c (component_mesh_vertices m uv) /\ of_type t c = true /\ cmv_id c = id.
Proof.
  intros m uv t id H. unfold components_uuids in H. assert (K : In id (map cmv_id (filter (of_type t) (component_mesh_vertices m uv)))).
  { induction (map cmv_id (filter (of_type t) (component_mesh_vertices m uv))) as [|x l IH]; [destruct H|]. cbn in H. apply in_insert_unique in H as [->|H]; [left; reflexivity|right; apply IH, H]. }
  apply in_map_iff in K as (c & E & Hc). apply filter_In in Hc as [Hc T]. exists c. auto.
Qed.
Lemma defined_multiple_lines : forall m uv, defined (brep_multiple_surfaces_invalid_line m uv).
Proof.
  intros m uv. unfold brep_multiple_surfaces_invalid_line. cbv zeta. defined_step; [discriminate|]. defined_step; [discriminate|]. defined_step; [discriminate|]. defined_step.
  apply in_components in H as (c & Hc & _). match goal with |- defined (if ?b then _ else _) => destruct b end; [|discriminate]. destruct (component_mesh_vertices m uv); [destruct Hc|]. defined_all.
Qed.
#[export] Hint Resolve defined_multiply_embedded defined_brep_part_of_line defined_brep_corner_valid defined_brep_embedded defined_brep_single_line defined_relationships
  defined_brep_embedded_surface defined_brep_border defined_two_blocks defined_single_surface defined_surface_relationships defined_multiple_lines : defined.

(** ** BRep: checks that read the positions of the links *)
Definition vertex_found (m : Model) (c : ComponentMeshVertex) : Prop :=
  match cmv_type c with
  | CornerT => forall k, get_corner m (cmv_id c) = Ok k -> cmv_vertex c < length (ps_points (co_mesh k))
  | BlockT => forall b, get_block m (cmv_id c) = Ok b -> cmv_vertex c < length (so_points (co_mesh b))
  | _ => True
  end.
Lemma exists_found : forall m c, link_in_range m c -> vertex_found m c.
Proof.
  intros m c H. unfold link_in_range in H. unfold vertex_found, cmv_type, cmv_id. destruct (cid_type (cmv_component c)); try exact I.
  - intros k E. apply got_corner in E as [Hin E]. apply H; assumption.
  - intros k E. apply got_block in E as [Hin E]. apply H; assumption.
Qed.
Definition links_exist_at (m : Model) (uv : nat) : Prop := forall c, In c (component_mesh_vertices m uv) -> vertex_found m c.
Lemma defined_multiple_surfaces : forall m uv, links_exist_at m uv -> defined (brep_invalid_multiple_surfaces m uv).
Proof.
  intros m uv L. unfold brep_invalid_multiple_surfaces. cbv zeta. defined_step; [unfold count_active; defined_all|]. defined_step; [discriminate|].
  destruct (components_uuids m uv LineT) as [|x [|y r]]; [|defined_all|discriminate].
  unfold links_exist_at in L. revert L. generalize (component_mesh_vertices m uv). generalize false. intros found cs. revert found. induction cs as [|c cs IH]; intros found L; [discriminate|]. cbn [internal_corners_loop].
  destruct (of_type CornerT c) eqn:T; cbn [negb]; [|apply IH; intros k Hk; apply L; right; exact Hk]. defined_step; [defined_all|]. defined_step; [|defined_step; [discriminate|apply IH; intros k Hk; apply L; right; exact Hk]].
  defined_step. defined_step; [defined_all|]. defined_step; [|discriminate]. defined_step; [discriminate|]. exfalso.
  pose proof (L c (or_introl eq_refl)) as V. unfold vertex_found in V. unfold of_type in T. destruct (cmv_type c); try discriminate T.
  match goal with H : get_corner _ _ = Ok _ |- _ => specialize (V _ H) end. match goal with H : nth_error _ _ = None |- _ => apply nth_error_None in H end. lia.
Qed.
Lemma defined_each_surface : forall m B (f : Component SurfaceMesh -> outcome B) e, (forall s, defined (f s)) -> defined (each_surface m f e).
Proof. intros. unfold each_surface. defined_step; [defined_all|apply H]. Qed.
Lemma defined_each_line : forall m B (f : Component EdgedCurve -> outcome B) e, (forall s, defined (f s)) -> defined (each_line m f e).
Proof. intros. unfold each_line. defined_step; [defined_all|apply H]. Qed.
Lemma defined_expected : forall m uv block, links_exist_at m uv -> In block (components_uuids m uv BlockT) -> defined (expected_block_cmvs_and_error m uv block).
Proof.
  intros m uv block L Hb. apply in_components in Hb as (c & Hc & T & _).
  assert (D : defined (first_block_position m (filter (of_type BlockT) (component_mesh_vertices m uv)))).
  { assert (F : In c (filter (of_type BlockT) (component_mesh_vertices m uv))) by (apply filter_In; split; assumption).
    unfold first_block_position. destruct (filter _ _) as [|k l] eqn:E; [destruct F|]. assert (Hk : In k (filter (of_type BlockT) (component_mesh_vertices m uv))) by (rewrite E; left; reflexivity).
    apply filter_In in Hk as [Hk Tk]. defined_step; [defined_all|]. pose proof (L k Hk) as V. unfold vertex_found in V. unfold of_type in Tk.
    destruct (cmv_type k); try discriminate Tk. specialize (V a H). destruct (nth_error _ _) eqn:N; [discriminate|]. apply nth_error_None in N. lia. }
  unfold expected_block_cmvs_and_error. cbv zeta. defined_step; [defined_all|]. defined_step; [unfold count_surface_cmv; defined_all|]. defined_step.
  - unfold count_line_cmv, line_on_block_boundary_count, line_is_inside_block. repeat first [defined_step | apply defined_each_surface; intros ?].
  - defined_step; [defined_step; [defined_step; [exact D|discriminate]|discriminate]|]. defined_step; [discriminate|]. defined_step; [discriminate|]. defined_step; [exact D|discriminate].
Qed.
Lemma defined_block_count : forall m uv, links_exist_at m uv -> defined (unique_vertex_block_cmvs_count_is_incorrect m uv).
Proof. intros m uv L. unfold unique_vertex_block_cmvs_count_is_incorrect. defined_step. defined_step; [defined_all|]. defined_step; [discriminate|]. defined_step; [|discriminate]. apply defined_expected; assumption. Qed.
(** the first edge *)
Definition first_edge_known (m : Model) (l : Component EdgedCurve) : Prop :=
  forall v w rest, ec_edges (co_mesh l) = (v, w) :: rest -> is_linked m LineT (co_id l) v /\ is_linked m LineT (co_id l) w.
Lemma defined_mesh_edges : forall tl m l e v w, nth_error (ec_edges (co_mesh l)) e = Some (v, w) -> is_linked m LineT (co_id l) v -> is_linked m LineT (co_id l) w ->
  defined (component_mesh_edges tl m l e).
Proof.
  intros tl m l e v w E H1 H2. unfold component_mesh_edges. rewrite E. cbn [unique_vertices]. unfold is_linked in *.
  destruct (m_unique_vertex m (mkCMV (mkCID LineT (co_id l)) v)); [|congruence]. destruct (m_unique_vertex m (mkCMV (mkCID LineT (co_id l)) w)); [|congruence]. discriminate.
Qed.
Lemma defined_wrong_relationships : forall tl m uv,
  (forall c l, In c (component_mesh_vertices m uv) -> cmv_component c = mkCID LineT (co_id l) -> In l (m_lines m) -> co_active l = true -> first_edge_known m l) ->
  defined (brep_line_wrong_relationships tl m uv).
Proof.
  intros tl m uv H. unfold brep_line_wrong_relationships. defined_step. defined_step; [defined_all|]. destruct a; cbn [negb]; [|discriminate]. defined_step; [defined_all|].
  destruct (ec_edges (co_mesh a)) as [|[v w] rest] eqn:E; [discriminate|]. cbn [length Nat.eqb]. defined_step; [|defined_all].
  unfold is_active_of in H1. destruct (of_type LineT x) eqn:T; [|discriminate]. cbn [kind_is_active] in H1. rewrite H2 in H1. cbn [bind] in H1. injection H1 as A. destruct (got_line _ _ _ H2) as [Hin Ei].
  destruct (H x a H0) with (v := v) (w := w) (rest := rest) as [K1 K2]; [|exact Hin|exact A|exact E|].
  - unfold of_type, cmv_type in T. unfold cmv_id in Ei. destruct (cmv_component x) as [t id]. cbn in *. destruct t; try discriminate T. rewrite Ei. reflexivity.
  - eapply defined_mesh_edges; [rewrite E; reflexivity|exact K1|exact K2].
Qed.

(** ** BRep: is the topology valid? *)
Definition edges_exist_in (m : Model) : Prop := forall l v w, In l (m_lines m) -> In (v, w) (ec_edges (co_mesh l)) ->
  v < length (ec_points (co_mesh l)) /\ w < length (ec_points (co_mesh l)).
Lemma right_links_found : forall m uv cs, cmvs_are_right m cmv_exists_in_brep uv cs = Ok true -> forall c, In c cs -> vertex_found m c.
Proof.
  intros m uv. induction cs as [|c cs IH]; intros E k Hk; [destruct Hk|]. cbn [cmvs_are_right] in E. destruct (cmv_exists_in_brep m c) eqn:X; cbn [negb] in E; [|discriminate].
  destruct (linked_elsewhere m uv c) as [[]|e|]; cbn [bind] in E; try discriminate. destruct Hk as [<-|Hk]; [|apply IH; assumption].
  unfold cmv_exists_in_brep, cmv_exists_in_section in X. unfold vertex_found. destruct (cmv_type c); try exact I.
  - intros b Eb. unfold in_mesh in X. unfold get_corner in Eb. destruct (find_component (cmv_id c) (m_corners m)); [|discriminate]. injection Eb as <-. apply Nat.ltb_lt, X.
  - intros b Eb. unfold in_mesh in X. unfold get_block in Eb. destruct (find_component (cmv_id c) (m_blocks m)); [|discriminate]. injection Eb as <-. apply Nat.ltb_lt, X.
Qed.
Lemma anyM_false : forall A (f : A -> outcome bool) l, anyM f l = Ok false -> forall x, In x l -> f x = Ok false.
Proof.
  intros A f. induction l as [|y l IH]; intros E x Hx; [destruct Hx|]. cbn [anyM] in E. destruct (f y) as [[]|e|] eqn:Ey; cbn [bind] in E; try discriminate.
  destruct Hx as [<-|Hx]; [exact Ey|apply IH; assumption].
Qed.
Lemma bijective_found : forall m, unique_vertices_are_bijectively_linked m cmv_exists_in_brep = Ok true -> forall uv, uv < nb_unique_vertices m -> links_exist_at m uv.
Proof.
  intros m E uv Huv c Hc. unfold unique_vertices_are_bijectively_linked in E. match type of E with bind (anyM ?f ?l) _ = _ => destruct (anyM f l) as [[]|e|] eqn:A; cbn [bind negb] in E; try discriminate;
    pose proof (anyM_false _ f l A uv) as K end.
  specialize (K (proj2 (in_Range _ _) Huv)). cbv beta in K. destruct (component_mesh_vertices m uv) as [|c0 cs] eqn:Ec; [destruct Hc|].
  destruct (cmvs_are_right m cmv_exists_in_brep uv (c0 :: cs)) as [[]|e|] eqn:R; cbn [bind negb] in K; try discriminate. eapply right_links_found; eassumption.
Qed.
Lemma linked_lines : forall m l, edges_exist_in m -> brep_meshed_components_are_linked m = true -> In l (m_lines m) -> co_active l = true -> first_edge_known m l.
Proof.
  intros m l He H Hl A v w rest E. destruct (He l v w Hl) as [V W]; [rewrite E; left; reflexivity|].
  unfold brep_meshed_components_are_linked, section_meshed_components_are_linked in H. apply andb_true_iff in H as [H _]. apply andb_true_iff in H as [H _]. apply andb_true_iff in H as [_ H].
  unfold meshed_components_are_linked in H. rewrite forallb_forall in H. specialize (H l). rewrite negb_true_iff in H.
  assert (K : In l (active (m_lines m))) by (apply filter_In; auto). specialize (H K). unfold line_is_meshed in H. rewrite E in H.
  destruct (length (ec_points (co_mesh l))) as [|n] eqn:En; [lia|]. cbn [length Nat.eqb negb andb] in H. apply negb_false_iff in H. unfold vertices_are_associated in H. rewrite forallb_forall in H.
  unfold is_linked. split; intros N.
  - specialize (H v). rewrite N in H. discriminate H. apply in_Range. exact V.
  - specialize (H w). rewrite N in H. discriminate H. apply in_Range. exact W.
Qed.
Lemma defined_brep_is_valid : forall tl m, edges_exist_in m -> defined (brep_topology_is_valid tl m).
Proof.
  intros tl m He. unfold brep_topology_is_valid. defined_step; [discriminate|]. destruct (brep_meshed_components_are_linked m) eqn:ML; cbn [negb]; [|discriminate].
  defined_step; [apply defined_bijective|]. destruct a; cbn [negb]; [|discriminate]. pose proof (bijective_found m H) as F.
  apply defined_every_vertex. each_check.
  - unfold brep_lines_topology_is_valid. defined_step; [defined_all|]. defined_step; [discriminate|]. apply defined_all_pass. intros k Hc.
    destruct Hc as [<-|[<-|[<-|[<-|[]]]]]; [auto with defined|auto with defined| |unfold brep_lines_but_not_corner; auto with defined].
    apply defined_wrong_relationships. intros c l _ _ Hl A. apply linked_lines; assumption.
  - unfold brep_surfaces_topology_is_valid. defined_step; [defined_all|]. defined_step; [discriminate|]. apply defined_all_pass. intros k Hc.
    destruct Hc as [<-|[<-|[<-|[]]]]; [auto with defined|apply defined_multiple_surfaces, F; assumption|auto with defined].
  - unfold brep_blocks_topology_is_valid. apply defined_all_pass. intros k Hc. destruct Hc as [<-|[<-|[]]]; [auto with defined|apply defined_block_count, F; assumption].
Qed.

(** ** BRep: corners, lines, surfaces *)
Section Inspect.
Variable o : Oracles.
Variable m : Model.
Hypothesis Hm : sane_brep o m.
Let tl := or_topo o.
Lemma sane_links_at : forall uv, uv < nb_unique_vertices m -> links_exist_at m uv.
Proof. intros uv H c Hc. apply exists_found. apply (ss_links _ _ (sb_section _ _ Hm) uv c H Hc). Qed.
Lemma defined_brep_corners : defined (brep_inspect_corners_topology m).
Proof.
  unfold brep_inspect_corners_topology. defined_step; [apply defined_inspect_components; auto with defined|]. defined_step; [apply defined_report; each_check|].
  made H0. discriminate.
Qed.
(** a component without unlinked vertex *)
Lemma none_missing : forall c n, N.eqb (nb_issues (vertices_not_associated m c n)) 0 = true -> fits_32_bits n -> forall v, v < n -> m_unique_vertex m (mkCMV c v) <> None.
Proof.
  intros c n H F v Hv E. apply N.eqb_eq in H. unfold nb_issues, size32 in H. pose proof (vertices_not_associated_length m c n) as L. unfold fits_32_bits in F.
  rewrite u32_small in H by lia. rewrite vertices_not_associated_issues in H.
  assert (K : In v (filter (fun v => negb (isSome (m_unique_vertex m (mkCMV c v)))) (Range n))) by (apply filter_In; split; [apply in_Range, Hv|rewrite E; reflexivity]).
  destruct (filter _ _); [destruct K|cbn in H; lia].
Qed.
Lemma defined_elements : forall M get kind t (meshed : M -> bool) nb nbe enabled check l d1 d2 d3, (forall id, defined (get m id)) ->
  (forall c e, In c l -> co_active c = true -> (forall v, v < nb (co_mesh c) -> m_unique_vertex m (mkCMV (mkCID t (co_id c)) v) <> None) -> e < nbe (co_mesh c) -> defined (check c e)) ->
  (forall c, In c l -> fits_32_bits (nb (co_mesh c))) ->
  defined (inspect_elements get kind t meshed nb nbe enabled check m l d1 d2 d3).
Proof.
  intros M get kind t meshed nb nbe enabled check l d1 d2 d3 G C F. unfold inspect_elements. defined_step. apply filter_In in H as [Hx A]. unfold inspect_elements_of. defined_step; [apply G|]. cbv zeta.
  match goal with |- defined (if negb ?b then _ else _) => destruct b eqn:N end; cbn [negb]; [|discriminate]. defined_step; [discriminate|]. defined_step; [|discriminate]. defined_step. defined_step; [|discriminate].
  apply C; [exact Hx|exact A| |apply in_Range; assumption]. apply none_missing; [exact N|apply F, Hx].
Qed.
Lemma defined_around_edge : forall l e v w, nth_error (ec_edges (co_mesh l)) e = Some (v, w) -> is_linked m LineT (co_id l) v -> is_linked m LineT (co_id l) w ->
  defined (line_edge_has_wrong_component_edges_around tl m l e).
Proof.
  intros l e v w E V W. unfold line_edge_has_wrong_component_edges_around. cbv zeta. defined_step; [eapply defined_mesh_edges; eassumption|]. defined_all.
Qed.
Lemma defined_brep_lines : first_edges_are_linked m -> defined (brep_inspect_lines_topology tl m).
Proof.
  intros FE. unfold brep_inspect_lines_topology. defined_step.
  - apply defined_elements; [auto with defined| |intros c Hc; apply (sb_sizes _ _ Hm), Hc]. intros c e Hc A V He. destruct (nth_error (ec_edges (co_mesh c)) e) as [[v w]|] eqn:E; [|apply nth_error_None in E; lia].
    destruct (sb_edges _ _ Hm c v w Hc (nth_error_In _ _ E)) as [Lv Lw]. eapply defined_around_edge; [exact E|apply V, Lv|apply V, Lw].
  - defined_step; [apply defined_report; each_check|made H0; discriminate]. 
    + apply defined_wrong_relationships. intros c l Hc Ec Hl A v w rest E. apply (FE l v w rest Hl A E). exists uv, c. auto.
Qed.
Lemma unique_vertices_some : forall c vs, (forall v, In v vs -> m_unique_vertex m (mkCMV c v) <> None) -> exists l, unique_vertices m c vs = Some l.
Proof.
  intros c. induction vs as [|v vs IH]; intros H; [exists []; reflexivity|]. cbn [unique_vertices]. destruct IH as (l & E); [intros x Hx; apply H; right; exact Hx|]. rewrite E.
  pose proof (H v (or_introl eq_refl)) as K. destruct (m_unique_vertex m (mkCMV c v)); [|congruence]. eexists. reflexivity.
Qed.
Lemma polygon_vertex_exists : forall s p v, sane_surface s -> p < nb_polygons s -> In v (polygon_vertices s p) -> v < length (sm_points s).
Proof.
  intros s p v H Hp Hv. destruct (In_nth _ _ 0 Hv) as (i & Hi & E). rewrite <- E. apply (sane_polygons _ H (p, i)). split; assumption.
Qed.
Lemma defined_brep_surfaces : defined (brep_inspect_surfaces_topology tl m).
Proof.
  unfold brep_inspect_surfaces_topology. defined_step.
  - apply defined_elements; [auto with defined| |intros c Hc; apply (sb_sizes _ _ Hm), Hc]. intros c p Hc A V Hp. unfold surface_facet_has_wrong_component_facets_around.
    defined_step; [|defined_all]. unfold component_mesh_polygons. destruct (unique_vertices_some (mkCID SurfaceT (co_id c)) (polygon_vertices (co_mesh c) p)) as (l & E); [|rewrite E; discriminate].
    intros v Hv. apply V. eapply polygon_vertex_exists; [apply (sb_section _ _ Hm), Hc|exact Hp|exact Hv].
  - defined_step; [apply defined_report; each_check|made H0; discriminate].
    + apply defined_multiple_surfaces, sane_links_at. assumption.
Qed.

(** ** BRep: blocks *)
Lemma filter_length_le : forall A (f : A -> bool) l, length (filter f l) <= length l.
Proof. intros A f. induction l as [|x l IH]; cbn; [lia|]. destruct (f x); cbn; lia. Qed.
Lemma visit_length : forall g l st, length (fst st) = length g -> length (fst (fold_left (visit_graph_vertex g) l st)) = length g.
Proof.
  intros g. induction l as [|v l IH]; intros st H; [exact H|]. cbn [fold_left]. apply IH. unfold visit_graph_vertex. destruct (edges_around_vertex g v); [exact H|]. cbv zeta.
  destruct (negb _); [exact H|]. destruct (memb _ _); [exact H|]. cbn [fst]. rewrite map_length, combine_length, H. apply Nat.min_id.
Qed.
Lemma filter_marked : forall (marks : list bool) (g : list GraphEdge), length marks = length g -> existsb (fun b => b) marks = true ->
  length (map snd (filter (fun be : bool * GraphEdge => negb (fst be)) (combine marks g))) < length g.
Proof.
  induction marks as [|b marks IH]; intros g L E; [discriminate|]. destruct g as [|e g]; [discriminate|]. cbn in L. injection L as L. cbn [combine filter fst]. cbn in E. destruct b; cbn [negb].
  - rewrite map_length. pose proof (filter_length_le _ (fun be : bool * GraphEdge => negb (fst be)) (combine marks g)) as K. rewrite combine_length, L, Nat.min_id in K. cbn. lia.
  - cbn. specialize (IH g L E). rewrite map_length in *. lia.
Qed.
Lemma defined_prune : forall fuel lines g nb, length g < fuel -> defined (prune fuel lines g nb).
Proof.
  induction fuel as [|fuel IH]; intros lines g nb H; [lia|]. cbn [prune]. cbv zeta. match goal with |- context [fold_left ?f ?l ?st] => pose proof (visit_length g l st (map_length _ _)) as L; destruct (fold_left f l st) as [marks nb'] end.
  cbn [fst snd] in *. destruct (existsb (fun b => b) marks) eqn:E; cbn [negb]; [|discriminate]. apply IH. pose proof (filter_marked marks g L E). lia.
Qed.
Lemma defined_not_boundary : defined (find_not_boundary_surfaces m).
Proof.
  unfold find_not_boundary_surfaces. defined_step; [|apply defined_prune; lia]. unfold create_graph.
  repeat first [defined_step | apply defined_each_surface; intros ? | apply defined_each_line; intros ?].
Qed.
Lemma defined_dangling : forall nb, defined (find_dangling_surfaces tl m nb).
Proof. intros nb. unfold find_dangling_surfaces. defined_step. defined_step; [defined_all|]. defined_step; [discriminate|]. defined_step; [|discriminate]. defined_step. apply (sb_inside_block _ _ Hm). Qed.
Lemma defined_find_linked : forall s P, defined (find_linked_processed_surface m s P).
Proof. intros. unfold find_linked_processed_surface. repeat first [defined_step | apply defined_each_surface; intros ? | apply defined_each_line; intros ?]. Qed.
Lemma defined_linked_loop : forall n, fits_32_bits n -> forall fuel P Q k, length Q <= n -> k <= length Q -> length Q * S n + (length Q - k) < fuel ->
  defined (linked_loop fuel m P Q (N.of_nat k)) /\ forall r, linked_loop fuel m P Q (N.of_nat k) = Ok r -> length (snd r) <= length Q.
Proof.
  intros n Hn. unfold fits_32_bits in Hn. induction fuel as [|fuel IH]; intros P Q k L K F; [lia|]. cbn [linked_loop]. destruct Q as [|s Q]; [split; [discriminate|intros r E; injection E as <-; cbn; lia]|].
  destruct (N.eqb (N.of_nat k) (N.of_nat (length (s :: Q)))) eqn:E; [split; [discriminate|intros r Er; injection Er as <-; cbn; lia]|]. apply N.eqb_neq in E. cbn [length] in *.
  destruct (memb s P).
  - destruct (IH P Q k) as [D R]; [lia|lia|nia|]. split; [exact D|]. intros r Er. specialize (R r Er). lia.
  - pose proof (defined_find_linked s P) as DF. destruct (find_linked_processed_surface m s P) as [[]|e|]; cbn [bind]; [| |split; discriminate|congruence].
    + destruct (IH (P ++ [s]) Q 0) as [D R]; [lia|lia|nia|]. split; [exact D|]. intros r Er. specialize (R r Er). lia.
    + assert (Ea : add32 (N.of_nat k) 1 = N.of_nat (S k)) by (unfold add32; rewrite u32_small; lia). rewrite Ea.
      destruct (IH P (Q ++ [s]) (S k)) as [D R]; [rewrite app_length; cbn; lia|rewrite app_length; cbn; lia|rewrite app_length; cbn; nia|]. split; [exact D|]. intros r Er. specialize (R r Er). rewrite app_length in R. cbn in R. lia.
Qed.
Lemma defined_closed_linked : forall s Q, fits_32_bits (length Q) -> defined (closed_linked_surfaces m (s :: Q)) /\ forall r, closed_linked_surfaces m (s :: Q) = Ok r -> length (snd r) <= length Q.
Proof. intros s Q H. unfold closed_linked_surfaces. apply (defined_linked_loop (length Q) H _ [s] Q 0); [lia|lia|nia]. Qed.
Lemma defined_linked_parts : forall fuel Q, fits_32_bits (length Q) -> length Q <= fuel -> defined (linked_parts fuel m Q).
Proof.
  induction fuel as [|fuel IH]; intros Q H L; destruct Q as [|s Q]; try discriminate; [cbn in L; lia|]. cbn [linked_parts]. unfold fits_32_bits in *. cbn [length] in *.
  destruct (defined_closed_linked s Q) as [D R]; [unfold fits_32_bits; lia|]. defined_step; [exact D|]. specialize (R a H0). defined_step; [|discriminate]. apply IH; lia.
Qed.
Lemma foldM_length : forall A S (f : list S -> A -> outcome (list S)) l s r, (forall s x s', f s x = Ok s' -> length s' = Datatypes.S (length s)) -> foldM f l s = Ok r -> length r = length s + length l.
Proof.
  intros A S f. induction l as [|x l IH]; intros s r H E; [cbn in E; injection E as <-; cbn; lia|]. cbn [foldM] in E. destruct (f s x) as [s'|e|] eqn:Ef; cbn [bind] in E; [|discriminate|discriminate].
  specialize (IH s' r H E). specialize (H s x s' Ef). cbn. lia.
Qed.
Lemma queue_block_length : forall b q, queue_with_block_boundaries m b = Ok q -> length q <= length (m_boundary_rel m).
Proof.
  intros b q E. unfold queue_with_block_boundaries in E. apply foldM_length in E.
  - cbn in E. unfold boundaries in E. rewrite map_length in E. pose proof (filter_length_le _ (fun r : ComponentID * ComponentID => Nat.eqb (cid_id (snd r)) b) (m_boundary_rel m)). lia.
  - intros s x s' Es. unfold each_surface in Es. destruct (get_surface m (cid_id x)); cbn in Es; [|discriminate|discriminate]. injection Es as <-. rewrite app_length. cbn. lia.
Qed.
Lemma queue_model_length : forall q, queue_with_model_boundaries m = Ok q -> length q = length (boundary_surfaces m).
Proof.
  unfold queue_with_model_boundaries, boundary_surfaces. assert (K : forall l q0 q, foldM (fun q mb => foldM (fun q i => let! s := get_surface m i in Ok (q ++ [co_id s])) (snd mb) q) l q0 = Ok q ->
    length q = length q0 + length (flat_map (@snd uuid (list uuid)) l)).
  { induction l as [|b l IH]; intros q0 q E; [cbn in E; injection E as <-; cbn; lia|]. cbn [foldM] in E. destruct (foldM _ (snd b) q0) as [q1|e|] eqn:E1; cbn [bind] in E; [|discriminate|discriminate].
    specialize (IH q1 q E). apply foldM_length in E1; [|intros s x s' Es; destruct (get_surface m x); cbn in Es; [|discriminate|discriminate]; injection Es as <-; rewrite app_length; cbn; lia].
    cbn [flat_map]. rewrite app_length. lia. }
  intros q E. specialize (K _ [] q E). cbn in K. exact K.
Qed.
Lemma defined_queue_block : forall b, defined (queue_with_block_boundaries m b).
Proof. intros. unfold queue_with_block_boundaries. repeat first [defined_step | apply defined_each_surface; intros ?]. Qed.
Lemma defined_queue_model : defined (queue_with_model_boundaries m).
Proof. unfold queue_with_model_boundaries. defined_all. Qed.
Lemma defined_fuse : forall l, defined (fuse_brep_surfaces_from_list m l).
Proof.
  intros l. unfold fuse_brep_surfaces_from_list. defined_step; [|discriminate]. defined_step. defined_step; [defined_all|]. apply got_surface in H0 as [Hs _]. defined_step. apply in_Range in H0. unfold fuse_polygon.
  defined_step; [|discriminate]. defined_step. unfold fuse_vertex. cbv zeta. defined_step; [discriminate|]. defined_step; [discriminate|]. exfalso.
  match goal with H : nth_error _ _ = None |- _ => apply nth_error_None in H end. assert (V : x1 < length (sm_points (co_mesh a))); [|lia].
  eapply polygon_vertex_exists; [apply (sb_section _ _ Hm), Hs|exact H0|assumption].
Qed.
Lemma defined_block_closed : forall b, defined (block_boundaries_are_closed tl m b).
Proof.
  intros b. unfold block_boundaries_are_closed. defined_step; [apply defined_queue_block|]. pose proof (queue_block_length b a H) as L. pose proof (sb_relations _ _ Hm) as F. unfold fits_32_bits in F.
  defined_step; [apply defined_linked_parts; [unfold fits_32_bits; lia|lia]|]. defined_step; [discriminate|]. defined_step; [|discriminate]. defined_step; [apply defined_fuse|]. defined_step; [|discriminate].
  defined_step. defined_step; [discriminate|]. defined_step. defined_step; [defined_all|]. defined_step. unfold point_is_outside. pose proof (sb_inside_surface _ _ Hm a1 x1) as D. fold tl in D.
  destruct (tl_inside_closed tl a1 x1) as [|[]|]; try discriminate. congruence.
Qed.
Lemma defined_brep_blocks : boundaries_have_a_surface m -> defined (brep_inspect_blocks tl m).
Proof.
  intros B. unfold brep_inspect_blocks. destruct (active (m_blocks m)) as [|b0 bs] eqn:EA; [discriminate|]. rewrite <- EA in *. defined_step; [apply defined_not_boundary|]. defined_step; [apply defined_dangling|].
  defined_step; [defined_step; unfold inspect_block_links; defined_all|]. defined_step.
  - destruct (m_model_boundaries m) as [|mb mbs] eqn:EM; [discriminate|]. unfold brep_boundaries_are_closed. defined_step; [apply defined_queue_model|]. pose proof (queue_model_length a2 H2) as L.
    destruct a2 as [|s q]; [exfalso; cbn in L; apply B; [rewrite EM; discriminate|rewrite EA; discriminate|]; destruct (boundary_surfaces m); [reflexivity|discriminate]|].
    pose proof (sb_boundaries _ _ Hm) as F. unfold fits_32_bits in F. cbn [length] in L. destruct (defined_closed_linked s q) as [D _]; [unfold fits_32_bits; lia|]. defined_step; [exact D|discriminate].
  - cbv zeta. defined_step.
    + apply defined_report; each_check. apply defined_block_count, sane_links_at. assumption.
    + defined_step.
      * defined_step. unfold inspect_block_closedness. defined_step; [apply defined_block_closed|]. cbv zeta. defined_step; [|discriminate]. unfold inspect_block_boundaries, surface_boundaries_are_not_linked_to_another_block_boundary, is_line_incident_to_another_block_boundary_surface.
        repeat first [defined_step | apply defined_each_surface; intros ? | apply defined_each_line; intros ?].
      * made H3. discriminate.
Qed.
Lemma defined_brep_topology : first_edges_are_linked m -> boundaries_have_a_surface m -> defined (inspect_brep_topology tl m).
Proof.
  intros FE B. unfold inspect_brep_topology. cbv zeta. defined_step.
  - apply defined_parallel_caught. repeat (apply Forall_cons; [apply defined_status|]); [apply defined_brep_corners|apply defined_brep_lines, FE|apply defined_brep_surfaces|apply defined_brep_blocks, B|apply Forall_nil].
  - defined_step; [apply defined_wrong_links|discriminate].
Qed.
End Inspect.
