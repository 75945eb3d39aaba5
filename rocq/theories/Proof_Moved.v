(** Moving a model: its topology is the same, but for the points written in messages. *)
From Coq Require Import String Ascii List Arith NArith ZArith Bool Lia.
From Verif Require Import Base BaseFacts Model_Issues Types Model_Colocation Model_Degeneration Model_Intersections Model_Manifold Model_Topology Model_BRep Model_Blocks
  Model_Results Spec_Rename Spec_Moved Proof_Order.
Import ListNotations.
Open Scope list_scope.

(** the unmoved model, whose points are written as their images *)
Definition told_as (text : Point -> string) (m : Model) : Model :=
  mkModel (m_corners m) (m_lines m) (m_surfaces m) (m_blocks m) (m_model_boundaries m) (m_cmvs m) (m_unique_vertex m) (m_boundary_rel m) (m_internal_rel m) (m_missing_exn m)
    (m_uuid_string m) text (m_cmv_string m) (m_cid_string m).
Definition mapped {A B} (h : A -> B) (o : outcome A) : outcome B := let! x := o in Ok (h x).
Lemma bind_mapped : forall A B C (h : A -> B) (o : outcome A) (k : B -> outcome C), bind (mapped h o) k = bind o (fun x => k (h x)).
Proof. intros A B C h [a|e|] k; reflexivity. Qed.
Lemma foldM_mapped : forall A B S (h : A -> B) (F : S -> B -> outcome S) l s, foldM F (map h l) s = foldM (fun s x => F s (h x)) l s.
Proof. intros A B S h F l. induction l as [|x l IH]; intros s; [reflexivity|]. cbn [map foldM]. destruct (F s (h x)); cbn [bind]; [apply IH|reflexivity|reflexivity]. Qed.
Lemma anyM_mapped : forall A B (h : A -> B) (F : B -> outcome bool) l, anyM F (map h l) = anyM (fun x => F (h x)) l.
Proof. intros A B h F l. induction l as [|x l IH]; [reflexivity|]. cbn [map anyM]. rewrite IH. reflexivity. Qed.
Lemma forallb_mapped : forall A B (h : A -> B) (F : B -> bool) l, forallb F (map h l) = forallb (fun x => F (h x)) l.
Proof. intros A B h F l. induction l as [|x l IH]; [reflexivity|]. cbn [map forallb]. rewrite IH. reflexivity. Qed.
Lemma active_moved : forall M (h : M -> M) l, active (map (moved_component h) l) = map (moved_component h) (active l).
Proof. intros M h l. unfold active. induction l as [|c l IH]; [reflexivity|]. cbn [map filter]. cbn [moved_component co_active]. rewrite IH. destruct (co_active c); reflexivity. Qed.
Lemma filter_mapped : forall A B (h : A -> B) (p : B -> bool) l, filter p (map h l) = map h (filter (fun x => p (h x)) l).
Proof. intros A B h p l. induction l as [|x l IH]; [reflexivity|]. cbn [map filter]. rewrite IH. destruct (p (h x)); reflexivity. Qed.
Lemma find_moved : forall M (h : M -> M) id l, find_component id (map (moved_component h) l) = option_map (moved_component h) (find_component id l).
Proof. intros M h id l. induction l as [|c l IH]; [reflexivity|]. cbn [map find_component]. cbn [moved_component co_id]. rewrite IH. destruct (Nat.eqb (co_id c) id); reflexivity. Qed.
Lemma report_vertex_eq : forall l l', length l = length l' -> (forall n uv, nth n l (fun _ => Ok None) uv = nth n l' (fun _ => Ok None) uv) -> forall uv rs, report_vertex l uv rs = report_vertex l' uv rs.
Proof.
  intros l. induction l as [|c l IH]; intros [|c' l'] L E uv rs; cbn in L; try discriminate; [reflexivity|]. destruct rs as [|r rs]; [reflexivity|]. cbn [report_vertex].
  rewrite (E 0 uv : c uv = c' uv). apply bind_eq; [reflexivity|]. intros p. apply bind_eq; [|reflexivity]. apply IH; [congruence|]. intros n. apply (E (S n)).
Qed.
Lemma all_pass_cons : forall c c' l l' uv, c uv = c' uv -> all_pass l uv = all_pass l' uv -> all_pass (c :: l) uv = all_pass (c' :: l') uv.
Proof. intros c c' l l' uv E F. cbn [all_pass]. rewrite E, F. reflexivity. Qed.
Lemma report_cons : forall c c' l l' uv, c uv = c' uv -> (forall rs, report_vertex l uv rs = report_vertex l' uv rs) -> forall rs, report_vertex (c :: l) uv rs = report_vertex (c' :: l') uv rs.
Proof. intros c c' l l' uv E F [|r rs]; [reflexivity|]. cbn [report_vertex]. rewrite E. apply bind_eq; [reflexivity|]. intros p. rewrite F. reflexivity. Qed.
Lemma allM_cons : forall A (c c' : A -> outcome bool) l l' x, c x = c' x -> allM l x = allM l' x -> allM (c :: l) x = allM (c' :: l') x.
Proof. intros A c c' l l' x E F. cbn [allM]. rewrite E, F. reflexivity. Qed.

Section Moving.
Context (g : Point -> Point) (s : Point -> string) (m : Model).
Notation M' := (moved_model g s m).
Notation M := (told_as (fun p => s (g p)) m).

Lemma v_corner : forall id, get_corner M' id = mapped (moved_component (moved_pointset g)) (get_corner M id).
Proof. intros id. unfold get_corner, moved_model, told_as, or_throw. cbn [m_corners m_missing_exn]. rewrite find_moved. destruct (find_component id (m_corners m)); reflexivity. Qed.
Lemma v_line : forall id, get_line M' id = mapped (moved_component (moved_curve g)) (get_line M id).
Proof. intros id. unfold get_line, moved_model, told_as, or_throw. cbn [m_lines m_missing_exn]. rewrite find_moved. destruct (find_component id (m_lines m)); reflexivity. Qed.
Lemma v_surface : forall id, get_surface M' id = mapped (moved_component (moved_surface g)) (get_surface M id).
Proof. intros id. unfold get_surface, moved_model, told_as, or_throw. cbn [m_surfaces m_missing_exn]. rewrite find_moved. destruct (find_component id (m_surfaces m)); reflexivity. Qed.
Lemma v_block : forall id, get_block M' id = mapped (moved_component (moved_solid g)) (get_block M id).
Proof. intros id. unfold get_block, moved_model, told_as, or_throw. cbn [m_blocks m_missing_exn]. rewrite find_moved. destruct (find_component id (m_blocks m)); reflexivity. Qed.
Lemma v_kind_active : forall t id, kind_is_active M' t id = kind_is_active M t id.
Proof. intros [] id; unfold kind_is_active; rewrite ?v_corner, ?v_line, ?v_surface, ?v_block, ?bind_mapped; reflexivity. Qed.
Lemma v_kind_named : forall t id, kind_named M' t id = kind_named M t id.
Proof. intros [] id; unfold kind_named; rewrite ?v_corner, ?v_line, ?v_surface, ?v_block, ?bind_mapped; reflexivity. Qed.
Lemma v_kind_title : forall t id, kind_title M' t id = kind_title M t id.
Proof. intros [] id; unfold kind_title; rewrite ?v_corner, ?v_line, ?v_surface, ?v_block, ?bind_mapped; reflexivity. Qed.
Lemma v_active_of : forall t c, is_active_of M' t c = is_active_of M t c.
Proof. intros t c. unfold is_active_of. rewrite v_kind_active. reflexivity. Qed.
Lemma v_blocks_meshed : brep_blocks_are_meshed M' = brep_blocks_are_meshed M.
Proof. unfold brep_blocks_are_meshed. cbn [moved_model m_blocks told_as]. rewrite forallb_mapped. reflexivity. Qed.
Lemma v_surfaces_meshed : section_surfaces_are_meshed M' = section_surfaces_are_meshed M.
Proof. unfold section_surfaces_are_meshed. cbn [moved_model m_surfaces told_as]. rewrite forallb_mapped. reflexivity. Qed.
Lemma v_component_is_active : forall id, component_is_active M' id = component_is_active M id.
Proof.
  intros id. unfold component_is_active. cbn [moved_model told_as m_corners m_lines m_surfaces m_blocks m_missing_exn]. rewrite !find_moved.
  destruct (find_component id (m_corners m)); [reflexivity|]. destruct (find_component id (m_lines m)); [reflexivity|]. destruct (find_component id (m_surfaces m)); [reflexivity|].
  destruct (find_component id (m_blocks m)); reflexivity.
Qed.

Ltac known := first [rewrite v_active_of | rewrite v_kind_active | rewrite v_kind_named | rewrite v_kind_title | rewrite v_blocks_meshed | rewrite v_surfaces_meshed
  | rewrite v_component_is_active | rewrite v_corner, bind_mapped | rewrite v_line, bind_mapped | rewrite v_surface, bind_mapped | rewrite v_block, bind_mapped].
Ltac step := first
  [ reflexivity
  | known
  | apply bind_eq; [|intros]
  | apply if_eq
  | apply first_some_eq; [reflexivity|intros]
  | apply anyM_eq; [reflexivity|intros]
  | apply foldM_eq; [reflexivity|reflexivity|intros]
  | match goal with |- match ?x with _ => _ end = match ?x with _ => _ end => destruct x end ].
Ltac alike := repeat step.

(** ** Links *)
Lemma v_in_mesh : forall T (h : T -> T) (n : T -> nat) l c, (forall x, n (h x) = n x) -> in_mesh n (map (moved_component h) l) c = in_mesh n l c.
Proof. intros T h n l c E. unfold in_mesh. rewrite find_moved. destruct (find_component (cmv_id c) l); cbn [option_map]; [|reflexivity]. cbn [moved_component co_mesh]. rewrite E. reflexivity. Qed.
Lemma v_exists_section : forall c, cmv_exists_in_section M' c = cmv_exists_in_section M c.
Proof. intros c. unfold cmv_exists_in_section. destruct (cmv_type c); try reflexivity; apply v_in_mesh; intros x; apply map_length. Qed.
Lemma v_exists_brep : forall c, cmv_exists_in_brep M' c = cmv_exists_in_brep M c.
Proof. intros c. unfold cmv_exists_in_brep. destruct (cmv_type c); try apply v_exists_section. apply v_in_mesh; intros x; apply map_length. Qed.
Lemma v_elsewhere : forall uv c, linked_elsewhere M' uv c = linked_elsewhere M uv c.
Proof. intros uv c. unfold linked_elsewhere. rewrite v_component_is_active. reflexivity. Qed.
Lemma v_cmvs_right : forall (ex : Model -> ComponentMeshVertex -> bool) uv, (forall c, ex M' c = ex M c) -> forall l, cmvs_are_right M' ex uv l = cmvs_are_right M ex uv l.
Proof. intros ex uv E l. induction l as [|c l IH]; [reflexivity|]. cbn [cmvs_are_right]. rewrite E, v_elsewhere, IH. reflexivity. Qed.
Lemma v_bijective : forall ex, (forall c, ex M' c = ex M c) -> unique_vertices_are_bijectively_linked M' ex = unique_vertices_are_bijectively_linked M ex.
Proof.
  intros ex E. unfold unique_vertices_are_bijectively_linked. apply bind_eq; [|reflexivity]. apply anyM_eq; [reflexivity|]. intros uv.
  change (component_mesh_vertices M' uv) with (component_mesh_vertices M uv). destruct (component_mesh_vertices M uv); [reflexivity|]. rewrite (v_cmvs_right ex uv E). reflexivity.
Qed.
Lemma v_links : forall ex r, (forall c, ex M' c = ex M c) -> add_unique_vertices_with_wrong_cmv_link M' ex r = add_unique_vertices_with_wrong_cmv_link M ex r.
Proof.
  intros ex r E. unfold add_unique_vertices_with_wrong_cmv_link. apply foldM_eq; [reflexivity|reflexivity|]. intros r0 uv.
  change (component_mesh_vertices M' uv) with (component_mesh_vertices M uv). destruct (component_mesh_vertices M uv) as [|c l]; [reflexivity|]. apply foldM_eq; [reflexivity|reflexivity|].
  intros r1 c1. unfold add_wrong_cmv_link. cbv zeta. rewrite E, v_elsewhere. reflexivity.
Qed.
Lemma v_meshed_linked : forall T (h : T -> T) t (me : T -> bool) (n : T -> nat) l, (forall x, me (h x) = me x) -> (forall x, n (h x) = n x) ->
  meshed_components_are_linked t me n M' (map (moved_component h) l) = meshed_components_are_linked t me n M l.
Proof.
  intros T h t me n l E1 E2. unfold meshed_components_are_linked. rewrite active_moved, forallb_mapped. induction (active l) as [|c k IH]; [reflexivity|]. cbn [forallb moved_component co_mesh co_id].
  rewrite E1, E2. match goal with |- (?a && _)%bool = _ => exact (f_equal (andb a) IH) end.
Qed.
Lemma v_corner_meshed : forall x, corner_is_meshed (moved_pointset g x) = corner_is_meshed x.
Proof. intros x. unfold corner_is_meshed, moved_pointset. cbn [ps_points]. rewrite map_length. reflexivity. Qed.
Lemma v_line_meshed : forall x, line_is_meshed (moved_curve g x) = line_is_meshed x.
Proof. intros x. unfold line_is_meshed, moved_curve. cbn [ec_points ec_edges]. rewrite map_length. reflexivity. Qed.
Lemma v_surface_meshed : forall x, surface_is_meshed (moved_surface g x) = surface_is_meshed x.
Proof. intros x. unfold surface_is_meshed. change (nb_polygons (moved_surface g x)) with (nb_polygons x). unfold moved_surface. cbn [sm_points]. rewrite map_length. reflexivity. Qed.
Lemma v_block_meshed : forall x, block_is_meshed (moved_solid g x) = block_is_meshed x.
Proof. intros x. unfold block_is_meshed. change (nb_polyhedra (moved_solid g x)) with (nb_polyhedra x). unfold moved_solid. cbn [so_points]. rewrite map_length. reflexivity. Qed.
Lemma v_section_linked : section_meshed_components_are_linked M' = section_meshed_components_are_linked M.
Proof.
  unfold section_meshed_components_are_linked. cbn [moved_model told_as m_corners m_lines m_surfaces].
  rewrite (v_meshed_linked _ (moved_pointset g)) by first [apply v_corner_meshed | intros x; apply map_length].
  rewrite (v_meshed_linked _ (moved_curve g)) by first [apply v_line_meshed | intros x; apply map_length].
  rewrite (v_meshed_linked _ (moved_surface g)) by first [apply v_surface_meshed | intros x; apply map_length]. reflexivity.
Qed.
Lemma v_components : forall T (h : T -> T) (get : Model -> uuid -> outcome (Component T)) kind suffix t (me : T -> bool) (n : T -> nat) skip l d d',
  (forall id, get M' id = mapped (moved_component h) (get M id)) -> (forall x, me (h x) = me x) -> (forall x, n (h x) = n x) ->
  inspect_components get kind suffix t me n skip M' (map (moved_component h) l) d d' = inspect_components get kind suffix t me n skip M l d d'.
Proof.
  intros T h get kind suffix t me n skip l d d' G E1 E2. unfold inspect_components. rewrite active_moved, foldM_mapped. apply foldM_eq; [reflexivity|reflexivity|]. intros a c.
  unfold inspect_component. cbn [moved_component co_id co_mesh co_name]. rewrite G, bind_mapped. apply bind_eq; [reflexivity|]. intros x. cbn [moved_component co_mesh]. rewrite E1, E2. reflexivity.
Qed.
Lemma v_report : forall l l' d, (forall uv rs, report_vertex l uv rs = report_vertex l' uv rs) -> report_vertices M' l d = report_vertices M l' d.
Proof. intros l l' d E. unfold report_vertices. apply foldM_eq; [reflexivity|reflexivity|]. intros rs uv. apply E. Qed.
Lemma v_every : forall l l', (forall uv, allM l uv = allM l' uv) -> every_vertex M' l = every_vertex M l'.
Proof. intros l l' E. unfold every_vertex. apply bind_eq; [|reflexivity]. apply anyM_eq; [reflexivity|]. intros uv. rewrite E. reflexivity. Qed.

(** ** Corners *)
Lemma v_multiple_corners : forall uv, unique_vertex_has_multiple_corners M' uv = unique_vertex_has_multiple_corners M uv.
Proof.
  intros uv. unfold unique_vertex_has_multiple_corners. apply bind_eq; [|reflexivity]. change (component_mesh_vertices M' uv) with (component_mesh_vertices M uv). generalize false.
  induction (component_mesh_vertices M uv) as [|c l IH]; intros b; [reflexivity|]. cbn [second_active_corner]. rewrite v_active_of, !IH. reflexivity.
Qed.
Lemma v_neither : forall uv, corner_is_not_internal_nor_boundary M' uv = corner_is_not_internal_nor_boundary M uv.
Proof. intros uv. unfold corner_is_not_internal_nor_boundary. alike. Qed.
Lemma v_multiple_embeddings : forall uv, corner_has_multiple_embeddings M' uv = corner_has_multiple_embeddings M uv.
Proof. intros uv. unfold corner_has_multiple_embeddings. alike. Qed.
Lemma v_section_not_boundary : forall uv, section_corner_is_part_of_line_but_not_boundary M' uv = section_corner_is_part_of_line_but_not_boundary M uv.
Proof. intros uv. unfold section_corner_is_part_of_line_but_not_boundary. alike. Qed.
Lemma v_section_corner : forall uv, section_corner_topology_is_valid M' uv = section_corner_topology_is_valid M uv.
Proof.
  intros uv. unfold section_corner_topology_is_valid. change (component_mesh_vertices M' uv) with (component_mesh_vertices M uv). generalize (component_mesh_vertices M uv) at 1 3. generalize false.
  induction (component_mesh_vertices M uv) as [|c l IH]; intros b k; [reflexivity|]. cbn [section_corner_loop]. rewrite v_active_of, !IH. reflexivity.
Qed.
Lemma v_section_corners : section_inspect_corners_topology M' = section_inspect_corners_topology M.
Proof.
  unfold section_inspect_corners_topology. apply bind_eq; [apply (v_components _ (moved_pointset g)); [apply v_corner|apply v_corner_meshed|intros x; apply map_length]|]. intros cs.
  apply bind_eq; [|reflexivity]. apply v_report. intros uv. repeat apply report_cons; [apply v_multiple_corners|apply v_multiple_embeddings|apply v_neither|apply v_section_not_boundary|reflexivity].
Qed.

(** ** Lines of a Section *)
Lemma v_section_relationships : forall uv, section_line_wrong_relationships M' uv = section_line_wrong_relationships M uv.
Proof. intros uv. unfold section_line_wrong_relationships. alike. Qed.
Lemma v_section_embedding : forall uv l e, section_embedding_check M' uv l e = section_embedding_check M uv l e.
Proof. intros uv l e. unfold section_embedding_check. alike. Qed.
Lemma v_section_embedded : forall uv, section_invalid_embedded_line M' uv = section_invalid_embedded_line M uv.
Proof.
  intros uv. unfold section_invalid_embedded_line. change (component_mesh_vertices M' uv) with (component_mesh_vertices M uv). induction (component_mesh_vertices M uv) as [|c l IH]; [reflexivity|].
  cbn [section_embedded_loop]. rewrite IH. rewrite v_active_of, v_kind_named. apply bind_eq; [reflexivity|]. intros a. apply if_eq; [reflexivity|reflexivity|]. apply if_eq; [reflexivity|reflexivity|].
  apply if_eq; [reflexivity|reflexivity|]. apply if_eq; [reflexivity|reflexivity|]. apply bind_eq; [|reflexivity]. apply first_some_eq; [reflexivity|]. apply v_section_embedding.
Qed.
Lemma v_section_single : forall uv, section_invalid_single_line M' uv = section_invalid_single_line M uv.
Proof. intros uv. unfold section_invalid_single_line. change (components_uuids M' uv) with (components_uuids M uv). cbv zeta. alike. Qed.
Lemma v_count_lines : forall l n b, count_lines_and_corner M' l n b = count_lines_and_corner M l n b.
Proof. intros l. induction l as [|c l IH]; intros n b; [reflexivity|]. cbn [count_lines_and_corner]. rewrite v_active_of, !IH. reflexivity. Qed.
Lemma v_not_corner : forall uv, section_lines_but_not_corner M' uv = section_lines_but_not_corner M uv.
Proof. intros uv. unfold section_lines_but_not_corner. rewrite v_count_lines. reflexivity. Qed.
Lemma v_section_line : forall uv, section_lines_topology_is_valid M' uv = section_lines_topology_is_valid M uv.
Proof.
  intros uv. unfold section_lines_topology_is_valid. apply bind_eq; [apply anyM_eq; [reflexivity|intros c; apply v_active_of]|]. intros b. apply if_eq; [reflexivity|reflexivity|].
  repeat apply all_pass_cons; [apply v_section_relationships|apply v_section_embedded|apply v_section_single|apply v_not_corner|reflexivity].
Qed.
Lemma v_section_lines : section_inspect_lines_topology M' = section_inspect_lines_topology M.
Proof.
  unfold section_inspect_lines_topology. apply bind_eq; [apply (v_components _ (moved_curve g)); [apply v_line|apply v_line_meshed|intros x; apply map_length]|]. intros cs.
  apply bind_eq; [|reflexivity]. apply v_report. intros uv. repeat apply report_cons; [apply v_section_relationships|apply v_section_embedded|apply v_section_single|apply v_not_corner|reflexivity].
Qed.

(** ** Surfaces of a Section *)
Lemma v_section_border : forall uv, section_line_not_on_surface_border M' uv = section_line_not_on_surface_border M uv.
Proof. intros uv. unfold section_line_not_on_surface_border. alike. Qed.
Lemma v_section_surface : forall uv, section_vertex_surfaces_topology_is_valid M' uv = section_vertex_surfaces_topology_is_valid M uv.
Proof.
  intros uv. unfold section_vertex_surfaces_topology_is_valid. change (component_mesh_vertices M' uv) with (component_mesh_vertices M uv). induction (component_mesh_vertices M uv) as [|c l IH]; [reflexivity|].
  cbn [section_surfaces_loop]. rewrite v_active_of, IH. apply bind_eq; [reflexivity|]. intros a. apply if_eq; [reflexivity|reflexivity|]. apply bind_eq; [|reflexivity].
  repeat apply all_pass_cons; [reflexivity|apply v_section_border|reflexivity].
Qed.
Lemma v_section_surfaces : section_inspect_surfaces M' = section_inspect_surfaces M.
Proof.
  unfold section_inspect_surfaces. apply bind_eq; [apply (v_components _ (moved_surface g)); [apply v_surface|apply v_surface_meshed|intros x; apply map_length]|]. intros cs.
  apply bind_eq; [|reflexivity]. apply v_report. intros uv. repeat apply report_cons; [reflexivity|apply v_section_border|reflexivity].
Qed.
Lemma v_section_topology : inspect_section_topology M' = inspect_section_topology M.
Proof.
  unfold inspect_section_topology. cbv zeta. rewrite v_section_corners, v_section_lines, v_section_surfaces. apply bind_eq; [reflexivity|]. intros _.
  rewrite (v_links _ _ v_exists_section). reflexivity.
Qed.
Lemma v_section_valid : section_topology_is_valid M' = section_topology_is_valid M.
Proof.
  unfold section_topology_is_valid. rewrite v_section_linked, (v_bijective _ v_exists_section). apply if_eq; [reflexivity|reflexivity|]. apply if_eq; [reflexivity|reflexivity|].
  apply bind_eq; [reflexivity|]. intros b. apply if_eq; [reflexivity|reflexivity|]. apply v_every. intros uv. repeat apply allM_cons; [apply v_section_corner|apply v_section_line|apply v_section_surface|reflexivity].
Qed.

(** ** BRep: corners *)
Lemma v_multiply_embedded : forall uv, corner_is_multiply_embedded M' uv = corner_is_multiply_embedded M uv.
Proof. intros uv. unfold corner_is_multiply_embedded. alike. Qed.
Lemma v_brep_not_boundary : forall uv, brep_corner_is_part_of_line_but_not_boundary M' uv = brep_corner_is_part_of_line_but_not_boundary M uv.
Proof. intros uv. unfold brep_corner_is_part_of_line_but_not_boundary. cbv zeta. alike. Qed.
Lemma v_brep_corner : forall uv, brep_corner_topology_is_valid M' uv = brep_corner_topology_is_valid M uv.
Proof.
  intros uv. unfold brep_corner_topology_is_valid. apply bind_eq.
  - change (component_mesh_vertices M' uv) with (component_mesh_vertices M uv). generalize false. induction (component_mesh_vertices M uv) as [|c l IH]; intros b; [reflexivity|].
    cbn [brep_corner_loop]. rewrite v_active_of, !IH. reflexivity.
  - intros b. apply if_eq; [reflexivity|reflexivity|]. repeat apply all_pass_cons; [apply v_multiply_embedded|apply v_brep_not_boundary|reflexivity].
Qed.
Lemma v_brep_corners : brep_inspect_corners_topology M' = brep_inspect_corners_topology M.
Proof.
  unfold brep_inspect_corners_topology. apply bind_eq; [apply (v_components _ (moved_pointset g)); [apply v_corner|apply v_corner_meshed|intros x; apply map_length]|]. intros cs.
  apply bind_eq; [|reflexivity]. apply v_report. intros uv. repeat apply report_cons; [apply v_multiple_corners|apply v_multiply_embedded|apply v_neither|apply v_brep_not_boundary|reflexivity].
Qed.

(** ** BRep: lines *)
Context (tl tl' : TopoLookup) (TF : topo_follows g tl tl').
Lemma v_unique : forall c vs, unique_vertices M' c vs = unique_vertices M c vs.
Proof. intros c vs. induction vs as [|v vs IH]; [reflexivity|]. cbn [unique_vertices]. rewrite IH. reflexivity. Qed.
Lemma v_mesh_edges : forall l e, component_mesh_edges tl' M' (moved_component (moved_curve g) l) e = component_mesh_edges tl M l e.
Proof.
  intros l e. unfold component_mesh_edges. cbn [moved_component moved_curve co_mesh ec_edges co_id]. destruct (nth_error (ec_edges (co_mesh l)) e) as [[v0 v1]|]; [|reflexivity].
  rewrite v_unique. destruct (unique_vertices M (mkCID LineT (co_id l)) [v0; v1]) as [[|a [|b [|]]]|]; try reflexivity. rewrite (tf_edges g tl tl' TF). reflexivity.
Qed.
Lemma v_mesh_polygons : forall c p, component_mesh_polygons tl' M' (moved_component (moved_surface g) c) p = component_mesh_polygons tl M c p.
Proof.
  intros c p. unfold component_mesh_polygons. cbn [moved_component co_mesh co_id]. change (polygon_vertices (moved_surface g (co_mesh c)) p) with (polygon_vertices (co_mesh c) p). rewrite v_unique.
  destruct (unique_vertices M (mkCID SurfaceT (co_id c)) (polygon_vertices (co_mesh c) p)); [|reflexivity]. rewrite (tf_polygon_blocks g tl tl' TF). reflexivity.
Qed.
Lemma v_brep_embedding : forall uv l e, brep_embedding_check M' uv l e = brep_embedding_check M uv l e.
Proof. intros uv l e. unfold brep_embedding_check. alike. Qed.
Lemma v_brep_embedded : forall uv, brep_invalid_embedded_line M' uv = brep_invalid_embedded_line M uv.
Proof. intros uv. unfold brep_invalid_embedded_line. alike. Qed.
Lemma v_brep_single : forall uv, brep_invalid_single_line M' uv = brep_invalid_single_line M uv.
Proof.
  intros uv. unfold brep_invalid_single_line. cbv zeta.
  change (components_uuids M' uv) with (components_uuids M uv). alike.
Qed.
Lemma v_brep_line_relationships : forall uv l cme, brep_line_relationships M' uv l cme = brep_line_relationships M uv l cme.
Proof. intros uv l cme. unfold brep_line_relationships. change (embeddings_of M' SurfaceT l) with (embeddings_of M SurfaceT l). change (incidences M' l) with (incidences M l). alike. Qed.
Lemma v_brep_wrong_relationships : forall uv, brep_line_wrong_relationships tl' M' uv = brep_line_wrong_relationships tl M uv.
Proof.
  intros uv. unfold brep_line_wrong_relationships. apply first_some_eq; [reflexivity|]. intros c. rewrite v_active_of. apply bind_eq; [reflexivity|]. intros a. apply if_eq; [reflexivity|reflexivity|].
  rewrite v_line, bind_mapped. apply bind_eq; [reflexivity|]. intros l. apply if_eq; [reflexivity|reflexivity|]. apply bind_eq; [apply v_mesh_edges|]. intros cme. apply v_brep_line_relationships.
Qed.
Lemma v_brep_not_corner : forall uv, brep_lines_but_not_corner M' uv = brep_lines_but_not_corner M uv.
Proof. exact v_not_corner. Qed.
Lemma v_line_edges : forall l e, line_edge_has_wrong_component_edges_around tl' M' (moved_component (moved_curve g) l) e = line_edge_has_wrong_component_edges_around tl M l e.
Proof.
  intros l e. unfold line_edge_has_wrong_component_edges_around. cbv zeta. rewrite v_mesh_edges. cbn [moved_component co_id co_name].
  change (embeddings_of M' SurfaceT (co_id l)) with (embeddings_of M SurfaceT (co_id l)). change (embeddings_of M' BlockT (co_id l)) with (embeddings_of M BlockT (co_id l)).
  change (incidences M' (co_id l)) with (incidences M (co_id l)). alike.
Qed.
Lemma v_brep_line : forall uv, brep_lines_topology_is_valid tl' M' uv = brep_lines_topology_is_valid tl M uv.
Proof.
  intros uv. unfold brep_lines_topology_is_valid. apply bind_eq; [apply anyM_eq; [reflexivity|intros c; apply v_active_of]|]. intros b. apply if_eq; [reflexivity|reflexivity|].
  repeat apply all_pass_cons; [apply v_brep_embedded|apply v_brep_single|apply v_brep_wrong_relationships|apply v_brep_not_corner|reflexivity].
Qed.
Lemma v_elements : forall T (h : T -> T) (get : Model -> uuid -> outcome (Component T)) kind t (me : T -> bool) (n ne : T -> nat) en check check' l d1 d2 d3,
  (forall id, get M' id = mapped (moved_component h) (get M id)) -> (forall x, me (h x) = me x) -> (forall x, n (h x) = n x) -> (forall x, ne (h x) = ne x) ->
  (forall c e, check' (moved_component h c) e = check c e) ->
  inspect_elements get kind t me n ne en check' M' (map (moved_component h) l) d1 d2 d3 = inspect_elements get kind t me n ne en check M l d1 d2 d3.
Proof.
  intros T h get kind t me n ne en check check' l d1 d2 d3 G E1 E2 E3 E4. unfold inspect_elements. rewrite active_moved, foldM_mapped. apply foldM_eq; [reflexivity|reflexivity|]. intros a c.
  unfold inspect_elements_of. cbv zeta. cbn [moved_component co_id co_mesh co_name]. rewrite G, bind_mapped. apply bind_eq; [reflexivity|]. intros x. cbn [moved_component co_mesh]. rewrite E1, E2, E3.
  apply if_eq; [reflexivity|reflexivity|]. apply if_eq; [reflexivity|reflexivity|]. apply bind_eq; [|reflexivity]. apply foldM_eq; [reflexivity|reflexivity|]. intros w e.
  change (mkComponent (co_id c) (co_name c) (co_active c) (h (co_mesh c))) with (moved_component h c). rewrite E4. reflexivity.
Qed.
Lemma v_brep_lines : brep_inspect_lines_topology tl' M' = brep_inspect_lines_topology tl M.
Proof.
  unfold brep_inspect_lines_topology. apply bind_eq.
  - apply (v_elements _ (moved_curve g)); [apply v_line|apply v_line_meshed|intros x; apply map_length|reflexivity|apply v_line_edges].
  - intros cs. apply bind_eq; [|reflexivity]. apply v_report. intros uv.
    repeat apply report_cons; [apply v_brep_embedded|apply v_brep_wrong_relationships|apply v_brep_single|apply v_brep_not_corner|reflexivity].
Qed.

(** ** BRep: surfaces *)
Lemma v_brep_embedded_surface : forall uv, brep_invalid_embedded_surface M' uv = brep_invalid_embedded_surface M uv.
Proof. intros uv. unfold brep_invalid_embedded_surface. alike. Qed.
Lemma v_count_active : forall t ids, count_active M' t ids = count_active M t ids.
Proof. intros t ids. unfold count_active. alike. Qed.
Lemma v_internal_corners : forall uv su cmvs found, internal_corners_loop M' uv su found cmvs = internal_corners_loop M uv su found cmvs.
Proof.
  intros uv su cmvs. induction cmvs as [|c l IH]; intros found; [reflexivity|]. cbn [internal_corners_loop]. rewrite !IH. apply if_eq; [reflexivity|reflexivity|].
  rewrite v_corner, bind_mapped. apply bind_eq; [reflexivity|]. intros k. apply bind_eq.
  - apply first_some_eq; [reflexivity|]. intros u. rewrite v_surface, bind_mapped. apply bind_eq; [reflexivity|]. intros x. apply if_eq; [reflexivity| |reflexivity].
    cbn [moved_component moved_pointset co_mesh ps_points]. rewrite nth_error_map. destruct (nth_error (ps_points (co_mesh k)) (cmv_vertex c)); reflexivity.
  - reflexivity.
Qed.
Lemma v_multiple_surfaces : forall uv, brep_invalid_multiple_surfaces M' uv = brep_invalid_multiple_surfaces M uv.
Proof.
  intros uv. unfold brep_invalid_multiple_surfaces. cbv zeta. rewrite v_count_active. apply bind_eq; [reflexivity|]. intros n. apply if_eq; [reflexivity|reflexivity|].
  change (components_uuids M' uv) with (components_uuids M uv). destruct (components_uuids M uv LineT) as [|a [|b l]]; [apply v_internal_corners|reflexivity|reflexivity].
Qed.
Lemma v_brep_border : forall uv, brep_line_not_on_surface_border M' uv = brep_line_not_on_surface_border M uv.
Proof.
  intros uv. unfold brep_line_not_on_surface_border. change (components_uuids M' uv) with (components_uuids M uv). destruct (components_uuids M uv LineT) as [|a l]; [reflexivity|]. alike.
Qed.
Lemma v_facets : forall c p, surface_facet_has_wrong_component_facets_around tl' M' (moved_component (moved_surface g) c) p = surface_facet_has_wrong_component_facets_around tl M c p.
Proof.
  intros c p. unfold surface_facet_has_wrong_component_facets_around. rewrite v_mesh_polygons. apply bind_eq; [reflexivity|]. intros cmp. cbv zeta. cbn [moved_component co_id co_name]. alike.
Qed.
Lemma v_brep_surface : forall uv, brep_surfaces_topology_is_valid M' uv = brep_surfaces_topology_is_valid M uv.
Proof.
  intros uv. unfold brep_surfaces_topology_is_valid. apply bind_eq; [apply anyM_eq; [reflexivity|intros c; apply v_active_of]|]. intros b. apply if_eq; [reflexivity|reflexivity|].
  repeat apply all_pass_cons; [apply v_brep_embedded_surface|apply v_multiple_surfaces|apply v_brep_border|reflexivity].
Qed.
Lemma v_brep_surfaces : brep_inspect_surfaces_topology tl' M' = brep_inspect_surfaces_topology tl M.
Proof.
  unfold brep_inspect_surfaces_topology. apply bind_eq.
  - rewrite v_blocks_meshed. apply (v_elements _ (moved_surface g)); [apply v_surface|apply v_surface_meshed|intros x; apply map_length|reflexivity|apply v_facets].
  - intros cs. apply bind_eq; [|reflexivity]. apply v_report. intros uv. repeat apply report_cons; [apply v_brep_embedded_surface|apply v_multiple_surfaces|apply v_brep_border|reflexivity].
Qed.

(** ** BRep: blocks *)
Lemma v_each_line : forall B (f f' : Component EdgedCurve -> outcome B) e, (forall l, f' (moved_component (moved_curve g) l) = f l) -> each_line M' f' e = each_line M f e.
Proof. intros B f f' e E. unfold each_line. rewrite v_line, bind_mapped. apply bind_eq; [reflexivity|exact E]. Qed.
Lemma v_each_surface : forall B (f f' : Component SurfaceMesh -> outcome B) e, (forall l, f' (moved_component (moved_surface g) l) = f l) -> each_surface M' f' e = each_surface M f e.
Proof. intros B f f' e E. unfold each_surface. rewrite v_surface, bind_mapped. apply bind_eq; [reflexivity|exact E]. Qed.
Lemma v_incident_elsewhere : forall l b su, is_line_incident_to_another_block_boundary_surface M' l b su = is_line_incident_to_another_block_boundary_surface M l b su.
Proof. intros l b su. unfold is_line_incident_to_another_block_boundary_surface. apply anyM_eq; [reflexivity|]. intros e. apply v_each_surface. reflexivity. Qed.
Lemma v_free_boundary : forall su b, surface_boundaries_are_not_linked_to_another_block_boundary M' su b = surface_boundaries_are_not_linked_to_another_block_boundary M su b.
Proof.
  intros su b. unfold surface_boundaries_are_not_linked_to_another_block_boundary. apply anyM_eq; [reflexivity|]. intros e. apply v_each_line. intros l. cbn [moved_component co_id].
  rewrite v_incident_elsewhere. reflexivity.
Qed.
Lemma v_graph : create_graph M' = create_graph M.
Proof.
  unfold create_graph. cbn [moved_model m_lines]. rewrite foldM_mapped. apply foldM_eq; [reflexivity|reflexivity|]. intros gr l. apply foldM_eq; [reflexivity|reflexivity|]. intros gr2 e.
  apply v_each_surface. intros c. apply foldM_eq; [reflexivity|reflexivity|]. intros gr3 e2. apply v_each_line. reflexivity.
Qed.
Lemma v_not_boundary_surfaces : find_not_boundary_surfaces M' = find_not_boundary_surfaces M.
Proof. unfold find_not_boundary_surfaces. rewrite v_graph. apply bind_eq; [reflexivity|]. intros gr. cbn [moved_model m_lines]. rewrite map_map. reflexivity. Qed.
Lemma v_dangling : forall l, find_dangling_surfaces tl' M' l = find_dangling_surfaces tl M l.
Proof.
  intros l. unfold find_dangling_surfaces. apply foldM_eq; [reflexivity|reflexivity|]. intros d u. rewrite v_surface, bind_mapped. apply bind_eq; [reflexivity|]. intros c. apply if_eq; [reflexivity|reflexivity|].
  apply bind_eq; [|reflexivity]. cbn [moved_model m_blocks]. rewrite anyM_mapped. apply anyM_eq; [reflexivity|]. intros b. apply (tf_inside_block g tl tl' TF).
Qed.
Lemma v_linked_processed : forall u p, find_linked_processed_surface M' u p = find_linked_processed_surface M u p.
Proof.
  intros u p. unfold find_linked_processed_surface. rewrite v_surface, bind_mapped. apply bind_eq; [reflexivity|]. intros c. apply anyM_eq; [reflexivity|]. intros e. apply v_each_line. intros l.
  apply anyM_eq; [reflexivity|]. intros e2. apply v_each_surface. reflexivity.
Qed.
Lemma v_linked_loop : forall fuel p q k, linked_loop fuel M' p q k = linked_loop fuel M p q k.
Proof.
  intros fuel. induction fuel as [|fuel IH]; intros p q k; [reflexivity|]. cbn [linked_loop]. destruct q as [|u q]; [reflexivity|]. rewrite v_linked_processed, IH. apply if_eq; [reflexivity|reflexivity|].
  apply if_eq; [reflexivity|reflexivity|]. apply bind_eq; [reflexivity|]. intros b. rewrite !IH. reflexivity.
Qed.
Lemma v_closed_linked : forall l, closed_linked_surfaces M' l = closed_linked_surfaces M l.
Proof. intros [|u l]; [reflexivity|]. apply v_linked_loop. Qed.
Lemma v_block_queue : forall b, queue_with_block_boundaries M' b = queue_with_block_boundaries M b.
Proof. intros b. unfold queue_with_block_boundaries. apply foldM_eq; [reflexivity|reflexivity|]. intros q e. apply v_each_surface. reflexivity. Qed.
Lemma v_model_queue : queue_with_model_boundaries M' = queue_with_model_boundaries M.
Proof. unfold queue_with_model_boundaries. alike. Qed.
Lemma v_linked_parts : forall fuel l, linked_parts fuel M' l = linked_parts fuel M l.
Proof. intros fuel. induction fuel as [|fuel IH]; intros [|u l]; try reflexivity. cbn [linked_parts]. rewrite v_closed_linked. apply bind_eq; [reflexivity|]. intros r. rewrite IH. reflexivity. Qed.
Lemma v_enclosing : forall parts, enclosing_surface_list tl' parts = enclosing_surface_list tl parts.
Proof.
  intros parts. unfold enclosing_surface_list. apply f_equal.
  assert (E : forall (F F' : nat * list uuid -> bool) l, (forall x, F x = F' x) -> find F l = find F' l).
  { intros F F' l H. induction l as [|x l IH]; [reflexivity|]. cbn [find]. rewrite H, IH. reflexivity. }
  apply E. intros p. generalize (enum parts). intros k. induction k as [|q k IH]; [reflexivity|]. cbn [forallb]. rewrite IH, (tf_box g tl tl' TF). reflexivity.
Qed.
Definition moved_state {A} (st : (list (option nat) * list Point) * A) : (list (option nat) * list Point) * A := ((fst (fst st), map g (snd (fst st))), snd st).
Lemma v_fuse_vertex : forall c st v, fuse_vertex M' (moved_component (moved_surface g) c) (moved_state st) v = mapped moved_state (fuse_vertex M c st v).
Proof.
  intros c st v. unfold fuse_vertex, moved_state. cbv zeta. cbn [moved_component moved_surface co_id co_mesh sm_points fst snd].
  change (m_unique_vertex M' (mkCMV (mkCID SurfaceT (co_id c)) v)) with (m_unique_vertex M (mkCMV (mkCID SurfaceT (co_id c)) v)).
  destruct (position_of (m_unique_vertex M (mkCMV (mkCID SurfaceT (co_id c)) v)) (fst (fst st))); [reflexivity|]. rewrite nth_error_map, map_length.
  destruct (nth_error (sm_points (co_mesh c)) v); cbn [option_map]; [|reflexivity]. unfold mapped. cbn [bind fst snd]. rewrite map_app. reflexivity.
Qed.
Lemma foldM_moved : forall S A (h : S -> S) (F F' : S -> A -> outcome S) l, (forall st x, F' (h st) x = mapped h (F st x)) -> forall st, foldM F' l (h st) = mapped h (foldM F l st).
Proof.
  intros S A h F F' l E. induction l as [|x l IH]; intros st; [reflexivity|]. cbn [foldM]. rewrite E. destruct (F st x); cbn [bind mapped]; [apply IH|reflexivity|reflexivity].
Qed.
Lemma v_fuse_polygon : forall c st vs, fuse_polygon M' (moved_component (moved_surface g) c) (moved_state st) vs = mapped moved_state (fuse_polygon M c st vs).
Proof.
  intros c st vs. unfold fuse_polygon. change (fst (moved_state st), @nil nat) with (moved_state (fst st, @nil nat)). rewrite (foldM_moved _ _ moved_state (fuse_vertex M c)) by apply v_fuse_vertex.
  destruct (foldM (fuse_vertex M c) vs (fst st, [])); reflexivity.
Qed.
Lemma v_fuse : forall l, fuse_brep_surfaces_from_list M' l = mapped (moved_fused g) (fuse_brep_surfaces_from_list M l).
Proof.
  intros l. unfold fuse_brep_surfaces_from_list.
  change (@nil (option nat), @nil Point, @nil (list nat)) with (moved_state (@nil (option nat), @nil Point, @nil (list nat))) at 1.
  rewrite (foldM_moved _ _ moved_state (fun st u => let! surface := get_surface M u in
    foldM (fun st p => fuse_polygon M surface st (polygon_vertices (co_mesh surface) p)) (Range (nb_polygons (co_mesh surface))) st)).
  - match goal with |- bind (mapped _ ?x) _ = mapped _ (bind ?x _) => destruct x; reflexivity end.
  - intros st u. rewrite v_surface, bind_mapped. destruct (get_surface M u) as [c|e|]; [|reflexivity|reflexivity]. cbn [bind].
    apply (foldM_moved _ _ moved_state (fun st p => fuse_polygon M c st (polygon_vertices (co_mesh c) p))). intros st2 p. apply v_fuse_polygon.
Qed.
Lemma v_outside : forall f p, point_is_outside tl' (moved_fused g f) (g p) = point_is_outside tl f p.
Proof. intros f p. unfold point_is_outside. rewrite (tf_inside_closed g tl tl' TF). reflexivity. Qed.
Lemma v_block_closed : forall b, block_boundaries_are_closed tl' M' b = block_boundaries_are_closed tl M b.
Proof.
  intros b. unfold block_boundaries_are_closed. rewrite v_block_queue. apply bind_eq; [reflexivity|]. intros q. rewrite v_linked_parts. apply bind_eq; [reflexivity|]. intros parts.
  apply if_eq; [reflexivity|reflexivity|]. rewrite v_enclosing. destruct (enclosing_surface_list tl parts) as [i|]; [|reflexivity]. rewrite v_fuse, bind_mapped. apply bind_eq; [reflexivity|]. intros en.
  apply bind_eq; [|reflexivity]. apply anyM_eq; [reflexivity|]. intros p. apply if_eq; [reflexivity|reflexivity|]. apply anyM_eq; [reflexivity|]. intros u. rewrite v_surface, bind_mapped.
  apply bind_eq; [reflexivity|]. intros c. cbn [moved_component moved_surface co_mesh sm_points]. rewrite anyM_mapped. apply anyM_eq; [reflexivity|]. intros x. apply v_outside.
Qed.
Lemma v_boundaries_closed : brep_boundaries_are_closed M' = brep_boundaries_are_closed M.
Proof. unfold brep_boundaries_are_closed. rewrite v_model_queue. apply bind_eq; [reflexivity|]. intros q. rewrite v_closed_linked. reflexivity. Qed.
Lemma v_on_boundary : forall l b, line_on_block_boundary_count M' l b = line_on_block_boundary_count M l b.
Proof. intros l b. unfold line_on_block_boundary_count. apply bind_eq; [|reflexivity]. apply foldM_eq; [reflexivity|reflexivity|]. intros n e. apply v_each_surface. reflexivity. Qed.
Lemma v_inside_block : forall l b, line_is_inside_block M' l b = line_is_inside_block M l b.
Proof. intros l b. unfold line_is_inside_block. apply bind_eq; [|reflexivity]. apply anyM_eq; [reflexivity|]. intros e. apply v_each_surface. reflexivity. Qed.
Lemma v_count_line : forall b k c, count_line_cmv M' b k c = count_line_cmv M b k c.
Proof.
  intros b k c. unfold count_line_cmv. rewrite v_line, bind_mapped. apply bind_eq; [reflexivity|]. intros l. cbn [moved_component co_id]. apply if_eq; [reflexivity|reflexivity|]. rewrite v_on_boundary.
  apply bind_eq; [reflexivity|]. intros n. apply if_eq; [reflexivity|reflexivity|]. apply if_eq; [reflexivity| |].
  - apply bind_eq; [|reflexivity]. apply anyM_eq; [reflexivity|]. intros e. apply v_each_surface. reflexivity.
  - rewrite v_inside_block. reflexivity.
Qed.
Lemma v_count_surface : forall b k c, count_surface_cmv M' b k c = count_surface_cmv M b k c.
Proof. intros b k c. unfold count_surface_cmv. rewrite v_surface, bind_mapped. reflexivity. Qed.
Lemma v_position : forall l, first_block_position M' l = first_block_position M l.
Proof.
  intros [|c l]; [reflexivity|]. cbn [first_block_position]. rewrite v_block, bind_mapped. apply bind_eq; [reflexivity|]. intros b. cbn [moved_component moved_solid co_mesh so_points]. rewrite nth_error_map.
  destruct (nth_error (so_points (co_mesh b)) (cmv_vertex c)); reflexivity.
Qed.
Lemma v_expected : forall uv b, expected_block_cmvs_and_error M' uv b = expected_block_cmvs_and_error M uv b.
Proof.
  intros uv b. unfold expected_block_cmvs_and_error. cbv zeta. rewrite v_block, bind_mapped. apply bind_eq; [reflexivity|]. intros k. cbn [moved_component co_id co_name].
  apply bind_eq; [apply foldM_eq; [reflexivity|reflexivity|intros; apply v_count_surface]|]. intros ns. apply bind_eq; [apply foldM_eq; [reflexivity|reflexivity|intros; apply v_count_line]|]. intros kc.
  rewrite v_position. reflexivity.
Qed.
Lemma v_two_blocks : forall uv, unique_vertex_is_part_of_two_blocks_and_no_boundary_surface M' uv = unique_vertex_is_part_of_two_blocks_and_no_boundary_surface M uv.
Proof.
  intros uv. unfold unique_vertex_is_part_of_two_blocks_and_no_boundary_surface. change (components_uuids M' uv) with (components_uuids M uv). change (component_mesh_vertices M' uv) with (component_mesh_vertices M uv).
  destruct (components_uuids M uv BlockT) as [|a [|b [|]]]; try reflexivity. rewrite !v_kind_active. reflexivity.
Qed.
Lemma v_wrong_count : forall uv, unique_vertex_block_cmvs_count_is_incorrect M' uv = unique_vertex_block_cmvs_count_is_incorrect M uv.
Proof.
  intros uv. unfold unique_vertex_block_cmvs_count_is_incorrect. apply first_some_eq; [reflexivity|]. intros b. rewrite v_kind_active. apply bind_eq; [reflexivity|]. intros a. rewrite v_expected. reflexivity.
Qed.
Lemma v_wrong_block : forall nb d uv, surface_with_wrong_relationships_to_block M' nb d uv = surface_with_wrong_relationships_to_block M nb d uv.
Proof. intros nb d uv. unfold surface_with_wrong_relationships_to_block. alike. Qed.
Lemma v_single_surface : forall nb uv, brep_invalid_single_surface M' nb uv = brep_invalid_single_surface M nb uv.
Proof.
  intros nb uv. unfold brep_invalid_single_surface. cbv zeta. change (components_uuids M' uv) with (components_uuids M uv). destruct (components_uuids M uv SurfaceT) as [|a [|b l]]; try reflexivity. alike.
Qed.
Lemma v_multiple_line : forall uv, brep_multiple_surfaces_invalid_line M' uv = brep_multiple_surfaces_invalid_line M uv.
Proof.
  intros uv. unfold brep_multiple_surfaces_invalid_line. cbv zeta. apply if_eq; [reflexivity|reflexivity|]. apply if_eq; [reflexivity|reflexivity|]. apply if_eq; [reflexivity|reflexivity|].
  apply first_some_eq; [reflexivity|]. intros l. apply if_eq.
  - f_equal.
    + f_equal. f_equal. unfold line_is_boundary_of_at_least_two_surfaces_or_one_embedding_surface. generalize 0%N.
      match goal with |- forall n, _ n ?x = _ => change (forall n, two_surfaces_or_embedded_loop M' l n x = two_surfaces_or_embedded_loop M l n x); induction x as [|u k IH]; intros n; [reflexivity|] end.
      cbn [two_surfaces_or_embedded_loop]. rewrite !IH. reflexivity.
  - change (component_mesh_vertices M' uv) with (component_mesh_vertices M uv). destruct (component_mesh_vertices M uv); [reflexivity|]. rewrite v_kind_named. reflexivity.
  - reflexivity.
Qed.
Lemma v_block_valid : forall uv, brep_blocks_topology_is_valid M' uv = brep_blocks_topology_is_valid M uv.
Proof. intros uv. unfold brep_blocks_topology_is_valid. repeat apply all_pass_cons; [apply v_two_blocks|apply v_wrong_count|reflexivity]. Qed.
Lemma v_meshed_blocks : forall l, filter (fun b => block_is_meshed (co_mesh b)) (map (moved_component (moved_solid g)) l) = map (moved_component (moved_solid g)) (filter (fun b => block_is_meshed (co_mesh b)) l).
Proof. intros l. induction l as [|b l IH]; [reflexivity|]. cbn [map filter]. change (co_mesh (moved_component (moved_solid g) b)) with (moved_solid g (co_mesh b)). rewrite v_block_meshed, IH. destruct (block_is_meshed (co_mesh b)); reflexivity. Qed.
Lemma v_unmeshed_blocks : forall l, filter (fun b => negb (block_is_meshed (co_mesh b))) (map (moved_component (moved_solid g)) l) = map (moved_component (moved_solid g)) (filter (fun b => negb (block_is_meshed (co_mesh b))) l).
Proof. intros l. induction l as [|b l IH]; [reflexivity|]. cbn [map filter]. change (co_mesh (moved_component (moved_solid g) b)) with (moved_solid g (co_mesh b)). rewrite v_block_meshed, IH. destruct (block_is_meshed (co_mesh b)); reflexivity. Qed.
Lemma v_blocks_meshes : inspect_blocks_meshes M' = inspect_blocks_meshes M.
Proof.
  unfold inspect_blocks_meshes. cbv zeta. cbn [moved_model m_blocks]. rewrite active_moved, v_meshed_blocks, v_unmeshed_blocks.
  change (active (m_blocks M)) with (active (m_blocks m)). destruct (filter (fun b => negb (block_is_meshed (co_mesh b))) (active (m_blocks m))) as [|b l]; [reflexivity|].
  destruct (filter (fun b0 => block_is_meshed (co_mesh b0)) (active (m_blocks m))) as [|b2 l2]; [reflexivity|]. cbn [map].
  generalize (new_issues (T := uuid) blocks_not_meshed_d). rewrite <- (map_cons (moved_component (moved_solid g))). induction (b :: l) as [|c k IH]; intros r; [reflexivity|]. cbn [map fold_left]. apply IH.
Qed.
Lemma v_block_links : forall r b, inspect_block_links M' r (moved_component (moved_solid g) b) = inspect_block_links M r b.
Proof.
  intros r b. unfold inspect_block_links. cbn [moved_component co_id]. rewrite v_block, bind_mapped. apply bind_eq; [reflexivity|]. intros k. cbv zeta.
  cbn [moved_component moved_solid co_mesh so_points co_id co_name]. rewrite map_length. reflexivity.
Qed.
Lemma v_block_boundaries : forall b, inspect_block_boundaries M' (moved_component (moved_solid g) b) = inspect_block_boundaries M b.
Proof.
  intros b. unfold inspect_block_boundaries. apply first_some_eq; [reflexivity|]. intros e. apply v_each_surface. intros c. cbn [moved_component co_id co_name co_active]. rewrite v_free_boundary. reflexivity.
Qed.
Lemma v_closedness : forall r b, inspect_block_closedness tl' M' r (moved_component (moved_solid g) b) = inspect_block_closedness tl M r b.
Proof.
  intros r b. unfold inspect_block_closedness. cbv zeta. rewrite v_block_boundaries. cbn [moved_component co_id co_name]. rewrite v_block_closed. reflexivity.
Qed.
Lemma v_brep_blocks : brep_inspect_blocks tl' M' = brep_inspect_blocks tl M.
Proof.
  unfold brep_inspect_blocks. change (m_blocks M') with (map (moved_component (moved_solid g)) (m_blocks m)). change (m_blocks M) with (m_blocks m). rewrite active_moved, v_meshed_blocks, !foldM_mapped.
  rewrite v_blocks_meshes, v_not_boundary_surfaces, v_boundaries_closed.
  destruct (active (m_blocks m)) as [|b0 l0]; [reflexivity|]. cbn [map].
  apply bind_eq; [reflexivity|]. intros nb. rewrite v_dangling. apply bind_eq; [reflexivity|]. intros d.
  apply bind_eq; [apply foldM_eq; [reflexivity|reflexivity|intros; apply v_block_links]|]. intros nl. apply bind_eq; [reflexivity|]. intros cl. cbv zeta.
  apply bind_eq; [apply v_report; intros uv; repeat apply report_cons; [apply v_two_blocks|apply v_wrong_count|apply v_single_surface|apply v_wrong_block|apply v_multiple_line|reflexivity]|].
  intros rs. apply bind_eq; [|reflexivity]. apply foldM_eq; [reflexivity|reflexivity|]. intros r b. apply v_closedness.
Qed.
Lemma v_brep_linked : brep_meshed_components_are_linked M' = brep_meshed_components_are_linked M.
Proof.
  unfold brep_meshed_components_are_linked. rewrite v_section_linked. cbn [moved_model told_as m_blocks].
  rewrite (v_meshed_linked _ (moved_solid g)) by first [apply v_block_meshed | intros x; apply map_length]. reflexivity.
Qed.
Lemma v_brep_valid : brep_topology_is_valid tl' M' = brep_topology_is_valid tl M.
Proof.
  unfold brep_topology_is_valid. rewrite v_brep_linked, (v_bijective _ v_exists_brep). apply if_eq; [reflexivity|reflexivity|]. apply if_eq; [reflexivity|reflexivity|].
  apply bind_eq; [reflexivity|]. intros b. apply if_eq; [reflexivity|reflexivity|]. apply v_every. intros uv.
  repeat apply allM_cons; [apply v_brep_corner|apply v_brep_line|apply v_brep_surface|apply v_block_valid|reflexivity].
Qed.
Lemma v_brep_topology : inspect_brep_topology tl' M' = inspect_brep_topology tl M.
Proof.
  unfold inspect_brep_topology. cbv zeta. rewrite v_brep_corners, v_brep_lines, v_brep_surfaces, v_brep_blocks. apply bind_eq; [reflexivity|]. intros _.
  rewrite (v_links _ _ v_exists_brep). reflexivity.
Qed.
End Moving.
