(** Moving an object: the same intersections are found. *)
From Coq Require Import String Ascii List Arith NArith ZArith Bool Lia Permutation.
From Verif Require Import Base BaseFacts Model_Issues Types Model_Hash Model_Intersections Spec_Moved Proof_Order Proof_Relabel5 Proof_Moved.
Import ListNotations.
Open Scope list_scope.

Section Meshes.
Context (g : Point -> Point) (px px' : Predicates) (PF : predicates_follow g px px').
Lemma at_moved : forall A B (h : A -> B) l i, at_index (map h l) i = mapped h (at_index l i).
Proof. intros A B h l i. unfold at_index. rewrite nth_error_map. destruct (nth_error l i); reflexivity. Qed.
Lemma point_moved : forall m v, mesh_point (moved_surface g m) v = mapped g (mesh_point m v).
Proof. intros m v. apply at_moved. Qed.
Lemma segment_moved : forall c e, curve_segment (moved_curve g c) e = mapped (moved_segment g) (curve_segment c e).
Proof.
  intros c e. unfold curve_segment. cbn [moved_curve ec_edges ec_points]. destruct (at_index (ec_edges c) e) as [[a b]|x|]; cbn [bind fst snd]; [|reflexivity|reflexivity].
  rewrite !at_moved. destruct (at_index (ec_points c) a); cbn [mapped bind]; [|reflexivity|reflexivity]. destruct (at_index (ec_points c) b); reflexivity.
Qed.
Lemma corners_moved : forall m v0 v1 v2,
  (let! p0 := mesh_point (moved_surface g m) v0 in let! p1 := mesh_point (moved_surface g m) v1 in let! p2 := mesh_point (moved_surface g m) v2 in Ok (p0, p1, p2)) =
  mapped (moved_triangle g) (let! p0 := mesh_point m v0 in let! p1 := mesh_point m v1 in let! p2 := mesh_point m v2 in Ok (p0, p1, p2)).
Proof.
  intros m v0 v1 v2. rewrite !point_moved. destruct (mesh_point m v0); cbn [mapped bind]; [|reflexivity|reflexivity]. destruct (mesh_point m v1); cbn [mapped bind]; [|reflexivity|reflexivity].
  destruct (mesh_point m v2); reflexivity.
Qed.
Lemma triangle_moved : forall m t, mesh_triangle (moved_surface g m) t = mapped (moved_triangle g) (mesh_triangle m t).
Proof.
  intros m t. unfold mesh_triangle. destruct (at_index t 0); cbn [bind]; [|reflexivity|reflexivity]. destruct (at_index t 1); cbn [bind]; [|reflexivity|reflexivity].
  destruct (at_index t 2); cbn [bind]; [|reflexivity|reflexivity]. apply corners_moved.
Qed.
Lemma surface_triangle_moved : forall m t, surface_triangle (moved_surface g m) t = mapped (moved_triangle g) (surface_triangle m t).
Proof. intros m t. exact (triangle_moved m (polygon_vertices m t)). Qed.

(** ** A surface with itself, a surface and a curve *)
Lemma polygons_moved : forall m c, surface_pair_intersects px' (moved_surface g m) c = surface_pair_intersects px m c.
Proof. intros m c. unfold surface_pair_intersects. rewrite (pf_polygons g px px' PF). reflexivity. Qed.
Lemma inside_moved : forall t seg, existsb (fun p => position_eqb (px_point_triangle px' p (moved_triangle g t)) Inside) [fst (moved_segment g seg); snd (moved_segment g seg)] =
  existsb (fun p => position_eqb (px_point_triangle px p t) Inside) [fst seg; snd seg].
Proof. intros t seg. cbn [existsb moved_segment fst snd]. rewrite !(pf_point g px px' PF). reflexivity. Qed.
Lemma edge_moved : forall s c k, edge_intersects_triangle px' (moved_surface g s) (moved_curve g c) k = edge_intersects_triangle px s c k.
Proof.
  intros s c k. unfold edge_intersects_triangle. apply if_eq; [reflexivity| |].
  - unfold edge_intersects_triangle_2d. rewrite surface_triangle_moved, bind_mapped. apply bind_eq; [reflexivity|]. intros t. rewrite segment_moved, bind_mapped. apply bind_eq; [reflexivity|]. intros seg.
    apply if_eq; [apply inside_moved|reflexivity|]. apply anyM_eq; [reflexivity|]. intros e. rewrite !point_moved, bind_mapped. apply bind_eq; [reflexivity|]. intros p0. rewrite bind_mapped.
    apply bind_eq; [reflexivity|]. intros p1. cbv zeta. change (g p0, g p1) with (moved_segment g (p0, p1)). rewrite (pf_segments g px px' PF). reflexivity.
  - unfold edge_intersects_triangle_3d. rewrite surface_triangle_moved, bind_mapped. apply bind_eq; [reflexivity|]. intros t. rewrite segment_moved, bind_mapped. apply bind_eq; [reflexivity|]. intros seg.
    apply if_eq; [apply inside_moved|reflexivity|]. cbv zeta. rewrite (pf_triangle g px px' PF). do 3 (apply if_eq; [reflexivity|reflexivity|]). apply if_eq; [reflexivity| |reflexivity].
    cbn [existsb moved_segment fst snd]. rewrite !(pf_point g px px' PF). reflexivity.
Qed.
Lemma fan_edge_moved : forall s c k, polygon_edge_intersect px' (moved_surface g s) (moved_curve g c) k = polygon_edge_intersect px s c k.
Proof.
  intros s c k. unfold polygon_edge_intersect. apply bind_eq; [reflexivity|]. intros fan. rewrite segment_moved, bind_mapped. apply bind_eq; [reflexivity|]. intros seg.
  apply anyM_eq; [reflexivity|]. intros t. rewrite triangle_moved, bind_mapped. apply bind_eq; [reflexivity|]. intros tr. cbv zeta. rewrite (pf_triangle g px px' PF). reflexivity.
Qed.
Lemma runs_moved : forall hit hit' stop cands s r, (forall c, hit' c = hit c) -> traverses (record_action hit' stop) false cands s r <-> traverses (record_action hit stop) false cands s r.
Proof.
  intros hit hit' stop cands s r E. split; apply traverses_alike; intros a c; unfold record_action; rewrite E; reflexivity.
Qed.

(** ** Two surfaces of a model *)
Context (s : Point -> string) (m : Model).
Notation M' := (moved_model g s m).
Notation moved := (moved_component (moved_surface g)).
Lemma other_moved : forall t1 t2 l1 l2 common k, triangle_intersects_other px' (moved_triangle g t1) (moved_triangle g t2) l1 l2 common k = triangle_intersects_other px t1 t2 l1 l2 common k.
Proof.
  intros [[p0 p1] p2] t2 l1 l2 common k. unfold triangle_intersects_other. apply anyM_eq; [reflexivity|]. intros v. cbv zeta.
  assert (E : forall i j, px_segment_triangle px' (triangle_vertex (moved_triangle g (p0, p1, p2)) i, triangle_vertex (moved_triangle g (p0, p1, p2)) j) (moved_triangle g t2) =
    px_segment_triangle px (triangle_vertex (p0, p1, p2) i, triangle_vertex (p0, p1, p2) j) t2).
  { intros i j. rewrite <- (pf_triangle g px px' PF). f_equal. unfold moved_segment. cbn [fst snd]. f_equal; cbn [moved_triangle triangle_vertex]; [destruct i as [|[|i]]|destruct j as [|[|j]]]; reflexivity. }
  rewrite E, !(pf_index g px px' PF). reflexivity.
Qed.
Lemma brep_moved : forall s1 s2 t1 t2 common, brep_triangles_intersect px' (moved s1) (moved s2) t1 t2 common = brep_triangles_intersect px s1 s2 t1 t2 common.
Proof.
  intros s1 s2 t1 t2 common. unfold brep_triangles_intersect. cbn [moved_component co_mesh]. rewrite !triangle_moved, bind_mapped. apply bind_eq; [reflexivity|]. intros tr2.
  apply if_eq; [reflexivity| |].
  - apply bind_eq; [reflexivity|]. intros c0. apply bind_eq; [reflexivity|]. intros c1. apply bind_eq; [reflexivity|]. intros v1. rewrite !point_moved, bind_mapped. apply bind_eq; [reflexivity|]. intros q.
    rewrite bind_mapped. apply bind_eq; [reflexivity|]. intros p0. rewrite bind_mapped. apply bind_eq; [reflexivity|]. intros p1.
    change (g p0, g q) with (moved_segment g (p0, q)). change (g p1, g q) with (moved_segment g (p1, q)). rewrite !(pf_triangle g px px' PF). reflexivity.
  - rewrite bind_mapped. apply bind_eq; [reflexivity|]. intros tr1. rewrite !other_moved. reflexivity.
Qed.
Lemma section_moved : forall s1 s2 t1 t2 common, section_triangles_intersect px' (moved s1) (moved s2) t1 t2 common = section_triangles_intersect px s1 s2 t1 t2 common.
Proof.
  intros s1 s2 t1 t2 common. unfold section_triangles_intersect. cbn [moved_component co_mesh]. apply if_eq; [reflexivity| |].
  - apply bind_eq; [reflexivity|]. intros c0. apply bind_eq; [reflexivity|]. intros c1. rewrite !point_moved, bind_mapped. apply bind_eq; [reflexivity|]. intros p0. rewrite bind_mapped. apply bind_eq; [reflexivity|]. intros p1.
    apply bind_eq; [reflexivity|]. intros v1. rewrite point_moved, bind_mapped. apply bind_eq; [reflexivity|]. intros q1. apply bind_eq; [reflexivity|]. intros v2. rewrite point_moved, bind_mapped. apply bind_eq; [reflexivity|]. intros q2.
    change (g p0, g q1) with (moved_segment g (p0, q1)). change (g p1, g q2) with (moved_segment g (p1, q2)). change (g p1, g q1) with (moved_segment g (p1, q1)). change (g p0, g q2) with (moved_segment g (p0, q2)).
    rewrite !(pf_segments g px px' PF). apply if_eq; [reflexivity|reflexivity|]. rewrite !triangle_moved, bind_mapped. apply bind_eq; [reflexivity|]. intros a. rewrite bind_mapped. apply bind_eq; [reflexivity|]. intros b.
    rewrite !(pf_point g px px' PF). reflexivity.
  - apply anyM_eq; [reflexivity|]. intros e1. apply bind_eq; [reflexivity|]. intros a1. apply bind_eq; [reflexivity|]. intros b1. rewrite !point_moved, bind_mapped. apply bind_eq; [reflexivity|]. intros pa1.
    rewrite bind_mapped. apply bind_eq; [reflexivity|]. intros pb1. apply anyM_eq; [reflexivity|]. intros e2. apply bind_eq; [reflexivity|]. intros a2. apply bind_eq; [reflexivity|]. intros b2.
    rewrite !point_moved, bind_mapped. apply bind_eq; [reflexivity|]. intros pa2. rewrite bind_mapped. apply bind_eq; [reflexivity|]. intros pb2. cbv zeta.
    change (g pa1, g pb1) with (moved_segment g (pa1, pb1)). change (g pa2, g pb2) with (moved_segment g (pa2, pb2)). rewrite !(pf_segments g px px' PF), !(pf_index g px px' PF). reflexivity.
Qed.
Lemma hit_moved : forall s1 s2 a c, surfaces_hit px' M' (moved s1) (moved s2) a c = surfaces_hit px m s1 s2 a c.
Proof.
  intros s1 s2 a c.
  assert (D : forall t1 t2, triangles_intersection_detection px' M' (moved s1) (moved s2) t1 t2 = triangles_intersection_detection px m s1 s2 t1 t2).
  { intros t1 t2. unfold triangles_intersection_detection. cbv zeta. change (triangles_common_vertices M' (moved s1) (moved s2) t1 t2) with (triangles_common_vertices m s1 s2 t1 t2).
    apply if_eq; [reflexivity|reflexivity|]. unfold triangles_intersect. apply if_eq; [reflexivity|apply section_moved|apply brep_moved]. }
  assert (P : forall p q, polygons_intersect px' M' (moved s1) (moved s2) p q = polygons_intersect px m s1 s2 p q).
  { intros p q. unfold polygons_intersect. apply if_eq; [reflexivity|reflexivity|]. apply if_eq; [reflexivity|apply D|].
    apply bind_eq; [reflexivity|]. intros k1. apply bind_eq; [reflexivity|]. intros k2. apply anyM_eq; [reflexivity|]. intros t1. apply anyM_eq; [reflexivity|]. intros t2. apply D. }
  unfold surfaces_hit. rewrite P. reflexivity.
Qed.

(** ** Models *)
Context (trees : Trees).
Lemma get_surface_moved : forall id, get_surface M' id = mapped moved (get_surface m id).
Proof. intros id. rewrite v_surface. reflexivity. Qed.
Lemma get_line_moved : forall id, get_line M' id = mapped (moved_component (moved_curve g)) (get_line m id).
Proof. intros id. rewrite v_line. reflexivity. Qed.
Lemma pair_task_moved : forall a s1 s2 cands r, pair_task px' M' a (moved s1) (moved s2) cands r <-> pair_task px m a s1 s2 cands r.
Proof.
  intros a s1 s2 cands r. unfold pair_task. split; intros (found & K & E); exists found; (split; [|exact E]); revert K; unfold surfaces_action; apply runs_moved; intros c; [symmetry|]; apply hit_moved.
Qed.
Lemma self_task_moved : forall a c r, self_task px' M' trees a (moved c) r <-> self_task px m trees a c r.
Proof.
  intros a c r. unfold self_task. cbn [moved_component co_id]. rewrite get_surface_moved. destruct (get_surface m (co_id c)); cbn [mapped bind]; [|reflexivity|reflexivity].
  destruct (mesh_tree_id (tr_uuids trees) (co_id c)); [|reflexivity|reflexivity]. apply pair_task_moved.
Qed.
Lemma overlap_task_moved : forall a c r, overlap_task px' M' trees a c r <-> overlap_task px m trees a c r.
Proof.
  intros a c r. unfold overlap_task. destruct (at_index (tr_uuids trees) (fst c)) as [i|e|]; cbn [bind]; [|reflexivity|reflexivity].
  destruct (at_index (tr_uuids trees) (snd c)) as [j|e|]; cbn [bind]; [|reflexivity|reflexivity]. rewrite !get_surface_moved.
  destruct (get_surface m i); cbn [mapped bind]; [|reflexivity|reflexivity]. destruct (get_surface m j); cbn [mapped bind]; [|reflexivity|reflexivity]. apply pair_task_moved.
Qed.
Lemma existsb_moved : forall A B (h : A -> B) (p : B -> bool) l, existsb p (map h l) = existsb (fun x => p (h x)) l.
Proof. intros A B h p l. induction l as [|a l IH]; [reflexivity|]. cbn [map existsb]. rewrite IH. reflexivity. Qed.
Lemma forall2_same : forall A B (P P' : A -> B -> Prop), (forall a b, P a b -> P' a b) -> forall l k, Forall2 P l k -> Forall2 P' l k.
Proof. intros A B P P' E l k F. induction F; constructor; auto. Qed.
Lemma forall2_moved : forall A B (h : A -> A) (P P' : A -> B -> Prop), (forall a b, P' (h a) b <-> P a b) -> forall l k, Forall2 P' (map h l) k <-> Forall2 P l k.
Proof.
  intros A B h P P' E l. induction l as [|a l IH]; intros k; cbn [map]; (split; intros F; inversion F; subst; first [constructor; [apply E|apply IH]; assumption|constructor]).
Qed.
Lemma intersecting_polygons_moved : forall a r, intersecting_polygons px' M' trees a r <-> intersecting_polygons px m trees a r.
Proof.
  intros a r. unfold intersecting_polygons. cbn [moved_model m_surfaces]. rewrite active_moved, existsb_moved. change (fun x => Nat.eqb (nb_polygons (co_mesh (moved x))) 0) with (fun x : Component SurfaceMesh => Nat.eqb (nb_polygons (co_mesh x)) 0).
  destruct (existsb _ (active (m_surfaces m))); [reflexivity|].
  split; intros (rs & os & ors & F1 & K & F2 & E); exists rs, os, ors; (split; [|split; [exact K|split; [|exact E]]]).
  - apply (forall2_moved _ _ moved (self_task px m trees a) (self_task px' M' trees a)); [intros c x; apply self_task_moved|exact F1].
  - revert F2. apply forall2_same. intros c x. apply overlap_task_moved.
  - apply (forall2_moved _ _ moved (self_task px m trees a) (self_task px' M' trees a)); [intros c x; apply self_task_moved|exact F1].
  - revert F2. apply forall2_same. intros c x. apply overlap_task_moved.
Qed.
(** the texts of intersections do not name points *)
Lemma surfaces_elements_moved : forall i r, add_intersecting_surfaces_elements px' M' trees i r <-> add_intersecting_surfaces_elements px m trees i r.
Proof.
  intros i r. unfold add_intersecting_surfaces_elements. split; intros (found & P & ->); exists found; (split; [apply intersecting_polygons_moved, P|]); (apply bind_eq; [reflexivity|]); intros l;
    (apply foldM_eq; [reflexivity|reflexivity|]); intros acc c; rewrite !get_surface_moved, bind_mapped; (apply bind_eq; [reflexivity|]); intros s1; rewrite bind_mapped; (apply bind_eq; [reflexivity|]); intros s2; reflexivity.
Qed.
Lemma auto_elements_moved : forall i r, add_surface_auto_intersecting_elements px' M' trees i r <-> add_surface_auto_intersecting_elements px m trees i r.
Proof.
  intros i r. unfold add_surface_auto_intersecting_elements. split; intros (found & P & ->); exists found; (split; [apply intersecting_polygons_moved, P|]); (apply bind_eq; [reflexivity|]); intros l;
    (apply foldM_eq; [reflexivity|reflexivity|]); intros acc c; rewrite !get_surface_moved, bind_mapped; (apply bind_eq; [reflexivity|]); intros s1; reflexivity.
Qed.
Lemma has_intersections_moved : forall r, model_has_intersecting_surfaces px' M' trees r <-> model_has_intersecting_surfaces px m trees r.
Proof. intros r. unfold model_has_intersecting_surfaces. split; intros (found & P & ->); exists found; (split; [apply intersecting_polygons_moved, P|reflexivity]). Qed.
Context (lines : LineTrees).
Lemma line_step_moved : forall c i l acc r, line_surface_step px' M' lines (moved c) i (moved_component (moved_curve g) l) acc r <-> line_surface_step px m lines c i l acc r.
Proof.
  intros c i l acc r. unfold line_surface_step. cbn [moved_component co_id]. change (nb_embedding_blocks M' (co_id l)) with (nb_embedding_blocks m (co_id l)). destruct (Nat.eqb _ 0); [reflexivity|].
  rewrite get_surface_moved, get_line_moved. destruct (get_surface m (co_id c)) as [s'|e|]; cbn [mapped bind]; [|reflexivity|reflexivity]. destruct (get_line m (co_id l)) as [l'|e|]; cbn [mapped bind]; [|reflexivity|reflexivity].
  destruct (mesh_tree_id (lt_uuids lines) (co_id l)); cbn [bind]; [|reflexivity|reflexivity]. cbn [moved_component co_mesh].
  split; intros (found & K & E); exists found; (split; [|exact E]); revert K; apply runs_moved; intros k; [symmetry|]; apply fan_edge_moved.
Qed.
Lemma loop_same : forall A S (body body' : A -> S -> outcome S -> Prop), (forall a x r, body a x r -> body' a x r) -> forall l x r, loop body l x r -> loop body' l x r.
Proof.
  intros A S body body' E l x r K. induction K as [x|a l x x' r B K IH|a l x e B|a l x B].
  - apply loop_end.
  - eapply loop_step; [apply E, B|exact IH].
  - apply loop_raise, E, B.
  - apply loop_undefined, E, B.
Qed.
Lemma loop_mapped : forall A B S (h : A -> B) (body : B -> S -> outcome S -> Prop) l x r, loop body (map h l) x r <-> loop (fun a => body (h a)) l x r.
Proof.
  intros A B S h body l. induction l as [|a l IH]; intros x r; cbn [map]; (split; intros K; inversion K; subst;
    first [apply loop_end|eapply loop_step; [eassumption|apply IH; assumption]|apply loop_raise; assumption|apply loop_undefined; assumption]).
Qed.
Lemma loop_moved : forall A S (h : A -> A) (body body' : A -> S -> outcome S -> Prop), (forall a x r, body' (h a) x r <-> body a x r) -> forall l x r, loop body' (map h l) x r <-> loop body l x r.
Proof. intros A S h body body' E l x r. rewrite loop_mapped. split; apply loop_same; intros a y z; apply E. Qed.
Lemma surface_step_moved : forall c acc r, surface_step px' M' trees lines (moved c) acc r <-> surface_step px m trees lines c acc r.
Proof.
  intros c acc r. unfold surface_step. cbn [moved_component co_id]. destruct (mesh_tree_id (tr_uuids trees) (co_id c)) as [i|e|]; [|reflexivity|reflexivity]. cbn [moved_model m_lines]. rewrite active_moved.
  apply loop_moved. intros l x y. apply line_step_moved.
Qed.
Lemma lines_surfaces_moved : forall r, intersecting_lines_surfaces px' M' trees lines r <-> intersecting_lines_surfaces px m trees lines r.
Proof.
  intros r. unfold intersecting_lines_surfaces. cbn [moved_model m_surfaces m_lines]. rewrite !active_moved, !existsb_moved.
  change (fun x => Nat.eqb (nb_polygons (co_mesh (moved x))) 0) with (fun x : Component SurfaceMesh => Nat.eqb (nb_polygons (co_mesh x)) 0).
  change (fun x => Nat.eqb (List.length (ec_edges (co_mesh (moved_component (moved_curve g) x)))) 0) with (fun x : Component EdgedCurve => Nat.eqb (List.length (ec_edges (co_mesh x))) 0).
  destruct (existsb _ _); [reflexivity|]. destruct (existsb _ _); [reflexivity|]. apply loop_moved. intros c x y. apply surface_step_moved.
Qed.
Lemma lines_elements_moved : forall i r, add_intersecting_lines_surfaces_elements px' M' trees lines i r <-> add_intersecting_lines_surfaces_elements px m trees lines i r.
Proof.
  intros i r. unfold add_intersecting_lines_surfaces_elements. split; intros (found & P & ->); exists found; (split; [apply lines_surfaces_moved, P|]); (apply bind_eq; [reflexivity|]); intros l;
    (apply foldM_eq; [reflexivity|reflexivity|]); intros acc c; rewrite !get_surface_moved, !get_line_moved, bind_mapped; (apply bind_eq; [reflexivity|]); intros s1; rewrite bind_mapped; (apply bind_eq; [reflexivity|]); intros s2; reflexivity.
Qed.
Lemma brep_intersections_moved : forall r, brep_inspect_intersections px' M' trees lines r <-> brep_inspect_intersections px m trees lines r.
Proof.
  intros r. unfold brep_inspect_intersections. split; intros (r1 & P & K); exists r1; (split; [apply surfaces_elements_moved, P|]); (destruct r1 as [i1|e|]; [apply lines_elements_moved, K|exact K|exact K]).
Qed.
End Meshes.
