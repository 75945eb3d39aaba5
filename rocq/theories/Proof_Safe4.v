(** Definedness: searches of intersections. *)
From Coq Require Import String Ascii List Arith NArith ZArith Bool Lia Permutation.
From Verif Require Import Base BaseFacts Model_Issues Types Model_Intersections Spec_Adjacency Spec_Colocation Spec_Manifold Spec_Intersections Spec_Safe
  Proof_Intersections3 Proof_Safe Proof_Safe2.
Import ListNotations.
Open Scope list_scope.

Lemma defined_at : forall A (l : list A) i, i < length l -> defined (at_index l i).
Proof. intros A l i H. unfold at_index. destruct (nth_error l i) eqn:E; [discriminate|]. apply nth_error_None in E. lia. Qed.
Lemma got_at : forall A (l : list A) i a, at_index l i = Ok a -> nth_error l i = Some a.
Proof. intros A l i a H. unfold at_index in H. destruct (nth_error l i); congruence. Qed.
Lemma got_in : forall A (l : list A) i a, at_index l i = Ok a -> In a l.
Proof. intros A l i a H. eapply nth_error_In, got_at, H. Qed.
Lemma defined_traverses : forall S (action : S -> nat * nat -> outcome (S * bool)) fl cands s r, (forall s c, In c cands -> defined (action s c)) ->
  traverses action fl cands s r -> defined r.
Proof.
  intros S action fl cands s r D T. induction T as [fl s|cands s|fl cands c rest s s' b r P E T IH|fl cands c rest s e P E|fl cands c rest s P E]; try discriminate.
  - apply IH. intros s0 c0 Hc. apply D. apply (Permutation_in _ (Permutation_sym P)). right. exact Hc.
  - exfalso. apply (D s c); [apply (Permutation_in _ (Permutation_sym P)); left; reflexivity|exact E].
Qed.
Lemma defined_record : forall hit stop cands r, (forall c, In c cands -> defined (hit c)) -> forall fl s, traverses (record_action hit stop) fl cands s r -> defined r.
Proof. intros hit stop cands r D fl s T. eapply defined_traverses; [|exact T]. intros s0 c Hc. unfold record_action. defined_step; [apply D, Hc|discriminate]. Qed.
Lemma defined_gather : forall rs, Forall defined rs -> defined (gather rs).
Proof.
  intros rs H. unfold gather. assert (E : existsb (fun r : outcome IntersectionsResult => match r with UB => true | _ => false end) rs = false).
  { induction H as [|r rs D _ IH]; [reflexivity|]. destruct r; cbn; [exact IH|exact IH|congruence]. }
  rewrite E. defined_step. defined_step; [|discriminate]. rewrite Forall_forall in H. apply H. assumption.
Qed.
Lemma Forall2_defined : forall A B (Q : A -> outcome B -> Prop) l rs, Forall2 Q l rs -> (forall x r, In x l -> Q x r -> defined r) -> Forall defined rs.
Proof. intros A B Q l rs H. induction H as [|x r l rs HQ _ IH]; intros D; constructor; [eapply D; [left; reflexivity|exact HQ]|]. apply IH. intros y q Hy. apply D. right. exact Hy. Qed.
Lemma found_position : forall id l i, position_of id l = Some i -> nth_error l i = Some id.
Proof.
  intros id. induction l as [|x l IH]; intros i E; [discriminate|]. cbn in E. destruct (Nat.eqb x id) eqn:Ex.
  - injection E as <-. apply Nat.eqb_eq in Ex. subst. reflexivity.
  - destruct (position_of id l) as [k|]; [|discriminate]. injection E as <-. cbn. apply IH. reflexivity.
Qed.
Lemma defined_tree_id : forall l id, defined (mesh_tree_id l id).
Proof. intros l id. unfold mesh_tree_id. destruct (position_of id l); discriminate. Qed.
Lemma got_tree_id : forall l id i, mesh_tree_id l id = Ok i -> nth_error l i = Some id.
Proof. intros l id i E. unfold mesh_tree_id in E. destruct (position_of id l) as [k|] eqn:P; [|discriminate]. injection E as <-. apply found_position, P. Qed.

(** fans *)
Definition triangles_in (polygon : list nat) (ts : list (list nat)) : Prop := forall t, In t ts -> length t = 3 /\ incl t polygon.
Lemma defined_fan : forall polygon, polygon <> [] -> defined (polygon_fan_triangles polygon 0) /\ forall ts, polygon_fan_triangles polygon 0 = Ok ts -> triangles_in polygon ts.
Proof.
  intros polygon H. unfold polygon_fan_triangles. destruct (length polygon) as [|last] eqn:L; [destruct polygon; [congruence|discriminate]|]. split.
  - defined_step. cbv zeta. rewrite <- L. assert (K : (0 + x) mod length polygon < length polygon) by (apply Nat.mod_upper_bound; lia). cbn [Nat.add] in *.
    defined_step; [apply defined_at; lia|]. defined_step; [apply defined_at; exact K|]. defined_step; [|discriminate]. apply defined_at. destruct (Nat.eqb_spec (x mod length polygon + 1) (length polygon)); lia.
  - intros ts. apply foldM_inv; [intros t []|]. intros ts' x ts2 HI _ E. cbv zeta in E.
    destruct (at_index polygon 0) as [a| |] eqn:Ea; cbn [bind] in E; try discriminate.
    match type of E with bind ?o _ = _ => destruct o as [b| |] eqn:Eb end; cbn [bind] in E; try discriminate.
    match type of E with bind ?o _ = _ => destruct o as [c| |] eqn:Ec end; cbn [bind] in E; try discriminate. injection E as <-.
    intros t Ht. apply in_app_iff in Ht as [Ht|[<-|[]]]; [apply HI, Ht|]. split; [reflexivity|]. apply got_in in Ea. apply got_in in Eb. apply got_in in Ec. intros v [<-|[<-|[<-|[]]]]; assumption.
Qed.

(** triangles *)
Definition in_points (s : SurfaceMesh) (t : list nat) : Prop := forall v, In v t -> v < length (sm_points s).
Lemma defined_mesh_point : forall s t v, in_points s t -> In v t -> defined (Model_Intersections.mesh_point s v).
Proof. intros s t v H Hv. unfold Model_Intersections.mesh_point. apply defined_at, H, Hv. Qed.
Lemma defined_mesh_triangle : forall s t, in_points s t -> length t = 3 -> defined (mesh_triangle s t).
Proof.
  intros s t H L. unfold mesh_triangle. defined_step; [apply defined_at; lia|]. defined_step; [apply defined_at; lia|]. defined_step; [apply defined_at; lia|].
  defined_step; [eapply defined_mesh_point; [exact H|eapply got_in; eassumption]|]. defined_step; [eapply defined_mesh_point; [exact H|eapply got_in; eassumption]|].
  defined_step; [eapply defined_mesh_point; [exact H|eapply got_in; eassumption]|discriminate].
Qed.
Lemma defined_third : forall t common position, length common = 2 -> defined (third_point_index t common position) /\ forall v, third_point_index t common position = Ok v -> In v t.
Proof.
  intros t common position L. destruct common as [|c0 [|c1 [|]]]; try discriminate. induction t as [|v t [D R]]; [split; discriminate|]. cbn [third_point_index at_index nth_error bind].
  destruct (Nat.eqb v (pair_at position c0) || Nat.eqb v (pair_at position c1)); [split; [exact D|intros w E; right; apply R, E]|]. split; [discriminate|]. intros w E. injection E as <-. left. reflexivity.
Qed.

Section Pair.
Context (px : Predicates) (m : Model) (s1 s2 : Component SurfaceMesh).
Hypothesis Hpx : indices_in_range px.
Hypothesis Hr : sm_dimension (co_mesh s1) = 2 -> readable m s1 s2.
Variables t1 t2 : list nat.
Hypothesis L1 : length t1 = 3.
Hypothesis L2 : length t2 = 3.
Hypothesis P1 : in_points (co_mesh s1) t1.
Hypothesis P2 : in_points (co_mesh s2) t2.
Let common := triangles_common_vertices m s1 s2 t1 t2.
Lemma common_facts : forall a b, In (a, b) common -> In a t1 /\ In b t2 /\ uv_of m s1 a = uv_of m s2 b.
Proof. intros a b H. eapply common_in; [apply common_spec|exact H]. Qed.
Lemma defined_section_triangles : sm_dimension (co_mesh s1) = 2 -> defined (section_triangles_intersect px s1 s2 t1 t2 common).
Proof.
  intros D2. unfold section_triangles_intersect. destruct (Nat.eqb (length common) 2) eqn:E.
  - apply Nat.eqb_eq in E. destruct (defined_third t1 common 0 E) as [D3 R3]. destruct (defined_third t2 common 1 E) as [D4 R4].
    defined_step; [apply defined_at; lia|]. defined_step; [apply defined_at; lia|]. destruct a as [va b0], a0 as [a1 b1]. apply got_in in H. apply got_in in H0.
    destruct (common_facts _ _ H) as (I1 & I2 & I3). destruct (common_facts _ _ H0) as (J1 & J2 & J3).
    defined_step; [eapply defined_mesh_point; [exact P1|exact I1]|]. defined_step.
    { cbn [snd]. unfold Model_Intersections.mesh_point. apply defined_at. apply (Hr D2 a1 b1); [apply P1, J1|apply P2, J2|exact J3]. }
    defined_step; [exact D3|]. defined_step; [eapply defined_mesh_point; [exact P1|apply R3; assumption]|]. defined_step; [exact D4|].
    defined_step; [eapply defined_mesh_point; [exact P2|apply R4; assumption]|]. defined_step; [discriminate|].
    defined_step; [apply defined_mesh_triangle; assumption|]. defined_step; [apply defined_mesh_triangle; assumption|discriminate].
  - defined_step. apply in_Range in H. assert (X : (if Nat.eqb x 2 then 0 else x + 1) < 3) by (destruct (Nat.eqb_spec x 2); lia).
    defined_step; [apply defined_at; lia|]. defined_step; [apply defined_at; lia|]. apply got_in in H0. apply got_in in H1.
    defined_step; [eapply defined_mesh_point; eassumption|]. defined_step; [eapply defined_mesh_point; eassumption|].
    defined_step. apply in_Range in H4. assert (X0 : (if Nat.eqb x0 2 then 0 else x0 + 1) < 3) by (destruct (Nat.eqb_spec x0 2); lia).
    defined_step; [apply defined_at; lia|]. defined_step; [apply defined_at; lia|]. apply got_in in H5. apply got_in in H6.
    defined_step; [eapply defined_mesh_point; eassumption|]. defined_step; [eapply defined_mesh_point; eassumption|]. cbv zeta.
    defined_step; [discriminate|]. destruct (Nat.eqb (length common) 1) eqn:E1; cbn [negb]; [|discriminate]. apply Nat.eqb_eq in E1.
    match goal with |- context [px_segment_segment px ?s ?t] => pose proof (proj1 Hpx s t) as I1; pose proof (proj1 (proj2 Hpx) s t) as I2; destruct (px_index px (fst (px_segment_segment px s t))) as [i1|]; [|discriminate]; destruct (px_index px (snd (px_segment_segment px s t))) as [i2|]; [|discriminate] end.
    specialize (I1 _ eq_refl). specialize (I2 _ eq_refl). defined_step; [apply defined_at; cbn; lia|]. defined_step; [apply defined_at; cbn; lia|]. defined_step; [apply defined_at; lia|discriminate].
Qed.
Lemma defined_other : forall T1 T2 u1 u2 k, length u1 = 3 -> length u2 = 3 -> defined (triangle_intersects_other px T1 T2 u1 u2 common k).
Proof.
  intros T1 T2 u1 u2 k K1 K2. unfold triangle_intersects_other. defined_step. apply in_Range in H. cbv zeta. defined_step; [discriminate|].
  destruct (Nat.eqb (length common) 1) eqn:E1; cbn [negb]; [|discriminate]. apply Nat.eqb_eq in E1.
  match goal with |- context [px_segment_triangle px ?s ?t] => pose proof (proj2 (proj2 Hpx) s t) as I2; destruct (px_index px (fst (px_segment_triangle px s t))) as [i1|]; [|discriminate]; destruct (px_index px (snd (px_segment_triangle px s t))) as [i2|]; [|discriminate] end.
  specialize (I2 _ eq_refl). defined_step; [apply defined_at; destruct (Nat.eqb i1 0); [lia|destruct (Nat.eqb_spec x 2); lia]|]. defined_step; [apply defined_at; lia|]. defined_step; [apply defined_at; lia|discriminate].
Qed.
Lemma defined_brep_triangles : defined (brep_triangles_intersect px s1 s2 t1 t2 common).
Proof.
  unfold brep_triangles_intersect. defined_step; [apply defined_mesh_triangle; assumption|]. destruct (Nat.eqb (length common) 2) eqn:E.
  - apply Nat.eqb_eq in E. destruct (defined_third t1 common 0 E) as [D3 R3]. defined_step; [apply defined_at; lia|]. defined_step; [apply defined_at; lia|].
    destruct a0 as [va b0], a1 as [vb b1]. apply got_in in H0. apply got_in in H1. destruct (common_facts _ _ H0) as (I1 & _ & _). destruct (common_facts _ _ H1) as (J1 & _ & _).
    defined_step; [exact D3|]. defined_step; [eapply defined_mesh_point; [exact P1|apply R3; assumption]|]. cbn [fst].
    defined_step; [eapply defined_mesh_point; [exact P1|exact I1]|]. defined_step; [eapply defined_mesh_point; [exact P1|exact J1]|discriminate].
  - defined_step; [apply defined_mesh_triangle; assumption|]. defined_step; [apply defined_other; assumption|]. defined_step; [discriminate|apply defined_other; assumption].
Qed.
Lemma defined_detection : defined (triangles_intersection_detection px m s1 s2 t1 t2).
Proof.
  unfold triangles_intersection_detection. cbv zeta. defined_step; [discriminate|]. unfold triangles_intersect. destruct (Nat.eqb_spec (sm_dimension (co_mesh s1)) 2) as [E|E].
  - apply defined_section_triangles, E.
  - apply defined_brep_triangles.
Qed.
End Pair.

Lemma polygon_points : forall s p, sane_surface s -> p < nb_polygons s -> in_points s (polygon_vertices s p).
Proof. intros s p H Hp v Hv. eapply polygon_vertex_exists; eassumption. Qed.
Lemma defined_polygons_intersect : forall px m s1 s2 p q, indices_in_range px -> (sm_dimension (co_mesh s1) = 2 -> readable m s1 s2) ->
  sane_surface (co_mesh s1) -> sane_surface (co_mesh s2) -> p < nb_polygons (co_mesh s1) -> q < nb_polygons (co_mesh s2) -> defined (polygons_intersect px m s1 s2 p q).
Proof.
  intros px m s1 s2 p q Hpx Hr S1 S2 Hp Hq. unfold polygons_intersect. cbv zeta. pose proof (polygon_points _ p S1 Hp) as I1. pose proof (polygon_points _ q S2 Hq) as I2.
  destruct (Nat.ltb_spec (length (polygon_vertices (co_mesh s1) p)) 3) as [A|A]; cbn [orb]; [discriminate|].
  destruct (Nat.ltb_spec (length (polygon_vertices (co_mesh s2) q)) 3) as [B|B]; [discriminate|].
  destruct (Nat.eqb (length (polygon_vertices (co_mesh s1) p)) 3 && Nat.eqb (length (polygon_vertices (co_mesh s2) q)) 3) eqn:E.
  - apply andb_true_iff in E as [E1 E2]. apply Nat.eqb_eq in E1. apply Nat.eqb_eq in E2. apply defined_detection; assumption.
  - destruct (defined_fan (polygon_vertices (co_mesh s1) p)) as [D1 R1]; [intros Z; rewrite Z in A; cbn in A; lia|].
    destruct (defined_fan (polygon_vertices (co_mesh s2) q)) as [D2 R2]; [intros Z; rewrite Z in B; cbn in B; lia|].
    defined_step; [exact D1|]. defined_step; [exact D2|]. specialize (R1 _ H). specialize (R2 _ H0). defined_step. defined_step.
    destruct (R1 _ H1) as [K1 C1]. destruct (R2 _ H2) as [K2 C2]. apply defined_detection; try assumption; intros v Hv; [apply I1, C1, Hv|apply I2, C2, Hv].
Qed.

Section Search.
Context (px : Predicates) (m : Model) (trees : Trees).
Hypothesis Ht : sane_trees px m trees.
Hypothesis Hs : forall s, In s (m_surfaces m) -> sane_surface (co_mesh s).
Lemma defined_pair_task : forall a s1 s2 cands r, In s1 (m_surfaces m) -> In s2 (m_surfaces m) -> candidates_in_range (nb_polygons (co_mesh s1)) (nb_polygons (co_mesh s2)) cands ->
  pair_task px m a s1 s2 cands r -> defined r.
Proof.
  intros a s1 s2 cands r I1 I2 C (found & T & ->). defined_step; [|discriminate]. unfold surfaces_action in T. eapply defined_record; [|exact T]. intros [p q] Hc. apply C in Hc as [Hp Hq].
  assert (D : defined (polygons_intersect px m s1 s2 p q)) by (apply defined_polygons_intersect; try assumption; [apply Ht|intros E; apply (st_second _ _ _ Ht); assumption|apply Hs, I1|apply Hs, I2]).
  unfold surfaces_hit. cbn [fst snd]. destruct a; repeat (match goal with |- defined (if ?b then _ else _) => destruct b end; try discriminate; try exact D).
Qed.
Lemma defined_self_task : forall a s r, self_task px m trees a s r -> defined r.
Proof.
  intros a s r H. unfold self_task in H. destruct (get_surface m (co_id s)) as [s'|e|] eqn:E; [|subst; discriminate|apply defined_surface in E; contradiction].
  destruct (mesh_tree_id (tr_uuids trees) (co_id s)) as [i|e|] eqn:Ei; [|subst; discriminate|apply defined_tree_id in Ei; contradiction].
  apply got_surface in E as [I Ex]. apply got_tree_id in Ei. eapply defined_pair_task; [exact I|exact I| |exact H]. apply (st_self _ _ _ Ht s' i I). rewrite Ex. exact Ei.
Qed.
Lemma defined_overlap_task : forall a c r, In c (tr_overlaps trees) -> overlap_task px m trees a c r -> defined r.
Proof.
  intros a [i j] r Hc H. apply (st_overlaps _ _ _ Ht) in Hc as [Hi Hj]. unfold overlap_task in H. cbn [fst snd] in H.
  destruct (at_index (tr_uuids trees) i) as [id1|e|] eqn:E1; cbn [bind] in H; [|subst; discriminate|apply (defined_at _ _ _ Hi) in E1; contradiction].
  destruct (at_index (tr_uuids trees) j) as [id2|e|] eqn:E2; cbn [bind] in H; [|subst; discriminate|apply (defined_at _ _ _ Hj) in E2; contradiction].
  destruct (get_surface m id1) as [s1|e|] eqn:F1; cbn [bind] in H; [|subst; discriminate|apply defined_surface in F1; contradiction].
  destruct (get_surface m id2) as [s2|e|] eqn:F2; cbn [bind] in H; [|subst; discriminate|apply defined_surface in F2; contradiction].
  apply got_surface in F1 as [I1 X1]. apply got_surface in F2 as [I2 X2]. apply got_at in E1. apply got_at in E2.
  eapply defined_pair_task; [exact I1|exact I2| |exact H]. apply (st_other _ _ _ Ht s1 s2 i j I1 I2); rewrite ?X1, ?X2; assumption.
Qed.
Lemma traversed_in : forall fl cands s0 r, traverses (record_action (fun _ => Ok true) false) fl cands s0 r -> forall found, r = Ok found -> forall c, In c found -> In c s0 \/ In c cands.
Proof.
  intros fl cands s0 r T. induction T as [fl s|cands s|fl cands c rest s s' b r P E T IH|fl cands c rest s e P E|fl cands c rest s P E]; intros found Ef k Hk; try discriminate.
  - injection Ef as <-. left. exact Hk.
  - injection Ef as <-. left. exact Hk.
  - unfold record_action in E. cbn [bind] in E. injection E as <- <-. destruct (IH found Ef k Hk) as [Hin|Hin].
    + apply in_app_iff in Hin as [Hin|[<-|[]]]; [left; exact Hin|right]. apply (Permutation_in _ (Permutation_sym P)). left. reflexivity.
    + right. apply (Permutation_in _ (Permutation_sym P)). right. exact Hin.
Qed.
Lemma defined_intersecting : forall a r, intersecting_polygons px m trees a r -> defined r.
Proof.
  intros a r H. unfold intersecting_polygons in H. destruct (existsb _ _); [subst; discriminate|]. destruct H as (rs & overlaps & os & H1 & T & H2 & ->). apply defined_gather. apply Forall_app. split.
  - eapply Forall2_defined; [exact H1|]. intros s r _ Hr. eapply defined_self_task, Hr.
  - eapply Forall2_defined; [exact H2|]. intros c r Hc Hr. eapply defined_overlap_task; [|exact Hr]. destruct (traversed_in _ _ _ _ T _ eq_refl c Hc) as [[]|Hin]. exact Hin.
Qed.
Lemma defined_section_intersections : forall r, section_inspect_intersections px m trees r -> defined r.
Proof. intros r (found & H & ->). defined_step; [eapply defined_intersecting, H|defined_all]. Qed.
Lemma defined_self_intersections : forall r, inspect_surfaces_self_intersections px m trees r -> defined r.
Proof. intros r (found & H & ->). defined_step; [eapply defined_intersecting, H|defined_all]. Qed.
Lemma defined_has_intersections : forall r, model_has_intersecting_surfaces px m trees r -> defined r.
Proof. intros r (found & H & ->). defined_step; [eapply defined_intersecting, H|defined_all]. Qed.

Variable lines : LineTrees.
Hypothesis Hl : sane_line_trees m trees lines.
Hypothesis He : forall l v w, In l (m_lines m) -> In (v, w) (ec_edges (co_mesh l)) -> v < length (ec_points (co_mesh l)) /\ w < length (ec_points (co_mesh l)).
Lemma defined_polygon_edge : forall s l c, In s (m_surfaces m) -> In l (m_lines m) -> fst c < nb_polygons (co_mesh s) -> snd c < length (ec_edges (co_mesh l)) ->
  defined (polygon_edge_intersect px (co_mesh s) (co_mesh l) c).
Proof.
  intros s l c Is Il Hp Hq. unfold polygon_edge_intersect. assert (NE : polygon_vertices (co_mesh s) (fst c) <> []).
  { intros Z. apply (st_polygons _ _ _ Hl s Is). rewrite <- Z. unfold polygon_vertices. apply nth_In. exact Hp. }
  destruct (defined_fan _ NE) as [D R]. defined_step; [exact D|]. specialize (R _ H). defined_step.
  { unfold curve_segment. defined_step; [apply defined_at, Hq|]. destruct a0 as [v w]. apply got_in in H0. destruct (He l v w Il H0). cbn [fst snd].
    defined_step; [apply defined_at; assumption|]. defined_step; [apply defined_at; assumption|discriminate]. }
  defined_step. destruct (R _ H1) as [L C]. defined_step; [|discriminate]. apply defined_mesh_triangle; [|exact L]. intros v Hv. eapply polygon_points; [apply Hs, Is|exact Hp|apply C, Hv].
Qed.
Lemma defined_loop : forall A S (body : A -> S -> outcome S -> Prop) l s r, (forall a s r, In a l -> body a s r -> defined r) -> loop body l s r -> defined r.
Proof.
  intros A S body l s r D L. induction L as [s|a l s s' r B L IH|a l s e B|a l s B]; try discriminate.
  - apply IH. intros x s0 r0 Hx. apply D. right. exact Hx.
  - exfalso. eapply (D a s UB); [left; reflexivity|exact B|reflexivity].
Qed.
Lemma defined_line_step : forall s i l acc r, nth_error (tr_uuids trees) i = Some (co_id s) -> line_surface_step px m lines s i l acc r -> defined r.
Proof.
  intros s i l acc r Ei H. unfold line_surface_step in H. destruct (Nat.eqb _ _); [subst; discriminate|].
  destruct (get_surface m (co_id s)) as [s'|e|] eqn:F1; cbn [bind] in H; [|subst; discriminate|apply defined_surface in F1; contradiction].
  destruct (get_line m (co_id l)) as [l'|e|] eqn:F2; cbn [bind] in H; [|subst; discriminate|apply defined_line in F2; contradiction].
  destruct (mesh_tree_id (lt_uuids lines) (co_id l)) as [j|e|] eqn:Ej; cbn [bind] in H; [|subst; discriminate|apply defined_tree_id in Ej; contradiction].
  destruct H as (found & T & ->). apply got_surface in F1 as [I1 X1]. apply got_line in F2 as [I2 X2]. apply got_tree_id in Ej.
  defined_step; [|discriminate]. eapply defined_record; [|exact T]. intros [p q] Hc.
  destruct (st_lines _ _ _ Hl s' l' i j I1 I2) with (p := p) (q := q) as [Hp Hq]; rewrite ?X1, ?X2; try assumption. apply defined_polygon_edge; assumption.
Qed.
Lemma defined_brep_intersections : forall r, brep_inspect_intersections px m trees lines r -> defined r.
Proof.
  intros r (r1 & H1 & H2). assert (D : defined r1) by (apply defined_section_intersections, H1). destruct r1 as [i1|e|]; [|subst; discriminate|congruence].
  destruct H2 as (found & H & ->). defined_step; [|defined_all]. unfold intersecting_lines_surfaces in H. destruct (existsb _ _); [subst; discriminate|]. destruct (existsb _ _); [subst; discriminate|].
  eapply defined_loop; [|exact H]. intros s acc r _ Hstep. unfold surface_step in Hstep. destruct (mesh_tree_id (tr_uuids trees) (co_id s)) as [i|e|] eqn:Ei; [|subst; discriminate|apply defined_tree_id in Ei; contradiction].
  eapply defined_loop; [|exact Hstep]. intros l acc2 r2 _ Hr. eapply defined_line_step; [apply got_tree_id, Ei|exact Hr].
Qed.
End Search.
