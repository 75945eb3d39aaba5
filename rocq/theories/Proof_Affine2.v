(** Affine maps keep the pairs of polygons, and of polygons and edges, that meet. *)
From Coq Require Import String List Arith NArith ZArith Bool QArith Lqa Lia.
From Verif Require Import Base BaseFacts Model_Issues Types Model_Intersections Spec_Colocation Spec_Intersections Spec_Geometry Spec_Geometry2 Spec_Geometry3 Spec_Moved Spec_Affine Proof_Geometry Proof_Affine.
Import ListNotations.
Open Scope nat_scope.
Open Scope list_scope.

Section Meshes.
Context (A : place -> place) (HA : affine_one_to_one A) (g : Point -> Point).
Notation gs := (moved_segment g).
Notation gt := (moved_triangle g).
Notation gm := (moved_surface g).
Lemma point_of_moved : forall mesh v p', point_of (gm mesh) v p' <-> exists p, p' = g p /\ point_of mesh v p.
Proof.
  intros mesh v p'. unfold point_of. cbn [moved_surface sm_points]. rewrite nth_error_map. split.
  - destruct (nth_error (sm_points mesh) v) as [p|] eqn:E; cbn; [|discriminate]. intros [= <-]. exists p. split; [reflexivity|exact eq_refl].
  - intros (p & -> & ->). reflexivity.
Qed.
Lemma triangle_of_moved : forall mesh t T', triangle_of (gm mesh) t T' <-> exists T, T' = gt T /\ triangle_of mesh t T.
Proof.
  intros mesh t T'. unfold triangle_of. split.
  - intros (a & b & c & E & H0 & H1 & H2). apply point_of_moved in H0 as (p0 & E0 & H0). apply point_of_moved in H1 as (p1 & E1 & H1). apply point_of_moved in H2 as (p2 & E2 & H2).
    exists (p0, p1, p2). split; [destruct T' as [[x y] z]; cbn in *; subst; reflexivity|]. exists a, b, c. tauto.
  - intros ([[p0 p1] p2] & -> & a & b & c & E & H0 & H1 & H2). exists a, b, c. split; [exact E|]. cbn in *. rewrite !point_of_moved. split; [exists p0; tauto|]. split; [exists p1; tauto|exists p2; tauto].
Qed.
Lemma segment_of_moved : forall curve e s', segment_of (moved_curve g curve) e s' <-> exists s, s' = gs s /\ segment_of curve e s.
Proof.
  intros curve e s'. unfold segment_of. cbn [moved_curve ec_edges ec_points]. split.
  - intros (a & b & E & H0 & H1). rewrite nth_error_map in H0, H1. destruct (nth_error (ec_points curve) a) as [p|] eqn:Ea; [|discriminate]. destruct (nth_error (ec_points curve) b) as [q|] eqn:Eb; [|discriminate].
    cbn [option_map] in H0, H1. exists (p, q). split; [destruct s' as [u v]; cbn [fst snd] in *; injection H0 as <-; injection H1 as <-; reflexivity|]. exists a, b. cbn [fst snd]. tauto.
  - intros ([p q] & -> & a & b & E & H0 & H1). exists a, b. split; [exact E|]. rewrite !nth_error_map. cbn in *. rewrite H0, H1. split; reflexivity.
Qed.
Lemma follows_point : forall mesh v p, follows_map A g (sm_points mesh) -> point_of mesh v p -> finite_point p /\ finite_point (g p) /\ carried A g p.
Proof. intros mesh v p F H. exact (F p (nth_error_In _ _ H)). Qed.
Lemma follows_triangle : forall mesh t T, follows_map A g (sm_points mesh) -> triangle_of mesh t T -> finite_triangle (gt T) /\ carried_triangle A g T.
Proof.
  intros mesh t [[p0 p1] p2] F (a & b & c & _ & H0 & H1 & H2). apply (follows_point mesh _ _ F) in H0 as (_ & F0 & C0). apply (follows_point mesh _ _ F) in H1 as (_ & F1 & C1). apply (follows_point mesh _ _ F) in H2 as (_ & F2 & C2).
  split; split; try split; assumption.
Qed.
Lemma follows_segment : forall curve e s, follows_map A g (ec_points curve) -> segment_of curve e s -> finite_segment (gs s) /\ carried_segment A g s.
Proof.
  intros curve e [p q] F (a & b & _ & H0 & H1). destruct (F _ (nth_error_In _ _ H0)) as (_ & F0 & C0). destruct (F _ (nth_error_In _ _ H1)) as (_ & F1 & C1). split; split; assumption.
Qed.
Lemma common_image : forall mesh c x x', follows_map A g (sm_points mesh) -> image A x x' -> (in_common (gm mesh) c x' <-> in_common mesh c x).
Proof.
  intros mesh c x x' F X. split.
  - intros H. inversion H as [a p' y Ha Hx|a b p' q' y Ha Hb Hx]; subst.
    + apply point_of_moved in Ha as (p & -> & Ha). apply (ic_vertex mesh a p x Ha). apply (image_eq A HA _ _ _ _ X (proj2 (proj2 (follows_point mesh _ _ F Ha)))), Hx.
    + apply point_of_moved in Ha as (p & -> & Ha). apply point_of_moved in Hb as (q & -> & Hb). apply (ic_side mesh a b p q x Ha Hb).
      apply (image_between A HA _ _ _ _ (proj2 (proj2 (follows_point mesh _ _ F Ha))) (proj2 (proj2 (follows_point mesh _ _ F Hb))) _ _ X), Hx.
  - intros H. inversion H as [a p y Ha Hx|a b p q y Ha Hb Hx]; subst.
    + apply (ic_vertex (gm mesh) a (g p) x'); [apply point_of_moved; exists p; tauto|]. apply (image_eq A HA _ _ _ _ X (proj2 (proj2 (follows_point mesh _ _ F Ha)))), Hx.
    + apply (ic_side (gm mesh) a b (g p) (g q) x'); [apply point_of_moved; exists p; tauto|apply point_of_moved; exists q; tauto|].
      apply (image_between A HA _ _ _ _ (proj2 (proj2 (follows_point mesh _ _ F Ha))) (proj2 (proj2 (follows_point mesh _ _ F Hb))) _ _ X), Hx.
Qed.
Lemma beyond_image : forall mesh c T1 T2, follows_map A g (sm_points mesh) -> carried_triangle A g T1 -> carried_triangle A g T2 ->
  (meet_beyond (gm mesh) c (gt T1) (gt T2) <-> meet_beyond mesh c T1 T2).
Proof.
  intros mesh c T1 T2 F C1 C2. split.
  - intros (x' & H1 & H2 & N). destruct (image_triangle A HA g T1 x' C1 H1) as (x & X & H). exists x. split; [exact H|]. split; [apply (triangle_image A HA g T2 x x' C2 X), H2|].
    rewrite <- (common_image mesh c x x' F X). exact N.
  - intros (x & H1 & H2 & N). exists (A x). split; [apply (triangle_image A HA g T1 x _ C1 (image_self A x)), H1|]. split; [apply (triangle_image A HA g T2 x _ C2 (image_self A x)), H2|].
    rewrite (common_image mesh c x _ F (image_self A x)). exact N.
Qed.
Lemma holds_image : forall T1 T2, carried_triangle A g T1 -> carried_triangle A g T2 -> (holds_corner (gt T1) (gt T2) <-> holds_corner T1 T2).
Proof.
  intros T1 T2 C1 C2. split; intros (i & L & H); exists i; (split; [exact L|]); revert H; apply (inside_image A HA g T1 _ _ C1 (corner_image A g T2 i C2)).
Qed.
Lemma engulfs_image : forall mesh c T1 T2, follows_map A g (sm_points mesh) -> carried_triangle A g T1 -> carried_triangle A g T2 ->
  (engulfs (gm mesh) c (gt T1) (gt T2) <-> engulfs mesh c T1 T2).
Proof.
  intros mesh c T1 T2 F C1 C2. split; intros H i L; specialize (H i L); revert H; rewrite (inside_image A HA g T1 _ _ C1 (corner_image A g T2 i C2)), (common_image mesh c _ _ F (corner_image A g T2 i C2)); exact (fun h => h).
Qed.
Lemma pierces_image : forall r mesh curve c, follows_map A g (sm_points mesh) -> follows_map A g (ec_points curve) ->
  (pierces r (gm mesh) (moved_curve g curve) c <-> pierces r mesh curve c).
Proof.
  intros r mesh curve c F FC. split.
  - intros (t & T' & s' & x' & H1 & H2 & H3 & H4 & H5 & H6 & H7). apply triangle_of_moved in H2 as (T & -> & H2). apply segment_of_moved in H3 as (s & -> & H3).
    destruct (follows_triangle mesh t T F H2) as (_ & CT). destruct (follows_segment curve _ s FC H3) as (_ & CS). destruct (image_segment A HA g s x' CS H4) as (x & X & Hx).
    exists t, T, s, x. split; [exact H1|]. split; [exact H2|]. split; [exact H3|]. split; [exact Hx|]. split; [apply (triangle_image A HA g T x x' CT X), H5|].
    split; [rewrite (parallel_image A HA g r s T CS CT) in H6; exact H6|]. rewrite (end_at_image A HA g s x x' CS X), (corner_at_image A HA g T x x' CT X) in H7. exact H7.
  - intros (t & T & s & x & H1 & H2 & H3 & H4 & H5 & H6 & H7). destruct (follows_triangle mesh t T F H2) as (_ & CT). destruct (follows_segment curve _ s FC H3) as (_ & CS).
    exists t, (gt T), (gs s), (A x). split; [exact H1|]. split; [apply triangle_of_moved; exists T; tauto|]. split; [apply segment_of_moved; exists s; tauto|].
    split; [apply (segment_image A HA g s x _ CS (image_self A x)), H4|]. split; [apply (triangle_image A HA g T x _ CT (image_self A x)), H5|].
    split; [rewrite (parallel_image A HA g r s T CS CT); exact H6|]. rewrite (end_at_image A HA g s x _ CS (image_self A x)), (corner_at_image A HA g T x _ CT (image_self A x)). exact H7.
Qed.
Lemma curve_crosses_image : forall r mesh curve c, follows_map A g (sm_points mesh) -> follows_map A g (ec_points curve) ->
  (curve_crosses r (gm mesh) (moved_curve g curve) c <-> curve_crosses r mesh curve c).
Proof.
  intros r mesh curve c F FC. unfold curve_crosses. change (sm_dimension (gm mesh)) with (sm_dimension mesh). change (polygon_vertices (gm mesh) (fst c)) with (polygon_vertices mesh (fst c)). split.
  - intros (T' & s' & H1 & H2 & H3). apply triangle_of_moved in H1 as (T & -> & H1). apply segment_of_moved in H2 as (s & -> & H2).
    destruct (follows_triangle mesh _ T F H1) as (_ & CT). destruct (follows_segment curve _ s FC H2) as (_ & CS). exists T, s. split; [exact H1|]. split; [exact H2|].
    destruct (Nat.eqb (sm_dimension mesh) 2); [apply (crosses_plane_image A HA g s T CS CT), H3|apply (crosses_space_image A HA g r s T CS CT), H3].
  - intros (T & s & H1 & H2 & H3). destruct (follows_triangle mesh _ T F H1) as (_ & CT). destruct (follows_segment curve _ s FC H2) as (_ & CS). exists (gt T), (gs s).
    split; [apply triangle_of_moved; exists T; tauto|]. split; [apply segment_of_moved; exists s; tauto|].
    destruct (Nat.eqb (sm_dimension mesh) 2); [apply (crosses_plane_image A HA g s T CS CT), H3|apply (crosses_space_image A HA g r s T CS CT), H3].
Qed.

(** ** Triangles of the surfaces of a model *)
Context (text : Point -> string) (m : Model).
Notation M' := (moved_model g text m).
Notation moved := (moved_component gm).
Notation moved_line := (moved_component (moved_curve g)).
Lemma common_moved : forall s1 s2 t2 t1 c, common_vertices M' (moved s1) (moved s2) t2 t1 c <-> common_vertices m s1 s2 t2 t1 c.
Proof.
  intros s1 s2 t2 t1 c. split; induction 1 as [|v w t1 l H _ IH|v t1 l H _ IH]; [apply cv_nil|apply cv_common; [exact H|exact IH]|apply cv_other; [exact H|exact IH]|apply cv_nil|apply cv_common; [exact H|exact IH]|apply cv_other; [exact H|exact IH]].
Qed.
Section Two.
Context (s1 s2 : Component SurfaceMesh) (F1 : follows_map A g (sm_points (co_mesh s1))) (F2 : follows_map A g (sm_points (co_mesh s2))).
(** statements about two triangles with their common vertices *)
Lemma exists_moved : forall (P P' : list (nat * nat) -> Triangle -> Triangle -> Prop) t1 t2,
  (forall c T1 T2, carried_triangle A g T1 -> carried_triangle A g T2 -> (P' c (gt T1) (gt T2) <-> P c T1 T2)) ->
  ((exists T1 T2 c, triangle_of (co_mesh (moved s1)) t1 T1 /\ triangle_of (co_mesh (moved s2)) t2 T2 /\ common_vertices M' (moved s1) (moved s2) t2 t1 c /\ P' c T1 T2) <->
   exists T1 T2 c, triangle_of (co_mesh s1) t1 T1 /\ triangle_of (co_mesh s2) t2 T2 /\ common_vertices m s1 s2 t2 t1 c /\ P c T1 T2).
Proof.
  intros P P' t1 t2 E. split.
  - intros (T1' & T2' & c & H1 & H2 & H3 & H4). apply triangle_of_moved in H1 as (T1 & -> & H1). apply triangle_of_moved in H2 as (T2 & -> & H2). exists T1, T2, c.
    split; [exact H1|]. split; [exact H2|]. split; [apply common_moved, H3|]. apply (E c T1 T2 (proj2 (follows_triangle _ _ _ F1 H1)) (proj2 (follows_triangle _ _ _ F2 H2))), H4.
  - intros (T1 & T2 & c & H1 & H2 & H3 & H4). exists (gt T1), (gt T2), c. split; [apply triangle_of_moved; exists T1; tauto|]. split; [apply triangle_of_moved; exists T2; tauto|].
    split; [apply common_moved, H3|]. apply (E c T1 T2 (proj2 (follows_triangle _ _ _ F1 H1)) (proj2 (follows_triangle _ _ _ F2 H2))), H4.
Qed.
Lemma cross_moved : forall t1 t2, triangles_cross M' (moved s1) (moved s2) t1 t2 <-> triangles_cross m s1 s2 t1 t2.
Proof.
  intros t1 t2. apply (exists_moved (fun c T1 T2 => List.length c = 3 \/ meet_beyond (co_mesh s1) c T1 T2) (fun c T1 T2 => List.length c = 3 \/ meet_beyond (co_mesh (moved s1)) c T1 T2)).
  intros c T1 T2 C1 C2. apply or_iff_compat_l. exact (beyond_image (co_mesh s1) c T1 T2 F1 C1 C2).
Qed.
Lemma nested_moved : forall t1 t2, nested_on_side M' (moved s1) (moved s2) t1 t2 <-> nested_on_side m s1 s2 t1 t2.
Proof.
  intros t1 t2. apply (exists_moved (fun c T1 T2 => List.length c = 2 /\ holds_corner T1 T2) (fun c T1 T2 => List.length c = 2 /\ holds_corner T1 T2)).
  intros c T1 T2 C1 C2. rewrite (holds_image T1 T2 C1 C2). reflexivity.
Qed.
Lemma one_inside_moved : forall t1 t2, one_inside M' (moved s1) (moved s2) t1 t2 <-> one_inside m s1 s2 t1 t2.
Proof.
  intros t1 t2. apply (exists_moved (fun c T1 T2 => List.length c < 2 /\ (engulfs (co_mesh s1) c T1 T2 \/ engulfs (co_mesh s1) c T2 T1))
    (fun c T1 T2 => List.length c < 2 /\ (engulfs (co_mesh (moved s1)) c T1 T2 \/ engulfs (co_mesh (moved s1)) c T2 T1))).
  intros c T1 T2 C1 C2. change (co_mesh (moved s1)) with (gm (co_mesh s1)). rewrite (engulfs_image (co_mesh s1) c T1 T2 F1 C1 C2), (engulfs_image (co_mesh s1) c T2 T1 F1 C2 C1). reflexivity.
Qed.
Lemma reported_moved : forall t1 t2, reported_triangles M' (moved s1) (moved s2) t1 t2 <-> reported_triangles m s1 s2 t1 t2.
Proof. intros t1 t2. unfold reported_triangles. rewrite cross_moved, nested_moved. reflexivity. Qed.
Lemma reported_plane_moved : forall t1 t2, reported_in_plane M' (moved s1) (moved s2) t1 t2 <-> reported_in_plane m s1 s2 t1 t2.
Proof. intros t1 t2. unfold reported_in_plane. rewrite cross_moved, one_inside_moved. reflexivity. Qed.
Lemma meet_moved : forall (R R' : list nat -> list nat -> Prop) p q, (forall t1 t2, R' t1 t2 <-> R t1 t2) -> (polygons_meet (moved s1) (moved s2) R' p q <-> polygons_meet s1 s2 R p q).
Proof.
  intros R R' p q E. split; intros (t1 & t2 & H1 & H2 & H3); exists t1, t2; (split; [exact H1|]); (split; [exact H2|]); apply E, H3.
Qed.
End Two.
(** ** Models *)
Lemma in_moved : forall s', In s' (m_surfaces M') <-> exists s, s' = moved s /\ In s (m_surfaces m).
Proof.
  intros s'. change (m_surfaces M') with (map moved (m_surfaces m)). rewrite in_map_iff. split; intros (s & H1 & H2); exists s; split; auto.
Qed.
Lemma in_moved_line : forall l', In l' (m_lines M') <-> exists l, l' = moved_line l /\ In l (m_lines m).
Proof.
  intros l'. change (m_lines M') with (map moved_line (m_lines m)). rewrite in_map_iff. split; intros (s & H1 & H2); exists s; split; auto.
Qed.
Lemma unique_moved : unique_ids M' <-> unique_ids m.
Proof.
  unfold unique_ids. assert (E : all_ids M' = all_ids m); [|rewrite E; reflexivity].
  unfold all_ids. cbn [moved_model m_corners m_lines m_surfaces m_blocks]. rewrite !map_map. reflexivity.
Qed.
Lemma trees_moved : forall trees, trees_of m trees -> trees_of M' trees.
Proof.
  intros trees [T1 T2 T3 T4 T5 T6]. constructor; [exact T1| | |exact T4| |].
  - intros id H. destruct (T2 id H) as (s & Hs & E). exists (moved s). split; [apply in_moved; exists s; tauto|exact E].
  - intros s' H Ha. apply in_moved in H as (s & -> & H). exact (T3 s H Ha).
  - intros s' i H Hi. apply in_moved in H as (s & -> & H). exact (T5 s i H Hi).
  - intros s1' s2' i j H1 H2 E1 E2. apply in_moved in H1 as (s1 & -> & H1). apply in_moved in H2 as (s2 & -> & H2). exact (T6 s1 s2 i j H1 H2 E1 E2).
Qed.
Lemma line_trees_moved : forall trees lines, line_trees_of m trees lines -> line_trees_of M' trees lines.
Proof.
  intros trees lines [T1 T2 T3]. constructor; [exact T1| |].
  - intros l' H Ha. apply in_moved_line in H as (l & -> & H). exact (T2 l H Ha).
  - intros s' l' i j H1 H2 E1 E2. apply in_moved in H1 as (s & -> & H1). apply in_moved_line in H2 as (l & -> & H2). exact (T3 s l i j H1 H2 E1 E2).
Qed.
Lemma ready_moved : forall px px' trees, indices_in_range px' -> intersections_ready px m trees -> intersections_ready px' M' trees.
Proof.
  intros px px' trees I [R1 R2 R3 R4 R5]. constructor; [apply unique_moved, R1|apply trees_moved, R2| |exact I|].
  - intros s' H. apply in_moved in H as (s & -> & H). intros p L. destruct (R3 s H p L) as (H1 & H2 & H3). split; [exact H1|]. split; [|exact H3].
    intros v Hv. cbn [moved_component co_mesh moved_surface sm_points]. rewrite map_length. exact (H2 v Hv).
  - intros s' H D. apply in_moved in H as (s & -> & H). intros s1' s2' v w H1 H2. apply in_moved in H1 as (s1 & -> & H1). apply in_moved in H2 as (s2 & -> & H2).
    cbn [moved_component co_mesh moved_surface sm_points]. rewrite !map_length. exact (R5 s H D s1 s2 v w H1 H2).
Qed.
Lemma not_empty_moved : no_empty_surface m -> no_empty_surface M'.
Proof. intros N s' H. apply in_moved in H as (s & -> & H). exact (N s H). Qed.
Lemma no_empty_line_moved : no_empty_line m -> no_empty_line M'.
Proof. intros N s' H. apply in_moved_line in H as (s & -> & H). exact (N s H). Qed.
Lemma big_moved : big_polygons m -> big_polygons M'.
Proof. intros N s' p H. apply in_moved in H as (s & -> & H). exact (N s p H). Qed.
Lemma edges_moved : (forall l, In l (m_lines m) -> edges_exist (co_mesh l)) -> forall l, In l (m_lines M') -> edges_exist (co_mesh l).
Proof.
  intros N l' H e L. apply in_moved_line in H as (l & -> & H). destruct (N l H e L) as (s & Hs). exists (gs s). apply segment_of_moved. exists s. tauto.
Qed.
Lemma dimension_moved : forall d, dimension_is m d -> dimension_is M' d.
Proof. intros d N s' H. apply in_moved in H as (s & -> & H). exact (N s H). Qed.
Lemma proposed_moved : forall trees s1' s2' c, proposed M' trees s1' s2' c <-> exists s1 s2, s1' = moved s1 /\ s2' = moved s2 /\ proposed m trees s1 s2 c.
Proof.
  intros trees s1' s2' c. split.
  - intros [(-> & H & Ha & i & Ei & Hi)|(H1 & H2 & i & j & Hij)].
    + apply in_moved in H as (s & -> & H). exists s, s. split; [reflexivity|]. split; [reflexivity|]. left. split; [reflexivity|]. split; [exact H|]. split; [exact Ha|]. exists i. split; [exact Ei|exact Hi].
    + apply in_moved in H1 as (s1 & -> & H1). apply in_moved in H2 as (s2 & -> & H2). exists s1, s2. split; [reflexivity|]. split; [reflexivity|]. right. split; [exact H1|]. split; [exact H2|]. exists i, j. exact Hij.
  - intros (s1 & s2 & -> & -> & [(-> & H & Ha & i & Ei & Hi)|(H1 & H2 & i & j & Hij)]).
    + left. split; [reflexivity|]. split; [apply in_moved; exists s2; tauto|]. split; [exact Ha|]. exists i. split; [exact Ei|exact Hi].
    + right. split; [apply in_moved; exists s1; tauto|]. split; [apply in_moved; exists s2; tauto|]. exists i, j. exact Hij.
Qed.
Lemma proposed_line_moved : forall trees lines s' l' c, proposed_line M' trees lines s' l' c <-> exists s l, s' = moved s /\ l' = moved_line l /\ proposed_line m trees lines s l c.
Proof.
  intros trees lines s' l' c. split.
  - intros (H1 & Ha & H2 & Hb & H). apply in_moved in H1 as (s & -> & H1). apply in_moved_line in H2 as (l & -> & H2). exists s, l. split; [reflexivity|]. split; [reflexivity|].
    split; [exact H1|]. split; [exact Ha|]. split; [exact H2|]. split; [exact Hb|exact H].
  - intros (s & l & -> & -> & H1 & Ha & H2 & Hb & H). split; [apply in_moved; exists s; tauto|]. split; [exact Ha|]. split; [apply in_moved_line; exists l; tauto|]. split; [exact Hb|exact H].
Qed.
Context (SF : surfaces_follow A g m).
Lemma joined_moved : joined_surfaces m -> joined_surfaces M'.
Proof.
  intros J s1' s2' v w p' q' H1 H2 E Hp Hq. apply in_moved in H1 as (s1 & -> & H1). apply in_moved in H2 as (s2 & -> & H2). apply point_of_moved in Hp as (p & -> & Hp). apply point_of_moved in Hq as (q & -> & Hq).
  apply (image_eq A HA (place_of p) _ (place_of q) _ (proj2 (proj2 (follows_point _ _ _ (SF s1 H1) Hp))) (proj2 (proj2 (follows_point _ _ _ (SF s2 H2) Hq)))). exact (J s1 s2 v w p q H1 H2 E Hp Hq).
Qed.
Lemma numbered_moved : numbered_alike m -> numbered_alike M'.
Proof.
  intros J s1' s2' v w p' q' H1 H2 E Hp Hq. apply in_moved in H1 as (s1 & -> & H1). apply in_moved in H2 as (s2 & -> & H2). apply point_of_moved in Hp as (p & -> & Hp). apply point_of_moved in Hq as (q & -> & Hq).
  apply (image_eq A HA (place_of q) _ (place_of p) _ (proj2 (proj2 (follows_point _ _ _ (SF s1 H1) Hq))) (proj2 (proj2 (follows_point _ _ _ (SF s1 H1) Hp)))). exact (J s1 s2 v w p q H1 H2 E Hp Hq).
Qed.
Lemma solid_moved : solid_model m -> solid_model M'.
Proof.
  intros S s' H p t T' L Ht HT. apply in_moved in H as (s & -> & H). apply triangle_of_moved in HT as (T & -> & HT). destruct (follows_triangle _ t T (SF s H) HT) as (FT & C).
  split; [exact FT|]. apply (real_image A HA g T C). exact (proj2 (S s H p t T L Ht HT)).
Qed.
Lemma solid_section_moved : (forall s, In s (m_surfaces m) -> stays_in_plane g (sm_points (co_mesh s))) -> solid_section m -> solid_section M'.
Proof.
  intros PL S s' H. apply in_moved in H as (s & -> & H). destruct (S s H) as (SP & ST). split.
  - intros p' Hp. cbn [moved_component co_mesh moved_surface sm_points] in Hp. apply in_map_iff in Hp as (p & <- & Hp). split; [exact (proj1 (proj2 (SF s H p Hp)))|]. exact (PL s H p Hp (proj2 (SP p Hp))).
  - intros p t T' L Ht HT. apply triangle_of_moved in HT as (T & -> & HT). destruct (follows_triangle _ t T (SF s H) HT) as (FT & C). apply (real_image A HA g T C). exact (ST p t T L Ht HT).
Qed.
Lemma solid_lines_moved : lines_follow A g m -> solid_lines m -> solid_lines M'.
Proof.
  intros LF S l' H e s' Hs. apply in_moved_line in H as (l & -> & H). apply segment_of_moved in Hs as (s & -> & Hs). destruct (follows_segment _ _ s (LF l H) Hs) as (FS & C).
  split; [exact FS|]. apply (real_segment_image A HA g s C). exact (proj2 (S l H e s Hs)).
Qed.
End Meshes.

(** ** Polygons that meet touch *)
Lemma common_first : forall m s1 s2 t2 t1 c v w, common_vertices m s1 s2 t2 t1 c -> In (v, w) c -> In v t1 /\ In w t2 /\ uv_of m s1 v = uv_of m s2 w.
Proof.
  intros m s1 s2 t2 t1 c v w H. induction H as [|v0 w0 t1 l C _ IH|v0 t1 l N _ IH]; intros I; [destruct I| |].
  - destruct I as [[= -> ->]|I]; [|destruct (IH I) as (H1 & H2 & H3); split; [right; exact H1|tauto]]. destruct C as (pre & post & -> & E & _). split; [left; reflexivity|]. split; [apply in_elt|symmetry; exact E].
  - destruct (IH I) as (H1 & H2 & H3). split; [right; exact H1|tauto].
Qed.
Lemma on_corner : forall mesh t T v, triangle_of mesh t T -> In v t -> exists p, point_of mesh v p /\ on_triangle (place_of p) T.
Proof.
  intros mesh t [[p0 p1] p2] v (a & b & c & -> & H0 & H1 & H2) I. cbn [fst snd] in *.
  assert (X : forall (x y z : Q), (x == 1 /\ y == 0 /\ z == 0 \/ x == 0 /\ y == 1 /\ z == 0 \/ x == 0 /\ y == 0 /\ z == 1)%Q -> (0 <= x /\ 0 <= y /\ 0 <= z /\ x + y + z == 1)%Q) by (intros; lra).
  destruct I as [<-|[<-|[<-|[]]]]; [exists p0|exists p1|exists p2]; (split; [assumption|]).
  - exists 1%Q, 0%Q, 0%Q. do 3 (split; [lra|]). split; [lra|]. cbn [fst snd]. generalize (place_of p0), (place_of p1), (place_of p2). intros [[x0 x1] x2] [[y0 y1] y2] [[z0 z1] z2]. cbn. split; [ring|]. split; ring.
  - exists 0%Q, 1%Q, 0%Q. do 3 (split; [lra|]). split; [lra|]. cbn [fst snd]. generalize (place_of p0), (place_of p1), (place_of p2). intros [[x0 x1] x2] [[y0 y1] y2] [[z0 z1] z2]. cbn. split; [ring|]. split; ring.
  - exists 0%Q, 0%Q, 1%Q. do 3 (split; [lra|]). split; [lra|]. cbn [fst snd]. generalize (place_of p0), (place_of p1), (place_of p2). intros [[x0 x1] x2] [[y0 y1] y2] [[z0 z1] z2]. cbn. split; [ring|]. split; ring.
Qed.
Lemma cross_touches : forall m s1 s2 t1 t2, joined_surfaces m -> In s1 (m_surfaces m) -> In s2 (m_surfaces m) -> triangles_cross m s1 s2 t1 t2 ->
  exists T1 T2 x, triangle_of (co_mesh s1) t1 T1 /\ triangle_of (co_mesh s2) t2 T2 /\ on_triangle x T1 /\ on_triangle x T2.
Proof.
  intros m s1 s2 t1 t2 J I1 I2 (T1 & T2 & c & H1 & H2 & H3 & [L|(x & X1 & X2 & _)]); [|exists T1, T2, x; tauto].
  destruct c as [|[v w] c]; [discriminate|]. destruct (common_first m s1 s2 t2 t1 _ v w H3 (or_introl eq_refl)) as (Hv & Hw & E).
  destruct (on_corner _ t1 T1 v H1 Hv) as (p & Pp & Op). destruct (on_corner _ t2 T2 w H2 Hw) as (q & Pq & Oq). exists T1, T2, (place_of p). split; [exact H1|]. split; [exact H2|]. split; [exact Op|].
  exact (among_eq (place_of q) (place_of p) _ _ _ (J s1 s2 v w p q I1 I2 E Pp Pq) Oq).
Qed.
Lemma meeting_touches : forall m s1 s2 (R : list nat -> list nat -> Prop) c, joined_surfaces m -> In s1 (m_surfaces m) -> In s2 (m_surfaces m) -> (forall t1 t2, R t1 t2 -> triangles_cross m s1 s2 t1 t2) ->
  polygons_meet s1 s2 R (fst c) (snd c) -> polygons_touch s1 s2 c.
Proof.
  intros m s1 s2 R c J I1 I2 E (t1 & t2 & H1 & H2 & H3). destruct (cross_touches m s1 s2 t1 t2 J I1 I2 (E t1 t2 H3)) as (T1 & T2 & x & X). exists t1, t2, T1, T2, x. tauto.
Qed.
Lemma proposed_in : forall m trees s1 s2 c, proposed m trees s1 s2 c -> In s1 (m_surfaces m) /\ In s2 (m_surfaces m).
Proof. intros m trees s1 s2 c [(-> & H & _)|(H1 & H2 & _)]; tauto. Qed.
