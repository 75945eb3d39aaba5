From Coq Require Import String Ascii List Arith NArith ZArith Bool Lia Permutation.
From Verif Require Import Base BaseFacts Model_Issues Types Model_Intersections Spec_Intersections Spec_Symmetry
  Proof_Intersections Proof_Intersections2 Proof_Intersections3 Proof_Intersections4 Proof_Intersections5.
Import ListNotations.
Open Scope list_scope.

Definition inj_on (m : Model) (s : Component SurfaceMesh) (t : list nat) : Prop :=
  forall v w, In v t -> In w t -> uv_of m s v = uv_of m s w -> v = w.

Lemma swap_swap : forall A B (c : A * B), swap (swap c) = c.
Proof. intros A B [a b]. reflexivity. Qed.

(** the common vertices are the pairs with one unique vertex *)
Lemma common_iff : forall m s1 s2 t2 t1 c, inj_on m s2 t2 -> common_vertices m s1 s2 t2 t1 c ->
  forall v w, In (v, w) c <-> In v t1 /\ In w t2 /\ uv_of m s1 v = uv_of m s2 w.
Proof.
  intros m s1 s2 t2 t1 c I H v w. split; [apply common_in; exact H|].
  induction H as [|x y t1 l Hc H IH|x t1 l Hn H IH]; intros (A & B & U).
  - destruct A.
  - destruct A as [->|A]; [|right; apply IH; auto]. left.
    destruct Hc as (pre & post & E & Hy & _). f_equal. apply I; [subst t2; apply in_app_iff; right; left; reflexivity|exact B|congruence].
  - destruct A as [->|A]; [|apply IH; auto]. exfalso. apply (Hn w B). congruence.
Qed.
Lemma common_NoDup : forall m s1 s2 t2 t1 c, NoDup t1 -> common_vertices m s1 s2 t2 t1 c -> NoDup c.
Proof.
  intros m s1 s2 t2 t1 c N H. induction H as [|x y t1 l Hc H IH|x t1 l Hn H IH]; [constructor| |].
  - inversion N; subst. constructor; [|auto]. intros K. destruct (common_in _ _ _ _ _ _ _ _ H K) as (? & _). contradiction.
  - inversion N; subst. auto.
Qed.
Lemma common_swap : forall m s1 s2 t1 t2 c c', NoDup t1 -> NoDup t2 -> inj_on m s1 t1 -> inj_on m s2 t2 ->
  common_vertices m s1 s2 t2 t1 c -> common_vertices m s2 s1 t1 t2 c' -> Permutation c' (map swap c).
Proof.
  intros m s1 s2 t1 t2 c c' N1 N2 I1 I2 H H'. apply NoDup_Permutation.
  - exact (common_NoDup _ _ _ _ _ _ N2 H').
  - apply FinFun.Injective_map_NoDup; [|exact (common_NoDup _ _ _ _ _ _ N1 H)].
    intros [a b] [x y] E. unfold swap in E. cbn in E. congruence.
  - intros [w v]. rewrite (common_iff _ _ _ _ _ _ I1 H' w v). rewrite in_map_iff. split.
    + intros (A & B & U). exists (v, w). split; [reflexivity|]. apply (common_iff _ _ _ _ _ _ I2 H). auto.
    + intros ([x y] & E & K). unfold swap in E. cbn in E. injection E as -> ->. apply (common_iff _ _ _ _ _ _ I2 H) in K. intuition.
Qed.
Lemma common_exists : forall m s1 s2 t1 t2, exists c, common_vertices m s1 s2 t2 t1 c.
Proof. intros. eexists. apply common_spec. Qed.
Lemma perm_one : forall A (l : list A) a, Permutation l [a] -> l = [a].
Proof. intros. apply Permutation_length_1_inv, Permutation_sym. assumption. Qed.
Lemma perm_two : forall A (l : list A) a b, Permutation l [a; b] -> l = [a; b] \/ l = [b; a].
Proof. intros. apply Permutation_length_2_inv, Permutation_sym. assumption. Qed.

(** third vertices *)
Lemma third_in : forall t a b v, third_vertex t a b v -> In v t /\ v <> a /\ v <> b.
Proof. intros t a b v (pre & post & -> & A & B & _). split; [apply in_app_iff; right; left; reflexivity|auto]. Qed.
Lemma third_sym : forall t a b v, third_vertex t a b v -> third_vertex t b a v.
Proof. intros t a b v (pre & post & E & A & B & H). exists pre, post. repeat split; auto. intros x Hx. destruct (H x Hx); auto. Qed.
Lemma third_exists : forall t a b, NoDup t -> length t = 3 -> exists v, third_vertex t a b v.
Proof. intros t a b N L. destruct (third_ok t (a, a) (b, b) 0 N L) as (v & _ & _ & H). exists v. exact H. Qed.
Lemma third_perm : forall t a b v, NoDup t -> length t = 3 -> In a t -> In b t -> a <> b -> third_vertex t a b v -> Permutation t [a; b; v].
Proof.
  intros t a b v N L A B D T. destruct (third_in _ _ _ _ T) as (V & Va & Vb).
  apply Permutation_sym, NoDup_Permutation_bis.
  - repeat constructor; cbn; intuition congruence.
  - cbn. lia.
  - intros x [<-|[<-|[<-|[]]]]; assumption.
Qed.
Lemma point_fun : forall s v a b, point_of s v a -> point_of s v b -> a = b.
Proof. unfold point_of. intros. congruence. Qed.
Lemma triangle_fun : forall s t T T', triangle_of s t T -> triangle_of s t T' -> T = T'.
Proof.
  intros s t [[a b] c] [[a' b'] c'] (x & y & z & E & A & B & C) (x' & y' & z' & E' & A' & B' & C'). rewrite E in E'. injection E' as <- <- <-.
  cbn in *. unfold point_of in *. congruence.
Qed.
Lemma triangle_corners : forall s t a b v pa pb pv T, Permutation t [a; b; v] -> point_of s a pa -> point_of s b pb -> point_of s v pv ->
  triangle_of s t T -> corners_of T pa pb pv.
Proof.
  intros s t a b v pa pb pv [[p q] r] HP A B V (x & y & z & -> & X & Y & Z). cbn [fst snd] in *. unfold corners_of. cbn [fst snd].
  assert (K : Permutation (map (fun i => nth_error (sm_points s) i) [x; y; z]) (map (fun i => nth_error (sm_points s) i) [a; b; v])) by (apply Permutation_map, HP).
  cbn [map] in K. unfold point_of in *. rewrite X, Y, Z, A, B, V in K.
  change (Permutation (map Some [p; q; r]) (map Some [pa; pb; pv])) in K.
  destruct (Permutation_map_inv _ _ K) as (l & E & G).
  assert (l = [p; q; r]) as ->.
  { revert E. generalize [p; q; r]. intros l2 E. revert l E K G. clear. intros l E _ _. revert l2 E. induction l as [|x l IH]; intros [|y l2] E; try discriminate; [reflexivity|].
    cbn in E. injection E as E1 E2. subst. f_equal. apply IH. exact E2. }
  apply Permutation_sym. exact G.
Qed.

Section Pair.
Context (px : Predicates) (m : Model) (s1 s2 : Component SurfaceMesh) (t1 t2 : list nat).
Hypothesis N1 : NoDup t1. Hypothesis N2 : NoDup t2. Hypothesis L1 : length t1 = 3. Hypothesis L2 : length t2 = 3.
Hypothesis I1 : inj_on m s1 t1. Hypothesis I2 : inj_on m s2 t2.
Hypothesis R1 : in_mesh s1 t1. Hypothesis R2 : in_mesh s2 t2.
Hypothesis SP : same_points m s1 s2.

Lemma point_exists : forall (s : Component SurfaceMesh) t v, in_mesh s t -> In v t -> exists a, point_of (co_mesh s) v a.
Proof.
  intros s t v R H. unfold point_of. destruct (nth_error (sm_points (co_mesh s)) v) as [a|] eqn:E; [exists a; reflexivity|].
  apply nth_error_None in E. specialize (R v H). lia.
Qed.
Lemma triangle_exists : forall (s : Component SurfaceMesh) t, in_mesh s t -> length t = 3 -> exists T, triangle_of (co_mesh s) t T.
Proof.
  intros s t R L. destruct t as [|a [|b [|c [|]]]]; try discriminate.
  destruct (point_exists s _ a R) as [pa A]; [cbn; auto|]. destruct (point_exists s _ b R) as [pb B]; [cbn; auto|].
  destruct (point_exists s _ c R) as [pc C]; [cbn; auto|]. exists (pa, pb, pc), a, b, c. auto.
Qed.
Lemma shared_point : forall v w a, In w t2 -> uv_of m s1 v = uv_of m s2 w -> point_of (co_mesh s1) v a -> point_of (co_mesh s2) w a.
Proof. intros v w a W U A. destruct (point_exists s2 t2 w R2 W) as [b B]. rewrite (SP v w a b U A B). exact B. Qed.

(** 3D *)
Lemma meet_3d_swap : planes_symmetric px -> triangles_meet_3d px m s1 s2 t1 t2 -> triangles_meet_3d px m s2 s1 t2 t1.
Proof.
  intros PS K. destruct (common_exists m s2 s1 t2 t1) as [c' C'].
  destruct K as [c C L|a b v pa pb pv T C TV A B V HT H|c e p q T C L SE P Q HT H O|c e p q T C L SE P Q HT H O].
  - pose proof (common_swap _ _ _ _ _ _ _ N1 N2 I1 I2 C C') as HP. eapply m3_three; [exact C'|].
    rewrite (Permutation_length HP), map_length. exact L.
  - pose proof (common_swap _ _ _ _ _ _ _ N1 N2 I1 I2 C C') as HP. cbn [map] in HP.
    assert (HA : In (fst a) t1 /\ In (snd a) t2 /\ uv_of m s1 (fst a) = uv_of m s2 (snd a)).
    { destruct a as [x y]. apply (common_in _ _ _ _ _ _ _ _ C). left. reflexivity. }
    assert (HB : In (fst b) t1 /\ In (snd b) t2 /\ uv_of m s1 (fst b) = uv_of m s2 (snd b)).
    { destruct b as [x y]. apply (common_in _ _ _ _ _ _ _ _ C). right. left. reflexivity. }
    destruct HA as (A1 & A2 & AU). destruct HB as (B1 & B2 & BU).
    pose proof (shared_point _ _ _ A2 AU A) as A'. pose proof (shared_point _ _ _ B2 BU B) as B'.
    assert (DD : a <> b) by (pose proof (common_NoDup _ _ _ _ _ _ N1 C) as ND; inversion ND as [|? ? X]; subst; cbn in X; intuition).
    assert (D1 : fst a <> fst b).
    { intros E. apply DD. destruct a as [x y], b as [x' y']. cbn in *. subst x'. f_equal. apply I2; auto. congruence. }
    assert (D2 : snd a <> snd b).
    { intros E. apply DD. destruct a as [x y], b as [x' y']. cbn in *. subst y'. f_equal. apply I1; auto. congruence. }
    destruct (third_exists t2 (snd a) (snd b) N2 L2) as [w TW]. destruct (third_in _ _ _ _ TW) as (W & _).
    destruct (point_exists s2 t2 w R2 W) as [pw PW]. destruct (triangle_exists s1 t1 R1 L1) as [T1 HT1].
    assert (G : in_plane px pa pb pw T1).
    { apply (PS pa pb pv pw T1 T).
      - eapply triangle_corners; [exact (third_perm _ _ _ _ N1 L1 A1 B1 D1 TV)|eassumption..].
      - eapply triangle_corners; [exact (third_perm _ _ _ _ N2 L2 A2 B2 D2 TW)|eassumption..].
      - exact H. }
    destruct (perm_two _ _ _ _ HP) as [E|E]; rewrite E in C'.
    + eapply (m3_two px m s2 s1 t2 t1 (swap a) (swap b)); [exact C'|exact TW|exact A'|exact B'|exact PW|exact HT1|exact G].
    + eapply (m3_two px m s2 s1 t2 t1 (swap b) (swap a)); [exact C'|apply third_sym; exact TW|exact B'|exact A'|exact PW|exact HT1|].
      destruct G as [G|G]; [right|left]; exact G.
  - pose proof (common_swap _ _ _ _ _ _ _ N1 N2 I1 I2 C C') as HP.
    eapply m3_second; [exact C'|rewrite (Permutation_length HP), map_length; exact L|exact SE|exact P|exact Q|exact HT|exact H|].
    intros (d & i & j & w & E & Hi & Hj & Se & Nw & Ew). apply O. subst c'. pose proof (Permutation_sym HP) as HP'.
    apply perm_one in HP'. destruct c as [|d' [|]]; try discriminate. cbn in HP'. injection HP' as HP'. subst d.
    exists d', i, j, w. repeat split; auto.
  - pose proof (common_swap _ _ _ _ _ _ _ N1 N2 I1 I2 C C') as HP.
    eapply m3_first; [exact C'|rewrite (Permutation_length HP), map_length; exact L|exact SE|exact P|exact Q|exact HT|exact H|].
    intros (d & i & j & w & E & Hi & Hj & Se & Nw & Ew). apply O. subst c'. pose proof (Permutation_sym HP) as HP'.
    apply perm_one in HP'. destruct c as [|d' [|]]; try discriminate. cbn in HP'. injection HP' as HP'. subst d.
    exists d', i, j, w. repeat split; auto.
Qed.

(** 2D *)
Lemma segments_outside : segments_symmetric px -> forall s t, fst (px_segment_segment px s t) <> Outside -> fst (px_segment_segment px t s) <> Outside.
Proof. intros SS s t H K. apply H. destruct (SS s t) as (E & O & _). rewrite E in K. cbn in K. apply O. exact K. Qed.
Lemma side_end_nth : forall (e : nat * nat) i w, i < 2 -> (nth_error [fst e; snd e] i = Some w <-> side_end e i = w).
Proof. intros e i w H. destruct i as [|[|i]]; [| |lia]; cbn; split; congruence. Qed.
Lemma meet_2d_swap : segments_symmetric px -> indices_in_range px ->
  triangles_meet_2d px m s1 s2 fst t1 t2 -> triangles_meet_2d px m s2 s1 fst t2 t1.
Proof.
  intros SS (IX1 & IX2 & _) K. destruct (common_exists m s2 s1 t2 t1) as [c' C'].
  destruct K as [c C L|a b v w pa pb pv pw T1 T2 C TV TW A B V W HT1 HT2 H|c e1 e2 p1 q1 p2 q2 C L SE1 SE2 P1 Q1 P2 Q2 (H1 & H2 & O)].
  - pose proof (common_swap _ _ _ _ _ _ _ N1 N2 I1 I2 C C') as HP. eapply m2_three; [exact C'|].
    rewrite (Permutation_length HP), map_length. exact L.
  - pose proof (common_swap _ _ _ _ _ _ _ N1 N2 I1 I2 C C') as HP. cbn [map] in HP.
    assert (HA : In (fst a) t1 /\ In (snd a) t2 /\ uv_of m s1 (fst a) = uv_of m s2 (snd a)).
    { destruct a as [x y]. apply (common_in _ _ _ _ _ _ _ _ C). left. reflexivity. }
    assert (HB : In (fst b) t1 /\ In (snd b) t2 /\ uv_of m s1 (fst b) = uv_of m s2 (snd b)).
    { destruct b as [x y]. apply (common_in _ _ _ _ _ _ _ _ C). right. left. reflexivity. }
    destruct HA as (A1 & A2 & AU). destruct HB as (B1 & B2 & BU).
    pose proof (shared_point _ _ _ A2 AU A) as A'. pose proof (shared_point _ _ _ B2 BU B) as B'.
    assert (G : fst (px_segment_segment px (pa, pw) (pb, pv)) <> Outside \/ fst (px_segment_segment px (pb, pw) (pa, pv)) <> Outside \/
                px_point_triangle px pw T1 <> Outside \/ px_point_triangle px pv T2 <> Outside).
    { destruct H as [H|[H|[H|H]]]; [right; left|left| |]; try (apply (segments_outside SS); exact H); auto. }
    destruct (perm_two _ _ _ _ HP) as [E|E]; rewrite E in C'.
    + eapply (m2_two px m s2 s1 fst t2 t1 (swap a) (swap b)); [exact C'|exact TW|exact TV|exact A'|exact B'|exact W|exact V|exact HT2|exact HT1|exact G].
    + eapply (m2_two px m s2 s1 fst t2 t1 (swap b) (swap a)); [exact C'|apply third_sym; exact TW|apply third_sym; exact TV|exact B'|exact A'|exact W|exact V|exact HT2|exact HT1|].
      destruct G as [G|[G|G]]; auto.
  - pose proof (common_swap _ _ _ _ _ _ _ N1 N2 I1 I2 C C') as HP. destruct (SS (p1, q1) (p2, q2)) as (E & O1 & O2).
    eapply m2_sides; [exact C'|rewrite (Permutation_length HP), map_length; exact L|exact SE2|exact SE1|exact P2|exact Q2|exact P1|exact Q1|].
    cbv zeta. rewrite E. cbn [swap fst snd]. split; [|split].
    + intros X. apply H1. apply O1. exact X.
    + intros X. apply H2. apply O2. exact X.
    + intros (d & i & j & x & Ed & Hi & Hj & Se & Nx & Ex). apply O. subst c'. apply Permutation_sym, perm_one in HP.
      destruct c as [|d' [|]]; try discriminate. cbn in HP. injection HP as HP. subst d. cbn [swap fst snd] in *.
      assert (Ij : j < 2) by (eapply IX1; exact Hj). assert (Ii : i < 2) by (eapply IX2; exact Hi).
      exists d', j, i, (side_end e2 i). repeat split; auto.
      * apply side_end_nth in Nx; [|exact Ij]. congruence.
      * apply side_end_nth; [exact Ii|reflexivity].
Qed.
End Pair.

Lemma polygon_meet_swap : forall s1 s2 (meet meet' : list nat -> list nat -> Prop) p q,
  (forall t1 t2, fan_triangle (polygon_vertices (co_mesh s1) p) t1 -> fan_triangle (polygon_vertices (co_mesh s2) q) t2 -> meet t1 t2 -> meet' t2 t1) ->
  polygons_meet s1 s2 meet p q -> polygons_meet s2 s1 meet' q p.
Proof. intros s1 s2 meet meet' p q H (t1 & t2 & F1 & F2 & K). exists t2, t1. auto. Qed.

Section Surfaces.
Context (px : Predicates) (m : Model) (s1 s2 : Component SurfaceMesh) (p q : nat).
Hypothesis Y1 : polygons_ready (co_mesh s1). Hypothesis Y2 : polygons_ready (co_mesh s2).
Hypothesis Hp : p < nb_polygons (co_mesh s1). Hypothesis Hq : q < nb_polygons (co_mesh s2).
Hypothesis D1 : distinct_unique_vertices m s1. Hypothesis D2 : distinct_unique_vertices m s2.
Hypothesis SP : same_points m s1 s2.
Lemma fan_ready : forall (s : Component SurfaceMesh) r t, polygons_ready (co_mesh s) -> r < nb_polygons (co_mesh s) -> distinct_unique_vertices m s ->
  fan_triangle (polygon_vertices (co_mesh s) r) t -> NoDup t /\ length t = 3 /\ inj_on m s t /\ in_mesh s t.
Proof.
  intros s r t Y Hr D F. destruct (fan_triangle_facts _ _ F) as (L & I & N). destruct (Y r Hr) as (A & B & _).
  split; [auto|]. split; [exact L|]. split.
  - intros v w Hv Hw. apply (D r Hr); apply I; assumption.
  - intros v Hv. apply B, I, Hv.
Qed.
Lemma brep_pair_swap : planes_symmetric px ->
  polygons_meet s1 s2 (triangles_meet_3d px m s1 s2) p q -> polygons_meet s2 s1 (triangles_meet_3d px m s2 s1) q p.
Proof.
  intros PS. apply polygon_meet_swap. intros t1 t2 F1 F2.
  destruct (fan_ready s1 p t1 Y1 Hp D1 F1) as (? & ? & ? & ?). destruct (fan_ready s2 q t2 Y2 Hq D2 F2) as (? & ? & ? & ?).
  apply meet_3d_swap; assumption.
Qed.
Lemma section_pair_swap : segments_symmetric px -> indices_in_range px -> same_vertex_numbers m s1 s2 ->
  polygons_meet s1 s2 (triangles_meet_2d px m s1 s2 snd) p q -> polygons_meet s2 s1 (triangles_meet_2d px m s2 s1 snd) q p.
Proof.
  intros SS IX SN. apply polygon_meet_swap. intros t1 t2 F1 F2.
  destruct (fan_ready s1 p t1 Y1 Hp D1 F1) as (? & ? & ? & R1). destruct (fan_ready s2 q t2 Y2 Hq D2 F2) as (? & ? & ? & R2).
  intros K. apply same_numbers.
  - intros v w Hv Hw U. symmetry. apply SN; [apply R1, Hw|apply R2, Hv|symmetry; exact U].
  - apply meet_2d_swap; try assumption. apply same_numbers; [|exact K].
    intros v w Hv Hw U. apply SN; [apply R1, Hv|apply R2, Hw|exact U].
Qed.
End Surfaces.
Lemma same_points_sym : forall m s1 s2, same_points m s1 s2 -> same_points m s2 s1.
Proof. intros m s1 s2 H v w a b U A B. symmetry. apply (H w v); auto. Qed.
Lemma same_vertex_numbers_sym : forall m s1 s2, same_vertex_numbers m s1 s2 -> same_vertex_numbers m s2 s1.
Proof. intros m s1 s2 H v w A B U. symmetry. apply H; auto. Qed.

(** the same tests in two models with the same unique vertices *)
Section Models.
Context (px : Predicates) (m m' : Model).
Hypothesis U : m_unique_vertex m = m_unique_vertex m'.
Lemma uv_same : forall s v, uv_of m s v = uv_of m' s v.
Proof. intros s v. unfold uv_of. rewrite U. reflexivity. Qed.
Lemma common_same : forall s1 s2 t2 t1 c, common_vertices m s1 s2 t2 t1 c -> common_vertices m' s1 s2 t2 t1 c.
Proof.
  intros s1 s2 t2 t1 c H. induction H as [|v w t1 l Hc H IH|v t1 l Hn H IH]; [constructor| |].
  - constructor; [|exact IH]. destruct Hc as (pre & post & E & Hw & Hx). exists pre, post. split; [exact E|].
    rewrite <- !uv_same. split; [exact Hw|]. intros x H1. rewrite <- uv_same. apply Hx, H1.
  - constructor; [|exact IH]. intros w Hw. rewrite <- !uv_same. apply Hn, Hw.
Qed.
Lemma meet_same : forall s1 s2 c, surfaces_meet px m s1 s2 c -> surfaces_meet px m' s1 s2 c.
Proof.
  intros s1 s2 c (N & t1 & t2 & F1 & F2 & K). split; [exact N|]. exists t1, t2. split; [exact F1|]. split; [exact F2|].
  destruct (Nat.eqb (sm_dimension (co_mesh s1)) 2).
  - destruct K as [c' C L|a b v w pa pb pv pw T1 T2 C TV TW A B V W HT1 HT2 H|c' e1 e2 p1 q1 p2 q2 C L SE1 SE2 P1 Q1 P2 Q2 H].
    + eapply m2_three; [apply common_same; exact C|exact L].
    + eapply m2_two; try eassumption. apply common_same. exact C.
    + eapply m2_sides; try eassumption. apply common_same. exact C.
  - destruct K as [c' C L|a b v pa pb pv T C TV A B V HT H|c' e p q T C L SE P Q HT H O|c' e p q T C L SE P Q HT H O].
    + eapply m3_three; [apply common_same; exact C|exact L].
    + eapply m3_two; try eassumption. apply common_same. exact C.
    + eapply m3_first; try eassumption. apply common_same. exact C.
    + eapply m3_second; try eassumption. apply common_same. exact C.
Qed.
End Models.

Definition symmetric_model (px : Predicates) (m : Model) : Prop := symmetric_section px m \/ symmetric_brep px m.
Lemma surfaces_meet_swap : forall px m s1 s2 c, symmetric_model px m -> indices_in_range px -> surfaces_ready m ->
  In s1 (m_surfaces m) -> In s2 (m_surfaces m) -> fst c < nb_polygons (co_mesh s1) -> snd c < nb_polygons (co_mesh s2) ->
  surfaces_meet px m s1 s2 c -> surfaces_meet px m s2 s1 (swap c).
Proof.
  intros px m s1 s2 [p q] S IX Y H1 H2 Hp Hq (N & K). cbn [fst snd swap] in *. split; [intros (A & B); apply N; cbn in *; split; congruence|].
  destruct S as [(SS & D & S)|(PS & D & S)].
  - destruct (S s1 s2 H1 H2) as (D1 & SP & SN). destruct (S s2 s1 H2 H1) as (D2 & _ & _).
    rewrite (D s2 H2). rewrite (D s1 H1) in K. cbn [Nat.eqb] in *. apply section_pair_swap; auto.
  - destruct (S s1 s2 H1 H2) as (D1 & SP). destruct (S s2 s1 H2 H1) as (D2 & _).
    rewrite (D s2 H2). rewrite (D s1 H1) in K. cbn [Nat.eqb] in *. apply brep_pair_swap; auto.
Qed.
Lemma proposed_facts : forall m trees s1 s2 c, trees_of m trees -> proposed m trees s1 s2 c ->
  In s1 (m_surfaces m) /\ In s2 (m_surfaces m) /\ fst c < nb_polygons (co_mesh s1) /\ snd c < nb_polygons (co_mesh s2).
Proof.
  intros m trees s1 s2 [p q] T [(<- & H1 & _ & i & Ei & Hc)|(H1 & H2 & i & j & Hij & Ei & Ej & Hc)].
  - split; [exact H1|]. split; [exact H1|]. exact (to_self _ _ T _ _ H1 Ei p q Hc).
  - split; [exact H1|]. split; [exact H2|]. exact (to_other _ _ T _ _ _ _ H1 H2 Ei Ej p q Hc).
Qed.

Lemma found_swap : forall px m m' trees trees' found found', m_unique_vertex m = m_unique_vertex m' ->
  intersections_ready px m trees -> intersections_ready px m' trees' -> symmetric_model px m -> same_proposals m m' trees trees' ->
  surfaces_report (fun s1 s2 => lists_candidates (surfaces_meet px m s1 s2)) m trees found ->
  surfaces_report (fun s1 s2 => lists_candidates (surfaces_meet px m' s1 s2)) m' trees' found' ->
  forall x, In x found -> In x found' \/ In (swap x) found'.
Proof.
  intros px m m' trees trees' found found' U R R' S Q HR HR' x Hx.
  apply (all_members px m trees R found HR x) in Hx. destruct Hx as (s1 & s2 & c & Pr & M & ->).
  destruct (proposed_facts _ _ _ _ _ (ir_trees _ _ _ R) Pr) as (H1 & H2 & Hp & Hq).
  destruct (Q s1 s2 c Pr) as [Pr'|Pr'].
  - left. apply (all_members px m' trees' R' found' HR'). exists s1, s2, c. split; [exact Pr'|]. split; [apply (meet_same px m m' U); exact M|reflexivity].
  - right. apply (all_members px m' trees' R' found' HR'). exists s2, s1, (swap c). split; [exact Pr'|]. split; [|reflexivity].
    apply (meet_same px m m' U). apply surfaces_meet_swap; auto; [apply (ir_indices _ _ _ R)|apply (ir_surfaces _ _ _ R)].
Qed.
Lemma symmetric_transfer : forall px m m', m_unique_vertex m = m_unique_vertex m' -> (forall s, In s (m_surfaces m') -> In s (m_surfaces m)) ->
  symmetric_model px m -> symmetric_model px m'.
Proof.
  intros px m m' U I S.
  assert (D : forall s, distinct_unique_vertices m s -> distinct_unique_vertices m' s).
  { intros s H p Hp v w A B E. rewrite <- !(uv_same m m' U) in E. exact (H p Hp v w A B E). }
  assert (P : forall s1 s2, same_points m s1 s2 -> same_points m' s1 s2).
  { intros s1 s2 H v w a b E. rewrite <- !(uv_same m m' U) in E. exact (H v w a b E). }
  assert (N : forall s1 s2, same_vertex_numbers m s1 s2 -> same_vertex_numbers m' s1 s2).
  { intros s1 s2 H v w A B E. rewrite <- !(uv_same m m' U) in E. exact (H v w A B E). }
  destruct S as [(SS & Dm & S)|(PS & Dm & S)]; [left|right]; (split; [assumption|]; split; [intros s Hs; apply Dm, I, Hs|]);
    intros s1 s2 H1 H2; destruct (S s1 s2 (I _ H1) (I _ H2)) as (A & B); intuition.
Qed.
Lemma same_pairs_nil : forall l l', same_pairs l l' -> (l <> [] <-> l' <> []).
Proof.
  intros l l' (A & B). split; intros H E; subst.
  - destruct l as [|x l]; [congruence|]. destruct (A x (or_introl eq_refl)) as [[]|[]].
  - destruct l' as [|x l']; [congruence|]. destruct (B x (or_introl eq_refl)) as [[]|[]].
Qed.
Lemma report_swap : forall px m m' trees trees' found found', m_unique_vertex m = m_unique_vertex m' -> Permutation (m_surfaces m) (m_surfaces m') ->
  intersections_ready px m trees -> intersections_ready px m' trees' -> symmetric_model px m ->
  same_proposals m m' trees trees' -> same_proposals m' m trees' trees ->
  surfaces_report (fun s1 s2 => lists_candidates (surfaces_meet px m s1 s2)) m trees found ->
  surfaces_report (fun s1 s2 => lists_candidates (surfaces_meet px m' s1 s2)) m' trees' found' -> same_pairs found found'.
Proof.
  intros px m m' trees trees' found found' U HP R R' S Q Q' HR HR'. split.
  - eapply found_swap; eassumption.
  - eapply (found_swap px m' m); try eassumption; [symmetry; exact U|].
    apply (symmetric_transfer px m m' U); [|exact S]. intros s Hs. apply (Permutation_in s (Permutation_sym HP) Hs).
Qed.
Lemma no_empty_transfer : forall m m', Permutation (m_surfaces m) (m_surfaces m') -> no_empty_surface m -> no_empty_surface m'.
Proof. intros m m' P H s Hs. apply H. apply (Permutation_in s (Permutation_sym P) Hs). Qed.

Lemma section_swap : forall px m m' trees trees' r r', m_unique_vertex m = m_unique_vertex m' -> Permutation (m_surfaces m) (m_surfaces m') ->
  intersections_ready px m trees -> intersections_ready px m' trees' -> symmetric_model px m ->
  same_proposals m m' trees trees' -> same_proposals m' m trees' trees ->
  section_inspect_intersections px m trees r -> section_inspect_intersections px m' trees' r' ->
  exists l l', r = Ok l /\ r' = Ok l' /\ same_pairs (ii_issues l) (ii_issues l').
Proof.
  intros px m m' trees trees' r r' U HP R R' S Q Q' H H'. destruct (empty_or_not m) as [Hne|He].
  - destruct (section_report _ _ _ _ R Hne H) as (l & -> & HR & _).
    destruct (section_report _ _ _ _ R' (no_empty_transfer _ _ HP Hne) H') as (l' & -> & HR' & _).
    exists l, l'. split; [reflexivity|]. split; [reflexivity|]. apply (report_swap px m m' trees trees'); assumption.
  - assert (He' : exists s, In s (m_surfaces m') /\ co_active s = true /\ nb_polygons (co_mesh s) = 0).
    { destruct He as (s & A & B). exists s. split; [apply (Permutation_in s HP A)|exact B]. }
    destruct (empty_silences px m trees He) as (_ & A & _). destruct (empty_silences px m' trees' He') as (_ & A' & _).
    destruct (A _ H) as (l & -> & E). destruct (A' _ H') as (l' & -> & E'). exists l, l'. split; [reflexivity|]. split; [reflexivity|].
    rewrite E, E'. split; intros x [].
Qed.
Lemma yes_no_swap : forall px m m' trees trees' r r', m_unique_vertex m = m_unique_vertex m' -> Permutation (m_surfaces m) (m_surfaces m') ->
  intersections_ready px m trees -> intersections_ready px m' trees' -> symmetric_model px m ->
  same_proposals m m' trees trees' -> same_proposals m' m trees' trees ->
  model_has_intersecting_surfaces px m trees r -> model_has_intersecting_surfaces px m' trees' r' ->
  exists b, r = Ok b /\ r' = Ok b.
Proof.
  intros px m m' trees trees' r r' U HP R R' S Q Q' H H'.
  destruct (model_runs px m trees (mkLineTrees [] (fun _ _ => []))) as ((x & X) & _).
  destruct (model_runs px m' trees' (mkLineTrees [] (fun _ _ => []))) as ((x' & X') & _).
  destruct (model_agree _ _ _ _ _ R H X) as (b & l & -> & -> & B). destruct (model_agree _ _ _ _ _ R' H' X') as (b' & l' & -> & -> & B').
  destruct (section_swap _ _ _ _ _ _ _ U HP R R' S Q Q' X X') as (k & k' & E & E' & SP). injection E as <-. injection E' as <-.
  exists b. split; [reflexivity|]. f_equal. pose proof (same_pairs_nil _ _ SP) as N. destruct b, b'; try reflexivity.
  - apply B', N, B. reflexivity.
  - symmetry. apply B, N, B'. reflexivity.
Qed.
Lemma brep_swap : forall px m m' trees trees' lines lines' r r', m_unique_vertex m = m_unique_vertex m' -> m_internal_rel m = m_internal_rel m' ->
  Permutation (m_surfaces m) (m_surfaces m') -> Permutation (m_lines m) (m_lines m') ->
  intersections_ready px m trees -> intersections_ready px m' trees' -> symmetric_model px m ->
  same_proposals m m' trees trees' -> same_proposals m' m trees' trees ->
  line_trees_of m trees lines -> line_trees_of m' trees' lines' ->
  (forall s l c, proposed_line m trees lines s l c <-> proposed_line m' trees' lines' s l c) ->
  (forall l, In l (m_lines m) -> edges_exist (co_mesh l)) -> big_polygons m -> no_empty_surface m -> no_empty_line m ->
  brep_inspect_intersections px m trees lines r -> brep_inspect_intersections px m' trees' lines' r' ->
  exists l l', r = Ok l /\ r' = Ok l' /\ same_pairs (ii_issues l) (ii_issues l').
Proof.
  intros px m m' trees trees' lines lines' r r' U IR HP HL R R' S Q Q' LT LT' PL LE Big Hne Hnl H H'.
  destruct (brep_report px m trees lines r R LT LE Big Hne Hnl H) as (l & f & g & -> & E & HR & HG).
  destruct (brep_report px m' trees' lines' r' R' LT') as (l' & f' & g' & -> & E' & HR' & HG'); try assumption.
  { intros x Hx. apply LE. apply (Permutation_in x (Permutation_sym HL) Hx). }
  { intros s p Hs. apply Big. apply (Permutation_in s (Permutation_sym HP) Hs). }
  { exact (no_empty_transfer _ _ HP Hne). }
  { intros x Hx. apply Hnl. apply (Permutation_in x (Permutation_sym HL) Hx). }
  exists l, l'. split; [reflexivity|]. split; [reflexivity|]. rewrite E, E'.
  destruct (report_swap px m m' trees trees' f f' U HP R R' S Q Q' HR HR') as (A & B).
  assert (G : forall x, In x g <-> In x g').
  { intros x. rewrite HG, HG'. split; intros (s & k & c & X & Y & Z & W); exists s, k, c; (split; [apply PL; exact X|]); (split; [|split; assumption]);
      unfold embedded_in_block in *; [rewrite <- IR|rewrite IR]; exact Y. }
  split; intros x Hx; apply in_app_iff in Hx; rewrite !in_app_iff; (destruct Hx as [Hx|Hx]; [|left; right; apply G; exact Hx]).
  - destruct (A x Hx); auto.
  - destruct (B x Hx); auto.
Qed.

(** polygons *)
Lemma brep_polygons_swap : forall px m s1 s2 p q, planes_symmetric px -> indices_in_range px ->
  sm_dimension (co_mesh s1) = 3 -> sm_dimension (co_mesh s2) = 3 ->
  polygons_ready (co_mesh s1) -> polygons_ready (co_mesh s2) -> p < nb_polygons (co_mesh s1) -> q < nb_polygons (co_mesh s2) ->
  distinct_unique_vertices m s1 -> distinct_unique_vertices m s2 -> same_points m s1 s2 ->
  exists b, polygons_intersect px m s1 s2 p q = Ok b /\ polygons_intersect px m s2 s1 q p = Ok b.
Proof.
  intros px m s1 s2 p q PS IX E1 E2 Y1 Y2 Hp Hq D1 D2 SP.
  destruct (polygons_decides px m s1 s2 p q IX) as (b & A & B); try assumption; [congruence|].
  destruct (polygons_decides px m s2 s1 q p IX) as (b' & A' & B'); try assumption; [congruence|].
  unfold meet2 in *. rewrite E1 in B. rewrite E2 in B'. cbn [Nat.eqb] in *. exists b. split; [exact A|]. rewrite A'. f_equal.
  pose proof (brep_pair_swap px m s1 s2 p q Y1 Y2 Hp Hq D1 D2 SP PS) as F.
  pose proof (brep_pair_swap px m s2 s1 q p Y2 Y1 Hq Hp D2 D1 (same_points_sym _ _ _ SP) PS) as G.
  destruct b, b'; try reflexivity; exfalso.
  - assert (false = true) by (apply B', F, B; reflexivity). discriminate.
  - assert (false = true) by (apply B, G, B'; reflexivity). discriminate.
Qed.
Lemma numbers_readable : forall m s1 s2, same_vertex_numbers m s1 s2 -> readable m s1 s2.
Proof. intros m s1 s2 H v w A B U. rewrite <- (H v w A B U). exact A. Qed.
Lemma section_polygons_swap : forall px m s1 s2 p q, segments_symmetric px -> indices_in_range px ->
  sm_dimension (co_mesh s1) = 2 -> sm_dimension (co_mesh s2) = 2 ->
  polygons_ready (co_mesh s1) -> polygons_ready (co_mesh s2) -> p < nb_polygons (co_mesh s1) -> q < nb_polygons (co_mesh s2) ->
  distinct_unique_vertices m s1 -> distinct_unique_vertices m s2 -> same_points m s1 s2 -> same_vertex_numbers m s1 s2 ->
  exists b, polygons_intersect px m s1 s2 p q = Ok b /\ polygons_intersect px m s2 s1 q p = Ok b.
Proof.
  intros px m s1 s2 p q SS IX E1 E2 Y1 Y2 Hp Hq D1 D2 SP SN.
  destruct (polygons_decides px m s1 s2 p q IX) as (b & A & B); try assumption; [intros _; apply numbers_readable; exact SN|].
  destruct (polygons_decides px m s2 s1 q p IX) as (b' & A' & B'); try assumption; [intros _; apply numbers_readable, same_vertex_numbers_sym; exact SN|].
  unfold meet2 in *. rewrite E1 in B. rewrite E2 in B'. cbn [Nat.eqb] in *. exists b. split; [exact A|]. rewrite A'. f_equal.
  pose proof (section_pair_swap px m s1 s2 p q Y1 Y2 Hp Hq D1 D2 SP SS IX SN) as F.
  pose proof (section_pair_swap px m s2 s1 q p Y2 Y1 Hq Hp D2 D1 (same_points_sym _ _ _ SP) SS IX (same_vertex_numbers_sym _ _ _ SN)) as G.
  destruct b, b'; try reflexivity; exfalso.
  - assert (false = true) by (apply B', F, B; reflexivity). discriminate.
  - assert (false = true) by (apply B, G, B'; reflexivity). discriminate.
Qed.
