(** A silent inspection. *)
From Coq Require Import String List Arith NArith ZArith Bool QArith Lqa Lia Permutation.
From Verif Require Import Base BaseFacts Model_Issues Types Model_Intersections Spec_Colocation Spec_Intersections Proof_Intersections Proof_Intersections2 Proof_Intersections3 Proof_Intersections4
  Proof_Intersections5 Spec_Symmetry Proof_Symmetry Spec_Geometry Proof_Geometry Proof_Geometry2 Proof_Geometry3 Proof_Geometry4 Proof_Geometry5 Proof_Exact Proof_Exact2.
Import ListNotations.
Open Scope nat_scope.
Open Scope list_scope.

Lemma strictly_dec : forall x a b c, strictly_among x a b c \/ ~ strictly_among x a b c.
Proof.
  intros [[p0 p1] p2] [[a0 a1] a2] [[b0 b1] b2] [[c0 c1] c2].
  set (cs := ([mkConstraint [1; 0] 0 true; mkConstraint [0; 1] 0 true; mkConstraint [-1; -1] 1 true] ++
    eq0 [b0 - a0; c0 - a0] (a0 - p0) ++ eq0 [b1 - a1; c1 - a1] (a1 - p1) ++ eq0 [b2 - a2; c2 - a2] (a2 - p2))%Q).
  pose proof (feasible_ok 2 cs) as K. destruct (feasible 2 cs).
  - left. destruct (proj1 K eq_refl) as (x & L & H). destruct x as [|u [|w [|? ?]]]; try discriminate L. apply all_forall in H.
    unfold cs, eq0, ge0 in H. cbn [app map] in H. open_all H. unfold holds, sign_ok in *. cbn [strict coeffs const dot] in *.
    exists (1 - u - w)%Q, u, w. split; [lra|]. split; [lra|]. split; [lra|]. split; [lra|]. spots. repeat split; lra.
  - right. intros (u' & u & w & U' & U & W & SU & EU). assert (false = true); [|discriminate]. apply K. exists [u; w]. split; [reflexivity|].
    apply all_forall. unfold cs, eq0, ge0. cbn [app map]. spots. destruct EU as (U0 & U1 & U2).
    assert (E2 : (u' == 1 - u - w)%Q) by lra. rewrite E2 in *.
    repeat constructor; unfold holds, sign_ok; cbn [strict coeffs const dot]; lra.
Qed.
Lemma holds_dec : forall T1 T2, holds_corner T1 T2 \/ ~ holds_corner T1 T2.
Proof.
  intros T1 T2. unfold holds_corner.
  destruct (strictly_dec (corner T2 0) (corner T1 0) (corner T1 1) (corner T1 2)) as [H|H0]; [left; exists 0; split; [lia|exact H]|].
  destruct (strictly_dec (corner T2 1) (corner T1 0) (corner T1 1) (corner T1 2)) as [H|H1]; [left; exists 1; split; [lia|exact H]|].
  destruct (strictly_dec (corner T2 2) (corner T1 0) (corner T1 1) (corner T1 2)) as [H|H2]; [left; exists 2; split; [lia|exact H]|].
  right. intros ([|[|[|i]]] & L & H); [contradiction..|lia].
Qed.
Lemma between_swap : forall x p q, between x p q -> between x q p.
Proof.
  intros [[x0 x1] x2] [[p0 p1] p2] [[q0 q1] q2] (a & b & A & B & S & E). exists b, a. split; [exact B|]. split; [exact A|]. split; [lra|]. spots. destruct E as (E0 & E1 & E2). repeat split; lra.
Qed.
Lemma between_ends : forall x p q p' q', same_spot p p' -> same_spot q q' -> between x p q -> between x p' q'.
Proof.
  intros x p q p' q' P Q0 (a & b & A & B & S & E). exists a, b. repeat (split; [assumption|]). eapply same_spot_trans; [exact E|]. apply mean2_eq; assumption.
Qed.
Lemma inj_triangle : forall m s t T, joined_surfaces m -> In s (m_surfaces m) -> triangle_of (co_mesh s) t T -> real_triangle T -> inj_on m s t.
Proof.
  intros m s t T J I H R v w Hv Hw U. destruct (Proof_Geometry3.point_exists (co_mesh s) t T v H Hv) as (p & P). destruct (Proof_Geometry3.point_exists (co_mesh s) t T w H Hw) as (q & Q0).
  pose proof (J s s v w p q I I U P Q0) as E.
  destruct (vertex_corner _ _ _ v p H Hv P) as (i & Li & Ni & Ci). destruct (vertex_corner _ _ _ w q H Hw Q0) as (j & Lj & Nj & Cj). rewrite <- Ci, <- Cj in E.
  destruct (real_ends _ _ _ R) as (N1 & N2 & N3). destruct T as [[x y] z].
  destruct i as [|[|[|i]]], j as [|[|[|j]]]; try lia; try congruence; exfalso; cbn [corner fst snd] in *; apply same_spot_sym in E || idtac;
  first [exact (N1 E)|exact (N2 E)|exact (N3 E)|exact (N1 (same_spot_sym _ _ E))|exact (N2 (same_spot_sym _ _ E))|exact (N3 (same_spot_sym _ _ E))].
Qed.
Lemma common_part_swap : forall m s1 s2 t1 t2 T1 T2 c c' x, joined_surfaces m -> In s1 (m_surfaces m) -> In s2 (m_surfaces m) ->
  triangle_of (co_mesh s1) t1 T1 -> triangle_of (co_mesh s2) t2 T2 -> real_triangle T1 -> real_triangle T2 ->
  common_vertices m s1 s2 t2 t1 c -> common_vertices m s2 s1 t1 t2 c' ->
  List.length c' = List.length c /\ (in_common (co_mesh s2) c' x -> in_common (co_mesh s1) c x).
Proof.
  intros m s1 s2 t1 t2 T1 T2 c c' x J I1 I2 H1 H2 R1 R2 C C'.
  pose proof (common_swap m s1 s2 t1 t2 c c' (real_nodup _ _ _ H1 R1) (real_nodup _ _ _ H2 R2) (inj_triangle m s1 t1 T1 J I1 H1 R1) (inj_triangle m s2 t2 T2 J I2 H2 R2) C C') as P.
  split; [rewrite (Permutation_length P); apply map_length|].
  assert (X : forall a' q, In a' c' -> point_of (co_mesh s2) (fst a') q -> exists p, point_of (co_mesh s1) (fst (swap a')) p /\ same_spot (place_of p) (place_of q)).
  { intros [w v] q Ia Q0. destruct (common_in m s2 s1 t2 t1 c' w v C' Ia) as (_ & Iv & U). cbn [fst snd swap] in *.
    destruct (Proof_Geometry3.point_exists (co_mesh s1) t1 T1 v H1 Iv) as (p & Pp). exists p. split; [exact Pp|]. exact (J s1 s2 v w p q I1 I2 (eq_sym U) Pp Q0). }
  assert (Pc : Permutation (map swap c') c).
  { pose proof (Permutation_map swap P) as P'. rewrite map_map in P'. rewrite (map_ext (fun y => swap (swap y)) (fun y => y)) in P' by (intros y; apply swap_swap). rewrite map_id in P'. exact P'. }
  intros K. destruct K as [a' q y Q0 E|a' b' q r y Q0 R0 E].
  - cbn [map] in Pc. apply Permutation_length_1_inv in Pc. subst c. destruct (X a' q (or_introl eq_refl) Q0) as (p & Pp & Ep).
    econstructor; [exact Pp|]. eapply same_spot_trans; [exact E|]. apply same_spot_sym, Ep.
  - destruct (X a' q (or_introl eq_refl) Q0) as (p & Pp & Ep). destruct (X b' r (or_intror (or_introl eq_refl)) R0) as (p' & Pp' & Ep').
    apply same_spot_sym in Ep, Ep'. pose proof (between_ends _ _ _ _ _ Ep Ep' E) as E'.
    cbn [map] in Pc. apply Permutation_length_2_inv in Pc. destruct Pc as [ -> | -> ]; econstructor; try eassumption. apply between_swap. exact E'.
Qed.
Lemma cross_swap : forall m s1 s2 t1 t2 T1 T2 c, joined_surfaces m -> In s1 (m_surfaces m) -> In s2 (m_surfaces m) ->
  triangle_of (co_mesh s1) t1 T1 -> triangle_of (co_mesh s2) t2 T2 -> real_triangle T1 -> real_triangle T2 ->
  common_vertices m s1 s2 t2 t1 c -> List.length c = 3 \/ meet_beyond (co_mesh s1) c T1 T2 ->
  exists c', common_vertices m s2 s1 t1 t2 c' /\ List.length c' = List.length c /\ (List.length c' = 3 \/ meet_beyond (co_mesh s2) c' T2 T1).
Proof.
  intros m s1 s2 t1 t2 T1 T2 c J I1 I2 H1 H2 R1 R2 C K. destruct (common_exists m s2 s1 t2 t1) as (c' & C'). exists c'. split; [exact C'|].
  pose proof (fun x => common_part_swap m s1 s2 t1 t2 T1 T2 c c' x J I1 I2 H1 H2 R1 R2 C C') as X.
  destruct (X (corner T1 0)) as (L & _). split; [exact L|]. destruct K as [K|(x & X1 & X2 & NX)]; [left; lia|right].
  exists x. split; [exact X2|]. split; [exact X1|]. intros G. apply NX. apply X. exact G.
Qed.
Lemma share_common : forall m s1 s2 t1 t2 T1 T2 c, joined_surfaces m -> In s1 (m_surfaces m) -> In s2 (m_surfaces m) ->
  triangle_of (co_mesh s1) t1 T1 -> triangle_of (co_mesh s2) t2 T2 -> common_vertices m s1 s2 t2 t1 c -> c <> [] -> exists x, on_triangle x T1 /\ on_triangle x T2.
Proof.
  intros m s1 s2 t1 t2 T1 T2 c J I1 I2 H1 H2 C N. destruct c as [|[v w] c]; [contradiction N; reflexivity|].
  destruct (common_in m s1 s2 t1 t2 _ v w C (or_introl eq_refl)) as (Iv & Iw & U).
  destruct (Proof_Geometry3.point_exists (co_mesh s1) t1 T1 v H1 Iv) as (p & P). destruct (Proof_Geometry3.point_exists (co_mesh s2) t2 T2 w H2 Iw) as (q & Q0).
  destruct (vertex_corner _ _ _ v p H1 Iv P) as (i & Li & _ & Ci). destruct (vertex_corner _ _ _ w q H2 Iw Q0) as (j & Lj & _ & Cj).
  exists (place_of p). split; [rewrite <- Ci; apply corner_on_triangle; exact Li|].
  eapply among_eq; [exact (J s1 s2 v w p q I1 I2 U P Q0)|]. rewrite <- Cj. exact (corner_on_triangle T2 j Lj).
Qed.
(** what stays unreported *)
Lemma silence_3d : forall px m trees s1 s2 p q t1 t2 T1 T2 c, intersections_ready px m trees -> no_empty_surface m -> exact_predicates px -> dimension_is m 3 ->
  joined_surfaces m -> solid_model m -> boxes_complete m trees -> model_has_intersecting_surfaces px m trees (Ok false) ->
  In s1 (m_surfaces m) -> In s2 (m_surfaces m) -> co_active s1 = true -> co_active s2 = true ->
  p < nb_polygons (co_mesh s1) -> q < nb_polygons (co_mesh s2) -> ~ (co_id s1 = co_id s2 /\ p = q) ->
  fan_triangle (polygon_vertices (co_mesh s1) p) t1 -> fan_triangle (polygon_vertices (co_mesh s2) q) t2 ->
  triangle_of (co_mesh s1) t1 T1 -> triangle_of (co_mesh s2) t2 T2 -> common_vertices m s1 s2 t2 t1 c ->
  List.length c <> 3 /\ (meet_beyond (co_mesh s1) c T1 T2 -> List.length c = 2 /\ (holds_corner T1 T2 \/ holds_corner T2 T1)).
Proof.
  intros px m trees s1 s2 p q t1 t2 T1 T2 c R NE EX D J S B H I1 I2 A1 A2 Hp Hq Df F1 F2 H1 H2 C.
  destruct (model_runs px m trees (mkLineTrees [] (fun _ _ => []))) as ((r & Hr) & _).
  destruct (report_3d px m trees r R NE EX D J S Hr) as (l & -> & K).
  destruct (model_agree px m trees _ _ R H Hr) as (b & l' & E1 & E2 & G). injection E1 as <-. injection E2 as <-.
  assert (Nil : forall x, ~ In x (ii_issues l)).
  { intros x Hx. assert (false = true); [|discriminate]. apply G. intros Z. rewrite Z in Hx. destruct Hx. }
  destruct (S s1 I1 p t1 T1 Hp F1 H1) as (Fi1 & R1). destruct (S s2 I2 q t2 T2 Hq F2 H2) as (Fi2 & R2).
  assert (M : List.length c = 3 \/ meet_beyond (co_mesh s1) c T1 T2 -> List.length c = 2 /\ (holds_corner T1 T2 \/ holds_corner T2 T1)).
  { intros X. assert (Y : exists x, on_triangle x T1 /\ on_triangle x T2).
    { destruct X as [X|(x & X1 & X2 & _)]; [|exists x; tauto]. apply (share_common m s1 s2 t1 t2 T1 T2 c J I1 I2 H1 H2 C). intros ->. discriminate X. }
    destruct Y as (x & X1 & X2).
    destruct (B s1 s2 p q t1 t2 T1 T2 x I1 I2 A1 A2 Hp Hq Df F1 F2 H1 H2 X1 X2) as [P|P].
    - destruct (Nat.eq_dec (List.length c) 2) as [L|L].
      + destruct (holds_dec T1 T2) as [HH|HH]; [tauto|]. exfalso. apply (Nil (surface_element s1 p, surface_element s2 q)). apply K.
        exists s1, s2, (p, q). split; [exact P|]. split; [exact Df|]. split; [|reflexivity]. exists t1, t2. split; [exact F1|]. split; [exact F2|]. split.
        * exists T1, T2, c. tauto.
        * intros (T1' & T2' & c' & H1' & H2' & C' & L' & HH'). rewrite (triangle_fun _ _ _ _ H1' H1), (triangle_fun _ _ _ _ H2' H2) in HH'. contradiction.
      + exfalso. apply (Nil (surface_element s1 p, surface_element s2 q)). apply K.
        exists s1, s2, (p, q). split; [exact P|]. split; [exact Df|]. split; [|reflexivity]. exists t1, t2. split; [exact F1|]. split; [exact F2|]. split.
        * exists T1, T2, c. tauto.
        * intros (T1' & T2' & c' & H1' & H2' & C' & L' & HH'). rewrite (common_fun m s1 s2 t1 t2 _ _ C' C) in L'. contradiction.
    - destruct (cross_swap m s1 s2 t1 t2 T1 T2 c J I1 I2 H1 H2 R1 R2 C X) as (c' & C' & EL & X').
      assert (Df' : ~ (co_id s2 = co_id s1 /\ q = p)) by (intros (E & E'); apply Df; split; congruence).
      destruct (Nat.eq_dec (List.length c) 2) as [L|L].
      + destruct (holds_dec T2 T1) as [HH|HH]; [tauto|]. exfalso. apply (Nil (surface_element s2 q, surface_element s1 p)). apply K.
        exists s2, s1, (q, p). split; [exact P|]. split; [exact Df'|]. split; [|reflexivity]. exists t2, t1. split; [exact F2|]. split; [exact F1|]. split.
        * exists T2, T1, c'. tauto.
        * intros (T1' & T2' & c2 & H1' & H2' & C2 & L' & HH'). rewrite (triangle_fun _ _ _ _ H1' H2), (triangle_fun _ _ _ _ H2' H1) in HH'. contradiction.
      + exfalso. apply (Nil (surface_element s2 q, surface_element s1 p)). apply K.
        exists s2, s1, (q, p). split; [exact P|]. split; [exact Df'|]. split; [|reflexivity]. exists t2, t1. split; [exact F2|]. split; [exact F1|]. split.
        * exists T2, T1, c'. tauto.
        * intros (T1' & T2' & c2 & H1' & H2' & C2 & L' & HH'). rewrite (common_fun m s2 s1 t2 t1 _ _ C2 C') in L'. lia. }
  split.
  - intros L. destruct M as (L2 & _); [tauto|lia].
  - intros X. apply M. right. exact X.
Qed.
