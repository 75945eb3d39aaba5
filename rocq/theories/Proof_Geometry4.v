(** Two triangles with a common side, and the whole triangle test of BReps. *)
From Coq Require Import String List Arith NArith ZArith Bool QArith Lqa Lia Permutation.
From Verif Require Import Base BaseFacts Types Model_Intersections Spec_Intersections Proof_Intersections Proof_Intersections2 Proof_Intersections3 Proof_Intersections4
  Proof_Symmetry Spec_Geometry Proof_Geometry Proof_Geometry2 Proof_Geometry3.
Import ListNotations.
Open Scope nat_scope.
Open Scope list_scope.

Lemma strictly_turn : forall x p q r, strictly_among x p q r -> strictly_among x q r p.
Proof.
  intros [[x0 x1] x2] [[p0 p1] p2] [[q0 q1] q2] [[r0 r1] r2] (a & b & c & A & B & C & S & E). exists b, c, a.
  split; [assumption|]. split; [assumption|]. split; [assumption|]. split; [lra|]. spots. destruct E as (E0 & E1 & E2). repeat split; lra.
Qed.
Lemma of_plane_turn : forall x p q r, of_plane x p q r -> of_plane x q r p.
Proof.
  intros [[x0 x1] x2] [[p0 p1] p2] [[q0 q1] q2] [[r0 r1] r2] (a & b & c & S & E). exists b, c, a. split; [lra|]. spots. destruct E as (E0 & E1 & E2). repeat split; lra.
Qed.
Lemma of_plane_swap : forall x p q r, of_plane x p q r -> of_plane x q p r.
Proof.
  intros [[x0 x1] x2] [[p0 p1] p2] [[q0 q1] q2] [[r0 r1] r2] (a & b & c & S & E). exists b, a, c. split; [lra|]. spots. destruct E as (E0 & E1 & E2). repeat split; lra.
Qed.
(** a triangle seen from three of its corners, in any order *)
Record seen (T : Triangle) (p q r : place) : Prop := {
  se_on : forall x, on_triangle x T <-> among x p q r;
  se_in : forall x, strictly_among x (corner T 0) (corner T 1) (corner T 2) <-> strictly_among x p q r;
  se_plane : forall x, on_plane x T <-> of_plane x p q r;
  se_flat : real_triangle T -> ~ flat p q r;
  se_corners : forall i, i < 3 -> corner T i = p \/ corner T i = q \/ corner T i = r }.
Lemma seen_self : forall T, seen T (corner T 0) (corner T 1) (corner T 2).
Proof. intros [[a b] c]. constructor; try reflexivity; [intros H; exact H|]. intros [|[|[|i]]] H; [tauto..|lia]. Qed.
Lemma seen_turn : forall T p q r, seen T p q r -> seen T q r p.
Proof.
  intros T p q r [A B C D E]. constructor.
  - intros x. rewrite A. split; intros H; [apply among_turn, H|apply among_turn, among_turn, H].
  - intros x. rewrite B. split; intros H; [apply strictly_turn, H|apply strictly_turn, strictly_turn, H].
  - intros x. rewrite C. split; intros H; [apply of_plane_turn, H|apply of_plane_turn, of_plane_turn, H].
  - intros R F. apply (D R). apply flat_turn, F.
  - intros i Hi. destruct (E i Hi) as [H|[H|H]]; tauto.
Qed.
Lemma seen_swap : forall T p q r, seen T p q r -> seen T q p r.
Proof.
  intros T p q r [A B C D E]. constructor.
  - intros x. rewrite A. split; intros H; apply among_swap, H.
  - intros x. rewrite B. split; intros H; apply strictly_swap, H.
  - intros x. rewrite C. split; intros H; apply of_plane_swap, H.
  - intros R F. apply (D R). apply flat_swap, F.
  - intros i Hi. destruct (E i Hi) as [H|[H|H]]; tauto.
Qed.
Lemma seen_from : forall mesh t T a b, triangle_of mesh t T -> NoDup t -> In a t -> In b t -> a <> b ->
  exists v pa pb pv, third_vertex t a b v /\ point_of mesh a pa /\ point_of mesh b pb /\ point_of mesh v pv /\
    seen T (place_of pa) (place_of pb) (place_of pv).
Proof.
  intros mesh t [[P0 P1] P2] a b (x & y & z & -> & A & B & C) N Ia Ib D. cbn [fst snd] in *.
  destruct (third_exists [x; y; z] a b N eq_refl) as (v & Hv).
  pose proof (seen_self (P0, P1, P2)) as S. change (corner (P0, P1, P2) 0) with (place_of P0) in S.
  change (corner (P0, P1, P2) 1) with (place_of P1) in S. change (corner (P0, P1, P2) 2) with (place_of P2) in S.
  exists v. destruct (third_in _ _ _ _ Hv) as (Iv & Va & Vb).
  destruct Ia as [<-|[<-|[<-|[]]]], Ib as [<-|[<-|[<-|[]]]]; try (contradiction D; reflexivity);
  destruct Iv as [<-|[<-|[<-|[]]]]; try (contradiction Va; reflexivity); try (contradiction Vb; reflexivity);
  do 3 eexists; repeat (split; [eassumption|]);
  first [exact S|exact (seen_turn _ _ _ _ S)|exact (seen_turn _ _ _ _ (seen_turn _ _ _ _ S))|exact (seen_swap _ _ _ _ S)
        |exact (seen_turn _ _ _ _ (seen_swap _ _ _ _ S))|exact (seen_turn _ _ _ _ (seen_turn _ _ _ _ (seen_swap _ _ _ _ S)))].
Qed.

Lemma common_nodup : forall m s1 s2 t1 t2 c, NoDup t1 -> common_vertices m s1 s2 t2 t1 c -> NoDup (map fst c).
Proof.
  intros m s1 s2 t1 t2 c N H. induction H as [|v w t1 l K H IH|v t1 l K H IH]; [constructor| |].
  - inversion N; subst. cbn [map fst]. constructor; [|apply IH; assumption]. intros I. apply in_map_iff in I. destruct I as ([a b] & E & I). cbn [fst] in E. subst a.
    destruct (common_in m s1 s2 t1 t2 _ _ _ H I) as (Ia & _). contradiction.
  - inversion N; subst. apply IH; assumption.
Qed.

Lemma between_aligned : forall x p q, between x p q -> aligned x p q.
Proof. intros x p q (a & b & _ & _ & S & E). exists a, b. tauto. Qed.
Lemma aligned_between : forall x A B V, ~ flat A B V -> among x A B V -> aligned x A B -> between x A B.
Proof.
  intros x A B V N (a & b & c & PA & PB & PC & S & E) (a' & b' & S' & E').
  destruct (independent A B V (a - a') (b - b') c N) as (Z1 & Z2 & Z3).
  - lra.
  - destruct x as [[? ?] ?], A as [[? ?] ?], B as [[? ?] ?], V as [[? ?] ?]. spots. destruct E as (E0 & E1 & E2), E' as (G0 & G1 & G2).
    rewrite G0 in E0. rewrite G1 in E1. rewrite G2 in E2. repeat split; lra.
  - exists a, b. split; [exact PA|]. split; [exact PB|]. split; [lra|].
    destruct x as [[? ?] ?], A as [[? ?] ?], B as [[? ?] ?], V as [[? ?] ?]. spots. destruct E as (-> & -> & ->). rewrite Z3. repeat split; ring.
Qed.
Lemma mean3_eq : forall a b c p q r p' q' r', same_spot p p' -> same_spot q q' -> same_spot r r' -> same_spot (mean3 a b c p q r) (mean3 a b c p' q' r').
Proof.
  intros a b c [[? ?] ?] [[? ?] ?] [[? ?] ?] [[? ?] ?] [[? ?] ?] [[? ?] ?] (P0 & P1 & P2) (Q0 & Q1 & Q2) (R0 & R1 & R2). spots.
  rewrite P0, P1, P2, Q0, Q1, Q2, R0, R1, R2. repeat split; reflexivity.
Qed.
Lemma mean2_eq : forall a b p q p' q', same_spot p p' -> same_spot q q' -> same_spot (mean2 a b p q) (mean2 a b p' q').
Proof.
  intros a b [[? ?] ?] [[? ?] ?] [[? ?] ?] [[? ?] ?] (P0 & P1 & P2) (Q0 & Q1 & Q2). spots.
  rewrite P0, P1, P2, Q0, Q1, Q2. repeat split; reflexivity.
Qed.
Lemma among_corners : forall x p q r p' q', same_spot p p' -> same_spot q q' -> among x p q r -> among x p' q' r.
Proof.
  intros x p q r p' q' P Q0 (a & b & c & A & B & C & S & E). exists a, b, c. repeat (split; [assumption|]).
  eapply same_spot_trans; [exact E|]. apply mean3_eq; try assumption. apply same_spot_refl.
Qed.
Lemma plane_corners : forall x p q r p' q', same_spot p p' -> same_spot q q' -> of_plane x p q r -> of_plane x p' q' r.
Proof.
  intros x p q r p' q' P Q0 (a & b & c & S & E). exists a, b, c. repeat (split; [assumption|]).
  eapply same_spot_trans; [exact E|]. apply mean3_eq; try assumption. apply same_spot_refl.
Qed.
Lemma flat_corners : forall p q r p' q', same_spot p p' -> same_spot q q' -> flat p q r -> flat p' q' r.
Proof.
  intros p q r p' q' P Q0 (a & b & c & N & S & E). exists a, b, c. repeat (split; [assumption|]).
  eapply same_spot_trans; [|exact E]. apply mean3_eq; try (apply same_spot_sym; assumption). apply same_spot_refl.
Qed.
Lemma corner_not_inside : forall p q r x, ~ flat p q r -> strictly_among x p q r -> ~ same_spot x p.
Proof.
  intros p q r x N (a & b & c & A & B & C & S & E) F. destruct (independent p q r (a - 1) b c N) as (Z & Z1 & Z2); [lra| |lra].
  destruct x as [[? ?] ?], p as [[? ?] ?], q as [[? ?] ?], r as [[? ?] ?]. spots. destruct E as (E0 & E1 & E2), F as (F0 & F1 & F2). repeat split; lra.
Qed.

Lemma and_iff_compat_both : forall A B C D : Prop, (A <-> B) -> (C <-> D) -> (A /\ C <-> B /\ D).
Proof. tauto. Qed.
Section Side.
Context (px : Predicates) (m : Model) (s1 s2 : Component SurfaceMesh).
Let mesh1 := co_mesh s1.
Let mesh2 := co_mesh s2.
Context (t1 t2 : list nat) (T1 T2 : Triangle) (a b : nat * nat).
Context (H1 : triangle_of mesh1 t1 T1) (H2 : triangle_of mesh2 t2 T2) (F1 : finite_triangle T1) (F2 : finite_triangle T2).
Context (R1 : real_triangle T1) (R2 : real_triangle T2).
Context (HC : common_vertices m s1 s2 t2 t1 [a; b]) (J : joined mesh1 mesh2 [a; b]).

(** the corners A, B, V of the first triangle and A, B, W of the second one *)
Lemma common_side_corners : exists v w pa pb pv qa qb qw, third_vertex t1 (fst a) (fst b) v /\ third_vertex t2 (snd a) (snd b) w /\
  point_of mesh1 (fst a) pa /\ point_of mesh1 (fst b) pb /\ point_of mesh1 v pv /\
  point_of mesh2 (snd a) qa /\ point_of mesh2 (snd b) qb /\ point_of mesh2 w qw /\
  seen T1 (place_of pa) (place_of pb) (place_of pv) /\ seen T2 (place_of qa) (place_of qb) (place_of qw) /\
  same_spot (place_of pa) (place_of qa) /\ same_spot (place_of pb) (place_of qb).
Proof.
  pose proof (real_nodup mesh1 t1 T1 H1 R1) as N1. pose proof (real_nodup mesh2 t2 T2 H2 R2) as N2.
  destruct a as [a1 a2], b as [b1 b2]. cbn [fst snd].
  destruct (common_in m s1 s2 t1 t2 _ a1 a2 HC (or_introl eq_refl)) as (A1 & A2 & _).
  destruct (common_in m s1 s2 t1 t2 _ b1 b2 HC (or_intror (or_introl eq_refl))) as (B1 & B2 & _).
  pose proof (common_nodup m s1 s2 t1 t2 _ N1 HC) as D. cbn [map fst] in D.
  assert (D1 : a1 <> b1) by (intros ->; inversion D; cbn in *; tauto).
  destruct (seen_from mesh1 t1 T1 a1 b1 H1 N1 A1 B1 D1) as (v & pa & pb & pv & V1 & V2 & V3 & V4 & V5).
  assert (D2 : a2 <> b2).
  { intros <-. destruct (point_exists mesh2 t2 T2 a2 H2 A2) as (q & Q).
    pose proof (J (a1, a2) pa q (or_introl eq_refl) V2 Q) as J1. pose proof (J (b1, a2) pb q (or_intror (or_introl eq_refl)) V3 Q) as J2.
    destruct (real_ends _ _ _ (se_flat _ _ _ _ V5 R1)) as (K & _). apply K. eapply same_spot_trans; [exact J1|]. apply same_spot_sym, J2. }
  destruct (seen_from mesh2 t2 T2 a2 b2 H2 N2 A2 B2 D2) as (w & qa & qb & qw & W1 & W2 & W3 & W4 & W5).
  exists v, w, pa, pb, pv, qa, qb, qw. repeat (split; [assumption|]).
  split; [exact (J (a1, a2) pa qa (or_introl eq_refl) V2 W2)|exact (J (b1, b2) pb qb (or_intror (or_introl eq_refl)) V3 W3)].
Qed.
Lemma finite_vertex : forall mesh t T v p, triangle_of mesh t T -> finite_triangle T -> In v t -> point_of mesh v p -> finite_point p.
Proof.
  intros mesh t [[x y] z] v p (u1 & u2 & u3 & -> & A & B & C) (G1 & G2 & G3) I P. cbn [fst snd] in *.
  destruct I as [<-|[<-|[<-|[]]]]; [rewrite <- (point_fun _ _ _ _ A P)|rewrite <- (point_fun _ _ _ _ B P)|rewrite <- (point_fun _ _ _ _ C P)]; assumption.
Qed.
Lemma two_meet : triangles_meet_3d px m s1 s2 t1 t2 <-> exists v pa pb pv, third_vertex t1 (fst a) (fst b) v /\ point_of mesh1 (fst a) pa /\ point_of mesh1 (fst b) pb /\ point_of mesh1 v pv /\
  (fst (px_segment_triangle px (pa, pv) T2) = Parallel \/ fst (px_segment_triangle px (pb, pv) T2) = Parallel).
Proof.
  split.
  - intros M. inversion M as [c C L|a' b' v pa pb pv T C V Pa Pb Pv HT K|c e p q T C L|c e p q T C L].
    + rewrite (common_fun m s1 s2 t1 t2 _ _ C HC) in L. discriminate L.
    + pose proof (common_fun m s1 s2 t1 t2 _ _ C HC) as E. injection E as -> ->. rewrite (triangle_fun _ _ _ _ HT H2) in K.
      exists v, pa, pb, pv. tauto.
    + rewrite (common_fun m s1 s2 t1 t2 _ _ C HC) in L. cbn in L. lia.
    + rewrite (common_fun m s1 s2 t1 t2 _ _ C HC) in L. cbn in L. lia.
  - intros (v & pa & pb & pv & V & Pa & Pb & Pv & K). eapply m3_two; eassumption.
Qed.
Lemma side_overlap : parallel_is_overlap px ->
  (triangles_meet_3d px m s1 s2 t1 t2 <-> meet_beyond mesh1 [a; b] T1 T2 /\ ~ holds_corner T1 T2).
Proof.
  intros PO. destruct common_side_corners as (v & w & pa & pb & pv & qa & qb & qw & V & W & Pa & Pb & Pv & Qa & Qb & Qw & S1 & S2 & EA & EB).
  pose proof (se_flat _ _ _ _ S1 R1) as N1. pose proof (se_flat _ _ _ _ S2 R2) as N2.
  assert (N2' : ~ flat (place_of pa) (place_of pb) (place_of qw)).
  { intros F. apply N2. eapply flat_corners; eassumption. }
  assert (On2 : forall x, on_triangle x T2 <-> among x (place_of pa) (place_of pb) (place_of qw)).
  { intros x. rewrite (se_on _ _ _ _ S2 x). split; apply among_corners; assumption || (apply same_spot_sym; assumption). }
  assert (FP : finite_point pa /\ finite_point pb /\ finite_point pv).
  { destruct (third_in _ _ _ _ V) as (Iv & _). destruct a as [a1 a2], b as [b1 b2]. cbn [fst snd] in *.
    destruct (common_in m s1 s2 t1 t2 _ a1 a2 HC (or_introl eq_refl)) as (A1 & _).
    destruct (common_in m s1 s2 t1 t2 _ b1 b2 HC (or_intror (or_introl eq_refl))) as (B1 & _).
    split; [exact (finite_vertex mesh1 t1 T1 a1 pa H1 F1 A1 Pa)|]. split; [exact (finite_vertex mesh1 t1 T1 b1 pb H1 F1 B1 Pb)|exact (finite_vertex mesh1 t1 T1 v pv H1 F1 Iv Pv)]. }
  assert (O : forall p, finite_point p -> (fst (px_segment_triangle px (p, pv) T2) = Parallel <-> overlap (place_of p) (place_of pv) (place_of pa) (place_of pb) (place_of qw))).
  { intros p Fp. rewrite (PO (p, pv) T2); [|split; cbn; tauto|exact F2|exact R2]. unfold overlap, on_segment. cbn [fst snd].
    split; intros (x & y & X1 & X2 & Y1 & Y2 & D); exists x, y; repeat split; try assumption; apply On2; assumption. }
  rewrite two_meet. transitivity (overlap (place_of pa) (place_of pv) (place_of pa) (place_of pb) (place_of qw) \/ overlap (place_of pb) (place_of pv) (place_of pa) (place_of pb) (place_of qw)).
  { rewrite <- (O pa), <- (O pb) by tauto. split.
    - intros (v' & pa' & pb' & pv' & V' & Pa' & Pb' & Pv' & K). rewrite (third_fun _ _ _ _ _ V V') in Pv.
      rewrite (point_fun _ _ _ _ Pa Pa'), (point_fun _ _ _ _ Pb Pb'), (point_fun _ _ _ _ Pv Pv'). exact K.
    - intros K. exists v, pa, pb, pv. tauto. }
  rewrite (common_side _ _ _ _ N1 N2'). apply and_iff_compat_both.
  - split.
    + intros (x & X1 & X2 & NA). exists x. split; [apply (se_on _ _ _ _ S1), X1|]. split; [apply On2, X2|]. intros C. inversion C; subst.
      apply NA. match goal with P : point_of _ (fst a) ?p, P' : point_of _ (fst b) ?q |- _ => pose proof (point_fun _ _ _ _ Pa P); pose proof (point_fun _ _ _ _ Pb P') end. subst.
      apply between_aligned. assumption.
    + intros (x & X1 & X2 & NA). exists x. apply (se_on _ _ _ _ S1) in X1. split; [exact X1|]. split; [apply On2, X2|].
      intros A. apply NA. econstructor; [exact Pa|exact Pb|]. exact (aligned_between x _ _ _ N1 X1 A).
  - split.
    + intros K (i & Li & Hi). apply (se_in _ _ _ _ S1) in Hi. destruct (se_corners _ _ _ _ S2 i Li) as [E|[E|E]]; rewrite E in Hi.
      * eapply corner_not_inside; [exact N1|exact Hi|apply same_spot_sym, EA].
      * eapply corner_not_inside; [|apply strictly_swap; exact Hi|apply same_spot_sym, EB]. intros F. apply N1, flat_swap, F.
      * exact (K Hi).
    + intros K Hi. apply K. destruct (third_in _ _ _ _ W) as (Iw & _). destruct (vertex_corner mesh2 t2 T2 w qw H2 Iw Qw) as (i & Li & _ & Ci).
      exists i. split; [exact Li|]. apply (se_in _ _ _ _ S1). rewrite Ci. exact Hi.
Qed.
End Side.
