(** The triangle test of Sections and the triangles of the plane. *)
From Coq Require Import String List Arith NArith ZArith Bool QArith Lqa Lia Permutation.
From Verif Require Import Base BaseFacts Types Model_Intersections Spec_Intersections Proof_Intersections Proof_Intersections2 Proof_Intersections3 Proof_Intersections4
  Proof_Symmetry Spec_Geometry Proof_Geometry Proof_Geometry2 Proof_Geometry3 Proof_Geometry4 Proof_Geometry5 Proof_Geometry6 Spec_Geometry2 Proof_Flat Proof_Flat2.
Import ListNotations.
Open Scope nat_scope.
Open Scope list_scope.

Lemma plane_level : forall p, plane_point p -> level (place_of p).
Proof.
  intros p H. unfold plane_point in H. destruct p as [|a [|b [|? ?]]]; try discriminate H. unfold level, place_of. cbn [nth snd]. reflexivity.
Qed.
Lemma point_in_mesh : forall mesh v p, point_of mesh v p -> In p (sm_points mesh).
Proof. intros mesh v p H. exact (nth_error_In _ _ H). Qed.
Lemma mesh_triangle : forall mesh t T, plane_mesh mesh -> triangle_of mesh t T -> finite_triangle T /\ plane_triangle T.
Proof.
  intros mesh t T PM (a & b & c & _ & A & B & C). apply point_in_mesh in A, B, C. destruct (PM _ A), (PM _ B), (PM _ C). unfold finite_triangle, plane_triangle. tauto.
Qed.
Lemma mesh_segment : forall mesh v w p q, plane_mesh mesh -> point_of mesh v p -> point_of mesh w q -> finite_segment (p, q) /\ plane_segment (p, q).
Proof.
  intros mesh v w p q PM A B. apply point_in_mesh in A, B. destruct (PM _ A), (PM _ B). unfold finite_segment, plane_segment. cbn [fst snd]. tauto.
Qed.
Lemma plane_corners_level : forall T, plane_triangle T -> level (corner T 0) /\ level (corner T 1) /\ level (corner T 2).
Proof. intros [[a b] c] (A & B & C). cbn [fst snd] in *. cbn [corner fst snd]. split; [|split]; apply plane_level; assumption. Qed.
Lemma ends_segment : forall mesh t T a b, triangle_of mesh t T -> ends a b (corner T 0) (corner T 1) (corner T 2) ->
  exists e p q, side t e /\ point_of mesh (fst e) p /\ point_of mesh (snd e) q /\ (a = place_of p /\ b = place_of q \/ a = place_of q /\ b = place_of p).
Proof.
  intros mesh t [[x y] z] a b (u & v & w & -> & A & B & C) E. cbn [fst snd corner] in *.
  assert (S1 : side [u; v; w] (u, v)) by (exists u, v, w; tauto). assert (S2 : side [u; v; w] (v, w)) by (exists u, v, w; tauto).
  assert (S3 : side [u; v; w] (w, u)) by (exists u, v, w; tauto).
  destruct E as [(-> & ->)|[(-> & ->)|[(-> & ->)|[(-> & ->)|[(-> & ->)|(-> & ->)]]]]];
  [exists (u, v), x, y|exists (v, w), y, z|exists (w, u), z, x|exists (u, v), x, y|exists (v, w), y, z|exists (w, u), z, x]; cbn [fst snd]; tauto.
Qed.
Lemma between_ends : forall x p q p' q', same_spot p p' -> same_spot q q' -> between x p q -> between x p' q'.
Proof.
  intros x p q p' q' P Q0 (a & b & A & B & S & E). exists a, b. repeat (split; [assumption|]). eapply same_spot_trans; [exact E|]. apply mean2_eq; assumption.
Qed.
Lemma between_point : forall x p q y, same_spot x y -> between y p q -> between x p q.
Proof. intros x p q y E (a & b & A & B & S & F). exists a, b. repeat (split; [assumption|]). eapply same_spot_trans; eassumption. Qed.

Section Flat.
Context (px : Predicates) (m : Model) (s1 s2 : Component SurfaceMesh).
Let mesh1 := co_mesh s1.
Let mesh2 := co_mesh s2.
Context (t1 t2 : list nat) (T1 T2 : Triangle) (c : list (nat * nat)).
Context (H1 : triangle_of mesh1 t1 T1) (H2 : triangle_of mesh2 t2 T2) (P1 : plane_mesh mesh1) (P2 : plane_mesh mesh2).
Context (R1 : real_triangle T1) (R2 : real_triangle T2).
Context (HC : common_vertices m s1 s2 t2 t1 c) (J : joined mesh1 mesh2 c) (EX : exact_in_plane px).

Local Notation cross P := (sides_cross P (corner T1 0) (corner T1 1) (corner T1 2) (corner T2 0) (corner T2 1) (corner T2 2)).
Local Notation inside1 P := (inside_but P (corner T1 0) (corner T1 1) (corner T1 2) (corner T2 0) (corner T2 1) (corner T2 2)).
Local Notation inside2 P := (inside_but P (corner T2 0) (corner T2 1) (corner T2 2) (corner T1 0) (corner T1 1) (corner T1 2)).

(** *** The place of the common vertex *)
Lemma common_place : List.length c < 2 -> exists P,
  at_corner P (corner T1 0) (corner T1 1) (corner T1 2) /\ at_corner P (corner T2 0) (corner T2 1) (corner T2 2) /\
  (forall x, in_common mesh1 c x <-> ~ off P x) /\
  (forall a, c = [a] -> exists p q, point_of mesh1 (fst a) p /\ point_of mesh2 (snd a) q /\ In (fst a) t1 /\ In (snd a) t2 /\ same_spot (place_of p) (place_of q) /\ P = Some (place_of p)).
Proof.
  intros L. destruct c as [|[a b] [|? ?]]; [| |cbn in L; lia].
  - exists None. split; [exact I|]. split; [exact I|]. split; [|discriminate]. intros x. split; [intros K; inversion K|intros K; contradiction K; exact I].
  - destruct (common_in m s1 s2 t1 t2 _ a b HC (or_introl eq_refl)) as (Ia & Ib & _).
    destruct (point_exists mesh1 t1 T1 a H1 Ia) as (pa & Pa). destruct (point_exists mesh2 t2 T2 b H2 Ib) as (pb & Pb).
    pose proof (J (a, b) pa pb (or_introl eq_refl) Pa Pb) as Ej.
    destruct (vertex_corner mesh1 t1 T1 a pa H1 Ia Pa) as (i & Li & _ & Ci). destruct (vertex_corner mesh2 t2 T2 b pb H2 Ib Pb) as (j & Lj & _ & Cj).
    exists (Some (place_of pa)). split; [|split; [|split]].
    + unfold at_corner. rewrite <- Ci. destruct i as [|[|[|i]]]; [left|right; left|right; right|lia]; apply same_spot_refl.
    + unfold at_corner. rewrite <- Cj in Ej. destruct j as [|[|[|j]]]; [left|right; left|right; right|lia]; exact Ej.
    + intros x. unfold off. split.
      * intros K N. inversion K; subst. cbn [fst] in *. match goal with X : point_of _ a ?r |- _ => rewrite <- (point_fun _ _ _ _ Pa X) in * end. contradiction.
      * intros K. apply (ic_vertex mesh1 (a, b) pa); [exact Pa|]. destruct (same_spot_dec x (place_of pa)); tauto.
    + intros a0 [= <-]. cbn [fst snd]. exists pa, pb. tauto.
Qed.
Lemma beyond_off : forall P, (forall x, in_common mesh1 c x <-> ~ off P x) ->
  (meet_beyond mesh1 c T1 T2 <-> exists x, among x (corner T1 0) (corner T1 1) (corner T1 2) /\ among x (corner T2 0) (corner T2 1) (corner T2 2) /\ off P x).
Proof.
  intros P HP. split; intros (x & X1 & X2 & X3); exists x; (split; [exact X1|split; [exact X2|]]).
  - destruct (off_dec P x) as [O|O]; [exact O|]. contradiction X3. apply HP, O.
  - intros K. apply HP in K. contradiction.
Qed.
Lemma engulfs_inside : forall P T T', (forall x, in_common mesh1 c x <-> ~ off P x) ->
  (engulfs mesh1 c T T' <-> inside_but P (corner T 0) (corner T 1) (corner T 2) (corner T' 0) (corner T' 1) (corner T' 2)).
Proof.
  intros P T T' HP. split.
  - intros K z Hz O. assert (G : exists i, i < 3 /\ z = corner T' i) by (destruct Hz as [ -> | [ -> | -> ] ]; [exists 0|exists 1|exists 2]; split; try lia; reflexivity).
    destruct G as (i & Li & ->). destruct (K i Li) as [G|G]; [exact G|]. apply HP in G. contradiction.
  - intros K i Li. destruct (off_dec P (corner T' i)) as [O|O]; [left|right; apply HP, O]. apply K; [|exact O].
    destruct i as [|[|[|i]]]; [left|right; left|right; right|lia]; reflexivity.
Qed.

Lemma flats : ~ flat (corner T1 0) (corner T1 1) (corner T1 2) /\ ~ flat (corner T2 0) (corner T2 1) (corner T2 2).
Proof. split; [destruct T1 as [[? ?] ?]|destruct T2 as [[? ?] ?]]; assumption. Qed.
(** a contact of two sides off the common vertex *)
Lemma contact_counts : forall P x, at_corner P (corner T1 0) (corner T1 1) (corner T1 2) -> at_corner P (corner T2 0) (corner T2 1) (corner T2 2) ->
  on_a_side x (corner T1 0) (corner T1 1) (corner T1 2) -> on_a_side x (corner T2 0) (corner T2 1) (corner T2 2) -> off P x ->
  (exists x, among x (corner T1 0) (corner T1 1) (corner T1 2) /\ among x (corner T2 0) (corner T2 1) (corner T2 2) /\ off P x) /\ ~ inside1 P /\ ~ inside2 P.
Proof.
  intros P x C1 C2 S1 S2 O. destruct flats as (N1 & N2). split; [exists x; split; [apply among_of_side, S1|split; [apply among_of_side, S2|exact O]]|]. split.
  - intros K. exact (side_not_inside _ _ _ x N1 S1 (inside_all P _ _ _ _ _ _ x N1 C1 K (among_of_side _ _ _ _ S2) O)).
  - intros K. exact (side_not_inside _ _ _ x N2 S2 (inside_all P _ _ _ _ _ _ x N2 C2 K (among_of_side _ _ _ _ S1) O)).
Qed.

Local Notation reported e1 e2 p1 q1 p2 q2 := (let q := px_segment_segment px (p1, q1) (p2, q2) in
     fst q <> Outside /\ fst q <> Parallel /\ ~ only_common px q e1 [fst e2; snd e2] c true).

(** *** Fewer than two common vertices *)
Lemma sides_reported : List.length c < 2 ->
  ((exists e1 e2 p1 q1 p2 q2, side t1 e1 /\ side t2 e2 /\ point_of mesh1 (fst e1) p1 /\ point_of mesh1 (snd e1) q1 /\
      point_of mesh2 (fst e2) p2 /\ point_of mesh2 (snd e2) q2 /\ reported e1 e2 p1 q1 p2 q2) <->
   meet_beyond mesh1 c T1 T2 /\ ~ (engulfs mesh1 c T1 T2 \/ engulfs mesh1 c T2 T1)).
Proof.
  intros L. destruct (common_place L) as (P & C1 & C2 & HP & HA). rewrite (beyond_off P HP), (engulfs_inside P T1 T2 HP), (engulfs_inside P T2 T1 HP).
  destruct flats as (N1 & N2). destruct (mesh_triangle mesh1 t1 T1 P1 H1) as (F1 & Q1). destruct (mesh_triangle mesh2 t2 T2 P2 H2) as (F2 & Q2).
  destruct (plane_corners_level T1 Q1) as (L1 & L2 & L3). destruct (plane_corners_level T2 Q2) as (L4 & L5 & L6).
  split.
  - intros (e1 & e2 & p1 & q1 & p2 & q2 & S1 & S2 & A1 & B1 & A2 & B2 & K). cbv zeta in K. destruct K as (KO & KP & KC).
    destruct (mesh_segment mesh1 _ _ p1 q1 P1 A1 B1) as (G1 & G2). destruct (mesh_segment mesh2 _ _ p2 q2 P2 A2 B2) as (G3 & G4).
    destruct (proj1 (pl_contact px EX (p1, q1) (p2, q2) G1 G3 G2 G4) KO) as (x & X1 & X2).
    assert (Done : forall y, on_segment y (p1, q1) -> on_segment y (p2, q2) -> off P y ->
      (exists x, among x (corner T1 0) (corner T1 1) (corner T1 2) /\ among x (corner T2 0) (corner T2 1) (corner T2 2) /\ off P x) /\ ~ (inside1 P \/ inside2 P)).
    { intros y Y1 Y2 O. destruct (contact_counts P y C1 C2 (side_segment_on mesh1 t1 T1 e1 p1 q1 y H1 S1 A1 B1 Y1) (side_segment_on mesh2 t2 T2 e2 p2 q2 y H2 S2 A2 B2 Y2) O) as (D1 & D2 & D3).
      split; [exact D1|]. tauto. }
    destruct (off_dec P x) as [O|O]; [exact (Done x X1 X2 O)|].
    destruct P as [P|]; [|contradiction O; exact I]. cbn in O. assert (Ex : same_spot x P) by (destruct (same_spot_dec x P); tauto).
    destruct c as [|ab [|? ?]]; [|clear L|cbn in L; lia].
    { assert (K : in_common mesh1 [] x) by (apply HP; cbn; tauto). inversion K. }
    destruct (HA ab eq_refl) as (pa & pb & Pa & Pb & Ia & Ib & Ej & E). injection E as ->.
    destruct (side_or_opposite mesh1 t1 T1 e1 p1 q1 _ pa H1 R1 S1 A1 B1 Ia Pa) as (RS1 & [(i & Li & Ei & Pi)|N]); [|contradiction (N x X1)].
    destruct (side_or_opposite mesh2 t2 T2 e2 p2 q2 _ pb H2 R2 S2 A2 B2 Ib Pb) as (RS2 & [(j & Lj & Ej' & Pj)|N]); [|contradiction (N x X2); eapply same_spot_trans; eassumption].
    destruct (pl_same px EX (p1, q1) (p2, q2) i j G1 G3 G2 G4 RS1 RS2 Li Lj) as [(I1 & I2)|(y & Y1 & Y2 & Y3)]; [rewrite Pi, Pj; exact Ej|exact KP| |].
    + exfalso. apply KC. exists ab, i, j, (snd ab). split; [reflexivity|]. split; [exact I1|]. split; [exact I2|]. split; [exact Ei|]. split; [|reflexivity].
      unfold side_end in Ej'. destruct j as [|[|j]]; [| |lia]; cbn in *; rewrite Ej'; reflexivity.
    + apply (Done y Y1 Y2). cbn. rewrite <- Pi. exact Y3.
  - intros (X & NI). destruct (proj2 (share_flat P _ _ _ _ _ _ N1 N2 L1 L2 L3 L4 L5 L6 C1 C2)) as (a & b & d & f & x & E1 & E2 & X1 & X2 & NA & O); [tauto|].
    destruct (ends_segment mesh1 t1 T1 a b H1 E1) as (e1 & p1 & q1 & S1 & A1 & B1 & D1). destruct (ends_segment mesh2 t2 T2 d f H2 E2) as (e2 & p2 & q2 & S2 & A2 & B2 & D2).
    assert (O1 : on_segment x (p1, q1)) by (unfold on_segment; cbn [fst snd]; destruct D1 as [(-> & ->)|(-> & ->)]; [exact X1|apply between_swap, X1]).
    assert (O2 : on_segment x (p2, q2)) by (unfold on_segment; cbn [fst snd]; destruct D2 as [(-> & ->)|(-> & ->)]; [exact X2|apply between_swap, X2]).
    destruct (mesh_segment mesh1 _ _ p1 q1 P1 A1 B1) as (G1 & G2). destruct (mesh_segment mesh2 _ _ p2 q2 P2 A2 B2) as (G3 & G4).
    exists e1, e2, p1, q1, p2, q2. repeat (split; [assumption|]). cbv zeta. split; [|split].
    + apply (pl_contact px EX (p1, q1) (p2, q2) G1 G3 G2 G4). exists x. tauto.
    + intros K. assert (RS1 : real_segment (p1, q1)).
      { destruct (point_exists mesh1 t1 T1 (nth 0 t1 0) H1) as (p & Pp); [destruct H1 as (u & v & w & -> & _); left; reflexivity|].
        refine (proj1 (side_or_opposite mesh1 t1 T1 e1 p1 q1 (nth 0 t1 0) p H1 R1 S1 A1 B1 _ Pp)). destruct H1 as (u & v & w & -> & _); left; reflexivity. }
      assert (RS2 : real_segment (p2, q2)).
      { destruct (point_exists mesh2 t2 T2 (nth 0 t2 0) H2) as (p & Pp); [destruct H2 as (u & v & w & -> & _); left; reflexivity|].
        refine (proj1 (side_or_opposite mesh2 t2 T2 e2 p2 q2 (nth 0 t2 0) p H2 R2 S2 A2 B2 _ Pp)). destruct H2 as (u & v & w & -> & _); left; reflexivity. }
      destruct (pl_parallel px EX (p1, q1) (p2, q2) G1 G3 G2 G4 RS1 RS2 K) as (K1 & K2). unfold segment_end in K1, K2. cbn [fst snd] in K1, K2.
      apply NA. destruct D1 as [(-> & ->)|(-> & ->)], D2 as [(-> & ->)|(-> & ->)]; split; first [assumption|apply aligned_swap; assumption].
    + intros (ab & i & j & w & Ec & I1 & I2 & Es & _). cbn iota in Es.
      destruct (HA ab Ec) as (pa & pb & Pa & _ & _ & _ & _ & EP). destruct (pl_vertex px EX (p1, q1) (p2, q2) i j x G1 G3 G2 G4 I1 I2 O1 O2) as (V & _).
      destruct (side_end_place mesh1 t1 e1 p1 q1 i S1 A1 B1) as (r & R & ER). rewrite Es in R. rewrite ER, <- (point_fun _ _ _ _ Pa R) in V. rewrite EP in O. exact (O V).
Qed.
End Flat.

(** *** Two common vertices *)
Section Side.
Context (px : Predicates) (m : Model) (s1 s2 : Component SurfaceMesh).
Let mesh1 := co_mesh s1.
Let mesh2 := co_mesh s2.
Context (t1 t2 : list nat) (T1 T2 : Triangle) (a b : nat * nat).
Context (H1 : triangle_of mesh1 t1 T1) (H2 : triangle_of mesh2 t2 T2) (P1 : plane_mesh mesh1) (P2 : plane_mesh mesh2).
Context (R1 : real_triangle T1) (R2 : real_triangle T2).
Context (HC : common_vertices m s1 s2 t2 t1 [a; b]) (J : joined mesh1 mesh2 [a; b]) (EX : exact_in_plane px).
Context (RD : readable m s1 s2) (SR : second_right mesh1 [a; b]).

Lemma side_flat : triangles_meet_2d px m s1 s2 snd t1 t2 <-> meet_beyond mesh1 [a; b] T1 T2.
Proof.
  destruct (common_side_corners m s1 s2 t1 t2 T1 T2 a b H1 H2 R1 R2 HC J) as (v & w & pa & pb & pv & qa & qb & qw & V & W & Pa & Pb & Pv & Qa & Qb & Qw & S1 & S2 & EA & EB).
  pose proof (se_flat _ _ _ _ S1 R1) as N1. pose proof (se_flat _ _ _ _ S2 R2) as N2.
  assert (N2' : ~ flat (place_of pa) (place_of pb) (place_of qw)) by (intros F; apply N2; eapply flat_corners; eassumption).
  assert (On2 : forall x, on_triangle x T2 <-> among x (place_of pa) (place_of pb) (place_of qw)).
  { intros x. rewrite (se_on _ _ _ _ S2 x). split; apply among_corners; assumption || (apply same_spot_sym; assumption). }
  assert (B : exists pb', point_of mesh1 (snd b) pb').
  { destruct b as [b1 b2]. cbn [fst snd] in *. destruct (common_in m s1 s2 t1 t2 _ b1 b2 HC (or_intror (or_introl eq_refl))) as (B1 & B2 & U).
    assert (Lb : b2 < List.length (sm_points (co_mesh s1))).
    { apply (RD b1 b2); [apply (triangle_in_mesh s1 t1 T1 H1), B1|apply (triangle_in_mesh s2 t2 T2 H2), B2|exact U]. }
    unfold point_of. destruct (nth_error (sm_points mesh1) b2) eqn:E; [eexists; reflexivity|]. apply nth_error_None in E. unfold mesh1 in E. lia. }
  destruct B as (pb' & Pb'). pose proof (SR a b pb pb' eq_refl Pb Pb') as EB'.
  destruct (mesh_segment mesh1 _ _ pa pv P1 Pa Pv) as ((Fa & Fv) & (Ga & Gv)). destruct (mesh_segment mesh1 _ _ pb pb' P1 Pb Pb') as ((Fb & Fb') & (Gb & Gb')).
  destruct (P2 _ (point_in_mesh _ _ _ Qw)) as (Fw & Gw). cbn [fst snd] in *.
  destruct (mesh_triangle mesh1 t1 T1 P1 H1) as (F1 & G1). destruct (mesh_triangle mesh2 t2 T2 P2 H2) as (F2 & G2).
  assert (M : triangles_meet_2d px m s1 s2 snd t1 t2 <->
    (fst (px_segment_segment px (pa, pv) (pb', qw)) <> Outside \/ fst (px_segment_segment px (pb', pv) (pa, qw)) <> Outside \/
     px_point_triangle px pv T2 <> Outside \/ px_point_triangle px qw T1 <> Outside)).
  { split; [|intros K; eapply m2_two; eassumption].
    intros K. inversion K as [c C L|a' b' v' w' pa' pb'' pv' pw' T1' T2' C V' W' A1 A2 A3 A4 K1 K2 KK|c e1 e2 p1 q1 p2 q2 C L].
    - rewrite (common_fun m s1 s2 t1 t2 _ _ C HC) in L. discriminate L.
    - pose proof (common_fun m s1 s2 t1 t2 _ _ C HC) as E. injection E as -> ->. rewrite (third_fun _ _ _ _ _ V' V) in A3. rewrite (third_fun _ _ _ _ _ W' W) in A4.
      rewrite (point_fun _ _ _ _ A1 Pa), (point_fun _ _ _ _ A2 Pb'), (point_fun _ _ _ _ A3 Pv), (point_fun _ _ _ _ A4 Qw) in KK.
      rewrite (triangle_fun _ _ _ _ K1 H1), (triangle_fun _ _ _ _ K2 H2) in KK. exact KK.
    - rewrite (common_fun m s1 s2 t1 t2 _ _ C HC) in L. cbn in L. lia. }
  rewrite M. rewrite (pl_contact px EX (pa, pv) (pb', qw)), (pl_contact px EX (pb', pv) (pa, qw)) by (split; assumption).
  rewrite (pl_point px EX pv T2), (pl_point px EX qw T1) by assumption. unfold on_segment. cbn [fst snd].
  transitivity ((exists x, between x (place_of pa) (place_of pv) /\ between x (place_of pb) (place_of qw)) \/ (exists x, between x (place_of pb) (place_of pv) /\ between x (place_of pa) (place_of qw)) \/
    among (place_of pv) (place_of pa) (place_of pb) (place_of qw) \/ among (place_of qw) (place_of pa) (place_of pb) (place_of pv)).
  { rewrite (On2 (place_of pv)), (se_on _ _ _ _ S1 (place_of qw)). pose proof (same_spot_refl (place_of qw)) as Eq. pose proof (same_spot_refl (place_of pv)) as Ev.
    split; (intros [(x & X1 & X2)|[(x & X1 & X2)|K]]; [left; exists x; split; [exact X1|]|right; left; exists x; split; [|exact X2]|right; right; exact K]);
    eapply between_ends; try eassumption; apply same_spot_sym; assumption. }
  rewrite (common_side_flat _ _ _ _ N1 N2'). split.
  - intros (x & X1 & X2 & NA). exists x. split; [apply (se_on _ _ _ _ S1), X1|]. split; [apply On2, X2|]. intros C. inversion C; subst.
    apply NA. match goal with P : point_of _ (fst a) ?p, P' : point_of _ (fst b) ?q, K : between x (place_of ?p) (place_of ?q) |- _ => rewrite (point_fun _ _ _ _ Pa P), (point_fun _ _ _ _ Pb P') end.
    apply between_aligned. assumption.
  - intros (x & X1 & X2 & NA). exists x. apply (se_on _ _ _ _ S1) in X1. split; [exact X1|]. split; [apply On2, X2|].
    intros A. apply NA. econstructor; [exact Pa|exact Pb|]. exact (aligned_between x _ _ _ N1 X1 A).
Qed.
End Side.

(** *** The test on two triangles *)
Lemma triangles_2d : forall px m s1 s2 t1 t2 T1 T2 c, triangle_of (co_mesh s1) t1 T1 -> triangle_of (co_mesh s2) t2 T2 ->
  plane_mesh (co_mesh s1) -> plane_mesh (co_mesh s2) -> real_triangle T1 -> real_triangle T2 ->
  common_vertices m s1 s2 t2 t1 c -> joined (co_mesh s1) (co_mesh s2) c -> exact_in_plane px -> readable m s1 s2 -> second_right (co_mesh s1) c ->
  (triangles_meet_2d px m s1 s2 snd t1 t2 <->
   List.length c = 3 \/ meet_beyond (co_mesh s1) c T1 T2 /\ ~ (List.length c < 2 /\ (engulfs (co_mesh s1) c T1 T2 \/ engulfs (co_mesh s1) c T2 T1))).
Proof.
  intros px m s1 s2 t1 t2 T1 T2 c H1 H2 P1 P2 R1 R2 HC J EX RD SR.
  pose proof (common_length m s1 s2 t1 t2 c HC) as L. destruct (triangle_in_mesh s1 t1 T1 H1) as (_ & L1). rewrite L1 in L.
  destruct (Nat.eq_dec (List.length c) 3) as [E3|N3].
  { split; [intros _; left; exact E3|]. intros _. eapply m2_three; eassumption. }
  destruct (Nat.eq_dec (List.length c) 2) as [E2|N2].
  - destruct c as [|a [|b [|? ?]]]; try discriminate E2.
    rewrite (side_flat px m s1 s2 t1 t2 T1 T2 a b H1 H2 P1 P2 R1 R2 HC J EX RD SR). cbn [List.length]. split; [intros K; right; split; [exact K|]; lia|]. intros [K|(K & _)]; [lia|exact K].
  - assert (L2 : List.length c < 2) by lia.
    pose proof (sides_reported px m s1 s2 t1 t2 T1 T2 c H1 H2 P1 P2 R1 R2 HC J EX L2) as K. split.
    + intros M. right. split; [|intros (_ & N); revert N]; apply K; clear K.
      * inversion M as [c' C' L'|a' b' v w pa pb pv pw TT1 TT2 C'|c' e1 e2 p1 q1 p2 q2 C' L' S1 S2 A1 A2 A3 A4 KK]; pose proof (common_fun m s1 s2 t1 t2 _ _ C' HC) as E; subst c || (rewrite <- E in * ); try (cbn in *; lia).
        exists e1, e2, p1, q1, p2, q2. tauto.
      * inversion M as [c' C' L'|a' b' v w pa pb pv pw TT1 TT2 C'|c' e1 e2 p1 q1 p2 q2 C' L' S1 S2 A1 A2 A3 A4 KK]; pose proof (common_fun m s1 s2 t1 t2 _ _ C' HC) as E; subst c || (rewrite <- E in * ); try (cbn in *; lia).
        exists e1, e2, p1, q1, p2, q2. tauto.
    + intros [G|(G & N)]; [contradiction|]. destruct (proj2 K) as (e1 & e2 & p1 & q1 & p2 & q2 & S1 & S2 & A1 & A2 & A3 & A4 & KK); [tauto|].
      eapply m2_sides; eassumption.
Qed.
