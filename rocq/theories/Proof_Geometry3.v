(** The triangle test of BReps and the triangles in space. *)
From Coq Require Import String List Arith NArith ZArith Bool QArith Lqa Lia Permutation.
From Verif Require Import Base BaseFacts Types Model_Intersections Spec_Intersections Proof_Intersections Proof_Intersections2 Proof_Intersections3 Proof_Intersections4
  Spec_Geometry Proof_Geometry Proof_Geometry2.
Import ListNotations.
Open Scope nat_scope.
Open Scope list_scope.

(** ** Triangles of a mesh and their sides *)
Lemma point_fun : forall mesh v p q, point_of mesh v p -> point_of mesh v q -> p = q.
Proof. unfold point_of. intros mesh v p q H1 H2. rewrite H1 in H2. injection H2. auto. Qed.
Lemma triangle_fun : forall mesh t T T', triangle_of mesh t T -> triangle_of mesh t T' -> T = T'.
Proof.
  intros mesh t [[a b] c] [[a' b'] c'] (x & y & z & -> & A & B & C) (x' & y' & z' & E & A' & B' & C'). injection E as <- <- <-. cbn [fst snd] in *.
  rewrite (point_fun _ _ _ _ A A'), (point_fun _ _ _ _ B B'), (point_fun _ _ _ _ C C'). reflexivity.
Qed.
Lemma on_a_side_segment : forall mesh t T x, triangle_of mesh t T -> on_a_side x (corner T 0) (corner T 1) (corner T 2) ->
  exists e p q, side t e /\ point_of mesh (fst e) p /\ point_of mesh (snd e) q /\ on_segment x (p, q).
Proof.
  intros mesh t [[a b] c] x (u & v & w & -> & A & B & C) S. cbn [fst snd corner] in *. destruct S as [S|[S|S]].
  - exists (u, v), a, b. split; [exists u, v, w; tauto|]. cbn [fst snd]. repeat split; assumption.
  - exists (v, w), b, c. split; [exists u, v, w; tauto|]. cbn [fst snd]. repeat split; assumption.
  - exists (w, u), c, a. split; [exists u, v, w; tauto|]. cbn [fst snd]. repeat split; assumption.
Qed.
Lemma among_of_side : forall x p q r, on_a_side x p q r -> among x p q r.
Proof.
  intros [[x0 x1] x2] [[p0 p1] p2] [[q0 q1] q2] [[r0 r1] r2] [(a & b & A & B & S & E)|[(a & b & A & B & S & E)|(a & b & A & B & S & E)]];
  [exists a, b, 0%Q|exists 0%Q, a, b|exists b, 0%Q, a]; (split; [lra|split; [lra|split; [lra|split; [lra|]]]]); spots; destruct E as (E0 & E1 & E2); repeat split; lra.
Qed.
Lemma side_segment_on : forall mesh t T e p q x, triangle_of mesh t T -> side t e -> point_of mesh (fst e) p -> point_of mesh (snd e) q ->
  on_segment x (p, q) -> on_a_side x (corner T 0) (corner T 1) (corner T 2).
Proof.
  intros mesh t [[a b] c] e p q x (u & v & w & -> & A & B & C) (u' & v' & w' & E & S) P Q0 H. injection E as <- <- <-. cbn [fst snd corner] in *.
  unfold on_segment in H. cbn [fst snd] in H.
  destruct S as [ -> | [ -> | -> ] ]; cbn [fst snd] in *.
  - rewrite (point_fun _ _ _ _ A P), (point_fun _ _ _ _ B Q0). left. exact H.
  - rewrite (point_fun _ _ _ _ B P), (point_fun _ _ _ _ C Q0). right. left. exact H.
  - rewrite (point_fun _ _ _ _ C P), (point_fun _ _ _ _ A Q0). right. right. exact H.
Qed.
Lemma side_segment_in : forall mesh t T e p q x, triangle_of mesh t T -> side t e -> point_of mesh (fst e) p -> point_of mesh (snd e) q ->
  on_segment x (p, q) -> on_triangle x T.
Proof. intros mesh t T e p q x HT S P Q0 H. apply among_of_side. exact (side_segment_on mesh t T e p q x HT S P Q0 H). Qed.
Lemma side_finite : forall mesh t T e p q, triangle_of mesh t T -> side t e -> point_of mesh (fst e) p -> point_of mesh (snd e) q ->
  finite_triangle T -> finite_segment (p, q).
Proof.
  intros mesh t [[a b] c] e p q (u & v & w & -> & A & B & C) (u' & v' & w' & E & S) P Q0 (F1 & F2 & F3). injection E as <- <- <-. cbn [fst snd] in *.
  destruct S as [ -> | [ -> | -> ] ]; cbn [fst snd] in *; split; cbn [fst snd];
  repeat match goal with H1 : point_of mesh ?v ?p, H2 : point_of mesh ?v ?q |- _ => first [constr_eq p q; fail 1 | pose proof (point_fun _ _ _ _ H1 H2); subst; clear H2] end; assumption.
Qed.
Lemma vertex_corner : forall mesh t T v p, triangle_of mesh t T -> In v t -> point_of mesh v p ->
  exists i, i < 3 /\ nth_error t i = Some v /\ corner T i = place_of p.
Proof.
  intros mesh t [[a b] c] v p (x & y & z & -> & A & B & C) H P. cbn [fst snd] in *. destruct H as [<-|[<-|[<-|[]]]].
  - exists 0. cbn [corner fst snd]. rewrite (point_fun _ _ _ _ A P). repeat split; lia || reflexivity.
  - exists 1. cbn [corner fst snd]. rewrite (point_fun _ _ _ _ B P). repeat split; lia || reflexivity.
  - exists 2. cbn [corner fst snd]. rewrite (point_fun _ _ _ _ C P). repeat split; lia || reflexivity.
Qed.
Lemma corner_nth : forall T i, i < 3 -> corner T i = nth_corner i (corner T 0) (corner T 1) (corner T 2).
Proof. intros [[a b] c] [|[|[|i]]] H; [reflexivity..|lia]. Qed.
Lemma side_end_place : forall mesh t e p q i, side t e -> point_of mesh (fst e) p -> point_of mesh (snd e) q ->
  exists r, point_of mesh (side_end e i) r /\ segment_end (p, q) i = place_of r.
Proof. intros mesh t e p q [|i] S P Q0; [exists p|exists q]; unfold side_end; cbn; split; auto. Qed.
Lemma point_exists : forall mesh t T v, triangle_of mesh t T -> In v t -> exists p, point_of mesh v p.
Proof. intros mesh t [[a b] c] v (x & y & z & -> & A & B & C) H. cbn [fst snd] in *. destruct H as [<-|[<-|[<-|[]]]]; eexists; eassumption. Qed.

Lemma real_nodup : forall mesh t T, triangle_of mesh t T -> real_triangle T -> NoDup t.
Proof.
  intros mesh t [[a b] c] (x & y & z & -> & A & B & C) R. unfold real_triangle in R. cbn [fst snd] in *. destruct (real_ends _ _ _ R) as (R1 & R2 & R3).
  constructor; [|constructor; [|constructor; [intros []|constructor]]].
  - intros [<-|[<-|[]]]; [apply R1; rewrite (point_fun _ _ _ _ A B)|apply R3; rewrite (point_fun _ _ _ _ A C)]; apply same_spot_refl.
  - intros [<-|[]]. apply R2; rewrite (point_fun _ _ _ _ B C); apply same_spot_refl.
Qed.
Lemma corner_off_side : forall p q r x, ~ flat p q r -> between x q r -> ~ same_spot x p.
Proof.
  intros [[p0 p1] p2] [[q0 q1] q2] [[r0 r1] r2] [[x0 x1] x2] N (a & b & A & B & S & E) F.
  destruct (independent _ _ _ (-1) a b N) as (Z & _ & _); [lra| |discriminate Z]. spots. destruct E as (E0 & E1 & E2), F as (F0 & F1 & F2).
  rewrite F0 in E0. rewrite F1 in E1. rewrite F2 in E2. repeat split; lra.
Qed.
Lemma flat_turn : forall p q r, flat q r p -> flat p q r.
Proof.
  intros [[p0 p1] p2] [[q0 q1] q2] [[r0 r1] r2] (a & b & c & N & S & E). exists c, a, b. split; [tauto|]. split; [lra|]. spots. destruct E as (E0 & E1 & E2). repeat split; lra.
Qed.
(** a side of a triangle has the vertex [v] of it as an end, or stays away from it *)
Lemma side_or_opposite : forall mesh t T e p q v pv, triangle_of mesh t T -> real_triangle T -> side t e -> point_of mesh (fst e) p -> point_of mesh (snd e) q ->
  In v t -> point_of mesh v pv ->
  real_segment (p, q) /\ ((exists i, i < 2 /\ side_end e i = v /\ segment_end (p, q) i = place_of pv) \/ forall x, on_segment x (p, q) -> ~ same_spot x (place_of pv)).
Proof.
  intros mesh t [[a b] c] e p q v pv (u & w & z & -> & A & B & C) R (u' & w' & z' & E & S) P Q0 I V. injection E as <- <- <-. cbn [fst snd] in *.
  unfold real_triangle in R. cbn [fst snd] in R. destruct (real_ends _ _ _ R) as (R1 & R2 & R3).
  assert (T1 : ~ flat (place_of b) (place_of c) (place_of a)) by (intros F; apply R; apply flat_turn, F).
  assert (T2 : ~ flat (place_of c) (place_of a) (place_of b)) by (intros F; apply R; apply flat_turn, flat_turn, F).
  assert (M : forall i j, segment_end (p, q) 0 = i -> segment_end (p, q) 1 = j -> ~ same_spot i j -> real_segment (p, q)).
  { intros i j <- <- H. exact H. }
  destruct S as [ -> | [ -> | -> ] ]; cbn [fst snd] in *;
  repeat match goal with H1 : point_of mesh ?v ?p, H2 : point_of mesh ?v ?q |- _ => first [constr_eq p q; fail 1 | pose proof (point_fun _ _ _ _ H1 H2); subst; clear H2] end;
  (split; [eapply M; [reflexivity..|]; try assumption; intros K; first [exact (R1 K)|exact (R2 K)|exact (R3 K)|exact (R3 (same_spot_sym _ _ K))]|]);
  destruct I as [<-|[<-|[<-|[]]]];
  repeat match goal with H1 : point_of mesh ?v ?p, H2 : point_of mesh ?v ?q |- _ => first [constr_eq p q; fail 1 | pose proof (point_fun _ _ _ _ H1 H2); subst; clear H2] end;
  try (left; exists 0; repeat split; lia || reflexivity); try (left; exists 1; repeat split; lia || reflexivity);
  right; intros x O; unfold on_segment in O; cbn [fst snd] in O; eapply corner_off_side; eassumption.
Qed.

Section Pair.
Context (px : Predicates) (m : Model) (s1 s2 : Component SurfaceMesh).
Let mesh1 := co_mesh s1.
Let mesh2 := co_mesh s2.
Context (t1 t2 : list nat) (T1 T2 : Triangle) (c : list (nat * nat)).
Context (H1 : triangle_of mesh1 t1 T1) (H2 : triangle_of mesh2 t2 T2) (F1 : finite_triangle T1) (F2 : finite_triangle T2).
Context (HC : common_vertices m s1 s2 t2 t1 c) (J : joined mesh1 mesh2 c) (Hix : indices_in_range px).

(** *** Nothing is overlooked: fewer than two common vertices *)
Lemma beyond_found : overlooks_nothing px -> List.length c < 2 -> meet_beyond mesh1 c T1 T2 -> triangles_meet_3d px m s1 s2 t1 t2.
Proof.
  intros [OC OV] L (x & X1 & X2 & NX).
  assert (K : exists y, on_triangle y T1 /\ on_triangle y T2 /\
     (on_a_side y (corner T1 0) (corner T1 1) (corner T1 2) \/ on_a_side y (corner T2 0) (corner T2 1) (corner T2 2)) /\
     forall a p, c = [a] -> point_of mesh1 (fst a) p -> ~ same_spot y (place_of p)).
  { destruct c as [|[a b] [|? ?]]; [| |cbn in L; lia].
    - destruct (triangles_share _ _ _ _ _ _ x X1 X2) as (y & Y1 & Y2 & Y3). exists y. repeat split; [exact Y1|exact Y2|exact Y3|discriminate].
    - destruct (common_in m s1 s2 t1 t2 _ a b HC (or_introl eq_refl)) as (Ia & Ib & _).
      destruct (point_exists mesh1 t1 T1 a H1 Ia) as (pa & Pa). destruct (point_exists mesh2 t2 T2 b H2 Ib) as (pb & Pb).
      destruct (vertex_corner mesh1 t1 T1 a pa H1 Ia Pa) as (i & Li & _ & Ci). destruct (vertex_corner mesh2 t2 T2 b pb H2 Ib Pb) as (j & Lj & _ & Cj).
      pose proof (J (a, b) pa pb (or_introl eq_refl) Pa Pb) as Ej. rewrite <- Ci, <- Cj in Ej. rewrite (corner_nth T1 i Li), (corner_nth T2 j Lj) in Ej.
      destruct (share_beyond _ _ _ _ _ _ i j x Ej X1 X2) as (y & Y1 & Y2 & Y3 & Y4).
      + intros E. apply NX. econstructor; [exact Pa|]. rewrite <- Ci, (corner_nth T1 i Li). exact E.
      + exists y. repeat split; [exact Y1|exact Y2|exact Y3|]. intros a' p [= <-] Hp. cbn [fst] in Hp. rewrite <- (point_fun _ _ _ _ Pa Hp), <- Ci, (corner_nth T1 i Li). exact Y4. }
  destruct K as (y & Y1 & Y2 & [Y3|Y3] & Y4).
  - destruct (on_a_side_segment mesh1 t1 T1 y H1 Y3) as (e & p & q & S & P & Q0 & O).
    pose proof (side_finite mesh1 t1 T1 e p q H1 S P Q0 F1) as FS.
    apply (m3_first px m s1 s2 t1 t2 c e p q T2); try assumption; [exact (OC (p, q) T2 y FS F2 O Y2)|].
    intros (a & i & j & w & Ec & I1 & I2 & Es & _). cbn iota in Es.
    destruct (OV (p, q) T2 i j y FS F2 I1 I2 O Y2) as (V & _).
    destruct (side_end_place mesh1 t1 e p q i S P Q0) as (r & R & ER). rewrite Es in R. rewrite ER in V. exact (Y4 a r Ec R V).
  - destruct (on_a_side_segment mesh2 t2 T2 y H2 Y3) as (e & p & q & S & P & Q0 & O).
    pose proof (side_finite mesh2 t2 T2 e p q H2 S P Q0 F2) as FS.
    apply (m3_second px m s1 s2 t1 t2 c e p q T1); try assumption; [exact (OC (p, q) T1 y FS F1 O Y1)|].
    intros (a & i & j & w & Ec & I1 & I2 & Es & _). cbn iota in Es.
    destruct (OV (p, q) T1 i j y FS F1 I1 I2 O Y1) as (V & _).
    destruct (side_end_place mesh2 t2 e p q i S P Q0) as (r & R & ER). rewrite Es in R. rewrite ER in V.
    assert (Ia : In (fst a, snd a) c) by (rewrite Ec; left; destruct a; reflexivity).
    destruct (common_in m s1 s2 t1 t2 _ _ _ HC Ia) as (Ja & _). destruct (point_exists mesh1 t1 T1 _ H1 Ja) as (pa & Pa).
    apply (Y4 a pa Ec Pa). eapply same_spot_trans; [exact V|]. apply same_spot_sym. apply (J (fst a, snd a) pa r Ia Pa R).
Qed.

(** *** Nothing is invented: fewer than two common vertices *)
Lemma found_beyond_first : invents_nothing px -> real_triangle T1 -> real_triangle T2 -> List.length c < 2 -> forall e p q, side t1 e ->
  point_of mesh1 (fst e) p -> point_of mesh1 (snd e) q -> fst (px_segment_triangle px (p, q) T2) <> Outside ->
  ~ only_common px (px_segment_triangle px (p, q) T2) e t2 c true -> meet_beyond mesh1 c T1 T2.
Proof.
  intros [IC IV] R1 R2 L e p q S P Q0 O NC. pose proof (side_finite mesh1 t1 T1 e p q H1 S P Q0 F1) as FS.
  destruct (IC (p, q) T2 FS F2 O) as (x & X1 & X2).
  assert (In1 : forall y, on_segment y (p, q) -> on_triangle y T1) by (intros y; exact (side_segment_in mesh1 t1 T1 e p q y H1 S P Q0)).
  destruct c as [|[a b] [|? ?]]; [| |cbn in L; lia].
  - exists x. repeat split; auto. intros K. inversion K.
  - destruct (common_in m s1 s2 t1 t2 _ a b HC (or_introl eq_refl)) as (Ia & Ib & _).
    destruct (point_exists mesh1 t1 T1 a H1 Ia) as (pa & Pa). destruct (point_exists mesh2 t2 T2 b H2 Ib) as (pb & Pb).
    destruct (vertex_corner mesh2 t2 T2 b pb H2 Ib Pb) as (j & Lj & Nj & Cj).
    assert (K : forall y, on_segment y (p, q) -> on_triangle y T2 -> ~ same_spot y (place_of pa) -> meet_beyond mesh1 [(a, b)] T1 T2).
    { intros y Y1 Y2 Y3. exists y. repeat split; auto. intros G. inversion G; subst. cbn [fst] in *. apply Y3.
      match goal with X : point_of _ a ?r |- _ => rewrite (point_fun _ _ _ _ Pa X) end. assumption. }
    destruct (side_or_opposite mesh1 t1 T1 e p q a pa H1 R1 S P Q0 Ia Pa) as (RS & [(i & Li & Ei & Pi)|N]); [|exact (K x X1 X2 (N x X1))].
    destruct (IV (p, q) T2 i j FS F2 RS R2 Li Lj) as [(I1 & I2)|(y & Y1 & Y2 & Y3)].
    + rewrite Pi, Cj. apply (J (a, b) pa pb (or_introl eq_refl) Pa Pb).
    + exfalso. apply NC. exists (a, b), i, j, b. repeat split; auto.
    + apply (K y Y1 Y2). rewrite <- Pi. exact Y3.
Qed.
Lemma found_beyond_second : invents_nothing px -> real_triangle T1 -> real_triangle T2 -> List.length c < 2 -> forall e p q, side t2 e ->
  point_of mesh2 (fst e) p -> point_of mesh2 (snd e) q -> fst (px_segment_triangle px (p, q) T1) <> Outside ->
  ~ only_common px (px_segment_triangle px (p, q) T1) e t1 c false -> meet_beyond mesh1 c T1 T2.
Proof.
  intros [IC IV] R1 R2 L e p q S P Q0 O NC. pose proof (side_finite mesh2 t2 T2 e p q H2 S P Q0 F2) as FS.
  destruct (IC (p, q) T1 FS F1 O) as (x & X1 & X2).
  assert (In1 : forall y, on_segment y (p, q) -> on_triangle y T2) by (intros y; exact (side_segment_in mesh2 t2 T2 e p q y H2 S P Q0)).
  destruct c as [|[a b] [|? ?]]; [| |cbn in L; lia].
  - exists x. repeat split; auto. intros K. inversion K.
  - destruct (common_in m s1 s2 t1 t2 _ a b HC (or_introl eq_refl)) as (Ia & Ib & _).
    destruct (point_exists mesh1 t1 T1 a H1 Ia) as (pa & Pa). destruct (point_exists mesh2 t2 T2 b H2 Ib) as (pb & Pb).
    destruct (vertex_corner mesh1 t1 T1 a pa H1 Ia Pa) as (j & Lj & Nj & Cj).
    pose proof (J (a, b) pa pb (or_introl eq_refl) Pa Pb) as Ej.
    assert (K : forall y, on_segment y (p, q) -> on_triangle y T1 -> ~ same_spot y (place_of pb) -> meet_beyond mesh1 [(a, b)] T1 T2).
    { intros y Y1 Y2 Y3. exists y. repeat split; auto. intros G. inversion G; subst. cbn [fst] in *. apply Y3.
      eapply same_spot_trans; [|exact Ej]. match goal with X : point_of _ a ?r |- _ => rewrite (point_fun _ _ _ _ Pa X) end. assumption. }
    destruct (side_or_opposite mesh2 t2 T2 e p q b pb H2 R2 S P Q0 Ib Pb) as (RS & [(i & Li & Ei & Pi)|N]); [|exact (K x X1 X2 (N x X1))].
    destruct (IV (p, q) T1 i j FS F1 RS R1 Li Lj) as [(I1 & I2)|(y & Y1 & Y2 & Y3)].
    + rewrite Pi, Cj. apply same_spot_sym. exact Ej.
    + exfalso. apply NC. exists (a, b), i, j, a. repeat split; auto.
    + apply (K y Y1 Y2). rewrite <- Pi. exact Y3.
Qed.
End Pair.
