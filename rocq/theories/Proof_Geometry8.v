(** Validity of a Section and what its surfaces have in common in the plane. *)
From Coq Require Import String List Arith NArith ZArith Bool QArith Lia Permutation.
From Verif Require Import Base BaseFacts Model_Issues Types Model_Degeneration Model_Results Model_Intersections Spec_Colocation Spec_Intersections Spec_Topology Spec_ValidModels
  Proof_Intersections4 Proof_Intersections5 Spec_Geometry Proof_Geometry3 Proof_Geometry5 Proof_Geometry6 Spec_Geometry2 Proof_Flat4 Spec_Geometry4 Spec_Geometry5.
Import ListNotations.
Open Scope nat_scope.
Open Scope list_scope.

Section Plane.
Context (px : Predicates) (m : Model) (trees : Trees).
Context (R : intersections_ready px m trees) (NE : no_empty_surface m) (EX : exact_in_plane px) (SP : section_in_plane m trees).
Lemma quiet_apart : (forall s1 s2 c, proposed m trees s1 s2 c -> ~ surfaces_meet px m s1 s2 c) -> apart_or_engulfed (fun s => co_active s = true) m.
Proof.
  intros A s1 s2 p q T1 T2 c N A1 A2. destruct N as [(I1 & Hp) (I2 & Hq) D (t1 & t2 & F1 & F2 & H1 & H2 & C)].
  assert (B : model_has_intersecting_surfaces px m trees (Ok false)).
  { destruct (model_runs px m trees (mkLineTrees [] (fun _ _ => []))) as ((r & Hr) & _ & _ & (b & Hb)).
    destruct (model_agree px m trees _ _ R Hb Hr) as (b' & l & -> & -> & G). destruct b'; [|exact Hb]. exfalso.
    destruct (section_report px m trees _ R NE Hr) as (l' & E & _ & K). injection E as <-.
    assert (Z : ii_issues l <> []) by (apply G; reflexivity). destruct (ii_issues l) as [|x ll] eqn:El; [contradiction Z; reflexivity|].
    destruct (proj1 (K x) (or_introl eq_refl)) as (a1 & a2 & d & P & M & _). exact (A _ _ _ P M). }
  exact (silence_2d px m trees s1 s2 p q t1 t2 T1 T2 c R NE EX (ip_dimension _ _ SP) (ip_joined _ _ SP) (ip_numbers _ _ SP) (ip_solid _ _ SP) (ip_boxes _ _ SP) B I1 I2 A1 A2 Hp Hq D F1 F2 H1 H2 C).
Qed.
Lemma apart_quiet : apart_or_engulfed (fun _ => True) m -> forall s1 s2 c, proposed m trees s1 s2 c -> ~ surfaces_meet px m s1 s2 c.
Proof.
  intros E s1 s2 c P M. apply (surfaces_meet_2d px m trees s1 s2 c R EX (ip_dimension _ _ SP) (ip_joined _ _ SP) (or_intror (ip_numbers _ _ SP)) (ip_solid _ _ SP) P) in M.
  destruct (proposed_facts px m trees s1 s2 c R P) as (I1 & I2 & Hp & Hq). destruct M as (D & (t1 & t2 & F1 & F2 & (T1 & T2 & d & H1 & H2 & C & K) & N)).
  destruct (E s1 s2 (fst c) (snd c) T1 T2 d) as (X & Y); [|exact I|exact I|].
  - constructor; [tauto|tauto|exact D|]. exists t1, t2. tauto.
  - destruct K as [K|K]; [exact (X K)|]. apply Y in K. apply N. exists T1, T2, d. tauto.
Qed.
End Plane.
Lemma sound_section_not_empty : forall m, sound_section_topology m -> no_empty_surface m.
Proof. intros m S s Hs As. destruct (st_surfaces_meshed _ S s (conj Hs As)) as ((_ & N) & _). unfold nb_polygons. destruct (sm_polygons (co_mesh s)); [contradiction N; reflexivity|discriminate]. Qed.
Lemma section_besides_iff : forall ms geo px trees m, sound_section ms geo px trees m <->
  sound_section_besides ms geo m /\ (forall s1 s2 c, proposed m trees s1 s2 c -> ~ surfaces_meet px m s1 s2 c).
Proof.
  intros ms geo px trees m. split.
  - intros [S1 S2 S3 S4 S5]. split; [constructor; assumption|assumption].
  - intros ([S1 S2 S3 S5] & S4). constructor; assumption.
Qed.
