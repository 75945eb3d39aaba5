(** Validity of a BRep and what its surfaces and lines have in common in space. *)
From Coq Require Import String List Arith NArith ZArith Bool QArith Lia Permutation.
From Verif Require Import Base BaseFacts Model_Issues Types Model_Degeneration Model_Results Model_Intersections Spec_Colocation Spec_Intersections Spec_Topology Spec_Blocks Spec_ValidModels
  Proof_Intersections4 Proof_Intersections5 Spec_Geometry Proof_Geometry3 Proof_Geometry5 Proof_Geometry6 Spec_Geometry3 Proof_Locate Proof_Locate2 Spec_Geometry4.
Import ListNotations.
Open Scope nat_scope.
Open Scope list_scope.

Section Space.
Context (px : Predicates) (m : Model) (trees : Trees) (lines : LineTrees).
Context (R : intersections_ready px m trees) (NE : no_empty_surface m) (EX : exact_predicates px) (SP : brep_in_space m trees lines).
Lemma apart_silent : (forall s1 s2 c, proposed m trees s1 s2 c -> ~ surfaces_meet px m s1 s2 c) -> surfaces_embedded_or_nested m.
Proof.
  intros A s1 s2 p q T1 T2 c N A1 A2. destruct N as [(I1 & Hp) (I2 & Hq) D (t1 & t2 & F1 & F2 & H1 & H2 & C)].
  assert (B : model_has_intersecting_surfaces px m trees (Ok false)).
  { destruct (model_runs px m trees (mkLineTrees [] (fun _ _ => []))) as ((r & Hr) & _ & _ & (b & Hb)).
    destruct (model_agree px m trees _ _ R Hb Hr) as (b' & l & -> & -> & G). destruct b'; [|exact Hb]. exfalso.
    destruct (section_report px m trees _ R NE Hr) as (l' & E & _ & K). injection E as <-.
    assert (Z : ii_issues l <> []) by (apply G; reflexivity). destruct (ii_issues l) as [|x ll] eqn:El; [contradiction Z; reflexivity|].
    destruct (proj1 (K x) (or_introl eq_refl)) as (a1 & a2 & d & P & M & _). exact (A _ _ _ P M). }
  exact (silence_3d px m trees s1 s2 p q t1 t2 T1 T2 c R NE EX (is_dimension _ _ _ SP) (is_joined _ _ _ SP) (is_solid _ _ _ SP) (is_boxes _ _ _ SP) B I1 I2 A1 A2 Hp Hq D F1 F2 H1 H2 C).
Qed.
Lemma embedded_apart : surfaces_embedded m -> forall s1 s2 c, proposed m trees s1 s2 c -> ~ surfaces_meet px m s1 s2 c.
Proof.
  intros E s1 s2 c P M. apply (surfaces_meet_iff px m trees s1 s2 c R EX (is_dimension _ _ _ SP) (is_joined _ _ _ SP) (is_solid _ _ _ SP) P) in M.
  destruct (proposed_facts px m trees s1 s2 c R P) as (I1 & I2 & Hp & Hq). destruct M as (D & (t1 & t2 & F1 & F2 & (T1 & T2 & d & H1 & H2 & C & K) & _)).
  destruct (E s1 s2 (fst c) (snd c) T1 T2 d) as (X & Y); [|destruct K as [K|K]; [exact (X K)|exact (Y K)]].
  constructor; [tauto|tauto|exact D|]. exists t1, t2. tauto.
Qed.
End Space.
Section SpaceLines.
Context (px : Predicates) (r : reading) (m : Model) (trees : Trees) (lines : LineTrees).
Context (L : locates_on_triangles px r) (LT : line_trees_of m trees lines) (SP : brep_in_space m trees lines).
Lemma end_dec : forall x g, at_end x g \/ ~ at_end x g.
Proof.
  intros x g. unfold at_end. destruct (Proof_Geometry.same_spot_dec x (segment_end g 0)) as [K|K]; [left; exists 0; split; [lia|exact K]|].
  destruct (Proof_Geometry.same_spot_dec x (segment_end g 1)) as [K'|K']; [left; exists 1; split; [lia|exact K']|].
  right. intros ([|[|i]] & Li & Ei); [exact (K Ei)|exact (K' Ei)|lia].
Qed.
Lemma corner_dec : forall x T, at_corner_of x T \/ ~ at_corner_of x T.
Proof.
  intros x T. unfold at_corner_of. destruct (Proof_Geometry.same_spot_dec x (corner T 0)) as [K|K]; [left; exists 0; split; [lia|exact K]|].
  destruct (Proof_Geometry.same_spot_dec x (corner T 1)) as [K'|K']; [left; exists 1; split; [lia|exact K']|].
  destruct (Proof_Geometry.same_spot_dec x (corner T 2)) as [K''|K'']; [left; exists 2; split; [lia|exact K'']|].
  right. intros ([|[|[|i]]] & Li & Ei); [exact (K Ei)|exact (K' Ei)|exact (K'' Ei)|lia].
Qed.
Lemma lines_apart_iff : (forall s l c, proposed_line m trees lines s l c -> embedded_in_block m (co_id l) -> ~ line_meets px (co_mesh s) (co_mesh l) c) <-> lines_embedded r m.
Proof.
  split.
  - intros A l s p e t T g x Hl Al B Hs As Hp F HT Hg X1 X2. destruct (parallel_dec r g T) as [P|P]; [left; exact P|right].
    destruct (end_dec x g) as [E1|E1]; [destruct (corner_dec x T) as [E2|E2]; [tauto|]|]; exfalso.
    + pose proof (is_line_boxes _ _ _ SP s l p e t T g x Hs As Hl Al Hp F HT Hg X1 X2) as PR. apply (A s l (p, e) PR B).
      apply (line_pierces px r _ _ (p, e) L (is_solid _ _ _ SP s Hs) (is_lines _ _ _ SP l Hl) Hp). exists t, T, g, x. cbn [fst snd]. tauto.
    + pose proof (is_line_boxes _ _ _ SP s l p e t T g x Hs As Hl Al Hp F HT Hg X1 X2) as PR. apply (A s l (p, e) PR B).
      apply (line_pierces px r _ _ (p, e) L (is_solid _ _ _ SP s Hs) (is_lines _ _ _ SP l Hl) Hp). exists t, T, g, x. cbn [fst snd]. tauto.
  - intros E s l c P B M. destruct (line_range _ _ _ _ _ _ LT P) as (Hs & As & Hl & Al & Hp & _).
    apply (line_pierces px r _ _ c L (is_solid _ _ _ SP s Hs) (is_lines _ _ _ SP l Hl) Hp) in M. destruct M as (t & T & g & x & F & HT & Hg & X1 & X2 & NP & NC).
    destruct (E l s (fst c) (snd c) t T g x Hl Al B Hs As Hp F HT Hg X1 X2) as [K|K]; [exact (NP K)|exact (NC K)].
Qed.
End SpaceLines.
Lemma sound_not_empty : forall tl m parts, sound_brep_topology tl m parts -> no_empty_surface m /\ no_empty_line m.
Proof.
  intros tl m parts S. split.
  - intros s Hs As. destruct (bt_surfaces_meshed _ _ _ S s (conj Hs As)) as ((_ & N) & _). unfold nb_polygons. destruct (sm_polygons (co_mesh s)); [contradiction N; reflexivity|discriminate].
  - intros l Hl Al. destruct (bt_lines_meshed _ _ _ S l (conj Hl Al)) as ((_ & N) & _). exact N.
Qed.
Lemma besides_iff : forall ms geo px tl trees lines m parts, sound_brep ms geo px tl trees lines m parts <->
  sound_brep_besides ms geo tl m parts /\ (forall s1 s2 c, proposed m trees s1 s2 c -> ~ surfaces_meet px m s1 s2 c) /\
  (forall s l c, proposed_line m trees lines s l c -> embedded_in_block m (co_id l) -> ~ line_meets px (co_mesh s) (co_mesh l) c).
Proof.
  intros ms geo px tl trees lines m parts. split.
  - intros [S1 S2 S3 S4 S5 S6 S7 S8 S9 S10]. split; [constructor; assumption|]. split; assumption.
  - intros ([S1 S2 S3 S4 S5 S6 S7 S10] & S8 & S9). constructor; assumption.
Qed.
