(** Lines and surfaces of a BRep, with predicates that locate contacts. *)
From Coq Require Import String List Arith NArith ZArith Bool QArith Lia.
From Verif Require Import Base Model_Issues Types Model_Intersections Spec_Colocation Proof_Colocation2 Spec_Intersections Proof_Intersections4 Proof_Intersections5 Spec_Geometry Proof_Geometry Proof_Geometry5 Spec_Geometry2 Spec_Geometry3 Proof_Locate.
Import ListNotations.
Open Scope nat_scope.
Open Scope list_scope.

Lemma line_pierces : forall px r surface line c, locates_on_triangles px r -> solid_surface surface -> solid_line line -> fst c < nb_polygons surface ->
  (line_meets px surface line c <-> pierces r surface line c).
Proof.
  intros px r surface line c L SS SL Hp. split.
  - intros (t & T & s & F & HT & Hs & H). apply (line_test px r s T L (SL _ _ Hs)) in H; [|exact (SS _ _ _ Hp F HT)].
    destruct H as (x & X). exists t, T, s, x. tauto.
  - intros (t & T & s & x & F & HT & Hs & X). exists t, T, s. split; [exact F|]. split; [exact HT|]. split; [exact Hs|].
    apply (line_test px r s T L (SL _ _ Hs)); [exact (SS _ _ _ Hp F HT)|]. exists x. exact X.
Qed.
Lemma line_range : forall m trees lines s l c, line_trees_of m trees lines -> proposed_line m trees lines s l c ->
  In s (m_surfaces m) /\ co_active s = true /\ In l (m_lines m) /\ co_active l = true /\ fst c < nb_polygons (co_mesh s) /\ snd c < length (ec_edges (co_mesh l)).
Proof.
  intros m trees lines s l c LT (Hs & As & Hl & Al & i & j & Hi & Hj & Hc). destruct c as [p q].
  destruct (lo_other _ _ _ LT s l i j Hs Hl Hi Hj p q Hc). cbn [fst snd]. tauto.
Qed.
Lemma lines_report : forall px r0 m trees lines r, intersections_ready px m trees -> line_trees_of m trees lines ->
  (forall l, In l (m_lines m) -> edges_exist (co_mesh l)) -> big_polygons m -> no_empty_surface m -> no_empty_line m ->
  locates_on_triangles px r0 -> solid_model m -> solid_lines m ->
  brep_inspect_intersections px m trees lines r ->
  exists l surfaces_part lines_part, r = Ok l /\ ii_issues l = surfaces_part ++ lines_part /\
    surfaces_report (fun s1 s2 => lists_candidates (surfaces_meet px m s1 s2)) m trees surfaces_part /\
    forall x, In x lines_part <->
      exists s l c, proposed_line m trees lines s l c /\ embedded_in_block m (co_id l) /\
        pierces r0 (co_mesh s) (co_mesh l) c /\ x = (surface_element s (fst c), line_element l (snd c)).
Proof.
  intros px r0 m trees lines r R LT LE BP NE NL L SM SL H.
  destruct (brep_report px m trees lines r R LT LE BP NE NL H) as (l & sp & lp & -> & E & SR & HL). exists l, sp, lp.
  split; [reflexivity|]. split; [exact E|]. split; [exact SR|]. intros x. rewrite HL.
  split; intros (s & g & c & P & B & M & ->); exists s, g, c; (split; [exact P|]; split; [exact B|]; split; [|reflexivity]);
    destruct (line_range _ _ _ _ _ _ LT P) as (Hs & _ & Hl & _ & Hp & _);
    apply (line_pierces px r0 _ _ c L (SM s Hs) (SL g Hl) Hp); exact M.
Qed.
Lemma line_not_surface : forall s l p e s1 s2 q1 q2, (surface_element s p, line_element l e) <> (surface_element s1 q1, surface_element s2 q2).
Proof. intros s l p e s1 s2 q1 q2 H. injection H. discriminate. Qed.
Lemma surfaces_part_surfaces : forall P m trees found x, surfaces_report P m trees found -> In x found ->
  exists s1 s2 p q, x = (surface_element s1 p, surface_element s2 q).
Proof.
  intros P m trees found x (ov & selfs & pairs & _ & -> & F1 & F2) Hx. apply in_app_iff in Hx. destruct Hx as [Hx|Hx]; apply in_concat in Hx; destruct Hx as (g & Hg & Hx).
  - clear F2. induction F1 as [|s l' ss ls (i & cs & _ & _ & ->) F1 IH]; [destruct Hg|]. destruct Hg as [<-|Hg]; [|exact (IH Hg)].
    unfold element_pairs in Hx. apply in_map_iff in Hx. destruct Hx as (c & <- & _). exists s, s, (fst c), (snd c). reflexivity.
  - clear F1. induction F2 as [|ij l' ss ls (s1 & s2 & cs & _ & _ & _ & _ & _ & ->) F2 IH]; [destruct Hg|]. destruct Hg as [<-|Hg]; [|exact (IH Hg)].
    unfold element_pairs in Hx. apply in_map_iff in Hx. destruct Hx as (c & <- & _). exists s1, s2, (fst c), (snd c). reflexivity.
Qed.
(** a line that is reported nowhere touches surfaces only with its vertices at their vertices, or is "parallel" to them there *)
Lemma lines_silence : forall px r0 m trees lines issues, intersections_ready px m trees -> line_trees_of m trees lines ->
  (forall l, In l (m_lines m) -> edges_exist (co_mesh l)) -> big_polygons m -> no_empty_surface m -> no_empty_line m ->
  locates_on_triangles px r0 -> solid_model m -> solid_lines m -> line_boxes_complete m trees lines ->
  brep_inspect_intersections px m trees lines (Ok issues) ->
  forall l, In l (m_lines m) -> co_active l = true -> embedded_in_block m (co_id l) ->
  ((forall a e, ~ In (a, line_element l e) (ii_issues issues)) <->
   forall s p e t T g x, In s (m_surfaces m) -> co_active s = true -> p < nb_polygons (co_mesh s) ->
     fan_triangle (polygon_vertices (co_mesh s) p) t -> triangle_of (co_mesh s) t T -> segment_of (co_mesh l) e g ->
     on_segment x g -> on_triangle x T -> parallel_to_triangle r0 g T \/ at_end x g /\ at_corner_of x T).
Proof.
  intros px r0 m trees lines issues R LT LE BP NE NL L SM SL BC H l Hl Al B.
  destruct (lines_report px r0 m trees lines _ R LT LE BP NE NL L SM SL H) as (l' & sp & lp & E0 & E & SR & HL). injection E0 as <-.
  split.
  - intros Q s p e t T g x Hs As Hp F HT Hg X1 X2. destruct (parallel_dec r0 g T) as [P|P]; [left; exact P|right].
    assert (D : (at_end x g /\ at_corner_of x T) \/ ~ (at_end x g /\ at_corner_of x T)).
    { assert (D1 : at_end x g \/ ~ at_end x g).
      { unfold at_end. destruct (same_spot_dec x (segment_end g 0)) as [K|K]; [left; exists 0; split; [lia|exact K]|].
        destruct (same_spot_dec x (segment_end g 1)) as [K'|K']; [left; exists 1; split; [lia|exact K']|].
        right. intros ([|[|i]] & Li & Ei); [exact (K Ei)|exact (K' Ei)|lia]. }
      assert (D2 : at_corner_of x T \/ ~ at_corner_of x T).
      { unfold at_corner_of. destruct (same_spot_dec x (corner T 0)) as [K|K]; [left; exists 0; split; [lia|exact K]|].
        destruct (same_spot_dec x (corner T 1)) as [K'|K']; [left; exists 1; split; [lia|exact K']|].
        destruct (same_spot_dec x (corner T 2)) as [K''|K'']; [left; exists 2; split; [lia|exact K'']|].
        right. intros ([|[|[|i]]] & Li & Ei); [exact (K Ei)|exact (K' Ei)|exact (K'' Ei)|lia]. }
      tauto. }
    destruct D as [D|D]; [exact D|]. exfalso. apply (Q (surface_element s p) e). rewrite E. apply in_app_iff. right. apply HL.
    exists s, l, (p, e). split; [exact (BC s l p e t T g x Hs As Hl Al Hp F HT Hg X1 X2)|]. split; [exact B|]. split; [|reflexivity].
    exists t, T, g, x. cbn [fst snd]. tauto.
  - intros Q a e I. rewrite E in I. apply in_app_iff in I. destruct I as [I|I].
    + destruct (surfaces_part_surfaces _ _ _ _ _ SR I) as (s1 & s2 & p & q & K). injection K. discriminate.
    + apply HL in I. destruct I as (s & l2 & c & P & _ & (t & T & g & x & F & HT & Hg & X1 & X2 & NP & NC) & K). injection K as _ Ke Kc.
      destruct (line_range _ _ _ _ _ _ LT P) as (Hs & As & Hl2 & Al2 & Hp & _). 
      assert (l2 = l) as ->.
      { assert (ND : NoDup (map co_id (m_lines m))). { exact (if_l m (unique_ids_facts m (ir_ids _ _ _ R))). }
        revert Hl Hl2 Ke ND. clear. generalize (m_lines m). intros ls. induction ls as [|y ls IH]; [intros []|].
        cbn. intros H1 H2 K ND. apply NoDup_cons_iff in ND. destruct ND as [N ND]. destruct H1 as [->|H1], H2 as [->|H2]; try reflexivity.
        - exfalso. apply N. rewrite K. apply in_map, H2.
        - exfalso. apply N. rewrite <- K. apply in_map, H1.
        - exact (IH H1 H2 K ND). }
      destruct (Q s (fst c) (snd c) t T g x Hs As Hp F HT Hg X1 X2) as [K|K]; tauto.
Qed.
