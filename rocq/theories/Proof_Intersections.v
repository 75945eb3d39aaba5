From Coq Require Import String Ascii List Arith NArith ZArith Bool Lia Permutation.
From Verif Require Import Base BaseFacts Model_Issues Types Model_Intersections Spec_Intersections Proof_Colocation2 Proof_Degeneration Proof_Manifold.
Import ListNotations.
Open Scope list_scope.

(** ** Traversals *)
Definition hit_of (hit : nat * nat -> outcome bool) (c : nat * nat) : bool := match hit c with Ok b => b | _ => false end.
Lemma traverses_record : forall hit stop fl cands found0 r,
  traverses (record_action hit stop) fl cands found0 r ->
  (forall c, In c cands -> exists b, hit c = Ok b) ->
  exists visited rest, Permutation cands (visited ++ rest) /\ r = Ok (found0 ++ filter (hit_of hit) visited) /\
    (rest = [] \/ fl = true \/ (stop = true /\ filter (hit_of hit) visited <> [])).
Proof.
  intros hit stop fl cands found0 r H. induction H as [fl s|cands s|fl cands c rest s s' b r P A T IH|fl cands c rest s e P A|fl cands c rest s P A]; intros Hok.
  - exists [], []. cbn. rewrite app_nil_r. auto.
  - exists [], cands. cbn. rewrite app_nil_r. auto.
  - assert (Hc : In c cands) by (eapply Permutation_in; [apply Permutation_sym, P|left; reflexivity]).
    destruct (Hok c Hc) as [h Hh]. unfold record_action in A. rewrite Hh in A. cbn in A.
    assert (Hrest : forall x, In x rest -> exists b0, hit x = Ok b0).
    { intros x Hx. apply Hok. eapply Permutation_in; [apply Permutation_sym, P|right; exact Hx]. }
    destruct (IH Hrest) as (visited & others & P' & -> & E).
    assert (Hb' : hit_of hit c = h) by (unfold hit_of; rewrite Hh; reflexivity).
    exists (c :: visited), others. split; [|split].
    + cbn. eapply Permutation_trans; [exact P|]. apply perm_skip, P'.
    + cbn. rewrite Hb'. destruct h; injection A as <- <-; [rewrite <- app_assoc|]; reflexivity.
    + cbn. rewrite Hb'. destruct h; injection A as <- <-.
      * destruct E as [E|[E|[E1 E2]]]; [left; exact E| |right; right; split; [exact E1|discriminate]].
        destruct fl; [right; left; reflexivity|]. cbn in E. right. right. split; [exact E|discriminate].
      * rewrite orb_false_r in E. exact E.
  - exfalso. assert (Hc : In c cands) by (eapply Permutation_in; [apply Permutation_sym, P|left; reflexivity]).
    destruct (Hok c Hc) as [h Hh]. unfold record_action in A. rewrite Hh in A. discriminate.
  - exfalso. assert (Hc : In c cands) by (eapply Permutation_in; [apply Permutation_sym, P|left; reflexivity]).
    destruct (Hok c Hc) as [h Hh]. unfold record_action in A. rewrite Hh in A. discriminate.
Qed.
(** a traversal exists, in any order of the candidates *)
Lemma traverses_exists : forall S (act : S -> nat * nat -> outcome (S * bool)) cands fl s, exists r, traverses act fl cands s r.
Proof.
  intros S act cands. induction cands as [|c cands IH]; intros fl s; [eexists; apply tr_all_visited|].
  destruct (act s c) as [[s' b]|e|] eqn:E.
  - destruct (IH (fl || b) s') as [r R]. exists r. eapply tr_visit; [apply Permutation_refl|exact E|exact R].
  - exists (Throw e). eapply tr_raise; [apply Permutation_refl|exact E].
  - exists UB. eapply tr_undefined; [apply Permutation_refl|exact E].
Qed.

Definition decides {A} (f : A -> outcome bool) (P : A -> Prop) (x : A) : Prop := exists b, f x = Ok b /\ (b = true <-> P x).
Lemma filter_candidates : forall A (h : A -> bool) (P : A -> Prop) cands l, (forall c, In c cands -> (h c = true <-> P c)) ->
  Permutation cands l -> lists_candidates P cands (filter h l).
Proof.
  intros A h P cands l H Hp. split.
  - intros c. rewrite filter_In. split.
    + intros [Hc Hh]. assert (In c cands) by (eapply Permutation_in; [apply Permutation_sym, Hp|exact Hc]). split; [assumption|]. apply H; assumption.
    + intros [Hc HP]. split; [eapply Permutation_in; eauto|]. apply H; assumption.
  - exists (filter (fun x => negb (h x)) l). split.
    + eapply Permutation_trans; [exact Hp|]. clear. induction l as [|x l IH]; [constructor|]. cbn. destruct (h x); cbn.
      * constructor. exact IH.
      * eapply Permutation_trans; [apply perm_skip, IH|]. apply Permutation_middle.
    + intros c Hc HP. apply filter_In in Hc. destruct Hc as [Hc Hn]. rewrite negb_true_iff in Hn.
      assert (Hin : In c cands) by (eapply Permutation_in; [apply Permutation_sym, Hp|exact Hc]). apply H in HP; [congruence|exact Hin].
Qed.
Lemma all_found : forall hit P cands r, (forall c, In c cands -> decides hit P c) ->
  traverses (record_action hit false) false cands [] r -> exists found, r = Ok found /\ lists_candidates P cands found.
Proof.
  intros hit P cands r H T. destruct (traverses_record _ _ _ _ _ _ T) as (visited & rest & Hp & -> & E).
  { intros c Hc. destruct (H c Hc) as (b & Hb & _). eauto. }
  destruct E as [->|[E|[E _]]]; try discriminate. rewrite app_nil_r in Hp. cbn. eexists. split; [reflexivity|].
  apply filter_candidates; [|exact Hp]. intros c Hc. unfold hit_of. destruct (H c Hc) as (b & -> & Hb). exact Hb.
Qed.
Lemma some_found : forall hit P cands r, (forall c, In c cands -> decides hit P c) ->
  traverses (record_action hit true) false cands [] r ->
  exists found, r = Ok found /\ (forall c, In c found -> In c cands /\ P c) /\ (found = [] <-> forall c, In c cands -> ~ P c).
Proof.
  intros hit P cands r H T. destruct (traverses_record _ _ _ _ _ _ T) as (visited & rest & Hp & -> & E).
  { intros c Hc. destruct (H c Hc) as (b & Hb & _). eauto. }
  cbn. assert (Hd : forall c, In c cands -> (hit_of hit c = true <-> P c)).
  { intros c Hc. unfold hit_of. destruct (H c Hc) as (b & -> & Hb). exact Hb. }
  assert (Hv : forall c, In c visited -> In c cands).
  { intros c Hc. eapply Permutation_in; [apply Permutation_sym, Hp|]. apply in_app_iff. left. exact Hc. }
  eexists. split; [reflexivity|]. split.
  - intros c Hc. apply filter_In in Hc. destruct Hc as [Hc Hh]. split; [apply Hv, Hc|]. apply Hd; [apply Hv, Hc|exact Hh].
  - split.
    + intros En c Hc HP. destruct E as [->|[E|[_ E]]]; [|discriminate|contradiction].
      rewrite app_nil_r in Hp. assert (In c (filter (hit_of hit) visited)); [|rewrite En in *; contradiction].
      apply filter_In. split; [eapply Permutation_in; eauto|]. apply Hd; assumption.
    + intros Hn. destruct (filter (hit_of hit) visited) as [|c l] eqn:F; [reflexivity|]. exfalso.
      assert (Hc : In c (filter (hit_of hit) visited)) by (rewrite F; left; reflexivity).
      apply filter_In in Hc. destruct Hc as [Hc Hh]. apply (Hn c); [apply Hv, Hc|]. apply Hd; [apply Hv, Hc|exact Hh].
Qed.
Lemma match_nil_true : forall A (l : list A), (match l with [] => false | _ => true end) = true <-> l <> [].
Proof. intros A [|x l]; split; intros H; try discriminate; try reflexivity. contradiction H; reflexivity. Qed.
Lemma not_nil_exists : forall A (l : list A), l <> [] <-> exists x, In x l.
Proof. intros A [|x l]; split; [intros H; contradiction H; reflexivity|intros [y []]|intros _; exists x; left; reflexivity|discriminate]. Qed.
Lemma decides_iff : forall A (f : A -> outcome bool) (P Q : A -> Prop) x, (P x <-> Q x) -> decides f P x -> decides f Q x.
Proof. intros A f P Q x H (b & E & Hb). exists b. split; [exact E|]. rewrite Hb. exact H. Qed.

(** a whole yes/no answer and a whole list over the same candidates *)
Lemma yes_no : forall hit P cands r found, (forall c, In c cands -> decides hit P c) ->
  traverses (record_action hit true) false cands [] found ->
  r = (let! found := found in Ok (match found with [] => false | _ => true end)) ->
  exists b, r = Ok b /\ (b = true <-> exists c, In c cands /\ P c).
Proof.
  intros hit P cands r found H T ->. destruct (some_found _ _ _ _ H T) as (l & -> & Hs & Hn). cbn. eexists. split; [reflexivity|].
  rewrite match_nil_true. split.
  - rewrite not_nil_exists. intros [c Hc]. exists c. apply Hs, Hc.
  - intros (c & Hc & HP) E. apply (proj1 Hn) with (c := c) in E; auto.
Qed.
Lemma lists_candidates_nonempty : forall A (P : A -> Prop) cands l, lists_candidates P cands l -> (l <> [] <-> exists c, In c cands /\ P c).
Proof. intros A P cands l [H _]. rewrite not_nil_exists. split; intros [c Hc]; exists c; apply H; exact Hc. Qed.
Lemma fold_issues : forall A (l : list A) msg acc, ii_issues (fold_left (fun r c => add_issue c (msg c) r) l acc) = ii_issues acc ++ l.
Proof. intros A l msg. induction l as [|x l IH]; intros acc; cbn; [rewrite app_nil_r; reflexivity|]. rewrite IH. cbn. rewrite <- app_assoc. reflexivity. Qed.

(** ** C26 *)
Lemma surface_pair_decides : forall px m c, decides (surface_pair_intersects px m) (surface_pair_meets px m) c.
Proof.
  intros px m [p q]. unfold decides, surface_pair_intersects, surface_pair_meets. cbn. destruct (Nat.eqb_spec p q) as [->|N].
  - exists false. split; [reflexivity|]. split; [discriminate|intros [H _]; contradiction H; reflexivity].
  - eexists. split; [reflexivity|]. tauto.
Qed.
Lemma surface_list : forall px m cands r, surface_intersecting_elements px m cands r ->
  exists l, r = Ok l /\ lists_candidates (surface_pair_meets px m) cands (ii_issues l).
Proof.
  intros px m cands r (found & T & ->). destruct (all_found _ (surface_pair_meets px m) _ _ (fun c _ => surface_pair_decides px m c) T) as (l & -> & H).
  cbn. eexists. split; [reflexivity|]. unfold self_intersections_issues. rewrite fold_issues. exact H.
Qed.
Lemma surface_yes_no : forall px m cands r, mesh_has_self_intersections px m cands r ->
  exists b, r = Ok b /\ (b = true <-> exists c, In c cands /\ surface_pair_meets px m c).
Proof. intros px m cands r (found & T & E). exact (yes_no _ _ _ _ _ (fun c _ => surface_pair_decides px m c) T E). Qed.

(** ** C28 *)
Lemma position_eqb_eq : forall a b, position_eqb a b = true <-> a = b.
Proof. intros a b. split; [destruct a, b; cbn; congruence|intros ->; destruct b; reflexivity]. Qed.
Lemma position_neqb : forall a b, negb (position_eqb a b) = true <-> a <> b.
Proof. intros a b. rewrite negb_true_iff, <- position_eqb_eq. destruct (position_eqb a b); split; congruence. Qed.
Lemma at_index_ok : forall A (l : list A) i a, nth_error l i = Some a -> at_index l i = Ok a.
Proof. intros A l i a H. unfold at_index. rewrite H. reflexivity. Qed.
Lemma anyM_decides : forall A (f : A -> outcome bool) (P : A -> Prop) l, (forall x, In x l -> decides f P x) ->
  exists b, anyM f l = Ok b /\ (b = true <-> exists x, In x l /\ P x).
Proof.
  intros A f P l. induction l as [|x l IH]; intros H.
  - exists false. split; [reflexivity|]. split; [discriminate|intros (y & [] & _)].
  - destruct (H x (or_introl eq_refl)) as (b & E & Hb). cbn. rewrite E. cbn. destruct b.
    + exists true. split; [reflexivity|]. split; [|reflexivity]. intros _. exists x. split; [left; reflexivity|]. apply Hb. reflexivity.
    + destruct (IH (fun y Hy => H y (or_intror Hy))) as (b' & E' & Hb'). exists b'. split; [exact E'|]. rewrite Hb'. split.
      * intros (y & Hy & HP). exists y. auto.
      * intros (y & [<-|Hy] & HP); [apply Hb in HP; discriminate|eauto].
Qed.
Lemma existsb_two : forall A (f : A -> bool) p q, existsb f [p; q] = true <-> f p = true \/ f q = true.
Proof. intros. cbn. rewrite orb_false_r, orb_true_iff. tauto. Qed.
Lemma ends_exist : forall (s : Segment) (P : Point -> Prop), (exists p, an_end s p /\ P p) <-> P (fst s) \/ P (snd s).
Proof.
  intros s P. unfold an_end. split; [intros (p & [->| ->] & H); auto|intros [H|H]; eauto].
Qed.
Lemma surface_triangle_ok : forall m t T, triangle_of m (polygon_vertices m t) T -> surface_triangle m t = Ok T.
Proof.
  intros m t [[p q] r] (a & b & c & E & Ha & Hb & Hc). unfold surface_triangle. rewrite E. cbn. unfold mesh_point.
  cbn in *. rewrite (at_index_ok _ _ _ _ Ha), (at_index_ok _ _ _ _ Hb), (at_index_ok _ _ _ _ Hc). reflexivity.
Qed.
Lemma curve_segment_ok : forall c e s, segment_of c e s -> curve_segment c e = Ok s.
Proof.
  intros c e [p q] (a & b & E & Ha & Hb). unfold curve_segment. rewrite (at_index_ok _ _ _ _ E). cbn in *.
  rewrite (at_index_ok _ _ _ _ Ha). cbn. rewrite (at_index_ok _ _ _ _ Hb). reflexivity.
Qed.
Lemma triangle_of_fun : forall m vs T T', triangle_of m vs T -> triangle_of m vs T' -> T = T'.
Proof.
  intros m vs [[p q] r] [[p' q'] r'] (a & b & c & E & A & B & C) (a' & b' & c' & E' & A' & B' & C'). unfold point_of in *. cbn in *.
  subst vs. injection E' as -> -> ->. congruence.
Qed.
Lemma segment_of_fun : forall c e s s', segment_of c e s -> segment_of c e s' -> s = s'.
Proof.
  intros c e [p q] [p' q'] (a & b & E & A & B) (a' & b' & E' & A' & B'). rewrite E in E'. injection E' as <- <-. cbn in *. congruence.
Qed.
Lemma edge_2d_decides : forall px surface curve c t s,
  triangle_of surface (polygon_vertices surface (fst c)) t -> segment_of curve (snd c) s ->
  exists b, edge_intersects_triangle_2d px surface curve c = Ok b /\ (b = true <-> segment_meets_triangle_2d px s t).
Proof.
  intros px surface curve [i e] t s Ht Hs. cbn in *. unfold edge_intersects_triangle_2d. cbn [fst snd].
  rewrite (surface_triangle_ok _ _ _ Ht), (curve_segment_ok _ _ _ Hs). cbn [bind].
  destruct (existsb _ [fst s; snd s]) eqn:Ex.
  - exists true. split; [reflexivity|]. split; [intros _|reflexivity]. left. apply ends_exist. rewrite existsb_two in Ex.
    rewrite !position_eqb_eq in Ex. exact Ex.
  - destruct t as [[p0 p1] p2]. destruct Ht as (a & b & c & E & A & B & C). unfold point_of in *. cbn [fst snd] in *.
    set (sides := [(p0, p1); (p1, p2); (p2, p0)]).
    assert (Hf : forall e0, e0 < 3 -> exists sd, nth_error sides e0 = Some sd /\
      (let! q0 := mesh_point surface (polygon_edge_vertex0 surface (i, e0)) in
       let! q1 := mesh_point surface (polygon_edge_vertex1 surface (i, e0)) in Ok (q0, q1)) = Ok sd).
    { intros e0 He. unfold polygon_edge_vertex0, polygon_edge_vertex1, polygon_vertex, nb_polygon_edges, mesh_point. cbn [fst snd]. rewrite E.
      destruct e0 as [|[|[|e0]]]; [| | |lia]; eexists; (split; [reflexivity|]); cbn;
        rewrite ?(at_index_ok _ _ _ _ A), ?(at_index_ok _ _ _ _ B), ?(at_index_ok _ _ _ _ C); cbn;
        rewrite ?(at_index_ok _ _ _ _ A), ?(at_index_ok _ _ _ _ B), ?(at_index_ok _ _ _ _ C); reflexivity. }
    match goal with |- exists b, anyM ?f _ = _ /\ _ => destruct (anyM_decides _ f
      (fun e0 => exists sd, nth_error sides e0 = Some sd /\ (fst (px_segment_segment px s sd) = Inside \/ snd (px_segment_segment px s sd) = Inside)) (Range 3)) as (b0 & E0 & H0) end.
    { intros e0 He. apply in_Range in He. destruct (Hf e0 He) as (sd & Hsd & Hpt).
      unfold decides.
      destruct (mesh_point surface (polygon_edge_vertex0 surface (i, e0))) as [q0| |]; cbn in Hpt; try discriminate.
      destruct (mesh_point surface (polygon_edge_vertex1 surface (i, e0))) as [q1| |]; cbn in Hpt; try discriminate.
      injection Hpt as Hpt. eexists. split; [cbn; reflexivity|]. rewrite orb_true_iff, !position_eqb_eq, Hpt.
      split; [intros Hq; exists sd; auto|]. intros (sd' & Hsd' & Hq). congruence. }
    exists b0. split; [exact E0|]. rewrite H0. unfold segment_meets_triangle_2d. split.
    + intros (e0 & He & sd & Hsd & Hq). right. exists sd. split; [|exact Hq].
      apply in_Range in He. destruct e0 as [|[|[|e0]]]; [| | |lia]; cbn in Hsd; injection Hsd as <-; cbn; auto.
    + intros [Hin|(sd & Hsd & Hq)].
      * exfalso. apply ends_exist in Hin. assert (existsb (fun p => position_eqb (px_point_triangle px p (p0, p1, p2)) Inside) [fst s; snd s] = true); [|congruence].
        rewrite existsb_two, !position_eqb_eq. exact Hin.
      * cbn in Hsd. destruct Hsd as [->|[->| ->]]; [exists 0|exists 1|exists 2]; (split; [cbn; auto|]); eexists; (split; [reflexivity|exact Hq]).
Qed.
Lemma not_vertex : forall q, (negb (position_eqb q Vertex0) && negb (position_eqb q Vertex1) && negb (position_eqb q Vertex2)) = true <-> ~ at_vertex q.
Proof. intros q. unfold at_vertex. rewrite !andb_true_iff, !position_neqb. tauto. Qed.
Lemma edge_3d_decides : forall px surface curve c t s,
  triangle_of surface (polygon_vertices surface (fst c)) t -> segment_of curve (snd c) s ->
  exists b, edge_intersects_triangle_3d px surface curve c = Ok b /\ (b = true <-> segment_meets_triangle_3d px s t).
Proof.
  intros px surface curve [i e] t s Ht Hs. cbn in *. unfold edge_intersects_triangle_3d. cbn [fst snd].
  rewrite (surface_triangle_ok _ _ _ Ht), (curve_segment_ok _ _ _ Hs). cbn [bind].
  destruct (existsb _ [fst s; snd s]) eqn:Ex.
  - exists true. split; [reflexivity|]. split; [intros _|reflexivity]. left. apply ends_exist. rewrite existsb_two in Ex.
    rewrite !position_eqb_eq in Ex. exact Ex.
  - assert (Hno : ~ exists p, an_end s p /\ px_point_triangle px p t = Inside).
    { rewrite ends_exist. intros H. assert (existsb (fun p => position_eqb (px_point_triangle px p t) Inside) [fst s; snd s] = true); [|congruence].
      rewrite existsb_two, !position_eqb_eq. exact H. }
    unfold segment_meets_triangle_3d. set (q := px_segment_triangle px s t).
    destruct (position_eqb (fst q) Outside || position_eqb (snd q) Outside) eqn:EO.
    { exists false. split; [reflexivity|]. split; [discriminate|]. intros [H|(H1 & H2 & _)]; [contradiction|].
      rewrite orb_true_iff, !position_eqb_eq in EO. tauto. }
    assert (EO' : fst q <> Outside /\ snd q <> Outside).
    { rewrite <- !position_neqb. apply orb_false_iff in EO. destruct EO as [-> ->]. auto. }
    destruct (position_eqb (fst q) Inside) eqn:EI.
    { exists true. split; [reflexivity|]. apply position_eqb_eq in EI. tauto. }
    destruct (position_eqb (snd q) Inside || _ || _ || _) eqn:EE.
    { exists true. split; [reflexivity|]. rewrite !orb_true_iff, !position_eqb_eq in EE. unfold on_triangle_edge. tauto. }
    assert (EI' : fst q <> Inside) by (apply position_neqb; rewrite EI; reflexivity).
    assert (EE' : ~ (snd q = Inside \/ on_triangle_edge (snd q))).
    { unfold on_triangle_edge. rewrite <- !position_eqb_eq. intros H. assert (position_eqb (snd q) Inside || position_eqb (snd q) Edge0 || position_eqb (snd q) Edge1 || position_eqb (snd q) Edge2 = true); [|congruence].
      rewrite !orb_true_iff. tauto. }
    destruct (position_eqb (fst q) Parallel) eqn:EP.
    + eexists. split; [reflexivity|]. rewrite existsb_two, !not_vertex, <- (ends_exist s (fun p => ~ at_vertex (px_point_triangle px p t))).
      apply position_eqb_eq in EP. tauto.
    + exists false. split; [reflexivity|]. split; [discriminate|]. assert (fst q <> Parallel) by (apply position_neqb; rewrite EP; reflexivity). tauto.
Qed.
Lemma curve_pair_decides : forall px surface curve c, triangulated surface -> edges_exist curve ->
  fst c < nb_polygons surface -> snd c < length (ec_edges curve) ->
  decides (edge_intersects_triangle px surface curve) (curve_meets px surface curve) c.
Proof.
  intros px surface curve c Ht He Hc1 Hc2. destruct (Ht _ Hc1) as [t T]. destruct (He _ Hc2) as [s Hs].
  unfold decides, edge_intersects_triangle, curve_meets. destruct (Nat.eqb (sm_dimension surface) 2).
  - destruct (edge_2d_decides px surface curve c t s T Hs) as (b & E & Hb). exists b. split; [exact E|]. rewrite Hb. split; [eauto|].
    intros (t' & s' & T' & Hs' & H). rewrite (triangle_of_fun _ _ _ _ T T'), (segment_of_fun _ _ _ _ Hs Hs'). exact H.
  - destruct (edge_3d_decides px surface curve c t s T Hs) as (b & E & Hb). exists b. split; [exact E|]. rewrite Hb. split; [eauto|].
    intros (t' & s' & T' & Hs' & H). rewrite (triangle_of_fun _ _ _ _ T T'), (segment_of_fun _ _ _ _ Hs Hs'). exact H.
Qed.
Lemma curve_spec : forall px surface curve cands, triangulated surface -> edges_exist curve ->
  candidates_in_range (nb_polygons surface) (length (ec_edges curve)) cands ->
  (forall r, curve_intersecting_elements px surface curve cands r ->
     exists l, r = Ok l /\ lists_candidates (curve_meets px surface curve) cands (ii_issues l)) /\
  (forall r, meshes_have_intersections px surface curve cands r ->
     exists b, r = Ok b /\ (b = true <-> exists c, In c cands /\ curve_meets px surface curve c)).
Proof.
  intros px surface curve cands Ht He Hc.
  assert (D : forall c, In c cands -> decides (edge_intersects_triangle px surface curve) (curve_meets px surface curve) c).
  { intros [p q] Hin. destruct (Hc p q Hin). apply curve_pair_decides; assumption. }
  split.
  - intros r (found & T & ->). destruct (all_found _ _ _ _ D T) as (l & -> & H). cbn. eexists. split; [reflexivity|].
    unfold curve_intersections_issues. rewrite fold_issues. exact H.
  - intros r (found & T & E). exact (yes_no _ _ _ _ _ D T E).
Qed.
