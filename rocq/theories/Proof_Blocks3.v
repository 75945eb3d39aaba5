(** Closedness of block and model boundaries (C41, C54). *)
From Coq Require Import String Ascii List Arith NArith ZArith Bool Lia Sorted.
From Verif Require Import Base BaseFacts Model_Issues Types Model_Colocation Model_Topology Model_BRep Model_Blocks Spec_Colocation Spec_Maps Spec_Adjacency
  Spec_Topology Spec_BRep Spec_Fusion Spec_Blocks Proof_Fusion Proof_Colocation Proof_Colocation2 Proof_Topology Proof_BRep Proof_BRep2 Proof_Blocks Proof_Blocks2.
Import ListNotations.
Open Scope list_scope.

Section Closed.
Context (m : Model) (H : brep_ok m).
Lemma queue_foldM : forall A (f : A -> uuid) l q, (forall x, In x l -> In (f x) (component_ids m SurfaceT)) ->
  foldM (fun q x => let! s := get_surface m (f x) in Ok (q ++ [co_id s])) l q = Ok (q ++ map f l).
Proof.
  intros A f l. induction l as [|x l IH]; intros q Hx; cbn [foldM map]; [rewrite app_nil_r; reflexivity|].
  destruct (get_surface_id m (f x) (Hx x (or_introl eq_refl))) as (c & E & Ic & _). rewrite E. cbn [bind]. rewrite Ic.
  rewrite (IH (q ++ [f x])); [|intros y Hy; apply Hx; right; exact Hy]. rewrite <- app_assoc. reflexivity.
Qed.
Lemma block_queue_ok : forall b, In b (component_ids m BlockT) -> queue_with_block_boundaries m b = Ok (block_surfaces m b).
Proof.
  intros b Hb. unfold queue_with_block_boundaries, each_surface. rewrite (queue_foldM _ cid_id (boundaries m b) []); [reflexivity|].
  intros e He. eapply br_block_boundaries; eassumption.
Qed.
Lemma model_queue_ok : (forall s, In s (model_boundary_surfaces m) -> In s (component_ids m SurfaceT)) ->
  queue_with_model_boundaries m = Ok (model_boundary_surfaces m).
Proof.
  unfold queue_with_model_boundaries, model_boundary_surfaces. generalize (m_model_boundaries m) as l.
  assert (G : forall l q, (forall s, In s (concat (map snd l)) -> In s (component_ids m SurfaceT)) ->
    foldM (fun q (mb : uuid * list uuid) => foldM (fun q i => let! s := get_surface m i in Ok (q ++ [co_id s])) (snd mb) q) l q = Ok (q ++ concat (map snd l))).
  { induction l as [|mb l IH]; intros q Hx; cbn [foldM map concat]; [rewrite app_nil_r; reflexivity|].
    rewrite (queue_foldM _ (fun i => i) (snd mb) q); [|intros i Hi; apply Hx; cbn; apply in_app_iff; left; exact Hi]. cbn [bind].
    rewrite (IH (q ++ map (fun i => i) (snd mb))); [|intros i Hi; apply Hx; cbn; apply in_app_iff; right; exact Hi]. rewrite map_id, <- app_assoc. reflexivity. }
  intros l Hx. apply (G l []), Hx.
Qed.
Lemma model_closed_ok : (forall s, In s (model_boundary_surfaces m) -> In s (component_ids m SurfaceT)) -> model_boundary_surfaces m <> [] ->
  below_2_32 (length (model_boundary_surfaces m)) -> decides (brep_boundaries_are_closed m) (all_linked m (model_boundary_surfaces m)).
Proof.
  intros Hx Hn Hb. unfold brep_boundaries_are_closed. rewrite (model_queue_ok Hx). cbn [bind]. destruct (model_boundary_surfaces m) as [|s L] eqn:E; [congruence|].
  destruct (closed_linked_ok m H s L Hx) as (P & R & Ec & Pr & _). { unfold below_2_32 in *. cbn [length] in Hb. lia. }
  rewrite Ec. cbn [bind snd]. apply decides_bool. rewrite Nat.eqb_eq. rewrite length_zero_iff_nil. pose proof Pr as (_ & Lk & _). split.
  - intros ->. assert (All : forall t, In t (s :: L) -> linked_within m (s :: L) s t).
    { intros t Ht. apply Lk. destruct (in_dec Nat.eq_dec t P) as [D|D]; [exact D|]. exfalso. apply (in_nil (a := t)). apply (part_rest m s (s :: L) P [] t Pr). auto. }
    intros a b Ha Hb'. eapply linked_trans; [apply linked_sym, All, Ha|apply All, Hb'].
  - intros A. destruct R as [|t R]; [reflexivity|]. exfalso. destruct (proj1 (part_rest m s (s :: L) P (t :: R) t Pr) (or_introl eq_refl)) as [Ht Hnp].
    apply Hnp, Lk, A; [left; reflexivity|exact Ht].
Qed.
Lemma model_closed_ub : model_boundary_surfaces m = [] -> brep_boundaries_are_closed m = UB.
Proof.
  intros E. unfold brep_boundaries_are_closed. rewrite model_queue_ok; rewrite E; [reflexivity|]. intros s [].
Qed.

(** blocks *)
Lemma point_outside_ok : forall tl p x, inside_safe tl -> decides (point_is_outside tl p x) (tl_inside_closed tl p x <> Ok true).
Proof.
  intros tl p x S. unfold point_is_outside. destruct (S p x) as [S1 S2]. destruct (tl_inside_closed tl p x) as [[]|[]|]; try congruence.
  - apply decides_bool. cbn. split; [discriminate|congruence].
  - apply decides_bool. cbn. split; [intros _; discriminate|reflexivity].
  - apply decides_bool. split; [intros _; discriminate|reflexivity].
Qed.
Lemma find_enum_first : forall A (p : nat * A -> bool) l i x, find p (enum l) = Some (i, x) <->
  nth_error l i = Some x /\ p (i, x) = true /\ forall j y, j < i -> nth_error l j = Some y -> p (j, y) = false.
Proof.
  intros A p l i x. unfold enum.
  assert (G : forall l k, find p (combine (seq k (length l)) l) = Some (i, x) <->
     k <= i /\ nth_error l (i - k) = Some x /\ p (i, x) = true /\ forall j y, k <= j -> j < i -> nth_error l (j - k) = Some y -> p (j, y) = false).
  { clear l. induction l as [|z l IH]; intros k; cbn [length seq combine find].
    - split; [discriminate|]. intros (_ & E & _). destruct (i - k); discriminate.
    - destruct (p (k, z)) eqn:E.
      + split.
        * intros E2. injection E2 as <- <-. rewrite Nat.sub_diag. split; [lia|]. split; [reflexivity|]. split; [exact E|]. intros; lia.
        * intros (Hk & En & Hp & Hj). destruct (Nat.eq_dec k i) as [->|D]; [rewrite Nat.sub_diag in En; cbn in En; congruence|]. exfalso.
          specialize (Hj k z (le_n k)). rewrite Nat.sub_diag in Hj. rewrite Hj in E; [discriminate|lia|reflexivity].
      + rewrite IH. split.
        * intros (Hk & En & Hp & Hj). split; [lia|]. replace (i - k) with (S (i - S k)) by lia. split; [exact En|]. split; [exact Hp|]. intros j y Hkj Hji Ey.
          destruct (Nat.eq_dec k j) as [->|D]; [rewrite Nat.sub_diag in Ey; cbn in Ey; congruence|]. apply Hj; [lia|exact Hji|]. replace (j - k) with (S (j - S k)) in Ey by lia. exact Ey.
        * intros (Hk & En & Hp & Hj). destruct (Nat.eq_dec k i) as [->|D]; [rewrite Nat.sub_diag in En; cbn in En; congruence|].
          replace (i - k) with (S (i - S k)) in En by lia. split; [lia|]. split; [exact En|]. split; [exact Hp|]. intros j y Hkj Hji Ey. apply Hj; [lia|exact Hji|]. replace (j - k) with (S (j - S k)) by lia. exact Ey. }
  rewrite (G l 0). rewrite Nat.sub_0_r. split.
  - intros (_ & A1 & A2 & A3). split; [exact A1|]. split; [exact A2|]. intros j y Hj Ey. apply A3; [lia|exact Hj|]. rewrite Nat.sub_0_r. exact Ey.
  - intros (A1 & A2 & A3). split; [lia|]. split; [exact A1|]. split; [exact A2|]. intros j y _ Hj Ey. rewrite Nat.sub_0_r in Ey. apply A3; assumption.
Qed.
Lemma enclosesb : forall tl parts i p, nth_error parts i = Some p ->
  (forallb (fun q => Nat.eqb (fst q) i || tl_box_contains tl p (snd q)) (enum parts) = true <-> encloses tl parts i).
Proof.
  intros tl parts i p E. rewrite forallb_forall. split.
  - intros F. exists p. split; [exact E|]. intros j q Hj Eq. specialize (F (j, q) (proj2 (in_enum _ _ _ _) Eq)). cbn in F. apply Bool.orb_true_iff in F as [F|F]; [apply Nat.eqb_eq in F; congruence|exact F].
  - intros (p' & E' & F) [j q] Hin. apply in_enum in Hin. rewrite E in E'. injection E' as <-. cbn. destruct (Nat.eqb_spec j i) as [D|D]; [reflexivity|]. cbn. eapply F; eassumption.
Qed.
Lemma enclosing_some : forall tl parts i, enclosing_surface_list tl parts = Some i <-> encloses tl parts i /\ forall j, j < i -> ~ encloses tl parts j.
Proof.
  intros tl parts i. unfold enclosing_surface_list. set (f := fun p : nat * list uuid => forallb (fun q => Nat.eqb (fst q) (fst p) || tl_box_contains tl (snd p) (snd q)) (enum parts)).
  split.
  - destruct (find f (enum parts)) as [[j p]|] eqn:E; [|discriminate]. cbn. intros E2. injection E2 as <-. apply find_enum_first in E as (E1 & E2 & E3). split.
    + apply (enclosesb tl parts j p E1), E2.
    + intros k Hk K. pose proof K as (q & Eq & _). specialize (E3 k q Hk Eq). apply (enclosesb tl parts k q Eq) in K. unfold f in E3. cbn in E3. cbn in K. congruence.
  - intros [K F]. pose proof K as (p & Ep & _). replace (find f (enum parts)) with (Some (i, p)); [reflexivity|]. symmetry. apply find_enum_first. split; [exact Ep|]. split; [apply (enclosesb tl parts i p Ep), K|].
    intros j y Hj Ey. destruct (f (j, y)) eqn:E; [|reflexivity]. exfalso. apply (F j Hj). apply (enclosesb tl parts j y Ey). exact E.
Qed.
Lemma surface_by_id : forall c s, In c (m_surfaces m) -> co_id c = s -> get_surface m s = Ok c.
Proof. intros c s Hc <-. apply get_surface_In; [apply (br_ids m H)|exact Hc]. Qed.
Lemma part_glued : forall p, (forall s, In s p -> In s (component_ids m SurfaceT)) ->
  exists cs g, surfaces_of m p cs /\ fuse_brep_surfaces_from_list m p = Ok g /\ glued m cs g.
Proof.
  intros p Hp. destruct (surfaces_of_exist m p) as [cs S]. { intros s Hs. destruct (get_surface_id m s (Hp s Hs)) as (c & _ & Ic & Hc). eauto. }
  destruct (fuse_glued m p cs S) as (g & E & G).
  - intros c Hc. apply surface_by_id; [|reflexivity]. eapply surfaces_of_in; eassumption.
  - intros c q v Hc Hq Hv. apply (br_polygons m H c q v); [eapply surfaces_of_in; eassumption|exact Hq|exact Hv].
  - exists cs, g. auto.
Qed.
Lemma block_closed_ok : forall tl b, inside_safe tl -> In b (component_ids m BlockT) -> below_2_32 (length (m_boundary_rel m)) ->
  exists parts, linked_parts (length (block_surfaces m b)) m (block_surfaces m b) = Ok parts /\ connected_parts m (block_surfaces m b) parts /\
  decides (block_boundaries_are_closed tl m b) (counted_as_closed tl m parts).
Proof.
  intros tl b S Hb Hbd. assert (Hex : forall t, In t (block_surfaces m b) -> In t (component_ids m SurfaceT)).
  { intros t Ht. apply in_map_iff in Ht as (e & <- & He). eapply br_block_boundaries; eassumption. }
  assert (Hlen : below_2_32 (length (block_surfaces m b))).
  { unfold below_2_32, block_surfaces, boundaries in *. rewrite !map_length. pose proof (filter_le _ (fun r => Nat.eqb (cid_id (snd r)) b) (m_boundary_rel m)). lia. }
  destruct (linked_parts_ok m H (length (block_surfaces m b)) (block_surfaces m b) Hex Hlen (le_n _)) as (parts & E & CP). exists parts. split; [exact E|]. split; [exact CP|].
  unfold block_boundaries_are_closed. rewrite (block_queue_ok b Hb). cbn [bind]. rewrite E. cbn [bind].
  destruct (Nat.ltb_spec (length parts) 2) as [Hl|Hl].
  - apply decides_bool. unfold counted_as_closed. tauto.
  - destruct (enclosing_surface_list tl parts) as [i|] eqn:En.
    + apply enclosing_some in En as [K F]. pose proof K as (p & Ep & _). rewrite (nth_error_nth parts i [] Ep).
      assert (Hp : forall s, In s p -> In s (component_ids m SurfaceT)).
      { intros s Hs. apply Hex. apply (cp_cover _ _ _ CP). apply in_concat. exists p. split; [eapply nth_error_In; exact Ep|exact Hs]. }
      destruct (part_glued p Hp) as (cs & g & Scs & Eg & Gg). rewrite Eg. cbn [bind].
      set (out := fun s => exists c x, In c (m_surfaces m) /\ co_id c = s /\ In x (sm_points (co_mesh c)) /\ tl_inside_closed tl g x <> Ok true).
      destruct (anyM_decides _ (fun q => if Nat.eqb (fst q) i then Ok false else anyM (fun s => let! surface := get_surface m s in anyM (point_is_outside tl g) (sm_points (co_mesh surface))) (snd q))
        (fun q => fst q <> i /\ exists s, In s (snd q) /\ out s) (enum parts)) as (o & Eo & Ko).
      * intros [j q] Hq. apply in_enum in Hq. cbn [fst snd]. destruct (Nat.eqb_spec j i) as [D|D]; [apply decides_bool; split; [discriminate|tauto]|].
        eapply decides_ext; [apply anyM_decides with (P := out)|tauto].
        intros s Hs. assert (Hss : In s (component_ids m SurfaceT)).
        { apply Hex. apply (cp_cover _ _ _ CP). apply in_concat. exists q. split; [eapply nth_error_In; exact Hq|exact Hs]. }
        destruct (get_surface_id m s Hss) as (c & Ec & Ic & Hc). rewrite Ec. cbn [bind].
        eapply decides_ext; [apply anyM_decides with (P := fun x => tl_inside_closed tl g x <> Ok true); intros x _; apply point_outside_ok, S|].
        split; [intros (x & Hx & Kx); exists c, x; auto|]. intros (c' & x & Hc' & Ic' & Hx & Kx). exists x. split; [|exact Kx].
        pose proof (surface_by_id c' s Hc' Ic') as E2. rewrite Ec in E2. injection E2 as ->. exact Hx.
      * rewrite Eo. cbn [bind]. apply decides_bool. split.
        -- intros Hno. right. exists i, p, cs, g. split; [exact Ep|]. split; [exact K|]. split; [exact F|]. split; [exact Scs|]. split; [exact Gg|]. intros j q c x Hj Eq Hc Hcq Hx.
           destruct (tl_inside_closed tl g x) as [[]|e|] eqn:Ei; [reflexivity| | |]; exfalso; apply Bool.negb_true_iff in Hno; assert (X : o = true); try congruence; apply Ko; exists (j, q); (split; [apply in_enum; exact Eq|]);
             (split; [exact Hj|]); exists (co_id c); (split; [exact Hcq|]); exists c, x; (split; [exact Hc|]); (split; [reflexivity|]); (split; [exact Hx|]); rewrite Ei; discriminate.
        -- intros Cl. apply Bool.negb_true_iff. destruct o; [|reflexivity]. exfalso. destruct (proj1 Ko eq_refl) as ([j q] & Hq & Hj & s & Hs & c & x & Hc & Ic & Hx & Kx).
           apply in_enum in Hq. cbn [fst snd] in *. destruct Cl as [Cl|(i' & p' & cs' & g' & Ep' & K' & F' & Scs' & Gg' & In')]; [lia|].
           assert (i' = i). { destruct (lt_eq_lt_dec i i') as [[D|D]|D]; [|auto|]; exfalso; [apply (F' i D K)|apply (F i' D K')]. } subst i'. rewrite Ep in Ep'. injection Ep' as <-.
           assert (cs' = cs) as -> by (eapply surfaces_of_unique; [|exact Scs'|exact Scs]; intros d Hd; apply surface_by_id; auto). rewrite (glued_unique m cs g' g Gg' Gg) in In'.
           apply Kx. apply (In' j q c x Hj Hq Hc); [rewrite Ic; exact Hs|exact Hx].
    + apply decides_bool. split; [discriminate|]. intros [Cl|(i & p & cs & g & Ep & K & F & _)]; [lia|]. assert (X : enclosing_surface_list tl parts = Some i) by (apply enclosing_some; auto). congruence.
Qed.

(** free boundary lines *)
Lemma line_incident_ok : forall l b s, In l (component_ids m LineT) -> decides (is_line_incident_to_another_block_boundary_surface m l b s)
  (exists s', s' <> s /\ bounds m s' b /\ bounds m l s').
Proof.
  intros l b s Hl. eapply decides_ext; [apply anyM_decides with (P := fun e => cid_id e <> s /\ bounds m (cid_id e) b)|].
  - intros e He. unfold each_surface. destruct (get_surface_id m (cid_id e)) as (c & E & Ic & _); [eapply br_line_incidences; eassumption|]. rewrite E. cbn [bind]. rewrite Ic.
    apply decides_bool. rewrite Bool.andb_true_iff, is_boundary_iff, Bool.negb_true_iff, Nat.eqb_neq. tauto.
  - split.
    + intros (e & He & D & Hb). exists (cid_id e). split; [exact D|]. split; [exact Hb|]. apply in_incidences. exists e. auto.
    + intros (s' & D & Hb & Hl'). apply in_incidences in Hl' as (e & He & <-). exists e. auto.
Qed.
Lemma free_line_ok : forall s b, In s (component_ids m SurfaceT) -> decides (surface_boundaries_are_not_linked_to_another_block_boundary m s b)
  (exists l, bounds m l s /\ forall s', s' <> s -> bounds m s' b -> ~ bounds m l s').
Proof.
  intros s b Hs. eapply decides_ext; [apply anyM_decides with (P := fun e => forall s', s' <> s -> bounds m s' b -> ~ bounds m (cid_id e) s')|].
  - intros e He. unfold each_line. assert (Le : In (cid_id e) (component_ids m LineT)) by (eapply br_surface_boundaries; eassumption).
    destruct (get_line_id m _ Le) as (c & E & Ic & _). rewrite E. cbn [bind]. rewrite Ic. destruct (line_incident_ok (cid_id e) b s Le) as (x & Ex & Kx). rewrite Ex. cbn [bind].
    apply decides_bool. rewrite Bool.negb_true_iff. destruct x.
    + split; [discriminate|]. intros F. exfalso. destruct (proj1 Kx eq_refl) as (s' & D & A & B). exact (F s' D A B).
    + split; [|reflexivity]. intros _ s' D A B. assert (X : false = true) by (apply Kx; exists s'; auto). discriminate.
  - split.
    + intros (e & He & F). exists (cid_id e). split; [|exact F]. apply in_boundaries. exists e. auto.
    + intros (l & Hb & F). apply in_boundaries in Hb as (e & He & <-). exists e. auto.
Qed.
Lemma active_surface_iff : forall c, In c (m_surfaces m) -> (co_active c = true <-> In (co_id c) (active_ids m SurfaceT)).
Proof.
  intros c Hc. cbn [active_ids]. split.
  - intros A. apply in_map, filter_In. auto.
  - intros A. apply in_map_iff in A as (c' & E & Hc'). apply filter_In in Hc' as [Hc' A]. pose proof (surface_by_id c' _ Hc' E) as E1. rewrite (surface_by_id c _ Hc eq_refl) in E1. injection E1 as ->. exact A.
Qed.
Lemma block_boundaries_ok : forall b, In b (m_blocks m) -> reports_iff (inspect_block_boundaries m b) (boundary_has_free_line m (co_id b)).
Proof.
  intros b Hb. unfold inspect_block_boundaries. set (P := fun e => In (cid_id e) (active_ids m SurfaceT) /\ exists l, bounds m l (cid_id e) /\ forall s', s' <> cid_id e -> bounds m s' (co_id b) -> ~ bounds m l s').
  eapply reports_ext; [apply first_some_reports with (P := P)|].
  - intros e He. unfold each_surface. assert (Se : In (cid_id e) (component_ids m SurfaceT)) by (eapply br_block_boundaries; [exact H|apply in_map, Hb|exact He]).
    destruct (get_surface_id m _ Se) as (c & E & Ic & Hc). rewrite E. cbn [bind]. destruct (co_active c) eqn:A; cbn [negb].
    + apply (active_surface_iff c Hc) in A. rewrite Ic in A. rewrite Ic. destruct (free_line_ok (cid_id e) (co_id b) Se) as (x & Ex & Kx). rewrite Ex. cbn [bind]. destruct x.
      * apply reports_some. split; [exact A|apply Kx; reflexivity].
      * apply reports_none. intros [_ F]. apply Kx in F. discriminate.
    + apply reports_none. intros [F _]. rewrite <- Ic in F. apply (active_surface_iff c Hc) in F. congruence.
  - unfold P. split.
    + intros (e & He & A & l & Hl & F). exists (cid_id e), l. split; [exact A|]. split; [apply in_boundaries; exists e; auto|]. auto.
    + intros (s & l & A & Hs & Hl & F). apply in_boundaries in Hs as (e & He & <-). exists e. split; [exact He|]. split; [exact A|]. exists l. auto.
Qed.
End Closed.
