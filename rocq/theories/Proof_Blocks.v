(** Pruning of surfaces that cannot bound a block (C42). *)
From Coq Require Import String Ascii List Arith NArith ZArith Bool Lia Sorted.
From Verif Require Import Base BaseFacts Model_Issues Types Model_Colocation Model_Topology Model_BRep Model_Blocks Spec_Colocation Spec_Maps Spec_Adjacency
  Spec_Topology Spec_BRep Spec_Blocks Proof_Colocation Proof_Colocation2 Proof_Topology Proof_BRep2.
Import ListNotations.
Open Scope list_scope.

Lemma foldM_progress : forall A St (f : St -> A -> outcome St) (I : St -> Prop) (R : St -> St -> Prop) (D : A -> St -> Prop) l s,
  (forall x, R x x) -> (forall x y z, R x y -> R y z -> R x z) -> (forall a x y, R x y -> D a x -> D a y) ->
  (forall s x, In x l -> I s -> exists s', f s x = Ok s' /\ I s' /\ R s s' /\ D x s') -> I s ->
  exists s', foldM f l s = Ok s' /\ I s' /\ R s s' /\ forall x, In x l -> D x s'.
Proof.
  intros A St f I R D l s Hr Ht Hd. revert s. induction l as [|x l IH]; intros s Hf Hi.
  - exists s. split; [reflexivity|]. split; [exact Hi|]. split; [apply Hr|]. intros x [].
  - destruct (Hf s x (or_introl eq_refl) Hi) as (s1 & E1 & I1 & R1 & D1). destruct (IH s1) as (s2 & E2 & I2 & R2 & D2); [intros; apply Hf; [right; assumption|assumption]|exact I1|].
    exists s2. cbn [foldM]. rewrite E1. cbn [bind]. rewrite E2. split; [reflexivity|]. split; [exact I2|]. split; [eapply Ht; eassumption|].
    intros y [<-|Hy]; [eapply Hd; eassumption|apply D2, Hy].
Qed.
Lemma get_surface_id : forall m s, In s (component_ids m SurfaceT) -> exists c, get_surface m s = Ok c /\ co_id c = s /\ In c (m_surfaces m).
Proof.
  intros m s H. destruct (find_component_exists _ _ _ H) as [c E]. exists c. unfold get_surface. rewrite E. destruct (find_component_Some _ _ _ _ E) as [H1 H2]. auto.
Qed.
Lemma get_line_id : forall m s, In s (component_ids m LineT) -> exists c, get_line m s = Ok c /\ co_id c = s /\ In c (m_lines m).
Proof.
  intros m s H. destruct (find_component_exists _ _ _ H) as [c E]. exists c. unfold get_line. rewrite E. destruct (find_component_Some _ _ _ _ E) as [H1 H2]. auto.
Qed.
Lemma get_block_id : forall m s, In s (component_ids m BlockT) -> exists c, get_block m s = Ok c /\ co_id c = s /\ In c (m_blocks m).
Proof.
  intros m s H. destruct (find_component_exists _ _ _ H) as [c E]. exists c. unfold get_block. rewrite E. destruct (find_component_Some _ _ _ _ E) as [H1 H2]. auto.
Qed.

Lemma NoDup_app_last : forall A (l : list A) x, NoDup l -> ~ In x l -> NoDup (l ++ [x]).
Proof. intros A l x Hl Hx. apply NoDup_app_intro; [exact Hl|constructor; [intros []|constructor]|]. intros y Hy [<-|[]]. exact (Hx Hy). Qed.

Section Graph.
Context (m : Model) (H : brep_ok m).
Lemma bound_line : forall l s, In s (component_ids m SurfaceT) -> bounds m l s -> In l (component_ids m LineT).
Proof. intros l s Hs Hb. apply in_boundaries in Hb. destruct Hb as (e & He & <-). eapply br_surface_boundaries; eassumption. Qed.
Lemma incident_surface : forall l s, In l (component_ids m LineT) -> bounds m l s -> In s (component_ids m SurfaceT).
Proof. intros l s Hs Hb. apply in_incidences in Hb. destruct Hb as (e & He & <-). eapply br_line_incidences; eassumption. Qed.

Definition good_edges (g : list GraphEdge) : Prop :=
  forall e, In e g -> In (ge_surface e) (component_ids m SurfaceT) /\ bounds m (ge_v0 e) (ge_surface e) /\ bounds m (ge_v1 e) (ge_surface e).
Definition has_edge (g : list GraphEdge) (s a b : uuid) : Prop :=
  exists e, In e g /\ ge_surface e = s /\ ((ge_v0 e = a /\ ge_v1 e = b) \/ (ge_v0 e = b /\ ge_v1 e = a)).
Lemma has_edge_incl : forall g g' s a b, incl g g' -> has_edge g s a b -> has_edge g' s a b.
Proof. intros g g' s a b Hi (e & He & K). exists e. split; [apply Hi, He|exact K]. Qed.
Lemma add_graph_edge_ok : forall l s g l', In s (component_ids m SurfaceT) -> bounds m l s -> bounds m l' s -> good_edges g ->
  good_edges (add_graph_edge l s g l') /\ incl g (add_graph_edge l s g l') /\ has_edge (add_graph_edge l s g l') s l' l.
Proof.
  intros l s g l' Hs Hl Hl' Hg. unfold add_graph_edge.
  assert (N : good_edges (g ++ [mkEdge l' l s]) /\ incl g (g ++ [mkEdge l' l s]) /\ has_edge (g ++ [mkEdge l' l s]) s l' l).
  { split; [intros e He; apply in_app_iff in He as [He|[<-|[]]]; [apply Hg, He|cbn; auto]|]. split; [intros e He; apply in_app_iff; left; exact He|].
    exists (mkEdge l' l s). split; [apply in_app_iff; right; left; reflexivity|]. cbn. auto. }
  destruct (edge_from_vertices g l' l) as [e|] eqn:E; [|exact N]. destruct (Nat.eqb (ge_surface e) s) eqn:Es; [|exact N].
  apply Nat.eqb_eq in Es. split; [exact Hg|]. split; [apply incl_refl|]. apply find_some in E. destruct E as [He E]. exists e. split; [exact He|]. split; [exact Es|].
  apply Bool.orb_true_iff in E. destruct E as [E|E]; apply Bool.andb_true_iff in E as [E1 E2]; apply Nat.eqb_eq in E1, E2; auto.
Qed.
Lemma create_graph_ok : exists g, create_graph m = Ok g /\ good_edges g /\
  forall l s, In s (component_ids m SurfaceT) -> bounds m l s -> has_edge g s l l.
Proof.
  unfold create_graph.
  destruct (foldM_progress _ _ (fun g line => foldM (fun g e => each_surface m (fun s =>
      foldM (fun g e => each_line m (fun l => Ok (add_graph_edge (co_id line) (co_id s) g (co_id l))) e) (boundaries m (co_id s)) g) e)
      (incidences m (co_id line)) g) good_edges (@incl GraphEdge)
      (fun line g => forall s, bounds m (co_id line) s -> has_edge g s (co_id line) (co_id line)) (m_lines m) []) as (g & E & Hg & _ & D).
  - apply incl_refl.
  - intros x y z. apply incl_tran.
  - intros a x y Hi K s Hb. eapply has_edge_incl; [exact Hi|apply K, Hb].
  - intros g line Hline Hg.
    assert (Lid : In (co_id line) (component_ids m LineT)) by (apply in_map; exact Hline).
    destruct (foldM_progress _ _ (fun g e => each_surface m (fun s =>
        foldM (fun g e => each_line m (fun l => Ok (add_graph_edge (co_id line) (co_id s) g (co_id l))) e) (boundaries m (co_id s)) g) e)
        good_edges (@incl GraphEdge) (fun e g => has_edge g (cid_id e) (co_id line) (co_id line)) (incidences m (co_id line)) g) as (g1 & E1 & G1 & I1 & D1).
    + apply incl_refl.
    + intros x y z. apply incl_tran.
    + intros a x y Hi. apply has_edge_incl, Hi.
    + intros g0 e He G0. assert (Sid : In (cid_id e) (component_ids m SurfaceT)) by (eapply br_line_incidences; eassumption).
      assert (Sb : bounds m (co_id line) (cid_id e)) by (apply in_incidences; exists e; auto).
      unfold each_surface at 1. destruct (get_surface_id m _ Sid) as (c & Ec & Ic & _). rewrite Ec. cbn [bind]. rewrite Ic.
      destruct (foldM_progress _ _ (fun g e0 => each_line m (fun l => Ok (add_graph_edge (co_id line) (cid_id e) g (co_id l))) e0)
        good_edges (@incl GraphEdge) (fun e0 g => has_edge g (cid_id e) (cid_id e0) (co_id line)) (boundaries m (cid_id e)) g0) as (g2 & E2 & G2 & I2 & D2).
      * apply incl_refl.
      * intros x y z. apply incl_tran.
      * intros a x y Hi. apply has_edge_incl, Hi.
      * intros g3 e0 He0 G3. assert (Li : In (cid_id e0) (component_ids m LineT)) by (eapply br_surface_boundaries; eassumption).
        unfold each_line. destruct (get_line_id m _ Li) as (c0 & Ec0 & Ic0 & _). rewrite Ec0. cbn [bind]. rewrite Ic0. eexists. split; [reflexivity|].
        apply add_graph_edge_ok; [exact Sid|exact Sb|apply in_boundaries; exists e0; auto|exact G3].
      * exact G0.
      * exists g2. split; [exact E2|]. split; [exact G2|]. split; [exact I2|]. apply in_boundaries in Sb. destruct Sb as (e1 & He1 & K1).
        specialize (D2 e1 He1). cbv beta in D2. rewrite K1 in D2. exact D2.
    + exact Hg.
    + exists g1. split; [exact E1|]. split; [exact G1|]. split; [exact I1|]. intros s Hb. apply in_incidences in Hb. destruct Hb as (e & He & <-). exact (D1 e He).
  - intros e [].
  - exists g. split; [exact E|]. split; [exact Hg|]. intros l s Hs Hb. pose proof (bound_line l s Hs Hb) as Hl. destruct (get_line_id m l Hl) as (c & _ & <- & Hc). apply D; assumption.
Qed.

(** labels around a vertex *)
Definition lab (g : list GraphEdge) (v s : uuid) : Prop := exists e, In e (edges_around_vertex g v) /\ ge_surface e = s.
Lemma in_around : forall g v e, In e (edges_around_vertex g v) <-> In e g /\ (ge_v0 e = v \/ ge_v1 e = v).
Proof.
  intros g v e. unfold edges_around_vertex. rewrite filter_In, Bool.orb_true_iff, !Nat.eqb_eq. tauto.
Qed.
Definition only_label (g : list GraphEdge) (v s : uuid) : Prop := lab g v s /\ forall s', lab g v s' -> s' = s.

(** one pass *)
Definition pass_state (g : list GraphEdge) (nb new : list uuid) : list bool * list uuid :=
  (map (fun e => memb (ge_surface e) new) g, nb ++ new).
Lemma combine_map : forall A B (f : A -> B) l, combine (map f l) l = map (fun x => (f x, x)) l.
Proof. intros A B f l. induction l as [|x l IH]; [reflexivity|]. cbn. rewrite IH. reflexivity. Qed.
Lemma visit_spec : forall g nb new v, exists new', visit_graph_vertex g (pass_state g nb new) v = pass_state g nb new' /\
  ((new' = new /\ (forall s, only_label g v s -> In s (nb ++ new))) \/
   (exists s, new' = new ++ [s] /\ only_label g v s /\ ~ In s (nb ++ new))).
Proof.
  intros g nb new v. unfold visit_graph_vertex. cbv zeta. destruct (edges_around_vertex g v) as [|e0 around] eqn:E.
  - exists new. split; [reflexivity|]. left. split; [reflexivity|]. intros s [(e & He & _) _]. rewrite E in He. destruct He.
  - destruct (forallb (fun e => Nat.eqb (ge_surface e) (ge_surface e0)) (e0 :: around)) eqn:F; cbn [negb].
    + rewrite forallb_forall in F.
      assert (O : only_label g v (ge_surface e0)).
      { split; [exists e0; rewrite E; split; [left; reflexivity|reflexivity]|]. intros s' (e & He & <-). rewrite E in He. apply Nat.eqb_eq, F, He. }
      cbn [pass_state snd fst]. destruct (memb (ge_surface e0) (nb ++ new)) eqn:M.
      * exists new. split; [reflexivity|]. left. split; [reflexivity|]. intros s [_ Hs]. apply memb_In in M. rewrite <- (Hs _ (proj1 O)). exact M.
      * exists (new ++ [ge_surface e0]). split.
        -- unfold pass_state. rewrite combine_map, map_map, <- app_assoc. f_equal. apply map_ext. intros e. cbn [fst snd].
           unfold memb. rewrite existsb_app. cbn [existsb]. rewrite Bool.orb_false_r. reflexivity.
        -- right. exists (ge_surface e0). split; [reflexivity|]. split; [exact O|]. apply memb_false, M.
    + exists new. split; [reflexivity|]. left. split; [reflexivity|]. intros s [_ Hs]. exfalso.
      assert (K : forallb (fun e => Nat.eqb (ge_surface e) (ge_surface e0)) (e0 :: around) = true); [|congruence].
      apply forallb_forall. intros e He. apply Nat.eqb_eq. rewrite (Hs (ge_surface e)), (Hs (ge_surface e0)); [reflexivity| |]; [exists e0|exists e]; rewrite E; split; try reflexivity; [left; reflexivity|exact He].
Qed.
Lemma pass_spec : forall g nb vs new, NoDup (nb ++ new) -> exists new', fold_left (visit_graph_vertex g) vs (pass_state g nb new) = pass_state g nb new' /\
  NoDup (nb ++ new') /\ incl new new' /\ (forall s, In s new' -> In s new \/ exists v, In v vs /\ only_label g v s) /\
  (forall v s, In v vs -> only_label g v s -> In s (nb ++ new')).
Proof.
  intros g nb vs. induction vs as [|v vs IH]; intros new Hn.
  - exists new. split; [reflexivity|]. split; [exact Hn|]. split; [apply incl_refl|]. split; [auto|]. intros v s [].
  - destruct (visit_spec g nb new v) as (new1 & E1 & K). cbn [fold_left]. rewrite E1.
    assert (N1 : NoDup (nb ++ new1) /\ incl new new1 /\ (forall s, In s new1 -> In s new \/ only_label g v s) /\ forall s, only_label g v s -> In s (nb ++ new1)).
    { destruct K as [[-> K]|(s & -> & O & Hs)].
      - split; [exact Hn|]. split; [apply incl_refl|]. auto.
      - split; [rewrite app_assoc; apply NoDup_app_last; assumption|]. split; [intros x Hx; apply in_app_iff; auto|]. split.
        + intros x Hx. apply in_app_iff in Hx as [Hx|[<-|[]]]; auto.
        + intros x [_ Hx]. rewrite <- (Hx s (proj1 O)). rewrite !in_app_iff. right. right. left. reflexivity. }
    destruct N1 as (N1 & I1 & S1 & C1). destruct (IH new1 N1) as (new2 & E2 & N2 & I2 & S2 & C2). exists new2. split; [exact E2|]. split; [exact N2|].
    split; [eapply incl_tran; eassumption|]. split.
    + intros s Hs. destruct (S2 s Hs) as [K1|(v' & Hv' & O)]; [destruct (S1 s K1) as [K2|O]; [left; exact K2|right; exists v; split; [left; reflexivity|exact O]]|right; exists v'; split; [right; exact Hv'|exact O]].
    + intros v' s [<-|Hv'] O; [|eapply C2; eassumption]. pose proof (C1 s O) as K1. rewrite in_app_iff in *. destruct K1 as [K1|K1]; [left; exact K1|right; apply I2, K1].
Qed.
Lemma lab_filter : forall g new v s, lab (filter (fun e => negb (memb (ge_surface e) new)) g) v s <-> lab g v s /\ ~ In s new.
Proof.
  intros g new v s. unfold lab. split.
  - intros (e & He & <-). apply in_around in He as [He Hv]. apply filter_In in He as [He M]. apply Bool.negb_true_iff, memb_false in M. split; [|exact M]. exists e. rewrite in_around. auto.
  - intros [(e & He & <-) M]. apply in_around in He as [He Hv]. exists e. rewrite in_around, filter_In. split; [|reflexivity]. split; [|exact Hv]. split; [exact He|]. apply Bool.negb_true_iff, memb_false, M.
Qed.
Lemma filter_le : forall A (f : A -> bool) l, length (filter f l) <= length l.
Proof. intros A f l. induction l as [|y l IH]; [reflexivity|]. cbn. destruct (f y); cbn; lia. Qed.
Lemma filter_lt : forall A (f : A -> bool) l x, In x l -> f x = false -> length (filter f l) < length l.
Proof.
  intros A f l x. induction l as [|y l IH]; [intros []|]. intros [->|Hx] E; cbn.
  - rewrite E. pose proof (filter_le _ f l). lia.
  - specialize (IH Hx E). destruct (f y); cbn; lia.
Qed.
Definition graph_inv (g : list GraphEdge) (nb : list uuid) : Prop :=
  forall v s, lab g v s <-> In s (component_ids m SurfaceT) /\ bounds m v s /\ ~ In s nb.
Definition sound (nb : list uuid) : Prop := forall s, In s nb -> In s (component_ids m SurfaceT) /\ ~ in_closed_set m s.
Lemma new_sound : forall g nb v s, graph_inv g nb -> sound nb -> only_label g v s -> In s (component_ids m SurfaceT) /\ ~ in_closed_set m s.
Proof.
  intros g nb v s Hg Hs [L O]. apply Hg in L as (Ls & Lb & Ln). split; [exact Ls|]. intros (K & [HK1 HK2] & Ks).
  destruct (HK2 s v Ks Lb) as (s' & K' & Hd & Hb). apply Hd, O, Hg. split; [apply HK1, K'|]. split; [exact Hb|]. intros N. apply Hs in N as [_ N]. apply N. exists K. split; [split; assumption|exact K'].
Qed.
Lemma existsb_map_memb : forall g new, existsb (fun b => b) (map (fun e => memb (ge_surface e) new) g) = true <-> exists e, In e g /\ In (ge_surface e) new.
Proof.
  intros g new. rewrite existsb_exists. split.
  - intros (b & Hb & Eb). apply in_map_iff in Hb as (e & <- & He). exists e. split; [exact He|apply memb_In, Eb].
  - intros (e & He & Hn). exists true. split; [|reflexivity]. apply in_map_iff. exists e. split; [apply memb_In, Hn|exact He].
Qed.
Lemma delete_edges : forall g new, map snd (filter (fun be => negb (fst be)) (combine (map (fun e => memb (ge_surface e) new) g) g)) = filter (fun e => negb (memb (ge_surface e) new)) g.
Proof.
  intros g new. rewrite combine_map. induction g as [|e g IH]; [reflexivity|]. cbn [map filter fst snd]. destruct (memb (ge_surface e) new); cbn [negb map snd]; rewrite IH; reflexivity.
Qed.
Lemma lab_dec_unique : forall g v s, lab g v s -> only_label g v s \/ exists s', s' <> s /\ lab g v s'.
Proof.
  intros g v s Hl. destruct (existsb (fun e => negb (Nat.eqb (ge_surface e) s)) (edges_around_vertex g v)) eqn:E.
  - apply existsb_exists in E as (e & He & Hn). apply Bool.negb_true_iff, Nat.eqb_neq in Hn. right. exists (ge_surface e). split; [exact Hn|]. exists e. auto.
  - left. split; [exact Hl|]. intros s' (e & He & <-). destruct (Nat.eq_dec (ge_surface e) s) as [D|D]; [exact D|]. exfalso.
    assert (T : existsb (fun e => negb (Nat.eqb (ge_surface e) s)) (edges_around_vertex g v) = true); [|congruence].
    apply existsb_exists. exists e. split; [exact He|]. apply Bool.negb_true_iff, Nat.eqb_neq, D.
Qed.
Lemma prune_ok : forall fuel g nb, length g < fuel -> NoDup nb -> graph_inv g nb -> sound nb ->
  exists l, prune fuel (component_ids m LineT) g nb = Ok l /\ NoDup l /\ sound l /\ forall s, In s (component_ids m SurfaceT) -> ~ In s l -> in_closed_set m s.
Proof.
  induction fuel as [|fuel IH]; intros g nb Hf Hn Hg Hs; [lia|]. cbn [prune].
  assert (E0 : (map (fun _ : GraphEdge => false) g, nb) = pass_state g nb []) by (unfold pass_state; rewrite app_nil_r; reflexivity). rewrite E0.
  destruct (pass_spec g nb (component_ids m LineT) []) as (new & E & N & _ & S1 & C); [rewrite app_nil_r; exact Hn|]. rewrite E. cbn [pass_state fst snd].
  assert (Sn : sound (nb ++ new)).
  { intros s Hin. apply in_app_iff in Hin as [Hin|Hin]; [apply Hs, Hin|]. destruct (S1 s Hin) as [[]|(v & _ & O)]. eapply new_sound; eassumption. }
  destruct (existsb (fun b => b) (map (fun e => memb (ge_surface e) new) g)) eqn:X; cbn [negb].
  - apply existsb_map_memb in X as (e & He & Hen). rewrite delete_edges. apply IH.
    + assert (length (filter (fun e => negb (memb (ge_surface e) new)) g) < length g); [|lia]. apply (filter_lt _ _ _ e He). apply Bool.negb_false_iff, memb_In, Hen.
    + exact N.
    + intros v s. rewrite lab_filter, in_app_iff. pose proof (Hg v s). tauto.
    + exact Sn.
  - assert (Z : new = []).
    { destruct new as [|s new]; [reflexivity|]. exfalso. destruct (S1 s (or_introl eq_refl)) as [[]|(v & _ & [(e & He & Es) _])]. apply in_around in He as [He _].
      assert (T : existsb (fun b => b) (map (fun e => memb (ge_surface e) (s :: new)) g) = true) by (apply existsb_map_memb; exists e; split; [exact He|left; symmetry; exact Es]). congruence. }
    exists (nb ++ new). split; [reflexivity|]. split; [exact N|]. split; [exact Sn|]. intros s Hss Hns.
    exists (fun x => In x (component_ids m SurfaceT) /\ ~ In x (nb ++ new)). split; [|split; assumption]. split; [tauto|]. intros x l [Hx Hxn] Hb.
    assert (L : lab g l x) by (apply Hg; split; [exact Hx|]; split; [exact Hb|]; intros K; apply Hxn, in_app_iff; left; exact K).
    destruct (lab_dec_unique g l x L) as [O|(s' & Hd & L')].
    + exfalso. apply Hxn. apply (C l x); [eapply bound_line; eassumption|exact O].
    + apply Hg in L' as (A1 & A2 & A3). exists s'. split; [|split; assumption]. split; [exact A1|]. rewrite Z, app_nil_r. exact A3.
Qed.
Lemma find_not_boundary_ok : exists l, find_not_boundary_surfaces m = Ok l /\ NoDup l /\
  (forall s, In s l <-> In s (component_ids m SurfaceT) /\ ~ in_closed_set m s) /\
  (forall s, In s (component_ids m SurfaceT) -> In s l \/ in_closed_set m s).
Proof.
  unfold find_not_boundary_surfaces. destruct create_graph_ok as (g & E & G & Hh). rewrite E. cbn [bind].
  destruct (prune_ok (S (length g)) g []) as (l & El & N & Sd & C).
  - lia.
  - constructor.
  - intros v s. split.
    + intros (e & He & <-). apply in_around in He as [He Hv]. destruct (G e He) as (A1 & A2 & A3). split; [exact A1|]. split; [destruct Hv as [<-|<-]; assumption|intros []].
    + intros (A1 & A2 & _). destruct (Hh v s A1 A2) as (e & He & Es & K). exists e. split; [|exact Es]. apply in_around. split; [exact He|]. destruct K as [[K _]|[K _]]; auto.
  - intros s [].
  - exists l. split; [exact El|]. split; [exact N|]. split.
    + intros s. split; [apply Sd|]. intros [Hs Hc]. destruct (in_dec Nat.eq_dec s l) as [K|K]; [exact K|]. exfalso. apply Hc, C; assumption.
    + intros s Hs. destruct (in_dec Nat.eq_dec s l) as [K|K]; [left; exact K|right; apply C; assumption].
Qed.
End Graph.
