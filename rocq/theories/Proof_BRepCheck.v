(** Boolean checks of the hypotheses of the BRep topology theorems, and a concrete BRep (one tetrahedral block). *)
From Coq Require Import String Ascii List Arith NArith ZArith Bool Lia Sorted Floats.SpecFloat.
From Verif Require Import Base BaseFacts Model_Issues Types Model_Colocation Model_Topology Model_BRep Spec_Colocation Spec_Maps Spec_Adjacency
  Spec_Topology Spec_BRep Proof_Topology Proof_Topology2 Proof_TopologyCheck.
Import ListNotations.
Open Scope list_scope.

Definition impb (a b : bool) : bool := negb a || b.
Lemma impb_iff : forall a b, impb a b = true <-> (a = true -> b = true).
Proof. intros [] []; cbn; intuition congruence. Qed.
Definition brepb (m : Model) : bool :=
  nodupb (all_ids m) && forallb (forallb (cmv_exists_in_brep m)) (m_cmvs m)
  && forallb (fun r => impb (inb (cid_id (fst r)) (component_ids m LineT)) (inb (cid_id (snd r)) (component_ids m SurfaceT))) (m_boundary_rel m)
  && forallb (fun r => impb (inb (cid_id (snd r)) (component_ids m SurfaceT)) (inb (cid_id (fst r)) (component_ids m LineT))) (m_boundary_rel m)
  && forallb (fun r => impb (inb (cid_id (snd r)) (component_ids m BlockT)) (inb (cid_id (fst r)) (component_ids m SurfaceT))) (m_boundary_rel m)
  && forallb (fun r => impb (inb (cid_id (fst r)) (component_ids m SurfaceT)) (inb (cid_id (snd r)) (component_ids m BlockT))) (m_internal_rel m)
  && forallb (fun r => impb (inb (cid_id (fst r)) (component_ids m LineT)) (ctype_eqb (cid_type (snd r)) SurfaceT || ctype_eqb (cid_type (snd r)) BlockT)) (m_internal_rel m)
  && forallb (fun r => ctype_eqb (cid_type (snd r)) OtherT || inb (cid_id (snd r)) (component_ids m (cid_type (snd r)))) (m_internal_rel m)
  && forallb (fun l => boundb (length l + length (m_internal_rel m))) (m_cmvs m)
  && forallb (fun c => boundb (nb_points0 (co_mesh c))) (m_corners m)
  && forallb (fun c => boundb (nb_points1 (co_mesh c)) && boundb (length (ec_edges (co_mesh c)))) (m_lines m)
  && forallb (fun c => boundb (nb_points2 (co_mesh c)) && boundb (length (sm_polygons (co_mesh c)))) (m_surfaces m)
  && forallb (fun c => boundb (nb_points3 (co_mesh c))) (m_blocks m)
  && forallb (fun c => forallb (fun e => Nat.ltb (fst e) (nb_points1 (co_mesh c)) && Nat.ltb (snd e) (nb_points1 (co_mesh c))) (ec_edges (co_mesh c))) (m_lines m)
  && forallb (fun c => forallb (forallb (fun v => Nat.ltb v (nb_points2 (co_mesh c)))) (sm_polygons (co_mesh c))) (m_surfaces m).
Lemma in_incidences_rel : forall m a e, In e (incidences m a) -> exists r, In r (m_boundary_rel m) /\ cid_id (fst r) = a /\ snd r = e.
Proof. intros m a e H. unfold incidences in H. apply in_map_iff in H. destruct H as (r & E & H). apply filter_In in H. destruct H as [H K]. apply Nat.eqb_eq in K. eauto. Qed.
Lemma in_boundaries_rel : forall m a e, In e (boundaries m a) -> exists r, In r (m_boundary_rel m) /\ cid_id (snd r) = a /\ fst r = e.
Proof. intros m a e H. unfold boundaries in H. apply in_map_iff in H. destruct H as (r & E & H). apply filter_In in H. destruct H as [H K]. apply Nat.eqb_eq in K. eauto. Qed.
Lemma in_embeddings_rel : forall m a e, In e (embeddings m a) -> exists r, In r (m_internal_rel m) /\ cid_id (fst r) = a /\ snd r = e.
Proof. intros m a e H. unfold embeddings in H. apply in_map_iff in H. destruct H as (r & E & H). apply filter_In in H. destruct H as [H K]. apply Nat.eqb_eq in K. eauto. Qed.
Lemma brepb_ok : forall m, brepb m = true -> brep_ok m.
Proof.
  intros m H. unfold brepb in H. repeat (apply andb_true_iff in H as [H ?]). assert (U : unique_ids m) by (apply nodupb_ok; assumption).
  repeat match goal with K : forallb _ _ = true |- _ => rewrite forallb_forall in K end.
  constructor.
  - exact U.
  - intros cmvs c Q1 Q2. apply (cmv_exists_brep_iff m c U).
    match goal with K : forall x, In x (m_cmvs m) -> forallb (cmv_exists_in_brep m) x = true |- _ => specialize (K _ Q1); rewrite forallb_forall in K; apply K; assumption end.
  - intros l e Hl He. destruct (in_incidences_rel m l e He) as (r & Hr & <- & <-). apply inb_iff in Hl. apply inb_iff.
    match goal with K : forall x, In x (m_boundary_rel m) -> impb (inb (cid_id (fst x)) (component_ids m LineT)) _ = true |- _ => apply (proj1 (impb_iff _ _) (K r Hr)); assumption end.
  - intros l e Hl He. destruct (in_boundaries_rel m l e He) as (r & Hr & <- & <-). apply inb_iff in Hl. apply inb_iff.
    match goal with K : forall x, In x (m_boundary_rel m) -> impb (inb (cid_id (snd x)) (component_ids m SurfaceT)) _ = true |- _ => apply (proj1 (impb_iff _ _) (K r Hr)); assumption end.
  - intros l e Hl He. destruct (in_boundaries_rel m l e He) as (r & Hr & <- & <-). apply inb_iff in Hl. apply inb_iff.
    match goal with K : forall x, In x (m_boundary_rel m) -> impb (inb (cid_id (snd x)) (component_ids m BlockT)) _ = true |- _ => apply (proj1 (impb_iff _ _) (K r Hr)); assumption end.
  - intros l e Hl He. destruct (in_embeddings_rel m l e He) as (r & Hr & <- & <-). apply inb_iff in Hl. apply inb_iff.
    match goal with K : forall x, In x (m_internal_rel m) -> impb (inb (cid_id (fst x)) (component_ids m SurfaceT)) _ = true |- _ => apply (proj1 (impb_iff _ _) (K r Hr)); assumption end.
  - intros l e Hl He. destruct (in_embeddings_rel m l e He) as (r & Hr & <- & <-). apply inb_iff in Hl.
    match goal with K : forall x, In x (m_internal_rel m) -> impb (inb (cid_id (fst x)) (component_ids m LineT)) _ = true |- _ => assert (Q := proj1 (impb_iff _ _) (K r Hr) Hl) end.
    apply orb_true_iff in Q. rewrite !ctype_eqb_eq in Q. exact Q.
  - intros a e He Ht. destruct (in_embeddings_rel m a e He) as (r & Hr & <- & <-).
    match goal with K : forall x, In x (m_internal_rel m) -> _ || inb (cid_id (snd x)) _ = true |- _ => assert (Q := K r Hr) end.
    apply orb_true_iff in Q. destruct Q as [Q|Q]; [apply ctype_eqb_eq in Q; contradiction|apply inb_iff; exact Q].
  - intros cmvs Hc. apply boundb_ok. auto.
  - intros c Hc. apply boundb_ok. auto.
  - intros c Hc. match goal with K : forall x, In x (m_lines m) -> boundb _ && boundb _ = true |- _ => specialize (K c Hc); apply andb_true_iff in K as [K1 K2] end.
    split; apply boundb_ok; assumption.
  - intros c Hc. match goal with K : forall x, In x (m_surfaces m) -> boundb _ && boundb _ = true |- _ => specialize (K c Hc); apply andb_true_iff in K as [K1 K2] end.
    split; apply boundb_ok; assumption.
  - intros c Hc. apply boundb_ok. auto.
  - intros c a b Hc He. match goal with K : forall x, In x (m_lines m) -> forallb _ _ = true |- _ => specialize (K c Hc); rewrite forallb_forall in K; specialize (K _ He);
      apply andb_true_iff in K as [K1 K2]; apply Nat.ltb_lt in K1, K2; auto end.
  - intros c p v Hc Hp Hv. match goal with K : forall x, In x (m_surfaces m) -> forallb (forallb _) _ = true |- _ => specialize (K c Hc); rewrite forallb_forall in K; specialize (K _ Hp);
      rewrite forallb_forall in K; specialize (K _ Hv); apply Nat.ltb_lt in K; auto end.
Qed.

(** searches given by tables *)
Definition same_pair (a b : nat) (k : nat * nat) : bool :=
  (Nat.eqb (fst k) a && Nat.eqb (snd k) b) || (Nat.eqb (fst k) b && Nat.eqb (snd k) a).
Fixpoint edge_entry (t : list ((nat * nat) * MeshEdges)) (a b : nat) : MeshEdges :=
  match t with [] => mkMeshEdges [] [] | (k, e) :: t' => if same_pair a b k then e else edge_entry t' a b end.
Definition same_set (a b : list nat) : bool := forallb (fun x => inb x b) a && forallb (fun x => inb x a) b.
Fixpoint polygon_entry (t : list (list nat * list (uuid * nat))) (l : list nat) : list (uuid * nat) :=
  match t with [] => [] | (k, e) :: t' => if same_set l k then e else polygon_entry t' l end.
Definition table_lookup te tp ib bc ic : TopoLookup := mkTopoLookup (edge_entry te) (polygon_entry tp) ib bc ic.
Definition tableb (m : Model) (te : list ((nat * nat) * MeshEdges)) (tp : list (list nat * list (uuid * nat))) : bool :=
  forallb (fun e => nodupb (map fst (me_surfaces (snd e))) && nodupb (map fst (me_blocks (snd e)))
    && forallb (fun p => inb (fst p) (component_ids m SurfaceT)) (me_surfaces (snd e))
    && forallb (fun p => inb (fst p) (component_ids m BlockT)) (me_blocks (snd e))) te
  && forallb (fun e => forallb (fun p => inb (fst p) (component_ids m BlockT)) (snd e)) tp.
Lemma tableb_ok : forall m te tp ib bc ic, tableb m te tp = true -> lookup_ok (table_lookup te tp ib bc ic) m.
Proof.
  intros m te tp ib bc ic H. unfold tableb in H. apply andb_true_iff in H as [H1 H2]. rewrite forallb_forall in H1, H2.
  assert (E : forall a b, edge_entry te a b = mkMeshEdges [] [] \/ exists k, In (k, edge_entry te a b) te).
  { clear. induction te as [|[k e] te IH]; intros a b; cbn; [auto|]. destruct (same_pair a b k); [right; exists k; auto|]. destruct (IH a b) as [K|[k' K]]; [auto|right; eauto]. }
  assert (P : forall l, polygon_entry tp l = [] \/ exists k, In (k, polygon_entry tp l) tp).
  { clear. induction tp as [|[k e] tp IH]; intros l; cbn; [auto|]. destruct (same_set l k); [right; exists k; auto|]. destruct (IH l) as [K|[k' K]]; [auto|right; eauto]. }
  assert (F : forall k e, In (k, e) te -> nodupb (map fst (me_surfaces e)) = true /\ nodupb (map fst (me_blocks e)) = true /\
    (forall p, In p (me_surfaces e) -> In (fst p) (component_ids m SurfaceT)) /\ forall p, In p (me_blocks e) -> In (fst p) (component_ids m BlockT)).
  { intros k e He. specialize (H1 _ He). cbn [snd] in H1. repeat (apply andb_true_iff in H1 as [H1 ?]). rewrite !forallb_forall in *.
    repeat split; auto; intros p Hp; apply inb_iff; auto. }
  constructor; cbn [table_lookup tl_edges tl_polygon_blocks].
  - intros a b. destruct (E a b) as [K|[k K]]; [rewrite K; constructor|apply nodupb_ok, (F _ _ K)].
  - intros a b s Hs. destruct (E a b) as [K|[k K]]; [rewrite K in Hs; destruct Hs|]. apply in_map_iff in Hs. destruct Hs as (p & <- & Hp). apply (F _ _ K), Hp.
  - intros a b. destruct (E a b) as [K|[k K]]; [rewrite K; constructor|apply nodupb_ok, (F _ _ K)].
  - intros a b s Hs. destruct (E a b) as [K|[k K]]; [rewrite K in Hs; destruct Hs|]. apply in_map_iff in Hs. destruct Hs as (p & <- & Hp). apply (F _ _ K), Hp.
  - intros l s Hs. destruct (P l) as [K|[k K]]; [rewrite K in Hs; destruct Hs|]. apply in_map_iff in Hs. destruct Hs as (p & <- & Hp).
    specialize (H2 _ K). cbn [snd] in H2. rewrite forallb_forall in H2. apply inb_iff, H2, Hp.
Qed.
Definition first_edgesb (m : Model) : bool :=
  forallb (fun c => impb (co_active c) (match ec_edges (co_mesh c) with
    | [] => true
    | (a, b) :: _ => isSome (m_unique_vertex m (mkCMV (mkCID LineT (co_id c)) a)) && isSome (m_unique_vertex m (mkCMV (mkCID LineT (co_id c)) b)) end)) (m_lines m).
Lemma first_edgesb_ok : forall m uv, first_edgesb m = true -> first_edges_linked m uv.
Proof.
  intros m uv H c Hc Ha _ Hne. unfold first_edgesb in H. rewrite forallb_forall in H. specialize (H c Hc). rewrite impb_iff in H. specialize (H Ha).
  destruct (ec_edges (co_mesh c)) as [|[v0 v1] es] eqn:E; [congruence|]. apply andb_true_iff in H as [H1 H2].
  destruct (m_unique_vertex m (mkCMV (mkCID LineT (co_id c)) v0)) as [a|] eqn:A; [|discriminate].
  destruct (m_unique_vertex m (mkCMV (mkCID LineT (co_id c)) v1)) as [b|] eqn:B; [|discriminate].
  exists a, b, v0, v1. rewrite E. auto.
Qed.
