(** BRep lines. *)
From Coq Require Import String Ascii List Arith NArith ZArith Bool Lia Sorted.
From Verif Require Import Base BaseFacts Model_Issues Types Model_Colocation Model_Topology Model_BRep Spec_Colocation Spec_Maps Spec_Adjacency
  Spec_Topology Spec_BRep Proof_Maps Proof_Colocation Proof_Colocation2 Proof_Colocation3 Proof_Adjacency Proof_Manifold Proof_Degeneration Proof_Topology
  Proof_Topology2 Proof_Topology3 Proof_Topology4 Proof_BRep.
Import ListNotations.
Open Scope list_scope.

Lemma in_incidences : forall m a b, (exists e, In e (incidences m a) /\ cid_id e = b) <-> bounds m a b.
Proof.
  intros m a b. unfold incidences, bounds. split.
  - intros (e & He & <-). apply in_map_iff in He. destruct He as ([[ta a'] [tb b']] & <- & K). apply filter_In in K. destruct K as [K Q]. cbn in *. apply Nat.eqb_eq in Q. subst. eauto.
  - intros (ta & tb & H). exists (mkCID tb b). split; [|reflexivity]. apply in_map_iff. exists (mkCID ta a, mkCID tb b). split; [reflexivity|]. apply filter_In. split; [exact H|].
    cbn. apply Nat.eqb_refl.
Qed.
Lemma in_boundaries : forall m a b, (exists e, In e (boundaries m b) /\ cid_id e = a) <-> bounds m a b.
Proof.
  intros m a b. unfold boundaries, bounds. split.
  - intros (e & He & <-). apply in_map_iff in He. destruct He as ([[ta a'] [tb b']] & <- & K). apply filter_In in K. destruct K as [K Q]. cbn in *. apply Nat.eqb_eq in Q. subst. eauto.
  - intros (ta & tb & H). exists (mkCID ta a). split; [|reflexivity]. apply in_map_iff. exists (mkCID ta a, mkCID tb b). split; [reflexivity|]. apply filter_In. split; [exact H|].
    cbn. apply Nat.eqb_refl.
Qed.
Lemma in_embeddings : forall m a b, (exists e, In e (embeddings m a) /\ cid_id e = b) <-> inside m a b.
Proof.
  intros m a b. unfold embeddings, inside. split.
  - intros (e & He & <-). apply in_map_iff in He. destruct He as ([[ta a'] [tb b']] & <- & K). apply filter_In in K. destruct K as [K Q]. cbn in *. apply Nat.eqb_eq in Q. subst. eauto.
  - intros (ta & tb & H). exists (mkCID tb b). split; [|reflexivity]. apply in_map_iff. exists (mkCID ta a, mkCID tb b). split; [reflexivity|]. apply filter_In. split; [exact H|].
    cbn. apply Nat.eqb_refl.
Qed.
Lemma in_embeddings_of : forall m t a e, In e (embeddings_of m t a) <-> In e (embeddings m a) /\ cid_type e = t.
Proof. intros m t a e. unfold embeddings_of. rewrite filter_In, ctype_eqb_eq. reflexivity. Qed.
Lemma in_embeddings_of_id : forall m t a e, In e (embeddings_of m t a) <-> e = mkCID t (cid_id e) /\ In (mkCID t (cid_id e)) (embeddings m a).
Proof.
  intros m t a [t' i]. rewrite in_embeddings_of. cbn. split.
  - intros [H ->]. auto.
  - intros [H H']. injection H as ->. auto.
Qed.
Lemma contains_iff : forall l k, contains l k = true <-> In k (map fst l).
Proof.
  intros l k. unfold contains. rewrite existsb_exists, in_map_iff. split; intros (p & H1 & H2).
  - apply Nat.eqb_eq in H2. eauto.
  - exists p. split; [assumption|]. apply Nat.eqb_eq. assumption.
Qed.
Lemma size_at_none : forall l k, ~ In k (map fst l) -> size_at l k = 0.
Proof.
  induction l as [|[k' n] l IH]; intros k H; cbn in *; [reflexivity|]. destruct (Nat.eqb_spec k' k) as [->|_]; [exfalso; tauto|apply IH; tauto].
Qed.
Lemma size_at_in : forall l k n, NoDup (map fst l) -> In (k, n) l -> size_at l k = n.
Proof.
  induction l as [|[k' n'] l IH]; intros k n Hn H; [destruct H|]. cbn in *. inversion Hn; subst. destruct H as [H|H].
  - injection H as -> ->. rewrite Nat.eqb_refl. reflexivity.
  - destruct (Nat.eqb_spec k' k) as [->|_]; [exfalso; apply (in_map fst) in H; contradiction|apply IH; assumption].
Qed.
Lemma edges_of_size : forall l k n, NoDup (map fst l) -> (edges_of l k n <-> n = size_at l k).
Proof.
  intros l k n H. unfold edges_of. split.
  - intros [K|[K ->]]; [symmetry; apply size_at_in; assumption|symmetry; apply size_at_none; assumption].
  - intros ->. destruct (in_dec Nat.eq_dec k (map fst l)) as [K|K]; [left|right; split; [exact K|apply size_at_none; exact K]].
    assert (K' := K). apply in_map_iff in K'. destruct K' as ([k' n'] & E & Hin). cbn in E. subst k'. rewrite (size_at_in l k n' H Hin). exact Hin.
Qed.

Lemma unique_vertices_some : forall m c vs l, unique_vertices m c vs = Some l <-> Forall2 (fun v uv => m_unique_vertex m (mkCMV c v) = Some uv) vs l.
Proof.
  intros m c vs. induction vs as [|v vs IH]; intros l; cbn.
  - split; [intros H; injection H as <-; constructor|intros H; inversion H; reflexivity].
  - destruct (m_unique_vertex m (mkCMV c v)) as [uv|] eqn:E.
    + destruct (unique_vertices m c vs) as [l'|] eqn:F.
      * split; [intros H; injection H as <-; constructor; [exact E|apply IH; reflexivity]|]. intros H. inversion H as [|? ? ? ? H1 H2]; subst. apply IH in H2. congruence.
      * split; [discriminate|]. intros H. inversion H as [|? ? ? ? H1 H2]; subst. apply IH in H2. discriminate.
    + split; [discriminate|]. intros H. inversion H; subst. congruence.
Qed.
Lemma component_mesh_edges_ok : forall tl m c e a b, edge_joins m c e a b -> component_mesh_edges tl m c e = Ok (tl_edges tl a b).
Proof.
  intros tl m c e a b (v0 & v1 & H1 & H2 & H3). unfold component_mesh_edges. rewrite H1. cbn [unique_vertices]. rewrite H2, H3. reflexivity.
Qed.
Lemma component_mesh_edges_ub : forall tl m c e, (forall a b, ~ edge_joins m c e a b) -> component_mesh_edges tl m c e = UB.
Proof.
  intros tl m c e H. unfold component_mesh_edges. destruct (nth_error (ec_edges (co_mesh c)) e) as [[v0 v1]|] eqn:E; [|reflexivity]. cbn [unique_vertices].
  destruct (m_unique_vertex m (mkCMV (mkCID LineT (co_id c)) v0)) as [a|] eqn:A; [|reflexivity].
  destruct (m_unique_vertex m (mkCMV (mkCID LineT (co_id c)) v1)) as [b|] eqn:B; [|reflexivity].
  exfalso. apply (H a b). exists v0, v1. auto.
Qed.
Lemma edge_joins_fun : forall m c e a b a' b', edge_joins m c e a b -> edge_joins m c e a' b' -> a = a' /\ b = b'.
Proof. intros m c e a b a' b' (v0 & v1 & H1 & H2 & H3) (w0 & w1 & K1 & K2 & K3). rewrite H1 in K1. injection K1 as <- <-. split; congruence. Qed.

Lemma inside_embeddings : forall m l s, is_internal m l s = true <-> inside m l s.
Proof. exact is_internal_iff. Qed.

Lemma first_some_throws : forall A (f : A -> outcome (option string)) l ex, (forall x, In x l -> f x = Ok None \/ f x = Throw ex) ->
  (exists x, In x l /\ f x = Throw ex) -> first_some f l = Throw ex.
Proof.
  induction l as [|x l IH]; intros ex H (y & Hy & E); [destruct Hy|]. cbn. destruct (H x (or_introl eq_refl)) as [K|K]; rewrite K; cbn; [|reflexivity].
  apply IH; [intros z Hz; apply H; right; exact Hz|]. destruct Hy as [<-|Hy]; [congruence|eauto].
Qed.
Section Lines.
Context (tl : TopoLookup) (m : Model) (uv : nat).
Hypothesis Hok : brep_ok m.
Hypothesis Hlo : lookup_ok tl m.
Notation cmvs := (component_mesh_vertices m uv).
Let Hu := br_ids m Hok.
Let Hl := brep_links_exist m Hok.

Lemma at_line_exists : forall t id, t <> OtherT -> active_at m uv t id -> In id (component_ids m t).
Proof. intros t id Ht H. apply (Hl uv); [apply H|exact Ht]. Qed.
Lemma embedding_exists : forall l e, In l (component_ids m LineT) -> In e (embeddings m l) ->
  (cid_type e = SurfaceT \/ cid_type e = BlockT) /\ In (cid_id e) (component_ids m (cid_type e)).
Proof.
  intros l e H H1. assert (T := br_line_embeddings m Hok l e H H1). split; [exact T|]. apply (br_embeddings m Hok l e H1). destruct T as [->| ->]; discriminate.
Qed.

Lemma linked_existsb : forall e, existsb (fun c => cid_eqb (cmv_component c) e) cmvs = true <-> at_vertex m uv (cid_type e) (cid_id e).
Proof.
  intros [t i]. rewrite existsb_exists. unfold at_vertex, cid_eqb. cbn. split.
  - intros ([[t' i'] v] & H & K). cbn in K. apply andb_true_iff in K. destruct K as [K1 K2]. apply ctype_eqb_eq in K1. apply Nat.eqb_eq in K2. subst. eauto.
  - intros [v H]. eexists. split; [exact H|]. cbn. apply andb_true_iff. split; [apply ctype_eqb_eq; reflexivity|apply Nat.eqb_refl].
Qed.
(** one embedding: it is reported if wrong, unless it is a block: then the search of its name raises *)
Lemma embedding_check_surface : forall l e, active_at m uv LineT l -> In e (embeddings m l) -> (cid_type e = BlockT -> ~ embedding_wrong m uv l e) ->
  reports_iff (brep_embedding_check m uv l e) (embedding_wrong m uv l e).
Proof.
  intros l e Ha Hin Hb. unfold brep_embedding_check. assert (Hle := at_line_exists LineT l ltac:(discriminate) Ha). destruct (embedding_exists l e Hle Hin) as [T Hex].
  destruct (kind_named_ok m LineT l Hle) as [s Hs].
  assert (NAME : embedding_wrong m uv l e -> exists s, kind_named m SurfaceT (cid_id e) = Ok s).
  { intros W. apply kind_named_ok. destruct T as [T|T]; [rewrite <- T; exact Hex|exfalso; tauto]. }
  destruct (is_boundary m l (cid_id e)) eqn:E1.
  { apply is_boundary_iff in E1. assert (W : embedding_wrong m uv l e) by (left; exact E1). destruct (NAME W) as [s' Hs']. rewrite Hs, Hs'. cbn [bind]. apply reports_some. exact W. }
  apply not_bounds in E1. destruct (ctype_eqb (cid_type e) BlockT && negb (brep_blocks_are_meshed m)) eqn:E2.
  { apply reports_none. apply andb_true_iff in E2. destruct E2 as [E2 E3]. apply ctype_eqb_eq in E2. intros [K|[K _]]; [tauto|].
    specialize (K E2). apply blocks_meshed_iff in K. rewrite K in E3. discriminate. }
  destruct (existsb (fun c => cid_eqb (cmv_component c) e) cmvs) eqn:E3; cbn [negb].
  - apply linked_existsb in E3. apply reports_none. intros [K|[_ K]]; tauto.
  - assert (W : embedding_wrong m uv l e).
    { right. split.
      - intros Tb. apply blocks_meshed_iff. destruct (brep_blocks_are_meshed m); [reflexivity|]. rewrite (proj2 (ctype_eqb_eq _ _) Tb) in E2. discriminate.
      - intros K. apply linked_existsb in K. congruence. }
    destruct (NAME W) as [s' Hs']. rewrite Hs, Hs'. cbn [bind]. apply reports_some. exact W.
Qed.
Lemma kind_named_block_throws : forall b, In b (component_ids m BlockT) -> kind_named m SurfaceT b = Throw (m_missing_exn m).
Proof.
  intros b Hb. cbn. unfold get_surface. destruct (find_component b (m_surfaces m)) as [c|] eqn:E; [|reflexivity]. exfalso.
  apply find_component_Some in E. destruct E as [E1 E2]. assert (In b (map co_id (m_surfaces m))) by (rewrite <- E2; apply in_map; exact E1).
  exact (if_sb m (unique_ids_facts m Hu) b H Hb).
Qed.
Lemma embedding_check_block : forall l e, active_at m uv LineT l -> In e (embeddings m l) -> cid_type e = BlockT -> embedding_wrong m uv l e ->
  brep_embedding_check m uv l e = Throw (m_missing_exn m).
Proof.
  intros l e Ha Hin T W. unfold brep_embedding_check. assert (Hle := at_line_exists LineT l ltac:(discriminate) Ha). destruct (embedding_exists l e Hle Hin) as [_ Hex].
  destruct (kind_named_ok m LineT l Hle) as [s Hs]. rewrite T in Hex. rewrite Hs, (kind_named_block_throws _ Hex). cbn [bind].
  destruct (is_boundary m l (cid_id e)) eqn:E1; [reflexivity|]. apply not_bounds in E1. destruct W as [K|[K1 K2]]; [tauto|].
  rewrite (proj2 (blocks_meshed_iff m) (K1 T)), andb_false_r. destruct (existsb (fun c => cid_eqb (cmv_component c) e) cmvs) eqn:E3; [|reflexivity].
  apply linked_existsb in E3. contradiction.
Qed.

Lemma embedded_lines_ok : ~ block_embedding_wrong m uv -> reports_iff (brep_invalid_embedded_line m uv) (line_embedding_wrong m uv).
Proof.
  intros NB. unfold brep_invalid_embedded_line. eapply reports_ext.
  - apply (first_some_reports _ _ (fun c => active_cmv m LineT c = true /\ exists e, In e (embeddings m (cmv_id c)) /\ embedding_wrong m uv (cmv_id c) e)).
    intros c Hc. rewrite (act m uv Hu Hl) by (discriminate || exact Hc). cbn [bind]. destruct (active_cmv m LineT c) eqn:E; cbn [negb];
      [|apply reports_none; intros [K _]; discriminate].
    assert (Ha := active_cmv_at m uv _ c Hc E). eapply reports_ext; [apply (first_some_reports _ _ (embedding_wrong m uv (cmv_id c)))|tauto].
    intros e He. apply embedding_check_surface; [exact Ha|exact He|]. intros T W. apply NB. exists (cmv_id c), e. auto.
  - unfold line_embedding_wrong. split.
    + intros (c & Hc & E & e & H). exists (cmv_id c), e. split; [apply (active_cmv_at m uv _ c Hc E)|exact H].
    + intros (l & e & Ha & H). apply active_at_iff in Ha. destruct Ha as (c & Hc & E & <-). eauto 8.
Qed.
Lemma embedded_lines_throw : block_embedding_wrong m uv -> ~ surface_embedding_wrong m uv -> brep_invalid_embedded_line m uv = Throw (m_missing_exn m).
Proof.
  intros (l & e & Ha & He & W & T) NS. unfold brep_invalid_embedded_line.
  assert (INNER : forall c, In c cmvs -> active_cmv m LineT c = true -> forall e, In e (embeddings m (cmv_id c)) ->
    brep_embedding_check m uv (cmv_id c) e = Ok None \/ brep_embedding_check m uv (cmv_id c) e = Throw (m_missing_exn m)).
  { intros c Hc E e' He'. assert (Hac := active_cmv_at m uv _ c Hc E). destruct (embedding_exists (cmv_id c) e' (at_line_exists LineT _ ltac:(discriminate) Hac) He') as [T' _].
    destruct T' as [T'|T'].
    - destruct (embedding_check_surface (cmv_id c) e' Hac He') as (r & Hr & Hp); [congruence|]. rewrite Hr. destruct r as [x|]; [|auto]. exfalso. apply NS.
      exists (cmv_id c), e'. split; [exact Hac|]. split; [exact He'|]. split; [apply Hp; discriminate|exact T'].
    - destruct (brep_embedding_check m uv (cmv_id c) e') as [[x|]|ex|] eqn:K; auto.
      + exfalso. unfold brep_embedding_check in K. assert (Hle := at_line_exists LineT _ ltac:(discriminate) Hac).
        destruct (embedding_exists (cmv_id c) e' Hle He') as [_ Hex]. rewrite T' in Hex.
        destruct (kind_named_ok m LineT _ Hle) as [s Hs]. rewrite Hs, (kind_named_block_throws _ Hex) in K. cbn [bind] in K.
        destruct (is_boundary m (cmv_id c) (cid_id e')); [discriminate|]. destruct (ctype_eqb (cid_type e') BlockT && negb (brep_blocks_are_meshed m)); [discriminate|].
        destruct (existsb (fun c => cid_eqb (cmv_component c) e') cmvs); discriminate.
      + right. unfold brep_embedding_check in K. assert (Hle := at_line_exists LineT _ ltac:(discriminate) Hac).
        destruct (embedding_exists (cmv_id c) e' Hle He') as [_ Hex]. rewrite T' in Hex.
        destruct (kind_named_ok m LineT _ Hle) as [s Hs]. rewrite Hs, (kind_named_block_throws _ Hex) in K. cbn [bind] in K.
        destruct (is_boundary m (cmv_id c) (cid_id e')); [congruence|]. destruct (ctype_eqb (cid_type e') BlockT && negb (brep_blocks_are_meshed m)); [discriminate|].
        destruct (existsb (fun c => cid_eqb (cmv_component c) e') cmvs); cbn in K; congruence.
      + exfalso. unfold brep_embedding_check in K. assert (Hle := at_line_exists LineT _ ltac:(discriminate) Hac).
        destruct (embedding_exists (cmv_id c) e' Hle He') as [_ Hex]. rewrite T' in Hex.
        destruct (kind_named_ok m LineT _ Hle) as [s Hs]. rewrite Hs, (kind_named_block_throws _ Hex) in K. cbn [bind] in K.
        destruct (is_boundary m (cmv_id c) (cid_id e')); [discriminate|]. destruct (ctype_eqb (cid_type e') BlockT && negb (brep_blocks_are_meshed m)); [discriminate|].
        destruct (existsb (fun c => cid_eqb (cmv_component c) e') cmvs); discriminate. }
  apply first_some_throws.
  - intros c Hc. rewrite (act m uv Hu Hl) by (discriminate || exact Hc). cbn [bind]. destruct (active_cmv m LineT c) eqn:E; cbn [negb]; [|auto].
    specialize (INNER c Hc E). revert INNER. generalize (embeddings m (cmv_id c)). induction l0 as [|y l0 IH]; intros INNER; cbn; [auto|].
    destruct (INNER y (or_introl eq_refl)) as [K|K]; rewrite K; cbn; [|auto]. apply IH. intros z Hz. apply INNER. right. exact Hz.
  - apply active_at_iff in Ha. destruct Ha as (c & Hc & E & <-). exists c. split; [exact Hc|]. rewrite (act m uv Hu Hl) by (discriminate || exact Hc). cbn [bind]. rewrite E.
    cbn [negb]. apply first_some_throws; [apply INNER; assumption|]. exists e. split; [exact He|]. apply embedding_check_block; auto. apply (active_cmv_at m uv _ c Hc E).
Qed.

(** ** Edge 0 *)
Lemma kind_active_case : forall t id, In id (component_ids m t) -> exists b, kind_is_active m t id = Ok b /\ (b = true <-> In id (active_ids m t)).
Proof. intros t id H. exists (activeb m t id). split; [apply kind_is_active_ok; assumption|apply activeb_iff]. Qed.
Lemma relationships_ok : forall l a b, In l (component_ids m LineT) -> reports_iff (brep_line_relationships m uv l (tl_edges tl a b)) (edge0_wrong m l (tl_edges tl a b)).
Proof.
  intros l a b Hle. unfold brep_line_relationships. destruct (kind_named_ok m LineT l Hle) as [s Hs]. rewrite Hs. cbn [bind].
  set (E := tl_edges tl a b). assert (ND : NoDup (map fst (me_surfaces E))) by apply (lo_surfaces tl m Hlo).
  assert (EX : forall s0, In s0 (map fst (me_surfaces E)) -> In s0 (component_ids m SurfaceT)) by apply (lo_surfaces_exist tl m Hlo).
  clearbody E.
  (* incident surfaces *)
  match goal with |- reports_iff (bind (first_some ?f _) _) _ => set (f1 := f) end.
  destruct (first_some_reports _ f1 (fun e => In (cid_id e) (active_ids m SurfaceT) /\ size_at (me_surfaces E) (cid_id e) <> 1) (incidences m l)) as (r1 & Hr1 & Hp1).
  { intros e He. unfold f1. assert (Hs1 := br_line_incidences m Hok l e Hle He). destruct (kind_active_case SurfaceT _ Hs1) as (b1 & Hb1 & Hb2). rewrite Hb1. cbn [bind].
    destruct b1; cbn [negb]; [|apply reports_none; intros [K _]; apply Hb2 in K; discriminate].
    destruct (kind_named_ok m SurfaceT _ Hs1) as [s1 Hn1]. rewrite Hn1. cbn [bind]. assert (A := proj1 Hb2 eq_refl).
    destruct (contains (me_surfaces E) (cid_id e)) eqn:C; cbn [negb].
    - destruct (Nat.eqb_spec (size_at (me_surfaces E) (cid_id e)) 1) as [Q|Q]; cbn [negb]; [apply reports_none; tauto|apply reports_some; tauto].
    - apply reports_some. split; [exact A|]. rewrite size_at_none; [discriminate|]. intros K. apply contains_iff in K. congruence. }
  rewrite Hr1. cbn [bind]. destruct r1 as [x|].
  { destruct (proj1 Hp1 ltac:(discriminate)) as (e & He & A & Q). apply reports_some. exists (cid_id e), (size_at (me_surfaces E) (cid_id e)). split; [exact A|].
    split; [apply edges_of_size; auto|]. left. split; [apply in_incidences; eauto|exact Q]. }
  assert (N1 : forall s0, bounds m l s0 -> In s0 (active_ids m SurfaceT) -> size_at (me_surfaces E) s0 = 1).
  { intros s0 Hb0 A. destruct (Nat.eq_dec (size_at (me_surfaces E) s0) 1) as [Q|Q]; [exact Q|]. exfalso. apply in_incidences in Hb0. destruct Hb0 as (e & He & <-).
    destruct Hp1 as [_ Hp1]. apply Hp1; eauto. }
  match goal with |- reports_iff (bind (first_some ?f _) _) _ => set (f2 := f) end.
  destruct (first_some_reports _ f2 (fun e => In (cid_id e) (active_ids m SurfaceT) /\ size_at (me_surfaces E) (cid_id e) <= 1) (embeddings_of m SurfaceT l)) as (r2 & Hr2 & Hp2).
  { intros e He. unfold f2. apply in_embeddings_of in He. destruct He as [He T]. destruct (embedding_exists l e Hle He) as [_ Hs1]. rewrite T in Hs1.
    destruct (kind_active_case SurfaceT _ Hs1) as (b1 & Hb1 & Hb2). rewrite Hb1. cbn [bind].
    destruct b1; cbn [negb]; [|apply reports_none; intros [K _]; apply Hb2 in K; discriminate].
    destruct (kind_named_ok m SurfaceT _ Hs1) as [s1 Hn1]. rewrite Hn1. cbn [bind]. assert (A := proj1 Hb2 eq_refl).
    destruct (contains (me_surfaces E) (cid_id e)) eqn:C; cbn [negb].
    - destruct (Nat.leb_spec (size_at (me_surfaces E) (cid_id e)) 1) as [Q|Q]; [apply reports_some; tauto|apply reports_none; lia].
    - apply reports_some. split; [exact A|]. rewrite size_at_none; [lia|]. intros K. apply contains_iff in K. congruence. }
  rewrite Hr2. cbn [bind]. destruct r2 as [x|].
  { destruct (proj1 Hp2 ltac:(discriminate)) as (e & He & A & Q). apply in_embeddings_of_id in He. destruct He as [_ He]. apply reports_some.
    exists (cid_id e), (size_at (me_surfaces E) (cid_id e)). split; [exact A|]. split; [apply edges_of_size; auto|]. right. left. split; [exact He|exact Q]. }
  assert (N2 : forall s0, in_surface m l s0 -> In s0 (active_ids m SurfaceT) -> 1 < size_at (me_surfaces E) s0).
  { intros s0 Hb0 A. destruct (le_lt_dec (size_at (me_surfaces E) s0) 1) as [Q|Q]; [|exact Q]. exfalso. destruct Hp2 as [_ Hp2]. apply Hp2; [|reflexivity].
    exists (mkCID SurfaceT s0). split; [apply in_embeddings_of; auto|auto]. }
  assert (NO : ~ (nb_incidences m l = 0 /\ (forall s', ~ in_surface m l s') /\ exists s0, In s0 (active_ids m SurfaceT) /\ In s0 (map fst (me_surfaces E))) ->
    ~ edge0_wrong m l E).
  { intros K (s0 & n & A & En & W). apply (edges_of_size _ _ _ ND) in En. subst n. destruct W as [[W1 W2]|[[W1 W2]|(W1 & W2 & W3)]].
    - apply W2, N1; assumption.
    - specialize (N2 s0 W1 A). lia.
    - apply K. eauto 8. }
  destruct (Nat.eqb_spec (nb_incidences m l) 0) as [Z1|Z1]; cbn [andb]; [|apply reports_none; apply NO; tauto].
  destruct (Nat.eqb_spec (length (embeddings_of m SurfaceT l)) 0) as [Z2|Z2].
  2:{ apply reports_none. apply NO. intros (_ & K & _). destruct (embeddings_of m SurfaceT l) as [|e es] eqn:Q; [apply Z2; reflexivity|].
      assert (He : In e (embeddings_of m SurfaceT l)) by (rewrite Q; left; reflexivity). apply in_embeddings_of_id in He. apply (K (cid_id e)), He. }
  assert (Z3 : forall s', ~ in_surface m l s').
  { intros s' K. assert (He : In (mkCID SurfaceT s') (embeddings_of m SurfaceT l)) by (apply in_embeddings_of; auto).
    destruct (embeddings_of m SurfaceT l); [destruct He|discriminate]. }
  eapply reports_ext; [apply (first_some_reports _ _ (fun p => In (fst p) (active_ids m SurfaceT)))|].
  - intros p Hp. assert (Hs1 : In (fst p) (component_ids m SurfaceT)) by (apply EX, in_map, Hp).
    destruct (kind_active_case SurfaceT _ Hs1) as (b1 & Hb1 & Hb2). rewrite Hb1. cbn [bind]. destruct (kind_named_ok m SurfaceT _ Hs1) as [s1 Hn1]. rewrite Hn1. cbn [bind].
    destruct b1; [apply reports_some; tauto|apply reports_none; intros K; apply Hb2 in K; discriminate].
  - split.
    + intros (p & Hp & A). exists (fst p), (size_at (me_surfaces E) (fst p)). split; [exact A|]. split; [apply edges_of_size; auto|]. right. right.
      split; [exact Z1|]. split; [exact Z3|]. apply in_map. exact Hp.
    + intros (s0 & n & A & En & W). apply (edges_of_size _ _ _ ND) in En. subst n. destruct W as [[W1 W2]|[[W1 W2]|(W1 & W2 & W3)]].
      * exfalso. apply W2, N1; assumption.
      * specialize (N2 s0 W1 A). lia.
      * apply in_map_iff in W3. destruct W3 as (p & <- & Hp). eauto.
Qed.
Lemma active_line : forall c, In c cmvs -> active_cmv m LineT c = true -> exists lc, In lc (m_lines m) /\ co_id lc = cmv_id c /\ co_active lc = true /\ get_line m (cmv_id c) = Ok lc.
Proof.
  intros c Hc E. assert (Ha := active_cmv_at m uv _ c Hc E). destruct Ha as [_ Ha]. cbn in Ha. apply in_map_iff in Ha. destruct Ha as (lc & Hid & Hin). apply filter_In in Hin.
  exists lc. rewrite <- Hid. split; [apply Hin|]. split; [reflexivity|]. split; [apply Hin|]. apply get_line_In; [exact Hu|apply Hin].
Qed.
Lemma line_active_cmv : forall lc, In lc (m_lines m) -> co_active lc = true -> at_vertex m uv LineT (co_id lc) ->
  exists c, In c cmvs /\ active_cmv m LineT c = true /\ cmv_id c = co_id lc.
Proof. intros lc H1 H2 H3. apply active_at_iff. split; [exact H3|]. cbn. apply in_map, filter_In. auto. Qed.
Lemma line_id_inj : forall a b, In a (m_lines m) -> In b (m_lines m) -> co_id a = co_id b -> a = b.
Proof.
  intros a b Ha Hb E. assert (get_line m (co_id a) = Ok a) by (apply get_line_In; assumption). assert (get_line m (co_id b) = Ok b) by (apply get_line_In; assumption). congruence.
Qed.
Lemma wrong_relationships_ok : first_edges_linked m uv -> reports_iff (brep_line_wrong_relationships tl m uv) (line_relationship_wrong tl m uv).
Proof.
  intros HF. unfold brep_line_wrong_relationships. eapply reports_ext.
  - apply (first_some_reports _ _ (fun c => active_cmv m LineT c = true /\ exists lc a b, In lc (m_lines m) /\ co_id lc = cmv_id c /\ edge_joins m lc 0 a b /\
      edge0_wrong m (cmv_id c) (tl_edges tl a b))).
    intros c Hc. rewrite (act m uv Hu Hl) by (discriminate || exact Hc). cbn [bind]. destruct (active_cmv m LineT c) eqn:E; cbn [negb];
      [|apply reports_none; intros [K _]; discriminate].
    destruct (active_line c Hc E) as (lc & H1 & H2 & H3 & H4). rewrite H4. cbn [bind].
    destruct (Nat.eqb_spec (length (ec_edges (co_mesh lc))) 0) as [Z|Z].
    + apply reports_none. intros (_ & lc' & a & b & K1 & K2 & (v0 & v1 & K3 & _) & _). rewrite (line_id_inj lc' lc K1 H1 ltac:(congruence)) in K3.
      destruct (ec_edges (co_mesh lc)); [discriminate|discriminate].
    + destruct (HF lc H1 H3) as (a & b & J).
      * rewrite H2. apply (active_cmv_at m uv _ c Hc E).
      * intros K. rewrite K in Z. apply Z. reflexivity.
      * rewrite (component_mesh_edges_ok tl m lc 0 a b J). cbn [bind]. eapply reports_ext; [apply relationships_ok|].
        -- apply at_line_exists; [discriminate|]. apply (active_cmv_at m uv _ c Hc E).
        -- split; [intros W; split; [reflexivity|]; exists lc, a, b; auto|]. intros (_ & lc' & a' & b' & K1 & K2 & K3 & K4).
           rewrite (line_id_inj lc' lc K1 H1 ltac:(congruence)) in K3. destruct (edge_joins_fun _ _ _ _ _ _ _ J K3) as [-> ->]. exact K4.
  - unfold line_relationship_wrong. split.
    + intros (c & Hc & E & lc & a & b & H1 & H2 & H3 & H4). exists lc, a, b. split; [exact H1|]. rewrite H2. destruct (active_line c Hc E) as (lc' & K1 & K2 & K3 & _).
      rewrite (line_id_inj lc lc' H1 K1 ltac:(congruence)). split; [exact K3|]. split; [apply (active_cmv_at m uv _ c Hc E)|].
      rewrite <- (line_id_inj lc lc' H1 K1 ltac:(congruence)). auto.
    + intros (lc & a & b & H1 & H2 & H3 & H4 & H5). destruct (line_active_cmv lc H1 H2 H3) as (c & Hc & E & Hid). exists c. split; [exact Hc|]. split; [exact E|].
      exists lc, a, b. rewrite Hid. auto.
Qed.
(** an active line met at the vertex whose edge 0 has an unlinked vertex *)
Lemma first_some_ub : forall A (f : A -> outcome (option string)) l, (forall x, In x l -> f x = Ok None \/ f x = UB) ->
  (exists x, In x l /\ f x = UB) -> first_some f l = UB.
Proof.
  induction l as [|x l IH]; intros H (y & Hy & E); [destruct Hy|]. cbn. destruct (H x (or_introl eq_refl)) as [K|K]; rewrite K; cbn; [|reflexivity].
  apply IH; [intros z Hz; apply H; right; exact Hz|]. destruct Hy as [<-|Hy]; [congruence|eauto].
Qed.
Lemma wrong_relationships_ub : ~ first_edges_linked m uv -> ~ line_relationship_wrong tl m uv -> brep_line_wrong_relationships tl m uv = UB.
Proof.
  intros NF NW. unfold brep_line_wrong_relationships.
  assert (EACH : forall c, In c cmvs -> active_cmv m LineT c = true -> forall lc, In lc (m_lines m) -> co_id lc = cmv_id c -> co_active lc = true -> ec_edges (co_mesh lc) <> [] ->
    (exists a b, edge_joins m lc 0 a b) \/ (forall a b, ~ edge_joins m lc 0 a b)).
  { intros c Hc E lc H1 H2 H3 H4. destruct (ec_edges (co_mesh lc)) as [|[v0 v1] es] eqn:Q; [congruence|].
    destruct (m_unique_vertex m (mkCMV (mkCID LineT (co_id lc)) v0)) as [a|] eqn:A.
    - destruct (m_unique_vertex m (mkCMV (mkCID LineT (co_id lc)) v1)) as [b|] eqn:B.
      + left. exists a, b, v0, v1. rewrite Q. auto.
      + right. intros a' b' (w0 & w1 & K1 & K2 & K3). rewrite Q in K1. cbn in K1. injection K1 as <- <-. congruence.
    - right. intros a' b' (w0 & w1 & K1 & K2 & K3). rewrite Q in K1. cbn in K1. injection K1 as <- <-. congruence. }
  apply first_some_ub.
  - intros c Hc. rewrite (act m uv Hu Hl) by (discriminate || exact Hc). cbn [bind]. destruct (active_cmv m LineT c) eqn:E; cbn [negb]; [|auto].
    destruct (active_line c Hc E) as (lc & H1 & H2 & H3 & H4). rewrite H4. cbn [bind].
    destruct (Nat.eqb_spec (length (ec_edges (co_mesh lc))) 0) as [Z|Z]; [auto|].
    destruct (EACH c Hc E lc H1 H2 H3) as [(a & b & J)|K].
    + intros K. rewrite K in Z. apply Z. reflexivity.
    + rewrite (component_mesh_edges_ok tl m lc 0 a b J). cbn [bind]. left.
      destruct (relationships_ok (cmv_id c) a b) as (r & Hr & Hp); [apply at_line_exists; [discriminate|]; apply (active_cmv_at m uv _ c Hc E)|].
      rewrite Hr. destruct r as [x|]; [|reflexivity]. exfalso. apply NW. exists lc, a, b. rewrite H2. split; [exact H1|]. split; [exact H3|].
      split; [apply (active_cmv_at m uv _ c Hc E)|]. split; [exact J|]. apply Hp. discriminate.
    + rewrite component_mesh_edges_ub by exact K. auto.
  - assert (exists c, In c cmvs /\ active_cmv m LineT c = true /\ exists lc, In lc (m_lines m) /\ co_id lc = cmv_id c /\ co_active lc = true /\ ec_edges (co_mesh lc) <> [] /\
      forall a b, ~ edge_joins m lc 0 a b) as (c & Hc & E & lc & H1 & H2 & H3 & H4 & H5).
    { assert (DEC : forall ls, (forall c, In c ls -> In c cmvs) -> (exists c, In c ls /\ active_cmv m LineT c = true /\ exists lc, In lc (m_lines m) /\ co_id lc = cmv_id c /\
        co_active lc = true /\ ec_edges (co_mesh lc) <> [] /\ forall a b, ~ edge_joins m lc 0 a b) \/
        (forall c, In c ls -> active_cmv m LineT c = true -> forall lc, In lc (m_lines m) -> co_id lc = cmv_id c -> co_active lc = true -> ec_edges (co_mesh lc) <> [] ->
          exists a b, edge_joins m lc 0 a b)).
      { induction ls as [|c ls IH]; intros Hin; [right; intros c []|]. destruct IH as [K|K]; [intros d Hd; apply Hin; right; exact Hd|left; destruct K as (d & Hd & K); exists d; split; [right; exact Hd|exact K]|].
        destruct (active_cmv m LineT c) eqn:E.
        - destruct (active_line c (Hin c (or_introl eq_refl)) E) as (lc & H1 & H2 & H3 & H4). destruct (ec_edges (co_mesh lc)) eqn:Q.
          + right. intros d [<-|Hd] Hact lc' L1 L2 L3 L4; [|apply (K d Hd Hact lc'); assumption]. rewrite (line_id_inj lc' lc L1 H1 ltac:(congruence)) in L4. congruence.
          + destruct (EACH c (Hin c (or_introl eq_refl)) E lc H1 H2 H3 ltac:(congruence)) as [J|J].
            * right. intros d [<-|Hd] Hact lc' L1 L2 L3 L4; [|apply (K d Hd Hact lc'); assumption]. rewrite (line_id_inj lc' lc L1 H1 ltac:(congruence)). exact J.
            * left. exists c. split; [left; reflexivity|]. split; [exact E|]. exists lc. rewrite Q. split; [exact H1|]. split; [exact H2|]. split; [exact H3|]. split; [discriminate|exact J].
        - right. intros d [<-|Hd] Hact; [congruence|]. apply (K d Hd Hact). }
      destruct (DEC cmvs (fun c H => H)) as [K|K]; [exact K|]. exfalso. apply NF. intros lc H1 H2 H3 H4. destruct (line_active_cmv lc H1 H2 H3) as (c & Hc & E & Hid).
      apply (K c Hc E lc); auto. }
    exists c. split; [exact Hc|]. rewrite (act m uv Hu Hl) by (discriminate || exact Hc). cbn [bind]. rewrite E. cbn [negb].
    rewrite <- H2, (get_line_In m lc Hu H1). cbn [bind]. destruct (Nat.eqb_spec (length (ec_edges (co_mesh lc))) 0) as [Z|Z].
    + exfalso. apply H4. destruct (ec_edges (co_mesh lc)); [reflexivity|discriminate].
    + rewrite component_mesh_edges_ub by exact H5. reflexivity.
Qed.
End Lines.
