From Coq Require Import String Ascii List Arith NArith ZArith Bool Lia Sorted.
From Verif Require Import Base BaseFacts Model_Issues Types Model_Colocation Spec_Colocation Spec_Maps Model_Cycles Spec_Cycles
  Model_Adjacency Spec_Adjacency Proof_Issues Proof_Colocation Proof_Colocation2 Proof_Colocation3 Proof_Maps Proof_Cycles.
Import ListNotations.
Open Scope list_scope.

(** ** Enumerations *)
Lemma flat_pairs_in : forall (n : nat) (f : nat -> nat) x,
  In x (flat_map (fun p => map (fun e => (p, e)) (Range (f p))) (Range n)) <-> fst x < n /\ snd x < f (fst x).
Proof.
  intros n f [p e]. rewrite in_flat_map. cbn. split.
  - intros (q & Hq & H). apply in_map_iff in H. destruct H as (k & E & Hk). injection E as -> ->.
    apply in_seq in Hq. apply in_seq in Hk. lia.
  - intros [H1 H2]. exists p. split; [apply in_seq; lia|]. apply in_map_iff. exists e. split; [reflexivity|apply in_seq; lia].
Qed.
Lemma flat_pairs_sorted : forall (f : nat -> nat) (n : nat) k,
  StronglySorted lex_lt (flat_map (fun p => map (fun e => (p, e)) (Range (f p))) (seq k n)).
Proof.
  intros f n. induction n as [|n IH]; intros k; cbn [seq flat_map]; [constructor|].
  assert (G : forall x, In x (flat_map (fun p => map (fun e => (p, e)) (Range (f p))) (seq (S k) n)) -> S k <= fst x).
  { intros [p e] H. apply in_flat_map in H. destruct H as (q & Hq & H). apply in_map_iff in H. destruct H as (j & E & _).
    injection E as -> ->. apply in_seq in Hq. cbn. lia. }
  specialize (IH (S k)). revert IH G. generalize (flat_map (fun p => map (fun e => (p, e)) (Range (f p))) (seq (S k) n)).
  intros rest IH G. unfold Range. generalize (f k). intros c.
  assert (K : forall c s, StronglySorted lex_lt (map (fun e => (k, e)) (seq s c) ++ rest)).
  { clear c. induction c as [|c IHc]; intros s; cbn; [exact IH|]. constructor; [apply IHc|].
    rewrite Forall_forall. intros x Hx. apply in_app_or in Hx. destruct Hx as [Hx|Hx].
    - apply in_map_iff in Hx. destruct Hx as (j & <- & Hj). apply in_seq in Hj. right. cbn. lia.
    - left. cbn. specialize (G x Hx). lia. }
  apply K.
Qed.
Lemma in_all_polygon_edges : forall m e, In e (all_polygon_edges m) <-> is_polygon_edge m e.
Proof. intros m e. apply flat_pairs_in. Qed.
Lemma all_polygon_edges_sorted : forall m, StronglySorted lex_lt (all_polygon_edges m).
Proof. intros m. apply flat_pairs_sorted. Qed.
Lemma in_all_polyhedron_facets : forall m f, In f (all_polyhedron_facets m) <-> is_polyhedron_facet m f.
Proof. intros m f. apply (flat_pairs_in (nb_polyhedra m) (fun p => length (ph_facets (polyhedron m p)))). Qed.
Lemma all_polyhedron_facets_sorted : forall m, StronglySorted lex_lt (all_polyhedron_facets m).
Proof. intros m. apply (flat_pairs_sorted (fun p => length (ph_facets (polyhedron m p)))). Qed.

(** A loop that reports the elements satisfying a decidable outcome. *)
Definition ok_true {A} (f : A -> outcome bool) (x : A) : bool := match f x with Ok b => b | _ => false end.
Lemma report_loop : forall A (R : A -> A -> Prop) (dom P : A -> Prop) (f : A -> outcome bool) (msg : A -> string) l r,
  StronglySorted R l -> (forall x, In x l <-> dom x) -> (forall x, P x -> dom x) ->
  (forall x, dom x -> exists b, f x = Ok b /\ (b = true <-> P x)) ->
  exists r', foldM (fun r x => let! b := f x in Ok (if b then add_issue x (msg x) r else r)) l r = Ok r' /\
    ii_issues r' = ii_issues r ++ filter (ok_true f) l /\
    ii_messages r' = ii_messages r ++ map msg (filter (ok_true f) l) /\
    ii_description r' = ii_description r /\
    lists_exactly R P (filter (ok_true f) l) /\ anyM f l = Ok (existsb (ok_true f) l).
Proof.
  intros A R dom P f msg l r Hs Hd HP Hf.
  assert (Hg : forall x, In x l -> f x = Ok (ok_true f x)).
  { intros x Hx. apply Hd in Hx. destruct (Hf x Hx) as (b & Hb & _). unfold ok_true. rewrite Hb. reflexivity. }
  destruct (filter_loop A f msg (ok_true f) l r Hg) as (r' & H1 & H2 & H3 & H4).
  exists r'. split; [exact H1|]. split; [exact H2|]. split; [exact H3|]. split; [exact H4|]. split.
  - split; [apply StronglySorted_filter; exact Hs|]. intros x. rewrite filter_In. split.
    + intros [Hin Ht]. apply Hd in Hin. destruct (Hf x Hin) as (b & Hb & Hbp). apply Hbp. unfold ok_true in Ht. rewrite Hb in Ht. exact Ht.
    + intros Hp. assert (Hx := HP x Hp). split; [apply Hd; exact Hx|]. destruct (Hf x Hx) as (b & Hb & Hbp).
      unfold ok_true. rewrite Hb. apply Hbp. exact Hp.
  - apply anyM_pure. exact Hg.
Qed.

(** ** C09 *)
Lemma edge_wrong_spec : forall m e, edge_adjacency_in_range m -> is_polygon_edge m e ->
  exists b, edge_has_wrong_adjacency m e = Ok b /\ (b = true <-> wrong_edge m e).
Proof.
  intros m e Hr He. unfold edge_has_wrong_adjacency, is_edge_on_border, wrong_edge.
  destruct (sm_adjacent m e) as [q|] eqn:E; cbn [isSome negb].
  - unfold edge_has_right_adjacency. rewrite E. rewrite (proj2 (Nat.ltb_lt _ _) (Hr e q He E)). cbn [bind].
    eexists. split; [reflexivity|]. rewrite negb_true_iff, <- not_true_iff_false.
    assert (K : existsb (fun edge_id => Nat.eqb (polygon_vertex m (q, edge_id)) (polygon_edge_vertex1 m e) &&
             (Nat.eqb (polygon_edge_vertex1 m (q, edge_id)) (polygon_edge_vertex0 m e) &&
              opt_eqb (sm_adjacent m (q, edge_id)) (Some (fst e)))) (Range (nb_polygon_edges m q)) = true
            <-> edge_reciprocated m e q).
    { rewrite existsb_exists. unfold edge_reciprocated. split.
      - intros (e' & Hin & H). apply in_seq in Hin. rewrite !andb_true_iff, !Nat.eqb_eq, opt_eqb_eq in H.
        exists e'. split; [lia|]. unfold polygon_edge_vertex0 at 1. tauto.
      - intros (e' & Hin & H1 & H2 & H3). exists e'. split; [apply in_seq; lia|].
        rewrite !andb_true_iff, !Nat.eqb_eq, opt_eqb_eq. auto. }
    rewrite K. split.
    + intros Hn. split; [exact He|]. exists q. auto.
    + intros (_ & q' & Hq & Hn). injection Hq as <-. exact Hn.
  - exists false. split; [reflexivity|]. split; [discriminate|]. intros (_ & q & Hq & _). discriminate.
Qed.

Lemma surface_adjacency_spec : forall name m, edge_adjacency_in_range m ->
  exists r b, polygon_edges_with_wrong_adjacency name m = Ok r /\ lists_exactly lex_lt (wrong_edge m) (ii_issues r) /\
    surface_has_wrong_adjacencies m = Ok b /\ (b = true <-> ii_issues r <> []).
Proof.
  intros name m Hr. unfold polygon_edges_with_wrong_adjacency, surface_has_wrong_adjacencies.
  destruct (report_loop PolygonEdge lex_lt (is_polygon_edge m) (wrong_edge m) (edge_has_wrong_adjacency m)
     (fun e => StrCat ["edge "; str (snd e); " of polygon "; str (fst e); " has wrong adjacencies"]%string)
     (all_polygon_edges m) (new_issues (StrCat ["Surface "; name; " polygon edges adjacencies issues"]%string)))
     as (r & H1 & H2 & _ & _ & H3 & H4).
  - apply all_polygon_edges_sorted.
  - apply in_all_polygon_edges.
  - intros e H. apply H.
  - intros e He. apply edge_wrong_spec; assumption.
  - exists r. eexists. split; [exact H1|]. cbn in H2. rewrite H2. split; [exact H3|]. split; [exact H4|]. apply existsb_filter_iff.
Qed.

(** ** C10 *)
Lemma facet_wrong_spec : forall m f, solid_well_formed m -> is_polyhedron_facet m f ->
  exists b, facet_has_wrong_adjacency m f = Ok b /\ (b = true <-> wrong_facet m f).
Proof.
  intros m f (Hr & Hv) Hf. unfold facet_has_wrong_adjacency, is_facet_on_border, wrong_facet.
  destruct (so_adjacent m f) as [q|] eqn:E; cbn [isSome negb].
  - unfold facet_has_right_adjacency. rewrite E. rewrite (proj2 (Nat.ltb_lt _ _) (Hr f q Hf E)). cbn [bind].
    eexists. split; [reflexivity|]. rewrite negb_true_iff, <- not_true_iff_false.
    destruct (Hv f Hf) as [Hne Hnd].
    assert (K : existsb (fun facet_id =>
             is_opposite (polyhedron_facet_vertices m f) (polyhedron_facet_vertices m (q, facet_id)) &&
             opt_eqb (so_adjacent m (q, facet_id)) (Some (fst f))) (Range (length (ph_facets (polyhedron m q)))) = true
            <-> facet_reciprocated m f q).
    { rewrite existsb_exists. unfold facet_reciprocated. split.
      - intros (f' & Hin & H). apply in_seq in Hin. rewrite andb_true_iff, opt_eqb_eq, is_opposite_iff in H by assumption.
        exists f'. split; [lia|]. exact H.
      - intros (f' & Hin & H1 & H2). exists f'. split; [apply in_seq; lia|].
        rewrite andb_true_iff, opt_eqb_eq, is_opposite_iff by assumption. auto. }
    rewrite K. split.
    + intros Hn. split; [exact Hf|]. exists q. auto.
    + intros (_ & q' & Hq & Hn). injection Hq as <-. exact Hn.
  - exists false. split; [reflexivity|]. split; [discriminate|]. intros (_ & q & Hq & _). discriminate.
Qed.

Lemma solid_adjacency_spec : forall name m, solid_well_formed m ->
  exists r b, polyhedron_facets_with_wrong_adjacency name m = Ok r /\ lists_exactly lex_lt (wrong_facet m) (ii_issues r) /\
    solid_has_wrong_adjacencies m = Ok b /\ (b = true <-> ii_issues r <> []).
Proof.
  intros name m Hr. unfold polyhedron_facets_with_wrong_adjacency, solid_has_wrong_adjacencies.
  destruct (report_loop PolyhedronFacet lex_lt (is_polyhedron_facet m) (wrong_facet m) (facet_has_wrong_adjacency m)
     (fun f => StrCat ["facet "; str (snd f); " of polyhedron "; str (fst f); " has wrong adjacencies"]%string)
     (all_polyhedron_facets m) (new_issues (StrCat ["Solid "; name; " polyhedron facets adjacencies issues"]%string)))
     as (r & H1 & H2 & _ & _ & H3 & H4).
  - apply all_polyhedron_facets_sorted.
  - apply in_all_polyhedron_facets.
  - intros e H. apply H.
  - intros e He. apply facet_wrong_spec; assumption.
  - exists r. eexists. split; [exact H1|]. cbn in H2. rewrite H2. split; [exact H3|]. split; [exact H4|]. apply existsb_filter_iff.
Qed.

(** ** C11 *)
Lemma nonempty_negb : forall A (l : list A), negb (match l with [] => true | _ => false end) = true <-> l <> [].
Proof. intros A [|x l]; cbn; split; congruence. Qed.

Lemma border_edge_spec : forall lk m s e, lookup_right m lk -> is_polygon_edge (co_mesh s) e ->
  exists b, border_edge_is_wrong lk m s e = Ok b /\ (b = true <-> wrong_border_edge m s e).
Proof.
  intros lk m s e (Hl & _) He. unfold border_edge_is_wrong, is_edge_on_border, wrong_border_edge. cbn zeta.
  destruct (sm_adjacent (co_mesh s) e) as [q|] eqn:E; cbn [isSome negb].
  - exists false. split; [reflexivity|]. split; [discriminate|]. intros (_ & H & _). discriminate.
  - unfold polygon_edge_is_on_a_line. cbn zeta.
    destruct (m_unique_vertex m (mkCMV (mkCID SurfaceT (co_id s)) (polygon_edge_vertex0 (co_mesh s) e))) as [a|] eqn:Ea.
    2:{ cbn. exists true. split; [reflexivity|]. split; [|reflexivity]. intros _. split; [exact He|]. split; [reflexivity|].
        intros (a & b & H & _). discriminate. }
    destruct (m_unique_vertex m (mkCMV (mkCID SurfaceT (co_id s)) (polygon_edge_vertex1 (co_mesh s) e))) as [b|] eqn:Eb.
    2:{ cbn. exists true. split; [reflexivity|]. split; [|reflexivity]. intros _. split; [exact He|]. split; [reflexivity|].
        intros (a' & b' & _ & H & _). discriminate. }
    destruct (Nat.ltb a (nb_unique_vertices m) && Nat.ltb b (nb_unique_vertices m)) eqn:Eab.
    + apply andb_true_iff in Eab. destruct Eab as [La Lb]. apply Nat.ltb_lt in La. apply Nat.ltb_lt in Lb.
      destruct (Hl a b La Lb) as (l & Hlk & Hj). rewrite Hlk. cbn [bind].
      eexists. split; [reflexivity|]. rewrite negb_true_iff, <- not_true_iff_false, nonempty_negb, Hj. split.
      * intros Hn. split; [exact He|]. split; [reflexivity|]. intros (a' & b' & H1 & H2 & _ & _ & H3).
        injection H1 as <-. injection H2 as <-. contradiction.
      * intros (_ & _ & Hn) Hjo. apply Hn. exists a, b. auto.
    + cbn. exists true. split; [reflexivity|]. split; [|reflexivity]. intros _. split; [exact He|]. split; [reflexivity|].
      intros (a' & b' & H1 & H2 & H3 & H4 & _). injection H1 as <-. injection H2 as <-.
      apply andb_false_iff in Eab. destruct Eab as [K|K]; apply Nat.ltb_ge in K; lia.
Qed.

Lemma set_description_issues : forall T d (r : InspectionIssues T), ii_issues (set_description d r) = ii_issues r.
Proof. reflexivity. Qed.

Lemma surface_issues_spec : forall lk m s, lookup_right m lk -> edge_adjacency_in_range (co_mesh s) ->
  exists r l1 l2, surface_adjacency_issues lk m s = Ok r /\ ii_issues r = l1 ++ l2 /\
    lists_exactly lex_lt (wrong_edge (co_mesh s)) l1 /\ lists_exactly lex_lt (wrong_border_edge m s) l2.
Proof.
  intros lk m s Hl Hr. unfold surface_adjacency_issues.
  destruct (surface_adjacency_spec "" (co_mesh s) Hr) as (r1 & _ & H1 & H2 & _). rewrite H1. cbn [bind].
  destruct (report_loop PolygonEdge lex_lt (is_polygon_edge (co_mesh s)) (wrong_border_edge m s) (border_edge_is_wrong lk m s)
     border_edge_message (all_polygon_edges (co_mesh s))
     (set_description (StrCat ["Surface "; named m (co_name s) (co_id s); " polygon edges adjacency issues"]%string) r1))
     as (r & G1 & G2 & _ & _ & G3 & _).
  - apply all_polygon_edges_sorted.
  - apply in_all_polygon_edges.
  - intros e H. apply H.
  - intros e He. apply border_edge_spec; assumption.
  - exists r, (ii_issues r1). eexists. split; [exact G1|]. rewrite set_description_issues in G2. split; [exact G2|]. split; [exact H2|exact G3].
Qed.

Lemma NoDup_active_ids : forall M (l : list (Component M)), NoDup (map co_id l) -> NoDup (map co_id (active l)).
Proof. intros M l H. apply NoDup_map_filter. exact H. Qed.

Lemma lists_exactly_nil : forall A R (P : A -> Prop) l l', lists_exactly R P l -> lists_exactly R P l' -> l = [] -> l' = [].
Proof.
  intros A R P l l' [_ H] [_ H'] ->. destruct l' as [|x l']; [reflexivity|]. exfalso.
  apply (H x). apply H'. left. reflexivity.
Qed.

Lemma surfaces_adjacency_map : forall lk m d, unique_ids m -> lookup_right m lk ->
  (forall s, In s (m_surfaces m) -> co_active s = true ->
     edge_adjacency_in_range (co_mesh s) /\ below_2_32 (2 * length (all_polygon_edges (co_mesh s)))) ->
  exists r, add_surfaces_edges_with_wrong_adjacencies lk m (new_issues_map d) = Ok r /\
    map_reports r (surface_adjacency_report m).
Proof.
  intros lk m d Hu Hl Hs. apply unique_ids_facts in Hu. unfold add_surfaces_edges_with_wrong_adjacencies.
  apply (component_loop_reports PolygonEdge _ co_id (surface_adjacency_issues lk m)).
  - apply NoDup_active_ids, Hu.
  - intros s Hin. apply in_active in Hin. destruct Hin as [Hin Ha]. destruct (Hs s Hin Ha) as [Hr Hb].
    destruct (surface_issues_spec lk m s Hl Hr) as (r & l1 & l2 & H1 & H2 & H3 & H4).
    exists r. split; [exact H1|]. split.
    + rewrite H2, app_length.
      assert (B : forall P l, lists_exactly lex_lt P l -> (forall e, P e -> is_polygon_edge (co_mesh s) e) ->
        length l <= length (all_polygon_edges (co_mesh s))).
      { intros P l [K1 K2] K3. apply NoDup_incl_length.
        - clear -K1. induction K1 as [|a l K1 IH Ha]; constructor; [|exact IH]. rewrite Forall_forall in Ha.
          intros Hin. specialize (Ha a Hin). unfold lex_lt in Ha. lia.
        - intros e He. apply in_all_polygon_edges. apply K3, K2, He. }
      assert (B1 := B _ _ H3 (fun e He => proj1 He)). assert (B2 := B _ _ H4 (fun e He => proj1 He)).
      unfold below_2_32, PolygonEdge, PolyhedronFacet in *. lia.
    + exists s, l1, l2. auto 8.
  - intros id l (s & l1 & l2 & Hin & Ha & <- & -> & H3 & H4). exists s. split; [apply in_active; auto|].
    split; [reflexivity|]. intros r Hr Hnil. destruct (Hs s Hin Ha) as [Hra _].
    destruct (surface_issues_spec lk m s Hl Hra) as (r' & k1 & k2 & K1 & K2 & K3 & K4). rewrite Hr in K1. injection K1 as <-.
    rewrite K2 in Hnil. apply app_eq_nil in Hnil. destruct Hnil as [N1 N2].
    rewrite (lists_exactly_nil _ _ _ _ _ K3 H3 N1), (lists_exactly_nil _ _ _ _ _ K4 H4 N2). reflexivity.
Qed.

(** ** C12 *)
Lemma all_some_spec : forall A (l : list (option A)) r, all_some l = Some r <-> l = map Some r.
Proof.
  intros A l. induction l as [|o l IH]; intros r; cbn.
  - split; [intros H; injection H as <-; reflexivity|]. destruct r; [reflexivity|discriminate].
  - destruct o as [x|].
    + destruct (all_some l) as [r'|] eqn:E; cbn.
      * split.
        -- intros H. injection H as <-. cbn. f_equal. apply IH. reflexivity.
        -- destruct r as [|y r]; [discriminate|]. cbn. intros H. injection H as -> H. apply IH in H. congruence.
      * split; [discriminate|]. destruct r as [|y r]; [discriminate|]. cbn. intros H. injection H as -> H. apply IH in H. discriminate.
    + split; [discriminate|]. destruct r; discriminate.
Qed.
Lemma map_Some_inj : forall A (a b : list A), map Some a = map Some b -> a = b.
Proof.
  intros A a. induction a as [|x a IH]; intros [|y b] H; cbn in H; try discriminate; [reflexivity|].
  injection H as -> H. f_equal. apply IH. exact H.
Qed.

Lemma border_facet_spec : forall lk m b f, lookup_right m lk -> is_polyhedron_facet (co_mesh b) f ->
  exists w, border_facet_is_wrong lk m b f = Ok w /\ (w = true <-> wrong_border_facet m b f).
Proof.
  intros lk m b f (_ & Hl) Hf. unfold border_facet_is_wrong, is_facet_on_border, wrong_border_facet.
  destruct (so_adjacent (co_mesh b) f) as [q|] eqn:E; cbn [isSome negb].
  - exists false. split; [reflexivity|]. split; [discriminate|]. intros (_ & H & _). discriminate.
  - unfold polyhedron_facet_is_on_a_surface.
    destruct (all_some (map (fun v => m_unique_vertex m (mkCMV (mkCID BlockT (co_id b)) v)) (polyhedron_facet_vertices (co_mesh b) f))) as [uvs|] eqn:Eu.
    + apply all_some_spec in Eu. destruct (Hl uvs) as (l & Hlk & Hc). rewrite Hlk. cbn [bind].
      eexists. split; [reflexivity|]. rewrite negb_true_iff, <- not_true_iff_false, nonempty_negb, Hc. split.
      * intros Hn. split; [exact Hf|]. split; [reflexivity|]. exists uvs. auto.
      * intros (_ & _ & uvs' & H1 & H2). rewrite Eu in H1. apply map_Some_inj in H1. subst. exact H2.
    + cbn. exists false. split; [reflexivity|]. split; [discriminate|]. intros (_ & _ & uvs & H & _).
      apply all_some_spec in H. congruence.
Qed.

Lemma block_issues_spec : forall lk m b, lookup_right m lk -> solid_well_formed (co_mesh b) ->
  exists r l1 l2, block_adjacency_issues lk m b = Ok r /\ ii_issues r = l1 ++ l2 /\
    lists_exactly lex_lt (wrong_facet (co_mesh b)) l1 /\ lists_exactly lex_lt (wrong_border_facet m b) l2.
Proof.
  intros lk m b Hl Hr. unfold block_adjacency_issues.
  destruct (solid_adjacency_spec "" (co_mesh b) Hr) as (r1 & _ & H1 & H2 & _). rewrite H1. cbn [bind].
  destruct (report_loop PolyhedronFacet lex_lt (is_polyhedron_facet (co_mesh b)) (wrong_border_facet m b) (border_facet_is_wrong lk m b)
     border_facet_message (all_polyhedron_facets (co_mesh b))
     (set_description (StrCat ["Block "; named m (co_name b) (co_id b); " polyhedron facets adjacencies issues"]%string) r1))
     as (r & G1 & G2 & _ & _ & G3 & _).
  - apply all_polyhedron_facets_sorted.
  - apply in_all_polyhedron_facets.
  - intros e H. apply H.
  - intros e He. apply border_facet_spec; assumption.
  - exists r, (ii_issues r1). eexists. split; [exact G1|]. rewrite set_description_issues in G2. split; [exact G2|]. split; [exact H2|exact G3].
Qed.

Lemma blocks_adjacency_map : forall lk m d, unique_ids m -> lookup_right m lk ->
  (forall b, In b (m_blocks m) -> co_active b = true ->
     solid_well_formed (co_mesh b) /\ below_2_32 (2 * length (all_polyhedron_facets (co_mesh b)))) ->
  exists r, add_blocks_facets_with_wrong_adjacencies lk m (new_issues_map d) = Ok r /\
    map_reports r (block_adjacency_report m).
Proof.
  intros lk m d Hu Hl Hs. apply unique_ids_facts in Hu. unfold add_blocks_facets_with_wrong_adjacencies.
  apply (component_loop_reports PolyhedronFacet _ co_id (block_adjacency_issues lk m)).
  - apply NoDup_active_ids, Hu.
  - intros s Hin. apply in_active in Hin. destruct Hin as [Hin Ha]. destruct (Hs s Hin Ha) as [Hr Hb].
    destruct (block_issues_spec lk m s Hl Hr) as (r & l1 & l2 & H1 & H2 & H3 & H4).
    exists r. split; [exact H1|]. split.
    + rewrite H2, app_length.
      assert (B : forall P l, lists_exactly lex_lt P l -> (forall e, P e -> is_polyhedron_facet (co_mesh s) e) ->
        length l <= length (all_polyhedron_facets (co_mesh s))).
      { intros P l [K1 K2] K3. apply NoDup_incl_length.
        - clear -K1. induction K1 as [|a l K1 IH Ha]; constructor; [|exact IH]. rewrite Forall_forall in Ha.
          intros Hin. specialize (Ha a Hin). unfold lex_lt in Ha. lia.
        - intros e He. apply in_all_polyhedron_facets. apply K3, K2, He. }
      assert (B1 := B _ _ H3 (fun e He => proj1 He)). assert (B2 := B _ _ H4 (fun e He => proj1 He)).
      unfold below_2_32, PolygonEdge, PolyhedronFacet in *. lia.
    + exists s, l1, l2. auto 8.
  - intros id l (s & l1 & l2 & Hin & Ha & <- & -> & H3 & H4). exists s. split; [apply in_active; auto|].
    split; [reflexivity|]. intros r Hr Hnil. destruct (Hs s Hin Ha) as [Hra _].
    destruct (block_issues_spec lk m s Hl Hra) as (r' & k1 & k2 & K1 & K2 & K3 & K4). rewrite Hr in K1. injection K1 as <-.
    rewrite K2 in Hnil. apply app_eq_nil in Hnil. destruct Hnil as [N1 N2].
    rewrite (lists_exactly_nil _ _ _ _ _ K3 H3 N1), (lists_exactly_nil _ _ _ _ _ K4 H4 N2). reflexivity.
Qed.

(** a block none of whose vertices has a unique vertex gets no border issue *)
Lemma unlinked_block_silent : forall m b f,
  (forall v, m_unique_vertex m (mkCMV (mkCID BlockT (co_id b)) v) = None) ->
  polyhedron_facet_vertices (co_mesh b) f <> [] -> ~ wrong_border_facet m b f.
Proof.
  intros m b f Hn Hv (_ & _ & uvs & H & _). destruct (polyhedron_facet_vertices (co_mesh b) f) as [|v l]; [congruence|].
  cbn in H. rewrite Hn in H. destruct uvs; discriminate.
Qed.
