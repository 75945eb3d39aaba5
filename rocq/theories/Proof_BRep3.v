(** BRep lines: vertices on a single line, line edges, and the loop over components and their elements. *)
From Coq Require Import String Ascii List Arith NArith ZArith Bool Lia Sorted.
From Verif Require Import Base BaseFacts Model_Issues Types Model_Colocation Model_Topology Model_BRep Spec_Colocation Spec_Maps Spec_Adjacency
  Spec_Topology Spec_BRep Proof_Maps Proof_Colocation Proof_Colocation2 Proof_Colocation3 Proof_Adjacency Proof_Manifold Proof_Degeneration Proof_Topology
  Proof_Topology2 Proof_Topology3 Proof_Topology4 Proof_BRep Proof_BRep2.
Import ListNotations.
Open Scope list_scope.

Section Single.
Context (tl : TopoLookup) (m : Model) (uv : nat).
Hypothesis Hok : brep_ok m.
Hypothesis Hlo : lookup_ok tl m.
Notation cmvs := (component_mesh_vertices m uv).
Let Hu := br_ids m Hok.
Let Hl := brep_links_exist m Hok.

Lemma only_line_ok : reports_iff (brep_invalid_single_line m uv) (only_line_wrong m uv).
Proof.
  unfold brep_invalid_single_line. assert (CL := components_uuids_all m uv LineT). assert (CS := components_uuids_all m uv SurfaceT). assert (CB := components_uuids_all m uv BlockT).
  set (ls := components_uuids m uv LineT) in *. set (ss := components_uuids m uv SurfaceT) in *. set (bs := components_uuids m uv BlockT) in *. clearbody ls ss bs.
  assert (NO : forall l0, ls = l0 -> (forall l, l0 <> [l]) -> ~ only_line_wrong m uv).
  { intros l0 E H (l & ss' & bs' & HL & _). apply (all_at_single m uv LineT ls l CL) in HL. apply (H l). congruence. }
  destruct ls as [|line_id [|x ls]]; [apply reports_none; apply (NO [] eq_refl); discriminate| |apply reports_none; apply (NO _ eq_refl); discriminate].
  assert (Hat : at_vertex m uv LineT line_id) by (apply CL; left; reflexivity).
  assert (Hle : In line_id (component_ids m LineT)) by (apply (Hl uv LineT); [exact Hat|discriminate]).
  rewrite kind_is_active_ok; [|exact Hu|exact Hle]. cbn [bind].
  assert (UNIQ : forall l, all_at m uv LineT [l] -> l = line_id).
  { intros l HL. apply (all_at_single m uv LineT _ l CL) in HL. congruence. }
  destruct (activeb m LineT line_id) eqn:E; cbn [negb].
  2:{ apply reports_none. intros (l & ss' & bs' & HL & HA & _). rewrite (UNIQ l HL) in HA. apply activeb_iff in HA. congruence. }
  apply activeb_iff in E. destruct (kind_named_ok m LineT line_id Hle) as [s Hs].
  assert (SPEC : only_line_wrong m uv <-> ((exists s, in_surface m line_id s) \/ 1 <= nb_incidences m line_id) /\
    ((exists s, ss = [s] /\ ~ inside m line_id s /\ nb_embeddings m s = 0 /\ ~ bounds m line_id s) \/
     (ss = [] /\ all_blocks_have_polyhedra m /\ ~ (exists b, bs = [b] /\ inside m line_id b)) \/
     (2 <= length ss /\ exists s, In s ss /\ ~ bounds m line_id s /\ ~ inside m line_id s))).
  { split.
    - intros (l & ss' & bs' & HL & HA & HS & HB & R & K). rewrite (UNIQ l HL) in *. split; [exact R|]. destruct (all_at_length m uv _ _ _ CS HS) as [L Q]. rewrite L.
      destruct K as [(s0 & -> & K)|[(-> & K1 & K2)|(K1 & s0 & K2 & K3)]]; [left|right; left|right; right].
      + exists s0. split; [|exact K]. apply (all_at_single m uv SurfaceT ss s0 CS). exact HS.
      + split; [destruct ss; [reflexivity|discriminate]|]. split; [exact K1|]. intros (b & -> & Hi). apply K2. exists b. split; [|exact Hi]. apply (all_at_single m uv BlockT bs' b HB). exact CB.
      + split; [exact K1|]. exists s0. rewrite Q. auto.
    - intros [R K]. exists line_id, ss, bs. repeat (split; [assumption|]). exact K. }
  assert (REL : (Nat.ltb (length (embeddings_of m SurfaceT line_id)) 1 && Nat.ltb (nb_incidences m line_id) 1)%bool = false <->
     (exists s, in_surface m line_id s) \/ 1 <= nb_incidences m line_id).
  { assert (Q : length (embeddings_of m SurfaceT line_id) = 0 <-> ~ exists s, in_surface m line_id s).
    { split.
      - intros Z (s0 & K). assert (He : In (mkCID SurfaceT s0) (embeddings_of m SurfaceT line_id)) by (apply in_embeddings_of; auto).
        destruct (embeddings_of m SurfaceT line_id); [destruct He|discriminate].
      - intros K. destruct (embeddings_of m SurfaceT line_id) as [|e es] eqn:Q; [reflexivity|]. exfalso. apply K.
        assert (He : In e (embeddings_of m SurfaceT line_id)) by (rewrite Q; left; reflexivity). apply in_embeddings_of_id in He. exists (cid_id e). apply He. }
    destruct (Nat.ltb_spec (length (embeddings_of m SurfaceT line_id)) 1) as [L1|L1]; cbn [andb].
    - destruct (Nat.ltb_spec (nb_incidences m line_id) 1) as [L2|L2].
      + split; [discriminate|]. intros [K|K]; [|lia]. exfalso. apply Q in K; [destruct K|lia].
      + split; [intros _; right; exact L2|reflexivity].
    - split; [intros _; left|reflexivity]. destruct (embeddings_of m SurfaceT line_id) as [|e es] eqn:Q'; [cbn in L1; lia|].
      assert (He : In e (embeddings_of m SurfaceT line_id)) by (rewrite Q'; left; reflexivity). apply in_embeddings_of_id in He. exists (cid_id e). apply He. }
  destruct (Nat.ltb (length (embeddings_of m SurfaceT line_id)) 1 && Nat.ltb (nb_incidences m line_id) 1)%bool.
  { apply reports_none. rewrite SPEC. intros [K _]. apply REL in K. discriminate. }
  assert (R := proj1 REL eq_refl). rewrite Hs. cbn [bind]. destruct ss as [|s0 [|s1 ss]].
  - (* no surface *)
    destruct (brep_blocks_are_meshed m) eqn:F; cbn [negb].
    2:{ apply reports_none. rewrite SPEC. intros [_ [(s0 & K & _)|[(_ & K & _)|(K & _)]]]; [discriminate| |cbn in K; lia]. apply blocks_meshed_iff in K. congruence. }
    apply blocks_meshed_iff in F.
    assert (YES : ~ (exists b, bs = [b] /\ inside m line_id b) -> only_line_wrong m uv) by (intros K; apply SPEC; split; [exact R|]; right; left; auto).
    destruct bs as [|b0 [|b1 bs]].
    + apply reports_some. apply YES. intros (b & K & _). discriminate.
    + destruct (is_internal m line_id b0) eqn:I; cbn [negb].
      * apply is_internal_iff in I. apply reports_none. rewrite SPEC. intros [_ [(s0 & K & _)|[(_ & _ & K)|(K & _)]]]; [discriminate| |cbn in K; lia]. apply K. eauto.
      * apply reports_some. apply YES. intros (b & K & I'). injection K as <-. apply is_internal_iff in I'. congruence.
    + apply reports_some. apply YES. intros (b & K & _). discriminate.
  - assert (Hs0 : In s0 (component_ids m SurfaceT)) by (apply (Hl uv SurfaceT); [apply CS; left; reflexivity|discriminate]).
    destruct (kind_named_ok m SurfaceT s0 Hs0) as [s' Hs']. rewrite Hs'. cbn [bind].
    assert (W : (negb (is_internal m line_id s0) && negb (Nat.ltb 0 (nb_embeddings m s0) || is_boundary m line_id s0))%bool = true <->
       ~ inside m line_id s0 /\ nb_embeddings m s0 = 0 /\ ~ bounds m line_id s0).
    { rewrite andb_true_iff, !negb_true_iff, orb_false_iff, not_inside, not_bounds, Nat.ltb_ge. intuition lia. }
    destruct (negb (is_internal m line_id s0) && negb (Nat.ltb 0 (nb_embeddings m s0) || is_boundary m line_id s0))%bool.
    + apply reports_some. apply SPEC. split; [exact R|]. left. exists s0. split; [reflexivity|apply W; reflexivity].
    + apply reports_none. rewrite SPEC. intros [_ [(x & K1 & K2)|[(K & _)|(K & _)]]]; [|discriminate|cbn in K; lia]. injection K1 as <-. apply W in K2. discriminate.
  - eapply reports_ext; [apply (first_some_reports _ _ (fun x => ~ bounds m line_id x /\ ~ inside m line_id x))|].
    + intros x Hx. assert (Hsx : In x (component_ids m SurfaceT)) by (apply (Hl uv SurfaceT); [apply CS; exact Hx|discriminate]).
      destruct (find_component_exists _ (m_surfaces m) x Hsx) as [sx Esx]. unfold get_surface. rewrite Esx. cbn [or_throw bind].
      destruct (kind_named_ok m SurfaceT x Hsx) as [s' Hs']. rewrite Hs'. cbn [bind].
      destruct (is_boundary m line_id x) eqn:B; cbn [negb andb]; [apply reports_none; apply is_boundary_iff in B; tauto|]. apply not_bounds in B.
      destruct (is_internal m line_id x) eqn:I; cbn [negb]; [apply reports_none; apply is_internal_iff in I; tauto|]. apply not_inside in I. apply reports_some. tauto.
    + rewrite SPEC. split.
      * intros K. split; [exact R|]. right. right. split; [cbn; lia|exact K].
      * intros [_ [(x & K & _)|[(K & _)|(_ & K)]]]; [discriminate|discriminate|exact K].
Qed.

(** ** Edges of a line *)
Lemma line_edge_ok : forall c e a b, In c (m_lines m) -> edge_joins m c e a b ->
  reports_iff (line_edge_has_wrong_component_edges_around tl m c e) (edge_wrong m (co_id c) (tl_edges tl a b)).
Proof.
  intros c e a b Hc J. unfold line_edge_has_wrong_component_edges_around. rewrite (component_mesh_edges_ok tl m c e a b J). cbn [bind].
  assert (Hle : In (co_id c) (component_ids m LineT)) by (cbn; apply in_map; exact Hc).
  set (E := tl_edges tl a b).
  assert (EX : forall s0, In s0 (map fst (me_surfaces E)) -> In s0 (component_ids m SurfaceT)) by apply (lo_surfaces_exist tl m Hlo).
  assert (EXB : forall s0, In s0 (map fst (me_blocks E)) -> In s0 (component_ids m BlockT)) by apply (lo_blocks_exist tl m Hlo).
  clearbody E. set (l := co_id c) in *.
  match goal with |- reports_iff (bind (first_some ?f _) _) _ => set (f1 := f) end.
  destruct (first_some_reports _ f1 (fun p => In (fst p) (active_ids m SurfaceT) /\ ((bounds m l (fst p) /\ snd p <> 1) \/
     (~ bounds m l (fst p) /\ inside m l (fst p) /\ snd p <> 2) \/ (~ bounds m l (fst p) /\ ~ inside m l (fst p)))) (me_surfaces E)) as (r1 & Hr1 & Hp1).
  { intros p Hp. unfold f1. assert (Hs1 : In (fst p) (component_ids m SurfaceT)) by (apply EX, in_map, Hp).
    destruct (kind_active_case m Hok SurfaceT _ Hs1) as (b1 & Hb1 & Hb2). rewrite Hb1. cbn [bind].
    destruct (kind_named_ok m SurfaceT _ Hs1) as [s1 Hn1]. rewrite Hn1. cbn [bind].
    destruct b1; cbn [negb]; [|apply reports_none; intros [K _]; apply Hb2 in K; discriminate]. assert (A := proj1 Hb2 eq_refl).
    destruct (is_boundary m l (fst p)) eqn:B.
    - apply is_boundary_iff in B. destruct (Nat.eqb_spec (snd p) 1) as [Q|Q]; cbn [negb]; [apply reports_none; tauto|apply reports_some; tauto].
    - apply not_bounds in B. destruct (is_internal m l (fst p)) eqn:I.
      + apply is_internal_iff in I. destruct (Nat.eqb_spec (snd p) 2) as [Q|Q]; cbn [negb]; [apply reports_none; tauto|apply reports_some; tauto].
      + apply not_inside in I. apply reports_some. tauto. }
  rewrite Hr1. cbn [bind]. destruct r1 as [x|].
  { destruct (proj1 Hp1 ltac:(discriminate)) as ([s0 n] & Hin & A & W). apply reports_some. left. exists s0, n. auto. }
  set (f2 := fun (text : string) (s : ComponentID) =>
      let! a := kind_is_active m SurfaceT (cid_id s) in
      let! n' := kind_named m SurfaceT (cid_id s) in
      if (a && negb (contains (me_surfaces E) (cid_id s)))%bool then
        Ok (Some (StrCat ["Line "; named m (co_name c) l; text; n'; " but edge "; str e; " has no common edge with the surface"]%string))
      else Ok None).
  assert (MISS : forall text e0, In (cid_id e0) (component_ids m SurfaceT) ->
     reports_iff (f2 text e0) (In (cid_id e0) (active_ids m SurfaceT) /\ ~ In (cid_id e0) (map fst (me_surfaces E)))).
  { intros text e0 Hs1. unfold f2. destruct (kind_active_case m Hok SurfaceT _ Hs1) as (b1 & Hb1 & Hb2). rewrite Hb1. cbn [bind].
    destruct (kind_named_ok m SurfaceT _ Hs1) as [s1 Hn1]. rewrite Hn1. cbn [bind]. pose proof (contains_iff (me_surfaces E) (cid_id e0)) as CI.
    destruct b1; cbn [andb]; [|apply reports_none; intros [K _]; apply Hb2 in K; discriminate]. assert (A := proj1 Hb2 eq_refl).
    destruct (contains (me_surfaces E) (cid_id e0)); cbn [negb]; [apply reports_none; intros [_ K]; apply K, CI; reflexivity|].
    apply reports_some. split; [exact A|]. intros K. apply CI in K. discriminate. }
  destruct (first_some_reports _ (f2 " is embedded in Surface "%string) (fun e0 => In (cid_id e0) (active_ids m SurfaceT) /\ ~ In (cid_id e0) (map fst (me_surfaces E)))
    (embeddings_of m SurfaceT l)) as (r2 & Hr2 & Hp2).
  { intros e0 He. apply MISS. apply in_embeddings_of in He. destruct He as [He T]. destruct (embedding_exists m Hok l e0 Hle He) as [_ Hs1]. rewrite T in Hs1. exact Hs1. }
  unfold f2 in Hr2. rewrite Hr2. cbn [bind]. destruct r2 as [x|].
  { destruct (proj1 Hp2 ltac:(discriminate)) as (e0 & He & A & W). apply in_embeddings_of_id in He. apply reports_some. right. left. exists (cid_id e0).
    split; [exact A|]. split; [left; apply He|exact W]. }
  destruct (first_some_reports _ (f2 " is incident to Surface "%string) (fun e0 => In (cid_id e0) (active_ids m SurfaceT) /\ ~ In (cid_id e0) (map fst (me_surfaces E)))
    (incidences m l)) as (r3 & Hr3 & Hp3).
  { intros e0 He. apply MISS. apply (br_line_incidences m Hok l e0 Hle He). }
  unfold f2 in Hr3. rewrite Hr3. cbn [bind]. destruct r3 as [x|].
  { destruct (proj1 Hp3 ltac:(discriminate)) as (e0 & He & A & W). apply reports_some. right. left. exists (cid_id e0).
    split; [exact A|]. split; [right; apply in_incidences; eauto|exact W]. }
  clear MISS f1 f2 Hr1 Hr2 Hr3.
  match goal with |- reports_iff (bind (first_some ?f _) _) _ => set (f4 := f) end.
  destruct (first_some_reports _ f4 (fun p => In (fst p) (active_ids m BlockT) /\ inside m l (fst p) /\ snd p <> 1) (me_blocks E)) as (r4 & Hr4 & Hp4).
  { intros p Hp. unfold f4. assert (Hs1 : In (fst p) (component_ids m BlockT)) by (apply EXB, in_map, Hp).
    destruct (kind_active_case m Hok BlockT _ Hs1) as (b1 & Hb1 & Hb2). rewrite Hb1. cbn [bind].
    destruct (kind_named_ok m BlockT _ Hs1) as [s1 Hn1]. rewrite Hn1. cbn [bind].
    destruct b1; cbn [andb]; [|apply reports_none; intros [K _]; apply Hb2 in K; discriminate]. assert (A := proj1 Hb2 eq_refl).
    destruct (is_internal m l (fst p)) eqn:I; cbn [andb].
    - apply is_internal_iff in I. destruct (Nat.eqb_spec (snd p) 1) as [Q|Q]; cbn [negb]; [apply reports_none; tauto|apply reports_some; tauto].
    - apply not_inside in I. apply reports_none. tauto. }
  rewrite Hr4. cbn [bind]. destruct r4 as [x|].
  { destruct (proj1 Hp4 ltac:(discriminate)) as ([b0 n] & Hin & A & W). apply reports_some. right. right. left. exists b0, n. tauto. }
  eapply reports_ext; [apply (first_some_reports _ _ (fun e0 => exists bl, In bl (m_blocks m) /\ co_id bl = cid_id e0 /\ co_active bl = true /\ so_polyhedra (co_mesh bl) <> [] /\
     ~ In (cid_id e0) (map fst (me_blocks E))))|].
  - intros e0 He. apply in_embeddings_of in He. destruct He as [He T]. destruct (embedding_exists m Hok l e0 Hle He) as [_ Hs1]. rewrite T in Hs1.
    destruct (find_component_exists _ (m_blocks m) _ Hs1) as [bl Ebl]. unfold get_block. rewrite Ebl. cbn [or_throw bind]. assert (Hbl := find_component_Some _ _ _ _ Ebl).
    destruct Hbl as [Hbl Hid].
    assert (UN : forall bl', In bl' (m_blocks m) -> co_id bl' = cid_id e0 -> bl' = bl).
    { intros bl' H1 H2. assert (K1 := get_block_In m bl' Hu H1). unfold get_block in K1. rewrite H2, Ebl in K1. cbn in K1. congruence. }
    destruct (co_active bl) eqn:A; cbn [negb orb].
    + destruct (Nat.eqb_spec (nb_polyhedra (co_mesh bl)) 0) as [Z|Z].
      * apply reports_none. intros (bl' & H1 & H2 & _ & H4 & _). rewrite (UN bl' H1 H2) in H4. apply H4. unfold nb_polyhedra in Z. destruct (so_polyhedra (co_mesh bl)); [reflexivity|discriminate].
      * destruct (contains (me_blocks E) (cid_id e0)) eqn:C; cbn [negb].
        -- apply reports_none. apply contains_iff in C. intros (bl' & _ & _ & _ & _ & K). contradiction.
        -- apply reports_some. exists bl. split; [exact Hbl|]. split; [exact Hid|]. split; [exact A|]. split.
           ++ intros K. apply Z. unfold nb_polyhedra. rewrite K. reflexivity.
           ++ intros K. apply contains_iff in K. congruence.
    + apply reports_none. intros (bl' & H1 & H2 & H3 & _). rewrite (UN bl' H1 H2) in H3. congruence.
  - split.
    + intros (e0 & He & bl & H1 & H2 & H3 & H4 & H5). right. right. right. exists bl. apply in_embeddings_of_id in He. rewrite H2.
      split; [exact H1|]. split; [exact H3|]. split; [exact H4|]. split; [apply He|exact H5].
    + intros [(s0 & n & Hin & A & W)|[(s0 & A & W & Hin)|[(b0 & n & Hin & A & I & Q)|(bl & H1 & H3 & H4 & H5 & H6)]]].
      * exfalso. destruct Hp1 as [_ K]. apply K; [|reflexivity]. exists (s0, n). auto.
      * exfalso. destruct W as [W|W].
        -- destruct Hp2 as [_ K]. apply K; [|reflexivity]. exists (mkCID SurfaceT s0). split; [apply in_embeddings_of; auto|auto].
        -- destruct Hp3 as [_ K]. apply in_incidences in W. destruct W as (e0 & He & <-). apply K; [|reflexivity]. exists e0. auto.
      * exfalso. destruct Hp4 as [_ K]. apply K; [|reflexivity]. exists (b0, n). auto.
      * exists (mkCID BlockT (co_id bl)). split; [apply in_embeddings_of; auto|]. exists bl. auto.
Qed.
End Single.
