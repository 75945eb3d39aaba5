(** The loop over components and their elements; corner and line inspections of a BRep. *)
From Coq Require Import String Ascii List Arith NArith ZArith Bool Lia Sorted.
From Verif Require Import Base BaseFacts Model_Issues Types Model_Colocation Model_Topology Model_BRep Spec_Colocation Spec_Maps Spec_Adjacency
  Spec_Topology Spec_BRep Proof_Maps Proof_Colocation Proof_Colocation2 Proof_Colocation3 Proof_Adjacency Proof_Manifold Proof_Degeneration Proof_Topology
  Proof_Topology2 Proof_Topology3 Proof_Topology4 Proof_BRep Proof_BRep2 Proof_BRep3.
Import ListNotations.
Open Scope list_scope.

Lemma messages_loop : forall (P : nat -> Prop) (f : nat -> outcome (option string)) n (r : InspectionIssues nat),
  (forall e, e < n -> reports_iff (f e) (P e)) ->
  exists r', foldM (fun w e => let! p := f e in Ok (match p with Some message => add_issue e message w | None => w end)) (Range n) r = Ok r' /\
    exists new, ii_issues r' = ii_issues r ++ new /\ length new <= n /\ lists_exactly lt (fun e => e < n /\ P e) new.
Proof.
  intros P f n r H. set (hit := fun e => match f e with Ok (Some _) => true | _ => false end).
  assert (G : forall l r, (forall e, In e l -> e < n) -> exists r', foldM (fun w e => let! p := f e in Ok (match p with Some message => add_issue e message w | None => w end)) l r = Ok r' /\
    ii_issues r' = ii_issues r ++ filter hit l).
  { induction l as [|e l IH]; intros r0 Hl; cbn [foldM filter]; [exists r0; split; [reflexivity|rewrite app_nil_r; reflexivity]|].
    destruct (H e (Hl e (or_introl eq_refl))) as (o & Ho & _). unfold hit at 1. rewrite Ho. cbn [bind].
    destruct (IH (match o with Some message => add_issue e message r0 | None => r0 end)) as (r' & E1 & E2); [intros x Hx; apply Hl; right; exact Hx|].
    exists r'. split; [exact E1|]. rewrite E2. destruct o; cbn; [rewrite <- app_assoc; reflexivity|reflexivity]. }
  destruct (G (Range n) r) as (r' & E1 & E2); [intros e; apply in_Range|]. exists r'. split; [exact E1|]. exists (filter hit (Range n)). split; [exact E2|]. split.
  - apply filter_length_Range.
  - split; [apply StronglySorted_filter, StronglySorted_seq|]. intros e. rewrite filter_In, in_Range. split.
    + intros [Hn K]. split; [exact Hn|]. destruct (H e Hn) as (o & Ho & Hp). unfold hit in K. rewrite Ho in K. apply Hp. destruct o; [discriminate|discriminate].
    + intros [Hn K]. split; [exact Hn|]. destruct (H e Hn) as (o & Ho & Hp). unfold hit. rewrite Ho. destruct o; [reflexivity|]. exfalso. apply Hp in K. congruence.
Qed.

Lemma inspect_elements_spec : forall M (get : Model -> uuid -> outcome (Component M)) kind t (meshed : M -> bool) (Meshed : M -> Prop)
  nb_vertices nb_elements (enabled : bool) check (wrong : Component M -> nat -> Prop) m l d1 d2 d3,
  NoDup (map co_id l) -> (forall c, In c l -> get m (co_id c) = Ok c) -> (forall x, meshed x = true <-> Meshed x) ->
  (forall c, In c l -> below_2_32 (nb_vertices (co_mesh c)) /\ below_2_32 (nb_elements (co_mesh c))) ->
  (enabled = true -> forall c, In c l -> co_active c = true -> (forall v, ~ unlinked m t (co_id c) (nb_vertices (co_mesh c)) v) ->
     forall e, e < nb_elements (co_mesh c) -> reports_iff (check c e) (wrong c e)) ->
  exists r, inspect_elements get kind t meshed nb_vertices nb_elements enabled check m l d1 d2 d3 = Ok r /\
    components_reported t Meshed nb_vertices false m l (ei_not_meshed r) (ei_not_linked r) /\
    elements_reported t nb_vertices nb_elements (fun c e => enabled = true /\ wrong c e) m l (ei_wrong r).
Proof.
  intros M get kind t meshed Meshed nb_vertices nb_elements enabled check wrong m l d1 d2 d3 Hn Hget Hm Hb Hw. unfold inspect_elements.
  set (na := fun c : Component M => vertices_not_associated m (mkCID t (co_id c)) (nb_vertices (co_mesh c))).
  set (body := fun c : Component M => if (negb (N.eqb (nb_issues (na c)) 0) || negb enabled)%bool then Ok (new_issues ""%string) else
     foldM (fun w e => let! p := check c e in Ok (match p with Some message => add_issue e message w | None => w end))
      (Range (nb_elements (co_mesh c))) (new_issues (StrCat [kind; named m (co_name c) (co_id c)]))).
  assert (NA : forall c, In c l -> nb_issues (na c) = 0%N -> forall v, ~ unlinked m t (co_id c) (nb_vertices (co_mesh c)) v).
  { intros c Hc Z v Hv. destruct (vertices_not_associated_spec m t (co_id c) (nb_vertices (co_mesh c))) as [_ K]. apply K in Hv.
    unfold nb_issues in Z. apply size32_zero_small in Z.
    - unfold na in Z. rewrite Z in Hv. destruct Hv.
    - destruct (Hb c Hc) as [B _]. unfold below_2_32 in B. pose proof (vertices_not_associated_length m (mkCID t (co_id c)) (nb_vertices (co_mesh c))). unfold na. lia. }
  assert (NA' : forall c, In c l -> (forall v, ~ unlinked m t (co_id c) (nb_vertices (co_mesh c)) v) -> nb_issues (na c) = 0%N).
  { intros c Hc K. destruct (vertices_not_associated_spec m t (co_id c) (nb_vertices (co_mesh c))) as [_ Q]. unfold nb_issues, na.
    destruct (ii_issues (vertices_not_associated m (mkCID t (co_id c)) (nb_vertices (co_mesh c)))) as [|v vs]; [reflexivity|]. exfalso. apply (K v), Q. left. reflexivity. }
  assert (BODY : forall c, In c (active l) -> exists r, body c = Ok r /\ length (ii_issues r) <= nb_elements (co_mesh c) /\
    lists_exactly lt (fun e => e < nb_elements (co_mesh c) /\ (nb_issues (na c) = 0%N /\ enabled = true /\ wrong c e)) (ii_issues r)).
  { intros c Hc. apply filter_In in Hc. destruct Hc as [Hc Ha]. unfold body. destruct (negb (N.eqb (nb_issues (na c)) 0) || negb enabled)%bool eqn:E.
    - eexists. split; [reflexivity|]. cbn. split; [lia|]. split; [constructor|]. intros e. split; [intros []|]. intros (_ & Z & En & _). rewrite Z, En in E. discriminate.
    - apply orb_false_iff in E. destruct E as [E1 E2]. apply negb_false_iff in E1, E2. apply N.eqb_eq in E1.
      destruct (messages_loop (wrong c) (check c) (nb_elements (co_mesh c)) (new_issues (StrCat [kind; named m (co_name c) (co_id c)]))) as (r & R1 & new & R2 & R3 & R4).
      + intros e He. apply (Hw E2 c Hc Ha); [apply NA; assumption|exact He].
      + exists r. split; [exact R1|]. rewrite R2. cbn. split; [exact R3|]. destruct R4 as [S1 S2]. split; [exact S1|]. intros e. rewrite S2. rewrite E1, E2. tauto. }
  assert (G : forall comps (nm : InspectionIssues uuid) nl w, (forall c, In c comps -> In c (active l)) ->
    foldM (inspect_elements_of get kind t meshed nb_vertices nb_elements enabled check m) comps (mkElements nm nl w) =
    let! p := foldM (inspect_component get kind " is not meshed" t meshed nb_vertices false m) comps (nm, nl) in
    let! w' := foldM (fun acc c => let! r := body c in Ok (add_issues_to_map (co_id c) r acc)) comps w in
    Ok (mkElements (fst p) (snd p) w')).
  { induction comps as [|c comps IH]; intros nm nl w Hin; cbn [foldM]; [reflexivity|].
    assert (Hc : In c l) by (assert (K := Hin c (or_introl eq_refl)); apply filter_In in K; tauto).
    assert (Hin' : forall c, In c comps -> In c (active l)) by (intros d Hd; apply Hin; right; exact Hd).
    destruct (BODY c (Hin c (or_introl eq_refl))) as (r & Hr & _). unfold inspect_component at 1, inspect_elements_of at 1. rewrite (Hget c Hc). cbn [bind fst snd andb ei_not_meshed ei_not_linked ei_wrong].
    fold (na c). rewrite Hr. cbn [bind]. unfold body in Hr. destruct (N.eqb (nb_issues (na c)) 0); cbn [negb orb bind] in *.
    - destruct enabled; cbn [negb bind] in *.
      + rewrite Hr. cbn [bind]. rewrite IH by exact Hin'. assert (Q : (if negb (N.eqb (nb_issues r) 0) then add_issues_to_map (co_id c) r w else w) = add_issues_to_map (co_id c) r w).
        { rewrite <- (add_issues_guard nat (co_id c) r r w eq_refl) at 2. destruct (N.eqb (nb_issues r) 0); reflexivity. }
        rewrite Q. reflexivity.
      + injection Hr as <-. rewrite IH by exact Hin'. reflexivity.
    - injection Hr as <-. rewrite IH by exact Hin'. reflexivity. }
  destruct (component_loop_reports nat (Component M) co_id body (active l) d3
     (fun id es => exists c, In c l /\ co_active c = true /\ co_id c = id /\
        lists_exactly lt (fun e => e < nb_elements (co_mesh c) /\ (nb_issues (na c) = 0%N /\ enabled = true /\ wrong c e)) es)) as (w & H1 & H2).
  - apply NoDup_active_ids. exact Hn.
  - intros c Hc. destruct (BODY c Hc) as (r & Hr & R1 & R2). exists r. split; [exact Hr|]. apply filter_In in Hc. split.
    + unfold below_2_32. destruct (Hb c (proj1 Hc)) as [_ B]. unfold below_2_32 in B. lia.
    + exists c. tauto.
  - intros id es (c & Hc & Ha & Hid & Hes). exists c. split; [apply filter_In; auto|]. split; [exact Hid|]. intros r Hr Hnil.
    destruct (BODY c) as (r' & Hr' & _ & R2); [apply filter_In; auto|]. rewrite Hr in Hr'. injection Hr' as <-. eapply lists_exactly_nil; [exact R2|exact Hes|exact Hnil].
  - destruct (inspect_components_spec M get kind " is not meshed" t meshed Meshed nb_vertices false m l d1 d2 Hn Hget Hm) as (nm & nl & E & C).
    { intros c Hc. apply Hb, Hc. }
    unfold inspect_components in E. rewrite G by auto. rewrite E. cbn [bind fst snd]. rewrite H1. cbn [bind]. eexists. split; [reflexivity|].
    cbn [ei_not_meshed ei_not_linked ei_wrong]. split; [exact C|].
    assert (Q : forall id (es : list nat), es <> [] -> ((exists c, In c l /\ co_active c = true /\ co_id c = id /\
        lists_exactly lt (fun e => e < nb_elements (co_mesh c) /\ (nb_issues (na c) = 0%N /\ enabled = true /\ wrong c e)) es) <->
        (exists c, In c l /\ co_active c = true /\ co_id c = id /\ (forall v, ~ unlinked m t id (nb_vertices (co_mesh c)) v) /\
           lists_exactly lt (fun e => e < nb_elements (co_mesh c) /\ (enabled = true /\ wrong c e)) es))).
    { intros id es Hne. split; intros (c & Hc & Ha & Hid & K); exists c; (split; [exact Hc|split; [exact Ha|split; [exact Hid|]]]).
      - destruct es as [|e0 es0]; [congruence|]. assert (Z : nb_issues (na c) = 0%N) by (destruct K as [_ K]; apply (K e0); left; reflexivity).
        split; [subst id; apply NA; assumption|]. destruct K as [K1 K2]. split; [exact K1|]. intros e. rewrite K2. tauto.
      - destruct K as [Hv [K1 K2]]. subst id. assert (Z := NA' c Hc Hv). split; [exact K1|]. intros e. rewrite K2. tauto. }
    destruct H2 as [S1 S2 S3]. constructor.
    + intros id r Hr. destruct (S1 id r Hr) as [Hne Hs]. split; [exact Hne|]. apply Q; assumption.
    + intros id vs Hs Hne. apply (S2 id vs); [|exact Hne]. apply Q; assumption.
    + exact S3.
Qed.

Lemma brep_bound_at : forall m uv, brep_ok m -> below_2_32 (length (component_mesh_vertices m uv)).
Proof.
  intros m uv H. unfold component_mesh_vertices. destruct (nth_in_or_default uv (m_cmvs m) []) as [K|K].
  - assert (B := br_bound m H _ K). unfold below_2_32 in *. lia.
  - rewrite K. unfold below_2_32. cbn. lia.
Qed.
Lemma brep_corners_spec : forall m, brep_ok m -> exists r, brep_inspect_corners_topology m = Ok r /\
  components_reported CornerT has_points nb_points0 true m (m_corners m) (ct_not_meshed r) (ct_not_linked r) /\
  lists_vertices m (several_corners m) (ii_issues (ct_multiple_corners r)) /\
  lists_vertices m (corner_in_block_and_elsewhere m) (ii_issues (ct_multiple_embeddings r)) /\
  lists_vertices m (corner_without_relation m) (ii_issues (ct_not_internal_nor_boundary r)) /\
  lists_vertices m (corner_unrelated_to_line m) (ii_issues (ct_not_boundary_line r)).
Proof.
  intros m H. assert (Hu := br_ids m H). assert (Hl := brep_links_exist m H). unfold brep_inspect_corners_topology.
  destruct (inspect_components_spec PointSet get_corner "Corner " " is not meshed." CornerT corner_is_meshed has_points (fun p => length (ps_points p)) true m
    (m_corners m) corners_not_meshed_d corners_not_linked_d) as (nm & nl & E & C).
  - apply (unique_ids_facts m Hu).
  - intros c Hc. apply get_corner_In; assumption.
  - apply corner_meshed_iff.
  - apply (br_corner_bound m H).
  - rewrite E. cbn [bind].
    destruct (report_vertices_spec m [unique_vertex_has_multiple_corners m; corner_is_multiply_embedded m;
               corner_is_not_internal_nor_boundary m; brep_corner_is_part_of_line_but_not_boundary m]
       [several_corners m; corner_in_block_and_elsewhere m; corner_without_relation m; corner_unrelated_to_line m] brep_corners_ds) as (rs & E' & F).
    + repeat constructor; intros uv _; [apply multiple_corners_ok|apply multiply_embedded_ok|apply not_internal_ok|apply unrelated_line_ok]; try assumption.
      * apply (br_embeddings m H).
      * apply brep_bound_at, H.
    + reflexivity.
    + rewrite E'. cbn [bind]. inversion F as [|r1 P1 l1 q1 F1 G1]; subst. inversion G1 as [|r2 P2 l2 q2 F2 G2]; subst. inversion G2 as [|r3 P3 l3 q3 F3 G3]; subst.
      inversion G3 as [|r4 P4 l4 q4 F4 G4]; subst. inversion G4; subst. eexists. split; [reflexivity|]. cbn [fst snd ct_not_meshed ct_not_linked
        ct_multiple_corners ct_multiple_embeddings ct_not_internal_nor_boundary ct_not_boundary_line]. auto 8.
Qed.
Lemma brep_corner_valid : forall m uv, brep_ok m -> decides (brep_corner_topology_is_valid m uv)
  (~ several_corners m uv /\ ~ corner_in_block_and_elsewhere m uv /\ ~ corner_without_relation m uv /\ ~ corner_unrelated_to_line m uv /\
   ~ embedded_corner_bounding_several m uv).
Proof.
  intros m uv H. apply brep_corner_valid_ok; [apply (br_ids m H)|apply brep_links_exist, H|apply (br_embeddings m H)|apply brep_bound_at, H].
Qed.

(** ** Lines *)
Lemma linked_edge : forall m c e, brep_ok m -> In c (m_lines m) -> (forall v, ~ unlinked m LineT (co_id c) (nb_points1 (co_mesh c)) v) ->
  e < length (ec_edges (co_mesh c)) -> exists a b, edge_joins m c e a b.
Proof.
  intros m c e H Hc Hv He. destruct (nth_error (ec_edges (co_mesh c)) e) as [[v0 v1]|] eqn:E; [|apply nth_error_None in E; lia].
  destruct (br_edges m H c v0 v1 Hc (nth_error_In _ _ E)) as [B0 B1].
  destruct (m_unique_vertex m (mkCMV (mkCID LineT (co_id c)) v0)) as [a|] eqn:A; [|exfalso; apply (Hv v0); split; assumption].
  destruct (m_unique_vertex m (mkCMV (mkCID LineT (co_id c)) v1)) as [b|] eqn:B; [|exfalso; apply (Hv v1); split; assumption].
  exists a, b, v0, v1. auto.
Qed.
Lemma line_elements_spec : forall tl m, brep_ok m -> lookup_ok tl m -> exists r,
  inspect_elements get_line "Line " LineT line_is_meshed (fun p => List.length (ec_points p))
               (fun p => List.length (ec_edges p)) true (line_edge_has_wrong_component_edges_around tl m) m (m_lines m)
               lines_not_meshed_d lines_not_linked_d line_edges_d = Ok r /\
  components_reported LineT has_points_and_edges nb_points1 false m (m_lines m) (ei_not_meshed r) (ei_not_linked r) /\
  elements_reported LineT nb_points1 (fun p => length (ec_edges p)) (line_edge_wrong tl m) m (m_lines m) (ei_wrong r).
Proof.
  intros tl m H Hlo. assert (Hu := br_ids m H).
  destruct (inspect_elements_spec EdgedCurve get_line "Line " LineT line_is_meshed has_points_and_edges (fun p => List.length (ec_points p))
               (fun p => List.length (ec_edges p)) true (line_edge_has_wrong_component_edges_around tl m) (line_edge_wrong tl m) m (m_lines m)
               lines_not_meshed_d lines_not_linked_d line_edges_d) as (r & E & C & W).
  - apply (unique_ids_facts m Hu).
  - intros c Hc. apply get_line_In; assumption.
  - apply line_meshed_iff.
  - apply (br_line_bound m H).
  - intros _ c Hc Ha Hv e He. destruct (linked_edge m c e H Hc Hv He) as (a & b & J). eapply reports_ext; [apply (line_edge_ok tl m H Hlo c e a b Hc J)|].
    unfold line_edge_wrong. split; [intros K; eauto|]. intros (a' & b' & J' & K). destruct (edge_joins_fun _ _ _ _ _ _ _ J J') as [-> ->]. exact K.
  - exists r. split; [exact E|]. split; [exact C|]. destruct W as [S1 S2 S3].
    assert (Q : forall id (es : list nat), (exists c, In c (m_lines m) /\ co_active c = true /\ co_id c = id /\
        (forall v, ~ unlinked m LineT id (nb_points1 (co_mesh c)) v) /\ lists_exactly lt (fun e => e < length (ec_edges (co_mesh c)) /\ line_edge_wrong tl m c e) es) <->
       (exists c, In c (m_lines m) /\ co_active c = true /\ co_id c = id /\
        (forall v, ~ unlinked m LineT id (length (ec_points (co_mesh c))) v) /\ lists_exactly lt (fun e => e < length (ec_edges (co_mesh c)) /\ true = true /\ line_edge_wrong tl m c e) es)).
    { intros id es. split; intros (c & H1 & H2 & H3 & H4 & [K1 K2]); exists c; (split; [exact H1|split; [exact H2|split; [exact H3|split; [exact H4|split; [exact K1|]]]]]);
        intros e; rewrite K2; tauto. }
    constructor; [intros id r0 Hr; destruct (S1 id r0 Hr) as [N K]; split; [exact N|apply Q; exact K]|intros id vs Hs; apply S2, Q, Hs|exact S3].
Qed.
Lemma brep_lines_spec : forall tl m, brep_ok m -> lookup_ok tl m -> lines_inspectable m ->
  exists r, brep_inspect_lines_topology tl m = Ok r /\
  components_reported LineT has_points_and_edges nb_points1 false m (m_lines m) (bl_not_meshed r) (bl_not_linked r) /\
  elements_reported LineT nb_points1 (fun p => length (ec_edges p)) (line_edge_wrong tl m) m (m_lines m) (bl_wrong_edges r) /\
  lists_vertices m (line_embedding_wrong m) (ii_issues (bl_invalid_embeddings r)) /\
  lists_vertices m (line_relationship_wrong tl m) (ii_issues (bl_wrong_relationship r)) /\
  lists_vertices m (only_line_wrong m) (ii_issues (bl_single_invalid r)) /\
  lists_vertices m (lines_without_corner m) (ii_issues (bl_several_not_corner r)).
Proof.
  intros tl m H Hlo Hins. assert (Hu := br_ids m H). assert (Hl := brep_links_exist m H). unfold brep_inspect_lines_topology.
  destruct (line_elements_spec tl m H Hlo) as (cs & E & C & W). rewrite E. cbn [bind].
  destruct (report_vertices_spec m [brep_invalid_embedded_line m; brep_line_wrong_relationships tl m; brep_invalid_single_line m; brep_lines_but_not_corner m]
    [line_embedding_wrong m; line_relationship_wrong tl m; only_line_wrong m; lines_without_corner m] brep_lines_ds) as (rs & E' & F).
  - repeat constructor; intros uv Huv.
    + apply embedded_lines_ok; [exact H|apply Hins, Huv].
    + apply wrong_relationships_ok; [exact H|exact Hlo|apply Hins, Huv].
    + apply only_line_ok; exact H.
    + apply lines_corner_ok; [exact Hu|exact Hl|apply brep_bound_at, H].
  - reflexivity.
  - rewrite E'. cbn [bind]. inversion F as [|r1 P1 l1 q1 F1 G1]; subst. inversion G1 as [|r2 P2 l2 q2 F2 G2]; subst. inversion G2 as [|r3 P3 l3 q3 F3 G3]; subst.
    inversion G3 as [|r4 P4 l4 q4 F4 G4]; subst. inversion G4; subst. eexists. split; [reflexivity|]. cbn. auto 8.
Qed.
Lemma brep_lines_valid : forall tl m uv, brep_ok m -> lookup_ok tl m -> ~ block_embedding_wrong m uv -> first_edges_linked m uv ->
  decides (brep_lines_topology_is_valid tl m uv)
    (~ line_embedding_wrong m uv /\ ~ only_line_wrong m uv /\ ~ line_relationship_wrong tl m uv /\ ~ lines_without_corner m uv).
Proof.
  intros tl m uv H Hlo HB HF. assert (Hu := br_ids m H). assert (Hl := brep_links_exist m H). unfold brep_lines_topology_is_valid.
  destruct (any_active_ok m uv Hu Hl LineT ltac:(discriminate)) as (b & Hb' & Hp). rewrite Hb'. cbn [bind].
  destruct b; cbn [negb].
  - eapply decides_ext; [apply (all_pass_decides _ [line_embedding_wrong m; only_line_wrong m; line_relationship_wrong tl m; lines_without_corner m])|].
    + repeat constructor; [apply embedded_lines_ok|apply only_line_ok|apply wrong_relationships_ok|apply lines_corner_ok]; try assumption. apply brep_bound_at, H.
    + split.
      * intros K. inversion K as [|? ? K1 Q1]; subst. inversion Q1 as [|? ? K2 Q2]; subst. inversion Q2 as [|? ? K3 Q3]; subst. inversion Q3; subst. auto.
      * intros (K1 & K2 & K3 & K4). repeat constructor; assumption.
  - apply decides_bool. split; [intros _|reflexivity]. assert (NO : forall id, ~ active_at m uv LineT id).
    { intros id K. assert (false = true); [apply Hp; eauto|discriminate]. }
    split; [intros (l & e & K & _); apply (NO l K)|]. split; [|split].
    + intros (l & ss & bs & HL & A & _). apply (NO l). split; [apply HL; left; reflexivity|exact A].
    + intros (c & a & b & H1 & H2 & H3 & _). apply (NO (co_id c)). split; [exact H3|]. cbn. apply in_map, filter_In. auto.
    + intros (K & _). apply linked_twice_active in K. destruct K as [id K]. apply (NO id K).
Qed.
