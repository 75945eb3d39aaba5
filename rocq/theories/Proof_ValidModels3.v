(** Validity of models: topology of BReps. *)
From Coq Require Import String Ascii List Arith NArith ZArith Bool Lia Permutation Sorted Floats.SpecFloat.
From Verif Require Import Base BaseFacts Model_Issues Types Model_Cycles Model_Hash Model_Colocation Model_Adjacency Model_Manifold Model_Degeneration Model_Negative Model_Intersections
  Model_Topology Model_BRep Model_Blocks Model_Results Model_Validity Spec_Colocation Spec_Maps Spec_Cycles Spec_Adjacency Spec_Manifold Spec_Degeneration Spec_Negative Spec_Intersections
  Spec_Topology Spec_BRep Spec_Fusion Spec_Blocks Proof_Fusion Proof_Blocks3 Spec_Results Spec_Valid Spec_ValidModels
  Proof_Colocation Proof_Colocation2 Proof_Adjacency Proof_Manifold Proof_Degeneration Proof_Results
  Proof_Topology Proof_BRep Proof_BRep2 Proof_BRep3 Proof_BRep4 Proof_BRep5 Proof_Valid Proof_Valid2 Proof_ValidModels Proof_ValidModels2 Properties_Colocation Properties_Adjacency Properties_Manifold Properties_Degeneration Properties_Intersections Properties_Topology Properties_BRep
  Properties_Blocks Properties_Results.
Import ListNotations.
Open Scope list_scope.

Lemma reports_dec : forall o P, reports_iff o P -> P \/ ~ P.
Proof. intros o P (r & _ & H). destruct r; [left; apply H; discriminate|right; intros K; apply H in K; congruence]. Qed.
Lemma elements_empty : forall M t nbv nbe wrong m (l : list (Component M)) r,
  elements_reported t nbv nbe wrong m l r ->
  (forall c, inspected l c -> forall v, v < nbv (co_mesh c) -> m_unique_vertex m (mkCMV (mkCID t (co_id c)) v) <> None) ->
  (forall c e, inspected l c -> (forall v, ~ unlinked m t (co_id c) (nbv (co_mesh c)) v) -> e < nbe (co_mesh c) -> wrong c e \/ ~ wrong c e) ->
  (im_map r = [] <-> forall c e, inspected l c -> e < nbe (co_mesh c) -> ~ wrong c e).
Proof.
  intros M t nbv nbe wrong m l r H L D. rewrite (map_empty _ _ _ H). split.
  - intros K c e I B W. destruct (lt_lists_exist (nbe (co_mesh c)) (fun e => e < nbe (co_mesh c) /\ wrong c e)) as (es & E).
    { intros x [X _]. exact X. }
    { intros x X. destruct (D c x I) as [Y|Y]; [intros v [V1 V2]; apply (L c I v V1 V2)|exact X|left; tauto|right; tauto]. }
    assert (Z : es = []). { apply (K (co_id c)). exists c. destruct I as [I A]. split; [exact I|]. split; [exact A|]. split; [reflexivity|]. split; [|exact E].
      intros v [V1 V2]. apply (L c (conj I A) v V1 V2). }
    apply (proj1 (none_listed _ _ _ _ E) Z e). auto.
  - intros K id es (c & I & A & _ & _ & E). apply (none_listed _ _ _ _ E). intros e [B W]. exact (K c e (conj I A) B W).
Qed.
Lemma blocks_listed_empty : forall m P l, lists_blocks m P l -> (l = [] <-> forall b, In b (active_ids m BlockT) -> ~ P b).
Proof.
  intros m P l [_ H]. split.
  - intros -> b A Q. apply (proj2 (H b)). auto.
  - intros K. destruct l as [|b l]; [reflexivity|]. exfalso. destruct (proj1 (H b) (or_introl eq_refl)) as [A Q]. exact (K b A Q).
Qed.

(** closedness is decided *)
Lemma forall_bounded_dec : forall n (P : nat -> Prop), (forall i, i < n -> P i \/ ~ P i) -> (forall i, i < n -> P i) \/ ~ (forall i, i < n -> P i).
Proof.
  intros n P D. destruct (bounded_dec n (fun i => ~ P i)) as [(i & B & N)|N].
  - intros i B. destruct (D i B); [right|left]; tauto.
  - right. intros K. exact (N (K i B)).
  - left. intros i B. destruct (D i B) as [K|K]; [exact K|]. exfalso. apply N. eauto.
Qed.
Lemma forall_in_dec : forall A (l : list A) (P : A -> Prop), (forall x, In x l -> P x \/ ~ P x) -> (forall x, In x l -> P x) \/ ~ (forall x, In x l -> P x).
Proof.
  intros A l P D. induction l as [|a l IH]; [left; intros x []|]. destruct IH as [K|K]; [intros x X; apply D; right; exact X| |].
  - destruct (D a (or_introl eq_refl)) as [Q|Q]; [left; intros x [<-|X]; auto|right; intros Z; apply Q, Z; left; reflexivity].
  - right. intros Z. apply K. intros x X. apply Z. right. exact X.
Qed.
Lemma others_dec : forall A (l : list A) i (P : A -> Prop), (forall x, P x \/ ~ P x) ->
  (forall j q, j <> i -> nth_error l j = Some q -> P q) \/ ~ (forall j q, j <> i -> nth_error l j = Some q -> P q).
Proof.
  intros A l i P D. destruct (forall_bounded_dec (length l) (fun j => j <> i -> forall q, nth_error l j = Some q -> P q)) as [K|K].
  - intros j B. destruct (Nat.eq_dec j i) as [<-|N]; [left; intros N; congruence|]. destruct (nth_error l j) as [q|]; [|left; discriminate].
    destruct (D q) as [X|X]; [left; intros _ q' E; injection E as <-; exact X|right; intros Z; apply X, (Z N q eq_refl)].
  - left. intros j q N E. apply (K j); [apply nth_error_Some; congruence|exact N|exact E].
  - right. intros Z. apply K. intros j _ N q E. exact (Z j q N E).
Qed.
Lemma imp_dec : forall P Q : Prop, P \/ ~ P -> Q \/ ~ Q -> (P -> Q) \/ ~ (P -> Q).
Proof. tauto. Qed.
Lemma bool_dec2 : forall b : bool, b = true \/ ~ b = true.
Proof. intros []; [left|right]; congruence. Qed.
Lemma encloses_dec : forall tl parts i, encloses tl parts i \/ ~ encloses tl parts i.
Proof.
  intros tl parts i. unfold encloses. destruct (nth_error parts i) as [p|]; [|right; intros (p & E & _); discriminate].
  destruct (others_dec _ parts i (fun q => tl_box_contains tl p q = true)) as [K|K]; [intros q; apply bool_dec2|left; eauto|].
  right. intros (p' & E & Z). injection E as <-. exact (K Z).
Qed.
Lemma counted_as_closed_dec : forall tl m parts, brep_ok m -> (forall p s, In p parts -> In s p -> In s (component_ids m SurfaceT)) ->
  counted_as_closed tl m parts \/ ~ counted_as_closed tl m parts.
Proof.
  intros tl m parts H Hp. unfold counted_as_closed. destruct (Nat.lt_ge_cases (length parts) 2) as [L|L]; [left; left; exact L|].
  destruct (bounded_dec (length parts) (fun i => exists p cs g, nth_error parts i = Some p /\ encloses tl parts i /\ (forall j, j < i -> ~ encloses tl parts j) /\ surfaces_of m p cs /\ glued m cs g /\
    forall j q, j <> i -> nth_error parts j = Some q -> forall c, In c (m_surfaces m) -> In (co_id c) q -> forall x, In x (sm_points (co_mesh c)) -> tl_inside_closed tl g x = Ok true)) as [K|K].
  - intros i B. destruct (nth_error parts i) as [p|] eqn:E; [|apply nth_error_None in E; lia].
    destruct (encloses_dec tl parts i) as [K1|K1]; [|right; intros (p' & cs' & g' & _ & Z & _); exact (K1 Z)].
    destruct (forall_bounded_dec i (fun j => ~ encloses tl parts j)) as [K2|K2]; [intros j _; destruct (encloses_dec tl parts j); tauto| |right; intros (p' & cs' & g' & _ & _ & Z & _); exact (K2 Z)].
    destruct (part_glued m H p) as (cs & g & Scs & _ & Gg). { intros s Hs. eapply Hp; [eapply nth_error_In; exact E|exact Hs]. }
    destruct (others_dec _ parts i (fun q => forall c, In c (m_surfaces m) -> In (co_id c) q -> forall x, In x (sm_points (co_mesh c)) -> tl_inside_closed tl g x = Ok true)) as [K3|K3].
    + intros q. apply forall_in_dec. intros c _. apply imp_dec; [destruct (in_dec Nat.eq_dec (co_id c) q); tauto|]. apply forall_in_dec. intros x _.
      destruct (tl_inside_closed tl g x) as [[]| |]; [left; reflexivity|right; discriminate|right; discriminate|right; discriminate].
    + left. exists p, cs, g. auto 10.
    + right. intros (p' & cs' & g' & E' & _ & _ & S' & G' & Z). injection E' as <-.
      assert (cs' = cs) as -> by (eapply surfaces_of_unique; [|exact S'|exact Scs]; intros d Hd; apply surface_by_id; auto). rewrite (glued_unique m cs g' g G' Gg) in Z. exact (K3 Z).
  - left. right. destruct K as (i & B & p & cs & g & E & K1 & K2 & S & G & K3). exists i, p, cs, g. split; [exact E|]. split; [exact K1|]. split; [exact K2|]. split; [exact S|]. split; [exact G|].
    intros j q c x N Q I J X. exact (K3 j q N Q c I J x X).
  - right. intros [X|(i & p & cs & g & E & K1 & K2 & S & G & K3)]; [lia|]. apply K. exists i. split; [apply nth_error_Some; congruence|]. exists p, cs, g. split; [exact E|]. split; [exact K1|]. split; [exact K2|].
    split; [exact S|]. split; [exact G|]. intros j q N Q c I J x X. exact (K3 j q c x N Q I J X).
Qed.

(** ** Blocks *)
Lemma active_block : forall m b, In b (active_ids m BlockT) <-> exists c, inspected (m_blocks m) c /\ co_id c = b.
Proof.
  intros m b. unfold active_ids. rewrite in_map_iff. split.
  - intros (c & E & I). apply filter_In in I. exists c. unfold inspected. tauto.
  - intros (c & I & E). exists c. split; [exact E|]. apply filter_In. exact I.
Qed.
Lemma unique_block : forall m (c c' : Component SolidMesh), unique_ids m -> In c (m_blocks m) -> In c' (m_blocks m) -> co_id c = co_id c' -> c = c'.
Proof.
  intros m c c' U I I' E. pose proof (get_block_In m c U I) as G. pose proof (get_block_In m c' U I') as G'. rewrite E in G. congruence.
Qed.
Lemma blocks_empty : forall ho tl m r, brep_ok m -> blocks_report tl m r ->
  exists parts, (forall b, In b (component_ids m BlockT) -> connected_parts m (block_surfaces m b) (parts b)) /\
    (all_empty (brep_blocks_categories ho r) <-> sound_blocks_topology tl m parts).
Proof.
  intros ho tl m r HB [Rm Rl Rf (parts & P & Rc) Rmo R2 Rn Rs Rr Rx]. pose proof (br_ids m HB) as U. exists parts. split; [exact P|]. unfold brep_blocks_categories. categories.
  rewrite (blocks_listed_empty _ _ _ Rm), (blocks_listed_empty _ _ _ Rf), (blocks_listed_empty _ _ _ Rc), (map_empty _ _ _ Rl), (vertices_empty _ _ _ R2), (vertices_empty _ _ _ Rn),
    (vertices_empty _ _ _ Rs), (vertices_empty _ _ _ Rr).
  split.
  - intros (A1 & A2 & A3 & A4 & A5 & A6 & A7 & A8 & A9 & _ & _). constructor.
    + intros (c0 & I0 & M0) c I. assert (Mc : has_points_and_polyhedra (co_mesh c)).
      { destruct (polyhedra_dec (co_mesh c)) as [K|K]; [exact K|]. exfalso. apply (A1 (co_id c)); [apply active_block; eauto|]. split.
        - intros (c' & I' & E' & M'). apply K. assert (c' = c) as ->; [|exact M']. apply (unique_block m c' c U I' (proj1 I) E').
        - exists (co_id c0). split; [apply active_block; eauto|]. exists c0. destruct I0. auto. }
      split; [exact Mc|]. intros v V N. destruct I as [I A].
      assert (Z : ii_issues (vertices_not_associated m (mkCID BlockT (co_id c)) (nb_points3 (co_mesh c))) = []).
      { apply (A3 (co_id c)). exists c. split; [exact I|]. split; [exact A|]. split; [reflexivity|]. split; [exact Mc|]. apply C45_vertices_listed. }
      apply (proj1 (none_listed _ _ _ _ (C45_vertices_listed m BlockT (co_id c) (nb_points3 (co_mesh c)))) Z v). split; assumption.
    + exact A2.
    + intros b I. assert (Ib : In b (component_ids m BlockT)) by (apply active_block in I as (c & [I _] & <-); apply in_map; exact I).
      destruct (counted_as_closed_dec tl m (parts b) HB) as [K|K]; [|exact K|destruct (A8 b I K)]. intros p s Hp Hs.
      assert (Q : In s (block_surfaces m b)) by (apply (cp_cover _ _ _ (P b Ib)); apply in_concat; eauto). apply in_map_iff in Q as (e & <- & He). eapply br_block_boundaries; eassumption.
    + destruct Rmo as [[K _]|[_ K]]; [exact K|congruence].
    + intros uv V. repeat match goal with |- _ /\ _ => split end; auto.
  - intros [B1 B2 B3 B4 B5]. repeat match goal with |- _ /\ _ => split end; try exact I; try exact B2; try (intros u V; apply (B5 u V)).
    + intros b Ib [N (b' & Ib' & c' & I' & E' & M')]. apply N. apply active_block in Ib as (c & I & <-). exists c. split; [apply I|]. split; [reflexivity|].
      apply (B1); [|exact I]. exists c'. split; [|exact M']. apply active_block in Ib' as (c'' & I'' & E''). assert (c'' = c') as <-; [|exact I''].
      apply (unique_block m _ _ U (proj1 I'') I'). congruence.
    + intros id vs (c & I & A & E & M & V). apply (none_listed _ _ _ _ V). intros v [Bv N]. subst id. apply (proj2 (B1 ltac:(exists c; split; [split; assumption|exact M]) c (conj I A)) v Bv N).
    + intros b I K. exact (K (B3 b I)).
    + destruct Rmo as [[_ K]|[K _]]; [exact K|destruct (K B4)].
    + exact Rx.
Qed.

(** ** BReps *)
Lemma polygon_linked : forall m c p, brep_ok m -> In c (m_surfaces m) -> (forall v, ~ unlinked m SurfaceT (co_id c) (nb_points2 (co_mesh c)) v) ->
  p < length (sm_polygons (co_mesh c)) -> exists uvs, polygon_joins m c p uvs.
Proof.
  intros m c p H Hc Hv Hp. unfold polygon_joins.
  assert (PV : forall v, In v (nth p (sm_polygons (co_mesh c)) []) -> exists uv, m_unique_vertex m (mkCMV (mkCID SurfaceT (co_id c)) v) = Some uv).
  { intros v Hv'. destruct (m_unique_vertex m (mkCMV (mkCID SurfaceT (co_id c)) v)) as [uv|] eqn:Q; [eauto|]. exfalso. apply (Hv v). split; [|exact Q].
    apply (br_polygons m H c (nth p (sm_polygons (co_mesh c)) []) v Hc); [|exact Hv']. apply nth_In. exact Hp. }
  revert PV. generalize (nth p (sm_polygons (co_mesh c)) []). induction l as [|v l IH]; intros PV; [exists []; constructor|].
  destruct (PV v (or_introl eq_refl)) as [uv Hq]. destruct IH as [l' IH]; [intros w Hw; apply PV; right; exact Hw|]. exists (uv :: l'). constructor; assumption.
Qed.
Lemma all_blocks_dec : forall m, all_blocks_have_polyhedra m \/ ~ all_blocks_have_polyhedra m.
Proof. intros m. unfold all_blocks_have_polyhedra. apply forall_in_dec. intros b _. destruct (so_polyhedra (co_mesh b)); [right; congruence|left; discriminate]. Qed.
Lemma brep_topology_empty : forall ho tl m, blocks_ok tl m -> lookup_ok tl m -> lines_inspectable m ->
  exists r parts, inspect_brep_topology tl m = Ok r /\ (forall b, In b (active_ids m BlockT) -> connected_parts m (block_surfaces m b) (parts b)) /\
    (all_empty (brep_topology_categories ho r) <-> sound_brep_topology tl m parts).
Proof.
  intros ho tl m K Hlo Hi. pose proof (bo_brep tl m K) as H. pose proof (br_ids m H) as U.
  destruct (C39_brep_inspection tl m K Hlo Hi) as (rc & rl & rs & rb & links & Ec & El & Es & Eb & Ek & E).
  destruct (C36_C45_brep_corners m H) as (r & E' & C0 & C1 & C2 & C3 & C4). rewrite Ec in E'. injection E' as <-.
  destruct (C50_C45_brep_lines tl m H Hlo Hi) as (r & E' & L0 & L5 & L1 & L2 & L3 & L4). rewrite El in E'. injection E' as <-.
  destruct (C51_C45_brep_surfaces tl m H Hlo) as (r & E' & S0 & S4 & S1 & S2 & S3). rewrite Es in E'. injection E' as <-.
  destruct (C35_brep_links m U) as (r & b & E' & _ & _ & _ & B & K1 & K2). rewrite Ek in E'. injection E' as <-.
  assert (BL : exists parts, (forall b, In b (active_ids m BlockT) -> connected_parts m (block_surfaces m b) (parts b)) /\
    (all_empty (brep_blocks_categories ho rb) <-> (active_ids m BlockT <> [] -> sound_blocks_topology tl m parts))).
  { destruct (active_ids m BlockT) as [|x l] eqn:EA.
    - exists (fun _ => []). split; [intros b' []|]. rewrite (C56_no_active_block tl m EA) in Eb. injection Eb as <-. split; [intros _ N; congruence|]. intros _. repeat constructor.
    - assert (N : active_ids m BlockT <> []) by congruence. destruct (C56_blocks tl m K N) as (r & E' & Rb). rewrite Eb in E'. injection E' as <-.
      destruct (blocks_empty ho tl m rb H Rb) as (parts & P & Q). exists parts. rewrite <- EA. split; [intros b' I; apply P; apply active_block in I as (c & [I _] & <-); apply in_map, I|]. rewrite Q. split; auto. }
  destruct BL as (parts & P & BL). eexists. exists parts. split; [exact E|]. split; [exact P|]. unfold brep_topology_categories. cbn [bt_corners bt_lines bt_surfaces bt_blocks bt_links].
  rewrite !empty_app, (links_empty m _ links b B K1 K2), BL. unfold corners_categories, brep_lines_categories, brep_surfaces_categories. categories.
  rewrite (vertices_empty _ _ _ C1), (vertices_empty _ _ _ C2), (vertices_empty _ _ _ C3), (vertices_empty _ _ _ C4), (vertices_empty _ _ _ L1), (vertices_empty _ _ _ L2),
    (vertices_empty _ _ _ L3), (vertices_empty _ _ _ L4), (vertices_empty _ _ _ S1), (vertices_empty _ _ _ S2), (vertices_empty _ _ _ S3).
  pose proof (components_empty _ _ _ _ _ _ _ _ _ points_dec C0) as KC. pose proof (components_empty _ _ _ _ _ _ _ _ _ edges_dec L0) as KL. pose proof (components_empty _ _ _ _ _ _ _ _ _ polygons_dec S0) as KS.
  assert (KE : meshed_and_linked LineT has_points_and_edges nb_points1 m (m_lines m) ->
    (im_map (bl_wrong_edges rl) = [] <-> forall c e, inspected (m_lines m) c -> e < length (ec_edges (co_mesh c)) -> ~ line_edge_wrong tl m c e)).
  { intros J. apply (elements_empty _ _ _ _ _ _ _ _ L5); [intros c I; apply (J c I)|]. intros c e I V Be. destruct (linked_edge m c e H (proj1 I) V Be) as (a & b' & Je).
    destruct (reports_dec _ _ (line_edge_ok tl m H Hlo c e a b' (proj1 I) Je)) as [X|X]; [left; exists a, b'; auto|right]. intros (a' & b'' & J' & Y).
    destruct (edge_joins_fun _ _ _ _ _ _ _ Je J') as [-> ->]. exact (X Y). }
  assert (KF : meshed_and_linked SurfaceT has_points_and_polygons nb_points2 m (m_surfaces m) ->
    (im_map (bs_wrong_facets rs) = [] <-> forall c p, inspected (m_surfaces m) c -> p < length (sm_polygons (co_mesh c)) -> ~ surface_facet_wrong tl m c p)).
  { intros J. apply (elements_empty _ _ _ _ _ _ _ _ S4); [intros c I; apply (J c I)|]. intros c p I V Bp. destruct (polygon_linked m c p H (proj1 I) V Bp) as (uvs & Jp).
    unfold surface_facet_wrong. destruct (all_blocks_dec m) as [X0|X0]; [|right; intros [Y _]; exact (X0 Y)].
    destruct (reports_dec _ _ (facet_ok tl m H Hlo c p uvs Jp)) as [X|X]; [left; split; [exact X0|exists uvs; auto]|right]. intros (_ & uvs' & J' & Y).
    unfold polygon_joins in Jp, J'. apply unique_vertices_some in Jp, J'. assert (uvs' = uvs) as -> by congruence. exact (X Y). }
  split.
  - intros ((c1 & c2 & c3 & c4 & c5 & c6 & _) & (l1 & l2 & l3 & l4 & l5 & l6 & l7 & _) & (s1 & s2 & s3 & s4 & s5 & s6 & _) & J & Kb).
    assert (ML : meshed_and_linked LineT has_points_and_edges nb_points1 m (m_lines m)) by (apply KL; split; assumption).
    assert (MS : meshed_and_linked SurfaceT has_points_and_polygons nb_points2 m (m_surfaces m)) by (apply KS; split; assumption).
    constructor; try assumption; [apply KC; split; assumption|apply KE; assumption|apply KF; assumption|]. intros uv V. auto 20.
  - intros [J MC ML MS JE JF V JB]. apply (KE ML) in JE. apply (KF MS) in JF. apply KC in MC as [? ?]. apply KL in ML as [? ?]. apply KS in MS as [? ?].
    repeat match goal with |- _ /\ _ => split end; try assumption; try exact I; intros u W; apply (V u W).
Qed.
