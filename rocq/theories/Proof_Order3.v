(** Components stored in another order: edges and facets of the model, whole inspections of the meshes. *)
From Coq Require Import String Ascii List Arith NArith ZArith Bool Lia Permutation.
From Verif Require Import Base BaseFacts Model_Issues Types Model_Hash Model_Adjacency Model_Colocation Model_Degeneration Model_Negative Model_Manifold
  Model_Intersections Model_Topology Model_BRep Model_Blocks Model_Results Spec_Colocation Proof_Colocation2 Proof_Maps Proof_Hash Proof_Manifold Proof_Manifold3 Proof_Safe Proof_Safe5 Spec_Reproducible
  Proof_Reproducible Spec_Order Proof_Order Proof_Order2.
Import ListNotations.
Open Scope list_scope.

(** ** Lists of issues *)
Definition got {A} (o : outcome (option A)) : option A := match o with Ok x => x | _ => None end.
Definition one_issue {A T} (g : A -> outcome (option (T * string))) (r : InspectionIssues T) (a : A) : InspectionIssues T :=
  match got (g a) with Some p => add_issue (fst p) (snd p) r | None => r end.
Lemma issue_run : forall A T (g : A -> outcome (option (T * string))) F l x r,
  (forall s c, F s c = let! o := g c in Ok (match o with Some p => add_issue (fst p) (snd p) s | None => s end)) ->
  (foldM F l x = Ok r <-> (forall c, In c l -> exists o, g c = Ok o) /\ r = fold_left (one_issue g) l x).
Proof.
  intros A T g F l. induction l as [|a l IH]; intros x r HF; cbn [foldM fold_left].
  - split; [intros E; injection E as <-; split; [intros c []|reflexivity]|intros [_ ->]; reflexivity].
  - rewrite HF. unfold one_issue at 2. destruct (g a) as [o| |] eqn:Ea; cbn [bind got].
    + rewrite IH by exact HF. split; intros [X ->]; (split; [|reflexivity]).
      * intros c [<-|I]; eauto.
      * intros c I. apply X. right. exact I.
    + split; [discriminate|]. intros [X _]. destruct (X a (or_introl eq_refl)) as (o & E). congruence.
    + split; [discriminate|]. intros [X _]. destruct (X a (or_introl eq_refl)) as (o & E). congruence.
Qed.
Lemma issue_loop : forall A T (g : A -> outcome (option (T * string))) F F' l l' x y,
  (forall s c, F s c = let! o := g c in Ok (match o with Some p => add_issue (fst p) (snd p) s | None => s end)) ->
  (forall s c, F' s c = let! o := g c in Ok (match o with Some p => add_issue (fst p) (snd p) s | None => s end)) ->
  Permutation l l' -> same_issues x y -> follows same_issues (foldM F l x) (foldM F' l' y).
Proof.
  intros A T g F F' l l' x y HF HF' Q R r Er. apply (issue_run _ _ g _ _ _ _ HF) in Er as [X ->]. exists (fold_left (one_issue g) l' y). split.
  - apply (issue_run _ _ g _ _ _ _ HF'). split; [|reflexivity]. intros c I. apply X. apply (Permutation_in c (Permutation_sym Q) I).
  - exact (same_added _ _ (fun a => got (g a)) l l' x y Q R).
Qed.

(** ** Tasks *)
Lemma parallel_run : forall X l (x : outcome X) r, (let! _ := parallel_invoke l in x) = Ok r -> parallel_invoke l = Ok tt /\ x = Ok r.
Proof. intros X l x r E. destruct (parallel_invoke l) as [[]| |]; try discriminate E. auto. Qed.
Lemma parallel_next : forall X (x : outcome X) l, parallel_invoke (status x :: l) = Ok tt -> (exists a, x = Ok a) /\ parallel_invoke l = Ok tt.
Proof. intros X [a|e|] l E; cbn in E; try discriminate E; [eauto|]. destruct (existsb _ l); discriminate E. Qed.

(** ** Edges of the model *)
Definition alike (a b : BRepNonManifoldEdge) : Prop := fst a = fst b /\ Permutation (snd a) (snd b).
Definition alike_lists (l l' : list BRepNonManifoldEdge) : Prop := exists k, Permutation k l' /\ Forall2 alike l k.
Lemma alike_filter : forall (p : BRepNonManifoldEdge -> bool) l l', (forall a b, alike a b -> p a = p b) -> alike_lists l l' -> alike_lists (filter p l) (filter p l').
Proof.
  intros p l l' Hp (k & Q & F). exists (filter p k). split.
  - clear F. induction Q as [|x u v Q IH|x y u|u v w Q1 IH1 Q2 IH2]; cbn [filter]; [constructor| | |eapply Permutation_trans; eassumption].
    + destruct (p x); [constructor|]; exact IH.
    + destruct (p x), (p y); try apply Permutation_refl. apply perm_swap.
  - clear Q. induction F as [|a b u v R F IH]; cbn [filter]; [constructor|]. rewrite (Hp a b R). destruct (p b); [constructor; assumption|exact IH].
Qed.
Lemma alike_permuted : forall l l' u u', Permutation l u -> Permutation l' u' -> alike_lists l l' -> alike_lists u u'.
Proof.
  intros l l' u u' Q Q' (k & K & F).
  enough (exists k', Permutation k k' /\ Forall2 alike u k') as (k' & K' & F').
  { exists k'. split; [|exact F']. eapply Permutation_trans; [apply Permutation_sym; exact K'|]. exact (Permutation_trans K Q'). }
  clear K Q' l' u'. revert k F. induction Q as [|x l u Q IH|x y l|l u v Q1 IH1 Q2 IH2]; intros k F.
  - exists k. split; [apply Permutation_refl|exact F].
  - inversion F as [|a b s t R F' ]; subst. destruct (IH _ F') as (k' & K' & G). exists (b :: k'). split; [constructor; exact K'|constructor; assumption].
  - inversion F as [|a b s t R F' ]; subst. inversion F' as [|a' b' s' t' R' F'' ]; subst. exists (b' :: b :: t'). split; [apply perm_swap|]. constructor; [assumption|]. constructor; assumption.
  - destruct (IH1 _ F) as (k1 & K1 & F1). destruct (IH2 _ F1) as (k2 & K2 & F2). exists k2. split; [eapply Permutation_trans; eassumption|exact F2].
Qed.
Lemma alike_app : forall l l' u u', alike_lists l l' -> alike_lists u u' -> alike_lists (l ++ u) (l' ++ u').
Proof. intros l l' u u' (k & Q & F) (k' & Q' & F'). exists (k ++ k'). split; [apply Permutation_app; assumption|apply Forall2_app; assumption]. Qed.
Lemma alike_same : forall l l', Permutation l l' -> alike_lists l l'.
Proof. intros l l' Q. exists l. split; [exact Q|]. clear Q. induction l; constructor; auto. split; [reflexivity|apply Permutation_refl]. Qed.

Definition updates (m : Model) (l : list (Component SurfaceMesh)) : list ((option nat * option nat) * uuid) :=
  flat_map (fun s => map (fun e => (model_edge_key m s e, co_id s)) (filter (counted_edge (co_mesh s)) (all_polygon_edges (co_mesh s)))) l.
Definition grouped (l : list ((option nat * option nat) * uuid)) :=
  group uv_pair_eqb fst (fun x => [snd x]) (fun x (v : list uuid) => v ++ [snd x]) l [].
Lemma edges_grouped : forall m, model_edges m = grouped (updates m (active (m_surfaces m))).
Proof.
  intros m. unfold model_edges, grouped, updates.
  generalize (@nil ((option nat * option nat) * list uuid)) as acc. induction (active (m_surfaces m)) as [|s ss IH]; intros acc; cbn [fold_left flat_map]; [reflexivity|].
  rewrite group_app, IH. f_equal. clear. revert acc. induction (all_polygon_edges (co_mesh s)) as [|e es IHe]; intros acc; cbn [fold_left filter map]; [reflexivity|].
  rewrite IHe. destruct (counted_edge (co_mesh s) e); reflexivity.
Qed.
Lemma with_key_permuted : forall k (l l' : list ((option nat * option nat) * uuid)), Permutation l l' -> Permutation (with_key uv_pair_eqb fst k l) (with_key uv_pair_eqb fst k l').
Proof.
  intros k l l' Q. unfold with_key. induction Q as [|x u v Q IH|x y u|u v w Q1 IH1 Q2 IH2]; cbn [filter]; [constructor| | |eapply Permutation_trans; eassumption].
  - destruct (uv_pair_eqb (fst x) k); [constructor|]; exact IH.
  - destruct (uv_pair_eqb (fst x) k), (uv_pair_eqb (fst y) k); try apply Permutation_refl. apply perm_swap.
Qed.
Lemma appended : forall (xs : list ((option nat * option nat) * uuid)) v, fold_left (fun v y => v ++ [snd y]) xs v = v ++ map snd xs.
Proof. induction xs as [|x xs IH]; intros v; cbn [fold_left map]; [rewrite app_nil_r; reflexivity|]. rewrite IH, <- app_assoc. reflexivity. Qed.
Lemma in_grouped : forall l k v, In (k, v) (grouped l) <-> with_key uv_pair_eqb fst k l <> [] /\ v = map snd (with_key uv_pair_eqb fst k l).
Proof.
  intros l k v. unfold grouped. rewrite (in_group uv_pair_eqb uv_pair_eqb_eq). split.
  - intros (x & xs & E & ->). rewrite E. split; [discriminate|]. rewrite appended. reflexivity.
  - intros [N ->]. destruct (with_key uv_pair_eqb fst k l) as [|x xs]; [contradiction|]. exists x, xs. split; [reflexivity|]. rewrite appended. reflexivity.
Qed.
Lemma grouped_NoDup : forall l, NoDup (map fst (grouped l)).
Proof. intros l. apply group_NoDup. exact uv_pair_eqb_eq. Qed.
Lemma NoDup_keys : forall A B (l : list (A * B)), NoDup (map fst l) -> NoDup l.
Proof. intros A B l. apply NoDup_map_inv. Qed.
Lemma grouped_alike : forall l l', Permutation l l' -> alike_lists (grouped l) (grouped l').
Proof.
  intros l l' Q. pose (f := fun kv : (option nat * option nat) * list uuid => (fst kv, map snd (with_key uv_pair_eqb fst (fst kv) l'))).
  exists (map f (grouped l)). split.
  - apply NoDup_Permutation.
    + apply NoDup_keys. rewrite map_map. cbn [f fst]. apply grouped_NoDup.
    + apply NoDup_keys, grouped_NoDup.
    + intros [k v]. rewrite in_map_iff, in_grouped. pose proof (with_key_permuted k l l' Q) as W. split.
      * intros ([k' v'] & E & I). apply in_grouped in I as [N _]. unfold f in E. cbn [fst] in E. injection E as -> <-. split; [|reflexivity].
        intros X. rewrite X in W. apply Permutation_sym, Permutation_nil in W. contradiction.
      * intros [N ->]. exists (k, map snd (with_key uv_pair_eqb fst k l)). split; [reflexivity|]. apply in_grouped. split; [|reflexivity].
        intros X. rewrite X in W. apply Permutation_nil in W. contradiction.
  - assert (I : forall kv, In kv (grouped l) -> alike kv (f kv)).
    { intros [k v] X. apply in_grouped in X as [_ ->]. split; [reflexivity|]. cbn [snd f fst]. apply Permutation_map, with_key_permuted, Q. }
    induction (grouped l) as [|kv kvs IH]; cbn [map]; constructor; [apply I; left; reflexivity|]. apply IH. intros x X. apply I. right. exact X.
Qed.

Section Manifold.
Context (m m' : Model) (H : reordered m m') (U : unique_ids m).
Lemma model_edges_alike : alike_lists (model_edges m) (model_edges m').
Proof.
  rewrite !edges_grouped. apply grouped_alike. unfold updates.
  eapply Permutation_trans; [apply flat_map_permuted, (active_reordered _ _ _ (ro_surfaces _ _ H))|].
  match goal with |- Permutation ?x ?y => replace y with x; [apply Permutation_refl|] end.
  apply flat_map_ext. intros s. apply map_ext. intros e. unfold model_edge_key, surface_uv. rewrite (ro_unique _ _ H). reflexivity.
Qed.
Lemma several_same : forall l, several_cmvs_on_one_vertex m l = several_cmvs_on_one_vertex m' l.
Proof.
  induction l as [|[v|] l IH]; cbn [several_cmvs_on_one_vertex]; [reflexivity| |reflexivity]. rewrite IH.
  unfold nb_unique_vertices, component_mesh_vertices. rewrite (ro_cmvs _ _ H). reflexivity.
Qed.
Lemma nb_embeddings_same : forall t id, nb_embeddings_of m t id = nb_embeddings_of m' t id.
Proof. intros t id. clear U. both_ordered m m' H. reflexivity. Qed.
Lemma lonely_line_same : forall l, lonely_line m l = lonely_line m' l.
Proof. intros l. unfold lonely_line. rewrite (ro_unique _ _ H), nb_embeddings_same. destruct (ec_edges (co_mesh l)) as [|[v w] [|]]; auto. rewrite several_same. reflexivity. Qed.
Lemma lonely_surface_same : forall l, lonely_surface m l = lonely_surface m' l.
Proof. intros l. unfold lonely_surface, surface_uv. rewrite (ro_unique _ _ H), nb_embeddings_same, several_same. reflexivity. Qed.
Lemma lonely_line_message_same : forall l vs, lonely_line_message m l vs = lonely_line_message m' l vs.
Proof. intros l vs. both_ordered m m' H. reflexivity. Qed.
Lemma lonely_surface_message_same : forall l vs, lonely_surface_message m l vs = lonely_surface_message m' l vs.
Proof. intros l vs. both_ordered m m' H. reflexivity. Qed.
Lemma edge_issues : forall n kvs (r : InspectionIssues BRepNonManifoldEdge),
  let r' := fold_left (fun r kv => if Nat.leb (length (snd kv)) 1 then r else add_issue kv (model_edge_message n kv) r) kvs r in
  ii_description r' = ii_description r /\ ii_issues r' = ii_issues r ++ filter (fun kv => negb (Nat.leb (length (snd kv)) 1)) kvs /\
  length (ii_messages r') = length (ii_messages r) + length (filter (fun kv => negb (Nat.leb (length (snd kv)) 1)) kvs).
Proof.
  intros n kvs. induction kvs as [|kv kvs IH]; intros r; cbn [fold_left filter].
  - cbn [length]. rewrite app_nil_r, Nat.add_0_r. auto.
  - destruct (Nat.leb (length (snd kv)) 1); cbn [negb]; [apply IH|]. destruct (IH (add_issue kv (model_edge_message n kv) r)) as (D & I & M). cbv zeta in *. rewrite D, I, M.
    cbn [add_issue ii_description ii_issues ii_messages]. rewrite app_length, <- app_assoc. cbn [length]. repeat split. rewrite <- Nat.add_assoc. reflexivity.
Qed.
Lemma alike_length : forall l l', alike_lists l l' -> length l = length l'.
Proof. intros l l' (k & Q & F). rewrite <- (Permutation_length Q). clear Q. induction F; cbn; auto. Qed.
Lemma edges_conclude : forall (rx ry x y : InspectionIssues BRepNonManifoldEdge) d (F F' : list BRepNonManifoldEdge) (p p' : list (BRepNonManifoldEdge * string)),
  ii_description rx = ii_description x -> ii_issues rx = ii_issues x ++ map fst p -> ii_messages rx = ii_messages x ++ map snd p ->
  ii_description ry = ii_description y -> ii_issues ry = ii_issues y ++ map fst p' -> ii_messages ry = ii_messages y ++ map snd p' ->
  ii_description x = d -> ii_issues x = F -> length (ii_messages x) = length F ->
  ii_description y = d -> ii_issues y = F' -> length (ii_messages y) = length F' ->
  alike_lists F F' -> Permutation p p' -> reordered_edges rx ry.
Proof.
  intros rx ry x y d F F' p p' D1 I1 M1 D2 I2 M2 D3 I3 M3 D4 I4 M4 L Q. split; [congruence|]. split.
  - rewrite I1, I2, I3, I4. apply alike_app; [exact L|]. apply alike_same, Permutation_map, Q.
  - rewrite M1, M2, !app_length, M3, M4, !map_length, (alike_length _ _ L), (Permutation_length Q). reflexivity.
Qed.
Lemma model_edges_reordered : forall ho d, follows reordered_edges (add_model_non_manifold_edges ho m (new_issues d)) (add_model_non_manifold_edges ho m' (new_issues d)).
Proof.
  intros ho d. unfold add_model_non_manifold_edges. intros r.
  pose (g := fun (n : Model) (l : Component EdgedCurve) => let! o := lonely_line n l in Ok (match o with Some vs => Some ((vs, [co_id l]) : BRepNonManifoldEdge, lonely_line_message n l vs) | None => None end)).
  set (x := fold_left _ (visit ho (model_edges m)) _). set (y := fold_left _ (visit ho (model_edges m')) _).
  assert (HF : forall n (s : InspectionIssues BRepNonManifoldEdge) c, (let! o := lonely_line n c in Ok (match o with Some vs => add_issue (vs, [co_id c]) (lonely_line_message n c vs) s | None => s end)) =
    let! o := g n c in Ok (match o with Some p => add_issue (fst p) (snd p) s | None => s end)).
  { intros n s c. unfold g. destruct (lonely_line n c) as [[vs|]| |]; reflexivity. }
  assert (G : forall c, g m c = g m' c).
  { intros c. unfold g. rewrite lonely_line_same. apply bind_eq; [reflexivity|]. intros [vs|]; [|reflexivity]. rewrite lonely_line_message_same. reflexivity. }
  rewrite (issue_run _ _ (g m) _ _ _ _ (HF m)). intros [X ->].
  pose proof (active_reordered _ _ _ (ro_lines _ _ H)) as Q.
  exists (fold_left (one_issue (g m')) (active (m_lines m')) y). split.
  - apply (issue_run _ _ (g m') _ _ _ _ (HF m')). split; [|reflexivity]. intros c I. rewrite <- G. apply X. apply (Permutation_in c (Permutation_sym Q) I).
  - assert (A : forall n l x0, ii_description (fold_left (one_issue (g n)) l x0) = ii_description x0 /\
      ii_issues (fold_left (one_issue (g n)) l x0) = ii_issues x0 ++ map fst (flat_map (fun a => match got (g n a) with Some p => [p] | None => [] end) l) /\
      ii_messages (fold_left (one_issue (g n)) l x0) = ii_messages x0 ++ map snd (flat_map (fun a => match got (g n a) with Some p => [p] | None => [] end) l)).
    { intros n l x0. exact (add_all _ _ (fun a => got (g n a)) l x0). }
    assert (E : fold_left (one_issue (g m)) (active (m_lines m)) x = fold_left (one_issue (g m')) (active (m_lines m)) x).
    { apply fold_left_eq; auto. intros s c. unfold one_issue. rewrite G. reflexivity. }
    rewrite E. clear E. destruct (A m' (active (m_lines m)) x) as (D1 & I1 & M1). destruct (A m' (active (m_lines m')) y) as (D2 & I2 & M2).
    destruct (edge_issues m (visit ho (model_edges m)) (new_issues d)) as (D3 & I3 & M3). destruct (edge_issues m' (visit ho (model_edges m')) (new_issues d)) as (D4 & I4 & M4).
    cbv zeta in *. fold x in D3, I3, M3. fold y in D4, I4, M4.
    assert (Q' : Permutation (flat_map (fun a => match got (g m' a) with Some p => [p] | None => [] end) (active (m_lines m)))
                   (flat_map (fun a => match got (g m' a) with Some p => [p] | None => [] end) (active (m_lines m')))) by apply flat_map_permuted, Q.
    assert (L : alike_lists (filter (fun kv : BRepNonManifoldEdge => negb (Nat.leb (length (snd kv)) 1)) (visit ho (model_edges m)))
                  (filter (fun kv : BRepNonManifoldEdge => negb (Nat.leb (length (snd kv)) 1)) (visit ho (model_edges m')))).
    { apply alike_filter.
      - intros a b [_ R]. rewrite (Permutation_length R). reflexivity.
      - apply (alike_permuted (model_edges m) (model_edges m')); [apply Permutation_sym, visit_permutes|apply Permutation_sym, visit_permutes|apply model_edges_alike]. }
    exact (edges_conclude _ _ _ _ _ _ _ _ _ D1 I1 M1 D2 I2 M2 D3 I3 M3 D4 I4 M4 L Q').
Qed.
Lemma model_facets_reordered : forall x y, same_issues x y -> follows same_issues (add_model_non_manifold_facets m x) (add_model_non_manifold_facets m' y).
Proof.
  intros x y R. unfold add_model_non_manifold_facets.
  apply (issue_loop _ _ (fun s => let! o := lonely_surface m s in Ok (match o with Some vs => Some ((vs, [co_id s]) : BRepNonManifoldFacet, lonely_surface_message m s vs) | None => None end))).
  - intros s c. destruct (lonely_surface m c) as [[vs|]| |]; reflexivity.
  - intros s c. rewrite <- lonely_surface_same. destruct (lonely_surface m c) as [[vs|]| |]; cbn [bind]; rewrite ?lonely_surface_message_same; reflexivity.
  - apply (active_reordered _ _ _ (ro_surfaces _ _ H)).
  - exact R.
Qed.
Definition reordered_manifold (r r' : BRepManifoldResult) : Prop :=
  reordered_map (bm_vertices r) (bm_vertices r') /\ reordered_map (bm_edges r) (bm_edges r') /\ reordered_map (bm_facets r) (bm_facets r') /\
  reordered_edges (bm_model_edges r) (bm_model_edges r') /\ same_issues (bm_model_facets r) (bm_model_facets r').
Lemma brep_manifold_reordered : forall geo ho, follows reordered_manifold (inspect_brep_manifold geo ho m) (inspect_brep_manifold geo ho m').
Proof.
  intros geo ho. unfold inspect_brep_manifold.
  eapply follows_bind; [apply (vertices_reordered m m' H U), reordered_map_refl|intros a a' Ra].
  eapply follows_bind; [apply (edges_reordered m m' H U), reordered_map_refl|intros b b' Rb].
  eapply follows_bind; [apply (facets_reordered m m' H U), reordered_map_refl|intros c c' Rc].
  eapply follows_bind; [apply model_edges_reordered|intros d d' Rd].
  eapply follows_bind; [apply model_facets_reordered, same_refl, paired_new|intros e e' Re].
  apply follows_ok. unfold reordered_manifold. auto.
Qed.
Definition reordered_section_manifold (r r' : SectionManifoldResult) : Prop :=
  reordered_map (sn_vertices r) (sn_vertices r') /\ reordered_map (sn_edges r) (sn_edges r').
Lemma section_manifold_reordered : forall geo ho, follows reordered_section_manifold (inspect_section_manifold geo ho m) (inspect_section_manifold geo ho m').
Proof.
  intros geo ho. unfold inspect_section_manifold.
  eapply follows_bind; [apply (surface_vertices_reordered m m' H U), reordered_map_refl|intros a a' Ra].
  eapply follows_bind; [apply (surface_edges_reordered m m' H U), reordered_map_refl|intros b b' Rb].
  apply follows_ok. unfold reordered_section_manifold. auto.
Qed.
(** adjacency *)
Definition reordered_adjacency (r r' : BRepAdjacencyResult) : Prop := reordered_map (ba_surfaces r) (ba_surfaces r') /\ reordered_map (ba_blocks r) (ba_blocks r').
Lemma brep_adjacency_reordered : forall lk, follows reordered_adjacency (inspect_brep_meshes_adjacencies lk m) (inspect_brep_meshes_adjacencies lk m').
Proof.
  intros lk r Er. unfold inspect_brep_meshes_adjacencies in *. cbv zeta in *. apply parallel_run in Er as [P Er].
  destruct (add_surfaces_edges_with_wrong_adjacencies lk m _) as [a| |] eqn:E1; try discriminate P.
  2: { cbn in P. destruct (add_blocks_facets_with_wrong_adjacencies lk m _); discriminate P. }
  destruct (add_blocks_facets_with_wrong_adjacencies lk m _) as [b| |] eqn:E2; try discriminate P.
  apply (surface_adjacency_reordered m m' H U lk _ _ (reordered_map_refl _ _)) in E1 as (a' & -> & R1).
  apply (block_adjacency_reordered m m' H U lk _ _ (reordered_map_refl _ _)) in E2 as (b' & -> & R2). cbn [status bind parallel_invoke assigned] in *.
  injection Er as <-. eexists. split; [reflexivity|]. split; assumption.
Qed.
Lemma section_adjacency_reordered : forall lk, follows reordered_map (inspect_section_meshes_adjacencies lk m) (inspect_section_meshes_adjacencies lk m').
Proof. intros lk. apply (surface_adjacency_reordered m m' H U), reordered_map_refl. Qed.

(** ** Whole inspections of the meshes *)
Definition settled (x y : outcome Intersections) : Prop := follows same_issues x y.
Lemma section_meshes_reordered : forall o st st' x x', settled x x' ->
  follows reordered_section_meshes (inspect_section_meshes o m st x) (inspect_section_meshes o m' st' x').
Proof.
  intros o st st' x x' Hx r Er. unfold inspect_section_meshes in *. cbv zeta in *. apply parallel_run in Er as [P Er].
  apply parallel_next in P as ((a & Ea) & P). apply parallel_next in P as ((b & Eb) & P). apply parallel_next in P as ((c & Ec) & P). apply parallel_next in P as ((d & Ed) & P).
  apply parallel_next in P as ((e & Ee) & P). apply parallel_next in P as ((f & Ef) & _). rewrite Ea, Eb, Ec, Ed, Ee, Ef in Er. injection Er as <-.
  rewrite <- (o_unique_vertices_report m m' H U), Ea.
  destruct (colocation_reordered m m' H U _ _ Eb) as (b' & -> & Rb). destruct (section_adjacency_reordered _ _ Ec) as (c' & -> & Rc).
  destruct (section_degeneration_reordered m m' H U _ _ _ st' _ Ed) as (d' & -> & Rd1 & Rd2). destruct (Hx _ Ee) as (e' & -> & Re).
  destruct (section_manifold_reordered _ _ _ Ef) as (f' & -> & Rf1 & Rf2). cbn [status bind parallel_invoke assigned]. eexists. split; [reflexivity|].
  constructor; cbn [sc_unique_vertices sc_colocation sc_adjacency sc_degeneration sc_intersections sc_manifold sc_negative]; auto.
  apply (section_negative_reordered m m' H U).
Qed.
Lemma brep_meshes_reordered : forall o st st' x x', settled x x' ->
  follows reordered_brep_meshes (inspect_brep_meshes o m st x) (inspect_brep_meshes o m' st' x').
Proof.
  intros o st st' x x' Hx r Er. unfold inspect_brep_meshes in *. cbv zeta in *. apply parallel_run in Er as [P Er].
  apply parallel_next in P as ((a & Ea) & P). apply parallel_next in P as ((b & Eb) & P). apply parallel_next in P as ((c & Ec) & P). apply parallel_next in P as ((d & Ed) & P).
  apply parallel_next in P as ((e & Ee) & P). apply parallel_next in P as ((f & Ef) & _). rewrite Ea, Eb, Ec, Ed, Ee, Ef in Er. injection Er as <-.
  rewrite <- (o_unique_vertices_report m m' H U), Ea.
  destruct (colocation_reordered m m' H U _ _ Eb) as (b' & -> & Rb). destruct (brep_adjacency_reordered _ _ Ec) as (c' & -> & Rc1 & Rc2).
  destruct (degeneration_reordered m m' H U _ _ _ st' _ Ed) as (d' & -> & Rd1 & Rd2 & Rd3). destruct (Hx _ Ee) as (e' & -> & Re).
  destruct (brep_manifold_reordered _ _ _ Ef) as (f' & -> & Rf1 & Rf2 & Rf3 & Rf4 & Rf5). cbn [status bind parallel_invoke assigned]. eexists. split; [reflexivity|].
  constructor; cbn [br_unique_vertices br_colocation br_adjacency br_degeneration br_intersections br_manifold br_negative]; auto.
  apply (brep_negative_reordered m m' H U).
Qed.
End Manifold.
