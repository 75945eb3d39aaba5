(** Unique vertices numbered in another way: non manifold edges and facets of the model. *)
From Coq Require Import String Ascii List Arith NArith ZArith Bool Lia Permutation.
From Verif Require Import Base BaseFacts Model_Issues Types Model_Hash Model_Colocation Model_Manifold Model_Topology Model_Results Spec_Colocation Spec_Renumber Spec_Relabel
  Proof_Messages Proof_Order Proof_Colocation Proof_Manifold3 Proof_Renumber Proof_Relabel.
Import ListNotations.
Open Scope list_scope.

Lemma key_sym : forall a b, uv_edge_key a b = uv_edge_key b a.
Proof.
  intros [a|] [b|]; unfold uv_edge_key, uv_leb; try reflexivity. destruct (Nat.leb_spec a b) as [L|L], (Nat.leb_spec b a) as [K|K]; try reflexivity; [|lia].
  replace b with a by lia. reflexivity.
Qed.
Lemma key_cases : forall a b, uv_edge_key a b = (a, b) \/ uv_edge_key a b = (b, a).
Proof. intros a b. unfold uv_edge_key. destruct (uv_leb a b); auto. Qed.
Lemma key_iff : forall a b c d, uv_edge_key a b = uv_edge_key c d <-> (a = c /\ b = d) \/ (a = d /\ b = c).
Proof.
  intros a b c d. split.
  - intros E. destruct (key_cases a b) as [A|A], (key_cases c d) as [C|C]; rewrite A, C in E; injection E as -> ->; auto.
  - intros [[-> ->]|[-> ->]]; [reflexivity|apply key_sym].
Qed.
Lemma emplace_mapped : forall K V (eqb eqb' : K -> K -> bool) (g : K -> K) k (init : V) upd l, (forall k', In k' (map fst l) -> eqb' (g k') (g k) = eqb k' k) ->
  emplace_or_update eqb' (g k) init upd (map (fun kv => (g (fst kv), snd kv)) l) = map (fun kv => (g (fst kv), snd kv)) (emplace_or_update eqb k init upd l).
Proof.
  intros K V eqb eqb' g k init upd l. induction l as [|[k' v] l IH]; intros E; [reflexivity|]. cbn [map emplace_or_update fst snd].
  rewrite (E k' (or_introl eq_refl)). rewrite IH by (intros x I; apply E; right; exact I). destruct (eqb k' k); reflexivity.
Qed.
Lemma emplace_keys : forall K V (eqb : K -> K -> bool) k (init : V) upd l x, In x (map fst (emplace_or_update eqb k init upd l)) -> x = k \/ In x (map fst l).
Proof.
  intros K V eqb k init upd l x. induction l as [|[k' v] l IH]; cbn [emplace_or_update map fst In].
  - intros [<-|[]]. auto.
  - destruct (eqb k' k); cbn [map fst In]; [tauto|]. intros [<-|I]; [auto|]. destruct (IH I); auto.
Qed.

Section ModelEdges.
Context (f : nat -> nat) (m : Model) (cmvs : list (list ComponentMeshVertex)) (back : ComponentMeshVertex -> option nat).
Notation m' := (relink m cmvs back).
Context (R : relabelled f m m').
Let N := rl_numbers _ _ _ R.
Let NB := rl_nb _ _ _ R.
Let BK := rl_unique _ _ _ R.
Let RG := rl_range _ _ _ R.
Notation F := (option_map f).
Definition good (o : option nat) : Prop := forall v, o = Some v -> v < nb_unique_vertices m.
Lemma good_uv : forall c, good (m_unique_vertex m c). Proof. intros c v. apply RG. Qed.
Lemma good_inj : forall a b, good a -> good b -> F a = F b -> a = b.
Proof. intros [a|] [b|] A B E; cbn in E; try discriminate; [|reflexivity]. injection E as E. f_equal. apply (proj2 N); [apply A; reflexivity|apply B; reflexivity|exact E]. Qed.
Definition nk (k : option nat * option nat) : option nat * option nat := uv_edge_key (F (fst k)) (F (snd k)).
Lemma nk_key : forall a b, nk (uv_edge_key a b) = uv_edge_key (F a) (F b).
Proof. intros a b. unfold nk. destruct (key_cases a b) as [-> | ->]; cbn [fst snd]; [reflexivity|apply key_sym]. Qed.
Lemma key_relabelled : forall s e, model_edge_key m' s e = nk (model_edge_key m s e).
Proof. intros s e. unfold model_edge_key, surface_uv. rewrite nk_key. f_equal; apply BK. Qed.
Definition good_key (k : option nat * option nat) : Prop := good (fst k) /\ good (snd k) /\ uv_edge_key (fst k) (snd k) = k.
Lemma key_good : forall s e, good_key (model_edge_key m s e).
Proof.
  intros s e. unfold model_edge_key, surface_uv, good_key. set (a := m_unique_vertex _ _). set (b := m_unique_vertex _ _). assert (A : good a) by apply good_uv. assert (B : good b) by apply good_uv.
  destruct (key_cases a b) as [E|E]; rewrite E; cbn [fst snd]; (split; [assumption|split; [assumption|]]); [exact E|rewrite key_sym; exact E].
Qed.
Lemma nk_eqb : forall k k', good_key k -> good_key k' -> uv_pair_eqb (nk k) (nk k') = uv_pair_eqb k k'.
Proof.
  intros [a b] [c d] (A & B & E) (C & D & E'). cbn [fst snd] in *. apply eq_true_iff_eq. rewrite !uv_pair_eqb_eq. split; [|intros X; rewrite X; reflexivity].
  unfold nk. cbn [fst snd]. rewrite key_iff. intros X. rewrite <- E, <- E'. apply key_iff. destruct X as [[X Y]|[X Y]]; [left|right]; split; apply good_inj; assumption.
Qed.
Definition nkv (kv : (option nat * option nat) * list uuid) : (option nat * option nat) * list uuid := (nk (fst kv), snd kv).
Lemma edges_of_surface : forall s es acc, (forall k, In k (map fst acc) -> good_key k) ->
  let step m acc e := if counted_edge (co_mesh s) e then emplace_or_update uv_pair_eqb (model_edge_key m s e) [co_id s] (fun l => l ++ [co_id s])%list acc else acc in
  fold_left (step m') es (map nkv acc) = map nkv (fold_left (step m) es acc) /\ (forall k, In k (map fst (fold_left (step m) es acc)) -> good_key k).
Proof.
  intros s es. induction es as [|e es IH]; intros acc G step; [split; [reflexivity|exact G]|]. cbn [fold_left].
  assert (S : step m' (map nkv acc) e = map nkv (step m acc e)).
  { unfold step. destruct (counted_edge (co_mesh s) e); [|reflexivity]. rewrite key_relabelled. unfold nkv. apply emplace_mapped. intros k' I. apply nk_eqb; [apply G, I|apply key_good]. }
  rewrite S. apply IH. intros k I. unfold step in I. destruct (counted_edge (co_mesh s) e); [|apply G, I]. apply emplace_keys in I as [->|I]; [apply key_good|apply G, I].
Qed.
Lemma model_edges_relabelled : model_edges m' = map nkv (model_edges m).
Proof.
  unfold model_edges. cbn [m_surfaces relink].
  assert (K : forall ss acc, (forall k, In k (map fst acc) -> good_key k) ->
    let step m acc s := fold_left (fun acc e => if counted_edge (co_mesh s) e then emplace_or_update uv_pair_eqb (model_edge_key m s e) [co_id s] (fun l => l ++ [co_id s])%list acc else acc) (all_polygon_edges (co_mesh s)) acc in
    fold_left (step m') ss (map nkv acc) = map nkv (fold_left (step m) ss acc)).
  { induction ss as [|s ss IH]; intros acc G step; [reflexivity|]. cbn [fold_left]. destruct (edges_of_surface s (all_polygon_edges (co_mesh s)) acc G) as [E G'].
    cbv zeta in E, G'. unfold step at 2. rewrite E. apply IH. exact G'. }
  apply (K (active (m_surfaces m)) []). intros k [].
Qed.
Lemma several_relabelled : forall uvs, (forall o, In o uvs -> good o) -> several_cmvs_on_one_vertex m' (map F uvs) = several_cmvs_on_one_vertex m uvs.
Proof.
  induction uvs as [|[uv|] uvs IH]; intros G; [reflexivity| |reflexivity]. pose proof (G _ (or_introl eq_refl) uv eq_refl) as B. cbn [map option_map several_cmvs_on_one_vertex].
  rewrite NB, IH by (intros o I; apply G; right; exact I). rewrite (proj2 (Nat.ltb_lt _ _) B), (proj2 (Nat.ltb_lt _ _) (proj1 N uv B)). rewrite (rl_links _ _ _ R uv B). reflexivity.
Qed.
Definition omap {A B} (g : A -> B) (o : outcome (option A)) : outcome (option B) := let! x := o in Ok (option_map g x).
Lemma lonely_line_relabelled : forall l, lonely_line m' l = omap (fun p => (F (fst p), F (snd p))) (lonely_line m l).
Proof.
  intros l. unfold lonely_line. destruct (ec_edges (co_mesh l)) as [|[v w] [|? ?]]; try reflexivity. change (nb_embeddings_of m' SurfaceT (co_id l)) with (nb_embeddings_of m SurfaceT (co_id l)).
  destruct (Nat.eqb (nb_embeddings_of m SurfaceT (co_id l)) 0); [reflexivity|]. cbv zeta. rewrite !BK.
  set (a := m_unique_vertex m (mkCMV (mkCID LineT (co_id l)) v)). set (b := m_unique_vertex m (mkCMV (mkCID LineT (co_id l)) w)).
  change [F a; F b] with (map F [a; b]). rewrite several_relabelled by (intros o [<-|[<-|[]]]; apply good_uv). unfold omap.
  destruct (several_cmvs_on_one_vertex m [a; b]) as [[|]|e|]; reflexivity.
Qed.
Lemma lonely_surface_relabelled : forall s, lonely_surface m' s = omap (map F) (lonely_surface m s).
Proof.
  intros s. unfold lonely_surface. destruct (negb (Nat.eqb (nb_polygons (co_mesh s)) 1)); [reflexivity|]. change (nb_embeddings_of m' BlockT (co_id s)) with (nb_embeddings_of m BlockT (co_id s)).
  destruct (Nat.eqb (nb_embeddings_of m BlockT (co_id s)) 0); [reflexivity|]. cbv zeta.
  assert (E : map (surface_uv m' s) (polygon_vertices (co_mesh s) 0) = map F (map (surface_uv m s) (polygon_vertices (co_mesh s) 0))) by (rewrite map_map; apply map_ext; intros v; apply BK).
  rewrite E, several_relabelled by (intros o I; apply in_map_iff in I as (v & <- & _); apply good_uv). unfold omap.
  destruct (several_cmvs_on_one_vertex m _) as [[|]|e|]; reflexivity.
Qed.
Lemma facets_relabelled : forall r, add_model_non_manifold_facets m (new_issues "non manifold model facets"%string) = Ok r ->
  exists r', add_model_non_manifold_facets m' (new_issues "non manifold model facets"%string) = Ok r' /\ ii_issues r' = map (new_facet f) (ii_issues r).
Proof.
  unfold add_model_non_manifold_facets. cbn [m_surfaces relink].
  assert (G : forall ss r0 r0' r, ii_issues r0' = map (new_facet f) (ii_issues r0) ->
    foldM (fun r s => let! o := lonely_surface m s in Ok (match o with Some vs => add_issue (vs, [co_id s]) (lonely_surface_message m s vs) r | None => r end)) ss r0 = Ok r ->
    exists r', foldM (fun r s => let! o := lonely_surface m' s in Ok (match o with Some vs => add_issue (vs, [co_id s]) (lonely_surface_message m' s vs) r | None => r end)) ss r0' = Ok r' /\
      ii_issues r' = map (new_facet f) (ii_issues r)).
  { induction ss as [|s ss IH]; intros r0 r0' r E X; cbn [foldM] in *; [injection X as <-; exists r0'; auto|].
    apply bind_Ok in X as (r1 & X1 & X2). apply bind_Ok in X1 as (o & Eo & X1). injection X1 as <-. rewrite lonely_surface_relabelled, Eo. cbn [omap bind].
    destruct o as [vs|]; cbn [option_map]; (eapply IH; [|exact X2]); [|exact E].
    cbn [add_issue ii_issues]. rewrite map_app. apply f_equal2; [exact E|reflexivity]. }
  intros r X. exact (G (active (m_surfaces m)) (new_issues "non manifold model facets"%string) (new_issues "non manifold model facets"%string) r eq_refl X).
Qed.
Lemma reported_edges : forall M kvs (r0 : InspectionIssues BRepNonManifoldEdge), ii_issues (fold_left (fun r kv => if Nat.leb (length (snd kv)) 1 then r else add_issue kv (model_edge_message M kv) r) kvs r0) =
  ii_issues r0 ++ filter (fun kv => negb (Nat.leb (length (snd kv)) 1)) kvs.
Proof.
  intros M kvs. induction kvs as [|kv kvs IH]; intros r0; [symmetry; apply app_nil_r|]. cbn [fold_left filter]. rewrite IH. destruct (Nat.leb (length (snd kv)) 1); cbn [negb]; [reflexivity|].
  cbn [add_issue ii_issues]. rewrite <- app_assoc. reflexivity.
Qed.
Lemma edges_relabelled : forall ho r, add_model_non_manifold_edges ho m (new_issues "non manifold model edges"%string) = Ok r ->
  exists r', add_model_non_manifold_edges ho m' (new_issues "non manifold model edges"%string) = Ok r' /\ relabelled_edges f r r'.
Proof.
  intros ho r X. unfold add_model_non_manifold_edges in *. cbv zeta in *. cbn [m_lines relink].
  assert (G : forall ls r0 r0' r, relabelled_edges f r0 r0' ->
    foldM (fun r l => let! o := lonely_line m l in Ok (match o with Some vs => add_issue (vs, [co_id l]) (lonely_line_message m l vs) r | None => r end)) ls r0 = Ok r ->
    exists r', foldM (fun r l => let! o := lonely_line m' l in Ok (match o with Some vs => add_issue (vs, [co_id l]) (lonely_line_message m' l vs) r | None => r end)) ls r0' = Ok r' /\
      relabelled_edges f r r').
  { induction ls as [|l ls IH]; intros r0 r0' rr E Y; cbn [foldM] in *; [injection Y as <-; exists r0'; auto|].
    apply bind_Ok in Y as (r1 & Y1 & Y2). apply bind_Ok in Y1 as (o & Eo & Y1). injection Y1 as <-. rewrite lonely_line_relabelled, Eo. cbn [omap bind].
    destruct o as [vs|]; cbn [option_map]; (eapply IH; [|exact Y2]); [|exact E]. destruct E as (k & P & Q).
    exists (k ++ [((F (fst vs), F (snd vs)), [co_id l])]). cbn [add_issue ii_issues]. split; [apply Permutation_app_tail, P|].
    apply Forall2_app; [exact Q|]. constructor; [|constructor]. split; [reflexivity|left; reflexivity]. }
  eapply G; [|exact X]. unfold relabelled_edges. rewrite !reported_edges, model_edges_relabelled. cbn [new_issues ii_issues app].
  exists (map nkv (filter (fun kv => negb (Nat.leb (length (snd kv)) 1)) (visit ho (model_edges m)))). split.
  - transitivity (map nkv (filter (fun kv => negb (Nat.leb (length (snd kv)) 1)) (model_edges m))).
    + apply Permutation_map. assert (P := visit_permutes ho _ (model_edges m)). revert P. generalize (visit ho (model_edges m)) (model_edges m). intros a b P.
      induction P as [|x a' b' P IH|x y a'|a' b' c P1 IH1 P2 IH2]; [constructor| | |etransitivity; eassumption].
      * cbn [filter]. destruct (negb _); [constructor|]; exact IH.
      * cbn [filter]. destruct (negb (Nat.leb (length (snd x)) 1)), (negb (Nat.leb (length (snd y)) 1)); try reflexivity. constructor.
    + assert (E : forall l, map nkv (filter (fun kv => negb (Nat.leb (length (snd kv)) 1)) l) = filter (fun kv => negb (Nat.leb (length (snd kv)) 1)) (map nkv l)).
      { induction l as [|kv l IH]; [reflexivity|]. cbn [filter map]. change (snd (nkv kv)) with (snd kv). destruct (negb _); cbn [map]; rewrite IH; reflexivity. }
      rewrite E. assert (P := visit_permutes ho _ (map nkv (model_edges m))). symmetry in P. revert P. generalize (visit ho (map nkv (model_edges m))) (map nkv (model_edges m)). intros a b P.
      induction P as [|x a' b' P IH|x y a'|a' b' c P1 IH1 P2 IH2]; [constructor| | |etransitivity; eassumption].
      * cbn [filter]. destruct (negb _); [constructor|]; exact IH.
      * cbn [filter]. destruct (negb (Nat.leb (length (snd x)) 1)), (negb (Nat.leb (length (snd y)) 1)); try reflexivity. constructor.
  - generalize (filter (fun kv => negb (Nat.leb (length (snd kv)) 1)) (visit ho (model_edges m))). intros l. induction l as [|kv l IH]; [constructor|]. cbn [map]. constructor; [|exact IH].
    split; [reflexivity|]. cbn [nkv fst]. apply key_cases.
Qed.
Lemma manifold_relabelled : forall geo ho r, inspect_brep_manifold geo ho m = Ok r -> exists r', inspect_brep_manifold geo ho m' = Ok r' /\
  bm_vertices r' = bm_vertices r /\ bm_edges r' = bm_edges r /\ bm_facets r' = bm_facets r /\ relabelled_edges f (bm_model_edges r) (bm_model_edges r') /\
  ii_issues (bm_model_facets r') = map (new_facet f) (ii_issues (bm_model_facets r)).
Proof.
  intros geo ho r X. unfold inspect_brep_manifold in *. apply bind_Ok in X as (a & Xa & X). apply bind_Ok in X as (b & Xb & X). apply bind_Ok in X as (c & Xc & X).
  apply bind_Ok in X as (d & Xd & X). apply bind_Ok in X as (e & Xe & X). injection X as <-.
  rewrite (r_manifold_vertices m cmvs back), Xa. cbn [bind]. rewrite (r_manifold_edges m cmvs back), Xb. cbn [bind]. rewrite (r_manifold_facets m cmvs back), Xc. cbn [bind].
  destruct (edges_relabelled ho d Xd) as (d' & -> & Rd). cbn [bind]. destruct (facets_relabelled e Xe) as (e' & -> & Re). cbn [bind].
  eexists. split; [reflexivity|]. cbn [bm_vertices bm_edges bm_facets bm_model_edges bm_model_facets]. auto.
Qed.
End ModelEdges.
