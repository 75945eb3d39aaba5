From Coq Require Import String Ascii List Arith NArith ZArith Bool Lia Sorted Permutation.
From Verif Require Import Base BaseFacts Model_Issues Types Model_Colocation Model_Cycles Model_Hash Model_Manifold
  Spec_Colocation Spec_Maps Spec_Cycles Spec_Adjacency Spec_Manifold
  Proof_Issues Proof_Colocation Proof_Colocation2 Proof_Maps Proof_Colocation3 Proof_Cycles Proof_Adjacency Proof_Hash
  Proof_Manifold Proof_Manifold2.
Import ListNotations.
Open Scope list_scope.

(** ** Two loops over components into one map *)
Lemma two_component_loops : forall T C1 C2 (cid1 : C1 -> uuid) (cid2 : C2 -> uuid)
  (body1 : C1 -> outcome (InspectionIssues T)) (body2 : C2 -> outcome (InspectionIssues T)) l1 l2 d (spec : uuid -> list T -> Prop),
  NoDup (map cid1 l1 ++ map cid2 l2) ->
  (forall c, In c l1 -> exists r, body1 c = Ok r /\ below_2_32 (length (ii_issues r)) /\ spec (cid1 c) (ii_issues r)) ->
  (forall c, In c l2 -> exists r, body2 c = Ok r /\ below_2_32 (length (ii_issues r)) /\ spec (cid2 c) (ii_issues r)) ->
  (forall id l, spec id l ->
     (exists c, In c l1 /\ cid1 c = id /\ forall r, body1 c = Ok r -> ii_issues r = [] -> l = []) \/
     (exists c, In c l2 /\ cid2 c = id /\ forall r, body2 c = Ok r -> ii_issues r = [] -> l = [])) ->
  exists m, (let! acc := foldM (fun acc c => let! r := body1 c in Ok (add_issues_to_map (cid1 c) r acc)) l1 (new_issues_map d) in
             foldM (fun acc c => let! r := body2 c in Ok (add_issues_to_map (cid2 c) r acc)) l2 acc) = Ok m /\ map_reports m spec.
Proof.
  intros T C1 C2 cid1 cid2 body1 body2 l1 l2 d spec Hn H1 H2 H3.
  set (cid := fun c : C1 + C2 => match c with inl x => cid1 x | inr x => cid2 x end).
  set (body := fun c : C1 + C2 => match c with inl x => body1 x | inr x => body2 x end).
  destruct (component_loop_reports T (C1 + C2) cid body (map inl l1 ++ map inr l2) d spec) as (m & K1 & K2).
  - rewrite map_app, !map_map. exact Hn.
  - intros c Hc. apply in_app_or in Hc. destruct Hc as [Hc|Hc]; apply in_map_iff in Hc; destruct Hc as (x & <- & Hx); cbn; auto.
  - intros id l Hs. destruct (H3 id l Hs) as [(c & Hc & Hid & K)|(c & Hc & Hid & K)].
    + exists (inl c). split; [apply in_or_app; left; apply in_map; exact Hc|]. auto.
    + exists (inr c). split; [apply in_or_app; right; apply in_map; exact Hc|]. auto.
  - exists m. split; [|exact K2]. rewrite <- K1, foldM_app, !foldM_map. cbn [cid body].
    destruct (foldM _ l1 (new_issues_map d)); cbn [bind]; [|reflexivity|reflexivity]. rewrite foldM_map. reflexivity.
Qed.
Lemma NoDup_surfaces_blocks : forall m, unique_ids m ->
  NoDup (map co_id (active (m_surfaces m)) ++ map co_id (active (m_blocks m))).
Proof.
  intros m Hu. apply unique_ids_facts in Hu. apply NoDup_app_intro; [apply NoDup_active_ids, Hu|apply NoDup_active_ids, Hu|].
  intros x H1 H2. apply in_map_iff in H1. apply in_map_iff in H2. destruct H1 as (s & <- & H1), H2 as (b & E & H2).
  apply in_active in H1. apply in_active in H2. apply (if_sb m Hu (co_id s)); [apply in_map; apply H1|rewrite <- E; apply in_map; apply H2].
Qed.
Lemma lists_lt_bound : forall (P : nat -> Prop) n l, lists_exactly lt P l -> (forall x, P x -> x < n) -> length l <= n.
Proof.
  intros P n l [H1 H2] H. rewrite <- (seq_length n 0). apply NoDup_incl_length; [apply StronglySorted_lt_NoDup; exact H1|].
  intros x Hx. apply in_seq. apply H2 in Hx. specialize (H x Hx). lia.
Qed.

Lemma vertex_manifold_map : forall geo m d, unique_ids m ->
  (forall s, In s (m_surfaces m) -> co_active s = true -> surface_vertices_in_range (co_mesh s) /\
     below_2_32 (length (sm_points (co_mesh s))) /\
     forall v, v < length (sm_points (co_mesh s)) ->
       sm_around_vertex (co_mesh s) v = Throw OpenGeodeExn \/ exists fan, sm_around_vertex (co_mesh s) v = Ok fan) ->
  (forall b, In b (m_blocks m) -> co_active b = true -> solid_vertices_in_range (co_mesh b) /\
     below_2_32 (length (so_points (co_mesh b))) /\
     forall v, v < length (so_points (co_mesh b)) -> exists fan, so_around_vertex (co_mesh b) v = Ok fan) ->
  exists r, add_component_meshes_non_manifold_vertices geo m (new_issues_map d) = Ok r /\
    map_reports r (vertex_manifold_report m).
Proof.
  intros geo m d Hu Hs Hb. unfold add_component_meshes_non_manifold_vertices, add_surfaces_meshes_non_manifold_vertices.
  set (body1 := fun s : Component SurfaceMesh => let! r := surface_non_manifold_vertices geo (co_mesh s) in
    Ok (set_description (StrCat ["Surface "; named m (co_name s) (co_id s); " non manifold vertices"]%string) r)).
  set (body2 := fun b : Component SolidMesh => let! r := solid_non_manifold_vertices geo (co_mesh b) in
    Ok (set_description (StrCat ["Block "; named m (co_name b) (co_id b); " non manifold vertices"]%string) r)).
  rewrite (foldM_ext_in _ _ _ (fun acc s => let! r := body1 s in Ok (add_issues_to_map (co_id s) r acc))).
  2:{ intros acc s _. unfold body1. destruct (surface_non_manifold_vertices _ _); reflexivity. }
  assert (B1 : forall s, In s (active (m_surfaces m)) -> exists r, body1 s = Ok r /\
    lists_exactly lt (surface_non_manifold_vertex (co_mesh s)) (ii_issues r) /\ below_2_32 (length (ii_issues r))).
  { intros s Hin. apply in_active in Hin. destruct Hin as [Hin Ha]. destruct (Hs s Hin Ha) as (R1 & R2 & R3).
    destruct (surface_vertices_spec geo (co_mesh s) R1 R3) as (r & b & E & L & _). unfold body1. rewrite E. cbn [bind].
    eexists. split; [reflexivity|]. cbn [set_description ii_issues]. split; [exact L|].
    assert (length (ii_issues r) <= length (sm_points (co_mesh s))) by (apply (lists_lt_bound _ _ _ L); intros x Hx; apply Hx).
    unfold below_2_32 in *. lia. }
  assert (B2 : forall s, In s (active (m_blocks m)) -> exists r, body2 s = Ok r /\
    lists_exactly lt (solid_non_manifold_vertex (co_mesh s)) (ii_issues r) /\ below_2_32 (length (ii_issues r))).
  { intros s Hin. apply in_active in Hin. destruct Hin as [Hin Ha]. destruct (Hb s Hin Ha) as (R1 & R2 & R3).
    destruct (solid_vertices_spec geo (co_mesh s) R1 R3) as (r & b & E & L & _). unfold body2. rewrite E. cbn [bind].
    eexists. split; [reflexivity|]. cbn [set_description ii_issues]. split; [exact L|].
    assert (length (ii_issues r) <= length (so_points (co_mesh s))) by (apply (lists_lt_bound _ _ _ L); intros x Hx; apply Hx).
    unfold below_2_32 in *. lia. }
  destruct (two_component_loops nat _ _ co_id co_id body1 body2 (active (m_surfaces m)) (active (m_blocks m)) d (vertex_manifold_report m)) as (r & E & R).
  - apply NoDup_surfaces_blocks. exact Hu.
  - intros s Hin. destruct (B1 s Hin) as (r & E & L & S). exists r. split; [exact E|]. split; [exact S|].
    apply in_active in Hin. left. exists s. tauto.
  - intros s Hin. destruct (B2 s Hin) as (r & E & L & S). exists r. split; [exact E|]. split; [exact S|].
    apply in_active in Hin. right. exists s. tauto.
  - intros id l [(s & Hin & Ha & <- & L)|(s & Hin & Ha & <- & L)]; [left|right]; exists s; (split; [apply in_active; auto|]); (split; [reflexivity|]);
      intros r Er Hnil.
    + destruct (B1 s) as (r' & E' & L' & _); [apply in_active; auto|]. rewrite Er in E'. injection E' as <-. apply (lists_exactly_nil _ _ _ _ _ L' L Hnil).
    + destruct (B2 s) as (r' & E' & L' & _); [apply in_active; auto|]. rewrite Er in E'. injection E' as <-. apply (lists_exactly_nil _ _ _ _ _ L' L Hnil).
  - exists r. split; [|exact R]. rewrite <- E. destruct (foldM _ (active (m_surfaces m)) _); cbn [bind]; try reflexivity.
    apply foldM_ext_in. intros acc s _. unfold body2. destruct (solid_non_manifold_vertices _ _); reflexivity.
Qed.

Lemma group_length : forall K V A (eqb : K -> K -> bool) (key : A -> K) (init : A -> V) upd l m,
  length (group eqb key init upd l m) <= length l + length m.
Proof.
  intros K V A eqb key init upd l. unfold group. induction l as [|x l IH]; intros m; cbn; [lia|].
  specialize (IH (emplace_or_update eqb (key x) (init x) (upd x) m)).
  assert (length (emplace_or_update eqb (key x) (init x) (upd x) m) <= S (length m)); [|lia].
  clear. induction m as [|[k v] m IH]; cbn; [lia|]. destruct (eqb k (key x)); cbn; lia.
Qed.
Lemma surface_edge_issues_bound : forall ho m, length (ii_issues (surface_non_manifold_edges ho m)) <= length (all_polygon_edges m).
Proof.
  intros ho m. unfold surface_non_manifold_edges. rewrite (fold_report _ _ (fun kv => edge_entry_is_wrong (snd kv)) fst).
  cbn [ii_issues new_issues app]. rewrite map_length. etransitivity; [apply filter_length_le|].
  rewrite (Permutation_length (visit_permutes ho _ _)). rewrite edge_map_group. etransitivity; [apply group_length|]. cbn. lia.
Qed.
Lemma firsts_length : forall A (k : A -> nat * nat) l ck, length (firsts k ck l) <= length l.
Proof. intros A k l. induction l as [|x l IH]; intros ck; cbn; [lia|]. destruct (existsb _ ck); cbn; [specialize (IH ck)|specialize (IH (k x :: ck))]; lia. Qed.
Lemma solid_edge_issues_bound : forall m r, around_edge_contract m -> solid_non_manifold_edges m = Ok r ->
  length (ii_issues r) <= length (all_polyhedron_edges m).
Proof.
  intros m r Hc H. unfold solid_non_manifold_edges in H.
  destruct (issues_loop_first_only m (all_polyhedron_edges m) [] (new_issues "Non manifold edges"%string)) as (r' & H1 & H2).
  { intros e He. apply edge_bad_iff; assumption. }
  rewrite H in H1. injection H1 as <-. rewrite H2. cbn. rewrite map_length. etransitivity; [apply filter_length_le|]. apply firsts_length.
Qed.
Lemma solid_edge_report_nil : forall m l l', solid_edge_report m l -> solid_edge_report m l' -> l = [] -> l' = [].
Proof.
  intros m l l' (el & -> & H) (el' & -> & H') E. apply map_nil_iff in E. apply map_nil_iff. apply (lists_exactly_nil _ _ _ _ _ H H' E).
Qed.
Lemma edge_manifold_map : forall ho m d, unique_ids m ->
  (forall s, In s (m_surfaces m) -> co_active s = true -> below_2_32 (length (all_polygon_edges (co_mesh s)))) ->
  (forall b, In b (m_blocks m) -> co_active b = true ->
     around_edge_contract (co_mesh b) /\ below_2_32 (length (all_polyhedron_edges (co_mesh b)))) ->
  exists r, add_component_meshes_non_manifold_edges ho m (new_issues_map d) = Ok r /\
    map_reports r (edge_manifold_report m).
Proof.
  intros ho m d Hu Hs Hb. unfold add_component_meshes_non_manifold_edges, add_surfaces_meshes_non_manifold_edges.
  set (body1 := fun s : Component SurfaceMesh =>
    Ok (set_description (StrCat ["Surface "; named m (co_name s) (co_id s); " non manifold edges"]%string) (surface_non_manifold_edges ho (co_mesh s)))).
  set (body2 := fun b : Component SolidMesh => let! r := solid_non_manifold_edges (co_mesh b) in
    Ok (set_description (StrCat ["Block "; named m (co_name b) (co_id b); " non manifold edges"]%string) r)).
  rewrite (foldM_ext_in _ _ _ (fun acc s => let! r := body1 s in Ok (add_issues_to_map (co_id s) r acc))) by reflexivity.
  assert (B2 : forall s, In s (active (m_blocks m)) -> exists r, body2 s = Ok r /\
    solid_edge_report (co_mesh s) (ii_issues r) /\ below_2_32 (length (ii_issues r))).
  { intros s Hin. apply in_active in Hin. destruct Hin as [Hin Ha]. destruct (Hb s Hin Ha) as (R1 & R2).
    destruct (solid_edges_spec (co_mesh s) R1) as (r & E & L). unfold body2. rewrite E. cbn [bind].
    eexists. split; [reflexivity|]. cbn [set_description ii_issues]. split; [exact L|].
    pose proof (solid_edge_issues_bound _ _ R1 E). unfold below_2_32 in *. lia. }
  destruct (two_component_loops (nat * nat) _ _ co_id co_id body1 body2 (active (m_surfaces m)) (active (m_blocks m)) d (edge_manifold_report m)) as (r & E & R).
  - apply NoDup_surfaces_blocks. exact Hu.
  - intros s Hin. eexists. split; [reflexivity|]. cbn [set_description ii_issues]. apply in_active in Hin. split.
    + pose proof (surface_edge_issues_bound ho (co_mesh s)). specialize (Hs s (proj1 Hin) (proj2 Hin)). unfold below_2_32 in *. lia.
    + left. exists s. split; [tauto|]. split; [tauto|]. split; [reflexivity|]. apply (surface_edges_spec ho ho).
  - intros s Hin. destruct (B2 s Hin) as (r & E & L & S). exists r. split; [exact E|]. split; [exact S|].
    apply in_active in Hin. right. exists s. tauto.
  - intros id l [(s & Hin & Ha & <- & L)|(s & Hin & Ha & <- & L)]; [left|right]; exists s; (split; [apply in_active; auto|]); (split; [reflexivity|]);
      intros r Er Hnil.
    + injection Er as <-. cbn [set_description ii_issues] in Hnil. apply (lists_once_nil _ _ _ _ (proj1 (surface_edges_spec ho ho (co_mesh s))) L Hnil).
    + destruct (B2 s) as (r' & E' & L' & _); [apply in_active; auto|]. rewrite Er in E'. injection E' as <-. apply (solid_edge_report_nil _ _ _ L' L Hnil).
  - exists r. split; [|exact R]. rewrite <- E. destruct (foldM _ (active (m_surfaces m)) _); cbn [bind]; try reflexivity.
    apply foldM_ext_in. intros acc s _. unfold body2. destruct (solid_non_manifold_edges _); reflexivity.
Qed.

Lemma facet_manifold_map : forall ho m d, unique_ids m ->
  (forall b, In b (m_blocks m) -> co_active b = true ->
     simple_facets (co_mesh b) /\ below_2_32 (length (all_polyhedron_facets (co_mesh b)))) ->
  exists r, add_component_meshes_non_manifold_facets ho m (new_issues_map d) = Ok r /\
    map_reports r (facet_manifold_report m).
Proof.
  intros ho m d Hu Hb. apply unique_ids_facts in Hu. unfold add_component_meshes_non_manifold_facets.
  set (body := fun b : Component SolidMesh =>
    Ok (set_description (StrCat ["Block "; named m (co_name b) (co_id b); " non manifold facets"]%string) (solid_non_manifold_facets ho (co_mesh b)))).
  apply (component_loop_reports (list nat) _ co_id body).
  - apply NoDup_active_ids, Hu.
  - intros b Hin. eexists. split; [reflexivity|]. cbn [set_description ii_issues]. apply in_active in Hin. destruct (Hb b (proj1 Hin) (proj2 Hin)) as [S1 S2]. split.
    + unfold solid_non_manifold_facets. rewrite (fold_report _ _ (fun kv : list nat * N => N.ltb 2 (snd kv)) fst).
      cbn [ii_issues new_issues app]. rewrite map_length.
      set (X := filter _ _). assert (length X <= length (all_polyhedron_facets (co_mesh b))); [|unfold below_2_32 in *; lia].
      unfold X. etransitivity; [apply filter_length_le|]. rewrite (Permutation_length (visit_permutes ho _ _)).
      rewrite facet_map_group. etransitivity; [apply group_length|]. cbn. lia.
    + exists b. split; [tauto|]. split; [tauto|]. split; [reflexivity|]. apply (solid_facets_spec ho ho); assumption.
  - intros id l (b & Hin & Ha & <- & L). exists b. split; [apply in_active; auto|]. split; [reflexivity|].
    intros r Er Hnil. injection Er as <-. cbn [set_description ii_issues] in Hnil. destruct (Hb b Hin Ha) as [S1 S2].
    destruct (solid_facets_spec ho ho (co_mesh b) S1 S2) as [(_ & R2 & _) _]. rewrite Hnil in R2.
    destruct l as [|c l]; [reflexivity|]. exfalso. destruct L as (L1 & _). destruct (R2 c (L1 c (or_introl eq_refl))) as (c' & [] & _).
Qed.

(** ** C18 *)
Lemma uv_pair_eqb_eq : forall a b, uv_pair_eqb a b = true <-> a = b.
Proof.
  intros [a a'] [b b']. unfold uv_pair_eqb. cbn. rewrite andb_true_iff, !opt_eqb_eq. split; [intros [-> ->]; reflexivity|].
  intros H. injection H as -> ->. auto.
Qed.
Lemma uv_edge_key_eq : forall v w a b, uv_edge_key v w = (a, b) <-> uv_ordered a b /\ (v = a /\ w = b \/ v = b /\ w = a).
Proof.
  intros v w a b. unfold uv_edge_key. split.
  - destruct (uv_leb v w) eqn:E; intros H; injection H as <- <-; (split; [|tauto]); destruct v, w; cbn in *; auto; try discriminate.
    + apply Nat.leb_le. exact E.
    + apply Nat.leb_gt in E. lia.
  - intros [H [[-> ->]|[-> ->]]]; destruct a as [a|], b as [b|]; cbn in *; try contradiction; try reflexivity.
    + apply Nat.leb_le in H. rewrite H. reflexivity.
    + destruct (Nat.leb_spec b a) as [K|K]; [|reflexivity]. assert (a = b) by lia. subst. reflexivity.
Qed.
Definition occ_item := ((nat * Component SurfaceMesh) * PolygonEdge)%type.
Definition occurrences (surfaces : list (Component SurfaceMesh)) : list occ_item :=
  flat_map (fun ks => map (pair ks) (filter (counted_edge (co_mesh (snd ks))) (all_polygon_edges (co_mesh (snd ks))))) (enum surfaces).
Definition item_key (m : Model) (x : occ_item) := model_edge_key m (snd (fst x)) (snd x).
Definition item_id (x : occ_item) := co_id (snd (fst x)).
Definition item_place (x : occ_item) : nat * PolygonEdge := (fst (fst x), snd x).
Lemma group_app : forall K V A (eqb : K -> K -> bool) (key : A -> K) (init : A -> V) upd l1 l2 m,
  group eqb key init upd (l1 ++ l2) m = group eqb key init upd l2 (group eqb key init upd l1 m).
Proof. intros. unfold group. apply fold_left_app. Qed.
Lemma model_edges_group : forall m, model_edges m =
  group uv_pair_eqb (item_key m) (fun x => [item_id x]) (fun x l => l ++ [item_id x]) (occurrences (active (m_surfaces m))) [].
Proof.
  intros m. unfold model_edges, occurrences.
  enough (G : forall ss k acc, fold_left (fun acc s =>
      fold_left (fun acc e => if counted_edge (co_mesh s) e
          then emplace_or_update uv_pair_eqb (model_edge_key m s e) [co_id s] (fun l => l ++ [co_id s])%list acc
          else acc) (all_polygon_edges (co_mesh s)) acc) ss acc =
    group uv_pair_eqb (item_key m) (fun x => [item_id x]) (fun x l => l ++ [item_id x])
      (flat_map (fun ks : nat * Component SurfaceMesh => map (pair ks) (filter (counted_edge (co_mesh (snd ks))) (all_polygon_edges (co_mesh (snd ks)))))
        (combine (seq k (length ss)) ss)) acc) by exact (G _ 0 _).
  intros ss. induction ss as [|s ss IH]; intros k acc; cbn [fold_left length seq combine flat_map]; [reflexivity|].
  rewrite group_app, (IH (S k)). f_equal. cbn [snd]. generalize (all_polygon_edges (co_mesh s)) as es. intros es. revert acc.
  induction es as [|e es IHe]; intros acc; cbn [fold_left filter map]; [reflexivity|].
  rewrite IHe. destruct (counted_edge (co_mesh s) e); cbn [map]; reflexivity.
Qed.
Lemma in_occurrences : forall ss x, In x (occurrences ss) <->
  nth_error ss (fst (fst x)) = Some (snd (fst x)) /\ is_polygon_edge (co_mesh (snd (fst x))) (snd x) /\
  exists q, sm_adjacent (co_mesh (snd (fst x))) (snd x) = Some q /\ fst (snd x) <= q.
Proof.
  intros ss [[k s] e]. cbn [fst snd]. unfold occurrences. rewrite in_flat_map.
  assert (C : counted_edge (co_mesh s) e = true <-> exists q, sm_adjacent (co_mesh s) e = Some q /\ fst e <= q).
  { unfold counted_edge. destruct (sm_adjacent (co_mesh s) e) as [q|]; split.
    - intros H. exists q. split; [reflexivity|]. apply negb_true_iff, Nat.ltb_ge in H. exact H.
    - intros (q' & E & H). injection E as <-. apply negb_true_iff, Nat.ltb_ge. exact H.
    - discriminate.
    - intros (q & E & _). discriminate. }
  split.
  - intros ([k' s'] & H1 & H2). apply in_map_iff in H2. destruct H2 as (e' & E & H2). injection E as -> -> ->.
    apply filter_In in H2. cbn [snd] in H2. destruct H2 as [H2 H3]. apply in_all_polygon_edges in H2. apply C in H3.
    split; [|split; [exact H2|exact H3]]. apply in_enum in H1. exact H1.
  - intros (H1 & H2 & H3). exists (k, s). split; [apply in_enum; exact H1|]. apply in_map. apply filter_In. cbn [snd].
    split; [apply in_all_polygon_edges; exact H2|apply C; exact H3].
Qed.
Lemma occurrences_sorted : forall ss, StronglySorted (fun x y => occurrence_lt (item_place x) (item_place y)) (occurrences ss).
Proof.
  intros ss. unfold occurrences, enum.
  enough (G : forall k, StronglySorted (fun x y => occurrence_lt (item_place x) (item_place y))
     (flat_map (fun ks : nat * Component SurfaceMesh => map (pair ks) (filter (counted_edge (co_mesh (snd ks))) (all_polygon_edges (co_mesh (snd ks)))))
        (combine (seq k (length ss)) ss)) /\
     forall x, In x (flat_map (fun ks : nat * Component SurfaceMesh => map (pair ks) (filter (counted_edge (co_mesh (snd ks))) (all_polygon_edges (co_mesh (snd ks)))))
        (combine (seq k (length ss)) ss)) -> k <= fst (fst x)) by exact (proj1 (G 0)).
  induction ss as [|s ss IH]; intros k; cbn [length seq combine flat_map snd].
  - split; [constructor|intros x []].
  - destruct (IH (S k)) as [S1 S2]. split.
    + assert (H : StronglySorted lex_lt (filter (counted_edge (co_mesh s)) (all_polygon_edges (co_mesh s))))
        by (apply StronglySorted_filter, all_polygon_edges_sorted).
      induction H as [|e l H IHl Ha]; cbn [map app]; [exact S1|]. constructor; [exact IHl|]. rewrite Forall_forall in *.
      intros x Hx. apply in_app_or in Hx. destruct Hx as [Hx|Hx].
      * apply in_map_iff in Hx. destruct Hx as (e' & <- & He'). right. cbn. split; [reflexivity|]. apply Ha. exact He'.
      * left. cbn. apply S2 in Hx. lia.
    + intros x Hx. apply in_app_or in Hx. destruct Hx as [Hx|Hx]; [apply in_map_iff in Hx; destruct Hx as (e & <- & _); cbn; lia|].
      apply S2 in Hx. lia.
Qed.
Lemma occurrence_list : forall m a b, uv_ordered a b ->
  lists_exactly occurrence_lt (interior_occurrence m (active (m_surfaces m)) a b)
    (map item_place (with_key uv_pair_eqb (item_key m) (a, b) (occurrences (active (m_surfaces m))))).
Proof.
  intros m a b Hab. split.
  - apply (StronglySorted_map _ _ (fun x y => occurrence_lt (item_place x) (item_place y))); [auto|].
    apply StronglySorted_filter, occurrences_sorted.
  - intros [k e]. rewrite in_map_iff. split.
    + intros ([[k' s] e'] & E & H). unfold item_place in E. cbn in E. injection E as -> ->.
      apply (in_with_key _ _ _ uv_pair_eqb_eq) in H. destruct H as [H1 H2]. apply in_occurrences in H1. cbn [fst snd] in H1.
      destruct H1 as (N1 & N2 & q & N3 & N4). exists s, q. cbn [fst snd]. split; [exact N1|]. split; [exact N2|]. split; [exact N3|].
      split; [exact N4|]. unfold item_key, model_edge_key in H2. cbn [fst snd] in H2. apply uv_edge_key_eq in H2. apply H2.
    + intros (s & q & N1 & N2 & N3 & N4 & N5). cbn [fst snd] in *. exists ((k, s), e). split; [reflexivity|].
      apply (in_with_key _ _ _ uv_pair_eqb_eq). split.
      * apply in_occurrences. cbn [fst snd]. split; [exact N1|]. split; [exact N2|]. eauto.
      * unfold item_key, model_edge_key. cbn [fst snd]. apply uv_edge_key_eq. split; [exact Hab|exact N5].
Qed.
Lemma occurrence_lt_trans : forall a b c, occurrence_lt a b -> occurrence_lt b c -> occurrence_lt a c.
Proof. unfold occurrence_lt, lex_lt. intros a b c H1 H2. lia. Qed.
Lemma occurrence_lt_irrefl : forall a, ~ occurrence_lt a a.
Proof. unfold occurrence_lt, lex_lt. intros a H. lia. Qed.
Lemma sorted_unique : forall A (R : A -> A -> Prop) l l', (forall a, ~ R a a) -> (forall a b c, R a b -> R b c -> R a c) ->
  StronglySorted R l -> StronglySorted R l' -> (forall x, In x l <-> In x l') -> l = l'.
Proof.
  intros A R l l' Hi Ht H. revert l'. induction H as [|a l H IH Ha]; intros l' H' E.
  - destruct l' as [|b l']; [reflexivity|]. exfalso. apply (E b). left. reflexivity.
  - destruct H' as [|b l' H' Hb]; [exfalso; apply (E a); left; reflexivity|]. rewrite Forall_forall in Ha, Hb.
    assert (a = b) as <-.
    { assert (K1 := proj1 (E a) (or_introl eq_refl)). assert (K2 := proj2 (E b) (or_introl eq_refl)).
      destruct K1 as [K1|K1]; [congruence|]. destruct K2 as [K2|K2]; [congruence|]. exfalso. apply (Hi a). apply (Ht _ b); auto. }
    f_equal. apply IH; [exact H'|]. intros x. split; intros Hx.
    + assert (K := proj1 (E x) (or_intror Hx)). destruct K as [<-|K]; [exfalso; apply (Hi a); auto|exact K].
    + assert (K := proj2 (E x) (or_intror Hx)). destruct K as [<-|K]; [exfalso; apply (Hi a); auto|exact K].
Qed.
Lemma lists_exactly_unique : forall A (R : A -> A -> Prop) P l l', (forall a, ~ R a a) -> (forall a b c, R a b -> R b c -> R a c) ->
  lists_exactly R P l -> lists_exactly R P l' -> l = l'.
Proof. intros A R P l l' Hi Ht [S1 H1] [S2 H2]. apply (sorted_unique A R); auto. intros x. rewrite H1, H2. reflexivity. Qed.

Lemma in_model_edges : forall m k ids, In (k, ids) (model_edges m) <->
  ids = map item_id (with_key uv_pair_eqb (item_key m) k (occurrences (active (m_surfaces m)))) /\ ids <> [].
Proof.
  intros m k ids. rewrite model_edges_group, (in_group _ uv_pair_eqb_eq).
  assert (F : forall (xs : list occ_item) acc, fold_left (fun v y => v ++ [item_id y]) xs acc = acc ++ map item_id xs).
  { induction xs as [|y xs IH]; intros acc; cbn; [rewrite app_nil_r; reflexivity|]. rewrite IH, <- app_assoc. reflexivity. }
  split.
  - intros (x & xs & E & ->). rewrite F, E. cbn. split; [reflexivity|discriminate].
  - intros [-> Hne]. destruct (with_key _ _ _ _) as [|x xs]; [cbn in Hne; congruence|]. exists x, xs. split; [reflexivity|]. rewrite F. reflexivity.
Qed.
Lemma item_ids : forall ss l, (forall x, In x l -> In x (occurrences ss)) ->
  map Some (map item_id l) = map (fun x => option_map co_id (nth_error ss (fst x))) (map item_place l).
Proof.
  intros ss l H. rewrite !map_map. apply map_ext_in. intros x Hx. apply H in Hx. apply in_occurrences in Hx. destruct Hx as [Hx _].
  unfold item_place, item_id. cbn [fst]. rewrite Hx. reflexivity.
Qed.
Lemma shared_edge_entry : forall m kv, In kv (model_edges m) -> (Nat.leb (length (snd kv)) 1 = false <-> shared_interior_edge m kv).
Proof.
  intros m [[a b] ids] Hin. apply in_model_edges in Hin. destruct Hin as [-> Hne]. cbn [snd fst].
  set (w := with_key _ _ _ _) in *. rewrite Nat.leb_gt, map_length. unfold shared_interior_edge. cbn [fst snd].
  assert (Hab : uv_ordered a b).
  { destruct w as [|x w'] eqn:E; [cbn in Hne; congruence|]. assert (K : In x w) by (rewrite E; left; reflexivity).
    unfold w in K. apply (in_with_key _ _ _ uv_pair_eqb_eq) in K. destruct K as [_ K]. apply uv_edge_key_eq in K. apply K. }
  pose proof (occurrence_list m a b Hab) as L. fold w in L. fold (active (m_surfaces m)).
  assert (I : map Some (map item_id w) = map (fun x => option_map co_id (nth_error (active (m_surfaces m)) (fst x))) (map item_place w)).
  { apply item_ids. intros x Hx. unfold w in Hx. apply (in_with_key _ _ _ uv_pair_eqb_eq) in Hx. apply Hx. }
  split.
  - intros H. split; [exact Hab|]. exists (map item_place w). split; [exact L|]. rewrite map_length. split; [lia|exact I].
  - intros (_ & occ & L' & H2 & _).
    rewrite <- (map_length item_place w).
    rewrite (lists_exactly_unique _ _ _ _ _ occurrence_lt_irrefl occurrence_lt_trans L L'). lia.
Qed.
Lemma map_Some_inj' : forall A (a b : list A), map Some a = map Some b -> a = b.
Proof. exact map_Some_inj. Qed.
Lemma shared_edge_in : forall m kv, shared_interior_edge m kv -> In kv (model_edges m).
Proof.
  intros m [[a b] ids] (Hab & occ & L & H2 & I). cbn [fst snd] in *. fold (active (m_surfaces m)) in *.
  pose proof (occurrence_list m a b Hab) as L'. set (w := with_key _ _ _ _) in *.
  pose proof (lists_exactly_unique _ _ _ _ _ occurrence_lt_irrefl occurrence_lt_trans L' L) as E.
  assert (I' : map Some (map item_id w) = map (fun x => option_map co_id (nth_error (active (m_surfaces m)) (fst x))) (map item_place w)).
  { apply item_ids. intros x Hx. unfold w in Hx. apply (in_with_key _ _ _ uv_pair_eqb_eq) in Hx. apply Hx. }
  rewrite E, <- I in I'. apply map_Some_inj in I'. apply in_model_edges. fold w. split; [symmetry; exact I'|].
  intros K. rewrite K in I'. apply (f_equal (@length _)) in I'. apply (f_equal (@length _)) in E. rewrite map_length in *. cbn in I'. lia.
Qed.
Lemma shared_edges_listed : forall ho m,
  lists_once (shared_interior_edge m) (filter (fun kv => negb (Nat.leb (length (snd kv)) 1)) (visit ho (model_edges m))).
Proof.
  intros ho m. split.
  - assert (N : NoDup (map fst (filter (fun kv => negb (Nat.leb (length (snd kv)) 1)) (visit ho (model_edges m))))).
    { apply keys_visit_NoDup. rewrite model_edges_group. apply (group_NoDup _ uv_pair_eqb_eq). }
    apply NoDup_map_inv in N. exact N.
  - intros kv. rewrite filter_In, visit_in, negb_true_iff. split.
    + intros [H1 H2]. apply (shared_edge_entry m kv H1). exact H2.
    + intros H. pose proof (shared_edge_in m kv H) as Hin. split; [exact Hin|]. apply (shared_edge_entry m kv Hin). exact H.
Qed.

Lemma cmvs_shared_spec : forall m uvs, (forall o, In o uvs -> exists uv, o = Some uv /\ uv < nb_unique_vertices m) ->
  exists b, several_cmvs_on_one_vertex m uvs = Ok b /\ (b = false <-> forall o, In o uvs -> not_shared m o).
Proof.
  intros m uvs. induction uvs as [|o uvs IH]; intros H; cbn [several_cmvs_on_one_vertex].
  - exists false. split; [reflexivity|]. split; [intros _ o []|reflexivity].
  - destruct (H o (or_introl eq_refl)) as (uv & -> & Huv). apply Nat.ltb_lt in Huv. rewrite Huv.
    destruct (Nat.ltb_spec 1 (length (component_mesh_vertices m uv))) as [K|K].
    + exists true. split; [reflexivity|]. split; [discriminate|]. intros Q. destruct (Q _ (or_introl eq_refl)) as (x & E & Hx).
      injection E as <-. lia.
    + destruct IH as (b & E & Hb); [intros o Ho; apply H; right; exact Ho|]. exists b. split; [exact E|]. rewrite Hb. split.
      * intros Q o [<-|Ho]; [exists uv; auto|auto].
      * intros Q o Ho. apply Q. right. exact Ho.
Qed.
Lemma nb_embeddings_of_zero : forall m t id, Nat.eqb (nb_embeddings_of m t id) 0 = false <-> embedded_in m t id.
Proof.
  intros m t id. unfold nb_embeddings_of, embeddings, embedded_in. rewrite Nat.eqb_neq. split.
  - intros H. destruct (filter _ _) as [|c l] eqn:E; [cbn in H; lia|].
    assert (K : In c (filter (fun c => ctype_eqb (cid_type c) t) (map snd (filter (fun r => cid_id (fst r) =? id) (m_internal_rel m)))))
      by (rewrite E; left; reflexivity).
    apply filter_In in K. destruct K as [K1 K2]. apply in_map_iff in K1. destruct K1 as ([a b] & <- & K1). apply filter_In in K1. cbn in *.
    exists a, b. split; [apply K1|]. split; [apply Nat.eqb_eq; apply K1|]. destruct (cid_type b), t; cbn in K2; congruence.
  - intros (a & b & Hin & <- & <-) H. apply length_zero_iff_nil in H.
    assert (K : In b (filter (fun c => ctype_eqb (cid_type c) (cid_type b)) (map snd (filter (fun r => cid_id (fst r) =? cid_id a) (m_internal_rel m))))).
    { apply filter_In. split; [|destruct (cid_type b); reflexivity]. apply in_map_iff. exists (a, b). split; [reflexivity|].
      apply filter_In. split; [exact Hin|]. apply Nat.eqb_refl. }
    rewrite H in K. exact K.
Qed.
Lemma report_in_order_loop : forall A B (P : A -> B -> Prop) (f : A -> outcome (option B)) msg l r,
  (forall a, In a l -> exists o, f a = Ok o /\ forall x, o = Some x <-> P a x) ->
  exists r' new, foldM (fun r a => let! o := f a in Ok (match o with Some x => add_issue x (msg a x) r | None => r end)) l r = Ok r' /\
    ii_issues r' = ii_issues r ++ new /\ reports_in_order P l new.
Proof.
  intros A B P f msg l. induction l as [|a l IH]; intros r H; cbn [foldM].
  - exists r, []. rewrite app_nil_r. split; [reflexivity|]. split; [reflexivity|constructor].
  - destruct (H a (or_introl eq_refl)) as (o & E & Ho). rewrite E. cbn [bind].
    destruct (IH (match o with Some x => add_issue x (msg a x) r | None => r end)) as (r' & new & H1 & H2 & H3); [intros b Hb; apply H; right; exact Hb|].
    destruct o as [x|].
    + exists r', (x :: new). split; [exact H1|]. split; [rewrite H2; cbn; rewrite <- app_assoc; reflexivity|]. constructor; [apply Ho; reflexivity|exact H3].
    + exists r', new. split; [exact H1|]. split; [exact H2|]. constructor; [|exact H3]. intros x Hx. apply Ho in Hx. discriminate.
Qed.
Lemma lonely_line_spec : forall m l,
  (forall v w, ec_edges (co_mesh l) = [(v, w)] -> linked m LineT (co_id l) v /\ linked m LineT (co_id l) w) ->
  exists o, lonely_line m l = Ok o /\ forall x, o = Some x <-> lonely_line_issue m l (x, [co_id l]).
Proof.
  intros m l Hl. unfold lonely_line, lonely_line_issue.
  destruct (ec_edges (co_mesh l)) as [|[v w] [|e es]] eqn:E.
  1,3: exists None; split; [reflexivity|]; intros x; split; [discriminate|]; intros (v' & w' & K & _); discriminate.
  destruct (Nat.eqb (nb_embeddings_of m SurfaceT (co_id l)) 0) eqn:En.
  - exists None. split; [reflexivity|]. intros x. split; [discriminate|]. intros (v' & w' & _ & K & _). apply nb_embeddings_of_zero in K. congruence.
  - apply nb_embeddings_of_zero in En. destruct (Hl v w eq_refl) as [L1 L2].
    destruct (cmvs_shared_spec m [m_unique_vertex m (mkCMV (mkCID LineT (co_id l)) v); m_unique_vertex m (mkCMV (mkCID LineT (co_id l)) w)]) as (b & Eb & Hb).
    { intros o [<-|[<-|[]]]; assumption. }
    rewrite Eb. cbn [bind]. eexists. split; [reflexivity|]. intros x. destruct b.
    + split; [discriminate|]. intros (v' & w' & K & _ & K1 & K2 & _). injection K as <- <-.
      enough (true = false) by discriminate. apply Hb. intros o [<-|[<-|[]]]; assumption.
    + assert (Hb' := proj1 Hb eq_refl). split.
      * intros K. injection K as <-. exists v, w. split; [reflexivity|]. split; [exact En|]. cbn zeta.
        split; [apply Hb'; left; reflexivity|]. split; [apply Hb'; right; left; reflexivity|reflexivity].
      * intros (v' & w' & K & _ & _ & _ & Kx). injection K as <- <-. congruence.
Qed.
Lemma lonely_surface_spec : forall m s,
  (forall vs, sm_polygons (co_mesh s) = [vs] -> forall v, In v vs -> linked m SurfaceT (co_id s) v) ->
  exists o, lonely_surface m s = Ok o /\ forall x, o = Some x <-> lonely_surface_issue m s (x, [co_id s]).
Proof.
  intros m s Hl. unfold lonely_surface, lonely_surface_issue, nb_polygons, polygon_vertices.
  destruct (sm_polygons (co_mesh s)) as [|vs [|e es]] eqn:E.
  1,3: exists None; split; [reflexivity|]; intros x; split; [discriminate|]; intros (v' & K & _); discriminate.
  cbn [length Nat.eqb negb nth].
  destruct (Nat.eqb (nb_embeddings_of m BlockT (co_id s)) 0) eqn:En.
  - exists None. split; [reflexivity|]. intros x. split; [discriminate|]. intros (v' & _ & K & _). apply nb_embeddings_of_zero in K. congruence.
  - apply nb_embeddings_of_zero in En. specialize (Hl vs eq_refl).
    destruct (cmvs_shared_spec m (map (surface_uv m s) vs)) as (b & Eb & Hb).
    { intros o Ho. apply in_map_iff in Ho. destruct Ho as (v & <- & Hv). apply (Hl v Hv). }
    rewrite Eb. cbn [bind]. eexists. split; [reflexivity|]. intros x. destruct b.
    + split; [discriminate|]. intros (vs' & K & _ & K1 & _). injection K as <-.
      enough (true = false) by discriminate. apply Hb. intros o Ho. apply in_map_iff in Ho. destruct Ho as (v & <- & Hv). apply K1. exact Hv.
    + assert (Hb' := proj1 Hb eq_refl). split.
      * intros K. injection K as <-. exists vs. split; [reflexivity|]. split; [exact En|]. cbn zeta. split; [|reflexivity].
        intros v Hv. apply Hb'. apply in_map_iff. exists v. auto.
      * intros (vs' & K & _ & _ & Kx). injection K as <-. injection Kx as ->. reflexivity.
Qed.
Lemma model_edges_spec : forall ho m d,
  (forall l v w, In l (m_lines m) -> co_active l = true -> ec_edges (co_mesh l) = [(v, w)] ->
     linked m LineT (co_id l) v /\ linked m LineT (co_id l) w) ->
  exists r l1 l2, add_model_non_manifold_edges ho m (new_issues d) = Ok r /\ ii_issues r = l1 ++ l2 /\
    lists_once (shared_interior_edge m) l1 /\
    reports_in_order (lonely_line_issue m) (filter co_active (m_lines m)) l2.
Proof.
  intros ho m d Hl. unfold add_model_non_manifold_edges.
  set (r1 := fold_left _ _ _).
  assert (E1 : ii_issues r1 = filter (fun kv => negb (Nat.leb (length (snd kv)) 1)) (visit ho (model_edges m))).
  { unfold r1. generalize (visit ho (model_edges m)) as es. intros es.
    enough (G : forall r, ii_issues (fold_left (fun r kv => if Nat.leb (length (snd kv)) 1 then r else add_issue kv (model_edge_message m kv) r) es r) =
      ii_issues r ++ filter (fun kv => negb (Nat.leb (length (snd kv)) 1)) es) by (rewrite G; reflexivity).
    induction es as [|e es IH]; intros r; cbn [fold_left filter]; [rewrite app_nil_r; reflexivity|]. rewrite IH.
    destruct (Nat.leb (length (snd e)) 1); cbn; [reflexivity|]. rewrite <- app_assoc. reflexivity. }
  assert (F : forall l, In l (active (m_lines m)) -> exists o,
     (let! o := lonely_line m l in Ok (option_map (fun vs => (vs, [co_id l])) o)) = Ok o /\ forall x, o = Some x <-> lonely_line_issue m l x).
  { intros l Hin. apply in_active in Hin. destruct (lonely_line_spec m l) as (o & Eo & Ho); [intros v w Ev; apply (Hl l v w); tauto|].
    rewrite Eo. cbn [bind]. eexists. split; [reflexivity|]. intros [x ids]. split.
    - destruct o as [vs|]; cbn; [|discriminate]. intros K. injection K as -> <-. apply Ho. reflexivity.
    - intros K. assert (ids = [co_id l]) by (destruct K as (? & ? & _ & _ & _ & _ & K); congruence). subst ids.
      apply Ho in K. rewrite K. reflexivity. }
  destruct (report_in_order_loop _ _ (lonely_line_issue m) (fun l => let! o := lonely_line m l in Ok (option_map (fun vs => (vs, [co_id l])) o))
    (fun l x => lonely_line_message m l (fst x)) (active (m_lines m)) r1 F) as (r & new & H1 & H2 & H3).
  exists r, (ii_issues r1), new. split; [|split; [exact H2|split; [rewrite E1; apply shared_edges_listed|exact H3]]].
  etransitivity; [|exact H1]. apply foldM_ext_in. intros s l _. destruct (lonely_line m l) as [[vs|]| |]; reflexivity.
Qed.
Lemma model_facets_spec : forall m d,
  (forall s vs v, In s (m_surfaces m) -> co_active s = true -> sm_polygons (co_mesh s) = [vs] -> In v vs ->
     linked m SurfaceT (co_id s) v) ->
  exists r, add_model_non_manifold_facets m (new_issues d) = Ok r /\
    reports_in_order (lonely_surface_issue m) (filter co_active (m_surfaces m)) (ii_issues r).
Proof.
  intros m d Hl. unfold add_model_non_manifold_facets.
  assert (F : forall l, In l (active (m_surfaces m)) -> exists o,
     (let! o := lonely_surface m l in Ok (option_map (fun vs => (vs, [co_id l])) o)) = Ok o /\ forall x, o = Some x <-> lonely_surface_issue m l x).
  { intros l Hin. apply in_active in Hin. destruct (lonely_surface_spec m l) as (o & Eo & Ho); [intros vs Ev v Hv; apply (Hl l vs v); tauto|].
    rewrite Eo. cbn [bind]. eexists. split; [reflexivity|]. intros [x ids]. split.
    - destruct o as [vs|]; cbn; [|discriminate]. intros K. injection K as -> <-. apply Ho. reflexivity.
    - intros K. assert (ids = [co_id l]) by (destruct K as (? & _ & _ & _ & K); congruence). subst ids.
      apply Ho in K. rewrite K. reflexivity. }
  destruct (report_in_order_loop _ _ (lonely_surface_issue m) (fun l => let! o := lonely_surface m l in Ok (option_map (fun vs => (vs, [co_id l])) o))
    (fun l x => lonely_surface_message m l (fst x)) (active (m_surfaces m)) (new_issues d) F) as (r & new & H1 & H2 & H3).
  exists r. cbn in H2. split; [|rewrite <- H2 in H3; exact H3].
  etransitivity; [|exact H1]. apply foldM_ext_in. intros s l _. destruct (lonely_surface m l) as [[vs|]| |]; reflexivity.
Qed.
