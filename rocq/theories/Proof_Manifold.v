From Coq Require Import String Ascii List Arith NArith ZArith Bool Lia Sorted Permutation.
From Verif Require Import Base BaseFacts Model_Issues Types Model_Colocation Model_Cycles Model_Hash Model_Manifold
  Spec_Maps Spec_Cycles Spec_Adjacency Spec_Manifold
  Proof_Issues Proof_Colocation Proof_Colocation2 Proof_Maps Proof_Cycles Proof_Adjacency Proof_Hash.
Import ListNotations.
Open Scope list_scope.

(** ** General *)
Lemma pair_eqb_eq : forall a b, pair_eqb a b = true <-> a = b.
Proof.
  intros [a a'] [b b']. unfold pair_eqb. cbn. rewrite andb_true_iff, !Nat.eqb_eq. split; [intros [-> ->]; reflexivity|].
  intros H. injection H as -> ->. auto.
Qed.
Lemma lex_lt_irrefl : forall a, ~ lex_lt a a.
Proof. intros a H. unfold lex_lt in H. lia. Qed.
Lemma sorted_NoDup : forall A (R : A -> A -> Prop) l, (forall a, ~ R a a) -> StronglySorted R l -> NoDup l.
Proof.
  intros A R l Hi H. induction H as [|a l H IH Ha]; constructor; [|exact IH].
  intros Hin. rewrite Forall_forall in Ha. apply (Hi a). auto.
Qed.
Lemma lex_sorted_NoDup : forall l, StronglySorted lex_lt l -> NoDup l.
Proof. intros l. apply sorted_NoDup. exact lex_lt_irrefl. Qed.
Lemma lists_once_perm : forall A (P : A -> Prop) l l', lists_once P l -> lists_once P l' -> Permutation l l'.
Proof.
  intros A P l l' [H1 H2] [H3 H4]. apply NoDup_Permutation; [exact H1|exact H3|]. intros x. rewrite H2, H4. reflexivity.
Qed.
Lemma lists_exactly_once : forall A (R : A -> A -> Prop) P l, (forall a, ~ R a a) -> lists_exactly R P l -> lists_once P l.
Proof. intros A R P l Hi [H1 H2]. split; [apply (sorted_NoDup _ R); assumption|exact H2]. Qed.
Lemma lists_once_nil : forall A (P : A -> Prop) l l', lists_once P l -> lists_once P l' -> l = [] -> l' = [].
Proof. intros A P l l' H H' ->. apply Permutation_nil. apply (lists_once_perm _ P); assumption. Qed.
Lemma fold_report : forall A B (p : A -> bool) (g : A -> B) msg l r,
  ii_issues (fold_left (fun r x => if p x then add_issue (g x) (msg x) r else r) l r) = ii_issues r ++ map g (filter p l).
Proof.
  intros A B p g msg l. induction l as [|x l IH]; intros r; cbn; [rewrite app_nil_r; reflexivity|].
  rewrite IH. destruct (p x); cbn; [rewrite <- app_assoc|]; reflexivity.
Qed.
Lemma forallb_negb_filter : forall A (p : A -> bool) l, forallb (fun x => negb (p x)) l = true <-> filter p l = [].
Proof.
  intros A p l. induction l as [|x l IH]; cbn; [tauto|]. destruct (p x); cbn; [split; discriminate|exact IH].
Qed.
Lemma map_nil_iff : forall A B (f : A -> B) l, map f l = [] <-> l = [].
Proof. intros A B f [|x l]; cbn; split; congruence. Qed.
Lemma visit_in : forall ho A (l : list A) x, In x (visit ho l) <-> In x l.
Proof. intros ho A l x. split; apply Permutation_in; [|apply Permutation_sym]; apply visit_permutes. Qed.
Lemma filter_perm : forall A (p : A -> bool) l l', Permutation l l' -> Permutation (filter p l) (filter p l').
Proof.
  intros A p l l' H. induction H as [|x l l' H IH|x y l|l1 l2 l3 _ IH1 _ IH2]; cbn.
  - constructor.
  - destruct (p x); [constructor|]; exact IH.
  - destruct (p x), (p y); try reflexivity. constructor.
  - etransitivity; eassumption.
Qed.
Lemma filter_visit_nil : forall ho A (p : A -> bool) l, filter p (visit ho l) = [] <-> filter p l = [].
Proof.
  intros ho A p l. pose proof (filter_perm A p _ _ (visit_permutes ho A l)) as H. split; intros E; rewrite E in H.
  - apply Permutation_nil. exact H.
  - apply Permutation_nil. apply Permutation_sym. exact H.
Qed.
Lemma NoDup_map_filter' : forall A B (f : A -> B) g l, NoDup (map f l) -> NoDup (map f (filter g l)).
Proof.
  intros A B f g l. induction l as [|x l IH]; cbn; intros H; [constructor|]. inversion H as [|? ? Hx Hl]; subst.
  destruct (g x); cbn; [|apply IH; exact Hl]. constructor; [|apply IH; exact Hl].
  intros K. apply Hx. apply in_map_iff in K. destruct K as (y & Hy & K). apply filter_In in K. rewrite <- Hy.
  apply in_map. apply K.
Qed.
Lemma keys_visit_NoDup : forall ho K V (g : K * V -> bool) m, NoDup (map fst m) -> NoDup (map fst (filter g (visit ho m))).
Proof.
  intros ho K V g m H. apply NoDup_map_filter'. apply (Permutation_NoDup (l := map fst m)); [|exact H].
  apply Permutation_map. apply Permutation_sym. apply visit_permutes.
Qed.

(** ** C13 *)
Lemma edge_key_eq : forall v w a b, edge_key (v, w) = (a, b) <-> a <= b /\ (v = a /\ w = b \/ v = b /\ w = a).
Proof.
  intros v w a b. unfold edge_key. cbn. split.
  - intros H. injection H as <- <-. destruct (Nat.le_ge_cases v w); split; lia.
  - intros [H [[-> ->]|[-> ->]]]; f_equal; lia.
Qed.
Definition on_border (m : SurfaceMesh) (e : PolygonEdge) : bool := negb (isSome (sm_adjacent m e)).
Lemma on_border_iff : forall m e, on_border m e = true <-> sm_adjacent m e = None.
Proof. intros m e. unfold on_border. destruct (sm_adjacent m e); cbn; split; congruence. Qed.
Lemma edge_map_group : forall m, edge_to_polygons_around m =
  group pair_eqb (fun e => edge_key (polygon_edge_vertices m e)) (fun e => (1%N, on_border m e))
    (fun e v => (u8 (fst v + 1), snd v || on_border m e)) (all_polygon_edges m) [].
Proof. reflexivity. Qed.
Lemma counter_fold : forall A (bd : A -> bool) xs n0 b0, (n0 < 256)%N ->
  fold_left (fun v y => (u8 (fst v + 1), snd v || bd y)) xs (n0, b0) = (u8 (n0 + N.of_nat (length xs)), b0 || existsb bd xs).
Proof.
  intros A bd xs. induction xs as [|x xs IH]; intros n0 b0 H; cbn [fold_left length existsb].
  - rewrite orb_false_r. f_equal. unfold u8. rewrite N.add_0_r. symmetry. apply N.mod_small. exact H.
  - cbn [fst snd]. rewrite IH by (unfold u8; apply N.mod_lt; discriminate). f_equal.
    + unfold u8. rewrite N.add_mod_idemp_l by discriminate. f_equal. lia.
    + rewrite orb_assoc. reflexivity.
Qed.
Definition joining (m : SurfaceMesh) (k : nat * nat) : list PolygonEdge :=
  with_key pair_eqb (fun e => edge_key (polygon_edge_vertices m e)) k (all_polygon_edges m).
Lemma joining_once : forall m a b, a <= b -> lists_once (joins m a b) (joining m (a, b)).
Proof.
  intros m a b Hab. split.
  - apply NoDup_filter'. apply lex_sorted_NoDup. apply all_polygon_edges_sorted.
  - intros e. unfold joining. rewrite (in_with_key _ _ _ pair_eqb_eq). rewrite in_all_polygon_edges. unfold joins, polygon_edge_vertices.
    rewrite edge_key_eq. tauto.
Qed.
Lemma u8_eq : forall n k, N.eqb (u8 (N.of_nat n)) (N.of_nat k) = true <-> Nat.modulo n 256 = k.
Proof.
  intros n k. unfold u8. rewrite N.eqb_eq. change (2 ^ 8)%N with (N.of_nat 256). rewrite <- Nat2N.inj_mod. split.
  - apply Nat2N.inj.
  - intros ->. reflexivity.
Qed.
Lemma uses_joining : forall m a b n, a <= b -> (uses m a b n <-> n = length (joining m (a, b))).
Proof.
  intros m a b n Hab. pose proof (joining_once m a b Hab) as J. split.
  - intros (l & Hl & <-). apply Permutation_length. apply (lists_once_perm _ _ _ _ Hl J).
  - intros ->. exists (joining m (a, b)). auto.
Qed.
Lemma wrong_entry_iff : forall m k v, In (k, v) (edge_to_polygons_around m) ->
  (edge_entry_is_wrong v = true <-> non_manifold_edge same_modulo_256 m k).
Proof.
  intros m [a b] v Hin. rewrite edge_map_group in Hin. apply (in_group _ pair_eqb_eq) in Hin.
  destruct Hin as (e & es & He & ->). fold (joining m (a, b)) in He.
  assert (Hab : a <= b).
  { assert (K : In e (joining m (a, b))) by (rewrite He; left; reflexivity).
    unfold joining in K. apply (in_with_key _ _ _ pair_eqb_eq) in K. destruct K as [_ K].
    unfold polygon_edge_vertices in K. apply edge_key_eq in K. tauto. }
  rewrite counter_fold by reflexivity.
  replace (1 + N.of_nat (length es))%N with (N.of_nat (length (joining m (a, b)))) by (rewrite He; cbn [length]; lia).
  replace (on_border m e || existsb (on_border m) es) with (existsb (on_border m) (joining m (a, b))) by (rewrite He; reflexivity).
  destruct (joining_once m a b Hab) as [_ J].
  assert (Hb : existsb (on_border m) (joining m (a, b)) = true <-> border_occurrence m a b).
  { rewrite existsb_exists. split.
    - intros (x & Hx & Hbx). exists x. split; [apply J; exact Hx|apply on_border_iff; exact Hbx].
    - intros (x & Hx & Hbx). exists x. split; [apply J; exact Hx|apply on_border_iff; exact Hbx]. }
  unfold edge_entry_is_wrong, non_manifold_edge, same_modulo_256. cbn [fst snd].
  set (n := length (joining m (a, b))) in *.
  assert (U1 := u8_eq n 1). assert (U2 := u8_eq n 2). change (N.of_nat 1) with 1%N in U1. change (N.of_nat 2) with 2%N in U2.
  change (1 mod 256) with 1. change (2 mod 256) with 2.
  assert (Hn : 0 < n) by (unfold n; rewrite He; cbn; lia).
  assert (G : (existsb (on_border m) (joining m (a, b)) && negb (u8 (N.of_nat n) =? 1)%N
     || negb (existsb (on_border m) (joining m (a, b))) && negb (u8 (N.of_nat n) =? 2)%N) = true <->
     ((border_occurrence m a b /\ n mod 256 <> 1) \/ (~ border_occurrence m a b /\ n mod 256 <> 2))).
  { rewrite <- Hb, <- U1, <- U2. destruct (existsb _ _), (N.eqb _ 1), (N.eqb _ 2); cbn; intuition congruence. }
  rewrite G. split.
  - intros H. split; [exact Hab|]. exists n. split; [exact Hn|]. split; [apply uses_joining; auto|exact H].
  - intros (_ & n' & _ & Hu & H). apply uses_joining in Hu; [|exact Hab]. fold n in Hu. subst n'. exact H.
Qed.
Lemma edge_map_has : forall m a b n, a <= b -> 0 < n -> uses m a b n -> exists v, In ((a, b), v) (edge_to_polygons_around m).
Proof.
  intros m a b n Hab Hn Hu. apply uses_joining in Hu; [|exact Hab].
  destruct (joining m (a, b)) as [|e es] eqn:E; [cbn in Hu; lia|].
  eexists. rewrite edge_map_group. apply (in_group _ pair_eqb_eq). exists e, es. split; [exact E|reflexivity].
Qed.
Lemma edge_map_NoDup : forall m, NoDup (map fst (edge_to_polygons_around m)).
Proof. intros m. rewrite edge_map_group. apply (group_NoDup _ pair_eqb_eq). Qed.

Lemma surface_edges_spec : forall ho ho' m,
  lists_once (non_manifold_edge same_modulo_256 m) (ii_issues (surface_non_manifold_edges ho m)) /\
  (surface_edges_are_manifold ho' m = true <-> ii_issues (surface_non_manifold_edges ho m) = []).
Proof.
  intros ho ho' m. unfold surface_non_manifold_edges, surface_edges_are_manifold.
  rewrite (fold_report _ _ (fun kv => edge_entry_is_wrong (snd kv)) fst). cbn [ii_issues new_issues app].
  rewrite (forallb_negb_filter _ (fun kv => edge_entry_is_wrong (snd kv))), map_nil_iff, !filter_visit_nil. split; [|tauto].
  split; [apply keys_visit_NoDup, edge_map_NoDup|].
  intros ab. rewrite in_map_iff. split.
  - intros ([k v] & Hk & Hin). cbn in Hk. subst k. apply filter_In in Hin. destruct Hin as [Hin Hw]. apply visit_in in Hin.
    apply (wrong_entry_iff m ab v Hin). exact Hw.
  - intros H. destruct ab as [a b]. destruct H as (Hab & n & Hn & Hu & H). cbn [fst snd] in *.
    destruct (edge_map_has m a b n Hab Hn Hu) as (v & Hv). exists ((a, b), v). split; [reflexivity|].
    apply filter_In. split; [apply visit_in; exact Hv|]. apply (wrong_entry_iff m (a, b) v Hv).
    split; [exact Hab|]. exists n. auto.
Qed.
Lemma modulo_irrelevant : forall m, (forall a b n, uses m a b n -> n <= 256) ->
  forall ab, non_manifold_edge same_modulo_256 m ab <-> non_manifold_edge eq m ab.
Proof.
  intros m H [a b]. unfold non_manifold_edge, same_modulo_256. cbn [fst snd].
  assert (E : forall n, uses m a b n -> ((n mod 256 = 1 mod 256 <-> n = 1) /\ (n mod 256 = 2 mod 256 <-> n = 2))).
  { intros n Hn. specialize (H a b n Hn). change (1 mod 256) with 1. change (2 mod 256) with 2.
    destruct (Nat.eq_dec n 256) as [->|Hne]; [cbn; lia|]. rewrite Nat.mod_small by lia. tauto. }
  split; intros (Hab & n & Hn & Hu & K); (split; [exact Hab|]); exists n; (split; [exact Hn|]); (split; [exact Hu|]);
    specialize (E n Hu); tauto.
Qed.
Lemma surface_edges_exact : forall ho ho' m, (forall a b n, uses m a b n -> n <= 256) ->
  lists_once (non_manifold_edge eq m) (ii_issues (surface_non_manifold_edges ho m)) /\
  (surface_edges_are_manifold ho' m = true <-> ii_issues (surface_non_manifold_edges ho m) = []).
Proof.
  intros ho ho' m H. destruct (surface_edges_spec ho ho' m) as [[H1 H2] H3]. split; [|exact H3].
  split; [exact H1|]. intros x. rewrite H2. apply modulo_irrelevant. exact H.
Qed.

(** ** C14, C15 *)
Lemma around_same_iff : forall A (P : nat * nat -> Prop) (pav1 pav2 : list (nat * nat)), A = tt -> lists_once P pav1 ->
  (around_are_the_same pav1 pav2 = true <-> lists_once P pav2).
Proof.
  intros A P pav1 pav2 _ [Hn Hp]. unfold around_are_the_same. rewrite andb_true_iff, Nat.eqb_eq, forallb_forall. split.
  - intros [Hl Hi].
    assert (I : incl pav1 pav2).
    { intros x Hx. specialize (Hi x Hx). apply existsb_exists in Hi. destruct Hi as (y & Hy & E). apply pair_eqb_eq in E. subst y. exact Hy. }
    assert (N2 : NoDup pav2) by (apply (NoDup_incl_NoDup Hn); [lia|exact I]).
    split; [exact N2|]. intros x. rewrite <- Hp. split; [|apply I].
    apply (NoDup_length_incl Hn); [lia|exact I].
  - intros H. pose proof (lists_once_perm _ P pav1 pav2 (conj Hn Hp) H) as Q. split; [apply Permutation_length; exact Q|].
    intros x Hx. apply existsb_exists. exists x. split; [apply (Permutation_in _ Q Hx)|apply pair_eqb_eq; reflexivity].
Qed.
Lemma bucket_once : forall (key : nat * nat -> nat) (l : list (nat * nat)) v (P : nat * nat -> Prop), NoDup l ->
  (forall x, P x <-> In x l /\ key x = v) -> lists_once P (bucket_of v (map (fun x => (key x, x)) l)).
Proof.
  intros key l v P Hn HP. split.
  - unfold bucket_of. induction l as [|x l IH]; cbn; [constructor|]. inversion Hn as [|? ? Hx Hl]; subst.
    assert (IH' := fun Q => IH Hl Q). clear IH.
    assert (K : NoDup (map snd (filter (fun kv => fst kv =? v) (map (fun x0 : nat * nat => (key x0, x0)) l)))).
    { clear -Hl. induction l as [|y l IH]; cbn; [constructor|]. inversion Hl as [|? ? Hy Hl']; subst.
      destruct (key y =? v); cbn; [|apply IH; exact Hl']. constructor; [|apply IH; exact Hl'].
      intros K. apply in_map_iff in K. destruct K as ([k z] & Hz & K). cbn in Hz. subst z. apply filter_In in K.
      destruct K as [K _]. apply in_map_iff in K. destruct K as (z & Ez & Hz). injection Ez as _ ->. contradiction. }
    destruct (key x =? v); cbn; [|exact K]. constructor; [|exact K].
    intros Q. apply in_map_iff in Q. destruct Q as ([k z] & Hz & Q). cbn in Hz. subst z. apply filter_In in Q.
    destruct Q as [Q _]. apply in_map_iff in Q. destruct Q as (z & Ez & Hz). injection Ez as _ ->. contradiction.
  - intros x. rewrite in_bucket_of, in_map_iff, HP. split.
    + intros (y & E & Hy). injection E as <- <-. auto.
    + intros [Hx <-]. exists x. auto.
Qed.

Lemma surface_corners_ok : forall m, surface_vertices_in_range m ->
  exists corners, polygons_around_vertices m = Ok corners /\
    forall v, v < length (sm_points m) -> lists_once (surface_corner m v) (nth v corners []).
Proof.
  intros m Hr. unfold polygons_around_vertices. rewrite bucketize_spec.
  2:{ intros kv Hkv. apply in_map_iff in Hkv. destruct Hkv as (c & <- & Hc). cbn. apply Hr. apply in_all_polygon_edges. exact Hc. }
  eexists. split; [reflexivity|]. intros v Hv. rewrite nth_map_seq by exact Hv.
  apply bucket_once; [apply lex_sorted_NoDup, all_polygon_edges_sorted|].
  intros c. rewrite in_all_polygon_edges. reflexivity.
Qed.
Definition surface_around_contract (m : SurfaceMesh) : Prop :=
  forall v, v < length (sm_points m) -> sm_around_vertex m v = Throw OpenGeodeExn \/ exists fan, sm_around_vertex m v = Ok fan.
Lemma surface_vertices_spec : forall geo m, surface_vertices_in_range m ->
  (forall v, v < length (sm_points m) -> sm_around_vertex m v = Throw OpenGeodeExn \/ exists fan, sm_around_vertex m v = Ok fan) ->
  exists r b, surface_non_manifold_vertices geo m = Ok r /\ lists_exactly lt (surface_non_manifold_vertex m) (ii_issues r) /\
    surface_vertices_are_manifold m = Ok b /\ (b = true <-> ii_issues r = []).
Proof.
  intros geo m Hr Ha. destruct (surface_corners_ok m Hr) as (corners & Hc & Hcorners).
  unfold surface_non_manifold_vertices, surface_vertices_are_manifold. rewrite Hc. cbn [bind].
  destruct (report_loop nat lt (fun v => v < length (sm_points m)) (surface_non_manifold_vertex m) (surface_vertex_differs m corners)
    (vertex_message geo (sm_points m)) (Range (length (sm_points m))) (new_issues "non manifold vertices"%string)) as (r & H1 & H2 & _ & _ & H3 & H4).
  - apply StronglySorted_seq.
  - intros v. apply in_Range.
  - intros v H. apply H.
  - intros v Hv. unfold surface_vertex_differs, surface_non_manifold_vertex. destruct (Ha v Hv) as [E|(fan & E)]; rewrite E.
    + exists false. split; [reflexivity|]. split; [discriminate|]. intros (_ & fan & K & _). discriminate.
    + eexists. split; [reflexivity|]. rewrite negb_true_iff, <- not_true_iff_false.
      rewrite (around_same_iff tt _ _ _ eq_refl (Hcorners v Hv)). split.
      * intros K. split; [exact Hv|]. exists fan. auto.
      * intros (_ & fan' & E' & K). injection E' as <-. exact K.
  - exists r. eexists. split; [exact H1|]. cbn in H2. rewrite H2. split; [exact H3|]. rewrite H4. cbn [bind].
    split; [reflexivity|]. rewrite negb_true_iff, <- not_true_iff_false, existsb_filter_iff. split; [intros K; destruct (filter _ _); [reflexivity|exfalso; apply K; discriminate]|intros -> K; apply K; reflexivity].
Qed.

Lemma flat_pairs_nth : forall m (v : nat) (c : PolyhedronVertex),
  solid_corner m v c <-> In c (all_polyhedron_vertices m) /\ polyhedron_vertex m c = v.
Proof.
  intros m v c. unfold all_polyhedron_vertices. rewrite (flat_pairs_in (nb_polyhedra m) (fun p => length (ph_vertices (polyhedron m p)))).
  unfold solid_corner, polyhedron_vertex. split.
  - intros [H1 H2]. split; [split; [exact H1|]|].
    + apply nth_error_Some. congruence.
    + apply nth_error_nth. exact H2.
  - intros [[H1 H2] <-]. split; [exact H1|]. apply nth_error_nth'. exact H2.
Qed.
Lemma solid_corners_ok : forall m, solid_vertices_in_range m ->
  exists corners, polyhedra_around_vertices m = Ok corners /\
    forall v, v < length (so_points m) -> lists_once (solid_corner m v) (nth v corners []).
Proof.
  intros m Hr. unfold polyhedra_around_vertices. rewrite bucketize_spec.
  2:{ intros kv Hkv. apply in_map_iff in Hkv. destruct Hkv as (c & <- & Hc). cbn. apply (Hr c). apply flat_pairs_nth. auto. }
  eexists. split; [reflexivity|]. intros v Hv. rewrite nth_map_seq by exact Hv.
  apply bucket_once.
  - apply lex_sorted_NoDup. apply (flat_pairs_sorted (fun p => length (ph_vertices (polyhedron m p)))).
  - intros c. apply flat_pairs_nth.
Qed.
Lemma solid_differs_ok : forall m corners v fan, so_around_vertex m v = Ok fan -> v < length (so_points m) ->
  lists_once (solid_corner m v) (nth v corners []) ->
  exists b, solid_vertex_differs m corners v = Ok b /\ (b = true <-> solid_non_manifold_vertex m v).
Proof.
  intros m corners v fan E Hv Hc. unfold solid_vertex_differs, solid_non_manifold_vertex. rewrite E. cbn [bind].
  eexists. split; [reflexivity|]. rewrite negb_true_iff, <- not_true_iff_false.
  rewrite (around_same_iff tt _ _ _ eq_refl Hc). split.
  - intros K. split; [exact Hv|]. exists fan. auto.
  - intros (_ & fan' & E' & K). injection E' as <-. exact K.
Qed.
Lemma solid_vertices_spec : forall geo m, solid_vertices_in_range m ->
  (forall v, v < length (so_points m) -> exists fan, so_around_vertex m v = Ok fan) ->
  exists r b, solid_non_manifold_vertices geo m = Ok r /\ lists_exactly lt (solid_non_manifold_vertex m) (ii_issues r) /\
    solid_vertices_are_manifold m = Ok b /\ (b = true <-> ii_issues r = []).
Proof.
  intros geo m Hr Ha. destruct (solid_corners_ok m Hr) as (corners & Hc & Hcorners).
  unfold solid_non_manifold_vertices, solid_vertices_are_manifold. rewrite Hc. cbn [bind].
  destruct (report_loop nat lt (fun v => v < length (so_points m)) (solid_non_manifold_vertex m) (solid_vertex_differs m corners)
    (vertex_message geo (so_points m)) (Range (length (so_points m))) (new_issues "non manifold vertices"%string)) as (r & H1 & H2 & _ & _ & H3 & H4).
  - apply StronglySorted_seq.
  - intros v. apply in_Range.
  - intros v H. apply H.
  - intros v Hv. destruct (Ha v Hv) as (fan & E). apply (solid_differs_ok m corners v fan E Hv (Hcorners v Hv)).
  - exists r. eexists. split; [exact H1|]. cbn in H2. rewrite H2. split; [exact H3|]. rewrite H4. cbn [bind].
    split; [reflexivity|]. rewrite negb_true_iff, <- not_true_iff_false, existsb_filter_iff. split; [intros K; destruct (filter _ _); [reflexivity|exfalso; apply K; discriminate]|intros -> K; apply K; reflexivity].
Qed.
(** failures: the first one stops the list; the yes/no answer is only given when an earlier vertex is not manifold *)
Lemma foldM_fails : forall A S (f : S -> A -> outcome S) l x l' e s,
  (forall s y, In y l -> exists s', f s y = Ok s') -> (forall s, f s x = Throw e) -> foldM f (l ++ x :: l') s = Throw e.
Proof.
  intros A S f l. induction l as [|y l IH]; intros x l' e s Hl Hx; cbn.
  - rewrite Hx. reflexivity.
  - destruct (Hl s y (or_introl eq_refl)) as (s' & E). rewrite E. cbn. apply IH; [|exact Hx]. intros t z Hz. apply Hl. right. exact Hz.
Qed.
Lemma anyM_fails : forall A (f : A -> outcome bool) g l x l' e,
  (forall y, In y l -> f y = Ok (g y)) -> f x = Throw e ->
  anyM f (l ++ x :: l') = if existsb g l then Ok true else Throw e.
Proof.
  intros A f g l. induction l as [|y l IH]; intros x l' e Hl Hx; cbn.
  - rewrite Hx. reflexivity.
  - rewrite (Hl y (or_introl eq_refl)). cbn. destruct (g y); cbn; [reflexivity|]. apply IH; [|exact Hx]. intros z Hz. apply Hl. right. exact Hz.
Qed.
Lemma solid_vertices_failure : forall geo m v e, solid_vertices_in_range m -> v < length (so_points m) ->
  so_around_vertex m v = Throw e -> (forall w, w < v -> exists fan, so_around_vertex m w = Ok fan) ->
  solid_non_manifold_vertices geo m = Throw e /\
  ((exists w, w < v /\ solid_non_manifold_vertex m w) -> solid_vertices_are_manifold m = Ok false) /\
  (~ (exists w, w < v /\ solid_non_manifold_vertex m w) -> solid_vertices_are_manifold m = Throw e).
Proof.
  intros geo m v e Hr Hv He Hok. destruct (solid_corners_ok m Hr) as (corners & Hc & Hcorners).
  unfold solid_non_manifold_vertices, solid_vertices_are_manifold. rewrite Hc. cbn [bind].
  assert (S : Range (length (so_points m)) = Range v ++ v :: seq (S v) (length (so_points m) - S v)).
  { unfold Range. replace (length (so_points m)) with (v + (S (length (so_points m) - S v))) by lia.
    rewrite seq_app. cbn. repeat f_equal. lia. }
  rewrite S. clear S.
  assert (D : forall w, w < v -> exists b, solid_vertex_differs m corners w = Ok b /\ (b = true <-> solid_non_manifold_vertex m w)).
  { intros w Hw. destruct (Hok w Hw) as (fan & E). apply (solid_differs_ok m corners w fan E); [lia|]. apply Hcorners. lia. }
  assert (T : solid_vertex_differs m corners v = Throw e) by (unfold solid_vertex_differs; rewrite He; reflexivity).
  split.
  - apply foldM_fails.
    + intros s y Hy. apply in_Range in Hy. destruct (D y Hy) as (b & E & _). rewrite E. cbn. eauto.
    + intros s. rewrite T. reflexivity.
  - rewrite (anyM_fails _ _ (ok_true (solid_vertex_differs m corners)) _ _ _ e).
    + assert (X : existsb (ok_true (solid_vertex_differs m corners)) (Range v) = true <-> exists w, w < v /\ solid_non_manifold_vertex m w).
      { rewrite existsb_exists. split.
        - intros (w & Hw & K). apply in_Range in Hw. exists w. split; [exact Hw|]. destruct (D w Hw) as (b & E & Hb).
          unfold ok_true in K. rewrite E in K. apply Hb. exact K.
        - intros (w & Hw & K). exists w. split; [apply in_Range; exact Hw|]. destruct (D w Hw) as (b & E & Hb).
          unfold ok_true. rewrite E. apply Hb. exact K. }
      split; intros H.
      * apply X in H. rewrite H. reflexivity.
      * destruct (existsb _ _); [exfalso; apply H, X; reflexivity|reflexivity].
    + intros y Hy. apply in_Range in Hy. destruct (D y Hy) as (b & E & _). unfold ok_true. rewrite E. reflexivity.
    + exact T.
Qed.
