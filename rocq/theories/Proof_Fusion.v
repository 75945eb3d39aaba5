(** Gluing surfaces: the fused surface of brep_blocks_topology.cpp. *)
From Coq Require Import String Ascii List Arith NArith ZArith Bool Lia.
From Verif Require Import Base BaseFacts Model_Issues Types Model_Colocation Model_Topology Model_BRep Model_Blocks Spec_Fusion Proof_Colocation.
Import ListNotations.
Open Scope list_scope.

Lemma position_some : forall x l i, position_of x l = Some i -> nth_error l i = Some x.
Proof.
  intros x l. induction l as [|y l IH]; cbn; [discriminate|]. intros i. destruct (opt_eqb x y) eqn:E.
  - intros K. injection K as <-. apply opt_eqb_eq in E. cbn. congruence.
  - destruct (position_of x l) as [j|]; [|discriminate]. cbn. intros K. injection K as <-. cbn. auto.
Qed.
Lemma position_none : forall x l, position_of x l = None -> ~ In x l.
Proof.
  intros x l. induction l as [|y l IH]; cbn; [auto|]. destruct (opt_eqb x y) eqn:E; [discriminate|].
  destruct (position_of x l); [discriminate|]. intros _ [K|K]; [|exact (IH eq_refl K)]. subst y. rewrite (proj2 (opt_eqb_eq x x) eq_refl) in E. discriminate.
Qed.
Lemma nth_snoc_old : forall A (l : list A) x n, n < length l -> nth_error (l ++ [x]) n = nth_error l n.
Proof. intros. apply nth_error_app1. assumption. Qed.
Lemma nth_snoc_new : forall A (l : list A) x, nth_error (l ++ [x]) (length l) = Some x.
Proof. intros. rewrite nth_error_app2 by lia. rewrite Nat.sub_diag. reflexivity. Qed.
Lemma nth_some_lt : forall A (l : list A) n x, nth_error l n = Some x -> n < length l.
Proof. intros. apply nth_error_Some. congruence. Qed.

Lemma Forall2_len : forall A B (P : A -> B -> Prop) l l', Forall2 P l l' -> length l = length l'.
Proof. intros A B P l l' F. induction F; cbn; congruence. Qed.
Arguments Forall2_len {A B P l l'} _.

Section Fusion.
Context (m : Model).
Definition first_at (ws : list nat) (w n : nat) : Prop := nth_error ws n = Some w /\ forall n', n' < n -> nth_error ws n' <> Some w.
Record fused (xs : list (Component SurfaceMesh * nat)) (keys : list (option nat)) (points : list Point) (ws : list nat) : Prop := {
  fu_length : length points = length keys;
  fu_nodup : NoDup keys;
  fu_links : Forall2 (fun x w => nth_error keys w = Some (link_of m x)) xs ws;
  fu_first : forall w, w < length keys -> exists n x p, first_at ws w n /\ nth_error xs n = Some x /\ point_at x = Some p /\ nth_error points w = Some p /\
    forall w', w' < w -> exists n', n' < n /\ nth_error ws n' = Some w' }.
Lemma fused_nil : fused [] [] [] [].
Proof. constructor; cbn; auto using NoDup_nil; lia. Qed.
Lemma first_at_snoc : forall ws w n y, first_at ws w n -> first_at (ws ++ [y]) w n.
Proof.
  intros ws w n y [A B]. pose proof (nth_some_lt _ _ _ _ A) as L. split; [rewrite nth_snoc_old; auto|]. intros n' Hn. rewrite nth_snoc_old by lia. auto.
Qed.
Lemma fused_old : forall xs keys points ws x i, fused xs keys points ws -> nth_error keys i = Some (link_of m x) -> fused (xs ++ [x]) keys points (ws ++ [i]).
Proof.
  intros xs keys points ws x i [A B C D] K. pose proof (Forall2_len C) as L. constructor; auto.
  - apply Forall2_app; [exact C|]. constructor; auto.
  - intros w Hw. destruct (D w Hw) as (n & y & p & F & X & P & Q & N). exists n, y, p. split; [apply first_at_snoc, F|].
    split; [rewrite nth_snoc_old; [exact X|apply (nth_some_lt _ _ _ _ X)]|]. split; [exact P|]. split; [exact Q|]. intros w' Hw'. destruct (N w' Hw') as (n' & Hn & E). exists n'. split; [exact Hn|].
    rewrite nth_snoc_old; [exact E|apply (nth_some_lt _ _ _ _ E)].
Qed.
Lemma fused_new : forall xs keys points ws x p, fused xs keys points ws -> ~ In (link_of m x) keys -> point_at x = Some p ->
  fused (xs ++ [x]) (keys ++ [link_of m x]) (points ++ [p]) (ws ++ [length points]).
Proof.
  intros xs keys points ws x p [A B C D] K P. pose proof (Forall2_len C) as L. constructor.
  - rewrite !app_length. cbn. lia.
  - apply NoDup_app_intro; [assumption|constructor; [intros []|constructor]|]. intros y Hy [<-|[]]. auto.
  - apply Forall2_app.
    + clear - C. induction C; constructor; auto. rewrite nth_snoc_old; [assumption|]. eapply nth_some_lt; eassumption.
    + constructor; [|constructor]. rewrite A. apply nth_snoc_new.
  - intros w Hw. rewrite app_length in Hw. cbn in Hw. destruct (Nat.eq_dec w (length keys)) as [->|N].
    + exists (length ws), x, p. split; [split|].
      * rewrite A. apply nth_snoc_new.
      * intros n' Hn. rewrite nth_snoc_old by exact Hn. intros E. destruct (nth_error xs n') as [y|] eqn:Y; [|apply nth_error_None in Y; lia].
        assert (Z : nth_error keys (length keys) = Some (link_of m y)).
        { clear - C E Y. revert n' E Y. induction C as [|a b xs ws H C IH]; intros [|n'] E Y; cbn in *; try discriminate; [injection E as ->; injection Y as ->; exact H|eauto]. }
        apply nth_some_lt in Z. lia.
      * split; [rewrite <- L; apply nth_snoc_new|]. split; [exact P|]. split; [rewrite <- A; apply nth_snoc_new|]. intros w' Hw'.
        destruct (D w' Hw') as (n & _ & _ & (F & _) & _). pose proof (nth_some_lt _ _ _ _ F) as G. exists n. split; [exact G|]. rewrite nth_snoc_old; assumption.
    + destruct (D w) as (n & y & q & F & X & P' & Q & M); [lia|]. exists n, y, q. split; [apply first_at_snoc, F|].
      split; [rewrite nth_snoc_old; [exact X|apply (nth_some_lt _ _ _ _ X)]|]. split; [exact P'|]. split; [rewrite nth_snoc_old; [exact Q|apply (nth_some_lt _ _ _ _ Q)]|].
      intros w' Hw'. destruct (M w' Hw') as (n' & Hn & E). exists n'. split; [exact Hn|]. rewrite nth_snoc_old; [exact E|apply (nth_some_lt _ _ _ _ E)].
Qed.

(** the loops *)
Lemma fuse_vertices_ok : forall c vs xs keys points ws cur, fused xs keys points (ws ++ cur) -> (forall v, In v vs -> v < length (sm_points (co_mesh c))) ->
  exists keys' points' add, foldM (fuse_vertex m c) vs ((keys, points), cur) = Ok ((keys', points'), cur ++ add) /\ length add = length vs /\
    fused (xs ++ map (pair c) vs) keys' points' (ws ++ cur ++ add).
Proof.
  intros c vs. induction vs as [|v vs IH]; intros xs keys points ws cur F R; cbn [foldM map].
  - exists keys, points, []. rewrite !app_nil_r. auto.
  - assert (E0 : fuse_vertex m c ((keys, points), cur) v = match position_of (link_of m (c, v)) keys with
      | Some i => Ok ((keys, points), cur ++ [i])
      | None => match nth_error (sm_points (co_mesh c)) v with Some p => Ok ((keys ++ [link_of m (c, v)], points ++ [p]), cur ++ [length points]) | None => UB end end) by reflexivity.
    rewrite E0. clear E0. destruct (position_of (link_of m (c, v)) keys) as [i|] eqn:E.
    + apply position_some in E. cbn [bind]. destruct (IH (xs ++ [(c, v)]) keys points ws (cur ++ [i])) as (k & p & add & Q & L & G).
      { rewrite app_assoc. apply fused_old; [exact F|exact E]. }
      { intros u Hu. apply R. right. exact Hu. }
      exists k, p, (i :: add). rewrite <- app_assoc in Q. cbn in Q. split; [exact Q|]. split; [cbn; congruence|]. rewrite <- !app_assoc in G. exact G.
    + apply position_none in E. destruct (nth_error (sm_points (co_mesh c)) v) as [p|] eqn:P; [|apply nth_error_None in P; specialize (R v (or_introl eq_refl)); lia].
      cbn [bind]. destruct (IH (xs ++ [(c, v)]) (keys ++ [link_of m (c, v)]) (points ++ [p]) ws (cur ++ [length points])) as (k & q & add & Q & L & G).
      { rewrite app_assoc. apply fused_new; [exact F|exact E|exact P]. }
      { intros u Hu. apply R. right. exact Hu. }
      exists k, q, (length points :: add). rewrite <- app_assoc in Q. cbn in Q. split; [exact Q|]. split; [cbn; congruence|]. rewrite <- !app_assoc in G. exact G.
Qed.
Lemma fuse_polygons_ok : forall c ps xs keys points polys, fused xs keys points (concat polys) -> (forall p v, In p ps -> In v p -> v < length (sm_points (co_mesh c))) ->
  exists keys' points' add, foldM (fun st p => fuse_polygon m c st p) ps ((keys, points), polys) = Ok ((keys', points'), polys ++ add) /\
    map (@length nat) add = map (@length nat) ps /\ fused (xs ++ map (pair c) (concat ps)) keys' points' (concat (polys ++ add)).
Proof.
  intros c ps. induction ps as [|vs ps IH]; intros xs keys points polys F R; cbn [foldM].
  - exists keys, points, []. cbn. rewrite !app_nil_r. auto.
  - change (fuse_polygon m c ((keys, points), polys) vs) with (let! r := foldM (fuse_vertex m c) vs ((keys, points), []) in Ok (fst r, polys ++ [snd r])).
    destruct (fuse_vertices_ok c vs xs keys points (concat polys) []) as (k & p & add & Q & L & G).
    { rewrite app_nil_r. exact F. }
    { intros v Hv. eapply R; [left; reflexivity|exact Hv]. }
    rewrite Q. cbn [bind app fst snd]. cbn [app] in G. destruct (IH (xs ++ map (pair c) vs) k p (polys ++ [add])) as (k' & p' & add' & Q' & L' & G').
    { rewrite concat_app. cbn. rewrite app_nil_r. exact G. }
    { intros q v Hq Hv. eapply R; [right; exact Hq|exact Hv]. }
    exists k', p', (add :: add'). rewrite <- app_assoc in Q'. cbn [app] in Q'. split; [exact Q'|]. split; [cbn; congruence|].
    rewrite <- !app_assoc in G'. cbn [app] in G'. cbn [concat]. rewrite map_app. rewrite app_assoc in *. exact G'.
Qed.
Lemma polygons_loop : forall A (l : list (list nat)) (f : A -> list nat -> outcome A) st,
  foldM (fun st p => f st (nth p l [])) (Range (length l)) st = foldM f l st.
Proof.
  intros A l f. unfold Range. assert (G : forall l0 k st, (forall i, nth (k + i) l [] = nth i l0 []) -> foldM (fun st p => f st (nth p l [])) (seq k (length l0)) st = foldM f l0 st).
  { induction l0 as [|x l0 IH]; intros k st H; cbn [seq length foldM]; [reflexivity|]. assert (H0 := H 0). rewrite Nat.add_0_r in H0. cbn in H0. rewrite H0.
    destruct (f st x); cbn [bind]; [|reflexivity|reflexivity]. apply IH. intros i. specialize (H (S i)). rewrite Nat.add_succ_r in H. exact H. }
  intros st. apply G. reflexivity.
Qed.
Lemma fuse_surfaces_ok : forall cs ids xs keys points polys, fused xs keys points (concat polys) -> (forall c, In c cs -> get_surface m (co_id c) = Ok c) ->
  ids = map co_id cs -> (forall c p v, In c cs -> In p (sm_polygons (co_mesh c)) -> In v p -> v < length (sm_points (co_mesh c))) ->
  exists keys' points' add, foldM (fun st s => let! surface := get_surface m s in
      foldM (fun st p => fuse_polygon m surface st (polygon_vertices (co_mesh surface) p)) (Range (nb_polygons (co_mesh surface))) st) ids ((keys, points), polys)
    = Ok ((keys', points'), polys ++ add) /\ map (@length nat) add = map (@length nat) (polygons_of cs) /\ fused (xs ++ corners_of cs) keys' points' (concat (polys ++ add)).
Proof.
  intros cs. induction cs as [|c cs IH]; intros ids xs keys points polys F G -> R; cbn [map foldM].
  - exists keys, points, []. cbn. rewrite !app_nil_r. auto.
  - rewrite (G c (or_introl eq_refl)). cbn [bind]. unfold nb_polygons, polygon_vertices. rewrite (polygons_loop _ (sm_polygons (co_mesh c)) (fuse_polygon m c)).
    destruct (fuse_polygons_ok c (sm_polygons (co_mesh c)) xs keys points polys F) as (k & p & add & Q & L & H).
    { intros q v. apply R. left. reflexivity. }
    change (foldM (fuse_polygon m c) (sm_polygons (co_mesh c)) (keys, points, polys) = Ok (k, p, polys ++ add)) in Q. rewrite Q. cbn [bind].
    destruct (IH (map co_id cs) (xs ++ map (pair c) (concat (sm_polygons (co_mesh c)))) k p (polys ++ add) H) as (k' & p' & add' & Q' & L' & H').
    { intros d Hd. apply G. right. exact Hd. } { reflexivity. } { intros d q v Hd. apply R. right. exact Hd. }
    exists k', p', (add ++ add'). rewrite <- app_assoc in Q'. split; [exact Q'|]. split; [cbn [polygons_of flat_map]; rewrite !map_app, L; f_equal; exact L'|].
    rewrite <- !app_assoc in H'. exact H'.
Qed.
Lemma Forall2_nth : forall A B (P : A -> B -> Prop) l l' n x y, Forall2 P l l' -> nth_error l n = Some x -> nth_error l' n = Some y -> P x y.
Proof. intros A B P l l' n x y F. revert n. induction F; intros [|n]; cbn; try discriminate; [congruence|eauto]. Qed.
Lemma fused_glued : forall cs keys points polys, fused (corners_of cs) keys points (concat polys) -> map (@length nat) polys = map (@length nat) (polygons_of cs) ->
  glued m cs (mkFused points polys).
Proof.
  intros cs keys points polys [A B C D] L. constructor; cbn [fs_points fs_polygons].
  - exact L.
  - intros n1 n2 w1 w2 x1 x2 W1 W2 X1 X2. pose proof (Forall2_nth _ _ _ _ _ _ _ _ C X1 W1) as K1. pose proof (Forall2_nth _ _ _ _ _ _ _ _ C X2 W2) as K2. cbn in K1, K2. split.
    + intros ->. congruence.
    + intros E. rewrite <- E in K2. rewrite NoDup_nth_error in B. apply B; [apply (nth_some_lt _ _ _ _ K1)|congruence].
  - intros n w w' W Hw. destruct (nth_error (corners_of cs) n) as [x|] eqn:X.
    + pose proof (Forall2_nth _ _ _ _ _ _ _ _ C X W) as K. cbn in K. apply nth_some_lt in K. destruct (D w K) as (n0 & _ & _ & (F1 & F2) & _ & _ & _ & N).
      destruct (N w' Hw) as (n' & Hn & E). exists n'. split; [|exact E]. destruct (Nat.le_gt_cases n0 n) as [Le|Gt]; [lia|]. exfalso. exact (F2 n Gt W).
    + apply nth_error_None in X. rewrite (Forall2_len C) in X. apply nth_some_lt in W. lia.
  - intros w p. split.
    + intros E. pose proof (nth_some_lt _ _ _ _ E) as Hw. rewrite A in Hw. destruct (D w Hw) as (n & x & q & (F1 & F2) & X & P & Q & _). exists n, x. rewrite E in Q. injection Q as ->. auto.
    + intros (n & x & W & F & X & P). pose proof (Forall2_nth _ _ _ _ _ _ _ _ C X W) as K. cbn in K. apply nth_some_lt in K.
      destruct (D w K) as (n' & x' & q & (F1 & F2) & X' & P' & Q & _). assert (n' = n).
      { destruct (Nat.lt_trichotomy n' n) as [H|[H|H]]; [exfalso; exact (F n' H F1)|exact H|exfalso; exact (F2 n H W)]. }
      subst n'. rewrite X in X'. injection X' as <-. congruence.
Qed.
Lemma fuse_glued : forall ids cs, surfaces_of m ids cs -> (forall c, In c cs -> get_surface m (co_id c) = Ok c) ->
  (forall c p v, In c cs -> In p (sm_polygons (co_mesh c)) -> In v p -> v < length (sm_points (co_mesh c))) ->
  exists g, fuse_brep_surfaces_from_list m ids = Ok g /\ glued m cs g.
Proof.
  intros ids cs S G R. assert (E : ids = map co_id cs) by (clear - S; induction S as [|? ? ? ? [_ H] _ IH]; cbn; congruence).
  destruct (fuse_surfaces_ok cs ids [] [] [] [] fused_nil G E R) as (k & p & add & Q & L & F). cbn [app] in Q, F.
  exists (mkFused p add). split; [unfold fuse_brep_surfaces_from_list; rewrite Q; reflexivity|]. apply fused_glued with (keys := k); assumption.
Qed.

(** one surface only is glued *)
Lemma concat_length_shape : forall (l l' : list (list nat)), map (@length nat) l = map (@length nat) l' -> length (concat l) = length (concat l').
Proof. induction l as [|x l IH]; intros [|y l']; cbn; try discriminate; [reflexivity|]. intros E. injection E as E1 E2. rewrite !app_length, E1, (IH _ E2). reflexivity. Qed.
Lemma concat_shape_inj : forall (l l' : list (list nat)), map (@length nat) l = map (@length nat) l' -> concat l = concat l' -> l = l'.
Proof.
  induction l as [|x l IH]; intros [|y l']; cbn; try discriminate; [reflexivity|]. intros E. injection E as E1 E2. intros K.
  assert (X : x = y).
  { assert (F : forall (x l : list nat), firstn (length x) (x ++ l) = x) by (clear; intros x l; induction x; cbn; congruence). rewrite <- (F x (concat l)), K, E1. apply F. }
  subst y. f_equal. apply IH; [exact E2|]. apply app_inv_head in K. exact K.
Qed.
Lemma corners_length : forall cs, length (corners_of cs) = length (concat (polygons_of cs)).
Proof. induction cs as [|c cs IH]; cbn; [reflexivity|]. rewrite concat_app, !app_length, map_length. f_equal. exact IH. Qed.
Lemma list_ext : forall A (l l' : list A), (forall n, nth_error l n = nth_error l' n) -> l = l'.
Proof.
  induction l as [|x l IH]; intros [|y l'] H; [reflexivity|specialize (H 0); discriminate|specialize (H 0); discriminate|].
  f_equal; [specialize (H 0); cbn in H; congruence|]. apply IH. intros n. apply (H (S n)).
Qed.
Lemma glued_unique : forall cs g g', glued m cs g -> glued m cs g' -> g = g'.
Proof.
  intros cs g g' [S1 G1 N1 P1] [S2 G2 N2 P2]. set (u := concat (fs_polygons g)) in *. set (v := concat (fs_polygons g')) in *.
  assert (Lu : length u = length (corners_of cs)) by (unfold u; rewrite corners_length; apply concat_length_shape, S1).
  assert (Lv : length v = length (corners_of cs)) by (unfold v; rewrite corners_length; apply concat_length_shape, S2).
  assert (E : forall n, nth_error u n = nth_error v n).
  { induction n as [n IH] using lt_wf_ind. destruct (nth_error u n) as [a|] eqn:A.
    2:{ apply nth_error_None in A. symmetry. apply nth_error_None. lia. }
    destruct (nth_error v n) as [b|] eqn:B; [|apply nth_error_None in B; apply nth_some_lt in A; lia]. f_equal.
    assert (X : exists x, nth_error (corners_of cs) n = Some x) by (destruct (nth_error (corners_of cs) n) eqn:Q; [eauto|apply nth_error_None in Q; apply nth_some_lt in A; lia]).
    destruct X as [x X].
    destruct (Nat.lt_trichotomy a b) as [H|[H|H]]; [exfalso|exact H|exfalso].
    - destruct (N2 n b a B H) as (n' & Hn & V'). assert (U' : nth_error u n' = Some a) by (rewrite (IH n' Hn); exact V').
      destruct (nth_error (corners_of cs) n') as [x'|] eqn:X'; [|apply nth_error_None in X'; apply nth_some_lt in V'; lia].
      assert (a = b); [|lia]. apply (G2 n' n a b x' x V' B X' X). apply (G1 n' n a a x' x U' A X' X). reflexivity.
    - destruct (N1 n a b A H) as (n' & Hn & U'). assert (V' : nth_error v n' = Some b) by (rewrite <- (IH n' Hn); exact U').
      destruct (nth_error (corners_of cs) n') as [x'|] eqn:X'; [|apply nth_error_None in X'; apply nth_some_lt in V'; lia].
      assert (b = a); [|lia]. apply (G1 n' n b a x' x U' A X' X). apply (G2 n' n b b x' x V' B X' X). reflexivity. }
  apply list_ext in E. assert (EP : fs_polygons g = fs_polygons g') by (apply concat_shape_inj; [congruence|exact E]).
  assert (EQ : fs_points g = fs_points g').
  { apply list_ext. intros w. destruct (nth_error (fs_points g) w) as [p|] eqn:A; destruct (nth_error (fs_points g') w) as [q|] eqn:B; [| | |reflexivity].
    - apply P1 in A. rewrite E in A. apply P2 in A. congruence.
    - apply P1 in A. rewrite E in A. apply P2 in A. congruence.
    - apply P2 in B. rewrite <- E in B. apply P1 in B. congruence. }
  destruct g, g'. cbn in *. congruence.
Qed.
Lemma surfaces_of_unique : forall ids cs cs', (forall c, In c (m_surfaces m) -> get_surface m (co_id c) = Ok c) -> surfaces_of m ids cs -> surfaces_of m ids cs' -> cs = cs'.
Proof.
  intros ids cs cs' G S. revert cs'. induction S as [|s c ids cs [I E] S IH]; intros cs' S'; inversion S' as [|? c' ? cs'' [I' E'] S'']; subst; [reflexivity|].
  f_equal; [|apply IH; assumption]. pose proof (G c I) as K. pose proof (G c' I') as K'. rewrite E' in K'. congruence.
Qed.
Lemma surfaces_of_exist : forall ids, (forall s, In s ids -> exists c, In c (m_surfaces m) /\ co_id c = s) -> exists cs, surfaces_of m ids cs.
Proof.
  induction ids as [|s ids IH]; intros H; [exists []; constructor|]. destruct (H s (or_introl eq_refl)) as (c & I & E). destruct IH as [cs S]; [intros t Ht; apply H; right; exact Ht|].
  exists (c :: cs). constructor; auto.
Qed.
Lemma surfaces_of_in : forall ids cs c, surfaces_of m ids cs -> In c cs -> In c (m_surfaces m).
Proof. intros ids cs c S. induction S as [|? ? ? ? [I _] _ IH]; intros []; [congruence|auto]. Qed.
End Fusion.
