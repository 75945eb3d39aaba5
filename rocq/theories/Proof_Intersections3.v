From Coq Require Import String Ascii List Arith NArith ZArith Bool Lia Permutation.
From Verif Require Import Base BaseFacts Model_Issues Types Model_Intersections Spec_Intersections Proof_Colocation2 Proof_Maps Proof_Intersections Proof_Intersections2.
Import ListNotations.
Open Scope list_scope.

Lemma find_first : forall A (f : A -> bool) l w, find f l = Some w <->
  exists pre post, l = pre ++ w :: post /\ f w = true /\ forall x, In x pre -> f x = false.
Proof.
  intros A f l w. induction l as [|x l IH]; cbn.
  - split; [discriminate|]. intros (pre & post & E & _). destruct pre; discriminate.
  - destruct (f x) eqn:Ex.
    + split.
      * intros [= ->]. exists [], l. cbn. repeat split; auto. intros y [].
      * intros (pre & post & E & Hw & Hp). destruct pre as [|y pre]; cbn in E; injection E as <- E; [reflexivity|].
        rewrite Hp in Ex by (left; reflexivity). discriminate.
    + rewrite IH. split.
      * intros (pre & post & -> & Hw & Hp). exists (x :: pre), post. cbn. repeat split; auto. intros y [<-|Hy]; auto.
      * intros (pre & post & E & Hw & Hp). destruct pre as [|y pre]; cbn in E; injection E as <- E; [congruence|].
        exists pre, post. repeat split; auto. intros z Hz. apply Hp. right. exact Hz.
Qed.
Lemma same_uv : forall a b, same_unique_vertex a b = true <-> b = a.
Proof.
  intros [x|] [y|]; cbn; try (split; congruence). rewrite Nat.eqb_eq. split; congruence.
Qed.
Lemma same_uv_false : forall a b, same_unique_vertex a b = false <-> b <> a.
Proof. intros a b. rewrite <- (same_uv a b). destruct (same_unique_vertex a b); split; congruence. Qed.

Section Pair.
Context (px : Predicates) (m : Model) (s1 s2 : Component SurfaceMesh).
Lemma find_counterpart : forall t2 v w,
  find (fun v2 => same_unique_vertex (surface_vertex m s1 v) (surface_vertex m s2 v2)) t2 = Some w <-> counterpart m s1 s2 t2 v w.
Proof.
  intros t2 v w. rewrite find_first. unfold counterpart. split; intros (pre & post & E & H & Hp); exists pre, post.
  - apply same_uv in H. repeat split; auto. intros x Hx. apply same_uv_false, Hp, Hx.
  - repeat split; auto. { apply same_uv. exact H. } intros x Hx. apply same_uv_false, Hp, Hx.
Qed.
Lemma common_spec : forall t1 t2, common_vertices m s1 s2 t2 t1 (triangles_common_vertices m s1 s2 t1 t2).
Proof.
  intros t1 t2. induction t1 as [|v t1 IH]; cbn; [constructor|].
  destruct (find _ t2) as [w|] eqn:E; cbn.
  - constructor; [apply find_counterpart; exact E|exact IH].
  - constructor; [|exact IH]. intros w Hw. apply same_uv_false. exact (find_none _ _ E w Hw).
Qed.
Lemma common_fun : forall t1 t2 l l', common_vertices m s1 s2 t2 t1 l -> common_vertices m s1 s2 t2 t1 l' -> l = l'.
Proof.
  intros t1 t2 l l' H. revert l'. induction H as [|v w t1 l Hc H IH|v t1 l Hn H IH]; intros l' H'; inversion H' as [|v' w' t1' k Hc' Hk|v' t1' k Hn' Hk]; subst.
  - reflexivity.
  - f_equal; [|apply IH, Hk]. apply find_counterpart in Hc, Hc'. congruence.
  - exfalso. destruct Hc as (pre & post & -> & Hw & _). apply (Hn' w); [apply in_app_iff; right; left; reflexivity|exact Hw].
  - exfalso. destruct Hc' as (pre & post & -> & Hw & _). apply (Hn w'); [apply in_app_iff; right; left; reflexivity|exact Hw].
  - apply IH, Hk.
Qed.
Lemma common_in : forall t1 t2 l a b, common_vertices m s1 s2 t2 t1 l -> In (a, b) l -> In a t1 /\ In b t2 /\ uv_of m s1 a = uv_of m s2 b.
Proof.
  intros t1 t2 l a b H. induction H as [|v w t1 l Hc H IH|v t1 l Hn H IH]; cbn; [contradiction| |].
  - intros [E|Hin]; [injection E as <- <-|destruct (IH Hin) as (? & ? & ?); auto].
    destruct Hc as (pre & post & -> & Hw & _). split; [left; reflexivity|]. split; [apply in_app_iff; right; left; reflexivity|congruence].
  - intros Hin. destruct (IH Hin) as (? & ? & ?). auto.
Qed.
Lemma common_length : forall t1 t2 l, common_vertices m s1 s2 t2 t1 l -> length l <= length t1.
Proof. intros t1 t2 l H. induction H; cbn; lia. Qed.

(** third vertices *)
Lemma third_ok : forall t c0 c1 position,
  NoDup t -> length t = 3 -> exists v, third_point_index t [c0; c1] position = Ok v /\ In v t /\
    third_vertex t (pair_at position c0) (pair_at position c1) v.
Proof.
  intros t c0 c1 position Hn Hl.
  set (a := pair_at position c0). set (b := pair_at position c1).
  assert (G : forall t', (forall pre, t = pre ++ t' -> (forall x, In x pre -> x = a \/ x = b) -> (exists x, In x t' /\ x <> a /\ x <> b) ->
     exists v, third_point_index t' [c0; c1] position = Ok v /\ In v t /\ third_vertex t a b v)).
  { induction t' as [|v t' IH]; intros pre E Hp (x & Hx & Hxa & Hxb); [contradiction|]. cbn. fold a b.
    destruct (Nat.eqb_spec v a) as [->|Na]; [|destruct (Nat.eqb_spec v b) as [->|Nb]]; cbn [orb].
    - apply (IH (pre ++ [a])); [rewrite <- app_assoc; exact E| |].
      + intros y Hy. apply in_app_iff in Hy. destruct Hy as [Hy|[<-|[]]]; auto.
      + exists x. destruct Hx as [<-|Hx]; [contradiction|auto].
    - apply (IH (pre ++ [b])); [rewrite <- app_assoc; exact E| |].
      + intros y Hy. apply in_app_iff in Hy. destruct Hy as [Hy|[<-|[]]]; auto.
      + exists x. destruct Hx as [<-|Hx]; [contradiction|auto].
    - exists v. split; [reflexivity|]. split; [rewrite E; apply in_app_iff; right; left; reflexivity|].
      exists pre, t'. auto. }
  apply (G t []); [reflexivity|intros x []|].
  destruct t as [|x [|y [|z [|]]]]; try discriminate. inversion Hn as [|? ? Hx Hn']; subst. inversion Hn' as [|? ? Hy _]; subst. cbn in *.
  destruct (Nat.eq_dec x a), (Nat.eq_dec x b), (Nat.eq_dec y a), (Nat.eq_dec y b), (Nat.eq_dec z a), (Nat.eq_dec z b); subst;
    try (exfalso; intuition congruence);
    first [exists x; solve [intuition congruence]|exists y; solve [intuition congruence]|exists z; solve [intuition congruence]].
Qed.
Lemma third_fun : forall t a b v v', third_vertex t a b v -> third_vertex t a b v' -> v = v'.
Proof.
  intros t a b v v' (pre & post & E & Ha & Hb & Hp) (pre' & post' & E' & Ha' & Hb' & Hp').
  set (f := fun x => negb (Nat.eqb x a) && negb (Nat.eqb x b)).
  assert (Hf : forall x, f x = true <-> x <> a /\ x <> b).
  { intros x. unfold f. rewrite andb_true_iff, !negb_true_iff, !Nat.eqb_neq. tauto. }
  assert (Hf' : forall x, x = a \/ x = b -> f x = false).
  { intros x H. destruct (f x) eqn:F; [|reflexivity]. apply Hf in F. tauto. }
  assert (A : find f t = Some v) by (apply find_first; exists pre, post; split; [exact E|]; split; [apply Hf; auto|auto]).
  assert (B : find f t = Some v') by (apply find_first; exists pre', post'; split; [exact E'|]; split; [apply Hf; auto|auto]).
  congruence.
Qed.
Definition in_mesh (s : Component SurfaceMesh) (t : list nat) : Prop := forall v, In v t -> v < length (sm_points (co_mesh s)).
Lemma point_ok : forall s t v, in_mesh s t -> In v t -> exists p, point_of (co_mesh s) v p /\ mesh_point (co_mesh s) v = Ok p.
Proof.
  intros s t v H Hv. destruct (nth_error_lt _ _ _ (H v Hv)) as [p Hp]. exists p. split; [exact Hp|]. unfold mesh_point. apply at_index_ok, Hp.
Qed.
Lemma triangle_ok : forall s t, in_mesh s t -> length t = 3 -> exists T, triangle_of (co_mesh s) t T /\ mesh_triangle (co_mesh s) t = Ok T.
Proof.
  intros s t H Hl. destruct t as [|a [|b [|c [|]]]]; try discriminate.
  destruct (point_ok s _ a H ltac:(cbn; auto)) as (p & Hp & Ep). destruct (point_ok s _ b H ltac:(cbn; auto)) as (q & Hq & Eq).
  destruct (point_ok s _ c H ltac:(cbn; auto)) as (r & Hr & Er). exists (p, q, r). split.
  - exists a, b, c. auto.
  - unfold mesh_triangle. cbn. rewrite Ep, Eq, Er. reflexivity.
Qed.
Lemma point_fun : forall (s : SurfaceMesh) v p p', point_of s v p -> point_of s v p' -> p = p'.
Proof. unfold point_of. intros. congruence. Qed.

(** a side of a triangle by its position *)
Definition side_at (t : list nat) (e : nat) : nat * nat := (nth e t 0, nth (if Nat.eqb e 2 then 0 else e + 1) t 0).
Lemma side_iff : forall t e, length t = 3 -> (side t e <-> exists i, i < 3 /\ e = side_at t i).
Proof.
  intros t e Hl. destruct t as [|a [|b [|c [|]]]]; try discriminate. unfold side, side_at. split.
  - intros (x & y & z & E & H). injection E as <- <- <-. destruct H as [->|[->| ->]]; [exists 0|exists 1|exists 2]; cbn; auto.
  - intros (i & Hi & ->). exists a, b, c. split; [reflexivity|]. destruct i as [|[|[|i]]]; [| | |lia]; cbn; auto.
Qed.
Lemma side_in : forall t e, side t e -> In (fst e) t /\ In (snd e) t.
Proof. intros t e (a & b & c & -> & [->|[->| ->]]); cbn; auto. Qed.

Lemma only_common_dec : forall q e others common first b0,
  (forall j, px_index px (snd q) = Some j -> j < length others) -> length common < 2 ->
  (if negb (Nat.eqb (length common) 1) then Ok true
   else match px_index px (fst q), px_index px (snd q) with
        | Some i1, Some i2 =>
          let! w2 := at_index others i2 in
          let! c := at_index common 0 in
          Ok (negb (Nat.eqb (side_end e i1) (if first : bool then fst c else snd c)) || negb (Nat.eqb w2 (if first then snd c else fst c)))
        | _, _ => Ok true
        end) = b0 ->
  exists b, b0 = Ok b /\ (b = true <-> ~ only_common px q e others common first).
Proof.
  intros q e others common first b0 Hj Hl <-. unfold only_common.
  destruct common as [|c [|c' common]]; [| |cbn in Hl; lia]; cbn.
  - exists true. split; [reflexivity|]. split; [|reflexivity]. intros _ (c & i & j & w & E & _). discriminate.
  - destruct (px_index px (fst q)) as [i1|] eqn:E1; [|exists true; split; [reflexivity|]; split; [intros _ (?&?&?&?&?&?&?); congruence|reflexivity]].
    destruct (px_index px (snd q)) as [i2|] eqn:E2; [|exists true; split; [reflexivity|]; split; [intros _ (?&?&?&?&?&?&?&?); congruence|reflexivity]].
    destruct (nth_error_lt _ others i2 (Hj _ eq_refl)) as [w Hw]. rewrite (at_index_ok _ _ _ _ Hw). cbn.
    eexists. split; [reflexivity|]. rewrite orb_true_iff, !negb_true_iff, !Nat.eqb_neq. split.
    + intros H (c0 & i & j & w0 & [= <-] & [= <-] & [= <-] & Ha & Hb & Hc). rewrite Hw in Hb. injection Hb as <-. tauto.
    + intros H. destruct (Nat.eq_dec (side_end e i1) (if first then fst c else snd c)) as [E|]; [|auto].
      destruct (Nat.eq_dec w (if first then snd c else fst c)) as [E'|]; [|auto]. exfalso. apply H. exists c, i1, i2, w. repeat split; assumption.
Qed.

Lemma nth_index : forall t i, i < length t -> at_index t i = Ok (nth i t 0).
Proof. intros t i H. unfold at_index. rewrite (nth_error_nth' _ 0 H). reflexivity. Qed.
Lemma other_decides : forall (A : Component SurfaceMesh) triangle1 triangle2 t1 t2 common position,
  indices_in_range px -> length t1 = 3 -> length t2 = 3 -> length common < 2 -> position < 2 -> triangle_of (co_mesh A) t1 triangle1 ->
  exists b, triangle_intersects_other px triangle1 triangle2 t1 t2 common position = Ok b /\
    (b = true <-> exists e p q, side t1 e /\ point_of (co_mesh A) (fst e) p /\ point_of (co_mesh A) (snd e) q /\
       fst (px_segment_triangle px (p, q) triangle2) <> Outside /\
       ~ only_common px (px_segment_triangle px (p, q) triangle2) e t2 common (Nat.eqb position 1)).
Proof.
  intros A triangle1 triangle2 t1 t2 common position (_ & _ & Hix) H1 H2 Hc Hpos HT. unfold triangle_intersects_other.
  set (seg := fun i => (triangle_vertex triangle1 i, triangle_vertex triangle1 (if Nat.eqb i 2 then 0 else i + 1))).
  destruct (anyM_decides _ (fun v_id : nat =>
     if position_eqb (fst (px_segment_triangle px (seg v_id) triangle2)) Outside then Ok false
     else if negb (length common =? 1) then Ok true
     else match px_index px (fst (px_segment_triangle px (seg v_id) triangle2)), px_index px (snd (px_segment_triangle px (seg v_id) triangle2)) with
       | Some i1, Some i2 =>
             let! w1 := at_index t1 (if Nat.eqb i1 0 then v_id else (if Nat.eqb v_id 2 then 0 else v_id + 1)) in
             let! w2 := at_index t2 i2 in
             let! c := at_index common 0 in
             Ok (negb (Nat.eqb w1 (pair_at (if Nat.eqb position 0 then 1 else 0) c)) || negb (Nat.eqb w2 (pair_at position c)))
       | _, _ => Ok true end)
     (fun i => fst (px_segment_triangle px (seg i) triangle2) <> Outside /\
       ~ only_common px (px_segment_triangle px (seg i) triangle2) (side_at t1 i) t2 common (Nat.eqb position 1)) (Range 3)) as (b & E & Hb).
  { intros i Hi. apply in_Range in Hi. unfold decides. destruct (position_eqb (fst (px_segment_triangle px (seg i) triangle2)) Outside) eqn:EO.
    - exists false. split; [reflexivity|]. apply position_eqb_eq in EO. split; [discriminate|tauto].
    - assert (NO : fst (px_segment_triangle px (seg i) triangle2) <> Outside) by (apply position_neqb; rewrite EO; reflexivity).
      destruct (only_common_dec (px_segment_triangle px (seg i) triangle2) (side_at t1 i) t2 common (Nat.eqb position 1) _
         ltac:(intros j Hj; rewrite H2; eapply Hix; exact Hj) Hc eq_refl) as (b & E & Hb).
      exists b. split; [|rewrite Hb; tauto]. rewrite <- E. destruct (negb (length common =? 1)); [reflexivity|].
      destruct (px_index px (fst _)) as [i1|]; [|reflexivity]. destruct (px_index px (snd _)) as [i2|]; [|reflexivity].
      rewrite nth_index by (rewrite H1; destruct (Nat.eqb_spec i1 0), (Nat.eqb_spec i 2); lia). cbn [bind].
      replace (nth (if i1 =? 0 then i else if i =? 2 then 0 else i + 1) t1 0) with (side_end (side_at t1 i) i1)
        by (unfold side_end, side_at; cbn; destruct (i1 =? 0); reflexivity).
      destruct position as [|[|position]]; [| |lia]; reflexivity. }
  exists b. split; [exact E|]. rewrite Hb. clear E Hb b.
  assert (Hseg : forall i, i < 3 -> point_of (co_mesh A) (fst (side_at t1 i)) (fst (seg i)) /\ point_of (co_mesh A) (snd (side_at t1 i)) (snd (seg i))).
  { intros i Hi. destruct triangle1 as [[p q] r]. destruct HT as (a & b & c & -> & Ha & Hb & Hcc). cbn in Ha, Hb, Hcc.
    destruct i as [|[|[|i]]]; [| | |lia]; cbn; auto. }
  split.
  - intros (i & Hi & H). apply in_Range in Hi. destruct (Hseg i Hi) as [Ha Hb]. exists (side_at t1 i), (fst (seg i)), (snd (seg i)).
    split; [apply side_iff; eauto|]. split; [exact Ha|]. split; [exact Hb|]. exact H.
  - intros (e & p & q & Hs & Hp & Hq & H). apply side_iff in Hs; [|assumption]. destruct Hs as (i & Hi & ->). destruct (Hseg i Hi) as [Ha Hb].
    exists i. split; [apply in_Range; exact Hi|]. rewrite (point_fun _ _ _ _ Hp Ha), (point_fun _ _ _ _ Hq Hb) in H. exact H.
Qed.

(** 3D *)
Lemma brep_decides : forall t1 t2, indices_in_range px -> length t1 = 3 -> length t2 = 3 -> NoDup t1 -> in_mesh s1 t1 -> in_mesh s2 t2 ->
  exists b, (let common := triangles_common_vertices m s1 s2 t1 t2 in
             if Nat.eqb (length common) 3 then Ok true else brep_triangles_intersect px s1 s2 t1 t2 common) = Ok b /\
    (b = true <-> triangles_meet_3d px m s1 s2 t1 t2).
Proof.
  intros t1 t2 Hix H1 H2 N1 M1 M2. pose proof (common_spec t1 t2) as Hc. set (common := triangles_common_vertices m s1 s2 t1 t2) in *. cbn zeta.
  destruct (Nat.eqb_spec (length common) 3) as [E3|N3].
  { exists true. split; [reflexivity|]. split; [intros _; eapply m3_three; eauto|reflexivity]. }
  assert (Hl3 : length common < 3) by (pose proof (common_length _ _ _ Hc); lia).
  destruct (triangle_ok s2 t2 M2 H2) as (T2 & HT2 & ET2). destruct (triangle_ok s1 t1 M1 H1) as (T1 & HT1 & ET1).
  unfold brep_triangles_intersect. rewrite ET2. cbn [bind].
  destruct (Nat.eqb_spec (length common) 2) as [E2|N2].
  - destruct common as [|c0 [|c1 [|]]]; try discriminate. cbn [at_index nth_error bind].
    destruct (third_ok t1 c0 c1 0 N1 H1) as (v & Ev & Hv & Tv). rewrite Ev. cbn [bind]. change (pair_at 0 c0) with (fst c0) in Tv. change (pair_at 0 c1) with (fst c1) in Tv.
    destruct (point_ok s1 t1 v M1 Hv) as (pv & Hpv & Epv). rewrite Epv. cbn [bind].
    assert (I0 : In (fst c0) t1) by (eapply (common_in _ _ _ (fst c0) (snd c0) Hc); left; destruct c0; reflexivity).
    assert (I1 : In (fst c1) t1) by (eapply (common_in _ _ _ (fst c1) (snd c1) Hc); right; left; destruct c1; reflexivity).
    destruct (point_ok s1 t1 _ M1 I0) as (p0 & Hp0 & Ep0). destruct (point_ok s1 t1 _ M1 I1) as (p1 & Hp1 & Ep1). rewrite Ep0, Ep1. cbn [bind].
    eexists. split; [reflexivity|]. rewrite orb_true_iff, !position_eqb_eq. split.
    + intros H. eapply m3_two; eauto.
    + intros H. destruct H as [c Hc' L|a b w pa pb pw T Hc' Tw Ha Hb Hw HT H|c e p q T Hc' L|c e p q T Hc' L].
      * rewrite (common_fun _ _ _ _ Hc' Hc) in L. discriminate.
      * pose proof (common_fun _ _ _ _ Hc' Hc) as E. injection E as -> ->. rewrite (third_fun _ _ _ _ _ Tw Tv) in *.
        rewrite <- (point_fun _ _ _ _ Ha Hp0), <- (point_fun _ _ _ _ Hb Hp1), <- (point_fun _ _ _ _ Hw Hpv), (triangle_of_fun _ _ _ _ HT2 HT). exact H.
      * rewrite (common_fun _ _ _ _ Hc' Hc) in L. cbn in L. lia.
      * rewrite (common_fun _ _ _ _ Hc' Hc) in L. cbn in L. lia.
  - rewrite ET1. cbn [bind]. assert (L2 : length common < 2) by lia.
    destruct (other_decides s1 T1 T2 t1 t2 common 1 Hix H1 H2 L2 ltac:(lia) HT1) as (b1 & E1 & Hb1).
    destruct (other_decides s2 T2 T1 t2 t1 common 0 Hix H2 H1 L2 ltac:(lia) HT2) as (b2 & E2 & Hb2). cbn in Hb1, Hb2.
    rewrite E1. cbn [bind]. exists (b1 || b2). split; [destruct b1; [reflexivity|exact E2]|]. rewrite orb_true_iff, Hb1, Hb2. split.
    + intros [(e & p & q & Hs & Hp & Hq & Ho & Hn)|(e & p & q & Hs & Hp & Hq & Ho & Hn)]; [eapply m3_first|eapply m3_second]; eauto.
    + intros H. destruct H as [c Hc' L|a b w pa pb pw T Hc'|c e p q T Hc' L Hs Hp Hq HT Ho Hn|c e p q T Hc' L Hs Hp Hq HT Ho Hn].
      * rewrite (common_fun _ _ _ _ Hc' Hc) in L. lia.
      * pose proof (common_fun _ _ _ _ Hc' Hc) as E. rewrite <- E in L2. cbn in L2. lia.
      * left. rewrite (common_fun _ _ _ _ Hc' Hc) in Hn. rewrite (triangle_of_fun _ _ _ _ HT HT2) in *. exists e, p, q. auto.
      * right. rewrite (common_fun _ _ _ _ Hc' Hc) in Hn. rewrite (triangle_of_fun _ _ _ _ HT HT1) in *. exists e, p, q. auto.
Qed.

(** 2D *)
Lemma section_decides : forall t1 t2, indices_in_range px -> length t1 = 3 -> length t2 = 3 -> NoDup t1 -> NoDup t2 -> in_mesh s1 t1 -> in_mesh s2 t2 ->
  (forall v w, In v t1 -> In w t2 -> uv_of m s1 v = uv_of m s2 w -> w < length (sm_points (co_mesh s1))) ->
  exists b, (let common := triangles_common_vertices m s1 s2 t1 t2 in
             if Nat.eqb (length common) 3 then Ok true else section_triangles_intersect px s1 s2 t1 t2 common) = Ok b /\
    (b = true <-> triangles_meet_2d px m s1 s2 snd t1 t2).
Proof.
  intros t1 t2 Hix H1 H2 N1 N2 M1 M2 Hread. pose proof (common_spec t1 t2) as Hc. set (common := triangles_common_vertices m s1 s2 t1 t2) in *. cbn zeta.
  destruct (Nat.eqb_spec (length common) 3) as [E3|N3].
  { exists true. split; [reflexivity|]. split; [intros _; eapply m2_three; eauto|reflexivity]. }
  assert (Hl3 : length common < 3) by (pose proof (common_length _ _ _ Hc); lia).
  destruct (triangle_ok s2 t2 M2 H2) as (T2 & HT2 & ET2). destruct (triangle_ok s1 t1 M1 H1) as (T1 & HT1 & ET1).
  unfold section_triangles_intersect.
  destruct (Nat.eqb_spec (length common) 2) as [E2|N2'].
  - destruct common as [|c0 [|c1 [|]]]; try discriminate. cbn [at_index nth_error bind].
    destruct (common_in _ _ _ (fst c0) (snd c0) Hc) as (I0 & J0 & U0); [left; destruct c0; reflexivity|].
    destruct (common_in _ _ _ (fst c1) (snd c1) Hc) as (I1 & J1 & U1); [right; left; destruct c1; reflexivity|].
    destruct (point_ok s1 t1 _ M1 I0) as (p0 & Hp0 & Ep0). rewrite Ep0. cbn [bind].
    destruct (nth_error_lt _ _ _ (Hread _ _ I1 J1 U1)) as [p1 Hp1]. unfold mesh_point at 1. rewrite (at_index_ok _ _ _ _ Hp1). cbn [bind].
    destruct (third_ok t1 c0 c1 0 N1 H1) as (v & Ev & Hv & Tv). rewrite Ev. cbn [bind]. change (pair_at 0 c0) with (fst c0) in Tv. change (pair_at 0 c1) with (fst c1) in Tv.
    destruct (point_ok s1 t1 v M1 Hv) as (pv & Hpv & Epv). rewrite Epv. cbn [bind].
    destruct (third_ok t2 c0 c1 1 N2 H2) as (w & Ew & Hw & Tw). rewrite Ew. cbn [bind]. change (pair_at 1 c0) with (snd c0) in Tw. change (pair_at 1 c1) with (snd c1) in Tw.
    destruct (point_ok s2 t2 w M2 Hw) as (pw & Hpw & Epw). rewrite Epw. cbn [bind].
    rewrite ET1, ET2. cbn [bind].
    assert (G : triangles_meet_2d px m s1 s2 snd t1 t2 <->
      fst (px_segment_segment px (p0, pv) (p1, pw)) <> Outside \/ fst (px_segment_segment px (p1, pv) (p0, pw)) <> Outside \/
      px_point_triangle px pv T2 <> Outside \/ px_point_triangle px pw T1 <> Outside).
    { split.
      - intros H. destruct H as [c Hc' L|a b v' w' pa pb pv' pw' T1' T2' Hc' Tv' Tw' Ha Hb Hv' Hw' HT1' HT2' H|c e1 e2 p q p' q' Hc' L].
        + rewrite (common_fun _ _ _ _ Hc' Hc) in L. discriminate.
        + pose proof (common_fun _ _ _ _ Hc' Hc) as E. injection E as -> ->. rewrite (third_fun _ _ _ _ _ Tv' Tv), (third_fun _ _ _ _ _ Tw' Tw) in *.
          rewrite <- (point_fun _ _ _ _ Ha Hp0), <- (point_fun _ _ _ _ Hb Hp1), <- (point_fun _ _ _ _ Hv' Hpv), <- (point_fun _ _ _ _ Hw' Hpw),
            (triangle_of_fun _ _ _ _ HT2 HT2'), (triangle_of_fun _ _ _ _ HT1 HT1'). exact H.
        + rewrite (common_fun _ _ _ _ Hc' Hc) in L. cbn in L. lia.
      - intros H. eapply m2_two; eauto. }
    match goal with |- exists b, (if ?x then _ else _) = _ /\ _ => destruct x eqn:EX end.
    + exists true. split; [reflexivity|]. rewrite G. rewrite orb_true_iff, !position_neqb in EX. tauto.
    + eexists. split; [reflexivity|]. rewrite G, orb_true_iff, !position_neqb. rewrite orb_false_iff, !negb_false_iff, !position_eqb_eq in EX.
      destruct EX as [-> ->]. tauto.
  - assert (L2 : length common < 2) by lia. destruct Hix as (Hi1 & Hi2 & _).
    set (P := fun e1 e2 => exists p1 q1 p2 q2,
      point_of (co_mesh s1) (fst e1) p1 /\ point_of (co_mesh s1) (snd e1) q1 /\ point_of (co_mesh s2) (fst e2) p2 /\ point_of (co_mesh s2) (snd e2) q2 /\
      (let q := px_segment_segment px (p1, q1) (p2, q2) in
       fst q <> Outside /\ fst q <> Parallel /\ ~ only_common px q e1 [fst e2; snd e2] common true)).
    match goal with |- exists b, anyM ?f _ = _ /\ _ => destruct (anyM_decides _ f (fun i => exists j, j < 3 /\ P (side_at t1 i) (side_at t2 j)) (Range 3)) as (b & E & Hb) end.
    { intros i Hi. apply in_Range in Hi. unfold decides.
      assert (Ha1 : i < length t1) by lia. assert (Hb1 : (if i =? 2 then 0 else i + 1) < length t1) by (destruct (Nat.eqb_spec i 2); lia).
      rewrite (nth_index _ _ Ha1), (nth_index _ _ Hb1). cbn [bind].
      destruct (point_ok s1 t1 (nth i t1 0) M1 (nth_In _ _ Ha1)) as (pa1 & Hpa1 & Epa1). rewrite Epa1. cbn [bind].
      destruct (point_ok s1 t1 (nth (if i =? 2 then 0 else i + 1) t1 0) M1 (nth_In _ _ Hb1)) as (pb1 & Hpb1 & Epb1). rewrite Epb1. cbn [bind].
      match goal with |- exists b, anyM ?f _ = _ /\ _ => destruct (anyM_decides _ f (fun j => P (side_at t1 i) (side_at t2 j)) (Range 3)) as (b & E & Hb) end.
      2:{ exists b. split; [exact E|]. rewrite Hb. split; intros (j & Hj & HP); exists j; (split; [apply in_Range; exact Hj|exact HP]). }
      intros j Hj. apply in_Range in Hj. unfold decides.
      assert (Ha2 : j < length t2) by lia. assert (Hb2 : (if j =? 2 then 0 else j + 1) < length t2) by (destruct (Nat.eqb_spec j 2); lia).
      rewrite (nth_index _ _ Ha2), (nth_index _ _ Hb2). cbn [bind].
      destruct (point_ok s2 t2 (nth j t2 0) M2 (nth_In _ _ Ha2)) as (pa2 & Hpa2 & Epa2). rewrite Epa2. cbn [bind].
      destruct (point_ok s2 t2 (nth (if j =? 2 then 0 else j + 1) t2 0) M2 (nth_In _ _ Hb2)) as (pb2 & Hpb2 & Epb2). rewrite Epb2. cbn [bind].
      set (q := px_segment_segment px (pa1, pb1) (pa2, pb2)).
      assert (HP : P (side_at t1 i) (side_at t2 j) <-> fst q <> Outside /\ fst q <> Parallel /\
        ~ only_common px q (side_at t1 i) [nth j t2 0; nth (if j =? 2 then 0 else j + 1) t2 0] common true).
      { unfold P, side_at. cbn [fst snd]. split.
        - intros (p1 & q1 & p2 & q2 & A1 & A2 & A3 & A4 & A). rewrite (point_fun _ _ _ _ A1 Hpa1), (point_fun _ _ _ _ A2 Hpb1), (point_fun _ _ _ _ A3 Hpa2), (point_fun _ _ _ _ A4 Hpb2) in A. exact A.
        - intros A. exists pa1, pb1, pa2, pb2. auto 6. }
      destruct (position_eqb (fst q) Outside || position_eqb (fst q) Parallel) eqn:EO.
      { exists false. split; [reflexivity|]. rewrite HP. rewrite orb_true_iff, !position_eqb_eq in EO. split; [discriminate|tauto]. }
      rewrite orb_false_iff in EO. destruct EO as [EO EPa].
      assert (NO : fst q <> Outside) by (apply position_neqb; rewrite EO; reflexivity).
      assert (NP : fst q <> Parallel) by (apply position_neqb; rewrite EPa; reflexivity).
      destruct (only_common_dec q (side_at t1 i) [nth j t2 0; nth (if j =? 2 then 0 else j + 1) t2 0] common true _
         ltac:(intros k Hk; cbn; eapply Hi2; exact Hk) L2 eq_refl) as (b & E & Hb).
      exists b. split; [|rewrite Hb, HP; tauto]. rewrite <- E. destruct (negb (length common =? 1)); [reflexivity|].
      destruct (px_index px (fst q)) as [i1|] eqn:Ei1; [|reflexivity]. destruct (px_index px (snd q)) as [i2|]; [|reflexivity].
      apply Hi1 in Ei1. destruct i1 as [|[|i1]]; [| |lia]; reflexivity. }
    exists b. split; [exact E|]. rewrite Hb. split.
    + intros (i & Hi & j & Hj & p1 & q1 & p2 & q2 & A1 & A2 & A3 & A4 & A). apply in_Range in Hi.
      eapply (m2_sides px m s1 s2 snd t1 t2 common (side_at t1 i) (side_at t2 j)); eauto; apply side_iff; eauto.
    + intros H. destruct H as [c Hc' L|a b0 v' w' pa pb pv' pw' T1' T2' Hc'|c e1 e2 p1 q1 p2 q2 Hc' L S1 S2 A1 A2 A3 A4 A].
      * rewrite (common_fun _ _ _ _ Hc' Hc) in L. lia.
      * pose proof (common_fun _ _ _ _ Hc' Hc) as E'. rewrite <- E' in L2. cbn in L2. lia.
      * rewrite (common_fun _ _ _ _ Hc' Hc) in A. apply side_iff in S1, S2; try assumption. destruct S1 as (i & Hi & ->). destruct S2 as (j & Hj & ->).
        exists i. split; [apply in_Range; exact Hi|]. exists j. split; [exact Hj|]. exists p1, q1, p2, q2. auto 6.
Qed.
End Pair.
