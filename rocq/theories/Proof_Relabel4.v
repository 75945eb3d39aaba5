(** Unique vertices numbered in another way: colocated unique vertices, unique vertices at different points. *)
From Coq Require Import String Ascii List Arith NArith ZArith Bool Lia Permutation Sorted Mergesort.
From Verif Require Import Base BaseFacts Model_Issues Types Model_Colocation Model_Topology Model_Results Spec_Colocation Spec_Topology Spec_Renumber Spec_Relabel Spec_Local
  Proof_Messages Proof_Order Proof_Colocation Proof_Colocation2 Proof_Manifold3 Proof_Renumber Proof_Relabel Proof_Relabel2 Proof_Relabel3.
Import ListNotations.
Open Scope list_scope.

Record groups_by (k : nat) (S : nat -> nat -> Prop) (gs : list (list nat)) : Prop := {
  gb_pairs : forall i j, i <> j -> (exists g, In g gs /\ In i g /\ In j g) <-> S i j;
  gb_size : forall g, In g gs -> 2 <= length g;
  gb_sorted : forall g, In g gs -> StronglySorted lt g;
  gb_disjoint : NoDup (concat gs);
  gb_range : forall g i, In g gs -> In i g -> i < k }.
Lemma groups_relabelled : forall (S S' : nat -> nat -> Prop) f groups groups' k, numbers k f ->
  (forall i j, i < k -> j < k -> (S' (f i) (f j) <-> S i j)) -> groups_by k S groups -> groups_by k S' groups' ->
  Permutation groups' (map (fun g => NatSort.sort (map f g)) groups).
Proof.
  intros S S' f groups groups' k N H G G'.
  assert (NE : forall k S gs, groups_by k S gs -> forall g, In g gs -> g <> []).
  { intros k0 S0 gs K g Hg ->. pose proof (gb_size _ _ _ K _ Hg). cbn in *. lia. }
  assert (R : forall g i, In g groups -> In i g -> i < k) by (intros g i Hg Hi; apply (gb_range _ _ _ G g i Hg Hi)).
  assert (R' : forall g i, In g groups' -> In i g -> i < k) by (intros g i Hg Hi; apply (gb_range _ _ _ G' g i Hg Hi)).
  (* a group and a new group that share a vertex have the same vertices *)
  assert (M : forall g g' i, In g groups -> In g' groups' -> In i g -> In (f i) g' -> forall x, x < k -> (In (f x) g' <-> In x g)).
  { intros g g' i Ig Ig' Ii Ii' x Hx. pose proof (R g i Ig Ii) as Hi. destruct (Nat.eq_dec i x) as [<-|D]; [tauto|].
    assert (D' : f i <> f x) by (intros E; apply D; apply (proj2 N); assumption). split; intros K.
    - assert (SP : S' (f i) (f x)) by (apply (gb_pairs _ _ _ G' _ _ D'); eauto).
      apply (H i x Hi Hx) in SP. apply (gb_pairs _ _ _ G _ _ D) in SP. destruct SP as (h & Ih & Hh1 & Hh2).
      rewrite (groups_unique g h groups (gb_disjoint _ _ _ G) Ig Ih); [exact Hh2|eauto].
    - assert (SP : S i x) by (apply (gb_pairs _ _ _ G _ _ D); eauto).
      apply (H i x Hi Hx) in SP. apply (gb_pairs _ _ _ G' _ _ D') in SP. destruct SP as (h & Ih & Hh1 & Hh2).
      rewrite (groups_unique g' h groups' (gb_disjoint _ _ _ G') Ig' Ih); [exact Hh2|eauto]. }
  assert (Q : forall g g' i, In g groups -> In g' groups' -> In i g -> In (f i) g' -> g' = NatSort.sort (map f g)).
  { intros g g' i Ig Ig' Ii Ii'. apply (sorted_unique _ lt); [intros x; lia|intros; lia|apply (gb_sorted _ _ _ G' _ Ig')| |].
    - apply nat_sort_sorted. apply NoDup_map_on; [apply sorted_lt_NoDup; apply (gb_sorted _ _ _ G _ Ig)|].
      intros x y Hx Hy. apply N; apply (R g); assumption.
    - intros y. rewrite nat_sort_in, in_map_iff. split.
      + intros Hy. destruct (numbers_onto k f N y (R' g' y Ig' Hy)) as (x & Hx & <-). exists x. split; [reflexivity|]. apply (M g g' i); assumption.
      + intros (x & <- & Hx). apply (M g g' i); try assumption. apply (R g x Ig Hx). }
  apply NoDup_Permutation.
  - apply concat_NoDup_list; [apply (gb_disjoint _ _ _ G')|apply (NE _ _ _ G')].
  - apply NoDup_map_on; [apply concat_NoDup_list; [apply (gb_disjoint _ _ _ G)|apply (NE _ _ _ G)]|].
    intros g h Ig Ih E. pose proof (NE _ _ _ G g Ig) as Ng. destruct g as [|i g]; [congruence|]. apply (groups_unique _ _ groups (gb_disjoint _ _ _ G) Ig Ih).
    exists i. split; [left; reflexivity|]. assert (K : In (f i) (NatSort.sort (map f (i :: g)))) by (apply nat_sort_in; left; reflexivity).
    rewrite E in K. rewrite nat_sort_in in K. apply in_map_iff in K. destruct K as (x & Ex & Hx).
    apply (proj2 N) in Ex; [subst x; exact Hx|apply (R h); assumption|apply (R (i :: g)); [exact Ig|left; reflexivity]].
  - intros g'. rewrite in_map_iff. split.
    + intros Ig'. pose proof (NE _ _ _ G' g' Ig') as Ng. destruct g' as [|y t] eqn:Eg'; [congruence|]. rewrite <- Eg' in *. clear Ng.
      assert (Iy : In y g') by (rewrite Eg'; left; reflexivity).
      destruct (another_member g' y (gb_size _ _ _ G' _ Ig') (gb_sorted _ _ _ G' _ Ig') Iy) as (z & Iz & D').
      destruct (numbers_onto k f N y (R' g' y Ig' Iy)) as (i & Hi & Ei). destruct (numbers_onto k f N z (R' g' z Ig' Iz)) as (j & Hj & Ej). rewrite <- Ei, <- Ej in *.
      assert (D : i <> j) by (intros ->; congruence).
      assert (SP : S' (f i) (f j)) by (apply (gb_pairs _ _ _ G' _ _ D'); eauto).
      apply (H i j Hi Hj) in SP. apply (gb_pairs _ _ _ G _ _ D) in SP. destruct SP as (h & Ih & Hh1 & Hh2).
      exists h. split; [|exact Ih]. symmetry. apply (Q h g' i); assumption.
    + intros (g & <- & Ig). pose proof (NE _ _ _ G g Ig) as Ng. destruct g as [|i t] eqn:Eg; [congruence|]. rewrite <- Eg in *. clear Ng.
      assert (Ii : In i g) by (rewrite Eg; left; reflexivity).
      destruct (another_member g i (gb_size _ _ _ G _ Ig) (gb_sorted _ _ _ G _ Ig) Ii) as (j & Ij & D).
      assert (D' : f i <> f j) by (intros E; apply D; apply (proj2 N); [apply (R g)|apply (R g)|]; assumption).
      assert (SP : S i j) by (apply (gb_pairs _ _ _ G _ _ D); eauto).
      apply (H i j (R g i Ig Ii) (R g j Ig Ij)) in SP. apply (gb_pairs _ _ _ G' _ _ D') in SP. destruct SP as (h & Ih & Hh1 & Hh2).
      rewrite <- (Q g h i); assumption.
Qed.

Section UniqueVertices.
Context (f : nat -> nat) (m m' : Model) (R : relabelled f m m').
Lemma relabelled_activity : forall id a, has_activity m' id a <-> has_activity m id a.
Proof. intros id a. unfold has_activity. rewrite (rl_corners _ _ _ R), (rl_lines _ _ _ R), (rl_surfaces _ _ _ R), (rl_blocks _ _ _ R). reflexivity. Qed.
Lemma relabelled_active : forall c, is_active_cmv m' c <-> is_active_cmv m c.
Proof. intros c. apply relabelled_activity. Qed.
Lemma relabelled_vertex_position : forall uv p, uv < nb_unique_vertices m -> (unique_vertex_position m' (f uv) p <-> unique_vertex_position m uv p).
Proof.
  intros uv p B. pose proof (rl_links _ _ _ R uv B) as L. split; intros (pre & c0 & post & B' & E & P & A & Q); exists pre, c0, post.
  - split; [exact B|]. split; [congruence|]. split; [intros d I K; apply (P d I), relabelled_active, K|]. split; [apply relabelled_active, A|apply (relabelled_position f m m' R), Q].
  - split; [rewrite (rl_nb _ _ _ R); apply (rl_numbers _ _ _ R), B|]. split; [congruence|]. split; [intros d I K; apply (P d I), relabelled_active, K|].
    split; [apply relabelled_active, A|apply (relabelled_position f m m' R), Q].
Qed.
Lemma relabelled_different : forall geo uv, uv < nb_unique_vertices m -> (different_points geo m' (f uv) <-> different_points geo m uv).
Proof.
  intros geo uv B. pose proof (rl_links _ _ _ R uv B) as L. split; intros (pre & c0 & post & c & p0 & p & E & P & A & I & A' & Q & Q' & D); exists pre, c0, post, c, p0, p.
  - split; [congruence|]. split; [intros d J K; apply (P d J), relabelled_active, K|]. rewrite relabelled_active in A, A'. rewrite (relabelled_position f m m' R) in Q, Q'. tauto.
  - split; [congruence|]. split; [intros d J K; apply (P d J), relabelled_active, K|]. rewrite !relabelled_active, !(relabelled_position f m m' R). tauto.
Qed.
Lemma relabelled_resolvable : resolvable m -> resolvable m'.
Proof.
  intros K cmvs c I J. apply (In_nth _ _ []) in I as (w & B & E). change (w < nb_unique_vertices m') in B. change (component_mesh_vertices m' w = cmvs) in E.
  rewrite (rl_nb _ _ _ R) in B. destruct (numbers_onto _ _ (rl_numbers _ _ _ R) w B) as (uv & B1 & <-). rewrite (rl_links _ _ _ R uv B1) in E.
  destruct (K cmvs c) as [p P]; [rewrite <- E; apply nth_In; exact B1|exact J|]. exists p. apply (relabelled_position f m m' R), P.
Qed.
Lemma relabelled_unique : forall geo, unique_ids m -> resolvable m -> blind_to_labels geo f m m' ->
  exists r r', inspect_unique_vertices geo m = Ok r /\ inspect_unique_vertices geo m' = Ok r' /\ relabelled_unique_vertices f r r'.
Proof.
  intros geo U K BL. pose proof (relabelled_ids f m m' R U) as U'. pose proof (relabelled_resolvable K) as K'. pose proof (rl_numbers _ _ _ R) as N.
  destruct (linked_to_different_points_spec geo m (ur_different empty_unique_vertices) U K) as (d & _ & ld & Ed & _ & Id & Sd & Md & _).
  destruct (linked_to_different_points_spec geo m' (ur_different empty_unique_vertices) U' K') as (d' & _ & ld' & Ed' & _ & Id' & Sd' & Md' & _).
  destruct (colocated_unique_vertices_spec geo m (ur_colocated empty_unique_vertices) U K) as (l & Pl & C).
  destruct (colocated_unique_vertices_spec geo m' (ur_colocated empty_unique_vertices) U' K') as (l' & Pl' & C').
  destruct (BL l l' Pl Pl') as (B1 & B2 & B3).
  destruct (C B1) as (g & gs & _ & Eg & Ig & _ & _ & G1 & G2 & G3 & G4). destruct (C' B2) as (g' & gs' & _ & Eg' & Ig' & _ & _ & G1' & G2' & G3' & G4').
  eexists. eexists. split; [unfold inspect_unique_vertices; cbv zeta; rewrite Ed, Eg; reflexivity|]. split; [unfold inspect_unique_vertices; cbv zeta; rewrite Ed', Eg'; reflexivity|].
  cbn [assigned]. constructor; cbn [ur_colocated ur_different]; unfold renumbered_issues.
  - rewrite Ig, Ig'. cbn [empty_unique_vertices ur_colocated new_issues ii_issues app].
    apply (groups_relabelled (fun i j => exists a b p q, nth_error l a = Some (i, p) /\ nth_error l b = Some (j, q) /\ same_place (g_colocated geo (map snd l)) a b)
      (fun i j => exists a b p q, nth_error l' a = Some (i, p) /\ nth_error l' b = Some (j, q) /\ same_place (g_colocated geo (map snd l')) a b) f gs gs' (nb_unique_vertices m) N).
    + intros i j Bi Bj. split.
      * intros (a & b & p & q & Ea & Eb & S). pose proof (proj1 (proj2 Pl' _ _) (nth_error_In _ _ Ea)) as Pa. pose proof (proj1 (proj2 Pl' _ _) (nth_error_In _ _ Eb)) as Pb.
        apply (relabelled_vertex_position i p Bi) in Pa. apply (relabelled_vertex_position j q Bj) in Pb. apply (proj2 Pl) in Pa. apply (proj2 Pl) in Pb.
        apply In_nth_error in Pa as [a0 Ea0]. apply In_nth_error in Pb as [b0 Eb0]. exists a0, b0, p, q. split; [exact Ea0|]. split; [exact Eb0|].
        apply (B3 a0 b0 a b i j p q Ea0 Eb0 Ea Eb), S.
      * intros (a & b & p & q & Ea & Eb & S). pose proof (proj1 (proj2 Pl _ _) (nth_error_In _ _ Ea)) as Pa. pose proof (proj1 (proj2 Pl _ _) (nth_error_In _ _ Eb)) as Pb.
        apply (relabelled_vertex_position i p Bi) in Pa. apply (relabelled_vertex_position j q Bj) in Pb. apply (proj2 Pl') in Pa. apply (proj2 Pl') in Pb.
        apply In_nth_error in Pa as [a0 Ea0]. apply In_nth_error in Pb as [b0 Eb0]. exists a0, b0, p, q. split; [exact Ea0|]. split; [exact Eb0|].
        apply (B3 a b a0 b0 i j p q Ea Eb Ea0 Eb0), S.
    + constructor; [exact G1|intros x I; apply (G2 x I)|intros x I; apply (G2 x I)|exact G3|]. intros x i I J. destruct (G4 x i I J) as (p & ? & ? & ? & B & _). exact B.
    + constructor; [exact G1'|intros x I; apply (G2' x I)|intros x I; apply (G2' x I)|exact G3'|]. intros x i I J. destruct (G4' x i I J) as (p & ? & ? & ? & B & _). rewrite <- (rl_nb _ _ _ R). exact B.
  - rewrite Id, Id'. cbn [empty_unique_vertices ur_different new_issues ii_issues app]. apply NoDup_Permutation.
    + apply sorted_lt_NoDup, Sd'.
    + apply NoDup_map_on; [apply sorted_lt_NoDup, Sd|]. intros x y X Y. apply Md in X, Y. apply N; [apply X|apply Y].
    + intros w. rewrite Md', in_map_iff, (rl_nb _ _ _ R). split.
      * intros [B D]. destruct (numbers_onto _ _ N w B) as (uv & Buv & <-). exists uv. split; [reflexivity|]. apply Md. split; [exact Buv|]. apply (relabelled_different geo uv Buv), D.
      * intros (uv & <- & I). apply Md in I as [B D]. split; [apply N, B|]. apply (relabelled_different geo uv B), D.
Qed.
End UniqueVertices.
