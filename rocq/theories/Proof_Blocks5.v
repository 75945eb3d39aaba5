(** The number of vertices a block should have at a unique vertex. *)
From Coq Require Import String Ascii List Arith NArith ZArith Bool Lia Sorted.
From Verif Require Import Base BaseFacts Model_Issues Types Model_Colocation Model_Topology Model_BRep Model_Blocks Spec_Colocation Spec_Maps Spec_Adjacency
  Spec_Topology Spec_BRep Spec_Blocks Proof_Maps Proof_Colocation Proof_Colocation2 Proof_Colocation3 Proof_Adjacency Proof_Manifold Proof_Degeneration
  Proof_Topology Proof_Topology2 Proof_Topology3 Proof_Topology4 Proof_BRep Proof_BRep2 Proof_BRep3 Proof_Blocks Proof_Blocks2 Proof_Blocks3 Proof_Blocks4.
Import ListNotations.
Open Scope list_scope.

(** ** Sums *)
Fixpoint total {A} (f : A -> nat) (l : list A) : nat := match l with [] => 0 | x :: l => f x + total f l end.
Definition one (b : bool) : nat := if b then 1 else 0.
Lemma sums_total : forall A (R : A -> nat -> Prop) (f : A -> nat) l n, (forall x k, In x l -> (R x k <-> k = f x)) -> (sums R l n <-> n = total f l).
Proof.
  intros A R f l. induction l as [|x l IH]; intros n K; cbn [total].
  - split; [intros S; inversion S; reflexivity|intros ->; constructor].
  - assert (K' : forall y k, In y l -> (R y k <-> k = f y)) by (intros y k Hy; apply K; right; exact Hy). split.
    + intros S. inversion S as [|? ? a b Ra Sb]; subst. apply (IH b K') in Sb. apply K in Ra; [|left; reflexivity]. lia.
    + intros ->. constructor; [apply K; [left|]; reflexivity|apply IH; [exact K'|reflexivity]].
Qed.
Lemma total_one : forall A (p : A -> bool) l, total (fun x => one (p x)) l = length (filter p l).
Proof. intros A p l. induction l as [|x l IH]; cbn [total filter]; [reflexivity|]. rewrite IH. destruct (p x); reflexivity. Qed.
Lemma total_ext : forall A (f g : A -> nat) l, (forall x, In x l -> f x = g x) -> total f l = total g l.
Proof. intros A f g l. induction l as [|x l IH]; intros E; cbn [total]; [reflexivity|]. rewrite (E x (or_introl eq_refl)), IH; [reflexivity|]. intros y Hy. apply E. right. exact Hy. Qed.
Lemma total_bound : forall A (f : A -> nat) k l, (forall x, f x <= k) -> total f l <= length l * k.
Proof. intros A f k l B. induction l as [|x l IH]; cbn [total length]; [lia|]. specialize (B x). cbn [Nat.mul]. lia. Qed.

(** ** 32-bit arithmetic in integers *)
Open Scope Z_scope.
Lemma add32_Z : forall a b, exists q, Z.of_N (add32 a b) = Z.of_N a + Z.of_N b + q * 2 ^ 32 /\ 0 <= Z.of_N (add32 a b) < 2 ^ 32.
Proof.
  intros a b. unfold add32, u32. rewrite N2Z.inj_mod, N2Z.inj_add. change (Z.of_N (2 ^ 32)) with (2 ^ 32). pose proof (Z.div_mod (Z.of_N a + Z.of_N b) (2 ^ 32) ltac:(lia)) as D.
  pose proof (Z.mod_pos_bound (Z.of_N a + Z.of_N b) (2 ^ 32) ltac:(lia)) as Q. exists (- ((Z.of_N a + Z.of_N b) / 2 ^ 32)). split; [lia|exact Q].
Qed.
Lemma sub32_Z : forall a b, Z.of_N b < 2 ^ 32 -> exists q, Z.of_N (sub32 a b) = Z.of_N a - Z.of_N b + q * 2 ^ 32 /\ 0 <= Z.of_N (sub32 a b) < 2 ^ 32.
Proof.
  intros a b Hb. unfold sub32, u32. rewrite N2Z.inj_mod, N2Z.inj_add, N2Z.inj_sub by lia. change (Z.of_N (2 ^ 32)) with (2 ^ 32).
  pose proof (Z.div_mod (Z.of_N a + (2 ^ 32 - Z.of_N b)) (2 ^ 32) ltac:(lia)) as D. pose proof (Z.mod_pos_bound (Z.of_N a + (2 ^ 32 - Z.of_N b)) (2 ^ 32) ltac:(lia)) as Q.
  exists (1 - ((Z.of_N a + (2 ^ 32 - Z.of_N b)) / 2 ^ 32)). split; [lia|exact Q].
Qed.
Lemma same_index_iff : forall x y q, 0 <= x < 2 ^ 32 -> x = y + q * 2 ^ 32 -> x = y mod 2 ^ 32.
Proof. intros x y q B E. apply (Z.mod_unique_pos y (2 ^ 32) (- q) x); [exact B|lia]. Qed.
Lemma predicted_Z : forall nb ni nc on sv ad ii fr si : nat,
  Z.of_nat nb < 2 ^ 32 -> Z.of_nat ni < 2 ^ 32 -> Z.of_nat nc < 2 ^ 32 -> Z.of_nat on < 2 ^ 32 -> Z.of_nat ad < 2 ^ 32 -> Z.of_nat ii + Z.of_nat fr + Z.of_nat si < 2 ^ 32 ->
  Z.of_N (predicted_nb_block_cmvs (N.of_nat nb) (N.of_nat ni) nc (mkLineCounters (N.of_nat on) (N.of_nat sv) (N.of_nat ad) (N.of_nat ii) (N.of_nat fr) (N.of_nat si))) =
  (1 + Z.of_nat ni + (if Nat.eqb nb 0 then 0 else Z.of_nat nb - 1 - Z.of_nat on) - Z.of_nat (ii + fr + si)
   + (if Nat.eqb (ii + fr + si) 0 && Nat.eqb on 0 then 0 else Z.of_nat nc + Z.of_nat (Nat.div ad 2))) mod 2 ^ 32.
Proof.
  intros nb ni nc on sv ad ii fr si B1 B2 B3 B4 B5 B6. unfold predicted_nb_block_cmvs. cbv zeta. cbn [lc_on_boundary lc_several lc_additional lc_internal_internal lc_free lc_several_internal].
  rewrite (add32_small ii fr) by lia. rewrite (add32_small (ii + fr) si) by lia. rewrite (u32_small (N.of_nat nc)) by lia.
  assert (ED : Z.of_N (N.div (N.of_nat ad) 2) = Z.of_nat (Nat.div ad 2)). { rewrite N2Z.inj_div, nat_N_Z. change (Z.of_N 2) with (Z.of_nat 2). rewrite <- Nat2Z.inj_div. reflexivity. }
  assert (Z1 : N.eqb (N.of_nat (ii + fr + si)) 0 = Nat.eqb (ii + fr + si) 0) by (destruct (Nat.eqb_spec (ii + fr + si) 0) as [E|E]; [apply N.eqb_eq; lia|apply N.eqb_neq; lia]).
  assert (Z2 : N.eqb (N.of_nat on) 0 = Nat.eqb on 0) by (destruct (Nat.eqb_spec on 0) as [E|E]; [apply N.eqb_eq; lia|apply N.eqb_neq; lia]).
  rewrite Z1, Z2. clear Z1 Z2.
  destruct (add32_Z 1 (N.of_nat ni)) as (q1 & E1 & R1). set (p1 := add32 1 (N.of_nat ni)) in *.
  set (p2 := if N.ltb 0 (N.of_nat nb) then add32 p1 (sub32 (sub32 (N.of_nat nb) 1) (N.of_nat on)) else p1).
  assert (E2 : exists q, Z.of_N p2 = 1 + Z.of_nat ni + (if Nat.eqb nb 0 then 0 else Z.of_nat nb - 1 - Z.of_nat on) + q * 2 ^ 32).
  { unfold p2. destruct (N.ltb_spec 0 (N.of_nat nb)) as [L|L].
    - destruct (Nat.eqb_spec nb 0) as [K|K]; [lia|]. destruct (sub32_Z (N.of_nat nb) 1 ltac:(lia)) as (q2 & E2 & R2). destruct (sub32_Z (sub32 (N.of_nat nb) 1) (N.of_nat on) ltac:(lia)) as (q3 & E3 & R3).
      destruct (add32_Z p1 (sub32 (sub32 (N.of_nat nb) 1) (N.of_nat on))) as (q4 & E4 & _). exists (q1 + q2 + q3 + q4). lia.
    - destruct (Nat.eqb_spec nb 0) as [K|K]; [|lia]. exists q1. lia. }
  destruct E2 as (q2 & E2). clearbody p2. destruct (sub32_Z p2 (N.of_nat (ii + fr + si)) ltac:(lia)) as (q3 & E3 & R3).
  destruct (Nat.eqb (ii + fr + si) 0 && Nat.eqb on 0)%bool eqn:F.
  - apply andb_true_iff in F as [F1 F2]. rewrite F1, F2. cbn [negb orb]. apply (same_index_iff _ _ (q2 + q3)); [exact R3|]. lia.
  - assert (G : (negb (Nat.eqb (ii + fr + si) 0) || negb (Nat.eqb on 0))%bool = true) by (rewrite <- negb_andb, F; reflexivity). rewrite G.
    destruct (add32_Z (sub32 p2 (N.of_nat (ii + fr + si))) (N.of_nat nc)) as (q4 & E4 & R4).
    destruct (add32_Z (add32 (sub32 p2 (N.of_nat (ii + fr + si))) (N.of_nat nc)) (N.div (N.of_nat ad) 2)) as (q5 & E5 & R5). rewrite ED in E5.
    apply (same_index_iff _ _ (q2 + q3 + q4 + q5)); [exact R5|]. lia.
Qed.
Close Scope Z_scope.

Section Counts.
Context (m : Model) (uv : nat) (b : uuid).
Hypothesis Hok : brep_ok m.
Hypothesis Hb : In b (component_ids m BlockT).
Hypothesis Hfit : counts_fit m.
Notation cmvs := (component_mesh_vertices m uv).
Notation R := (length (m_boundary_rel m)).
Let Hu := br_ids m Hok.
Let Hl := brep_links_exist m Hok.

Lemma fit_at : below_2_32 (length cmvs * (3 * R + 1)).
Proof.
  unfold component_mesh_vertices. destruct (nth_in_or_default uv (m_cmvs m) []) as [K|K]; [apply Hfit; exact K|]. rewrite K. cbn. unfold below_2_32. lia.
Qed.
Lemma fit_weak : cmvs <> [] -> below_2_32 (3 * R + 1).
Proof. intros K. pose proof fit_at as F. unfold below_2_32 in *. destruct cmvs; [congruence|]. cbn [length] in F. lia. Qed.
Lemma block_surfaces_bound : length (block_surfaces m b) <= R.
Proof. unfold block_surfaces, boundaries. rewrite !map_length. apply filter_le. Qed.
Lemma link_exists : forall t c, t <> OtherT -> In c cmvs -> of_type t c = true -> In (cmv_id c) (component_ids m t).
Proof. intros t c Ht Hc T. apply (Hl uv t); [|exact Ht]. apply at_vertex_iff. exists c. auto. Qed.

(** *** Surfaces *)
Definition bounding (c : ComponentMeshVertex) : bool := of_type SurfaceT c && is_boundary m (cmv_id c) b.
Definition internal (c : ComponentMeshVertex) : bool := of_type SurfaceT c && (negb (is_boundary m (cmv_id c) b) && is_internal m (cmv_id c) b).
Lemma surfaces_counted : forall l k k', (forall c, In c l -> In c cmvs) -> below_2_32 (k + length l) -> below_2_32 (k' + length l) ->
  foldM (count_surface_cmv m b) (filter (of_type SurfaceT) l) (N.of_nat k, N.of_nat k') =
  Ok (N.of_nat (k + length (filter bounding l)), N.of_nat (k' + length (filter internal l))).
Proof.
  unfold below_2_32. induction l as [|c l IH]; intros k k' Hc B1 B2; cbn [filter foldM length]; [rewrite !Nat.add_0_r; reflexivity|]. cbn [length] in B1, B2.
  assert (Hc' : forall d, In d l -> In d cmvs) by (intros d Hd; apply Hc; right; exact Hd).
  unfold bounding at 1, internal at 1. destruct (of_type SurfaceT c) eqn:T; cbn [andb].
  2:{ apply IH; [exact Hc'|lia|lia]. }
  cbn [foldM]. unfold count_surface_cmv at 1. destruct (get_surface_id m (cmv_id c)) as (s & E & Is & _); [apply (link_exists SurfaceT); [discriminate|apply Hc; left; reflexivity|exact T]|].
  rewrite E. cbn [bind fst snd]. rewrite Is. destruct (is_boundary m (cmv_id c) b); cbn [negb andb bind].
  - rewrite add32_one by lia. rewrite IH by (assumption || lia). cbn [length]. do 3 f_equal; lia.
  - destruct (is_internal m (cmv_id c) b); cbn [bind length].
    + rewrite add32_one by lia. rewrite IH by (assumption || lia). do 3 f_equal; lia.
    + rewrite IH by (assumption || lia). reflexivity.
Qed.

(** *** Lines *)
Definition side_sum (l : uuid) (ss : list uuid) : nat := total (fun s => one (is_boundary m l s) + 2 * one (is_internal m l s)) ss.
Lemma side_sum_counts : forall l ss, side_sum l ss = length (filter (is_boundary m l) ss) + 2 * length (filter (is_internal m l) ss).
Proof.
  intros l ss. unfold side_sum. rewrite <- !total_one. induction ss as [|s ss IH]; cbn [total]; [reflexivity|]. rewrite IH. lia.
Qed.
Lemma side_sum_bound : forall l ss, side_sum l ss <= 3 * length ss.
Proof. intros l ss. unfold side_sum. rewrite Nat.mul_comm. apply total_bound. intros s. destruct (is_boundary m l s), (is_internal m l s); cbn; lia. Qed.
Definition sides_of (l : uuid) : nat := Nat.div (side_sum l (block_surfaces m b)) 2.
Lemma sides_iff : forall l k, sides m b l k <-> k = sides_of l.
Proof.
  intros l k. unfold sides, sides_of. rewrite side_sum_counts.
  assert (C1 : forall n, counts (fun s => bounds m l s) (block_surfaces m b) n <-> length (filter (is_boundary m l) (block_surfaces m b)) = n) by (intros n; apply counts_filter; intros x _; apply is_boundary_iff).
  assert (C2 : forall n, counts (fun s => inside m l s) (block_surfaces m b) n <-> length (filter (is_internal m l) (block_surfaces m b)) = n) by (intros n; apply counts_filter; intros x _; apply is_internal_iff).
  split.
  - intros (p & q & P & Q & ->). apply C1 in P. apply C2 in Q. subst. reflexivity.
  - intros ->. eexists. eexists. split; [apply C1; reflexivity|]. split; [apply C2; reflexivity|reflexivity].
Qed.
Lemma sides_bound : forall l, sides_of l <= 3 * R.
Proof. intros l. unfold sides_of. pose proof (side_sum_bound l (block_surfaces m b)). pose proof block_surfaces_bound. pose proof (Nat.div_le_upper_bound (side_sum l (block_surfaces m b)) 2 (3 * R)). lia. Qed.
Lemma sides_counted : forall l, below_2_32 (3 * R + 1) -> line_on_block_boundary_count m l b = Ok (N.of_nat (sides_of l)).
Proof.
  intros l B. unfold line_on_block_boundary_count.
  assert (G : forall es n, (forall e, In e es -> In (cid_id e) (component_ids m SurfaceT)) -> below_2_32 (n + 3 * length es) ->
    foldM (fun n e => each_surface m (fun s =>
      let n := if is_boundary m l (co_id s) then add32 n 1 else n in
      Ok (if is_internal m l (co_id s) then add32 n 2 else n)) e) es (N.of_nat n) = Ok (N.of_nat (n + side_sum l (map cid_id es)))).
  { unfold below_2_32. induction es as [|e es IH]; intros n He K; cbn [foldM map]; [unfold side_sum; cbn [total]; rewrite Nat.add_0_r; reflexivity|]. cbn [length] in K.
    unfold each_surface at 1. destruct (get_surface_id m (cid_id e) (He e (or_introl eq_refl))) as (s & E & Is & _). rewrite E. cbn [bind]. rewrite Is. cbv zeta.
    assert (He' : forall e, In e es -> In (cid_id e) (component_ids m SurfaceT)) by (intros x Hx; apply He; right; exact Hx).
    unfold side_sum. cbn [total]. fold (side_sum l (map cid_id es)). change 2%N with (N.of_nat 2).
    destruct (is_boundary m l (cid_id e)), (is_internal m l (cid_id e)); cbn [one].
    - rewrite add32_one by lia. rewrite add32_small by lia. rewrite IH by (assumption || lia). do 2 f_equal; lia.
    - rewrite add32_one by lia. rewrite IH by (assumption || lia). do 2 f_equal; lia.
    - rewrite add32_small by lia. rewrite IH by (assumption || lia). do 2 f_equal; lia.
    - rewrite IH by (assumption || lia). do 2 f_equal; lia. }
  change 0%N with (N.of_nat 0). rewrite G.
  - cbn [bind plus]. unfold sides_of, block_surfaces. f_equal. apply N2Z.inj. rewrite N2Z.inj_div, !nat_N_Z. change (Z.of_N 2) with (Z.of_nat 2). rewrite <- Nat2Z.inj_div. reflexivity.
  - intros e He. apply (br_block_boundaries m Hok b); assumption.
  - pose proof block_surfaces_bound as Q. unfold block_surfaces in Q. rewrite map_length in Q. unfold below_2_32 in *. lia.
Qed.
Definition free (l : uuid) : bool := Nat.eqb (length (embeddings_of m BlockT l)) 0.
Lemma nil_embeddings : forall t l, length (embeddings_of m t l) = 0 <-> forall x, ~ In (mkCID t x) (embeddings m l).
Proof.
  intros t l. split.
  - intros Z x K. assert (He : In (mkCID t x) (embeddings_of m t l)) by (apply in_embeddings_of; auto). destruct (embeddings_of m t l); [destruct He|discriminate].
  - intros K. destruct (embeddings_of m t l) as [|e es] eqn:Q; [reflexivity|]. exfalso. assert (He : In e (embeddings_of m t l)) by (rewrite Q; left; reflexivity).
    apply in_embeddings_of_id in He. apply (K (cid_id e)). apply He.
Qed.
Lemma free_iff : forall l, free l = true <-> free_of_blocks m l.
Proof. intros l. unfold free, free_of_blocks, in_block. rewrite Nat.eqb_eq. apply nil_embeddings. Qed.
Definition sides_at (c : ComponentMeshVertex) : nat := if of_type LineT c && free (cmv_id c) then sides_of (cmv_id c) else 0.
Lemma line_link : forall c l, cmv_component c = mkCID LineT l <-> of_type LineT c = true /\ cmv_id c = l.
Proof. intros [[t i] v] l. rewrite of_type_iff. cbn. split; [intros K; injection K as -> ->; auto|intros [-> ->]; reflexivity]. Qed.
Lemma line_sides_iff : forall c k, line_sides m b c k <-> k = sides_at c.
Proof.
  intros c k. unfold line_sides, sides_at. destruct (of_type LineT c && free (cmv_id c))%bool eqn:F.
  - apply andb_true_iff in F as [T F]. apply free_iff in F. split.
    + intros [(l & E & _ & S)|[_ K]]; [|exfalso; apply K; exists (cmv_id c); rewrite line_link; auto]. apply line_link in E as [_ <-]. apply sides_iff. exact S.
    + intros ->. left. exists (cmv_id c). rewrite line_link, sides_iff. auto.
  - split.
    + intros [(l & E & K & _)|[K _]]; [|exact K]. apply line_link in E as [T <-]. apply free_iff in K. rewrite T, K in F. discriminate.
    + intros ->. right. split; [reflexivity|]. intros (l & E & K). apply line_link in E as [T <-]. apply free_iff in K. rewrite T, K in F. discriminate.
Qed.
Lemma sides_at_bound : forall c, sides_at c <= 3 * R.
Proof. intros c. unfold sides_at. destruct (_ && _)%bool; [apply sides_bound|lia]. Qed.
(** the three ways of being within the block *)
Definition in_internal (l : uuid) : bool := existsb (fun e => is_internal m (cid_id e) b) (embeddings_of m SurfaceT l).
Definition no_surface (l : uuid) : bool := Nat.eqb (length (embeddings_of m SurfaceT l)) 0.
Definition all_internal (l : uuid) : bool := forallb (fun e => is_internal m (cid_id e) b) (incidences m l).
Definition idle (c : ComponentMeshVertex) : bool := of_type LineT c && (free (cmv_id c) && Nat.eqb (sides_of (cmv_id c)) 0).
Definition w1 (c : ComponentMeshVertex) : bool := idle c && (negb (no_surface (cmv_id c)) && in_internal (cmv_id c)).
Definition w2 (c : ComponentMeshVertex) : bool := idle c && (no_surface (cmv_id c) && all_internal (cmv_id c) && Nat.eqb (nb_incidences m (cmv_id c)) 1).
Definition w3 (c : ComponentMeshVertex) : bool := idle c && (no_surface (cmv_id c) && all_internal (cmv_id c) && negb (Nat.eqb (nb_incidences m (cmv_id c)) 1)).
Definition within (c : ComponentMeshVertex) : bool := idle c && (in_internal (cmv_id c) || no_surface (cmv_id c) && all_internal (cmv_id c)).
Lemma within_split : forall c, one (w1 c) + one (w2 c) + one (w3 c) = one (within c).
Proof.
  intros c. unfold w1, w2, w3, within. destruct (idle c); [|reflexivity]. cbn [andb].
  assert (K : no_surface (cmv_id c) = true -> in_internal (cmv_id c) = false). { unfold no_surface, in_internal. rewrite Nat.eqb_eq. destruct (embeddings_of m SurfaceT (cmv_id c)); [reflexivity|discriminate]. }
  destruct (no_surface (cmv_id c)); cbn [negb andb orb].
  - rewrite (K eq_refl). destruct (all_internal (cmv_id c)), (Nat.eqb (nb_incidences m (cmv_id c)) 1); reflexivity.
  - destruct (in_internal (cmv_id c)); reflexivity.
Qed.
Lemma within_iff : forall c, within c = true <-> line_within_block m b c.
Proof.
  intros c. unfold within, idle, line_within_block. rewrite !andb_true_iff, orb_true_iff, andb_true_iff, free_iff, Nat.eqb_eq.
  assert (I : in_internal (cmv_id c) = true <-> exists s, in_surface m (cmv_id c) s /\ inside m s b).
  { unfold in_internal. rewrite existsb_exists. split.
    - intros (e & He & K). apply is_internal_iff in K. apply in_embeddings_of_id in He. exists (cid_id e). split; [apply He|exact K].
    - intros (s & K1 & K2). exists (mkCID SurfaceT s). split; [apply in_embeddings_of; auto|apply is_internal_iff; exact K2]. }
  assert (N : no_surface (cmv_id c) = true <-> forall s, ~ in_surface m (cmv_id c) s) by (unfold no_surface; rewrite Nat.eqb_eq; apply nil_embeddings).
  assert (A : all_internal (cmv_id c) = true <-> forall s, bounds m (cmv_id c) s -> inside m s b).
  { unfold all_internal. rewrite forallb_forall. split.
    - intros K s Hs. apply in_incidences in Hs as (e & He & <-). apply is_internal_iff, K, He.
    - intros K e He. apply is_internal_iff, K, in_incidences. eauto. }
  rewrite I, N, A. split.
  - intros ([T [F S]] & K). exists (cmv_id c). rewrite line_link, sides_iff. split; [auto|]. split; [exact F|]. split; [congruence|exact K].
  - intros (l & E & F & S & K). apply line_link in E as [T E]. rewrite <- E in *. rewrite sides_iff in S. split; [|exact K]. split; [exact T|]. split; [exact F|congruence].
Qed.
Definition mkc (a1 a2 a3 a4 a5 a6 : nat) : LineCounters :=
  mkLineCounters (N.of_nat a1) (N.of_nat a2) (N.of_nat a3) (N.of_nat a4) (N.of_nat a5) (N.of_nat a6).
Definition several_at (c : ComponentMeshVertex) : bool := Nat.leb 2 (sides_at c).
Lemma line_step : forall c a1 a2 a3 a4 a5 a6, In c cmvs -> of_type LineT c = true ->
  below_2_32 (a1 + (3 * R + 1)) -> below_2_32 (a2 + 1) -> below_2_32 (a3 + (3 * R + 1)) -> below_2_32 (a4 + 1) -> below_2_32 (a5 + 1) -> below_2_32 (a6 + 1) ->
  count_line_cmv m b (mkc a1 a2 a3 a4 a5 a6) c =
  Ok (mkc (a1 + sides_at c) (a2 + one (several_at c)) (a3 + (sides_at c - 1)) (a4 + one (w1 c)) (a5 + one (w2 c)) (a6 + one (w3 c))).
Proof.
  unfold below_2_32. intros c a1 a2 a3 a4 a5 a6 Hc T B1 B2 B3 B4 B5 B6.
  assert (Le : In (cmv_id c) (component_ids m LineT)) by (apply (link_exists LineT); [discriminate|exact Hc|exact T]).
  unfold count_line_cmv. destruct (get_line_id m (cmv_id c) Le) as (li & E & Il & _). rewrite E. cbn [bind]. rewrite Il.
  fold (free (cmv_id c)). unfold several_at, w1, w2, w3, idle, sides_at. rewrite T. cbn [andb]. destruct (free (cmv_id c)) eqn:F; cbn [negb andb].
  2:{ cbn [one]. change (Nat.leb 2 0) with false. cbn [one]. rewrite !Nat.add_0_r. reflexivity. }
  rewrite sides_counted by (unfold below_2_32; lia). cbn [bind]. pose proof (sides_bound (cmv_id c)) as SB. set (n := sides_of (cmv_id c)) in *.
  destruct (N.ltb_spec 0 (N.of_nat n)) as [L|L].
  - assert (Z : Nat.eqb n 0 = false) by (apply Nat.eqb_neq; lia). rewrite Z. cbn [andb one]. unfold mkc. cbn [lc_on_boundary lc_several lc_additional lc_internal_internal lc_free lc_several_internal].
    rewrite add32_small by lia. destruct (N.ltb_spec 1 (N.of_nat n)) as [L2|L2].
    + replace (Nat.leb 2 n) with true by (symmetry; apply Nat.leb_le; lia). cbn [one]. rewrite add32_one by lia.
      assert (ES : sub32 (N.of_nat n) 1 = N.of_nat (n - 1)). { unfold sub32, u32. replace (N.of_nat n + (2 ^ 32 - 1))%N with (N.of_nat (n - 1) + 1 * 2 ^ 32)%N by lia. rewrite N.mod_add by lia. apply N.mod_small. lia. }
      rewrite ES, add32_small by lia. do 2 f_equal; f_equal; lia.
    + replace (Nat.leb 2 n) with false by (symmetry; apply Nat.leb_gt; lia). cbn [one]. do 2 f_equal; f_equal; lia.
  - assert (n0 : n = 0) by lia. rewrite n0. cbn [Nat.eqb andb Nat.leb one]. rewrite !Nat.add_0_r.
    assert (INC : forall e, In e (incidences m (cmv_id c)) -> In (cid_id e) (component_ids m SurfaceT)) by (intros e He; eapply br_line_incidences; eassumption).
    unfold no_surface. destruct (Nat.ltb_spec 0 (length (embeddings_of m SurfaceT (cmv_id c)))) as [LE|LE].
    + assert (Z : Nat.eqb (length (embeddings_of m SurfaceT (cmv_id c))) 0 = false) by (apply Nat.eqb_neq; lia). rewrite Z. cbn [negb andb one].
      assert (EX : anyM (each_surface m (fun s => Ok (is_internal m (co_id s) b))) (embeddings_of m SurfaceT (cmv_id c)) = Ok (in_internal (cmv_id c))).
      { apply anyM_pure. intros e He. unfold each_surface. apply in_embeddings_of in He as [He Te]. destruct (get_surface_id m (cid_id e)) as (s & Es & Is & _).
        - rewrite <- Te. apply (br_embeddings m Hok (cmv_id c)); [exact He|rewrite Te; discriminate].
        - rewrite Es. cbn [bind]. rewrite Is. reflexivity. }
      rewrite EX. cbn [bind]. rewrite !Nat.add_0_r. destruct (in_internal (cmv_id c)); unfold mkc; cbn [one lc_on_boundary lc_several lc_additional lc_internal_internal lc_free lc_several_internal].
      * rewrite add32_one by lia. rewrite Nat.add_1_r. reflexivity.
      * rewrite Nat.add_0_r. reflexivity.
    + assert (Z : Nat.eqb (length (embeddings_of m SurfaceT (cmv_id c))) 0 = true) by (apply Nat.eqb_eq; lia). rewrite Z. cbn [negb andb one].
      assert (EX : line_is_inside_block m (cmv_id c) b = Ok (all_internal (cmv_id c))).
      { unfold line_is_inside_block. assert (Q : anyM (each_surface m (fun s => Ok (negb (is_internal m (co_id s) b)))) (incidences m (cmv_id c)) = Ok (existsb (fun e => negb (is_internal m (cid_id e) b)) (incidences m (cmv_id c)))).
        - apply anyM_pure. intros e He. unfold each_surface. destruct (get_surface_id m (cid_id e) (INC e He)) as (s & Es & Is & _). rewrite Es. cbn [bind]. rewrite Is. reflexivity.
        - rewrite Q. cbn [bind]. f_equal. unfold all_internal. generalize (incidences m (cmv_id c)) as es. induction es as [|e es IH]; cbn [existsb forallb]; [reflexivity|]. rewrite <- IH. destruct (is_internal m (cid_id e) b); reflexivity. }
      rewrite EX. cbn [bind]. destruct (all_internal (cmv_id c)); cbn [negb andb one]; [|rewrite !Nat.add_0_r; reflexivity].
      destruct (Nat.eqb (nb_incidences m (cmv_id c)) 1); unfold mkc; cbn [negb one lc_on_boundary lc_several lc_additional lc_internal_internal lc_free lc_several_internal].
      * rewrite add32_one by lia. rewrite Nat.add_1_r, !Nat.add_0_r. reflexivity.
      * rewrite add32_one by lia. rewrite Nat.add_1_r, !Nat.add_0_r. reflexivity.
Qed.
Lemma lines_counted : forall l a1 a2 a3 a4 a5 a6, (forall c, In c l -> In c cmvs) ->
  below_2_32 (a1 + length l * (3 * R + 1)) -> below_2_32 (a2 + length l) -> below_2_32 (a3 + length l * (3 * R + 1)) ->
  below_2_32 (a4 + length l) -> below_2_32 (a5 + length l) -> below_2_32 (a6 + length l) ->
  foldM (count_line_cmv m b) (filter (of_type LineT) l) (mkc a1 a2 a3 a4 a5 a6) =
  Ok (mkc (a1 + total sides_at l) (a2 + length (filter several_at l)) (a3 + total (fun c => sides_at c - 1) l) (a4 + total (fun c => one (w1 c)) l) (a5 + total (fun c => one (w2 c)) l) (a6 + total (fun c => one (w3 c)) l)).
Proof.
  unfold below_2_32. induction l as [|c l IH]; intros a1 a2 a3 a4 a5 a6 Hc B1 B2 B3 B4 B5 B6.
  - cbn [filter foldM total length]. rewrite !Nat.add_0_r. reflexivity.
  - cbn [length] in *. cbn [total]. replace (length (filter several_at (c :: l))) with (one (several_at c) + length (filter several_at l)) by (cbn [filter]; destruct (several_at c); reflexivity).
    cbn [filter]. assert (Hc' : forall d, In d l -> In d cmvs) by (intros d Hd; apply Hc; right; exact Hd). pose proof (sides_at_bound c) as SB. destruct (of_type LineT c) eqn:T.
    + cbn [foldM]. rewrite line_step; unfold below_2_32; try lia; [|apply Hc; left; reflexivity|exact T]. cbn [bind].
      assert (O : forall x, one x <= 1) by (intros []; cbn; lia). pose proof (O (several_at c)). pose proof (O (w1 c)). pose proof (O (w2 c)). pose proof (O (w3 c)).
      rewrite IH by (assumption || lia). do 2 f_equal; lia.
    + assert (Z : sides_at c = 0) by (unfold sides_at; rewrite T; reflexivity). assert (Z' : several_at c = false) by (unfold several_at; rewrite Z; reflexivity).
      assert (ZI : idle c = false) by (unfold idle; rewrite T; reflexivity). unfold w1 at 1, w2 at 1, w3 at 1. rewrite ZI, Z, Z'. cbn [andb one plus Nat.sub].
      rewrite IH by (assumption || lia). reflexivity.
Qed.

(** *** The counts *)
Definition is_block (c : ComponentMeshVertex) : bool := of_type BlockT c && Nat.eqb (cmv_id c) b.
Definition extra_at (c : ComponentMeshVertex) : nat := sides_at c - 1.
Lemma in_counts : forall (t : ComponentType) c i, cmv_component c = mkCID t i <-> of_type t c = true /\ cmv_id c = i.
Proof. intros t [[t' i'] v] i. rewrite of_type_iff. cbn. split; [intros K; injection K as -> ->; auto|intros [-> ->]; reflexivity]. Qed.
Lemma count_blocks : forall n, counts (fun c => cmv_component c = mkCID BlockT b) cmvs n <-> length (filter is_block cmvs) = n.
Proof. intros n. apply counts_filter. intros c _. unfold is_block. rewrite andb_true_iff, Nat.eqb_eq, in_counts. tauto. Qed.
Lemma count_bounding : forall n, counts (fun c => exists s, cmv_component c = mkCID SurfaceT s /\ bounds m s b) cmvs n <-> length (filter bounding cmvs) = n.
Proof.
  intros n. apply counts_filter. intros c _. unfold bounding. rewrite andb_true_iff, is_boundary_iff. split.
  - intros [T K]. exists (cmv_id c). rewrite in_counts. auto.
  - intros (s & E & K). apply in_counts in E as [T <-]. auto.
Qed.
Lemma count_internal : forall n, counts (fun c => exists s, cmv_component c = mkCID SurfaceT s /\ inside m s b /\ ~ bounds m s b) cmvs n <-> length (filter internal cmvs) = n.
Proof.
  intros n. apply counts_filter. intros c _. unfold internal. rewrite !andb_true_iff, is_internal_iff, negb_true_iff. split.
  - intros [T [K1 K2]]. exists (cmv_id c). rewrite in_counts. split; [auto|]. split; [exact K2|]. intros K. apply is_boundary_iff in K. congruence.
  - intros (s & E & K1 & K2). apply in_counts in E as [T <-]. split; [exact T|]. split; [|exact K1]. destruct (is_boundary m (cmv_id c) b) eqn:Z; [|reflexivity]. apply is_boundary_iff in Z. tauto.
Qed.
Lemma count_corners : forall n, counts (fun c => cid_type (cmv_component c) = CornerT) cmvs n <-> length (filter (of_type CornerT) cmvs) = n.
Proof. intros n. apply counts_filter. intros c _. apply of_type_iff. Qed.
Lemma sum_sides : forall n, sums (line_sides m b) cmvs n <-> n = total sides_at cmvs.
Proof. intros n. apply sums_total. intros c k _. apply line_sides_iff. Qed.
Lemma sum_extra : forall n, sums (fun c e => exists k, line_sides m b c k /\ e = k - 1) cmvs n <-> n = total extra_at cmvs.
Proof.
  intros n. apply sums_total. intros c e _. unfold extra_at. split.
  - intros (k & K & ->). apply line_sides_iff in K. subst. reflexivity.
  - intros ->. exists (sides_at c). rewrite line_sides_iff. auto.
Qed.
Lemma count_several : forall n, counts (fun c => exists k, line_sides m b c k /\ 2 <= k) cmvs n <-> length (filter several_at cmvs) = n.
Proof.
  intros n. apply counts_filter. intros c _. unfold several_at. rewrite Nat.leb_le. split.
  - intros K. exists (sides_at c). rewrite line_sides_iff. auto.
  - intros (k & K & L). apply line_sides_iff in K. subst. exact L.
Qed.
Lemma count_within : forall n, counts (line_within_block m b) cmvs n <-> length (filter within cmvs) = n.
Proof. intros n. apply counts_filter. intros c _. apply within_iff. Qed.
Definition the_counts : block_counts m uv b :=
  mkBlockCounts m uv b _ _ _ _ _ _ _ _ (proj2 (count_blocks _) eq_refl) (proj2 (count_bounding _) eq_refl) (proj2 (count_internal _) eq_refl)
    (proj2 (count_corners _) eq_refl) (proj2 (sum_sides _) eq_refl) (proj2 (sum_extra _) eq_refl) (proj2 (count_several _) eq_refl) (proj2 (count_within _) eq_refl).
Lemma counts_unique : forall k : block_counts m uv b, expected k = expected the_counts /\ bc_blocks _ _ _ k = length (filter is_block cmvs) /\ bc_several _ _ _ k = length (filter several_at cmvs).
Proof.
  intros [k1 k2 k3 k4 k5 k6 k7 k8 H1 H2 H3 H4 H5 H6 H7 H8]. pose proof (proj1 (count_blocks _) H1) as E1. pose proof (proj1 (count_bounding _) H2) as E2. pose proof (proj1 (count_internal _) H3) as E3.
  pose proof (proj1 (count_corners _) H4) as E4. pose proof (proj1 (sum_sides _) H5) as E5. pose proof (proj1 (sum_extra _) H6) as E6. pose proof (proj1 (count_several _) H7) as E7. pose proof (proj1 (count_within _) H8) as E8.
  unfold expected, the_counts. cbn [bc_blocks bc_bounding bc_internal bc_corners bc_sides bc_extra bc_several bc_within]. rewrite E1, E2, E3, E4, <- E5, <- E6, E7, E8. auto.
Qed.
Definition predicted : N :=
  predicted_nb_block_cmvs (N.of_nat (length (filter bounding cmvs))) (N.of_nat (length (filter internal cmvs))) (length (filter (of_type CornerT) cmvs))
    (mkc (total sides_at cmvs) (length (filter several_at cmvs)) (total extra_at cmvs) (total (fun c => one (w1 c)) cmvs) (total (fun c => one (w2 c)) cmvs) (total (fun c => one (w3 c)) cmvs)).
Lemma w_total : total (fun c => one (w1 c)) cmvs + total (fun c => one (w2 c)) cmvs + total (fun c => one (w3 c)) cmvs = length (filter within cmvs).
Proof. rewrite <- total_one. induction cmvs as [|c l IH]; cbn [total]; [reflexivity|]. rewrite <- IH, <- within_split. lia. Qed.
Lemma cmvs_bound : below_2_32 (length cmvs).
Proof. pose proof fit_at as F. unfold below_2_32 in *. nia. Qed.
Lemma predicted_ok : Z.of_N predicted = (expected the_counts mod 2 ^ 32)%Z.
Proof.
  pose proof fit_at as F. pose proof cmvs_bound as CB. pose proof w_total as W. unfold below_2_32 in *.
  pose proof (filter_le _ bounding cmvs). pose proof (filter_le _ internal cmvs). pose proof (filter_le _ (of_type CornerT) cmvs). pose proof (filter_le _ within cmvs).
  assert (S1 : total sides_at cmvs <= length cmvs * (3 * R + 1)) by (apply total_bound; intros c; pose proof (sides_at_bound c); lia).
  assert (S2 : total extra_at cmvs <= length cmvs * (3 * R + 1)) by (apply total_bound; intros c; unfold extra_at; pose proof (sides_at_bound c); lia).
  unfold predicted, mkc. rewrite predicted_Z by lia. unfold expected, the_counts. cbn [bc_bounding bc_internal bc_corners bc_sides bc_extra bc_within]. rewrite W. reflexivity.
Qed.
Lemma count_cmvs_ok : forall (p : ComponentMeshVertex -> bool) l, below_2_32 (length l) -> count_cmvs p l = N.of_nat (length (filter p l)).
Proof.
  intros p l. unfold count_cmvs. change 0%N with (N.of_nat 0).
  assert (G : forall l n, below_2_32 (n + length l) -> fold_left (fun n c => if p c then add32 n 1 else n) l (N.of_nat n) = N.of_nat (n + length (filter p l))).
  { unfold below_2_32. clear l. induction l as [|c l IH]; intros n B; cbn [fold_left filter length]; [rewrite Nat.add_0_r; reflexivity|]. cbn [length] in B. destruct (p c).
    - rewrite add32_one by lia. rewrite IH by lia. cbn [length]. f_equal. lia.
    - apply IH. lia. }
  intros B. apply G. exact B.
Qed.
Lemma filter_filter : forall A (p q : A -> bool) l, filter q (filter p l) = filter (fun x => (p x && q x)%bool) l.
Proof. intros A p q l. induction l as [|x l IH]; cbn [filter]; [reflexivity|]. destruct (p x); cbn [filter andb]; [destruct (q x); rewrite IH; reflexivity|exact IH]. Qed.
Lemma position_ok : at_vertex m uv BlockT b -> exists s, first_block_position m (filter (of_type BlockT) cmvs) = Ok s.
Proof.
  intros A. apply at_vertex_iff in A as (c & Hc & T & _). assert (Hf : In c (filter (of_type BlockT) cmvs)) by (apply filter_In; auto).
  destruct (filter (of_type BlockT) cmvs) as [|d l] eqn:E; [destruct Hf|]. assert (Hd : In d (filter (of_type BlockT) cmvs)) by (rewrite E; left; reflexivity).
  apply filter_In in Hd as [Hd Td]. cbn [first_block_position]. apply of_type_iff in Td. unfold component_mesh_vertices in Hd. destruct (nth_in_or_default uv (m_cmvs m) []) as [K|K]; [|rewrite K in Hd; destruct Hd].
  destruct (br_links m Hok _ _ K Hd) as (p & Hp). inversion Hp; subst; try discriminate Td.
  match goal with |- context [get_block m ?x] => assert (G : get_block m x = Ok c0) by (apply get_block_In; assumption) end. rewrite G. cbn [bind cmv_vertex].
  match goal with HN : nth_error (so_points (co_mesh c0)) _ = Some _ |- _ => rewrite HN end. eauto.
Qed.
(** the function itself *)
Lemma expected_ok : at_vertex m uv BlockT b -> exists e r, expected_block_cmvs_and_error m uv b = Ok (e, r) /\
  forall k : block_counts m uv b, (r = None <-> count_accepted k) /\
    (Z.of_N e = (expected k mod 2 ^ 32)%Z \/ (Nat.Odd (bc_several _ _ _ k) /\ e = N.of_nat (bc_blocks _ _ _ k) /\ same_index (Z.of_nat (bc_blocks _ _ _ k)) (expected k + Z.of_nat (bc_several _ _ _ k))%Z)).
Proof.
  intros A. pose proof fit_at as F. pose proof cmvs_bound as CB. pose proof predicted_ok as P. destruct (position_ok A) as [pos Hpos].
  unfold expected_block_cmvs_and_error. cbv zeta. destruct (get_block_id m b Hb) as (bl & E & Ib & _). rewrite E. cbn [bind]. rewrite Ib.
  change (0%N, 0%N) with (N.of_nat 0, N.of_nat 0). rewrite surfaces_counted by (auto || (cbn; exact CB)). cbn [bind fst snd plus].
  change (mkLineCounters 0 0 0 0 0 0) with (mkc 0 0 0 0 0 0). rewrite lines_counted by (auto || (cbn [plus]; assumption)). cbn [bind plus].
  change (total (fun c => sides_at c - 1) cmvs) with (total extra_at cmvs). fold predicted. rewrite Hpos. cbn [bind lc_several mkc]. rewrite count_cmvs_ok by (unfold below_2_32 in *; pose proof (filter_le _ (of_type BlockT) cmvs); lia).
  rewrite filter_filter. fold is_block. change (fun x => (of_type BlockT x && Nat.eqb (cmv_id x) b)%bool) with is_block.
  set (n := length (filter is_block cmvs)). set (s := length (filter several_at cmvs)).
  assert (Bn : below_2_32 n) by (unfold below_2_32 in *; subst n; pose proof (filter_le _ is_block cmvs); lia).
  assert (Bs : below_2_32 s) by (unfold below_2_32 in *; subst s; pose proof (filter_le _ several_at cmvs); lia). unfold below_2_32 in Bn, Bs.
  assert (Podd : N.eqb (N.modulo (N.of_nat s) 2) 1 = true <-> Nat.Odd s).
  { rewrite N.eqb_eq. rewrite <- Nat.odd_spec, <- Nat.negb_even. rewrite <- (Nnat.Nat2N.id s) at 2. split.
    - intros K. destruct (Nat.even (N.to_nat (N.of_nat s))) eqn:Q; [|reflexivity]. apply Nat.even_spec in Q as [q Q]. rewrite Nnat.Nat2N.id in Q. subst s. rewrite Q in K. exfalso.
      replace (N.of_nat (2 * q)) with (N.of_nat q * 2)%N in K by lia. rewrite N.mod_mul in K by lia. lia.
    - rewrite Nat.negb_even, Nat.odd_spec. intros [q Q]. rewrite Nnat.Nat2N.id in Q. rewrite Q. replace (N.of_nat (2 * q + 1)) with (1 + N.of_nat q * 2)%N by lia. rewrite N.mod_add by lia. reflexivity. }
  assert (Sadd : Z.of_N (add32 predicted (N.of_nat s)) = ((expected the_counts + Z.of_nat s) mod 2 ^ 32)%Z).
  { destruct (add32_Z predicted (N.of_nat s)) as (q & Eq & Rq). pose proof (Z.div_mod (expected the_counts) (2 ^ 32) ltac:(lia)) as D.
    apply (same_index_iff _ _ (q - expected the_counts / 2 ^ 32)); [exact Rq|]. lia. }
  assert (EP : N.eqb (N.of_nat n) predicted = true <-> same_index (Z.of_nat n) (expected the_counts)).
  { unfold same_index. rewrite <- P, Z.mod_small by lia. rewrite N.eqb_eq. lia. }
  assert (ES : N.eqb (N.of_nat n) (add32 predicted (N.of_nat s)) = true <-> same_index (Z.of_nat n) (expected the_counts + Z.of_nat s)).
  { unfold same_index. rewrite <- Sadd, Z.mod_small by lia. rewrite N.eqb_eq. lia. }
  assert (ACC : forall k : block_counts m uv b, count_accepted k <-> same_index (Z.of_nat n) (expected the_counts) \/ (Nat.Odd s /\ same_index (Z.of_nat n) (expected the_counts + Z.of_nat s))).
  { intros k. destruct (counts_unique k) as (U1 & U2 & U3). unfold count_accepted. rewrite U1, U2, U3. reflexivity. }
  assert (VAL : forall k : block_counts m uv b, (expected k mod 2 ^ 32)%Z = Z.of_N predicted) by (intros k; destruct (counts_unique k) as (U1 & _); rewrite U1; symmetry; exact P).
  assert (UN : exists u, (if N.eqb (N.modulo (N.of_nat s) 2) 1 then Ok (N.eqb (N.of_nat n) (add32 predicted (N.of_nat s))) else Ok false) = Ok u /\ (u = true <-> Nat.Odd s /\ same_index (Z.of_nat n) (expected the_counts + Z.of_nat s))).
  { destruct (N.eqb (N.modulo (N.of_nat s) 2) 1); eexists; (split; [reflexivity|]).
    - rewrite ES. pose proof (proj1 Podd eq_refl). tauto.
    - split; [discriminate|]. intros [K _]. apply Podd in K. discriminate. }
  destruct UN as (u & Eu & Ku). rewrite Eu. cbn [bind]. destruct u.
  - exists (N.of_nat n), None. split; [reflexivity|]. intros k. rewrite ACC. split; [tauto|]. right. destruct (counts_unique k) as (U1 & U2 & U3). rewrite U1, U2, U3. fold n s. tauto.
  - assert (NK : ~ (Nat.Odd s /\ same_index (Z.of_nat n) (expected the_counts + Z.of_nat s))) by (intros K; apply Ku in K; discriminate).
    destruct (N.eqb (N.of_nat n) predicted) eqn:Q.
    + exists predicted, None. split; [reflexivity|]. intros k. rewrite ACC, VAL. split; [tauto|left; reflexivity].
    + eexists. eexists. split; [reflexivity|]. intros k. rewrite ACC, VAL. split; [|left; reflexivity]. split; [discriminate|]. intros [K|K]; [apply EP in K; discriminate|tauto].
Qed.
End Counts.

Lemma wrong_count_ok : forall m uv, brep_ok m -> counts_fit m -> reports_iff (unique_vertex_block_cmvs_count_is_incorrect m uv) (block_count_wrong m uv).
Proof.
  intros m uv Hok Hfit. unfold unique_vertex_block_cmvs_count_is_incorrect, block_count_wrong. assert (CB := components_uuids_all m uv BlockT).
  eapply reports_ext; [apply (first_some_reports _ _ (fun b => In b (active_ids m BlockT) /\ exists k : block_counts m uv b, ~ count_accepted k))|].
  - intros b Hin. assert (A : at_vertex m uv BlockT b) by (apply CB; exact Hin). assert (Hb : In b (component_ids m BlockT)) by (apply (brep_links_exist m Hok uv BlockT); [exact A|discriminate]).
    rewrite (kind_is_active_ok m BlockT b (br_ids m Hok) Hb). cbn [bind]. destruct (activeb m BlockT b) eqn:Ac; cbn [negb].
    + apply activeb_iff in Ac. destruct (expected_ok m uv b Hok Hb Hfit A) as (e & r & -> & K). cbn [bind snd]. exists r. split; [reflexivity|]. split.
      * intros N. split; [exact Ac|]. exists (the_counts m uv b). intros Q. apply N, (K (the_counts m uv b)), Q.
      * intros (_ & k & Q) N. apply Q, (K k), N.
    + apply reports_none. intros [K _]. apply activeb_iff in K. congruence.
  - split.
    + intros (b & Hin & A & K). exists b. split; [|exact K]. split; [apply CB; exact Hin|exact A].
    + intros (b & [A1 A2] & K). exists b. split; [apply CB; exact A1|]. auto.
Qed.
