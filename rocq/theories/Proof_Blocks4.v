(** Block checks of a unique vertex other than the count. *)
From Coq Require Import String Ascii List Arith NArith ZArith Bool Lia Sorted.
From Verif Require Import Base BaseFacts Model_Issues Types Model_Colocation Model_Topology Model_BRep Model_Blocks Spec_Colocation Spec_Maps Spec_Adjacency
  Spec_Topology Spec_BRep Spec_Blocks Proof_Maps Proof_Colocation Proof_Colocation2 Proof_Colocation3 Proof_Adjacency Proof_Manifold Proof_Degeneration
  Proof_Topology Proof_Topology2 Proof_Topology3 Proof_Topology4 Proof_BRep Proof_BRep2 Proof_BRep3 Proof_Blocks Proof_Blocks2 Proof_Blocks3.
Import ListNotations.
Open Scope list_scope.

(** ** The check of several surfaces and lines never says anything *)
Lemma two_boundaries_stop : forall m l ss k, (0 <= k <= 1)%N -> (forall s, In s ss -> is_boundary m l s = true) -> 2 <= N.to_nat k + length ss ->
  two_surfaces_or_embedded_loop m l k ss = true.
Proof.
  intros m l ss. induction ss as [|s ss IH]; intros k Hk Hb Hlen; [cbn [length] in Hlen; lia|]. cbn [two_surfaces_or_embedded_loop].
  rewrite (Hb s (or_introl eq_refl)). destruct (Nat.ltb 0 (nb_embeddings m s)); [reflexivity|]. cbv zeta.
  assert (E : k = 0%N \/ k = 1%N) by lia. destruct E as [-> | ->].
  - change (N.ltb 1 (u8 (0 + 1))) with false. cbv iota. apply IH; [cbv; split; discriminate|intros x Hx; apply Hb; right; exact Hx|cbn [length] in Hlen; change (N.to_nat (u8 (0 + 1))) with 1; change (N.to_nat 0) with 0 in Hlen; lia].
  - reflexivity.
Qed.
Lemma no_embedding_inside : forall m l s, nb_embeddings m l = 0 -> is_internal m l s = false.
Proof.
  intros m l s E. destruct (is_internal m l s) eqn:F; [|reflexivity]. apply is_internal_iff in F. apply in_embeddings in F as (e & He & _).
  unfold nb_embeddings in E. destruct (embeddings m l); [destruct He|discriminate].
Qed.
Lemma first_some_never : forall A (f : A -> outcome (option string)) l, (forall x, In x l -> f x = Ok None) -> first_some f l = Ok None.
Proof. intros A f l. induction l as [|x l IH]; intros F; cbn [first_some]; [reflexivity|]. rewrite (F x (or_introl eq_refl)). cbn [bind]. apply IH. intros y Hy. apply F. right. exact Hy. Qed.
Lemma multiple_surfaces_silent : forall m uv, brep_multiple_surfaces_invalid_line m uv = Ok None.
Proof.
  intros m uv. unfold brep_multiple_surfaces_invalid_line. cbv zeta. destruct (Nat.ltb (length (components_uuids m uv LineT)) 2); [reflexivity|].
  destruct (Nat.ltb (length (components_uuids m uv SurfaceT)) 2); [reflexivity|].
  set (nd := filter _ (components_uuids m uv SurfaceT)). destruct (Nat.ltb_spec (length nd) 2) as [L|L]; [reflexivity|].
  apply first_some_never. intros l Hl. destruct (Nat.ltb_spec (nb_embeddings m l) 1) as [E|E]; [|reflexivity].
  destruct (forallb (fun s => is_internal m l s || is_boundary m l s) nd) eqn:F; [|rewrite andb_false_r; reflexivity].
  replace (line_is_boundary_of_at_least_two_surfaces_or_one_embedding_surface m l nd) with true; [reflexivity|]. symmetry.
  apply two_boundaries_stop; [lia| |cbn [N.to_nat]; lia]. intros s Hs. rewrite forallb_forall in F. specialize (F s Hs). rewrite no_embedding_inside in F by lia. exact F.
Qed.

Section Vertex.
Context (m : Model) (uv : nat).
Hypothesis Hok : brep_ok m.
Notation cmvs := (component_mesh_vertices m uv).
Let Hu := br_ids m Hok.
Let Hl := brep_links_exist m Hok.

(** ** Two blocks *)
Lemma at_surface : forall s, at_vertex m uv SurfaceT s <-> exists c, In c cmvs /\ of_type SurfaceT c = true /\ cmv_id c = s.
Proof. apply at_vertex_iff. Qed.
Lemma two_blocks_ok : reports_iff (unique_vertex_is_part_of_two_blocks_and_no_boundary_surface m uv) (two_blocks_apart m uv).
Proof.
  unfold unique_vertex_is_part_of_two_blocks_and_no_boundary_surface. assert (CB := components_uuids_all m uv BlockT).
  set (bs := components_uuids m uv BlockT) in *. clearbody bs.
  assert (LEN : forall b1 b2, all_at m uv BlockT [b1; b2] -> length bs = 2). { intros b1 b2 K. apply (all_at_length m uv _ _ _ CB K). }
  assert (NO : length bs <> 2 -> ~ two_blocks_apart m uv). { intros D (b1 & b2 & K & _). apply LEN in K. congruence. }
  destruct bs as [|b0 [|b1 [|x bs]]]; try (apply reports_none; apply NO; cbn [length]; lia). clear NO LEN.
  assert (E0 : In b0 (component_ids m BlockT)) by (apply (Hl uv BlockT); [apply CB; left; reflexivity|discriminate]).
  assert (E1 : In b1 (component_ids m BlockT)) by (apply (Hl uv BlockT); [apply CB; right; left; reflexivity|discriminate]).
  rewrite (kind_is_active_ok m BlockT b0 Hu E0), (kind_is_active_ok m BlockT b1 Hu E1). cbn [bind].
  assert (PAIR : forall x y, all_at m uv BlockT [x; y] -> (x = b0 /\ y = b1) \/ (x = b1 /\ y = b0)).
  { intros x y K. destruct (all_at_length m uv _ _ _ CB K) as [_ Q]. destruct K as [N K]. inversion N as [|? ? N1 N2]; subst. pose proof (proj2 (Q x) (or_introl eq_refl)) as Qx.
    pose proof (proj2 (Q y) (or_intror (or_introl eq_refl))) as Qy. cbn [In] in *.
    destruct Qx as [Qx|[Qx|[]]], Qy as [Qy|[Qy|[]]]; subst; auto; exfalso; apply N1; left; reflexivity. }
  set (P := forall s, at_vertex m uv SurfaceT s -> ~ (bounds m s b0 /\ bounds m s b1) /\
      forall l, at_vertex m uv LineT l -> bounds m l s -> ~ bounds m s b0 /\ ~ bounds m s b1).
  assert (SPEC : two_blocks_apart m uv <-> In b0 (active_ids m BlockT) /\ In b1 (active_ids m BlockT) /\ P).
  { split.
    - intros (x & y & K & Ax & Ay & F). destruct (PAIR x y K) as [[-> ->]|[-> ->]]; split; auto; split; auto.
      intros s Hs. destruct (F s Hs) as [F1 F2]. split; [tauto|]. intros l L1 L2. specialize (F2 l L1 L2). tauto.
    - intros (A0 & A1 & F). exists b0, b1. auto. }
  destruct (activeb m BlockT b0) eqn:A0; cbn [negb].
  2:{ apply reports_none. intros K. apply SPEC in K. destruct K as (K & _). apply activeb_iff in K. congruence. }
  destruct (activeb m BlockT b1) eqn:A1; cbn [negb].
  2:{ apply reports_none. intros K. apply SPEC in K. destruct K as (_ & K & _). apply activeb_iff in K. congruence. }
  apply activeb_iff in A0, A1.
  match goal with |- reports_iff (if ?e then _ else _) _ => assert (EX : e = true <-> ~ P) end.
  { rewrite existsb_exists. split.
    - intros (c & Hc & K) F. apply andb_true_iff in K as [T K]. destruct (F (cmv_id c)) as [F1 F2]; [apply at_surface; exists c; auto|].
      apply orb_true_iff in K as [K|K].
      + apply andb_true_iff in K as [K1 K2]. apply is_boundary_iff in K1, K2. tauto.
      + apply existsb_exists in K as (l & Hl' & K). apply andb_true_iff in K as [T' K]. apply andb_true_iff in K as [K1 K2]. apply is_boundary_iff in K1.
        destruct (F2 (cmv_id l)) as [G1 G2]; [apply at_vertex_iff; exists l; auto|exact K1|]. apply orb_true_iff in K2 as [K2|K2]; apply is_boundary_iff in K2; tauto.
    - intros F. apply existsb_exists. match goal with |- ?e = true => destruct e eqn:Q; [reflexivity|] end. exfalso. apply F. intros s Hs.
      apply at_surface in Hs as (c & Hc & T & <-).
      assert (R : forall c, In c cmvs -> (of_type SurfaceT c && (is_boundary m (cmv_id c) b0 && is_boundary m (cmv_id c) b1 || existsb (fun l => of_type LineT l && (is_boundary m (cmv_id l) (cmv_id c) && (is_boundary m (cmv_id c) b0 || is_boundary m (cmv_id c) b1))) cmvs))%bool = false).
      { intros d Hd. destruct (of_type SurfaceT d && _)%bool eqn:Z; [|reflexivity]. exfalso. assert (existsb (fun s => of_type SurfaceT s && (is_boundary m (cmv_id s) b0 && is_boundary m (cmv_id s) b1 || existsb (fun l => of_type LineT l && (is_boundary m (cmv_id l) (cmv_id s) && (is_boundary m (cmv_id s) b0 || is_boundary m (cmv_id s) b1))) cmvs))%bool cmvs = true) as Z' by (apply existsb_exists; exists d; auto). congruence. }
      specialize (R c Hc). rewrite T in R. cbn [andb] in R. apply orb_false_iff in R as [R1 R2]. split.
      + intros [B0 B1]. apply is_boundary_iff in B0, B1. rewrite B0, B1 in R1. discriminate.
      + intros l L1 L2. apply at_vertex_iff in L1 as (d & Hd & T' & <-). apply is_boundary_iff in L2.
        assert (Z : (is_boundary m (cmv_id c) b0 || is_boundary m (cmv_id c) b1)%bool = false).
        { destruct (is_boundary m (cmv_id c) b0 || is_boundary m (cmv_id c) b1)%bool eqn:Z; [|reflexivity]. exfalso.
          assert (existsb (fun l => of_type LineT l && (is_boundary m (cmv_id l) (cmv_id c) && true)) cmvs = true)%bool as Z' by (apply existsb_exists; exists d; rewrite T', L2; auto). congruence. }
        apply orb_false_iff in Z as [Z0 Z1]. split; intros K; apply is_boundary_iff in K; congruence. }
  match goal with |- reports_iff (if ?e then _ else _) _ => destruct e eqn:Q end.
  - apply reports_none. rewrite SPEC. intros (_ & _ & K). exact (proj1 EX eq_refl K).
  - apply reports_some. apply SPEC. split; [exact A0|]. split; [exact A1|].
    assert (D : ~ ~ P) by (intros K; apply EX in K; discriminate). intros s Hs. split.
    + intros B. apply D. intros F. exact (proj1 (F s Hs) B).
    + intros l L1 L2. split; intros B; apply D; intros F; destruct (proj2 (F s Hs) l L1 L2); tauto.
Qed.

(** ** Surfaces *)
Context (tl : TopoLookup).
Hypothesis Hin : inside_block_ok tl.
Lemma find_dangling_ok : forall nb, (forall s, In s nb <-> In s (component_ids m SurfaceT) /\ ~ in_closed_set m s) ->
  exists d, find_dangling_surfaces tl m nb = Ok d /\ forall s, In s d <-> dangling tl m s.
Proof.
  intros nb Hnb.
  set (D := fun s => exists c, In c (m_surfaces m) /\ co_id c = s /\ sm_polygons (co_mesh c) <> [] /\ forall b, In b (component_ids m BlockT) -> tl_inside_block tl s b = Ok false).
  assert (G : forall l acc, (forall s, In s l -> In s (component_ids m SurfaceT)) ->
    exists d, foldM (fun dangling s => let! surface := get_surface m s in
      if Nat.eqb (nb_polygons (co_mesh surface)) 0 then Ok dangling
      else let! inside := anyM (fun b => tl_inside_block tl s (co_id b)) (m_blocks m) in Ok (if inside then dangling else (dangling ++ [s])%list)) l acc = Ok d /\
      forall s, In s d <-> In s acc \/ (In s l /\ D s)).
  { induction l as [|s l IH]; intros acc Hex; cbn [foldM].
    - exists acc. split; [reflexivity|]. intros s. cbn [In]. tauto.
    - assert (Hs := Hex s (or_introl eq_refl)). destruct (get_surface_id m s Hs) as (c & E & Ic & Hc). rewrite E. cbn [bind].
      assert (UNI : forall c', In c' (m_surfaces m) -> co_id c' = s -> c' = c).
      { intros c' Hc' I'. rewrite (surface_by_id m Hok c' s Hc' I') in E. congruence. }
      assert (Hex' : forall s, In s l -> In s (component_ids m SurfaceT)) by (intros x Hx; apply Hex; right; exact Hx).
      assert (DN : (exists acc', (if Nat.eqb (nb_polygons (co_mesh c)) 0 then Ok acc
        else let! inside := anyM (fun b => tl_inside_block tl s (co_id b)) (m_blocks m) in Ok (if inside then acc else (acc ++ [s])%list)) = Ok acc' /\ forall x, In x acc' <-> In x acc \/ (x = s /\ D s))).
      { destruct (Nat.eqb_spec (nb_polygons (co_mesh c)) 0) as [Z|Z].
        - exists acc. split; [reflexivity|]. intros x. split; [auto|]. intros [K|(_ & c' & Hc' & Ic' & P & _)]; [exact K|]. rewrite (UNI c' Hc' Ic') in P. unfold nb_polygons in Z. destruct (sm_polygons (co_mesh c)); [congruence|discriminate].
        - destruct (anyM_decides _ (fun b : Component SolidMesh => tl_inside_block tl s (co_id b)) (fun b => tl_inside_block tl s (co_id b) = Ok true) (m_blocks m)) as (r & Er & Kr).
          { intros b _. destruct (Hin s (co_id b)) as [r Er]. rewrite Er. exists r. split; [reflexivity|]. split; [intros ->; reflexivity|intros K; injection K as ->; reflexivity]. }
          rewrite Er. cbn [bind]. destruct r.
          + exists acc. split; [reflexivity|]. intros x. split; [auto|]. intros [K|(_ & c' & _ & _ & _ & F)]; [exact K|]. destruct (proj1 Kr eq_refl) as (b & Hb & Kb). rewrite (F (co_id b) (in_map co_id _ _ Hb)) in Kb. discriminate.
          + exists (acc ++ [s]). split; [reflexivity|]. intros x. rewrite in_app_iff. cbn [In].
            assert (Ds : D s). { exists c. split; [exact Hc|]. split; [exact Ic|]. split; [unfold nb_polygons in Z; destruct (sm_polygons (co_mesh c)); [destruct Z; reflexivity|discriminate]|].
              intros b Hb. apply in_map_iff in Hb as (cb & <- & Hb). destruct (Hin s (co_id cb)) as [[] Er']; [|exact Er']. exfalso. assert (false = true) by (apply Kr; exists cb; auto). discriminate. }
            split; [intros [K|[K|[]]]; auto|intros [K|[K _]]; auto]. }
      destruct DN as (acc' & Ea & Ka). rewrite Ea. cbn [bind]. destruct (IH acc' Hex') as (d & Ed & Kd). rewrite Ed. exists d. split; [reflexivity|].
      intros x. rewrite Kd, Ka. cbn [In]. split; [intros [[K|[-> K]]|K]; tauto|intros [K|[[<-|K] K2]]; tauto]. }
  destruct (G nb []) as (d & Ed & Kd). { intros s Hs. apply Hnb in Hs. tauto. }
  exists d. split; [exact Ed|]. intros s. rewrite Kd. cbn [In]. rewrite Hnb. unfold dangling. fold (D s). split; [tauto|]. intros [K1 K2]. right. split; [|exact K2]. split; [|exact K1].
  destruct K2 as (c & Hc & <- & _). cbn [component_ids]. apply in_map, Hc.
Qed.

Context (nb dl : list uuid).
Hypothesis Hnb : forall s, In s nb <-> In s (component_ids m SurfaceT) /\ ~ in_closed_set m s.
Hypothesis Hdec : forall s, In s (component_ids m SurfaceT) -> In s nb \/ in_closed_set m s.
Hypothesis Hdl : forall s, In s dl <-> dangling tl m s.
Definition should_not_bound (uv : nat) (n : string) : string :=
  StrCat ["unique vertex with index "; str uv; " is part of Surface "; n; ", which should not be boundary of any Block."]%string.
Definition should_be_internal (uv : nat) (n : string) : string :=
  StrCat ["unique vertex "; str uv; " is part of Surface "; n; ", which is not internal to a Block while it should be."]%string.
(** a step of the search, for the link [c] *)
Definition relation_answer (c : ComponentMeshVertex) (r : option string) : Prop :=
  (r = None /\ ~ (active_cmv m SurfaceT c = true /\ (wrongly_bounding m (cmv_id c) \/ without_relation tl m (cmv_id c)))) \/
  (active_cmv m SurfaceT c = true /\ exists n, kind_named m SurfaceT (cmv_id c) = Ok n /\
    ((wrongly_bounding m (cmv_id c) /\ r = Some (should_not_bound uv n)) \/ (without_relation tl m (cmv_id c) /\ r = Some (should_be_internal uv n)))).
Lemma relation_step : forall c, In c cmvs -> exists r,
  (let! a := is_active_of m SurfaceT c in
    if negb a then Ok None
    else if Nat.leb 1 (nb_incidences m (cmv_id c)) && memb (cmv_id c) nb then
      let! n := kind_named m SurfaceT (cmv_id c) in
      Ok (Some (StrCat ["unique vertex with index "; str uv; " is part of Surface "; n; ", which should not be boundary of any Block."]%string))
    else if Nat.leb 1 (nb_embeddings m (cmv_id c)) && Nat.ltb (nb_incidences m (cmv_id c)) 1
            && negb (memb (cmv_id c) nb) && memb (cmv_id c) dl then
      let! n := kind_named m SurfaceT (cmv_id c) in
      Ok (Some (StrCat ["unique vertex "; str uv; " is part of Surface "; n; ", which should not be embedded in any Block."]%string))
    else if Nat.ltb (nb_incidences m (cmv_id c)) 1 && Nat.ltb (nb_embeddings m (cmv_id c)) 1 && negb (memb (cmv_id c) dl) then
      let! n := kind_named m SurfaceT (cmv_id c) in
      Ok (Some (StrCat ["unique vertex "; str uv; " is part of Surface "; n; ", which is not internal to a Block while it should be."]%string))
    else Ok None)%bool = Ok r /\ relation_answer c r.
Proof.
  intros c Hc. rewrite (is_active_of_ok m SurfaceT uv c Hu Hl ltac:(discriminate) Hc). cbn [bind]. destruct (active_cmv m SurfaceT c) eqn:A; cbn [negb].
  2:{ exists None. split; [reflexivity|]. left. split; [reflexivity|]. intros [K _]. congruence. }
  assert (Hc' : active_at m uv SurfaceT (cmv_id c)) by (apply active_cmv_at; assumption).
  assert (Hs : In (cmv_id c) (component_ids m SurfaceT)) by (apply (Hl uv SurfaceT); [apply Hc'|discriminate]).
  destruct (kind_named_ok m SurfaceT _ Hs) as [n Hn]. rewrite Hn. cbn [bind].
  assert (B : memb (cmv_id c) nb = true <-> ~ in_closed_set m (cmv_id c)) by (rewrite memb_In, Hnb; tauto).
  assert (D : memb (cmv_id c) dl = true <-> dangling tl m (cmv_id c)) by (rewrite memb_In; apply Hdl).
  destruct (Nat.leb 1 (nb_incidences m (cmv_id c)) && memb (cmv_id c) nb)%bool eqn:E1.
  { apply andb_true_iff in E1 as [E1 E2]. apply Nat.leb_le in E1. apply B in E2. eexists. split; [reflexivity|]. right. split; [exact A|]. exists n. split; [exact Hn|]. left. split; [split; assumption|reflexivity]. }
  assert (NW : ~ wrongly_bounding m (cmv_id c)). { intros [K1 K2]. apply Nat.leb_le in K1. apply B in K2. rewrite K1, K2 in E1. discriminate. }
  destruct (Nat.leb 1 (nb_embeddings m (cmv_id c)) && Nat.ltb (nb_incidences m (cmv_id c)) 1 && negb (memb (cmv_id c) nb) && memb (cmv_id c) dl)%bool eqn:E2.
  { exfalso. apply andb_true_iff in E2 as [E2 E3]. apply andb_true_iff in E2 as [_ E2]. apply D in E3. destruct E3 as [E3 _]. apply B in E3. rewrite E3 in E2. discriminate. }
  assert (W : (Nat.ltb (nb_incidences m (cmv_id c)) 1 && Nat.ltb (nb_embeddings m (cmv_id c)) 1 && negb (memb (cmv_id c) dl))%bool = true <-> without_relation tl m (cmv_id c)).
  { unfold without_relation. rewrite !andb_true_iff, !Nat.ltb_lt, (bool_not_iff _ _ D). rewrite !Nat.lt_1_r. tauto. }
  destruct (Nat.ltb (nb_incidences m (cmv_id c)) 1 && Nat.ltb (nb_embeddings m (cmv_id c)) 1 && negb (memb (cmv_id c) dl))%bool.
  - eexists. split; [reflexivity|]. right. split; [exact A|]. exists n. split; [exact Hn|]. right. split; [apply W; reflexivity|reflexivity].
  - exists None. split; [reflexivity|]. left. split; [reflexivity|]. intros [_ [K|K]]; [exact (NW K)|apply W in K; discriminate].
Qed.
Lemma relationships_ok : reports_iff (surface_with_wrong_relationships_to_block m nb dl uv) (surface_relation_wrong tl m uv).
Proof.
  unfold surface_with_wrong_relationships_to_block, surface_relation_wrong. eapply reports_ext.
  - apply (first_some_reports _ _ (fun c => active_cmv m SurfaceT c = true /\ (wrongly_bounding m (cmv_id c) \/ without_relation tl m (cmv_id c)))). intros c Hc.
    destruct (relation_step c Hc) as (r & E & K). exists r. split; [exact E|]. destruct K as [[-> K]|(A & n & _ & [[K ->]|[K ->]])]; [split; [congruence|tauto]| |]; (split; [intros _|discriminate]); tauto.
  - split.
    + intros (c & Hc & A & K). exists (cmv_id c). split; [apply active_cmv_at; assumption|exact K].
    + intros (s & A & K). apply active_at_iff in A as (c & Hc & A & <-). exists c. auto.
Qed.
Lemma first_some_inv : forall A (f : A -> outcome (option string)) l msg, first_some f l = Ok (Some msg) -> exists x, In x l /\ f x = Ok (Some msg).
Proof.
  intros A f l msg. induction l as [|x l IH]; cbn [first_some]; [discriminate|]. destruct (f x) as [[s|]|e|] eqn:E; cbn [bind]; try discriminate.
  - intros K. exists x. split; [left; reflexivity|]. congruence.
  - intros K. destruct (IH K) as (y & Hy & Ky). exists y. split; [right; exact Hy|exact Ky].
Qed.
(** C43 *)
Lemma relationships_message : forall msg, surface_with_wrong_relationships_to_block m nb dl uv = Ok (Some msg) ->
  exists s n, active_at m uv SurfaceT s /\ kind_named m SurfaceT s = Ok n /\
    ((wrongly_bounding m s /\ msg = should_not_bound uv n) \/ (without_relation tl m s /\ msg = should_be_internal uv n)).
Proof.
  intros msg K. apply first_some_inv in K as (c & Hc & K). destruct (relation_step c Hc) as (r & E & R). rewrite E in K. injection K as ->.
  destruct R as [[R _]|(A & n & Hn & R)]; [discriminate|]. exists (cmv_id c), n. split; [apply active_cmv_at; assumption|]. split; [exact Hn|].
  destruct R as [[R E1]|[R E1]]; injection E1 as ->; auto.
Qed.

Lemma only_surface_ok : reports_iff (brep_invalid_single_surface m nb uv) (only_surface_wrong m uv).
Proof.
  unfold brep_invalid_single_surface. assert (CS := components_uuids_all m uv SurfaceT). assert (CB := components_uuids_all m uv BlockT).
  set (ss := components_uuids m uv SurfaceT) in *. set (bs := components_uuids m uv BlockT) in *. clearbody ss bs. cbv zeta.
  assert (NO : (forall s, ss <> [s]) -> ~ only_surface_wrong m uv).
  { intros K (s & bs' & HS & _). apply (all_at_single m uv SurfaceT ss s CS) in HS. exact (K s HS). }
  destruct ss as [|s [|x ss]]; try (apply reports_none; apply NO; discriminate). clear NO.
  assert (Hs : In s (component_ids m SurfaceT)) by (apply (Hl uv SurfaceT); [apply CS; left; reflexivity|discriminate]).
  rewrite (kind_is_active_ok m SurfaceT s Hu Hs). cbn [bind].
  set (Q := 2 < length bs \/ (1 <= nb_embeddings m s /\ all_blocks_have_polyhedra m /\ ~ exists b, bs = [b] /\ inside m s b) \/ (nb_embeddings m s = 0 /\ exists b, In b bs /\ ~ bounds m s b)).
  assert (SPEC : only_surface_wrong m uv <-> In s (active_ids m SurfaceT) /\ in_closed_set m s /\ Q).
  { split.
    - intros (s' & bs' & HS & A & K & HB & W). apply (all_at_single m uv SurfaceT _ s' CS) in HS. injection HS as <-. split; [exact A|]. split; [exact K|].
      destruct (all_at_length m uv _ _ _ CB HB) as [L E]. unfold Q. rewrite L. destruct W as [W|[(W1 & W2 & W3)|(W1 & b & W2 & W3)]]; [auto| |].
      + right. left. split; [exact W1|]. split; [exact W2|]. intros (b & -> & I). apply W3. exists b. split; [|exact I]. apply (all_at_single m uv BlockT bs' b HB). exact CB.
      + right. right. split; [exact W1|]. exists b. split; [apply E; exact W2|exact W3].
    - intros (A & K & W). exists s, bs. repeat (split; [assumption|]). exact W. }
  destruct (activeb m SurfaceT s) eqn:A; cbn [negb].
  2:{ apply reports_none. rewrite SPEC. intros (K & _). apply activeb_iff in K. congruence. }
  apply activeb_iff in A. destruct (memb s nb) eqn:B.
  { apply memb_In, Hnb in B as [_ B]. apply reports_none. rewrite SPEC. tauto. }
  assert (Kin : in_closed_set m s) by (destruct (Hdec s Hs) as [K|K]; [apply memb_In in K; congruence|exact K]).
  assert (YES : Q -> only_surface_wrong m uv) by (intros K; apply SPEC; auto).
  destruct (Nat.ltb_spec 2 (length bs)) as [L|L]; [apply reports_some; apply YES; left; exact L|].
  destruct (Nat.ltb_spec 0 (nb_embeddings m s)) as [Em|Em].
  - destruct (brep_blocks_are_meshed m) eqn:F.
    2:{ apply reports_none. rewrite SPEC. intros (_ & _ & [K|[(_ & K & _)|(K & _)]]); [lia| |lia]. apply blocks_meshed_iff in K. congruence. }
    apply blocks_meshed_iff in F.
    assert (YES' : ~ (exists b, bs = [b] /\ inside m s b) -> only_surface_wrong m uv) by (intros K; apply YES; right; left; auto).
    destruct bs as [|b0 [|b1 bs]]; [apply reports_some, YES'; intros (b & K & _); discriminate| |apply reports_some, YES'; intros (b & K & _); discriminate].
    destruct (is_internal m s b0) eqn:I; cbn [negb].
    + apply is_internal_iff in I. apply reports_none. rewrite SPEC. intros (_ & _ & [K|[(_ & _ & K)|(K & _)]]); [lia| |lia]. apply K. eauto.
    + apply reports_some, YES'. intros (b & K & I'). injection K as <-. apply is_internal_iff in I'. congruence.
  - eapply reports_ext; [apply (first_some_reports _ _ (fun b => ~ bounds m s b))|].
    + intros b Hb. assert (Hbb : In b (component_ids m BlockT)) by (apply (Hl uv BlockT); [apply CB; exact Hb|discriminate]).
      destruct (kind_named_ok m SurfaceT s Hs) as [n Hn]. destruct (kind_named_ok m BlockT b Hbb) as [n' Hn']. rewrite Hn, Hn'. cbn [bind].
      destruct (is_boundary m s b) eqn:I; cbn [negb].
      * apply reports_none. apply is_boundary_iff in I. tauto.
      * apply reports_some. intros K. apply is_boundary_iff in K. congruence.
    + rewrite SPEC. split.
      * intros (b & Hb & K). split; [exact A|]. split; [exact Kin|]. right. right. split; [lia|]. exists b. auto.
      * intros (_ & _ & [K|[(K & _)|(_ & b & Hb & K)]]); [lia|lia|]. exists b. auto.
Qed.
End Vertex.
