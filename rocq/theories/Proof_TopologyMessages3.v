(** Proofs about the texts of topology reports: surfaces and blocks of BReps. *)
From Coq Require Import String Ascii List Arith NArith ZArith Bool Lia.
From Verif Require Import Base BaseFacts Model_Issues Types Model_Colocation Model_Topology Model_BRep Model_Blocks Spec_Colocation Spec_Messages Spec_Adjacency
  Spec_Topology Spec_BRep Spec_Blocks Spec_TopologyMessages
  Proof_Colocation Proof_Colocation2 Proof_Topology Proof_Topology2 Proof_Topology3 Proof_BRep Proof_BRep2 Proof_BRep3 Proof_BRep4 Proof_BRep5
  Proof_Blocks Proof_Blocks3 Proof_Blocks4 Proof_Blocks5 Proof_Messages Proof_Messages2 Proof_TopologyMessages Proof_TopologyMessages2.
Import ListNotations.
Open Scope list_scope.

Section Surfaces.
Context (tl : TopoLookup) (m : Model) (Hok : brep_ok m) (uv : nat).
Let Hu := br_ids m Hok.
Lemma id_at : forall t i, In i (components_uuids m uv t) -> at_vertex m uv t i.
Proof. intros t i H. apply (components_uuids_all m uv t). exact H. Qed.
Lemma surface_block : forall t, brep_invalid_embedded_surface m uv = Ok (Some t) -> surface_block_text m uv t.
Proof.
  intros t H. unfold brep_invalid_embedded_surface in H. message_step H. message_step H. message_step H; [message_step H|]. message_step H. message_step H. message_step H; [message_step H|].
  message_step H. message_step H. subst. facts. match goal with L : titled _ SurfaceT ?s ?n, L' : titled _ BlockT ?b ?n' |- _ => exists s, b, n, n';
    assert (A : active_at m uv SurfaceT s) by (split; [apply id_at; assumption|assumption]); assert (I1 : inside m s b) by (apply in_embeddings_inside; assumption) end.
  message_step H; [|message_step H; [|message_step H]]; message_step H; facts; conj; auto.
Qed.
Lemma internal_corners_text : forall l found t, (forall c, In c l -> In c (component_mesh_vertices m uv)) -> internal_corners_loop m uv (components_uuids m uv SurfaceT) found l = Ok (Some t) ->
  (exists c v p s n', In c (m_corners m) /\ In (mkCMV (mkCID CornerT (co_id c)) v) (component_mesh_vertices m uv) /\ nth_error (ps_points (co_mesh c)) v = Some p /\
        active_at m uv SurfaceT s /\ ~ inside m (co_id c) s /\ labelled m SurfaceT s n' /\
        t = StrCat ["unique vertex "; str uv; " at position ["; m_point_string m p;
          "] is part of multiple active Surfaces, and not part of any Line, but is part of Corner "; label m c; ", which is not internal to active Surface "; n'; "."]%string) \/
  (found = false /\ (forall c, In c l -> of_type CornerT c = false) /\
        t = StrCat ["unique vertex "; str uv; " is part of multiple active Surfaces, and not part of any Line, ";
                       "but not part of any Corner internal to all Surfaces."]%string).
Proof.
  induction l as [|c l IH]; intros found t Hin H; cbn [internal_corners_loop] in H.
  - right. destruct found; [discriminate H|]. message_step H. conj; auto. intros c [].
  - assert (Hin' : forall c, In c l -> In c (component_mesh_vertices m uv)) by (intros; apply Hin; right; assumption).
    message_step H.
    { destruct (IH _ _ Hin' H) as [K|(K1 & K2 & K3)]; [left; exact K|]. right. conj; auto. intros d [<-|Hd]; auto. }
    message_step H. message_step H. message_step H.
    + left. assert (s = t) by congruence. subst s. clear H. subst. rename E0 into H. repeat message_step H.
      match goal with K : get_corner _ _ = Ok _ |- _ => destruct (get_corner_some _ _ _ K) as [G1 G2] end.
      match goal with K : get_surface _ _ = Ok _ |- _ => destruct (get_surface_some _ _ _ K) as [G3 G4] end.
      rewrite (named_eq _ _ _ _ G2), (named_eq _ _ _ _ G4) in H. facts.
      exists x, (cmv_vertex c), p, x0, (label m x1). rewrite G2. conj; auto.
      * rewrite <- B. destruct c as [[? ?] ?]. apply Hin. left. reflexivity.
      * split; [apply id_at; assumption|]. rewrite <- G4. apply in_active_ids; assumption.
      * exists x1. auto.
    + destruct (IH _ _ Hin' H) as [K|(K1 & K2 & K3)]; [left; exact K|discriminate K1].
Qed.
Lemma several_surfaces : forall t, brep_invalid_multiple_surfaces m uv = Ok (Some t) -> several_surfaces_text m uv t.
Proof.
  intros t H. unfold brep_invalid_multiple_surfaces in H. cbv zeta in H. assert (CS := components_uuids_all m uv SurfaceT). assert (CL := components_uuids_all m uv LineT).
  assert (SE : forall s, In s (components_uuids m uv SurfaceT) -> In s (component_ids m SurfaceT)) by (intros s; apply (uuids_exist m uv Hok); discriminate).
  assert (SLEN := uuids_length m uv SurfaceT).
  unfold count_active in H. rewrite count_active_ok in H by assumption. cbn [bind plus] in H.
  message_step H; [discriminate H|]. apply Nat.ltb_ge in B.
  assert (T2 : two_active_surfaces m uv).
  { apply two_distinct in B; [|apply CS]. destruct B as (a & b & D & A1 & B1 & A2 & B2). rewrite activeb_iff in A2, B2. exists a, b. split; [exact D|]. split; (split; [apply CS; assumption|assumption]). }
  split; [exact T2|]. destruct (components_uuids m uv LineT) as [|line [|l2 ls]] eqn:ML; [| |discriminate H].
  - left. split; [intros l K; apply CL in K; destruct K|]. apply internal_corners_text in H; [|auto]. destruct H as [H|(_ & H1 & H2)]; [left; exact H|]. right. split; [|exact H2]. apply (corner_at_existsb m uv); exact H1.
  - right. assert (ALL : forall c, In c (component_mesh_vertices m uv) -> of_type LineT c = true -> cmv_id c = line).
    { intros c Hc T. assert (K : at_vertex m uv LineT (cmv_id c)) by (apply at_vertex_iff; eauto). apply CL in K. destruct K as [->|[]]. reflexivity. }
    assert (HAS : exists d, In d (component_mesh_vertices m uv) /\ of_type LineT d = true).
    { assert (K : at_vertex m uv LineT line) by (apply CL; left; reflexivity). apply at_vertex_iff in K. destruct K as (d & Hd & T & _). eauto. }
    assert (B' : (N.of_nat (length (component_mesh_vertices m uv) + length (m_internal_rel m)) < 2 ^ 32)%N).
    { unfold component_mesh_vertices in *. destruct (nth_in_or_default uv (m_cmvs m) []) as [K|K]; [apply (br_bound m Hok _ K)|]. rewrite K in HAS. destruct HAS as (d & [] & _). }
    assert (HAS1 : 1 <= length (filter (of_type LineT) (component_mesh_vertices m uv))).
    { destruct HAS as (d & Hd & T). assert (I : In d (filter (of_type LineT) (component_mesh_vertices m uv))) by (apply filter_In; auto). destruct (filter (of_type LineT) (component_mesh_vertices m uv)); [destruct I|cbn; lia]. }
    set (ss := components_uuids m uv SurfaceT) in *. unfold count_line_relationships in H.
    match type of H with (if N.leb 2 (fst ?nr) then _ else _) = _ => assert (F1 : fst nr = N.of_nat (length (filter (of_type LineT) (component_mesh_vertices m uv)))) end.
    { change (0%N, 0%N) with (N.of_nat 0, 0%N). rewrite line_links_count by (cbn [plus]; lia). reflexivity. }
    rewrite F1 in H. destruct (N.leb_spec 2 (N.of_nat (length (filter (of_type LineT) (component_mesh_vertices m uv))))) as [L2|L2]; [discriminate H|].
    assert (ONE : length (filter (of_type LineT) (component_mesh_vertices m uv)) = 1) by lia.
    rewrite (line_relationships_count m ss (component_mesh_vertices m uv) line) in H by (assumption || lia). rewrite ONE in H. cbn [Nat.eqb] in H.
    set (r := length (filter (fun s => is_boundary m line s || is_internal m line s)%bool ss)) in *.
    assert (RL : r <= length ss) by (unfold r; generalize ss as q; clear; intros q; induction q as [|s q IH]; cbn; [lia|destruct (_ || _)%bool; cbn; lia]).
    message_step H. message_step H; [message_step H|]. cbv zeta in H.
    assert (NE := nb_embeddings_length m (cmv_id x)). rewrite u32_small in H by lia. rewrite add32_small in H by lia.
    assert (AC : at_vertex m uv CornerT (cmv_id x)) by (apply typed_at; [assumption|]; facts; assumption).
    exists line, (cmv_id x), ss, r. conj; auto.
    + apply (Proof_BRep.counts_filter _ _ (fun s => is_boundary m line s || is_internal m line s)%bool); [|reflexivity]. intros y _. rewrite orb_true_iff, is_boundary_iff, is_internal_iff. reflexivity.
    + match type of H with (if N.ltb ?x ?y then _ else _) = _ => destruct (N.ltb_spec x y) as [Q|Q] end; [left; message_step H; split; [lia|exact H]|].
      match type of H with (if N.ltb ?x ?y then _ else _) = _ => destruct (N.ltb_spec x y) as [Q'|Q'] end; [right; message_step H; split; [lia|exact H]|message_step H].
Qed.
Lemma related_off_border : forall t, brep_line_not_on_surface_border m uv = Ok (Some t) -> related_off_border_text m uv t.
Proof.
  intros t H. unfold brep_line_not_on_surface_border in H.
  assert (K : first_some (fun c => if negb (of_type SurfaceT c) then Ok None
      else let! surface := get_surface m (cmv_id c) in
        if sm_vertex_on_border (co_mesh surface) (cmv_vertex c) then Ok None
        else first_some (fun l =>
          let! a := kind_is_active m LineT l in
          if (a && (is_boundary m l (cmv_id c) || is_internal m l (cmv_id c)))%bool then
            Ok (Some (StrCat ["unique vertex "; str uv; " is part of a Line and of Surface "; named m (co_name surface) (cmv_id c);
                              " but the associated vertex in the Surface mesh is not on the mesh border."]%string))
          else Ok None) (components_uuids m uv LineT)) (component_mesh_vertices m uv) = Ok (Some t)).
  { destruct (components_uuids m uv LineT); [discriminate H|exact H]. }
  clear H. repeat message_step K. subst. match goal with G : get_surface _ _ = Ok _ |- _ => destruct (get_surface_some _ _ _ G) as [G1 G2] end. rewrite (named_eq _ _ _ _ G2) in *.
  match goal with Q : (is_boundary _ _ _ || _)%bool = true |- _ => apply Bool.orb_true_iff in Q; rewrite is_boundary_iff, is_internal_iff in Q; rename Q into R end. facts.
  exists x0, (cmv_vertex x), x1. rewrite G2. conj; auto.
  - match goal with T : cmv_type x = SurfaceT |- _ => rewrite <- T end. destruct x as [[? ?] ?]. assumption.
  - split; [apply id_at; assumption|assumption].
Qed.
Lemma surface_facet : forall c p t, surface_facet_has_wrong_component_facets_around tl m c p = Ok (Some t) -> surface_facet_text tl m c p t.
Proof.
  intros c p t H. unfold surface_facet_has_wrong_component_facets_around in H. message_step H. unfold component_mesh_polygons in E.
  destruct (unique_vertices m (mkCID SurfaceT (co_id c)) (polygon_vertices (co_mesh c) p)) as [uvs|] eqn:U; [|discriminate E]. injection E as <-. apply unique_vertices_some in U.
  message_step H. cbv zeta in H. rewrite named_label in H. repeat message_step H; subst; facts; destruct x as [b k]; cbn [fst snd] in *;
    match goal with L : labelled _ _ _ ?n |- _ => exists uvs, b, n, k end; conj; auto; first [solve [left; conj; auto] | solve [right; left; conj; auto] | solve [right; right; conj; auto]].
Qed.
End Surfaces.
Lemma brep_surfaces_text : forall tl m r, brep_ok m -> brep_inspect_surfaces_topology tl m = Ok r -> brep_surfaces_explained tl m r.
Proof.
  intros tl m r Hok H. unfold brep_inspect_surfaces_topology in H. apply bind_Ok in H. destruct H as (cs & HC & H). apply bind_Ok in H. destruct H as (rs & HR & H).
  apply (elements_text _ _ _ _ _ _ _ _ _ _ _ _ _ _ _ (surface_facet_text tl m)) in HC; [|intros c e text _ _; apply surface_facet]. destruct HC as (HC1 & HC2 & HC3).
  apply (report_vertices_explained _ _ _ [surface_block_text m; several_surfaces_text m; related_off_border_text m]) in HR; [|reflexivity|].
  - cbn [brep_surfaces_ds combine] in HR. inv_forall2 HR. injection H as <-. unfold brep_surfaces_explained.
    cbn [bs_not_meshed bs_not_linked bs_invalid_embeddings bs_several_invalid bs_not_on_border bs_wrong_facets]. conj; assumption.
  - repeat (apply Forall2_cons; [intros uv t _ K|]); try apply Forall2_nil; [apply surface_block|apply several_surfaces|apply related_off_border]; assumption.
Qed.

Section Blocks.
Context (tl : TopoLookup) (m : Model) (Hok : brep_ok m) (Hfit : counts_fit m) (Hin : inside_block_ok tl).
Let Hu := br_ids m Hok.
Lemma two_blocks : forall uv t, unique_vertex_is_part_of_two_blocks_and_no_boundary_surface m uv = Ok (Some t) -> two_blocks_text m uv t.
Proof.
  intros uv t H. destruct (two_blocks_ok m uv Hok) as (r & E & R). rewrite H in E. split; [apply R; congruence|].
  unfold unique_vertex_is_part_of_two_blocks_and_no_boundary_surface in H. repeat message_step H. exact H.
Qed.
Lemma first_block_text : forall uv p, first_block_position m (filter (of_type BlockT) (component_mesh_vertices m uv)) = Ok p ->
  exists blk v x, In blk (m_blocks m) /\ In (mkCMV (mkCID BlockT (co_id blk)) v) (component_mesh_vertices m uv) /\ nth_error (so_points (co_mesh blk)) v = Some x /\ p = m_point_string m x.
Proof.
  intros uv p H. destruct (filter (of_type BlockT) (component_mesh_vertices m uv)) as [|c l] eqn:F; [discriminate H|]. cbn [first_block_position] in H.
  assert (Hc : In c (filter (of_type BlockT) (component_mesh_vertices m uv))) by (rewrite F; left; reflexivity). apply filter_In in Hc. destruct Hc as [Hc T]. apply of_type_iff in T.
  message_step H. destruct (nth_error (so_points (co_mesh x)) (cmv_vertex c)) as [q|] eqn:N; [|discriminate H]. destruct (get_block_some _ _ _ E) as [G1 G2].
  exists x, (cmv_vertex c), q. conj; auto; [|congruence]. rewrite G2, <- T. destruct c as [[? ?] ?]. exact Hc.
Qed.
Lemma count_w1 : forall uv b, counts (in_internal_surface m b) (component_mesh_vertices m uv) (total (fun c => one (w1 m b c)) (component_mesh_vertices m uv)).
Proof.
  intros uv b. rewrite total_one. apply (Proof_BRep.counts_filter _ _ (w1 m b)); [|reflexivity]. intros c _. unfold w1, idle, in_internal_surface. rewrite !andb_true_iff, free_iff, Nat.eqb_eq, negb_true_iff.
  split.
  - intros ((T & F & S) & N & I). exists (cmv_id c). rewrite line_link, sides_iff. conj; auto. unfold in_internal in I. apply existsb_exists in I. destruct I as (e & He & K).
    apply is_internal_iff in K. exists (cid_id e). split; [apply surface_embedding; exact He|exact K].
  - intros (l & E & F & S & s & I & K). apply line_link in E. destruct E as [T <-]. apply sides_iff in S.
    assert (J : In (mkCID SurfaceT s) (embeddings_of m SurfaceT (cmv_id c))) by (apply in_embeddings_of; split; [exact I|reflexivity]). conj; auto.
    + unfold no_surface. destruct (embeddings_of m SurfaceT (cmv_id c)); [destruct J|reflexivity].
    + unfold in_internal. apply existsb_exists. exists (mkCID SurfaceT s). split; [exact J|apply is_internal_iff; exact K].
Qed.
Lemma all_internal_iff : forall b l, all_internal m b l = true <-> forall s, bounds m l s -> inside m s b.
Proof.
  intros b l. unfold all_internal. rewrite forallb_forall. split.
  - intros K s Hs. apply in_incidences in Hs as (e & He & <-). apply is_internal_iff, K, He.
  - intros K e He. apply is_internal_iff, K, in_incidences. eauto.
Qed.
Lemma no_surface_iff : forall l, no_surface m l = true <-> forall s, ~ in_surface m l s.
Proof. intros l. unfold no_surface. rewrite Nat.eqb_eq. apply nil_embeddings. Qed.
Lemma count_w2 : forall uv b, counts (free_in_block m b) (component_mesh_vertices m uv) (total (fun c => one (w2 m b c)) (component_mesh_vertices m uv)).
Proof.
  intros uv b. rewrite total_one. apply (Proof_BRep.counts_filter _ _ (w2 m b)); [|reflexivity]. intros c _. unfold w2, idle, free_in_block.
  rewrite !andb_true_iff, free_iff, !Nat.eqb_eq, no_surface_iff, all_internal_iff. split.
  - intros ((T & F & S) & (N & I) & J). exists (cmv_id c). rewrite line_link, sides_iff. conj; auto.
  - intros (l & E & F & S & N & I & J). apply line_link in E. destruct E as [T <-]. apply sides_iff in S. conj; auto.
Qed.
Lemma count_w3 : forall uv b, counts (between_internal_surfaces m b) (component_mesh_vertices m uv) (total (fun c => one (w3 m b c)) (component_mesh_vertices m uv)).
Proof.
  intros uv b. rewrite total_one. apply (Proof_BRep.counts_filter _ _ (w3 m b)); [|reflexivity]. intros c _. unfold w3, idle, between_internal_surfaces.
  rewrite !andb_true_iff, free_iff, !Nat.eqb_eq, no_surface_iff, all_internal_iff, negb_true_iff, Nat.eqb_neq. split.
  - intros ((T & F & S) & (N & I) & J). exists (cmv_id c). rewrite line_link, sides_iff. conj; auto.
  - intros (l & E & F & S & N & I & J). apply line_link in E. destruct E as [T <-]. apply sides_iff in S. conj; auto.
Qed.
Lemma block_count : forall uv t, unique_vertex_block_cmvs_count_is_incorrect m uv = Ok (Some t) -> block_count_text m uv t.
Proof.
  intros uv t H. unfold unique_vertex_block_cmvs_count_is_incorrect in H. message_step H. message_step H. message_step H; [message_step H|]. message_step H. subst. rename x into b. assert (A : at_vertex m uv BlockT b) by (apply id_at; assumption).
  match goal with K : expected_block_cmvs_and_error _ _ _ = Ok ?y |- _ => rename K into EX; destruct y as [e o]; cbn [snd] in H end. injection H as ->.
  assert (Hb : In b (component_ids m BlockT)) by (apply (brep_links_exist m Hok uv BlockT); [exact A|discriminate]).
  assert (NA : ~ count_accepted (the_counts m uv b)).
  { destruct (expected_ok m uv b Hok Hb Hfit A) as (e' & r & E' & K). rewrite EX in E'. injection E' as <- <-. intros Q. apply K in Q. discriminate Q. }
  pose proof (fit_at m uv Hfit) as F. pose proof (cmvs_bound m uv Hfit) as CB. pose proof (predicted_ok m uv b Hfit) as P.
  unfold expected_block_cmvs_and_error in EX. cbv zeta in EX. destruct (get_block_id m b Hb) as (bl & E1 & Ib & Hbl). rewrite E1 in EX. cbn [bind] in EX. rewrite Ib in EX.
  change (0%N, 0%N) with (N.of_nat 0, N.of_nat 0) in EX. rewrite (surfaces_counted m uv b) in EX by (auto || (cbn; exact CB)). cbn [bind fst snd plus] in EX.
  change (mkLineCounters 0 0 0 0 0 0) with (mkc 0 0 0 0 0 0) in EX. rewrite (lines_counted m uv b) in EX by (auto || (cbn [plus]; assumption)). cbn [bind plus] in EX.
  change (total (fun c => sides_at m b c - 1) (component_mesh_vertices m uv)) with (total (extra_at m b) (component_mesh_vertices m uv)) in EX. fold (predicted m uv b) in EX.
  rewrite count_cmvs_ok in EX by (unfold Spec_Maps.below_2_32 in *; pose proof (filter_le _ (of_type BlockT) (component_mesh_vertices m uv)); lia).
  rewrite filter_filter in EX. change (fun x => (of_type BlockT x && Nat.eqb (cmv_id x) b)%bool) with (is_block b) in EX.
  message_step EX. message_step EX; [discriminate EX|]. message_step EX; [discriminate EX|]. message_step EX. cbn [lc_several lc_on_boundary lc_additional lc_internal_internal lc_free lc_several_internal mkc] in EX.
  match goal with K : first_block_position _ _ = Ok ?q |- _ => apply first_block_text in K; destruct K as (blk & v & y & G1 & G2 & G3 & ->) end.
  rewrite (named_eq _ _ _ _ Ib), !Nnat.Nat2N.id in EX.
  match goal with K : kind_is_active _ _ _ = Ok true |- _ => apply kind_active_true in K end.
  subst b. exists bl, y, blk, v, (the_counts m uv (co_id bl)), (total (fun c => one (w1 m (co_id bl) c)) (component_mesh_vertices m uv)), (total (fun c => one (w2 m (co_id bl) c)) (component_mesh_vertices m uv)),
    (total (fun c => one (w3 m (co_id bl) c)) (component_mesh_vertices m uv)), (N.to_nat (predicted m uv (co_id bl))).
  conj; auto using count_w1, count_w2, count_w3; [split; assumption|rewrite <- P, N_nat_Z; reflexivity|].
  unfold the_counts. cbn [bc_corners bc_internal bc_bounding bc_sides bc_blocks]. congruence.
Qed.
Lemma surface_relation : forall nb dl uv t, (forall s, In s nb <-> In s (component_ids m SurfaceT) /\ ~ in_closed_set m s) -> (forall s, In s dl <-> dangling tl m s) ->
  surface_with_wrong_relationships_to_block m nb dl uv = Ok (Some t) -> surface_relation_text tl m uv t.
Proof.
  intros nb dl uv t Hnb Hdl H. apply (relationships_message m uv Hok tl nb dl Hnb Hdl) in H. destruct H as (s & n & A & N & K). exists s, n. conj; auto. apply kind_named_some; exact N.
Qed.
Lemma single_surface : forall nb uv t, (forall s, In s nb <-> In s (component_ids m SurfaceT) /\ ~ in_closed_set m s) -> (forall s, In s (component_ids m SurfaceT) -> In s nb \/ in_closed_set m s) ->
  brep_invalid_single_surface m nb uv = Ok (Some t) -> single_surface_text m uv t.
Proof.
  intros nb uv t Hnb Hdec H. unfold brep_invalid_single_surface in H. cbv zeta in H. destruct (components_uuids m uv SurfaceT) as [|s [|? ?]] eqn:M; try discriminate H.
  assert (AS : all_at m uv SurfaceT [s]) by (rewrite <- M; apply components_uuids_all). pose proof (components_uuids_all m uv BlockT) as AB.
  assert (Hs : In s (component_ids m SurfaceT)) by (apply (brep_links_exist m Hok uv SurfaceT); [apply AS; left; reflexivity|discriminate]).
  message_step H. message_step H; [message_step H|]. subst x. message_step H; [message_step H|]. facts.
  assert (C : in_closed_set m s). { destruct (Hdec s Hs) as [K|K]; [apply memb_In in K; congruence|exact K]. }
  exists s, (components_uuids m uv BlockT). conj; auto. message_step H; [|message_step H].
  - message_step H. facts. left. auto.
  - message_step H; [|message_step H]. destruct (components_uuids m uv BlockT) as [|b [|b' bs]] eqn:MB.
    + message_step H. facts. right. right. left. conj; auto; discriminate.
    + message_step H; [|message_step H]. message_step H. facts. right. left. conj; auto. exists b. auto.
    + message_step H. facts. right. right. left. conj; auto; discriminate.
  - repeat message_step H. facts. right. right. right. split; [lia|]. match goal with L : labelled _ SurfaceT s ?n, L' : labelled _ BlockT ?b ?n' |- _ => exists b, n, n' end. conj; auto.
Qed.
Lemma free_boundary : forall b t, In b (m_blocks m) -> co_active b = true -> inspect_block_boundaries m b = Ok (Some t) -> free_boundary_text m (co_id b) t.
Proof.
  intros b t Hb Ab H. unfold inspect_block_boundaries, each_surface in H. message_step H. message_step H. message_step H; [message_step H|]. message_step H.
  destruct (get_surface_some _ _ _ E) as [G1 G2]. assert (x1 = true). { destruct x1; [reflexivity|]. congruence. } subst x1.
  assert (Se : In (co_id x0) (component_ids m SurfaceT)) by (apply in_map; exact G1).
  destruct (free_line_ok m Hok (co_id x0) (co_id b) Se) as (y & Ey & Ky). rewrite Ey in E0. injection E0 as ->. destruct (proj1 Ky eq_refl) as (l & L1 & L2).
  rewrite !named_label in H. message_step H. exists b, (co_id x0), (label m x0). conj; auto.
  - apply in_active_ids; assumption.
  - rewrite G2. apply bounding_bounds. assumption.
  - exists x0. auto.
  - exists l. auto.
Qed.
Lemma closedness_text : forall r, foldM (inspect_block_closedness tl m) (active (m_blocks m)) (new_issues wrong_boundary_d, new_issues not_closed_d) = Ok r ->
  explained wrong_boundary_d (free_boundary_text m) (fst r) /\ explained not_closed_d (not_closed_text m) (snd r).
Proof.
  intros r H. apply (foldM_inv _ _ (fun r => explained wrong_boundary_d (free_boundary_text m) (fst r) /\ explained not_closed_d (not_closed_text m) (snd r))) in H; [exact H| |split; apply explained_new].
  intros a b a' Hb [A1 A2] E. apply in_active in Hb. destruct Hb as [Hb Ab]. unfold inspect_block_closedness in E. apply bind_Ok in E. destruct E as (cl & _ & E). cbv zeta in E.
  apply bind_Ok in E. destruct E as (w & EW & E). injection E as <-. cbn [fst snd]. split.
  - destruct w as [t|]; [|exact A1]. apply explained_add; [exact A1|]. apply free_boundary; assumption.
  - destruct cl; [exact A2|]. apply explained_add; [exact A2|]. exists b. rewrite named_label. conj; auto.
Qed.
Lemma blocks_meshes_text : explained blocks_not_meshed_d (not_meshed_text m (m_blocks m) "Block " " is not meshed.") (inspect_blocks_meshes m).
Proof.
  unfold inspect_blocks_meshes. destruct (filter (fun b => negb (block_is_meshed (co_mesh b))) (active (m_blocks m))) as [|u un] eqn:F; [apply explained_new|].
  destruct (filter (fun b => block_is_meshed (co_mesh b)) (active (m_blocks m))) as [|v me]; [apply explained_new|]. rewrite <- F. apply fold_inv; [|apply explained_new].
  intros r b Hb Hr. apply filter_In in Hb. destruct Hb as [Hb _]. apply in_active in Hb. destruct Hb as [Hb Ab]. apply explained_add; [exact Hr|]. exists b. rewrite named_label. conj; auto.
Qed.
Lemma blocks_links_text : forall r, foldM (inspect_block_links m) (filter (fun b => block_is_meshed (co_mesh b)) (active (m_blocks m))) (new_issues_map blocks_not_linked_d) = Ok r ->
  explained_map blocks_not_linked_d (not_linked m BlockT (m_blocks m) "Block ") r.
Proof.
  intros r H. apply (foldM_inv _ _ (explained_map blocks_not_linked_d (not_linked m BlockT (m_blocks m) "Block "))) in H; [exact H| |apply explained_map_new].
  intros a b a' Hb Ha E. apply filter_In in Hb. destruct Hb as [Hb _]. apply in_active in Hb. destruct Hb as [Hb Ab]. unfold inspect_block_links in E.
  rewrite (get_block_In m b Hu Hb) in E. cbn [bind] in E. cbv zeta in E. destruct (N.eqb _ 0); injection E as <-; [exact Ha|]. apply explained_map_add; [exact Ha|].
  exists b. conj; auto. rewrite append_nil_cat, named_label. apply (explained_set _ default_description). apply not_associated_explained.
Qed.
Lemma brep_blocks_text : forall r, brep_inspect_blocks tl m = Ok r -> brep_blocks_explained tl m r.
Proof.
  intros r H. unfold brep_inspect_blocks in H. destruct (active (m_blocks m)) as [|b0 bs0] eqn:AB.
  { injection H as <-. unfold brep_blocks_explained; conj; first [apply explained_new|apply explained_map_new]. }
  rewrite <- AB in H. destruct (find_not_boundary_ok m Hok) as (nb & E1 & _ & Hnb & Hdec). rewrite E1 in H. cbn [bind] in H.
  destruct (find_dangling_ok m 0 Hok tl Hin nb Hnb) as (dl & E2 & Hdl). rewrite E2 in H. cbn [bind] in H.
  apply bind_Ok in H. destruct H as (nl & ENL & H). apply bind_Ok in H. destruct H as (cl & _ & H). cbv zeta in H. apply bind_Ok in H. destruct H as (rs & HR & H).
  apply bind_Ok in H. destruct H as (fc & EFC & H). apply blocks_links_text in ENL. apply closedness_text in EFC. destruct EFC as [C1 C2].
  apply (report_vertices_explained _ _ _ [two_blocks_text m; block_count_text m; single_surface_text m; surface_relation_text tl m; (fun _ _ => False)]) in HR; [|reflexivity|].
  - cbn [brep_blocks_ds combine] in HR. inv_forall2 HR. injection H as <-. unfold brep_blocks_explained.
    cbn [bb_not_meshed bb_not_linked bb_wrong_boundary bb_not_closed bb_model_boundaries bb_two_blocks bb_wrong_count bb_single_invalid bb_wrong_relationship bb_multiple_invalid].
    conj; try assumption; [apply blocks_meshes_text|]. destruct cl; [apply explained_new|]. apply explained_add; [apply explained_new|]. auto.
  - repeat (apply Forall2_cons; [intros uv t _ K|]); try apply Forall2_nil; [apply two_blocks|apply block_count|apply (single_surface nb)|apply (surface_relation nb dl)|]; try assumption.
    rewrite multiple_surfaces_silent in K. discriminate K.
Qed.
End Blocks.
