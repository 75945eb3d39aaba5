(** Two models side by side (C93): links, and the whole topology of sections. *)
From Coq Require Import String Ascii List Arith NArith ZArith Bool Lia.
From Verif Require Import Base BaseFacts Model_Issues Types Model_Adjacency Model_Colocation Model_Topology
  Spec_Colocation Spec_Topology Spec_Reproducible Spec_Beside Proof_Messages Proof_Topology Proof_Topology4 Proof_Local Proof_Local2 Proof_Relabel2 Proof_Beside Proof_Beside2 Proof_Beside3.
Import ListNotations.
Open Scope list_scope.

Section Links.
Context (k : nat) (m M : Model) (P : piece k m M).
Lemma k_exists : forall c, In (cmv_id c) (all_ids m) -> cmv_exists_in_section M c = cmv_exists_in_section m c.
Proof.
  intros c I. unfold cmv_exists_in_section, in_mesh. rewrite (p_corner _ _ _ P), (p_line _ _ _ P), (p_surface _ _ _ P) by exact I. reflexivity.
Qed.
Lemma k_elsewhere : forall uv c, In (cmv_id c) (all_ids m) -> linked_elsewhere M (k + uv) c = linked_elsewhere m uv c.
Proof.
  intros uv c I. unfold linked_elsewhere. rewrite (k_component_active k m M P) by exact I. destruct (component_is_active m (cmv_id c)); [|reflexivity|reflexivity]. cbn [bind].
  rewrite (p_unique _ _ _ P c I). destruct (m_unique_vertex m c) as [v|]; [|reflexivity]. cbn [option_map opt_eqb].
  destruct (Nat.eqb_spec v uv) as [->|N]; [rewrite Nat.eqb_refl; reflexivity|]. replace (k + v =? k + uv) with false; [reflexivity|]. symmetry. apply Nat.eqb_neq. lia.
Qed.
Let ex := cmv_exists_in_section.
Lemma moved_filter : forall uv (p p' : ComponentMeshVertex -> bool) cs, (forall c, In c cs -> p' c = p c) -> map (fun _ => k + uv) (filter p' cs) = map (fun v => k + v) (map (fun _ => uv) (filter p cs)).
Proof.
  intros uv p p' cs Q. rewrite map_map. induction cs as [|c cs IH]; [reflexivity|]. cbn [filter]. rewrite (Q c (or_introl eq_refl)). specialize (IH (fun d I => Q d (or_intror I))).
  destruct (p c); cbn [map]; rewrite IH; reflexivity.
Qed.
Lemma k_unlinked : forall uv, uv < nb_unique_vertices m -> unlinked_of M (k + uv) = map (fun v => k + v) (unlinked_of m uv).
Proof. intros uv B. unfold unlinked_of. rewrite (p_links _ _ _ P uv B). destruct (component_mesh_vertices m uv); reflexivity. Qed.
Lemma k_inexistant : forall uv, uv < nb_unique_vertices m ->
  inexistant_of M ex (k + uv) (component_mesh_vertices M (k + uv)) = map (fun v => k + v) (inexistant_of m ex uv (component_mesh_vertices m uv)).
Proof. intros uv B. unfold inexistant_of. rewrite (p_links _ _ _ P uv B). apply moved_filter. intros c I. unfold ex. rewrite k_exists by (apply (p_cmvs _ _ _ P uv), I). reflexivity. Qed.
Lemma k_elsewhere_of : forall uv, uv < nb_unique_vertices m ->
  elsewhere_of M ex (k + uv) (component_mesh_vertices M (k + uv)) = map (fun v => k + v) (elsewhere_of m ex uv (component_mesh_vertices m uv)).
Proof.
  intros uv B. unfold elsewhere_of. rewrite (p_links _ _ _ P uv B). apply moved_filter. intros c I. unfold ex. rewrite k_exists by (apply (p_cmvs _ _ _ P uv), I).
  rewrite k_elsewhere by (apply (p_cmvs _ _ _ P uv), I). reflexivity.
Qed.
Lemma k_link_total : (forall w c, In w (Range (nb_unique_vertices m)) -> In c (component_mesh_vertices m w) -> ex m c = true -> exists b, linked_elsewhere m w c = Ok b) ->
  forall uv c, uv < nb_unique_vertices m -> In c (component_mesh_vertices M (k + uv)) -> ex M c = true -> exists b, linked_elsewhere M (k + uv) c = Ok b.
Proof.
  intros T uv c B I X. rewrite (p_links _ _ _ P uv B) in I. pose proof (p_cmvs _ _ _ P uv c I) as O. unfold ex in X. rewrite k_exists in X by exact O. rewrite k_elsewhere by exact O.
  apply T; [apply in_Range, B|exact I|exact X].
Qed.
End Links.

Section Topology.
Context (m1 m2 M : Model) (S : side_by_side m1 m2 M) (A : meshed_alike m1 m2).
Let k := nb_unique_vertices m1.
Let P1 := piece1 m1 m2 M S A.
Let P2 := piece2 m1 m2 M S A.
Let ex := cmv_exists_in_section.
Lemma flat_both : forall (g g1 g2 : nat -> list nat), (forall uv, uv < nb_unique_vertices m1 -> g uv = g1 uv) -> (forall uv, uv < nb_unique_vertices m2 -> g (k + uv) = map (fun v => k + v) (g2 uv)) ->
  flat_map g (Range (nb_unique_vertices M)) = flat_map g1 (Range (nb_unique_vertices m1)) ++ map (fun v => k + v) (flat_map g2 (Range (nb_unique_vertices m2))).
Proof.
  intros g g1 g2 E1 E2. rewrite (nb_both m1 m2 M S), range_both, flat_map_app, flat_map_map, map_flat_map. f_equal; apply flat_map_same; intros uv J; apply in_Range in J; [apply E1, J|apply E2, J].
Qed.
Lemma unmoved : forall (l : list nat), map (fun v => 0 + v) l = l. Proof. intros l. apply map_id. Qed.
Lemma links_both : forall r1 r2, add_unique_vertices_with_wrong_cmv_link m1 ex no_links = Ok r1 -> add_unique_vertices_with_wrong_cmv_link m2 ex no_links = Ok r2 ->
  exists r, add_unique_vertices_with_wrong_cmv_link M ex no_links = Ok r /\ links_of_both k r1 r2 r.
Proof.
  intros r1 r2 E1 E2. change (foldM (link_step m1 ex) (Range (nb_unique_vertices m1)) no_links = Ok r1) in E1. change (foldM (link_step m2 ex) (Range (nb_unique_vertices m2)) no_links = Ok r2) in E2.
  apply links_issues in E1 as (T1 & G1 & G1' & G1''). apply links_issues in E2 as (T2 & G2 & G2' & G2'').
  destruct (links_total M ex (Range (nb_unique_vertices M)) no_links) as [r E].
  { intros w c Iw Ic X. apply in_Range in Iw. rewrite (nb_both m1 m2 M S) in Iw. fold k in Iw. destruct (Nat.lt_ge_cases w k) as [B|B].
    - apply (k_link_total 0 m1 M P1 T1 w c B Ic X).
    - replace w with (k + (w - k)) in * by lia. apply (k_link_total k m2 M P2 T2 (w - k) c); [lia|exact Ic|exact X]. }
  exists r. split; [exact E|]. apply links_issues in E as (_ & G & G' & G''). cbn [no_links li_not_linked li_inexistant li_nonbijective new_issues ii_issues app] in *.
  constructor; unfold vertices_of_both; rewrite ?G, ?G1, ?G2, ?G', ?G1', ?G2', ?G'', ?G1'', ?G2''; apply flat_both; intros uv B.
  - rewrite (k_unlinked 0 m1 M P1 uv B : unlinked_of M uv = _). apply unmoved.
  - apply (k_unlinked k m2 M P2 uv B).
  - rewrite (k_inexistant 0 m1 M P1 uv B : inexistant_of M ex uv (component_mesh_vertices M uv) = _). apply unmoved.
  - apply (k_inexistant k m2 M P2 uv B).
  - rewrite (k_elsewhere_of 0 m1 M P1 uv B : elsewhere_of M ex uv (component_mesh_vertices M uv) = _). apply unmoved.
  - apply (k_elsewhere_of k m2 M P2 uv B).
Qed.
Lemma topology_both : forall c1 l1 s1 k1 c2 l2 s2 k2,
  section_inspect_corners_topology m1 = Ok c1 -> section_inspect_lines_topology m1 = Ok l1 -> section_inspect_surfaces m1 = Ok s1 -> add_unique_vertices_with_wrong_cmv_link m1 ex no_links = Ok k1 ->
  section_inspect_corners_topology m2 = Ok c2 -> section_inspect_lines_topology m2 = Ok l2 -> section_inspect_surfaces m2 = Ok s2 -> add_unique_vertices_with_wrong_cmv_link m2 ex no_links = Ok k2 ->
  exists r1 r2 r, inspect_section_topology m1 = Ok r1 /\ inspect_section_topology m2 = Ok r2 /\ inspect_section_topology M = Ok r /\ topology_of_both k r1 r2 r.
Proof.
  intros c1 l1 s1 k1 c2 l2 s2 k2 C1 L1 S1 K1 C2 L2 S2 K2. destruct (corners_both m1 m2 M S A c1 c2 C1 C2) as (c & C & Rc). destruct (lines_both m1 m2 M S A l1 l2 L1 L2) as (l & L & Rl).
  destruct (surfaces_both m1 m2 M S A s1 s2 S1 S2) as (s & Q & Rs). destruct (links_both k1 k2 K1 K2) as (i & K & Rk). unfold ex in *.
  exists (mkSectionTopology c1 l1 s1 k1), (mkSectionTopology c2 l2 s2 k2), (mkSectionTopology c l s i). unfold inspect_section_topology. cbv zeta. rewrite C1, L1, S1, C2, L2, S2, C, L, Q. cbn. rewrite K1, K2, K. cbn.
  split; [reflexivity|]. split; [reflexivity|]. split; [reflexivity|]. constructor; cbn; assumption.
Qed.
End Topology.
