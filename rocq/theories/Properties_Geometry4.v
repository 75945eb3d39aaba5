(** C81: what a valid BRep is in space. *)
From Coq Require Import String Ascii List Arith NArith ZArith Bool QArith Lqa Lia Permutation SpecFloat.
From Verif Require Import Base BaseFacts Model_Issues Types Model_Cycles Model_Hash Model_Colocation Model_Adjacency Model_Manifold Model_Degeneration Model_Negative Model_Intersections
  Model_Topology Model_BRep Model_Blocks Model_Results Model_Validity Spec_Colocation Spec_Maps Spec_Cycles Spec_Adjacency Spec_Manifold Spec_Degeneration Spec_Negative Spec_Intersections
  Spec_Topology Spec_BRep Spec_Blocks Spec_Results Spec_Valid Spec_ValidModels
  Proof_Adjacency Proof_Topology Proof_Topology2 Proof_BRep Proof_TopologyCheck Proof_BRepCheck Proof_Valid Proof_Valid2 Proof_Searches Proof_GoodModels
  Proof_Intersections4 Proof_Intersections5 Proof_ValidModels4 Properties_Intersections Properties_Topology Properties_BRep Properties_Blocks Properties_Valid Properties_ValidModels
  Spec_Geometry Proof_Geometry Proof_Geometry3 Proof_Geometry5 Proof_Exact2 Properties_Geometry Spec_Geometry3 Proof_Locate Proof_Locate2 Proof_Exact4 Proof_Exact5 Spec_Geometry4 Proof_Geometry7.
Import ListNotations.
Open Scope nat_scope.
Open Scope list_scope.

(** one predicate keeps the promises about triangles (C77) and those about contacts (C79, C80) *)
Theorem C81_one_predicate : exists px, indices_in_range px /\ exact_predicates px /\
  locates_on_triangles px Overlapping /\ locates_on_segments px Overlapping /\ locates_points px.
Proof.
  exists (mkPredicates locate_point (locate_on_segment Overlapping) (locate_on_triangle Overlapping) vertex_index (fun _ _ _ => false)).
  split; [apply locating_indices|]. split; [apply spot_exact|]. split; [apply locating_triangles|]. split; [apply locating_segments|apply locating_points].
Qed.
Print Assumptions C81_one_predicate.
(** the issues of a BRep, all of them in geometric words *)
Theorem C81_report : forall px r0 m trees lines r, intersections_ready px m trees -> line_trees_of m trees lines ->
  (forall l, In l (m_lines m) -> edges_exist (co_mesh l)) -> big_polygons m -> no_empty_surface m -> no_empty_line m ->
  exact_predicates px -> locates_on_triangles px r0 -> brep_in_space m trees lines ->
  brep_inspect_intersections px m trees lines r ->
  exists l, r = Ok l /\ forall x, In x (ii_issues l) <->
    (exists s1 s2 c, proposed m trees s1 s2 c /\ different_polygons s1 s2 c /\
       polygons_meet s1 s2 (reported_triangles m s1 s2) (fst c) (snd c) /\ x = (surface_element s1 (fst c), surface_element s2 (snd c))) \/
    (exists s l c, proposed_line m trees lines s l c /\ embedded_in_block m (co_id l) /\
       pierces r0 (co_mesh s) (co_mesh l) c /\ x = (surface_element s (fst c), line_element l (snd c))).
Proof.
  intros px r0 m trees lines r R LT EE BP NE NL EX L SP H.
  destruct (lines_report px r0 m trees lines r R LT EE BP NE NL L (is_solid _ _ _ SP) (is_lines _ _ _ SP) H) as (l & a & b & E & Ea & Sa & Sb).
  exists l. split; [exact E|]. intros x. rewrite Ea, in_app_iff, (all_members px m trees R a Sa x), (Sb x). apply or_iff_compat_r. split.
  - intros (s1 & s2 & c & P & M & X). apply (surfaces_meet_iff px m trees s1 s2 c R EX (is_dimension _ _ _ SP) (is_joined _ _ _ SP) (is_solid _ _ _ SP) P) in M. exists s1, s2, c. tauto.
  - intros (s1 & s2 & c & P & M1 & M2 & X). exists s1, s2, c. split; [exact P|]. split; [|exact X].
    apply (surfaces_meet_iff px m trees s1 s2 c R EX (is_dimension _ _ _ SP) (is_joined _ _ _ SP) (is_solid _ _ _ SP) P). tauto.
Qed.
Print Assumptions C81_report.
(** valid: all the conditions that are not about intersections, the triangles of surfaces meet only in what they share (or are inside
    one another with a common side), and the embedded lines cross no surface *)
Theorem C81_valid_is_embedded : forall o px r0 trees lines m stored_edges stored_facets, brep_ready o px trees lines m ->
  exact_predicates px -> locates_on_triangles px r0 -> brep_in_space m trees lines ->
  forall ints, brep_inspect_intersections px m trees lines ints ->
  exists r v parts, inspect_brep o m (new_model_inspector stored_edges stored_facets) ints = Ok r /\
    is_brep_valid o m (new_model_inspector stored_edges stored_facets) ints = Ok v /\
    (forall b, In b (active_ids m BlockT) -> connected_parts m (block_surfaces m b) (parts b)) /\
    (countable (brep_categories (or_hash o) r) -> is_valid v = true ->
       sound_brep_besides (or_measures o) (or_geometry o) (or_topo o) m parts /\ surfaces_embedded_or_nested m /\ lines_embedded r0 m) /\
    (sound_brep_besides (or_measures o) (or_geometry o) (or_topo o) m parts -> surfaces_embedded m -> lines_embedded r0 m -> is_valid v = true).
Proof.
  intros o px r0 trees lines m s0 b0 R EX L SP ints H. destruct (C60_brep o px trees lines m s0 b0 R ints H) as (r & v & parts & E & V & P & K1 & K2).
  exists r, v, parts. split; [exact E|]. split; [exact V|]. split; [exact P|].
  pose proof (bd_intersections _ _ _ _ _ R) as IR. pose proof (bd_line_trees _ _ _ _ _ R) as LT. split.
  - intros C G. pose proof (K2 C G) as S. apply besides_iff in S as (B & A1 & A2). split; [exact B|].
    destruct (sound_not_empty _ _ _ (be_topology _ _ _ _ _ B)) as (NE & _). split.
    + exact (apart_silent px m trees lines IR NE EX SP A1).
    + exact (proj1 (lines_apart_iff px r0 m trees lines L LT SP) A2).
  - intros B E1 E2. apply K1. apply besides_iff. split; [exact B|]. split.
    + exact (embedded_apart px m trees lines IR EX SP E1).
    + exact (proj2 (lines_apart_iff px r0 m trees lines L LT SP) E2).
Qed.
Print Assumptions C81_valid_is_embedded.

(** ** Example: a tetrahedron in space *)
Definition zero : double := S754_zero false.
Definition one : double := S754_finite false 1 0.
Definition spot (n : nat) : Point := match n with 0 => [zero; zero; zero] | 1 => [one; zero; zero] | 2 => [zero; one; zero] | _ => [zero; zero; one] end.
Fixpoint same_place (p q : Point) : bool := match p, q with [], [] => true | a :: p', b :: q' => double_same a b && same_place p' q' | _, _ => false end.
Fixpoint place_index (p : Point) (l : list Point) (i : nat) : option nat :=
  match l with [] => None | q :: l' => if same_place q p then Some i else place_index p l' (S i) end.
Definition space_colocated (pts : list Point) : ColocatedInfo :=
  let r := fold_left (fun acc p => let '(map, u) := acc in
    match place_index p u 0 with Some i => (map ++ [i], u) | None => (map ++ [length u], u ++ [p]) end) pts ([], []) in
  mkColocated (fst r) (snd r).
Definition space_geo : Geometry := mkGeometry space_colocated same_place (fun _ => "p"%string).
Lemma place_index_bound : forall p l i j, place_index p l i = Some j -> i <= j < i + length l.
Proof.
  induction l as [|q l IH]; intros i j E; cbn in E; [discriminate|]. destruct (same_place q p); [injection E as <-; cbn; lia|]. apply IH in E. cbn. lia.
Qed.
Lemma space_consistent : forall points, consistent points (g_colocated space_geo points).
Proof.
  intros points. cbn [g_colocated space_geo]. unfold space_colocated.
  set (step := fun acc p => let '(map, u) := acc in match place_index p u 0 with Some i => (map ++ [i], u) | None => (map ++ [length u], u ++ [p]) end).
  assert (G : forall l (mp : list nat) (u : list Point) done, length mp = length done -> (forall x, In x mp -> x < length u) -> (forall x, x < length u -> In x mp) ->
    let r := fold_left step l (mp, u) in length (fst r) = length (done ++ l) /\ (forall x, In x (fst r) -> x < length (snd r)) /\ (forall x, x < length (snd r) -> In x (fst r))).
  { induction l as [|p l IH]; intros mp u done L B C; cbn [fold_left].
    - rewrite app_nil_r. cbn [fst snd]. auto.
    - cbn [step]. destruct (place_index p u 0) as [i|] eqn:E.
      + replace (done ++ p :: l) with ((done ++ [p]) ++ l) by (rewrite <- app_assoc; reflexivity). apply place_index_bound in E. apply IH.
        * rewrite !app_length, L. reflexivity.
        * intros x I. apply in_app_iff in I as [I|[<-|[]]]; [apply B, I|lia].
        * intros x X. apply in_app_iff. left. apply C, X.
      + replace (done ++ p :: l) with ((done ++ [p]) ++ l) by (rewrite <- app_assoc; reflexivity). apply IH.
        * rewrite !app_length, L. reflexivity.
        * intros x I. rewrite app_length. cbn. apply in_app_iff in I as [I|[<-|[]]]; [apply B in I; lia|lia].
        * intros x X. rewrite app_length in X. cbn in X. apply in_app_iff. destruct (Nat.eq_dec x (length u)) as [->|N]; [right; left; reflexivity|left; apply C; lia]. }
  destruct (G points [] [] [] eq_refl ltac:(intros x []) ltac:(intros x X; cbn in X; lia)) as (G1 & G2 & G3). cbv zeta. unfold consistent.
  split; [exact G1|]. split; [exact G2|exact G3].
Qed.
Definition real_corner id v := mkComponent id None true (mkPointSet [spot v]).
Definition real_line id v w := mkComponent id None true (mkCurve [spot v; spot w] [(0, 1)] (fun _ => far) (fun _ => false)).
Definition real_surface id u v w := mkComponent id None true
  (mkSurface 3 [spot u; spot v; spot w] [[0; 1; 2]] (fun _ => None) [(0, 1); (1, 2); (0, 2)] (fun _ => false) (fun _ => far) (fun v => Ok [(0, v)]) (fun _ => true)).
Definition real_block id := mkComponent id None true
  (mkSolid [spot 0; spot 1; spot 2; spot 3] [mkPolyhedron [0; 1; 2; 3] [[1; 2; 3]; [0; 3; 2]; [0; 1; 3]; [0; 2; 1]] [(0, 1); (0, 2); (0, 3); (1, 2); (1, 3); (2, 3)]]
     (fun _ => None) [(0, 1); (0, 2); (0, 3); (1, 2); (1, 3); (2, 3)] (fun _ => false) (fun _ => far) (fun _ => far) (fun v => Ok [(0, v)]) (fun _ _ => Ok [0])).
Definition real_tet := a_brep [real_corner 0 0; real_corner 1 1; real_corner 2 2; real_corner 3 3]
  [real_line 10 0 1; real_line 11 0 2; real_line 12 0 3; real_line 13 1 2; real_line 14 1 3; real_line 15 2 3]
  [real_surface 100 1 2 3; real_surface 101 0 2 3; real_surface 102 0 1 3; real_surface 103 0 1 2]
  [real_block 1000] [(5000, [100; 101; 102; 103])] tet_cmvs tet_bnd [].
Definition real_oracles := mkOracles exact_measures space_geo any_order (search_lookup real_tet) tet_tl.
Definition real_px : Predicates := mkPredicates locate_point (locate_on_segment Overlapping) (locate_on_triangle Overlapping) vertex_index (fun _ _ _ => false).
Lemma real_indices : indices_in_range real_px.
Proof. apply locating_indices. Qed.
Lemma real_surfaces_are : forall s, In s (m_surfaces real_tet) -> exists id u v w, s = real_surface id u v w.
Proof. intros s H. cbn in H. repeat (destruct H as [<-|H]; [do 4 eexists; reflexivity|]). destruct H. Qed.
Lemma real_lines_are : forall l, In l (m_lines real_tet) -> exists id u v, l = real_line id u v.
Proof. intros s H. cbn in H. repeat (destruct H as [<-|H]; [do 3 eexists; reflexivity|]). destruct H. Qed.
Lemma real_surface_ready : forall id u v w, surface_ready (co_mesh (real_surface id u v w)).
Proof.
  intros id u v w. constructor.
  - intros e q _ Hq. discriminate Hq.
  - intros a b H. cbn in H. repeat (destruct H as [H|H]; [injection H as <- <-; cbn; lia|]). destruct H.
  - intros a b n H. apply few_uses in H. cbn in H. lia.
  - intros c H. apply in_all_polygon_edges in H. cbn in H. each H.
  - intros x _. right. eexists. reflexivity.
  - intros vs x H Hv. cbn in H. destruct H as [<-|[]]. cbn in Hv. cbn. lia.
  - vm_compute. reflexivity.
Qed.
Lemma real_intersections_ready : intersections_ready real_px real_tet brep_trees.
Proof.
  constructor.
  - apply nodupb_ok. vm_compute. reflexivity.
  - constructor.
    + apply nodupb_ok. reflexivity.
    + intros id H. cbn in H. repeat (destruct H as [<-|H]; [first [exists (real_surface 100 1 2 3); split; [cbn; tauto|reflexivity]|exists (real_surface 101 0 2 3); split; [cbn; tauto|reflexivity]|exists (real_surface 102 0 1 3); split; [cbn; tauto|reflexivity]|exists (real_surface 103 0 1 2); split; [cbn; tauto|reflexivity]]|]). destruct H.
    + intros s H _. cbn in H. repeat (destruct H as [<-|H]; [cbn; auto 8|]). destruct H.
    + intros i j H. cbn in H. repeat (destruct H as [[= <- <-]|H]; [cbn; lia|]). destruct H.
    + intros s i H E p q K. destruct (real_surfaces_are s H) as (id & u & v & w & ->). destruct K as [[= <- <-]|[]]. cbn. lia.
    + intros s1 s2 i j H1 H2 _ _ p q K. destruct (real_surfaces_are s1 H1) as (id & u & v & w & ->), (real_surfaces_are s2 H2) as (id' & u' & v' & w' & ->).
      destruct K as [[= <- <-]|[]]. cbn. lia.
  - intros s H. destruct (real_surfaces_are s H) as (id & u & v & w & ->). apply readyb_ok. vm_compute. reflexivity.
  - exact real_indices.
  - intros s H E. destruct (real_surfaces_are s H) as (id & u & v & w & ->). discriminate E.
Qed.
Lemma real_queries : block_ready (co_mesh (real_block 1000)).
Proof.
  constructor.
  - split.
    + intros f q _ H. discriminate H.
    + intros f H. apply in_all_polyhedron_facets in H. cbn in H. repeat (destruct H as [<-|H]; [cbn; split; [discriminate|repeat constructor; cbn; lia]|]). destruct H.
  - intros a b H. cbn in H. repeat (destruct H as [H|H]; [injection H as <- <-; cbn; lia|]). destruct H.
  - intros [p i] v [H K]. cbn in H, K. assert (p = 0) by lia. subst p. do 4 (destruct i as [|i]; [injection K as <-; cbn; lia|]). cbn in K. destruct i; discriminate K.
  - intros v _. eexists. reflexivity.
  - intros e ab _. right. exists [0]. split; [reflexivity|]. repeat constructor. intros [].
  - intros ph v [<-|[]] Hv. cbn in Hv. cbn. lia.
  - vm_compute. reflexivity.
Qed.
Lemma real_is_ready : brep_ready real_oracles real_px brep_trees brep_line_trees real_tet.
Proof.
  assert (B : blocks_ok tet_tl real_tet) by (apply blocksb_ok; [apply tables_safe|apply tables_safe|vm_compute; reflexivity]).
  constructor.
  - exact B.
  - apply tableb_ok. vm_compute. reflexivity.
  - apply simple_inspectable; [apply brepb_ok|..]; vm_compute; reflexivity.
  - exact space_consistent.
  - apply search_right.
  - intros c H. destruct (real_lines_are c H) as (id & u & v & ->). split; [vm_compute; reflexivity|].
    intros e He. cbn in He. assert (e = 0) by lia. subst e. exists (spot u, spot v), 0, 1. repeat split; reflexivity.
  - intros s H. destruct (real_surfaces_are s H) as (id & u & v & w & ->). apply real_surface_ready.
  - intros b [<-|[]]. apply real_queries.
  - intros l v w H _ E. cbn in H. repeat (destruct H as [<-|H]; [injection E as <- <-; split; (eexists; split; [vm_compute; reflexivity|cbn; lia])|]). destruct H.
  - intros s vs x H _ E K. cbn in H.
    repeat (destruct H as [<-|H]; [injection E as <-; repeat (destruct K as [<-|K]; [eexists; split; [vm_compute; reflexivity|cbn; lia]|]); destruct K|]). destruct H.
  - exact real_intersections_ready.
  - constructor.
    + apply nodupb_ok. reflexivity.
    + intros l H _. cbn in H. repeat (destruct H as [<-|H]; [cbn; auto 10|]). destruct H.
    + intros s l i j Hs Hl _ _ p q K. destruct (real_surfaces_are s Hs) as (id & u & v & w & ->), (real_lines_are l Hl) as (id' & u' & v' & ->).
      destruct K as [[= <- <-]|[]]. cbn. lia.
  - intros s p H L. destruct (real_surfaces_are s H) as (id & u & v & w & ->). cbn in L. assert (p = 0) by lia. subst p. cbn. lia.
Qed.

Lemma real_fan : forall id u v w p t, p < nb_polygons (co_mesh (real_surface id u v w)) -> fan_triangle (polygon_vertices (co_mesh (real_surface id u v w)) p) t -> p = 0 /\ t = [0; 1; 2].
Proof.
  intros id u v w p t Hp (i & L & U & H). cbn in Hp. assert (p = 0) as -> by lia. cbn in U. assert (i = 1) as -> by lia.
  destruct H as (x & y & z & -> & A & B & C). cbn in A, B, C. injection A as <-. injection B as <-. injection C as <-. split; reflexivity.
Qed.
Lemma real_triangle_of : forall id u v w T, triangle_of (co_mesh (real_surface id u v w)) [0; 1; 2] T -> T = (spot u, spot v, spot w).
Proof.
  intros id u v w T (x & y & z & E & A & B & C). injection E as <- <- <-. destruct T as [[p q] r]. cbn in A, B, C. injection A as <-. injection B as <-. injection C as <-. reflexivity.
Qed.
(** which vertex of the tetrahedron a vertex of a surface is *)
Definition spot_of (id v : nat) : nat := match id, v with
  | 100, _ => S v | 101, 0 => 0 | 101, _ => S v | 102, 2 => 3 | 102, _ => v | _, _ => v end.
Lemma real_in_space : brep_in_space real_tet brep_trees brep_line_trees.
Proof.
  constructor.
  - intros s H. destruct (real_surfaces_are s H) as (id & u & v & w & ->). reflexivity.
  - intros s1 s2 v w p q H1 H2 E Hp Hq.
    assert (K : forall s x a, In s (m_surfaces real_tet) -> point_of (co_mesh s) x a -> a = spot (spot_of (co_id s) x) /\ uv_of real_tet s x = Some (spot_of (co_id s) x)).
    { intros s x a H X. cbn in H. repeat (destruct H as [<-|H]; [cbn in X; do 3 (destruct x as [|x]; [injection X as <-; split; vm_compute; reflexivity|]); destruct x; discriminate X|]). destruct H. }
    destruct (K s1 v p H1 Hp) as (-> & U1), (K s2 w q H2 Hq) as (-> & U2). rewrite U1, U2 in E. injection E as ->. destruct (place_of _) as [[? ?] ?]. repeat split; reflexivity.
  - intros s H p t T Hp Ht HT. cbn in H.
    repeat (destruct H as [<-|H]; [destruct (real_fan _ _ _ _ _ _ Hp Ht) as (-> & ->); apply real_triangle_of in HT; subst T; split; [finite_tri|real]|]). destruct H.
  - intros l H e s (a & b & E & A & B). cbn in H. repeat (destruct H as [<-|H]; [cbn in E; destruct e as [|e]; [|destruct e; discriminate E]; injection E as <- <-;
      cbn in A, B; injection A as A; injection B as B; destruct s as [p q]; cbn in A, B; subst p q; split; [split; intros d D; cbn in D; intuition (subst; exact I)|intros N; vm_compute in N; destruct N as (N1 & N2 & N3); congruence]|]). destruct H.
  - intros s1 s2 p q t1 t2 T1 T2 x H1 H2 _ _ Hp Hq Hd _ _ _ _ _ _.
    assert (P : forall i j a b, In (i, j) (tr_overlaps brep_trees) -> In a (m_surfaces real_tet) -> In b (m_surfaces real_tet) ->
      nth_error (tr_uuids brep_trees) i = Some (co_id a) -> nth_error (tr_uuids brep_trees) j = Some (co_id b) -> proposed real_tet brep_trees a b (0, 0)).
    { intros i j a b I A B E1 E2. right. split; [exact A|]. split; [exact B|]. exists i, j. split; [exact I|]. split; [exact E1|]. split; [exact E2|]. left. reflexivity. }
    assert (p = 0) as -> by (destruct (real_surfaces_are s1 H1) as (id & u & v & w & ->); cbn in Hp; lia).
    assert (q = 0) as -> by (destruct (real_surfaces_are s2 H2) as (id & u & v & w & ->); cbn in Hq; lia).
    pose proof H1 as I1. pose proof H2 as I2. clear Hp Hq.
    cbn in H1, H2. repeat (destruct H1 as [<-|H1]); try destruct H1; repeat (destruct H2 as [<-|H2]); try destruct H2; try (destruct Hd; split; reflexivity).
    + left. apply (P 0 1); [cbn; tauto|assumption|assumption|reflexivity|reflexivity].
    + left. apply (P 0 2); [cbn; tauto|assumption|assumption|reflexivity|reflexivity].
    + left. apply (P 0 3); [cbn; tauto|assumption|assumption|reflexivity|reflexivity].
    + right. apply (P 0 1); [cbn; tauto|assumption|assumption|reflexivity|reflexivity].
    + left. apply (P 1 2); [cbn; tauto|assumption|assumption|reflexivity|reflexivity].
    + left. apply (P 1 3); [cbn; tauto|assumption|assumption|reflexivity|reflexivity].
    + right. apply (P 0 2); [cbn; tauto|assumption|assumption|reflexivity|reflexivity].
    + right. apply (P 1 2); [cbn; tauto|assumption|assumption|reflexivity|reflexivity].
    + left. apply (P 2 3); [cbn; tauto|assumption|assumption|reflexivity|reflexivity].
    + right. apply (P 0 3); [cbn; tauto|assumption|assumption|reflexivity|reflexivity].
    + right. apply (P 1 3); [cbn; tauto|assumption|assumption|reflexivity|reflexivity].
    + right. apply (P 2 3); [cbn; tauto|assumption|assumption|reflexivity|reflexivity].
  - intros s l p e t T g x Hs As Hl Al Hp _ _ (a & b & E & _) _ _. split; [exact Hs|]. split; [exact As|]. split; [exact Hl|]. split; [exact Al|].
    assert (S : exists i, nth_error (tr_uuids brep_trees) i = Some (co_id s)) by (cbn in Hs; repeat (destruct Hs as [<-|Hs]; [first [exists 0; reflexivity|exists 1; reflexivity|exists 2; reflexivity|exists 3; reflexivity]|]); destruct Hs).
    assert (L : exists j, nth_error (lt_uuids brep_line_trees) j = Some (co_id l)) by (cbn in Hl; repeat (destruct Hl as [<-|Hl];
      [first [exists 0; reflexivity|exists 1; reflexivity|exists 2; reflexivity|exists 3; reflexivity|exists 4; reflexivity|exists 5; reflexivity]|]); destruct Hl).
    destruct S as (i & Ei), L as (j & Ej). exists i, j. split; [exact Ei|]. split; [exact Ej|]. left.
    destruct (real_surfaces_are s Hs) as (id & u & v & w & ->). cbn in Hp. destruct (real_lines_are l Hl) as (id' & u' & v' & ->). cbn in E. destruct e as [|e]; [f_equal; lia|destruct e; discriminate E].
Qed.
(** it is valid, so its surfaces are embedded or nested; in fact none is nested *)
Example real_tet_valid : exists parts,
  sound_brep_besides exact_measures space_geo tet_tl real_tet parts /\ surfaces_embedded_or_nested real_tet /\ lines_embedded Overlapping real_tet.
Proof.
  destruct (proj1 (proj2 (C27_C48_queries_terminate real_px real_tet brep_trees brep_line_trees))) as (ints & I).
  destruct (C81_valid_is_embedded real_oracles real_px Overlapping brep_trees brep_line_trees real_tet (fun _ => false) (fun _ => false) real_is_ready
    (spot_exact _) (locating_triangles _ _) real_in_space ints I) as (r & v & parts & E & V & P & K & _).
  exists parts.
  destruct (brep_intersections_empty real_oracles real_px brep_trees brep_line_trees real_tet real_is_ready ints I) as (l & -> & L).
  assert (Z : ii_issues l = []).
  { apply L.
    - intros s H _. destruct (real_surfaces_are s H) as (id & u & w & x & ->). discriminate.
    - intros s H _. destruct (real_lines_are s H) as (id & u & w & ->). discriminate.
    - split.
      + intros s1 s2 c [(-> & H & _ & i & _ & J)|(H1 & H2 & i & j & H & E1 & E2 & J)] [N M].
        * destruct J as [<-|[]]. apply N. split; reflexivity.
        * destruct J as [<-|[]].
          destruct (polygons_decides real_px real_tet s1 s2 0 0 real_indices) as (b & Eb & Hb);
            [|apply (ir_surfaces _ _ _ real_intersections_ready); assumption..| | |].
          -- intros D. destruct (real_surfaces_are s1 H1) as (id & u & w & x & ->). discriminate D.
          -- destruct (real_surfaces_are s1 H1) as (id & u & w & x & ->). cbn. lia.
          -- destruct (real_surfaces_are s2 H2) as (id & u & w & x & ->). cbn. lia.
          -- assert (Y : b = true) by (apply Hb; exact M). subst b. clear L M N Hb E V K.
             cbn in H1. repeat (destruct H1 as [<-|H1]); try destruct H1; cbn in H2; repeat (destruct H2 as [<-|H2]); try destruct H2; 
             cbn in H; repeat (destruct H as [[= <- <-]|H]; [cbn in E1, E2; try discriminate E1; try discriminate E2; vm_compute in Eb; discriminate Eb|]); destruct H.
      + intros s c' c _ (t & b & []). }
  destruct l as [d i t]. cbn [ii_issues] in Z. subst i. apply K.
  - vm_compute in E. injection E as <-. vm_compute. reflexivity.
  - vm_compute in V. injection V as <-. reflexivity.
Qed.
Lemma none_inside : forall u v w u' v' w', (u < 4 /\ v < 4 /\ w < 4) -> (u' < 4 /\ v' < 4 /\ w' < 4) -> u < v < w ->
  ~ holds_corner (spot u, spot v, spot w) (spot u', spot v', spot w').
Proof.
  intros u v w u' v' w' (_ & _ & W) (U' & V' & W') L (i & Li & S).
  assert (C : exists n, n < 4 /\ corner (spot u', spot v', spot w') i = place_of (spot n)) by (destruct i as [|[|[|i]]]; [exists u'|exists v'|exists w'|lia]; split; auto).
  destruct C as (n & Hn & E). rewrite E in S. destruct S as (a & b & c & A & B & C & T & X). cbn [corner fst snd] in X. clear E U' V' W' i Li.
  assert (K : (u = 0 /\ v = 1 /\ w = 2) \/ (u = 0 /\ v = 1 /\ w = 3) \/ (u = 0 /\ v = 2 /\ w = 3) \/ (u = 1 /\ v = 2 /\ w = 3)) by lia. clear L W.
  assert (N : n = 0 \/ n = 1 \/ n = 2 \/ n = 3) by lia. clear Hn.
  repeat (destruct K as [K|K]); destruct K as (-> & -> & ->); repeat (destruct N as [N|N]); subst n;
    match type of X with same_spot ?p (mean3 _ _ _ ?q ?r ?s) => let p' := eval vm_compute in p in let q' := eval vm_compute in q in let r' := eval vm_compute in r in let s' := eval vm_compute in s in
      change (same_spot p' (mean3 a b c q' r' s')) in X end; cbn [same_spot mean3] in X; destruct X as (X1 & X2 & X3); lra.
Qed.
Example real_tet_embedded : surfaces_embedded real_tet /\ lines_embedded Overlapping real_tet.
Proof.
  destruct real_tet_valid as (parts & _ & N & L). split; [|exact L]. intros s1 s2 p q T1 T2 c H.
  assert (A : forall s, In s (m_surfaces real_tet) -> co_active s = true) by (intros s Hs; destruct (real_surfaces_are s Hs) as (id & u & v & w & ->); reflexivity).
  destruct (N _ _ _ _ _ _ _ H (A _ (proj1 (ng_first _ _ _ _ _ _ _ _ H))) (A _ (proj1 (ng_second _ _ _ _ _ _ _ _ H)))) as (X & Y). split; [exact X|].
  intros M. apply Y in M as (_ & M). clear X Y N L.
  assert (K : forall s p t T, In s (m_surfaces real_tet) -> p < nb_polygons (co_mesh s) -> fan_triangle (polygon_vertices (co_mesh s) p) t -> triangle_of (co_mesh s) t T ->
    exists u v w, (u < 4 /\ v < 4 /\ w < 4) /\ u < v < w /\ T = (spot u, spot v, spot w)).
  { intros s p' t T Hs Hp F HT. cbn in Hs.
    repeat (destruct Hs as [<-|Hs]; [destruct (real_fan _ _ _ _ _ _ Hp F) as (_ & ->); apply real_triangle_of in HT; do 3 eexists; split; [|split; [|exact HT]]; lia|]). destruct Hs. }
  destruct H as [(I1 & Hp) (I2 & Hq) _ (t1 & t2 & F1 & F2 & H1 & H2 & _)].
  destruct (K _ _ _ _ I1 Hp F1 H1) as (u & v & w & B & O & ->), (K _ _ _ _ I2 Hq F2 H2) as (u' & v' & w' & B' & O' & ->).
  destruct M as [M|M]; revert M; apply none_inside; assumption.
Qed.
