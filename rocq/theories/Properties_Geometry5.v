(** C82: what a valid Section is in the plane. *)
From Coq Require Import String Ascii List Arith NArith ZArith Bool QArith Lqa Lia Permutation SpecFloat.
From Verif Require Import Base BaseFacts Model_Issues Types Model_Cycles Model_Hash Model_Colocation Model_Adjacency Model_Manifold Model_Degeneration Model_Negative Model_Intersections
  Model_Topology Model_BRep Model_Blocks Model_Results Model_Validity Spec_Colocation Spec_Maps Spec_Cycles Spec_Adjacency Spec_Manifold Spec_Degeneration Spec_Negative Spec_Intersections
  Spec_Topology Spec_BRep Spec_Blocks Spec_Results Spec_Valid Spec_ValidModels
  Proof_Adjacency Proof_Topology Proof_Topology2 Proof_BRep Proof_TopologyCheck Proof_BRepCheck Proof_Valid Proof_Valid2 Proof_Searches Proof_GoodModels
  Proof_Intersections4 Proof_Intersections5 Proof_ValidModels2 Proof_ValidModels3 Proof_ValidModels4 Properties_Intersections Properties_Topology Properties_BRep Properties_Blocks Properties_Valid Properties_ValidModels
  Spec_Geometry Proof_Geometry Proof_Geometry3 Proof_Geometry5 Spec_Geometry2 Properties_Geometry2 Spec_Geometry4 Properties_Geometry4 Spec_Geometry5 Proof_Geometry8.
Import ListNotations.
Open Scope nat_scope.
Open Scope list_scope.

(** valid: all the conditions that are not about intersections, and the triangles of surfaces meet only in what they share, or they have at
    most one common vertex and one is inside the other; and conversely *)
Theorem C82_valid_is_drawn : forall o px trees m stored_edges stored_facets, section_ready o px trees m -> exact_in_plane px -> section_in_plane m trees ->
  forall ints, section_inspect_intersections px m trees ints ->
  exists r v, inspect_section o m (new_model_inspector stored_edges stored_facets) ints = Ok r /\
    is_section_valid o m (new_model_inspector stored_edges stored_facets) ints = Ok v /\
    (countable (section_categories (or_hash o) r) -> is_valid v = true ->
       sound_section_besides (or_measures o) (or_geometry o) m /\ apart_or_engulfed (fun s => co_active s = true) m) /\
    (sound_section_besides (or_measures o) (or_geometry o) m -> apart_or_engulfed (fun _ => True) m -> is_valid v = true).
Proof.
  intros o px trees m s0 b0 R EX SP ints H. destruct (C59_section o px trees m s0 b0 R ints H) as (r & v & E & V & K1 & K2).
  exists r, v. split; [exact E|]. split; [exact V|]. pose proof (sr_intersections_ready _ _ _ _ R) as IR. split.
  - intros C G. pose proof (K2 C G) as S. apply section_besides_iff in S as (B & A). split; [exact B|].
    exact (quiet_apart px m trees IR (sound_section_not_empty _ (sb_topology _ _ _ B)) EX SP A).
  - intros B A. apply K1. apply section_besides_iff. split; [exact B|]. exact (apart_quiet px m trees IR EX SP A).
Qed.
Print Assumptions C82_valid_is_drawn.
(** with active surfaces only: an equivalence *)
Theorem C82_valid_iff : forall o px trees m stored_edges stored_facets, section_ready o px trees m -> exact_in_plane px -> section_in_plane m trees ->
  (forall s, In s (m_surfaces m) -> co_active s = true) ->
  forall ints, section_inspect_intersections px m trees ints ->
  exists r v, inspect_section o m (new_model_inspector stored_edges stored_facets) ints = Ok r /\
    is_section_valid o m (new_model_inspector stored_edges stored_facets) ints = Ok v /\
    (countable (section_categories (or_hash o) r) ->
       (is_valid v = true <-> sound_section_besides (or_measures o) (or_geometry o) m /\ apart_or_engulfed (fun _ => True) m)).
Proof.
  intros o px trees m s0 b0 R EX SP A ints H. destruct (C82_valid_is_drawn o px trees m s0 b0 R EX SP ints H) as (r & v & E & V & K1 & K2).
  exists r, v. split; [exact E|]. split; [exact V|]. intros C. split.
  - intros G. destruct (K1 C G) as (B & D). split; [exact B|]. intros s1 s2 p q T1 T2 c N _ _.
    exact (D s1 s2 p q T1 T2 c N (A _ (proj1 (ng_first _ _ _ _ _ _ _ _ N))) (A _ (proj1 (ng_second _ _ _ _ _ _ _ _ N)))).
  - intros (B & D). exact (K2 B D).
Qed.
Print Assumptions C82_valid_iff.

(** ** Examples: a square cut in two triangles; a triangle inside another one *)
Definition coordinate (n : nat) : double := match n with 0 => S754_zero false | S k => S754_finite false (Pos.of_succ_nat k) 0 end.
Definition at_ (x y : nat) : Point := [coordinate x; coordinate y].
Definition flat_corner id p := mkComponent id None true (mkPointSet [p]).
Definition flat_line id p q := mkComponent id None true (mkCurve [p; q] [(0, 1)] (fun _ => far) (fun _ => false)).
Definition flat_surface id p q r polygon := mkComponent id None true
  (mkSurface 2 [p; q; r] [polygon] (fun _ => None) [(0, 1); (1, 2); (0, 2)] (fun _ => false) (fun _ => far) (fun v => Ok [(0, match v, polygon with 1, [0; 2; 1] => 2 | 2, [0; 2; 1] => 1 | _, _ => v end)]) (fun _ => true)).
Definition cut_square := a_section [flat_corner 0 (at_ 0 0); flat_corner 1 (at_ 1 0); flat_corner 2 (at_ 0 1); flat_corner 3 (at_ 1 1)]
  [flat_line 10 (at_ 0 0) (at_ 1 0); flat_line 11 (at_ 1 0) (at_ 0 1); flat_line 12 (at_ 0 1) (at_ 0 0); flat_line 13 (at_ 1 0) (at_ 1 1); flat_line 14 (at_ 1 1) (at_ 0 1)]
  [flat_surface 100 (at_ 0 0) (at_ 1 0) (at_ 0 1) [0; 1; 2]; flat_surface 101 (at_ 1 1) (at_ 1 0) (at_ 0 1) [0; 2; 1]]
  [[c_ 0 0; l_ 10 0; l_ 12 1; s_ 100 0]; [c_ 1 0; l_ 10 1; l_ 11 0; l_ 13 0; s_ 100 1; s_ 101 1]; [c_ 2 0; l_ 11 1; l_ 12 0; l_ 14 1; s_ 100 2; s_ 101 2]; [c_ 3 0; l_ 13 1; l_ 14 0; s_ 101 0]]
  [(cid_ 0, lid_ 10); (cid_ 1, lid_ 10); (cid_ 1, lid_ 11); (cid_ 2, lid_ 11); (cid_ 2, lid_ 12); (cid_ 0, lid_ 12); (cid_ 1, lid_ 13); (cid_ 3, lid_ 13); (cid_ 3, lid_ 14); (cid_ 2, lid_ 14);
   (lid_ 10, sid_ 100); (lid_ 11, sid_ 100); (lid_ 12, sid_ 100); (lid_ 11, sid_ 101); (lid_ 13, sid_ 101); (lid_ 14, sid_ 101)] [].
Definition covered := a_section [flat_corner 0 (at_ 0 0); flat_corner 1 (at_ 8 0); flat_corner 2 (at_ 0 8); flat_corner 3 (at_ 1 1); flat_corner 4 (at_ 2 1); flat_corner 5 (at_ 1 2)]
  [flat_line 10 (at_ 0 0) (at_ 8 0); flat_line 11 (at_ 8 0) (at_ 0 8); flat_line 12 (at_ 0 8) (at_ 0 0); flat_line 13 (at_ 1 1) (at_ 2 1); flat_line 14 (at_ 2 1) (at_ 1 2); flat_line 15 (at_ 1 2) (at_ 1 1)]
  [flat_surface 100 (at_ 0 0) (at_ 8 0) (at_ 0 8) [0; 1; 2]; flat_surface 101 (at_ 1 1) (at_ 2 1) (at_ 1 2) [0; 1; 2]]
  [[c_ 0 0; l_ 10 0; l_ 12 1; s_ 100 0]; [c_ 1 0; l_ 10 1; l_ 11 0; s_ 100 1]; [c_ 2 0; l_ 11 1; l_ 12 0; s_ 100 2];
   [c_ 3 0; l_ 13 0; l_ 15 1; s_ 101 0]; [c_ 4 0; l_ 13 1; l_ 14 0; s_ 101 1]; [c_ 5 0; l_ 14 1; l_ 15 0; s_ 101 2]]
  [(cid_ 0, lid_ 10); (cid_ 1, lid_ 10); (cid_ 1, lid_ 11); (cid_ 2, lid_ 11); (cid_ 2, lid_ 12); (cid_ 0, lid_ 12); (cid_ 3, lid_ 13); (cid_ 4, lid_ 13); (cid_ 4, lid_ 14); (cid_ 5, lid_ 14); (cid_ 5, lid_ 15); (cid_ 3, lid_ 15);
   (lid_ 10, sid_ 100); (lid_ 11, sid_ 100); (lid_ 12, sid_ 100); (lid_ 13, sid_ 101); (lid_ 14, sid_ 101); (lid_ 15, sid_ 101)] [].
Definition plane_oracles (m : Model) := mkOracles exact_measures space_geo any_order (search_lookup m) tet_tl.
Definition plane_trees := mkTrees [100; 101] [(0, 1)] (fun _ => [(0, 0)]) (fun _ _ => [(0, 0)]).
Lemma flat_surface_ready : forall id p q r polygon, polygon = [0; 1; 2] \/ polygon = [0; 2; 1] -> surface_ready (co_mesh (flat_surface id p q r polygon)).
Proof.
  intros id p q r polygon [->| ->]; (constructor;
  [ intros e n _ Hq; discriminate Hq
  | intros a b H; cbn in H; repeat (destruct H as [H|H]; [injection H as <- <-; cbn; lia|]); destruct H
  | intros a b n H; apply few_uses in H; cbn in H; lia
  | intros c H; apply in_all_polygon_edges in H; cbn in H; each H
  | intros x _; right; eexists; reflexivity
  | intros vs x H Hv; cbn in H; destruct H as [<-|[]]; cbn in Hv; cbn; lia
  | vm_compute; reflexivity ]).
Qed.
Definition two_flat (m : Model) : Prop := exists p q r polygon p' q' r' polygon',
  m_surfaces m = [flat_surface 100 p q r polygon; flat_surface 101 p' q' r' polygon'] /\ (polygon = [0; 1; 2] \/ polygon = [0; 2; 1]) /\ (polygon' = [0; 1; 2] \/ polygon' = [0; 2; 1]).
Lemma two_flat_surfaces : forall m s, two_flat m -> In s (m_surfaces m) -> exists id p q r polygon, s = flat_surface id p q r polygon /\ (polygon = [0; 1; 2] \/ polygon = [0; 2; 1]).
Proof. intros m s (p & q & r & g & p' & q' & r' & g' & E & G & G') H. rewrite E in H. destruct H as [<-|[<-|[]]]; do 5 eexists; (split; [reflexivity|assumption]). Qed.
Lemma two_flat_ready : forall m, two_flat m -> sectionb m = true -> nodupb (all_ids m) = true -> forallb (forallb (cmv_exists_in_brep m)) (m_cmvs m) = true ->
  forallb (fun l => (length (ec_points (co_mesh l)) + length (ec_edges (co_mesh l)) <? 100)%nat) (m_lines m) = true ->
  section_ready (plane_oracles m) plane_px plane_trees m.
Proof.
  intros m F B N L S. constructor.
  - apply sectionb_ok, B.
  - apply links_ok; assumption.
  - exact space_consistent.
  - apply search_right.
  - intros c H. rewrite forallb_forall in S. specialize (S c H). apply Nat.ltb_lt in S. unfold below_2_32. clear - S. 
    apply N2Z.inj_lt. rewrite nat_N_Z. lia.
  - intros s H. destruct (two_flat_surfaces m s F H) as (id & p & q & r & g & -> & G). apply flat_surface_ready, G.
  - constructor.
    + apply nodupb_ok. assumption.
    + constructor.
      * apply nodupb_ok. reflexivity.
      * intros id H. destruct F as (p & q & r & g & p' & q' & r' & g' & E & _). rewrite E. destruct H as [<-|[<-|[]]]; [exists (flat_surface 100 p q r g)|exists (flat_surface 101 p' q' r' g')]; cbn; auto.
      * intros s H _. destruct F as (p & q & r & g & p' & q' & r' & g' & E & _). rewrite E in H. destruct H as [<-|[<-|[]]]; cbn; auto.
      * intros i j [[= <- <-]|[]]. cbn. lia.
      * intros s i H _ p q K. destruct (two_flat_surfaces m s F H) as (id & a & b & c & g & -> & G). destruct K as [[= <- <-]|[]]. cbn. lia.
      * intros s1 s2 i j H1 H2 _ _ p q K. destruct (two_flat_surfaces m s1 F H1) as (id & a & b & c & g & -> & G), (two_flat_surfaces m s2 F H2) as (id' & a' & b' & c' & g' & -> & G').
        destruct K as [[= <- <-]|[]]. cbn. lia.
    + intros s H. destruct (two_flat_surfaces m s F H) as (id & p & q & r & g & -> & [->| ->]); apply readyb_ok; vm_compute; reflexivity.
    + apply plane_ok.
    + intros s H _ s1 s2 v w H1 H2 L1 L2 _. destruct (two_flat_surfaces m s1 F H1) as (id & a & b & c & g & -> & G), (two_flat_surfaces m s2 F H2) as (id' & a' & b' & c' & g' & -> & G'). exact L2.
Qed.
Lemma two_flat_boxes : forall m, two_flat m -> boxes_complete m plane_trees.
Proof.
  intros m F s1 s2 p q t1 t2 T1 T2 x H1 H2 _ _ Hp Hq Hd _ _ _ _ _ _.
  assert (p = 0) as -> by (destruct (two_flat_surfaces m s1 F H1) as (id & a & b & c & g & -> & _); cbn in Hp; lia).
  assert (q = 0) as -> by (destruct (two_flat_surfaces m s2 F H2) as (id & a & b & c & g & -> & _); cbn in Hq; lia).
  destruct F as (a & b & c & g & a' & b' & c' & g' & E & _).
  assert (P : proposed_pair m plane_trees (flat_surface 100 a b c g) (flat_surface 101 a' b' c' g') (0, 0)).
  { split; [rewrite E; left; reflexivity|]. split; [rewrite E; right; left; reflexivity|]. exists 0, 1. cbn. auto. }
  rewrite E in H1, H2. destruct H1 as [<-|[<-|[]]], H2 as [<-|[<-|[]]]; try (destruct Hd; split; reflexivity); [left|right]; right; exact P.
Qed.
Ltac shared_vertices := let s1 := fresh in let s2 := fresh in let v := fresh "v" in let w := fresh "w" in let H1 := fresh in let H2 := fresh in let E := fresh "E" in let Hp := fresh "Hp" in let Hq := fresh "Hq" in
  intros s1 s2 v w ?p ?q H1 H2 E Hp Hq; cbn in H1, H2; destruct H1 as [<-|[<-|[]]], H2 as [<-|[<-|[]]];
  destruct v as [|[|[|v]]]; try (destruct v; discriminate Hp); destruct w as [|[|[|w]]]; try (destruct w; discriminate Hq);
  try (vm_compute in E; discriminate E); injection Hp as <-; injection Hq as <-; vm_compute; auto.
Lemma flat_fan : forall id a b c g p t, (g = [0; 1; 2] \/ g = [0; 2; 1]) -> p < nb_polygons (co_mesh (flat_surface id a b c g)) ->
  fan_triangle (polygon_vertices (co_mesh (flat_surface id a b c g)) p) t -> p = 0 /\ t = g.
Proof.
  intros id a b c g p t G Hp (i & L & U & H). cbn in Hp. assert (p = 0) as -> by lia. split; [reflexivity|].
  destruct G as [->| ->]; cbn in U; assert (i = 1) as -> by lia; destruct H as (x & y & z & -> & A & B & C); cbn in A, B, C; injection A as <-; injection B as <-; injection C as <-; reflexivity.
Qed.
Lemma flat_triangle_of : forall id a b c g i j k T, g = [i; j; k] -> triangle_of (co_mesh (flat_surface id a b c g)) g T ->
  T = (nth i [a; b; c] [], nth j [a; b; c] [], nth k [a; b; c] []).
Proof.
  intros id a b c g i j k T -> (x & y & z & E & A & B & C). injection E as <- <- <-. destruct T as [[p q] r]. cbn [fst snd] in A, B, C. unfold point_of in A, B, C. cbn [co_mesh flat_surface sm_points] in A, B, C.
  apply (nth_error_nth _ _ []) in A. apply (nth_error_nth _ _ []) in B. apply (nth_error_nth _ _ []) in C. subst p q r. reflexivity.
Qed.
Ltac flat_solid := split; [intros ?p ?H; cbn in *; repeat (match goal with H : _ \/ _ |- _ => destruct H as [<-|H] | H : False |- _ => destruct H end); (split; [intros ?d ?D; cbn in *; intuition (subst; exact I)|reflexivity])
  |intros ?p ?t ?T ?Hp ?F ?HT; apply flat_fan in F as (-> & ->); [|auto|assumption]; eapply flat_triangle_of in HT; [|reflexivity]; subst; Properties_Geometry.real].
Lemma square_two : two_flat cut_square.
Proof. do 8 eexists. split; [reflexivity|]. auto. Qed.
Lemma covered_two : two_flat covered.
Proof. do 8 eexists. split; [reflexivity|]. auto. Qed.
Lemma square_in_plane : section_in_plane cut_square plane_trees.
Proof.
  constructor.
  - intros s [<-|[<-|[]]]; reflexivity.
  - shared_vertices.
  - shared_vertices.
  - intros s [<-|[<-|[]]]; flat_solid.
  - apply two_flat_boxes, square_two.
Qed.
Lemma covered_in_plane : section_in_plane covered plane_trees.
Proof.
  constructor.
  - intros s [<-|[<-|[]]]; reflexivity.
  - shared_vertices.
  - shared_vertices.
  - intros s [<-|[<-|[]]]; flat_solid.
  - apply two_flat_boxes, covered_two.
Qed.
Lemma square_ready : section_ready (plane_oracles cut_square) plane_px plane_trees cut_square.
Proof. apply two_flat_ready; [exact square_two|..]; vm_compute; reflexivity. Qed.
Lemma covered_ready : section_ready (plane_oracles covered) plane_px plane_trees covered.
Proof. apply two_flat_ready; [exact covered_two|..]; vm_compute; reflexivity. Qed.
Lemma quiet_pair : forall m b, two_flat m -> section_ready (plane_oracles m) plane_px plane_trees m ->
  (forall s1 s2, m_surfaces m = [s1; s2] -> polygons_intersect plane_px m s1 s2 0 0 = Ok b) -> b = false ->
  forall s1 s2 c, proposed m plane_trees s1 s2 c -> ~ surfaces_meet plane_px m s1 s2 c.
Proof.
  intros m b F R X -> s1 s2 c [(-> & H & _ & i & _ & J)|(H1 & H2 & i & j & H & E1 & E2 & J)] [N M].
  - destruct J as [<-|[]]. apply N. split; reflexivity.
  - destruct J as [<-|[]]. pose proof (sr_intersections_ready _ _ _ _ R) as IR.
    assert (L : forall s, In s (m_surfaces m) -> nb_polygons (co_mesh s) = 1) by (intros s Hs; destruct (two_flat_surfaces m s F Hs) as (id & a & b & c & g & -> & _); reflexivity).
    destruct (polygons_decides plane_px m s1 s2 0 0 (ir_indices _ _ _ IR)) as (b & Eb & Hb).
    + intros D v w Hv Hw U. exact (ir_second _ _ _ IR s1 H1 D s1 s2 v w H1 H2 Hv Hw U).
    + apply (ir_surfaces _ _ _ IR), H1.
    + apply (ir_surfaces _ _ _ IR), H2.
    + rewrite (L s1 H1). lia.
    + rewrite (L s2 H2). lia.
    + assert (Y : b = true) by (apply Hb; exact M). subst b. destruct F as (p & q & r & g & p' & q' & r' & g' & E & _).
      cbn in H. destruct H as [[= <- <-]|[]]. cbn in E1, E2. rewrite (X s1 s2) in Eb; [discriminate Eb|].
      rewrite E in H1, H2 |- *. destruct H1 as [<-|[<-|[]]]; [|discriminate E1]. destruct H2 as [<-|[<-|[]]]; [discriminate E2|]. reflexivity.
Qed.
Lemma square_quiet : forall s1 s2 c, proposed cut_square plane_trees s1 s2 c -> ~ surfaces_meet plane_px cut_square s1 s2 c.
Proof. apply (quiet_pair _ false square_two square_ready); [|reflexivity]. intros s1 s2 [= <- <-]. vm_compute. reflexivity. Qed.
Lemma covered_quiet : forall s1 s2 c, proposed covered plane_trees s1 s2 c -> ~ surfaces_meet plane_px covered s1 s2 c.
Proof. apply (quiet_pair _ false covered_two covered_ready); [|reflexivity]. intros s1 s2 [= <- <-]. vm_compute. reflexivity. Qed.
Lemma quiet_valid : forall m, two_flat m -> section_ready (plane_oracles m) plane_px plane_trees m -> section_in_plane m plane_trees ->
  (forall s1 s2 c, proposed m plane_trees s1 s2 c -> ~ surfaces_meet plane_px m s1 s2 c) ->
  forall ints, section_inspect_intersections plane_px m plane_trees ints -> exists d t, ints = Ok (mkIssues d [] t).
Proof.
  intros m F R P Q ints I. destruct (section_intersections_empty (plane_oracles m) plane_px plane_trees m R ints I) as (l & -> & L).
  assert (Z : ii_issues l = []).
  { apply L; [|exact Q]. intros s H _. destruct (two_flat_surfaces m s F H) as (id & a & b & c & g & -> & _). discriminate. }
  destruct l as [d i t]. cbn [ii_issues] in Z. subst i. exists d, t. reflexivity.
Qed.
(** the square is valid, so its triangles are apart or inside one another; in fact they are apart *)
Example square_valid : sound_section_besides exact_measures space_geo cut_square /\ apart_or_engulfed (fun _ => True) cut_square.
Proof.
  destruct (proj1 (C27_C48_queries_terminate plane_px cut_square plane_trees (mkLineTrees [] (fun _ _ => [])))) as (ints & I).
  destruct (C82_valid_iff (plane_oracles cut_square) plane_px plane_trees cut_square (fun _ => false) (fun _ => false) square_ready (proj1 (proj2 plane_ok)) square_in_plane) with (ints := ints) as (r & v & E & V & K).
  - intros s [<-|[<-|[]]]; reflexivity.
  - exact I.
  - destruct (quiet_valid _ square_two square_ready square_in_plane square_quiet ints I) as (d & t & ->). apply K.
    + vm_compute in E. injection E as <-. vm_compute. reflexivity.
    + vm_compute in V. injection V as <-. reflexivity.
Qed.
(** finding: a Section is found valid although one of its surfaces is entirely inside another one *)
Theorem C82_covered_is_valid : exists o px trees m s1 s2 T1 T2, section_ready o px trees m /\ exact_in_plane px /\ section_in_plane m trees /\
  In s1 (m_surfaces m) /\ In s2 (m_surfaces m) /\ co_id s1 <> co_id s2 /\ co_active s1 = true /\ co_active s2 = true /\
  triangle_of (co_mesh s1) (polygon_vertices (co_mesh s1) 0) T1 /\ triangle_of (co_mesh s2) (polygon_vertices (co_mesh s2) 0) T2 /\
  (forall x, on_triangle x T2 -> on_triangle x T1) /\
  forall ints, section_inspect_intersections px m trees ints ->
    exists v, is_section_valid o m (new_model_inspector (fun _ => false) (fun _ => false)) ints = Ok v /\ is_valid v = true.
Proof.
  exists (plane_oracles covered), plane_px, plane_trees, covered, (flat_surface 100 (at_ 0 0) (at_ 8 0) (at_ 0 8) [0; 1; 2]), (flat_surface 101 (at_ 1 1) (at_ 2 1) (at_ 1 2) [0; 1; 2]),
    (at_ 0 0, at_ 8 0, at_ 0 8), (at_ 1 1, at_ 2 1, at_ 1 2).
  split; [exact covered_ready|]. split; [apply plane_ok|]. split; [exact covered_in_plane|]. split; [left; reflexivity|]. split; [right; left; reflexivity|].
  split; [discriminate|]. split; [reflexivity|]. split; [reflexivity|]. split; [exists 0, 1, 2; repeat split|]. split; [exists 0, 1, 2; repeat split|]. split.
  - intros [[x y] z] (a & b & c & A & B & C & S & X). cbn [fst snd] in X. unfold on_triangle, among. cbn [fst snd].
    match type of X with same_spot _ (mean3 _ _ _ ?q ?r ?s) => let q' := eval vm_compute in q in let r' := eval vm_compute in r in let s' := eval vm_compute in s in
      change (same_spot (x, y, z) (mean3 a b c q' r' s')) in X end. cbn [same_spot mean3] in X. destruct X as (X1 & X2 & X3).
    exists ((6 # 8) * a + (5 # 8) * b + (5 # 8) * c)%Q, ((1 # 8) * a + (2 # 8) * b + (1 # 8) * c)%Q, ((1 # 8) * a + (1 # 8) * b + (2 # 8) * c)%Q.
    repeat (split; [lra|]).
    match goal with |- same_spot _ (mean3 ?a ?b ?c ?q ?r ?s) => let q' := eval vm_compute in q in let r' := eval vm_compute in r in let s' := eval vm_compute in s in
      change (same_spot (x, y, z) (mean3 a b c q' r' s')) end. cbn [same_spot mean3]. repeat split; lra.
  - intros ints I. destruct (quiet_valid _ covered_two covered_ready covered_in_plane covered_quiet ints I) as (d & t & ->). eexists. split; [vm_compute; reflexivity|reflexivity].
Qed.
Print Assumptions C82_covered_is_valid.
