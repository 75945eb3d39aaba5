(** C86: an object that is moved (translated, turned...) gets the same report.  [g] gives every point its new place; the
    answers of OpenGeode's predicates and measures about moved points are those about the points. *)
From Coq Require Import String Ascii List Arith NArith ZArith Bool Lia Permutation Floats.SpecFloat.
From Verif Require Import Base BaseFacts Model_Issues Types Model_Hash Model_Adjacency Model_Colocation Model_Degeneration Model_Manifold Model_Intersections Model_Negative Model_Topology
  Model_BRep Model_Blocks Model_Results Model_Validity Spec_Colocation Spec_Topology Spec_BRep Spec_Blocks Spec_Intersections Spec_Rename Spec_Moved
  Proof_Intersections4 Proof_Messages Proof_Order5 Proof_Rename6 Proof_Rename9 Proof_Moved Proof_Moved2 Proof_Moved3 Proof_Moved4 Proof_Moved5
  Proof_TopologyCheck Proof_BRepCheck Proof_GoodModels Properties_Topology Properties_BRep Properties_Blocks Properties_Intersections.
Import ListNotations.
Open Scope list_scope.

Lemma ends_mapped : forall X Y (Q : X -> X -> Prop) (K : Y -> Y -> Prop) x y (f f' : X -> Y), ends_the_same Q x y -> (forall a b, Q a b -> K (f a) (f' b)) ->
  ends_the_same K (let! r := x in Ok (f r)) (let! r := y in Ok (f' r)).
Proof. intros X Y Q K [a|e|] [b|e'|] f f' E G; cbn in *; auto. Qed.

(** ** Single meshes *)
Theorem C86_point_set : forall g geo geo' m, geometry_follows g geo geo' ->
  ends_the_same (fun r r' => same_list (pr_colocated r) (pr_colocated r')) (inspect_point_set geo m) (inspect_point_set geo' (moved_pointset g m)) /\
  ends_the_same same_verdict (is_pointset_valid geo m) (is_pointset_valid geo' (moved_pointset g m)).
Proof.
  intros g geo geo' m G. pose proof (w_point_set g geo geo' G m) as E. split; [exact E|]. apply (ends_mapped _ _ _ _ _ _ _ _ E). intros r r' A.
  apply same_list_count in A. unfold same_verdict, pointset_validity, pointset_nb_issues. rewrite A. destruct (N.eqb _ 0); reflexivity.
Qed.
Print Assumptions C86_point_set.
Theorem C86_edged_curve : forall g ms ms' geo geo' m, geometry_follows g geo geo' ->
  ends_the_same (fun r r' => same_list (cr_colocated r) (cr_colocated r') /\ same_list (cr_edges r) (cr_edges r'))
    (inspect_edged_curve ms geo m) (inspect_edged_curve ms' geo' (moved_curve g m)) /\
  ends_the_same same_verdict (is_edged_curve_valid ms geo m) (is_edged_curve_valid ms' geo' (moved_curve g m)).
Proof.
  intros g ms ms' geo geo' m G. pose proof (w_edged_curve g ms ms' geo geo' G m) as E. split; [exact E|]. apply (ends_mapped _ _ _ _ _ _ _ _ E). intros r r' [A B].
  apply same_list_count in A. apply same_list_count in B. unfold same_verdict, curve_validity. cbv zeta. lengths. reflexivity.
Qed.
Print Assumptions C86_edged_curve.
Theorem C86_surface : forall g ms ms' geo geo' ho name m st i i', geometry_follows g geo geo' -> measures_follow g ms ms' -> ends_the_same same_list i i' ->
  ends_the_same same_surface_report (inspect_surface ms geo ho name m st i) (inspect_surface ms' geo' ho name (moved_surface g m) st i') /\
  ends_the_same same_verdict (is_surface_valid ms geo ho name m st i) (is_surface_valid ms' geo' ho name (moved_surface g m) st i').
Proof.
  intros g ms ms' geo geo' ho name m st i i' G M I. pose proof (w_surface g ms ms' geo geo' G M ho name m st i i' I) as E. split; [exact E|].
  apply (ends_mapped _ _ _ _ _ _ _ _ E). intros r r' A. apply w_surface_counts, A.
Qed.
Print Assumptions C86_surface.
Theorem C86_solid : forall g ms ms' geo geo' ho name m st, geometry_follows g geo geo' -> measures_follow g ms ms' ->
  ends_the_same same_solid_report (inspect_solid ms geo ho name m st) (inspect_solid ms' geo' ho name (moved_solid g m) st) /\
  ends_the_same same_verdict (is_solid_valid ms geo ho name m st) (is_solid_valid ms' geo' ho name (moved_solid g m) st).
Proof.
  intros g ms ms' geo geo' ho name m st G M. pose proof (w_solid g ms ms' geo geo' G M ho name m st) as E. split; [exact E|].
  apply (ends_mapped _ _ _ _ _ _ _ _ E). intros r r' A. apply w_solid_counts, A.
Qed.
Print Assumptions C86_solid.

(** ** Intersections: the same searches end the same way, texts included *)
Theorem C86_self_intersections : forall g px px' m candidates r, predicates_follow g px px' ->
  surface_intersecting_elements px' (moved_surface g m) candidates r <-> surface_intersecting_elements px m candidates r.
Proof.
  intros g px px' m cands r P. unfold surface_intersecting_elements, surface_intersecting_polygons.
  split; intros (found & K & E); exists found; (split; [|exact E]); revert K; apply runs_moved; intros c; [symmetry|]; apply (polygons_moved g px px' P).
Qed.
Print Assumptions C86_self_intersections.
Theorem C86_curve_intersections : forall g px px' s c candidates r, predicates_follow g px px' ->
  curve_intersecting_elements px' (moved_surface g s) (moved_curve g c) candidates r <-> curve_intersecting_elements px s c candidates r.
Proof.
  intros g px px' s c cands r P. unfold curve_intersecting_elements, intersecting_triangles_with_edges.
  split; intros (found & K & E); exists found; (split; [|exact E]); revert K; apply runs_moved; intros k; [symmetry|]; apply (edge_moved g px px' P).
Qed.
Print Assumptions C86_curve_intersections.
Theorem C86_section_intersections : forall g text px px' m trees r, predicates_follow g px px' ->
  section_inspect_intersections px' (moved_model g text m) trees r <-> section_inspect_intersections px m trees r.
Proof. intros g text px px' m trees r P. exact (surfaces_elements_moved g px px' P text m trees empty_intersections r). Qed.
Print Assumptions C86_section_intersections.
Theorem C86_brep_intersections : forall g text px px' m trees lines r, predicates_follow g px px' ->
  brep_inspect_intersections px' (moved_model g text m) trees lines r <-> brep_inspect_intersections px m trees lines r.
Proof. intros g text px px' m trees lines r P. exact (brep_intersections_moved g px px' P text m trees lines r). Qed.
Print Assumptions C86_brep_intersections.
Theorem C86_model_self_intersections : forall g text px px' m trees r, predicates_follow g px px' ->
  inspect_surfaces_self_intersections px' (moved_model g text m) trees r <-> inspect_surfaces_self_intersections px m trees r.
Proof. intros g text px px' m trees r P. exact (auto_elements_moved g px px' P text m trees empty_intersections r). Qed.
Print Assumptions C86_model_self_intersections.

(** Boxes are not the same in another position: whatever pairs the new trees propose, the same pairs are found as long as both
    propose the pairs that meet. *)
Definition same_meeting_pairs (px : Predicates) (m : Model) (trees trees' : Trees) : Prop :=
  forall s1 s2 c, surfaces_meet px m s1 s2 c -> (proposed m trees s1 s2 c <-> proposed m trees' s1 s2 c).
Theorem C86_section_other_boxes : forall g text px px' m trees trees' r r', predicates_follow g px px' ->
  intersections_ready px m trees -> intersections_ready px m trees' -> no_empty_surface m -> same_meeting_pairs px m trees trees' ->
  section_inspect_intersections px m trees r -> section_inspect_intersections px' (moved_model g text m) trees' r' ->
  exists l l', r = Ok l /\ r' = Ok l' /\ forall x, In x (ii_issues l') <-> In x (ii_issues l).
Proof.
  intros g text px px' m trees trees' r r' P R R' N S H H'. apply (C86_section_intersections g text px px' m trees' r' P) in H'.
  destruct (C27_report px m trees r R N H) as (l & -> & _ & E). destruct (C27_report px m trees' r' R' N H') as (l' & -> & _ & E'). exists l, l'. split; [reflexivity|]. split; [reflexivity|].
  intros x. rewrite E, E'. split; intros (s1 & s2 & c & A & B & ->); exists s1, s2, c; (split; [apply (S s1 s2 c B), A|split; [exact B|reflexivity]]).
Qed.
Print Assumptions C86_section_other_boxes.
Definition same_meeting_lines (px : Predicates) (m : Model) (trees trees' : Trees) (lines lines' : LineTrees) : Prop :=
  forall s l c, line_meets px (co_mesh s) (co_mesh l) c -> (proposed_line m trees lines s l c <-> proposed_line m trees' lines' s l c).
Theorem C86_brep_other_boxes : forall g text px px' m trees trees' lines lines' r r', predicates_follow g px px' ->
  intersections_ready px m trees -> intersections_ready px m trees' -> line_trees_of m trees lines -> line_trees_of m trees' lines' ->
  (forall l, In l (m_lines m) -> edges_exist (co_mesh l)) -> big_polygons m -> no_empty_surface m -> no_empty_line m ->
  same_meeting_pairs px m trees trees' -> same_meeting_lines px m trees trees' lines lines' ->
  brep_inspect_intersections px m trees lines r -> brep_inspect_intersections px' (moved_model g text m) trees' lines' r' ->
  exists l l', r = Ok l /\ r' = Ok l' /\ forall x, In x (ii_issues l') <-> In x (ii_issues l).
Proof.
  intros g text px px' m trees trees' lines lines' r r' P R R' L L' K B N NL S SL H H'. apply (C86_brep_intersections g text px px' m trees' lines' r' P) in H'.
  destruct (C48_brep_report px m trees lines r R L K B N NL H) as (l & a & b & -> & El & Ra & Eb). destruct (C48_brep_report px m trees' lines' r' R' L' K B N NL H') as (l' & a' & b' & -> & El' & Ra' & Eb').
  exists l, l'. split; [reflexivity|]. split; [reflexivity|]. intros x. rewrite El, El', !in_app_iff, Eb, Eb'.
  rewrite (all_members px m trees R a Ra x), (all_members px m trees' R' a' Ra' x).
  assert (X : (exists s1 s2 c, proposed m trees' s1 s2 c /\ surfaces_meet px m s1 s2 c /\ x = (surface_element s1 (fst c), surface_element s2 (snd c))) <->
    (exists s1 s2 c, proposed m trees s1 s2 c /\ surfaces_meet px m s1 s2 c /\ x = (surface_element s1 (fst c), surface_element s2 (snd c)))).
  { split; intros (s1 & s2 & c & A & M & ->); exists s1, s2, c; (split; [apply (S s1 s2 c M), A|split; [exact M|reflexivity]]). }
  assert (Y : (exists s k c, proposed_line m trees' lines' s k c /\ embedded_in_block m (co_id k) /\ line_meets px (co_mesh s) (co_mesh k) c /\ x = (surface_element s (fst c), line_element k (snd c))) <->
    (exists s k c, proposed_line m trees lines s k c /\ embedded_in_block m (co_id k) /\ line_meets px (co_mesh s) (co_mesh k) c /\ x = (surface_element s (fst c), line_element k (snd c)))).
  { split; intros (s & k & c & A & I & M & ->); exists s, k, c; (split; [apply (SL s k c M), A|split; [exact I|split; [exact M|reflexivity]]]). }
  rewrite X, Y. reflexivity.
Qed.
Print Assumptions C86_brep_other_boxes.

(** ** Models *)
Theorem C86_section_topology : forall g text m, section_ok m ->
  section_topology_is_valid (moved_model g text m) = section_topology_is_valid m /\
  exists r r', inspect_section_topology m = Ok r /\ inspect_section_topology (moved_model g text m) = Ok r' /\ same_section_topology r r'.
Proof. intros g text m K. split; [exact (w_section_valid g text m K)|exact (w_section_topology g text m K)]. Qed.
Print Assumptions C86_section_topology.
Theorem C86_brep_topology : forall g text m tl tl', topo_follows g tl tl' -> blocks_ok tl m -> lookup_ok tl m -> lines_inspectable m ->
  exists r r', inspect_brep_topology tl m = Ok r /\ inspect_brep_topology tl' (moved_model g text m) = Ok r' /\ same_brep_topology r r'.
Proof. intros g text m tl tl' T K L I. exact (w_brep_topology g text m tl tl' T K L I). Qed.
Print Assumptions C86_brep_topology.
Theorem C86_brep_topology_valid : forall g text m tl tl', topo_follows g tl tl' -> brep_ok m -> lookup_ok tl m -> lines_inspectable m -> counts_fit m ->
  brep_topology_is_valid tl' (moved_model g text m) = brep_topology_is_valid tl m.
Proof. intros g text m tl tl' T K L I C. exact (w_brep_valid g text m tl tl' T K L I C). Qed.
Print Assumptions C86_brep_topology_valid.
(** whatever the model, including one whose inspection raises or is undefined *)
Theorem C86_section_meshes : forall g text m o o' st st' i i', oracles_follow g o o' -> ends_the_same same_list i i' ->
  ends_the_same same_section_meshes (inspect_section_meshes o m st i) (inspect_section_meshes o' (moved_model g text m) st' i').
Proof. intros g text m o o' st st' i i' O I. exact (w_section_meshes g text m o o' O st st' i i' I). Qed.
Print Assumptions C86_section_meshes.
Theorem C86_brep_meshes : forall g text m o o' st st' i i', oracles_follow g o o' -> ends_the_same same_list i i' ->
  ends_the_same same_brep_meshes (inspect_brep_meshes o m st i) (inspect_brep_meshes o' (moved_model g text m) st' i').
Proof. intros g text m o o' st st' i i' O I. exact (w_brep_meshes g text m o o' O st st' i i' I). Qed.
Print Assumptions C86_brep_meshes.
Theorem C86_section : forall g text m o o' st st' i i', oracles_follow g o o' -> ends_the_same same_list i i' -> section_ok m ->
  ends_the_same (fun r r' => same_section_meshes (r_section_meshes r) (r_section_meshes r') /\
      same_section_topology (r_section_topology r) (r_section_topology r') /\ section_nb_issues r' = section_nb_issues r)
    (inspect_section o m st i) (inspect_section o' (moved_model g text m) st' i') /\
  ends_the_same same_verdict (is_section_valid o m st i) (is_section_valid o' (moved_model g text m) st' i').
Proof.
  intros g text m o o' st st' i i' O I K. pose proof (C86_section_meshes g text m o o' st st' i i' O I) as A. destruct (w_section_topology g text m K) as (t & t' & Et & Et' & Rt).
  unfold is_section_valid. unfold inspect_section. cbv zeta. rewrite Et, Et', (of_hash g o o' O).
  destruct (inspect_section_meshes o m st i) as [a|e|], (inspect_section_meshes o' (moved_model g text m) st' i') as [a'|e'|]; cbn [ends_the_same] in A; try contradiction.
  - destruct (w_section_counts (or_hash o) a a' t t' A Rt) as [C1 C2]. split; [split; [exact A|split; [exact Rt|exact C1]]|exact C2].
  - subst e'. split; reflexivity.
  - split; exact Logic.I.
Qed.
Print Assumptions C86_section.
Theorem C86_brep : forall g text m o o' st st' i i', oracles_follow g o o' -> ends_the_same same_list i i' -> blocks_ok (or_topo o) m -> lookup_ok (or_topo o) m -> lines_inspectable m ->
  ends_the_same (fun r r' => same_brep_meshes (r_brep_meshes r) (r_brep_meshes r') /\
      same_brep_topology (r_brep_topology r) (r_brep_topology r') /\ brep_nb_issues r' = brep_nb_issues r)
    (inspect_brep o m st i) (inspect_brep o' (moved_model g text m) st' i') /\
  ends_the_same same_verdict (is_brep_valid o m st i) (is_brep_valid o' (moved_model g text m) st' i').
Proof.
  intros g text m o o' st st' i i' O I K L N. pose proof (C86_brep_meshes g text m o o' st st' i i' O I) as A. destruct (w_brep_topology g text m _ _ (of_topo g o o' O) K L N) as (t & t' & Et & Et' & Rt).
  unfold is_brep_valid. unfold inspect_brep. cbv zeta. rewrite Et, Et', (of_hash g o o' O).
  destruct (inspect_brep_meshes o m st i) as [a|e|], (inspect_brep_meshes o' (moved_model g text m) st' i') as [a'|e'|]; cbn [ends_the_same] in A; try contradiction.
  - destruct (w_brep_counts (or_hash o) a a' t t' A Rt) as [C1 C2]. split; [split; [exact A|split; [exact Rt|exact C1]]|exact C2].
  - subst e'. split; reflexivity.
  - split; exact Logic.I.
Qed.
Print Assumptions C86_brep.

(** ** The hypotheses can be met, whatever the oracles: those that move points back before they look at them *)
Definition back_geometry (h : Point -> Point) (geo : Geometry) : Geometry :=
  mkGeometry (fun points => g_colocated geo (map h points)) (fun p q => g_inexact_equal geo (h p) (h q)) (g_point_string geo).
Definition back_measures (h : Point -> Point) (ms : Measures) : Measures :=
  mkMeasures (ms_barycenter ms) (fun p q => ms_distance ms (h p) (h q)) (fun l => ms_area_negative ms (map h l)) (fun a b c d => ms_tetra_negative ms (h a) (h b) (h c) (h d)).
Definition back_topo (h : Point -> Point) (tl : TopoLookup) : TopoLookup :=
  mkTopoLookup (tl_edges tl) (tl_polygon_blocks tl) (tl_inside_block tl) (tl_box_contains tl) (fun s p => tl_inside_closed tl (moved_fused h s) (h p)).
Definition back_oracles (h : Point -> Point) (o : Oracles) : Oracles :=
  mkOracles (back_measures h (or_measures o)) (back_geometry h (or_geometry o)) (or_hash o) (or_lookup o) (back_topo h (or_topo o)).
Definition back_predicates (h : Point -> Point) (px : Predicates) : Predicates :=
  mkPredicates (fun p t => px_point_triangle px (h p) (moved_triangle h t)) (fun a b => px_segment_segment px (moved_segment h a) (moved_segment h b))
    (fun a t => px_segment_triangle px (moved_segment h a) (moved_triangle h t)) (px_index px) (fun m => px_polygons px (moved_surface h m)).
Section Back.
Context (g h : Point -> Point) (B : forall p, h (g p) = p).
Lemma map_back : forall l, map h (map g l) = l.
Proof. intros l. rewrite map_map. rewrite <- (map_id l) at 2. apply map_ext. exact B. Qed.
Lemma back_geometry_follows : forall geo, geometry_follows g geo (back_geometry h geo).
Proof. intros geo. constructor; intros; cbn [back_geometry g_colocated g_inexact_equal]; rewrite ?map_back, ?B; reflexivity. Qed.
Lemma back_measures_follow : forall ms, g [] = [] -> measures_follow g ms (back_measures h ms).
Proof. intros ms N. constructor; intros; cbn [back_measures ms_distance ms_area_negative ms_tetra_negative]; rewrite ?map_back, ?B; try reflexivity. exact N. Qed.
Lemma back_oracles_follow : forall o, g [] = [] -> oracles_follow g o (back_oracles h o).
Proof.
  intros o N. constructor; cbn [back_oracles or_measures or_geometry or_hash or_lookup or_topo]; try reflexivity; [apply back_measures_follow, N|apply back_geometry_follows|].
  constructor; intros; cbn [back_topo tl_edges tl_polygon_blocks tl_inside_block tl_box_contains tl_inside_closed]; try reflexivity. rewrite B. destruct s as [ps l]. unfold moved_fused. cbn [fs_points fs_polygons]. rewrite map_back. reflexivity.
Qed.
Lemma back_predicates_follow : forall px, predicates_follow g px (back_predicates h px).
Proof.
  assert (T : forall t, moved_triangle h (moved_triangle g t) = t) by (intros [[p q] r]; cbn; rewrite !B; reflexivity).
  assert (S : forall s, moved_segment h (moved_segment g s) = s) by (intros [p q]; unfold moved_segment; cbn; rewrite !B; reflexivity).
  intros px. constructor; intros; cbn [back_predicates px_point_triangle px_segment_segment px_segment_triangle px_index px_polygons]; rewrite ?T, ?S, ?B; try reflexivity.
  destruct m. unfold moved_surface. cbn. rewrite map_back. reflexivity.
Qed.
End Back.

(** ** Examples *)
(** central symmetry: the sign of every coordinate changes *)
Definition opposite (p : Point) : Point := map SFopp p.
Lemma opposite_twice : forall p, opposite (opposite p) = p.
Proof.
  intros p. unfold opposite. rewrite map_map. rewrite <- (map_id p) at 2. apply map_ext. intros [s|s| |s m e]; cbn; rewrite ?negb_involutive; reflexivity.
Qed.
(** a curve whose first and last points are at the same place, one of its edges degenerated: both are found, before and after *)
Definition folded : EdgedCurve := mkCurve [Proof_GoodModels.pt 3; Proof_GoodModels.pt 1; Proof_GoodModels.pt 3] [(0, 1); (1, 2)] (fun e => if Nat.eqb e 1 then d0 else far) (fun e => Nat.eqb e 1).
Example folded_moved : ps_points (moved_pointset opposite (mkPointSet (ec_points folded))) <> ec_points folded /\
  exists r, inspect_edged_curve exact_measures exact_geo folded = Ok r /\ ii_issues (cr_colocated r) = [[0; 2]] /\ ii_issues (cr_edges r) = [1] /\
  exists r', inspect_edged_curve exact_measures (back_geometry opposite exact_geo) (moved_curve opposite folded) = Ok r' /\ ii_issues (cr_colocated r') = [[0; 2]] /\ ii_issues (cr_edges r') = [1].
Proof.
  split; [discriminate|]. eexists. split; [vm_compute; reflexivity|]. split; [reflexivity|]. split; [reflexivity|].
  pose proof (proj1 (C86_edged_curve opposite exact_measures exact_measures exact_geo _ folded (back_geometry_follows opposite opposite opposite_twice exact_geo))) as E.
  destruct (inspect_edged_curve exact_measures (back_geometry opposite exact_geo) (moved_curve opposite folded)) as [r'|e|]; [|vm_compute in E; contradiction|vm_compute in E; contradiction].
  exists r'. split; [reflexivity|]. exact E.
Qed.
(** the tetrahedron without issues, moved, is valid *)
Lemma valid_moved : forall v x, ends_the_same same_verdict (Ok v) x -> v = [] -> x = Ok [].
Proof. intros v [v'|e|] E ->; cbn in E; [|destruct E|destruct E]. apply length_zero_iff_nil in E. rewrite E. reflexivity. Qed.
Lemma tet_follows : oracles_follow opposite (tet_oracles tet_tl) (back_oracles opposite (tet_oracles tet_tl)).
Proof. apply back_oracles_follow; [exact opposite_twice|reflexivity]. Qed.
Lemma tet_fit : blocks_ok tet_tl good_tet /\ lookup_ok tet_tl good_tet /\ lines_inspectable good_tet.
Proof.
  assert (K : blocks_ok tet_tl good_tet) by (apply blocksb_ok; [apply tables_safe|apply tables_safe|vm_compute; reflexivity]).
  split; [exact K|]. split; [apply tableb_ok; vm_compute; reflexivity|]. apply simple_inspectable; [apply (bo_brep _ _ K)|vm_compute; reflexivity|vm_compute; reflexivity].
Qed.
Lemma tet_valid : is_brep_valid (tet_oracles tet_tl) good_tet no_storage (Ok empty_intersections) = Ok [].
Proof. vm_compute. reflexivity. Qed.
Example good_tet_moved : moved_model opposite (fun _ => "?"%string) good_tet <> good_tet /\
  is_brep_valid (back_oracles opposite (tet_oracles tet_tl)) (moved_model opposite (fun _ => "?"%string) good_tet) no_storage (Ok empty_intersections) = Ok [].
Proof.
  split; [intros E; apply (f_equal (fun m => map (fun c => ps_points (co_mesh c)) (m_corners m))) in E; vm_compute in E; discriminate|].
  destruct tet_fit as (K & L & N).
  pose proof (proj2 (C86_brep opposite (fun _ => "?"%string) good_tet _ _ no_storage no_storage (Ok empty_intersections) (Ok empty_intersections) tet_follows eq_refl K L N)) as V.
  rewrite tet_valid in V. exact (valid_moved _ _ V eq_refl).
Qed.
(** *** Predicates that follow a motion: exact ones, on integer coordinates, and the central symmetry *)
Lemma coordinate_opp : forall d, coordinate (SFopp d) = (- coordinate d)%Z.
Proof. intros [s|s| |s m e]; cbn; try reflexivity. destruct s; cbn [negb]; lia. Qed.
Lemma xc_opposite : forall p i, xc (opposite p) i = (- xc p i)%Z.
Proof.
  intros p i. unfold xc, opposite. destruct (le_lt_dec (length p) i) as [L|L].
  - rewrite !nth_overflow; [reflexivity|exact L|rewrite map_length; exact L].
  - rewrite (nth_indep _ _ (SFopp (S754_zero false))), map_nth, coordinate_opp; [reflexivity|rewrite map_length; exact L].
Qed.
Lemma orient2_opposite : forall a b c, orient2 (opposite a) (opposite b) (opposite c) = orient2 a b c.
Proof. intros a b c. unfold orient2. rewrite !xc_opposite. f_equal. ring. Qed.
Lemma orient3_opposite : forall a b c d, orient3 (opposite a) (opposite b) (opposite c) (opposite d) = (- orient3 a b c d)%Z.
Proof. intros a b c d. unfold orient3. cbv zeta. rewrite !xc_opposite, <- Z.sgn_opp. f_equal. ring. Qed.
Lemma eqb_opp : forall z, Z.eqb (- z) 0 = Z.eqb z 0.
Proof. intros [|p|p]; reflexivity. Qed.
Lemma mult_opp : forall a b, (- a * - b = a * b)%Z.
Proof. intros. ring. Qed.
Lemma exact_follows : predicates_follow opposite exact_px exact_px.
Proof.
  constructor.
  - intros p [[a b] c]. cbn [px_point_triangle exact_px exact_point moved_triangle]. rewrite !orient2_opposite. reflexivity.
  - intros [a b] [c d]. cbn [px_segment_segment exact_px exact_segments moved_segment fst snd]. rewrite !orient2_opposite. reflexivity.
  - intros [p q] [[a b] c]. cbn [px_segment_triangle exact_px exact_triangle moved_segment moved_triangle fst snd]. cbv zeta. unfold in_triangle, on_segment. rewrite !orient3_opposite, !mult_opp, !eqb_opp. reflexivity.
  - reflexivity.
  - reflexivity.
Qed.
(** the two crossings of [br_model] (two triangles, a line through a triangle) are those of its image *)
Example br_moved : forall r, brep_inspect_intersections exact_px (moved_model opposite (fun _ => ""%string) br_model) br_trees br_lines r ->
  exists l, r = Ok l /\ forall x, In x (ii_issues l) <->
    x = ((mkCID SurfaceT 0, 0), (mkCID SurfaceT 1, 0)) \/ x = ((mkCID SurfaceT 0, 0), (mkCID LineT 10, 0)).
Proof. intros r H. apply br_found. apply (C86_brep_intersections opposite (fun _ => ""%string) exact_px exact_px br_model br_trees br_lines r exact_follows), H. Qed.
(** the boxes of the two triangles of the first surface apart: nothing else is found, nothing is missed *)
Definition br_trees' := mkTrees [1; 0] [(1, 0)] (fun i => match i with 0 => [(0, 0)] | _ => [(0, 0); (1, 1)] end)
  (fun i j => match i with 1 => [(0, 0)] | _ => [(0, 0)] end).
Lemma br_ready' : intersections_ready exact_px br_model br_trees' /\ line_trees_of br_model br_trees' br_lines.
Proof.
  destruct br_ready as (R & L & _). split.
  - destruct R as [R1 R2 R3 R4 R5]. constructor; try assumption. destruct R2 as [T1 T2 T3 T4 T5 T6]. constructor; try assumption.
    + intros s i Hs Hi p q Hpq. apply (T5 s i Hs Hi p q). destruct i as [|i]; cbn in *; intuition.
    + intros s1 s2 i j H1 H2 E1 E2 p q Hpq. apply (T6 s1 s2 i j H1 H2 E1 E2 p q). destruct i as [|[|i]]; cbn in *; intuition.
  - destruct L as [L1 L2 L3]. constructor; assumption.
Qed.
Lemma br_same_pairs : same_meeting_pairs exact_px br_model br_trees br_trees'.
Proof.
  destruct br_ready as (R & _). set (A := mkComponent 0 None true br1). set (B := mkComponent 1 None true br2).
  assert (SS : forall s, In s (m_surfaces br_model) -> s = A \/ s = B) by (intros s [<-|[<-|[]]]; [left|right]; reflexivity).
  assert (HA : In A (m_surfaces br_model)) by (left; reflexivity). assert (HB : In B (m_surfaces br_model)) by (right; left; reflexivity).
  intros s1 s2 c [_ M]. split; intros [(-> & Hs & Ha & i & Ei & Hc)|(H1 & H2 & i & j & Hij & E1 & E2 & Hc)].
  - left. split; [reflexivity|]. split; [exact Hs|]. split; [exact Ha|]. exists i. split; [exact Ei|]. destruct i as [|i]; [exact Hc|]. cbn in Hc |- *. destruct Hc as [<-|Hc]; [|tauto]. exfalso.
    destruct (SS s2 Hs) as [->| ->]; [|destruct i as [|[|]]; discriminate Ei].
    destruct (C29_polygons exact_px br_model A A 0 1 exact_indices) as (b & Eb & Hb); [discriminate|apply (ir_surfaces _ _ _ R); exact HA|apply (ir_surfaces _ _ _ R); exact HA|cbn; lia|cbn; lia|].
    vm_compute in Eb. injection Eb as <-. discriminate (proj2 Hb M).
  - right. split; [exact H1|]. split; [exact H2|]. exists i, j. split; [exact Hij|]. split; [exact E1|]. split; [exact E2|]. destruct Hij as [[= <- <-]|[]]. cbn in Hc |- *. destruct Hc as [<-|Hc]; [|exact Hc]. exfalso.
    destruct (SS s1 H1) as [->| ->]; [|discriminate E1]. destruct (SS s2 H2) as [->| ->]; [discriminate E2|].
    destruct (C29_polygons exact_px br_model A B 1 0 exact_indices) as (b & Eb & Hb); [discriminate|apply (ir_surfaces _ _ _ R); exact HA|apply (ir_surfaces _ _ _ R); exact HB|cbn; lia|cbn; lia|].
    vm_compute in Eb. injection Eb as <-. discriminate (proj2 Hb M).
  - left. split; [reflexivity|]. split; [exact Hs|]. split; [exact Ha|]. exists i. split; [exact Ei|]. destruct i as [|i]; [exact Hc|]. cbn in Hc |- *. tauto.
  - right. split; [exact H1|]. split; [exact H2|]. exists i, j. split; [exact Hij|]. split; [exact E1|]. split; [exact E2|]. destruct Hij as [[= <- <-]|[]]. cbn in Hc |- *. tauto.
Qed.
Example br_moved_other_boxes : forall r, brep_inspect_intersections exact_px (moved_model opposite (fun _ => ""%string) br_model) br_trees' br_lines r ->
  exists l, r = Ok l /\ forall x, In x (ii_issues l) <->
    x = ((mkCID SurfaceT 0, 0), (mkCID SurfaceT 1, 0)) \/ x = ((mkCID SurfaceT 0, 0), (mkCID LineT 10, 0)).
Proof.
  intros r' H'. destruct br_ready as (R & LT & LE & Big & Hne & Hnl). destruct br_ready' as (R' & LT').
  destruct (proj1 (proj2 (C27_C48_queries_terminate exact_px br_model br_trees br_lines))) as (r & H). destruct (br_found r H) as (l0 & -> & E).
  destruct (C86_brep_other_boxes opposite (fun _ => ""%string) exact_px exact_px br_model br_trees br_trees' br_lines br_lines _ r' exact_follows R R' LT LT' LE Big Hne Hnl br_same_pairs
    (fun s l c _ => iff_refl _) H H') as (l & l' & [= <-] & -> & K).
  exists l'. split; [reflexivity|]. intros x. rewrite K. apply E.
Qed.
