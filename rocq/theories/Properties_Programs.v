(** C64: the command line programs.  Vocabulary: Spec_Programs.v. *)
From Coq Require Import String Ascii List Arith NArith ZArith Bool Lia.
From Verif Require Import Base BaseFacts Model_Issues Types Model_Colocation Model_Adjacency Model_Hash Model_Degeneration Model_Negative Model_Manifold Model_Intersections
  Model_Topology Model_BRep Model_Blocks Model_Results Model_Programs Spec_Results Spec_Messages Spec_TopologyMessages Spec_Valid Spec_ValidModels Spec_Colocation Spec_Intersections
  Spec_Topology Spec_BRep Spec_Blocks Spec_Programs Proof_Programs Proof_Programs2 Proof_Valid Proof_ValidModels2 Proof_ValidModels3 Proof_ValidModels4
  Proof_Results Proof_Messages Properties_Intersections Properties_Messages Properties_TopologyMessages Properties_BRep Properties_Blocks Properties_Topology Properties_Parallel
  Properties_ValidModels Properties_Valid Proof_Topology2 Proof_Intersections.
Import ListNotations.
Open Scope list_scope.

(** ** Which input factory reads the file *)
Lemma find_read_as : forall w formats file f, read_as w formats file f <-> find (fun g => w_creates w g (w_extension w file)) formats = Some f.
Proof.
  intros w formats file f. split.
  - intros (before & after & -> & C & N). induction before as [|g before IH]; cbn [find List.app]; [rewrite C; reflexivity|]. rewrite (N g (or_introl eq_refl)).
    apply IH. intros h H. apply N. right. exact H.
  - induction formats as [|g l IH]; cbn [find]; [discriminate|]. destruct (w_creates w g (w_extension w file)) eqn:E.
    + intros [= <-]. exists [], l. split; [reflexivity|]. split; [exact E|]. intros h [].
    + intros H. destruct (IH H) as (b & a & -> & C & N). exists (g :: b), a. split; [reflexivity|]. split; [exact C|]. intros h [<-|H']; [exact E|apply N, H'].
Qed.
Lemma find_nobody : forall w formats file, (forall f, In f formats -> w_creates w f (w_extension w file) = false) <->
  find (fun g => w_creates w g (w_extension w file)) formats = None.
Proof.
  intros w formats file. split.
  - intros H. induction formats as [|g l IH]; cbn [find]; [reflexivity|]. rewrite (H g (or_introl eq_refl)). apply IH. intros f F. apply H. right. exact F.
  - intros H f F. exact (find_none _ _ H f F).
Qed.

(** the formats each program tries, in order *)
Definition pointset_formats := [PointSet3D; PointSet2D].
Definition curve_formats := [EdgedCurve3D; EdgedCurve2D].
Definition surface_formats_tried := [TriangulatedSurface3D; PolygonalSurface3D; TriangulatedSurface2D; PolygonalSurface2D; RegularGrid2D].
Definition solid_formats_tried := [TetrahedralSolid3D; PolyhedralSolid3D; HybridSolid3D; RegularGrid3D].
Definition triangulated_formats := [TriangulatedSurface3D; TriangulatedSurface2D].

(** ** Status and texts *)
(** a run that ends: either status 0 and one text, or the status of an error and no text *)
Definition told (w : World) (run : Run) : Prop :=
  (exists text, run = Exited 0 [text]) \/ (exists e, run = Exited (w_lippincott w e) []) \/ run = Undefined.
Lemma finish_told : forall w o, told w (finish w o).
Proof. intros w [t|e|]; unfold told; cbn; eauto. Qed.
Theorem C64_status : forall w q input, errors_are_signalled w -> forall run,
  run = pointset_main w q input \/ run = edgedcurve_main w q input \/ surface_main w q input run \/ run = solid_main w q input \/
  (exists curve, surface_curve_main w q input curve run) \/ (exists format default, section_program w q format default input run) \/
  (exists format default, brep_program w q format default input run) ->
  forall status info, run = Exited status info -> (status = 0 <-> info <> []) /\ List.length info <= 1.
Proof.
  intros w q input E run H. assert (T : told w run).
  { destruct H as [->|[->|[H|[->|[H|[H|H]]]]]]; try apply finish_told.
    - unfold surface_main in H. destruct (load_first _ _ _ _) as [n|e|]; [destruct H as (ints & _ & ->); apply finish_told|subst; apply (finish_told w (Throw e))|subst; right; right; reflexivity].
    - destruct H as (curve & H). unfold surface_curve_main in H. cbv zeta in H. destruct (find _ _) as [f|]; [|subst; apply (finish_told w (Throw OpenGeodeExn))].
      destruct H as (pair & _ & H). destruct pair as [[n c]|e|]; [destruct H as (r & _ & ->); apply finish_told|subst; apply (finish_told w (Throw e))|subst; right; right; reflexivity].
    - destruct H as (f & d & H). unfold section_program in H. destruct (w_model _ _ _) as [n|e|]; [destruct H as (ints & _ & ->); apply finish_told|subst; apply (finish_told w (Throw e))|subst; right; right; reflexivity].
    - destruct H as (f & d & H). unfold brep_program in H. destruct (w_model _ _ _) as [n|e|]; [destruct H as (ints & _ & ->); apply finish_told|subst; apply (finish_told w (Throw e))|subst; right; right; reflexivity]. }
  intros status info ->. destruct T as [(t & [= -> ->])|[(e & [= -> ->])|T]]; [| |discriminate T].
  - split; [|cbn; lia]. split; [intros _ K; discriminate K|reflexivity].
  - split; [|cbn; lia]. split; [intros K; destruct (E e K)|intros K; destruct (K eq_refl)].
Qed.

(** a flag that is not given has a default value *)
Theorem C64_defaults : forall w q run,
  (run = pointset_main w q None <-> run = pointset_main w q (Some "/path/my/pointset.og_pts3d"%string)) /\
  (run = edgedcurve_main w q None <-> run = edgedcurve_main w q (Some "/path/my/curve.og_edc3d"%string)) /\
  (surface_main w q None run <-> surface_main w q (Some "/path/my/surface.og_tsf3d"%string) run) /\
  (run = solid_main w q None <-> run = solid_main w q (Some "/path/my/solid.og_tso3d"%string)) /\
  (surface_curve_main w q None None run <-> surface_curve_main w q (Some "/path/my/surface.og_tsf3d") (Some "/path/my/curve.og_edc3d") run)%string /\
  (section_main w q None run <-> section_main w q (Some "/path/my/model.og_sctn"%string) run) /\
  (cross_section_main w q None run <-> cross_section_main w q (Some "/path/my/model.og_xsctn"%string) run) /\
  (implicit_cross_section_main w q None run <-> implicit_cross_section_main w q (Some "/path/my/model.og_ixsctn"%string) run) /\
  (brep_main w q None run <-> brep_main w q (Some "/path/my/model.og_brep"%string) run) /\
  (structural_model_main w q None run <-> structural_model_main w q (Some "/path/my/model.og_strm"%string) run) /\
  (implicit_structural_model_main w q None run <-> implicit_structural_model_main w q (Some "/path/my/model.og_istrm"%string) run).
Proof. intros w q run. repeat (split; [reflexivity|]). reflexivity. Qed.

(** a file nobody can read: the status of an [OpenGeodeException] *)
Theorem C64_unknown_extension : forall w q file,
  let unknown formats := forall f, In f formats -> w_creates w f (w_extension w file) = false in
  let error := Exited (w_lippincott w OpenGeodeExn) [] in
  (unknown pointset_formats -> pointset_main w q (Some file) = error) /\
  (unknown curve_formats -> edgedcurve_main w q (Some file) = error) /\
  (unknown surface_formats_tried -> forall run, surface_main w q (Some file) run <-> run = error) /\
  (unknown solid_formats_tried -> solid_main w q (Some file) = error) /\
  (unknown triangulated_formats -> forall curve run, surface_curve_main w q (Some file) curve run <-> run = error).
Proof.
  intros w q file unknown error. unfold unknown, error, pointset_main, edgedcurve_main, surface_main, solid_main, surface_curve_main, load_first, flag. cbv zeta.
  split; [|split; [|split; [|split]]]; intros H; apply find_nobody in H; fold surface_formats_tried in *; fold solid_formats_tried in *.
  1,2: match type of H with find _ ?l = _ => let l' := eval unfold pointset_formats, curve_formats in l in change l with l' in H end; rewrite H; reflexivity.
  - change surface_formats with surface_formats_tried. rewrite H. reflexivity.
  - change solid_formats with solid_formats_tried. rewrite H. reflexivity.
  - unfold triangulated_formats in H. rewrite H. reflexivity.
Qed.

(** a file that cannot be loaded: the status of the exception *)
Theorem C64_load_error : forall w q file f e,
  (read_as w pointset_formats file f -> w_point_set w f file = Throw e -> pointset_main w q (Some file) = Exited (w_lippincott w e) []) /\
  (read_as w curve_formats file f -> w_edged_curve w f file = Throw e -> edgedcurve_main w q (Some file) = Exited (w_lippincott w e) []) /\
  (read_as w surface_formats_tried file f -> w_surface w f file = Throw e -> forall run, surface_main w q (Some file) run <-> run = Exited (w_lippincott w e) []) /\
  (read_as w solid_formats_tried file f -> w_solid w f file = Throw e -> solid_main w q (Some file) = Exited (w_lippincott w e) []) /\
  (forall format default, w_model w format file = Throw e ->
     (forall run, section_program w q format default (Some file) run <-> run = Exited (w_lippincott w e) []) /\
     (forall run, brep_program w q format default (Some file) run <-> run = Exited (w_lippincott w e) [])).
Proof.
  intros w q file f e. unfold pointset_main, edgedcurve_main, surface_main, solid_main, section_program, brep_program, load_first, flag.
  split; [|split; [|split; [|split]]]; [intros H L..|].
  - apply find_read_as in H. unfold pointset_formats in H. rewrite H, L. reflexivity.
  - apply find_read_as in H. unfold curve_formats in H. rewrite H, L. reflexivity.
  - apply find_read_as in H. change surface_formats with surface_formats_tried. rewrite H, L. reflexivity.
  - apply find_read_as in H. change solid_formats with solid_formats_tried. rewrite H, L. reflexivity.
  - intros format default L. rewrite L. split; reflexivity.
Qed.

(** ** What is printed for an object that was read *)
Theorem C64_pointset : forall w q file f m, read_as w pointset_formats file f -> w_point_set w f file = Ok m ->
  consistent (ps_points m) (g_colocated (q_geometry q) (ps_points m)) ->
  judges (pointset_main w q (Some file)) clean_point_set (points_apart (q_geometry q) (ps_points m)).
Proof.
  intros w q file f m F L C. apply find_read_as in F. unfold pointset_main, load_first, flag. unfold pointset_formats in F. rewrite F, L. cbn [bind].
  destruct (pointset_valid_spec (q_geometry q) m C) as (r & E & _ & S). rewrite E. cbn [bind finish]. eexists. split; [reflexivity|]. split; intros H.
  - apply (pointset_clean _ _ _ (C61_point_set _ _ _ E)), S, H.
  - apply pointset_announces. rewrite S. exact H.
Qed.
Theorem C64_edged_curve : forall w q file f m, read_as w curve_formats file f -> w_edged_curve w f file = Ok m ->
  consistent (ec_points m) (g_colocated (q_geometry q) (ec_points m)) ->
  judges (edgedcurve_main w q (Some file)) clean_edged_curve (sound_curve (q_geometry q) m).
Proof.
  intros w q file f m F L C. apply find_read_as in F. unfold edgedcurve_main, load_first, flag. unfold curve_formats in F. rewrite F, L. cbn [bind].
  destruct (curve_valid_spec (q_measures q) (q_geometry q) m C) as (r & E & _ & S). rewrite E. cbn [bind finish]. eexists. split; [reflexivity|]. split; intros H.
  - apply (curve_clean _ _ _ _ (C61_edged_curve _ _ _ _ E)), S, H.
  - apply curve_announces. rewrite S. exact H.
Qed.
Theorem C64_surface : forall w q file f n, read_as w surface_formats_tried file f -> w_surface w f file = Ok n ->
  surface_queries (q_geometry q) (n_mesh n) -> forall run, surface_main w q (Some file) run ->
  judges run (clean_surface (n_name n)) (sound_surface (q_measures q) (q_geometry q) (q_predicates q) (q_candidates q (n_mesh n)) (n_mesh n)).
Proof.
  intros w q file f n F L Q run R. apply find_read_as in F. unfold surface_main, load_first, flag in R. change surface_formats with surface_formats_tried in R.
  rewrite F, L in R. destruct R as (ints & I & ->).
  destruct (surface_valid_spec (q_measures q) (q_geometry q) (q_hash q) (n_name n) (q_predicates q) (q_candidates q (n_mesh n)) (n_mesh n) (new_inspector (n_edges n)) ints Q I)
    as (r & E & _ & S).
  rewrite E. cbn [bind finish]. eexists. split; [reflexivity|]. split; intros H.
  - apply (surface_clean _ _ _ _ (C61_surface _ _ _ _ _ _ _ _ _ _ I E)), S, H.
  - apply surface_announces. rewrite S. exact H.
Qed.
Theorem C64_solid : forall w q file f n, read_as w solid_formats_tried file f -> w_solid w f file = Ok n -> solid_queries (q_geometry q) (n_mesh n) ->
  judges (solid_main w q (Some file)) (clean_solid (n_name n)) (sound_solid (q_measures q) (q_geometry q) (n_mesh n)).
Proof.
  intros w q file f n F L Q. apply find_read_as in F. unfold solid_main, load_first, flag. change solid_formats with solid_formats_tried. rewrite F, L. cbn [bind].
  destruct (solid_valid_spec (q_measures q) (q_geometry q) (q_hash q) (n_name n) (n_mesh n) (new_inspector (n_edges n)) Q) as (r & E & _ & S).
  rewrite E. cbn [bind finish]. eexists. split; [reflexivity|]. split; intros H.
  - apply (solid_clean _ _ _ _ (C61_solid _ _ _ _ _ _ _ E)), S, H.
  - apply solid_announces. rewrite S. exact H.
Qed.
(** the curve is read in the dimension of the surface; no triangle of the surface is crossed by an edge of the curve *)
Theorem C64_surface_curve : forall w q surface_file curve_file f n c, read_as w triangulated_formats surface_file f -> w_surface w f surface_file = Ok n ->
  w_edged_curve w (match f with TriangulatedSurface3D => EdgedCurve3D | _ => EdgedCurve2D end) curve_file = Ok c ->
  triangulated (n_mesh n) -> edges_exist c ->
  candidates_in_range (nb_polygons (n_mesh n)) (List.length (ec_edges c)) (q_curve_candidates q (n_mesh n) c) ->
  forall run, surface_curve_main w q (Some surface_file) (Some curve_file) run ->
  judges run clean_surface_curve (forall te, In te (q_curve_candidates q (n_mesh n) c) -> ~ curve_meets (q_predicates q) (n_mesh n) c te).
Proof.
  intros w q sf cf f n c F L1 L2 T X B run R. apply find_read_as in F. unfold surface_curve_main, flag in R. cbv zeta in R. unfold triangulated_formats in F. rewrite F in R.
  fold (curve_format f) in L2. rewrite L1, L2 in R. destruct R as (pair & P & R). cbn [load_pair] in P. subst pair. destruct R as (r & I & ->).
  destruct (C28_list_is_exact _ _ _ _ _ T X B I) as (l & -> & K & _). cbn [bind finish]. eexists. split; [reflexivity|].
  assert (S : is_empty (of_list l) <-> forall te, In te (q_curve_candidates q (n_mesh n) c) -> ~ curve_meets (q_predicates q) (n_mesh n) c te).
  { rewrite is_empty_list. split.
    - intros E te J M. assert (Z : In te (ii_issues l)) by (apply K; auto). rewrite E in Z. exact Z.
    - intros N. destruct (ii_issues l) as [|te k]; [reflexivity|]. exfalso. destruct (proj1 (K te) (or_introl eq_refl)) as [J M]. exact (N te J M). }
  split; intros H.
  - apply (clean_list _ _ _ _ (C61_curve_intersections _ _ _ _ _ I)). apply S, H.
  - apply (tells_list _ l). rewrite S. exact H.
Qed.
(** the two files are read in any order: when one cannot be, its exception ends the program *)
Theorem C64_surface_curve_error : forall w q surface_file curve_file f, read_as w triangulated_formats surface_file f ->
  forall run, surface_curve_main w q (Some surface_file) (Some curve_file) run -> forall status info, run = Exited status info -> info <> [] ->
  exists n c, w_surface w f surface_file = Ok n /\
    w_edged_curve w (match f with TriangulatedSurface3D => EdgedCurve3D | _ => EdgedCurve2D end) curve_file = Ok c.
Proof.
  intros w q sf cf f F run R status info -> N. apply find_read_as in F. unfold surface_curve_main, flag in R. cbv zeta in R. unfold triangulated_formats in F. rewrite F in R.
  fold (curve_format f). destruct R as (pair & P & R).
  destruct (w_surface w f sf) as [n|e|], (w_edged_curve w (curve_format f) cf) as [c|e'|]; cbn [load_pair] in P; eauto;
    exfalso; repeat match goal with K : _ \/ _ |- _ => destruct K end; subst pair; try discriminate R; cbn [finish] in R; injection R as _ ->; apply N; reflexivity.
Qed.

Theorem C64_section : forall w q format default file s, w_model w format file = Ok s ->
  let m := s_model s in let o := q_oracles q m in let trees := q_trees q m in
  section_ready o (q_predicates q) trees m ->
  (forall ints r, section_inspect_intersections (q_predicates q) m trees ints -> inspect_section o m (new_model_inspector (s_surface_edges s) (s_block_edges s)) ints = Ok r -> countable (section_categories (or_hash o) r)) ->
  forall run, section_program w q format default (Some file) run ->
  judges run clean_section (sound_section (or_measures o) (or_geometry o) (q_predicates q) trees m).
Proof.
  intros w q format default file s L m o trees R C run H. unfold section_program, flag in H. rewrite L in H. fold m in H. fold o in H. fold trees in H. destruct H as (ints & I & ->).
  destruct (section_valid_spec o (q_predicates q) trees m (s_surface_edges s) (s_block_edges s) R ints I) as (r & E & _ & S). rewrite E. cbn [bind finish].
  eexists. split; [reflexivity|]. pose proof (C ints r I E) as Cr. unfold inspect_section in E. cbv zeta in E. apply invoke_bind in E. destruct E as [E <-]. peel_ok E.
  repeat match goal with K : status _ = Ok tt |- _ => apply status_ok_inv in K; destruct K as (? & K) end.
  pose proof (so_ids _ (sr_ok _ _ _ _ R)) as U. pose proof (so_no_block _ (sr_ok _ _ _ _ R)) as NB.
  match goal with K : inspect_section_meshes _ _ _ _ = Ok ?a, K' : inspect_section_topology _ = Ok ?b |- _ =>
    rewrite K, K' in *; cbn [assigned] in *;
    pose proof (C62_section_meshes _ _ _ _ _ _ _ U (sr_links _ _ _ _ R) I K) as XM; pose proof (C63_section_topology _ _ U NB K') as (_ & _ & _ & XL) end.
  match goal with |- (_ -> section_string _ ?r = _) /\ _ => destruct (section_text o m r XM XL Cr) as [T1 T2] end. rewrite S in T1, T2. split; [exact T1|exact T2].
Qed.
(** the facets of the blocks around each polygon are as they should be *)
Definition facets_right (tl : TopoLookup) (m : Model) : Prop :=
  forall c p, inspected (m_surfaces m) c -> p < List.length (sm_polygons (co_mesh c)) -> ~ surface_facet_wrong tl m c p.
Theorem C64_brep : forall w q format default file s, w_model w format file = Ok s ->
  let m := s_model s in let o := q_oracles q m in let trees := q_trees q m in let lines := q_line_trees q m in
  brep_ready o (q_predicates q) trees lines m ->
  (forall ints r, brep_inspect_intersections (q_predicates q) m trees lines ints -> inspect_brep o m (new_model_inspector (s_surface_edges s) (s_block_edges s)) ints = Ok r -> countable (brep_categories (or_hash o) r)) ->
  forall run, brep_program w q format default (Some file) run ->
  exists parts, (forall b, In b (active_ids m BlockT) -> connected_parts m (block_surfaces m b) (parts b)) /\
  let sound := sound_brep (or_measures o) (or_geometry o) (q_predicates q) (or_topo o) trees lines m parts in
  exists text, run = Exited 0 [text] /\ (sound -> text = clean_brep) /\ (facets_right (or_topo o) m -> ~ sound -> announces text).
Proof.
  intros w q format default file s L m o trees lines R C run H. unfold brep_program, flag in H. rewrite L in H. fold m in H. fold o in H. fold trees in H. fold lines in H.
  destruct H as (ints & I & ->).
  destruct (brep_valid_spec o (q_predicates q) trees lines m (s_surface_edges s) (s_block_edges s) R ints I) as (r & parts & E & _ & P & S). rewrite E. cbn [bind finish].
  exists parts. split; [exact P|]. eexists. split; [reflexivity|]. pose proof (C ints r I E) as Cr. unfold inspect_brep in E. cbv zeta in E. apply invoke_bind in E. destruct E as [E <-]. peel_ok E.
  repeat match goal with K : status _ = Ok tt |- _ => apply status_ok_inv in K; destruct K as (? & K) end.
  pose proof (bd_ok _ _ _ _ _ R) as BO. pose proof (bo_brep _ _ BO) as BR. pose proof (br_ids _ BR) as U.
  match goal with K : inspect_brep_meshes _ _ _ _ = Ok ?a, K' : inspect_brep_topology _ _ = Ok ?b |- _ =>
    rewrite K, K' in *; cbn [assigned] in *;
    pose proof (C62_brep_meshes _ _ _ _ _ _ _ _ U (br_links m BR) I K) as XM; rename K' into KT; rename b into topo end.
  assert (XL : links_explained m (bt_links topo)).
  { pose proof KT as K'. unfold inspect_brep_topology in K'. cbv zeta in K'. apply bind_Ok in K'. destruct K' as (x' & _ & K'). apply bind_Ok in K'. destruct K' as (l & LK & K'). injection K' as <-.
    cbn [bt_links]. apply (links_report_text m cmv_exists_in_brep l U); [|exact LK]. intros c. apply cmv_exists_brep_iff, BR. }
  match goal with |- (_ -> brep_string _ ?r = _) /\ _ => destruct (brep_text o m r XM XL Cr) as [T1 T2] end. rewrite brep_printed_empty in S.
  split; [intros K; apply T1, S, K|]. intros FR N. apply T2. intros A. apply N. apply S. split; [exact A|]. cbn [r_brep_topology] in *.
  destruct (C39_brep_inspection (or_topo o) m BO (bd_topo _ _ _ _ _ R) (bd_inspectable _ _ _ _ _ R)) as (rc & rl & rs & rb & links & _ & _ & Es & _ & _ & ET).
  rewrite KT in ET. injection ET as ->. cbn [bt_surfaces]. destruct (C51_C45_brep_surfaces (or_topo o) m BR (bd_topo _ _ _ _ _ R)) as (rs' & E' & S0 & S4 & _).
  rewrite Es in E'. injection E' as <-. assert (MS : meshed_and_linked SurfaceT has_points_and_polygons nb_points2 m (m_surfaces m)).
  { apply (components_empty _ _ _ _ _ _ _ _ _ polygons_dec S0). unfold parts_categories, brep_parts, brep_surfaces_printed in A. cbn [map List.app List.concat p_categories r_brep_topology bt_surfaces] in A.
    unfold all_empty in A. rewrite Forall_forall in A.
    split; [apply (is_empty_list _ (bs_not_meshed rs)), A|apply length_zero_iff_nil; apply (A (of_map (or_hash o) (bs_not_linked rs)))];
      cbn; auto 45. }
  apply (elements_empty _ _ _ _ _ _ _ _ S4); [intros c J; apply (MS c J)| |exact FR].
  intros c p J _ Bp. right. exact (FR c p J Bp).
Qed.

(** ** The clean texts are recognisable *)
Lemma has_digit_app : forall a b, has_digit (a ++ b)%string = has_digit a || has_digit b.
Proof. induction a as [|c a IH]; intros b; [reflexivity|]. cbn [String.append has_digit]. rewrite IH. apply orb_assoc. Qed.
Lemma announces_digit : forall t, announces t -> has_digit t = true.
Proof.
  intros t (n & a & b & _ & ->). rewrite !has_digit_app. destruct (Proof_Issues.str_digit n) as (c & s & -> & D). cbn [has_digit].
  change (is_digit c) with (Proof_Issues.is_digit c). rewrite D. cbn [orb]. apply orb_true_r.
Qed.
Theorem C64_texts_differ : forall t, announces t -> t <> clean_point_set /\ t <> clean_edged_curve /\ t <> clean_surface_curve /\ t <> clean_section /\ t <> clean_brep /\
  (forall name, has_digit name = false -> t <> clean_surface name /\ t <> clean_solid name).
Proof.
  intros t A. apply announces_digit in A.
  assert (K : forall s, has_digit s = false -> t <> s) by congruence.
  split; [apply K; vm_compute; reflexivity|]. split; [apply K; vm_compute; reflexivity|]. split; [apply K; vm_compute; reflexivity|].
  split; [apply K; vm_compute; reflexivity|]. split; [apply K; vm_compute; reflexivity|].
  intros name N. split; apply K; unfold clean_surface, clean_solid, no_issues, line; rewrite !has_digit_app, N; reflexivity.
Qed.

(** ** Every program has an end *)
Lemma curve_runs : forall px surface curve candidates, exists r, curve_intersecting_elements px surface curve candidates r.
Proof.
  intros. destruct (Proof_Intersections.traverses_exists _ (record_action (edge_intersects_triangle px surface curve) false) candidates false []) as (f & F).
  eexists. exists f. split; [exact F|reflexivity].
Qed.
Theorem C64_runs : forall w q input other format default,
  (exists run, surface_main w q input run) /\ (exists run, surface_curve_main w q input other run) /\
  (exists run, section_program w q format default input run) /\ (exists run, brep_program w q format default input run).
Proof.
  intros w q input other format default. split; [|split; [|split]].
  - unfold surface_main. destruct (load_first _ _ _ _) as [n|e|]; [|eauto|eauto].
    destruct (proj1 (C26_queries_terminate (q_predicates q) (n_mesh n) (q_candidates q (n_mesh n)))) as (ints & I). eauto.
  - unfold surface_curve_main. cbv zeta. destruct (find _ _) as [f|]; [|eauto].
    assert (P : exists pair, load_pair (w_surface w f (flag input "/path/my/surface.og_tsf3d")) (w_edged_curve w (curve_format f) (flag other "/path/my/curve.og_edc3d")) pair).
    { destruct (w_surface _ _ _) as [n|e|], (w_edged_curve _ _ _) as [c|e'|]; cbn [load_pair]; eauto. }
    destruct P as (pair & P). destruct pair as [[n c]|e|].
    + destruct (curve_runs (q_predicates q) (n_mesh n) c (q_curve_candidates q (n_mesh n) c)) as (r & I). eexists. exists (Ok (n, c)). split; [exact P|]. exists r. eauto.
    + eexists. exists (Throw e). split; [exact P|reflexivity].
    + eexists. exists UB. split; [exact P|reflexivity].
  - unfold section_program. destruct (w_model _ _ _) as [s|e|]; [|eauto|eauto].
    destruct (proj1 (C27_C48_queries_terminate (q_predicates q) (s_model s) (q_trees q (s_model s)) (q_line_trees q (s_model s)))) as (ints & I). eauto.
  - unfold brep_program. destruct (w_model _ _ _) as [s|e|]; [|eauto|eauto].
    destruct (proj1 (proj2 (C27_C48_queries_terminate (q_predicates q) (s_model s) (q_trees q (s_model s)) (q_line_trees q (s_model s))))) as (ints & I). eauto.
Qed.

(** ** Examples *)
From Verif Require Import Proof_Messages2 Proof_GoodModels Properties_Results Proof_TopologyCheck Proof_BRepCheck Proof_Adjacency Proof_Searches.
From Coq Require Import Floats.SpecFloat.
Local Open Scope string_scope.
(** a disk with one file of each kind; files whose name is "broken" cannot be loaded *)
Definition a_world : World := mkWorld (fun file => if String.eqb file "notes.txt" then "txt" else "geode")
  (fun f ext => String.eqb ext "geode" && match f with PointSet3D | EdgedCurve2D | TriangulatedSurface3D | TetrahedralSolid3D => true | _ => false end)
  (fun _ file => if String.eqb file "broken" then Throw OtherExn else Ok (mkPointSet [pt 0; pt (if String.eqb file "twice" then 0 else 1)]))
  (fun _ file => if String.eqb file "broken" then Throw OtherExn else Ok (co_mesh (good_line 0 0 1)))
  (fun _ file => if String.eqb file "broken" then Throw OtherExn else Ok (mkNamed (if String.eqb file "torn" then torn_square else square) "square" false))
  (fun _ file => if String.eqb file "broken" then Throw OtherExn else Ok (mkNamed tetrahedron "tetrahedron" false))
  (fun f file => if String.eqb file "broken" then Throw OtherExn
     else match f with SectionF | CrossSectionF | ImplicitCrossSectionF => Ok (mkStored good_section (fun _ => false) (fun _ => false))
                     | _ => Ok (mkStored good_tet (fun _ => false) (fun _ => false)) end)
  (fun e => match e with OpenGeodeExn => 1 | OtherExn => 2 end).
Definition some_queries (tl : TopoLookup) : Queries := mkQueries exact_measures exact_geo any_order quiet_px (fun _ => []) (fun _ _ => [(0, 0)])
  (fun m => mkOracles exact_measures exact_geo any_order (search_lookup m) tl) (fun m => match m_blocks m with [] => section_trees | _ => brep_trees end) (fun _ => brep_line_trees).
Definition my_queries := some_queries tet_tl.
Example world_signals : errors_are_signalled a_world.
Proof. intros [|]; discriminate. Qed.
Example pointset_runs : judges (pointset_main a_world my_queries (Some "once")) clean_point_set (points_apart exact_geo [pt 0; pt 1]) /\
  judges (pointset_main a_world my_queries (Some "twice")) clean_point_set (points_apart exact_geo [pt 0; pt 0]) /\
  pointset_main a_world my_queries (Some "once") = Exited 0 ["no issues with groups of colocated points" ++ newline] /\
  pointset_main a_world my_queries (Some "broken") = Exited 2 [] /\ pointset_main a_world my_queries (Some "notes.txt") = Exited 1 [].
Proof.
  split; [|split; [|split; [|split]]]; [| |vm_compute; reflexivity..].
  - apply (C64_pointset a_world my_queries "once" PointSet3D (mkPointSet [pt 0; pt 1])); [apply find_read_as; reflexivity|reflexivity|apply exact_consistent].
  - apply (C64_pointset a_world my_queries "twice" PointSet3D (mkPointSet [pt 0; pt 0])); [apply find_read_as; reflexivity|reflexivity|apply exact_consistent].
Qed.
Example curve_prints : edgedcurve_main a_world my_queries (Some "curve") = Exited 0 [clean_edged_curve].
Proof.
  destruct (C64_edged_curve a_world my_queries "curve" EdgedCurve2D (co_mesh (good_line 0 0 1))) as (t & -> & H & _);
    [apply find_read_as; reflexivity|reflexivity|apply exact_consistent|]. rewrite H; [reflexivity|apply curve_sound].
Qed.
Example surface_prints : forall run, surface_main a_world my_queries (Some "good") run -> run = Exited 0 [clean_surface "square"].
Proof.
  intros run H. destruct (C64_surface a_world my_queries "good" TriangulatedSurface3D (mkNamed square "square" false)) with (run := run) as (t & -> & K & _);
    [apply find_read_as; reflexivity|reflexivity|exact square_queries|exact H|]. rewrite K; [reflexivity|apply square_sound].
Qed.
Lemma torn_queries : surface_queries exact_geo torn_square.
Proof.
  constructor; try (apply square_queries).
  intros e q He Hq. apply in_all_polygon_edges in He. cbn in He. repeat (destruct He as [<-|He]; [cbn in Hq; try discriminate Hq; injection Hq as <-; cbn; lia|]). destruct He.
Qed.
(** an unsound surface: status 0 all the same, and another text *)
Example torn_surface_prints : forall run, surface_main a_world my_queries (Some "torn") run -> exists text, run = Exited 0 [text] /\ announces text /\ text <> clean_surface "square".
Proof.
  intros run H. destruct (C64_surface a_world my_queries "torn" TriangulatedSurface3D (mkNamed torn_square "square" false)) with (run := run) as (t & -> & _ & K);
    [apply find_read_as; reflexivity|reflexivity|exact torn_queries|exact H|]. exists t. split; [reflexivity|].
  assert (A : announces t) by (apply K, torn_square_unsound). split; [exact A|]. apply C64_texts_differ; [exact A|reflexivity].
Qed.
Example solid_prints : solid_main a_world my_queries (Some "solid") = Exited 0 [clean_solid "tetrahedron"].
Proof.
  destruct (C64_solid a_world my_queries "solid" TetrahedralSolid3D (mkNamed tetrahedron "tetrahedron" false)) as (t & -> & H & _);
    [apply find_read_as; reflexivity|reflexivity|exact tetrahedron_queries|]. rewrite H; [reflexivity|apply tetrahedron_sound].
Qed.
Example surface_curve_prints : forall run, surface_curve_main a_world my_queries (Some "good") (Some "curve") run -> run = Exited 0 [clean_surface_curve].
Proof.
  intros run H. destruct (C64_surface_curve a_world my_queries "good" "curve" TriangulatedSurface3D (mkNamed square "square" false) (co_mesh (good_line 0 0 1))) with (run := run)
    as (t & -> & K & _); [apply find_read_as; reflexivity|reflexivity|reflexivity|..].
  - intros p Hp. cbn in Hp. destruct p as [|[|p]]; [exists (pt 0, pt 1, pt 2), 0, 1, 2|exists (pt 0, pt 2, pt 3), 0, 2, 3|lia]; repeat split; reflexivity.
  - intros e He. cbn in He. assert (e = 0) by lia. subst e. exists (pt 0, pt 1), 0, 1. repeat split; reflexivity.
  - intros p e [[= <- <-]|[]]. cbn. lia.
  - exact H.
  - rewrite K; [reflexivity|]. intros te [<-|[]] (t' & s & _ & _ & M). cbn in M. destruct M as [(p & _ & M)|(M & _)]; [discriminate M|]. apply M. reflexivity.
Qed.

Lemma section_silent : forall ints, section_inspect_intersections quiet_px good_section section_trees ints -> exists l, ints = Ok l /\ ii_issues l = [].
Proof.
  intros ints I. destruct (section_intersections_empty section_oracles quiet_px section_trees good_section section_is_ready ints I) as (l & -> & L). exists l. split; [reflexivity|].
  apply L; [intros s H _; apply one_polygon in H as ->; discriminate|apply section_sound].
Qed.
Example section_prints : forall run, section_main a_world my_queries (Some "model") run -> run = Exited 0 [clean_section].
Proof.
  intros run H. destruct (C64_section a_world my_queries SectionF "/path/my/model.og_sctn" "model" (mkStored good_section (fun _ => false) (fun _ => false))) with (run := run)
    as (t & -> & K & _); [reflexivity|exact section_is_ready| |exact H|rewrite K; [reflexivity|apply section_sound]].
  intros ints r I E. destruct (section_silent ints I) as (l & -> & Z). destruct l as [d i t]. cbn [ii_issues] in Z. subst i. vm_compute in E. injection E as <-. vm_compute. reflexivity.
Qed.
Lemma brep_silent : forall ints, brep_inspect_intersections quiet_px good_tet brep_trees brep_line_trees ints -> exists l, ints = Ok l /\ ii_issues l = [].
Proof.
  intros ints I. destruct (brep_intersections_empty brep_oracles quiet_px brep_trees brep_line_trees good_tet brep_is_ready ints I) as (l & -> & L). exists l. split; [reflexivity|].
  destruct brep_sound as (parts & _ & S). apply L.
  - intros s H _. destruct (tet_surfaces_are s H) as (id & u & w & x & ->). discriminate.
  - intros s H _. destruct (tet_lines_are s H) as (id & u & w & ->). discriminate.
  - split; [apply (sbr_surfaces_apart _ _ _ _ _ _ _ _ S)|apply (sbr_lines_apart _ _ _ _ _ _ _ _ S)].
Qed.

(** the result of the search for intersections in the tetrahedron *)
Lemma tet_intersections : forall ints, brep_inspect_intersections quiet_px good_tet brep_trees brep_line_trees ints -> ints = Ok (mkIssues "intersections" [] []).
Proof.
  intros ints I. destruct (brep_silent ints I) as (l & -> & Z). pose proof (Proof_Messages2.brep_intersections_explained _ _ _ _ _ I) as (D & F).
  destruct l as [d i t]. cbn in Z, D, F. subst. inversion F. reflexivity.
Qed.
Example brep_prints : forall run, brep_main a_world my_queries (Some "model") run -> run = Exited 0 [clean_brep].
Proof. intros run H. destruct H as (ints & I & ->). rewrite (tet_intersections ints I). vm_compute. reflexivity. Qed.
(** *** A BRep that is not sound and whose text is the clean one: the facets are never printed *)
Lemma facet_ready : brep_ready (q_oracles (some_queries facet_tl) good_tet) quiet_px brep_trees brep_line_trees good_tet.
Proof.
  pose proof brep_is_ready as [B0 B1 B2 B3 B4 B5 B6 B7 B8 B9 B10 B11 B12].
  assert (B : blocks_ok facet_tl good_tet) by (apply blocksb_ok; [apply tables_safe|apply tables_safe|vm_compute; reflexivity]).
  constructor; try assumption. apply tableb_ok. vm_compute. reflexivity.
Qed.
Theorem C64_clean_output_refuted : exists w q file s, w_model w BRepF file = Ok s /\
  brep_ready (q_oracles q (s_model s)) (q_predicates q) (q_trees q (s_model s)) (q_line_trees q (s_model s)) (s_model s) /\
  (exists run, brep_main w q (Some file) run) /\
  (forall run, brep_main w q (Some file) run -> run = Exited 0 [clean_brep]) /\
  (exists c p, inspected (m_surfaces (s_model s)) c /\ p < List.length (sm_polygons (co_mesh c)) /\ surface_facet_wrong (or_topo (q_oracles q (s_model s))) (s_model s) c p) /\
  forall parts, ~ sound_brep (or_measures (q_oracles q (s_model s))) (or_geometry (q_oracles q (s_model s))) (q_predicates q) (or_topo (q_oracles q (s_model s)))
    (q_trees q (s_model s)) (q_line_trees q (s_model s)) (s_model s) parts.
Proof.
  exists a_world, (some_queries facet_tl), "model", (mkStored good_tet (fun _ => false) (fun _ => false)).
  assert (W : exists c p, inspected (m_surfaces good_tet) c /\ p < List.length (sm_polygons (co_mesh c)) /\ surface_facet_wrong facet_tl good_tet c p).
  { exists (good_surface 100 3 1 2 3), 0. split; [split; [cbn; tauto|reflexivity]|]. split; [cbn; lia|]. split.
    - intros b H. cbn in H. destruct H as [<-|[]]. discriminate.
    - exists [1; 2; 3]. split; [repeat constructor|]. exists 1000, 2. split; [left; reflexivity|]. split; [left; reflexivity|]. left. split; [|discriminate]. exists SurfaceT, BlockT. cbn. tauto. }
  split; [reflexivity|]. split; [exact facet_ready|]. split; [apply (C64_runs a_world (some_queries facet_tl) (Some "model") None BRepF)|].
  split; [|split; [exact W|]].
  - intros run (ints & I & ->). rewrite (tet_intersections ints I). vm_compute. reflexivity.
  - intros parts S. destruct W as (c & p & J & Bp & Wr). exact (bt_surface_facets _ _ _ (sbr_topology _ _ _ _ _ _ _ _ S) c p J Bp Wr).
Qed.
Print Assumptions C64_status.
Print Assumptions C64_defaults.
Print Assumptions C64_unknown_extension.
Print Assumptions C64_load_error.
Print Assumptions C64_pointset.
Print Assumptions C64_edged_curve.
Print Assumptions C64_surface.
Print Assumptions C64_solid.
Print Assumptions C64_surface_curve.
Print Assumptions C64_surface_curve_error.
Print Assumptions C64_section.
Print Assumptions C64_brep.
Print Assumptions C64_texts_differ.
Print Assumptions C64_runs.
Print Assumptions C64_clean_output_refuted.
