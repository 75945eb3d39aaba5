(** Inspections and texts: two orders, the same reports. *)
From Coq Require Import String Ascii List Arith NArith Bool Lia Permutation.
From Verif Require Import Base BaseFacts Model_Hash Model_Issues Types Model_Colocation Model_Degeneration Model_Adjacency Model_Negative Model_Manifold Model_Intersections
  Model_Topology Model_BRep Model_Blocks Model_Results Model_Validity Spec_Reproducible Proof_Reproducible Proof_Reproducible2.
Import ListNotations.
Open Scope list_scope.

(** ** Inspections *)
Ltac steps := repeat match goal with |- agree _ (bind ?o _) (bind ?o _) => destruct o; cbn [bind]; try constructor end.
Lemma assigned_same : forall T (d : InspectionIssues T) o o', paired d -> agree same_issues o o' -> same_issues (assigned d o) (assigned d o').
Proof. intros T d o o' P [a a' H|e|]; cbn [assigned]; [exact H|apply same_refl, P..]. Qed.
Lemma surface_agree : forall ms geo ho ho' name m st ints ints', agree same_issues ints ints' ->
  agree same_surface_result (inspect_surface ms geo ho name m st ints) (inspect_surface ms geo ho' name m st ints').
Proof.
  intros ms geo ho ho' name m st ints ints' A. unfold inspect_surface. cbv zeta. rewrite <- (agree_status _ _ _ _ A). steps.
  constructor; cbn; try reflexivity; [apply surface_edges_same|]. apply assigned_same; [reflexivity|exact A].
Qed.
Lemma solid_agree : forall ms geo ho ho' name m st, agree same_solid_result (inspect_solid ms geo ho name m st) (inspect_solid ms geo ho' name m st).
Proof. intros. unfold inspect_solid. cbv zeta. steps. constructor; cbn; try reflexivity. apply solid_facets_same. Qed.
Definition same_brep_manifold (r r' : BRepManifoldResult) : Prop :=
  bm_vertices r = bm_vertices r' /\ same_map (bm_edges r) (bm_edges r') /\ same_map (bm_facets r) (bm_facets r') /\
  same_issues (bm_model_edges r) (bm_model_edges r') /\ bm_model_facets r = bm_model_facets r'.
Definition same_section_manifold (r r' : SectionManifoldResult) : Prop := sn_vertices r = sn_vertices r' /\ same_map (sn_edges r) (sn_edges r').
Lemma section_manifold_agree : forall geo ho ho' m, agree same_section_manifold (inspect_section_manifold geo ho m) (inspect_section_manifold geo ho' m).
Proof.
  intros geo ho ho' m. unfold inspect_section_manifold. steps. eapply agree_bind; [apply surfaces_edges_agree, same_map_new|]. intros e e' E. constructor. split; [reflexivity|exact E].
Qed.
Lemma brep_manifold_agree : forall geo ho ho' m, agree same_brep_manifold (inspect_brep_manifold geo ho m) (inspect_brep_manifold geo ho' m).
Proof.
  intros geo ho ho' m. unfold inspect_brep_manifold. steps. eapply agree_bind; [apply component_edges_agree, same_map_new|]. intros e e' E.
  eapply agree_bind; [apply component_facets_agree, same_map_new|]. intros f f' F.
  eapply agree_bind; [apply model_edges_agree, same_refl, paired_new|]. intros g g' G. steps. split; [reflexivity|]. cbn. auto.
Qed.
Definition same_section_meshes (r r' : SectionMeshesResult) : Prop := forall t, same_section_result (mkSectionResult r t) (mkSectionResult r' t).
Definition same_brep_meshes (r r' : BRepMeshesResult) : Prop := forall t, same_brep_result (mkBRepResult r t) (mkBRepResult r' t).
Lemma section_meshes_agree : forall o ho' m st ints ints', agree same_issues ints ints' ->
  agree same_section_meshes (inspect_section_meshes o m st ints) (inspect_section_meshes (with_hash o ho') m st ints').
Proof.
  intros o ho' m st ints ints' A. unfold inspect_section_meshes. cbn [with_hash or_measures or_geometry or_hash or_lookup or_topo]. cbv zeta.
  pose proof (section_manifold_agree (or_geometry o) (or_hash o) ho' m) as B. unfold Intersections in *. rewrite <- (agree_status _ _ _ _ A), <- (agree_status _ _ _ _ B). steps.
  intros t. constructor; cbn [r_section_meshes r_section_topology sc_unique_vertices sc_colocation sc_adjacency sc_degeneration sc_intersections sc_manifold sc_negative]; try reflexivity.
  - apply assigned_same; [reflexivity|exact A].
  - destruct B as [x x' [B _]|e|]; [exact B|reflexivity..].
  - destruct B as [x x' [_ B]|e|]; [exact B|apply same_map_new..].
Qed.
Lemma section_agree : forall o ho' m st ints ints', agree same_issues ints ints' ->
  agree same_section_result (inspect_section o m st ints) (inspect_section (with_hash o ho') m st ints').
Proof.
  intros o ho' m st ints ints' A. unfold inspect_section. cbv zeta.
  pose proof (section_meshes_agree o ho' m st _ _ A) as B. rewrite <- (agree_status _ _ _ _ B). steps.
  destruct B as [x x' B|e|]; cbn [assigned]; [apply B|..]; constructor; try reflexivity; try (apply same_refl; reflexivity); apply same_map_new.
Qed.
Lemma brep_meshes_agree : forall o ho' m st ints ints', agree same_issues ints ints' ->
  agree same_brep_meshes (inspect_brep_meshes o m st ints) (inspect_brep_meshes (with_hash o ho') m st ints').
Proof.
  intros o ho' m st ints ints' A. unfold inspect_brep_meshes. cbn [with_hash or_measures or_geometry or_hash or_lookup or_topo]. cbv zeta.
  pose proof (brep_manifold_agree (or_geometry o) (or_hash o) ho' m) as B. unfold Intersections in *. rewrite <- (agree_status _ _ _ _ A), <- (agree_status _ _ _ _ B). steps.
  intros t. constructor; cbn [r_brep_meshes r_brep_topology br_unique_vertices br_colocation br_adjacency br_degeneration br_intersections br_manifold br_negative]; try reflexivity.
  - apply assigned_same; [reflexivity|exact A].
  - destruct B as [x x' (B1 & B2 & B3 & B4 & B5)|e|]; [assumption|reflexivity..].
  - destruct B as [x x' (B1 & B2 & B3 & B4 & B5)|e|]; [assumption|apply same_map_new..].
  - destruct B as [x x' (B1 & B2 & B3 & B4 & B5)|e|]; [assumption|apply same_map_new..].
  - destruct B as [x x' (B1 & B2 & B3 & B4 & B5)|e|]; [assumption|apply same_refl; reflexivity..].
  - destruct B as [x x' (B1 & B2 & B3 & B4 & B5)|e|]; [assumption|reflexivity..].
Qed.
Lemma brep_agree : forall o ho' m st ints ints', agree same_issues ints ints' ->
  agree same_brep_result (inspect_brep o m st ints) (inspect_brep (with_hash o ho') m st ints').
Proof.
  intros o ho' m st ints ints' A. unfold inspect_brep. cbv zeta. change (or_topo (with_hash o ho')) with (or_topo o).
  pose proof (brep_meshes_agree o ho' m st _ _ A) as B. rewrite <- (agree_status _ _ _ _ B). steps.
  destruct B as [x x' B|e|]; cbn [assigned]; [apply B|..]; constructor; try reflexivity; try (apply same_refl; reflexivity); apply same_map_new.
Qed.

(** ** Texts *)
Lemma like_text : forall a, like (StrCat [a; newline]) (StrCat [a; newline]).
Proof. intros a. cbn [StrCat fold_right]. rewrite cat_nil. apply like_line. Qed.
Lemma like_newline : like newline newline.
Proof. apply (like_line EmptyString). Qed.
Lemma like_append_if : forall n n' t t' a a', n = n' -> like (StrCat t) (StrCat t') -> like a a' -> like (append_if n t a) (append_if n' t' a').
Proof. intros n n' t t' a a' <- T A. unfold append_if. destruct (N.eqb n 0); [exact A|]. cbn [StrCat fold_right]. apply like_app; assumption. Qed.
Lemma like_or_else : forall a a' d, like a a' -> like d d -> like (or_else a d) (or_else a' d).
Proof.
  intros a a' d A D. destruct a as [|c a]; [rewrite (like_empty _ A); exact D|]. destruct a' as [|c' a']; [apply like_sym, like_empty in A; discriminate A|exact A].
Qed.
Lemma like_if : forall n n' d t t', n = n' -> like d d -> like t t' -> like (if N.eqb n 0 then d else t) (if N.eqb n' 0 then d else t').
Proof. intros n n' d t t' <- D T. destruct (N.eqb n 0); assumption. Qed.
Ltac liking := repeat first [ assumption | reflexivity | apply like_nil | apply like_newline | apply issues_like | apply map_like | apply (same_like _ _ _ EmptyString); assumption
  | apply same_map_like; assumption | apply same_count; assumption | apply same_map_count; assumption | apply like_text | apply like_or_else | apply like_append_if | apply like_if
  | apply Forall2_nil | apply Forall2_cons | apply like_StrCat ].
(** validities *)
Definition likes (v v' : ObjectValidity) : Prop := Forall2 like v v'.
Lemma likes_list : forall T (x y : InspectionIssues T) v v', nb_issues x = nb_issues y -> like (issues_string x) (issues_string y) -> likes v v' -> likes (add_list x v) (add_list y v').
Proof. intros T x y v v' N L V. unfold add_list. rewrite <- N. destruct (N.eqb _ 0); [exact V|]. apply Forall2_app; [exact V|]. constructor; [exact L|constructor]. Qed.
Lemma likes_map : forall T ho ho' (x y : InspectionIssuesMap T) v v', map_nb_issues x = map_nb_issues y -> like (map_string ho x) (map_string ho' y) -> likes v v' ->
  likes (add_map ho x v) (add_map ho' y v').
Proof. intros T ho ho' x y v v' N L V. unfold add_map. rewrite <- N. destruct (N.eqb _ 0); [exact V|]. apply Forall2_app; [exact V|]. constructor; [exact L|constructor]. Qed.
Ltac likings := repeat first [ apply likes_list | apply likes_map | apply Forall2_nil | liking ].
Lemma likes_lines : forall v v', likes v v' -> Forall2 same_lines v v'.
Proof. intros v v' H. induction H; constructor; [apply like_lines|]; assumption. Qed.

Lemma surface_result_text : forall r r', same_surface_result r r' ->
  surface_nb_issues r = surface_nb_issues r' /\ same_lines (surface_string r) (surface_string r') /\ Forall2 same_lines (surface_validity r) (surface_validity r').
Proof.
  intros [a b c d e f g h] [a' b' c' d' e' f' g' h'] [A B C D E F G H]. cbn in A, B, C, D, E, F, G, H. subst. split; [|split].
  - unfold surface_nb_issues. cbn [sr_adjacency sr_colocated sr_edges sr_polygons sr_manifold_edges sr_manifold_vertices sr_intersections sr_negative].
    rewrite (same_count _ _ _ E), (same_count _ _ _ G). reflexivity.
  - apply like_lines. unfold surface_string. cbn [sr_adjacency sr_colocated sr_edges sr_polygons sr_manifold_edges sr_manifold_vertices sr_intersections sr_negative]. liking.
  - apply likes_lines. unfold surface_validity. cbv zeta. cbn [sr_adjacency sr_colocated sr_edges sr_polygons sr_manifold_edges sr_manifold_vertices sr_intersections sr_negative]. likings.
Qed.
Lemma solid_result_text : forall r r', same_solid_result r r' ->
  solid_nb_issues r = solid_nb_issues r' /\ same_lines (solid_string r) (solid_string r') /\ Forall2 same_lines (solid_validity r) (solid_validity r').
Proof.
  intros [a b c d e f g h] [a' b' c' d' e' f' g' h'] [A B C D E F G H]. cbn in A, B, C, D, E, F, G, H. subst. split; [|split].
  - unfold solid_nb_issues. cbn [so_r_adjacency so_r_colocated so_r_edges so_r_polyhedra so_r_manifold_vertices so_r_manifold_edges so_r_manifold_facets so_r_negative].
    rewrite (same_count _ _ _ G). reflexivity.
  - apply like_lines. unfold solid_string. cbn [so_r_adjacency so_r_colocated so_r_edges so_r_polyhedra so_r_manifold_vertices so_r_manifold_edges so_r_manifold_facets so_r_negative]. liking.
  - apply likes_lines. unfold solid_validity. cbv zeta. cbn [so_r_adjacency so_r_colocated so_r_edges so_r_polyhedra so_r_manifold_vertices so_r_manifold_edges so_r_manifold_facets so_r_negative]. likings.
Qed.
Lemma section_result_text : forall ho ho' r r', same_section_result r r' ->
  section_nb_issues r = section_nb_issues r' /\ same_lines (section_string ho r) (section_string ho' r') /\ Forall2 same_lines (section_validity ho r) (section_validity ho' r').
Proof.
  intros ho ho' [[a b c d e [f g] h] t] [[a' b' c' d' e' [f' g'] h'] t'] [T A B C D E F G H]. cbn in T, A, B, C, D, E, F, G, H. subst. split; [|split].
  - unfold section_nb_issues, section_meshes_nb_issues, section_manifold_nb_issues, intersections_nb_issues.
    cbn [r_section_meshes r_section_topology sc_unique_vertices sc_colocation sc_adjacency sc_degeneration sc_intersections sc_manifold sc_negative sn_vertices sn_edges].
    rewrite (same_count _ _ _ E), (same_map_count _ _ _ G). reflexivity.
  - apply like_lines. unfold section_string, section_meshes_string, section_topology_string, unique_vertices_string, section_manifold_string, intersections_string, meshes_colocation_string,
      section_adjacency_string, section_degeneration_string, section_negative_string, corners_string, section_lines_string, section_surfaces_string, no_manifold_text, no_adjacency_text. cbv zeta.
    cbn [r_section_meshes r_section_topology sc_unique_vertices sc_colocation sc_adjacency sc_degeneration sc_intersections sc_manifold sc_negative sn_vertices sn_edges]. liking.
  - apply likes_lines. unfold section_validity, add_section_topology_invalidities, add_section_meshes_invalidities, add_colocation_issues, add_section_adjacencies_issues, add_section_degeneration_issues,
      add_section_manifold_issues, add_corners_topology_issues, add_section_lines_topology_issues, add_section_surfaces_topology_issues, add_uv_topology_issues. cbv zeta.
    cbn [r_section_meshes r_section_topology sc_unique_vertices sc_colocation sc_adjacency sc_degeneration sc_intersections sc_manifold sc_negative sn_vertices sn_edges]. likings.
Qed.
Lemma brep_result_text : forall ho ho' r r', same_brep_result r r' ->
  brep_nb_issues r = brep_nb_issues r' /\ same_lines (brep_string ho r) (brep_string ho' r') /\ Forall2 same_lines (brep_validity ho r) (brep_validity ho' r').
Proof.
  intros ho ho' [[a b c d e [f g i j k] h] t] [[a' b' c' d' e' [f' g' i' j' k'] h'] t'] [T A B C D E F G I J K H]. cbn in T, A, B, C, D, E, F, G, I, J, K, H. subst. split; [|split].
  - unfold brep_nb_issues, brep_meshes_nb_issues, brep_manifold_nb_issues, intersections_nb_issues.
    cbn [r_brep_meshes r_brep_topology br_unique_vertices br_colocation br_adjacency br_degeneration br_intersections br_manifold br_negative bm_vertices bm_edges bm_facets bm_model_edges bm_model_facets].
    rewrite (same_count _ _ _ E), (same_count _ _ _ J), (same_map_count _ _ _ G), (same_map_count _ _ _ I). reflexivity.
  - apply like_lines. unfold brep_string, brep_meshes_string, brep_topology_string, unique_vertices_string, brep_manifold_string, intersections_string, meshes_colocation_string,
      brep_adjacency_string, brep_degeneration_string, brep_negative_string, corners_string, brep_lines_string, brep_surfaces_string, brep_blocks_string, no_manifold_text, no_adjacency_text. cbv zeta.
    cbn [r_brep_meshes r_brep_topology br_unique_vertices br_colocation br_adjacency br_degeneration br_intersections br_manifold br_negative bm_vertices bm_edges bm_facets bm_model_edges bm_model_facets]. liking.
  - apply likes_lines. unfold brep_validity, add_brep_topology_invalidities, add_brep_meshes_invalidities, add_colocation_issues, add_corners_topology_issues, add_uv_topology_issues. cbv zeta.
    cbn [r_brep_meshes r_brep_topology br_unique_vertices br_colocation br_adjacency br_degeneration br_intersections br_manifold br_negative bm_vertices bm_edges bm_facets bm_model_edges bm_model_facets]. likings.
Qed.
