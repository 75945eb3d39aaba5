(** C66: an inspection says the same things whatever the hash order and the traversal of the box trees. *)
From Coq Require Import String Ascii List Arith NArith Bool Lia Permutation.
From Verif Require Import Base BaseFacts Model_Hash Model_Issues Types Model_Colocation Model_Degeneration Model_Adjacency Model_Negative Model_Manifold Model_Intersections
  Model_Topology Model_BRep Model_Blocks Model_Results Model_Validity Spec_Reproducible Proof_Reproducible Proof_Reproducible2 Proof_Reproducible3
  Properties_Topology Properties_BRep Properties_Blocks Properties_Manifold Properties_Intersections Proof_GoodModels Properties_Results.
Import ListNotations.
Open Scope list_scope.

(** what a user sees of two results: the counts are equal, the texts have the same lines, the verdicts are the same *)
Definition looks_same {R} (count : R -> N) (text text' : R -> string) (validity validity' : R -> ObjectValidity) (r r' : R) : Prop :=
  count r = count r' /\ same_lines (text r) (text' r') /\ Forall2 same_lines (validity r) (validity' r') /\ is_valid (validity r) = is_valid (validity' r').
Lemma same_verdict : forall v v', Forall2 same_lines v v' -> is_valid v = is_valid v'.
Proof. intros v v' H. destruct H; reflexivity. Qed.
Lemma looking : forall R count text text' validity validity' (r r' : R),
  count r = count r' /\ same_lines (text r) (text' r') /\ Forall2 same_lines (validity r) (validity' r') -> looks_same count text text' validity validity' r r'.
Proof. intros R count text text' v v' r r' (A & B & C). repeat split; try assumption. apply same_verdict, C. Qed.
Lemma agree_mono : forall A (R Q : A -> A -> Prop) o o', (forall a a', R a a' -> Q a a') -> agree R o o' -> agree Q o o'.
Proof. intros A R Q o o' I [a a' H|e|]; constructor. apply I, H. Qed.

(** ** One mesh *)
(** two runs on the same surface; the box tree visits the same candidates, in any two orders *)
Theorem C66_surface : forall px ms geo ho ho' name m st candidates candidates' ints ints',
  Permutation candidates candidates' ->
  surface_intersecting_elements px m candidates ints -> surface_intersecting_elements px m candidates' ints' ->
  agree (fun r r' => same_surface_result r r' /\ looks_same surface_nb_issues surface_string surface_string surface_validity surface_validity r r')
    (inspect_surface ms geo ho name m st ints) (inspect_surface ms geo ho' name m st ints').
Proof.
  intros px ms geo ho ho' name m st c c' ints ints' P H H'.
  eapply agree_mono; [|apply surface_agree; exact (surface_intersections_agree _ _ _ _ _ _ P H H')].
  intros r r' S. split; [exact S|]. apply looking, surface_result_text, S.
Qed.
Print Assumptions C66_surface.
Theorem C66_solid : forall ms geo ho ho' name m st,
  agree (fun r r' => same_solid_result r r' /\ looks_same solid_nb_issues solid_string solid_string solid_validity solid_validity r r')
    (inspect_solid ms geo ho name m st) (inspect_solid ms geo ho' name m st).
Proof.
  intros. eapply agree_mono; [|apply solid_agree]. intros r r' S. split; [exact S|]. apply looking, solid_result_text, S.
Qed.
Print Assumptions C66_solid.
(** the yes/no queries that walk hash maps *)
Theorem C66_queries : forall ho ho', (forall m, surface_edges_are_manifold ho m = surface_edges_are_manifold ho' m) /\
  (forall m, solid_facets_are_manifold ho m = solid_facets_are_manifold ho' m).
Proof.
  intros ho ho'. split; intros m; apply forallb_permuted, visits_permute.
Qed.
Print Assumptions C66_queries.

(** ** Searches of intersections: if one run ends well, every run does, and lists the same pairs with the same messages *)
Theorem C66_intersections : forall px m trees lines,
  (forall x r, section_inspect_intersections px m trees (Ok x) -> section_inspect_intersections px m trees r -> exists x', r = Ok x' /\ same_issues x x') /\
  (forall x r, brep_inspect_intersections px m trees lines (Ok x) -> brep_inspect_intersections px m trees lines r -> exists x', r = Ok x' /\ same_issues x x') /\
  (forall x r, inspect_surfaces_self_intersections px m trees (Ok x) -> inspect_surfaces_self_intersections px m trees r -> exists x', r = Ok x' /\ same_issues x x').
Proof.
  intros px m trees lines. split; [|split]; [exact (section_intersections_settled px m trees)|exact (brep_intersections_settled px m trees lines)|exact (self_intersections_settled px m trees)].
Qed.
Print Assumptions C66_intersections.
Theorem C66_curve_intersections : forall px s k candidates candidates' f r, Permutation candidates candidates' ->
  curve_intersecting_elements px s k candidates (Ok f) -> curve_intersecting_elements px s k candidates' r -> exists f', r = Ok f' /\ same_issues f f'.
Proof. exact curve_intersections_same. Qed.
Print Assumptions C66_curve_intersections.

(** ** Models *)
Theorem C66_section : forall o ho' px m trees st x ints',
  section_inspect_intersections px m trees (Ok x) -> section_inspect_intersections px m trees ints' ->
  agree (fun r r' => same_section_result r r' /\
      looks_same section_nb_issues (section_string (or_hash o)) (section_string ho') (section_validity (or_hash o)) (section_validity ho') r r')
    (inspect_section o m st (Ok x)) (inspect_section (with_hash o ho') m st ints').
Proof.
  intros o ho' px m trees st x ints' H H'. destruct (section_intersections_settled px m trees x ints' H H') as (x' & -> & S).
  eapply agree_mono; [|apply section_agree; constructor; exact S]. intros r r' R. split; [exact R|]. apply looking, section_result_text, R.
Qed.
Print Assumptions C66_section.
Theorem C66_brep : forall o ho' px m trees lines st x ints',
  brep_inspect_intersections px m trees lines (Ok x) -> brep_inspect_intersections px m trees lines ints' ->
  agree (fun r r' => same_brep_result r r' /\
      looks_same brep_nb_issues (brep_string (or_hash o)) (brep_string ho') (brep_validity (or_hash o)) (brep_validity ho') r r')
    (inspect_brep o m st (Ok x)) (inspect_brep (with_hash o ho') m st ints').
Proof.
  intros o ho' px m trees lines st x ints' H H'. destruct (brep_intersections_settled px m trees lines x ints' H H') as (x' & -> & S).
  eapply agree_mono; [|apply brep_agree; constructor; exact S]. intros r r' R. split; [exact R|]. apply looking, brep_result_text, R.
Qed.
Print Assumptions C66_brep.
(** hence the verdicts of the validity functions *)
Theorem C66_verdicts : forall o ho' px m trees lines st,
  (forall x ints' v, section_inspect_intersections px m trees (Ok x) -> section_inspect_intersections px m trees ints' ->
     is_section_valid o m st (Ok x) = Ok v -> exists v', is_section_valid (with_hash o ho') m st ints' = Ok v' /\ is_valid v = is_valid v' /\ length v = length v') /\
  (forall x ints' v, brep_inspect_intersections px m trees lines (Ok x) -> brep_inspect_intersections px m trees lines ints' ->
     is_brep_valid o m st (Ok x) = Ok v -> exists v', is_brep_valid (with_hash o ho') m st ints' = Ok v' /\ is_valid v = is_valid v' /\ length v = length v').
Proof.
  assert (L : forall v v', Forall2 same_lines v v' -> length v = length v') by (intros v v' H; induction H; cbn; congruence).
  intros o ho' px m trees lines st. split; intros x ints' v H H' E.
  - unfold is_section_valid in *. destruct (C66_section o ho' px m trees st x ints' H H') as [r r' [S (C & T & F & V)]|e|]; try discriminate E.
    cbn [bind] in *. injection E as <-. eexists. split; [reflexivity|]. split; [exact V|apply L, F].
  - unfold is_brep_valid in *. destruct (C66_brep o ho' px m trees lines st x ints' H H') as [r r' [S (C & T & F & V)]|e|]; try discriminate E.
    cbn [bind] in *. injection E as <-. eexists. split; [reflexivity|]. split; [exact V|apply L, F].
Qed.
Print Assumptions C66_verdicts.

(** ** Concrete instances *)
(** two fans of three triangles: edges 0-1 and 5-6 are not manifold, and are told in two orders *)
Definition two_fans : SurfaceMesh :=
  mkSurface 3 (repeat [zero] 10) [[0; 1; 2]; [0; 1; 3]; [0; 1; 4]; [5; 6; 7]; [5; 6; 8]; [5; 6; 9]] (fun _ => None) [] (fun _ => false) (fun _ => zero) (fun _ => Ok []) (fun _ => false).
Example two_fans_two_orders :
  ii_issues (surface_non_manifold_edges in_order two_fans) = [(0, 1); (5, 6)] /\
  ii_issues (surface_non_manifold_edges backwards two_fans) = [(5, 6); (0, 1)] /\
  issues_string (surface_non_manifold_edges in_order two_fans) <> issues_string (surface_non_manifold_edges backwards two_fans) /\
  same_lines (issues_string (surface_non_manifold_edges in_order two_fans)) (issues_string (surface_non_manifold_edges backwards two_fans)).
Proof.
  split; [vm_compute; reflexivity|]. split; [vm_compute; reflexivity|]. split.
  - intros E. assert (K : forall a b, a = b -> String.eqb a b = true) by (intros a b ->; apply String.eqb_refl). apply K in E. vm_compute in E. discriminate E.
  - apply like_lines. exact (same_like _ _ _ EmptyString (surface_edges_same in_order backwards two_fans)).
Qed.
(** the hypotheses of the search theorems: a BRep with a run, which finds two pairs *)
Example two_pairs_found : exists x, brep_inspect_intersections exact_px br_model br_trees br_lines (Ok x) /\
  In ((mkCID SurfaceT 0, 0), (mkCID SurfaceT 1, 0)) (ii_issues x) /\ In ((mkCID SurfaceT 0, 0), (mkCID LineT 10, 0)) (ii_issues x).
Proof.
  destruct (C27_C48_queries_terminate exact_px br_model br_trees br_lines) as (_ & (r & H) & _). destruct (br_found r H) as (x & -> & F).
  exists x. split; [exact H|]. split; apply F; auto.
Qed.
Example two_pairs_again : exists x, brep_inspect_intersections exact_px br_model br_trees br_lines (Ok x) /\
  forall ints', brep_inspect_intersections exact_px br_model br_trees br_lines ints' ->
  agree (fun r r' => brep_nb_issues r = brep_nb_issues r')
    (inspect_brep (tet_oracles tet_tl) br_model no_storage (Ok x)) (inspect_brep (with_hash (tet_oracles tet_tl) backwards) br_model no_storage ints').
Proof.
  destruct two_pairs_found as (x & H & _). exists x. split; [exact H|]. intros ints' H'.
  eapply agree_mono; [|exact (C66_brep (tet_oracles tet_tl) backwards _ _ _ _ no_storage x ints' H H')]. intros r r' (_ & C & _). exact C.
Qed.
(** texts with the same lines may differ, and texts with other lines are told apart *)
Example lines_matter : same_lines (StrCat ["a"; newline; "b"; newline]%string) (StrCat ["b"; newline; "a"; newline]%string) /\
  ~ same_lines (StrCat ["a"; newline; "b"; newline]%string) (StrCat ["a"; newline; "a"; newline]%string).
Proof.
  split; [apply perm_swap|]. intros H. unfold same_lines in H. apply (Permutation_in "b"%string) in H; [|right; left; reflexivity].
  cbn in H. repeat (destruct H as [H|H]; [discriminate H|]). exact H.
Qed.
