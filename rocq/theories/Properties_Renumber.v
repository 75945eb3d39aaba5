(** C73: the report of a mesh does not depend on how its vertices, elements and stored edges are numbered. *)
From Coq Require Import String Ascii List Arith NArith ZArith Bool Lia Permutation Sorted Relations.
From Verif Require Import Base BaseFacts Model_Issues Types Model_Hash Model_Adjacency Model_Colocation Model_Manifold Model_Degeneration Model_Negative Model_Topology Model_Results Model_Intersections Spec_Intersections Proof_Intersections
  Spec_Cycles Spec_Maps Spec_Colocation Spec_Adjacency Spec_Manifold Spec_Fans Spec_Degeneration Spec_Negative Spec_Renumber Proof_Degeneration
  Proof_GoodModels Proof_Searches Properties_Manifold Proof_Renumber Proof_Renumber2 Proof_Renumber3 Proof_Renumber4.
Import ListNotations.
Open Scope list_scope.

Lemma nb_renumbered : forall A B (f : A -> B) r r', renumbered_issues f r r' -> nb_issues r' = nb_issues r.
Proof. intros A B f r r' P. unfold nb_issues, size32. rewrite (Permutation_length P), map_length. reflexivity. Qed.

Theorem C73_point_set : forall geo n m m', renumbered_points n (ps_points m) (ps_points m') -> blind_search geo n (ps_points m) (ps_points m') ->
  exists r r', inspect_point_set geo m = Ok r /\ inspect_point_set geo m' = Ok r' /\
    renumbered_issues (new_group n) (pr_colocated r) (pr_colocated r') /\ pointset_nb_issues r' = pointset_nb_issues r.
Proof.
  intros geo n m m' P B. destruct (colocation_renumbered geo n _ _ P B) as (r & r' & R & R' & E). exists (mkPointSetResult r), (mkPointSetResult r').
  unfold inspect_point_set. rewrite R, R'. split; [reflexivity|]. split; [reflexivity|]. split; [exact E|]. apply (nb_renumbered _ _ _ _ _ E).
Qed.
Print Assumptions C73_point_set.

Theorem C73_curve : forall ms geo n m m', renumbered_curve n m m' -> blind_search geo n (ec_points m) (ec_points m') ->
  exists r r', inspect_edged_curve ms geo m = Ok r /\ inspect_edged_curve ms geo m' = Ok r' /\
    renumbered_curve_report n r r' /\ curve_nb_issues r' = curve_nb_issues r.
Proof.
  intros ms geo n m m' H B. destruct (colocation_renumbered geo n _ _ (rc_points _ _ _ H) B) as (r & r' & R & R' & E).
  assert (K : renumbered_issues (new_edge n) (curve_degenerated_edges ms geo m) (curve_degenerated_edges ms geo m')).
  { destruct (rc_edges _ _ _ H) as (L & N & _).
    apply (transport_range (new_edge n) (length (ec_edges m)) _ _ _ _ N (curve_small_spec ms geo m _) (curve_small_spec ms geo m' _)).
    - intros x Hx. apply Hx.
    - intros x Hx. rewrite <- L. apply Hx.
    - intros x Hx. unfold short_curve_edge. rewrite L, (rc_length _ _ _ H x Hx). pose proof (proj1 N x Hx). tauto. }
  unfold inspect_edged_curve. rewrite R, R'. do 2 eexists. split; [reflexivity|]. split; [reflexivity|]. split; [constructor; assumption|].
  unfold curve_nb_issues. cbn [assigned cr_colocated cr_edges]. rewrite (nb_renumbered _ _ _ _ _ E), (nb_renumbered _ _ _ _ _ K). reflexivity.
Qed.
Print Assumptions C73_curve.

Theorem C73_surface : forall ms geo ho ho' name name' n m m' st st' i i', renumbered_surface n m m' ->
  blind_search geo n (sm_points m) (sm_points m') ->
  (forall v, v < length (sm_points m) -> sm_around_vertex m v = Throw OpenGeodeExn \/ exists fan, sm_around_vertex m v = Ok fan) ->
  exists r r', inspect_surface ms geo ho name m st (Ok i) = Ok r /\ inspect_surface ms geo ho' name' m' st' (Ok i') = Ok r' /\
    renumbered_surface_report n r r' /\ (nb_issues i' = nb_issues i -> surface_nb_issues r' = surface_nb_issues r).
Proof.
  intros ms geo ho ho' name name' n m m' st st' i i' H B A. destruct (colocation_renumbered geo n _ _ (rs_points _ _ _ H) B) as (c & c' & C1 & C2 & C3).
  destruct (adjacency_renumbered n m m' H name name') as (a & a' & A1 & A2 & A3).
  destruct (small_edges_renumbered ms geo n _ _ _ _ GLOBAL_EPSILON st st' (rs_points _ _ _ H) (rs_edges _ _ _ H)) as (e & e' & E1 & E2 & E3).
  destruct (vertices_renumbered n m m' H geo geo A) as (v & v' & V1 & V2 & V3).
  pose proof (flat_renumbered n m m' H) as F. pose proof (edges_renumbered n m m' H ho ho') as M. pose proof (negative_renumbered n m m' H ms) as N.
  unfold inspect_surface. cbv zeta. unfold surface_degenerated_edges, impl_degenerated_edges.
  rewrite A1, A2, C1, C2, E1, E2, V1, V2. do 2 eexists. split; [reflexivity|]. split; [reflexivity|]. split; [constructor; assumption|].
  intros I. unfold surface_nb_issues. cbn [assigned fst sr_adjacency sr_colocated sr_edges sr_polygons sr_manifold_edges sr_manifold_vertices sr_intersections sr_negative].
  apply (f_equal sum32). apply f_equal2; [exact (nb_renumbered _ _ _ _ _ A3)|]. apply f_equal2; [exact (nb_renumbered _ _ _ _ _ C3)|].
  apply f_equal2; [exact (nb_renumbered _ _ _ _ _ E3)|]. apply f_equal2; [exact (nb_renumbered _ _ _ _ _ F)|]. apply f_equal2; [exact (nb_renumbered _ _ _ _ _ M)|].
  apply f_equal2; [exact (nb_renumbered _ _ _ _ _ V3)|]. apply f_equal2; [exact I|]. apply f_equal2; [exact (nb_renumbered _ _ _ _ _ N)|reflexivity].
Qed.
Print Assumptions C73_surface.

Theorem C73_solid : forall ms geo ho ho' name name' n m m' st st', renumbered_solid n m m' ->
  blind_search geo n (so_points m) (so_points m') ->
  (forall v, v < length (so_points m) -> exists fan, so_around_vertex m v = Ok fan) ->
  simple_facets m -> below_2_32 (length (all_polyhedron_facets m)) ->
  simple_edges m -> turns_around_solid_edges m -> turns_around_solid_edges m' -> same_failures n m m' ->
  exists r r', inspect_solid ms geo ho name m st = Ok r /\ inspect_solid ms geo ho' name' m' st' = Ok r' /\
    renumbered_solid_report n r r' /\ solid_nb_issues r' = solid_nb_issues r.
Proof.
  intros ms geo ho ho' name name' n m m' st st' H B A SF BF SE T T' W. destruct (colocation_renumbered geo n _ _ (ro_points _ _ _ H) B) as (c & c' & C1 & C2 & C3).
  destruct (facets_adjacency_renumbered n m m' H name name' SF) as (a & a' & A1 & A2 & A3).
  destruct (small_edges_renumbered ms geo n _ _ _ _ GLOBAL_EPSILON st st' (ro_points _ _ _ H) (ro_edges _ _ _ H)) as (e & e' & E1 & E2 & E3).
  destruct (so_vertices_renumbered n m m' H geo geo A) as (v & v' & V1 & V2 & V3).
  destruct (solid_edges_renumbered n m m' H SE T T' W) as (d & d' & D1 & D2 & D3).
  pose proof (flat_polyhedra_renumbered n m m' H) as F. pose proof (facets_renumbered n m m' H ho ho' SF BF) as M. pose proof (negative_polyhedra_renumbered n m m' H ms) as N.
  unfold inspect_solid. cbv zeta. unfold solid_degenerated_edges, impl_degenerated_edges.
  rewrite A1, A2, C1, C2, E1, E2, V1, V2, D1, D2. do 2 eexists. split; [reflexivity|]. split; [reflexivity|]. split; [constructor; assumption|].
  assert (D4 : nb_issues d' = nb_issues d).
  { unfold nb_issues, size32. apply Permutation_length in D3. rewrite !map_length in D3. rewrite D3. reflexivity. }
  assert (M4 : nb_issues (solid_non_manifold_facets ho' m') = nb_issues (solid_non_manifold_facets ho m)).
  { unfold nb_issues, size32. destruct M as (l & M1 & M2). rewrite (Permutation_length M1). rewrite (proj1 (images_at _ _ _ _ _ M2)). reflexivity. }
  unfold solid_nb_issues. cbn [assigned fst so_r_adjacency so_r_colocated so_r_edges so_r_polyhedra so_r_manifold_vertices so_r_manifold_edges so_r_manifold_facets so_r_negative].
  apply (f_equal sum32). apply f_equal2; [exact (nb_renumbered _ _ _ _ _ A3)|]. apply f_equal2; [exact (nb_renumbered _ _ _ _ _ C3)|].
  apply f_equal2; [exact (nb_renumbered _ _ _ _ _ E3)|]. apply f_equal2; [exact (nb_renumbered _ _ _ _ _ F)|]. apply f_equal2; [exact (nb_renumbered _ _ _ _ _ V3)|].
  apply f_equal2; [exact D4|]. apply f_equal2; [exact M4|]. apply f_equal2; [exact (nb_renumbered _ _ _ _ _ N)|reflexivity].
Qed.
Print Assumptions C73_solid.

(** the pairs of intersecting polygons, as sets of two polygons *)
Theorem C73_intersections : forall px n m m' candidates candidates' r r', renumbered_surface n m m' -> blind_test px n m m' ->
  same_candidates n m candidates candidates' ->
  surface_intersecting_elements px m candidates r -> surface_intersecting_elements px m' candidates' r' ->
  exists l l', r = Ok l /\ r' = Ok l' /\ Permutation (map undirected (ii_issues l')) (map (new_polygons n) (ii_issues l)).
Proof.
  intros px n m m' candidates candidates' r r' H B [CR CP] E E'.
  destruct (surface_list px m candidates r E) as (l & -> & L). destruct (surface_list px m' candidates' r' E') as (l' & -> & L').
  exists l, l'. split; [reflexivity|]. split; [reflexivity|]. apply (candidates_renumbered n m m' H px _ _ _ _ B CR CP L L').
Qed.
Print Assumptions C73_intersections.

(** ** Examples *)
Definition rn_zero : double := SpecFloat.S754_zero false.
Definition rn_measures : Measures := mkMeasures (fun p _ => p) (fun p q => if same_point p q then rn_zero else far) (fun _ => false) (fun _ _ _ _ => false).
(** two triangles, a one-sided adjacency, two vertices at one place, a short stored edge, a flat triangle, a vertex with
    an unfinished turn; and the same mesh with other numbers *)
Definition rn_surface : SurfaceMesh :=
  mkSurface 3 [pt 0; pt 1; pt 2; pt 0] [[0; 1; 2]; [2; 1; 3]] (fun e => match e with (0, 1) => Some 1 | _ => None end) [(0, 1); (0, 3)] (fun _ => false)
    (fun p => match p with 1 => rn_zero | _ => far end)
    (fun v => match v with 0 => Ok [(0, 0)] | 1 => Ok [(0, 1); (1, 1)] | 2 => Ok [(0, 2)] | _ => Ok [(1, 2)] end) (fun _ => false).
Definition rn_surface' : SurfaceMesh :=
  mkSurface 3 [pt 1; pt 0; pt 0; pt 2] [[3; 0; 1]; [2; 0; 3]] (fun e => match e with (1, 1) => Some 0 | _ => None end) [(2, 1); (2, 0)] (fun _ => false)
    (fun p => match p with 0 => rn_zero | _ => far end)
    (fun v => match v with 2 => Ok [(1, 0)] | 0 => Ok [(0, 1); (1, 1)] | 3 => Ok [(1, 2)] | _ => Ok [(0, 2)] end) (fun _ => false).
Definition rn_swap (k : nat) : nat := match k with 0 => 1 | _ => 0 end.
Definition rn_numbering : Numbering := mkNumbering (fun v => match v with 0 => 2 | 1 => 0 | 2 => 3 | _ => 1 end) rn_swap rn_swap.

Example rn_surface_hypotheses : renumbered_surface rn_numbering rn_surface rn_surface' /\
  blind_search exact_geo rn_numbering (sm_points rn_surface) (sm_points rn_surface') /\
  (forall v, v < length (sm_points rn_surface) -> sm_around_vertex rn_surface v = Throw OpenGeodeExn \/ exists fan, sm_around_vertex rn_surface v = Ok fan).
Proof.
  assert (N4 : numbers 4 (new_vertex rn_numbering)).
  { split; [intros i; cbn; destruct i as [|[|[|i]]]; lia|]. intros i j Hi Hj. cbn.
    destruct i as [|[|[|[|i]]]]; try lia; destruct j as [|[|[|[|j]]]]; try lia; discriminate. }
  assert (N2 : numbers 2 rn_swap).
  { split; [intros i; destruct i as [|[|i]]; cbn; lia|]. intros i j Hi Hj. destruct i as [|[|i]]; try lia; destruct j as [|[|j]]; try lia; discriminate. }
  split; [|split].
  - constructor.
    + reflexivity.
    + split; [reflexivity|]. split; [exact N4|]. intros v Hv. cbn in Hv. destruct v as [|[|[|[|v]]]]; try lia; reflexivity.
    + split; [reflexivity|]. split; [exact N2|]. intros k a b E. destruct k as [|[|k]]; [| |destruct k; discriminate]; cbn in E; injection E as <- <-; cbn; (split; [lia|]; split; [lia|reflexivity]).
    + reflexivity.
    + exact N2.
    + intros p Hp. cbn in Hp. destruct p as [|[|p]]; try lia; (split; [reflexivity|]); cbn; intros v [<-|[<-|[<-|[]]]]; lia.
    + intros p e Hp He. cbn in Hp. destruct p as [|[|p]]; try lia; cbn in He; destruct e as [|[|[|e]]]; try lia; (split; [reflexivity|]); cbn; intros q E; try discriminate; injection E as <-; lia.
    + intros p Hp. cbn in Hp. destruct p as [|[|p]]; try lia; reflexivity.
    + intros v Hv. cbn in Hv. destruct v as [|[|[|[|v]]]]; try lia; (split; [cbn; first [apply Permutation_refl|apply perm_swap]|]); cbn; intros fan p e E I; injection E as <-;
        cbn in I; repeat (destruct I as [I|I]; [injection I as <- <-; lia|]); destruct I.
  - split; [apply exact_consistent|]. split; [apply exact_consistent|]. intros i j Hi Hj. cbn in Hi, Hj.
    destruct i as [|[|[|[|i]]]]; try lia; destruct j as [|[|[|[|j]]]]; try lia; unfold same_place;
      (split; intros (u & A & B); vm_compute in A, B; first [discriminate|congruence|(injection A as <-; first [discriminate|(eexists; split; vm_compute; reflexivity)])]).
  - intros v Hv. right. cbn in Hv. destruct v as [|[|[|[|v]]]]; try lia; eexists; reflexivity.
Qed.
Example rn_surface_reports :
  (exists r, inspect_surface rn_measures exact_geo any_order "s"%string rn_surface (new_inspector false) (Ok (new_issues ""%string)) = Ok r /\
     ii_issues (sr_adjacency r) = [(0, 1)] /\ ii_issues (sr_colocated r) = [[0; 3]] /\ ii_issues (sr_edges r) = [1] /\ ii_issues (sr_polygons r) = [1] /\
     ii_issues (sr_manifold_edges r) = [(1, 2)] /\ ii_issues (sr_manifold_vertices r) = [2]) /\
  (exists r, inspect_surface rn_measures exact_geo any_order "s"%string rn_surface' (new_inspector false) (Ok (new_issues ""%string)) = Ok r /\
     ii_issues (sr_adjacency r) = [(1, 1)] /\ ii_issues (sr_colocated r) = [[1; 2]] /\ ii_issues (sr_edges r) = [0] /\ ii_issues (sr_polygons r) = [0] /\
     ii_issues (sr_manifold_edges r) = [(0, 3)] /\ ii_issues (sr_manifold_vertices r) = [3]).
Proof. split; eexists; (split; [vm_compute; reflexivity|]); repeat split. Qed.

(** two tetrahedra that share only an edge; with the other numbers the search around it starts from the other one *)
Definition rn_solid : SolidMesh :=
  mkSolid [pt 0; pt 1; pt 2; pt 3; pt 4; pt 5] [tet 0 1 2 3; tet 0 1 4 5] (fun _ => None) [(0, 1)] (fun _ => false)
    (fun p => match p with 1 => rn_zero | _ => far end) (fun _ => far)
    (fun v => match v with 0 => Ok [(0, 0)] | 1 => Ok [(0, 1); (1, 1)] | 2 => Ok [(0, 2)] | 3 => Ok [(0, 3)] | 4 => Ok [(1, 2)] | _ => Ok [(1, 3)] end)
    (fun _ p => Ok [p]).
Definition rn_solid' : SolidMesh :=
  mkSolid [pt 5; pt 4; pt 3; pt 2; pt 1; pt 0] [tet 5 4 1 0; tet 5 4 3 2] (fun _ => None) [(5, 4)] (fun _ => false)
    (fun p => match p with 0 => rn_zero | _ => far end) (fun _ => far)
    (fun v => match v with 5 => Ok [(1, 0)] | 4 => Ok [(0, 1); (1, 1)] | 3 => Ok [(1, 2)] | 2 => Ok [(1, 3)] | 1 => Ok [(0, 2)] | _ => Ok [(0, 3)] end)
    (fun _ p => Ok [p]).
Definition rn_solid_numbering : Numbering := mkNumbering (fun v => 5 - v) rn_swap (fun k => k).
Lemma rn_turns : forall m, (forall f, so_adjacent m f = None) -> (forall ab p, so_around_edge m ab p = Ok [p]) -> turns_around_solid_edges m.
Proof.
  intros m A E e [a b] (F1 & F2 & _). right. exists [fst e]. split; [apply E|]. split; [constructor; [intros []|constructor]|]. intros p. split.
  - intros [<-|[]]. split; [|apply rst_refl]. exists (snd e). split; [exact F1|]. left. exact F2.
  - intros [_ C]. left. revert C. generalize (fst e). intros q C. induction C as [x y (_ & _ & f & _ & _ & _ & K)|x|x y _ IH|x y z _ IH1 _ IH2]; [rewrite A in K; discriminate| | |]; congruence.
Qed.
Example rn_solid_hypotheses : renumbered_solid rn_solid_numbering rn_solid rn_solid' /\
  blind_search exact_geo rn_solid_numbering (so_points rn_solid) (so_points rn_solid') /\
  (forall v, v < length (so_points rn_solid) -> exists fan, so_around_vertex rn_solid v = Ok fan) /\
  simple_facets rn_solid /\ below_2_32 (length (all_polyhedron_facets rn_solid)) /\
  simple_edges rn_solid /\ turns_around_solid_edges rn_solid /\ turns_around_solid_edges rn_solid' /\ same_failures rn_solid_numbering rn_solid rn_solid'.
Proof.
  assert (N6 : numbers 6 (new_vertex rn_solid_numbering)) by (split; cbn [new_vertex rn_solid_numbering]; intros; lia).
  assert (N2 : numbers 2 rn_swap).
  { split; [intros i; destruct i as [|[|i]]; cbn; lia|]. intros i j Hi Hj. destruct i as [|[|i]]; try lia; destruct j as [|[|j]]; try lia; discriminate. }
  split; [|split; [|split; [|split; [|split; [|split; [|split; [|split]]]]]]].
  - constructor.
    + split; [reflexivity|]. split; [exact N6|]. intros v Hv. cbn in Hv. destruct v as [|[|[|[|[|[|v]]]]]]; try lia; reflexivity.
    + split; [reflexivity|]. split; [split; cbn; intros; lia|]. intros k a b E. destruct k as [|k]; [|destruct k; discriminate]; cbn in E; injection E as <- <-; cbn; (split; [lia|]; split; [lia|reflexivity]).
    + reflexivity.
    + exact N2.
    + intros p Hp. cbn in Hp. destruct p as [|[|p]]; try lia; (split; [reflexivity|]); cbn; intros v K; repeat (destruct K as [<-|K]; [lia|]); destruct K.
    + intros p Hp. cbn in Hp. destruct p as [|[|p]]; try lia; (split; [reflexivity|]); cbn; intros f v K J; repeat (destruct K as [<-|K]; [cbn in J; repeat (destruct J as [<-|J]; [lia|]); destruct J|]); destruct K.
    + intros p Hp. cbn in Hp. destruct p as [|[|p]]; try lia; (split; [reflexivity|]); cbn; intros a b K; repeat (destruct K as [K|K]; [injection K as <- <-; lia|]); destruct K.
    + intros p f Hp Hf. split; [reflexivity|]. discriminate.
    + intros p Hp. cbn in Hp. destruct p as [|[|p]]; try lia; reflexivity.
    + intros p Hp. reflexivity.
    + intros v Hv. cbn in Hv. destruct v as [|[|[|[|[|[|v]]]]]]; try lia; (split; [cbn; first [apply Permutation_refl|apply perm_swap]|]); cbn; intros fan p e E I; injection E as <-;
        cbn in I; repeat (destruct I as [I|I]; [injection I as <- <-; lia|]); destruct I.
  - split; [apply exact_consistent|]. split; [apply exact_consistent|]. intros i j Hi Hj. cbn in Hi, Hj.
    destruct i as [|[|[|[|[|[|i]]]]]]; try lia; destruct j as [|[|[|[|[|[|j]]]]]]; try lia; unfold same_place;
      (split; intros (u & A & B); vm_compute in A, B; first [discriminate|congruence|(injection A as <-; first [discriminate|(eexists; split; vm_compute; reflexivity)])]).
  - intros v Hv. cbn in Hv. destruct v as [|[|[|[|[|[|v]]]]]]; try lia; eexists; reflexivity.
  - intros [p f] [Hp Hf]. cbn in Hp. cbn [fst snd] in *. destruct p as [|[|p]]; try lia; cbn in Hf; destruct f as [|[|[|[|f]]]]; try lia; cbn;
      (split; [discriminate|]); repeat constructor; cbn; intros K; repeat (destruct K as [K|K]; [discriminate|]); destruct K.
  - unfold below_2_32. vm_compute. reflexivity.
  - intros a b p i j [Hp Hi] [_ Hj]. cbn [fst snd] in *. cbn in Hp.
    destruct p as [|[|p]]; try lia; cbn in Hi, Hj;
      destruct i as [|[|[|[|[|[|i]]]]]]; cbn in Hi; try (destruct i; destruct Hi; discriminate);
      destruct j as [|[|[|[|[|[|j]]]]]]; cbn in Hj; try (destruct j; destruct Hj; discriminate); try reflexivity; exfalso;
      destruct Hi as [Hi|Hi]; injection Hi as <- <-; destruct Hj as [Hj|Hj]; discriminate.
  - apply rn_turns; reflexivity.
  - apply rn_turns; reflexivity.
  - intros e ab e' ab' _ _ _. split; discriminate.
Qed.
Example rn_solid_reports :
  (exists r, inspect_solid rn_measures exact_geo any_order "s"%string rn_solid (new_inspector false) = Ok r /\
     ii_issues (so_r_polyhedra r) = [1] /\ ii_issues (so_r_manifold_vertices r) = [0] /\ ii_issues (so_r_manifold_edges r) = [(0, 1)]) /\
  (exists r, inspect_solid rn_measures exact_geo any_order "s"%string rn_solid' (new_inspector false) = Ok r /\
     ii_issues (so_r_polyhedra r) = [0] /\ ii_issues (so_r_manifold_vertices r) = [5] /\ ii_issues (so_r_manifold_edges r) = [(5, 4)]).
Proof. split; eexists; (split; [vm_compute; reflexivity|]); repeat split. Qed.
(** the two triangles share vertices: the test of the example meets them, under both numberings *)
Definition rn_px : Predicates :=
  mkPredicates (fun _ _ => Outside) (fun _ _ => (Outside, Outside)) (fun _ _ => (Outside, Outside)) (fun _ => None)
    (fun m l1 l2 => existsb (fun v => existsb (fun w => Nat.eqb v w) l2) l1).
Example rn_intersections :
  blind_test rn_px rn_numbering rn_surface rn_surface' /\ same_candidates rn_numbering rn_surface [(0, 1); (0, 0)] [(1, 1); (0, 1)] /\
  surface_intersecting_elements rn_px rn_surface [(0, 1); (0, 0)] (Ok (self_intersections_issues [(0, 1)])) /\
  surface_intersecting_elements rn_px rn_surface' [(1, 1); (0, 1)] (Ok (self_intersections_issues [(0, 1)])).
Proof.
  split; [|split; [|split]].
  - intros p q Hp Hq. cbn in Hp, Hq. destruct p as [|[|p]]; try lia; destruct q as [|[|q]]; try lia; split; reflexivity.
  - split; [|cbn; apply perm_swap]. intros p q [E|[E|[]]]; injection E as <- <-; cbn; lia.
  - exists (Ok [(0, 1)]). split; [|reflexivity]. eapply tr_visit; [apply Permutation_refl|reflexivity|]. eapply tr_visit; [apply Permutation_refl|reflexivity|]. apply tr_all_visited.
  - exists (Ok [(0, 1)]). split; [|reflexivity]. eapply tr_visit; [apply Permutation_refl|reflexivity|]. eapply tr_visit; [apply Permutation_refl|reflexivity|]. apply tr_all_visited.
Qed.
