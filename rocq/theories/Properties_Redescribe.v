(** C90: the vertex a polygon is described from, and the direction, do not matter. *)
From Coq Require Import String Ascii List Arith NArith ZArith Bool Lia Permutation Sorted Mergesort QArith Lqa.
From Verif Require Import Base BaseFacts Model_Issues Types Model_Hash Model_Adjacency Model_Colocation Model_Manifold Model_Degeneration Model_Negative Model_Topology Model_Results Model_Intersections Spec_Intersections Proof_Intersections
  Spec_Cycles Spec_Maps Spec_Colocation Spec_Adjacency Spec_Manifold Spec_Degeneration Spec_Negative Spec_Renumber Spec_Redescribe Proof_Colocation
  Proof_GoodModels Proof_Searches Spec_Geometry Proof_Renumber Proof_Renumber2 Proof_Relabel2 Proof_Redescribe Proof_Redescribe2 Properties_Renumber.
Import ListNotations.
Open Scope nat_scope.
Open Scope list_scope.

Lemma small_edges_same : forall ms geo points edges st st', exists e,
  fst (impl_degenerated_edges ms geo points edges st) = Ok e /\ fst (impl_degenerated_edges ms geo points edges st') = Ok e.
Proof.
  intros ms geo points edges st st'. unfold impl_degenerated_edges, impl_small_edges, enable_edges_on_mesh, mesh_edges. cbn [fst].
  destruct st as [[] b], st' as [[] b']; cbn [es_enabled bind]; eexists; split; reflexivity.
Qed.
Lemma nb_same : forall A B (r : InspectionIssues A) (r' : InspectionIssues B), length (ii_issues r') = length (ii_issues r) -> nb_issues r' = nb_issues r.
Proof. intros A B r r' L. unfold nb_issues, size32. rewrite L. reflexivity. Qed.

(** The same issues are found, the sides of polygons under their new numbers; also the negative polygons when the sign of their area does not
    depend on the description, and then as many issues. *)
Theorem C90_surface : forall over d ms geo ho ho' name name' m m' st st' i i', redescribed_surface over d m m' -> inside_surface m ->
  (forall v, v < length (sm_points m) -> sm_around_vertex m v = Throw OpenGeodeExn \/ exists fan, sm_around_vertex m v = Ok fan) ->
  consistent (sm_points m) (g_colocated geo (sm_points m)) ->
  exists r r', inspect_surface ms geo ho name m st (Ok i) = Ok r /\ inspect_surface ms geo ho' name' m' st' (Ok i') = Ok r' /\ redescribed_report d r r' /\
    (sm_dimension m <> 2 \/ same_sign ms m m' ->
      sr_negative r' = sr_negative r /\ (nb_issues i' = nb_issues i -> surface_nb_issues r' = surface_nb_issues r)).
Proof.
  intros over d ms geo ho ho' name name' m m' st st' i i' H I A C.
  destruct (colocated_points_groups_spec geo _ C) as (c & C1 & _).
  destruct (adjacency_redescribed over d m m' H I name name') as (a & a' & A1 & A2 & A3).
  destruct (small_edges_same ms geo (sm_points m) (sm_edges m) st st') as (e & E1 & E2).
  destruct (vertices_redescribed over d m m' H I geo geo A) as (v & v' & V1 & V2 & V3).
  pose proof (flat_redescribed over d m m' H) as F. pose proof (edges_redescribed over d m m' H ho ho') as M.
  unfold inspect_surface. cbv zeta. unfold surface_degenerated_edges. rewrite (rd_points _ _ _ _ H), (rd_edges _ _ _ _ H), A1, A2, C1, E1, E2, V1, V2, F.
  do 2 eexists. split; [reflexivity|]. split; [reflexivity|]. split; [constructor; first [assumption|reflexivity]|].
  intros S. assert (N : negative_polygons ms m' = negative_polygons ms m).
  { destruct S as [S|S]; [apply (negative_redescribed_3d over d m m' H ms S)|apply (negative_redescribed over d m m' H ms S)]. }
  split; [exact N|]. intros J. unfold surface_nb_issues. cbn [assigned fst sr_adjacency sr_colocated sr_edges sr_polygons sr_manifold_edges sr_manifold_vertices sr_intersections sr_negative].
  rewrite N, J. rewrite (nb_same _ _ a a') by (apply Permutation_length in A3; rewrite map_length in A3; exact A3). rewrite (nb_same _ _ v v') by (rewrite V3; reflexivity).
  rewrite (nb_same _ _ (surface_non_manifold_edges ho m) (surface_non_manifold_edges ho' m')) by (apply Permutation_length; exact M). reflexivity.
Qed.
Print Assumptions C90_surface.

(** the same pairs of polygons intersect, when the geometric test does not depend on the description *)
Theorem C90_intersections : forall over d px m m' c c' r r', redescribed_surface over d m m' ->
  (forall p q, p < nb_polygons m -> q < nb_polygons m ->
    px_polygons px m' (polygon_vertices m' p) (polygon_vertices m' q) = px_polygons px m (polygon_vertices m p) (polygon_vertices m q)) ->
  (forall p q, In (p, q) c -> p < nb_polygons m /\ q < nb_polygons m) -> Permutation c c' ->
  surface_intersecting_elements px m c r -> surface_intersecting_elements px m' c' r' ->
  exists l l', r = Ok l /\ r' = Ok l' /\ Permutation (ii_issues l') (ii_issues l) /\ nb_issues l' = nb_issues l.
Proof.
  intros over d px m m' c c' r r' H T R P L L'. destruct (surface_list px m c r L) as (l & -> & F). destruct (surface_list px m' c' r' L') as (l' & -> & F').
  exists l, l'. split; [reflexivity|]. split; [reflexivity|]. apply candidates_filter in F. apply candidates_filter in F'.
  assert (E : Permutation (ii_issues l') (ii_issues l)).
  { etransitivity; [exact F'|]. symmetry. etransitivity; [exact F|]. etransitivity; [apply Proof_Manifold.filter_perm; exact P|].
    rewrite (filter_ext_in (meetb px m') (meetb px m) c'); [apply Permutation_refl|]. intros [p q] J. apply (Permutation_in _ (Permutation_sym P)) in J.
    destruct (R p q J) as [Hp Hq]. unfold meetb. cbn [fst snd]. rewrite (T p q Hp Hq). reflexivity. }
  split; [exact E|]. apply nb_same. apply Permutation_length. exact E.
Qed.
Print Assumptions C90_intersections.

(** any surface can be described with each polygon from any of its vertices, or backwards *)
Theorem C90_described_from : forall k m, redescribed_surface false (from_vertices k m) m (described_from k m).
Proof. exact described_from_is. Qed.
Print Assumptions C90_described_from.
Theorem C90_described_backwards : forall m, redescribed_surface true (backwards m) m (described_backwards m).
Proof. exact described_backwards_is. Qed.
Print Assumptions C90_described_backwards.

(** ** Signs of areas *)
Lemma sum_perm : forall l l', Permutation l l' -> (fold_right Qplus 0 l == fold_right Qplus 0 l')%Q.
Proof. intros l l' P. induction P as [|x l l' P IH|x y l|l l1 l2 P1 IH1 P2 IH2]; cbn [fold_right]; lra. Qed.
Lemma sum_opposite : forall A (f g : A -> Q) l, (forall x, In x l -> (g x == - f x)%Q) -> (fold_right Qplus 0 (map g l) == - fold_right Qplus 0 (map f l))%Q.
Proof.
  intros A f g l. induction l as [|x l IH]; intros E; cbn [map fold_right]; [lra|]. pose proof (E x (or_introl eq_refl)). pose proof (IH (fun y Hy => E y (or_intror Hy))). lra.
Qed.
Definition polygon_share (f : Point -> Point -> Q) (m : SurfaceMesh) (e : nat * nat) : Q :=
  f (nth (polygon_edge_vertex0 m e) (sm_points m) []) (nth (polygon_edge_vertex1 m e) (sm_points m) []).
Lemma side_sum_polygon : forall f points m p,
  side_sum f (map (fun v => nth v points []) (polygon_vertices m p)) =
  fold_right Qplus 0%Q (map (fun i => f (nth (polygon_edge_vertex0 m (p, i)) points []) (nth (polygon_edge_vertex1 m (p, i)) points [])) (seq 0 (nb_polygon_edges m p))).
Proof.
  intros f points m p. unfold side_sum. rewrite map_length. fold (nb_polygon_edges m p). f_equal. apply map_ext_in. intros i Hi. apply in_seq in Hi.
  assert (N : nb_polygon_edges m p <> 0) by lia. pose proof (Nat.mod_upper_bound (S i) _ N).
  rewrite !(nth_map_at _ _ (fun v => nth v points []) (polygon_vertices m p) _ 0 []) by (unfold nb_polygon_edges in *; lia). reflexivity.
Qed.
Lemma shares_moved : forall over d f m m' p, redescribed_surface over d m m' -> p < nb_polygons m ->
  Permutation (map (fun i => f (nth (polygon_edge_vertex0 m' (p, i)) (sm_points m) []) (nth (polygon_edge_vertex1 m' (p, i)) (sm_points m) [])) (seq 0 (nb_polygon_edges m' p)))
    (map (fun i => if over then f (nth (polygon_edge_vertex1 m (p, i)) (sm_points m) []) (nth (polygon_edge_vertex0 m (p, i)) (sm_points m) [])
                   else f (nth (polygon_edge_vertex0 m (p, i)) (sm_points m) []) (nth (polygon_edge_vertex1 m (p, i)) (sm_points m) [])) (seq 0 (nb_polygon_edges m p)) : list Q).
Proof.
  intros over d f m m' p H Hp. rewrite (rd_nb_edges _ _ _ _ H p Hp). etransitivity; [apply Permutation_map; apply (numbers_perm _ _ (rd_side_numbers _ _ _ _ H p Hp))|].
  rewrite map_map. apply Permutation_refl'. apply map_ext_in. intros i Hi. apply in_seq in Hi.
  assert (He : is_polygon_edge m (p, i)) by (split; cbn [fst snd]; lia). pose proof (rd_sides _ _ _ _ H _ He) as K. unfold described_side in K. cbn [fst snd] in K.
  destruct over; injection K as -> ->; reflexivity.
Qed.
(** if the sign is that of a sum over the sides (as for the exact area), it is the same from any first vertex *)
Theorem C90_same_sign : forall d ms f m m', redescribed_surface false d m m' -> sign_by_sides ms f -> same_sign ms m m'.
Proof.
  intros d ms f m m' H S p Hp. unfold sign_by_sides in S. apply eq_true_iff_eq. rewrite !S, !side_sum_polygon. pose proof (sum_perm _ _ (shares_moved false d f m m' p H Hp)) as E. cbv iota in E. rewrite E. reflexivity.
Qed.
Print Assumptions C90_same_sign.
(** and opposite in the other direction: no polygon is negative in both *)
Theorem C90_opposite_sign : forall d ms f m m', redescribed_surface true d m m' -> sign_by_sides ms f -> antisymmetric f ->
  forall p, p < nb_polygons m -> (side_sum f (polygon_points m' p) == - side_sum f (polygon_points m p))%Q /\
    ~ (polygon_is_negative ms m p = true /\ polygon_is_negative ms m' p = true).
Proof.
  intros d ms f m m' H S A p Hp. unfold sign_by_sides in S. assert (E : (side_sum f (polygon_points m' p) == - side_sum f (polygon_points m p))%Q).
  { unfold polygon_points. rewrite (rd_points _ _ _ _ H), !side_sum_polygon. pose proof (sum_perm _ _ (shares_moved true d f m m' p H Hp)) as E. cbv iota in E. rewrite E.
    apply sum_opposite. intros i _. apply A. }
  split; [exact E|]. unfold polygon_is_negative. rewrite !S, E. clear. lra.
Qed.
Print Assumptions C90_opposite_sign.

(** ** Examples: the mesh of the example of C73, its triangles described from their vertices 1 and 2, and backwards *)
Definition rd_first (p : nat) : nat := S p.
Example rd_polygons : sm_polygons rn_surface = [[0; 1; 2]; [2; 1; 3]] /\ sm_polygons (described_from rd_first rn_surface) = [[1; 2; 0]; [3; 2; 1]] /\
  sm_polygons (described_backwards rn_surface) = [[2; 1; 0]; [3; 1; 2]].
Proof. repeat split. Qed.
Example rd_hypotheses : inside_surface rn_surface /\ consistent (sm_points rn_surface) (g_colocated exact_geo (sm_points rn_surface)) /\
  (forall v, v < length (sm_points rn_surface) -> sm_around_vertex rn_surface v = Throw OpenGeodeExn \/ exists fan, sm_around_vertex rn_surface v = Ok fan) /\
  sm_dimension rn_surface <> 2 /\ same_sign rn_measures rn_surface (described_from rd_first rn_surface).
Proof.
  split; [|split; [apply exact_consistent|split; [|split; [discriminate|intros p Hp; reflexivity]]]].
  - split; [|split].
    + intros [p e] q [Hp He] E. cbn [fst snd] in *. cbn in Hp. destruct p as [|[|p]]; try lia; cbn in He; destruct e as [|[|[|e]]]; try lia; cbn in E; try discriminate; injection E as <-; cbn; lia.
    + intros [p e] [Hp He]. cbn [fst snd] in *. cbn in Hp. destruct p as [|[|p]]; try lia; cbn in He; destruct e as [|[|[|e]]]; try lia; cbn; lia.
    + intros v fan c Hv E J. cbn in Hv. destruct v as [|[|[|[|v]]]]; try lia; cbn in E; injection E as <-; cbn in J; repeat (destruct J as [<-|J]; [split; cbn; lia|]); destruct J.
  - intros v Hv. right. cbn in Hv. destruct v as [|[|[|[|v]]]]; try lia; eexists; reflexivity.
Qed.
Example rd_reports :
  (exists r, inspect_surface rn_measures exact_geo any_order "s"%string (described_from rd_first rn_surface) (new_inspector false) (Ok (new_issues ""%string)) = Ok r /\
     ii_issues (sr_adjacency r) = [(0, 0)] /\ ii_issues (sr_colocated r) = [[0; 3]] /\ ii_issues (sr_edges r) = [1] /\ ii_issues (sr_polygons r) = [1] /\
     ii_issues (sr_manifold_edges r) = [(1, 2)] /\ ii_issues (sr_manifold_vertices r) = [2]) /\
  (exists r, inspect_surface rn_measures exact_geo any_order "s"%string (described_backwards rn_surface) (new_inspector false) (Ok (new_issues ""%string)) = Ok r /\
     ii_issues (sr_adjacency r) = [(0, 0)] /\ ii_issues (sr_colocated r) = [[0; 3]] /\ ii_issues (sr_edges r) = [1] /\ ii_issues (sr_polygons r) = [1] /\
     ii_issues (sr_manifold_edges r) = [(1, 2)] /\ ii_issues (sr_manifold_vertices r) = [2]).
Proof. split; eexists; (split; [vm_compute; reflexivity|]); repeat split. Qed.
Example rd_intersections :
  (forall p q, p < nb_polygons rn_surface -> q < nb_polygons rn_surface ->
    px_polygons rn_px (described_from rd_first rn_surface) (polygon_vertices (described_from rd_first rn_surface) p) (polygon_vertices (described_from rd_first rn_surface) q) =
      px_polygons rn_px rn_surface (polygon_vertices rn_surface p) (polygon_vertices rn_surface q)) /\
  (forall p q, In (p, q) [(0, 1)] -> p < nb_polygons rn_surface /\ q < nb_polygons rn_surface) /\
  surface_intersecting_elements rn_px rn_surface [(0, 1)] (Ok (self_intersections_issues [(0, 1)])) /\
  surface_intersecting_elements rn_px (described_from rd_first rn_surface) [(0, 1)] (Ok (self_intersections_issues [(0, 1)])).
Proof.
  split; [|split; [|split]].
  - intros p q Hp Hq. cbn in Hp, Hq. destruct p as [|[|p]]; try lia; destruct q as [|[|q]]; try lia; reflexivity.
  - intros p q [E|[]]; injection E as <- <-; cbn; lia.
  - exists (Ok [(0, 1)]). split; [|reflexivity]. eapply tr_visit; [apply Permutation_refl|reflexivity|]. apply tr_all_visited.
  - exists (Ok [(0, 1)]). split; [|reflexivity]. eapply tr_visit; [apply Permutation_refl|reflexivity|]. apply tr_all_visited.
Qed.
(** the exact area in the plane: twice the area of a polygon is the sum of these shares *)
Definition rd_zero : double := Floats.SpecFloat.S754_zero false.
Definition rd_one : double := Floats.SpecFloat.S754_finite false 1 0.
Definition rd_share (a b : Point) : Q :=
  (value (nth 0 a rd_zero) * value (nth 1 b rd_zero) - value (nth 0 b rd_zero) * value (nth 1 a rd_zero))%Q.
Definition rd_measures : Measures := mkMeasures (fun p _ => p) (fun _ _ => far) (fun points => negb (Qle_bool 0 (side_sum rd_share points))) (fun _ _ _ _ => false).
Example rd_signs : sign_by_sides rd_measures rd_share /\ antisymmetric rd_share.
Proof.
  split.
  - intros points. cbn [rd_measures ms_area_negative]. rewrite negb_true_iff. split; intros H.
    + apply Qnot_le_lt. intros K. apply Qle_bool_iff in K. congruence.
    + destruct (Qle_bool 0 (side_sum rd_share points)) eqn:E; [|reflexivity]. apply Qle_bool_iff in E. clear - E H. lra.
  - intros a b. unfold rd_share. ring.
Qed.
(** a triangle described clockwise: negative from any vertex, positive backwards *)
Definition rd_clockwise : SurfaceMesh :=
  mkSurface 2 [[rd_zero; rd_zero]; [rd_one; rd_zero]; [rd_zero; rd_one]] [[0; 2; 1]] (fun _ => None) [] (fun _ => false) (fun _ => far) (fun _ => Ok []) (fun _ => true).
Example rd_clockwise_signs : ii_issues (negative_polygons rd_measures rd_clockwise) = [0] /\ ii_issues (negative_polygons rd_measures (described_from rd_first rd_clockwise)) = [0] /\
  ii_issues (negative_polygons rd_measures (described_backwards rd_clockwise)) = [].
Proof. repeat split; vm_compute; reflexivity. Qed.
