(** A mesh made of two pieces that share no vertex. *)
From Coq Require Import String Ascii List Arith NArith ZArith Bool Lia Permutation Sorted Mergesort.
From Verif Require Import Base Model_Issues Types Spec_Colocation Model_Results Model_Intersections Spec_Cycles Spec_Adjacency Spec_Manifold Spec_Renumber.
Import ListNotations.
Local Open Scope string_scope.

(** [f] gives to [0, ..., n - 1] distinct numbers below [k]. *)
Definition injects (n k : nat) (f : nat -> nat) : Prop :=
  (forall i, i < n -> f i < k) /\ (forall i j, i < n -> j < n -> f i = f j -> i = j).
(** [0, ..., k - 1] is made of the numbers given by [f] to the first piece and by [g] to the second, and no number is given by both. *)
Definition shared_out (k n1 n2 : nat) (f g : nat -> nat) : Prop :=
  (forall y, y < k -> (exists x, x < n1 /\ f x = y) \/ (exists x, x < n2 /\ g x = y)) /\ (forall x y, x < n1 -> y < n2 -> f x <> g y).

(** ** One piece of a whole: [n] gives the numbers its vertices, elements and stored edges have in the whole *)
Definition piece_points (n : Numbering) (points whole : list Point) : Prop :=
  injects (List.length points) (List.length whole) (new_vertex n) /\
  forall v, v < List.length points -> nth_error whole (new_vertex n v) = nth_error points v.
Definition piece_edges (n : Numbering) (nb_vertices : nat) (edges whole : list (nat * nat)) : Prop :=
  injects (List.length edges) (List.length whole) (new_edge n) /\
  forall k a b, nth_error edges k = Some (a, b) -> a < nb_vertices /\ b < nb_vertices /\
    nth_error whole (new_edge n k) = Some (new_vertex n a, new_vertex n b).

Record piece_curve (n : Numbering) (c w : EdgedCurve) : Prop := {
  pc_points : piece_points n (ec_points c) (ec_points w);
  pc_edges : piece_edges n (List.length (ec_points c)) (ec_edges c) (ec_edges w);
  pc_length : forall k, k < List.length (ec_edges c) -> ec_edge_length w (new_edge n k) = ec_edge_length c k }.

Record piece_surface (n : Numbering) (m w : SurfaceMesh) : Prop := {
  pi_dimension : sm_dimension w = sm_dimension m;
  pi_points : piece_points n (sm_points m) (sm_points w);
  pi_edges : piece_edges n (List.length (sm_points m)) (sm_edges m) (sm_edges w);
  pi_numbers : injects (nb_polygons m) (nb_polygons w) (new_element n);
  pi_polygons : forall p, p < nb_polygons m ->
    polygon_vertices w (new_element n p) = map (new_vertex n) (polygon_vertices m p) /\
    (forall v, In v (polygon_vertices m p) -> v < List.length (sm_points m));
  pi_adjacent : forall p e, p < nb_polygons m -> e < nb_polygon_edges m p ->
    sm_adjacent w (new_element n p, e) = option_map (new_element n) (sm_adjacent m (p, e)) /\
    (forall q, sm_adjacent m (p, e) = Some q -> q < nb_polygons m);
  pi_height : forall p, p < nb_polygons m -> sm_minimum_height w (new_element n p) = sm_minimum_height m p;
  pi_around : forall v, v < List.length (sm_points m) ->
    same_answer (new_corner n) (sm_around_vertex m v) (sm_around_vertex w (new_vertex n v)) /\
    (forall fan p e, sm_around_vertex m v = Ok fan -> In (p, e) fan -> p < nb_polygons m) }.

Record piece_solid (n : Numbering) (m w : SolidMesh) : Prop := {
  po_points : piece_points n (so_points m) (so_points w);
  po_edges : piece_edges n (List.length (so_points m)) (so_edges m) (so_edges w);
  po_numbers : injects (nb_polyhedra m) (nb_polyhedra w) (new_element n);
  po_vertices : forall p, p < nb_polyhedra m ->
    ph_vertices (polyhedron w (new_element n p)) = map (new_vertex n) (ph_vertices (polyhedron m p)) /\
    (forall v, In v (ph_vertices (polyhedron m p)) -> v < List.length (so_points m));
  po_facets : forall p, p < nb_polyhedra m ->
    ph_facets (polyhedron w (new_element n p)) = map (map (new_vertex n)) (ph_facets (polyhedron m p)) /\
    (forall f v, In f (ph_facets (polyhedron m p)) -> In v f -> v < List.length (so_points m));
  po_ph_edges : forall p, p < nb_polyhedra m ->
    ph_edges (polyhedron w (new_element n p)) =
      map (fun ab => (new_vertex n (fst ab), new_vertex n (snd ab))) (ph_edges (polyhedron m p)) /\
    (forall a b, In (a, b) (ph_edges (polyhedron m p)) -> a < List.length (so_points m) /\ b < List.length (so_points m));
  po_adjacent : forall p f, p < nb_polyhedra m -> f < List.length (ph_facets (polyhedron m p)) ->
    so_adjacent w (new_element n p, f) = option_map (new_element n) (so_adjacent m (p, f)) /\
    (forall q, so_adjacent m (p, f) = Some q -> q < nb_polyhedra m);
  po_height : forall p, p < nb_polyhedra m -> so_minimum_height w (new_element n p) = so_minimum_height m p;
  po_volume : forall p, p < nb_polyhedra m -> so_volume w (new_element n p) = so_volume m p;
  po_around : forall v, v < List.length (so_points m) ->
    same_answer (new_corner n) (so_around_vertex m v) (so_around_vertex w (new_vertex n v)) /\
    (forall fan p e, so_around_vertex m v = Ok fan -> In (p, e) fan -> p < nb_polyhedra m) }.

(** ** The whole [w] is made of the pieces [m1] and [m2], and of nothing else *)
Definition two_clouds (n1 n2 : Numbering) (m1 m2 w : list Point) : Prop :=
  piece_points n1 m1 w /\ piece_points n2 m2 w /\ shared_out (List.length w) (List.length m1) (List.length m2) (new_vertex n1) (new_vertex n2).
Record two_curves (n1 n2 : Numbering) (m1 m2 w : EdgedCurve) : Prop := {
  tc_first : piece_curve n1 m1 w;
  tc_second : piece_curve n2 m2 w;
  tc_vertices : shared_out (List.length (ec_points w)) (List.length (ec_points m1)) (List.length (ec_points m2)) (new_vertex n1) (new_vertex n2);
  tc_edges : shared_out (List.length (ec_edges w)) (List.length (ec_edges m1)) (List.length (ec_edges m2)) (new_edge n1) (new_edge n2) }.
Record two_surfaces (n1 n2 : Numbering) (m1 m2 w : SurfaceMesh) : Prop := {
  ts_first : piece_surface n1 m1 w;
  ts_second : piece_surface n2 m2 w;
  ts_vertices : shared_out (List.length (sm_points w)) (List.length (sm_points m1)) (List.length (sm_points m2)) (new_vertex n1) (new_vertex n2);
  ts_polygons : shared_out (nb_polygons w) (nb_polygons m1) (nb_polygons m2) (new_element n1) (new_element n2);
  ts_edges : shared_out (List.length (sm_edges w)) (List.length (sm_edges m1)) (List.length (sm_edges m2)) (new_edge n1) (new_edge n2) }.
Record two_solids (n1 n2 : Numbering) (m1 m2 w : SolidMesh) : Prop := {
  to_first : piece_solid n1 m1 w;
  to_second : piece_solid n2 m2 w;
  to_vertices : shared_out (List.length (so_points w)) (List.length (so_points m1)) (List.length (so_points m2)) (new_vertex n1) (new_vertex n2);
  to_polyhedra : shared_out (nb_polyhedra w) (nb_polyhedra m1) (nb_polyhedra m2) (new_element n1) (new_element n2);
  to_edges : shared_out (List.length (so_edges w)) (List.length (so_edges m1)) (List.length (so_edges m2)) (new_edge n1) (new_edge n2) }.

(** No point of one piece is found at the place of a point of the other, and in each piece the same points are found at one place as when
    it is alone. *)
Definition apart (geo : Geometry) (n1 n2 : Numbering) (points1 points2 whole : list Point) : Prop :=
  consistent points1 (g_colocated geo points1) /\ consistent points2 (g_colocated geo points2) /\ consistent whole (g_colocated geo whole) /\
  (forall i j, i < List.length points1 -> j < List.length points1 ->
    (same_place (g_colocated geo whole) (new_vertex n1 i) (new_vertex n1 j) <-> same_place (g_colocated geo points1) i j)) /\
  (forall i j, i < List.length points2 -> j < List.length points2 ->
    (same_place (g_colocated geo whole) (new_vertex n2 i) (new_vertex n2 j) <-> same_place (g_colocated geo points2) i j)) /\
  (forall i j, i < List.length points1 -> j < List.length points2 -> ~ same_place (g_colocated geo whole) (new_vertex n1 i) (new_vertex n2 j)).

(** ** Reports: the issues of the whole are those of the first piece and those of the second, under the numbers of the whole, in any order *)
Definition both {A B} (f g : A -> B) (r1 r2 : InspectionIssues A) (r : InspectionIssues B) : Prop :=
  Permutation (ii_issues r) (map f (ii_issues r1) ++ map g (ii_issues r2)).
Definition both_edges (n1 n2 : Numbering) (r1 r2 r : InspectionIssues (nat * nat)) : Prop :=
  Permutation (map undirected (ii_issues r)) (map (new_pair n1) (ii_issues r1) ++ map (new_pair n2) (ii_issues r2)).
Definition both_facets (n1 n2 : Numbering) (r1 r2 r : InspectionIssues (list nat)) : Prop :=
  exists l1 l2, Permutation (ii_issues r) (l1 ++ l2) /\ Forall2 (fun c c' => same_cycle (map (new_vertex n1) c) c') (ii_issues r1) l1 /\
    Forall2 (fun c c' => same_cycle (map (new_vertex n2) c) c') (ii_issues r2) l2.

Record both_curves (n1 n2 : Numbering) (r1 r2 r : CurveResult) : Prop := {
  bc_colocated : both (new_group n1) (new_group n2) (cr_colocated r1) (cr_colocated r2) (cr_colocated r);
  bc_edges : both (new_edge n1) (new_edge n2) (cr_edges r1) (cr_edges r2) (cr_edges r) }.
(** the pairs of intersecting polygons are compared apart *)
Record both_surfaces (n1 n2 : Numbering) (r1 r2 r : SurfaceResult) : Prop := {
  bs_adjacency : both (new_corner n1) (new_corner n2) (sr_adjacency r1) (sr_adjacency r2) (sr_adjacency r);
  bs_colocated : both (new_group n1) (new_group n2) (sr_colocated r1) (sr_colocated r2) (sr_colocated r);
  bs_edges : both (new_edge n1) (new_edge n2) (sr_edges r1) (sr_edges r2) (sr_edges r);
  bs_polygons : both (new_element n1) (new_element n2) (sr_polygons r1) (sr_polygons r2) (sr_polygons r);
  bs_manifold_edges : both (new_pair n1) (new_pair n2) (sr_manifold_edges r1) (sr_manifold_edges r2) (sr_manifold_edges r);
  bs_manifold_vertices : both (new_vertex n1) (new_vertex n2) (sr_manifold_vertices r1) (sr_manifold_vertices r2) (sr_manifold_vertices r);
  bs_negative : both (new_element n1) (new_element n2) (sr_negative r1) (sr_negative r2) (sr_negative r) }.
Record both_solids (n1 n2 : Numbering) (r1 r2 r : SolidResult) : Prop := {
  bo_adjacency : both (new_corner n1) (new_corner n2) (so_r_adjacency r1) (so_r_adjacency r2) (so_r_adjacency r);
  bo_colocated : both (new_group n1) (new_group n2) (so_r_colocated r1) (so_r_colocated r2) (so_r_colocated r);
  bo_edges : both (new_edge n1) (new_edge n2) (so_r_edges r1) (so_r_edges r2) (so_r_edges r);
  bo_polyhedra : both (new_element n1) (new_element n2) (so_r_polyhedra r1) (so_r_polyhedra r2) (so_r_polyhedra r);
  bo_manifold_vertices : both (new_vertex n1) (new_vertex n2) (so_r_manifold_vertices r1) (so_r_manifold_vertices r2) (so_r_manifold_vertices r);
  bo_manifold_edges : both_edges n1 n2 (so_r_manifold_edges r1) (so_r_manifold_edges r2) (so_r_manifold_edges r);
  bo_manifold_facets : both_facets n1 n2 (so_r_manifold_facets r1) (so_r_manifold_facets r2) (so_r_manifold_facets r);
  bo_negative : both (new_element n1) (new_element n2) (so_r_negative r1) (so_r_negative r2) (so_r_negative r) }.

(** ** Intersecting polygons *)
(** the pairs of polygons proposed for the whole: those of each piece and pairs with one polygon in each *)
Definition candidates_of_both (n1 n2 : Numbering) (m1 m2 : SurfaceMesh) (c1 c2 across c : list (nat * nat)) : Prop :=
  (forall p q, In (p, q) c1 -> p < nb_polygons m1 /\ q < nb_polygons m1) /\ (forall p q, In (p, q) c2 -> p < nb_polygons m2 /\ q < nb_polygons m2) /\
  (forall p q, In (p, q) across -> p < nb_polygons m1 /\ q < nb_polygons m2) /\
  Permutation (map undirected c) (map (new_polygons n1) c1 ++ map (new_polygons n2) c2 ++
    map (fun pq => undirected (new_element n1 (fst pq), new_element n2 (snd pq))) across).

(** ** Two meshes put in one, the elements of the second after those of the first *)
Definition kept : Numbering := mkNumbering (fun v => v) (fun p => p) (fun e => e).
Definition after (vertices elements edges : nat) : Numbering := mkNumbering (fun v => vertices + v) (fun p => elements + p) (fun e => edges + e).
Definition by_piece {A} (k : nat) (f g : nat -> A) (x : nat) : A := if Nat.ltb x k then f x else g (x - k).
Definition shift_pair (k : nat) (ab : nat * nat) : nat * nat := (k + fst ab, k + snd ab).
Definition shift_answer (k : nat) (o : outcome (list (nat * nat))) : outcome (list (nat * nat)) :=
  match o with Ok l => Ok (map (fun c => (k + fst c, snd c)) l) | Throw x => Throw x | UB => UB end.
Definition surfaces_together (m1 m2 : SurfaceMesh) : SurfaceMesh :=
  let v := List.length (sm_points m1) in let p := nb_polygons m1 in
  mkSurface (sm_dimension m1) (sm_points m1 ++ sm_points m2) (sm_polygons m1 ++ map (map (fun x => v + x)) (sm_polygons m2))
    (fun e => by_piece p (fun q => sm_adjacent m1 (q, snd e)) (fun q => option_map (fun x => p + x) (sm_adjacent m2 (q, snd e))) (fst e))
    (sm_edges m1 ++ map (shift_pair v) (sm_edges m2))
    (by_piece p (sm_polygon_degenerated m1) (sm_polygon_degenerated m2)) (by_piece p (sm_minimum_height m1) (sm_minimum_height m2))
    (by_piece v (sm_around_vertex m1) (fun x => shift_answer p (sm_around_vertex m2 x))) (by_piece v (sm_vertex_on_border m1) (sm_vertex_on_border m2)).
(** a surface whose parts refer to each other inside it *)
Record closed_surface (m : SurfaceMesh) : Prop := {
  cs_polygons : forall p v, p < nb_polygons m -> In v (polygon_vertices m p) -> v < List.length (sm_points m);
  cs_edges : forall a b, In (a, b) (sm_edges m) -> a < List.length (sm_points m) /\ b < List.length (sm_points m);
  cs_adjacent : forall p e q, p < nb_polygons m -> e < nb_polygon_edges m p -> sm_adjacent m (p, e) = Some q -> q < nb_polygons m;
  cs_around : forall v fan p e, v < List.length (sm_points m) -> sm_around_vertex m v = Ok fan -> In (p, e) fan -> p < nb_polygons m }.
