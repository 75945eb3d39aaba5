(** The same mesh with its vertices, elements and stored edges numbered in another way. *)
From Coq Require Import String Ascii List Arith NArith ZArith Bool Lia Permutation Sorted Mergesort.
From Verif Require Import Base Model_Issues Types Spec_Colocation Model_Results Model_Intersections Spec_Cycles Spec_Adjacency Spec_Manifold.
Import ListNotations.
Local Open Scope string_scope.

(** [f] gives new numbers to [0, ..., n - 1], each once. *)
Definition numbers (n : nat) (f : nat -> nat) : Prop :=
  (forall i, i < n -> f i < n) /\ (forall i j, i < n -> j < n -> f i = f j -> i = j).
(** New numbers [v] of the vertices, [p] of the polygons or polyhedra, [e] of the stored edges. *)
Record Numbering := mkNumbering { new_vertex : nat -> nat; new_element : nat -> nat; new_edge : nat -> nat }.

(** What an answer becomes: the same failure, or the same elements under their new numbers, in any order. *)
Definition same_answer {A B} (f : A -> B) (o : outcome (list A)) (o' : outcome (list B)) : Prop :=
  match o, o' with
  | Ok l, Ok l' => Permutation l' (map f l)
  | Throw x, Throw y => x = y
  | UB, UB => True
  | _, _ => False
  end.
(** a corner, an edge or a facet of an element *)
Definition new_corner (n : Numbering) (c : nat * nat) : nat * nat := (new_element n (fst c), snd c).

Definition renumbered_points (n : Numbering) (points points' : list Point) : Prop :=
  List.length points' = List.length points /\ numbers (List.length points) (new_vertex n) /\
  forall v, v < List.length points -> nth_error points' (new_vertex n v) = nth_error points v.
Definition renumbered_edges (n : Numbering) (nb_vertices : nat) (edges edges' : list (nat * nat)) : Prop :=
  List.length edges' = List.length edges /\ numbers (List.length edges) (new_edge n) /\
  forall k a b, nth_error edges k = Some (a, b) -> a < nb_vertices /\ b < nb_vertices /\
    nth_error edges' (new_edge n k) = Some (new_vertex n a, new_vertex n b).

Record renumbered_curve (n : Numbering) (c c' : EdgedCurve) : Prop := {
  rc_points : renumbered_points n (ec_points c) (ec_points c');
  rc_edges : renumbered_edges n (List.length (ec_points c)) (ec_edges c) (ec_edges c');
  rc_length : forall k, k < List.length (ec_edges c) -> ec_edge_length c' (new_edge n k) = ec_edge_length c k }.

Record renumbered_surface (n : Numbering) (m m' : SurfaceMesh) : Prop := {
  rs_dimension : sm_dimension m' = sm_dimension m;
  rs_points : renumbered_points n (sm_points m) (sm_points m');
  rs_edges : renumbered_edges n (List.length (sm_points m)) (sm_edges m) (sm_edges m');
  rs_nb_polygons : nb_polygons m' = nb_polygons m;
  rs_numbers : numbers (nb_polygons m) (new_element n);
  rs_polygons : forall p, p < nb_polygons m ->
    polygon_vertices m' (new_element n p) = map (new_vertex n) (polygon_vertices m p) /\
    (forall v, In v (polygon_vertices m p) -> v < List.length (sm_points m));
  rs_adjacent : forall p e, p < nb_polygons m -> e < nb_polygon_edges m p ->
    sm_adjacent m' (new_element n p, e) = option_map (new_element n) (sm_adjacent m (p, e)) /\
    (forall q, sm_adjacent m (p, e) = Some q -> q < nb_polygons m);
  rs_height : forall p, p < nb_polygons m -> sm_minimum_height m' (new_element n p) = sm_minimum_height m p;
  rs_around : forall v, v < List.length (sm_points m) ->
    same_answer (new_corner n) (sm_around_vertex m v) (sm_around_vertex m' (new_vertex n v)) /\
    (forall fan p e, sm_around_vertex m v = Ok fan -> In (p, e) fan -> p < nb_polygons m) }.

Record renumbered_solid (n : Numbering) (m m' : SolidMesh) : Prop := {
  ro_points : renumbered_points n (so_points m) (so_points m');
  ro_edges : renumbered_edges n (List.length (so_points m)) (so_edges m) (so_edges m');
  ro_nb_polyhedra : nb_polyhedra m' = nb_polyhedra m;
  ro_numbers : numbers (nb_polyhedra m) (new_element n);
  ro_vertices : forall p, p < nb_polyhedra m ->
    ph_vertices (polyhedron m' (new_element n p)) = map (new_vertex n) (ph_vertices (polyhedron m p)) /\
    (forall v, In v (ph_vertices (polyhedron m p)) -> v < List.length (so_points m));
  ro_facets : forall p, p < nb_polyhedra m ->
    ph_facets (polyhedron m' (new_element n p)) = map (map (new_vertex n)) (ph_facets (polyhedron m p)) /\
    (forall f v, In f (ph_facets (polyhedron m p)) -> In v f -> v < List.length (so_points m));
  ro_ph_edges : forall p, p < nb_polyhedra m ->
    ph_edges (polyhedron m' (new_element n p)) =
      map (fun ab => (new_vertex n (fst ab), new_vertex n (snd ab))) (ph_edges (polyhedron m p)) /\
    (forall a b, In (a, b) (ph_edges (polyhedron m p)) -> a < List.length (so_points m) /\ b < List.length (so_points m));
  ro_adjacent : forall p f, p < nb_polyhedra m -> f < List.length (ph_facets (polyhedron m p)) ->
    so_adjacent m' (new_element n p, f) = option_map (new_element n) (so_adjacent m (p, f)) /\
    (forall q, so_adjacent m (p, f) = Some q -> q < nb_polyhedra m);
  ro_height : forall p, p < nb_polyhedra m -> so_minimum_height m' (new_element n p) = so_minimum_height m p;
  ro_volume : forall p, p < nb_polyhedra m -> so_volume m' (new_element n p) = so_volume m p;
  ro_around : forall v, v < List.length (so_points m) ->
    same_answer (new_corner n) (so_around_vertex m v) (so_around_vertex m' (new_vertex n v)) /\
    (forall fan p e, so_around_vertex m v = Ok fan -> In (p, e) fan -> p < nb_polyhedra m) }.

(** The search for colocated points gives well-formed answers that do not depend on the numbering of the points. *)
Definition blind_search (geo : Geometry) (n : Numbering) (points points' : list Point) : Prop :=
  consistent points (g_colocated geo points) /\ consistent points' (g_colocated geo points') /\
  forall i j, i < List.length points -> j < List.length points ->
    (same_place (g_colocated geo points') (new_vertex n i) (new_vertex n j) <-> same_place (g_colocated geo points) i j).

(** The same issues under their new numbers, in any order. *)
Definition renumbered_issues {A B} (f : A -> B) (r : InspectionIssues A) (r' : InspectionIssues B) : Prop :=
  Permutation (ii_issues r') (map f (ii_issues r)).
(** an edge between two vertices, smaller number first; a group of vertices, in increasing order *)
Definition new_pair (n : Numbering) (ab : nat * nat) : nat * nat :=
  let a := new_vertex n (fst ab) in let b := new_vertex n (snd ab) in (Nat.min a b, Nat.max a b).
Definition new_group (n : Numbering) (g : list nat) : list nat := NatSort.sort (map (new_vertex n) g).

(** Turning around an edge fails in both meshes or in none, whatever the occurrences of the edge where it starts. *)
Definition same_failures (n : Numbering) (m m' : SolidMesh) : Prop :=
  forall e ab e' ab', first_occurrence m e ab -> first_occurrence m' e' ab' ->
    (ab' = (new_vertex n (fst ab), new_vertex n (snd ab)) \/ ab' = (new_vertex n (snd ab), new_vertex n (fst ab))) ->
    (so_around_edge m' ab' (fst e') = Throw OpenGeodeExn <-> so_around_edge m ab (fst e) = Throw OpenGeodeExn).
(** The same edges, whatever their directions. *)
Definition undirected (ab : nat * nat) : nat * nat := (Nat.min (fst ab) (snd ab), Nat.max (fst ab) (snd ab)).
Definition renumbered_edge_issues (n : Numbering) (r r' : InspectionIssues (nat * nat)) : Prop :=
  Permutation (map undirected (ii_issues r')) (map (new_pair n) (ii_issues r)).
(** The same facets, whatever the vertices they start from and their directions. *)
Definition renumbered_facet_issues (n : Numbering) (r r' : InspectionIssues (list nat)) : Prop :=
  exists l, Permutation (ii_issues r') l /\ Forall2 (fun c c' => same_cycle (map (new_vertex n) c) c') (ii_issues r) l.

(** ** Reports; the pairs of intersecting polygons are compared apart, below *)
Record renumbered_curve_report (n : Numbering) (r r' : CurveResult) : Prop := {
  rcr_colocated : renumbered_issues (new_group n) (cr_colocated r) (cr_colocated r');
  rcr_edges : renumbered_issues (new_edge n) (cr_edges r) (cr_edges r') }.
Record renumbered_surface_report (n : Numbering) (r r' : SurfaceResult) : Prop := {
  rsr_adjacency : renumbered_issues (new_corner n) (sr_adjacency r) (sr_adjacency r');
  rsr_colocated : renumbered_issues (new_group n) (sr_colocated r) (sr_colocated r');
  rsr_edges : renumbered_issues (new_edge n) (sr_edges r) (sr_edges r');
  rsr_polygons : renumbered_issues (new_element n) (sr_polygons r) (sr_polygons r');
  rsr_manifold_edges : renumbered_issues (new_pair n) (sr_manifold_edges r) (sr_manifold_edges r');
  rsr_manifold_vertices : renumbered_issues (new_vertex n) (sr_manifold_vertices r) (sr_manifold_vertices r');
  rsr_negative : renumbered_issues (new_element n) (sr_negative r) (sr_negative r') }.
Record renumbered_solid_report (n : Numbering) (r r' : SolidResult) : Prop := {
  ror_adjacency : renumbered_issues (new_corner n) (so_r_adjacency r) (so_r_adjacency r');
  ror_colocated : renumbered_issues (new_group n) (so_r_colocated r) (so_r_colocated r');
  ror_edges : renumbered_issues (new_edge n) (so_r_edges r) (so_r_edges r');
  ror_polyhedra : renumbered_issues (new_element n) (so_r_polyhedra r) (so_r_polyhedra r');
  ror_manifold_vertices : renumbered_issues (new_vertex n) (so_r_manifold_vertices r) (so_r_manifold_vertices r');
  ror_manifold_edges : renumbered_edge_issues n (so_r_manifold_edges r) (so_r_manifold_edges r');
  ror_manifold_facets : renumbered_facet_issues n (so_r_manifold_facets r) (so_r_manifold_facets r');
  ror_negative : renumbered_issues (new_element n) (so_r_negative r) (so_r_negative r') }.

(** ** Intersecting polygons *)
Definition new_polygons (n : Numbering) (c : nat * nat) : nat * nat := undirected (new_element n (fst c), new_element n (snd c)).
(** The test of two polygons depends neither on the numbers nor on which polygon comes first. *)
Definition blind_test (px : Predicates) (n : Numbering) (m m' : SurfaceMesh) : Prop :=
  forall p q, p < nb_polygons m -> q < nb_polygons m ->
    px_polygons px m' (polygon_vertices m' (new_element n p)) (polygon_vertices m' (new_element n q)) =
      px_polygons px m (polygon_vertices m p) (polygon_vertices m q) /\
    px_polygons px m (polygon_vertices m q) (polygon_vertices m p) = px_polygons px m (polygon_vertices m p) (polygon_vertices m q).
(** The box trees propose the same pairs, in any order and any direction. *)
Definition same_candidates (n : Numbering) (m : SurfaceMesh) (candidates candidates' : list (nat * nat)) : Prop :=
  (forall p q, In (p, q) candidates -> p < nb_polygons m /\ q < nb_polygons m) /\
  Permutation (map undirected candidates') (map (new_polygons n) candidates).
