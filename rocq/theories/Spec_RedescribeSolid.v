(** The same solid whose polyhedra are described otherwise: vertices, facets and edges in another order, facets from another vertex or in the other direction. *)
From Coq Require Import String Ascii List Arith NArith ZArith Bool Lia Permutation QArith Floats.SpecFloat.
From Verif Require Import Base Model_Issues Types Model_Results Spec_Cycles Spec_Adjacency Spec_Manifold Spec_Renumber Spec_Redescribe.
Import ListNotations.
Local Open Scope nat_scope.
Local Open Scope string_scope.

(** the new numbers of the corners, of the facets and of the edges inside each polyhedron *)
Record SolidRedescription := mkSolidRedescription { so_corner_number : nat -> nat -> nat; so_facet_number : nat -> nat -> nat; so_edge_number : nat -> nat -> nat }.
Definition described_solid_corner (d : SolidRedescription) (c : nat * nat) : nat * nat := (fst c, so_corner_number d (fst c) (snd c)).
Definition described_facet (d : SolidRedescription) (f : nat * nat) : nat * nat := (fst f, so_facet_number d (fst f) (snd f)).

(** [m'] is [m] with other numbers inside its polyhedra; [over]: every facet is described in the other direction. *)
Record redescribed_solid (over : bool) (d : SolidRedescription) (m m' : SolidMesh) : Prop := {
  rv_points : so_points m' = so_points m;
  rv_edges : so_edges m' = so_edges m;
  rv_nb_polyhedra : nb_polyhedra m' = nb_polyhedra m;
  rv_nb_corners : forall p, p < nb_polyhedra m -> List.length (ph_vertices (polyhedron m' p)) = List.length (ph_vertices (polyhedron m p));
  rv_nb_facets : forall p, p < nb_polyhedra m -> List.length (ph_facets (polyhedron m' p)) = List.length (ph_facets (polyhedron m p));
  rv_nb_edges : forall p, p < nb_polyhedra m -> List.length (ph_edges (polyhedron m' p)) = List.length (ph_edges (polyhedron m p));
  rv_corner_numbers : forall p, p < nb_polyhedra m -> numbers (List.length (ph_vertices (polyhedron m p))) (so_corner_number d p);
  rv_facet_numbers : forall p, p < nb_polyhedra m -> numbers (List.length (ph_facets (polyhedron m p))) (so_facet_number d p);
  rv_edge_numbers : forall p, p < nb_polyhedra m -> numbers (List.length (ph_edges (polyhedron m p))) (so_edge_number d p);
  rv_corners : forall p i v, p < nb_polyhedra m -> nth_error (ph_vertices (polyhedron m p)) i = Some v ->
    nth_error (ph_vertices (polyhedron m' p)) (so_corner_number d p i) = Some v;
  rv_facets : forall p i f, p < nb_polyhedra m -> nth_error (ph_facets (polyhedron m p)) i = Some f ->
    exists f', nth_error (ph_facets (polyhedron m' p)) (so_facet_number d p i) = Some f' /\ same_oriented_cycle (if over then rev f else f) f';
  rv_ph_edges : forall p i a b, p < nb_polyhedra m -> nth_error (ph_edges (polyhedron m p)) i = Some (a, b) ->
    nth_error (ph_edges (polyhedron m' p)) (so_edge_number d p i) = Some (a, b) \/
    nth_error (ph_edges (polyhedron m' p)) (so_edge_number d p i) = Some (b, a);
  rv_adjacent : forall f, is_polyhedron_facet m f -> so_adjacent m' (described_facet d f) = so_adjacent m f;
  rv_height : forall p, p < nb_polyhedra m -> so_minimum_height m' p = so_minimum_height m p;
  rv_around : forall v, v < List.length (so_points m) -> same_answer (described_solid_corner d) (so_around_vertex m v) (so_around_vertex m' v) }.
(** the parts of a solid refer to each other inside it *)
Definition inside_solid (m : SolidMesh) : Prop :=
  (forall f q, is_polyhedron_facet m f -> so_adjacent m f = Some q -> q < nb_polyhedra m) /\
  (forall p v, p < nb_polyhedra m -> In v (ph_vertices (polyhedron m p)) -> v < List.length (so_points m)) /\
  (forall v fan p i, v < List.length (so_points m) -> so_around_vertex m v = Ok fan -> In (p, i) fan ->
     p < nb_polyhedra m /\ i < List.length (ph_vertices (polyhedron m p))).
(** Turning around an edge fails in both meshes or in none, whatever the occurrences of the edge where it starts. *)
Definition same_failed_turns (m m' : SolidMesh) : Prop :=
  forall e ab e' ab', first_occurrence m e ab -> first_occurrence m' e' ab' -> undirected ab = undirected ab' ->
    (so_around_edge m' ab' (fst e') = Throw OpenGeodeExn <-> so_around_edge m ab (fst e) = Throw OpenGeodeExn).

(** ** Reports: the polyhedra of negative volume are compared apart *)
Record redescribed_solid_report (d : SolidRedescription) (r r' : SolidResult) : Prop := {
  rvr_adjacency : Permutation (ii_issues (so_r_adjacency r')) (map (described_facet d) (ii_issues (so_r_adjacency r)));
  rvr_colocated : so_r_colocated r' = so_r_colocated r;
  rvr_edges : so_r_edges r' = so_r_edges r;
  rvr_polyhedra : so_r_polyhedra r' = so_r_polyhedra r;
  rvr_manifold_vertices : ii_issues (so_r_manifold_vertices r') = ii_issues (so_r_manifold_vertices r);
  rvr_manifold_edges : Permutation (map undirected (ii_issues (so_r_manifold_edges r'))) (map undirected (ii_issues (so_r_manifold_edges r)));
  rvr_manifold_facets : exists l, Permutation (ii_issues (so_r_manifold_facets r')) l /\ Forall2 same_cycle (ii_issues (so_r_manifold_facets r)) l }.
(** The sign of the volume of a polyhedron does not depend on how it is described. *)
Definition tetra_sign (ms : Measures) (points : list Point) : option bool :=
  match points with [a; b; c; d] => Some (ms_tetra_negative ms a b c d) | _ => None end.
Definition solid_points (m : SolidMesh) (p : nat) : list Point := map (fun v => nth v (so_points m) []) (ph_vertices (polyhedron m p)).
Definition same_volume_sign (ms : Measures) (m m' : SolidMesh) : Prop :=
  forall p, p < nb_polyhedra m -> tetra_sign ms (solid_points m' p) = tetra_sign ms (solid_points m p) /\
    (List.length (ph_vertices (polyhedron m p)) <> 4 -> dlt (so_volume m' p) (S754_zero false) = dlt (so_volume m p) (S754_zero false)).

(** ** Facets described from their vertex number [k], edges described from their other end *)
Definition numbered {A B} (f : nat -> A -> B) (l : list A) : list B := map (fun ia => f (fst ia) (snd ia)) (combine (seq 0 (List.length l)) l).
Definition turned_polyhedron (over : bool) (k : nat -> nat) (flip : nat -> bool) (ph : Polyhedron) : Polyhedron :=
  mkPolyhedron (ph_vertices ph) (numbered (fun i f => from_vertex (k i) (if over then rev f else f)) (ph_facets ph))
    (numbered (fun i ab => if flip i then (snd ab, fst ab) else ab) (ph_edges ph)).
Definition turned_solid (over : bool) (k : nat -> nat -> nat) (flip : nat -> nat -> bool) (around_edge : nat * nat -> nat -> outcome (list nat)) (m : SolidMesh) : SolidMesh :=
  mkSolid (so_points m) (numbered (fun p ph => turned_polyhedron over (k p) (flip p) ph) (so_polyhedra m)) (so_adjacent m) (so_edges m) (so_polyhedron_degenerated m)
    (so_minimum_height m) (so_volume m) (so_around_vertex m) around_edge.
Definition same_numbers : SolidRedescription := mkSolidRedescription (fun _ i => i) (fun _ i => i) (fun _ i => i).

(** ** Signed volumes: [f] is twice, six times... the volume; it changes sign when two consecutive corners are swapped *)
Inductive swapped {A} : bool -> list A -> list A -> Prop :=
  | swapped_none : forall l, swapped false l l
  | swapped_more : forall odd l u a b v, swapped odd l (u ++ a :: b :: v) -> swapped (negb odd) l (u ++ b :: a :: v).
Definition sign_of_volume (ms : Measures) (f : Point -> Point -> Point -> Point -> Q) : Prop :=
  forall a b c d, ms_tetra_negative ms a b c d = true <-> (f a b c d < 0)%Q.
Definition alternating (f : Point -> Point -> Point -> Point -> Q) : Prop :=
  forall a b c d, (f b a c d == - f a b c d)%Q /\ (f a c b d == - f a b c d)%Q /\ (f a b d c == - f a b c d)%Q.
