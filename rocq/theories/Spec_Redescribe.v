(** The same surface whose polygons are described from another of their vertices, or in the other direction. *)
From Coq Require Import String Ascii List Arith NArith ZArith Bool Lia Permutation QArith.
From Verif Require Import Base Model_Issues Types Model_Results Spec_Adjacency Spec_Manifold Spec_Renumber.
Import ListNotations.
Local Open Scope nat_scope.
Local Open Scope string_scope.

(** the new numbers of the corners and of the sides inside each polygon *)
Record Redescription := mkRedescription { corner_number : nat -> nat -> nat; side_number : nat -> nat -> nat }.
Definition described_corner (d : Redescription) (c : nat * nat) : nat * nat := (fst c, corner_number d (fst c) (snd c)).
Definition described_side (d : Redescription) (e : nat * nat) : nat * nat := (fst e, side_number d (fst e) (snd e)).

(** [m'] is [m] with other numbers inside its polygons; [over]: every polygon is described in the other direction. *)
Record redescribed_surface (over : bool) (d : Redescription) (m m' : SurfaceMesh) : Prop := {
  rd_dimension : sm_dimension m' = sm_dimension m;
  rd_points : sm_points m' = sm_points m;
  rd_edges : sm_edges m' = sm_edges m;
  rd_nb_polygons : nb_polygons m' = nb_polygons m;
  rd_nb_edges : forall p, p < nb_polygons m -> nb_polygon_edges m' p = nb_polygon_edges m p;
  rd_corner_numbers : forall p, p < nb_polygons m -> numbers (nb_polygon_edges m p) (corner_number d p);
  rd_side_numbers : forall p, p < nb_polygons m -> numbers (nb_polygon_edges m p) (side_number d p);
  rd_corners : forall c, is_polygon_edge m c -> polygon_vertex m' (described_corner d c) = polygon_vertex m c;
  rd_sides : forall e, is_polygon_edge m e ->
    (polygon_edge_vertex0 m' (described_side d e), polygon_edge_vertex1 m' (described_side d e)) =
      (if over then (polygon_edge_vertex1 m e, polygon_edge_vertex0 m e) else (polygon_edge_vertex0 m e, polygon_edge_vertex1 m e));
  rd_adjacent : forall e, is_polygon_edge m e -> sm_adjacent m' (described_side d e) = sm_adjacent m e;
  rd_height : forall p, p < nb_polygons m -> sm_minimum_height m' p = sm_minimum_height m p;
  rd_around : forall v, v < List.length (sm_points m) -> same_answer (described_corner d) (sm_around_vertex m v) (sm_around_vertex m' v) }.
(** the parts of a surface refer to each other inside it *)
Definition inside_surface (m : SurfaceMesh) : Prop :=
  edge_adjacency_in_range m /\ surface_vertices_in_range m /\
  (forall v fan c, v < List.length (sm_points m) -> sm_around_vertex m v = Ok fan -> In c fan -> is_polygon_edge m c).

(** ** Reports: the intersecting polygons and the polygons of negative area are compared apart *)
Record redescribed_report (d : Redescription) (r r' : SurfaceResult) : Prop := {
  rr_adjacency : Permutation (ii_issues (sr_adjacency r')) (map (described_side d) (ii_issues (sr_adjacency r)));
  rr_colocated : sr_colocated r' = sr_colocated r;
  rr_edges : sr_edges r' = sr_edges r;
  rr_polygons : sr_polygons r' = sr_polygons r;
  rr_manifold_edges : Permutation (ii_issues (sr_manifold_edges r')) (ii_issues (sr_manifold_edges r));
  rr_manifold_vertices : ii_issues (sr_manifold_vertices r') = ii_issues (sr_manifold_vertices r) }.
(** The sign of the area of a polygon does not depend on how it is described. *)
Definition same_sign (ms : Measures) (m m' : SurfaceMesh) : Prop :=
  forall p, p < nb_polygons m -> ms_area_negative ms (map (fun v => nth v (sm_points m) []) (polygon_vertices m' p)) =
    ms_area_negative ms (map (fun v => nth v (sm_points m) []) (polygon_vertices m p)).

(** ** Polygons described from their vertex number [k], and polygons described backwards *)
Definition from_vertex (k : nat) (l : list nat) : list nat := map (fun i => nth (Nat.modulo (i + k) (List.length l)) l 0) (seq 0 (List.length l)).
Definition on_answer {A B} (f : A -> B) (o : outcome (list A)) : outcome (list B) :=
  match o with Ok l => Ok (map f l) | Throw x => Throw x | UB => UB end.
Definition from_vertices (k : nat -> nat) (m : SurfaceMesh) : Redescription :=
  let back p i := Nat.modulo (i + (nb_polygon_edges m p - Nat.modulo (k p) (nb_polygon_edges m p))) (nb_polygon_edges m p) in mkRedescription back back.
Definition described_from (k : nat -> nat) (m : SurfaceMesh) : SurfaceMesh :=
  mkSurface (sm_dimension m) (sm_points m) (map (fun p => from_vertex (k p) (polygon_vertices m p)) (seq 0 (nb_polygons m)))
    (fun e => sm_adjacent m (fst e, Nat.modulo (snd e + k (fst e)) (nb_polygon_edges m (fst e)))) (sm_edges m) (sm_polygon_degenerated m) (sm_minimum_height m)
    (fun v => on_answer (described_corner (from_vertices k m)) (sm_around_vertex m v)) (sm_vertex_on_border m).
Definition backwards (m : SurfaceMesh) : Redescription :=
  let n := nb_polygon_edges m in mkRedescription (fun p i => n p - 1 - i) (fun p i => n p - 1 - Nat.modulo (S i) (n p)).
Definition described_backwards (m : SurfaceMesh) : SurfaceMesh :=
  mkSurface (sm_dimension m) (sm_points m) (map (@rev nat) (sm_polygons m))
    (fun e => sm_adjacent m (described_side (backwards m) e)) (sm_edges m) (sm_polygon_degenerated m) (sm_minimum_height m)
    (fun v => on_answer (described_corner (backwards m)) (sm_around_vertex m v)) (sm_vertex_on_border m).

(** ** Areas computed side by side, as the exact area is: [f] gives the share of the side from a point to the next one *)
Definition side_sum (f : Point -> Point -> Q) (points : list Point) : Q :=
  fold_right Qplus 0%Q (map (fun i => f (nth i points []) (nth (Nat.modulo (S i) (List.length points)) points [])) (seq 0 (List.length points))).
Definition sign_by_sides (ms : Measures) (f : Point -> Point -> Q) : Prop := forall points, ms_area_negative ms points = true <-> (side_sum f points < 0)%Q.
Definition antisymmetric (f : Point -> Point -> Q) : Prop := forall a b, (f b a == - f a b)%Q.
