(** Concrete models without any issue, and an exact geometry, for examples and counterexamples. *)
From Coq Require Import String Ascii List Arith NArith ZArith Bool Lia Permutation Floats.SpecFloat.
From Verif Require Import Base Model_Issues Types Model_Hash Model_Degeneration Model_Intersections Model_Topology Model_BRep Model_Blocks
  Model_Results Model_Validity Proof_BRepCheck Properties_Topology Properties_BRep.
Import ListNotations.
Open Scope list_scope.

(** points on a line, at integer abscissae; two are the same when they are equal *)
Definition abscissa (n : nat) : double := match n with 0 => d0 | S k => S754_finite false (Pos.of_succ_nat k) 0 end.
Definition pt (n : nat) : Point := [abscissa n].
Definition double_same (a b : double) : bool :=
  match a, b with
  | S754_zero _, S754_zero _ => true
  | S754_finite s m e, S754_finite s' m' e' => Bool.eqb s s' && Pos.eqb m m' && Z.eqb e e'
  | _, _ => false
  end.
Definition same_point (p q : Point) : bool := match p, q with [a], [b] => double_same a b | [], [] => true | _, _ => false end.
Fixpoint index_of (p : Point) (l : list Point) (i : nat) : option nat :=
  match l with [] => None | q :: l' => if same_point q p then Some i else index_of p l' (S i) end.
Definition exact_colocated (pts : list Point) : ColocatedInfo :=
  let r := fold_left (fun acc p => let '(map, u) := acc in
    match index_of p u 0 with Some i => (map ++ [i], u) | None => (map ++ [length u], u ++ [p]) end) pts ([], []) in
  mkColocated (fst r) (snd r).
Definition exact_geo : Geometry := mkGeometry exact_colocated same_point (fun _ => "p"%string).
Definition far : double := S754_finite false 1 0.
(** everything is long, large and positive *)
Definition exact_measures : Measures := mkMeasures (fun p _ => p) (fun _ _ => far) (fun _ => false) (fun _ _ _ _ => false).
Definition any_order : HashOrder := mkHashOrder (fun A l => l) (fun A l => Permutation_refl l).
Definition good_corner id v := mkComponent id None true (mkPointSet [pt v]).
Definition good_line id v w := mkComponent id None true (mkCurve [pt v; pt w] [(0, 1)] (fun _ => far) (fun _ => false)).
Definition good_surface id dim u v w := mkComponent id None true
  (mkSurface dim [pt u; pt v; pt w] [[0; 1; 2]] (fun _ => None) [(0, 1); (1, 2); (0, 2)] (fun _ => false) (fun _ => far) (fun v => Ok [(0, v)]) (fun _ => true)).
Definition good_block id := mkComponent id None true
  (mkSolid [pt 0; pt 1; pt 2; pt 3] [mkPolyhedron [0; 1; 2; 3] [[1; 2; 3]; [0; 3; 2]; [0; 1; 3]; [0; 2; 1]] [(0, 1); (0, 2); (0, 3); (1, 2); (1, 3); (2, 3)]]
     (fun _ => None) [(0, 1); (0, 2); (0, 3); (1, 2); (1, 3); (2, 3)] (fun _ => false) (fun _ => far) (fun _ => far) (fun v => Ok [(0, v)]) (fun _ _ => Ok [0])).
Definition found (l : list (list nat * list (uuid * nat))) (k : list nat) : outcome (list (uuid * nat)) :=
  match find (fun e => forallb (fun x => existsb (Nat.eqb x) k) (fst e)) l with Some e => Ok (snd e) | None => Ok [] end.

(** a tetrahedron: four corners, six lines, four surfaces, one block *)
Definition good_tet := a_brep [good_corner 0 0; good_corner 1 1; good_corner 2 2; good_corner 3 3]
  [good_line 10 0 1; good_line 11 0 2; good_line 12 0 3; good_line 13 1 2; good_line 14 1 3; good_line 15 2 3]
  [good_surface 100 3 1 2 3; good_surface 101 3 0 2 3; good_surface 102 3 0 1 3; good_surface 103 3 0 1 2]
  [good_block 1000] [(5000, [100; 101; 102; 103])] tet_cmvs tet_bnd [].
Definition tet_lk : Lookup := mkLookup
  (fun e => found [([0; 1], [(10, 0)]); ([0; 2], [(11, 0)]); ([0; 3], [(12, 0)]); ([1; 2], [(13, 0)]); ([1; 3], [(14, 0)]); ([2; 3], [(15, 0)])] [fst e; snd e])
  (found [([1; 2; 3], [(100, 0)]); ([0; 2; 3], [(101, 0)]); ([0; 1; 3], [(102, 0)]); ([0; 1; 2], [(103, 0)])]).
Definition no_storage : ModelEdges := new_model_inspector (fun _ => false) (fun _ => false).
Definition tet_oracles tl := mkOracles exact_measures exact_geo any_order tet_lk tl.
(** a triangle: three corners, three lines, one surface *)
Definition good_triangle corners cmvs bnd := a_section corners [good_line 10 0 1; good_line 11 1 2; good_line 12 2 0]
  [good_surface 100 2 0 1 2] cmvs bnd [].
Definition triangle_lk : Lookup := mkLookup
  (fun e => found [([0; 1], [(10, 0)]); ([1; 2], [(11, 0)]); ([0; 2], [(12, 0)])] [fst e; snd e]) (fun _ => Ok []).
Definition triangle_oracles := mkOracles exact_measures exact_geo any_order triangle_lk tet_tl.
