(** Model of criterion/intersections/{surface_intersections,surface_curve_intersections,model_intersections}.cpp *)
From Coq Require Import String Ascii List Arith NArith ZArith Bool Lia Permutation.
From Verif Require Import Base Model_Issues Types.
Import ListNotations.
Local Open Scope string_scope.

(** ** Oracles: geometric predicates of OpenGeode *)

(** geode::POSITION *)
Inductive Position :=
| Outside | Inside | Parallel
| Vertex0 | Vertex1 | Vertex2 | Vertex3
| Edge0 | Edge1 | Edge2 | Edge3 | Edge4 | Edge5
| Facet0 | Facet1 | Facet2 | Facet3.
Definition position_eqb (a b : Position) : bool :=
  match a, b with
  | Outside, Outside | Inside, Inside | Parallel, Parallel | Vertex0, Vertex0 | Vertex1, Vertex1 | Vertex2, Vertex2
  | Vertex3, Vertex3 | Edge0, Edge0 | Edge1, Edge1 | Edge2, Edge2 | Edge3, Edge3 | Edge4, Edge4 | Edge5, Edge5
  | Facet0, Facet0 | Facet1, Facet1 | Facet2, Facet2 | Facet3, Facet3 => true
  | _, _ => false
  end.
Definition Segment := (Point * Point)%type.
Definition Triangle := (Point * Point * Point)%type.
Record Predicates := mkPredicates {
  px_point_triangle : Point -> Triangle -> Position;                    (* point_triangle_position *)
  px_segment_segment : Segment -> Segment -> Position * Position;       (* segment_segment_intersection_detection *)
  px_segment_triangle : Segment -> Triangle -> Position * Position;     (* segment_triangle_intersection_detection *)
  px_index : Position -> option nat;                                    (* detail::position_to_index, NO_LID = None *)
  px_polygons : SurfaceMesh -> list nat -> list nat -> bool             (* detail::polygons_intersection_detection *) }.

(** [mesh.point(v)] and [array[i]]: an index out of range is undefined behaviour *)
Definition at_index {A} (l : list A) (i : nat) : outcome A :=
  match nth_error l i with Some a => Ok a | None => UB end.
Definition mesh_point (m : SurfaceMesh) (v : nat) : outcome Point := at_index (sm_points m) v.
Definition curve_segment (c : EdgedCurve) (e : nat) : outcome Segment :=
  let! vs := at_index (ec_edges c) e in
  let! p := at_index (ec_points c) (fst vs) in
  let! q := at_index (ec_points c) (snd vs) in Ok (p, q).

(** ** Oracle: the traversal of box trees

    A tree calls [action(a, b)] on pairs of elements whose boxes meet, in an order that depends on the tree (and on threads
    when it recurses in parallel, calls being then serialised by the mutex of the action), each pair once, until all pairs
    are visited; once a call has returned [true] it may stop at any time. *)
Inductive traverses {S : Type} (action : S -> nat * nat -> outcome (S * bool)) :
  bool -> list (nat * nat) -> S -> outcome S -> Prop :=
| tr_all_visited : forall stoppable s, traverses action stoppable [] s (Ok s)
| tr_stopped : forall candidates s, traverses action true candidates s (Ok s)
| tr_visit : forall stoppable candidates c rest s s' b r,
    Permutation candidates (c :: rest) -> action s c = Ok (s', b) ->
    traverses action (stoppable || b) rest s' r -> traverses action stoppable candidates s r
| tr_raise : forall stoppable candidates c rest s e,
    Permutation candidates (c :: rest) -> action s c = Throw e -> traverses action stoppable candidates s (Throw e)
| tr_undefined : forall stoppable candidates c rest s,
    Permutation candidates (c :: rest) -> action s c = UB -> traverses action stoppable candidates s UB.

(** The actions of this code: a pair that satisfies the test is recorded, and the call returns [stop] *)
Definition record_action (hit : nat * nat -> outcome bool) (stop : bool) (found : list (nat * nat)) (c : nat * nat) :
  outcome (list (nat * nat) * bool) :=
  let! h := hit c in Ok (if h then (found ++ [c], stop)%list else (found, false)).

(** ** surface_intersections.cpp *)

(** surface_intersections.cpp:57-73 *)
Definition surface_pair_intersects (px : Predicates) (m : SurfaceMesh) (c : nat * nat) : outcome bool :=
  if Nat.eqb (fst c) (snd c) then Ok false
  else Ok (px_polygons px m (polygon_vertices m (fst c)) (polygon_vertices m (snd c))).
(** surface_intersections.cpp:135-143; [candidates]: pairs of polygons whose boxes meet *)
Definition surface_intersecting_polygons (px : Predicates) (m : SurfaceMesh) (candidates : list (nat * nat)) (stop : bool)
  (r : outcome (list (nat * nat))) : Prop :=
  traverses (record_action (surface_pair_intersects px m) stop) false candidates [] r.
(** surface_intersections.cpp:107-115 *)
Definition mesh_has_self_intersections px m candidates (r : outcome bool) : Prop :=
  exists found, surface_intersecting_polygons px m candidates true found /\
    r = let! found := found in Ok (match found with [] => false | _ => true end).
(** surface_intersections.cpp:117-132 *)
Definition self_intersections_issues (found : list (nat * nat)) : InspectionIssues (nat * nat) :=
  fold_left (fun r c => add_issue c (StrCat ["Polygons "; str (fst c); " and "; str (snd c); " intersect"]) r)
    found (new_issues "intersections between polygons").
Definition surface_intersecting_elements px m candidates (r : outcome (InspectionIssues (nat * nat))) : Prop :=
  exists found, surface_intersecting_polygons px m candidates false found /\
    r = let! found := found in Ok (self_intersections_issues found).

(** ** surface_curve_intersections.cpp *)

(** triangle of a surface, [TriangulatedSurface::triangle] *)
Definition surface_triangle (m : SurfaceMesh) (t : nat) : outcome Triangle :=
  let vs := polygon_vertices m t in
  let! v0 := at_index vs 0 in let! v1 := at_index vs 1 in let! v2 := at_index vs 2 in
  let! p0 := mesh_point m v0 in let! p1 := mesh_point m v1 in let! p2 := mesh_point m v2 in Ok (p0, p1, p2).
(** surface_curve_intersections.cpp:125-158 *)
Definition edge_intersects_triangle_2d (px : Predicates) (surface : SurfaceMesh) (curve : EdgedCurve) (c : nat * nat) : outcome bool :=
  let! triangle := surface_triangle surface (fst c) in
  let! segment := curve_segment curve (snd c) in
  if existsb (fun p => position_eqb (px_point_triangle px p triangle) Inside) [fst segment; snd segment] then Ok true
  else anyM (fun e =>
      let! p0 := mesh_point surface (polygon_edge_vertex0 surface (fst c, e)) in
      let! p1 := mesh_point surface (polygon_edge_vertex1 surface (fst c, e)) in
      let result := px_segment_segment px segment (p0, p1) in
      Ok (position_eqb (fst result) Inside || position_eqb (snd result) Inside)) (Range 3).
(** surface_curve_intersections.cpp:160-211 *)
Definition edge_intersects_triangle_3d (px : Predicates) (surface : SurfaceMesh) (curve : EdgedCurve) (c : nat * nat) : outcome bool :=
  let! triangle := surface_triangle surface (fst c) in
  let! segment := curve_segment curve (snd c) in
  if existsb (fun p => position_eqb (px_point_triangle px p triangle) Inside) [fst segment; snd segment] then Ok true
  else
    let result := px_segment_triangle px segment triangle in
    if position_eqb (fst result) Outside || position_eqb (snd result) Outside then Ok false
    else if position_eqb (fst result) Inside then Ok true
    else if position_eqb (snd result) Inside || position_eqb (snd result) Edge0 || position_eqb (snd result) Edge1
            || position_eqb (snd result) Edge2 then Ok true
    else if position_eqb (fst result) Parallel
         then Ok (existsb (fun p => let position := px_point_triangle px p triangle in
                     negb (position_eqb position Vertex0) && negb (position_eqb position Vertex1)
                     && negb (position_eqb position Vertex2)) [fst segment; snd segment])
    else Ok false.
Definition edge_intersects_triangle px (surface : SurfaceMesh) curve c : outcome bool :=
  if Nat.eqb (sm_dimension surface) 2 then edge_intersects_triangle_2d px surface curve c
  else edge_intersects_triangle_3d px surface curve c.
(** surface_curve_intersections.cpp:255-265 with the actions of lines 80-123; [stop] is [true] for
    OneTriangleEdgeIntersection and [false] for AllTriangleEdgeIntersection *)
Definition intersecting_triangles_with_edges px surface curve (candidates : list (nat * nat)) (stop : bool)
  (r : outcome (list (nat * nat))) : Prop :=
  traverses (record_action (edge_intersects_triangle px surface curve) stop) false candidates [] r.
(** surface_curve_intersections.cpp:226-235 *)
Definition meshes_have_intersections px surface curve candidates (r : outcome bool) : Prop :=
  exists found, intersecting_triangles_with_edges px surface curve candidates true found /\
    r = let! found := found in Ok (match found with [] => false | _ => true end).
(** surface_curve_intersections.cpp:237-252 *)
Definition curve_intersections_issues (found : list (nat * nat)) : InspectionIssues (nat * nat) :=
  fold_left (fun r c => add_issue c (StrCat ["Triangle "; str (fst c); " and edge"; str (snd c); " intersect"]) r)
    found (new_issues "intersections between triangles and edges").
Definition curve_intersecting_elements px surface curve candidates (r : outcome (InspectionIssues (nat * nat))) : Prop :=
  exists found, intersecting_triangles_with_edges px surface curve candidates false found /\
    r = let! found := found in Ok (curve_intersections_issues found).

(** ** model_intersections.cpp *)

(** [LRange{a, b}]: bounds converted to the 8-bit [local_index_t] *)
Definition LRange2 (a b : N) : list nat := Range2 (N.to_nat (u8 a)) (N.to_nat (u8 b)).
(** model_intersections.cpp:65-79; [polygon.size() - 1] is an unsigned 64-bit subtraction and [% 0] is undefined behaviour *)
Definition polygon_fan_triangles (polygon : list nat) (apex : nat) : outcome (list (list nat)) :=
  match List.length polygon with
  | O => UB
  | S last =>
    foldM (fun triangles edge =>
        let next_apex := Nat.modulo (apex + edge) (List.length polygon) in
        let next_next_apex := if Nat.eqb (next_apex + 1) (List.length polygon) then 0 else next_apex + 1 in
        let! a := at_index polygon apex in
        let! b := at_index polygon next_apex in
        let! c := at_index polygon next_next_apex in
        Ok (triangles ++ [[a; b; c]])%list)
      (LRange2 1 (N.of_nat last)) []
  end.

(** model_intersections.cpp:273-280 *)
Definition mesh_triangle (m : SurfaceMesh) (t : list nat) : outcome Triangle :=
  let! v0 := at_index t 0 in let! v1 := at_index t 1 in let! v2 := at_index t 2 in
  let! p0 := mesh_point m v0 in let! p1 := mesh_point m v1 in let! p2 := mesh_point m v2 in Ok (p0, p1, p2).

(** model_intersections.cpp:391-409; [position] 0 or 1 selects the first or second vertex of the common pairs *)
Definition pair_at (position : nat) (c : nat * nat) : nat := if Nat.eqb position 0 then fst c else snd c.
Fixpoint third_point_index (vertices : list nat) (common : list (nat * nat)) (position : nat) : outcome nat :=
  match vertices with
  | [] => Throw OpenGeodeExn
  | v :: vertices' =>
    let! c0 := at_index common 0 in
    let! c1 := at_index common 1 in
    if Nat.eqb v (pair_at position c0) || Nat.eqb v (pair_at position c1)
    then third_point_index vertices' common position
    else Ok v
  end.

Section SurfacePair.
(** the members of ModelSurfacesIntersectionBase, model_intersections.cpp:283-288 (mesh2_ is mesh1_ for one surface) *)
Context (px : Predicates) (m : Model) (surface1 surface2 : Component SurfaceMesh).
Let mesh1 := co_mesh surface1.
Let mesh2 := co_mesh surface2.

(** [NO_ID == NO_ID] holds *)
Definition same_unique_vertex (a b : option nat) : bool :=
  match a, b with Some x, Some y => Nat.eqb x y | None, None => true | _, _ => false end.
Definition surface_vertex (s : Component SurfaceMesh) (v : nat) : option nat :=
  m_unique_vertex m (mkCMV (mkCID SurfaceT (co_id s)) v).
(** model_intersections.cpp:227-250 *)
Definition triangles_common_vertices (t1 t2 : list nat) : list (nat * nat) :=
  flat_map (fun v1 =>
      match find (fun v2 => same_unique_vertex (surface_vertex surface1 v1) (surface_vertex surface2 v2)) t2 with
      | Some v2 => [(v1, v2)]
      | None => []
      end) t1.

(** model_intersections.cpp:411-491 *)
Definition section_triangles_intersect (t1 t2 : list nat) (common : list (nat * nat)) : outcome bool :=
  if Nat.eqb (List.length common) 2
  then
    let! c0 := at_index common 0 in
    let! c1 := at_index common 1 in
    let! common_pt0 := mesh_point mesh1 (fst c0) in
    let! common_pt1 := mesh_point mesh1 (snd c1) in
    let! v1 := third_point_index t1 common 0 in
    let! t1_third_pt := mesh_point mesh1 v1 in
    let! v2 := third_point_index t2 common 1 in
    let! t2_third_pt := mesh_point mesh2 v2 in
    if negb (position_eqb (fst (px_segment_segment px (common_pt0, t1_third_pt) (common_pt1, t2_third_pt))) Outside)
       || negb (position_eqb (fst (px_segment_segment px (common_pt1, t1_third_pt) (common_pt0, t2_third_pt))) Outside)
    then Ok true
    else
      let! triangle1 := mesh_triangle mesh1 t1 in
      let! triangle2 := mesh_triangle mesh2 t2 in
      Ok (negb (position_eqb (px_point_triangle px t1_third_pt triangle2) Outside)
          || negb (position_eqb (px_point_triangle px t2_third_pt triangle1) Outside))
  else
    anyM (fun e1 =>
        let! a1 := at_index t1 e1 in
        let! b1 := at_index t1 (if Nat.eqb e1 2 then 0 else e1 + 1) in
        let! pa1 := mesh_point mesh1 a1 in
        let! pb1 := mesh_point mesh1 b1 in
        anyM (fun e2 =>
            let! a2 := at_index t2 e2 in
            let! b2 := at_index t2 (if Nat.eqb e2 2 then 0 else e2 + 1) in
            let! pa2 := mesh_point mesh2 a2 in
            let! pb2 := mesh_point mesh2 b2 in
            let inter := px_segment_segment px (pa1, pb1) (pa2, pb2) in
            if position_eqb (fst inter) Outside || position_eqb (fst inter) Parallel then Ok false
            else if negb (Nat.eqb (List.length common) 1) then Ok true
            else match px_index px (fst inter), px_index px (snd inter) with
                 | Some i1, Some i2 =>
                   let! w1 := at_index [a1; b1] i1 in
                   let! w2 := at_index [a2; b2] i2 in
                   let! c := at_index common 0 in
                   Ok (negb (Nat.eqb w1 (fst c)) || negb (Nat.eqb w2 (snd c)))
                 | _, _ => Ok true
                 end) (Range 3)) (Range 3).

(** model_intersections.cpp:493-532 *)
Definition triangle_vertex (t : Triangle) (i : nat) : Point :=
  let '(p0, p1, p2) := t in match i with 0 => p0 | 1 => p1 | _ => p2 end.
Definition triangle_intersects_other (triangle1 triangle2 : Triangle) (t1 t2 : list nat) (common : list (nat * nat))
  (t2_vertex_position : nat) : outcome bool :=
  anyM (fun v_id =>
      let v2_id := if Nat.eqb v_id 2 then 0 else v_id + 1 in
      let inter := px_segment_triangle px (triangle_vertex triangle1 v_id, triangle_vertex triangle1 v2_id) triangle2 in
      if position_eqb (fst inter) Outside then Ok false
      else if negb (Nat.eqb (List.length common) 1) then Ok true
      else match px_index px (fst inter), px_index px (snd inter) with
           | Some i1, Some i2 =>
             let! w1 := at_index t1 (if Nat.eqb i1 0 then v_id else v2_id) in
             let! w2 := at_index t2 i2 in
             let! c := at_index common 0 in
             Ok (negb (Nat.eqb w1 (pair_at (if Nat.eqb t2_vertex_position 0 then 1 else 0) c))
                 || negb (Nat.eqb w2 (pair_at t2_vertex_position c)))
           | _, _ => Ok true
           end) (Range 3).
(** model_intersections.cpp:534-564 *)
Definition brep_triangles_intersect (t1 t2 : list nat) (common : list (nat * nat)) : outcome bool :=
  let! triangle2 := mesh_triangle mesh2 t2 in
  if Nat.eqb (List.length common) 2
  then
    let! c0 := at_index common 0 in
    let! c1 := at_index common 1 in
    let! v1 := third_point_index t1 common 0 in
    let! t1_third_pt := mesh_point mesh1 v1 in
    let! p0 := mesh_point mesh1 (fst c0) in
    let! p1 := mesh_point mesh1 (fst c1) in
    Ok (position_eqb (fst (px_segment_triangle px (p0, t1_third_pt) triangle2)) Parallel
        || position_eqb (fst (px_segment_triangle px (p1, t1_third_pt) triangle2)) Parallel)
  else
    let! triangle1 := mesh_triangle mesh1 t1 in
    let! b := triangle_intersects_other triangle1 triangle2 t1 t2 common 1 in
    if b then Ok true else triangle_intersects_other triangle2 triangle1 t2 t1 common 0.
Definition triangles_intersect (t1 t2 : list nat) (common : list (nat * nat)) : outcome bool :=
  if Nat.eqb (sm_dimension mesh1) 2 then section_triangles_intersect t1 t2 common
  else brep_triangles_intersect t1 t2 common.

(** model_intersections.cpp:216-225 *)
Definition triangles_intersection_detection (t1 t2 : list nat) : outcome bool :=
  let common := triangles_common_vertices t1 t2 in
  if Nat.eqb (List.length common) 3 then Ok true else triangles_intersect t1 t2 common.
(** model_intersections.cpp:186-214 *)
Definition polygons_intersect (p1 p2 : nat) : outcome bool :=
  let vertices1 := polygon_vertices mesh1 p1 in
  let vertices2 := polygon_vertices mesh2 p2 in
  if Nat.ltb (List.length vertices1) 3 || Nat.ltb (List.length vertices2) 3 then Ok false
  else if Nat.eqb (List.length vertices1) 3 && Nat.eqb (List.length vertices2) 3
  then triangles_intersection_detection vertices1 vertices2
  else
    let! triangles1 := polygon_fan_triangles vertices1 0 in
    let! triangles2 := polygon_fan_triangles vertices2 0 in
    anyM (fun t1 => anyM (fun t2 => triangles_intersection_detection t1 t2) triangles2) triangles1.

(** The actions: model_intersections.cpp:307-319 (One), 339-350 (All), 370-385 (Auto) *)
Inductive SurfacesAction := OneIntersection | AllIntersections | AutoIntersections.
Definition same_surface : bool := Nat.eqb (co_id surface1) (co_id surface2).
Definition surfaces_hit (a : SurfacesAction) (c : nat * nat) : outcome bool :=
  match a with
  | AutoIntersections => if negb same_surface then Ok false
                         else if Nat.eqb (fst c) (snd c) then Ok false else polygons_intersect (fst c) (snd c)
  | _ => if same_surface && Nat.eqb (fst c) (snd c) then Ok false else polygons_intersect (fst c) (snd c)
  end.
Definition surfaces_action (a : SurfacesAction) :=
  record_action (surfaces_hit a) (match a with OneIntersection => true | _ => false end).
End SurfacePair.

(** ModelMeshesAABBTree: the surfaces of the tree, the pairs of them whose boxes meet, and the pairs of elements whose
    boxes meet in one mesh tree or in two of them *)
Record Trees := mkTrees {
  tr_uuids : list uuid;
  tr_overlaps : list (nat * nat);
  tr_self : nat -> list (nat * nat);
  tr_other : nat -> nat -> list (nat * nat) }.
(** [mesh_tree_ids_.at(id)] *)
Fixpoint position_of (id : uuid) (l : list uuid) : option nat :=
  match l with
  | [] => None
  | x :: l' => if Nat.eqb x id then Some 0 else option_map S (position_of id l')
  end.
Definition mesh_tree_id (l : list uuid) (id : uuid) : outcome nat :=
  match position_of id l with Some i => Ok i | None => Throw OtherExn end.

Definition ComponentMeshElement := (ComponentID * nat)%type.
Definition IntersectionsResult := list (ComponentMeshElement * ComponentMeshElement).
Definition located (a b : ComponentID) (found : list (nat * nat)) : IntersectionsResult :=
  map (fun '(p, q) => ((a, p), (b, q))) found.

Section Surfaces.
Context (px : Predicates) (m : Model) (trees : Trees).
(** one task of lines 700-718 or 725-749, with the candidates its tree gives it *)
Definition pair_task (a : SurfacesAction) (s1 s2 : Component SurfaceMesh) (candidates : list (nat * nat))
  (r : outcome IntersectionsResult) : Prop :=
  exists found, traverses (surfaces_action px m s1 s2 a) false candidates [] found /\
    r = let! found := found in Ok (located (mkCID SurfaceT (co_id s1)) (mkCID SurfaceT (co_id s2)) found).
(** model_intersections.cpp:700-718 *)
Definition self_task (a : SurfacesAction) (s : Component SurfaceMesh) (r : outcome IntersectionsResult) : Prop :=
  match get_surface m (co_id s) with
  | Ok s' => match mesh_tree_id (tr_uuids trees) (co_id s) with
             | Ok i => pair_task a s' s' (tr_self trees i) r
             | Throw e => r = Throw e
             | UB => r = UB
             end
  | Throw e => r = Throw e
  | UB => r = UB
  end.
(** model_intersections.cpp:725-749 *)
Definition overlap_task (a : SurfacesAction) (c : nat * nat) (r : outcome IntersectionsResult) : Prop :=
  match (let! id1 := at_index (tr_uuids trees) (fst c) in
         let! id2 := at_index (tr_uuids trees) (snd c) in
         let! s1 := get_surface m id1 in
         let! s2 := get_surface m id2 in Ok (s1, s2)) with
  | Ok (s1, s2) => pair_task a s1 s2 (tr_other trees (fst c) (snd c)) r
  | Throw e => r = Throw e
  | UB => r = UB
  end.
(** model_intersections.cpp:751-755: an undefined task spoils everything; otherwise the results are gathered in the order
    in which the tasks were created, the first exception escaping *)
Definition gather (results : list (outcome IntersectionsResult)) : outcome IntersectionsResult :=
  if existsb (fun r => match r with UB => true | _ => false end) results then UB
  else foldM (fun acc r => let! r := r in Ok (acc ++ r)%list) results [].
(** model_intersections.cpp:678-757.  Every task has its own action, so whatever the schedule each result is one its own
    traversal gives. [overlaps]: the pairs recorded by ComponentOverlap, in visiting order *)
Definition intersecting_polygons (a : SurfacesAction) (r : outcome IntersectionsResult) : Prop :=
  if existsb (fun s => Nat.eqb (nb_polygons (co_mesh s)) 0) (active (m_surfaces m)) then r = Ok []
  else exists self_results overlaps overlap_results,
    Forall2 (self_task a) (active (m_surfaces m)) self_results /\
    traverses (record_action (fun _ => Ok true) false) false (tr_overlaps trees) [] (Ok overlaps) /\
    Forall2 (overlap_task a) overlaps overlap_results /\
    r = gather (self_results ++ overlap_results).
(** model_intersections.cpp:594-599 *)
Definition model_has_intersecting_surfaces (r : outcome bool) : Prop :=
  exists found, intersecting_polygons OneIntersection found /\
    r = let! found := found in Ok (match found with [] => false | _ => true end).

Definition Intersections := InspectionIssues (ComponentMeshElement * ComponentMeshElement).
Definition element_component (e : ComponentMeshElement) : uuid := cid_id (fst e).
(** model_intersections.cpp:601-624 *)
Definition add_intersecting_surfaces_elements (issues : Intersections) (r : outcome Intersections) : Prop :=
  exists found, intersecting_polygons AllIntersections found /\
    r = let! found := found in
        foldM (fun acc c =>
            let! s1 := get_surface m (element_component (fst c)) in
            let! s2 := get_surface m (element_component (snd c)) in
            Ok (add_issue c (StrCat ["Surfaces "; named m (co_name s1) (co_id s1); " and "; named m (co_name s2) (co_id s2);
                                     " intersect on polygons "; str (snd (fst c)); " and "; str (snd (snd c))]) acc))
          found issues.
(** model_intersections.cpp:626-644 *)
Definition add_surface_auto_intersecting_elements (issues : Intersections) (r : outcome Intersections) : Prop :=
  exists found, intersecting_polygons AutoIntersections found /\
    r = let! found := found in
        foldM (fun acc c =>
            let! s := get_surface m (element_component (fst c)) in
            Ok (add_issue c (StrCat ["Surface "; named m (co_name s) (co_id s);
                                     " has a self intersection on polygons "; str (snd (fst c)); "and "; str (snd (snd c))]) acc))
          found issues.
End Surfaces.

(** model_intersections.cpp:110-148 *)
Definition polygon_edge_intersect (px : Predicates) (surface : SurfaceMesh) (line : EdgedCurve) (c : nat * nat) : outcome bool :=
  let! fan := polygon_fan_triangles (polygon_vertices surface (fst c)) 0 in
  let! segment := curve_segment line (snd c) in
  anyM (fun t =>
      let! triangle := mesh_triangle surface t in
      let inter := px_segment_triangle px segment triangle in
      Ok (position_eqb (fst inter) Inside || position_eqb (snd inter) Inside
          || position_eqb (fst inter) Edge0 || position_eqb (fst inter) Edge1
          || position_eqb (snd inter) Edge0 || position_eqb (snd inter) Edge1
          || position_eqb (snd inter) Edge2 || position_eqb (fst inter) Edge2)) fan.

(** [lt_lines]: create_line_meshes_aabb_trees; [lt_other s l]: pairs (polygon, edge) of surface tree [s] and line tree [l]
    whose boxes meet *)
Record LineTrees := mkLineTrees { lt_uuids : list uuid; lt_other : nat -> nat -> list (nat * nat) }.

Section Lines.
Context (px : Predicates) (m : Model) (trees : Trees) (lines : LineTrees).
(** OpenGeode: [brep.nb_embedding_blocks(line)], the embeddings of the line that are blocks *)
Definition nb_embedding_blocks (id : uuid) : nat :=
  List.length (filter (fun c => ctype_eqb (cid_type c) BlockT) (embeddings m id)).
(** model_intersections.cpp:793-815, one surface and one line *)
Definition line_surface_step (s : Component SurfaceMesh) (i : nat) (l : Component EdgedCurve) (acc : IntersectionsResult)
  (r : outcome IntersectionsResult) : Prop :=
  if Nat.eqb (nb_embedding_blocks (co_id l)) 0 then r = Ok acc
  else match (let! s' := get_surface m (co_id s) in
              let! l' := get_line m (co_id l) in
              let! j := mesh_tree_id (lt_uuids lines) (co_id l) in Ok (s', l', j)) with
       | Ok (s', l', j) =>
         exists found, traverses (record_action (polygon_edge_intersect px (co_mesh s') (co_mesh l')) false) false (lt_other lines i j) [] found /\
           r = let! found := found in Ok (acc ++ located (mkCID SurfaceT (co_id s)) (mkCID LineT (co_id l)) found)%list
       | Throw e => r = Throw e
       | UB => r = UB
       end.
(** a loop whose body is nondeterministic *)
Inductive loop {A S} (body : A -> S -> outcome S -> Prop) : list A -> S -> outcome S -> Prop :=
| loop_end : forall s, loop body [] s (Ok s)
| loop_step : forall a l s s' r, body a s (Ok s') -> loop body l s' r -> loop body (a :: l) s r
| loop_raise : forall a l s e, body a s (Throw e) -> loop body (a :: l) s (Throw e)
| loop_undefined : forall a l s, body a s UB -> loop body (a :: l) s UB.
(** model_intersections.cpp:788-792, one surface *)
Definition surface_step (s : Component SurfaceMesh) (acc : IntersectionsResult) (r : outcome IntersectionsResult) : Prop :=
  match mesh_tree_id (tr_uuids trees) (co_id s) with
  | Ok i => loop (line_surface_step s i) (active (m_lines m)) acc r
  | Throw e => r = Throw e
  | UB => r = UB
  end.
(** model_intersections.cpp:759-818 *)
Definition intersecting_lines_surfaces (r : outcome IntersectionsResult) : Prop :=
  if existsb (fun s => Nat.eqb (nb_polygons (co_mesh s)) 0) (active (m_surfaces m)) then r = Ok []
  else if existsb (fun l => Nat.eqb (List.length (ec_edges (co_mesh l))) 0) (active (m_lines m)) then r = Ok []
  else loop surface_step (active (m_surfaces m)) [] r.
(** model_intersections.cpp:646-672 *)
Definition add_intersecting_lines_surfaces_elements (issues : Intersections) (r : outcome Intersections) : Prop :=
  exists found, intersecting_lines_surfaces found /\
    r = let! found := found in
        foldM (fun acc c =>
            let! s := get_surface m (element_component (fst c)) in
            let! l := get_line m (element_component (snd c)) in
            Ok (add_issue c (StrCat ["Surface "; named m (co_name s) (co_id s); " and Line "; named m (co_name l) (co_id l);
                                     " intersect on polygon "; str (snd (fst c)); " and edge "; str (snd (snd c))]) acc))
          found issues.
End Lines.

(** include/geode/inspector/inspection/criterion/intersections/model_intersections.hpp:44-46 *)
Definition empty_intersections : Intersections := new_issues "intersections".
(** model_intersections.cpp:842-852: BRep (line 650 adds the lines) and Section *)
Definition brep_inspect_intersections px m trees lines (r : outcome Intersections) : Prop :=
  exists r1, add_intersecting_surfaces_elements px m trees empty_intersections r1 /\
    match r1 with
    | Ok i1 => add_intersecting_lines_surfaces_elements px m trees lines i1 r
    | Throw e => r = Throw e
    | UB => r = UB
    end.
Definition section_inspect_intersections px m trees (r : outcome Intersections) : Prop :=
  add_intersecting_surfaces_elements px m trees empty_intersections r.
(** model_intersections.cpp:854-863 *)
Definition inspect_surfaces_self_intersections px m trees (r : outcome Intersections) : Prop :=
  add_surface_auto_intersecting_elements px m trees empty_intersections r.
