(** Model of inspection/topology/brep_blocks_topology.cpp, internal/expected_nb_cmvs.cpp and brep_topology.cpp.
    Paths are relative to src/geode/inspector/inspection/topology. *)
From Coq Require Import String Ascii List Arith NArith ZArith Bool Lia.
From Verif Require Import Base Model_Issues Types Model_Colocation Model_Topology Model_BRep.
Import ListNotations.
Local Open Scope string_scope.

(** OpenGeode typed ranges: iterating [brep.boundaries(surface)] gives Lines, [brep.incidences(line)] and
    [brep.boundaries(block)] give Surfaces; reaching an element calls [brep.line(id)] / [brep.surface(id)]. *)
Definition each_line (m : Model) {B} (f : Component EdgedCurve -> outcome B) (e : ComponentID) : outcome B :=
  let! l := get_line m (cid_id e) in f l.
Definition each_surface (m : Model) {B} (f : Component SurfaceMesh -> outcome B) (e : ComponentID) : outcome B :=
  let! s := get_surface m (cid_id e) in f s.

(** ** brep_blocks_topology.cpp, anonymous namespace *)

(** 62-84; [counter] is a [local_index_t] *)
Fixpoint two_surfaces_or_embedded_loop (m : Model) (line : uuid) (counter : N) (surfaces : list uuid) : bool :=
  match surfaces with
  | [] => false
  | s :: l =>
    if is_boundary m line s then
      if Nat.ltb 0 (nb_embeddings m s) then true
      else let counter := u8 (counter + 1) in
           if N.ltb 1 counter then true else two_surfaces_or_embedded_loop m line counter l
    else two_surfaces_or_embedded_loop m line counter l
  end.
Definition line_is_boundary_of_at_least_two_surfaces_or_one_embedding_surface (m : Model) (line : uuid) (surfaces : list uuid) : bool :=
  two_surfaces_or_embedded_loop m line 0 surfaces.
(** 86-101 *)
Definition is_line_incident_to_another_block_boundary_surface (m : Model) (line block boundary_surface : uuid) : outcome bool :=
  anyM (each_surface m (fun s => Ok (negb (Nat.eqb (co_id s) boundary_surface) && is_boundary m (co_id s) block))) (incidences m line).
(** 103-117 *)
Definition surface_boundaries_are_not_linked_to_another_block_boundary (m : Model) (surface block : uuid) : outcome bool :=
  anyM (each_line m (fun l =>
    let! b := is_line_incident_to_another_block_boundary_surface m (co_id l) block surface in Ok (negb b))) (boundaries m surface).

(** The graph: a vertex per line (here, the id of the line), and edges labelled by a surface
    ([surface_uuids_to_graph_edges] maps every edge to exactly one surface); edge indices are positions in the list. *)
Record GraphEdge := mkEdge { ge_v0 : uuid; ge_v1 : uuid; ge_surface : uuid }.
(** Graph::edge_from_vertices: the first edge joining the two vertices *)
Definition edge_from_vertices (g : list GraphEdge) (a b : uuid) : option GraphEdge :=
  find (fun e => (Nat.eqb (ge_v0 e) a && Nat.eqb (ge_v1 e) b) || (Nat.eqb (ge_v0 e) b && Nat.eqb (ge_v1 e) a)) g.
(** 140-157: body of the innermost loop *)
Definition add_graph_edge (line surface : uuid) (g : list GraphEdge) (boundary_line : uuid) : list GraphEdge :=
  let skip := match edge_from_vertices g boundary_line line with
              | Some e => Nat.eqb (ge_surface e) surface
              | None => false
              end in
  if skip then g else (g ++ [mkEdge boundary_line line surface])%list.
(** 119-161 *)
Definition create_graph (m : Model) : outcome (list GraphEdge) :=
  foldM (fun g line =>
    foldM (fun g e => each_surface m (fun s =>
      foldM (fun g e => each_line m (fun l => Ok (add_graph_edge (co_id line) (co_id s) g (co_id l))) e) (boundaries m (co_id s)) g) e)
      (incidences m (co_id line)) g) (m_lines m) [].
(** Graph::edges_around_vertex (an edge from a vertex to itself once, which changes nothing below) *)
Definition edges_around_vertex (g : list GraphEdge) (v : uuid) : list GraphEdge :=
  filter (fun e => Nat.eqb (ge_v0 e) v || Nat.eqb (ge_v1 e) v) g.
(** 180-219: one vertex; the state is [to_delete] and [not_boundaries_surfaces] *)
Definition visit_graph_vertex (g : list GraphEdge) (st : list bool * list uuid) (v : uuid) : list bool * list uuid :=
  match edges_around_vertex g v with
  | [] => st
  | e0 :: around =>
    let surface := ge_surface e0 in
    if negb (forallb (fun e => Nat.eqb (ge_surface e) surface) (e0 :: around)) then st
    else if memb surface (snd st) then st
    else (map (fun be => fst be || Nat.eqb (ge_surface (snd be)) surface) (combine (fst st) g), (snd st ++ [surface])%list)
  end.
(** 177-242: the loop; [fuel] bounds the passes, each of them but the last deletes an edge.  [delete_isolated_vertices]
    (241) is left out: vertices without edge are skipped (183-187). *)
Fixpoint prune (fuel : nat) (lines : list uuid) (g : list GraphEdge) (not_boundary : list uuid) : outcome (list uuid) :=
  match fuel with
  | 0 => UB
  | S fuel' =>
    let st := fold_left (visit_graph_vertex g) lines (map (fun _ => false) g, not_boundary) in
    if negb (existsb (fun b => b) (fst st)) then Ok (snd st)
    else prune fuel' lines (map snd (filter (fun be => negb (fst be)) (combine (fst st) g))) (snd st)
  end.
(** 163-244 *)
Definition find_not_boundary_surfaces (m : Model) : outcome (list uuid) :=
  let! g := create_graph m in
  prune (S (List.length g)) (map co_id (m_lines m)) g [].

(** 246-276 *)
Definition find_dangling_surfaces (tl : TopoLookup) (m : Model) (not_boundary : list uuid) : outcome (list uuid) :=
  foldM (fun dangling s =>
    let! surface := get_surface m s in
    if Nat.eqb (nb_polygons (co_mesh surface)) 0 then Ok dangling
    else
      let! inside := anyM (fun b => tl_inside_block tl s (co_id b)) (m_blocks m) in
      Ok (if inside then dangling else (dangling ++ [s])%list)) not_boundary [].

(** 278-294 *)
Definition find_linked_processed_surface (m : Model) (s : uuid) (processed : list uuid) : outcome bool :=
  let! surface := get_surface m s in
  anyM (each_line m (fun l => anyM (each_surface m (fun o => Ok (memb (co_id o) processed))) (incidences m (co_id l))))
    (boundaries m (co_id surface)).
(** 304-326; returns [processed] and the queue.  [skip_counter] is 32 bits and compared to a [size_t]; [fuel] bounds the
    iterations (running out would be an infinite loop). *)
Fixpoint linked_loop (fuel : nat) (m : Model) (processed queue : list uuid) (skip_counter : N) : outcome (list uuid * list uuid) :=
  match fuel with
  | 0 => UB
  | S fuel' =>
    match queue with
    | [] => Ok (processed, [])
    | s :: queue' =>
      if N.eqb skip_counter (N.of_nat (List.length queue)) then Ok (processed, queue)
      else if memb s processed then linked_loop fuel' m processed queue' skip_counter
      else
        let! linked := find_linked_processed_surface m s processed in
        if linked then linked_loop fuel' m (processed ++ [s])%list queue' 0
        else linked_loop fuel' m processed (queue' ++ [s])%list (add32 skip_counter 1)
    end
  end.
(** 296-328; front/pop of an empty queue is undefined *)
Definition closed_linked_surfaces (m : Model) (to_process : list uuid) : outcome (list uuid * list uuid) :=
  match to_process with
  | [] => UB
  | s :: queue => linked_loop (S (S (List.length queue) * S (List.length queue))) m [s] queue 0
  end.
(** 330-339 *)
Definition queue_with_block_boundaries (m : Model) (block : uuid) : outcome (list uuid) :=
  foldM (fun q e => each_surface m (fun s => Ok (q ++ [co_id s])%list) e) (boundaries m block) [].
(** 341-354 *)
Definition queue_with_model_boundaries (m : Model) : outcome (list uuid) :=
  foldM (fun q mb => foldM (fun q i => let! s := get_surface m i in Ok (q ++ [co_id s])%list) (snd mb) q) (m_model_boundaries m) [].
(** 368-398 (and the boxes of 356-366) *)
Definition enclosing_surface_list (tl : TopoLookup) (parts : list (list uuid)) : option nat :=
  option_map fst (find (fun p => forallb (fun q => Nat.eqb (fst q) (fst p) || tl_box_contains tl (snd p) (snd q)) (enum parts)) (enum parts)).
(** position of the first [x] *)
Fixpoint position_of (x : option nat) (l : list (option nat)) : option nat :=
  match l with
  | [] => None
  | y :: l' => if opt_eqb x y then Some 0 else option_map S (position_of x l')
  end.
(** 418-438: one vertex of a polygon.  The mapping from unique vertices (NO_ID is one more key) to the vertices created so
    far is the list of its keys: the vertex of a key is its position, [create_point] answers the number of points before. *)
Definition fuse_vertex (m : Model) (surface : Component SurfaceMesh) (st : (list (option nat) * list Point) * list nat) (v : nat) :
    outcome ((list (option nat) * list Point) * list nat) :=
  let unique_vertex := m_unique_vertex m (mkCMV (mkCID SurfaceT (co_id surface)) v) in
  match position_of unique_vertex (fst (fst st)) with
  | Some i => Ok (fst st, (snd st ++ [i])%list)
  | None =>
    match nth_error (sm_points (co_mesh surface)) v with
    | Some p => Ok (((fst (fst st) ++ [unique_vertex])%list, (snd (fst st) ++ [p])%list), (snd st ++ [List.length (snd (fst st))])%list)
    | None => UB
    end
  end.
(** 413-440: one polygon *)
Definition fuse_polygon (m : Model) (surface : Component SurfaceMesh) (st : (list (option nat) * list Point) * list (list nat)) (vs : list nat) :
    outcome ((list (option nat) * list Point) * list (list nat)) :=
  let! r := foldM (fuse_vertex m surface) vs (fst st, []) in
  Ok (fst r, (snd st ++ [snd r])%list).
(** 400-444 *)
Definition fuse_brep_surfaces_from_list (m : Model) (surface_list : list uuid) : outcome FusedSurface :=
  let! r := foldM (fun st s =>
    let! surface := get_surface m s in
    foldM (fun st p => fuse_polygon m surface st (polygon_vertices (co_mesh surface) p)) (Range (nb_polygons (co_mesh surface))) st)
    surface_list (([], []), []) in
  Ok (mkFused (snd (fst r)) (snd r)).
(** 450-455 *)
Fixpoint linked_parts (fuel : nat) (m : Model) (to_process : list uuid) : outcome (list (list uuid)) :=
  match to_process with
  | [] => Ok []
  | _ =>
    match fuel with
    | 0 => UB
    | S fuel' =>
      let! r := closed_linked_surfaces m to_process in
      let! parts := linked_parts fuel' m (snd r) in
      Ok (fst r :: parts)
    end
  end.
(** 481-498: [return false] on a point that is not inside, or when an OpenGeode exception is raised *)
Definition point_is_outside (tl : TopoLookup) (enclosing : FusedSurface) (p : Point) : outcome bool :=
  match tl_inside_closed tl enclosing p with
  | Ok b => Ok (negb b)
  | Throw OpenGeodeExn => Ok true
  | Throw OtherExn => Throw OtherExn
  | UB => UB
  end.
(** 446-502; the tree of the fused surface (469-470) is part of the oracle *)
Definition block_boundaries_are_closed (tl : TopoLookup) (m : Model) (block : uuid) : outcome bool :=
  let! to_process := queue_with_block_boundaries m block in
  let! parts := linked_parts (List.length to_process) m to_process in
  if Nat.ltb (List.length parts) 2 then Ok true
  else
    match enclosing_surface_list tl parts with
    | None => Ok false
    | Some i =>
      let! enclosing := fuse_brep_surfaces_from_list m (nth i parts []) in
      let! outside := anyM (fun p =>
        if Nat.eqb (fst p) i then Ok false
        else anyM (fun s =>
          let! surface := get_surface m s in
          anyM (point_is_outside tl enclosing) (sm_points (co_mesh surface))) (snd p)) (enum parts) in
      Ok (negb outside)
    end.
(** 504-510 *)
Definition brep_boundaries_are_closed (m : Model) : outcome bool :=
  let! to_process := queue_with_model_boundaries m in
  let! r := closed_linked_surfaces m to_process in
  Ok (Nat.eqb (List.length (snd r)) 0).

(** ** internal/expected_nb_cmvs.cpp *)

(** 42-56 *)
Definition count_cmvs (cond : ComponentMeshVertex -> bool) (cmvs : list ComponentMeshVertex) : N :=
  fold_left (fun n c => if cond c then add32 n 1 else n) cmvs 0%N.
(** 58-76 *)
Definition line_on_block_boundary_count (m : Model) (line block : uuid) : outcome N :=
  let! n := foldM (fun n e => each_surface m (fun s =>
      let n := if is_boundary m line (co_id s) then add32 n 1 else n in
      Ok (if is_internal m line (co_id s) then add32 n 2 else n)) e) (boundaries m block) 0%N in
  Ok (N.div n 2).
(** 78-90 *)
Definition line_is_inside_block (m : Model) (line block : uuid) : outcome bool :=
  let! b := anyM (each_surface m (fun s => Ok (negb (is_internal m (co_id s) block)))) (incidences m line) in
  Ok (negb b).
(** index_t subtraction *)
Definition sub32 (a b : N) : N := u32 (a + (2 ^ 32 - b)).
(** the counters of 118-123 *)
Record LineCounters := mkLineCounters {
  lc_on_boundary : N; lc_several : N; lc_additional : N; lc_internal_internal : N; lc_free : N; lc_several_internal : N }.
(** 124-166: one line *)
Definition count_line_cmv (m : Model) (block : uuid) (k : LineCounters) (c : ComponentMeshVertex) : outcome LineCounters :=
  let! line := get_line m (cmv_id c) in
  if negb (Nat.eqb (List.length (embeddings_of m BlockT (co_id line))) 0) then Ok k
  else
    let! n := line_on_block_boundary_count m (co_id line) block in
    if N.ltb 0 n then
      let k := mkLineCounters (add32 (lc_on_boundary k) n) (lc_several k) (lc_additional k) (lc_internal_internal k) (lc_free k) (lc_several_internal k) in
      if N.ltb 1 n then
        Ok (mkLineCounters (lc_on_boundary k) (add32 (lc_several k) 1) (add32 (lc_additional k) (sub32 n 1)) (lc_internal_internal k) (lc_free k) (lc_several_internal k))
      else Ok k
    else if Nat.ltb 0 (List.length (embeddings_of m SurfaceT (co_id line))) then
      let! b := anyM (each_surface m (fun s => Ok (is_internal m (co_id s) block))) (embeddings_of m SurfaceT (co_id line)) in
      if b then Ok (mkLineCounters (lc_on_boundary k) (lc_several k) (lc_additional k) (add32 (lc_internal_internal k) 1) (lc_free k) (lc_several_internal k))
      else Ok k
    else
      let! b := line_is_inside_block m (co_id line) block in
      if negb b then Ok k
      else if Nat.eqb (nb_incidences m (cmv_id c)) 1 then
        Ok (mkLineCounters (lc_on_boundary k) (lc_several k) (lc_additional k) (lc_internal_internal k) (add32 (lc_free k) 1) (lc_several_internal k))
      else Ok (mkLineCounters (lc_on_boundary k) (lc_several k) (lc_additional k) (lc_internal_internal k) (lc_free k) (add32 (lc_several_internal k) 1)).
(** 103-117 *)
Definition count_surface_cmv (m : Model) (block : uuid) (k : N * N) (c : ComponentMeshVertex) : outcome (N * N) :=
  let! s := get_surface m (cmv_id c) in
  if is_boundary m (co_id s) block then Ok (add32 (fst k) 1, snd k)
  else if is_internal m (co_id s) block then Ok (fst k, add32 (snd k) 1)
  else Ok k.
(** 167-182: the prediction, from the counters: [nb], [ni] surfaces, [nc] the size of [corner_cmvs] *)
Definition predicted_nb_block_cmvs (nb ni : N) (nc : nat) (k : LineCounters) : N :=
  let p := add32 1 ni in
  let p := if N.ltb 0 nb then add32 p (sub32 (sub32 nb 1) (lc_on_boundary k)) else p in
  let remove := add32 (add32 (lc_internal_internal k) (lc_free k)) (lc_several_internal k) in
  let p := sub32 p remove in
  if negb (N.eqb remove 0) || negb (N.eqb (lc_on_boundary k) 0)
  then add32 (add32 p (u32 (N.of_nat nc))) (N.div (lc_additional k) 2)
  else p.
(** position of the first block link, printed by the messages: 188-196, 206-213.  [block_cmvs[0]] of an empty list and a
    vertex outside of the mesh are undefined. *)
Definition first_block_position (m : Model) (block_cmvs : list ComponentMeshVertex) : outcome string :=
  match block_cmvs with
  | [] => UB
  | c :: _ =>
    let! b := get_block m (cmv_id c) in
    match nth_error (so_points (co_mesh b)) (cmv_vertex c) with Some p => Ok (m_point_string m p) | None => UB end
  end.
(** 92-231; [vertex_cmvs_by_component] (238-266) is the four filters *)
Definition expected_block_cmvs_and_error (m : Model) (uv : nat) (block_id : uuid) : outcome (N * option string) :=
  let cmvs := component_mesh_vertices m uv in
  let block_cmvs := filter (of_type BlockT) cmvs in
  let nb_block := count_cmvs (fun c => Nat.eqb (cmv_id c) block_id) block_cmvs in
  let! block := get_block m block_id in
  let! ns := foldM (count_surface_cmv m (co_id block)) (filter (of_type SurfaceT) cmvs) (0%N, 0%N) in
  let! k := foldM (count_line_cmv m (co_id block)) (filter (of_type LineT) cmvs) (mkLineCounters 0 0 0 0 0 0) in
  let predicted := predicted_nb_block_cmvs (fst ns) (snd ns) (List.length (filter (of_type CornerT) cmvs)) k in
  let! unsure := (if N.eqb (N.modulo (lc_several k) 2) 1
                  then let! _ := first_block_position m block_cmvs in Ok (N.eqb nb_block (add32 predicted (lc_several k)))
                  else Ok false) in
  if unsure then Ok (nb_block, None)
  else if N.eqb nb_block predicted then Ok (predicted, None)
  else
    let! p := first_block_position m block_cmvs in
    Ok (predicted, Some (StrCat ["unique vertex "; str uv; " at position ["; p; "] is part of Block ";
      named m (co_name block) block_id; ", and has "; str (List.length (filter (of_type CornerT) cmvs)); " cmvs of corners, ";
      str (N.to_nat (snd ns)); " cmvs of surfaces internal to that block, "; str (N.to_nat (lc_internal_internal k));
      " cmvs of lines internal to one surface internal to that block, "; str (N.to_nat (lc_free k)); " cmvs of free lines, ";
      str (N.to_nat (lc_several_internal k)); " cmvs of lines boundary to several internal surfaces, "; str (N.to_nat (fst ns));
      " cmvs of surfaces boundary to the block, and "; str (N.to_nat (lc_on_boundary k));
      " cmvs counted for lines on the boundary, with "; str (N.to_nat nb_block); " Block CMVs (expected "; str (N.to_nat predicted);
      " with valid topology)."])).

(** 268-275 *)
Definition nb_expected_block_cmvs (m : Model) (uv : nat) (block_id : uuid) : outcome N :=
  let! r := expected_block_cmvs_and_error m uv block_id in Ok (fst r).

(** ** brep_blocks_topology.cpp, the checks of a unique vertex *)

(** 634-690 *)
Definition unique_vertex_is_part_of_two_blocks_and_no_boundary_surface (m : Model) (uv : nat) : outcome (option string) :=
  match components_uuids m uv BlockT with
  | [b0; b1] =>
    let! a0 := kind_is_active m BlockT b0 in
    if negb a0 then Ok None
    else
      let! a1 := kind_is_active m BlockT b1 in
      if negb a1 then Ok None
      else if existsb (fun s => of_type SurfaceT s &&
               ((is_boundary m (cmv_id s) b0 && is_boundary m (cmv_id s) b1)
                || existsb (fun l => of_type LineT l && (is_boundary m (cmv_id l) (cmv_id s)
                     && (is_boundary m (cmv_id s) b0 || is_boundary m (cmv_id s) b1))) (component_mesh_vertices m uv)))
             (component_mesh_vertices m uv) then Ok None
      else Ok (Some (StrCat ["unique vertex "; str uv; " is part of two Blocks, but not of a Surface boundary to the two Blocks, ";
                             "nor of a Line boundary to one of the Blocks incident Surfaces."]))
  | _ => Ok None
  end.
(** 692-713 *)
Definition unique_vertex_block_cmvs_count_is_incorrect (m : Model) (uv : nat) : outcome (option string) :=
  first_some (fun b =>
    let! a := kind_is_active m BlockT b in
    if negb a then Ok None
    else let! r := expected_block_cmvs_and_error m uv b in Ok (snd r)) (components_uuids m uv BlockT).
(** 715-771 *)
Definition surface_with_wrong_relationships_to_block (m : Model) (not_boundary dangling : list uuid) (uv : nat) : outcome (option string) :=
  first_some (fun c =>
    let! a := is_active_of m SurfaceT c in
    if negb a then Ok None
    else if Nat.leb 1 (nb_incidences m (cmv_id c)) && memb (cmv_id c) not_boundary then
      let! n := kind_named m SurfaceT (cmv_id c) in
      Ok (Some (StrCat ["unique vertex with index "; str uv; " is part of Surface "; n; ", which should not be boundary of any Block."]))
    else if Nat.leb 1 (nb_embeddings m (cmv_id c)) && Nat.ltb (nb_incidences m (cmv_id c)) 1
            && negb (memb (cmv_id c) not_boundary) && memb (cmv_id c) dangling then
      let! n := kind_named m SurfaceT (cmv_id c) in
      Ok (Some (StrCat ["unique vertex "; str uv; " is part of Surface "; n; ", which should not be embedded in any Block."]))
    else if Nat.ltb (nb_incidences m (cmv_id c)) 1 && Nat.ltb (nb_embeddings m (cmv_id c)) 1 && negb (memb (cmv_id c) dangling) then
      let! n := kind_named m SurfaceT (cmv_id c) in
      Ok (Some (StrCat ["unique vertex "; str uv; " is part of Surface "; n; ", which is not internal to a Block while it should be."]))
    else Ok None) (component_mesh_vertices m uv).
(** 773-840 *)
Definition brep_invalid_single_surface (m : Model) (not_boundary : list uuid) (uv : nat) : outcome (option string) :=
  match components_uuids m uv SurfaceT with
  | [s] =>
    let! a := kind_is_active m SurfaceT s in
    if negb a then Ok None
    else
      let block_uuids := components_uuids m uv BlockT in
      if memb s not_boundary then Ok None
      else if Nat.ltb 2 (List.length block_uuids) then
        Ok (Some (StrCat ["unique vertex "; str uv; " is part of only one Surface, but is part of more than two Blocks."]))
      else if Nat.ltb 0 (nb_embeddings m s) then
        if brep_blocks_are_meshed m then
          match block_uuids with
          | [b] =>
            if negb (is_internal m s b) then
              Ok (Some (StrCat ["unique vertex "; str uv; " is part of only one Surface, which is embedded, and one Block, ";
                                "but the Surface is not internal to the Block."]))
            else Ok None
          | _ => Ok (Some (StrCat ["unique vertex "; str uv; " is part of only one Surface, which is embedded, but not part of only one Block."]))
          end
        else Ok None
      else first_some (fun b =>
        if negb (is_boundary m s b) then
          let! n := kind_named m SurfaceT s in
          let! n' := kind_named m BlockT b in
          Ok (Some (StrCat ["unique vertex "; str uv; " is part of only one Surface"; n; " which is not embedded, but not boundary either of Block ";
                            n'; ", in which the vertex is."]))
        else Ok None) block_uuids
  | _ => Ok None
  end.
(** 842-903 *)
Definition brep_multiple_surfaces_invalid_line (m : Model) (uv : nat) : outcome (option string) :=
  let line_uuids := components_uuids m uv LineT in
  if Nat.ltb (List.length line_uuids) 2 then Ok None
  else
    let surface_uuids := components_uuids m uv SurfaceT in
    if Nat.ltb (List.length surface_uuids) 2 then Ok None
    else
      let not_dangling := filter (fun s => negb (Nat.ltb (nb_incidences m s) 1 && Nat.ltb (nb_embeddings m s) 1)) surface_uuids in
      if Nat.ltb (List.length not_dangling) 2 then Ok None
      else first_some (fun l =>
        let related := forallb (fun s => is_internal m l s || is_boundary m l s) not_dangling in
        if Nat.ltb (nb_embeddings m l) 1 && negb (line_is_boundary_of_at_least_two_surfaces_or_one_embedding_surface m l not_dangling) && related then
          match component_mesh_vertices m uv with
          | [] => UB
          | _ =>
            let! n := kind_named m LineT l in
            Ok (Some (StrCat ["unique vertex "; str uv; " is part of multiple Surfaces and multiple Lines, but Line "; n;
                              " is neither internal, nor a boundary of at least two Surfaces or one embedding Surface."]))
          end
        else Ok None) line_uuids.
(** 611-618; evaluated left to right with early exit *)
Definition brep_blocks_topology_is_valid (m : Model) (uv : nat) : outcome bool :=
  all_pass [unique_vertex_is_part_of_two_blocks_and_no_boundary_surface m; unique_vertex_block_cmvs_count_is_incorrect m] uv.

(** ** brep_blocks_topology.hpp:38-75 *)
Record BRepBlocksTopology := mkBRepBlocks {
  bb_not_meshed : InspectionIssues uuid;
  bb_not_linked : InspectionIssuesMap nat;
  bb_wrong_boundary : InspectionIssues uuid;
  bb_not_closed : InspectionIssues uuid;
  bb_model_boundaries : InspectionIssues nat;
  bb_two_blocks : InspectionIssues nat;
  bb_wrong_count : InspectionIssues nat;
  bb_single_invalid : InspectionIssues nat;
  bb_wrong_relationship : InspectionIssues nat;
  bb_multiple_invalid : InspectionIssues nat }.
Definition blocks_not_meshed_d := "Blocks without mesh (uuid listed)".
Definition blocks_not_linked_d := "Blocks mesh vertices not linked to unique vertices".
Definition wrong_boundary_d :=
  "Blocks with boundary surface(s) not linked to another boundary Surface by a line (Surface shouldn't be boundary or there is a hole in the block boundaries)".
Definition not_closed_d := "Blocks with non-closed boundary Surfaces".
Definition model_boundaries_d := "ModelBoundaries do not form a valid closed surface".
Definition brep_blocks_ds : list string :=
  ["unique vertices shared by two Blocks without a boundary Surface or incident Block Line";
   "unique vertices in a Block with incorrect Component mesh vertices count";
   "unique vertices linked to a single Surface that is invalid";
   "unique vertices linked to Surfaces with neither boundary nor internal status";
   "unique vertices linked to multiple Surfaces in an invalid way"].
Definition brep_blocks_default : BRepBlocksTopology :=
  mkBRepBlocks (new_issues blocks_not_meshed_d) (new_issues_map blocks_not_linked_d) (new_issues wrong_boundary_d) (new_issues not_closed_d)
    (new_issues model_boundaries_d) (new_issues (nth 0 brep_blocks_ds "")) (new_issues (nth 1 brep_blocks_ds "")) (new_issues (nth 2 brep_blocks_ds ""))
    (new_issues (nth 3 brep_blocks_ds "")) (new_issues (nth 4 brep_blocks_ds "")).
(** 916-938: unmeshed blocks are only reported when another active block is meshed *)
Definition inspect_blocks_meshes (m : Model) : InspectionIssues uuid :=
  let unmeshed := filter (fun b => negb (block_is_meshed (co_mesh b))) (active (m_blocks m)) in
  let meshed := filter (fun b => block_is_meshed (co_mesh b)) (active (m_blocks m)) in
  match unmeshed, meshed with
  | _ :: _, _ :: _ =>
    fold_left (fun r b => add_issue (co_id b) (StrCat ["Block "; named m (co_name b) (co_id b); " is not meshed."]) r) unmeshed (new_issues blocks_not_meshed_d)
  | _, _ => new_issues blocks_not_meshed_d
  end.
(** 939-955: one meshed block *)
Definition inspect_block_links (m : Model) (r : InspectionIssuesMap nat) (b : Component SolidMesh) : outcome (InspectionIssuesMap nat) :=
  let! block := get_block m (co_id b) in
  let v := vertices_not_associated m (mkCID BlockT (co_id block)) (List.length (so_points (co_mesh block))) in
  if N.eqb (nb_issues v) 0 then Ok r
  else Ok (add_issues_to_map (co_id block) (set_description (StrCat ["Block "; named m (co_name block) (co_id block)]) v) r).
(** 1017-1038: the boundary surfaces of one block, up to the first active one with a free boundary line *)
Definition inspect_block_boundaries (m : Model) (b : Component SolidMesh) : outcome (option string) :=
  first_some (each_surface m (fun s =>
    if negb (co_active s) then Ok None
    else
      let! w := surface_boundaries_are_not_linked_to_another_block_boundary m (co_id s) (co_id b) in
      Ok (if w then Some (StrCat ["Block "; named m (co_name b) (co_id b); " boundary Surface "; named m (co_name s) (co_id s);
        " has a boundary Line not incident to any other Block boundary Surface. Either the surface shouldn't be boundary, or ";
        "there is a hole in the block boundaries"]) else None))) (boundaries m (co_id b)).
(** 1005-1039: one active block *)
Definition inspect_block_closedness (tl : TopoLookup) (m : Model) (r : InspectionIssues uuid * InspectionIssues uuid) (b : Component SolidMesh) :
    outcome (InspectionIssues uuid * InspectionIssues uuid) :=
  let! closed := block_boundaries_are_closed tl m (co_id b) in
  let not_closed := if closed then snd r
    else add_issue (co_id b) (StrCat ["Block "; named m (co_name b) (co_id b); " boundaries are not closed or form several closed volumes."]) (snd r) in
  let! w := inspect_block_boundaries m b in
  Ok (match w with Some message => add_issue (co_id b) message (fst r) | None => fst r end, not_closed).
(** 905-1041 *)
Definition brep_inspect_blocks (tl : TopoLookup) (m : Model) : outcome BRepBlocksTopology :=
  match active (m_blocks m) with
  | [] => Ok brep_blocks_default
  | _ =>
    let! not_boundary := find_not_boundary_surfaces m in
    let! dangling := find_dangling_surfaces tl m not_boundary in
    let! not_linked := foldM (inspect_block_links m) (filter (fun b => block_is_meshed (co_mesh b)) (active (m_blocks m))) (new_issues_map blocks_not_linked_d) in
    let! closed := (match m_model_boundaries m with [] => Ok true | _ => brep_boundaries_are_closed m end) in
    let model_boundaries := if closed then new_issues model_boundaries_d
      else add_issue 0 "ModelBoundaries don't form a valid closed surface." (new_issues model_boundaries_d) in
    let! rs := report_vertices m [unique_vertex_is_part_of_two_blocks_and_no_boundary_surface m; unique_vertex_block_cmvs_count_is_incorrect m;
        brep_invalid_single_surface m not_boundary; surface_with_wrong_relationships_to_block m not_boundary dangling;
        brep_multiple_surfaces_invalid_line m] brep_blocks_ds in
    let! bs := foldM (inspect_block_closedness tl m) (active (m_blocks m)) (new_issues wrong_boundary_d, new_issues not_closed_d) in
    match rs with
    | [two; count; single; relationship; multiple] =>
      Ok (mkBRepBlocks (inspect_blocks_meshes m) not_linked (fst bs) (snd bs) model_boundaries two count single relationship multiple)
    | _ => UB
    end
  end.

(** ** brep_topology.cpp *)

(** 253-297 *)
Definition brep_meshed_components_are_linked (m : Model) : bool :=
  section_meshed_components_are_linked m
  && meshed_components_are_linked BlockT block_is_meshed (fun p => List.length (so_points p)) m (m_blocks m).
(** 142-174 *)
Definition brep_topology_is_valid (tl : TopoLookup) (m : Model) : outcome bool :=
  if Nat.eqb (nb_unique_vertices m) 0 then Ok false
  else if negb (brep_meshed_components_are_linked m) then Ok false
  else
    let! b := unique_vertices_are_bijectively_linked m cmv_exists_in_brep in
    if negb b then Ok false
    else every_vertex m [brep_corner_topology_is_valid m; brep_lines_topology_is_valid tl m; brep_surfaces_topology_is_valid m;
                         brep_blocks_topology_is_valid m].
Record BRepTopology := mkBRepTopology {
  bt_corners : CornersTopology;
  bt_lines : BRepLinesTopology;
  bt_surfaces : BRepSurfacesTopology;
  bt_blocks : BRepBlocksTopology;
  bt_links : LinkIssues }.
(** 176-205 *)
Definition inspect_brep_topology (tl : TopoLookup) (m : Model) : outcome BRepTopology :=
  let corners := brep_inspect_corners_topology m in
  let lines := brep_inspect_lines_topology tl m in
  let surfaces := brep_inspect_surfaces_topology tl m in
  let blocks := brep_inspect_blocks tl m in
  let! _ := parallel_invoke_caught [status corners; status lines; status surfaces; status blocks] in
  let! links := add_unique_vertices_with_wrong_cmv_link m cmv_exists_in_brep no_links in
  Ok (mkBRepTopology (assigned brep_corners_default corners) (assigned brep_lines_default lines) (assigned brep_surfaces_default surfaces)
        (assigned brep_blocks_default blocks) links).
