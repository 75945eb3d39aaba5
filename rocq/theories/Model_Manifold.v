(** Model of criterion/manifold/*.cpp and criterion/internal/component_meshes_manifold.cpp *)
From Coq Require Import String Ascii List Arith NArith ZArith Bool Lia.
From Verif Require Import Base Model_Issues Types Model_Colocation Model_Cycles Model_Hash.
Import ListNotations.
Local Open Scope string_scope.

(** [detail::VertexCycle< std::array< index_t, 2 > >] (OpenGeode): the two vertices, smaller first *)
Definition edge_key (e : nat * nat) : nat * nat := (Nat.min (fst e) (snd e), Nat.max (fst e) (snd e)).
Definition pair_eqb (a b : nat * nat) : bool := Nat.eqb (fst a) (fst b) && Nat.eqb (snd a) (snd b).

(** ** surface_edge_manifold.cpp *)

(** SurfaceMesh::polygon_edge_vertices (OpenGeode) *)
Definition polygon_edge_vertices (m : SurfaceMesh) (e : PolygonEdge) : nat * nat :=
  (polygon_edge_vertex0 m e, polygon_edge_vertex1 m e).
(** surface_edge_manifold.cpp:38-70; the counter is a [local_index_t] *)
Definition edge_to_polygons_around (m : SurfaceMesh) : list ((nat * nat) * (N * bool)) :=
  fold_left (fun acc e =>
      let border := negb (isSome (sm_adjacent m e)) in
      emplace_or_update pair_eqb (edge_key (polygon_edge_vertices m e)) (1%N, border)
        (fun v => (u8 (fst v + 1), snd v || border)) acc)
    (all_polygon_edges m) [].
(** surface_edge_manifold.cpp:86-93, 106-121: the two conditions *)
Definition edge_entry_is_wrong (v : N * bool) : bool :=
  (snd v && negb (N.eqb (fst v) 1)) || (negb (snd v) && negb (N.eqb (fst v) 2)).
(** surface_edge_manifold.cpp:81-96 *)
Definition surface_edges_are_manifold (ho : HashOrder) (m : SurfaceMesh) : bool :=
  forallb (fun kv => negb (edge_entry_is_wrong (snd kv))) (visit ho (edge_to_polygons_around m)).
Definition surface_edge_message (kv : (nat * nat) * (N * bool)) : string :=
  let '((a, b), (_, on_border)) := kv in
  if on_border : bool
  then StrCat ["edge between vertices "; str a; " and "; str b; " is not manifold (detected as on border)."]
  else StrCat ["edge between vertices with index "; str a; " and index "; str b; " is not manifold (detected as not on border)."].
(** surface_edge_manifold.cpp:98-124 *)
Definition surface_non_manifold_edges (ho : HashOrder) (m : SurfaceMesh) : InspectionIssues (nat * nat) :=
  fold_left (fun r kv => if edge_entry_is_wrong (snd kv) then add_issue (fst kv) (surface_edge_message kv) r else r)
    (visit ho (edge_to_polygons_around m)) (new_issues "non manifold edges").

(** ** surface_vertex_manifold.cpp and solid_vertex_manifold.cpp *)

(** surface_vertex_manifold.cpp:36-52, solid_vertex_manifold.cpp:36-52 *)
Definition around_are_the_same (pav1 pav2 : list (nat * nat)) : bool :=
  Nat.eqb (List.length pav1) (List.length pav2) && forallb (fun pv => existsb (pair_eqb pv) pav2) pav1.
(** surface_vertex_manifold.cpp:54-71; a polygon vertex out of the mesh is undefined behaviour *)
Definition polygons_around_vertices (m : SurfaceMesh) : outcome (list (list PolygonVertex)) :=
  bucketize (List.length (sm_points m)) (map (fun pv => (polygon_vertex m pv, pv)) (all_polygon_edges m)).
(** surface_vertex_manifold.cpp:88-100: the guarded comparison; [true]: differs *)
Definition surface_vertex_differs (m : SurfaceMesh) (corners : list (list PolygonVertex)) (v : nat) : outcome bool :=
  match sm_around_vertex m v with
  | Ok around => Ok (negb (around_are_the_same (nth v corners []) around))
  | Throw OpenGeodeExn => Ok false
  | Throw e => Throw e
  | UB => UB
  end.
(** surface_vertex_manifold.cpp:82-103 *)
Definition surface_vertices_are_manifold (m : SurfaceMesh) : outcome bool :=
  let! corners := polygons_around_vertices m in
  let! b := anyM (surface_vertex_differs m corners) (Range (List.length (sm_points m))) in
  Ok (negb b).
Definition vertex_message (geo : Geometry) (points : list Point) (v : nat) : string :=
  StrCat ["vertex "; str v; ", at position ["; g_point_string geo (nth v points []); "]"].
(** surface_vertex_manifold.cpp:105-132 *)
Definition surface_non_manifold_vertices (geo : Geometry) (m : SurfaceMesh) : outcome (InspectionIssues nat) :=
  let! corners := polygons_around_vertices m in
  foldM (fun r v => let! b := surface_vertex_differs m corners v in
           Ok (if b then add_issue v (vertex_message geo (sm_points m) v) r else r))
    (Range (List.length (sm_points m))) (new_issues "non manifold vertices").

(** All polyhedron vertices in loop order *)
Definition polyhedron_vertex (m : SolidMesh) (pv : PolyhedronVertex) : nat := nth (snd pv) (ph_vertices (polyhedron m (fst pv))) 0.
Definition all_polyhedron_vertices (m : SolidMesh) : list PolyhedronVertex :=
  flat_map (fun p => map (fun v => (p, v)) (Range (List.length (ph_vertices (polyhedron m p))))) (Range (nb_polyhedra m)).
(** solid_vertex_manifold.cpp:54-72 *)
Definition polyhedra_around_vertices (m : SolidMesh) : outcome (list (list PolyhedronVertex)) :=
  bucketize (List.length (so_points m)) (map (fun pv => (polyhedron_vertex m pv, pv)) (all_polyhedron_vertices m)).
(** solid_vertex_manifold.cpp:89-91, not guarded *)
Definition solid_vertex_differs (m : SolidMesh) (corners : list (list PolyhedronVertex)) (v : nat) : outcome bool :=
  let! around := so_around_vertex m v in
  Ok (negb (around_are_the_same (nth v corners []) around)).
(** solid_vertex_manifold.cpp:83-97 *)
Definition solid_vertices_are_manifold (m : SolidMesh) : outcome bool :=
  let! corners := polyhedra_around_vertices m in
  let! b := anyM (solid_vertex_differs m corners) (Range (List.length (so_points m))) in
  Ok (negb b).
(** solid_vertex_manifold.cpp:99-118 *)
Definition solid_non_manifold_vertices (geo : Geometry) (m : SolidMesh) : outcome (InspectionIssues nat) :=
  let! corners := polyhedra_around_vertices m in
  foldM (fun r v => let! b := solid_vertex_differs m corners v in
           Ok (if b then add_issue v (vertex_message geo (so_points m) v) r else r))
    (Range (List.length (so_points m))) (new_issues "non manifold vertices").

(** ** solid_edge_manifold.cpp *)

(** All (polyhedron, local edge) in loop order and the vertices of one *)
Definition PolyhedronEdge := (nat * nat)%type.
Definition all_polyhedron_edges (m : SolidMesh) : list PolyhedronEdge :=
  flat_map (fun p => map (fun e => (p, e)) (Range (List.length (ph_edges (polyhedron m p))))) (Range (nb_polyhedra m)).
Definition polyhedron_edge_vertices (m : SolidMesh) (e : PolyhedronEdge) : nat * nat :=
  nth (snd e) (ph_edges (polyhedron m (fst e))) (0, 0).
(** solid_edge_manifold.cpp:40-56 *)
Definition polyhedra_around_edge_are_the_same (pae1 pae2 : list nat) : bool :=
  Nat.eqb (List.length pae1) (List.length pae2) && forallb (fun p => memb p pae2) pae1.
(** solid_edge_manifold.cpp:58-80 *)
Definition edges_to_polyhedra_around (m : SolidMesh) : list ((nat * nat) * list nat) :=
  fold_left (fun acc e => emplace_or_update pair_eqb (edge_key (polyhedron_edge_vertices m e)) [fst e]
      (fun l => l ++ [fst e])%list acc) (all_polyhedron_edges m) [].
(** solid_edge_manifold.cpp:108-111, 138-142; [at] throws on a missing key *)
Definition edge_differs (m : SolidMesh) (e : PolyhedronEdge) : outcome bool :=
  let! around := so_around_edge m (polyhedron_edge_vertices m e) (fst e) in
  match lookup pair_eqb (edge_key (polyhedron_edge_vertices m e)) (edges_to_polyhedra_around m) with
  | None => Throw OtherExn
  | Some all => Ok (negb (polyhedra_around_edge_are_the_same around all))
  end.
(** solid_edge_manifold.cpp:95-118: loop with the set of the edges already checked *)
Fixpoint solid_edges_loop (m : SolidMesh) (checked : list (nat * nat)) (l : list PolyhedronEdge) : outcome bool :=
  match l with
  | [] => Ok true
  | e :: l' =>
    let k := edge_key (polyhedron_edge_vertices m e) in
    if existsb (pair_eqb k) checked then solid_edges_loop m checked l'
    else let! b := edge_differs m e in
         if b then Ok false else solid_edges_loop m (k :: checked) l'
  end.
Definition solid_edges_are_manifold (m : SolidMesh) : outcome bool := solid_edges_loop m [] (all_polyhedron_edges m).
(** solid_edge_manifold.cpp:120-164 *)
Definition solid_edge_message (e : nat * nat) : string :=
  StrCat ["Non manifold edge between vertices "; str (fst e); " and "; str (snd e)].
Definition solid_edge_failure_message (e : nat * nat) : string :=
  StrCat ["Could not check manifold on edge between vertices with index "; str (fst e); " and index "; str (snd e);
          "; Check issues with solid adjacencies."].
Fixpoint solid_edges_issues (m : SolidMesh) (checked : list (nat * nat)) (l : list PolyhedronEdge)
    (r : InspectionIssues (nat * nat)) : outcome (InspectionIssues (nat * nat)) :=
  match l with
  | [] => Ok r
  | e :: l' =>
    let vs := polyhedron_edge_vertices m e in
    let k := edge_key vs in
    if existsb (pair_eqb k) checked then solid_edges_issues m checked l' r
    else match edge_differs m e with
         | Ok true => solid_edges_issues m (k :: checked) l' (add_issue vs (solid_edge_message vs) r)
         | Ok false => solid_edges_issues m (k :: checked) l' r
         | Throw OpenGeodeExn => solid_edges_issues m (k :: checked) l' (add_issue vs (solid_edge_failure_message vs) r)
         | Throw x => Throw x
         | UB => UB
         end
  end.
Definition solid_non_manifold_edges (m : SolidMesh) : outcome (InspectionIssues (nat * nat)) :=
  solid_edges_issues m [] (all_polyhedron_edges m) (new_issues "Non manifold edges").

(** ** solid_facet_manifold.cpp *)

(** solid_facet_manifold.cpp:39-61 *)
Definition facets_to_nb_adjacent_polyhedra (m : SolidMesh) : list (list nat * N) :=
  fold_left (fun acc f => emplace_or_update cycle_eqb (vertex_cycle (polyhedron_facet_vertices m f)) 1%N (fun n => u32 (n + 1)) acc)
    (all_polyhedron_facets m) [].
(** solid_facet_manifold.cpp:72-85 *)
Definition solid_facets_are_manifold (ho : HashOrder) (m : SolidMesh) : bool :=
  forallb (fun kv => negb (N.ltb 2 (snd kv))) (visit ho (facets_to_nb_adjacent_polyhedra m)).
Definition facet_message (vs : list nat) : string :=
  StrCat ["facet made of vertices with index "; StrCat (map (fun v => StrCat [str v; ", "]) vs); "is not manifold."].
(** solid_facet_manifold.cpp:87-111 *)
Definition solid_non_manifold_facets (ho : HashOrder) (m : SolidMesh) : InspectionIssues (list nat) :=
  fold_left (fun r kv => if N.ltb 2 (snd kv) then add_issue (fst kv) (facet_message (fst kv)) r else r)
    (visit ho (facets_to_nb_adjacent_polyhedra m)) (new_issues "non manifold facets").

(** ** component_meshes_manifold.cpp and brep_meshes_manifold.cpp: components *)

(** component_meshes_manifold.cpp:48-66 *)
Definition add_surfaces_meshes_non_manifold_vertices (geo : Geometry) (m : Model) (acc : InspectionIssuesMap nat) :
  outcome (InspectionIssuesMap nat) :=
  foldM (fun acc s =>
           let! r := surface_non_manifold_vertices geo (co_mesh s) in
           Ok (add_issues_to_map (co_id s)
                 (set_description (StrCat ["Surface "; named m (co_name s) (co_id s); " non manifold vertices"]) r) acc))
    (active (m_surfaces m)) acc.
(** component_meshes_manifold.cpp:68-87 *)
Definition add_surfaces_meshes_non_manifold_edges (ho : HashOrder) (m : Model) (acc : InspectionIssuesMap (nat * nat)) :
  outcome (InspectionIssuesMap (nat * nat)) :=
  foldM (fun acc s =>
           let r := surface_non_manifold_edges ho (co_mesh s) in
           Ok (add_issues_to_map (co_id s)
                 (set_description (StrCat ["Surface "; named m (co_name s) (co_id s); " non manifold edges"]) r) acc))
    (active (m_surfaces m)) acc.
(** brep_meshes_manifold.cpp:101-118 *)
Definition add_component_meshes_non_manifold_vertices (geo : Geometry) (m : Model) (acc : InspectionIssuesMap nat) :
  outcome (InspectionIssuesMap nat) :=
  let! acc := add_surfaces_meshes_non_manifold_vertices geo m acc in
  foldM (fun acc b =>
           let! r := solid_non_manifold_vertices geo (co_mesh b) in
           Ok (add_issues_to_map (co_id b)
                 (set_description (StrCat ["Block "; named m (co_name b) (co_id b); " non manifold vertices"]) r) acc))
    (active (m_blocks m)) acc.
(** brep_meshes_manifold.cpp:120-137 *)
Definition add_component_meshes_non_manifold_edges (ho : HashOrder) (m : Model) (acc : InspectionIssuesMap (nat * nat)) :
  outcome (InspectionIssuesMap (nat * nat)) :=
  let! acc := add_surfaces_meshes_non_manifold_edges ho m acc in
  foldM (fun acc b =>
           let! r := solid_non_manifold_edges (co_mesh b) in
           Ok (add_issues_to_map (co_id b)
                 (set_description (StrCat ["Block "; named m (co_name b) (co_id b); " non manifold edges"]) r) acc))
    (active (m_blocks m)) acc.
(** brep_meshes_manifold.cpp:139-153 *)
Definition add_component_meshes_non_manifold_facets (ho : HashOrder) (m : Model) (acc : InspectionIssuesMap (list nat)) :
  outcome (InspectionIssuesMap (list nat)) :=
  foldM (fun acc b =>
           let r := solid_non_manifold_facets ho (co_mesh b) in
           Ok (add_issues_to_map (co_id b)
                 (set_description (StrCat ["Block "; named m (co_name b) (co_id b); " non manifold facets"]) r) acc))
    (active (m_blocks m)) acc.

(** ** brep_meshes_manifold.cpp: the model *)

(** [BRepNonManifoldEdge], [BRepNonManifoldFacet] (brep_meshes_manifold.hpp): unique vertices (None is NO_ID) and
    components *)
Definition BRepNonManifoldEdge := ((option nat * option nat) * list uuid)%type.
Definition BRepNonManifoldFacet := (list (option nat) * list uuid)%type.
(** [VertexCycle] on unique vertices: NO_ID is the greatest index *)
Definition uv_leb (a b : option nat) : bool :=
  match a, b with
  | _, None => true
  | None, Some _ => false
  | Some x, Some y => Nat.leb x y
  end.
Definition uv_edge_key (a b : option nat) : option nat * option nat := if uv_leb a b then (a, b) else (b, a).
Definition uv_pair_eqb (a b : option nat * option nat) : bool := opt_eqb (fst a) (fst b) && opt_eqb (snd a) (snd b).
Definition uv_string (o : option nat) : string := match o with Some v => str v | None => "4294967295" end.
(** brep_meshes_manifold.cpp:168-173: the edge is not skipped *)
Definition counted_edge (s : SurfaceMesh) (e : PolygonEdge) : bool :=
  match sm_adjacent s e with
  | None => false
  | Some q => negb (Nat.ltb q (fst e))
  end.
(** brep_meshes_manifold.cpp:160-190 *)
Definition surface_uv (m : Model) (s : Component SurfaceMesh) (v : nat) : option nat :=
  m_unique_vertex m (mkCMV (mkCID SurfaceT (co_id s)) v).
Definition model_edge_key (m : Model) (s : Component SurfaceMesh) (e : PolygonEdge) : option nat * option nat :=
  uv_edge_key (surface_uv m s (polygon_edge_vertex0 (co_mesh s) e)) (surface_uv m s (polygon_edge_vertex1 (co_mesh s) e)).
Definition model_edges (m : Model) : list ((option nat * option nat) * list uuid) :=
  fold_left (fun acc s =>
      fold_left (fun acc e =>
          if counted_edge (co_mesh s) e
          then emplace_or_update uv_pair_eqb (model_edge_key m s e) [co_id s] (fun l => l ++ [co_id s])%list acc
          else acc) (all_polygon_edges (co_mesh s)) acc)
    (active (m_surfaces m)) [].
(** brep_meshes_manifold.cpp:197-210; the surface named in the message exists, its identifier came from it *)
Definition model_edge_message (m : Model) (kv : (option nat * option nat) * list uuid) : string :=
  StrCat ["Model edge between unique vertices "; uv_string (fst (fst kv)); " and "; uv_string (snd (fst kv));
    " is not manifold: it is on several Surfaces: ";
    StrCat (map (fun id => StrCat [named m (match find_component id (m_surfaces m) with Some s => co_name s | None => None end) id; ", "])
      (snd kv));
    "but not on their border"].
(** brep_meshes_manifold.cpp:279-292; a vertex that does not exist is undefined behaviour *)
Fixpoint several_cmvs_on_one_vertex (m : Model) (uvs : list (option nat)) : outcome bool :=
  match uvs with
  | [] => Ok false
  | None :: _ => UB
  | Some uv :: l =>
    if Nat.ltb uv (nb_unique_vertices m)
    then if Nat.ltb 1 (List.length (component_mesh_vertices m uv)) then Ok true else several_cmvs_on_one_vertex m l
    else UB
  end.
(** nb_embedding_surfaces / nb_embedding_blocks (OpenGeode): embeddings of one type *)
Definition nb_embeddings_of (m : Model) (t : ComponentType) (id : uuid) : nat :=
  List.length (filter (fun c => ctype_eqb (cid_type c) t) (embeddings m id)).
(** brep_meshes_manifold.cpp:218-233: the unique vertices of the single edge of the line, if it is to be reported *)
Definition lonely_line (m : Model) (l : Component EdgedCurve) : outcome (option (option nat * option nat)) :=
  match ec_edges (co_mesh l) with
  | [(v, w)] =>
    if Nat.eqb (nb_embeddings_of m SurfaceT (co_id l)) 0 then Ok None
    else let uv x := m_unique_vertex m (mkCMV (mkCID LineT (co_id l)) x) in
         let! b := several_cmvs_on_one_vertex m [uv v; uv w] in
         Ok (if b then None else Some (uv v, uv w))
  | _ => Ok None
  end.
Definition lonely_line_message (m : Model) (l : Component EdgedCurve) (vs : option nat * option nat) : string :=
  StrCat ["Model edge between unique vertices "; uv_string (fst vs); " and "; uv_string (snd vs);
    " is not manifold: it belongs to internal Line "; named m (co_name l) (co_id l); " with only one edge"].
(** brep_meshes_manifold.cpp:155-244 *)
Definition add_model_non_manifold_edges (ho : HashOrder) (m : Model) (r : InspectionIssues BRepNonManifoldEdge) :
  outcome (InspectionIssues BRepNonManifoldEdge) :=
  let r := fold_left (fun r kv => if Nat.leb (List.length (snd kv)) 1 then r else add_issue kv (model_edge_message m kv) r)
             (visit ho (model_edges m)) r in
  foldM (fun r l => let! o := lonely_line m l in
           Ok (match o with
               | Some vs => add_issue (vs, [co_id l]) (lonely_line_message m l vs) r
               | None => r
               end)) (active (m_lines m)) r.
(** brep_meshes_manifold.cpp:252-262 *)
Definition lonely_surface (m : Model) (s : Component SurfaceMesh) : outcome (option (list (option nat))) :=
  if negb (Nat.eqb (nb_polygons (co_mesh s)) 1) then Ok None
  else if Nat.eqb (nb_embeddings_of m BlockT (co_id s)) 0 then Ok None
  else let uvs := map (surface_uv m s) (polygon_vertices (co_mesh s) 0) in
       let! b := several_cmvs_on_one_vertex m uvs in
       Ok (if b then None else Some uvs).
Definition lonely_surface_message (m : Model) (s : Component SurfaceMesh) (vs : list (option nat)) : string :=
  StrCat ["Model facet between unique vertices "; StrCat (map (fun v => StrCat [uv_string v; " "]) vs);
    " is not manifold: it belongs to internal Surface "; named m (co_name s) (co_id s); " with only one facet"].
(** brep_meshes_manifold.cpp:246-276 *)
Definition add_model_non_manifold_facets (m : Model) (r : InspectionIssues BRepNonManifoldFacet) :
  outcome (InspectionIssues BRepNonManifoldFacet) :=
  foldM (fun r s => let! o := lonely_surface m s in
           Ok (match o with
               | Some vs => add_issue (vs, [co_id s]) (lonely_surface_message m s vs) r
               | None => r
               end)) (active (m_surfaces m)) r.
