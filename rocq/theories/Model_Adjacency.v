(** Model of criterion/adjacency/*.cpp and criterion/internal/component_meshes_adjacency.cpp *)
From Coq Require Import String Ascii List Arith NArith ZArith Bool Lia.
From Verif Require Import Base Model_Issues Types Model_Colocation Model_Cycles.
Import ListNotations.
Local Open Scope string_scope.

(** SurfaceMesh::is_edge_on_border / SolidMesh::is_polyhedron_facet_on_border (OpenGeode): no adjacent element *)
Definition is_edge_on_border (m : SurfaceMesh) (e : PolygonEdge) : bool := negb (isSome (sm_adjacent m e)).
Definition is_facet_on_border (m : SolidMesh) (f : PolyhedronFacet) : bool := negb (isSome (so_adjacent m f)).

(** ** surface_adjacency.cpp *)

(** surface_adjacency.cpp:84-111; [.value()] of an empty optional throws std::bad_optional_access, an adjacent polygon
    out of the mesh is out of the model (UB) *)
Definition edge_has_right_adjacency (m : SurfaceMesh) (e : PolygonEdge) : outcome bool :=
  match sm_adjacent m e with
  | None => Throw OtherExn
  | Some q =>
    if Nat.ltb q (nb_polygons m) then
      let v0 := polygon_edge_vertex0 m e in
      let v1 := polygon_edge_vertex1 m e in
      Ok (existsb (fun edge_id =>
             let adj_edge := (q, edge_id) in
             Nat.eqb (polygon_vertex m adj_edge) v1 &&
             (Nat.eqb (polygon_edge_vertex1 m adj_edge) v0 && opt_eqb (sm_adjacent m adj_edge) (Some (fst e))))
           (Range (nb_polygon_edges m q)))
    else UB
  end.
(** surface_adjacency.cpp:47-49 and 70-72: the condition of both loops *)
Definition edge_has_wrong_adjacency (m : SurfaceMesh) (e : PolygonEdge) : outcome bool :=
  if negb (is_edge_on_border m e)
  then let! b := edge_has_right_adjacency m e in Ok (negb b)
  else Ok false.
(** surface_adjacency.cpp:39-56 *)
Definition surface_has_wrong_adjacencies (m : SurfaceMesh) : outcome bool :=
  anyM (edge_has_wrong_adjacency m) (all_polygon_edges m).
(** surface_adjacency.cpp:58-81; the name of the mesh is a parameter *)
Definition polygon_edges_with_wrong_adjacency (name : string) (m : SurfaceMesh) : outcome (InspectionIssues PolygonEdge) :=
  foldM (fun r e => let! b := edge_has_wrong_adjacency m e in
           Ok (if b then add_issue e (StrCat ["edge "; str (snd e); " of polygon "; str (fst e);
                                              " has wrong adjacencies"]) r else r))
    (all_polygon_edges m) (new_issues (StrCat ["Surface "; name; " polygon edges adjacencies issues"])).

(** ** solid_adjacency.cpp *)

(** solid_adjacency.cpp:89-113 *)
Definition facet_has_right_adjacency (m : SolidMesh) (f : PolyhedronFacet) : outcome bool :=
  match so_adjacent m f with
  | None => Throw OtherExn
  | Some q =>
    if Nat.ltb q (nb_polyhedra m) then
      Ok (existsb (fun facet_id =>
             is_opposite (polyhedron_facet_vertices m f) (polyhedron_facet_vertices m (q, facet_id)) &&
             opt_eqb (so_adjacent m (q, facet_id)) (Some (fst f)))
           (Range (List.length (ph_facets (polyhedron m q)))))
    else UB
  end.
(** solid_adjacency.cpp:49-51, 75-77 *)
Definition facet_has_wrong_adjacency (m : SolidMesh) (f : PolyhedronFacet) : outcome bool :=
  if negb (is_facet_on_border m f)
  then let! b := facet_has_right_adjacency m f in Ok (negb b)
  else Ok false.
(** solid_adjacency.cpp:40-58 *)
Definition solid_has_wrong_adjacencies (m : SolidMesh) : outcome bool :=
  anyM (facet_has_wrong_adjacency m) (all_polyhedron_facets m).
(** solid_adjacency.cpp:60-86 *)
Definition polyhedron_facets_with_wrong_adjacency (name : string) (m : SolidMesh) : outcome (InspectionIssues PolyhedronFacet) :=
  foldM (fun r f => let! b := facet_has_wrong_adjacency m f in
           Ok (if b then add_issue f (StrCat ["facet "; str (snd f); " of polyhedron "; str (fst f);
                                              " has wrong adjacencies"]) r else r))
    (all_polyhedron_facets m) (new_issues (StrCat ["Solid "; name; " polyhedron facets adjacencies issues"])).

(** ** component_meshes_adjacency.cpp *)

(** component_meshes_adjacency.cpp:41-63 *)
Definition polygon_edge_is_on_a_line (lk : Lookup) (m : Model) (s : Component SurfaceMesh) (e : PolygonEdge) : outcome bool :=
  let uv v := m_unique_vertex m (mkCMV (mkCID SurfaceT (co_id s)) v) in
  match uv (polygon_edge_vertex0 (co_mesh s) e), uv (polygon_edge_vertex1 (co_mesh s) e) with
  | Some a, Some b =>
    if Nat.ltb a (nb_unique_vertices m) && Nat.ltb b (nb_unique_vertices m)
    then let! l := lk_line_edges lk (a, b) in Ok (negb (match l with [] => true | _ => false end))
    else Throw OpenGeodeExn
  | _, _ => Throw OpenGeodeExn
  end.
(** component_meshes_adjacency.cpp:100-121: body of the loops, with the handler *)
Definition border_edge_message (e : PolygonEdge) : string :=
  StrCat ["edge "; str (snd e); " of polygon "; str (fst e); " has no adjacencies but is not part of a model Line."].
Definition border_edge_is_wrong (lk : Lookup) (m : Model) (s : Component SurfaceMesh) (e : PolygonEdge) : outcome bool :=
  let tried := if is_edge_on_border (co_mesh s) e
               then let! b := polygon_edge_is_on_a_line lk m s e in Ok (negb b)
               else Ok false in
  match tried with
  | Throw OpenGeodeExn => Ok true
  | o => o
  end.
(** component_meshes_adjacency.cpp:85-123 for one surface *)
Definition surface_adjacency_issues (lk : Lookup) (m : Model) (s : Component SurfaceMesh) : outcome (InspectionIssues PolygonEdge) :=
  let! issues := polygon_edges_with_wrong_adjacency "" (co_mesh s) in
  let issues := set_description (StrCat ["Surface "; named m (co_name s) (co_id s); " polygon edges adjacency issues"]) issues in
  foldM (fun r e => let! b := border_edge_is_wrong lk m s e in Ok (if b then add_issue e (border_edge_message e) r else r))
    (all_polygon_edges (co_mesh s)) issues.
(** component_meshes_adjacency.cpp:77-127 *)
Definition add_surfaces_edges_with_wrong_adjacencies (lk : Lookup) (m : Model)
    (acc : InspectionIssuesMap PolygonEdge) : outcome (InspectionIssuesMap PolygonEdge) :=
  foldM (fun acc s => let! r := surface_adjacency_issues lk m s in Ok (add_issues_to_map (co_id s) r acc))
    (active (m_surfaces m)) acc.

(** ** brep_meshes_adjacency.cpp *)

Fixpoint all_some {A} (l : list (option A)) : option (list A) :=
  match l with
  | [] => Some []
  | Some x :: l' => option_map (cons x) (all_some l')
  | None :: _ => None
  end.
(** brep_meshes_adjacency.cpp:129-142 *)
Definition polyhedron_facet_is_on_a_surface (lk : Lookup) (m : Model) (b : Component SolidMesh) (f : PolyhedronFacet) :
  outcome (option bool) :=
  match all_some (map (fun v => m_unique_vertex m (mkCMV (mkCID BlockT (co_id b)) v)) (polyhedron_facet_vertices (co_mesh b) f)) with
  | None => Ok None
  | Some uvs => let! l := lk_surface_polygons lk uvs in Ok (Some (negb (match l with [] => true | _ => false end)))
  end.
(** brep_meshes_adjacency.cpp:104-114 *)
Definition border_facet_is_wrong (lk : Lookup) (m : Model) (b : Component SolidMesh) (f : PolyhedronFacet) : outcome bool :=
  if negb (is_facet_on_border (co_mesh b) f) then Ok false
  else let! o := polyhedron_facet_is_on_a_surface lk m b f in
       Ok (match o with Some v => negb v | None => false end).
Definition border_facet_message (f : PolyhedronFacet) : string :=
  StrCat ["facet "; str (snd f); " of polyhedron "; str (fst f); " has no adjacencies but is not part of a model Surface."].
(** brep_meshes_adjacency.cpp:89-122 for one block *)
Definition block_adjacency_issues (lk : Lookup) (m : Model) (b : Component SolidMesh) : outcome (InspectionIssues PolyhedronFacet) :=
  let! issues := polyhedron_facets_with_wrong_adjacency "" (co_mesh b) in
  let issues := set_description (StrCat ["Block "; named m (co_name b) (co_id b); " polyhedron facets adjacencies issues"]) issues in
  foldM (fun r f => let! w := border_facet_is_wrong lk m b f in Ok (if w then add_issue f (border_facet_message f) r else r))
    (all_polyhedron_facets (co_mesh b)) issues.
(** brep_meshes_adjacency.cpp:83-126 *)
Definition add_blocks_facets_with_wrong_adjacencies (lk : Lookup) (m : Model)
    (acc : InspectionIssuesMap PolyhedronFacet) : outcome (InspectionIssuesMap PolyhedronFacet) :=
  foldM (fun acc b => let! r := block_adjacency_issues lk m b in Ok (add_issues_to_map (co_id b) r acc))
    (active (m_blocks m)) acc.
