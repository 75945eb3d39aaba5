(** Model of inspection/topology/brep_{corners,lines,surfaces}_topology.cpp.
    Paths are relative to src/geode/inspector/inspection/topology. *)
From Coq Require Import String Ascii List Arith NArith ZArith Bool Lia.
From Verif Require Import Base Model_Issues Types Model_Colocation Model_Topology.
Import ListNotations.
Local Open Scope string_scope.

(** ** What OpenGeode answers *)
(** [ComponentMeshEdges] without the element indices: for every surface (block) having an edge between the two unique
    vertices, the number of such edges; in the order of the hash map. *)
Record MeshEdges := mkMeshEdges { me_surfaces : list (uuid * nat); me_blocks : list (uuid * nat) }.
(** Searches of a model: [component_mesh_edges] for the unique vertices of an edge, [component_mesh_polygons] (only
    [block_polygons]) for the unique vertices of a polygon, [is_point_inside_block] for the barycenter of polygon 0 of a
    surface, containment of the bounding boxes of two lists of surfaces, [is_point_inside_closed_surface] for the points
    and polygons of a PolygonalSurface3D (its adjacencies are computed from the polygons: brep_blocks_topology.cpp:442). *)
Record FusedSurface := mkFused { fs_points : list Point; fs_polygons : list (list nat) }.
Record TopoLookup := mkTopoLookup {
  tl_edges : nat -> nat -> MeshEdges;
  tl_polygon_blocks : list nat -> list (uuid * nat);
  tl_inside_block : uuid -> uuid -> outcome bool;
  tl_box_contains : list uuid -> list uuid -> bool;
  tl_inside_closed : FusedSurface -> Point -> outcome bool }.
(** unique vertices of mesh vertices, if all linked *)
Fixpoint unique_vertices (m : Model) (c : ComponentID) (vs : list nat) : option (list nat) :=
  match vs with
  | [] => Some []
  | v :: vs' =>
    match m_unique_vertex m (mkCMV c v), unique_vertices m c vs' with
    | Some uv, Some l => Some (uv :: l)
    | _, _ => None
    end
  end.
(** geode::component_mesh_edges(brep, line, edge): the component mesh vertices of both unique vertices are read; an
    unlinked vertex (NO_ID) is an access outside of the table, hence UB (see the comment at brep_lines_topology.cpp:588). *)
Definition component_mesh_edges (tl : TopoLookup) (m : Model) (line : Component EdgedCurve) (e : nat) : outcome MeshEdges :=
  match nth_error (ec_edges (co_mesh line)) e with
  | Some (v0, v1) =>
    match unique_vertices m (mkCID LineT (co_id line)) [v0; v1] with
    | Some [a; b] => Ok (tl_edges tl a b)
    | _ => UB
    end
  | None => UB
  end.
(** geode::component_mesh_polygons(brep, surface, polygon).block_polygons; same remark *)
Definition component_mesh_polygons (tl : TopoLookup) (m : Model) (s : Component SurfaceMesh) (p : nat) : outcome (list (uuid * nat)) :=
  match unique_vertices m (mkCID SurfaceT (co_id s)) (polygon_vertices (co_mesh s) p) with
  | Some l => Ok (tl_polygon_blocks tl l)
  | None => UB
  end.
(** flat_hash_map::contains / at *)
Definition contains (l : list (uuid * nat)) (k : uuid) : bool := existsb (fun p => Nat.eqb (fst p) k) l.
Fixpoint size_at (l : list (uuid * nat)) (k : uuid) : nat :=
  match l with [] => 0 | (k', n) :: l' => if Nat.eqb k' k then n else size_at l' k end.

Definition cid_eqb (a b : ComponentID) : bool := ctype_eqb (cid_type a) (cid_type b) && Nat.eqb (cid_id a) (cid_id b).
(** [embedding_surfaces(line)] / [embedding_blocks(line)]: embeddings of one type *)
Definition embeddings_of (m : Model) (t : ComponentType) (id : uuid) : list ComponentID :=
  filter (fun e => ctype_eqb (cid_type e) t) (embeddings m id).

(** ** brep_corners_topology.cpp *)

(** 179-209 *)
Definition corner_is_multiply_embedded (m : Model) (uv : nat) : outcome (option string) :=
  first_some (fun c =>
    let! a := is_active_of m CornerT c in
    if a && Nat.ltb 1 (nb_embeddings m (cmv_id c)) then
      first_some (fun e =>
        if ctype_eqb (cid_type e) BlockT then
          let! b := kind_is_active m BlockT (cid_id e) in
          if b then
            let! n := kind_named m CornerT (cmv_id c) in
            Ok (Some (StrCat ["unique vertex "; str uv; " is associated to Corner "; n;
                              ", which is embedded in several components including a Block."]))
          else Ok None
        else Ok None) (embeddings m (cmv_id c))
    else Ok None) (component_mesh_vertices m uv).
(** 260-268: counts the links of the corner itself (not of the line), on 32 bits *)
Definition count_id (cmvs : list ComponentMeshVertex) (id : uuid) : N :=
  fold_left (fun n c => if Nat.eqb (cmv_id c) id then add32 n 1 else n) cmvs 0%N.
(** 235-308 *)
Definition brep_corner_is_part_of_line_but_not_boundary (m : Model) (uv : nat) : outcome (option string) :=
  first_some (fun c =>
    let! a := is_active_of m CornerT c in
    if negb a then Ok None
    else first_some (fun line =>
      let! b := is_active_of m LineT line in
      if negb b then Ok None
      else if is_boundary m (cmv_id c) (cmv_id line) then Ok None
      else if is_internal m (cmv_id c) (cmv_id line) then
        let line_vertex_count := count_id (component_mesh_vertices m uv) (cmv_id c) in
        if negb (N.eqb line_vertex_count 2) then
          let! n := kind_named m CornerT (cmv_id c) in
          let! n' := kind_named m LineT (cmv_id line) in
          Ok (Some (StrCat ["unique vertex with index "; str uv; " is associated with Corner "; n; ", which is internal to Line ";
            n'; ", so Line should be closed and have two different vertices on unique vertex, but has ";
            str (N.to_nat line_vertex_count); " vertices on it instead."]))
        else Ok None
      else
        let! n := kind_named m CornerT (cmv_id c) in
        let! n' := kind_named m LineT (cmv_id line) in
        Ok (Some (StrCat ["unique vertex "; str uv; " is associated with Corner "; n; ", part of line "; n';
                          ", but is neither boundary nor internal of it."])))
      (component_mesh_vertices m uv)) (component_mesh_vertices m uv).
(** 105-131 *)
Fixpoint brep_corner_loop (m : Model) (found : bool) (cmvs : list ComponentMeshVertex) : outcome bool :=
  match cmvs with
  | [] => Ok true
  | c :: cs =>
    let! a := is_active_of m CornerT c in
    if negb a then brep_corner_loop m found cs
    else if found then Ok false
    else if Nat.eqb (nb_embeddings m (cmv_id c)) 0 then
      if Nat.eqb (nb_incidences m (cmv_id c)) 0 then Ok false else brep_corner_loop m true cs
    else if Nat.ltb 1 (nb_incidences m (cmv_id c)) then Ok false
    else brep_corner_loop m true cs
  end.
(** 102-141 *)
Definition brep_corner_topology_is_valid (m : Model) (uv : nat) : outcome bool :=
  let! b := brep_corner_loop m false (component_mesh_vertices m uv) in
  if negb b then Ok false
  else all_pass [corner_is_multiply_embedded m; brep_corner_is_part_of_line_but_not_boundary m] uv.
(** brep_corners_topology.hpp *)
Definition brep_corners_ds : list string :=
  ["unique vertices shared by several Corners"; "unique vertices linked to a Corner embedded in more than two components";
   "unique vertices linked to a Corner with neither boundary nor internal status";
   "unique vertices linked to a Line's Corner without boundary status"].
Definition brep_corners_default : CornersTopology :=
  mkCornersTopology (new_issues corners_not_meshed_d) (new_issues_map corners_not_linked_d)
    (new_issues (nth 0 brep_corners_ds "")) (new_issues (nth 1 brep_corners_ds ""))
    (new_issues (nth 2 brep_corners_ds "")) (new_issues (nth 3 brep_corners_ds "")).
(** 310-366 *)
Definition brep_inspect_corners_topology (m : Model) : outcome CornersTopology :=
  let! cs := inspect_components get_corner "Corner " " is not meshed." CornerT corner_is_meshed
               (fun p => List.length (ps_points p)) true m (m_corners m) corners_not_meshed_d corners_not_linked_d in
  let! rs := report_vertices m [unique_vertex_has_multiple_corners m; corner_is_multiply_embedded m;
               corner_is_not_internal_nor_boundary m; brep_corner_is_part_of_line_but_not_boundary m] brep_corners_ds in
  make_corners cs rs.

(** ** brep_lines_topology.cpp *)

(** 183-218: one embedding; the name of the embedding is always looked up among the surfaces *)
Definition brep_embedding_check (m : Model) (uv : nat) (line : uuid) (e : ComponentID) : outcome (option string) :=
  if is_boundary m line (cid_id e) then
    let! n := kind_named m LineT line in
    let! n' := kind_named m SurfaceT (cid_id e) in
    Ok (Some (StrCat ["unique vertex "; str uv; " is part of line "; n; ", which is both boundary and embedded in Surface ";
                      n'; "."]))
  else if ctype_eqb (cid_type e) BlockT && negb (brep_blocks_are_meshed m) then Ok None
  else if negb (existsb (fun c => cid_eqb (cmv_component c) e) (component_mesh_vertices m uv)) then
    let! n := kind_named m LineT line in
    let! n' := kind_named m SurfaceT (cid_id e) in
    Ok (Some (StrCat ["unique vertex "; str uv; " is part of Line "; n; ", which is embedded in Surface "; n';
                      ", but the unique vertex is not linked to the Surface mesh vertices."]))
  else Ok None.
(** 163-222 *)
Definition brep_invalid_embedded_line (m : Model) (uv : nat) : outcome (option string) :=
  first_some (fun c =>
    let! a := is_active_of m LineT c in
    if negb a then Ok None
    else first_some (brep_embedding_check m uv (cmv_id c)) (embeddings m (cmv_id c))) (component_mesh_vertices m uv).
(** 224-313 *)
Definition brep_invalid_single_line (m : Model) (uv : nat) : outcome (option string) :=
  match components_uuids m uv LineT with
  | [line_id] =>
    let! a := kind_is_active m LineT line_id in
    if negb a then Ok None
    else
      let surface_uuids := components_uuids m uv SurfaceT in
      let block_uuids := components_uuids m uv BlockT in
      if Nat.ltb (List.length (embeddings_of m SurfaceT line_id)) 1 && Nat.ltb (nb_incidences m line_id) 1 then Ok None
      else
        let! n := kind_named m LineT line_id in
        match surface_uuids with
        | [s] =>
          if negb (is_internal m line_id s) && negb (Nat.ltb 0 (nb_embeddings m s) || is_boundary m line_id s) then
            let! n' := kind_named m SurfaceT s in
            Ok (Some (StrCat ["unique vertex "; str uv; " is part of only one Line "; n; ", and only one Surface "; n';
              ", but the Line is neither embedded in the Surface, nor boundary of the Surface while the Surface is embedded in a Block."]))
          else Ok None
        | [] =>
          if negb (brep_blocks_are_meshed m) then Ok None
          else
            match block_uuids with
            | [b] =>
              if negb (is_internal m line_id b) then
                Ok (Some (StrCat ["unique vertex "; str uv; " is part of only one Line "; n;
                                  ", no Surfaces, one Block, but the Line is not internal to the Block."]))
              else Ok None
            | _ => Ok (Some (StrCat ["unique vertex "; str uv; " is part of only one Line "; n; ", no Surfaces, but is part of ";
                                     str (List.length block_uuids); " Blocks, instead of one."]))
            end
        | _ =>
          first_some (fun s =>
            let! _ := get_surface m s in
            if negb (is_boundary m line_id s) && negb (is_internal m line_id s) then
              let! n' := kind_named m SurfaceT s in
              Ok (Some (StrCat ["unique vertex "; str uv; " is part of only one Line "; n;
                ", and multiple Surfaces, but the Line is neither internal nor boundary of Surface "; n'; ", in which the vertex is."]))
            else Ok None) surface_uuids
        end
  | _ => Ok None
  end.
(** 315-418, for one line: [cme] describes its edge 0 *)
Definition brep_line_relationships (m : Model) (uv : nat) (line : uuid) (cme : MeshEdges) : outcome (option string) :=
  let! n := kind_named m LineT line in
  let! r := first_some (fun s =>
    let! a := kind_is_active m SurfaceT (cid_id s) in
    if negb a then Ok None
    else
      let! n' := kind_named m SurfaceT (cid_id s) in
      if negb (contains (me_surfaces cme) (cid_id s)) then
        Ok (Some (StrCat ["unique vertex "; str uv; " is part of Line "; n; ", which is boundary of Surface "; n';
                          ", but Line edge 0 is not part of this surface"]))
      else if negb (Nat.eqb (size_at (me_surfaces cme) (cid_id s)) 1) then
        Ok (Some (StrCat ["unique vertex "; str uv; " is part of Line "; n; ", which is boundary of Surface "; n';
                          " but has several surface edges of this surface around Line edge 0"]))
      else Ok None) (incidences m line) in
  match r with
  | Some x => Ok (Some x)
  | None =>
    let! r := first_some (fun s =>
      let! a := kind_is_active m SurfaceT (cid_id s) in
      if negb a then Ok None
      else
        let! n' := kind_named m SurfaceT (cid_id s) in
        if negb (contains (me_surfaces cme) (cid_id s)) then
          Ok (Some (StrCat ["unique vertex "; str uv; " is part of Line "; n; ", which is embedded in Surface "; n';
                            ", but has no surface edge around Line edge 0"]))
        else if Nat.leb (size_at (me_surfaces cme) (cid_id s)) 1 then
          Ok (Some (StrCat ["unique vertex "; str uv; " is part of Line "; n; ", which is embedded in Surface "; n';
                            " but doesn't cut it (should have more than 1 Surface edge around Line edge 0)"]))
        else Ok None) (embeddings_of m SurfaceT line) in
    match r with
    | Some x => Ok (Some x)
    | None =>
      if Nat.eqb (nb_incidences m line) 0 && Nat.eqb (List.length (embeddings_of m SurfaceT line)) 0 then
        first_some (fun p =>
          let! a := kind_is_active m SurfaceT (fst p) in
          if a then
            let! n' := kind_named m SurfaceT (fst p) in
            Ok (Some (StrCat ["unique vertex "; str uv; " is part of Line "; n; ", which should be internal or boundary to Surface "; n']))
          else Ok None) (me_surfaces cme)
      else Ok None
    end
  end.
Definition brep_line_wrong_relationships (tl : TopoLookup) (m : Model) (uv : nat) : outcome (option string) :=
  first_some (fun c =>
    let! a := is_active_of m LineT c in
    if negb a then Ok None
    else
      let! line := get_line m (cmv_id c) in
      if Nat.eqb (List.length (ec_edges (co_mesh line))) 0 then Ok None
      else
        let! cme := component_mesh_edges tl m line 0 in
        brep_line_relationships m uv (cmv_id c) cme) (component_mesh_vertices m uv).
(** 420-445 *)
Definition brep_lines_but_not_corner (m : Model) (uv : nat) : outcome (option string) := section_lines_but_not_corner m uv.
(** 447-562; the loop over [cme.block_edges] only reports internal blocks *)
Definition line_edge_has_wrong_component_edges_around (tl : TopoLookup) (m : Model) (line : Component EdgedCurve) (e : nat) :
    outcome (option string) :=
  let n := named m (co_name line) (co_id line) in
  let! cme := component_mesh_edges tl m line e in
  let! r := first_some (fun p =>
    let! a := kind_is_active m SurfaceT (fst p) in
    let! n' := kind_named m SurfaceT (fst p) in
    if negb a then Ok None
    else if is_boundary m (co_id line) (fst p) then
      if negb (Nat.eqb (snd p) 1) then
        Ok (Some (StrCat ["Line "; n; " is boundary of Surface "; n'; ", but has "; str (snd p);
                          " edges of this Surface around it, it should be 1."]))
      else Ok None
    else if is_internal m (co_id line) (fst p) then
      if negb (Nat.eqb (snd p) 2) then
        Ok (Some (StrCat ["Line with uuid '"; m_uuid_string m (co_id line); "' is internal to Surface "; n'; ", but has "; str (snd p);
                          " edges of this surface around it, it should be 2."]))
      else Ok None
    else Ok (Some (StrCat ["Line with uuid '"; m_uuid_string m (co_id line); "' has edge with id "; str e; " in common with Surface "; n';
                           ", but is neither boundary of nor internal to it."]))) (me_surfaces cme) in
  match r with
  | Some x => Ok (Some x)
  | None =>
    let missing := fun text s =>
      let! a := kind_is_active m SurfaceT (cid_id s) in
      let! n' := kind_named m SurfaceT (cid_id s) in
      if a && negb (contains (me_surfaces cme) (cid_id s)) then
        Ok (Some (StrCat ["Line "; n; text; n'; " but edge "; str e; " has no common edge with the surface"]))
      else Ok None in
    let! r := first_some (missing " is embedded in Surface ") (embeddings_of m SurfaceT (co_id line)) in
    match r with
    | Some x => Ok (Some x)
    | None =>
      let! r := first_some (missing " is incident to Surface ") (incidences m (co_id line)) in
      match r with
      | Some x => Ok (Some x)
      | None =>
        let! r := first_some (fun p =>
          let! a := kind_is_active m BlockT (fst p) in
          let! n' := kind_named m BlockT (fst p) in
          if a && is_internal m (co_id line) (fst p) && negb (Nat.eqb (snd p) 1) then
            Ok (Some (StrCat ["Line "; n; " is internal to Block "; n'; ", but has "; str (snd p);
                              " edges of this Block around it, it should be 1."]))
          else Ok None) (me_blocks cme) in
        match r with
        | Some x => Ok (Some x)
        | None =>
          first_some (fun b =>
            let! block := get_block m (cid_id b) in
            if negb (co_active block) || Nat.eqb (nb_polyhedra (co_mesh block)) 0 then Ok None
            else if negb (contains (me_blocks cme) (cid_id b)) then
              Ok (Some (StrCat ["Line "; n; " is embedded in Block "; named m (co_name block) (cid_id b); " but edge "; str e;
                                " has no common edge with the block"]))
            else Ok None) (embeddings_of m BlockT (co_id line))
        end
      end
    end
  end.
(** 120-147 *)
Definition brep_lines_topology_is_valid (tl : TopoLookup) (m : Model) (uv : nat) : outcome bool :=
  let! is_a_line := anyM (is_active_of m LineT) (component_mesh_vertices m uv) in
  if negb is_a_line then Ok true
  else all_pass [brep_invalid_embedded_line m; brep_invalid_single_line m; brep_line_wrong_relationships tl m;
                 brep_lines_but_not_corner m] uv.

(** The first loop of [inspect_lines_topology] (568-612) and [inspect_surfaces_topology] (419-468): an unmeshed component
    is reported and goes on; one with unlinked vertices is reported and skipped; otherwise, when [enabled], each of its
    elements is checked. *)
Record ElementIssues := mkElements {
  ei_not_meshed : InspectionIssues uuid;
  ei_not_linked : InspectionIssuesMap nat;
  ei_wrong : InspectionIssuesMap nat }.
Definition inspect_elements_of {M} (get : Model -> uuid -> outcome (Component M)) (kind : string) (t : ComponentType)
    (meshed : M -> bool) (nb_vertices nb_elements : M -> nat) (enabled : bool)
    (check : Component M -> nat -> outcome (option string)) (m : Model) (acc : ElementIssues) (c : Component M) :
    outcome ElementIssues :=
  let! c' := get m (co_id c) in
  let not_meshed := if meshed (co_mesh c') then ei_not_meshed acc
    else add_issue (co_id c) (StrCat [kind; named m (co_name c) (co_id c); " is not meshed"]) (ei_not_meshed acc) in
  let r := vertices_not_associated m (mkCID t (co_id c)) (nb_vertices (co_mesh c)) in
  let d := StrCat [kind; named m (co_name c) (co_id c)] in
  if negb (N.eqb (nb_issues r) 0) then
    Ok (mkElements not_meshed (add_issues_to_map (co_id c) (set_description d r) (ei_not_linked acc)) (ei_wrong acc))
  else if negb enabled then Ok (mkElements not_meshed (ei_not_linked acc) (ei_wrong acc))
  else
    let! w := foldM (fun w e =>
        let! p := check c e in
        Ok (match p with Some message => add_issue e message w | None => w end))
      (Range (nb_elements (co_mesh c))) (new_issues d) in
    Ok (mkElements not_meshed (ei_not_linked acc)
          (if negb (N.eqb (nb_issues w) 0) then add_issues_to_map (co_id c) w (ei_wrong acc) else ei_wrong acc)).
Definition inspect_elements {M} get kind t (meshed : M -> bool) nb_vertices nb_elements enabled check (m : Model)
    (l : list (Component M)) (d1 d2 d3 : string) : outcome ElementIssues :=
  foldM (inspect_elements_of get kind t meshed nb_vertices nb_elements enabled check m) (active l)
    (mkElements (new_issues d1) (new_issues_map d2) (new_issues_map d3)).

(** brep_lines_topology.hpp *)
Record BRepLinesTopology := mkBRepLines {
  bl_not_meshed : InspectionIssues uuid;
  bl_not_linked : InspectionIssuesMap nat;
  bl_wrong_relationship : InspectionIssues nat;
  bl_invalid_embeddings : InspectionIssues nat;
  bl_single_invalid : InspectionIssues nat;
  bl_several_not_corner : InspectionIssues nat;
  bl_wrong_edges : InspectionIssuesMap nat }.
Definition line_edges_d := "Line edges with incorrect surrounding component edges".
Definition brep_lines_ds : list string :=
  ["unique vertices linked to a Line with invalid internal topology";
   "unique vertices linked to a Line with an incorrect relationship to a Surface"; "unique vertices linked to a single invalid Line";
   "unique vertices linked to multiple Lines but not to a Corner"].
Definition brep_lines_default : BRepLinesTopology :=
  mkBRepLines (new_issues lines_not_meshed_d) (new_issues_map lines_not_linked_d) (new_issues (nth 1 brep_lines_ds ""))
    (new_issues (nth 0 brep_lines_ds "")) (new_issues (nth 2 brep_lines_ds "")) (new_issues (nth 3 brep_lines_ds ""))
    (new_issues_map line_edges_d).
(** 564-645 *)
Definition brep_inspect_lines_topology (tl : TopoLookup) (m : Model) : outcome BRepLinesTopology :=
  let! cs := inspect_elements get_line "Line " LineT line_is_meshed (fun p => List.length (ec_points p))
               (fun p => List.length (ec_edges p)) true (line_edge_has_wrong_component_edges_around tl m) m (m_lines m)
               lines_not_meshed_d lines_not_linked_d line_edges_d in
  let! rs := report_vertices m [brep_invalid_embedded_line m; brep_line_wrong_relationships tl m; brep_invalid_single_line m;
               brep_lines_but_not_corner m] brep_lines_ds in
  match rs with
  | [a; b; c; d] => Ok (mkBRepLines (ei_not_meshed cs) (ei_not_linked cs) b a c d (ei_wrong cs))
  | _ => UB
  end.

(** ** brep_surfaces_topology.cpp *)

(** 158-208; the second message opens two parentheses and closes one, after each name *)
Definition brep_invalid_embedded_surface (m : Model) (uv : nat) : outcome (option string) :=
  first_some (fun s =>
    let! a := kind_is_active m SurfaceT s in
    if negb a then Ok None
    else first_some (fun e =>
      let! b := kind_is_active m BlockT (cid_id e) in
      if negb b then Ok None
      else
        let! n := kind_title m SurfaceT s in
        let! n' := kind_title m BlockT (cid_id e) in
        if is_boundary m s (cid_id e) then
          Ok (Some (StrCat ["unique vertex "; str uv; " is part of Surface "; n; " ("; m_uuid_string m s; "), which is both internal and boundary of ";
                            "Block "; n'; " ("; m_uuid_string m (cid_id e); ")"]))
        else if brep_blocks_are_meshed m
                && negb (existsb (fun c => Nat.eqb (cmv_id c) (cid_id e)) (component_mesh_vertices m uv)) then
          Ok (Some (StrCat ["unique vertex "; str uv; " is part of Surface "; n; " ("; m_uuid_string m s; " ("; m_uuid_string m s;
                            "), which is embedded in Block "; n'; " ("; m_uuid_string m (cid_id e); " ("; m_uuid_string m (cid_id e);
                            "), but the unique vertex is not linked to any of the Block vertices."]))
        else Ok None) (embeddings m s)) (components_uuids m uv SurfaceT).
(** 217-222 [absl::c_count_if] *)
Definition count_active (m : Model) (t : ComponentType) (ids : list uuid) : outcome nat :=
  foldM (fun n id => let! a := kind_is_active m t id in Ok (if a then S n else n)) ids 0.
(** 228-270: no line at the vertex; [found] is [has_corner_internal_to_all_surfaces] *)
Fixpoint internal_corners_loop (m : Model) (uv : nat) (surface_uuids : list uuid) (found : bool)
    (cmvs : list ComponentMeshVertex) : outcome (option string) :=
  match cmvs with
  | [] => Ok (if found then None
              else Some (StrCat ["unique vertex "; str uv; " is part of multiple active Surfaces, and not part of any Line, ";
                                 "but not part of any Corner internal to all Surfaces."]))
  | c :: cs =>
    if negb (of_type CornerT c) then internal_corners_loop m uv surface_uuids found cs
    else
      let! corner := get_corner m (cmv_id c) in
      let! r := first_some (fun s =>
        let! surface := get_surface m s in
        if co_active surface && negb (is_internal m (cmv_id c) s) then
          match nth_error (ps_points (co_mesh corner)) (cmv_vertex c) with
          | None => UB
          | Some p => Ok (Some (StrCat ["unique vertex "; str uv; " at position ["; m_point_string m p;
              "] is part of multiple active Surfaces, and not part of any Line, but is part of Corner "; named m (co_name corner) (cmv_id c);
              ", which is not internal to active Surface "; named m (co_name surface) s; "."]))
          end
        else Ok None) surface_uuids in
      match r with
      | Some x => Ok (Some x)
      | None => internal_corners_loop m uv surface_uuids true cs
      end
  end.
(** 273-296: number of line links and of relationships of these lines with the surfaces *)
Definition count_line_relationships (m : Model) (surface_uuids : list uuid) (cmvs : list ComponentMeshVertex) : N * N :=
  fold_left (fun nr c =>
    if of_type LineT c then
      (add32 (fst nr) 1,
       fold_left (fun r s => if is_boundary m (cmv_id c) s || is_internal m (cmv_id c) s then add32 r 1 else r)
         surface_uuids (snd nr))
    else nr) cmvs (0%N, 0%N).
(** 210-322 *)
Definition brep_invalid_multiple_surfaces (m : Model) (uv : nat) : outcome (option string) :=
  let surface_uuids := components_uuids m uv SurfaceT in
  let! nb := count_active m SurfaceT surface_uuids in
  if Nat.ltb nb 2 then Ok None
  else
    match components_uuids m uv LineT with
    | [] => internal_corners_loop m uv surface_uuids false (component_mesh_vertices m uv)
    | [_] =>
      let nr := count_line_relationships m surface_uuids (component_mesh_vertices m uv) in
      if N.leb 2 (fst nr) then Ok None
      else first_some (fun c =>
        if negb (of_type CornerT c) then Ok None
        else
          let total := add32 (u32 (N.of_nat (nb_embeddings m (cmv_id c)))) (snd nr) in
          let size := N.of_nat (List.length surface_uuids) in
          if N.ltb total size then
            Ok (Some (StrCat ["unique vertex "; str uv; " is part of multiple active Surfaces and only one Line, is a Corner, ";
                              "but is not internal to all the Surfaces without relationships to the Line."]))
          else if N.ltb size total then
            Ok (Some (StrCat ["unique vertex "; str uv; " is part of multiple active Surfaces and only one Line, is a Corner, ";
                              "but is internal to Surfaces with relationships to the Line."]))
          else Ok None) (component_mesh_vertices m uv)
    | _ => Ok None
    end.
(** 324-363 *)
Definition brep_line_not_on_surface_border (m : Model) (uv : nat) : outcome (option string) :=
  match components_uuids m uv LineT with
  | [] => Ok None
  | line_uuids =>
    first_some (fun c =>
      if negb (of_type SurfaceT c) then Ok None
      else
        let! surface := get_surface m (cmv_id c) in
        if sm_vertex_on_border (co_mesh surface) (cmv_vertex c) then Ok None
        else first_some (fun l =>
          let! a := kind_is_active m LineT l in
          if a && (is_boundary m l (cmv_id c) || is_internal m l (cmv_id c)) then
            Ok (Some (StrCat ["unique vertex "; str uv; " is part of a Line and of Surface "; named m (co_name surface) (cmv_id c);
                              " but the associated vertex in the Surface mesh is not on the mesh border."]))
          else Ok None) line_uuids) (component_mesh_vertices m uv)
  end.
(** 365-412 *)
Definition surface_facet_has_wrong_component_facets_around (tl : TopoLookup) (m : Model) (s : Component SurfaceMesh) (p : nat) :
    outcome (option string) :=
  let! cmp := component_mesh_polygons tl m s p in
  first_some (fun q =>
    let! a := kind_is_active m BlockT (fst q) in
    let! n' := kind_named m BlockT (fst q) in
    let n := named m (co_name s) (co_id s) in
    if negb a then Ok None
    else if is_boundary m (co_id s) (fst q) then
      if negb (Nat.eqb (snd q) 1) then
        Ok (Some (StrCat ["Surface "; n; " is boundary of block "; n'; ", but has "; str (snd q);
                          " facets of this Block around it, it should be 1."]))
      else Ok None
    else if is_internal m (co_id s) (fst q) then
      if negb (Nat.eqb (snd q) 2) then
        Ok (Some (StrCat ["Surface "; n; " is internal to block "; n'; ", but has "; str (snd q);
                          " facets of this Block around it, it should be 2."]))
      else Ok None
    else Ok (Some (StrCat ["Surface "; n; " has facet with id "; str p; " in common with Block"; n';
                           ", but is neither boundary of nor internal to it."]))) cmp.
(** 112-139 *)
Definition brep_surfaces_topology_is_valid (m : Model) (uv : nat) : outcome bool :=
  let! found := anyM (is_active_of m SurfaceT) (component_mesh_vertices m uv) in
  if negb found then Ok true
  else all_pass [brep_invalid_embedded_surface m; brep_invalid_multiple_surfaces m; brep_line_not_on_surface_border m] uv.

(** brep_surfaces_topology.hpp *)
Record BRepSurfacesTopology := mkBRepSurfaces {
  bs_not_meshed : InspectionIssues uuid;
  bs_not_linked : InspectionIssuesMap nat;
  bs_invalid_embeddings : InspectionIssues nat;
  bs_several_invalid : InspectionIssues nat;
  bs_not_on_border : InspectionIssues nat;
  bs_wrong_facets : InspectionIssuesMap nat }.
Definition brep_surfaces_not_meshed_d := "Surface without mesh (uuids listed)".
Definition surface_facets_d := "Surface polygons with invalid surrounding facets".
Definition brep_surfaces_ds : list string :=
  ["unique vertices linked to a Surface with invalid internal topology"; "unique vertices improperly linked to several Surfaces";
   "unique vertices linked to a Line but not to a Surface border"].
Definition brep_surfaces_default : BRepSurfacesTopology :=
  mkBRepSurfaces (new_issues brep_surfaces_not_meshed_d) (new_issues_map surfaces_not_linked_d) (new_issues (nth 0 brep_surfaces_ds ""))
    (new_issues (nth 1 brep_surfaces_ds "")) (new_issues (nth 2 brep_surfaces_ds "")) (new_issues_map surface_facets_d).
(** 414-499 *)
Definition brep_inspect_surfaces_topology (tl : TopoLookup) (m : Model) : outcome BRepSurfacesTopology :=
  let! cs := inspect_elements get_surface "Surface " SurfaceT surface_is_meshed (fun p => List.length (sm_points p)) nb_polygons
               (brep_blocks_are_meshed m) (surface_facet_has_wrong_component_facets_around tl m) m (m_surfaces m)
               brep_surfaces_not_meshed_d surfaces_not_linked_d surface_facets_d in
  let! rs := report_vertices m [brep_invalid_embedded_surface m; brep_invalid_multiple_surfaces m; brep_line_not_on_surface_border m]
               brep_surfaces_ds in
  match rs with
  | [a; b; c] => Ok (mkBRepSurfaces (ei_not_meshed cs) (ei_not_linked cs) a b c (ei_wrong cs))
  | _ => UB
  end.
