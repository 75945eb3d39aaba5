(** Model of inspection/topology: internal/topology_helpers.{hpp,cpp} and section_{corners,lines,surfaces}_topology.cpp,
    section_topology.cpp.  Paths are relative to src/geode/inspector/inspection/topology. *)
From Coq Require Import String Ascii List Arith NArith ZArith Bool Lia.
From Verif Require Import Base Model_Issues Types Model_Colocation.
Import ListNotations.
Local Open Scope string_scope.

(** ** Shared pieces *)

Definition cmv_type (c : ComponentMeshVertex) : ComponentType := cid_type (cmv_component c).
Definition cmv_id (c : ComponentMeshVertex) : uuid := cid_id (cmv_component c).
Definition of_type (t : ComponentType) (c : ComponentMeshVertex) : bool := ctype_eqb (cmv_type c) t.

(** [model.corner(id).is_active()] and the like for lines, surfaces, blocks *)
Definition kind_is_active (m : Model) (t : ComponentType) (id : uuid) : outcome bool :=
  match t with
  | CornerT => let! c := get_corner m id in Ok (co_active c)
  | LineT => let! c := get_line m id in Ok (co_active c)
  | SurfaceT => let! c := get_surface m id in Ok (co_active c)
  | BlockT => let! c := get_block m id in Ok (co_active c)
  | OtherT => Throw (m_missing_exn m)
  end.
(** [cmv.component_id.type() == T && model.t(cmv.component_id.id()).is_active()] *)
Definition is_active_of (m : Model) (t : ComponentType) (c : ComponentMeshVertex) : outcome bool :=
  if of_type t c then kind_is_active m t (cmv_id c) else Ok false.
(** [model.t(id).name().value_or(id.string()), " (", id.string(), ")"]: the lookup may throw *)
Definition kind_named (m : Model) (t : ComponentType) (id : uuid) : outcome string :=
  match t with
  | CornerT => let! c := get_corner m id in Ok (named m (co_name c) id)
  | LineT => let! c := get_line m id in Ok (named m (co_name c) id)
  | SurfaceT => let! c := get_surface m id in Ok (named m (co_name c) id)
  | BlockT => let! c := get_block m id in Ok (named m (co_name c) id)
  | OtherT => Throw (m_missing_exn m)
  end.
(** [name().value_or( id.string() )] alone *)
Definition kind_title (m : Model) (t : ComponentType) (id : uuid) : outcome string :=
  match t with
  | CornerT => let! c := get_corner m id in Ok (title m (co_name c) id)
  | LineT => let! c := get_line m id in Ok (title m (co_name c) id)
  | SurfaceT => let! c := get_surface m id in Ok (title m (co_name c) id)
  | BlockT => let! c := get_block m id in Ok (title m (co_name c) id)
  | OtherT => Throw (m_missing_exn m)
  end.

(** topology_helpers.cpp:39-49 *)
Definition brep_blocks_are_meshed (m : Model) : bool :=
  forallb (fun b => negb (Nat.eqb (nb_polyhedra (co_mesh b)) 0)) (m_blocks m).
(** topology_helpers.cpp:51-61 *)
Definition section_surfaces_are_meshed (m : Model) : bool :=
  forallb (fun s => negb (Nat.eqb (nb_polygons (co_mesh s)) 0)) (m_surfaces m).

(** geode::sort_unique on identifiers *)
Fixpoint insert_unique (x : nat) (l : list nat) : list nat :=
  match l with
  | [] => [x]
  | y :: l' => if Nat.ltb x y then x :: l else if Nat.eqb x y then l else y :: insert_unique x l'
  end.
Definition sort_unique (l : list nat) : list nat := fold_right insert_unique [] l.
(** topology_helpers.hpp:53-69 *)
Definition components_uuids (m : Model) (uv : nat) (t : ComponentType) : list uuid :=
  sort_unique (map cmv_id (filter (of_type t) (component_mesh_vertices m uv))).

(** topology_helpers.hpp:71-87, [n] is the number of vertices of the component mesh *)
Definition vertices_are_associated (m : Model) (c : ComponentID) (n : nat) : bool :=
  forallb (fun v => isSome (m_unique_vertex m (mkCMV c v))) (Range n).
(** topology_helpers.hpp:89-109 *)
Definition vertices_not_associated (m : Model) (c : ComponentID) (n : nat) : InspectionIssues nat :=
  fold_left (fun r v => if isSome (m_unique_vertex m (mkCMV c v)) then r
                        else add_issue v (StrCat ["vertex '"; str v; " is not linked to a unique vertex."]) r)
    (Range n) default_issues.

(** The loop over active components that begins every inspection: section_corners_topology.cpp:283-304,
    section_lines_topology.cpp:347-367, section_surfaces_topology.cpp:216-237, brep_corners_topology.cpp:314-335;
    [skip] tells whether an unmeshed component is skipped ([continue]), [suffix] ends the message. *)
Definition inspect_component {M} (get : Model -> uuid -> outcome (Component M)) (kind suffix : string)
    (t : ComponentType) (meshed : M -> bool) (nb_vertices : M -> nat) (skip : bool) (m : Model)
    (acc : InspectionIssues uuid * InspectionIssuesMap nat) (c : Component M) :
    outcome (InspectionIssues uuid * InspectionIssuesMap nat) :=
  let! c' := get m (co_id c) in
  let not_meshed := if meshed (co_mesh c') then fst acc
    else add_issue (co_id c) (StrCat [kind; named m (co_name c) (co_id c); suffix]) (fst acc) in
  if skip && negb (meshed (co_mesh c')) then Ok (not_meshed, snd acc)
  else
    let r := vertices_not_associated m (mkCID t (co_id c)) (nb_vertices (co_mesh c)) in
    if N.eqb (nb_issues r) 0 then Ok (not_meshed, snd acc)
    else Ok (not_meshed, add_issues_to_map (co_id c)
               (set_description (StrCat [kind; named m (co_name c) (co_id c)]) r) (snd acc)).
Definition inspect_components {M} get kind suffix t (meshed : M -> bool) nb_vertices skip (m : Model)
    (l : list (Component M)) (not_meshed not_linked : string) :
    outcome (InspectionIssues uuid * InspectionIssuesMap nat) :=
  foldM (inspect_component get kind suffix t meshed nb_vertices skip m) (active l)
    (new_issues not_meshed, new_issues_map not_linked).

(** [if (const auto message = check(uv)) result.x.add_issue(uv, message.value());] for several checks in a row *)
Fixpoint report_vertex (checks : list (nat -> outcome (option string))) (uv : nat)
    (rs : list (InspectionIssues nat)) : outcome (list (InspectionIssues nat)) :=
  match checks, rs with
  | check :: checks', r :: rs' =>
    let! p := check uv in
    let r := match p with Some message => add_issue uv message r | None => r end in
    let! rs' := report_vertex checks' uv rs' in
    Ok (r :: rs')
  | _, _ => Ok rs
  end.
(** ... for every unique vertex *)
Definition report_vertices (m : Model) (checks : list (nat -> outcome (option string))) (descriptions : list string) :
    outcome (list (InspectionIssues nat)) :=
  foldM (fun rs uv => report_vertex checks uv rs) (Range (nb_unique_vertices m)) (map new_issues descriptions).

(** component_is_meshed: brep/section_corners_topology.cpp:153-157, section_lines:141-145, section_surfaces:119-125,
    and the BRep versions *)
Definition corner_is_meshed (p : PointSet) : bool := negb (Nat.eqb (List.length (ps_points p)) 0).
Definition line_is_meshed (e : EdgedCurve) : bool :=
  negb (Nat.eqb (List.length (ec_points e)) 0) && negb (Nat.eqb (List.length (ec_edges e)) 0).
Definition surface_is_meshed (s : SurfaceMesh) : bool :=
  negb (Nat.eqb (List.length (sm_points s)) 0) && negb (Nat.eqb (nb_polygons s) 0).
Definition block_is_meshed (s : SolidMesh) : bool :=
  negb (Nat.eqb (List.length (so_points s)) 0) && negb (Nat.eqb (nb_polyhedra s) 0).

(** ** Links between unique vertices and component mesh vertices: section_topology.cpp, brep_topology.cpp *)

(** section_topology.cpp:200-233 *)
Definition in_mesh {M} (nb_vertices : M -> nat) (l : list (Component M)) (c : ComponentMeshVertex) : bool :=
  match find_component (cmv_id c) l with
  | Some k => Nat.ltb (cmv_vertex c) (nb_vertices (co_mesh k))
  | None => false
  end.
Definition cmv_exists_in_section (m : Model) (c : ComponentMeshVertex) : bool :=
  match cmv_type c with
  | CornerT => in_mesh (fun p => List.length (ps_points p)) (m_corners m) c
  | LineT => in_mesh (fun p => List.length (ec_points p)) (m_lines m) c
  | SurfaceT => in_mesh (fun p => List.length (sm_points p)) (m_surfaces m) c
  | _ => false
  end.
(** brep_topology.cpp:208-251 *)
Definition cmv_exists_in_brep (m : Model) (c : ComponentMeshVertex) : bool :=
  match cmv_type c with
  | BlockT => in_mesh (fun p => List.length (so_points p)) (m_blocks m) c
  | _ => cmv_exists_in_section m c
  end.

(** section_topology.cpp:87-88 and 127-128 (brep_topology.cpp:88-94 and 130-137): active and not linked back *)
Definition linked_elsewhere (m : Model) (uv : nat) (c : ComponentMeshVertex) : outcome bool :=
  let! a := component_is_active m (cmv_id c) in
  Ok (a && negb (opt_eqb (m_unique_vertex m c) (Some uv))).

(** section_topology.cpp:81-92: the inner loop; [cmv_exists] is the function above for the model class *)
Fixpoint cmvs_are_right (m : Model) (cmv_exists : Model -> ComponentMeshVertex -> bool) (uv : nat)
    (cmvs : list ComponentMeshVertex) : outcome bool :=
  match cmvs with
  | [] => Ok true
  | c :: cs =>
    if negb (cmv_exists m c) then Ok false
    else let! e := linked_elsewhere m uv c in
         if e then Ok false else cmvs_are_right m cmv_exists uv cs
  end.
(** section_topology.cpp:69-95, brep_topology.cpp:72-98 *)
Definition unique_vertices_are_bijectively_linked (m : Model) cmv_exists : outcome bool :=
  let! bad := anyM (fun uv =>
      match component_mesh_vertices m uv with
      | [] => Ok true
      | cmvs => let! r := cmvs_are_right m cmv_exists uv cmvs in Ok (negb r)
      end) (Range (nb_unique_vertices m)) in
  Ok (negb bad).

(** the three issue lists of section_topology.hpp:46-56, brep_topology.hpp *)
Record LinkIssues := mkLinks {
  li_not_linked : InspectionIssues nat;
  li_inexistant : InspectionIssues nat;
  li_nonbijective : InspectionIssues nat }.
Definition no_links : LinkIssues :=
  mkLinks (new_issues "unique vertices not linked to Component")
          (new_issues "unique vertices linked to inexistant Component mesh vertex")
          (new_issues "unique vertices with non-bijective links to Component mesh vertex").
(** section_topology.cpp:97-137, brep_topology.cpp:100-140 *)
Definition add_wrong_cmv_link (m : Model) (cmv_exists : Model -> ComponentMeshVertex -> bool) (uv : nat)
    (r : LinkIssues) (c : ComponentMeshVertex) : outcome LinkIssues :=
  let message := StrCat ["unique vertex "; str uv; " is linked to inexistant mesh vertex ["; m_cmv_string m c; "]."] in
  if negb (cmv_exists m c) then Ok (mkLinks (li_not_linked r) (add_issue uv message (li_inexistant r)) (li_nonbijective r))
  else let! e := linked_elsewhere m uv c in
       if e then Ok (mkLinks (li_not_linked r) (li_inexistant r) (add_issue uv message (li_nonbijective r)))
       else Ok r.
Definition add_unique_vertices_with_wrong_cmv_link (m : Model) cmv_exists (r : LinkIssues) : outcome LinkIssues :=
  foldM (fun r uv =>
      match component_mesh_vertices m uv with
      | [] => Ok (mkLinks (add_issue uv (StrCat ["unique vertex "; str uv; " is not linked to any mesh vertex."])
                            (li_not_linked r)) (li_inexistant r) (li_nonbijective r))
      | cmvs => foldM (add_wrong_cmv_link m cmv_exists uv) cmvs r
      end) (Range (nb_unique_vertices m)) r.

(** section_topology.cpp:235-269, one of its loops: every meshed active component is entirely linked *)
Definition meshed_components_are_linked {M} (t : ComponentType) (meshed : M -> bool) (nb_vertices : M -> nat)
    (m : Model) (l : list (Component M)) : bool :=
  forallb (fun c => negb (meshed (co_mesh c)
                          && negb (vertices_are_associated m (mkCID t (co_id c)) (nb_vertices (co_mesh c)))))
    (active l).
Definition section_meshed_components_are_linked (m : Model) : bool :=
  meshed_components_are_linked CornerT corner_is_meshed (fun p => List.length (ps_points p)) m (m_corners m)
  && meshed_components_are_linked LineT line_is_meshed (fun p => List.length (ec_points p)) m (m_lines m)
  && meshed_components_are_linked SurfaceT surface_is_meshed (fun p => List.length (sm_points p)) m (m_surfaces m).

(** ** Corners, code common to Section and BRep *)

(** the loop of section_corners_topology.cpp:172-188 and brep_corners_topology.cpp:160-176 *)
Fixpoint second_active_corner (m : Model) (found : bool) (cmvs : list ComponentMeshVertex) : outcome bool :=
  match cmvs with
  | [] => Ok false
  | c :: cs =>
    let! a := is_active_of m CornerT c in
    if negb a then second_active_corner m found cs
    else if found then Ok true else second_active_corner m true cs
  end.
(** section_corners_topology.cpp:168-189, brep_corners_topology.cpp:156-177 *)
Definition unique_vertex_has_multiple_corners (m : Model) (uv : nat) : outcome (option string) :=
  let! r := second_active_corner m false (component_mesh_vertices m uv) in
  Ok (if r then Some (StrCat ["unique vertex "; str uv; " is part of several Corners."]) else None).
(** section_corners_topology.cpp:214-236, brep_corners_topology.cpp:211-233 *)
Definition corner_is_not_internal_nor_boundary (m : Model) (uv : nat) : outcome (option string) :=
  first_some (fun c =>
    let! a := is_active_of m CornerT c in
    if a && (Nat.ltb (nb_embeddings m (cmv_id c)) 1 && Nat.ltb (nb_incidences m (cmv_id c)) 1) then
      let! n := kind_named m CornerT (cmv_id c) in
      Ok (Some (StrCat ["unique vertex "; str uv; " is associated to Corner "; n;
                        ", which is neither internal nor boundary."]))
    else Ok None) (component_mesh_vertices m uv).

(** ** section_corners_topology.cpp *)

(** 191-212 *)
Definition corner_has_multiple_embeddings (m : Model) (uv : nat) : outcome (option string) :=
  first_some (fun c =>
    let! a := is_active_of m CornerT c in
    if a && Nat.ltb 1 (nb_embeddings m (cmv_id c)) then
      let! n := kind_named m CornerT (cmv_id c) in
      Ok (Some (StrCat ["unique vertex "; str uv; " is associated to Corner"; n; ", which has several embeddings."]))
    else Ok None) (component_mesh_vertices m uv).
(** 238-277 *)
Definition section_corner_is_part_of_line_but_not_boundary (m : Model) (uv : nat) : outcome (option string) :=
  first_some (fun c =>
    let! a := is_active_of m CornerT c in
    if negb a then Ok None
    else first_some (fun line =>
      if negb (of_type LineT line) then Ok None
      else if negb (is_boundary m (cmv_id c) (cmv_id line)) then
        let! n := kind_named m CornerT (cmv_id c) in
        let! n' := kind_named m LineT (cmv_id line) in
        Ok (Some (StrCat ["unique vertex "; str uv; " is associated with Corner "; n; ", part of Line "; n';
                          ", but is not a boundary of the Line."]))
      else Ok None) (component_mesh_vertices m uv)) (component_mesh_vertices m uv).
(** 102-151; the two nested loops, [corner_found] is the flag *)
Fixpoint section_corner_loop (m : Model) (all : list ComponentMeshVertex) (found : bool)
    (cmvs : list ComponentMeshVertex) : outcome bool :=
  match cmvs with
  | [] => Ok true
  | c :: cs =>
    let! a := is_active_of m CornerT c in
    if negb a then section_corner_loop m all found cs
    else if found then Ok false
    else if Nat.ltb 1 (nb_embeddings m (cmv_id c)) then Ok false
    else if (if negb (Nat.eqb (nb_embeddings m (cmv_id c)) 1) then Nat.ltb (nb_incidences m (cmv_id c)) 1
             else Nat.ltb 1 (nb_incidences m (cmv_id c))) then Ok false
    else if existsb (fun line => of_type LineT line && negb (is_boundary m (cmv_id c) (cmv_id line))) all then Ok false
    else section_corner_loop m all true cs
  end.
Definition section_corner_topology_is_valid (m : Model) (uv : nat) : outcome bool :=
  section_corner_loop m (component_mesh_vertices m uv) false (component_mesh_vertices m uv).

(** section_corners_topology.hpp: the result *)
Record CornersTopology := mkCornersTopology {
  ct_not_meshed : InspectionIssues uuid;
  ct_not_linked : InspectionIssuesMap nat;
  ct_multiple_corners : InspectionIssues nat;
  ct_multiple_embeddings : InspectionIssues nat;
  ct_not_internal_nor_boundary : InspectionIssues nat;
  ct_not_boundary_line : InspectionIssues nat }.
Definition corners_not_meshed_d := "Corners without mesh (uuids listed)".
Definition corners_not_linked_d := "Corners containing mesh vertices not linked to unique vertices".
Definition section_corners_ds : list string :=
  ["unique vertices shared by several Corners"; "unique vertices linked to a Corner with several embeddings";
   "unique vertices linked to a Corner with neither boundary nor internal status";
   "unique vertices linked to a Line's Corner without boundary status"].
Definition make_corners (cs : InspectionIssues uuid * InspectionIssuesMap nat) (rs : list (InspectionIssues nat)) :
    outcome CornersTopology :=
  match rs with
  | [a; b; c; d] => Ok (mkCornersTopology (fst cs) (snd cs) a b c d)
  | _ => UB    (* never: one result per check *)
  end.
Definition section_corners_default : CornersTopology :=
  mkCornersTopology (new_issues corners_not_meshed_d) (new_issues_map corners_not_linked_d)
    (new_issues (nth 0 section_corners_ds "")) (new_issues (nth 1 section_corners_ds ""))
    (new_issues (nth 2 section_corners_ds "")) (new_issues (nth 3 section_corners_ds "")).
(** 279-336 *)
Definition section_inspect_corners_topology (m : Model) : outcome CornersTopology :=
  let! cs := inspect_components get_corner "Corner " " is not meshed" CornerT corner_is_meshed
               (fun p => List.length (ps_points p)) true m (m_corners m) corners_not_meshed_d corners_not_linked_d in
  let! rs := report_vertices m [unique_vertex_has_multiple_corners m; corner_has_multiple_embeddings m;
               corner_is_not_internal_nor_boundary m; section_corner_is_part_of_line_but_not_boundary m]
               section_corners_ds in
  make_corners cs rs.

(** ** section_lines_topology.cpp *)

(** 155-180 *)
Definition section_line_wrong_relationships (m : Model) (uv : nat) : outcome (option string) :=
  first_some (fun c =>
    let! a := is_active_of m LineT c in
    if a && (Nat.ltb (nb_embeddings m (cmv_id c)) 1 && Nat.ltb (nb_incidences m (cmv_id c)) 1) then
      let! n := kind_named m LineT (cmv_id c) in
      Ok (Some (StrCat ["unique vertex "; str uv; " is part of Line "; n; ", which is neither embedded nor incident."]))
    else Ok None) (component_mesh_vertices m uv).
(** 218-246: the loop over embeddings of one line; line 237 prints the ComponentID of the line, not its uuid *)
Definition section_embedding_check (m : Model) (uv : nat) (line : uuid) (e : ComponentID) : outcome (option string) :=
  let! a := kind_is_active m SurfaceT (cid_id e) in
  if negb a then Ok None
  else if section_surfaces_are_meshed m
          && negb (existsb (fun c => Nat.eqb (cmv_id c) (cid_id e)) (component_mesh_vertices m uv)) then
    let! n := kind_title m LineT line in
    let! n' := kind_named m SurfaceT (cid_id e) in
    Ok (Some (StrCat ["unique vertex "; str uv; " is part of Line "; n; " ("; m_cid_string m (mkCID LineT line);
                      "), which is embedded in surface "; n';
                      ", but the unique vertex is not linked to the Surface mesh vertices."]))
  else Ok None.
(** 182-249; a line without embeddings ends the whole check ([return std::nullopt]) *)
Fixpoint section_embedded_loop (m : Model) (uv : nat) (cmvs : list ComponentMeshVertex) : outcome (option string) :=
  match cmvs with
  | [] => Ok None
  | c :: cs =>
    let! a := is_active_of m LineT c in
    if negb a then section_embedded_loop m uv cs
    else if Nat.ltb (nb_embeddings m (cmv_id c)) 1 then Ok None
    else if Nat.ltb 1 (nb_embeddings m (cmv_id c)) then
      let! n := kind_named m LineT (cmv_id c) in
      Ok (Some (StrCat ["unique vertex "; str uv; " is part of line "; n; ", which has multiple embeddings."]))
    else if Nat.ltb 0 (nb_incidences m (cmv_id c)) then
      let! n := kind_named m LineT (cmv_id c) in
      Ok (Some (StrCat ["unique vertex "; str uv; " is part of Line "; n;
                        ", which has both an embedding and incidence(s)."]))
    else
      let! r := first_some (section_embedding_check m uv (cmv_id c)) (embeddings m (cmv_id c)) in
      match r with
      | Some s => Ok (Some s)
      | None => section_embedded_loop m uv cs
      end
  end.
Definition section_invalid_embedded_line (m : Model) (uv : nat) : outcome (option string) :=
  section_embedded_loop m uv (component_mesh_vertices m uv).
(** 251-313 *)
Definition section_invalid_single_line (m : Model) (uv : nat) : outcome (option string) :=
  match components_uuids m uv LineT with
  | [line_id] =>
    let! a := kind_is_active m LineT line_id in
    if negb a then Ok None
    else
      let surface_uuids := components_uuids m uv SurfaceT in
      if Nat.ltb 2 (List.length surface_uuids) then
        let! n := kind_named m LineT line_id in
        Ok (Some (StrCat ["unique vertex "; str uv; " is part of only one Line "; n;
                          ", but part of more than two Surfaces"]))
      else if Nat.ltb 0 (nb_embeddings m line_id) then
        if section_surfaces_are_meshed m
           && match surface_uuids with
              | [s] => negb (is_internal m line_id s)
              | _ => true
              end then
          let! n := kind_named m LineT line_id in
          Ok (Some (StrCat ["unique vertex "; str uv; " is part of only one Line "; n;
            ", which has embeddings, but there are more than one meshed Surface associated to the vertex, or ";
            "the Line is not internal to the meshed Surface associated to the vertex."]))
        else Ok None
      else
        first_some (fun s =>
          if negb (is_boundary m line_id s) then
            let! n := kind_named m LineT line_id in
            let! n' := kind_named m SurfaceT s in
            Ok (Some (StrCat ["unique vertex "; str uv; " is part of only one Line "; n;
              ", and mutiple Surfaces, but the Line is not boundary of associated Surface "; n']))
          else Ok None) surface_uuids
  | _ => Ok None
  end.
(** 319-334: the counter and the flag of the loop (also brep_lines_topology.cpp:420-445) *)
Fixpoint count_lines_and_corner (m : Model) (cmvs : list ComponentMeshVertex) (nb : N) (corner : bool) :
    outcome (N * bool) :=
  match cmvs with
  | [] => Ok (nb, corner)
  | c :: cs =>
    let! a := is_active_of m LineT c in
    if a then count_lines_and_corner m cs (add32 nb 1) corner
    else count_lines_and_corner m cs nb (corner || of_type CornerT c)
  end.
(** 315-341 *)
Definition section_lines_but_not_corner (m : Model) (uv : nat) : outcome (option string) :=
  let! nc := count_lines_and_corner m (component_mesh_vertices m uv) 0 false in
  Ok (if N.ltb 1 (fst nc) && negb (snd nc)
      then Some (StrCat ["unique vertex "; str uv; " is part of multiple Lines but is not a Corner."]) else None).
Definition is_none {A} (o : option A) : bool := match o with Some _ => false | None => true end.
(** [return false] as soon as one of the checks finds something: evaluated in order *)
Fixpoint all_pass (checks : list (nat -> outcome (option string))) (uv : nat) : outcome bool :=
  match checks with
  | [] => Ok true
  | check :: checks' => let! r := check uv in if is_none r then all_pass checks' uv else Ok false
  end.
(** 112-139 *)
Definition section_lines_topology_is_valid (m : Model) (uv : nat) : outcome bool :=
  let! is_a_line := anyM (is_active_of m LineT) (component_mesh_vertices m uv) in
  if negb is_a_line then Ok true
  else all_pass [section_line_wrong_relationships m; section_invalid_embedded_line m; section_invalid_single_line m;
                 section_lines_but_not_corner m] uv.

(** section_lines_topology.hpp *)
Record SectionLinesTopology := mkSectionLines {
  sl_not_meshed : InspectionIssues uuid;
  sl_not_linked : InspectionIssuesMap nat;
  sl_wrong_relationship : InspectionIssues nat;
  sl_invalid_embeddings : InspectionIssues nat;
  sl_single_invalid : InspectionIssues nat;
  sl_several_not_corner : InspectionIssues nat }.
Definition lines_not_meshed_d := "Lines without mesh (uuids listed)".
Definition lines_not_linked_d := "Lines with mesh vertices not linked to a unique vertex".
Definition section_lines_ds : list string :=
  ["unique vertices linked to a Line incorrectly linked to a surface";
   "unique vertices linked to a Line with invalid internal topology";
   "unique vertices linked to a single invalid Line";
   "unique vertices linked to multiple Lines but not to a Corner"].
Definition section_lines_default : SectionLinesTopology :=
  mkSectionLines (new_issues lines_not_meshed_d) (new_issues_map lines_not_linked_d)
    (new_issues (nth 0 section_lines_ds "")) (new_issues (nth 1 section_lines_ds ""))
    (new_issues (nth 2 section_lines_ds "")) (new_issues (nth 3 section_lines_ds "")).
(** 343-404 *)
Definition section_inspect_lines_topology (m : Model) : outcome SectionLinesTopology :=
  let! cs := inspect_components get_line "Line " " is not meshed" LineT line_is_meshed
               (fun p => List.length (ec_points p)) false m (m_lines m) lines_not_meshed_d lines_not_linked_d in
  let! rs := report_vertices m [section_line_wrong_relationships m; section_invalid_embedded_line m;
               section_invalid_single_line m; section_lines_but_not_corner m] section_lines_ds in
  match rs with
  | [a; b; c; d] => Ok (mkSectionLines (fst cs) (snd cs) a b c d)
  | _ => UB
  end.

(** ** section_surfaces_topology.cpp *)

(** 136-166 *)
Definition section_invalid_embedded_surface (m : Model) (uv : nat) : outcome (option string) :=
  match components_uuids m uv SurfaceT with
  | [s0; s1] =>
    if existsb (fun c => of_type LineT c && (is_boundary m (cmv_id c) s0 && is_boundary m (cmv_id c) s1))
         (component_mesh_vertices m uv) then Ok None
    else Ok (Some (StrCat ["unique vertex "; str uv;
           " is part of two Surfaces, but is associated to no Line boundary of the two Surfaces."]))
  | _ => Ok None
  end.
(** 168-210 *)
Definition section_line_not_on_surface_border (m : Model) (uv : nat) : outcome (option string) :=
  if negb (section_surfaces_are_meshed m) then Ok None
  else first_some (fun line =>
    let! a := is_active_of m LineT line in
    if negb a then Ok None
    else first_some (fun c =>
      let! b := is_active_of m SurfaceT c in
      if negb b then Ok None
      else
        let! s := get_surface m (cmv_id c) in
        if negb (sm_vertex_on_border (co_mesh s) (cmv_vertex c)) then
          let! n := kind_named m SurfaceT (cmv_id c) in
          Ok (Some (StrCat ["Unique vertex "; str uv; " is part of a Line and of Surface "; n;
            " but the associated vertex in the Surface mesh is not on the mesh border."]))
        else Ok None) (component_mesh_vertices m uv)) (component_mesh_vertices m uv).
(** 97-117: for every active surface vertex the same two checks are evaluated *)
Fixpoint section_surfaces_loop (m : Model) (uv : nat) (cmvs : list ComponentMeshVertex) : outcome bool :=
  match cmvs with
  | [] => Ok true
  | c :: cs =>
    let! a := is_active_of m SurfaceT c in
    if negb a then section_surfaces_loop m uv cs
    else let! r := all_pass [section_invalid_embedded_surface m; section_line_not_on_surface_border m] uv in
         if negb r then Ok false else section_surfaces_loop m uv cs
  end.
Definition section_vertex_surfaces_topology_is_valid (m : Model) (uv : nat) : outcome bool :=
  section_surfaces_loop m uv (component_mesh_vertices m uv).

(** section_surfaces_topology.hpp *)
Record SectionSurfacesTopology := mkSectionSurfaces {
  ss_not_meshed : InspectionIssues uuid;
  ss_not_linked : InspectionIssuesMap nat;
  ss_invalid_embeddings : InspectionIssues nat;
  ss_not_on_border : InspectionIssues nat }.
Definition surfaces_not_meshed_d := "Surfaces without mesh (uuids listed)".
Definition surfaces_not_linked_d := "Surfaces containing mesh vertices not linked to unique vertices".
Definition section_surfaces_ds : list string :=
  ["unique vertices linked to a Surface with invalid internal topology";
   "unique vertices linked to a Line but not to a Surface border"].
Definition section_surfaces_default : SectionSurfacesTopology :=
  mkSectionSurfaces (new_issues surfaces_not_meshed_d) (new_issues_map surfaces_not_linked_d)
    (new_issues (nth 0 section_surfaces_ds "")) (new_issues (nth 1 section_surfaces_ds "")).
(** 212-261 *)
Definition section_inspect_surfaces (m : Model) : outcome SectionSurfacesTopology :=
  let! cs := inspect_components get_surface "Surface " " is not meshed" SurfaceT surface_is_meshed
               (fun p => List.length (sm_points p)) false m (m_surfaces m) surfaces_not_meshed_d surfaces_not_linked_d in
  let! rs := report_vertices m [section_invalid_embedded_surface m; section_line_not_on_surface_border m]
               section_surfaces_ds in
  match rs with
  | [a; b] => Ok (mkSectionSurfaces (fst cs) (snd cs) a b)
  | _ => UB
  end.

(** ** section_topology.cpp *)

(** The end of [async::parallel_invoke] inside [try { } catch (OpenGeodeException&) { }]: every task has run; the
    exception of the first (leftmost) raising task is the one rethrown by the library, and swallowed if it is an
    OpenGeode one.  [status] are the endings of the tasks, in argument order. *)
Definition status {A} (o : outcome A) : outcome unit := let! _ := o in Ok tt.
Fixpoint parallel_invoke_caught (l : list (outcome unit)) : outcome unit :=
  match l with
  | [] => Ok tt
  | UB :: _ => UB
  | Ok _ :: l' => parallel_invoke_caught l'
  | Throw e :: l' =>
    if existsb (fun o => match o with UB => true | _ => false end) l' then UB
    else match e with OpenGeodeExn => Ok tt | OtherExn => Throw OtherExn end
  end.
(** [result.x = task()]: a task that throws leaves the default value *)
Definition assigned {A} (default : A) (o : outcome A) : A := match o with Ok a => a | _ => default end.

Record SectionTopology := mkSectionTopology {
  st_corners : CornersTopology;
  st_lines : SectionLinesTopology;
  st_surfaces : SectionSurfacesTopology;
  st_links : LinkIssues }.
(** 172-197 *)
Definition inspect_section_topology (m : Model) : outcome SectionTopology :=
  let corners := section_inspect_corners_topology m in
  let lines := section_inspect_lines_topology m in
  let surfaces := section_inspect_surfaces m in
  let! _ := parallel_invoke_caught [status corners; status lines; status surfaces] in
  let! links := add_unique_vertices_with_wrong_cmv_link m cmv_exists_in_section no_links in
  Ok (mkSectionTopology (assigned section_corners_default corners) (assigned section_lines_default lines)
        (assigned section_surfaces_default surfaces) links).

(** [for (uv) if (!a(uv) || !b(uv) ...) return false; return true;] *)
Fixpoint allM {A} (l : list (A -> outcome bool)) (x : A) : outcome bool :=
  match l with
  | [] => Ok true
  | p :: l' => let! b := p x in if b then allM l' x else Ok false
  end.
Definition every_vertex (m : Model) (ps : list (nat -> outcome bool)) : outcome bool :=
  let! bad := anyM (fun uv => let! b := allM ps uv in Ok (negb b)) (Range (nb_unique_vertices m)) in
  Ok (negb bad).
(** 139-170 *)
Definition section_topology_is_valid (m : Model) : outcome bool :=
  if Nat.eqb (nb_unique_vertices m) 0 then Ok false
  else if negb (section_meshed_components_are_linked m) then Ok false
  else
    let! b := unique_vertices_are_bijectively_linked m cmv_exists_in_section in
    if negb b then Ok false
    else every_vertex m [section_corner_topology_is_valid m; section_lines_topology_is_valid m;
                         section_vertex_surfaces_topology_is_valid m].
