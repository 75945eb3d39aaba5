(** Model of criterion/internal/colocation_impl.cpp, criterion/colocation/*.cpp *)
From Coq Require Import String Ascii List Arith NArith ZArith Bool Lia.
From Verif Require Import Base Model_Issues Types.
Import ListNotations.
Local Open Scope string_scope.

(** [v[i].push_back(x)] on a vector of vectors; out of bounds is undefined behaviour *)
Fixpoint push_at {A} (i : nat) (x : A) (b : list (list A)) : outcome (list (list A)) :=
  match b, i with
  | [], _ => UB
  | l :: b', O => Ok ((l ++ [x])%list :: b')
  | l :: b', S i' => let! b'' := push_at i' x b' in Ok (l :: b'')
  end.
(** a loop of such insertions into [n] empty buckets *)
Definition bucketize {A} (n : nat) (kvs : list (nat * A)) : outcome (list (list A)) :=
  foldM (fun b kv => push_at (fst kv) (snd kv) b) kvs (repeat [] n).

(** colocation_impl.cpp:80-84, component_meshes_colocation.cpp:121-126: the text " i j k" *)
Definition group_string (g : list nat) : string := StrCat (map (fun i => StrCat [" "; str i]) g).

(** ** colocation_impl.cpp *)

(** colocation_impl.cpp:37-50 mesh_points_colocated_info: the points of the mesh are copied in index order, the
    search itself is the oracle *)
Definition mesh_points_colocated_info (geo : Geometry) (points : list Point) : ColocatedInfo :=
  g_colocated geo points.
(** NNSearch::ColocatedInfo::nb_unique_points / nb_colocated_points (OpenGeode) *)
Definition nb_unique_points (c : ColocatedInfo) : nat := List.length (unique_points c).
Definition nb_colocated_points (c : ColocatedInfo) : N :=
  u32 (Z.to_N ((Z.of_nat (List.length (colocated_mapping c)) - Z.of_nat (nb_unique_points c)) mod 2 ^ 32)%Z).

(** colocation_impl.cpp:52-95 and 118-126 colocated_points_groups, for every mesh kind (pointset_colocation.cpp,
    edgedcurve_colocation.cpp, surface_colocation.cpp, solid_colocation.cpp only forward to it) *)
Definition colocated_points_groups (geo : Geometry) (points : list Point) :
  outcome (InspectionIssues (list nat)) :=
  let info := mesh_points_colocated_info geo points in
  let! buckets := bucketize (nb_unique_points info)
                    (combine (colocated_mapping info) (seq 0 (List.length (colocated_mapping info)))) in
  let groups := filter (fun g : list nat => negb (Nat.ltb (List.length g) 2)) buckets in
  foldM (fun r g =>
           match nth_error (unique_points info) (nth (nth 0 g 0) (colocated_mapping info) 0) with
           | Some p => Ok (add_issue g (StrCat ["vertices "; group_string g;
                         " are colocated at the position ["; g_point_string geo p; "]"]) r)
           | None => UB
           end)
    groups (new_issues "groups of colocated points").

(** colocation_impl.cpp:108-116 *)
Definition mesh_has_colocated_points (geo : Geometry) (points : list Point) : bool :=
  N.ltb 0 (nb_colocated_points (mesh_points_colocated_info geo points)).

(** ** component_meshes_colocation.cpp *)

Fixpoint set_nth {A} (i : nat) (x : A) (l : list A) : list A :=
  match l, i with
  | [], _ => []
  | _ :: l', O => x :: l'
  | y :: l', S i' => y :: set_nth i' x l'
  end.
Definition opt_eqb (a b : option nat) : bool :=
  match a, b with
  | Some x, Some y => Nat.eqb x y
  | None, None => true
  | _, _ => false
  end.

(** component_meshes_colocation.cpp:61-79, one iteration of the outer loop; [uv i] is
    model.unique_vertex({component_id, point_group[i]}) and the marker array is read at [first_id] *)
Definition filter_step (uv : nat -> option nat) (size : nat) (filtered : list bool) (first_id : nat) : list bool :=
  if negb (nth first_id filtered false) then filtered
  else fold_left (fun arr second_id =>
         if opt_eqb (uv first_id) (uv second_id) then set_nth (second_id - 1) false arr else arr)
       (Range2 (first_id + 1) size) filtered.
(** component_meshes_colocation.cpp:59-79 *)
Definition filter_marks (uv : nat -> option nat) (size : nat) : list bool :=
  fold_left (filter_step uv size) (Range (size - 1)) (repeat true (size - 1)).

(** component_meshes_colocation.cpp:57-94, body of the loop over groups; an empty group would allocate a
    FixedArray of size_t(-1) elements *)
Definition filter_group (unique_vertex : nat -> option nat) (group : list nat) : outcome (option (list nat)) :=
  match group with
  | [] => UB
  | first :: _ =>
    let size := List.length group in
    let marks := filter_marks (fun i => unique_vertex (nth i group 0)) size in
    let kept := map (fun pt_id => nth (pt_id + 1) group 0)
                  (filter (fun pt_id => nth pt_id marks false) (Range (List.length marks))) in
    match kept with
    | [] => Ok None
    | _ => Ok (Some (kept ++ [first])%list)
    end
  end.
(** component_meshes_colocation.cpp:48-96 *)
Definition filter_colocated_points_with_same_unique_vertex (m : Model) (c : ComponentID)
    (groups : list (list nat)) : outcome (list (list nat)) :=
  foldM (fun acc group =>
           let! r := filter_group (fun v => m_unique_vertex m (mkCMV c v)) group in
           match r with
           | Some g => Ok (acc ++ [g])%list
           | None => Ok acc
           end) groups [].

(** component_meshes_colocation.cpp:103-139 (lines), 140-176 (surfaces), 194-228 (blocks): body for one component
    of kind [kind], whose mesh has these points *)
Definition add_component_colocated_points (geo : Geometry) (m : Model) (kind : string) (t : ComponentType)
    (points : list Point) (name : option string) (id : uuid)
    (acc : InspectionIssuesMap (list nat)) : outcome (InspectionIssuesMap (list nat)) :=
  let! groups := colocated_points_groups geo points in
  let! colocated_pts := filter_colocated_points_with_same_unique_vertex m (mkCID t id) (ii_issues groups) in
  match colocated_pts with
  | [] => Ok acc
  | _ =>
    let issues := fold_left (fun r g =>
        add_issue g (StrCat [kind; named m name id; " has vertices "; group_string g; " colocated at position [";
                             g_point_string geo (nth (nth 0 g 0) points []); "]"]) r)
      colocated_pts (new_issues (StrCat [kind; named m name id; " colocated vertices"])) in
    Ok (add_issues_to_map id issues acc)
  end.
(** component_meshes_colocation.cpp:98-177 *)
Definition add_lines_surfaces_colocated_points (geo : Geometry) (m : Model)
    (acc : InspectionIssuesMap (list nat)) : outcome (InspectionIssuesMap (list nat)) :=
  let! acc := foldM (fun acc l => add_component_colocated_points geo m "Line " LineT
                        (ec_points (co_mesh l)) (co_name l) (co_id l) acc) (active (m_lines m)) acc in
  foldM (fun acc s => add_component_colocated_points geo m "Surface " SurfaceT
                        (sm_points (co_mesh s)) (co_name s) (co_id s) acc) (active (m_surfaces m)) acc.
(** component_meshes_colocation.cpp:188-229 (BRep); for a Section (179-186) there is no block *)
Definition add_model_components_colocated_points_groups (geo : Geometry) (m : Model)
    (acc : InspectionIssuesMap (list nat)) : outcome (InspectionIssuesMap (list nat)) :=
  let! acc := add_lines_surfaces_colocated_points geo m acc in
  foldM (fun acc b => add_component_colocated_points geo m "Block " BlockT
                        (so_points (co_mesh b)) (co_name b) (co_id b) acc) (active (m_blocks m)) acc.

(** ** unique_vertices_colocation.cpp *)

(** [model.component(id).is_active()]: lookup over all kinds of components *)
Definition component_is_active (m : Model) (id : uuid) : outcome bool :=
  match find_component id (m_corners m) with
  | Some c => Ok (co_active c)
  | None => match find_component id (m_lines m) with
    | Some c => Ok (co_active c)
    | None => match find_component id (m_surfaces m) with
      | Some c => Ok (co_active c)
      | None => match find_component id (m_blocks m) with
        | Some c => Ok (co_active c)
        | None => Throw (m_missing_exn m)
        end
      end
    end
  end.
(** mesh.point(v): out of range is undefined behaviour *)
Definition mesh_point (points : list Point) (v : nat) : outcome Point :=
  match nth_error points v with Some p => Ok p | None => UB end.
(** unique_vertices_colocation.cpp:114-133 and 160-166 (also the accesses of 50-93): position of a component mesh
    vertex; types other than block, line, surface are looked up among the corners *)
Definition model_cmv_point (m : Model) (c : ComponentMeshVertex) : outcome Point :=
  let id := cid_id (cmv_component c) in
  match cid_type (cmv_component c) with
  | BlockT => let! b := get_block m id in mesh_point (so_points (co_mesh b)) (cmv_vertex c)
  | LineT => let! l := get_line m id in mesh_point (ec_points (co_mesh l)) (cmv_vertex c)
  | SurfaceT => let! s := get_surface m id in mesh_point (sm_points (co_mesh s)) (cmv_vertex c)
  | _ => let! k := get_corner m id in mesh_point (ps_points (co_mesh k)) (cmv_vertex c)
  end.
(** unique_vertices_colocation.cpp:95-112 with 50-93 *)
Fixpoint model_cmvs_are_colocated_on_point (geo : Geometry) (m : Model) (cmvs : list ComponentMeshVertex)
    (point : Point) : outcome bool :=
  match cmvs with
  | [] => Ok true
  | c :: cs =>
    let! a := component_is_active m (cid_id (cmv_component c)) in
    if negb a then model_cmvs_are_colocated_on_point geo m cs point
    else let! p := model_cmv_point m c in
         if negb (g_inexact_equal geo point p) then Ok false
         else model_cmvs_are_colocated_on_point geo m cs point
  end.
(** unique_vertices_colocation.cpp:135-170 *)
Fixpoint model_unique_vertex_point (m : Model) (cmvs : list ComponentMeshVertex) : outcome (option Point) :=
  match cmvs with
  | [] => Ok None
  | c :: cs =>
    let! a := component_is_active m (cid_id (cmv_component c)) in
    if negb a then model_unique_vertex_point m cs
    else let! p := model_cmv_point m c in Ok (Some p)
  end.

(** unique_vertices_colocation.cpp:196-220, constructor: the compacted point set and the map from unique vertices to
    its vertices (PointSetBuilder::delete_vertices keeps the others in order and renumbers them consecutively) *)
Record UVColocation := mkUVC {
  uvc_points : list Point;
  uvc_old2new : list (option nat) }.
Definition uvc_add (u : UVColocation) (p : option Point) : UVColocation :=
  match p with
  | Some q => mkUVC (uvc_points u ++ [q]) (uvc_old2new u ++ [Some (List.length (uvc_points u))])
  | None => mkUVC (uvc_points u) (uvc_old2new u ++ [None])
  end.
Definition uvc_create (m : Model) : outcome UVColocation :=
  foldM (fun u uv => let! p := model_unique_vertex_point m (component_mesh_vertices m uv) in Ok (uvc_add u p))
    (Range (nb_unique_vertices m)) (mkUVC [] []).

(** body shared by 224-239 and 256-274: is the unique vertex linked to different points? *)
Definition uv_linked_to_different_points (geo : Geometry) (m : Model) (u : UVColocation) (uv : nat) : outcome bool :=
  match nth uv (uvc_old2new u) None with
  | None => Ok false
  | Some a =>
    let! p := mesh_point (uvc_points u) a in
    let! b := model_cmvs_are_colocated_on_point geo m (component_mesh_vertices m uv) p in
    Ok (negb b)
  end.
(** unique_vertices_colocation.cpp:222-241 *)
Definition model_has_unique_vertices_linked_to_different_points (geo : Geometry) (m : Model) : outcome bool :=
  let! u := uvc_create m in
  anyM (uv_linked_to_different_points geo m u) (Range (nb_unique_vertices m)).
(** unique_vertices_colocation.cpp:253-275 *)
Definition unique_vertices_linked_to_different_points (geo : Geometry) (m : Model)
    (issues : InspectionIssues nat) : outcome (InspectionIssues nat) :=
  let! u := uvc_create m in
  foldM (fun r uv => let! b := uv_linked_to_different_points geo m u uv in
           Ok (if b then add_issue uv (StrCat ["unique vertex "; str uv;
                 " is linked to several mesh vertices on different positions"]) r else r))
    (Range (nb_unique_vertices m)) issues.
(** unique_vertices_colocation.cpp:243-251 *)
Definition model_has_colocated_unique_vertices (geo : Geometry) (m : Model) : outcome bool :=
  let! u := uvc_create m in Ok (mesh_has_colocated_points geo (uvc_points u)).
(** GenericMapping::out2in(active).at(0): first unique vertex mapped to this compacted vertex *)
Definition out2in0 (u : UVColocation) (a : nat) : outcome nat :=
  match find (fun iv => opt_eqb (snd iv) (Some a)) (enum (uvc_old2new u)) with
  | Some (i, _) => Ok i
  | None => Throw OtherExn
  end.
(** sequence of lookups of a group, 289-295 *)
Fixpoint mapM {A B} (f : A -> outcome B) (l : list A) : outcome (list B) :=
  match l with
  | [] => Ok []
  | x :: l' => let! y := f x in let! r := mapM f l' in Ok (y :: r)
  end.
(** unique_vertices_colocation.cpp:277-302 *)
Definition colocated_unique_vertices_groups (geo : Geometry) (m : Model)
    (issues : InspectionIssues (list nat)) : outcome (InspectionIssues (list nat)) :=
  let! u := uvc_create m in
  let! groups := colocated_points_groups geo (uvc_points u) in
  foldM (fun r g => let! fixed := mapM (out2in0 u) g in
           let! p := mesh_point (uvc_points u) (nth 0 g 0) in
           Ok (add_issue fixed (StrCat ["unique vertices "; group_string fixed;
                 " are colocated at the position ["; g_point_string geo p; "]"]) r))
    (ii_issues groups) issues.
