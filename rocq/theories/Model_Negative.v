(** Model of criterion/negative_elements/*.cpp *)
From Coq Require Import String Ascii List Arith NArith ZArith Bool Lia Floats.SpecFloat.
From Verif Require Import Base Model_Issues Types.
Import ListNotations.
Local Open Scope string_scope.

(** OpenGeode [mesh.polygon(id)]: the points of the polygon *)
Definition polygon_points (m : SurfaceMesh) (p : nat) : list Point :=
  map (fun v => nth v (sm_points m) []) (polygon_vertices m p).
(** surface_negative_elements.cpp:51-52, 70-71 *)
Definition polygon_is_negative (ms : Measures) (m : SurfaceMesh) (p : nat) : bool := ms_area_negative ms (polygon_points m p).
(** surface_negative_elements.cpp:45-59 *)
Definition surface_has_negative_elements (ms : Measures) (m : SurfaceMesh) : bool :=
  if Nat.eqb (sm_dimension m) 2 then existsb (polygon_is_negative ms m) (Range (nb_polygons m)) else false.
(** surface_negative_elements.cpp:61-79 *)
Definition negative_polygons (ms : Measures) (m : SurfaceMesh) : InspectionIssues nat :=
  let wrong_polygons := new_issues "negative area polygons" in
  if Nat.eqb (sm_dimension m) 2
  then fold_left (fun r p => if polygon_is_negative ms m p then add_issue p (StrCat ["negative polygon "; str p]) r else r)
         (Range (nb_polygons m)) wrong_polygons
  else wrong_polygons.

(** solid_negative_elements.cpp:73-88 *)
Definition polyhedron_has_negative_volume (ms : Measures) (m : SolidMesh) (p : nat) : bool :=
  let vs := ph_vertices (polyhedron m p) in
  let point i := nth (nth i vs 0) (so_points m) [] in
  if Nat.eqb (List.length vs) 4
  then ms_tetra_negative ms (point 0) (point 1) (point 2) (point 3)
  else dlt (so_volume m p) (S754_zero false).
(** solid_negative_elements.cpp:44-54 *)
Definition solid_has_negative_elements (ms : Measures) (m : SolidMesh) : bool :=
  existsb (polyhedron_has_negative_volume ms m) (Range (nb_polyhedra m)).
(** solid_negative_elements.cpp:56-70 *)
Definition negative_polyhedra (ms : Measures) (m : SolidMesh) : InspectionIssues nat :=
  fold_left (fun r p => if polyhedron_has_negative_volume ms m p
                        then add_issue p (StrCat ["negative polyhedron "; str p]) r else r)
    (Range (nb_polyhedra m)) (new_issues "negative volume polyhedra").

(** section_meshes_negative_elements.cpp:63-80 (description: section_meshes_negative_elements.hpp) *)
Definition section_negative_elements (ms : Measures) (m : Model) : InspectionIssuesMap nat :=
  fold_left (fun acc s => add_issues_to_map (co_id s)
      (set_description (StrCat ["Surface "; named m (co_name s) (co_id s); " negative polygons"]) (negative_polygons ms (co_mesh s))) acc)
    (active (m_surfaces m)) (new_issues_map "negative polygons").
(** brep_meshes_negative_elements.cpp:61-78 *)
Definition brep_negative_elements (ms : Measures) (m : Model) : InspectionIssuesMap nat :=
  fold_left (fun acc b => add_issues_to_map (co_id b)
      (set_description (StrCat ["Block "; named m (co_name b) (co_id b); " negative polyhedra"]) (negative_polyhedra ms (co_mesh b))) acc)
    (active (m_blocks m)) (new_issues_map "negative polyhedra").
