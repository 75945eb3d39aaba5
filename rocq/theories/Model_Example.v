(** Model of the example program examples/model_inspection.py, and of the class of the Python module it uses.
    Simplifications: importing the modules and loading the file succeed (lines 1-4, 291-293); a Python object is what its methods do when
    they are called without argument; [print(a, b, c)] writes the texts of its arguments separated by one space; how Python writes a value
    other than a number is a parameter. *)
From Coq Require Import String Ascii List Arith NArith ZArith Bool.
From Verif Require Import Base Model_Hash Model_Issues Types Model_Degeneration Model_Intersections Model_Topology Model_BRep Model_Blocks Model_Results Model_Python.
Import ListNotations.
Local Open Scope string_scope.
Local Open Scope list_scope.

(** the values that methods of inspectors return *)
Inductive PyValue := PyBool (b : bool) | PyNumber (n : nat) | PyIndices (l : list nat) | PyReport (o : PyObject).
(** [object.name()]; [None] is AttributeError: the class has no such method *)
Definition PyMethods := string -> option (outcome PyValue).
Inductive PyEnd := Finished | AttributeError (name : string) | TypeError | Raised (x : exn) | Undefined.
Record PyRun := mkRun { printed : list string; ended : PyEnd }.

(** bindings/python/src/inspection/topology/brep_topology.hpp:173-183: the three methods of BRepTopologyInspector *)
Definition topology_inspector (tl : TopoLookup) (ho : HashOrder) (m : Model) : PyMethods := fun name =>
  if String.eqb name "brep_topology_is_valid" then Some (let! b := brep_topology_is_valid tl m in Ok (PyBool b))
  else if String.eqb name "brep_unique_vertices_are_bijectively_linked_to_an_existing_component_vertex" then
    Some (let! b := unique_vertices_are_bijectively_linked m cmv_exists_in_brep in Ok (PyBool b))
  else if String.eqb name "inspect_brep_topology" then Some (let! r := inspect_brep_topology tl m in Ok (PyReport (py_brep_topology ho r)))
  else None.

(** the three kinds of statements of the program *)
Inductive PyStatement :=
| Verdict (method yes no : string)      (* if inspector.method(): print(yes) else: print(no) *)
| Count (method after : string)         (* n = inspector.method(); print("There are ", n, after) *)
| Listing (method after each : string). (* l = inspector.method(); print("There are ", len(l), after); for v in l: print("Model ... ", v, each) *)

Section Run.
Context (shown : PyValue -> string) (inspector : PyMethods).
(** what [print] makes of three arguments *)
Definition print3 (a b c : string) : string := StrCat [a; " "; b; " "; c].
Definition py_text (v : PyValue) : string := match v with PyNumber n => str n | _ => shown v end.
(** truth value testing; an object without special methods is true *)
Definition py_true (v : PyValue) : bool :=
  match v with PyBool b => b | PyNumber n => negb (Nat.eqb n 0) | PyIndices l => match l with [] => false | _ => true end | PyReport _ => true end.
Definition py_call (method : string) (next : PyValue -> PyRun) : PyRun :=
  match inspector method with
  | None => mkRun [] (AttributeError method)
  | Some (Throw x) => mkRun [] (Raised x)
  | Some UB => mkRun [] Undefined
  | Some (Ok v) => next v
  end.
(** lines 294-297; 8-17; 21-34 and the functions like it *)
Definition run_statement (s : PyStatement) : PyRun :=
  match s with
  | Verdict method yes no => py_call method (fun v => mkRun [if py_true v then yes else no] Finished)
  | Count method after => py_call method (fun v => mkRun [print3 "There are " (py_text v) after] Finished)
  | Listing method after each => py_call method (fun v =>
      match v with
      | PyIndices l => mkRun (print3 "There are " (str (List.length l)) after :: map (fun i => print3 "Model unique vertex with index " (str i) each) l) Finished
      | _ => mkRun [] TypeError
      end)
  end.
Fixpoint run_program (program : list PyStatement) : PyRun :=
  match program with
  | [] => mkRun [] Finished
  | s :: rest =>
    let r := run_statement s in
    match ended r with
    | Finished => let r' := run_program rest in mkRun (printed r ++ printed r') (ended r')
    | _ => r
    end
  end.
End Run.

(** lines 7-17 *)
Definition check_components_linking : list PyStatement :=
  [Count "nb_corners_not_linked_to_a_unique_vertex" " corners not linked to a unique vertex.";
   Count "nb_lines_not_linked_to_a_unique_vertex" " lines not linked to a unique vertex.";
   Count "nb_surfaces_not_linked_to_a_unique_vertex" " surfaces not linked to a unique vertex.";
   Count "nb_blocks_not_linked_to_a_unique_vertex" " blocks not linked to a unique vertex."].
(** lines 126-140: defined, never called *)
Definition check_invalid_embeddings : PyStatement :=
  Listing "unique_vertices_linked_to_a_line_with_invalid_embeddings" " vertices part of lines with invalid internal property."
    " is part of a line with invalid internal properties.".
(** lines 143-157 *)
Definition check_single_line : PyStatement :=
  Listing "unique_vertices_linked_to_a_single_and_invalid_line" " vertices part of a unique line with invalid toplogy."
    " is part of a unique line with invalid topological properties.".
(** lines 268-287, with the functions of lines 20-265 *)
Definition launch_topological_validity_checks : list PyStatement :=
  check_components_linking ++
  [Listing "invalid_components_topology_unique_vertices" " vertices with invalid components." " has invalid components.";
   Listing "unique_vertices_linked_to_multiple_corners" " vertices with multiple corners." " is associated to multiple corners.";
   Listing "unique_vertices_linked_to_multiple_internals_corner" " vertices with multiple internals." " is a corner associated with multiple embeddings.";
   Listing "unique_vertices_linked_to_not_internal_nor_boundary_corner" " corner vertices with no boundary nor internal property." " is neither internal nor a boundary.";
   Listing "unique_vertices_linked_to_not_boundary_line_corner" " corner vertices part of a line but not its boundary." " is a corner but has a line for which it is not a boundary.";
   Listing "unique_vertices_linked_to_line_with_wrong_relationship_to_surface" " vertices part of a line which is not boundary not internal."
     " is part of a line which is neither boundary nor internal.";
   check_single_line; check_single_line;
   Listing "unique_vertices_linked_to_several_lines_but_not_linked_to_a_corner" " vertices part of multiple lines but not corner." " is part of multiple lines but is not a corner.";
   Listing "part_of_not_boundary_nor_internal_surface_unique_vertices" " vertices part of a surface which is neither internal nor boundary."
     " is part of a surface which is neither internal nor boundary.";
   Listing "part_of_surface_with_invalid_internal_topology_unique_vertices" " vertices part of a surface with invalid internal topology."
     " is part of a surface with invalid internal topology.";
   Listing "part_of_invalid_unique_surface_unique_vertices" " vertices part of a unique surface with invalid topology." " is part of a unique surface with invalid topology.";
   Listing "part_of_invalid_multiple_surfaces_unique_vertices" " vertices part of invalid multiple surfaces." " is part of invalid multiple surfaces.";
   Listing "part_of_invalid_blocks_unique_vertices" " vertices with invalid block topology." " has invalid blocks topology."].
(** lines 290-299 *)
Definition example_program : list PyStatement :=
  Verdict "brep_topology_is_valid" "Model topology is valid." "Model topology is invalid." :: launch_topological_validity_checks.
(** the program on a BRep *)
Definition run_example (shown : PyValue -> string) (tl : TopoLookup) (ho : HashOrder) (m : Model) : PyRun :=
  run_program shown (topology_inspector tl ho m) example_program.
