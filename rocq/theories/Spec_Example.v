(** What the example program says of each check, with an inspector that has the methods it calls: the method, and the texts around its answer. *)
From Coq Require Import String Ascii List Arith.
From Verif Require Import Base.
Import ListNotations.
Local Open Scope string_scope.

Definition counting_checks : list (string * string) :=
  map (fun kind => ("nb_" ++ kind ++ "_not_linked_to_a_unique_vertex", " " ++ kind ++ " not linked to a unique vertex."))
    ["corners"; "lines"; "surfaces"; "blocks"].
Definition count_line (check : string * string) (k : nat) : string := "There are  " ++ str k ++ " " ++ snd check.

Definition single_line_check : string * (string * string) :=
  ("unique_vertices_linked_to_a_single_and_invalid_line",
    (" vertices part of a unique line with invalid toplogy.", " is part of a unique line with invalid topological properties.")).
Definition listing_checks : list (string * (string * string)) :=
  [("invalid_components_topology_unique_vertices", (" vertices with invalid components.", " has invalid components."));
   ("unique_vertices_linked_to_multiple_corners", (" vertices with multiple corners.", " is associated to multiple corners."));
   ("unique_vertices_linked_to_multiple_internals_corner", (" vertices with multiple internals.", " is a corner associated with multiple embeddings."));
   ("unique_vertices_linked_to_not_internal_nor_boundary_corner", (" corner vertices with no boundary nor internal property.", " is neither internal nor a boundary."));
   ("unique_vertices_linked_to_not_boundary_line_corner",
     (" corner vertices part of a line but not its boundary.", " is a corner but has a line for which it is not a boundary."));
   ("unique_vertices_linked_to_line_with_wrong_relationship_to_surface",
     (" vertices part of a line which is not boundary not internal.", " is part of a line which is neither boundary nor internal."));
   single_line_check; single_line_check;
   ("unique_vertices_linked_to_several_lines_but_not_linked_to_a_corner", (" vertices part of multiple lines but not corner.", " is part of multiple lines but is not a corner."));
   ("part_of_not_boundary_nor_internal_surface_unique_vertices",
     (" vertices part of a surface which is neither internal nor boundary.", " is part of a surface which is neither internal nor boundary."));
   ("part_of_surface_with_invalid_internal_topology_unique_vertices",
     (" vertices part of a surface with invalid internal topology.", " is part of a surface with invalid internal topology."));
   ("part_of_invalid_unique_surface_unique_vertices", (" vertices part of a unique surface with invalid topology.", " is part of a unique surface with invalid topology."));
   ("part_of_invalid_multiple_surfaces_unique_vertices", (" vertices part of invalid multiple surfaces.", " is part of invalid multiple surfaces."));
   ("part_of_invalid_blocks_unique_vertices", (" vertices with invalid block topology.", " has invalid blocks topology."))].
Definition listing_lines (check : string * (string * string)) (vertices : list nat) : list string :=
  ("There are  " ++ str (List.length vertices) ++ " " ++ fst (snd check)) ::
  map (fun v => "Model unique vertex with index  " ++ str v ++ " " ++ snd (snd check)) vertices.
