(** The same model described differently (C83): its components are stored in another order, then get other identifiers, then its
    unique vertices get other numbers. *)
From Coq Require Import String Ascii List Arith NArith ZArith Bool Permutation.
From Verif Require Import Base Model_Issues Types Model_Degeneration Model_Intersections Model_Manifold Model_Topology Model_BRep Model_Blocks Model_Results
  Spec_Colocation Spec_Renumber Spec_Order Spec_Rename Spec_Relabel.
Import ListNotations.
Local Open Scope string_scope.

(** a model with the searches of OpenGeode on it, and the box trees of its surfaces and of its lines *)
Record Described := mkDescribed { d_model : Model; d_searches : Oracles; d_trees : Trees; d_lines : LineTrees }.
(** [m1] and [m2] are the models in between; the searches find the same elements; the search of colocated points depends on points only *)
Definition same_object_by (f g : uuid -> uuid) (h : nat -> nat) (m1 m2 : Model) (a b : Described) : Prop :=
  reordered (d_model a) m1 /\ one_to_one f g /\ renamed f m1 m2 /\ relabelled h m2 (d_model b) /\
  (exists o, renamed_searches f (d_searches a) o /\ relabelled_searches h m2 (d_model b) o (d_searches b)) /\
  blind_to_labels (or_geometry (d_searches a)) h m2 (d_model b) /\
  renamed_trees f (d_trees a) (d_trees b) /\ renamed_line_trees f (d_lines a) (d_lines b).
Definition same_object (a b : Described) : Prop := exists f g h m1 m2, same_object_by f g h m1 m2 a b.

(** Reports with the same contents: the entries of [r] in another order, under the new identifiers, with the new numbers. *)
Definition same_section_report (f : uuid -> uuid) (h : nat -> nat) (r r' : SectionResult) : Prop :=
  exists r1 r2, reordered_section r r1 /\
    renamed_section_meshes f (r_section_meshes r1) (r_section_meshes r2) /\ renamed_section_topology f (r_section_topology r1) (r_section_topology r2) /\
    relabelled_section_meshes h (r_section_meshes r2) (r_section_meshes r') /\ relabelled_section_topology h (r_section_topology r2) (r_section_topology r').
Definition same_brep_report (f : uuid -> uuid) (h : nat -> nat) (r r' : BRepResult) : Prop :=
  exists r1 r2, reordered_brep r r1 /\
    renamed_brep_meshes f (r_brep_meshes r1) (r_brep_meshes r2) /\ renamed_brep_topology f (r_brep_topology r1) (r_brep_topology r2) /\
    relabelled_brep_meshes h (r_brep_meshes r2) (r_brep_meshes r') /\ relabelled_brep_topology h (r_brep_topology r2) (r_brep_topology r').
