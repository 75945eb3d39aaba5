(** What a user sees of the command line programs: the status and the printed texts. *)
From Coq Require Import String List Arith NArith Bool.
From Verif Require Import Base Model_Issues Types Model_Programs Model_Results Spec_Results.
Import ListNotations.
Local Open Scope string_scope.

(** the input factory that reads [file]: the first of the list that knows its extension *)
Definition read_as (w : World) (formats : list Format) (file : string) (f : Format) : Prop :=
  exists before after, formats = (before ++ f :: after)%list /\ w_creates w f (w_extension w file) = true /\
    forall g, In g before -> w_creates w g (w_extension w file) = false.
(** an uncaught exception gives a status that is not 0 *)
Definition errors_are_signalled (w : World) : Prop := forall e, w_lippincott w e <> 0.

Definition line (t : string) : string := t ++ newline.
Definition no_issues (d : string) : string := line ("no issues with " ++ d).
(** ** The text of each program when there is nothing to report *)
Definition clean_point_set : string := no_issues "groups of colocated points".
Definition clean_edged_curve : string := no_issues "groups of colocated points" ++ no_issues "degenerated edges.".
Definition clean_surface (name : string) : string :=
  no_issues ("Surface " ++ name ++ " polygon edges adjacencies issues") ++ no_issues "groups of colocated points" ++ no_issues "degenerated edges" ++
  no_issues "Degenerated Polygons." ++ no_issues "non manifold edges" ++ no_issues "non manifold vertices" ++ no_issues "intersections between polygons" ++
  no_issues "negative area polygons".
Definition clean_solid (name : string) : string :=
  no_issues ("Solid " ++ name ++ " polyhedron facets adjacencies issues") ++ no_issues "groups of colocated points" ++ no_issues "degenerated edges" ++
  no_issues "Degenerated Polyhedra." ++ no_issues "non manifold vertices" ++ no_issues "Non manifold edges" ++ no_issues "non manifold facets" ++
  no_issues "negative volume polyhedra".
Definition clean_surface_curve : string := no_issues "intersections between triangles and edges".
Definition clean_links : string :=
  no_issues "unique vertices not linked to Component" ++ no_issues "unique vertices linked to inexistant Component mesh vertex" ++
  no_issues "unique vertices with non-bijective links to Component mesh vertex".
Definition clean_section : string :=
  no_issues "colocated unique vertices" ++ no_issues "unique vertex refering multiple positions" ++
  line "no issues of colocation in meshes " ++ line "no adjacency issues in model meshes " ++ line "no degeneration issues in model meshes " ++
  no_issues "intersections" ++ line "no manifold issues in model meshes " ++ line "no negative polygons in model meshes" ++
  no_issues "Corners topology " ++ no_issues "Lines topology " ++ no_issues "Surfaces topology " ++ clean_links.
Definition clean_brep : string :=
  no_issues "colocated unique vertices" ++ no_issues "unique vertex refering multiple positions" ++
  line "no issues of colocation in meshes " ++ line "no adjacency issues in model meshes " ++ line "no degeneration issues in model meshes" ++
  no_issues "intersections" ++ line "no manifold issues in model meshes " ++ line "no negative polyhedra in model meshes" ++
  no_issues "Corners topology " ++ no_issues "Lines topology " ++ no_issues "Surfaces topology " ++ no_issues "Blocks topology " ++ clean_links.

(** [t] contains "[n] issues with ..." for some [n >= 1] *)
Definition announces (t : string) : Prop :=
  exists n before after, 1 <= n /\ t = before ++ str n ++ " issues with " ++ after.
(** [t] contains a digit *)
Definition is_digit (c : Ascii.ascii) : bool := let n := Ascii.nat_of_ascii c in ((48 <=? n) && (n <=? 57))%nat.
Fixpoint has_digit (t : string) : bool := match t with EmptyString => false | String c t' => is_digit c || has_digit t' end.

(** Outcomes of a run on an object that can be read and inspected: status 0 and one text, [clean] when [sound] holds, and
    otherwise an announcement of the issues *)
Definition judges (run : Run) (clean : string) (sound : Prop) : Prop :=
  exists text, run = Exited 0 [text] /\ (sound -> text = clean) /\ (~ sound -> announces text).
