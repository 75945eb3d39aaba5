(** The command line programs: src/bin/geode-inspector-*.cpp.  Each parses its flags, loads a file with the input factories
    of OpenGeode, inspects the object and logs the text of the result.  Not modelled: the parsing of flags by Abseil (the
    values of the flags are given, [None] for a flag that is not on the command line), the usage message, and
    [Library::initialize()], whose effect is the set of registered extensions [w_creates]. *)
From Coq Require Import String List Arith NArith Bool.
From Verif Require Import Base Model_Issues Types Model_Colocation Model_Adjacency Model_Hash Model_Degeneration Model_Negative Model_Manifold Model_Intersections
  Model_Topology Model_BRep Model_Blocks Model_Results.
Import ListNotations.
Local Open Scope string_scope.

(** one input factory of OpenGeode each *)
Inductive Format :=
  | PointSet3D | PointSet2D
  | EdgedCurve3D | EdgedCurve2D
  | TriangulatedSurface3D | PolygonalSurface3D | TriangulatedSurface2D | PolygonalSurface2D | RegularGrid2D
  | TetrahedralSolid3D | PolyhedralSolid3D | HybridSolid3D | RegularGrid3D.
Inductive ModelFormat := SectionF | CrossSectionF | ImplicitCrossSectionF | BRepF | StructuralModelF | ImplicitStructuralModelF.
(** a mesh as it comes out of a file: with its name and whether it stores its edges; a model: whether its surfaces and
    blocks do *)
Record Named M := mkNamed { n_mesh : M; n_name : string; n_edges : bool }.
Arguments mkNamed {M}. Arguments n_mesh {M}. Arguments n_name {M}. Arguments n_edges {M}.
Record Stored := mkStored { s_model : Model; s_surface_edges : uuid -> bool; s_block_edges : uuid -> bool }.

(** What the programs take from outside *)
Record World := mkWorld {
  w_extension : string -> string;                      (* to_string(extension_from_filename(f)) *)
  w_creates : Format -> string -> bool;                (* <Format>InputFactory::has_creator *)
  w_point_set : Format -> string -> outcome PointSet;  (* load_point_set<dimension> ... *)
  w_edged_curve : Format -> string -> outcome EdgedCurve;
  w_surface : Format -> string -> outcome (Named SurfaceMesh);
  w_solid : Format -> string -> outcome (Named SolidMesh);
  w_model : ModelFormat -> string -> outcome Stored;
  w_lippincott : exn -> nat }.                         (* geode_lippincott: the status of an uncaught exception *)
(** and the geometric and topological queries of OpenGeode, for the object at hand *)
Record Queries := mkQueries {
  q_measures : Measures; q_geometry : Geometry; q_hash : HashOrder; q_predicates : Predicates;
  q_candidates : SurfaceMesh -> list (nat * nat);
  q_curve_candidates : SurfaceMesh -> EdgedCurve -> list (nat * nat);
  q_oracles : Model -> Oracles; q_trees : Model -> Trees; q_line_trees : Model -> LineTrees }.

(** The end of a run: the status and the texts given to [Logger::info] *)
Inductive Run := Exited (status : nat) (info : list string) | Undefined.
(** [try { ... Logger::info( text ); return 0; } catch( ... ) { return geode_lippincott(); }] *)
Definition finish (w : World) (o : outcome string) : Run :=
  match o with
  | Ok text => Exited 0 [text]
  | Throw e => Exited (w_lippincott w e) []
  | UB => Undefined
  end.
(** [if( F1::has_creator( ext ) ) load F1 else if( F2::has_creator( ext ) ) ... else throw] *)
Definition load_first {M} (w : World) (load : Format -> string -> outcome M) (formats : list Format) (file : string) : outcome M :=
  match find (fun f => w_creates w f (w_extension w file)) formats with
  | Some f => load f file
  | None => Throw OpenGeodeExn
  end.
(** [absl::GetFlag( FLAGS_input )] *)
Definition flag (given : option string) (default : string) : string := match given with Some f => f | None => default end.

Section Programs.
Context (w : World) (q : Queries).

(** geode-inspector-pointset.cpp:44-91 *)
Definition pointset_main (input : option string) : Run :=
  finish w (let! m := load_first w (w_point_set w) [PointSet3D; PointSet2D] (flag input "/path/my/pointset.og_pts3d") in
            let! r := inspect_point_set (q_geometry q) m in Ok (pointset_string r)).
(** geode-inspector-edgedcurve.cpp:44-93 *)
Definition edgedcurve_main (input : option string) : Run :=
  finish w (let! m := load_first w (w_edged_curve w) [EdgedCurve3D; EdgedCurve2D] (flag input "/path/my/curve.og_edc3d") in
            let! r := inspect_edged_curve (q_measures q) (q_geometry q) m in Ok (curve_string r)).
(** geode-inspector-surface.cpp:48-110; [ints]: what the search for intersecting polygons returned *)
Definition surface_formats := [TriangulatedSurface3D; PolygonalSurface3D; TriangulatedSurface2D; PolygonalSurface2D; RegularGrid2D].
Definition surface_main (input : option string) (run : Run) : Prop :=
  match load_first w (w_surface w) surface_formats (flag input "/path/my/surface.og_tsf3d") with
  | Ok n => exists ints, surface_intersecting_elements (q_predicates q) (n_mesh n) (q_candidates q (n_mesh n)) ints /\
      run = finish w (let! r := inspect_surface (q_measures q) (q_geometry q) (q_hash q) (n_name n) (n_mesh n) (new_inspector (n_edges n)) ints in
                      Ok (surface_string r))
  | Throw e => run = finish w (Throw e)
  | UB => run = Undefined
  end.
(** geode-inspector-solid.cpp:50-106 *)
Definition solid_formats := [TetrahedralSolid3D; PolyhedralSolid3D; HybridSolid3D; RegularGrid3D].
Definition solid_main (input : option string) : Run :=
  finish w (let! n := load_first w (w_solid w) solid_formats (flag input "/path/my/solid.og_tso3d") in
            let! r := inspect_solid (q_measures q) (q_geometry q) (q_hash q) (n_name n) (n_mesh n) (new_inspector (n_edges n)) in
            Ok (solid_string r)).
(** geode-inspector-surface-curve-intersections.cpp:50-110: the two files are loaded in any order, the curve in the
    dimension of the surface *)
Definition load_pair {A B} (a : outcome A) (b : outcome B) (r : outcome (A * B)) : Prop :=
  match a, b with
  | Ok x, Ok y => r = Ok (x, y)
  | Throw e, Throw e' => r = Throw e \/ r = Throw e'
  | Throw e, Ok _ | Ok _, Throw e => r = Throw e
  | UB, Throw e | Throw e, UB => r = UB \/ r = Throw e
  | UB, _ | _, UB => r = UB
  end.
Definition curve_format (f : Format) : Format := match f with TriangulatedSurface3D => EdgedCurve3D | _ => EdgedCurve2D end.
Definition surface_curve_main (surface curve : option string) (run : Run) : Prop :=
  let surface := flag surface "/path/my/surface.og_tsf3d" in
  let curve := flag curve "/path/my/curve.og_edc3d" in
  match find (fun f => w_creates w f (w_extension w surface)) [TriangulatedSurface3D; TriangulatedSurface2D] with
  | None => run = finish w (Throw OpenGeodeExn)
  | Some f =>
    exists pair, load_pair (w_surface w f surface) (w_edged_curve w (curve_format f) curve) pair /\
    match pair with
    | Ok (n, c) => exists r, curve_intersecting_elements (q_predicates q) (n_mesh n) c (q_curve_candidates q (n_mesh n) c) r /\
        run = finish w (let! r := r in Ok (issues_string r))
    | Throw e => run = finish w (Throw e)
    | UB => run = Undefined
    end
  end.
(** geode-inspector-section.cpp:41-73, geode-inspector-cross-section.cpp:41-73, geode-inspector-implicit-cross-section.cpp:41-75 *)
Definition section_program (format : ModelFormat) (default : string) (input : option string) (run : Run) : Prop :=
  match w_model w format (flag input default) with
  | Ok s => exists ints, section_inspect_intersections (q_predicates q) (s_model s) (q_trees q (s_model s)) ints /\
      run = finish w (let! r := inspect_section (q_oracles q (s_model s)) (s_model s) (new_model_inspector (s_surface_edges s) (s_block_edges s)) ints in
                      Ok (section_string (or_hash (q_oracles q (s_model s))) r))
  | Throw e => run = finish w (Throw e)
  | UB => run = Undefined
  end.
Definition section_main := section_program SectionF "/path/my/model.og_sctn".
Definition cross_section_main := section_program CrossSectionF "/path/my/model.og_xsctn".
Definition implicit_cross_section_main := section_program ImplicitCrossSectionF "/path/my/model.og_ixsctn".
(** geode-inspector-brep.cpp:42-73, geode-inspector-structural-model.cpp:41-73, geode-inspector-implicit-structural-model.cpp:41-75 *)
Definition brep_program (format : ModelFormat) (default : string) (input : option string) (run : Run) : Prop :=
  match w_model w format (flag input default) with
  | Ok s => exists ints, brep_inspect_intersections (q_predicates q) (s_model s) (q_trees q (s_model s)) (q_line_trees q (s_model s)) ints /\
      run = finish w (let! r := inspect_brep (q_oracles q (s_model s)) (s_model s) (new_model_inspector (s_surface_edges s) (s_block_edges s)) ints in
                      Ok (brep_string (or_hash (q_oracles q (s_model s))) r))
  | Throw e => run = finish w (Throw e)
  | UB => run = Undefined
  end.
Definition brep_main := brep_program BRepF "/path/my/model.og_brep".
Definition structural_model_main := brep_program StructuralModelF "/path/my/model.og_strm".
Definition implicit_structural_model_main := brep_program ImplicitStructuralModelF "/path/my/model.og_istrm".
End Programs.
