(** What the texts of reports must say. *)
From Coq Require Import String Ascii List Arith NArith Bool.
From Verif Require Import Base Model_Issues Types Model_Degeneration Model_Manifold Model_Intersections Model_Results Spec_Colocation Spec_Manifold.
Import ListNotations.
Local Open Scope string_scope.

(** The list is described by [d] and has one message per issue, in the same order, related to it by [P]. *)
Definition explained {T} (d : string) (P : T -> string -> Prop) (r : InspectionIssues T) : Prop :=
  ii_description r = d /\ Forall2 P (ii_issues r) (ii_messages r).
(** The map is described by [d] and every list in it satisfies [P]. *)
Definition explained_map {T} (d : string) (P : uuid -> InspectionIssues T -> Prop) (r : InspectionIssuesMap T) : Prop :=
  im_description r = d /\ forall id l, In (id, l) (im_map r) -> P id l.
(** the message is this text *)
Definition says {T} (text : T -> string) (issue : T) (message : string) : Prop := message = text issue.

(** ** Texts of the issues of one mesh *)
Definition indices (l : list nat) : string := StrCat (map (fun i => " " ++ str i) l).
(** the position printed is the one of the first vertex of the group *)
Definition colocated_vertices_text (geo : Geometry) (points : list Point) (g : list nat) (text : string) : Prop :=
  exists u p, nth_error (colocated_mapping (g_colocated geo points)) (hd 0 g) = Some u /\ nth_error (unique_points (g_colocated geo points)) u = Some p /\
    text = StrCat ["vertices "; indices g; " are colocated at the position ["; g_point_string geo p; "]"].
Definition wrong_edge_text (e : PolygonEdge) : string := let '(polygon, edge) := e in
  StrCat ["edge "; str edge; " of polygon "; str polygon; " has wrong adjacencies"].
Definition wrong_facet_text (f : PolyhedronFacet) : string := let '(polyhedron, facet) := f in
  StrCat ["facet "; str facet; " of polyhedron "; str polyhedron; " has wrong adjacencies"].
Definition curve_edge_text (ms : Measures) (geo : Geometry) (c : EdgedCurve) (e : nat) (text : string) : Prop :=
  exists v w, nth_error (ec_edges c) e = Some (v, w) /\
    text = StrCat ["degenerated edge "; str e; ", at position ["; g_point_string geo (ms_barycenter ms (nth v (ec_points c) []) (nth w (ec_points c) [])); "]"].
Definition mesh_edge_text (geo : Geometry) (points : list Point) (edges : list (nat * nat)) (e : nat) (text : string) : Prop :=
  exists v w, nth_error edges e = Some (v, w) /\
    text = StrCat ["degenerated edge between vertices "; str v; " and "; str w; ", at position ["; g_point_string geo (nth v points []); "]"].
Definition flat_polygon_text (p : nat) : string := "degenerated polygons " ++ str p.
Definition flat_polyhedron_text (p : nat) : string := "degenerated polyhedra " ++ str p.
Definition negative_polygon_text (p : nat) : string := "negative polygon " ++ str p.
Definition negative_polyhedron_text (p : nat) : string := "negative polyhedron " ++ str p.
(** the two texts of a non manifold surface edge; on border: some polygon has no neighbour along it *)
Definition surface_edge_text (m : SurfaceMesh) (e : nat * nat) (text : string) : Prop :=
  let '(a, b) := e in
  (border_occurrence m a b /\ text = StrCat ["edge between vertices "; str a; " and "; str b; " is not manifold (detected as on border)."]) \/
  (~ border_occurrence m a b /\ text = StrCat ["edge between vertices with index "; str a; " and index "; str b; " is not manifold (detected as not on border)."]).
Definition vertex_text (geo : Geometry) (points : list Point) (v : nat) (text : string) : Prop :=
  exists p, nth_error points v = Some p /\ text = StrCat ["vertex "; str v; ", at position ["; g_point_string geo p; "]"].
(** "could not check" is said exactly when OpenGeode raised its exception for a polyhedron having this edge *)
Definition solid_edge_text (m : SolidMesh) (e : nat * nat) (text : string) : Prop :=
  exists p poly, nth_error (so_polyhedra m) p = Some poly /\ In e (ph_edges poly) /\
    ((exists fan, so_around_edge m e p = Ok fan) /\ text = StrCat ["Non manifold edge between vertices "; str (fst e); " and "; str (snd e)] \/
     so_around_edge m e p = Throw OpenGeodeExn /\
       text = StrCat ["Could not check manifold on edge between vertices with index "; str (fst e); " and index "; str (snd e); "; Check issues with solid adjacencies."]).
Definition facet_text (vs : list nat) : string :=
  StrCat ["facet made of vertices with index "; StrCat (map (fun v => str v ++ ", ") vs); "is not manifold."].
Definition polygons_text (c : nat * nat) : string := StrCat ["Polygons "; str (fst c); " and "; str (snd c); " intersect"].
Definition triangle_edge_text (c : nat * nat) : string := StrCat ["Triangle "; str (fst c); " and edge"; str (snd c); " intersect"].

(** ** Models *)
(** the name of the component, or its identifier if it has none, then its identifier *)
Definition label {M} (m : Model) (c : Component M) : string :=
  StrCat [match co_name c with Some n => n | None => m_uuid_string m (co_id c) end; " ("; m_uuid_string m (co_id c); ")"].
(** list [l] is about an active component of [components], and says so *)
Definition about {M T} (m : Model) (components : list (Component M)) (kind suffix : string) (P : Component M -> T -> string -> Prop)
    (id : uuid) (l : InspectionIssues T) : Prop :=
  exists c, In c components /\ co_active c = true /\ co_id c = id /\ explained (StrCat [kind; label m c; suffix]) (P c) l.
Definition border_edge_text (e : PolygonEdge) : string := let '(polygon, edge) := e in
  StrCat ["edge "; str edge; " of polygon "; str polygon; " has no adjacencies but is not part of a model Line."].
Definition border_facet_text (f : PolyhedronFacet) : string := let '(polyhedron, facet) := f in
  StrCat ["facet "; str facet; " of polyhedron "; str polyhedron; " has no adjacencies but is not part of a model Surface."].
(** an element without neighbour is never said to have a wrong one, and the other way round *)
Definition surface_adjacency_text (s : SurfaceMesh) (e : PolygonEdge) (text : string) : Prop :=
  match sm_adjacent s e with Some _ => text = wrong_edge_text e | None => text = border_edge_text e end.
Definition block_adjacency_text (s : SolidMesh) (f : PolyhedronFacet) (text : string) : Prop :=
  match so_adjacent s f with Some _ => text = wrong_facet_text f | None => text = border_facet_text f end.
Definition component_colocation_text {M} (geo : Geometry) (m : Model) (kind : string) (points : M -> list Point) (c : Component M) (g : list nat) (text : string) : Prop :=
  text = StrCat [kind; label m c; " has vertices "; indices g; " colocated at position ["; g_point_string geo (nth (hd 0 g) (points (co_mesh c)) []); "]"].
Definition unique_colocation_text (geo : Geometry) (m : Model) (g : list nat) (text : string) : Prop :=
  exists p, unique_vertex_position m (hd 0 g) p /\ text = StrCat ["unique vertices "; indices g; " are colocated at the position ["; g_point_string geo p; "]"].
Definition different_positions_text (uv : nat) : string := StrCat ["unique vertex "; str uv; " is linked to several mesh vertices on different positions"].
(** a unique vertex; the greatest [index_t] if there is none *)
Definition vertex_name (o : option nat) : string := match o with Some v => str v | None => "4294967295" end.
(** the names of the surfaces *)
Inductive surface_names (m : Model) : list uuid -> string -> Prop :=
| sn_nil : surface_names m [] ""
| sn_cons : forall s ids text, In s (m_surfaces m) -> surface_names m ids text -> surface_names m (co_id s :: ids) ((label m s ++ ", ") ++ text).
Definition model_edge_text (m : Model) (x : BRepNonManifoldEdge) (text : string) : Prop :=
  let '((a, b), ids) := x in
  let between := StrCat ["Model edge between unique vertices "; vertex_name a; " and "; vertex_name b; " is not manifold: "] in
  (exists names, surface_names m ids names /\ text = StrCat [between; "it is on several Surfaces: "; names; "but not on their border"]) \/
  (exists l, In l (m_lines m) /\ ids = [co_id l] /\ text = StrCat [between; "it belongs to internal Line "; label m l; " with only one edge"]).
Definition model_facet_text (m : Model) (x : BRepNonManifoldFacet) (text : string) : Prop :=
  exists s, In s (m_surfaces m) /\ snd x = [co_id s] /\
    text = StrCat ["Model facet between unique vertices "; StrCat (map (fun v => vertex_name v ++ " ") (fst x));
                   " is not manifold: it belongs to internal Surface "; label m s; " with only one facet"].
(** the two components named are those of the issue *)
Definition intersection_text (m : Model) (x : ComponentMeshElement * ComponentMeshElement) (text : string) : Prop :=
  let '((c1, i), (c2, j)) := x in
  (exists s1 s2, In s1 (m_surfaces m) /\ c1 = mkCID SurfaceT (co_id s1) /\ In s2 (m_surfaces m) /\ c2 = mkCID SurfaceT (co_id s2) /\
     text = StrCat ["Surfaces "; label m s1; " and "; label m s2; " intersect on polygons "; str i; " and "; str j]) \/
  (exists s l, In s (m_surfaces m) /\ c1 = mkCID SurfaceT (co_id s) /\ In l (m_lines m) /\ c2 = mkCID LineT (co_id l) /\
     text = StrCat ["Surface "; label m s; " and Line "; label m l; " intersect on polygon "; str i; " and edge "; str j]).
Definition self_intersection_text (m : Model) (x : ComponentMeshElement * ComponentMeshElement) (text : string) : Prop :=
  let '((c1, i), (c2, j)) := x in
  exists s, In s (m_surfaces m) /\ c1 = mkCID SurfaceT (co_id s) /\ c2 = c1 /\
    text = StrCat ["Surface "; label m s; " has a self intersection on polygons "; str i; "and "; str j].

(** *** The reports of the meshes of a model: about which components, with which texts *)
Definition model_colocation (geo : Geometry) (m : Model) (id : uuid) (l : InspectionIssues (list nat)) : Prop :=
  about m (m_lines m) "Line " " colocated vertices" (component_colocation_text geo m "Line " ec_points) id l \/
  about m (m_surfaces m) "Surface " " colocated vertices" (component_colocation_text geo m "Surface " sm_points) id l \/
  about m (m_blocks m) "Block " " colocated vertices" (component_colocation_text geo m "Block " so_points) id l.
Definition model_surface_adjacency (m : Model) : uuid -> InspectionIssues PolygonEdge -> Prop :=
  about m (m_surfaces m) "Surface " " polygon edges adjacency issues" (fun s => surface_adjacency_text (co_mesh s)).
Definition model_block_adjacency (m : Model) : uuid -> InspectionIssues PolyhedronFacet -> Prop :=
  about m (m_blocks m) "Block " " polyhedron facets adjacencies issues" (fun s => block_adjacency_text (co_mesh s)).
Definition model_edges_degeneration (ms : Measures) (geo : Geometry) (m : Model) (id : uuid) (l : InspectionIssues nat) : Prop :=
  about m (m_lines m) "Line " " small edges" (fun c => curve_edge_text ms geo (co_mesh c)) id l \/
  about m (m_surfaces m) "Surface " " small facet edges" (fun s => mesh_edge_text geo (sm_points (co_mesh s)) (sm_edges (co_mesh s))) id l \/
  about m (m_blocks m) "Block " " small edges polyhedra" (fun b => mesh_edge_text geo (so_points (co_mesh b)) (so_edges (co_mesh b))) id l.
Definition model_polygons_degeneration (m : Model) : uuid -> InspectionIssues nat -> Prop :=
  about m (m_surfaces m) "Surface " " small height polygons" (fun _ => says flat_polygon_text).
Definition model_polyhedra_degeneration (m : Model) : uuid -> InspectionIssues nat -> Prop :=
  about m (m_blocks m) "Block " " small height polyhedra" (fun _ => says flat_polyhedron_text).
Definition model_manifold_vertices (geo : Geometry) (m : Model) (id : uuid) (l : InspectionIssues nat) : Prop :=
  about m (m_surfaces m) "Surface " " non manifold vertices" (fun s => vertex_text geo (sm_points (co_mesh s))) id l \/
  about m (m_blocks m) "Block " " non manifold vertices" (fun b => vertex_text geo (so_points (co_mesh b))) id l.
Definition model_manifold_edges (m : Model) (id : uuid) (l : InspectionIssues (nat * nat)) : Prop :=
  about m (m_surfaces m) "Surface " " non manifold edges" (fun s => surface_edge_text (co_mesh s)) id l \/
  about m (m_blocks m) "Block " " non manifold edges" (fun b => solid_edge_text (co_mesh b)) id l.
Definition model_manifold_facets (m : Model) : uuid -> InspectionIssues (list nat) -> Prop :=
  about m (m_blocks m) "Block " " non manifold facets" (fun _ => says facet_text).
Definition model_negative_polygons (m : Model) : uuid -> InspectionIssues nat -> Prop :=
  about m (m_surfaces m) "Surface " " negative polygons" (fun _ => says negative_polygon_text).
Definition model_negative_polyhedra (m : Model) : uuid -> InspectionIssues nat -> Prop :=
  about m (m_blocks m) "Block " " negative polyhedra" (fun _ => says negative_polyhedron_text).

(** ** Whole reports *)
Definition point_set_explained (geo : Geometry) (m : PointSet) (r : PointSetResult) : Prop :=
  explained "groups of colocated points" (colocated_vertices_text geo (ps_points m)) (pr_colocated r).
Definition curve_report_explained (ms : Measures) (geo : Geometry) (m : EdgedCurve) (r : CurveResult) : Prop :=
  explained "groups of colocated points" (colocated_vertices_text geo (ec_points m)) (cr_colocated r) /\
  explained "degenerated edges." (curve_edge_text ms geo m) (cr_edges r).
Definition surface_report_explained (geo : Geometry) (name : string) (m : SurfaceMesh) (r : SurfaceResult) : Prop :=
  explained (StrCat ["Surface "; name; " polygon edges adjacencies issues"]) (says wrong_edge_text) (sr_adjacency r) /\
  explained "groups of colocated points" (colocated_vertices_text geo (sm_points m)) (sr_colocated r) /\
  explained "degenerated edges" (mesh_edge_text geo (sm_points m) (sm_edges m)) (sr_edges r) /\
  explained "Degenerated Polygons." (says flat_polygon_text) (sr_polygons r) /\
  explained "non manifold edges" (surface_edge_text m) (sr_manifold_edges r) /\
  explained "non manifold vertices" (vertex_text geo (sm_points m)) (sr_manifold_vertices r) /\
  explained "intersections between polygons" (says polygons_text) (sr_intersections r) /\
  explained "negative area polygons" (says negative_polygon_text) (sr_negative r).
Definition solid_report_explained (geo : Geometry) (name : string) (m : SolidMesh) (r : SolidResult) : Prop :=
  explained (StrCat ["Solid "; name; " polyhedron facets adjacencies issues"]) (says wrong_facet_text) (so_r_adjacency r) /\
  explained "groups of colocated points" (colocated_vertices_text geo (so_points m)) (so_r_colocated r) /\
  explained "degenerated edges" (mesh_edge_text geo (so_points m) (so_edges m)) (so_r_edges r) /\
  explained "Degenerated Polyhedra." (says flat_polyhedron_text) (so_r_polyhedra r) /\
  explained "non manifold vertices" (vertex_text geo (so_points m)) (so_r_manifold_vertices r) /\
  explained "Non manifold edges" (solid_edge_text m) (so_r_manifold_edges r) /\
  explained "non manifold facets" (says facet_text) (so_r_manifold_facets r) /\
  explained "negative volume polyhedra" (says negative_polyhedron_text) (so_r_negative r).
Definition unique_vertices_explained (geo : Geometry) (m : Model) (r : UniqueVerticesResult) : Prop :=
  explained "colocated unique vertices" (unique_colocation_text geo m) (ur_colocated r) /\
  explained "unique vertex refering multiple positions" (says different_positions_text) (ur_different r).
Definition section_meshes_explained (o : Oracles) (m : Model) (r : SectionMeshesResult) : Prop :=
  let geo := or_geometry o in
  unique_vertices_explained geo m (sc_unique_vertices r) /\
  explained_map "colocated points" (model_colocation geo m) (sc_colocation r) /\
  explained_map "polygon edges adjacencies" (model_surface_adjacency m) (sc_adjacency r) /\
  explained_map "degenerated edges" (model_edges_degeneration (or_measures o) geo m) (sd_edges (sc_degeneration r)) /\
  explained_map "degenerated polygons" (model_polygons_degeneration m) (sd_polygons (sc_degeneration r)) /\
  explained "intersections" (intersection_text m) (sc_intersections r) /\
  explained_map "non manifold mesh vertices" (model_manifold_vertices geo m) (sn_vertices (sc_manifold r)) /\
  explained_map "non manifold mesh edges" (model_manifold_edges m) (sn_edges (sc_manifold r)) /\
  explained_map "negative polygons" (model_negative_polygons m) (sc_negative r).
Definition brep_meshes_explained (o : Oracles) (m : Model) (r : BRepMeshesResult) : Prop :=
  let geo := or_geometry o in
  unique_vertices_explained geo m (br_unique_vertices r) /\
  explained_map "colocated points" (model_colocation geo m) (br_colocation r) /\
  explained_map "polygon edges adjacencies" (model_surface_adjacency m) (ba_surfaces (br_adjacency r)) /\
  explained_map "polyhedron facets adjacencies" (model_block_adjacency m) (ba_blocks (br_adjacency r)) /\
  explained_map "degenerated edges" (model_edges_degeneration (or_measures o) geo m) (dr_edges (br_degeneration r)) /\
  explained_map "degenerated polygons" (model_polygons_degeneration m) (dr_polygons (br_degeneration r)) /\
  explained_map "degenerated polyhedra" (model_polyhedra_degeneration m) (dr_polyhedra (br_degeneration r)) /\
  explained "intersections" (intersection_text m) (br_intersections r) /\
  explained_map "non manifold mesh vertices" (model_manifold_vertices geo m) (bm_vertices (br_manifold r)) /\
  explained_map "non manifold mesh edges" (model_manifold_edges m) (bm_edges (br_manifold r)) /\
  explained_map "non manifold mesh facets" (model_manifold_facets m) (bm_facets (br_manifold r)) /\
  explained "non manifold model edges" (model_edge_text m) (bm_model_edges (br_manifold r)) /\
  explained "non manifold model facets" (model_facet_text m) (bm_model_facets (br_manifold r)) /\
  explained_map "negative polyhedra" (model_negative_polyhedra m) (br_negative r).
