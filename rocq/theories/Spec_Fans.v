(** Manifold vertices and edges in terms of fans: the polygons (polyhedra) around them can be visited one after the
    other by crossing edges (facets) that touch them. *)
From Coq Require Import String List Arith NArith Bool Relations.
From Verif Require Import Base Model_Issues Types Spec_Adjacency Spec_Manifold.
Import ListNotations.

(** [x] and [y] are linked by steps between elements that satisfy [P], in whatever direction *)
Definition connected {A} (P : A -> Prop) (step : A -> A -> Prop) : A -> A -> Prop :=
  clos_refl_sym_trans A (fun x y => P x /\ P y /\ step x y).
(** the elements that satisfy [P] are not all linked *)
Definition several_fans {A} (P : A -> Prop) (step : A -> A -> Prop) : Prop :=
  exists x y, P x /\ P y /\ ~ connected P step x y.
(** Contract of a turn-around query: it meets, once each, the elements linked to one of them. *)
Definition one_fan {A} (P : A -> Prop) (step : A -> A -> Prop) (fan : list A) : Prop :=
  ((forall x, ~ P x) /\ fan = []) \/
  exists x0, P x0 /\ lists_once (fun x => P x /\ connected P step x0 x) fan.

(** the polygon of [c] is adjacent to the polygon of [c'] through an edge that has [v] as an end *)
Definition crosses_edge_at (m : SurfaceMesh) (v : nat) (c c' : PolygonVertex) : Prop :=
  exists e, is_polygon_edge m e /\ fst e = fst c /\
    (polygon_edge_vertex0 m e = v \/ polygon_edge_vertex1 m e = v) /\ sm_adjacent m e = Some (fst c').
(** the polyhedron [p] is adjacent to [q] through a facet that has all the vertices [vs] *)
Definition crosses_facet_at (m : SolidMesh) (vs : list nat) (p q : nat) : Prop :=
  exists f, is_polyhedron_facet m f /\ fst f = p /\ incl vs (polyhedron_facet_vertices m f) /\ so_adjacent m f = Some q.

Definition turns_around_surface_vertices (m : SurfaceMesh) : Prop :=
  forall v fan, v < length (sm_points m) -> sm_around_vertex m v = Ok fan ->
    one_fan (surface_corner m v) (crosses_edge_at m v) fan.
Definition turns_around_solid_vertices (m : SolidMesh) : Prop :=
  forall v fan, v < length (so_points m) -> so_around_vertex m v = Ok fan ->
    one_fan (solid_corner m v) (fun c c' => crosses_facet_at m [v] (fst c) (fst c')) fan.
(** the polyhedron [p] has the edge [ab] *)
Definition uses_edge (m : SolidMesh) (ab : nat * nat) (p : nat) : Prop :=
  exists i, polyhedron_edge_joins m (fst ab) (snd ab) (p, i).
(** Around an edge the query starts from the given polyhedron. *)
Definition turns_around_solid_edges (m : SolidMesh) : Prop :=
  forall e ab, first_occurrence m e ab ->
    so_around_edge m ab (fst e) = Throw OpenGeodeExn \/
    exists fan, so_around_edge m ab (fst e) = Ok fan /\
      lists_once (fun p => uses_edge m ab p /\ connected (uses_edge m ab) (crosses_facet_at m [fst ab; snd ab]) (fst e) p) fan.
(** no polyhedron has two edges between the same vertices *)
Definition simple_edges (m : SolidMesh) : Prop :=
  forall a b p i j, polyhedron_edge_joins m a b (p, i) -> polyhedron_edge_joins m a b (p, j) -> i = j.

(** The polygons at [v] form several fans. *)
Definition surface_vertex_with_several_fans (m : SurfaceMesh) (v : nat) : Prop :=
  v < length (sm_points m) /\ several_fans (surface_corner m v) (crosses_edge_at m v).
Definition solid_vertex_with_several_fans (m : SolidMesh) (v : nat) : Prop :=
  v < length (so_points m) /\ several_fans (solid_corner m v) (fun c c' => crosses_facet_at m [v] (fst c) (fst c')).
(** Edge [ab], first met as [e]: the polyhedra that have it form several fans. *)
Definition solid_edge_with_several_fans (m : SolidMesh) (eab : (nat * nat) * (nat * nat)) : Prop :=
  first_occurrence m (fst eab) (snd eab) /\
  several_fans (uses_edge m (snd eab)) (crosses_facet_at m [fst (snd eab); snd (snd eab)]).

(** The same mesh, except for the polygons (polyhedra) from which the turn-around queries start and for the order in
    which they meet them. *)
Definition same_surface_but_turns (m m' : SurfaceMesh) : Prop :=
  sm_points m' = sm_points m /\ sm_polygons m' = sm_polygons m /\ sm_adjacent m' = sm_adjacent m /\
  forall v, v < length (sm_points m) ->
    ((exists fan, sm_around_vertex m' v = Ok fan) <-> exists fan, sm_around_vertex m v = Ok fan) /\
    (sm_around_vertex m' v = Throw OpenGeodeExn <-> sm_around_vertex m v = Throw OpenGeodeExn).
Definition same_solid_but_turns (m m' : SolidMesh) : Prop :=
  so_points m' = so_points m /\ so_polyhedra m' = so_polyhedra m /\ so_adjacent m' = so_adjacent m.
