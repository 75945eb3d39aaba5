(** What manifold inspections should say. *)
From Coq Require Import String List Arith NArith Bool Sorted Permutation.
From Verif Require Import Base Model_Issues Types Spec_Maps Spec_Cycles Spec_Adjacency.
Import ListNotations.

(** [l] lists exactly the elements that satisfy [P], once each, in any order. *)
Definition lists_once {A} (P : A -> Prop) (l : list A) : Prop := NoDup l /\ forall x, In x l <-> P x.

(** ** Surface edges *)
(** polygon edge [e] joins vertices [a] and [b], whatever its direction *)
Definition joins (m : SurfaceMesh) (a b : nat) (e : PolygonEdge) : Prop :=
  is_polygon_edge m e /\
  (polygon_edge_vertex0 m e = a /\ polygon_edge_vertex1 m e = b \/
   polygon_edge_vertex0 m e = b /\ polygon_edge_vertex1 m e = a).
(** [n] polygon edges join [a] and [b] *)
Definition uses (m : SurfaceMesh) (a b n : nat) : Prop := exists l, lists_once (joins m a b) l /\ length l = n.
Definition border_occurrence (m : SurfaceMesh) (a b : nat) : Prop := exists e, joins m a b e /\ sm_adjacent m e = None.
(** The edge [(a, b)], [a <= b], is used by some polygon, and not once when it has a border occurrence or not twice when
    it has none; [eqm] compares numbers of uses. *)
Definition non_manifold_edge (eqm : nat -> nat -> Prop) (m : SurfaceMesh) (ab : nat * nat) : Prop :=
  fst ab <= snd ab /\ exists n, 0 < n /\ uses m (fst ab) (snd ab) n /\
    ((border_occurrence m (fst ab) (snd ab) /\ ~ eqm n 1) \/ (~ border_occurrence m (fst ab) (snd ab) /\ ~ eqm n 2)).
(** numbers of uses seen through an 8-bit counter *)
Definition same_modulo_256 (a b : nat) : Prop := Nat.modulo a 256 = Nat.modulo b 256.

(** ** Vertices *)
Definition surface_corner (m : SurfaceMesh) (v : nat) (c : PolygonVertex) : Prop :=
  is_polygon_edge m c /\ polygon_vertex m c = v.
Definition solid_corner (m : SolidMesh) (v : nat) (c : PolyhedronVertex) : Prop :=
  fst c < nb_polyhedra m /\ nth_error (ph_vertices (polyhedron m (fst c))) (snd c) = Some v.
Definition surface_vertices_in_range (m : SurfaceMesh) : Prop :=
  forall c, is_polygon_edge m c -> polygon_vertex m c < length (sm_points m).
Definition solid_vertices_in_range (m : SolidMesh) : Prop :=
  forall c v, solid_corner m v c -> v < length (so_points m).
(** Turning around [v] succeeds and does not meet exactly the corners at [v]. *)
Definition surface_non_manifold_vertex (m : SurfaceMesh) (v : nat) : Prop :=
  v < length (sm_points m) /\ exists fan, sm_around_vertex m v = Ok fan /\ ~ lists_once (surface_corner m v) fan.
Definition solid_non_manifold_vertex (m : SolidMesh) (v : nat) : Prop :=
  v < length (so_points m) /\ exists fan, so_around_vertex m v = Ok fan /\ ~ lists_once (solid_corner m v) fan.

(** ** Solid edges *)
Definition polyhedron_edge_joins (m : SolidMesh) (a b : nat) (e : nat * nat) : Prop :=
  fst e < nb_polyhedra m /\
  (nth_error (ph_edges (polyhedron m (fst e))) (snd e) = Some (a, b) \/
   nth_error (ph_edges (polyhedron m (fst e))) (snd e) = Some (b, a)).
(** local edge [e] is [(a, b)] and is the first to join these vertices *)
Definition first_occurrence (m : SolidMesh) (e ab : nat * nat) : Prop :=
  fst e < nb_polyhedra m /\ nth_error (ph_edges (polyhedron m (fst e))) (snd e) = Some ab /\
  forall e', polyhedron_edge_joins m (fst ab) (snd ab) e' -> ~ lex_lt e' e.
(** [fan] is made of the polyhedra that use the edge, once per use *)
Definition complete_fan (m : SolidMesh) (ab : nat * nat) (fan : list nat) : Prop :=
  exists l, lists_once (polyhedron_edge_joins m (fst ab) (snd ab)) l /\ Permutation fan (map fst l).
(** Turning around the edge from its first occurrence fails, or does not meet exactly the polyhedra that use it. *)
Definition failed_edge (m : SolidMesh) (eab : (nat * nat) * (nat * nat)) : Prop :=
  first_occurrence m (fst eab) (snd eab) /\ so_around_edge m (snd eab) (fst (fst eab)) = Throw OpenGeodeExn.
Definition unfinished_edge (m : SolidMesh) (eab : (nat * nat) * (nat * nat)) : Prop :=
  first_occurrence m (fst eab) (snd eab) /\
  exists fan, so_around_edge m (snd eab) (fst (fst eab)) = Ok fan /\ ~ complete_fan m (snd eab) fan.
(** Contract of the turn-around query: it returns or raises an OpenGeode exception, without repeating a polyhedron. *)
Definition around_edge_contract (m : SolidMesh) : Prop :=
  forall e ab, first_occurrence m e ab ->
    so_around_edge m ab (fst e) = Throw OpenGeodeExn \/ exists fan, so_around_edge m ab (fst e) = Ok fan /\ NoDup fan.

(** ** Solid facets *)
(** three different facets are the same cycle as [c] *)
Definition overused_facet (m : SolidMesh) (c : list nat) : Prop :=
  exists f g h, f <> g /\ g <> h /\ f <> h /\
    forall x, In x [f; g; h] -> is_polyhedron_facet m x /\ same_cycle (polyhedron_facet_vertices m x) c.
(** [l] has exactly one representative of every such cycle *)
Definition represents_cycles (P : list nat -> Prop) (l : list (list nat)) : Prop :=
  (forall c, In c l -> P c) /\
  (forall c, P c -> exists c', In c' l /\ same_cycle c c') /\
  (forall i j ci cj, nth_error l i = Some ci -> nth_error l j = Some cj -> same_cycle ci cj -> i = j).
Definition simple_facets (m : SolidMesh) : Prop :=
  forall f, is_polyhedron_facet m f -> polyhedron_facet_vertices m f <> [] /\ NoDup (polyhedron_facet_vertices m f).

(** ** Components of a model *)
Definition vertex_manifold_report (m : Model) (id : uuid) (l : list nat) : Prop :=
  (exists s, In s (m_surfaces m) /\ co_active s = true /\ co_id s = id /\
     lists_exactly lt (surface_non_manifold_vertex (co_mesh s)) l) \/
  (exists b, In b (m_blocks m) /\ co_active b = true /\ co_id b = id /\
     lists_exactly lt (solid_non_manifold_vertex (co_mesh b)) l).
(** the issues of a block list the edges in the order of their first occurrences *)
Definition solid_edge_report (m : SolidMesh) (l : list (nat * nat)) : Prop :=
  exists el, l = map snd el /\
    lists_exactly (fun x y => lex_lt (fst x) (fst y)) (fun eab => failed_edge m eab \/ unfinished_edge m eab) el.
Definition edge_manifold_report (m : Model) (id : uuid) (l : list (nat * nat)) : Prop :=
  (exists s, In s (m_surfaces m) /\ co_active s = true /\ co_id s = id /\
     lists_once (non_manifold_edge same_modulo_256 (co_mesh s)) l) \/
  (exists b, In b (m_blocks m) /\ co_active b = true /\ co_id b = id /\ solid_edge_report (co_mesh b) l).
Definition facet_manifold_report (m : Model) (id : uuid) (l : list (list nat)) : Prop :=
  exists b, In b (m_blocks m) /\ co_active b = true /\ co_id b = id /\ represents_cycles (overused_facet (co_mesh b)) l.

(** ** The model itself *)
(** edge [e] of the [k]th active surface is interior, is not the second side of an edge already met from a polygon of
    smaller index, and joins the unique vertices [a] and [b] (None: no unique vertex) *)
Definition interior_occurrence (m : Model) (surfaces : list (Component SurfaceMesh)) (a b : option nat) (x : nat * PolygonEdge) : Prop :=
  exists s q, nth_error surfaces (fst x) = Some s /\ is_polygon_edge (co_mesh s) (snd x) /\
    sm_adjacent (co_mesh s) (snd x) = Some q /\ fst (snd x) <= q /\
    let uv v := m_unique_vertex m (mkCMV (mkCID SurfaceT (co_id s)) v) in
    (uv (polygon_edge_vertex0 (co_mesh s) (snd x)) = a /\ uv (polygon_edge_vertex1 (co_mesh s) (snd x)) = b \/
     uv (polygon_edge_vertex0 (co_mesh s) (snd x)) = b /\ uv (polygon_edge_vertex1 (co_mesh s) (snd x)) = a).
Definition occurrence_lt (x y : nat * PolygonEdge) : Prop := fst x < fst y \/ (fst x = fst y /\ lex_lt (snd x) (snd y)).
(** the pair is in increasing order, no unique vertex counting as the greatest *)
Definition uv_ordered (a b : option nat) : Prop :=
  match a, b with
  | Some x, Some y => x <= y
  | None, Some _ => False
  | _, None => True
  end.
Definition shared_interior_edge (m : Model) (abs : (option nat * option nat) * list uuid) : Prop :=
  let surfaces := filter co_active (m_surfaces m) in
  uv_ordered (fst (fst abs)) (snd (fst abs)) /\
  exists occ, lists_exactly occurrence_lt (interior_occurrence m surfaces (fst (fst abs)) (snd (fst abs))) occ /\
    2 <= length occ /\ map Some (snd abs) = map (fun x => option_map co_id (nth_error surfaces (fst x))) occ.
Definition embedded_in (m : Model) (t : ComponentType) (id : uuid) : Prop :=
  exists a b, In (a, b) (m_internal_rel m) /\ cid_id a = id /\ cid_type b = t.
Definition not_shared (m : Model) (o : option nat) : Prop :=
  exists uv, o = Some uv /\ length (component_mesh_vertices m uv) <= 1.
(** an active line embedded in a surface, made of one edge, none of whose vertices is shared *)
Definition lonely_line_issue (m : Model) (l : Component EdgedCurve) (x : (option nat * option nat) * list uuid) : Prop :=
  exists v w, ec_edges (co_mesh l) = [(v, w)] /\ embedded_in m SurfaceT (co_id l) /\
    let uv y := m_unique_vertex m (mkCMV (mkCID LineT (co_id l)) y) in
    not_shared m (uv v) /\ not_shared m (uv w) /\ x = ((uv v, uv w), [co_id l]).
Definition lonely_surface_issue (m : Model) (s : Component SurfaceMesh) (x : list (option nat) * list uuid) : Prop :=
  exists vs, sm_polygons (co_mesh s) = [vs] /\ embedded_in m BlockT (co_id s) /\
    let uv y := m_unique_vertex m (mkCMV (mkCID SurfaceT (co_id s)) y) in
    (forall v, In v vs -> not_shared m (uv v)) /\ x = (map uv vs, [co_id s]).
(** issues of a sequence of components, in order: at most one each, as told by [P] *)
Inductive reports_in_order {A B} (P : A -> B -> Prop) : list A -> list B -> Prop :=
| rio_nil : reports_in_order P [] []
| rio_skip : forall a l r, (forall x, ~ P a x) -> reports_in_order P l r -> reports_in_order P (a :: l) r
| rio_keep : forall a x l r, P a x -> reports_in_order P l r -> reports_in_order P (a :: l) (x :: r).
(** the vertices of active single-edge lines and single-polygon surfaces are linked to existing unique vertices *)
Definition linked (m : Model) (t : ComponentType) (id : uuid) (v : nat) : Prop :=
  exists uv, m_unique_vertex m (mkCMV (mkCID t id) v) = Some uv /\ uv < nb_unique_vertices m.
