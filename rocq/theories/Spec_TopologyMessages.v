(** What the texts of the topology reports must say: each message names the unique vertex (or element) of its issue, and
    the components it names are the ones at fault. *)
From Coq Require Import String Ascii List Arith NArith ZArith Bool.
From Verif Require Import Base Model_Issues Types Model_Topology Model_BRep Model_Blocks Spec_Colocation Spec_Messages Spec_Topology Spec_BRep Spec_Blocks.
Import ListNotations.
Local Open Scope string_scope.

(** [n] is the label (name and identifier) of the component [id] of type [t] *)
Definition labelled (m : Model) (t : ComponentType) (id : uuid) (n : string) : Prop :=
  match t with
  | CornerT => exists c, In c (m_corners m) /\ co_id c = id /\ n = label m c
  | LineT => exists c, In c (m_lines m) /\ co_id c = id /\ n = label m c
  | SurfaceT => exists c, In c (m_surfaces m) /\ co_id c = id /\ n = label m c
  | BlockT => exists c, In c (m_blocks m) /\ co_id c = id /\ n = label m c
  | OtherT => False
  end.
(** [n] is the name, or in its absence the identifier, of the component [id] of type [t] *)
Definition name_or_id {M} (m : Model) (c : Component M) : string :=
  match co_name c with Some n => n | None => m_uuid_string m (co_id c) end.
Definition titled (m : Model) (t : ComponentType) (id : uuid) (n : string) : Prop :=
  match t with
  | CornerT => exists c, In c (m_corners m) /\ co_id c = id /\ n = name_or_id m c
  | LineT => exists c, In c (m_lines m) /\ co_id c = id /\ n = name_or_id m c
  | SurfaceT => exists c, In c (m_surfaces m) /\ co_id c = id /\ n = name_or_id m c
  | BlockT => exists c, In c (m_blocks m) /\ co_id c = id /\ n = name_or_id m c
  | OtherT => False
  end.
(** component [id] is active: one of the active components of type [t] has this identifier *)
Definition is_active (m : Model) (t : ComponentType) (id : uuid) : Prop := In id (active_ids m t).

(** ** Components without mesh, and mesh vertices without unique vertex *)
Definition not_meshed_text {M} (m : Model) (components : list (Component M)) (kind suffix : string) (id : uuid) (text : string) : Prop :=
  exists c, In c components /\ co_active c = true /\ co_id c = id /\ text = StrCat [kind; label m c; suffix].
Definition unlinked_text (v : nat) : string := StrCat ["vertex '"; str v; " is not linked to a unique vertex."].
Definition not_linked {M} (m : Model) (t : ComponentType) (components : list (Component M)) (kind : string) : uuid -> InspectionIssues nat -> Prop :=
  about m components kind "" (fun c v text => m_unique_vertex m (mkCMV (mkCID t (co_id c)) v) = None /\ text = unlinked_text v).

(** ** Links *)
Definition no_link_text (m : Model) (uv : nat) (text : string) : Prop :=
  component_mesh_vertices m uv = [] /\ text = StrCat ["unique vertex "; str uv; " is not linked to any mesh vertex."].
(** the same words are used for the two kinds of wrong links; the link named is one of the unique vertex *)
Definition wrong_link_text (m : Model) (P : ComponentMeshVertex -> Prop) (uv : nat) (text : string) : Prop :=
  exists c, In c (component_mesh_vertices m uv) /\ P c /\
    text = StrCat ["unique vertex "; str uv; " is linked to inexistant mesh vertex ["; m_cmv_string m c; "]."].

(** ** Corners *)
Definition several_corners_text (m : Model) (uv : nat) (text : string) : Prop :=
  several_corners m uv /\ text = StrCat ["unique vertex "; str uv; " is part of several Corners."].
Definition corner_embeddings_text (m : Model) (uv : nat) (text : string) : Prop :=
  exists c n, active_at m uv CornerT c /\ 1 < nb_embeddings m c /\ labelled m CornerT c n /\
    text = StrCat ["unique vertex "; str uv; " is associated to Corner"; n; ", which has several embeddings."].
Definition corner_block_text (m : Model) (uv : nat) (text : string) : Prop :=
  exists c n e, active_at m uv CornerT c /\ 1 < nb_embeddings m c /\ In (mkCID BlockT e) (embeddings m c) /\ is_active m BlockT e /\ labelled m CornerT c n /\
    text = StrCat ["unique vertex "; str uv; " is associated to Corner "; n; ", which is embedded in several components including a Block."].
Definition corner_relation_text (m : Model) (uv : nat) (text : string) : Prop :=
  exists c n, active_at m uv CornerT c /\ nb_embeddings m c = 0 /\ nb_incidences m c = 0 /\ labelled m CornerT c n /\
    text = StrCat ["unique vertex "; str uv; " is associated to Corner "; n; ", which is neither internal nor boundary."].
Definition section_corner_line_text (m : Model) (uv : nat) (text : string) : Prop :=
  exists c l n n', active_at m uv CornerT c /\ at_vertex m uv LineT l /\ ~ bounds m c l /\ labelled m CornerT c n /\ labelled m LineT l n' /\
    text = StrCat ["unique vertex "; str uv; " is associated with Corner "; n; ", part of Line "; n'; ", but is not a boundary of the Line."].
(** the number printed is the number of links of the unique vertex to the corner *)
Definition brep_corner_line_text (m : Model) (uv : nat) (text : string) : Prop :=
  exists c l n n', active_at m uv CornerT c /\ active_at m uv LineT l /\ ~ bounds m c l /\ labelled m CornerT c n /\ labelled m LineT l n' /\
    ((inside m c l /\ exists k, counts (fun x => cid_id (cmv_component x) = c) (component_mesh_vertices m uv) k /\ k <> 2 /\
        text = StrCat ["unique vertex with index "; str uv; " is associated with Corner "; n; ", which is internal to Line "; n';
          ", so Line should be closed and have two different vertices on unique vertex, but has "; str k; " vertices on it instead."]) \/
     (~ inside m c l /\
        text = StrCat ["unique vertex "; str uv; " is associated with Corner "; n; ", part of line "; n'; ", but is neither boundary nor internal of it."])).

(** ** Lines *)
Definition line_relation_text (m : Model) (uv : nat) (text : string) : Prop :=
  exists l n, active_at m uv LineT l /\ nb_embeddings m l = 0 /\ nb_incidences m l = 0 /\ labelled m LineT l n /\
    text = StrCat ["unique vertex "; str uv; " is part of Line "; n; ", which is neither embedded nor incident."].
Definition section_embedded_line_text (m : Model) (uv : nat) (text : string) : Prop :=
  exists l n, active_at m uv LineT l /\
    ((1 < nb_embeddings m l /\ labelled m LineT l n /\
        text = StrCat ["unique vertex "; str uv; " is part of line "; n; ", which has multiple embeddings."]) \/
     (nb_embeddings m l = 1 /\ 1 <= nb_incidences m l /\ labelled m LineT l n /\
        text = StrCat ["unique vertex "; str uv; " is part of Line "; n; ", which has both an embedding and incidence(s)."]) \/
     (nb_embeddings m l = 1 /\ all_surfaces_have_polygons m /\ exists s n', inside m l s /\ is_active m SurfaceT s /\ (forall t, ~ at_vertex m uv t s) /\ labelled m SurfaceT s n' /\ titled m LineT l n /\
        text = StrCat ["unique vertex "; str uv; " is part of Line "; n; " ("; m_cid_string m (mkCID LineT l); "), which is embedded in surface "; n';
                       ", but the unique vertex is not linked to the Surface mesh vertices."])).
Definition section_single_line_text (m : Model) (uv : nat) (text : string) : Prop :=
  exists l n ss, all_at m uv LineT [l] /\ is_active m LineT l /\ labelled m LineT l n /\ all_at m uv SurfaceT ss /\
    ((2 < length ss /\ text = StrCat ["unique vertex "; str uv; " is part of only one Line "; n; ", but part of more than two Surfaces"]) \/
     (1 <= nb_embeddings m l /\ all_surfaces_have_polygons m /\ ~ (exists s, ss = [s] /\ inside m l s) /\
        text = StrCat ["unique vertex "; str uv; " is part of only one Line "; n;
          ", which has embeddings, but there are more than one meshed Surface associated to the vertex, or ";
          "the Line is not internal to the meshed Surface associated to the vertex."]) \/
     (nb_embeddings m l = 0 /\ exists s n', In s ss /\ ~ bounds m l s /\ labelled m SurfaceT s n' /\
        text = StrCat ["unique vertex "; str uv; " is part of only one Line "; n;
          ", and mutiple Surfaces, but the Line is not boundary of associated Surface "; n'])).
Definition lines_corner_text (m : Model) (uv : nat) (text : string) : Prop :=
  linked_twice m uv LineT /\ (forall c, ~ at_vertex m uv CornerT c) /\
    text = StrCat ["unique vertex "; str uv; " is part of multiple Lines but is not a Corner."].
(** an embedding that is also bounded, or a surface the vertex is not linked to; both named *)
Definition brep_embedded_line_text (m : Model) (uv : nat) (text : string) : Prop :=
  exists l n e n', active_at m uv LineT l /\ labelled m LineT l n /\ In e (embeddings m l) /\ labelled m SurfaceT (cid_id e) n' /\
    ((bounds m l (cid_id e) /\
        text = StrCat ["unique vertex "; str uv; " is part of line "; n; ", which is both boundary and embedded in Surface "; n'; "."]) \/
     (~ bounds m l (cid_id e) /\ ~ at_vertex m uv (cid_type e) (cid_id e) /\
        text = StrCat ["unique vertex "; str uv; " is part of Line "; n; ", which is embedded in Surface "; n';
                       ", but the unique vertex is not linked to the Surface mesh vertices."])).
Definition brep_single_line_text (m : Model) (uv : nat) (text : string) : Prop :=
  exists l n ss bs, all_at m uv LineT [l] /\ is_active m LineT l /\ labelled m LineT l n /\ all_at m uv SurfaceT ss /\ all_at m uv BlockT bs /\
    ((exists s n', ss = [s] /\ ~ inside m l s /\ nb_embeddings m s = 0 /\ ~ bounds m l s /\ labelled m SurfaceT s n' /\
        text = StrCat ["unique vertex "; str uv; " is part of only one Line "; n; ", and only one Surface "; n';
              ", but the Line is neither embedded in the Surface, nor boundary of the Surface while the Surface is embedded in a Block."]) \/
     (exists b, ss = [] /\ bs = [b] /\ ~ inside m l b /\
        text = StrCat ["unique vertex "; str uv; " is part of only one Line "; n; ", no Surfaces, one Block, but the Line is not internal to the Block."]) \/
     (ss = [] /\ length bs <> 1 /\
        text = StrCat ["unique vertex "; str uv; " is part of only one Line "; n; ", no Surfaces, but is part of "; str (length bs); " Blocks, instead of one."]) \/
     (exists s n', 2 <= length ss /\ In s ss /\ ~ bounds m l s /\ ~ inside m l s /\ labelled m SurfaceT s n' /\
        text = StrCat ["unique vertex "; str uv; " is part of only one Line "; n;
                ", and multiple Surfaces, but the Line is neither internal nor boundary of Surface "; n'; ", in which the vertex is."])).
(** the line named is an active one of the vertex, the surface an active one not having the right number [k] of edges
    along edge 0 of the line *)
Definition line_surface_text (tl : TopoLookup) (m : Model) (uv : nat) (text : string) : Prop :=
  exists c a b s n' k, In c (m_lines m) /\ active_at m uv LineT (co_id c) /\ edge_joins m c 0 a b /\
    is_active m SurfaceT s /\ labelled m SurfaceT s n' /\
    ((bounds m (co_id c) s /\ ~ In s (map fst (me_surfaces (tl_edges tl a b))) /\
        text = StrCat ["unique vertex "; str uv; " is part of Line "; label m c; ", which is boundary of Surface "; n'; ", but Line edge 0 is not part of this surface"]) \/
     (bounds m (co_id c) s /\ In (s, k) (me_surfaces (tl_edges tl a b)) /\ k <> 1 /\
        text = StrCat ["unique vertex "; str uv; " is part of Line "; label m c; ", which is boundary of Surface "; n';
                       " but has several surface edges of this surface around Line edge 0"]) \/
     (in_surface m (co_id c) s /\ ~ In s (map fst (me_surfaces (tl_edges tl a b))) /\
        text = StrCat ["unique vertex "; str uv; " is part of Line "; label m c; ", which is embedded in Surface "; n'; ", but has no surface edge around Line edge 0"]) \/
     (in_surface m (co_id c) s /\ In (s, k) (me_surfaces (tl_edges tl a b)) /\ k <= 1 /\
        text = StrCat ["unique vertex "; str uv; " is part of Line "; label m c; ", which is embedded in Surface "; n';
                       " but doesn't cut it (should have more than 1 Surface edge around Line edge 0)"]) \/
     (nb_incidences m (co_id c) = 0 /\ (forall s', ~ in_surface m (co_id c) s') /\ In (s, k) (me_surfaces (tl_edges tl a b)) /\
        text = StrCat ["unique vertex "; str uv; " is part of Line "; label m c; ", which should be internal or boundary to Surface "; n'])).
Definition line_edge_text (tl : TopoLookup) (m : Model) (c : Component EdgedCurve) (e : nat) (text : string) : Prop :=
  exists a b, edge_joins m c e a b /\
    ((exists s n' k, In (s, k) (me_surfaces (tl_edges tl a b)) /\ is_active m SurfaceT s /\ labelled m SurfaceT s n' /\
       ((bounds m (co_id c) s /\ k <> 1 /\
           text = StrCat ["Line "; label m c; " is boundary of Surface "; n'; ", but has "; str k; " edges of this Surface around it, it should be 1."]) \/
        (~ bounds m (co_id c) s /\ inside m (co_id c) s /\ k <> 2 /\
           text = StrCat ["Line with uuid '"; m_uuid_string m (co_id c); "' is internal to Surface "; n'; ", but has "; str k;
                          " edges of this surface around it, it should be 2."]) \/
        (~ bounds m (co_id c) s /\ ~ inside m (co_id c) s /\
           text = StrCat ["Line with uuid '"; m_uuid_string m (co_id c); "' has edge with id "; str e; " in common with Surface "; n';
                          ", but is neither boundary of nor internal to it."]))) \/
     (exists s n', is_active m SurfaceT s /\ labelled m SurfaceT s n' /\ ~ In s (map fst (me_surfaces (tl_edges tl a b))) /\
       ((in_surface m (co_id c) s /\ text = StrCat ["Line "; label m c; " is embedded in Surface "; n'; " but edge "; str e; " has no common edge with the surface"]) \/
        (bounds m (co_id c) s /\ text = StrCat ["Line "; label m c; " is incident to Surface "; n'; " but edge "; str e; " has no common edge with the surface"]))) \/
     (exists b' n' k, In (b', k) (me_blocks (tl_edges tl a b)) /\ is_active m BlockT b' /\ inside m (co_id c) b' /\ k <> 1 /\ labelled m BlockT b' n' /\
        text = StrCat ["Line "; label m c; " is internal to Block "; n'; ", but has "; str k; " edges of this Block around it, it should be 1."]) \/
     (exists b', In b' (m_blocks m) /\ co_active b' = true /\ so_polyhedra (co_mesh b') <> [] /\ in_block m (co_id c) (co_id b') /\
        ~ In (co_id b') (map fst (me_blocks (tl_edges tl a b))) /\
        text = StrCat ["Line "; label m c; " is embedded in Block "; label m b'; " but edge "; str e; " has no common edge with the block"])).

(** ** Surfaces *)
Definition two_surfaces_text (m : Model) (uv : nat) (text : string) : Prop :=
  two_surfaces_without_common_line m uv /\
    text = StrCat ["unique vertex "; str uv; " is part of two Surfaces, but is associated to no Line boundary of the two Surfaces."].
Definition off_border_text (m : Model) (uv : nat) (text : string) : Prop :=
  (exists l, active_at m uv LineT l) /\
  exists s v, In s (m_surfaces m) /\ co_active s = true /\ In (mkCMV (mkCID SurfaceT (co_id s)) v) (component_mesh_vertices m uv) /\
    sm_vertex_on_border (co_mesh s) v = false /\
    text = StrCat ["Unique vertex "; str uv; " is part of a Line and of Surface "; label m s; " but the associated vertex in the Surface mesh is not on the mesh border."].
Definition surface_block_text (m : Model) (uv : nat) (text : string) : Prop :=
  exists s b n n', active_at m uv SurfaceT s /\ inside m s b /\ is_active m BlockT b /\ titled m SurfaceT s n /\ titled m BlockT b n' /\
    ((bounds m s b /\ text = StrCat ["unique vertex "; str uv; " is part of Surface "; n; " ("; m_uuid_string m s; "), which is both internal and boundary of ";
        "Block "; n'; " ("; m_uuid_string m b; ")"]) \/
     (~ bounds m s b /\ all_blocks_have_polyhedra m /\ (forall t, ~ at_vertex m uv t b) /\
        text = StrCat ["unique vertex "; str uv; " is part of Surface "; n; " ("; m_uuid_string m s; " ("; m_uuid_string m s; "), which is embedded in Block ";
                       n'; " ("; m_uuid_string m b; " ("; m_uuid_string m b; "), but the unique vertex is not linked to any of the Block vertices."])).
Definition several_surfaces_text (m : Model) (uv : nat) (text : string) : Prop :=
  two_active_surfaces m uv /\
  (((forall l, ~ at_vertex m uv LineT l) /\
    ((exists c v p s n', In c (m_corners m) /\ In (mkCMV (mkCID CornerT (co_id c)) v) (component_mesh_vertices m uv) /\ nth_error (ps_points (co_mesh c)) v = Some p /\
        active_at m uv SurfaceT s /\ ~ inside m (co_id c) s /\ labelled m SurfaceT s n' /\
        text = StrCat ["unique vertex "; str uv; " at position ["; m_point_string m p;
          "] is part of multiple active Surfaces, and not part of any Line, but is part of Corner "; label m c; ", which is not internal to active Surface "; n'; "."]) \/
     ((forall c, ~ at_vertex m uv CornerT c) /\
        text = StrCat ["unique vertex "; str uv; " is part of multiple active Surfaces, and not part of any Line, ";
                       "but not part of any Corner internal to all Surfaces."]))) \/
   (exists l c ss r, all_at m uv LineT [l] /\ at_vertex m uv CornerT c /\ all_at m uv SurfaceT ss /\ counts (fun s => bounds m l s \/ inside m l s) ss r /\
      ((nb_embeddings m c + r < length ss /\
          text = StrCat ["unique vertex "; str uv; " is part of multiple active Surfaces and only one Line, is a Corner, ";
                         "but is not internal to all the Surfaces without relationships to the Line."]) \/
       (length ss < nb_embeddings m c + r /\
          text = StrCat ["unique vertex "; str uv; " is part of multiple active Surfaces and only one Line, is a Corner, ";
                         "but is internal to Surfaces with relationships to the Line."])))).
Definition related_off_border_text (m : Model) (uv : nat) (text : string) : Prop :=
  exists s v l, In s (m_surfaces m) /\ In (mkCMV (mkCID SurfaceT (co_id s)) v) (component_mesh_vertices m uv) /\
    sm_vertex_on_border (co_mesh s) v = false /\ active_at m uv LineT l /\ (bounds m l (co_id s) \/ inside m l (co_id s)) /\
    text = StrCat ["unique vertex "; str uv; " is part of a Line and of Surface "; label m s; " but the associated vertex in the Surface mesh is not on the mesh border."].
Definition surface_facet_text (tl : TopoLookup) (m : Model) (c : Component SurfaceMesh) (p : nat) (text : string) : Prop :=
  exists uvs b n' k, polygon_joins m c p uvs /\ In (b, k) (tl_polygon_blocks tl uvs) /\ is_active m BlockT b /\ labelled m BlockT b n' /\
    ((bounds m (co_id c) b /\ k <> 1 /\
        text = StrCat ["Surface "; label m c; " is boundary of block "; n'; ", but has "; str k; " facets of this Block around it, it should be 1."]) \/
     (~ bounds m (co_id c) b /\ inside m (co_id c) b /\ k <> 2 /\
        text = StrCat ["Surface "; label m c; " is internal to block "; n'; ", but has "; str k; " facets of this Block around it, it should be 2."]) \/
     (~ bounds m (co_id c) b /\ ~ inside m (co_id c) b /\
        text = StrCat ["Surface "; label m c; " has facet with id "; str p; " in common with Block"; n'; ", but is neither boundary of nor internal to it."])).
(** Wrong elements of entirely linked components. *)
Definition elements_explained {M} (m : Model) (components : list (Component M)) (kind : string) (P : Component M -> nat -> string -> Prop) :
  uuid -> InspectionIssues nat -> Prop := about m components kind "" P.

(** ** Blocks *)
Definition two_blocks_text (m : Model) (uv : nat) (text : string) : Prop :=
  two_blocks_apart m uv /\
    text = StrCat ["unique vertex "; str uv; " is part of two Blocks, but not of a Surface boundary to the two Blocks, ";
                   "nor of a Line boundary to one of the Blocks incident Surfaces."].
(** the three ways a line is counted as being within a block: see [line_within_block] *)
Definition in_internal_surface (m : Model) (b : uuid) (c : ComponentMeshVertex) : Prop :=
  exists l, cmv_component c = mkCID LineT l /\ free_of_blocks m l /\ sides m b l 0 /\ exists s, in_surface m l s /\ inside m s b.
Definition free_in_block (m : Model) (b : uuid) (c : ComponentMeshVertex) : Prop :=
  exists l, cmv_component c = mkCID LineT l /\ free_of_blocks m l /\ sides m b l 0 /\ (forall s, ~ in_surface m l s) /\ (forall s, bounds m l s -> inside m s b) /\ nb_incidences m l = 1.
Definition between_internal_surfaces (m : Model) (b : uuid) (c : ComponentMeshVertex) : Prop :=
  exists l, cmv_component c = mkCID LineT l /\ free_of_blocks m l /\ sides m b l 0 /\ (forall s, ~ in_surface m l s) /\ (forall s, bounds m l s -> inside m s b) /\ nb_incidences m l <> 1.
(** the position is the one of a block vertex linked to the unique vertex; the numbers are the ones of [block_counts] *)
Definition block_count_text (m : Model) (uv : nat) (text : string) : Prop :=
  exists b p blk v, exists k : block_counts m uv (co_id b), exists i f s e, In b (m_blocks m) /\ active_at m uv BlockT (co_id b) /\
    In blk (m_blocks m) /\ In (mkCMV (mkCID BlockT (co_id blk)) v) (component_mesh_vertices m uv) /\ nth_error (so_points (co_mesh blk)) v = Some p /\
    ~ count_accepted k /\ Z.of_nat e = (expected k mod 2 ^ 32)%Z /\
    counts (in_internal_surface m (co_id b)) (component_mesh_vertices m uv) i /\ counts (free_in_block m (co_id b)) (component_mesh_vertices m uv) f /\
    counts (between_internal_surfaces m (co_id b)) (component_mesh_vertices m uv) s /\
    text = StrCat ["unique vertex "; str uv; " at position ["; m_point_string m p; "] is part of Block ";
      label m b; ", and has "; str (bc_corners _ _ _ k); " cmvs of corners, "; str (bc_internal _ _ _ k); " cmvs of surfaces internal to that block, "; str i;
      " cmvs of lines internal to one surface internal to that block, "; str f; " cmvs of free lines, "; str s;
      " cmvs of lines boundary to several internal surfaces, "; str (bc_bounding _ _ _ k);
      " cmvs of surfaces boundary to the block, and "; str (bc_sides _ _ _ k);
      " cmvs counted for lines on the boundary, with "; str (bc_blocks _ _ _ k); " Block CMVs (expected "; str e; " with valid topology)."].
Definition surface_relation_text (tl : TopoLookup) (m : Model) (uv : nat) (text : string) : Prop :=
  exists s n, active_at m uv SurfaceT s /\ labelled m SurfaceT s n /\
    ((wrongly_bounding m s /\
        text = StrCat ["unique vertex with index "; str uv; " is part of Surface "; n; ", which should not be boundary of any Block."]) \/
     (without_relation tl m s /\
        text = StrCat ["unique vertex "; str uv; " is part of Surface "; n; ", which is not internal to a Block while it should be."])).
Definition single_surface_text (m : Model) (uv : nat) (text : string) : Prop :=
  exists s bs, all_at m uv SurfaceT [s] /\ is_active m SurfaceT s /\ in_closed_set m s /\ all_at m uv BlockT bs /\
    ((2 < length bs /\ text = StrCat ["unique vertex "; str uv; " is part of only one Surface, but is part of more than two Blocks."]) \/
     (1 <= nb_embeddings m s /\ (exists b, bs = [b] /\ ~ inside m s b) /\
        text = StrCat ["unique vertex "; str uv; " is part of only one Surface, which is embedded, and one Block, ";
                       "but the Surface is not internal to the Block."]) \/
     (1 <= nb_embeddings m s /\ length bs <> 1 /\
        text = StrCat ["unique vertex "; str uv; " is part of only one Surface, which is embedded, but not part of only one Block."]) \/
     (nb_embeddings m s = 0 /\ exists b n n', In b bs /\ ~ bounds m s b /\ labelled m SurfaceT s n /\ labelled m BlockT b n' /\
        text = StrCat ["unique vertex "; str uv; " is part of only one Surface"; n; " which is not embedded, but not boundary either of Block "; n';
                       ", in which the vertex is."])).
Definition free_boundary_text (m : Model) (id : uuid) (text : string) : Prop :=
  exists b s n', In b (m_blocks m) /\ co_active b = true /\ co_id b = id /\ is_active m SurfaceT s /\ bounds m s id /\ labelled m SurfaceT s n' /\
    (exists l, bounds m l s /\ forall s', s' <> s -> bounds m s' id -> ~ bounds m l s') /\
    text = StrCat ["Block "; label m b; " boundary Surface "; n';
        " has a boundary Line not incident to any other Block boundary Surface. Either the surface shouldn't be boundary, or ";
        "there is a hole in the block boundaries"].
Definition not_closed_text (m : Model) (id : uuid) (text : string) : Prop :=
  exists b, In b (m_blocks m) /\ co_active b = true /\ co_id b = id /\
    text = StrCat ["Block "; label m b; " boundaries are not closed or form several closed volumes."].

(** ** Whole reports *)
Definition links_explained (m : Model) (r : LinkIssues) : Prop :=
  explained "unique vertices not linked to Component" (no_link_text m) (li_not_linked r) /\
  explained "unique vertices linked to inexistant Component mesh vertex" (fun uv => wrong_link_text m (fun c => ~ vertex_exists m c) uv) (li_inexistant r) /\
  explained "unique vertices with non-bijective links to Component mesh vertex" (fun uv => wrong_link_text m (linked_back_elsewhere m uv) uv) (li_nonbijective r).
Definition corners_explained (dot multiply : string) (embedding_text line_text : Model -> nat -> string -> Prop) (m : Model) (r : CornersTopology) : Prop :=
  explained "Corners without mesh (uuids listed)" (not_meshed_text m (m_corners m) "Corner " (" is not meshed" ++ dot)) (ct_not_meshed r) /\
  explained_map "Corners containing mesh vertices not linked to unique vertices" (not_linked m CornerT (m_corners m) "Corner ") (ct_not_linked r) /\
  explained "unique vertices shared by several Corners" (several_corners_text m) (ct_multiple_corners r) /\
  explained multiply (embedding_text m) (ct_multiple_embeddings r) /\
  explained "unique vertices linked to a Corner with neither boundary nor internal status" (corner_relation_text m) (ct_not_internal_nor_boundary r) /\
  explained "unique vertices linked to a Line's Corner without boundary status" (line_text m) (ct_not_boundary_line r).
Definition section_corners_explained : Model -> CornersTopology -> Prop :=
  corners_explained "" "unique vertices linked to a Corner with several embeddings" corner_embeddings_text section_corner_line_text.
Definition brep_corners_explained : Model -> CornersTopology -> Prop :=
  corners_explained "." "unique vertices linked to a Corner embedded in more than two components" corner_block_text brep_corner_line_text.
Definition section_lines_explained (m : Model) (r : SectionLinesTopology) : Prop :=
  explained "Lines without mesh (uuids listed)" (not_meshed_text m (m_lines m) "Line " " is not meshed") (sl_not_meshed r) /\
  explained_map "Lines with mesh vertices not linked to a unique vertex" (not_linked m LineT (m_lines m) "Line ") (sl_not_linked r) /\
  explained "unique vertices linked to a Line incorrectly linked to a surface" (line_relation_text m) (sl_wrong_relationship r) /\
  explained "unique vertices linked to a Line with invalid internal topology" (section_embedded_line_text m) (sl_invalid_embeddings r) /\
  explained "unique vertices linked to a single invalid Line" (section_single_line_text m) (sl_single_invalid r) /\
  explained "unique vertices linked to multiple Lines but not to a Corner" (lines_corner_text m) (sl_several_not_corner r).
Definition section_surfaces_explained (m : Model) (r : SectionSurfacesTopology) : Prop :=
  explained "Surfaces without mesh (uuids listed)" (not_meshed_text m (m_surfaces m) "Surface " " is not meshed") (ss_not_meshed r) /\
  explained_map "Surfaces containing mesh vertices not linked to unique vertices" (not_linked m SurfaceT (m_surfaces m) "Surface ") (ss_not_linked r) /\
  explained "unique vertices linked to a Surface with invalid internal topology" (two_surfaces_text m) (ss_invalid_embeddings r) /\
  explained "unique vertices linked to a Line but not to a Surface border" (off_border_text m) (ss_not_on_border r).
Definition section_topology_explained (m : Model) (r : SectionTopology) : Prop :=
  section_corners_explained m (st_corners r) /\ section_lines_explained m (st_lines r) /\ section_surfaces_explained m (st_surfaces r) /\
  links_explained m (st_links r).
Definition brep_lines_explained (tl : TopoLookup) (m : Model) (r : BRepLinesTopology) : Prop :=
  explained "Lines without mesh (uuids listed)" (not_meshed_text m (m_lines m) "Line " " is not meshed") (bl_not_meshed r) /\
  explained_map "Lines with mesh vertices not linked to a unique vertex" (not_linked m LineT (m_lines m) "Line ") (bl_not_linked r) /\
  explained "unique vertices linked to a Line with an incorrect relationship to a Surface" (line_surface_text tl m) (bl_wrong_relationship r) /\
  explained "unique vertices linked to a Line with invalid internal topology" (brep_embedded_line_text m) (bl_invalid_embeddings r) /\
  explained "unique vertices linked to a single invalid Line" (brep_single_line_text m) (bl_single_invalid r) /\
  explained "unique vertices linked to multiple Lines but not to a Corner" (lines_corner_text m) (bl_several_not_corner r) /\
  explained_map "Line edges with incorrect surrounding component edges" (elements_explained m (m_lines m) "Line " (line_edge_text tl m)) (bl_wrong_edges r).
Definition brep_surfaces_explained (tl : TopoLookup) (m : Model) (r : BRepSurfacesTopology) : Prop :=
  explained "Surface without mesh (uuids listed)" (not_meshed_text m (m_surfaces m) "Surface " " is not meshed") (bs_not_meshed r) /\
  explained_map "Surfaces containing mesh vertices not linked to unique vertices" (not_linked m SurfaceT (m_surfaces m) "Surface ") (bs_not_linked r) /\
  explained "unique vertices linked to a Surface with invalid internal topology" (surface_block_text m) (bs_invalid_embeddings r) /\
  explained "unique vertices improperly linked to several Surfaces" (several_surfaces_text m) (bs_several_invalid r) /\
  explained "unique vertices linked to a Line but not to a Surface border" (related_off_border_text m) (bs_not_on_border r) /\
  explained_map "Surface polygons with invalid surrounding facets" (elements_explained m (m_surfaces m) "Surface " (surface_facet_text tl m)) (bs_wrong_facets r).
Definition brep_blocks_explained (tl : TopoLookup) (m : Model) (r : BRepBlocksTopology) : Prop :=
  explained "Blocks without mesh (uuid listed)" (not_meshed_text m (m_blocks m) "Block " " is not meshed.") (bb_not_meshed r) /\
  explained_map "Blocks mesh vertices not linked to unique vertices" (not_linked m BlockT (m_blocks m) "Block ") (bb_not_linked r) /\
  explained "Blocks with boundary surface(s) not linked to another boundary Surface by a line (Surface shouldn't be boundary or there is a hole in the block boundaries)"
    (free_boundary_text m) (bb_wrong_boundary r) /\
  explained "Blocks with non-closed boundary Surfaces" (not_closed_text m) (bb_not_closed r) /\
  explained "ModelBoundaries do not form a valid closed surface" (fun i text => i = 0 /\ text = "ModelBoundaries don't form a valid closed surface.") (bb_model_boundaries r) /\
  explained "unique vertices shared by two Blocks without a boundary Surface or incident Block Line" (two_blocks_text m) (bb_two_blocks r) /\
  explained "unique vertices in a Block with incorrect Component mesh vertices count" (block_count_text m) (bb_wrong_count r) /\
  explained "unique vertices linked to a single Surface that is invalid" (single_surface_text m) (bb_single_invalid r) /\
  explained "unique vertices linked to Surfaces with neither boundary nor internal status" (surface_relation_text tl m) (bb_wrong_relationship r) /\
  explained "unique vertices linked to multiple Surfaces in an invalid way" (fun _ _ => False) (bb_multiple_invalid r).
Definition brep_topology_explained (tl : TopoLookup) (m : Model) (r : BRepTopology) : Prop :=
  brep_corners_explained m (bt_corners r) /\ brep_lines_explained tl m (bt_lines r) /\ brep_surfaces_explained tl m (bt_surfaces r) /\
  brep_blocks_explained tl m (bt_blocks r) /\ links_explained m (bt_links r).
