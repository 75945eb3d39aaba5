(** What it means to glue surfaces of a model along their unique vertices. *)
From Coq Require Import String List Arith Bool.
From Verif Require Import Base Model_Issues Types Model_BRep.
Import ListNotations.

(** the surfaces of the model named by a list *)
Definition surfaces_of (m : Model) (ids : list uuid) (cs : list (Component SurfaceMesh)) : Prop :=
  Forall2 (fun s c => In c (m_surfaces m) /\ co_id c = s) ids cs.
(** their polygons, one surface after the other, and the vertices of these polygons one after the other *)
Definition polygons_of (cs : list (Component SurfaceMesh)) : list (list nat) := flat_map (fun c => sm_polygons (co_mesh c)) cs.
Definition corners_of (cs : list (Component SurfaceMesh)) : list (Component SurfaceMesh * nat) :=
  flat_map (fun c => map (pair c) (concat (sm_polygons (co_mesh c)))) cs.
(** the unique vertex and the point of a vertex of a surface *)
Definition link_of (m : Model) (x : Component SurfaceMesh * nat) : option nat := m_unique_vertex m (mkCMV (mkCID SurfaceT (co_id (fst x))) (snd x)).
Definition point_at (x : Component SurfaceMesh * nat) : option Point := nth_error (sm_points (co_mesh (fst x))) (snd x).

(** [g] has the polygons of [cs]; polygon vertices are identified when, and only when, they have the same unique vertex;
    vertices are numbered as they appear, and each has the point of the first polygon vertex it stands for *)
Record glued (m : Model) (cs : list (Component SurfaceMesh)) (g : FusedSurface) : Prop := {
  gl_shape : map (@length nat) (fs_polygons g) = map (@length nat) (polygons_of cs);
  gl_glue : forall n1 n2 w1 w2 x1 x2,
    nth_error (concat (fs_polygons g)) n1 = Some w1 -> nth_error (concat (fs_polygons g)) n2 = Some w2 ->
    nth_error (corners_of cs) n1 = Some x1 -> nth_error (corners_of cs) n2 = Some x2 ->
    (w1 = w2 <-> link_of m x1 = link_of m x2);
  gl_numbering : forall n w w', nth_error (concat (fs_polygons g)) n = Some w -> w' < w ->
    exists n', n' < n /\ nth_error (concat (fs_polygons g)) n' = Some w';
  gl_points : forall w p, nth_error (fs_points g) w = Some p <->
    exists n x, nth_error (concat (fs_polygons g)) n = Some w /\ (forall n', n' < n -> nth_error (concat (fs_polygons g)) n' <> Some w) /\
      nth_error (corners_of cs) n = Some x /\ point_at x = Some p }.
(** linked polygon vertices with the same unique vertex are at the same point *)
Definition glue_at_same_points (m : Model) (cs : list (Component SurfaceMesh)) : Prop :=
  forall x1 x2, In x1 (corners_of cs) -> In x2 (corners_of cs) -> link_of m x1 <> None -> link_of m x1 = link_of m x2 -> point_at x1 = point_at x2.
Definition all_corners_linked (m : Model) (cs : list (Component SurfaceMesh)) : Prop := forall x, In x (corners_of cs) -> link_of m x <> None.
