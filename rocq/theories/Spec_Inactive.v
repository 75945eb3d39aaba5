(** Two models that only differ by their inactive components (C68). *)
From Coq Require Import String Ascii List Arith NArith ZArith Bool Lia.
From Verif Require Import Base Model_Issues Types Model_Intersections.
Import ListNotations.
Local Open Scope string_scope.

(** the same component, or twice an inactive component: same identifier, any name, any mesh *)
Definition same_or_inactive {M} (c c' : Component M) : Prop :=
  c = c' \/ (co_id c = co_id c' /\ co_active c = false /\ co_active c' = false).
(** same unique vertices, same relationships, same active components in the same order *)
Record same_but_inactive (m m' : Model) : Prop := {
  sb_corners : Forall2 same_or_inactive (m_corners m) (m_corners m');
  sb_lines : Forall2 same_or_inactive (m_lines m) (m_lines m');
  sb_surfaces : Forall2 same_or_inactive (m_surfaces m) (m_surfaces m');
  sb_blocks : Forall2 same_or_inactive (m_blocks m) (m_blocks m');
  sb_boundaries : m_model_boundaries m = m_model_boundaries m';
  sb_cmvs : m_cmvs m = m_cmvs m';
  sb_unique : m_unique_vertex m = m_unique_vertex m';
  sb_boundary_rel : m_boundary_rel m = m_boundary_rel m';
  sb_internal_rel : m_internal_rel m = m_internal_rel m';
  sb_missing : m_missing_exn m = m_missing_exn m';
  sb_uuid_string : m_uuid_string m = m_uuid_string m';
  sb_point_string : m_point_string m = m_point_string m';
  sb_cmv_string : m_cmv_string m = m_cmv_string m';
  sb_cid_string : m_cid_string m = m_cid_string m' }.
(** the trees were built from active surfaces *)
Definition only_active_surfaces (m : Model) (trees : Trees) : Prop :=
  forall id, In id (tr_uuids trees) -> exists s, In s (m_surfaces m) /\ co_active s = true /\ co_id s = id.
