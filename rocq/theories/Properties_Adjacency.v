(** C09 - C12 (and the adjacency part of C44). *)
From Coq Require Import String Ascii List Arith NArith ZArith Bool Lia Sorted Floats.SpecFloat.
From Verif Require Import Base Model_Issues Types Model_Colocation Model_Cycles Model_Adjacency Spec_Colocation Spec_Maps
  Spec_Cycles Spec_Adjacency Proof_Colocation2 Proof_Cycles Proof_Adjacency.
Import ListNotations.
Open Scope list_scope.

(** C09 *)
Theorem C09_surface_adjacency : forall name m, edge_adjacency_in_range m ->
  exists r b, polygon_edges_with_wrong_adjacency name m = Ok r /\ lists_exactly lex_lt (wrong_edge m) (ii_issues r) /\
    surface_has_wrong_adjacencies m = Ok b /\ (b = true <-> ii_issues r <> []).
Proof. exact surface_adjacency_spec. Qed.
Print Assumptions C09_surface_adjacency.

(** C10 *)
Theorem C10_solid_adjacency : forall name m, solid_well_formed m ->
  exists r b, polyhedron_facets_with_wrong_adjacency name m = Ok r /\ lists_exactly lex_lt (wrong_facet m) (ii_issues r) /\
    solid_has_wrong_adjacencies m = Ok b /\ (b = true <-> ii_issues r <> []).
Proof. exact solid_adjacency_spec. Qed.
Print Assumptions C10_solid_adjacency.

(** The comparison of facets is the comparison of cycles, whatever vertex each facet starts from. *)
Theorem C10_opposite_facets : forall a b, a <> [] -> NoDup a -> (is_opposite a b = true <-> opposite_cycle a b).
Proof. exact is_opposite_iff. Qed.
Print Assumptions C10_opposite_facets.

(** C11 *)
Theorem C11_C44_surface_borders : forall lk m d, unique_ids m -> lookup_right m lk ->
  (forall s, In s (m_surfaces m) -> co_active s = true ->
     edge_adjacency_in_range (co_mesh s) /\ below_2_32 (2 * length (all_polygon_edges (co_mesh s)))) ->
  exists r, add_surfaces_edges_with_wrong_adjacencies lk m (new_issues_map d) = Ok r /\
    map_reports r (surface_adjacency_report m).
Proof. exact surfaces_adjacency_map. Qed.
Print Assumptions C11_C44_surface_borders.

(** C12 *)
Theorem C12_C44_block_borders : forall lk m d, unique_ids m -> lookup_right m lk ->
  (forall b, In b (m_blocks m) -> co_active b = true ->
     solid_well_formed (co_mesh b) /\ below_2_32 (2 * length (all_polyhedron_facets (co_mesh b)))) ->
  exists r, add_blocks_facets_with_wrong_adjacencies lk m (new_issues_map d) = Ok r /\
    map_reports r (block_adjacency_report m).
Proof. exact blocks_adjacency_map. Qed.
Print Assumptions C12_C44_block_borders.

(** A block whose vertices have no unique vertex gets no border issue. *)
Theorem C12_unlinked_block_is_silent : forall m b f,
  (forall v, m_unique_vertex m (mkCMV (mkCID BlockT (co_id b)) v) = None) ->
  polyhedron_facet_vertices (co_mesh b) f <> [] -> ~ wrong_border_facet m b f.
Proof. exact unlinked_block_silent. Qed.
Print Assumptions C12_unlinked_block_is_silent.

(** ** Concrete instances *)
Definition zero := S754_zero false.
(** triangles 0 1 2 and 2 1 3 and 5 6 7; 0-1 right, edge 0 of triangle 2 claims polygon 0 *)
Definition ex_surface : SurfaceMesh :=
  mkSurface 3 (repeat [zero] 8) [[0; 1; 2]; [2; 1; 3]; [5; 6; 7]]
    (fun e => match e with (0, 1) => Some 1 | (1, 0) => Some 0 | (2, 0) => Some 0 | _ => None end)
    [] (fun _ => false) (fun _ => zero) (fun _ => Ok []) (fun _ => false).
Example ex_surface_ok : edge_adjacency_in_range ex_surface.
Proof.
  intros [p e] q _ H. cbn in H.
  destruct p as [|[|[|p]]]; destruct e as [|[|e]]; cbn in H; try discriminate; injection H as <-; cbn; lia.
Qed.
Example ex_surface_result : exists r, polygon_edges_with_wrong_adjacency "" ex_surface = Ok r /\ ii_issues r = [(2, 0)].
Proof. eexists. split; vm_compute; reflexivity. Qed.

(** two tetrahedra glued on a facet given from different start vertices, one wrong adjacency *)
Definition ex_solid : SolidMesh :=
  mkSolid (repeat [zero] 5)
    [mkPolyhedron [0; 1; 2; 3] [[1; 3; 2]; [0; 2; 3]; [3; 1; 0]; [0; 1; 2]] [];
     mkPolyhedron [1; 2; 3; 4] [[2; 3; 1]; [1; 4; 2]; [4; 3; 2]; [1; 3; 4]] []]
    (fun f => match f with (0, 0) => Some 1 | (1, 0) => Some 0 | (1, 1) => Some 0 | _ => None end)
    [] (fun _ => false) (fun _ => zero) (fun _ => zero) (fun _ => Ok []) (fun _ _ => Ok []).
Example ex_solid_ok : solid_well_formed ex_solid.
Proof.
  split.
  - intros [p f] q _ H. cbn in H.
    destruct p as [|[|p]]; destruct f as [|[|f]]; cbn in H; try discriminate; injection H as <-; cbn; lia.
  - intros [p f] [Hp Hf]. cbn in Hp, Hf. destruct p as [|[|p]]; [| |lia];
      (destruct f as [|[|[|[|f]]]]; cbn in Hf |- *; [| | | |lia]);
      (split; [discriminate|repeat constructor; cbn; intuition discriminate]).
Qed.
Example ex_solid_result : exists r, polyhedron_facets_with_wrong_adjacency "" ex_solid = Ok r /\ ii_issues r = [(1, 1)].
Proof. eexists. split; vm_compute; reflexivity. Qed.

(** a triangle with three border edges, one of which is on the only line; a tetrahedron with one facet on the triangle *)
Definition ex_tri : SurfaceMesh :=
  mkSurface 3 (repeat [zero] 3) [[0; 1; 2]] (fun _ => None)
    [] (fun _ => false) (fun _ => zero) (fun _ => Ok []) (fun _ => false).
Definition ex_tet : SolidMesh :=
  mkSolid (repeat [zero] 4) [mkPolyhedron [0; 1; 2; 3] [[1; 3; 2]; [0; 2; 3]; [3; 1; 0]; [0; 1; 2]] []] (fun _ => None)
    [] (fun _ => false) (fun _ => zero) (fun _ => zero) (fun _ => Ok []) (fun _ _ => Ok []).
Definition ex_border_model : Model :=
  mkModel [] [mkComponent 1 None true (mkCurve (repeat [zero] 2) [(0, 1)] (fun _ => zero) (fun _ => false))]
    [mkComponent 2 None true ex_tri] [mkComponent 3 None true ex_tet] [] [[]; []; []]
    (fun c => match cid_id (cmv_component c), cmv_vertex c with
       | 3, 3 => None | 1, 0 => Some 1 | 1, 1 => Some 0 | _, v => Some v end)
    [] [] OpenGeodeExn (fun _ => ""%string) (fun _ => ""%string) (fun _ => ""%string) (fun _ => ""%string).
Definition ex_lookup : Lookup :=
  mkLookup (fun ab => Ok (if Nat.eqb (fst ab + snd ab) 1 then [(1, 0)] else []))
           (fun uvs => Ok (if cycle_eqb (vertex_cycle [0; 1; 2]) (vertex_cycle uvs) then [(2, 0)] else [])).
Lemma soc_cycle_sym : forall A (a b : list A), same_cycle a b -> same_cycle b a.
Proof.
  intros A a b [H|H]; [left; apply soc_sym; exact H|right]. apply soc_rev in H. rewrite rev_involutive in H. apply soc_sym. exact H.
Qed.
Example ex_lookup_right : lookup_right ex_border_model ex_lookup.
Proof.
  split.
  - intros a b Ha Hb. cbn in Ha, Hb. exists (if Nat.eqb (a + b) 1 then [(1, 0)] else []). split; [reflexivity|].
    unfold joined_by_a_line. destruct (Nat.eqb_spec (a + b) 1) as [E|E]; (split; [|try (intros _; discriminate)]); [|intros K; exfalso; apply K; reflexivity|].
    + intros _. eexists. exists 0, 0, 1. split; [left; reflexivity|]. split; [reflexivity|]. cbn.
      destruct a as [|[|a]]; destruct b as [|[|b]]; try lia; auto.
    + intros (c & i & v & w & [<-|[]] & Hi & H). cbn in Hi. destruct i as [|i]; [|destruct i; discriminate]. injection Hi as <- <-.
      cbn in H. destruct H as [[H1 H2]|[H1 H2]]; injection H1 as <-; injection H2 as <-; cbn in E; lia.
  - intros uvs. exists (if cycle_eqb (vertex_cycle [0; 1; 2]) (vertex_cycle uvs) then [(2, 0)] else []). split; [reflexivity|].
    assert (N : NoDup [0; 1; 2]) by (repeat constructor; cbn; intuition discriminate).
    unfold covered_by_a_surface. destruct (cycle_eqb (vertex_cycle [0; 1; 2]) (vertex_cycle uvs)) eqn:E.
    + split; [|discriminate]. intros _. apply cycle_eqb_eq in E. apply vertex_cycle_iff in E; [|exact N].
      eexists. exists 0. split; [left; reflexivity|]. split; [cbn; lia|]. exists [0; 1; 2]. split; [reflexivity|].
      apply soc_cycle_sym. exact E.
    + split; [intros K; exfalso; apply K; reflexivity|]. intros (c & p & [<-|[]] & Hp & cycle & Hm & Hs). exfalso. cbn in Hp.
      destruct p as [|p]; [|lia]. cbn in Hm. destruct cycle as [|x [|y [|z [|]]]]; try discriminate.
      injection Hm as <- <- <-. apply soc_cycle_sym in Hs. apply vertex_cycle_iff in Hs; [|exact N].
      apply cycle_eqb_eq in Hs. congruence.
Qed.
Example ex_border_hypotheses : unique_ids ex_border_model /\
  (forall s, In s (m_surfaces ex_border_model) -> co_active s = true ->
     edge_adjacency_in_range (co_mesh s) /\ below_2_32 (2 * length (all_polygon_edges (co_mesh s)))) /\
  (forall b, In b (m_blocks ex_border_model) -> co_active b = true ->
     solid_well_formed (co_mesh b) /\ below_2_32 (2 * length (all_polyhedron_facets (co_mesh b)))).
Proof.
  split; [unfold unique_ids; cbn; repeat constructor; cbn; intuition discriminate|]. split.
  - intros s [<-|[]] _. split; [|reflexivity]. intros e q _ H. discriminate.
  - intros b [<-|[]] _. split; [|reflexivity]. split; [intros f q _ H; discriminate|].
    intros [p f] [Hp Hf]. cbn in Hp, Hf. destruct p as [|p]; [|lia].
    destruct f as [|[|[|[|f]]]]; cbn in Hf |- *; [| | | |lia]; (split; [discriminate|repeat constructor; cbn; intuition discriminate]).
Qed.
Example ex_border_results :
  (exists r, add_surfaces_edges_with_wrong_adjacencies ex_lookup ex_border_model (new_issues_map "") = Ok r /\
     map (fun kv => (fst kv, ii_issues (snd kv))) (im_map r) = [(2, [(0, 1); (0, 2)])]) /\
  (exists r, add_blocks_facets_with_wrong_adjacencies ex_lookup ex_border_model (new_issues_map "") = Ok r /\ im_map r = []).
Proof. split; eexists; split; vm_compute; reflexivity. Qed.
