(** C69: vertices and edges are reported as non manifold exactly when the elements around them form several fans. *)
From Coq Require Import String Ascii List Arith NArith ZArith Bool Lia Sorted Permutation Relations.
From Verif Require Import Base BaseFacts Model_Issues Types Model_Colocation Model_Cycles Model_Hash Model_Manifold
  Spec_Colocation Spec_Maps Spec_Cycles Spec_Adjacency Spec_Manifold Spec_Fans
  Proof_Adjacency Proof_Hash Proof_Manifold Proof_Manifold2 Proof_Fans Properties_Manifold.
Import ListNotations.
Open Scope list_scope.

Theorem C69_surface_vertices : forall geo m, surface_vertices_in_range m -> turns_around_surface_vertices m ->
  (forall v, v < length (sm_points m) -> sm_around_vertex m v = Throw OpenGeodeExn \/ exists fan, sm_around_vertex m v = Ok fan) ->
  exists r b, surface_non_manifold_vertices geo m = Ok r /\
    lists_exactly lt (fun v => surface_vertex_with_several_fans m v /\ exists fan, sm_around_vertex m v = Ok fan) (ii_issues r) /\
    surface_vertices_are_manifold m = Ok b /\ (b = true <-> ii_issues r = []).
Proof. exact surface_vertices_fans. Qed.
Print Assumptions C69_surface_vertices.
Theorem C69_solid_vertices : forall geo m, solid_vertices_in_range m -> turns_around_solid_vertices m ->
  (forall v, v < length (so_points m) -> exists fan, so_around_vertex m v = Ok fan) ->
  exists r b, solid_non_manifold_vertices geo m = Ok r /\
    lists_exactly lt (solid_vertex_with_several_fans m) (ii_issues r) /\
    solid_vertices_are_manifold m = Ok b /\ (b = true <-> ii_issues r = []).
Proof. exact solid_vertices_fans. Qed.
Print Assumptions C69_solid_vertices.
Theorem C69_solid_edges : forall m, simple_edges m -> turns_around_solid_edges m ->
  exists r el, solid_non_manifold_edges m = Ok r /\ ii_issues r = map snd el /\
    lists_exactly (fun x y => lex_lt (fst x) (fst y)) (fun eab => failed_edge m eab \/
      (solid_edge_with_several_fans m eab /\ exists fan, so_around_edge m (snd eab) (fst (fst eab)) = Ok fan)) el.
Proof. exact solid_edges_fans. Qed.
Print Assumptions C69_solid_edges.
Theorem C69_solid_edges_yes_no : forall m, simple_edges m -> turns_around_solid_edges m -> (forall eab, ~ failed_edge m eab) ->
  exists b, solid_edges_are_manifold m = Ok b /\ (b = true <-> forall eab, ~ solid_edge_with_several_fans m eab).
Proof. exact solid_edges_fans_bool. Qed.
Print Assumptions C69_solid_edges_yes_no.
(** The answers do not depend on the polygons or polyhedra from which the mesh starts turning. *)
Theorem C69_surface_starting_polygons : forall geo m m', same_surface_but_turns m m' -> surface_vertices_in_range m ->
  turns_around_surface_vertices m -> turns_around_surface_vertices m' ->
  (forall v, v < length (sm_points m) -> sm_around_vertex m v = Throw OpenGeodeExn \/ exists fan, sm_around_vertex m v = Ok fan) ->
  exists r r', surface_non_manifold_vertices geo m = Ok r /\ surface_non_manifold_vertices geo m' = Ok r' /\
    ii_issues r' = ii_issues r /\ surface_vertices_are_manifold m' = surface_vertices_are_manifold m.
Proof. exact surface_start. Qed.
Print Assumptions C69_surface_starting_polygons.
Theorem C69_solid_starting_polyhedra : forall geo m m', same_solid_but_turns m m' -> solid_vertices_in_range m ->
  turns_around_solid_vertices m -> turns_around_solid_vertices m' ->
  (forall v, v < length (so_points m) -> (exists fan, so_around_vertex m v = Ok fan) /\ exists fan, so_around_vertex m' v = Ok fan) ->
  exists r r', solid_non_manifold_vertices geo m = Ok r /\ solid_non_manifold_vertices geo m' = Ok r' /\
    ii_issues r' = ii_issues r /\ solid_vertices_are_manifold m' = solid_vertices_are_manifold m.
Proof. exact solid_start. Qed.
Print Assumptions C69_solid_starting_polyhedra.

(** ** Concrete instances *)
(** Checking that a list is one fan: its elements are linked to the first one and the others are on another side. *)
Lemma one_fan_check : forall A (P : A -> Prop) (step : A -> A -> Prop) x0 fan (side : A -> bool), P x0 -> NoDup fan -> side x0 = true ->
  (forall x y, P x -> P y -> step x y -> side x = side y) ->
  (forall x, P x -> (side x = true <-> In x fan)) ->
  (forall x, In x fan -> P x /\ connected P step x0 x) ->
  lists_once (fun x => P x /\ connected P step x0 x) fan.
Proof.
  intros A P step x0 fan side H0 Hn Hs Hstep Hin Hf. split; [exact Hn|]. intros x. split; [apply Hf|].
  intros [Hx Hc]. apply (Hin x Hx). rewrite <- Hs. symmetry. clear -Hc Hstep. induction Hc as [x y (H1 & H2 & H3)|x|x y Hc IH|x y z Hc1 IH1 Hc2 IH2]; auto; congruence.
Qed.
Definition geo0 : Geometry := mkGeometry (fun _ => mkColocated [] []) (fun _ _ => true) (fun _ => ""%string).

(** an hourglass: two adjacent triangles and a lonely one at vertex 0 *)
Definition hourglass_from (around0 : list PolygonVertex) : SurfaceMesh :=
  surface_of 6 [[0; 1; 2]; [0; 2; 3]; [0; 4; 5]]
    (fun e => match e with (0, 2) => Some 1 | (1, 0) => Some 0 | _ => None end)
    (fun v => match v with
       | 0 => Ok around0 | 1 => Ok [(0, 1)] | 2 => Ok [(1, 1); (0, 2)] | 3 => Ok [(1, 2)] | 4 => Ok [(2, 1)] | _ => Ok [(2, 2)] end).
Definition hourglass := hourglass_from [(1, 0); (0, 0)].
Ltac corners H := let H1 := fresh in let H2 := fresh in destruct H as [H1 H2]; apply in_all_polygon_edges in H1; vm_compute in H1, H2;
  repeat (destruct H1 as [<-|H1]; [try discriminate H2|]); try destruct H1.
Lemma hourglass_turns : forall f, (f = [(1, 0); (0, 0)] \/ f = [(2, 0)]) -> turns_around_surface_vertices (hourglass_from f).
Proof.
  intros f Hf v fan Hv E.
  assert (D : exists x0, surface_corner (hourglass_from f) v x0 /\ exists side, side x0 = true /\ NoDup fan /\
     (forall x y, surface_corner (hourglass_from f) v x -> surface_corner (hourglass_from f) v y ->
        crosses_edge_at (hourglass_from f) v x y -> side x = side y) /\
     (forall x, surface_corner (hourglass_from f) v x -> (side x = true <-> In x fan)) /\
     (forall x, In x fan -> surface_corner (hourglass_from f) v x /\
        connected (surface_corner (hourglass_from f) v) (crosses_edge_at (hourglass_from f) v) x0 x)).
  2:{ destruct D as (x0 & H0 & side & H1 & H2 & H3 & H4 & H5). right. exists x0. split; [exact H0|].
      apply (one_fan_check _ _ _ x0 fan side); assumption. }
  assert (C : forall w c, In c (all_polygon_edges (hourglass_from f)) -> polygon_vertex (hourglass_from f) c = w ->
     surface_corner (hourglass_from f) w c) by (intros w c H1 H2; split; [apply in_all_polygon_edges; exact H1|exact H2]).
  assert (Cross : forall w c c', crosses_edge_at (hourglass_from f) w c c' -> (fst c = 0 /\ fst c' = 1) \/ (fst c = 1 /\ fst c' = 0)).
  { intros w c c' (e & K1 & K2 & _ & K3). apply in_all_polygon_edges in K1. vm_compute in K1.
    repeat (destruct K1 as [<-|K1]; [cbn in K2, K3; first [discriminate K3|injection K3 as <-; rewrite <- K2; tauto]|]). destruct K1. }
  pose (side := fun c : PolygonVertex => if Nat.eqb (fst c) 2 then (match f with [(2, 0)] => true | _ => false end)
     else negb (match f with [(2, 0)] => true | _ => false end)).
  destruct v as [|[|[|[|[|[|v]]]]]]; [..|cbn in Hv; lia]; cbn in E; injection E as <-.
  - exists (hd (0, 0) f). split; [destruct Hf as [->| ->]; apply C; vm_compute; tauto|]. exists side.
    split; [destruct Hf as [->| ->]; reflexivity|].
    split; [destruct Hf as [->| ->]; repeat constructor; cbn; intuition discriminate|].
    split; [intros x y _ _ K; apply Cross in K; unfold side; destruct K as [[-> ->]|[-> ->]]; reflexivity|].
    split.
    + intros x Hx. corners Hx; destruct Hf as [->| ->]; cbn; intuition discriminate.
    + intros x Hx. destruct Hf as [->| ->]; cbn [In hd] in *.
      * destruct Hx as [<-|[<-|[]]]; (split; [apply C; vm_compute; tauto|]); [apply rst_refl|]. apply rst_step.
        split; [apply C; vm_compute; tauto|]. split; [apply C; vm_compute; tauto|]. exists (1, 0).
        split; [apply in_all_polygon_edges; vm_compute; tauto|]. vm_compute. tauto.
      * destruct Hx as [<-|[]]. split; [apply C; vm_compute; tauto|]. apply rst_refl.
  - exists (0, 1). split; [apply C; vm_compute; tauto|]. exists (fun _ => true). split; [reflexivity|].
    split; [repeat constructor; intros []|]. split; [reflexivity|]. split; [intros x Hx; corners Hx; cbn; tauto|].
    intros x [<-|[]]. split; [apply C; vm_compute; tauto|apply rst_refl].
  - exists (1, 1). split; [apply C; vm_compute; tauto|]. exists (fun _ => true). split; [reflexivity|].
    split; [repeat constructor; cbn; intuition discriminate|]. split; [reflexivity|]. split; [intros x Hx; corners Hx; cbn; tauto|].
    intros x [<-|[<-|[]]]; (split; [apply C; vm_compute; tauto|]); [apply rst_refl|]. apply rst_step.
    split; [apply C; vm_compute; tauto|]. split; [apply C; vm_compute; tauto|]. exists (1, 0).
    split; [apply in_all_polygon_edges; vm_compute; tauto|]. vm_compute. tauto.
  - exists (1, 2). split; [apply C; vm_compute; tauto|]. exists (fun _ => true). split; [reflexivity|].
    split; [repeat constructor; intros []|]. split; [reflexivity|]. split; [intros x Hx; corners Hx; cbn; tauto|].
    intros x [<-|[]]. split; [apply C; vm_compute; tauto|apply rst_refl].
  - exists (2, 1). split; [apply C; vm_compute; tauto|]. exists (fun _ => true). split; [reflexivity|].
    split; [repeat constructor; intros []|]. split; [reflexivity|]. split; [intros x Hx; corners Hx; cbn; tauto|].
    intros x [<-|[]]. split; [apply C; vm_compute; tauto|apply rst_refl].
  - exists (2, 2). split; [apply C; vm_compute; tauto|]. exists (fun _ => true). split; [reflexivity|].
    split; [repeat constructor; intros []|]. split; [reflexivity|]. split; [intros x Hx; corners Hx; cbn; tauto|].
    intros x [<-|[]]. split; [apply C; vm_compute; tauto|apply rst_refl].
Qed.
Lemma hourglass_ready : forall f, surface_vertices_in_range (hourglass_from f) /\
  (forall v, v < length (sm_points (hourglass_from f)) -> sm_around_vertex (hourglass_from f) v = Throw OpenGeodeExn \/
     exists fan, sm_around_vertex (hourglass_from f) v = Ok fan).
Proof.
  intros f. split.
  - intros c Hc. apply in_all_polygon_edges in Hc. vm_compute in Hc.
    repeat (destruct Hc as [<-|Hc]; [vm_compute; lia|]). destruct Hc.
  - intros v Hv. destruct v as [|[|[|[|[|v]]]]]; cbn; eauto.
Qed.
(** vertex 0 only, from whichever fan the mesh turns *)
Example C69_hourglass :
  surface_vertex_with_several_fans hourglass 0 /\ ~ surface_vertex_with_several_fans hourglass 2 /\
  (forall f, (f = [(1, 0); (0, 0)] \/ f = [(2, 0)]) -> exists r, surface_non_manifold_vertices geo0 (hourglass_from f) = Ok r /\ ii_issues r = [0]) /\
  same_surface_but_turns hourglass (hourglass_from [(2, 0)]).
Proof.
  assert (T : turns_around_surface_vertices hourglass) by (apply hourglass_turns; left; reflexivity).
  destruct (hourglass_ready [(1, 0); (0, 0)]) as [R1 R2].
  destruct (C69_surface_vertices geo0 hourglass R1 T R2) as (r & b & H1 & [_ H2] & _).
  assert (E : ii_issues r = [0]).
  { assert (K : exists r', surface_non_manifold_vertices geo0 hourglass = Ok r' /\ ii_issues r' = [0]) by (eexists; split; vm_compute; reflexivity).
    destruct K as (r' & K1 & K2). congruence. }
  rewrite E in H2. split; [apply H2; left; reflexivity|]. split.
  { intros K. destruct (proj2 (H2 2)) as [Q|[]]; [|discriminate Q]. split; [exact K|]. eexists. vm_compute. reflexivity. }
  split; [intros f [->| ->]; eexists; split; vm_compute; reflexivity|].
  split; [reflexivity|]. split; [reflexivity|]. split; [reflexivity|]. intros v Hv.
  destruct v as [|[|[|[|[|v]]]]]; cbn; (split; [split; eauto|split; discriminate]).
Qed.

(** two adjacent tetrahedra, and a third that only touches the first along edge 0-1 *)
Definition hinge : SolidMesh :=
  mkSolid (repeat [zero] 7) [tet 0 1 2 3; tet 2 1 0 4; tet 0 1 5 6]
    (fun f => match f with (0, 3) => Some 1 | (1, 3) => Some 0 | _ => None end) [] (fun _ => false)
    (fun _ => zero) (fun _ => zero)
    (fun v => match v with 0 => Ok [(0, 0); (1, 2)] | 1 => Ok [(0, 1); (1, 1)] | 2 => Ok [(0, 2); (1, 0)] | 3 => Ok [(0, 3)] | 4 => Ok [(1, 3)]
       | 5 => Ok [(2, 2)] | _ => Ok [(2, 3)] end)
    (fun ab p => match p with
       | 0 => if memb 3 [fst ab; snd ab] then Ok [0] else Ok [0; 1]
       | 1 => if memb 4 [fst ab; snd ab] then Ok [1] else Ok [0; 1]
       | _ => Ok [p] end).
Lemma hinge_crosses : forall vs p q, crosses_facet_at hinge vs p q -> (p = 0 /\ q = 1) \/ (p = 1 /\ q = 0).
Proof.
  intros vs p q (f & K1 & K2 & _ & K3). apply in_all_polyhedron_facets in K1. vm_compute in K1.
  repeat (destruct K1 as [<-|K1]; [cbn in K2, K3; first [discriminate K3|injection K3 as <-; rewrite <- K2; tauto]|]). destruct K1.
Qed.
Definition lonely (c : nat) : bool := Nat.eqb c 2.
Lemma hinge_sides : forall vs p q, crosses_facet_at hinge vs p q -> lonely p = lonely q.
Proof. intros vs p q H. apply hinge_crosses in H. destruct H as [[-> ->]|[-> ->]]; reflexivity. Qed.
Lemma hinge_corner : forall v c, In c (all_polyhedron_vertices hinge) -> polyhedron_vertex hinge c = v -> solid_corner hinge v c.
Proof. intros v c H1 H2. apply flat_pairs_nth. auto. Qed.
Lemma hinge_edge : forall e ab, In e (all_polyhedron_edges hinge) -> polyhedron_edge_vertices hinge e = ab ->
  polyhedron_edge_joins hinge (fst ab) (snd ab) e.
Proof.
  intros e ab H <-. apply in_all_polyhedron_edges in H. destruct H as [H1 H2]. split; [exact H1|]. left.
  rewrite <- surjective_pairing. exact H2.
Qed.

Lemma hinge_link : forall vs, incl vs [0; 1; 2] -> crosses_facet_at hinge vs 0 1.
Proof. intros vs H. exists (0, 3). split; [apply in_all_polyhedron_facets; vm_compute; tauto|]. split; [reflexivity|]. split; [exact H|reflexivity]. Qed.
Lemma hinge_turns_vertices : turns_around_solid_vertices hinge.
Proof.
  intros v fan Hv E. right. exists (hd (0, 0) fan).
  assert (D : solid_corner hinge v (hd (0, 0) fan) /\ NoDup fan /\
    (forall x, solid_corner hinge v x -> (Bool.eqb (lonely (fst x)) (lonely (fst (hd (0, 0) fan))) = true <-> In x fan)) /\
    (forall x, In x fan -> solid_corner hinge v x /\
       connected (solid_corner hinge v) (fun c c' => crosses_facet_at hinge [v] (fst c) (fst c')) (hd (0, 0) fan) x)).
  2:{ destruct D as (H0 & H1 & H2 & H3). split; [exact H0|].
      apply (one_fan_check _ _ _ _ fan (fun x => Bool.eqb (lonely (fst x)) (lonely (fst (hd (0, 0) fan))))); auto.
      - apply eqb_reflx.
      - intros x y _ _ K. rewrite (hinge_sides _ _ _ K). reflexivity. }
  destruct v as [|[|[|[|[|[|[|v]]]]]]]; [..|cbn in Hv; lia]; cbn in E; injection E as <-; cbn [hd];
    (split; [apply hinge_corner; vm_compute; tauto|]);
    (split; [repeat constructor; cbn; intuition discriminate|]);
    (split; [intros x Hx; apply flat_pairs_nth in Hx; destruct Hx as [Hx Hw]; vm_compute in Hx, Hw;
       repeat (destruct Hx as [<-|Hx]; [try discriminate Hw; cbn; intuition discriminate|]); destruct Hx|]);
    intros x Hx; cbn [In] in Hx;
    repeat (destruct Hx as [<-|Hx]; [split; [apply hinge_corner; vm_compute; tauto|
      first [apply rst_refl|apply rst_step; (split; [apply hinge_corner; vm_compute; tauto|]);
        (split; [apply hinge_corner; vm_compute; tauto|]); apply hinge_link; intros y [<-|[]]; cbn; tauto]]|]);
    destruct Hx.
Qed.
Lemma hinge_simple : simple_edges hinge.
Proof.
  intros a b p i j [H1 H2] [_ H3]. cbn [fst snd] in *.
  assert (I : forall k, nth_error (ph_edges (polyhedron hinge p)) k = Some (a, b) \/ nth_error (ph_edges (polyhedron hinge p)) k = Some (b, a) -> k < 6).
  { intros k K. assert (L : k < length (ph_edges (polyhedron hinge p))) by (apply nth_error_Some; destruct K as [-> | ->]; discriminate).
    destruct p as [|[|[|p]]]; [exact L|exact L|exact L|cbn in H1; lia]. }
  pose proof (I i H2) as Hi. pose proof (I j H3) as Hj. clear I.
  destruct p as [|[|[|p]]]; [..|cbn in H1; lia];
  (destruct i as [|[|[|[|[|[|i]]]]]]; [..|lia]); (destruct j as [|[|[|[|[|[|j]]]]]]; [..|lia]);
    first [reflexivity|exfalso; cbn in H2, H3; destruct H2 as [H2|H2]; destruct H3 as [H3|H3]; congruence].
Qed.
Lemma hinge_uses : forall ab p, uses_edge hinge ab p <->
  In p (map fst (filter (fun e => pair_eqb (polyhedron_edge_vertices hinge e) ab || pair_eqb (polyhedron_edge_vertices hinge e) (snd ab, fst ab))
    (all_polyhedron_edges hinge))).
Proof.
  intros [a b] p. rewrite in_map_iff. split.
  - intros [i [H1 H2]]. exists (p, i). split; [reflexivity|]. apply filter_In. cbn [fst snd] in *.
    assert (I : i < length (ph_edges (polyhedron hinge p))) by (apply nth_error_Some; destruct H2 as [-> | ->]; discriminate).
    split; [apply in_all_polyhedron_edges; split; [exact H1|apply nth_error_nth'; exact I]|]. unfold polyhedron_edge_vertices. cbn [fst snd].
    destruct H2 as [H2|H2]; apply nth_error_nth with (d := (0, 0)) in H2; rewrite H2; unfold pair_eqb; cbn [fst snd];
      rewrite !Nat.eqb_refl; cbn; rewrite ?orb_true_r; reflexivity.
  - intros ([q i] & <- & H). apply filter_In in H. destruct H as [H1 H2]. cbn [fst]. exists i.
    pose proof (hinge_edge _ _ H1 eq_refl) as [K1 K2]. apply orb_true_iff in H2.
    destruct (polyhedron_edge_vertices hinge (q, i)) as [x y] eqn:E. unfold pair_eqb in H2. cbn [fst snd] in H2.
    rewrite !andb_true_iff, !Nat.eqb_eq in H2. split; [exact K1|]. cbn [fst snd] in *.
    destruct H2 as [[-> ->]|[-> ->]]; tauto.
Qed.
Lemma hinge_turns_edges : turns_around_solid_edges hinge.
Proof.
  intros e ab F. right. apply first_occurrence_iff in F. destruct F as [F ->].
  destruct e as [p i]. cbn [fst].
  set (ab := polyhedron_edge_vertices hinge (p, i)).
  set (fan := match so_around_edge hinge ab p with Ok f => f | _ => [] end).
  assert (D : so_around_edge hinge ab p = Ok fan /\ uses_edge hinge ab p /\ NoDup fan /\
    (forall x, uses_edge hinge ab x -> (Bool.eqb (lonely x) (lonely p) = true <-> In x fan)) /\
    (forall x, In x fan -> uses_edge hinge ab x /\
       connected (uses_edge hinge ab) (crosses_facet_at hinge [fst ab; snd ab]) p x)).
  2:{ destruct D as (D0 & H0 & H1 & H2 & H3). exists fan. split; [exact D0|].
      apply (one_fan_check _ _ _ _ fan (fun x => Bool.eqb (lonely x) (lonely p))); auto.
      - apply eqb_reflx.
      - intros x y _ _ K. rewrite (hinge_sides _ _ _ K). reflexivity. }
  vm_compute in F. subst ab fan.
  repeat (destruct F as [F|F]; [injection F as <- <-; (split; [reflexivity|]);
    (split; [apply hinge_uses; vm_compute; tauto|]);
    (split; [vm_compute; repeat constructor; cbn; intuition discriminate|]);
    (split; [intros x Hx; apply hinge_uses in Hx; vm_compute in Hx;
       repeat (destruct Hx as [<-|Hx]; [vm_compute; intuition discriminate|]); destruct Hx|]);
    intros x Hx; vm_compute in Hx;
    repeat (destruct Hx as [<-|Hx]; [split; [apply hinge_uses; vm_compute; tauto|
      first [apply rst_refl|apply rst_step; (split; [apply hinge_uses; vm_compute; tauto|]);
        (split; [apply hinge_uses; vm_compute; tauto|]); apply hinge_link; intros y Hy; vm_compute in Hy |- *; tauto]]|]);
    destruct Hx|]).
  destruct F.
Qed.
Example C69_hinge :
  solid_edge_with_several_fans hinge ((0, 0), (0, 1)) /\ ~ solid_edge_with_several_fans hinge ((0, 1), (0, 2)) /\
  (exists r, solid_non_manifold_edges hinge = Ok r /\ ii_issues r = [(0, 1)]) /\ solid_edges_are_manifold hinge = Ok false /\
  (forall eab, ~ failed_edge hinge eab) /\
  solid_vertex_with_several_fans hinge 0 /\ solid_vertex_with_several_fans hinge 1 /\ ~ solid_vertex_with_several_fans hinge 2.
Proof.
  destruct (C69_solid_edges hinge hinge_simple hinge_turns_edges) as (r & el & H1 & H2 & _ & H3).
  assert (NF : forall eab, ~ failed_edge hinge eab).
  { intros [[p i] ab] [_ K]. cbn [fst snd hinge so_around_edge] in K. destruct p as [|[|p]].
    - destruct (memb 3 [fst ab; snd ab]); discriminate K.
    - destruct (memb 4 [fst ab; snd ab]); discriminate K.
    - discriminate K. }
  assert (E : map snd el = [(0, 1)]).
  { rewrite <- H2. assert (K : exists r', solid_non_manifold_edges hinge = Ok r' /\ ii_issues r' = [(0, 1)]) by (eexists; split; vm_compute; reflexivity).
    destruct K as (r' & K1 & K2). congruence. }
  destruct el as [|[e ab] [|y el]]; try discriminate E. cbn in E. injection E as ->.
  split; [|split].
  - assert (S : solid_edge_with_several_fans hinge (e, (0, 1))).
    { destruct (proj1 (H3 (e, (0, 1)))) as [K|[K _]]; [left; reflexivity|destruct (NF _ K)|exact K]. }
    assert (e = (0, 0)). { destruct S as [F _]. apply first_occurrence_iff in F. destruct F as [F Q]. vm_compute in F.
      repeat (destruct F as [<-|F]; [first [reflexivity|vm_compute in Q; discriminate Q]|]). destruct F. }
    subst e. exact S.
  - intros K. assert (Q : In ((0, 1), (0, 2)) [(e, (0, 1))]). { apply H3. right. split; [exact K|]. eexists. vm_compute. reflexivity. }
    destruct Q as [Q|[]]; discriminate Q.
  - split; [exists r; split; [exact H1|exact H2]|]. split; [vm_compute; reflexivity|]. split; [exact NF|].
    assert (R : solid_vertices_in_range hinge).
    { intros c v Hc. apply flat_pairs_nth in Hc. destruct Hc as [Hc <-]. vm_compute in Hc.
      repeat (destruct Hc as [<-|Hc]; [vm_compute; lia|]). destruct Hc. }
    destruct (C69_solid_vertices geo0 hinge R hinge_turns_vertices) as (r' & b & K1 & [_ K2] & _).
    { intros v Hv. destruct v as [|[|[|[|[|[|v]]]]]]; cbn; eauto. }
    assert (E : ii_issues r' = [0; 1]).
    { assert (K : exists r', solid_non_manifold_vertices geo0 hinge = Ok r' /\ ii_issues r' = [0; 1]) by (eexists; split; vm_compute; reflexivity).
      destruct K as (r'' & Q1 & Q2). congruence. }
    rewrite E in K2. split; [apply K2; left; reflexivity|]. split; [apply K2; right; left; reflexivity|].
    intros Q. apply K2 in Q. destruct Q as [Q|[Q|[]]]; discriminate Q.
Qed.
