(** C65: the surface in which the other parts of a block boundary are searched. *)
From Coq Require Import String Ascii List Arith NArith ZArith Bool Lia Floats.SpecFloat.
From Verif Require Import Base BaseFacts Model_Issues Types Model_Colocation Model_Topology Model_BRep Model_Blocks Spec_Colocation Spec_Topology Spec_BRep Spec_Fusion Spec_Blocks
  Proof_Topology Proof_Topology4 Proof_TopologyCheck Proof_BRep Proof_BRepCheck Proof_Fusion Proof_Blocks3 Properties_Topology Properties_BRep Properties_Blocks.
Import ListNotations.
Open Scope list_scope.

(** it is the listed surfaces glued along their unique vertices ... *)
Theorem C65_enclosing_surface : forall m ids, brep_ok m -> (forall s, In s ids -> In s (component_ids m SurfaceT)) ->
  exists cs g, surfaces_of m ids cs /\ fuse_brep_surfaces_from_list m ids = Ok g /\ glued m cs g.
Proof. intros m ids H Hi. apply (part_glued m H ids Hi). Qed.
Print Assumptions C65_enclosing_surface.
(** ... which determines it *)
Theorem C65_glued_unique : forall m cs g g', glued m cs g -> glued m cs g' -> g = g'.
Proof. exact glued_unique. Qed.
Print Assumptions C65_glued_unique.
(** no vertex without polygon, no polygon on a missing vertex *)
Theorem C65_vertices_used : forall m ids g, brep_ok m -> (forall s, In s ids -> In s (component_ids m SurfaceT)) ->
  fuse_brep_surfaces_from_list m ids = Ok g -> forall w, w < length (fs_points g) <-> exists p, In p (fs_polygons g) /\ In w p.
Proof.
  intros m ids g H Hi E w. destruct (part_glued m H ids Hi) as (cs & g' & S & E' & G). rewrite E in E'. injection E' as <-. split.
  - intros L. destruct (nth_error (fs_points g) w) as [p|] eqn:P; [|apply nth_error_None in P; lia]. apply (gl_points m cs g G) in P as (n & x & W & _). apply nth_error_In, in_concat in W. exact W.
  - intros (p & Hp & Hw). assert (W : In w (concat (fs_polygons g))) by (apply in_concat; eauto). apply In_nth_error in W as [n W].
    assert (F : exists n', nth_error (concat (fs_polygons g)) n' = Some w /\ forall k, k < n' -> nth_error (concat (fs_polygons g)) k <> Some w).
    { clear - W. revert W. induction n as [n IH] using lt_wf_ind. intros W. destruct (existsb (fun k => match nth_error (concat (fs_polygons g)) k with Some y => Nat.eqb y w | None => false end) (seq 0 n)) eqn:X.
      - apply existsb_exists in X as (k & Hk & K). apply in_seq in Hk. destruct (nth_error (concat (fs_polygons g)) k) as [y|] eqn:Y; [|discriminate]. apply Nat.eqb_eq in K. subst y. apply (IH k); [lia|exact Y].
      - exists n. split; [exact W|]. intros k Hk Y. assert (Z : existsb (fun k => match nth_error (concat (fs_polygons g)) k with Some y => Nat.eqb y w | None => false end) (seq 0 n) = true); [|congruence].
        apply existsb_exists. exists k. split; [apply in_seq; lia|]. rewrite Y. apply Nat.eqb_refl. }
    destruct F as (n' & W' & F). destruct (nth_error (corners_of cs) n') as [x|] eqn:X.
    2:{ apply nth_error_None in X. rewrite corners_length, <- (concat_length_shape _ _ (gl_shape m cs g G)) in X. apply nth_some_lt in W'. lia. }
    assert (Hx : exists q, point_at x = Some q).
    { apply nth_error_In in X. unfold corners_of in X. apply in_flat_map in X as (c & Hc & X). apply in_map_iff in X as (v & <- & Hv). apply in_concat in Hv as (vs & Hvs & Hv).
      unfold point_at. cbn [fst snd]. destruct (nth_error (sm_points (co_mesh c)) v) as [q|] eqn:Q; [eauto|]. apply nth_error_None in Q.
      pose proof (br_polygons m H c vs v (surfaces_of_in m ids cs c S Hc) Hvs Hv) as R. unfold nb_points2 in R. lia. }
    destruct Hx as [q Hq]. apply nth_error_Some. rewrite (proj2 (gl_points m cs g G w q)); [discriminate|]. exists n', x. auto.
Qed.
Print Assumptions C65_vertices_used.

Lemma flat_map_length_shape : forall (cs : list (Component SurfaceMesh)) (h : Component SurfaceMesh -> nat -> option Point),
  concat (flat_map (fun c => map (map (h c)) (sm_polygons (co_mesh c))) cs) = map (fun x => h (fst x) (snd x)) (corners_of cs).
Proof.
  intros cs h. induction cs as [|c cs IH]; cbn; [reflexivity|]. rewrite concat_app, map_app, map_map, IH. f_equal. cbn [fst snd]. symmetry. apply concat_map.
Qed.
Lemma map_concat_inj : forall A (l l' : list (list A)), map (@length A) l = map (@length A) l' -> concat l = concat l' -> l = l'.
Proof.
  intros A. induction l as [|x l IH]; intros [|y l']; cbn; try discriminate; [reflexivity|]. intros E. injection E as E1 E2. intros K.
  assert (X : x = y). { assert (F : forall (x l : list A), firstn (length x) (x ++ l) = x) by (clear; intros x l; induction x; cbn; congruence). rewrite <- (F x (concat l)), K, E1. apply F. }
  subst y. f_equal. apply IH; [exact E2|]. apply app_inv_head in K. exact K.
Qed.
(** when all polygon vertices are linked, and linked together only at the same point, polygon by polygon the points are those of
    the surfaces *)
Theorem C65_geometry_kept : forall m ids cs g, brep_ok m -> surfaces_of m ids cs -> all_corners_linked m cs -> glue_at_same_points m cs ->
  fuse_brep_surfaces_from_list m ids = Ok g ->
  map (map (nth_error (fs_points g))) (fs_polygons g) = flat_map (fun c => map (map (nth_error (sm_points (co_mesh c)))) (sm_polygons (co_mesh c))) cs.
Proof.
  intros m ids cs g H S AL GP E. assert (Hi : forall s, In s ids -> In s (component_ids m SurfaceT)).
  { clear - S. induction S as [|s c ids cs [I Q] S IH]; intros t []; [subst; apply in_map; assumption|auto]. }
  destruct (part_glued m H ids Hi) as (cs' & g' & S' & E' & G). rewrite E in E'. injection E' as <-.
  assert (cs' = cs) as -> by (eapply surfaces_of_unique; [|exact S'|exact S]; intros d Hd; apply surface_by_id; auto).
  apply map_concat_inj.
  - rewrite map_map. transitivity (map (@length nat) (fs_polygons g)); [apply map_ext; intros; apply map_length|]. rewrite (gl_shape m cs g G). clear. unfold polygons_of.
    induction cs as [|c cs IH]; cbn; [reflexivity|]. rewrite !map_app, IH. f_equal. rewrite map_map. apply map_ext. intros; symmetry; apply map_length.
  - rewrite flat_map_length_shape. rewrite <- concat_map. apply list_ext. intros n. rewrite !nth_error_map.
    assert (L : length (concat (fs_polygons g)) = length (corners_of cs)) by (rewrite corners_length; apply concat_length_shape, (gl_shape m cs g G)).
    destruct (nth_error (concat (fs_polygons g)) n) as [w|] eqn:W; destruct (nth_error (corners_of cs) n) as [x|] eqn:X; cbn [option_map];
      [|apply nth_error_None in X; apply nth_some_lt in W; lia|apply nth_error_None in W; apply nth_some_lt in X; lia|reflexivity].
    f_equal. assert (Lw : w < length (fs_points g)).
    { apply (C65_vertices_used m ids g H Hi E). apply nth_error_In, in_concat in W. exact W. }
    destruct (nth_error (fs_points g) w) as [p|] eqn:P; [|apply nth_error_None in P; lia]. pose proof P as P'. apply (gl_points m cs g G) in P' as (n' & x' & W' & _ & X' & Q).
    rewrite <- Q. apply GP; [eapply nth_error_In; exact X'|eapply nth_error_In; exact X|apply AL; eapply nth_error_In; exact X'|].
    apply (gl_glue m cs g G n' n w w x' x W' W X' X). reflexivity.
Qed.
Print Assumptions C65_geometry_kept.
(** polygon vertices without unique vertex all become one vertex, wherever they are *)
Theorem C65_unlinked_merged : forall m ids cs g n1 n2 w1 w2 x1 x2, brep_ok m -> surfaces_of m ids cs -> fuse_brep_surfaces_from_list m ids = Ok g ->
  nth_error (concat (fs_polygons g)) n1 = Some w1 -> nth_error (concat (fs_polygons g)) n2 = Some w2 ->
  nth_error (corners_of cs) n1 = Some x1 -> nth_error (corners_of cs) n2 = Some x2 ->
  link_of m x1 = None -> link_of m x2 = None -> w1 = w2.
Proof.
  intros m ids cs g n1 n2 w1 w2 x1 x2 H S E W1 W2 X1 X2 L1 L2. assert (Hi : forall s, In s ids -> In s (component_ids m SurfaceT)).
  { clear - S. induction S as [|s c ids cs [I Q] S IH]; intros t []; [subst; apply in_map; assumption|auto]. }
  destruct (part_glued m H ids Hi) as (cs' & g' & S' & E' & G). rewrite E in E'. injection E' as <-.
  assert (cs' = cs) as -> by (eapply surfaces_of_unique; [|exact S'|exact S]; intros d Hd; apply surface_by_id; auto).
  apply (gl_glue m cs g G n1 n2 w1 w2 x1 x2 W1 W2 X1 X2). congruence.
Qed.
Print Assumptions C65_unlinked_merged.

(** *** Examples *)
(** the tetrahedron: vertices 1, 2, 3, 0 in order of appearance *)
Example tet_fused : exists g, fuse_brep_surfaces_from_list tet [100; 101; 102; 103] = Ok g /\ fs_polygons g = [[0; 1; 2]; [3; 1; 2]; [3; 0; 2]; [3; 0; 1]] /\ length (fs_points g) = 4.
Proof. eexists. split; [vm_compute; reflexivity|]. vm_compute. auto. Qed.
(** two triangles at distinct points, sharing unique vertices 1 and 2 *)
Definition co (n : positive) : double := S754_finite false n 0.
Definition placed id points := mkComponent id (@None string) true
  (mkSurface 3 points [[0; 1; 2]] (fun _ => None) [] (fun _ => false) (fun _ => d0) (fun _ => Ok []) (fun _ => true)).
Definition wings cmvs := a_brep [] [] [placed 100 [[co 1]; [co 2]; [co 3]]; placed 101 [[co 2]; [co 4]; [co 3]]] [] [] cmvs [] [].
Definition linked_wings := wings [[s_ 100 0]; [s_ 100 1; s_ 101 0]; [s_ 100 2; s_ 101 2]; [s_ 101 1]].
Example wings_fused : brep_ok linked_wings /\ surfaces_of linked_wings [100; 101] (m_surfaces linked_wings) /\ all_corners_linked linked_wings (m_surfaces linked_wings) /\
  glue_at_same_points linked_wings (m_surfaces linked_wings) /\
  fuse_brep_surfaces_from_list linked_wings [100; 101] = Ok (mkFused [[co 1]; [co 2]; [co 3]; [co 4]] [[0; 1; 2]; [1; 3; 2]]).
Proof.
  split; [apply brepb_ok; vm_compute; reflexivity|]. split; [constructor; [cbn; auto|constructor; [cbn; auto|constructor]]|].
  assert (F : forall x, In x (corners_of (m_surfaces linked_wings)) -> link_of linked_wings x <> None).
  { intros x Hx. cbn in Hx. intuition subst; vm_compute; discriminate. }
  split; [exact F|]. split; [|vm_compute; reflexivity].
  intros x1 x2 H1 H2 _ E. cbn in H1, H2.
  destruct H1 as [<-|[<-|[<-|[<-|[<-|[<-|[]]]]]]]; destruct H2 as [<-|[<-|[<-|[<-|[<-|[<-|[]]]]]]]; vm_compute in E |- *; congruence.
Qed.
(** without unique vertices: a single vertex, at the first point; the geometry is lost *)
Theorem C65_geometry_lost_when_unlinked : exists m ids cs g, brep_ok m /\ surfaces_of m ids cs /\ fuse_brep_surfaces_from_list m ids = Ok g /\
  fs_points g = [[co 1]] /\ fs_polygons g = [[0; 0; 0]; [0; 0; 0]] /\
  map (map (nth_error (fs_points g))) (fs_polygons g) <> flat_map (fun c => map (map (nth_error (sm_points (co_mesh c)))) (sm_polygons (co_mesh c))) cs.
Proof.
  exists (wings []), [100; 101], (m_surfaces (wings [])). eexists. split; [apply brepb_ok; vm_compute; reflexivity|]. split; [constructor; [cbn; auto|constructor; [cbn; auto|constructor]]|].
  split; [vm_compute; reflexivity|]. split; [reflexivity|]. split; [reflexivity|]. vm_compute. discriminate.
Qed.
Print Assumptions C65_geometry_lost_when_unlinked.

(** C54 on two parts: surfaces 100 and 101 apart, the second in the box of the first; inside it or not *)
Definition nested := a_brep [] [] [placed 100 [[co 1]; [co 2]; [co 3]]; placed 101 [[co 4]; [co 5]; [co 6]]] [a_block 1000 true] []
  [[s_ 100 0]; [s_ 100 1]; [s_ 100 2]; [s_ 101 0]; [s_ 101 1]; [s_ 101 2]] [(sid_ 100, bid_ 1000); (sid_ 101, bid_ 1000)] [].
Definition nested_tl (answer : FusedSurface -> Point -> outcome bool) := table_lookup [] [] (fun _ _ => Ok true) (fun p _ => memb 100 p) answer.
Definition seen_at (x : positive) (g : FusedSurface) (q : Point) : outcome bool :=
  match q with
  | [S754_finite _ n _] => if Pos.eqb n x then Throw OpenGeodeExn else Ok (Nat.eqb (length (fs_points g)) 3)
  | _ => Ok false
  end.
Example nested_closed : blocks_ok (nested_tl (seen_at 1)) nested /\ block_boundaries_are_closed (nested_tl (seen_at 1)) nested 1000 = Ok true /\
  block_boundaries_are_closed (nested_tl (seen_at 5)) nested 1000 = Ok false.
Proof.
  split; [|split; vm_compute; reflexivity]. apply blocksb_ok; [|intros s b; exists true; reflexivity|vm_compute; reflexivity].
  intros p x. cbn. unfold seen_at. destruct x as [|[] [|]]; split; try discriminate; destruct (Pos.eqb _ _); discriminate.
Qed.
