(** Renaming components: closedness of the boundary of a block, and the conditions on models. *)
From Coq Require Import String Ascii List Arith NArith ZArith Bool Lia Sorted Permutation.
From Verif Require Import Base BaseFacts Model_Issues Types Model_Topology Model_BRep Model_Blocks Spec_Colocation Spec_Maps Spec_Adjacency
  Spec_Topology Spec_BRep Spec_Fusion Spec_Blocks Spec_Rename Proof_Messages Proof_BRep2 Proof_Order Proof_Blocks6 Proof_Rename Proof_Rename2.
Import ListNotations.
Open Scope list_scope.

(** results with renamed contents *)
Definition omap {A B} (h : A -> B) (o : outcome A) : outcome B := let! x := o in Ok (h x).
Lemma foldM_via : forall A A' S S' (h : A -> A') (k : S -> S') (F : S -> A -> outcome S) (F' : S' -> A' -> outcome S'),
  (forall s x, F' (k s) (h x) = omap k (F s x)) -> forall l s, foldM F' (map h l) (k s) = omap k (foldM F l s).
Proof.
  intros A A' S S' h k F F' E l. induction l as [|x l IH]; intros s; [reflexivity|]. cbn [map foldM]. rewrite E. unfold omap. destruct (F s x) as [s'|e|]; cbn [bind]; [apply IH|reflexivity|reflexivity].
Qed.
Lemma foldM_in : forall A S (F F' : S -> A -> outcome S) l, (forall s x, In x l -> F' s x = F s x) -> forall s, foldM F' l s = foldM F l s.
Proof.
  intros A S F F' l. induction l as [|x l IH]; intros E s; [reflexivity|]. cbn [foldM]. rewrite (E s x (or_introl eq_refl)). destruct (F s x) as [s'|e|]; cbn [bind]; [|reflexivity|reflexivity].
  apply IH. intros t y Hy. apply E. right. exact Hy.
Qed.
Lemma anyM_via : forall A A' (h : A -> A') (F : A -> outcome bool) (F' : A' -> outcome bool), (forall x, F' (h x) = F x) -> forall l, anyM F' (map h l) = anyM F l.
Proof. intros A A' h F F' E l. induction l as [|x l IH]; [reflexivity|]. cbn [map anyM]. rewrite E, IH. reflexivity. Qed.

Section Renaming.
Context (f g : uuid -> uuid) (H : one_to_one f g) (m m' : Model) (R : renamed f m m') (tl tl' : TopoLookup) (T : renamed_topo f tl tl').

Lemma n_find : forall M id (l : list (Component M)), find_component (f id) (map (new_component f) l) = option_map (new_component f) (find_component id l).
Proof. intros M id l. induction l as [|c l IH]; [reflexivity|]. cbn [map find_component new_component co_id]. rewrite (n_eqb f g H). destruct (Nat.eqb (co_id c) id); [reflexivity|exact IH]. Qed.
Lemma n_get_surface : forall id, get_surface m' (f id) = omap (new_component f) (get_surface m id).
Proof. intros id. unfold get_surface, or_throw, omap. rewrite (rn_surfaces _ _ _ R), n_find, (rn_missing _ _ _ R). destruct (find_component id (m_surfaces m)); reflexivity. Qed.
Lemma n_get_line : forall id, get_line m' (f id) = omap (new_component f) (get_line m id).
Proof. intros id. unfold get_line, or_throw, omap. rewrite (rn_lines _ _ _ R), n_find, (rn_missing _ _ _ R). destruct (find_component id (m_lines m)); reflexivity. Qed.
Lemma n_memb : forall x l, memb (f x) (map f l) = memb x l.
Proof. intros x l. apply eq_true_iff_eq. rewrite !memb_In. apply (n_in_map f g H). Qed.

Lemma n_queue : forall b, queue_with_block_boundaries m' (f b) = omap (map f) (queue_with_block_boundaries m b).
Proof.
  intros b. unfold queue_with_block_boundaries. rewrite (n_boundaries f g H m m' R). apply (foldM_via _ _ _ _ (new_cid f) (map f) _ _) with (s := []).
  intros s x. unfold each_surface. cbn [new_cid cid_id]. rewrite n_get_surface. unfold omap. destruct (get_surface m (cid_id x)); cbn [bind]; [|reflexivity|reflexivity]. rewrite map_app. reflexivity.
Qed.
Lemma n_linked_processed : forall s p, find_linked_processed_surface m' (f s) (map f p) = find_linked_processed_surface m s p.
Proof.
  intros s p. unfold find_linked_processed_surface. rewrite n_get_surface. unfold omap. destruct (get_surface m s) as [c|e|]; cbn [bind]; [|reflexivity|reflexivity].
  cbn [new_component co_id]. rewrite (n_boundaries f g H m m' R). apply anyM_via. intros x. unfold each_line. cbn [new_cid cid_id]. rewrite n_get_line. unfold omap.
  destruct (get_line m (cid_id x)) as [d|e|]; cbn [bind]; [|reflexivity|reflexivity]. cbn [new_component co_id]. rewrite (n_incidences f g H m m' R). apply anyM_via. intros y.
  unfold each_surface. cbn [new_cid cid_id]. rewrite n_get_surface. unfold omap. destruct (get_surface m (cid_id y)) as [d'|e|]; cbn [bind]; [|reflexivity|reflexivity]. cbn [new_component co_id].
  rewrite n_memb. reflexivity.
Qed.
Definition new_lists (x : list uuid * list uuid) : list uuid * list uuid := (map f (fst x), map f (snd x)).
Lemma n_linked_loop : forall n p q k, linked_loop n m' (map f p) (map f q) k = omap new_lists (linked_loop n m p q k).
Proof.
  induction n as [|n IH]; intros p q k; [reflexivity|]. destruct q as [|s q]; [reflexivity|]. cbn [linked_loop map]. cbn [List.length]. rewrite map_length.
  destruct (N.eqb _ _); [reflexivity|]. rewrite n_memb. destruct (memb s p); [apply IH|]. rewrite n_linked_processed. destruct (find_linked_processed_surface m s p) as [[|]|e|]; cbn [bind]; [| |reflexivity|reflexivity].
  - rewrite <- (IH (p ++ [s]) q 0%N), map_app. reflexivity.
  - rewrite <- (IH p (q ++ [s]) (add32 k 1)), map_app. reflexivity.
Qed.
Lemma n_closed_linked : forall l, closed_linked_surfaces m' (map f l) = omap new_lists (closed_linked_surfaces m l).
Proof. intros [|s l]; [reflexivity|]. unfold closed_linked_surfaces. cbn [map]. rewrite map_length. apply (n_linked_loop _ [s] l). Qed.
Lemma n_linked_parts : forall n l, linked_parts n m' (map f l) = omap (map (map f)) (linked_parts n m l).
Proof.
  induction n as [|n IH]; intros [|s l]; try reflexivity. change (map f (s :: l)) with (f s :: map f l) at 1. cbn [linked_parts].
  change (f s :: map f l) with (map f (s :: l)). rewrite n_closed_linked. unfold omap. destruct (closed_linked_surfaces m (s :: l)) as [r|e|]; cbn [bind]; [|reflexivity|reflexivity].
  cbn [new_lists fst snd]. rewrite IH. unfold omap. destruct (linked_parts n m (snd r)); reflexivity.
Qed.
Lemma enum_from_map : forall A B (h : A -> B) l, enum (map h l) = map (fun p => (fst p, h (snd p))) (enum l).
Proof.
  intros A B h l. unfold enum, Range. rewrite map_length. generalize (seq 0 (List.length l)). intros k. revert k. induction l as [|x l IH]; intros [|n k]; cbn; try reflexivity. rewrite (IH k). reflexivity.
Qed.
Lemma n_enclosing : forall parts, enclosing_surface_list tl' (map (map f) parts) = enclosing_surface_list tl parts.
Proof.
  intros parts. unfold enclosing_surface_list. rewrite enum_from_map. set (e := enum parts). clearbody e.
  assert (K : forall l, option_map fst (find (fun p => forallb (fun q => Nat.eqb (fst q) (fst p) || tl_box_contains tl' (snd p) (snd q)) (map (fun p => (fst p, map f (snd p))) e)) (map (fun p => (fst p, map f (snd p))) l)) =
    option_map fst (find (fun p => forallb (fun q => Nat.eqb (fst q) (fst p) || tl_box_contains tl (snd p) (snd q)) e) l)).
  { induction l as [|p l IH]; [reflexivity|]. cbn [map find].
    assert (E : forallb (fun q => Nat.eqb (fst q) (fst p) || tl_box_contains tl' (map f (snd p)) (snd q)) (map (fun p => (fst p, map f (snd p))) e) =
      forallb (fun q => Nat.eqb (fst q) (fst p) || tl_box_contains tl (snd p) (snd q)) e).
    { clear IH. induction e as [|q e' IHe]; [reflexivity|]. cbn [map forallb fst snd]. rewrite IHe, (rnt_box _ _ _ T). reflexivity. }
    cbn [fst snd]. rewrite E. destruct (forallb _ e); [reflexivity|exact IH]. }
  apply K.
Qed.
Lemma n_fuse_vertex : forall c st v, fuse_vertex m' (new_component f c) st v = fuse_vertex m c st v.
Proof. intros c st v. unfold fuse_vertex. cbn [new_component co_id co_mesh]. rewrite (n_unique_vertex f m m' R). reflexivity. Qed.
Lemma n_fuse : forall l, fuse_brep_surfaces_from_list m' (map f l) = fuse_brep_surfaces_from_list m l.
Proof.
  intros l. unfold fuse_brep_surfaces_from_list. f_equal.
  enough (K : forall s, foldM (fun st s => let! surface := get_surface m' s in foldM (fun st p => fuse_polygon m' surface st (polygon_vertices (co_mesh surface) p)) (Range (nb_polygons (co_mesh surface))) st) (map f l) s =
    foldM (fun st s => let! surface := get_surface m s in foldM (fun st p => fuse_polygon m surface st (polygon_vertices (co_mesh surface) p)) (Range (nb_polygons (co_mesh surface))) st) l s) by apply K.
  induction l as [|x l IH]; intros s; [reflexivity|]. cbn [map foldM]. rewrite n_get_surface. unfold omap. destruct (get_surface m x) as [c|e|]; cbn [bind]; [|reflexivity|reflexivity].
  cbn [new_component co_mesh].
  assert (E : foldM (fun st p => fuse_polygon m' (new_component f c) st (polygon_vertices (co_mesh c) p)) (Range (nb_polygons (co_mesh c))) s =
    foldM (fun st p => fuse_polygon m c st (polygon_vertices (co_mesh c) p)) (Range (nb_polygons (co_mesh c))) s).
  { apply foldM_in. intros t p _. unfold fuse_polygon. f_equal. apply foldM_in. intros t' v _. apply n_fuse_vertex. }
  etransitivity; [apply (f_equal (fun o => bind o _)); exact E|]. clear E. match goal with |- bind ?o _ = _ => destruct o end; cbn [bind]; [apply IH|reflexivity|reflexivity].
Qed.
Lemma n_outside : forall e p, point_is_outside tl' e p = point_is_outside tl e p.
Proof. intros e p. unfold point_is_outside. rewrite (rnt_inside_closed _ _ _ T). reflexivity. Qed.
Lemma n_block_closed : forall b, block_boundaries_are_closed tl' m' (f b) = block_boundaries_are_closed tl m b.
Proof.
  intros b. unfold block_boundaries_are_closed. rewrite n_queue. unfold omap at 1. destruct (queue_with_block_boundaries m b) as [q|e|]; cbn [bind]; [|reflexivity|reflexivity].
  rewrite map_length, n_linked_parts. unfold omap at 1. destruct (linked_parts (List.length q) m q) as [parts|e|]; cbn [bind]; [|reflexivity|reflexivity].
  rewrite map_length, n_enclosing. destruct (Nat.ltb _ 2); [reflexivity|]. destruct (enclosing_surface_list tl parts) as [i|]; [|reflexivity].
  change (@nil uuid) with (map f []) at 1. rewrite (map_nth (map f)), n_fuse. destruct (fuse_brep_surfaces_from_list m (nth i parts [])) as [fs|e|]; cbn [bind]; [|reflexivity|reflexivity].
  f_equal. rewrite enum_from_map. apply anyM_via. intros p. cbn [fst snd]. destruct (Nat.eqb (fst p) i); [reflexivity|]. apply anyM_via. intros s. rewrite n_get_surface. unfold omap.
  destruct (get_surface m s) as [c|e|]; cbn [bind]; [|reflexivity|reflexivity]. cbn [new_component co_mesh]. rewrite <- (map_id (sm_points (co_mesh c))) at 1. apply anyM_via. intros x. apply n_outside.
Qed.

(** ** Connected surfaces *)
Lemma n_share : forall s t, share_a_line m' (f s) (f t) <-> share_a_line m s t.
Proof. intros s t. unfold share_a_line. apply (iff_ex_via _ _ f g _ _ (n_f f g H)). intros l. apply iff_and; apply (n_bounds f g H m m' R). Qed.
End Renaming.
Lemma n_linked_within : forall f g m m', one_to_one f g -> renamed f m m' -> forall L s t, linked_within m L s t -> linked_within m' (map f L) (f s) (f t).
Proof.
  intros f g m m' H R L s t. induction 1 as [s Hs|s t u _ IH Hu Sh]; [constructor; apply in_map, Hs|]. eapply linked_next; [exact IH|apply in_map, Hu|]. apply (n_share f g H m m' R), Sh.
Qed.
Lemma n_all_linked : forall f g m m', one_to_one f g -> renamed f m m' -> forall L, all_linked m' (map f L) <-> all_linked m L.
Proof.
  assert (K : forall f g m m', one_to_one f g -> renamed f m m' -> forall L, all_linked m L -> all_linked m' (map f L)).
  { intros f g m m' H R L A s t Hs Ht. apply in_map_iff in Hs as (s0 & <- & Hs). apply in_map_iff in Ht as (t0 & <- & Ht). apply (n_linked_within f g m m' H R), A; assumption. }
  intros f g m m' H R L. split; [|apply (K f g m m' H R)]. intros A. apply (K g f m' m (one_to_one_sym _ _ H) (renamed_sym _ _ _ _ H R)) in A. rewrite map_back in A by apply H. exact A.
Qed.
Lemma n_model_boundary_surfaces : forall f m m', renamed f m m' -> model_boundary_surfaces m' = map f (model_boundary_surfaces m).
Proof. intros f m m' R. unfold model_boundary_surfaces. rewrite (rn_boundaries _ _ _ R), concat_map. reflexivity. Qed.
