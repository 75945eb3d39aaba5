(** Renaming components: the predicates on links, relationships and components. *)
From Coq Require Import String Ascii List Arith NArith ZArith Bool Lia Sorted Permutation Morphisms Setoid.
From Verif Require Import Base BaseFacts Model_Issues Types Model_Topology Model_BRep Model_Blocks Spec_Colocation Spec_Maps Spec_Adjacency
  Spec_Topology Spec_BRep Spec_Fusion Spec_Blocks Spec_Rename Proof_BRep2.
Import ListNotations.
Open Scope list_scope.

Lemma one_to_one_sym : forall f g, one_to_one f g -> one_to_one g f.
Proof. intros f g [A B]. split; assumption. Qed.
Lemma one_to_one_inj : forall f g, one_to_one f g -> forall x y, f x = f y <-> x = y.
Proof. intros f g [A _] x y. split; [|congruence]. intros H. rewrite <- (A x), H. apply A. Qed.
Lemma new_cid_back : forall f g, one_to_one f g -> forall c, new_cid g (new_cid f c) = c.
Proof. intros f g [A _] [t i]. unfold new_cid. cbn. rewrite A. reflexivity. Qed.
Lemma new_cmv_back : forall f g, one_to_one f g -> forall c, new_cmv g (new_cmv f c) = c.
Proof. intros f g H [c v]. unfold new_cmv. cbn. rewrite (new_cid_back f g H). reflexivity. Qed.
Lemma new_component_back : forall M f g, one_to_one f g -> forall c : Component M, new_component g (new_component f c) = c.
Proof. intros M f g [A _] [i n a x]. unfold new_component. cbn. rewrite A. reflexivity. Qed.
Lemma new_relation_back : forall f g, one_to_one f g -> forall c, new_relation g (new_relation f c) = c.
Proof. intros f g H [a b]. unfold new_relation. cbn. rewrite !(new_cid_back f g H). reflexivity. Qed.
Lemma map_back : forall A B (f : A -> B) (g : B -> A), (forall x, g (f x) = x) -> forall l, map g (map f l) = l.
Proof. intros A B f g H l. rewrite map_map. rewrite <- (map_id l) at 2. apply map_ext. exact H. Qed.

Lemma renamed_sym : forall f g m m', one_to_one f g -> renamed f m m' -> renamed g m' m.
Proof.
  intros f g m m' H R. constructor.
  - rewrite (rn_corners _ _ _ R), map_back; [reflexivity|apply new_component_back, H].
  - rewrite (rn_lines _ _ _ R), map_back; [reflexivity|apply new_component_back, H].
  - rewrite (rn_surfaces _ _ _ R), map_back; [reflexivity|apply new_component_back, H].
  - rewrite (rn_blocks _ _ _ R), map_back; [reflexivity|apply new_component_back, H].
  - rewrite (rn_boundaries _ _ _ R), map_back; [reflexivity|]. apply map_back. apply H.
  - rewrite (rn_cmvs _ _ _ R), map_back; [reflexivity|]. apply map_back. apply new_cmv_back, H.
  - intros c. rewrite <- (rn_unique _ _ _ R), (new_cmv_back g f (one_to_one_sym _ _ H)). reflexivity.
  - rewrite (rn_boundary_rel _ _ _ R), map_back; [reflexivity|]. apply new_relation_back, H.
  - rewrite (rn_internal_rel _ _ _ R), map_back; [reflexivity|]. apply new_relation_back, H.
  - symmetry. apply (rn_missing _ _ _ R).
Qed.
Lemma renamed_topo_sym : forall f g tl tl', one_to_one f g -> renamed_topo f tl tl' -> renamed_topo g tl' tl.
Proof.
  intros f g tl tl' [A B] R. assert (K : forall l, map (new_key g) (map (new_key f) l) = l) by (apply map_back; intros [a n]; unfold new_key; cbn; rewrite A; reflexivity). constructor.
  - intros a b. rewrite <- (rnt_edge_surfaces _ _ _ R), K. reflexivity.
  - intros a b. rewrite <- (rnt_edge_blocks _ _ _ R), K. reflexivity.
  - intros l. rewrite <- (rnt_polygon_blocks _ _ _ R), K. reflexivity.
  - intros s b. rewrite <- (rnt_inside_block _ _ _ R), !B. reflexivity.
  - intros p q. rewrite <- (rnt_box _ _ _ R), !map_back by exact B. reflexivity.
  - intros x p. symmetry. apply (rnt_inside_closed _ _ _ R).
Qed.

(** ** Logic *)
Lemma iff_and : forall A A' B B' : Prop, (A' <-> A) -> (B' <-> B) -> (A' /\ B' <-> A /\ B).
Proof. tauto. Qed.
Lemma iff_or : forall A A' B B' : Prop, (A' <-> A) -> (B' <-> B) -> (A' \/ B' <-> A \/ B).
Proof. tauto. Qed.
Lemma iff_not : forall A A' : Prop, (A' <-> A) -> (~ A' <-> ~ A).
Proof. tauto. Qed.
Lemma iff_imp : forall A A' B B' : Prop, (A' <-> A) -> (B' <-> B) -> ((A' -> B') <-> (A -> B)).
Proof. tauto. Qed.
Lemma iff_ex : forall T (P P' : T -> Prop), (forall x, P' x <-> P x) -> ((exists x, P' x) <-> exists x, P x).
Proof. intros T P P' H. split; intros (x & Hx); exists x; apply H, Hx. Qed.
Lemma iff_all : forall T (P P' : T -> Prop), (forall x, P' x <-> P x) -> ((forall x, P' x) <-> forall x, P x).
Proof. intros T P P' H. split; intros K x; apply H, K. Qed.
(** through a bijection of the values *)
Lemma iff_ex_via : forall T T' (h : T -> T') (k : T' -> T) (P : T -> Prop) (P' : T' -> Prop), (forall x, h (k x) = x) ->
  (forall x, P' (h x) <-> P x) -> ((exists x, P' x) <-> exists x, P x).
Proof. intros T T' h k P P' K H. split; intros (x & Hx); [exists (k x); apply H; rewrite K; exact Hx|exists (h x); apply H, Hx]. Qed.
Lemma iff_all_via : forall T T' (h : T -> T') (k : T' -> T) (P : T -> Prop) (P' : T' -> Prop), (forall x, h (k x) = x) ->
  (forall x, P' (h x) <-> P x) -> ((forall x, P' x) <-> forall x, P x).
Proof. intros T T' h k P P' K H. split; intros Q x; [apply H, Q|rewrite <- (K x); apply H, Q]. Qed.
Lemma in_map_inj : forall A B (f : A -> B), (forall x y, f x = f y -> x = y) -> forall x l, In (f x) (map f l) <-> In x l.
Proof. intros A B f H x l. split; [|apply in_map]. intros K. apply in_map_iff in K as (y & E & K). apply H in E. subst. exact K. Qed.
Lemma map_eq_inj : forall A B (f : A -> B), (forall x y, f x = f y -> x = y) -> forall l k, map f l = map f k <-> l = k.
Proof.
  intros A B f H l k. split; [|congruence]. revert k. induction l as [|x l IH]; intros [|y k] E; cbn in E; try discriminate; [reflexivity|]. injection E as E1 E2. apply H in E1. apply IH in E2. congruence.
Qed.
Lemma NoDup_map_inj : forall A B (f : A -> B), (forall x y, f x = f y -> x = y) -> forall l, NoDup (map f l) <-> NoDup l.
Proof.
  intros A B f H l. split; [apply NoDup_map_inv|]. induction 1 as [|x l Hx _ IH]; cbn; constructor; [|exact IH]. rewrite in_map_inj by exact H. exact Hx.
Qed.
Lemma counts_map : forall A B (h : A -> B) (P : A -> Prop) (P' : B -> Prop), (forall x, P' (h x) <-> P x) -> forall l n, counts P' (map h l) n <-> counts P l n.
Proof.
  intros A B h P P' H l. induction l as [|x l IH]; intros n; cbn.
  - split; intros K; inversion K; constructor.
  - split; intros K; inversion K; subst.
    + apply counts_yes; [apply H; assumption|apply IH; assumption].
    + apply counts_no; [rewrite <- H; assumption|apply IH; assumption].
    + apply counts_yes; [apply H; assumption|apply IH; assumption].
    + apply counts_no; [rewrite H; assumption|apply IH; assumption].
Qed.
Lemma sums_map : forall A B (h : A -> B) (P : A -> nat -> Prop) (P' : B -> nat -> Prop), (forall x k, P' (h x) k <-> P x k) -> forall l n, sums P' (map h l) n <-> sums P l n.
Proof.
  intros A B h P P' H l. induction l as [|x l IH]; intros n; cbn.
  - split; intros K; inversion K; constructor.
  - split; intros K; inversion K; subst; constructor; try (apply H; assumption); apply IH; assumption.
Qed.
Lemma Forall2_map_l : forall A A' B (h : A -> A') (R : A -> B -> Prop) (R' : A' -> B -> Prop), (forall x y, R' (h x) y <-> R x y) -> forall l k, Forall2 R' (map h l) k <-> Forall2 R l k.
Proof.
  intros A A' B h R R' H l. induction l as [|x l IH]; intros k; cbn; split; intros K; inversion K; subst; constructor; try (apply H; assumption); apply IH; assumption.
Qed.
Lemma subsequence_map : forall A B (f : A -> B) l k, subsequence l k -> subsequence (map f l) (map f k).
Proof. intros A B f l k. induction 1; cbn; constructor; assumption. Qed.

Section Renaming.
Context (f g : uuid -> uuid) (H : one_to_one f g) (m m' : Model) (R : renamed f m m').

Lemma n_f : forall x, f (g x) = x. Proof. apply H. Qed.
Lemma n_g : forall x, g (f x) = x. Proof. apply H. Qed.
Lemma n_inj : forall x y, f x = f y -> x = y. Proof. intros x y. apply (one_to_one_inj f g H). Qed.
Lemma n_eq : forall x y, f x = f y <-> x = y. Proof. apply (one_to_one_inj f g H). Qed.
Lemma n_eqb : forall x y, Nat.eqb (f x) (f y) = Nat.eqb x y.
Proof. intros x y. apply eq_true_iff_eq. rewrite !Nat.eqb_eq. apply n_eq. Qed.
Lemma n_cid_fg : forall c, new_cid f (new_cid g c) = c. Proof. apply new_cid_back, one_to_one_sym, H. Qed.
Lemma n_cmv_fg : forall c, new_cmv f (new_cmv g c) = c. Proof. apply new_cmv_back, one_to_one_sym, H. Qed.
Lemma n_component_fg : forall M (c : Component M), new_component f (new_component g c) = c. Proof. intros M. apply new_component_back, one_to_one_sym, H. Qed.
Lemma n_list_fg : forall l, map f (map g l) = l. Proof. apply map_back. apply H. Qed.
Lemma n_cmvs_fg : forall l, map (new_cmv f) (map (new_cmv g) l) = l. Proof. apply map_back, n_cmv_fg. Qed.
Lemma n_cid_inj : forall x y, new_cid f x = new_cid f y -> x = y.
Proof. intros x y E. rewrite <- (new_cid_back f g H x), E. apply new_cid_back, H. Qed.
Lemma n_cmv_inj : forall x y, new_cmv f x = new_cmv f y -> x = y.
Proof. intros x y E. rewrite <- (new_cmv_back f g H x), E. apply new_cmv_back, H. Qed.
Lemma n_component_inj : forall M (x y : Component M), new_component f x = new_component f y -> x = y.
Proof. intros M x y E. rewrite <- (new_component_back M f g H x), E. apply new_component_back, H. Qed.
Lemma n_relation_inj : forall x y, new_relation f x = new_relation f y -> x = y.
Proof. intros x y E. rewrite <- (new_relation_back f g H x), E. apply new_relation_back, H. Qed.

(** ** Components *)
Lemma n_in_components : forall M (l : list (Component M)) c, In (new_component f c) (map (new_component f) l) <-> In c l.
Proof. intros M l c. apply in_map_inj, n_component_inj. Qed.
Lemma n_corner : forall c, In (new_component f c) (m_corners m') <-> In c (m_corners m). Proof. intros c. rewrite (rn_corners _ _ _ R). apply n_in_components. Qed.
Lemma n_line : forall c, In (new_component f c) (m_lines m') <-> In c (m_lines m). Proof. intros c. rewrite (rn_lines _ _ _ R). apply n_in_components. Qed.
Lemma n_surface : forall c, In (new_component f c) (m_surfaces m') <-> In c (m_surfaces m). Proof. intros c. rewrite (rn_surfaces _ _ _ R). apply n_in_components. Qed.
Lemma n_block : forall c, In (new_component f c) (m_blocks m') <-> In c (m_blocks m). Proof. intros c. rewrite (rn_blocks _ _ _ R). apply n_in_components. Qed.
Lemma n_ids_of : forall M (l : list (Component M)), map co_id (map (new_component f) l) = map f (map co_id l).
Proof. intros M l. rewrite !map_map. reflexivity. Qed.
Lemma n_active_of : forall M (l : list (Component M)), filter co_active (map (new_component f) l) = map (new_component f) (filter co_active l).
Proof. intros M l. induction l as [|c l IH]; cbn; [reflexivity|]. rewrite IH. destruct (co_active c); reflexivity. Qed.
Lemma n_component_ids : forall t, component_ids m' t = map f (component_ids m t).
Proof.
  intros []; cbn; [rewrite (rn_corners _ _ _ R)|rewrite (rn_lines _ _ _ R)|rewrite (rn_surfaces _ _ _ R)|rewrite (rn_blocks _ _ _ R)|]; try apply n_ids_of. reflexivity.
Qed.
Lemma n_active_ids : forall t, active_ids m' t = map f (active_ids m t).
Proof.
  intros []; cbn; [rewrite (rn_corners _ _ _ R)|rewrite (rn_lines _ _ _ R)|rewrite (rn_surfaces _ _ _ R)|rewrite (rn_blocks _ _ _ R)|]; rewrite ?n_active_of; try apply n_ids_of. reflexivity.
Qed.
Lemma n_in_ids : forall t x, In (f x) (component_ids m' t) <-> In x (component_ids m t).
Proof. intros t x. rewrite n_component_ids. apply in_map_inj, n_inj. Qed.
Lemma n_in_active : forall t x, In (f x) (active_ids m' t) <-> In x (active_ids m t).
Proof. intros t x. rewrite n_active_ids. apply in_map_inj, n_inj. Qed.
Lemma n_in_map : forall x l, In (f x) (map f l) <-> In x l. Proof. intros. apply in_map_inj, n_inj. Qed.
Lemma n_all_ids : all_ids m' = map f (all_ids m).
Proof. unfold all_ids. rewrite (rn_corners _ _ _ R), (rn_lines _ _ _ R), (rn_surfaces _ _ _ R), (rn_blocks _ _ _ R), !n_ids_of, !map_app. reflexivity. Qed.
Lemma n_unique_ids : unique_ids m' <-> unique_ids m.
Proof. unfold unique_ids. rewrite n_all_ids. apply NoDup_map_inj, n_inj. Qed.
Lemma n_all_mapped : forall M (P : Component M -> Prop) (P' : Component M -> Prop) (l : list (Component M)), (forall c, P' (new_component f c) <-> P c) ->
  ((forall c, In c (map (new_component f) l) -> P' c) <-> forall c, In c l -> P c).
Proof.
  intros M P P' l K. split.
  - intros Q c Hc. apply K, Q, in_map, Hc.
  - intros Q c Hc. apply in_map_iff in Hc as (d & <- & Hd). apply K, Q, Hd.
Qed.
Lemma n_polygons : all_surfaces_have_polygons m' <-> all_surfaces_have_polygons m.
Proof. unfold all_surfaces_have_polygons. rewrite (rn_surfaces _ _ _ R). apply n_all_mapped. reflexivity. Qed.
Lemma n_polyhedra : all_blocks_have_polyhedra m' <-> all_blocks_have_polyhedra m.
Proof. unfold all_blocks_have_polyhedra. rewrite (rn_blocks _ _ _ R). apply n_all_mapped. reflexivity. Qed.

(** ** Links *)
Lemma n_nb : nb_unique_vertices m' = nb_unique_vertices m.
Proof. unfold nb_unique_vertices. rewrite (rn_cmvs _ _ _ R). apply map_length. Qed.
Lemma n_cmvs : forall uv, component_mesh_vertices m' uv = map (new_cmv f) (component_mesh_vertices m uv).
Proof. intros uv. unfold component_mesh_vertices. rewrite (rn_cmvs _ _ _ R). apply (map_nth (map (new_cmv f)) (m_cmvs m) []). Qed.
Lemma n_in_cmvs : forall uv c, In (new_cmv f c) (component_mesh_vertices m' uv) <-> In c (component_mesh_vertices m uv).
Proof. intros uv c. rewrite n_cmvs. apply in_map_inj, n_cmv_inj. Qed.
Lemma n_in_cmv : forall uv t i v, In (mkCMV (mkCID t (f i)) v) (component_mesh_vertices m' uv) <-> In (mkCMV (mkCID t i) v) (component_mesh_vertices m uv).
Proof. intros uv t i v. apply (n_in_cmvs uv (mkCMV (mkCID t i) v)). Qed.
Lemma n_at : forall uv t i, at_vertex m' uv t (f i) <-> at_vertex m uv t i.
Proof. intros. unfold at_vertex. apply iff_ex. intros v. apply n_in_cmv. Qed.
Lemma n_active_at : forall uv t i, active_at m' uv t (f i) <-> active_at m uv t i.
Proof. intros. unfold active_at. apply iff_and; [apply n_at|apply n_in_active]. Qed.
Lemma n_unique_vertex : forall t i v, m_unique_vertex m' (mkCMV (mkCID t (f i)) v) = m_unique_vertex m (mkCMV (mkCID t i) v).
Proof. intros t i v. apply (rn_unique _ _ _ R (mkCMV (mkCID t i) v)). Qed.
Lemma n_all_at : forall uv t l, all_at m' uv t (map f l) <-> all_at m uv t l.
Proof.
  intros. unfold all_at. apply iff_and; [apply NoDup_map_inj, n_inj|]. apply (iff_all_via _ _ f g _ _ n_f). intros x. rewrite n_in_map, n_at. reflexivity.
Qed.
Lemma n_unlinked : forall t i n v, unlinked m' t (f i) n v <-> unlinked m t i n v.
Proof. intros. unfold unlinked. rewrite n_unique_vertex. reflexivity. Qed.
Lemma n_position : forall c p, has_position m' (new_cmv f c) p <-> has_position m c p.
Proof.
  assert (K : forall f g m m', one_to_one f g -> renamed f m m' -> forall c p, has_position m c p -> has_position m' (new_cmv f c) p).
  { clear. intros f g m m' H R c p P. destruct P as [c v p I E|c v p I E|c v p I E|c v p I E]; unfold new_cmv, new_cid; cbn [cmv_component cmv_vertex cid_type cid_id].
    - apply (pos_corner m' (new_component f c)); [rewrite (rn_corners _ _ _ R); apply in_map, I|exact E].
    - apply (pos_line m' (new_component f c)); [rewrite (rn_lines _ _ _ R); apply in_map, I|exact E].
    - apply (pos_surface m' (new_component f c)); [rewrite (rn_surfaces _ _ _ R); apply in_map, I|exact E].
    - apply (pos_block m' (new_component f c)); [rewrite (rn_blocks _ _ _ R); apply in_map, I|exact E]. }
  intros c p. split; [|apply (K f g m m' H R)]. intros P. rewrite <- (new_cmv_back f g H c). apply (K g f m' m (one_to_one_sym _ _ H) (renamed_sym _ _ _ _ H R)), P.
Qed.
Lemma n_vertex_exists : forall c, vertex_exists m' (new_cmv f c) <-> vertex_exists m c.
Proof. intros c. apply iff_ex, n_position. Qed.
Lemma n_component_at : forall M (l : list (Component M)) i a, (exists c, In c (map (new_component f) l) /\ co_id c = f i /\ co_active c = a) <-> (exists c, In c l /\ co_id c = i /\ co_active c = a).
Proof.
  intros M l i a. apply (iff_ex_via _ _ (new_component f) (new_component g) _ _ (n_component_fg M)). intros c. rewrite n_in_components. cbn [co_id co_active new_component]. rewrite n_eq. reflexivity.
Qed.
Lemma n_activity : forall i a, has_activity m' (f i) a <-> has_activity m i a.
Proof.
  intros i a. unfold has_activity. rewrite (rn_corners _ _ _ R), (rn_lines _ _ _ R), (rn_surfaces _ _ _ R), (rn_blocks _ _ _ R), !n_component_at. reflexivity.
Qed.
Lemma n_active_cmv : forall c, is_active_cmv m' (new_cmv f c) <-> is_active_cmv m c.
Proof. intros c. apply n_activity. Qed.
Lemma n_linked_twice : forall uv t, linked_twice m' uv t <-> linked_twice m uv t.
Proof.
  intros uv t. unfold linked_twice. apply iff_ex. intros i. apply iff_ex. intros j. apply (iff_ex_via _ _ f g _ _ n_f). intros a. apply (iff_ex_via _ _ f g _ _ n_f). intros b.
  apply iff_ex. intros v. apply iff_ex. intros w. rewrite !n_in_active, !n_cmvs, !nth_error_map.
  assert (E : forall k x v, option_map (new_cmv f) (nth_error (component_mesh_vertices m uv) k) = Some (mkCMV (mkCID t (f x)) v) <-> nth_error (component_mesh_vertices m uv) k = Some (mkCMV (mkCID t x) v)).
  { intros k x u. destruct (nth_error (component_mesh_vertices m uv) k) as [c|]; cbn; [|split; discriminate].
    split; intros E; [|injection E as ->; reflexivity]. f_equal. apply n_cmv_inj. apply (f_equal (fun o => match o with Some y => y | None => c end)) in E. exact E. }
  rewrite !E. reflexivity.
Qed.
Lemma n_counts : forall uv (P P' : ComponentMeshVertex -> Prop) n, (forall c, P' (new_cmv f c) <-> P c) -> (counts P' (component_mesh_vertices m' uv) n <-> counts P (component_mesh_vertices m uv) n).
Proof. intros uv P P' n K. rewrite n_cmvs. apply counts_map, K. Qed.
Lemma n_sums : forall uv (P P' : ComponentMeshVertex -> nat -> Prop) n, (forall c k, P' (new_cmv f c) k <-> P c k) -> (sums P' (component_mesh_vertices m' uv) n <-> sums P (component_mesh_vertices m uv) n).
Proof. intros uv P P' n K. rewrite n_cmvs. apply sums_map, K. Qed.

(** ** Relationships *)
Lemma n_in_rel : forall l ta a tb b, In (mkCID ta (f a), mkCID tb (f b)) (map (new_relation f) l) <-> In (mkCID ta a, mkCID tb b) l.
Proof. intros l ta a tb b. apply (in_map_inj _ _ (new_relation f) n_relation_inj (mkCID ta a, mkCID tb b)). Qed.
Lemma n_bounds : forall a b, bounds m' (f a) (f b) <-> bounds m a b.
Proof. intros. unfold bounds. apply iff_ex. intros ta. apply iff_ex. intros tb. rewrite (rn_boundary_rel _ _ _ R). apply n_in_rel. Qed.
Lemma n_inside : forall a b, inside m' (f a) (f b) <-> inside m a b.
Proof. intros. unfold inside. apply iff_ex. intros ta. apply iff_ex. intros tb. rewrite (rn_internal_rel _ _ _ R). apply n_in_rel. Qed.
Lemma n_filter_fst : forall a l, map snd (filter (fun r => Nat.eqb (cid_id (fst r)) (f a)) (map (new_relation f) l)) = map (new_cid f) (map snd (filter (fun r => Nat.eqb (cid_id (fst r)) a) l)).
Proof.
  intros a l. induction l as [|[c d] l IH]; [reflexivity|]. cbn [map filter new_relation fst snd]. cbn [new_cid cid_id]. rewrite n_eqb. destruct (Nat.eqb (cid_id c) a); cbn [map snd]; rewrite IH; reflexivity.
Qed.
Lemma n_filter_snd : forall a l, map fst (filter (fun r => Nat.eqb (cid_id (snd r)) (f a)) (map (new_relation f) l)) = map (new_cid f) (map fst (filter (fun r => Nat.eqb (cid_id (snd r)) a) l)).
Proof.
  intros a l. induction l as [|[c d] l IH]; [reflexivity|]. cbn [map filter new_relation fst snd]. cbn [new_cid cid_id]. rewrite n_eqb. destruct (Nat.eqb (cid_id d) a); cbn [map fst]; rewrite IH; reflexivity.
Qed.
Lemma n_embeddings : forall a, embeddings m' (f a) = map (new_cid f) (embeddings m a).
Proof. intros a. unfold embeddings. rewrite (rn_internal_rel _ _ _ R). apply n_filter_fst. Qed.
Lemma n_incidences : forall a, incidences m' (f a) = map (new_cid f) (incidences m a).
Proof. intros a. unfold incidences. rewrite (rn_boundary_rel _ _ _ R). apply n_filter_fst. Qed.
Lemma n_boundaries : forall a, boundaries m' (f a) = map (new_cid f) (boundaries m a).
Proof. intros a. unfold boundaries. rewrite (rn_boundary_rel _ _ _ R). apply n_filter_snd. Qed.
Lemma n_nb_embeddings : forall a, nb_embeddings m' (f a) = nb_embeddings m a.
Proof. intros a. unfold nb_embeddings. rewrite n_embeddings. apply map_length. Qed.
Lemma n_nb_incidences : forall a, nb_incidences m' (f a) = nb_incidences m a.
Proof. intros a. unfold nb_incidences. rewrite n_incidences. apply map_length. Qed.
Lemma n_in_embeddings : forall e a, In (new_cid f e) (embeddings m' (f a)) <-> In e (embeddings m a).
Proof. intros e a. rewrite n_embeddings. apply in_map_inj, n_cid_inj. Qed.
Lemma n_in_incidences : forall e a, In (new_cid f e) (incidences m' (f a)) <-> In e (incidences m a).
Proof. intros e a. rewrite n_incidences. apply in_map_inj, n_cid_inj. Qed.
Lemma n_in_boundaries : forall e a, In (new_cid f e) (boundaries m' (f a)) <-> In e (boundaries m a).
Proof. intros e a. rewrite n_boundaries. apply in_map_inj, n_cid_inj. Qed.
Lemma n_in_surface : forall a b, in_surface m' (f a) (f b) <-> in_surface m a b.
Proof. intros a b. apply (n_in_embeddings (mkCID SurfaceT b) a). Qed.
Lemma n_in_block : forall a b, in_block m' (f a) (f b) <-> in_block m a b.
Proof. intros a b. apply (n_in_embeddings (mkCID BlockT b) a). Qed.
End Renaming.
