(** Two models side by side (C93): reports. *)
From Coq Require Import String Ascii List Arith NArith ZArith Bool Lia.
From Verif Require Import Base BaseFacts Model_Issues Types Model_Adjacency Model_Colocation Model_Topology
  Spec_Colocation Spec_Topology Spec_Reproducible Spec_Beside Proof_Topology Proof_Local Proof_Relabel2 Proof_Beside.
Import ListNotations.
Open Scope list_scope.

Lemma find_app : forall A (l l' : list (Component A)) id, find_component id (l ++ l') = match find_component id l with Some c => Some c | None => find_component id l' end.
Proof. intros A l l' id. induction l as [|c l IH]; [reflexivity|]. cbn [app find_component]. destruct (Nat.eqb (co_id c) id); [reflexivity|exact IH]. Qed.
Lemma find_none : forall A (l : list (Component A)) id, ~ In id (map co_id l) -> find_component id l = None.
Proof.
  intros A l id N. induction l as [|c l IH]; [reflexivity|]. cbn [find_component]. destruct (Nat.eqb_spec (co_id c) id) as [E|E]; [destruct N; left; exact E|]. apply IH. intros I. apply N. right. exact I.
Qed.
Lemma filter_none : forall A (f : A -> bool) l, (forall x, In x l -> f x = false) -> filter f l = [].
Proof. intros A f l E. induction l as [|x l IH]; [reflexivity|]. cbn [filter]. rewrite (E x (or_introl eq_refl)). apply IH. intros y I. apply E. right. exact I. Qed.
Lemma existsb_none : forall A (f : A -> bool) l, (forall x, In x l -> f x = false) -> existsb f l = false.
Proof. intros A f l E. induction l as [|x l IH]; [reflexivity|]. cbn [existsb]. rewrite (E x (or_introl eq_refl)). apply IH. intros y I. apply E. right. exact I. Qed.

Section Beside.
Context (m1 m2 M : Model) (S : side_by_side m1 m2 M).
Let k := nb_unique_vertices m1.
Lemma apart : forall id, In id (all_ids m1) -> In id (all_ids m2) -> False.
Proof.
  intros id I1 I2. pose proof (sb_ids _ _ _ S) as U. unfold unique_ids, all_ids in U. rewrite (sb_corners _ _ _ S), (sb_lines _ _ _ S), (sb_surfaces _ _ _ S), (sb_blocks _ _ _ S), !map_app in U.
  pose proof (proj1 (NoDup_count_occ Nat.eq_dec _) U id) as C. rewrite !count_occ_app in C. unfold all_ids in I1, I2. rewrite !in_app_iff in I1, I2.
  rewrite !(count_occ_In Nat.eq_dec) in I1, I2. unfold uuid in *. lia.
Qed.
Lemma in_kind : forall id, (In id (map co_id (m_corners m1)) \/ In id (map co_id (m_lines m1)) \/ In id (map co_id (m_surfaces m1)) \/ In id (map co_id (m_blocks m1))) <-> In id (all_ids m1).
Proof. intros id. unfold all_ids. rewrite !in_app_iff. tauto. Qed.
Lemma in_kind2 : forall id, (In id (map co_id (m_corners m2)) \/ In id (map co_id (m_lines m2)) \/ In id (map co_id (m_surfaces m2)) \/ In id (map co_id (m_blocks m2))) <-> In id (all_ids m2).
Proof. intros id. unfold all_ids. rewrite !in_app_iff. tauto. Qed.
Lemma nb_both : nb_unique_vertices M = k + nb_unique_vertices m2.
Proof. unfold k, nb_unique_vertices. rewrite (sb_links _ _ _ S), app_length. reflexivity. Qed.
Lemma first_find : forall A (l l' : list (Component A)) id, (In id (map co_id l') -> In id (all_ids m2)) -> In id (all_ids m1) -> find_component id (l ++ l') = find_component id l.
Proof. intros A l l' id J I. rewrite find_app. destruct (find_component id l); [reflexivity|]. apply find_none. intros K. apply (apart id I (J K)). Qed.
Lemma second_find : forall A (l l' : list (Component A)) id, (In id (map co_id l) -> In id (all_ids m1)) -> In id (all_ids m2) -> find_component id (l ++ l') = find_component id l'.
Proof. intros A l l' id J I. rewrite find_app, find_none; [reflexivity|]. intros K. apply (apart id (J K) I). Qed.
Lemma other_rel : forall (f : uuid -> bool) a, In a (all_ids m1) -> (forall x, f x = true -> x = a) -> forall r, In r (m_boundary_rel m2) \/ In r (m_internal_rel m2) -> f (cid_id (fst r)) = false.
Proof. intros f a I E r J. destruct (f (cid_id (fst r))) eqn:X; [|reflexivity]. apply E in X. exfalso. apply (apart a I). rewrite <- X. apply (proj2 (sb_closed2 _ _ _ S) r J). Qed.
Lemma other_rel1 : forall (f : uuid -> bool) a, In a (all_ids m2) -> (forall x, f x = true -> x = a) -> forall r, In r (m_boundary_rel m1) \/ In r (m_internal_rel m1) -> f (cid_id (fst r)) = false.
Proof. intros f a I E r J. destruct (f (cid_id (fst r))) eqn:X; [|reflexivity]. apply E in X. exfalso. apply (fun H => apart a H I). rewrite <- X. apply (proj2 (sb_closed1 _ _ _ S) r J). Qed.
Lemma eqb_is : forall a x, Nat.eqb x a = true -> x = a. Proof. intros a x. apply Nat.eqb_eq. Qed.
Lemma meshed_M : section_surfaces_are_meshed M = section_surfaces_are_meshed m1 && section_surfaces_are_meshed m2.
Proof. unfold section_surfaces_are_meshed. rewrite (sb_surfaces _ _ _ S). apply forallb_app. Qed.
Context (A : meshed_alike m1 m2).
Lemma meshed_eq : section_surfaces_are_meshed m1 = section_surfaces_are_meshed m2.
Proof. apply eq_true_iff_eq. rewrite !surfaces_meshed_iff. exact A. Qed.
Lemma piece1 : piece 0 m1 M.
Proof.
  constructor.
  - symmetry. apply S.
  - intros id I. rewrite (sb_corners _ _ _ S). apply first_find; [intros J; apply in_kind2; auto|exact I].
  - intros id I. rewrite (sb_lines _ _ _ S). apply first_find; [intros J; apply in_kind2; auto|exact I].
  - intros id I. rewrite (sb_surfaces _ _ _ S). apply first_find; [intros J; apply in_kind2; auto|exact I].
  - intros id I. rewrite (sb_blocks _ _ _ S). apply first_find; [intros J; apply in_kind2; auto|exact I].
  - intros a b I. unfold is_boundary. rewrite (sb_boundary_rel _ _ _ S), existsb_app. rewrite (existsb_none _ _ (m_boundary_rel m2)); [apply orb_false_r|].
    intros r J. rewrite (other_rel (fun x => Nat.eqb x a) a I (eqb_is a) r (or_introl J)). reflexivity.
  - intros a b I. unfold is_internal. rewrite (sb_internal_rel _ _ _ S), existsb_app. rewrite (existsb_none _ _ (m_internal_rel m2)); [apply orb_false_r|].
    intros r J. rewrite (other_rel (fun x => Nat.eqb x a) a I (eqb_is a) r (or_intror J)). reflexivity.
  - intros a I. unfold incidences. rewrite (sb_boundary_rel _ _ _ S), filter_app. rewrite (filter_none _ _ (m_boundary_rel m2)); [rewrite app_nil_r; reflexivity|].
    intros r J. apply (other_rel (fun x => Nat.eqb x a) a I (eqb_is a) r (or_introl J)).
  - intros a I. unfold embeddings. rewrite (sb_internal_rel _ _ _ S), filter_app. rewrite (filter_none _ _ (m_internal_rel m2)); [rewrite app_nil_r; reflexivity|].
    intros r J. apply (other_rel (fun x => Nat.eqb x a) a I (eqb_is a) r (or_intror J)).
  - intros uv B. unfold component_mesh_vertices. rewrite (sb_links _ _ _ S), app_nth1 by exact B. reflexivity.
  - intros c I. rewrite (sb_unique1 _ _ _ S c I). destruct (m_unique_vertex m1 c); reflexivity.
  - intros uv c I. apply (proj1 (sb_closed1 _ _ _ S) uv c I).
  - intros a e I. unfold embeddings in I. apply in_map_iff in I as (r & <- & I). apply filter_In in I as [I _]. apply (proj2 (sb_closed1 _ _ _ S) r (or_intror I)).
  - rewrite meshed_M, <- meshed_eq. apply andb_diag.
Qed.
Lemma piece2 : piece k m2 M.
Proof.
  constructor.
  - symmetry. apply S.
  - intros id I. rewrite (sb_corners _ _ _ S). apply second_find; [intros J; apply in_kind; auto|exact I].
  - intros id I. rewrite (sb_lines _ _ _ S). apply second_find; [intros J; apply in_kind; auto|exact I].
  - intros id I. rewrite (sb_surfaces _ _ _ S). apply second_find; [intros J; apply in_kind; auto|exact I].
  - intros id I. rewrite (sb_blocks _ _ _ S). apply second_find; [intros J; apply in_kind; auto|exact I].
  - intros a b I. unfold is_boundary. rewrite (sb_boundary_rel _ _ _ S), existsb_app. rewrite (existsb_none _ _ (m_boundary_rel m1)); [reflexivity|].
    intros r J. rewrite (other_rel1 (fun x => Nat.eqb x a) a I (eqb_is a) r (or_introl J)). reflexivity.
  - intros a b I. unfold is_internal. rewrite (sb_internal_rel _ _ _ S), existsb_app. rewrite (existsb_none _ _ (m_internal_rel m1)); [reflexivity|].
    intros r J. rewrite (other_rel1 (fun x => Nat.eqb x a) a I (eqb_is a) r (or_intror J)). reflexivity.
  - intros a I. unfold incidences. rewrite (sb_boundary_rel _ _ _ S), filter_app. rewrite (filter_none _ _ (m_boundary_rel m1)); [reflexivity|].
    intros r J. apply (other_rel1 (fun x => Nat.eqb x a) a I (eqb_is a) r (or_introl J)).
  - intros a I. unfold embeddings. rewrite (sb_internal_rel _ _ _ S), filter_app. rewrite (filter_none _ _ (m_internal_rel m1)); [reflexivity|].
    intros r J. apply (other_rel1 (fun x => Nat.eqb x a) a I (eqb_is a) r (or_intror J)).
  - intros uv B. unfold component_mesh_vertices. rewrite (sb_links _ _ _ S). unfold k, nb_unique_vertices. rewrite app_nth2 by lia. f_equal. lia.
  - intros c I. apply (sb_unique2 _ _ _ S c I).
  - intros uv c I. apply (proj1 (sb_closed2 _ _ _ S) uv c I).
  - intros a e I. unfold embeddings in I. apply in_map_iff in I as (r & <- & I). apply filter_In in I as [I _]. apply (proj2 (sb_closed2 _ _ _ S) r (or_intror I)).
  - rewrite meshed_M, meshed_eq. apply andb_diag.
Qed.
End Beside.
