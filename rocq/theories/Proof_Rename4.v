(** Renaming components: reports on topology. *)
From Coq Require Import String Ascii List Arith NArith ZArith Bool Lia Sorted Permutation.
From Verif Require Import Base BaseFacts Model_Issues Types Model_Topology Model_BRep Model_Blocks Spec_Colocation Spec_Maps Spec_Adjacency
  Spec_Topology Spec_BRep Spec_Fusion Spec_Blocks Spec_Rename Proof_Messages Proof_Maps Proof_Manifold3 Proof_Topology4 Proof_BRep2 Proof_BRep4 Proof_BRep5 Proof_Order Proof_Blocks6
  Proof_Rename Proof_Rename2 Proof_Rename3.
Import ListNotations.
Open Scope list_scope.

(** ** Lists determined by their contents *)
Lemma subsequence_In : forall A (l k : list A), subsequence l k -> forall x, In x l -> In x k.
Proof. intros A l k. induction 1; intros y Hy; [exact Hy|right; auto|destruct Hy as [->|Hy]; [left; reflexivity|right; auto]]. Qed.
Lemma subsequence_unique : forall A (k l l' : list A), NoDup k -> subsequence l k -> subsequence l' k -> (forall x, In x l <-> In x l') -> l = l'.
Proof.
  intros A k. induction k as [|a k IH]; intros l l' N S S' E.
  { inversion S; subst. inversion S'; subst. reflexivity. }
  apply NoDup_cons_iff in N as [Na N]. inversion S as [|? l1 ? S1|? l1 ? S1]; subst; inversion S' as [|? l2 ? S2|? l2 ? S2]; subst.
  - apply IH; assumption.
  - exfalso. apply Na. apply (subsequence_In _ _ _ S1 a), E. left. reflexivity.
  - exfalso. apply Na. apply (subsequence_In _ _ _ S2 a), E. left. reflexivity.
  - f_equal. apply IH; try assumption. intros x. specialize (E x). cbn in E. split; intros Hx.
    + destruct (proj1 E (or_intror Hx)) as [->|K]; [|exact K]. destruct Na. apply (subsequence_In _ _ _ S1 x Hx).
    + destruct (proj2 E (or_intror Hx)) as [->|K]; [|exact K]. destruct Na. apply (subsequence_In _ _ _ S2 x Hx).
Qed.
Lemma counts_det : forall A (P : A -> Prop) l n k, counts P l n -> counts P l k -> n = k.
Proof. intros A P l n k C. revert k. induction C as [|x l n Px _ IH|x l n Px _ IH]; intros k K; inversion K; subst; try contradiction; try reflexivity; [f_equal|]; apply IH; assumption. Qed.
Lemma sorted_le_unique : forall l l', StronglySorted le l -> StronglySorted le l' -> (forall x, count_occ Nat.eq_dec l x = count_occ Nat.eq_dec l' x) -> l = l'.
Proof.
  induction l as [|a l IH]; intros [|b l'] S S' E.
  - reflexivity.
  - specialize (E b). cbn in E. destruct (Nat.eq_dec b b); [discriminate|congruence].
  - specialize (E a). cbn in E. destruct (Nat.eq_dec a a); [discriminate|congruence].
  - apply StronglySorted_inv in S as [S F], S' as [S' F']. rewrite Forall_forall in F, F'.
    assert (Ha : In a (b :: l')). { apply (count_occ_In Nat.eq_dec). rewrite <- E. cbn. destruct (Nat.eq_dec a a); [lia|congruence]. }
    assert (Hb : In b (a :: l)). { apply (count_occ_In Nat.eq_dec). rewrite E. cbn. destruct (Nat.eq_dec b b); [lia|congruence]. }
    assert (a = b) as <-. { destruct Ha as [->|Ha]; [reflexivity|]. destruct Hb as [->|Hb]; [reflexivity|]. specialize (F b Hb). specialize (F' a Ha). lia. }
    f_equal. apply IH; [exact S|exact S'|]. intros x. specialize (E x). cbn in E. destruct (Nat.eq_dec a x); lia.
Qed.
Lemma assoc_In : forall T (l : list (uuid * T)) id v, NoDup (map fst l) -> (assoc id l = Some v <-> In (id, v) l).
Proof.
  intros T l id v. induction l as [|[k w] l IH]; intros N; cbn; [split; [discriminate|intros []]|]. inversion N; subst. destruct (Nat.eqb_spec k id) as [->|Hn].
  - split; [intros E; injection E as ->; left; reflexivity|]. intros [E|E]; [congruence|]. exfalso. apply (in_map fst) in E. contradiction.
  - rewrite IH by assumption. split; [intros E; right; exact E|]. intros [E|E]; [congruence|exact E].
Qed.
Lemma n_map_reports : forall T f g (r r' : InspectionIssuesMap T) (P P' : uuid -> list T -> Prop), one_to_one f g ->
  (forall id l, P' (f id) l <-> P id l) -> (forall id l l', P id l -> P id l' -> l = l') -> map_reports r P -> map_reports r' P' -> renamed_map f r r'.
Proof.
  intros T f g r r' P P' H E D K K'. unfold renamed_map, issues_by_component. rewrite map_map. cbn [fst snd].
  assert (N : forall (r : InspectionIssuesMap T) P (h : uuid -> uuid), map_reports r P -> (forall x y, h x = h y -> x = y) -> NoDup (map (fun e : uuid * InspectionIssues T => (h (fst e), ii_issues (snd e))) (im_map r))).
  { clear. intros r P h K I. pose proof (mr_keys _ _ K) as N. apply (NoDup_map_inv fst). rewrite map_map. cbn [fst]. rewrite <- (map_map fst h). apply (NoDup_map_inj _ _ h I), N. }
  apply NoDup_Permutation; [apply (N r P f K), (n_inj f g H)|apply (N r' P' (fun x => x) K'); auto|].
  intros [k l]. split; intros Q; apply in_map_iff in Q as ([id v] & Q & Hv); cbn [fst snd] in Q.
  - injection Q as <- <-. apply (assoc_In _ _ _ _ (mr_keys _ _ K)) in Hv. destruct (mr_sound _ _ K _ _ Hv) as [Nz Pv]. apply E in Pv as Pv'. pose proof (mr_complete _ _ K' _ _ Pv' Nz) as C.
    destruct (assoc (f id) (im_map r')) as [v'|] eqn:A; [|congruence]. destruct (mr_sound _ _ K' _ _ A) as [_ Q]. apply E in Q. apply in_map_iff. exists (f id, v'). cbn [fst snd].
    rewrite (D id _ _ Pv Q). split; [reflexivity|]. apply (assoc_In _ _ _ _ (mr_keys _ _ K')), A.
  - injection Q as <- <-. apply (assoc_In _ _ _ _ (mr_keys _ _ K')) in Hv. destruct (mr_sound _ _ K' _ _ Hv) as [Nz Pv']. rewrite <- (n_f f g H id) in Pv'. apply E in Pv' as Pv. pose proof (mr_complete _ _ K _ _ Pv Nz) as C.
    destruct (assoc (g id) (im_map r)) as [v'|] eqn:A; [|congruence]. destruct (mr_sound _ _ K _ _ A) as [_ Q]. apply in_map_iff. exists (g id, v'). cbn [fst snd].
    rewrite (D _ _ _ Pv Q), (n_f f g H). split; [reflexivity|]. apply (assoc_In _ _ _ _ (mr_keys _ _ K)), A.
Qed.
Lemma lists_lt_unique : forall P l l', lists_exactly lt P l -> lists_exactly lt P l' -> l = l'.
Proof. intros P l l'. apply lists_exactly_unique; intros; lia. Qed.
Lemma lists_lt_ext : forall (P P' : nat -> Prop) l, (forall x, P' x <-> P x) -> (lists_exactly lt P' l <-> lists_exactly lt P l).
Proof. intros P P' l E. unfold lists_exactly. setoid_rewrite E. reflexivity. Qed.

Section Renaming.
Context (f g : uuid -> uuid) (H : one_to_one f g) (m m' : Model) (R : renamed f m m').

Lemma n_list_vertices : forall (P P' : nat -> Prop) r r', (forall uv, P' uv <-> P uv) -> lists_vertices m P (ii_issues r) -> lists_vertices m' P' (ii_issues r') -> same_list r r'.
Proof.
  intros P P' r r' E L L'. unfold same_list. unfold lists_vertices in *. rewrite (n_nb f m m' R) in L'. eapply lists_lt_unique; [|exact L]. eapply lists_lt_ext; [|exact L']. intros uv. cbn. rewrite E. reflexivity.
Qed.
Lemma n_entries : forall (P P' : nat -> ComponentMeshVertex -> Prop) r r', (forall uv c, P' uv (new_cmv f c) <-> P uv c) ->
  one_entry_per_link m P (ii_issues r) -> one_entry_per_link m' P' (ii_issues r') -> same_list r r'.
Proof.
  intros P P' r r' E (S & B & C) (S' & B' & C'). unfold same_list. rewrite (n_nb f m m' R) in *. apply sorted_le_unique; [exact S'|exact S|]. intros uv.
  destruct (Nat.lt_ge_cases uv (nb_unique_vertices m)) as [L|L].
  - specialize (C uv L). specialize (C' uv L). rewrite (n_cmvs f m m' R) in C'. rewrite (counts_map _ _ (new_cmv f) (P uv) (P' uv) (E uv)) in C'. eapply counts_det; eassumption.
  - rewrite (proj1 (count_occ_not_In _ _ _)); [symmetry; apply count_occ_not_In|]; intros K; [apply B in K|apply B' in K]; lia.
Qed.
Lemma n_components_reported : forall M t (meshed : M -> Prop) nb skip (l : list (Component M)) nm nm' nl nl', NoDup (map co_id l) ->
  components_reported t meshed nb skip m l nm nl -> components_reported t meshed nb skip m' (map (new_component f) l) nm' nl' ->
  renamed_list f nm nm' /\ renamed_map f nl nl'.
Proof.
  intros M t meshed nb skip l nm nm' nl nl' N K K'. split.
  - unfold renamed_list. assert (N' : NoDup (map co_id (map (new_component f) l))) by (rewrite n_ids_of; apply (NoDup_map_inj _ _ f (n_inj f g H)), N).
    apply (subsequence_unique _ _ _ _ N'); [apply K'| |].
    + rewrite n_ids_of. apply subsequence_map, K.
    + intros x. rewrite <- (n_f f g H x). rewrite (n_in_map f g H). rewrite (cr_meshed _ _ _ _ _ _ _ _ K), (cr_meshed _ _ _ _ _ _ _ _ K').
      apply (iff_ex_via _ _ (new_component f) (new_component g) _ _ (n_component_fg f g H M)). intros c. apply iff_and; [apply (n_in_components f g H)|]. apply iff_and; [reflexivity|].
      apply iff_and; [apply (n_eq f g H)|reflexivity].
  - eapply (n_map_reports _ f g _ _ _ _ H); [| |apply K|apply K'].
    + intros id vs. cbn beta. apply (iff_ex_via _ _ (new_component f) (new_component g) _ _ (n_component_fg f g H M)). intros c. apply iff_and; [apply (n_in_components f g H)|]. apply iff_and; [reflexivity|].
      apply iff_and; [apply (n_eq f g H)|]. apply iff_and; [reflexivity|]. apply lists_lt_ext. intros v. apply (n_unlinked f m m' R).
    + intros id vs vs' (c & I & _ & E & _ & L) (c' & I' & _ & E' & _ & L'). assert (c = c') as <-.
      { clear - N I I' E E'. induction l as [|d l IH]; [destruct I|]. cbn in N. inversion N; subst. destruct I as [->|I], I' as [->|I']; auto.
        - exfalso. apply H1. rewrite <- E'. apply in_map, I'.
        - exfalso. apply H1. rewrite E'. apply in_map, I. }
      eapply lists_lt_unique; eassumption.
Qed.
Lemma n_elements_reported : forall M t (nb nbe : M -> nat) (wrong wrong' : Component M -> nat -> Prop) (l : list (Component M)) r r', NoDup (map co_id l) ->
  (forall c e, wrong' (new_component f c) e <-> wrong c e) ->
  elements_reported t nb nbe wrong m l r -> elements_reported t nb nbe wrong' m' (map (new_component f) l) r' -> renamed_map f r r'.
Proof.
  intros M t nb nbe wrong wrong' l r r' N W K K'. eapply (n_map_reports _ f g _ _ _ _ H); [| |exact K|exact K'].
  - intros id vs. cbn beta. apply (iff_ex_via _ _ (new_component f) (new_component g) _ _ (n_component_fg f g H M)). intros c. apply iff_and; [apply (n_in_components f g H)|]. apply iff_and; [reflexivity|].
    apply iff_and; [apply (n_eq f g H)|]. apply iff_and; [apply iff_all; intros v; apply iff_not, (n_unlinked f m m' R)|]. apply lists_lt_ext. intros v. cbn [co_mesh new_component]. rewrite <- W. reflexivity.
  - intros id vs vs' (c & I & _ & E & _ & L) (c' & I' & _ & E' & _ & L'). assert (c = c') as <-.
    { clear - N I I' E E'. induction l as [|d l IH]; [destruct I|]. cbn in N. inversion N; subst. destruct I as [->|I], I' as [->|I']; auto.
      - exfalso. apply H1. rewrite <- E'. apply in_map, I'.
      - exfalso. apply H1. rewrite E'. apply in_map, I. }
    eapply lists_lt_unique; eassumption.
Qed.
End Renaming.
