(** Boolean checks of the hypotheses of the topology theorems, for concrete models. *)
From Coq Require Import String Ascii List Arith NArith ZArith Bool Lia Sorted.
From Verif Require Import Base BaseFacts Model_Issues Types Model_Colocation Model_Topology Spec_Colocation Spec_Maps Spec_Adjacency
  Spec_Topology Proof_Topology.
Import ListNotations.
Open Scope list_scope.

Definition inb (x : nat) (l : list nat) : bool := existsb (Nat.eqb x) l.
Lemma inb_iff : forall x l, inb x l = true <-> In x l.
Proof.
  intros x l. unfold inb. rewrite existsb_exists. split.
  - intros (y & Hy & E). apply Nat.eqb_eq in E. subst. assumption.
  - intros H. exists x. split; [assumption|apply Nat.eqb_refl].
Qed.
Fixpoint nodupb (l : list nat) : bool := match l with [] => true | x :: l' => negb (inb x l') && nodupb l' end.
Lemma nodupb_ok : forall l, nodupb l = true -> NoDup l.
Proof.
  induction l as [|x l IH]; intros H; [constructor|]. cbn in H. apply andb_true_iff in H as [H1 H2]. constructor; [|auto].
  intros K. apply inb_iff in K. rewrite K in H1. discriminate.
Qed.
Definition boundb (n : nat) : bool := N.ltb (N.of_nat n) (2 ^ 32).
Lemma boundb_ok : forall n, boundb n = true -> below_2_32 n.
Proof. intros n H. apply N.ltb_lt in H. exact H. Qed.
Definition linkb (m : Model) (c : ComponentMeshVertex) : bool :=
  ctype_eqb (cmv_type c) OtherT || inb (cmv_id c) (component_ids m (cmv_type c)).
Definition linksb (m : Model) : bool := forallb (forallb (linkb m)) (m_cmvs m).
Lemma cmvs_listed : forall m uv c, In c (component_mesh_vertices m uv) -> exists l, In l (m_cmvs m) /\ In c l.
Proof.
  intros m uv c H. unfold component_mesh_vertices in H. destruct (nth_in_or_default uv (m_cmvs m) []) as [K|K]; [eauto|]. rewrite K in H. destruct H.
Qed.
Lemma linksb_ok : forall m, linksb m = true -> links_exist m.
Proof.
  intros m H uv t id (v & Hv) Ht. destruct (cmvs_listed m uv _ Hv) as (l & Hl & Hc). unfold linksb in H. rewrite forallb_forall in H. specialize (H l Hl).
  rewrite forallb_forall in H. specialize (H _ Hc). unfold linkb in H. cbn [cmv_type cmv_component cid_type cmv_id cid_id] in H.
  apply orb_true_iff in H as [H|H]; [apply ctype_eqb_eq in H; contradiction|apply inb_iff in H; exact H].
Qed.
Definition embeddingsb (m : Model) : bool :=
  forallb (forallb (fun c => negb (of_type LineT c) || forallb (fun e => inb (cid_id e) (component_ids m SurfaceT)) (embeddings m (cmv_id c)))) (m_cmvs m).
Definition sectionb (m : Model) : bool :=
  nodupb (all_ids m) && match m_blocks m with [] => true | _ => false end && linksb m && embeddingsb m
  && forallb (fun l => boundb (length l)) (m_cmvs m) && forallb (fun c => boundb (nb_points0 (co_mesh c))) (m_corners m)
  && forallb (fun c => boundb (nb_points1 (co_mesh c))) (m_lines m) && forallb (fun c => boundb (nb_points2 (co_mesh c))) (m_surfaces m).
Lemma sectionb_ok : forall m, sectionb m = true -> section_ok m.
Proof.
  intros m H. unfold sectionb in H. repeat (apply andb_true_iff in H as [H ?]).
  constructor.
  - apply nodupb_ok. assumption.
  - destruct (m_blocks m); [reflexivity|discriminate].
  - apply linksb_ok. assumption.
  - intros uv l e [(v & Hv) _] He. destruct (cmvs_listed m uv _ Hv) as (k & Hk & Hc). assert (K : embeddingsb m = true) by assumption. unfold embeddingsb in K.
    rewrite forallb_forall in K. specialize (K k Hk). rewrite forallb_forall in K. specialize (K _ Hc). cbn in K. rewrite forallb_forall in K.
    apply inb_iff. apply K. exact He.
  - intros l Hl. apply boundb_ok. match goal with K : forallb (fun l => boundb (length l)) _ = true |- _ => rewrite forallb_forall in K; apply K; assumption end.
  - intros l Hl. apply boundb_ok. match goal with K : forallb _ (m_corners m) = true |- _ => rewrite forallb_forall in K; apply (K l); assumption end.
  - intros l Hl. apply boundb_ok. match goal with K : forallb _ (m_lines m) = true |- _ => rewrite forallb_forall in K; apply (K l); assumption end.
  - intros l Hl. apply boundb_ok. match goal with K : forallb _ (m_surfaces m) = true |- _ => rewrite forallb_forall in K; apply (K l); assumption end.
Qed.
