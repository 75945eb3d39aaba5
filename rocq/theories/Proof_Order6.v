(** Components stored in another order: the blocks of a BRep and whole inspections. *)
From Coq Require Import String Ascii List Arith NArith ZArith Bool Lia Permutation.
From Verif Require Import Base BaseFacts Model_Issues Types Model_Topology Model_BRep Model_Blocks Spec_Colocation Spec_Topology Spec_BRep Spec_Blocks Proof_Colocation2 Proof_Maps
  Proof_Safe Proof_Blocks Proof_Blocks4 Spec_Reproducible Proof_Reproducible Proof_Reproducible2 Spec_Order Proof_Order Proof_Order2 Proof_Order3 Proof_Order5.
Import ListNotations.
Open Scope list_scope.

Lemma reordered_sym : forall m m', reordered m m' -> reordered m' m.
Proof. intros m m' [A B C D E F G I J K L M N O]. constructor; auto using Permutation_sym. Qed.

Section Ids.
Context (m m' : Model) (H : reordered m m').
Lemma ids_reordered : forall t x, In x (component_ids m t) -> In x (component_ids m' t).
Proof.
  intros [| | | |] x; cbn; try tauto; apply Permutation_in; apply Permutation_map; apply H.
Qed.
Lemma bounds_reordered : forall a b, bounds m a b -> bounds m' a b.
Proof. intros a b. unfold bounds. rewrite (ro_boundary_rel _ _ H). auto. Qed.
Lemma all_ids_reordered : unique_ids m -> unique_ids m'.
Proof. apply (unique_reordered m m' H). Qed.
End Ids.
Lemma closed_set_reordered : forall m m', reordered m m' -> forall s, in_closed_set m s -> in_closed_set m' s.
Proof.
  intros m m' H s (K & [K1 K2] & Ks). exists K. split; [|exact Ks]. split.
  - intros x Kx. apply (ids_reordered m m' H), K1, Kx.
  - intros x l Kx B. destruct (K2 x l Kx (bounds_reordered m' m (reordered_sym _ _ H) _ _ B)) as (y & A1 & A2 & A3). exists y. repeat split; auto. apply (bounds_reordered m m' H), A3.
Qed.
Lemma closed_set_iff : forall m m', reordered m m' -> forall s, in_closed_set m s <-> in_closed_set m' s.
Proof. intros m m' H s. split; apply closed_set_reordered; auto using reordered_sym. Qed.
Lemma ids_iff : forall m m', reordered m m' -> forall t s, In s (component_ids m t) <-> In s (component_ids m' t).
Proof. intros m m' H t s. split; apply ids_reordered; auto using reordered_sym. Qed.
Lemma dangling_reordered : forall tl m m', reordered m m' -> forall s, dangling tl m s -> dangling tl m' s.
Proof.
  intros tl m m' H s (A & c & I & E & P & B). split.
  - intros X. apply A, (closed_set_iff m m' H), X.
  - exists c. repeat split; auto.
    + eapply Permutation_in; [apply H|exact I].
    + intros b Ib. apply B, (ids_iff m m' H), Ib.
Qed.
Lemma dangling_iff : forall tl m m', reordered m m' -> forall s, dangling tl m s <-> dangling tl m' s.
Proof. intros tl m m' H s. split; apply dangling_reordered; auto using reordered_sym. Qed.

Lemma position_reordered : forall m m' c p, reordered m m' -> has_position m c p -> has_position m' c p.
Proof.
  intros m m' c p H P. pose proof (ro_corners _ _ H) as A. pose proof (ro_lines _ _ H) as B. pose proof (ro_surfaces _ _ H) as C. pose proof (ro_blocks _ _ H) as D.
  destruct P; econstructor; eauto using Permutation_in.
Qed.
Lemma brep_ok_reordered : forall m m', reordered m m' -> brep_ok m -> brep_ok m'.
Proof.
  intros m m' H K. pose proof (reordered_sym _ _ H) as H'.
  assert (EI : forall b, incidences m' b = incidences m b) by (intros; symmetry; apply (o_incidences m m' H)).
  assert (EB : forall b, boundaries m' b = boundaries m b) by (intros; symmetry; apply (o_boundaries m m' H)).
  assert (EE : forall b, embeddings m' b = embeddings m b) by (intros; symmetry; apply (o_embeddings m m' H)).
  assert (I : forall t s, In s (component_ids m t) <-> In s (component_ids m' t)) by apply (ids_iff m m' H).
  assert (Pc : forall c, In c (m_corners m') -> In c (m_corners m)) by (intros c; apply Permutation_in, H').
  assert (Pl : forall c, In c (m_lines m') -> In c (m_lines m)) by (intros c; apply Permutation_in, H').
  assert (Ps : forall c, In c (m_surfaces m') -> In c (m_surfaces m)) by (intros c; apply Permutation_in, H').
  assert (Pb : forall c, In c (m_blocks m') -> In c (m_blocks m)) by (intros c; apply Permutation_in, H').
  destruct K. constructor.
  - apply (all_ids_reordered m m' H), br_ids.
  - intros cmvs c A B. rewrite <- (ro_cmvs _ _ H) in A. destruct (br_links cmvs c A B) as (p & X). exists p. eapply position_reordered; eauto.
  - intros l e A B. rewrite EI in B. apply I in A. apply I. eauto.
  - intros l e A B. rewrite EB in B. apply I in A. apply I. eauto.
  - intros l e A B. rewrite EB in B. apply I in A. apply I. eauto.
  - intros l e A B. rewrite EE in B. apply I in A. apply I. eauto.
  - intros l e A B. rewrite EE in B. apply I in A. eauto.
  - intros l e A B. rewrite EE in A. apply I. eauto.
  - intros cmvs A. rewrite <- (ro_cmvs _ _ H) in A. rewrite <- (ro_internal_rel _ _ H). eauto.
  - intros; auto.
  - intros; auto.
  - intros; auto.
  - intros; auto.
  - intros; eauto.
  - intros; eauto.
Qed.

(** ** Blocks *)
Lemma memb_ext : forall l l' : list uuid, (forall x, In x l <-> In x l') -> forall x, memb x l = memb x l'.
Proof.
  intros l l' E x. destruct (memb x l) eqn:A, (memb x l') eqn:B; auto.
  - apply memb_In in A. apply E, memb_In in A. congruence.
  - apply memb_In in B. apply E, memb_In in B. congruence.
Qed.
Section Blocks.
Context (m m' : Model) (H : reordered m m') (K : brep_ok m) (tl : TopoLookup) (Hin : inside_block_ok tl).
Let U := br_ids m K.
Let K' := brep_ok_reordered m m' H K.
Lemma wrong_relationships_ext : forall nb nb' d d', (forall x, memb x nb = memb x nb') -> (forall x, memb x d = memb x d') ->
  forall uv, surface_with_wrong_relationships_to_block m nb d uv = surface_with_wrong_relationships_to_block m' nb' d' uv.
Proof.
  intros nb nb' d d' E E' uv. unfold surface_with_wrong_relationships_to_block. apply first_some_eq; [apply (o_component_mesh_vertices m m' H)|]. intros c.
  rewrite <- !E, <- !E', <- !(o_nb_incidences m m' H), <- !(o_nb_embeddings m m' H), <- (o_kind_named m m' H U), <- (o_is_active_of m m' H U). reflexivity.
Qed.
Lemma single_surface_ext : forall nb nb', (forall x, memb x nb = memb x nb') -> forall uv, brep_invalid_single_surface m nb uv = brep_invalid_single_surface m' nb' uv.
Proof.
  intros nb nb' E uv. unfold brep_invalid_single_surface. rewrite <- !(o_components_uuids m m' H). destruct (components_uuids m uv SurfaceT) as [|s [|s' l]]; try reflexivity.
  rewrite <- (o_kind_is_active m m' H U). apply bind_eq; [reflexivity|]. intros a. destruct (negb a); [reflexivity|]. cbv zeta. rewrite <- E. destruct (memb s nb); [reflexivity|].
  destruct (Nat.ltb 2 _); [reflexivity|]. rewrite <- (o_nb_embeddings m m' H), <- (o_brep_blocks_are_meshed m m' H). destruct (Nat.ltb 0 _).
  - destruct (brep_blocks_are_meshed m); [|reflexivity]. destruct (components_uuids m uv BlockT) as [|b [|b' l]]; try reflexivity. rewrite <- (o_is_internal m m' H). reflexivity.
  - apply first_some_eq; [reflexivity|]. intros b. rewrite <- (o_is_boundary m m' H), <- !(o_kind_named m m' H U). reflexivity.
Qed.
Let Pb := active_reordered _ _ _ (ro_blocks _ _ H).
Let Nb : NoDup (map co_id (active (m_blocks m))). Proof. apply nodup_active, (nodup_parts m U). Qed.
Lemma blocks_meshes_reordered : same_issues (inspect_blocks_meshes m) (inspect_blocks_meshes m').
Proof.
  unfold inspect_blocks_meshes. cbv zeta.
  pose proof (filter_permuted _ (fun b : Component SolidMesh => negb (block_is_meshed (co_mesh b))) _ _ Pb) as A.
  pose proof (filter_permuted _ (fun b : Component SolidMesh => block_is_meshed (co_mesh b)) _ _ Pb) as B.
  set (u := filter _ (active (m_blocks m))) in *. set (w := filter (fun b => block_is_meshed _) (active (m_blocks m))) in *.
  set (u' := filter _ (active (m_blocks m'))) in *. set (w' := filter (fun b => block_is_meshed _) (active (m_blocks m'))) in *.
  destruct u as [|b u0] eqn:Eu.
  { apply Permutation_nil in A. rewrite A. apply same_default. }
  destruct u' as [|b' u0'] eqn:Eu'; [apply Permutation_sym, Permutation_nil in A; discriminate A|].
  destruct w as [|c w0] eqn:Ew.
  { apply Permutation_nil in B. rewrite B. apply same_default. }
  destruct w' as [|c' w0'] eqn:Ew'; [apply Permutation_sym, Permutation_nil in B; discriminate B|].
  rewrite (fold_left_eq _ _ (fun r b => add_issue (co_id b) (StrCat ["Block "; named m' (co_name b) (co_id b); " is not meshed."]%string) r)
    (fun r b => add_issue (co_id b) (StrCat ["Block "; named m (co_name b) (co_id b); " is not meshed."]%string) r) (b' :: u0') (b' :: u0') _ (new_issues blocks_not_meshed_d)); auto.
  2:{ intros r x. rewrite (o_named m m' H). reflexivity. }
  exact (same_added _ _ (fun b => Some (co_id b, StrCat ["Block "; named m (co_name b) (co_id b); " is not meshed."]%string)) (b :: u0) (b' :: u0') _ _ A (same_default _ _)).
Qed.
Lemma block_links_reordered : follows reordered_map
  (foldM (inspect_block_links m) (filter (fun b => block_is_meshed (co_mesh b)) (active (m_blocks m))) (new_issues_map blocks_not_linked_d))
  (foldM (inspect_block_links m') (filter (fun b => block_is_meshed (co_mesh b)) (active (m_blocks m'))) (new_issues_map blocks_not_linked_d)).
Proof.
  intros r Er. pose (l := filter (fun b => block_is_meshed (co_mesh b)) (active (m_blocks m))).
  pose (g := fun b : Component SolidMesh => let v := vertices_not_associated m (mkCID BlockT (co_id b)) (List.length (so_points (co_mesh b))) in
    Ok (if N.eqb (nb_issues v) 0 then None else Some (set_description (StrCat ["Block "; named m (co_name b) (co_id b)]%string) v))).
  assert (X : forall k s, (forall b, In b k -> In b (active (m_blocks m))) -> foldM (inspect_block_links m) k s = foldM (fun s c => let! o := g c in Ok (maybe_add (co_id c) o s)) k s).
  { induction k as [|b k IH]; intros s Hk; [reflexivity|]. cbn [foldM].
    assert (Y : inspect_block_links m s b = let! o := g b in Ok (maybe_add (co_id b) o s)).
    { unfold inspect_block_links, get_block. rewrite (got_own _ (m_blocks m) b); [|apply (nodup_parts m U)|apply Hk; left; reflexivity]. cbn [or_throw bind]. unfold g. cbv zeta. cbn [bind].
      destruct (N.eqb _ 0); reflexivity. }
    rewrite Y. destruct (let! o := g b in Ok (maybe_add (co_id b) o s)); cbn [bind]; auto. apply IH. intros c I. apply Hk. right. exact I. }
  rewrite X in Er by (intros b I; apply filter_In in I; apply I).
  rewrite (foldM_eq _ _ (inspect_block_links m') (inspect_block_links m) (filter (fun b => block_is_meshed (co_mesh b)) (active (m_blocks m'))) _ _ (new_issues_map blocks_not_linked_d) eq_refl eq_refl).
  2:{ intros s b. symmetry. apply (o_inspect_block_links m m' H U). }
  rewrite X.
  2:{ intros b I. apply filter_In in I as [I _]. eapply Permutation_in; [apply Permutation_sym, Pb|exact I]. }
  eapply map_loop; [| |apply reordered_map_refl|exact Er].
  - apply filter_permuted, Pb.
  - clear - Nb. induction (active (m_blocks m)) as [|b k IH]; [constructor|]. cbn [filter map] in *. inversion Nb as [|x xs Nx Nxs]; subst. destruct (block_is_meshed (co_mesh b)); [|auto].
    cbn [map]. constructor; auto. intros I. apply Nx. apply in_map_iff in I as (c & <- & I). apply in_map. apply filter_In in I. apply I.
Qed.
Definition same_both (x y : InspectionIssues uuid * InspectionIssues uuid) : Prop := same_issues (fst x) (fst y) /\ same_issues (snd x) (snd y).
Lemma closedness_reordered : forall d1 d2, follows same_both
  (foldM (inspect_block_closedness tl m) (active (m_blocks m)) (new_issues d1, new_issues d2)) (foldM (inspect_block_closedness tl m') (active (m_blocks m')) (new_issues d1, new_issues d2)).
Proof.
  intros d1 d2 r Er.
  rewrite (foldM_eq _ _ (inspect_block_closedness tl m') (inspect_block_closedness tl m) (active (m_blocks m')) _ _ (new_issues d1, new_issues d2) eq_refl eq_refl).
  2:{ intros s b. symmetry. apply (o_inspect_block_closedness m m' H U). }
  pose (g := fun b : Component SolidMesh => let! closed := block_boundaries_are_closed tl m (co_id b) in let! w := inspect_block_boundaries m b in
    Ok (w, if closed then None else Some (StrCat ["Block "; named m (co_name b) (co_id b); " boundaries are not closed or form several closed volumes."]%string))).
  pose (h := fun (b : Component SolidMesh) (x : option string * option string) (s : InspectionIssues uuid * InspectionIssues uuid) =>
    (maybe_issue (co_id b) (fst x) (fst s), maybe_issue (co_id b) (snd x) (snd s))).
  assert (X : forall k s, foldM (inspect_block_closedness tl m) k s = foldM (fun s c => let! x := g c in Ok (h c x s)) k s).
  { intros k s. apply foldM_eq; auto. intros t b. unfold inspect_block_closedness, g. destruct (block_boundaries_are_closed tl m (co_id b)) as [c| |]; cbn [bind]; try reflexivity.
    destruct (inspect_block_boundaries m b) as [w| |]; cbn [bind]; try reflexivity. unfold h. cbn [fst snd]. destruct w, c; reflexivity. }
  rewrite X in Er. rewrite X.
  destruct (loop_reordered co_id (fun s : InspectionIssues uuid * InspectionIssues uuid => paired (fst s) /\ paired (snd s)) same_both g h) with (l := active (m_blocks m)) (l' := active (m_blocks m'))
    (s := (@new_issues uuid d1, @new_issues uuid d2)) (s' := (@new_issues uuid d1, @new_issues uuid d2)) (r := r) as (r' & E' & R' & _ & _); auto.
  - intros s [A B]. split; apply same_refl; assumption.
  - intros s t u [A B] [C D]. split; eapply same_trans; eauto.
  - intros b x s [A B]. split; apply maybe_issue_paired; assumption.
  - intros b x s s' _ _ [A B]. split; apply maybe_issue_same; assumption.
  - intros a b x y s _ [A B]. split; apply maybe_issue_commute; assumption.
  - split; reflexivity.
  - split; reflexivity.
  - split; apply same_default.
  - eauto.
Qed.
Lemma blocks_default_reordered : reordered_brep_blocks brep_blocks_default brep_blocks_default.
Proof. constructor; cbn; auto using same_default, reordered_map_refl. Qed.
Lemma brep_blocks_reordered : follows reordered_brep_blocks (brep_inspect_blocks tl m) (brep_inspect_blocks tl m').
Proof.
  unfold brep_inspect_blocks. destruct (find_not_boundary_ok m K) as (nb & En & _ & Hn & _). destruct (find_not_boundary_ok m' K') as (nb' & En' & _ & Hn' & _).
  destruct (find_dangling_ok m 0 K tl Hin nb Hn) as (d & Ed & Hd). destruct (find_dangling_ok m' 0 K' tl Hin nb' Hn') as (d' & Ed' & Hd').
  assert (Mn : forall x, memb x nb = memb x nb') by (apply memb_ext; intros x; rewrite Hn, Hn', (ids_iff m m' H), (closed_set_iff m m' H); tauto).
  assert (Md : forall x, memb x d = memb x d') by (apply memb_ext; intros x; rewrite Hd, Hd', (dangling_iff tl m m' H); tauto).
  rewrite En, En'. cbn [bind]. rewrite Ed, Ed'. cbn [bind].
  pose proof block_links_reordered as BL. pose proof closedness_reordered as CL. pose proof Pb as Q. pose proof blocks_meshes_reordered as BM. clear Pb Nb.
  set (a := active (m_blocks m)) in *. set (a' := active (m_blocks m')) in *. clearbody a a'.
  destruct a as [|b0 a0].
  { apply Permutation_nil in Q. rewrite Q. apply follows_ok, blocks_default_reordered. }
  destruct a' as [|b0' a0']; [apply Permutation_sym, Permutation_nil in Q; discriminate Q|].
  apply (follows_bind _ _ reordered_map); [exact BL|]. intros k k' Rk. apply (follows_bind _ _ eq).
  { apply follows_eq. rewrite <- (ro_boundaries _ _ H), <- (o_brep_boundaries_are_closed m m' H U). reflexivity. }
  intros c c' <-. cbv zeta. apply (follows_bind _ _ eq).
  { apply follows_eq, (o_report_vertices m m' H). constructor; [intros uv; apply (o_unique_vertex_is_part_of_two_blocks_and_no_boundary_surface m m' H U)|].
    constructor; [intros uv; apply (o_unique_vertex_block_cmvs_count_is_incorrect m m' H U)|]. constructor; [intros uv; apply single_surface_ext, Mn|].
    constructor; [intros uv; apply wrong_relationships_ext; assumption|]. constructor; [intros uv; apply (o_brep_multiple_surfaces_invalid_line m m' H U)|constructor]. }
  intros rs rs' <-. apply (follows_bind _ _ same_both); [apply CL|]. intros z z' [Z1 Z2].
  destruct rs as [|x1 [|x2 [|x3 [|x4 [|x5 [|x6 rs]]]]]]; try (intros ? X; discriminate X). apply follows_ok. constructor; cbn; auto.
Qed.
End Blocks.

(** ** Whole topology of a BRep *)
Lemma caught_status : forall X (x : outcome X), status x = Ok tt \/ (forall a, x <> Ok a).
Proof. intros X [a|e|]; [left; reflexivity|right; discriminate|right; discriminate]. Qed.
Lemma assigned_follows : forall X (R : X -> X -> Prop) d x y, R d d -> follows R x y -> follows (fun b a => True) y x -> R (assigned d x) (assigned d y).
Proof.
  intros X R d x y Rd F F'. destruct x as [a|e|].
  - destruct (F a eq_refl) as (b & -> & E). exact E.
  - destruct y as [b|e'|]; [|exact Rd|exact Rd]. destruct (F' b eq_refl) as (a & E & _). discriminate E.
  - destruct y as [b|e'|]; [|exact Rd|exact Rd]. destruct (F' b eq_refl) as (a & E & _). discriminate E.
Qed.
Lemma topology_tasks : forall tl m r, inspect_brep_topology tl m = Ok r ->
  bt_corners r = assigned brep_corners_default (brep_inspect_corners_topology m) /\ bt_lines r = assigned brep_lines_default (brep_inspect_lines_topology tl m) /\
  bt_surfaces r = assigned brep_surfaces_default (brep_inspect_surfaces_topology tl m) /\ bt_blocks r = assigned brep_blocks_default (brep_inspect_blocks tl m) /\
  add_unique_vertices_with_wrong_cmv_link m cmv_exists_in_brep no_links = Ok (bt_links r).
Proof.
  intros tl m r E. unfold inspect_brep_topology in E. cbv zeta in E. destruct (parallel_invoke_caught _) as [[]| |]; cbn [bind] in E; try discriminate E.
  destruct (add_unique_vertices_with_wrong_cmv_link _ _ _) as [k| |]; cbn [bind] in E; try discriminate E. injection E as <-. repeat split.
Qed.
Lemma brep_topology_reordered : forall tl m m' r r', reordered m m' -> brep_ok m -> inside_block_ok tl -> inspect_brep_topology tl m = Ok r -> inspect_brep_topology tl m' = Ok r' ->
  reordered_brep_topology r r'.
Proof.
  intros tl m m' r r' H K Hin E E'. pose proof (br_ids m K) as U. pose proof (brep_ok_reordered m m' H K) as K'. pose proof (br_ids m' K') as U'. pose proof (reordered_sym _ _ H) as H'.
  apply topology_tasks in E as (A1 & A2 & A3 & A4 & A5). apply topology_tasks in E' as (B1 & B2 & B3 & B4 & B5).
  constructor; rewrite ?A1, ?A2, ?A3, ?A4, ?B1, ?B2, ?B3, ?B4.
  - apply assigned_alike; [constructor; cbn; auto using same_default, reordered_map_refl|apply (brep_corners_reordered m m' H U)].
  - apply assigned_follows; [constructor; cbn; auto using same_default, reordered_map_refl|apply (brep_lines_reordered m m' H U)|].
    intros x Ex. destruct (brep_lines_reordered m' m H' U' tl x Ex) as (y & Ey & _). eauto.
  - apply assigned_follows; [constructor; cbn; auto using same_default, reordered_map_refl|apply (brep_surfaces_reordered m m' H U)|].
    intros x Ex. destruct (brep_surfaces_reordered m' m H' U' tl x Ex) as (y & Ey & _). eauto.
  - apply assigned_follows; [apply blocks_default_reordered|apply (brep_blocks_reordered m m' H K tl Hin)|].
    intros x Ex. destruct (brep_blocks_reordered m' m H' K' tl Hin x Ex) as (y & Ey & _). eauto.
  - rewrite (o_wrong_links m m' H U) in A5 by (intros c; apply (o_cmv_exists_in_brep m m' H U)). rewrite A5 in B5. injection B5 as B5. exact B5.
Qed.
