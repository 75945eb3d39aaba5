(** Two models side by side (C93): the verdict on the topology. *)
From Coq Require Import String Ascii List Arith NArith ZArith Bool Lia.
From Verif Require Import Base BaseFacts Model_Issues Types Model_Adjacency Model_Colocation Model_Topology
  Spec_Colocation Spec_Topology Spec_Reproducible Spec_Beside Proof_Messages Proof_Topology Proof_Topology4 Proof_Local Proof_Moved Proof_Relabel2 Proof_Beside Proof_Beside2 Proof_Beside3 Proof_Beside4.
Import ListNotations.
Open Scope list_scope.

Lemma anyM_app : forall A (f : A -> outcome bool) l l', anyM f (l ++ l') = let! b := anyM f l in if b then Ok true else anyM f l'.
Proof. intros A f l l'. induction l as [|x l IH]; [reflexivity|]. cbn [app anyM]. destruct (f x) as [[|]|e|]; cbn [bind]; try reflexivity. exact IH. Qed.
Lemma anyM_same : forall A (f g : A -> outcome bool) l, (forall x, In x l -> f x = g x) -> anyM f l = anyM g l.
Proof. intros A f g l E. induction l as [|x l IH]; [reflexivity|]. cbn [anyM]. rewrite (E x (or_introl eq_refl)), IH; [reflexivity|]. intros y I. apply E. right. exact I. Qed.
Lemma all_pass_same : forall (l l' : list (nat -> outcome (option string))) uv uv', Forall2 (fun c c' => agree same_answer (c uv) (c' uv')) l l' -> all_pass l' uv' = all_pass l uv.
Proof.
  intros l l' uv uv' F. induction F as [|c c' l l' H F IH]; [reflexivity|]. cbn [all_pass]. destruct H as [a b Q|e|]; cbn [bind]; try reflexivity. unfold same_answer in Q. rewrite Q, IH. reflexivity.
Qed.
Section Piece.
Context (k : nat) (m M : Model) (P : piece k m M) (uv : nat) (B : uv < nb_unique_vertices m).
Let L := p_links _ _ _ P uv B.
Let OC := p_cmvs _ _ _ P uv.
Ltac each := repeat match goal with |- Forall2 _ [] [] => apply Forall2_nil | |- Forall2 _ _ _ => apply Forall2_cons end.
Lemma v_corner : section_corner_topology_is_valid M (k + uv) = section_corner_topology_is_valid m uv.
Proof.
  unfold section_corner_topology_is_valid. rewrite L.
  assert (G : forall cs found, incl cs (component_mesh_vertices m uv) -> section_corner_loop M (component_mesh_vertices m uv) found cs = section_corner_loop m (component_mesh_vertices m uv) found cs);
    [|apply G, incl_refl]. induction cs as [|c cs IH]; intros found J; [reflexivity|]. cbn [section_corner_loop].
  assert (O : In (cmv_id c) (all_ids m)) by (apply OC, J; left; reflexivity). assert (J' : incl cs (component_mesh_vertices m uv)) by (intros x I; apply J; right; exact I).
  rewrite (k_active_of k m M P), (k_nb_embeddings k m M P), (k_nb_incidences k m M P), !IH by assumption.
  rewrite (existsb_same _ (fun line => of_type LineT line && negb (is_boundary M (cmv_id c) (cmv_id line)))%bool (fun line => of_type LineT line && negb (is_boundary m (cmv_id c) (cmv_id line)))%bool); [reflexivity|].
  intros line _. rewrite (p_boundary _ _ _ P) by exact O. reflexivity.
Qed.
Lemma v_lines : section_lines_topology_is_valid M (k + uv) = section_lines_topology_is_valid m uv.
Proof.
  unfold section_lines_topology_is_valid. rewrite L. rewrite (anyM_same _ (is_active_of M LineT) (is_active_of m LineT)) by (intros c I; apply (k_active_of k m M P), OC, I).
  destruct (anyM (is_active_of m LineT) (component_mesh_vertices m uv)) as [b|e|]; cbn [bind]; try reflexivity. destruct (negb b); [reflexivity|].
  apply all_pass_same. each; [apply (k_relationship k m M P uv B)|apply (k_embedded k m M P uv B)|apply (k_single k m M P uv B)|apply (k_not_corner k m M P uv B)].
Qed.
Lemma v_surfaces : section_vertex_surfaces_topology_is_valid M (k + uv) = section_vertex_surfaces_topology_is_valid m uv.
Proof.
  unfold section_vertex_surfaces_topology_is_valid. rewrite L.
  assert (G : forall cs, incl cs (component_mesh_vertices m uv) -> section_surfaces_loop M (k + uv) cs = section_surfaces_loop m uv cs); [|apply G, incl_refl]. induction cs as [|c cs IH]; intros J; [reflexivity|]. cbn [section_surfaces_loop].
  assert (O : In (cmv_id c) (all_ids m)) by (apply OC, J; left; reflexivity). assert (J' : incl cs (component_mesh_vertices m uv)) by (intros x I; apply J; right; exact I).
  rewrite (k_active_of k m M P), !IH by assumption.
  rewrite (all_pass_same [section_invalid_embedded_surface m; section_line_not_on_surface_border m] [section_invalid_embedded_surface M; section_line_not_on_surface_border M] uv (k + uv)); [reflexivity|].
  each; [apply (k_embedded_surface k m M P uv B)|apply (k_border k m M P uv B)].
Qed.
Lemma v_right : forall cs, incl cs (component_mesh_vertices m uv) -> cmvs_are_right M cmv_exists_in_section (k + uv) cs = cmvs_are_right m cmv_exists_in_section uv cs.
Proof.
  induction cs as [|c cs IH]; intros J; [reflexivity|]. cbn [cmvs_are_right]. assert (O : In (cmv_id c) (all_ids m)) by (apply OC, J; left; reflexivity).
  rewrite (k_exists k m M P), (k_elsewhere k m M P), IH; [reflexivity|intros x I; apply J; right; exact I|exact O|exact O].
Qed.
End Piece.
Lemma v_associated : forall k m M, piece k m M -> forall t id n, In id (all_ids m) -> vertices_are_associated M (mkCID t id) n = vertices_are_associated m (mkCID t id) n.
Proof.
  intros k m M P t id n I. unfold vertices_are_associated. induction (Range n) as [|v l IH]; [reflexivity|]. cbn [forallb]. rewrite IH, (p_unique _ _ _ P) by exact I. destruct (m_unique_vertex m _); reflexivity.
Qed.
Lemma v_linked : forall k m M, piece k m M -> forall T t meshed nb (l : list (Component T)), (forall c, In c l -> In (co_id c) (all_ids m)) ->
  meshed_components_are_linked t meshed nb M l = meshed_components_are_linked t meshed nb m l.
Proof.
  intros k m M P T t meshed nb l O. unfold meshed_components_are_linked, active. induction l as [|c l IH]; [reflexivity|]. cbn [filter]. pose proof (IH (fun d I => O d (or_intror I))) as E.
  destruct (co_active c); [|exact E]. cbn [forallb]. rewrite E, (v_associated k m M P) by (apply O; left; reflexivity). reflexivity.
Qed.

Section Verdict.
Context (m1 m2 M : Model) (S : side_by_side m1 m2 M) (A : meshed_alike m1 m2).
Let k := nb_unique_vertices m1.
Let P1 := piece1 m1 m2 M S A.
Let P2 := piece2 m1 m2 M S A.
Lemma anyM_both : forall f f1 f2, (forall uv, uv < nb_unique_vertices m1 -> f (0 + uv) = f1 uv) -> (forall uv, uv < nb_unique_vertices m2 -> f (k + uv) = f2 uv) ->
  anyM f (Range (nb_unique_vertices M)) = let! b := anyM f1 (Range (nb_unique_vertices m1)) in if b then Ok true else anyM f2 (Range (nb_unique_vertices m2)).
Proof.
  intros f f1 f2 E1 E2. rewrite (nb_both m1 m2 M S), range_both, anyM_app, anyM_mapped. rewrite (anyM_same _ f f1) by (intros uv J; apply in_Range in J; apply E1, J).
  rewrite (anyM_same _ (fun x => f (nb_unique_vertices m1 + x)) f2) by (intros uv J; apply in_Range in J; apply E2, J). reflexivity.
Qed.
Lemma mc_app : forall T t meshed nb m (l l' : list (Component T)), meshed_components_are_linked t meshed nb m (l ++ l') = (meshed_components_are_linked t meshed nb m l && meshed_components_are_linked t meshed nb m l')%bool.
Proof. intros. unfold meshed_components_are_linked, active. rewrite filter_app. apply forallb_app. Qed.
Ltac own_id := let c := fresh in let I := fresh in intros c I; apply (in_map co_id) in I; unfold all_ids; rewrite !in_app_iff; tauto.
Lemma linked_both : section_meshed_components_are_linked M = (section_meshed_components_are_linked m1 && section_meshed_components_are_linked m2)%bool.
Proof.
  unfold section_meshed_components_are_linked. rewrite (sb_corners _ _ _ S), (sb_lines _ _ _ S), (sb_surfaces _ _ _ S), !mc_app.
  rewrite !(v_linked _ m1 M P1 _ _ _ _ (m_corners m1)), !(v_linked _ m1 M P1 _ _ _ _ (m_lines m1)), !(v_linked _ m1 M P1 _ _ _ _ (m_surfaces m1)) by own_id.
  rewrite !(v_linked _ m2 M P2 _ _ _ _ (m_corners m2)), !(v_linked _ m2 M P2 _ _ _ _ (m_lines m2)), !(v_linked _ m2 M P2 _ _ _ _ (m_surfaces m2)) by own_id.
  repeat match goal with |- context [meshed_components_are_linked ?t ?f ?n ?m ?l] => destruct (meshed_components_are_linked t f n m l) end; reflexivity.
Qed.
Lemma bijective_both : unique_vertices_are_bijectively_linked M cmv_exists_in_section =
  let! b := unique_vertices_are_bijectively_linked m1 cmv_exists_in_section in if b then unique_vertices_are_bijectively_linked m2 cmv_exists_in_section else Ok false.
Proof.
  unfold unique_vertices_are_bijectively_linked. rewrite (anyM_both _ (fun uv => match component_mesh_vertices m1 uv with [] => Ok true | cmvs => let! r := cmvs_are_right m1 cmv_exists_in_section uv cmvs in Ok (negb r) end)
    (fun uv => match component_mesh_vertices m2 uv with [] => Ok true | cmvs => let! r := cmvs_are_right m2 cmv_exists_in_section uv cmvs in Ok (negb r) end)).
  - destruct (anyM _ (Range (nb_unique_vertices m1))) as [[|]|e|]; reflexivity.
  - intros uv B. pose proof (v_right _ m1 M P1 uv _ (incl_refl _)) as R. rewrite (p_links _ _ _ P1 uv B). destruct (component_mesh_vertices m1 uv); [reflexivity|]. rewrite R. reflexivity.
  - intros uv B. pose proof (v_right _ m2 M P2 uv _ (incl_refl _)) as R. fold k in R. pose proof (p_links _ _ _ P2 uv B) as L. fold k in L. rewrite L. destruct (component_mesh_vertices m2 uv); [reflexivity|]. rewrite R. reflexivity.
Qed.
Definition checks_of (m : Model) := [section_corner_topology_is_valid m; section_lines_topology_is_valid m; section_vertex_surfaces_topology_is_valid m].
Lemma every_both : every_vertex M (checks_of M) = let! b := every_vertex m1 (checks_of m1) in if b then every_vertex m2 (checks_of m2) else Ok false.
Proof.
  unfold every_vertex. rewrite (anyM_both _ (fun uv => let! b := allM (checks_of m1) uv in Ok (negb b)) (fun uv => let! b := allM (checks_of m2) uv in Ok (negb b))).
  - destruct (anyM _ (Range (nb_unique_vertices m1))) as [[|]|e|]; reflexivity.
  - intros uv B. unfold checks_of. cbn [allM]. rewrite (v_corner _ m1 M P1 uv B), (v_lines _ m1 M P1 uv B), (v_surfaces _ m1 M P1 uv B). reflexivity.
  - intros uv B. unfold checks_of. cbn [allM]. unfold k. rewrite (v_corner _ m2 M P2 uv B), (v_lines _ m2 M P2 uv B), (v_surfaces _ m2 M P2 uv B). reflexivity.
Qed.
Lemma verdict_both : forall b1 b2, nb_unique_vertices m1 <> 0 -> nb_unique_vertices m2 <> 0 -> section_topology_is_valid m1 = Ok b1 -> section_topology_is_valid m2 = Ok b2 ->
  section_topology_is_valid M = Ok (b1 && b2)%bool.
Proof.
  intros b1 b2 N1 N2 E1 E2. unfold section_topology_is_valid in *. rewrite linked_both, bijective_both. fold (checks_of m1) in E1. fold (checks_of m2) in E2. fold (checks_of M). rewrite every_both.
  rewrite (proj2 (Nat.eqb_neq _ _) N1) in E1. rewrite (proj2 (Nat.eqb_neq _ _) N2) in E2. replace (nb_unique_vertices M =? 0) with false by (symmetry; apply Nat.eqb_neq; rewrite (nb_both m1 m2 M S); lia).
  destruct (section_meshed_components_are_linked m1); cbn [negb andb] in *; [|injection E1 as <-; reflexivity].
  destruct (section_meshed_components_are_linked m2); cbn [negb andb] in *; [|injection E2 as <-; rewrite andb_false_r; reflexivity].
  destruct (unique_vertices_are_bijectively_linked m1 cmv_exists_in_section) as [[|]|e|]; cbn [bind negb] in *; try discriminate E1; [|injection E1 as <-; reflexivity].
  destruct (unique_vertices_are_bijectively_linked m2 cmv_exists_in_section) as [[|]|e|]; cbn [bind negb] in *; try discriminate E2; [|injection E2 as <-; rewrite andb_false_r; reflexivity].
  rewrite E1. cbn [bind]. destruct b1; [rewrite E2|]; reflexivity.
Qed.
End Verdict.
