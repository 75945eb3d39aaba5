(** Mesh inspections do not read inactive components: manifoldness and intersections; whole inspections of meshes. *)
From Coq Require Import String Ascii List Arith NArith ZArith Bool Lia Permutation.
From Verif Require Import Base BaseFacts Model_Issues Types Model_Hash Spec_Colocation Model_Colocation Model_Adjacency Model_Degeneration Model_Negative
  Model_Manifold Model_Intersections Model_Topology Model_BRep Model_Blocks Model_Results Spec_Inactive Proof_Colocation2 Proof_Manifold Proof_Safe Proof_Inactive.
Import ListNotations.
Open Scope list_scope.

Lemma emplace_forall : forall K V (P : V -> Prop) eqb (k : K) init f (l : list (K * V)), P init -> (forall v, P v -> P (f v)) ->
  Forall (fun kv => P (snd kv)) l -> Forall (fun kv => P (snd kv)) (emplace_or_update eqb k init f l).
Proof.
  intros K V P eqb k init f l Pi Pf F. induction F as [|[k' v] l Pv F IH]; cbn [emplace_or_update]; [repeat constructor; exact Pi|].
  destruct (eqb k' k); constructor; auto. cbn. apply Pf, Pv.
Qed.
Definition active_surface (m : Model) (id : uuid) : Prop := exists s, In s (m_surfaces m) /\ co_active s = true /\ co_id s = id.
Definition active_line (m : Model) (id : uuid) : Prop := exists l, In l (m_lines m) /\ co_active l = true /\ co_id l = id.
Lemma fold_left_inv : forall A S (P : S -> Prop) (f : S -> A -> S) l s, P s -> (forall s a, P s -> In a l -> P (f s a)) -> P (fold_left f l s).
Proof.
  intros A S P f l. induction l as [|a l IH]; intros s Ps K; [exact Ps|]. cbn [fold_left]. apply IH; [apply K; [exact Ps|left; reflexivity]|].
  intros t b Pt I. apply K; [exact Pt|right; exact I].
Qed.
Lemma model_edges_active : forall m, Forall (fun kv => Forall (active_surface m) (snd kv)) (model_edges m).
Proof.
  intros m. unfold model_edges. apply fold_left_inv; [constructor|]. intros acc s F I. apply in_active in I as [I A].
  assert (X : active_surface m (co_id s)) by (exists s; auto).
  apply fold_left_inv; [exact F|]. intros acc' e F' _. destruct (counted_edge (co_mesh s) e); [|exact F'].
  apply (emplace_forall _ _ (Forall (active_surface m))); [repeat constructor; exact X| |exact F'].
  intros v Fv. apply Forall_app. split; [exact Fv|]. repeat constructor. exact X.
Qed.

Section Same.
Context (m m' : Model) (H : same_but_inactive m m') (U : unique_ids m).
Lemma surface_same : forall id, active_surface m id -> exists s, In s (m_surfaces m) /\ co_active s = true /\ co_id s = id /\ find_component id (m_surfaces m) = Some s /\
  find_component id (m_surfaces m') = Some s.
Proof.
  intros id (s & I & A & <-). exists s. split; [exact I|]. split; [exact A|]. split; [reflexivity|].
  apply find_active; [apply H|apply (unique_ids_facts m U)|exact I|exact A].
Qed.
Lemma line_same : forall id, active_line m id -> exists s, In s (m_lines m) /\ co_active s = true /\ co_id s = id /\ find_component id (m_lines m) = Some s /\
  find_component id (m_lines m') = Some s.
Proof.
  intros id (s & I & A & <-). exists s. split; [exact I|]. split; [exact A|]. split; [reflexivity|].
  apply find_active; [apply H|apply (unique_ids_facts m U)|exact I|exact A].
Qed.
Lemma surface_got : forall id, active_surface m id -> exists s, In s (m_surfaces m) /\ co_active s = true /\ co_id s = id /\ get_surface m id = Ok s /\ get_surface m' id = Ok s.
Proof. intros id A. destruct (surface_same id A) as (s & I & B & E & F & F'). exists s. unfold get_surface. rewrite F, F'. auto. Qed.
Lemma line_got : forall id, active_line m id -> exists s, In s (m_lines m) /\ co_active s = true /\ co_id s = id /\ get_line m id = Ok s /\ get_line m' id = Ok s.
Proof. intros id A. destruct (line_same id A) as (s & I & B & E & F & F'). exists s. unfold get_line. rewrite F, F'. auto. Qed.
(** manifold *)
Lemma same_surfaces_vertices : forall geo acc, add_surfaces_meshes_non_manifold_vertices geo m acc = add_surfaces_meshes_non_manifold_vertices geo m' acc.
Proof. intros. unfold add_surfaces_meshes_non_manifold_vertices. rewrite (active_surfaces m m' H). apply foldM_same. intros. rewrite (same_named m m' H). reflexivity. Qed.
Lemma same_surfaces_edges : forall ho acc, add_surfaces_meshes_non_manifold_edges ho m acc = add_surfaces_meshes_non_manifold_edges ho m' acc.
Proof. intros. unfold add_surfaces_meshes_non_manifold_edges. rewrite (active_surfaces m m' H). apply foldM_same. intros. rewrite (same_named m m' H). reflexivity. Qed.
Lemma same_section_manifold : forall geo ho, inspect_section_manifold geo ho m = inspect_section_manifold geo ho m'.
Proof.
  intros. unfold inspect_section_manifold. rewrite same_surfaces_vertices. destruct (add_surfaces_meshes_non_manifold_vertices geo m' _); cbn [bind]; auto.
  rewrite same_surfaces_edges. reflexivity.
Qed.
Lemma same_model_edges : model_edges m = model_edges m'.
Proof.
  unfold model_edges. rewrite (active_surfaces m m' H). apply fold_same. intros acc s _. apply fold_same. intros acc' e _.
  unfold model_edge_key, surface_uv. rewrite (sb_unique _ _ H). reflexivity.
Qed.
Lemma same_edge_message : forall kv, Forall (active_surface m) (snd kv) -> model_edge_message m kv = model_edge_message m' kv.
Proof.
  intros kv F. unfold model_edge_message.
  assert (E : forall l, Forall (active_surface m) l ->
    map (fun id => StrCat [named m (match find_component id (m_surfaces m) with Some s => co_name s | None => None end) id; ", "%string]) l =
    map (fun id => StrCat [named m' (match find_component id (m_surfaces m') with Some s => co_name s | None => None end) id; ", "%string]) l).
  { intros l Fl. apply map_ext_in. intros id I. rewrite Forall_forall in Fl. destruct (surface_same id (Fl id I)) as (s & _ & _ & _ & F1 & F2).
    rewrite F1, F2, (same_named m m' H). reflexivity. }
  rewrite (E _ F). reflexivity.
Qed.
Lemma same_several : forall l, several_cmvs_on_one_vertex m l = several_cmvs_on_one_vertex m' l.
Proof.
  intros l. induction l as [|[v|] l IH]; cbn [several_cmvs_on_one_vertex]; auto. rewrite (same_nb m m' H), (same_cmvs m m' H), IH. reflexivity.
Qed.
Lemma same_lonely_line : forall l, lonely_line m l = lonely_line m' l.
Proof.
  intros l. unfold lonely_line, nb_embeddings_of, embeddings. cbv zeta. rewrite (sb_internal_rel _ _ H), (sb_unique _ _ H).
  destruct (ec_edges (co_mesh l)) as [|[v w] [|]]; auto. rewrite same_several. reflexivity.
Qed.
Lemma same_lonely_surface : forall s, lonely_surface m s = lonely_surface m' s.
Proof.
  intros s. unfold lonely_surface, nb_embeddings_of, embeddings, surface_uv. cbv zeta. rewrite (sb_internal_rel _ _ H), (sb_unique _ _ H), same_several. reflexivity.
Qed.
Lemma same_brep_manifold : forall geo ho, inspect_brep_manifold geo ho m = inspect_brep_manifold geo ho m'.
Proof.
  intros. unfold inspect_brep_manifold, add_component_meshes_non_manifold_vertices, add_component_meshes_non_manifold_edges, add_component_meshes_non_manifold_facets,
    add_model_non_manifold_edges, add_model_non_manifold_facets.
  cbv zeta. rewrite same_surfaces_vertices, same_surfaces_edges, (active_surfaces m m' H), (active_lines m m' H), (active_blocks m m' H), <- same_model_edges.
  assert (N := same_named m m' H).
  set (b1 := bind (add_surfaces_meshes_non_manifold_vertices geo m' _) _). set (b1' := bind (add_surfaces_meshes_non_manifold_vertices geo m' _) _).
  assert (E1 : b1 = b1'). { subst b1 b1'. destruct (add_surfaces_meshes_non_manifold_vertices geo m' _); cbn [bind]; auto. apply foldM_same. intros. rewrite N. reflexivity. }
  rewrite E1. destruct b1' as [r1| |]; cbn [bind]; auto. clear b1 E1.
  set (b1 := bind (add_surfaces_meshes_non_manifold_edges ho m' _) _). set (b2 := bind (add_surfaces_meshes_non_manifold_edges ho m' _) _).
  assert (E1 : b1 = b2). { subst b1 b2. destruct (add_surfaces_meshes_non_manifold_edges ho m' _); cbn [bind]; auto. apply foldM_same. intros. rewrite N. reflexivity. }
  rewrite E1. destruct b2 as [r2| |]; cbn [bind]; auto. clear b1 E1.
  erewrite foldM_same; [|intros s a _; rewrite N; reflexivity].
  match goal with |- bind ?x _ = bind ?x _ => destruct x as [r3| |]; cbn [bind]; auto end.
  match goal with |- bind ?x _ = bind ?y _ => assert (E : x = y) end.
  { match goal with |- foldM _ _ ?s = foldM _ _ ?t => assert (Es : s = t) end.
    { apply fold_same. intros r kv I. rewrite visit_in in I. pose proof (model_edges_active m) as F. rewrite Forall_forall in F. rewrite (same_edge_message kv (F kv I)). reflexivity. }
    rewrite Es. apply foldM_same. intros r l _.
    rewrite same_lonely_line. destruct (lonely_line m' l) as [[vs|]| |]; cbn [bind]; auto.
    unfold lonely_line_message. rewrite N. reflexivity. }
  rewrite E. match goal with |- bind ?x _ = bind ?x _ => destruct x as [r4| |]; cbn [bind]; auto end.
  match goal with |- bind ?x _ = bind ?y _ => assert (E' : x = y) end.
  { apply foldM_same. intros r s _. rewrite same_lonely_surface.
    destruct (lonely_surface m' s) as [[vs|]| |]; cbn [bind]; auto. unfold lonely_surface_message. rewrite N. reflexivity. }
  rewrite E'. reflexivity.
Qed.
(** intersections *)
Context (px : Predicates) (trees : Trees) (T : only_active_surfaces m trees).
Lemma same_pair_task : forall a s1 s2 cs r, pair_task px m a s1 s2 cs r -> pair_task px m' a s1 s2 cs r.
Proof. intros. clear T U. both m m' H. assumption. Qed.
Definition of_active (c : ComponentMeshElement * ComponentMeshElement) : Prop := active_surface m (element_component (fst c)) /\ active_surface m (element_component (snd c)).
Lemma pair_task_active : forall a s1 s2 cs found, active_surface m (co_id s1) -> active_surface m (co_id s2) -> pair_task px m a s1 s2 cs (Ok found) -> Forall of_active found.
Proof.
  intros a s1 s2 cs found A1 A2 (f & _ & E). destruct f as [f| |]; cbn [bind] in E; [|discriminate E|discriminate E]. injection E as ->.
  unfold located. apply Forall_forall. intros c I. apply in_map_iff in I as ((p, q) & <- & _). split; assumption.
Qed.
Lemma self_same : forall a s r, In s (active (m_surfaces m)) -> self_task px m trees a s r -> self_task px m' trees a s r /\ forall found, r = Ok found -> Forall of_active found.
Proof.
  intros a s r I. apply in_active in I as [I A]. unfold self_task. destruct (surface_got (co_id s)) as (s' & _ & _ & E & G & G'); [exists s; auto|]. rewrite G, G'.
  assert (As : active_surface m (co_id s')) by (exists s; rewrite E; auto).
  destruct (mesh_tree_id (tr_uuids trees) (co_id s)) as [i| |].
  - intros P. split; [apply same_pair_task, P|]. intros found ->. eapply pair_task_active; eauto.
  - intros ->. split; [reflexivity|discriminate].
  - intros ->. split; [reflexivity|discriminate].
Qed.
Lemma overlap_same : forall a c r, overlap_task px m trees a c r -> overlap_task px m' trees a c r /\ forall found, r = Ok found -> Forall of_active found.
Proof.
  intros a c r. unfold overlap_task.
  destruct (at_index (tr_uuids trees) (fst c)) as [id1| |] eqn:E1; cbn [bind]; try (intros ->; split; [reflexivity|discriminate]).
  destruct (at_index (tr_uuids trees) (snd c)) as [id2| |] eqn:E2; cbn [bind]; try (intros ->; split; [reflexivity|discriminate]).
  unfold at_index in E1, E2. destruct (nth_error (tr_uuids trees) (fst c)) as [x|] eqn:N1; [injection E1 as ->|discriminate]. destruct (nth_error (tr_uuids trees) (snd c)) as [y|] eqn:N2; [injection E2 as ->|discriminate].
  apply nth_error_In, T in N1. apply nth_error_In, T in N2.
  destruct (surface_got _ N1) as (s1 & I1 & A1 & D1 & G1 & G1'). destruct (surface_got _ N2) as (s2 & I2 & A2 & D2 & G2 & G2'). rewrite G1, G1', G2, G2'. cbn [bind].
  intros P. split; [apply same_pair_task, P|]. intros found ->. eapply pair_task_active; [| |exact P]; [exists s1|exists s2]; auto.
Qed.
Lemma forall2_with : forall A B (P Q : A -> B -> Prop) (R : B -> Prop) l k, (forall a b, In a l -> P a b -> Q a b /\ R b) -> Forall2 P l k -> Forall2 Q l k /\ Forall R k.
Proof.
  intros A B P Q R l k K F. induction F as [|a b l k p F IH]; [split; constructor|]. destruct (K a b (or_introl eq_refl) p) as [q r].
  destruct IH as [IQ IR]; [intros; apply K; [right|]; assumption|]. split; constructor; auto.
Qed.
Lemma gather_active : forall l found, Forall (fun r => forall f, r = Ok f -> Forall of_active f) l -> gather l = Ok found -> Forall of_active found.
Proof.
  intros l found F E. unfold gather in E. match type of E with (if ?b then _ else _) = _ => destruct b; [discriminate|] end. rewrite Forall_forall in F.
  eapply (foldM_inv _ _ (Forall of_active)); [| |exact E]; [constructor|]. intros s r s' Fs I Er. destruct r as [r| |]; cbn [bind] in Er; [|discriminate|discriminate].
  injection Er as <-. apply Forall_app. split; [exact Fs|]. eapply F; [exact I|reflexivity].
Qed.
Lemma polygons_same : forall a r, intersecting_polygons px m trees a r -> intersecting_polygons px m' trees a r /\ forall found, r = Ok found -> Forall of_active found.
Proof.
  intros a r. unfold intersecting_polygons. rewrite <- (active_surfaces m m' H). destruct (existsb _ (active (m_surfaces m))).
  - intros ->. split; [reflexivity|]. intros found E. injection E as <-. constructor.
  - intros (rs & os & ors & F1 & Tr & F2 & ->).
    apply (forall2_with _ _ _ (self_task px m' trees a) (fun r => forall f, r = Ok f -> Forall of_active f)) in F1; [|intros s b I P; apply self_same; assumption].
    apply (forall2_with _ _ _ (overlap_task px m' trees a) (fun r => forall f, r = Ok f -> Forall of_active f)) in F2; [|intros s b _ P; apply overlap_same; assumption].
    destruct F1 as [F1 R1], F2 as [F2 R2]. split; [exists rs, os, ors; auto|]. intros found E. eapply gather_active; [|exact E]. apply Forall_app. auto.
Qed.
Lemma surfaces_elements_same : forall i r, add_intersecting_surfaces_elements px m trees i r -> add_intersecting_surfaces_elements px m' trees i r.
Proof.
  intros i r (found & P & ->). apply polygons_same in P as [P A]. exists found. split; [exact P|]. destruct found as [found| |]; cbn [bind]; auto.
  specialize (A found eq_refl). apply foldM_same. intros s c I. rewrite Forall_forall in A. destruct (A c I) as [A1 A2].
  destruct (surface_got _ A1) as (s1 & _ & _ & _ & G1 & G1'). destruct (surface_got _ A2) as (s2 & _ & _ & _ & G2 & G2'). unfold IntersectionsResult, ComponentMeshElement in *. rewrite G1, G1'. cbn [bind]. rewrite G2, G2'. cbn [bind].
  rewrite !(same_named m m' H). reflexivity.
Qed.
Lemma auto_elements_same : forall i r, add_surface_auto_intersecting_elements px m trees i r -> add_surface_auto_intersecting_elements px m' trees i r.
Proof.
  intros i r (found & P & ->). apply polygons_same in P as [P A]. exists found. split; [exact P|]. destruct found as [found| |]; cbn [bind]; auto.
  specialize (A found eq_refl). apply foldM_same. intros s c I. rewrite Forall_forall in A. destruct (A c I) as [A1 _].
  destruct (surface_got _ A1) as (s1 & _ & _ & _ & G1 & G1'). unfold IntersectionsResult, ComponentMeshElement in *. rewrite G1, G1'. cbn [bind]. rewrite !(same_named m m' H). reflexivity.
Qed.
(** lines *)
Context (lines : LineTrees).
Definition of_active_line (c : ComponentMeshElement * ComponentMeshElement) : Prop := active_surface m (element_component (fst c)) /\ active_line m (element_component (snd c)).
Lemma line_step_same : forall s i l acc r, In s (active (m_surfaces m)) -> In l (active (m_lines m)) -> Forall of_active_line acc ->
  line_surface_step px m lines s i l acc r -> line_surface_step px m' lines s i l acc r /\ forall f, r = Ok f -> Forall of_active_line f.
Proof.
  intros s i l acc r Is Il Fa. apply in_active in Is as [Is As]. apply in_active in Il as [Il Al]. unfold line_surface_step.
  assert (Eb : nb_embedding_blocks m' (co_id l) = nb_embedding_blocks m (co_id l)) by (unfold nb_embedding_blocks, embeddings; rewrite (sb_internal_rel _ _ H); reflexivity).
  rewrite Eb. destruct (Nat.eqb (nb_embedding_blocks m (co_id l)) 0).
  - intros ->. split; [reflexivity|]. intros f E. injection E as <-. exact Fa.
  - destruct (surface_got (co_id s)) as (s' & _ & _ & _ & G & G'); [exists s; auto|]. destruct (line_got (co_id l)) as (l' & _ & _ & _ & K & K'); [exists l; auto|].
    rewrite G, G', K, K'. cbn [bind]. destruct (mesh_tree_id (lt_uuids lines) (co_id l)) as [j| |]; cbn [bind]; try (intros ->; split; [reflexivity|discriminate]).
    intros (found & Tr & ->). split; [exists found; auto|]. intros f E. destruct found as [found| |]; cbn [bind] in E; [injection E as <-|discriminate|discriminate].
    apply Forall_app. split; [exact Fa|]. unfold located. apply Forall_forall. intros c I. apply in_map_iff in I as ((p, q) & <- & _). split; [exists s|exists l]; auto.
Qed.
Lemma loop_same : forall A S (P : S -> Prop) (body body' : A -> S -> outcome S -> Prop) l s r, P s ->
  (forall a s r, In a l -> P s -> body a s r -> body' a s r /\ forall s', r = Ok s' -> P s') -> loop body l s r -> loop body' l s r /\ forall s', r = Ok s' -> P s'.
Proof.
  intros A S P body body' l s r Ps K L. induction L as [s|a l s s' r B L IH|a l s e B|a l s B].
  - split; [constructor|]. intros s' E. injection E as <-. exact Ps.
  - destruct (K a s (Ok s') (or_introl eq_refl) Ps B) as [B' P']. destruct IH as [L' Pr]; [apply P'; reflexivity|intros; apply K; [right|auto|auto]; assumption|].
    split; [econstructor; eassumption|exact Pr].
  - destruct (K a s _ (or_introl eq_refl) Ps B) as [B' _]. split; [constructor; exact B'|discriminate].
  - destruct (K a s _ (or_introl eq_refl) Ps B) as [B' _]. split; [constructor; exact B'|discriminate].
Qed.
Lemma lines_surfaces_same : forall r, intersecting_lines_surfaces px m trees lines r -> intersecting_lines_surfaces px m' trees lines r /\ forall f, r = Ok f -> Forall of_active_line f.
Proof.
  intros r. unfold intersecting_lines_surfaces. rewrite <- (active_surfaces m m' H), <- (active_lines m m' H).
  destruct (existsb _ (active (m_surfaces m))); [intros ->; split; [reflexivity|intros f E; injection E as <-; constructor]|].
  destruct (existsb _ (active (m_lines m))); [intros ->; split; [reflexivity|intros f E; injection E as <-; constructor]|].
  apply (loop_same _ _ (Forall of_active_line)); [constructor|]. intros s acc r' Is Fa. unfold surface_step. rewrite <- (active_lines m m' H).
  destruct (mesh_tree_id (tr_uuids trees) (co_id s)) as [i| |]; try (intros ->; split; [reflexivity|discriminate]).
  apply (loop_same _ _ (Forall of_active_line)); [exact Fa|]. intros l acc' r'' Il Fa'. apply line_step_same; assumption.
Qed.
Lemma lines_elements_same : forall i r, add_intersecting_lines_surfaces_elements px m trees lines i r -> add_intersecting_lines_surfaces_elements px m' trees lines i r.
Proof.
  intros i r (found & P & ->). apply lines_surfaces_same in P as [P A]. exists found. split; [exact P|]. destruct found as [found| |]; cbn [bind]; auto.
  specialize (A found eq_refl). apply foldM_same. intros s c I. rewrite Forall_forall in A. destruct (A c I) as [A1 A2].
  destruct (surface_got _ A1) as (s1 & _ & _ & _ & G1 & G1'). destruct (line_got _ A2) as (s2 & _ & _ & _ & G2 & G2'). unfold IntersectionsResult, ComponentMeshElement in *. rewrite G1, G1'. cbn [bind]. rewrite G2, G2'. cbn [bind].
  rewrite !(same_named m m' H). reflexivity.
Qed.
Lemma brep_intersections_same : forall r, brep_inspect_intersections px m trees lines r -> brep_inspect_intersections px m' trees lines r.
Proof.
  intros r (r1 & P & K). exists r1. split; [apply surfaces_elements_same, P|]. destruct r1; auto. apply lines_elements_same, K.
Qed.
End Same.

Lemma only_active_same : forall m m' trees, same_but_inactive m m' -> only_active_surfaces m trees -> only_active_surfaces m' trees.
Proof.
  intros m m' trees H T id I. destruct (T id I) as (s & Is & A & E). exists s. assert (K : In s (active (m_surfaces m))) by (apply in_active; auto).
  rewrite (active_surfaces m m' H) in K. apply in_active in K as [K _]. auto.
Qed.
