(** When the inspection of the lines of a BRep fails. *)
From Coq Require Import String Ascii List Arith NArith ZArith Bool Lia Sorted.
From Verif Require Import Base BaseFacts Model_Issues Types Model_Colocation Model_Topology Model_BRep Spec_Colocation Spec_Maps Spec_Adjacency
  Spec_Topology Spec_BRep Proof_Maps Proof_Colocation Proof_Colocation2 Proof_Colocation3 Proof_Adjacency Proof_Manifold Proof_Degeneration Proof_Topology
  Proof_Topology2 Proof_Topology3 Proof_Topology4 Proof_BRep Proof_BRep2 Proof_BRep3 Proof_BRep4 Proof_BRep5.
Import ListNotations.
Open Scope list_scope.

(** how a computation fails *)
Definition failed {A} (k : option exn) : outcome A := match k with Some ex => Throw ex | None => UB end.
Lemma bind_failed : forall A B k (f : A -> outcome B), bind (failed k) f = failed k.
Proof. intros A B [ex|] f; reflexivity. Qed.
Lemma report_vertex_fails : forall k checks uv rs, length rs = length checks ->
  (forall c, In c checks -> (exists o, c uv = Ok o) \/ c uv = failed k) -> (exists c, In c checks /\ c uv = failed k) -> report_vertex checks uv rs = failed k.
Proof.
  intros k checks uv. induction checks as [|c checks IH]; intros [|r rs] L H (d & Hd & E); try discriminate; [destruct Hd|]. cbn [report_vertex].
  destruct (H c (or_introl eq_refl)) as [[o Ho]|K].
  - rewrite Ho. cbn [bind]. destruct Hd as [<-|Hd]; [rewrite Ho in E; destruct k; discriminate|]. rewrite IH; [apply bind_failed|cbn in L; lia| |eauto].
    intros x Hx. apply H. right. exact Hx.
  - rewrite K. apply bind_failed.
Qed.
Lemma report_vertex_length : forall checks uv rs rs', report_vertex checks uv rs = Ok rs' -> length rs' = length rs.
Proof.
  induction checks as [|c checks IH]; intros uv [|r rs] rs' H; cbn in H; try (injection H as <-; reflexivity). destruct (c uv) as [o|ex|]; try discriminate. cbn [bind] in H.
  destruct (report_vertex checks uv rs) as [q|ex|] eqn:E; try discriminate. cbn [bind] in H. injection H as <-. cbn. f_equal. eapply IH, E.
Qed.
Lemma report_vertex_total : forall checks uv rs, length rs = length checks -> (forall c, In c checks -> exists o, c uv = Ok o) -> exists rs', report_vertex checks uv rs = Ok rs'.
Proof.
  induction checks as [|c checks IH]; intros uv [|r rs] L H; cbn [report_vertex]; try (eexists; reflexivity). destruct (H c (or_introl eq_refl)) as [o Ho]. rewrite Ho. cbn [bind].
  destruct (IH uv rs) as [q Hq]; [cbn in L; lia|intros x Hx; apply H; right; exact Hx|]. rewrite Hq. cbn [bind]. eexists. reflexivity.
Qed.
Lemma report_vertices_fails : forall k m checks ds, length ds = length checks ->
  (forall uv c, uv < nb_unique_vertices m -> In c checks -> (exists o, c uv = Ok o) \/ c uv = failed k) ->
  (exists uv c, uv < nb_unique_vertices m /\ In c checks /\ c uv = failed k) -> report_vertices m checks ds = failed k.
Proof.
  intros k m checks ds L H (uv0 & c0 & Huv & Hc & E). unfold report_vertices.
  assert (G : forall l rs, length rs = length checks -> (forall uv, In uv l -> uv < nb_unique_vertices m) -> In uv0 l ->
    foldM (fun rs uv => report_vertex checks uv rs) l rs = failed k).
  { induction l as [|uv l IH]; intros rs Lr Hl Hin; [destruct Hin|]. cbn [foldM].
    assert (D : (forall c, In c checks -> exists o, c uv = Ok o) \/ exists c, In c checks /\ c uv = failed k).
    { assert (Hu := Hl uv (or_introl eq_refl)). clear - H Hu. assert (H' : forall c, In c checks -> (exists o, c uv = Ok o) \/ c uv = failed k) by (intros c Hc; apply H; assumption).
      clear H. induction checks as [|c cs IH]; [left; intros c []|]. destruct (H' c (or_introl eq_refl)) as [K|K]; [|right; exists c; split; [left; reflexivity|exact K]].
      destruct IH as [Q|(d & Hd & Q)]; [intros x Hx; apply H'; right; exact Hx| |right; exists d; split; [right; exact Hd|exact Q]]. left. intros x [<-|Hx]; [exact K|apply Q, Hx]. }
    destruct D as [D|D].
    - destruct (report_vertex_total checks uv rs Lr D) as [rs' Hr]. rewrite Hr. cbn [bind]. apply IH.
      + rewrite (report_vertex_length _ _ _ _ Hr). exact Lr.
      + intros x Hx. apply Hl. right. exact Hx.
      + destruct Hin as [<-|Hin]; [|exact Hin]. destruct (D c0 Hc) as [o Ho]. rewrite Ho in E. destruct k; discriminate.
    - rewrite (report_vertex_fails k checks uv rs Lr); [apply bind_failed| |exact D]. intros c Hc'. apply H; [apply Hl; left; reflexivity|exact Hc']. }
  apply G; [rewrite map_length; exact L|intros uv; apply in_Range|apply in_Range; exact Huv].
Qed.

Section Fail.
Context (tl : TopoLookup) (m : Model).
Hypothesis Hok : brep_ok m.
Hypothesis Hlo : lookup_ok tl m.
Let Hu := br_ids m Hok.
Let Hl := brep_links_exist m Hok.
Lemma first_some_cases : forall A (f : A -> outcome (option string)) l k, (forall x, In x l -> (exists o, f x = Ok o) \/ f x = failed k) ->
  (exists o, first_some f l = Ok o) \/ first_some f l = failed k.
Proof.
  induction l as [|x l IH]; intros k H; cbn; [left; eauto|]. destruct (H x (or_introl eq_refl)) as [[o Ho]|K].
  - rewrite Ho. cbn. destruct o; [left; eauto|]. apply IH. intros y Hy. apply H. right. exact Hy.
  - rewrite K. right. apply bind_failed.
Qed.
Lemma embedding_check_cases : forall uv l e, active_at m uv LineT l -> In e (embeddings m l) ->
  (exists o, brep_embedding_check m uv l e = Ok o) \/ brep_embedding_check m uv l e = failed (Some (m_missing_exn m)).
Proof.
  intros uv l e Ha Hin. unfold brep_embedding_check. assert (Hle : In l (component_ids m LineT)) by (apply (Hl uv); [apply Ha|discriminate]).
  destruct (kind_named_ok m LineT l Hle) as [s Hs]. rewrite Hs. cbn [bind]. destruct (embedding_exists m Hok l e Hle Hin) as [[T|T] Hex]; rewrite T in Hex.
  - destruct (kind_named_ok m SurfaceT _ Hex) as [s' Hs']. rewrite Hs'. cbn [bind]. left. destruct (is_boundary m l (cid_id e)); [eauto|].
    destruct (ctype_eqb (cid_type e) BlockT && negb (brep_blocks_are_meshed m))%bool; [eauto|].
    destruct (negb (existsb (fun c => cid_eqb (cmv_component c) e) (component_mesh_vertices m uv))); eauto.
  - rewrite (kind_named_block_throws m Hok _ Hex). cbn [bind]. destruct (is_boundary m l (cid_id e)); [right; reflexivity|].
    destruct (ctype_eqb (cid_type e) BlockT && negb (brep_blocks_are_meshed m))%bool; [eauto|].
    destruct (negb (existsb (fun c => cid_eqb (cmv_component c) e) (component_mesh_vertices m uv))); [right; reflexivity|eauto].
Qed.
Lemma embedded_line_cases : forall uv, (exists o, brep_invalid_embedded_line m uv = Ok o) \/ brep_invalid_embedded_line m uv = failed (Some (m_missing_exn m)).
Proof.
  intros uv. unfold brep_invalid_embedded_line. apply first_some_cases. intros c Hc. rewrite (act m uv Hu Hl) by (discriminate || exact Hc). cbn [bind].
  destruct (active_cmv m LineT c) eqn:E; cbn [negb]; [|eauto]. apply first_some_cases. intros e He. apply embedding_check_cases; [apply (active_cmv_at m uv _ c Hc E)|exact He].
Qed.
Lemma wrong_relationships_cases : forall uv, (exists o, brep_line_wrong_relationships tl m uv = Ok o) \/ brep_line_wrong_relationships tl m uv = failed None.
Proof.
  intros uv. unfold brep_line_wrong_relationships. apply first_some_cases. intros c Hc. rewrite (act m uv Hu Hl) by (discriminate || exact Hc). cbn [bind].
  destruct (active_cmv m LineT c) eqn:E; cbn [negb]; [|eauto]. destruct (active_line m uv Hok c Hc E) as (lc & H1 & H2 & H3 & H4). rewrite H4. cbn [bind].
  destruct (Nat.eqb (length (ec_edges (co_mesh lc))) 0); [eauto|]. unfold component_mesh_edges. destruct (nth_error (ec_edges (co_mesh lc)) 0) as [[v0 v1]|]; [|right; reflexivity].
  destruct (unique_vertices m (mkCID LineT (co_id lc)) [v0; v1]) as [[|a [|b [|]]]|]; try (right; reflexivity). cbn [bind]. left.
  destruct (relationships_ok tl m uv Hok Hlo (cmv_id c) a b) as (r & Hr & _); [|eauto]. apply (Hl uv); [apply (active_cmv_at m uv _ c Hc E)|discriminate].
Qed.
Lemma brep_lines_throw : (forall uv, uv < nb_unique_vertices m -> first_edges_linked m uv) ->
  (exists uv, uv < nb_unique_vertices m /\ block_embedding_wrong m uv /\ ~ surface_embedding_wrong m uv) ->
  brep_inspect_lines_topology tl m = Throw (m_missing_exn m).
Proof.
  intros HF (uv0 & Huv & W & NW). unfold brep_inspect_lines_topology. destruct (line_elements_spec tl m Hok Hlo) as (cs & E & _). rewrite E. cbn [bind].
  rewrite (report_vertices_fails (Some (m_missing_exn m))); [reflexivity|reflexivity| |].
  - intros uv c Hu' [<-|[<-|[<-|[<-|[]]]]].
    + apply embedded_line_cases.
    + left. destruct (wrong_relationships_ok tl m uv Hok Hlo (HF uv Hu')) as (r & Hr & _). eauto.
    + left. destruct (only_line_ok m uv Hok) as (r & Hr & _). eauto.
    + left. destruct (lines_corner_ok m uv Hu Hl (brep_bound_at m uv Hok)) as (r & Hr & _). eauto.
  - exists uv0. eexists. split; [exact Huv|]. split; [left; reflexivity|]. apply embedded_lines_throw; assumption.
Qed.
Lemma brep_lines_ub : (forall uv, uv < nb_unique_vertices m -> ~ block_embedding_wrong m uv) ->
  (exists uv, uv < nb_unique_vertices m /\ ~ first_edges_linked m uv /\ ~ line_relationship_wrong tl m uv) ->
  brep_inspect_lines_topology tl m = UB.
Proof.
  intros HB (uv0 & Huv & W & NW). unfold brep_inspect_lines_topology. destruct (line_elements_spec tl m Hok Hlo) as (cs & E & _). rewrite E. cbn [bind].
  rewrite (report_vertices_fails None); [reflexivity|reflexivity| |].
  - intros uv c Hu' [<-|[<-|[<-|[<-|[]]]]].
    + left. destruct (embedded_lines_ok m uv Hok (HB uv Hu')) as (r & Hr & _). eauto.
    + apply wrong_relationships_cases.
    + left. destruct (only_line_ok m uv Hok) as (r & Hr & _). eauto.
    + left. destruct (lines_corner_ok m uv Hu Hl (brep_bound_at m uv Hok)) as (r & Hr & _). eauto.
  - exists uv0. eexists. split; [exact Huv|]. split; [right; left; reflexivity|]. apply wrong_relationships_ub; assumption.
Qed.
End Fail.
