(** Proofs about the shared pieces of topology inspections. *)
From Coq Require Import String Ascii List Arith NArith ZArith Bool Lia Sorted.
From Verif Require Import Base BaseFacts Model_Issues Types Model_Colocation Model_Topology Spec_Colocation Spec_Maps Spec_Adjacency
  Spec_Topology Proof_Maps Proof_Colocation Proof_Colocation2 Proof_Colocation3 Proof_Adjacency Proof_Manifold Proof_Degeneration.
Import ListNotations.
Open Scope list_scope.

(** ** Components *)
Lemma ctype_eqb_eq : forall a b, ctype_eqb a b = true <-> a = b.
Proof. intros [] []; cbn; split; congruence. Qed.
Lemma of_type_iff : forall t c, of_type t c = true <-> cmv_type c = t.
Proof. intros t c. apply ctype_eqb_eq. Qed.
Definition activeb (m : Model) (t : ComponentType) (id : uuid) : bool := memb id (active_ids m t).
Lemma activeb_iff : forall m t id, activeb m t id = true <-> In id (active_ids m t).
Proof. intros. apply memb_In. Qed.

Lemma find_component_exists : forall M (l : list (Component M)) id, In id (map co_id l) -> exists c, find_component id l = Some c.
Proof.
  intros M l id H. induction l as [|c l IH]; [destruct H|]. cbn. destruct (Nat.eqb_spec (co_id c) id) as [E|E]; [eauto|].
  destruct H as [H|H]; [congruence|]. apply IH. exact H.
Qed.
Lemma in_active_ids_find : forall M (l : list (Component M)) id c, NoDup (map co_id l) -> find_component id l = Some c ->
  memb id (map co_id (filter co_active l)) = co_active c.
Proof.
  intros M l id c Hn Hf. destruct (find_component_Some M l id c Hf) as [Hin Hid].
  apply Bool.eq_iff_eq_true. rewrite memb_In, in_map_iff. split.
  - intros (d & Hd & Hf'). apply filter_In in Hf'. destruct Hf' as [Hdin Hda].
    assert (find_component (co_id d) l = Some d) by (apply find_component_In; assumption).
    rewrite Hd in H. rewrite Hf in H. injection H as <-. exact Hda.
  - intros Ha. exists c. split; [exact Hid|]. apply filter_In. auto.
Qed.
Lemma active_are_components : forall m t id, In id (active_ids m t) -> In id (component_ids m t).
Proof.
  intros m t id. destruct t; cbn; try (intros []); rewrite !in_map_iff; intros (c & Hc & Hin); apply filter_In in Hin;
    destruct Hin as [Hin _]; exists c; auto.
Qed.

Lemma kind_is_active_ok : forall m t id, unique_ids m -> In id (component_ids m t) -> kind_is_active m t id = Ok (activeb m t id).
Proof.
  intros m t id Hu Hin. destruct (unique_ids_facts m Hu). unfold activeb.
  destruct t; cbn in *; unfold get_corner, get_line, get_surface, get_block, or_throw;
    [| | | |destruct Hin]; destruct (find_component_exists _ _ _ Hin) as [c Hc]; rewrite Hc; cbn;
    f_equal; symmetry; apply in_active_ids_find; assumption.
Qed.
Lemma kind_named_ok : forall m t id, In id (component_ids m t) -> exists s, kind_named m t id = Ok s.
Proof.
  intros m t id Hin. destruct t; cbn in *; unfold get_corner, get_line, get_surface, get_block, or_throw;
    try (destruct (find_component_exists _ _ _ Hin) as [c Hc]; rewrite Hc; cbn; eauto).
  destruct Hin.
Qed.
Lemma kind_title_ok : forall m t id, In id (component_ids m t) -> exists s, kind_title m t id = Ok s.
Proof.
  intros m t id Hin. destruct t; cbn in *; unfold get_corner, get_line, get_surface, get_block, or_throw;
    try (destruct (find_component_exists _ _ _ Hin) as [c Hc]; rewrite Hc; cbn; eauto).
  destruct Hin.
Qed.
Lemma cmv_at : forall m uv c, In c (component_mesh_vertices m uv) -> at_vertex m uv (cmv_type c) (cmv_id c).
Proof. intros m uv [[t id] v] H. exists v. exact H. Qed.
Lemma at_vertex_iff : forall m uv t id, at_vertex m uv t id <->
  exists c, In c (component_mesh_vertices m uv) /\ of_type t c = true /\ cmv_id c = id.
Proof.
  intros m uv t id. split.
  - intros [v H]. exists (mkCMV (mkCID t id) v). split; [exact H|]. split; [apply of_type_iff; reflexivity|reflexivity].
  - intros ([[t' id'] v] & H & Ht & Hid). apply of_type_iff in Ht. cbn in Ht, Hid. subst. exists v. exact H.
Qed.
Definition active_cmv (m : Model) (t : ComponentType) (c : ComponentMeshVertex) : bool := of_type t c && activeb m t (cmv_id c).
Lemma is_active_of_ok : forall m t uv c, unique_ids m -> links_exist m -> t <> OtherT -> In c (component_mesh_vertices m uv) ->
  is_active_of m t c = Ok (active_cmv m t c).
Proof.
  intros m t uv c Hu Hl Ht Hin. unfold is_active_of, active_cmv. destruct (of_type t c) eqn:E; [|reflexivity].
  apply of_type_iff in E. cbn. apply kind_is_active_ok; [exact Hu|]. apply (Hl uv); [|exact Ht]. rewrite <- E. apply cmv_at. exact Hin.
Qed.
Lemma active_at_iff : forall m uv t id, active_at m uv t id <->
  exists c, In c (component_mesh_vertices m uv) /\ active_cmv m t c = true /\ cmv_id c = id.
Proof.
  intros m uv t id. unfold active_at. rewrite at_vertex_iff. unfold active_cmv. split.
  - intros [(c & H1 & H2 & H3) Ha]. exists c. rewrite H2, H3. cbn. rewrite activeb_iff. auto.
  - intros (c & H1 & H2 & H3). apply andb_true_iff in H2. destruct H2 as [H2 H4]. rewrite activeb_iff, H3 in H4. split; [|exact H4].
    exists c. auto.
Qed.
Lemma active_cmv_at : forall m uv t c, In c (component_mesh_vertices m uv) -> active_cmv m t c = true -> active_at m uv t (cmv_id c).
Proof. intros m uv t c H1 H2. apply active_at_iff. exists c. auto. Qed.

Lemma is_boundary_iff : forall m a b, is_boundary m a b = true <-> bounds m a b.
Proof.
  intros m a b. unfold is_boundary, bounds. rewrite existsb_exists. split.
  - intros ([[ta a'] [tb b']] & Hin & H). cbn in H. apply andb_true_iff in H. rewrite !Nat.eqb_eq in H. destruct H. subst. eauto.
  - intros (ta & tb & H). exists (mkCID ta a, mkCID tb b). split; [exact H|]. cbn. rewrite !Nat.eqb_refl. reflexivity.
Qed.
Lemma is_internal_iff : forall m a b, is_internal m a b = true <-> inside m a b.
Proof.
  intros m a b. unfold is_internal, inside. rewrite existsb_exists. split.
  - intros ([[ta a'] [tb b']] & Hin & H). cbn in H. apply andb_true_iff in H. rewrite !Nat.eqb_eq in H. destruct H. subst. eauto.
  - intros (ta & tb & H). exists (mkCID ta a, mkCID tb b). split; [exact H|]. cbn. rewrite !Nat.eqb_refl. reflexivity.
Qed.
Lemma bool_not_iff : forall (b : bool) (P : Prop), (b = true <-> P) -> (negb b = true <-> ~ P).
Proof. intros [] P H; cbn; split; intros K; try discriminate; try tauto. intros HP. destruct H as [_ H]. specialize (H HP). discriminate. Qed.
Lemma nb_nil_iff : forall A (l : list A), negb (Nat.eqb (length l) 0) = true <-> l <> [].
Proof. intros A [|x l]; cbn; split; congruence. Qed.
Lemma surfaces_meshed_iff : forall m, section_surfaces_are_meshed m = true <-> all_surfaces_have_polygons m.
Proof.
  intros m. unfold section_surfaces_are_meshed, all_surfaces_have_polygons. rewrite forallb_forall.
  split; intros H s Hs; specialize (H s Hs); apply nb_nil_iff; exact H.
Qed.
Lemma blocks_meshed_iff : forall m, brep_blocks_are_meshed m = true <-> all_blocks_have_polyhedra m.
Proof.
  intros m. unfold brep_blocks_are_meshed, all_blocks_have_polyhedra. rewrite forallb_forall.
  split; intros H s Hs; specialize (H s Hs); apply nb_nil_iff; exact H.
Qed.

(** ** sort_unique *)
Lemma in_insert_unique : forall l x y, In y (insert_unique x l) <-> y = x \/ In y l.
Proof.
  induction l as [|z l IH]; intros x y; cbn [insert_unique].
  - cbn. intuition.
  - destruct (Nat.ltb_spec x z) as [H|H]; [cbn [In]; intuition|].
    destruct (Nat.eqb_spec x z) as [->|Hne]; cbn [In]; [intuition|]. rewrite IH. tauto.
Qed.
Lemma insert_unique_sorted : forall l x, StronglySorted lt l -> StronglySorted lt (insert_unique x l).
Proof.
  induction l as [|z l IH]; intros x H; cbn [insert_unique]; [constructor; constructor|]. inversion H as [|? ? Hs Hf]; subst.
  destruct (Nat.ltb_spec x z) as [K|K].
  - constructor; [exact H|]. constructor; [exact K|]. eapply Forall_impl; [|exact Hf]. cbn. intros; lia.
  - destruct (Nat.eqb_spec x z) as [->|Hne]; [exact H|]. constructor; [apply IH; exact Hs|].
    apply Forall_forall. intros y Hy. apply in_insert_unique in Hy. destruct Hy as [->|Hy]; [lia|].
    rewrite Forall_forall in Hf. apply Hf. exact Hy.
Qed.
Lemma sort_unique_sorted : forall l, StronglySorted lt (sort_unique l).
Proof. induction l as [|x l IH]; cbn; [constructor|]. apply insert_unique_sorted. exact IH. Qed.
Lemma in_sort_unique : forall l x, In x (sort_unique l) <-> In x l.
Proof. induction l as [|y l IH]; intros x; cbn; [tauto|]. rewrite in_insert_unique, IH. split; intros [H|H]; auto. Qed.
Lemma components_uuids_all : forall m uv t, all_at m uv t (components_uuids m uv t).
Proof.
  intros m uv t. unfold components_uuids. split; [apply StronglySorted_lt_NoDup; apply sort_unique_sorted|].
  intros id. rewrite in_sort_unique, in_map_iff, at_vertex_iff. split.
  - intros (c & Hid & Hin). apply filter_In in Hin. exists c. tauto.
  - intros (c & H1 & H2 & H3). exists c. split; [exact H3|]. apply filter_In. auto.
Qed.
Lemma all_at_length : forall m uv t l l', all_at m uv t l -> all_at m uv t l' -> length l = length l' /\ (forall x, In x l <-> In x l').
Proof.
  intros m uv t l l' [N1 H1] [N2 H2]. assert (E : forall x, In x l <-> In x l') by (intros x; rewrite H1, H2; tauto).
  split; [|exact E]. apply Nat.le_antisymm; apply NoDup_incl_length; try assumption; intros x Hx; apply E; exact Hx.
Qed.
Lemma all_at_single : forall m uv t l x, all_at m uv t l -> (all_at m uv t [x] <-> l = [x]).
Proof.
  intros m uv t l x H. split; [|intros <-; exact H]. intros H'. destruct (all_at_length m uv t l [x] H H') as [L E].
  destruct l as [|y [|z l]]; try discriminate. f_equal. destruct (proj1 (E y) (or_introl eq_refl)) as [<-|[]]. reflexivity.
Qed.

(** ** Checks *)
Lemma reports_none : forall P : Prop, ~ P -> reports_iff (Ok None) P.
Proof. intros P H. exists None. split; [reflexivity|]. tauto. Qed.
Lemma reports_some : forall (P : Prop) s, P -> reports_iff (Ok (Some s)) P.
Proof. intros P s H. exists (Some s). split; [reflexivity|]. split; [auto|discriminate]. Qed.
Lemma reports_ext : forall o P Q, reports_iff o P -> (P <-> Q) -> reports_iff o Q.
Proof. intros o P Q (r & H1 & H2) H. exists r. rewrite <- H. auto. Qed.
Lemma decides_ext : forall o P Q, decides o P -> (P <-> Q) -> decides o Q.
Proof. intros o P Q (r & H1 & H2) H. exists r. rewrite <- H. auto. Qed.
Lemma decides_bool : forall (b : bool) P, (b = true <-> P) -> decides (Ok b) P.
Proof. intros b P H. exists b. auto. Qed.

Lemma first_some_reports : forall A (f : A -> outcome (option string)) (P : A -> Prop) l,
  (forall x, In x l -> reports_iff (f x) (P x)) -> reports_iff (first_some f l) (exists x, In x l /\ P x).
Proof.
  intros A f P l. induction l as [|x l IH]; intros H.
  - apply reports_none. intros (x & [] & _).
  - destruct (H x (or_introl eq_refl)) as (r & Hr & Hp). unfold reports_iff. cbn. rewrite Hr. cbn. destruct r as [s|].
    + exists (Some s). split; [reflexivity|]. split; [intros _|discriminate]. exists x. split; [left; reflexivity|]. apply Hp. discriminate.
    + destruct IH as (r & Hr' & Hp'); [intros y Hy; apply H; right; exact Hy|]. exists r. split; [exact Hr'|]. rewrite Hp'. split.
      * intros (y & Hy & Py). exists y. split; [right; exact Hy|exact Py].
      * intros (y & [<-|Hy] & Py); [exfalso; apply Hp in Py; congruence|]. exists y. auto.
Qed.
Lemma anyM_decides : forall A (f : A -> outcome bool) (P : A -> Prop) l,
  (forall x, In x l -> decides (f x) (P x)) -> decides (anyM f l) (exists x, In x l /\ P x).
Proof.
  intros A f P l. induction l as [|x l IH]; intros H.
  - exists false. split; [reflexivity|]. split; [discriminate|intros (x & [] & _)].
  - destruct (H x (or_introl eq_refl)) as (b & Hb & Hp). unfold decides. cbn. rewrite Hb. cbn. destruct b.
    + exists true. split; [reflexivity|]. split; [intros _|reflexivity]. exists x. split; [left; reflexivity|]. apply Hp. reflexivity.
    + destruct IH as (b & Hb' & Hp'); [intros y Hy; apply H; right; exact Hy|]. exists b. split; [exact Hb'|]. rewrite Hp'. split.
      * intros (y & Hy & Py). exists y. split; [right; exact Hy|exact Py].
      * intros (y & [<-|Hy] & Py); [exfalso; apply Hp in Py; congruence|]. exists y. auto.
Qed.
Lemma all_pass_decides : forall (checks : list (nat -> outcome (option string))) (Ps : list (nat -> Prop)) uv,
  Forall2 (fun c (P : nat -> Prop) => reports_iff (c uv) (P uv)) checks Ps ->
  decides (all_pass checks uv) (Forall (fun P : nat -> Prop => ~ P uv) Ps).
Proof.
  intros checks Ps uv H. induction H as [|c P cs Ps (r & Hr & Hp) H IH].
  - exists true. split; [reflexivity|]. split; [constructor|reflexivity].
  - unfold decides. cbn. rewrite Hr. cbn. destruct r as [s|]; cbn.
    + exists false. split; [reflexivity|]. split; [discriminate|]. intros K. inversion K; subst. exfalso. apply H2, Hp. discriminate.
    + destruct IH as (b & Hb & Hbp). exists b. split; [exact Hb|]. rewrite Hbp. split.
      * intros K. constructor; [|exact K]. intros HP. apply Hp in HP. congruence.
      * intros K. inversion K; auto.
Qed.
Lemma allM_decides : forall A (ps : list (A -> outcome bool)) (Ps : list (A -> Prop)) x,
  Forall2 (fun c (P : A -> Prop) => decides (c x) (P x)) ps Ps -> decides (allM ps x) (Forall (fun P : A -> Prop => P x) Ps).
Proof.
  intros A ps Ps x H. induction H as [|c P cs Ps (b & Hb & Hp) H IH].
  - exists true. split; [reflexivity|]. split; [constructor|reflexivity].
  - unfold decides. cbn. rewrite Hb. cbn. destruct b.
    + destruct IH as (b & Hb' & Hbp). exists b. split; [exact Hb'|]. rewrite Hbp. split; intros K; [constructor; [apply Hp; reflexivity|exact K]|].
      inversion K; auto.
    + exists false. split; [reflexivity|]. split; [discriminate|]. intros K. inversion K; subst. apply Hp in H2. discriminate.
Qed.
Lemma every_vertex_decides : forall m ps (Ps : list (nat -> Prop)),
  (forall uv, uv < nb_unique_vertices m -> Forall2 (fun c (P : nat -> Prop) => decides (c uv) (P uv)) ps Ps) ->
  decides (every_vertex m ps) (forall uv, uv < nb_unique_vertices m -> Forall (fun P : nat -> Prop => P uv) Ps).
Proof.
  intros m ps Ps H. unfold every_vertex.
  destruct (anyM_decides nat (fun uv => let! b := allM ps uv in Ok (negb b)) (fun uv => ~ Forall (fun P : nat -> Prop => P uv) Ps)
              (Range (nb_unique_vertices m))) as (b & Hb & Hp).
  { intros uv Huv. apply in_Range in Huv. destruct (allM_decides nat ps Ps uv (H uv Huv)) as (b & Hb & Hp). rewrite Hb. cbn.
    exists (negb b). split; [reflexivity|]. apply bool_not_iff. exact Hp. }
  rewrite Hb. cbn. exists (negb b). split; [reflexivity|]. split.
  - intros Hn uv Huv. destruct (allM_decides nat ps Ps uv (H uv Huv)) as (b' & Hb' & Hp'). apply Hp'. destruct b'; [reflexivity|].
    exfalso. destruct b; [discriminate|]. assert (false = true); [|discriminate]. apply Hp. exists uv. split; [apply in_Range; exact Huv|].
    intros K. apply Hp' in K. discriminate.
  - intros Hall. destruct b; [|reflexivity]. destruct (proj1 Hp eq_refl) as (uv & Huv & Hnot). apply in_Range in Huv. exfalso. apply Hnot, Hall, Huv.
Qed.

(** ** The loop over unique vertices *)
Lemma report_vertex_ok : forall checks uv rs,
  Forall (fun c : nat -> outcome (option string) => exists r, c uv = Ok r) checks -> length rs = length checks ->
  exists rs', report_vertex checks uv rs = Ok rs' /\ length rs' = length checks /\
    forall i c r, nth_error checks i = Some c -> nth_error rs i = Some r ->
      exists r', nth_error rs' i = Some r' /\
        ii_issues r' = ii_issues r ++ (match c uv with Ok (Some _) => [uv] | _ => [] end).
Proof.
  induction checks as [|c cs IH]; intros uv rs H L.
  - destruct rs; [|discriminate]. exists []. split; [reflexivity|]. split; [reflexivity|]. intros [|i] c r K; discriminate.
  - destruct rs as [|r rs]; [discriminate|]. inversion H as [|? ? [p Hp] Hcs]; subst. destruct (IH uv rs Hcs) as (rs' & H1 & H2 & H3); [cbn in L; lia|].
    cbn. rewrite Hp. cbn. rewrite H1. cbn.
    exists ((match p with Some message => add_issue uv message r | None => r end) :: rs'). split; [destruct p; reflexivity|]. split; [cbn; congruence|].
    intros [|i] c' r' Hc Hr; cbn in *.
    + injection Hc as <-. injection Hr as <-. eexists. split; [reflexivity|]. rewrite Hp. destruct p; cbn; [reflexivity|rewrite app_nil_r; reflexivity].
    + apply H3; assumption.
Qed.
Definition reported (c : nat -> outcome (option string)) (uv : nat) : bool := match c uv with Ok (Some _) => true | _ => false end.
Lemma report_vertices_gen : forall checks l rs,
  (forall uv, In uv l -> Forall (fun c : nat -> outcome (option string) => exists r, c uv = Ok r) checks) -> length rs = length checks ->
  exists rs', foldM (fun rs uv => report_vertex checks uv rs) l rs = Ok rs' /\ length rs' = length checks /\
    forall i c r, nth_error checks i = Some c -> nth_error rs i = Some r ->
      exists r', nth_error rs' i = Some r' /\ ii_issues r' = ii_issues r ++ filter (reported c) l.
Proof.
  intros checks l. induction l as [|uv l IH]; intros rs H L.
  - exists rs. split; [reflexivity|]. split; [exact L|]. intros i c r _ Hr. exists r. cbn. rewrite app_nil_r. auto.
  - destruct (report_vertex_ok checks uv rs (H uv (or_introl eq_refl)) L) as (rs1 & H1 & L1 & P1).
    destruct (IH rs1) as (rs2 & H2 & L2 & P2); [intros v Hv; apply H; right; exact Hv|exact L1|].
    exists rs2. cbn. rewrite H1. cbn. split; [exact H2|]. split; [exact L2|]. intros i c r Hc Hr.
    destruct (P1 i c r Hc Hr) as (r1 & Hr1 & E1). destruct (P2 i c r1 Hc Hr1) as (r2 & Hr2 & E2). exists r2. split; [exact Hr2|].
    rewrite E2, E1, <- app_assoc. f_equal. unfold reported. destruct (c uv) as [[s|]| |]; reflexivity.
Qed.
Lemma report_vertices_spec : forall m checks (Ps : list (nat -> Prop)) ds,
  Forall2 (fun c (P : nat -> Prop) => forall uv, uv < nb_unique_vertices m -> reports_iff (c uv) (P uv)) checks Ps ->
  length ds = length checks ->
  exists rs, report_vertices m checks ds = Ok rs /\
    Forall2 (fun (r : InspectionIssues nat) P => lists_vertices m P (ii_issues r)) rs Ps.
Proof.
  intros m checks Ps ds H L.
  destruct (report_vertices_gen checks (Range (nb_unique_vertices m)) (map new_issues ds)) as (rs & H1 & L1 & HP).
  - intros uv Huv. apply in_Range in Huv. clear L. induction H as [|c P cs Ps Hc H IH]; constructor; [|exact IH].
    destruct (Hc uv Huv) as (r & Hr & _). eauto.
  - rewrite map_length. exact L.
  - exists rs. split; [exact H1|]. assert (G : forall i P, nth_error Ps i = Some P -> exists r, nth_error rs i = Some r /\ lists_vertices m P (ii_issues r)).
    { intros i P Hi. assert (exists c, nth_error checks i = Some c /\ forall uv, uv < nb_unique_vertices m -> reports_iff (c uv) (P uv)) as (c & Hc & Hrep).
      { clear - H Hi. revert i Hi. induction H as [|c P' cs Ps Hc H IH]; intros [|i] Hi; try discriminate; cbn in *.
        - injection Hi as <-. exists c. auto.
        - apply IH. exact Hi. }
      assert (exists r0, nth_error (map (@new_issues nat) ds) i = Some r0 /\ ii_issues r0 = []) as (r0 & Hr0 & Er0).
      { assert (i < length ds) by (rewrite L; apply nth_error_Some; congruence).
        destruct (nth_error ds i) as [d|] eqn:E; [|apply nth_error_None in E; lia]. exists (new_issues d). rewrite nth_error_map, E. auto. }
      destruct (HP i c r0 Hc Hr0) as (r & Hr & Er). exists r. split; [exact Hr|]. rewrite Er, Er0. cbn. split.
      - apply StronglySorted_filter. apply StronglySorted_seq.
      - intros uv. rewrite filter_In, in_Range. unfold reported. split.
        + intros [Huv K]. split; [exact Huv|]. destruct (Hrep uv Huv) as (o & Ho & Hp). apply Hp. rewrite Ho in K. destruct o; [discriminate|discriminate].
        + intros [Huv HPu]. split; [exact Huv|]. destruct (Hrep uv Huv) as (o & Ho & Hp). rewrite Ho. destruct o; [reflexivity|].
          exfalso. apply Hp in HPu. congruence. }
    assert (Lr : length rs = length Ps). { rewrite L1. clear - H. induction H; cbn; congruence. }
    clear - G Lr. revert rs G Lr. induction Ps as [|P Ps IH]; intros [|r rs] G Lr; try discriminate; constructor.
    + destruct (G 0 P eq_refl) as (r' & Hr & K). injection Hr as <-. exact K.
    + apply IH; [|cbn in Lr; lia]. intros i P' Hi. apply (G (S i) P' Hi).
Qed.

(** ** The loop over components *)
Lemma isSome_false : forall A (o : option A), negb (isSome o) = true <-> o = None.
Proof. intros A [a|]; cbn; split; congruence. Qed.
Lemma fold_left_ext' : forall A B (f g : A -> B -> A) l a, (forall a b, f a b = g a b) -> fold_left f l a = fold_left g l a.
Proof. intros A B f g l. induction l as [|x l IH]; intros a H; cbn; [reflexivity|]. rewrite H. apply IH. exact H. Qed.
Lemma vertices_not_associated_issues : forall m c n,
  ii_issues (vertices_not_associated m c n) = filter (fun v => negb (isSome (m_unique_vertex m (mkCMV c v)))) (Range n).
Proof.
  intros m c n. unfold vertices_not_associated.
  rewrite (fold_left_ext' _ _ _ (fun r v => if negb (isSome (m_unique_vertex m (mkCMV c v)))
    then add_issue v (StrCat ["vertex '"; str v; " is not linked to a unique vertex."]%string) r else r)).
  - rewrite fold_report_id. reflexivity.
  - intros r v. destruct (isSome _); reflexivity.
Qed.
Lemma vertices_not_associated_spec : forall m t id n,
  lists_exactly lt (unlinked m t id n) (ii_issues (vertices_not_associated m (mkCID t id) n)).
Proof.
  intros m t id n. rewrite vertices_not_associated_issues. apply filter_range_exact. intros v. unfold unlinked. rewrite isSome_false. tauto.
Qed.
Lemma vertices_not_associated_length : forall m c n, length (ii_issues (vertices_not_associated m c n)) <= n.
Proof. intros. rewrite vertices_not_associated_issues. apply filter_length_Range. Qed.
Lemma vertices_are_associated_iff : forall m t id n,
  (vertices_are_associated m (mkCID t id) n = true <-> ii_issues (vertices_not_associated m (mkCID t id) n) = []) /\
  (vertices_are_associated m (mkCID t id) n = true <-> forall v, ~ unlinked m t id n v).
Proof.
  intros m t id n. unfold vertices_are_associated.
  assert (H1 : forallb (fun v => isSome (m_unique_vertex m (mkCMV (mkCID t id) v))) (Range n) = true <-> forall v, ~ unlinked m t id n v).
  { rewrite forallb_forall. unfold unlinked. split.
    - intros H v [Hv K]. specialize (H v (proj2 (in_Range n v) Hv)). rewrite K in H. discriminate.
    - intros H v Hv. apply in_Range in Hv. destruct (m_unique_vertex m _) eqn:E; [reflexivity|]. exfalso. apply (H v). auto. }
  split; [|exact H1]. rewrite H1. destruct (vertices_not_associated_spec m t id n) as [_ H]. split.
  - intros K. destruct (ii_issues _) as [|v l]; [reflexivity|]. exfalso. apply (K v), H. left. reflexivity.
  - intros K v Hv. apply H in Hv. rewrite K in Hv. destruct Hv.
Qed.

Lemma subsequence_filter : forall A B (f : A -> B) (p q : A -> bool) l, subsequence (map f (filter p (filter q l))) (map f l).
Proof.
  intros A B f p q l. induction l as [|x l IH]; cbn; [constructor|]. destruct (q x); cbn; [destruct (p x); cbn|]; constructor; exact IH.
Qed.
Lemma add_issues_guard : forall T id (r r' : InspectionIssues T) acc, ii_issues r' = ii_issues r ->
  (if N.eqb (nb_issues r) 0 then acc else add_issues_to_map id r' acc) = add_issues_to_map id r' acc.
Proof. intros T id r r' acc H. unfold add_issues_to_map, nb_issues. rewrite H. destruct (N.eqb _ 0); reflexivity. Qed.

Lemma inspect_components_spec : forall M (get : Model -> uuid -> outcome (Component M)) kind suffix t (meshed : M -> bool) (Meshed : M -> Prop)
  nb_vertices skip m l d1 d2,
  NoDup (map co_id l) -> (forall c, In c l -> get m (co_id c) = Ok c) -> (forall x, meshed x = true <-> Meshed x) ->
  (forall c, In c l -> below_2_32 (nb_vertices (co_mesh c))) ->
  exists nm nl, inspect_components get kind suffix t meshed nb_vertices skip m l d1 d2 = Ok (nm, nl) /\
    components_reported t Meshed nb_vertices skip m l nm nl.
Proof.
  intros M get kind suffix t meshed Meshed nb_vertices skip m l d1 d2 Hn Hget Hm Hb. unfold inspect_components.
  set (body := fun c : Component M => if skip && negb (meshed (co_mesh c)) then Ok (new_issues ""%string) else
     Ok (set_description (StrCat [kind; named m (co_name c) (co_id c)]) (vertices_not_associated m (mkCID t (co_id c)) (nb_vertices (co_mesh c))))).
  assert (G : forall comps (nm : InspectionIssues uuid) nl, (forall c, In c comps -> In c l) ->
    foldM (inspect_component get kind suffix t meshed nb_vertices skip m) comps (nm, nl) =
    let! nl' := foldM (fun acc c => let! r := body c in Ok (add_issues_to_map (co_id c) r acc)) comps nl in
    Ok (fold_left (fun r c => if negb (meshed (co_mesh c)) then add_issue (co_id c) (StrCat [kind; named m (co_name c) (co_id c); suffix]) r else r) comps nm, nl')).
  { induction comps as [|c comps IH]; intros nm nl Hin; cbn; [reflexivity|]. unfold inspect_component at 1. rewrite Hget by (apply Hin; left; reflexivity).
    cbn [bind fst snd]. unfold body at 1. destruct (meshed (co_mesh c)) eqn:E; cbn [negb andb].
    - rewrite andb_false_r. cbn [bind].
      set (r := vertices_not_associated m (mkCID t (co_id c)) (nb_vertices (co_mesh c))).
      rewrite <- (add_issues_guard nat (co_id c) r (set_description _ r) nl) by reflexivity.
      destruct (N.eqb (nb_issues r) 0); cbn [bind]; apply IH; intros d Hd; apply Hin; right; exact Hd.
    - rewrite andb_true_r. destruct skip; cbn [bind].
      + apply IH. intros d Hd. apply Hin. right. exact Hd.
      + set (r := vertices_not_associated m (mkCID t (co_id c)) (nb_vertices (co_mesh c))).
        rewrite <- (add_issues_guard nat (co_id c) r (set_description _ r) nl) by reflexivity.
        destruct (N.eqb (nb_issues r) 0); cbn [bind]; apply IH; intros d Hd; apply Hin; right; exact Hd. }
  destruct (component_loop_reports nat (Component M) co_id body (active l) d2
     (fun id vs => exists c, In c l /\ co_active c = true /\ co_id c = id /\
        (if skip && negb (meshed (co_mesh c)) then vs = [] else lists_exactly lt (unlinked m t id (nb_vertices (co_mesh c))) vs))) as (nl & H1 & H2).
  - apply NoDup_active_ids. exact Hn.
  - intros c Hc. unfold active in Hc. apply filter_In in Hc. destruct Hc as [Hc Ha]. unfold body. destruct (skip && negb (meshed (co_mesh c))) eqn:E.
    + eexists. split; [reflexivity|]. cbn. split; [unfold below_2_32; cbn; lia|]. exists c. rewrite E. auto.
    + eexists. split; [reflexivity|]. cbn [ii_issues set_description]. split.
      * unfold below_2_32 in *. specialize (Hb c Hc). pose proof (vertices_not_associated_length m (mkCID t (co_id c)) (nb_vertices (co_mesh c))). lia.
      * exists c. rewrite E. split; [exact Hc|]. split; [exact Ha|]. split; [reflexivity|]. apply vertices_not_associated_spec.
  - intros id vs (c & Hc & Ha & Hid & Hvs). exists c. split; [apply filter_In; auto|]. split; [exact Hid|]. intros r Hr Hnil. unfold body in Hr.
    destruct (skip && negb (meshed (co_mesh c))) eqn:E; [exact Hvs|]. injection Hr as <-. cbn in Hnil.
    eapply lists_exactly_nil; [|exact Hvs|exact Hnil]. subst id. apply vertices_not_associated_spec.
  - rewrite G by (intros c Hc; unfold active in Hc; apply filter_In in Hc; tauto). rewrite H1. cbn [bind]. eexists. exists nl. split; [reflexivity|].
    constructor.
    + rewrite (fold_report (Component M) uuid (fun c => negb (meshed (co_mesh c))) co_id
        (fun c => StrCat [kind; named m (co_name c) (co_id c); suffix])). cbn. apply subsequence_filter.
    + intros id. rewrite (fold_report (Component M) uuid (fun c => negb (meshed (co_mesh c))) co_id
        (fun c => StrCat [kind; named m (co_name c) (co_id c); suffix])). cbn. rewrite in_map_iff. split.
      * intros (c & Hid & Hc). apply filter_In in Hc. destruct Hc as [Hc K]. apply filter_In in Hc. destruct Hc as [Hc Ha].
        exists c. split; [exact Hc|]. split; [exact Ha|]. split; [exact Hid|]. intros HM. apply Hm in HM. rewrite HM in K. discriminate.
      * intros (c & Hc & Ha & Hid & HM). exists c. split; [exact Hid|]. apply filter_In. split; [apply filter_In; auto|].
        destruct (meshed (co_mesh c)) eqn:E; [|reflexivity]. exfalso. apply HM, Hm. exact E.
    + assert (Q : forall id (vs : list nat), vs <> [] -> ((exists c, In c l /\ co_active c = true /\ co_id c = id /\
        (if skip && negb (meshed (co_mesh c)) then vs = [] else lists_exactly lt (unlinked m t id (nb_vertices (co_mesh c))) vs)) <->
        (exists c, In c l /\ co_active c = true /\ co_id c = id /\ (skip = true -> Meshed (co_mesh c)) /\
                lists_exactly lt (unlinked m t id (nb_vertices (co_mesh c))) vs))).
      { intros id vs Hne. split; intros (c & Hc & Ha & Hid & K); exists c; (split; [exact Hc|split; [exact Ha|split; [exact Hid|]]]).
        - destruct (skip && negb (meshed (co_mesh c))) eqn:E; [congruence|]. split; [|exact K]. intros ->. cbn in E. apply Hm.
          destruct (meshed _); [reflexivity|discriminate].
        - destruct K as [K1 K2]. destruct skip; cbn; [|exact K2]. specialize (K1 eq_refl). apply Hm in K1. rewrite K1. exact K2. }
      destruct H2 as [S1 S2 S3]. constructor.
      * intros id r Hr. destruct (S1 id r Hr) as [Hne Hs]. split; [exact Hne|]. apply Q; assumption.
      * intros id vs Hs Hne. apply (S2 id vs); [|exact Hne]. apply Q; assumption.
      * exact S3.
Qed.

Lemma corner_meshed_iff : forall p, corner_is_meshed p = true <-> has_points p.
Proof. intros p. apply nb_nil_iff. Qed.
Lemma line_meshed_iff : forall p, line_is_meshed p = true <-> has_points_and_edges p.
Proof. intros p. unfold line_is_meshed, has_points_and_edges. rewrite andb_true_iff, !nb_nil_iff. tauto. Qed.
Lemma surface_meshed_iff : forall p, surface_is_meshed p = true <-> has_points_and_polygons p.
Proof. intros p. unfold surface_is_meshed, has_points_and_polygons, nb_polygons. rewrite andb_true_iff, !nb_nil_iff. tauto. Qed.
Lemma block_meshed_iff : forall p, block_is_meshed p = true <-> has_points_and_polyhedra p.
Proof. intros p. unfold block_is_meshed, has_points_and_polyhedra, nb_polyhedra. rewrite andb_true_iff, !nb_nil_iff. tauto. Qed.
Lemma meshed_linked_iff : forall M t (meshed : M -> bool) (Meshed : M -> Prop) nb_vertices m l, (forall x, meshed x = true <-> Meshed x) ->
  (meshed_components_are_linked t meshed nb_vertices m l = true <-> meshed_linked t Meshed nb_vertices m l).
Proof.
  intros M t meshed Meshed nbv m l Hm. unfold meshed_components_are_linked, meshed_linked. rewrite forallb_forall. split.
  - intros H c Hc Ha HM v. specialize (H c). unfold active in H. rewrite filter_In in H. specialize (H (conj Hc Ha)).
    apply Hm in HM. rewrite HM in H. cbn in H. rewrite negb_involutive in H. apply vertices_are_associated_iff with (v := v) in H. exact H.
  - intros H c Hc. apply filter_In in Hc. destruct Hc as [Hc Ha]. destruct (meshed (co_mesh c)) eqn:E; [|reflexivity]. cbn.
    rewrite negb_involutive. apply vertices_are_associated_iff. apply H; auto. apply Hm. exact E.
Qed.
Lemma section_meshed_linked_iff : forall m, section_meshed_components_are_linked m = true <->
  meshed_linked CornerT has_points nb_points0 m (m_corners m) /\ meshed_linked LineT has_points_and_edges nb_points1 m (m_lines m) /\
  meshed_linked SurfaceT has_points_and_polygons nb_points2 m (m_surfaces m).
Proof.
  intros m. unfold section_meshed_components_are_linked. rewrite !andb_true_iff.
  rewrite (meshed_linked_iff _ _ _ _ _ _ _ corner_meshed_iff), (meshed_linked_iff _ _ _ _ _ _ _ line_meshed_iff), (meshed_linked_iff _ _ _ _ _ _ _ surface_meshed_iff).
  unfold nb_points0, nb_points1, nb_points2. tauto.
Qed.
Lemma get_corner_In : forall m c, unique_ids m -> In c (m_corners m) -> get_corner m (co_id c) = Ok c.
Proof. intros m c Hu H. unfold get_corner. destruct (unique_ids_facts m Hu). rewrite find_component_In; auto. Qed.
Lemma get_line_In : forall m c, unique_ids m -> In c (m_lines m) -> get_line m (co_id c) = Ok c.
Proof. intros m c Hu H. unfold get_line. destruct (unique_ids_facts m Hu). rewrite find_component_In; auto. Qed.
Lemma get_surface_In : forall m c, unique_ids m -> In c (m_surfaces m) -> get_surface m (co_id c) = Ok c.
Proof. intros m c Hu H. unfold get_surface. destruct (unique_ids_facts m Hu). rewrite find_component_In; auto. Qed.
Lemma get_block_In : forall m c, unique_ids m -> In c (m_blocks m) -> get_block m (co_id c) = Ok c.
Proof. intros m c Hu H. unfold get_block. destruct (unique_ids_facts m Hu). rewrite find_component_In; auto. Qed.
