(** Connected parts of a list of surfaces (C40, C41). *)
From Coq Require Import String Ascii List Arith NArith ZArith Bool Lia Sorted.
From Verif Require Import Base BaseFacts Model_Issues Types Model_Colocation Model_Topology Model_BRep Model_Blocks Spec_Colocation Spec_Maps Spec_Adjacency
  Spec_Topology Spec_BRep Spec_Blocks Proof_Colocation Proof_Colocation2 Proof_Topology Proof_BRep Proof_BRep2 Proof_Blocks.
Import ListNotations.
Open Scope list_scope.

Section Linked.
Context (m : Model) (H : brep_ok m).
Lemma find_linked_ok : forall s P, In s (component_ids m SurfaceT) -> decides (find_linked_processed_surface m s P) (exists t, In t P /\ share_a_line m s t).
Proof.
  intros s P Hs. unfold find_linked_processed_surface. destruct (get_surface_id m s Hs) as (c & E & Ic & _). rewrite E. cbn [bind]. rewrite Ic.
  eapply decides_ext; [eapply anyM_decides with (P := fun e => exists t, In t P /\ bounds m (cid_id e) t)|].
  - intros e He. unfold each_line. assert (Le : In (cid_id e) (component_ids m LineT)) by (eapply br_surface_boundaries; eassumption).
    destruct (get_line_id m _ Le) as (c' & E' & Ic' & _). rewrite E'. cbn [bind]. rewrite Ic'.
    eapply decides_ext; [eapply anyM_decides with (P := fun e' => In (cid_id e') P)|].
    + intros e' He'. unfold each_surface. assert (Se : In (cid_id e') (component_ids m SurfaceT)) by (eapply br_line_incidences; eassumption).
      destruct (get_surface_id m _ Se) as (c2 & E2 & Ic2 & _). rewrite E2. cbn [bind]. rewrite Ic2. apply decides_bool, memb_In.
    + split.
      * intros (e' & He' & Hp). exists (cid_id e'). split; [exact Hp|]. apply in_incidences. exists e'. auto.
      * intros (t & Ht & Hb). apply in_incidences in Hb as (e' & He' & <-). exists e'. auto.
  - split.
    + intros (e & He & t & Ht & Hb). exists t. split; [exact Ht|]. exists (cid_id e). split; [|exact Hb]. apply in_boundaries. exists e. auto.
    + intros (t & Ht & l & Hb & Hb'). apply in_boundaries in Hb as (e & He & <-). exists e. split; [exact He|]. exists t. auto.
Qed.
Lemma share_sym : forall s t, share_a_line m s t -> share_a_line m t s.
Proof. intros s t (l & A & B). exists l. auto. Qed.
Lemma linked_in : forall L s t, linked_within m L s t -> In s L /\ In t L.
Proof. intros L s t K. induction K; tauto. Qed.
Lemma linked_trans : forall L s t u, linked_within m L s t -> linked_within m L t u -> linked_within m L s u.
Proof. intros L s t u K1 K2. revert s K1. induction K2; intros s0 K1; [exact K1|]. eapply linked_next; [apply IHK2, K1|assumption|assumption]. Qed.
Lemma linked_sym : forall L s t, linked_within m L s t -> linked_within m L t s.
Proof.
  intros L s t K. induction K as [s Hs|s t u K IH Hu Hsh]; [apply linked_self, Hs|]. eapply linked_trans; [|exact IH].
  eapply linked_next; [apply linked_self, Hu|apply (linked_in L s t K)|apply share_sym, Hsh].
Qed.
Lemma linked_mono : forall L L' s t, incl L L' -> linked_within m L s t -> linked_within m L' s t.
Proof. intros L L' s t Hi K. induction K; [apply linked_self, Hi; assumption|]. eapply linked_next; [eassumption|apply Hi; assumption|assumption]. Qed.

Notation cnt := (count_occ Nat.eq_dec).
Record loop_inv (s0 : uuid) (L P Q : list uuid) (k : nat) : Prop := {
  iv_nodup : NoDup P;
  iv_first : In s0 P;
  iv_linked : forall t, In t P -> linked_within m L s0 t;
  iv_rest : forall t, ~ In t P -> cnt Q t = cnt L t;
  iv_tail : exists A B, Q = A ++ B /\ length B = k /\ forall t, In t B -> ~ In t P /\ forall u, In u P -> ~ share_a_line m t u }.
Lemma in_queue : forall s0 L P Q k t, loop_inv s0 L P Q k -> incl Q L -> In t L -> ~ In t P -> In t Q.
Proof.
  intros s0 L P Q k t I _ Ht Hn. apply (count_occ_In Nat.eq_dec). rewrite (iv_rest _ _ _ _ _ I t Hn). apply (count_occ_In Nat.eq_dec). exact Ht.
Qed.
Definition part_result (s0 : uuid) (L P R : list uuid) : Prop :=
  NoDup P /\ (forall t, In t P <-> linked_within m L s0 t) /\ (forall t, In t P -> ~ In t R) /\ (forall t, ~ In t P -> cnt R t = cnt L t).
Lemma loop_done : forall s0 L P Q, loop_inv s0 L P Q (length Q) -> incl Q L -> In s0 L -> part_result s0 L P Q.
Proof.
  intros s0 L P Q I Hi H0. destruct I as [N F Lk Rs (A & B & EQ & EB & T)]. subst Q.
  assert (A = []) by (rewrite app_length in EB; destruct A; [reflexivity|cbn in EB; lia]). subst A. cbn [app] in *.
  split; [exact N|]. split; [|split; [intros t Ht Hb; apply (T t Hb), Ht|exact Rs]]. intros t. split; [apply Lk|]. intros K. induction K as [t Ht|s t u K IH Hu Hsh]; [exact F|].
  specialize (IH F Lk H0).
  destruct (in_dec Nat.eq_dec u P) as [D|D]; [exact D|]. exfalso.
  assert (Hb : In u B) by (apply (count_occ_In Nat.eq_dec); rewrite (Rs u D); apply (count_occ_In Nat.eq_dec); exact Hu).
  destruct (T u Hb) as [_ T2]. apply (T2 t IH), share_sym, Hsh.
Qed.
Lemma cnt_app : forall l l' x, cnt (l ++ l') x = cnt l x + cnt l' x.
Proof. intros. apply count_occ_app. Qed.
Lemma linked_loop_ok : forall N s0 L, In s0 L -> (forall t, In t L -> In t (component_ids m SurfaceT)) -> below_2_32 N ->
  forall fuel P Q k, length Q <= N -> k <= length Q -> incl Q L -> loop_inv s0 L P Q k -> length Q * S N + (length Q - k) < fuel ->
  exists P' R, linked_loop fuel m P Q (N.of_nat k) = Ok (P', R) /\ part_result s0 L P' R /\ length R <= length Q /\ incl R L.
Proof.
  intros N s0 L H0 Hex HN. unfold below_2_32 in HN. induction fuel as [|fuel IH]; intros P Q k Hl Hk Hi I Hf; [lia|]. cbn [linked_loop].
  destruct Q as [|s Q].
  - exists P, []. split; [reflexivity|]. split; [|split; [lia|exact Hi]]. apply loop_done; [|exact Hi|exact H0]. cbn in Hk. replace (length (@nil uuid)) with k by (cbn; lia). exact I.
  - destruct (N.eqb (N.of_nat k) (N.of_nat (length (s :: Q)))) eqn:Ek.
    + apply N.eqb_eq in Ek. assert (Ek' : k = length (s :: Q)) by lia. subst k. exists P, (s :: Q). split; [reflexivity|]. split; [apply loop_done; assumption|]. split; [lia|exact Hi].
    + assert (Hk' : k <= length Q).
      { apply N.eqb_neq in Ek. cbn [length] in *. lia. }
      assert (Tl : forall A B, s :: Q = A ++ B -> length B = k -> exists A', A = s :: A' /\ Q = A' ++ B).
      { intros A B EQ EB. destruct A as [|a A]; [cbn in EQ; subst B; cbn in EB; lia|]. injection EQ as -> ->. exists A. auto. }
      assert (Hs : In s L) by (apply Hi; left; reflexivity).
      assert (HiQ : incl Q L) by (intros x Hx; apply Hi; right; exact Hx).
      assert (Cs : forall t, t <> s -> cnt (s :: Q) t = cnt Q t) by (intros t Ht; apply count_occ_cons_neq; congruence).
      destruct (memb s P) eqn:Ms.
      * apply memb_In in Ms. destruct (IH P Q k) as (P' & R & E & Pr & Hr & Hr2).
        -- cbn in Hl; lia.
        -- exact Hk'.
        -- exact HiQ.
        -- destruct I as [N1 F Lk Rs (A & B & EQ & EB & T)]. destruct (Tl A B EQ EB) as (A' & -> & ->). constructor; try assumption.
           ++ intros t Ht. rewrite <- (Rs t Ht). symmetry. apply Cs. intros ->. exact (Ht Ms).
           ++ exists A', B. auto.
        -- cbn [length] in *. nia.
        -- exists P', R. split; [exact E|]. split; [exact Pr|]. split; [cbn; lia|exact Hr2].
      * apply memb_false in Ms. destruct (find_linked_ok s P (Hex s Hs)) as (b & Eb & Kb). rewrite Eb. cbn [bind]. destruct b.
        -- destruct (proj1 Kb eq_refl) as (t & Ht & Hsh). destruct (IH (P ++ [s]) Q 0) as (P' & R & E & Pr & Hr & Hr2).
           ++ cbn in Hl; lia.
           ++ lia.
           ++ exact HiQ.
           ++ destruct I as [N1 F Lk Rs (A & B & EQ & EB & T)]. constructor.
              ** apply NoDup_app_last; assumption.
              ** apply in_app_iff; left; exact F.
              ** intros u Hu. apply in_app_iff in Hu as [Hu|[<-|[]]]; [apply Lk, Hu|]. eapply linked_next; [apply (Lk t Ht)|exact Hs|apply share_sym, Hsh].
              ** intros u Hu. rewrite in_app_iff in Hu. rewrite <- (Rs u); [|tauto]. symmetry. apply Cs. intros ->. apply Hu. right. left. reflexivity.
              ** exists Q, []. rewrite app_nil_r. split; [reflexivity|]. split; [reflexivity|]. intros u [].
           ++ cbn [length] in *. nia.
           ++ exists P', R. split; [exact E|]. split; [exact Pr|]. split; [cbn; lia|exact Hr2].
        -- assert (Ea : add32 (N.of_nat k) 1 = N.of_nat (S k)) by (unfold add32; rewrite u32_small; cbn [length] in *; lia). rewrite Ea.
           destruct (IH P (Q ++ [s]) (S k)) as (P' & R & E & Pr & Hr & Hr2).
           ++ rewrite app_length. cbn in *; lia.
           ++ rewrite app_length. cbn in *; lia.
           ++ intros x Hx. apply in_app_iff in Hx as [Hx|[<-|[]]]; [apply HiQ, Hx|exact Hs].
           ++ destruct I as [N1 F Lk Rs (A & B & EQ & EB & T)]. destruct (Tl A B EQ EB) as (A' & -> & ->). constructor; try assumption.
              ** intros t Ht. rewrite <- (Rs t Ht), cnt_app. cbn [count_occ]. destruct (Nat.eq_dec s t); lia.
              ** exists A', (B ++ [s]). split; [rewrite app_assoc; reflexivity|]. split; [rewrite app_length; cbn; lia|]. intros t Ht. apply in_app_iff in Ht as [Ht|[<-|[]]]; [apply T, Ht|].
                 split; [exact Ms|]. intros u Hu Hsh. assert (X : false = true) by (apply Kb; exists u; auto). discriminate.
           ++ rewrite app_length. cbn [length] in *. nia.
           ++ exists P', R. split; [exact E|]. split; [exact Pr|]. split; [rewrite app_length in Hr; cbn in *; lia|exact Hr2].
Qed.
Lemma closed_linked_ok : forall s0 q, (forall t, In t (s0 :: q) -> In t (component_ids m SurfaceT)) -> below_2_32 (length q) ->
  exists P R, closed_linked_surfaces m (s0 :: q) = Ok (P, R) /\ part_result s0 (s0 :: q) P R /\ length R <= length q /\ incl R (s0 :: q).
Proof.
  intros s0 q Hex Hb. unfold closed_linked_surfaces.
  destruct (linked_loop_ok (length q) s0 (s0 :: q) (or_introl eq_refl) Hex Hb (S (S (length q) * S (length q))) [s0] q 0) as (P & R & E & K).
  - lia.
  - lia.
  - intros x Hx. right. exact Hx.
  - constructor.
    + constructor; [intros []|constructor].
    + left. reflexivity.
    + intros t [<-|[]]. apply linked_self. left. reflexivity.
    + intros t Ht. symmetry. apply count_occ_cons_neq. intros ->. apply Ht. left. reflexivity.
    + exists q, []. rewrite app_nil_r. split; [reflexivity|]. split; [reflexivity|]. intros t [].
  - nia.
  - exists P, R. split; [exact E|exact K].
Qed.
Lemma part_rest : forall s0 L P R t, part_result s0 L P R -> (In t R <-> In t L /\ ~ In t P).
Proof.
  intros s0 L P R t (_ & _ & D & C). split.
  - intros Hr. assert (Hn : ~ In t P) by (intros Hp; exact (D t Hp Hr)). split; [|exact Hn]. apply (count_occ_In Nat.eq_dec). rewrite <- (C t Hn). apply (count_occ_In Nat.eq_dec). exact Hr.
  - intros [Hl Hn]. apply (count_occ_In Nat.eq_dec). rewrite (C t Hn). apply (count_occ_In Nat.eq_dec). exact Hl.
Qed.
Lemma linked_rest : forall s0 L P R s t, part_result s0 L P R -> In s R -> (linked_within m R s t <-> linked_within m L s t).
Proof.
  intros s0 L P R s t Pr Hs. assert (Hi : incl R L) by (intros x Hx; apply (part_rest _ _ _ _ x Pr), Hx). split; [apply linked_mono, Hi|].
  intros K. induction K as [s Hl|s t u K IH Hu Hsh]; [apply linked_self, Hs|]. specialize (IH Hs). eapply linked_next; [exact IH| |exact Hsh].
  apply (part_rest _ _ _ _ u Pr). split; [exact Hu|]. intros Hp. destruct Pr as (N & Lk & D & C). apply (D s); [|exact Hs]. apply Lk. apply Lk in Hp.
  eapply linked_trans; [exact Hp|]. apply linked_sym. eapply linked_next; eassumption.
Qed.
Lemma linked_parts_ok : forall fuel L, (forall t, In t L -> In t (component_ids m SurfaceT)) -> below_2_32 (length L) -> length L <= fuel ->
  exists parts, linked_parts fuel m L = Ok parts /\ connected_parts m L parts.
Proof.
  induction fuel as [|fuel IH]; intros L Hex Hb Hf.
  - destruct L as [|s L]; [|cbn in Hf; lia]. exists []. split; [reflexivity|]. constructor; cbn; try tauto. constructor.
  - destruct L as [|s L].
    + exists []. split; [reflexivity|]. constructor; cbn; try tauto. constructor.
    + destruct (closed_linked_ok s L Hex) as (P & R & E & Pr & Hr & Hi). { unfold below_2_32 in *. cbn [length] in Hb. lia. }
      destruct (IH R) as (parts & E2 & CP).
      * intros t Ht. apply Hex, Hi, Ht.
      * unfold below_2_32 in *. cbn [length] in Hb. lia.
      * cbn in Hf. lia.
      * exists (P :: parts). cbn [linked_parts]. rewrite E. cbn [bind snd fst]. rewrite E2. cbn [bind]. split; [reflexivity|].
        pose proof Pr as (N & Lk & D & C). constructor.
        -- intros p [<-|Hp]; [|apply (cp_nonempty _ _ _ CP), Hp]. intros ->. assert (X : In s []) by (apply Lk, linked_self; left; reflexivity). destruct X.
        -- cbn [concat]. apply NoDup_app_intro; [exact N|apply (cp_disjoint _ _ _ CP)|]. intros x Hx Hx'. apply (cp_cover _ _ _ CP) in Hx'. exact (D x Hx Hx').
        -- intros t. cbn [concat]. rewrite in_app_iff, (cp_cover _ _ _ CP), (part_rest _ _ _ _ t Pr). split; [intros [K|[K _]]; [|exact K]|].
           ++ apply Lk in K. apply (linked_in _ _ _ K).
           ++ intros K. destruct (in_dec Nat.eq_dec t P); tauto.
        -- intros p t [<-|Hp] Ht u.
           ++ apply Lk in Ht. split.
              ** intros Hu. apply Lk in Hu. eapply linked_trans; [apply linked_sym, Ht|exact Hu].
              ** intros K. apply Lk. eapply linked_trans; eassumption.
           ++ rewrite (cp_linked _ _ _ CP p t Hp Ht u). apply (linked_rest _ _ _ _ t u Pr). apply (cp_cover _ _ _ CP). apply in_concat. exists p. auto.
Qed.
End Linked.
