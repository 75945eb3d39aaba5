From Coq Require Import String Ascii List Arith NArith ZArith Bool Lia Permutation.
From Verif Require Import Base BaseFacts Model_Issues Types Model_Intersections Spec_Intersections Proof_Colocation2 Proof_Maps Proof_Intersections.
Import ListNotations.
Open Scope list_scope.

(** ** C25: fans *)
Lemma u8_small : forall n, (n < 256)%N -> u8 n = n.
Proof. intros n H. unfold u8. apply N.mod_small. exact H. Qed.
Lemma LRange2_small : forall n, 1 <= n <= 256 -> LRange2 1 (N.of_nat (n - 1)) = seq 1 (n - 2).
Proof.
  intros n H. unfold LRange2, Range2. rewrite !u8_small by lia. rewrite Nnat.Nat2N.id. change (N.to_nat 1) with 1. f_equal. lia.
Qed.
(** positions of the fan *)
Definition fan_positions (n apex : nat) : list (nat * nat * nat) :=
  map (fun e => let b := Nat.modulo (apex + e) n in (apex, b, next_position n b)) (seq 1 (n - 2)).
Lemma next_position_lt : forall n j, j < n -> next_position n j < n.
Proof. intros n j H. unfold next_position. destruct (Nat.eqb_spec (S j) n); lia. Qed.
Lemma mod_cases : forall n apex e, apex < n -> e < n -> (apex + e) mod n = if Nat.ltb (apex + e) n then apex + e else apex + e - n.
Proof.
  intros n apex e Ha He. destruct (Nat.ltb_spec (apex + e) n); [apply Nat.mod_small; assumption|].
  replace (apex + e) with ((apex + e - n) + 1 * n) at 1 by lia. rewrite Nat.mod_add by lia. apply Nat.mod_small. lia.
Qed.
Lemma fan_positions_is_fan : forall n apex, 3 <= n -> apex < n -> is_fan n apex (fan_positions n apex).
Proof.
  intros n apex Hn Ha. unfold fan_positions. split.
  - rewrite map_length, seq_length. reflexivity.
  - intros a b c H. apply in_map_iff in H. destruct H as (e & E & He). apply in_seq in He. injection E as <- Eb Ec.
    rewrite mod_cases in * by lia. assert (b < n) by (destruct (Nat.ltb_spec (apex + e) n); lia).
    split; [reflexivity|]. split; [assumption|]. split; [congruence|]. subst b c. unfold next_position.
    destruct (Nat.ltb_spec (apex + e) n); match goal with |- context[Nat.eqb ?x ?y] => destruct (Nat.eqb_spec x y) end; lia.
  - intros j Hj Hja Hnj. apply in_map_iff. exists (if Nat.ltb apex j then j - apex else n - apex + j). rewrite mod_cases.
    + unfold next_position in *. destruct (Nat.ltb_spec apex j).
      * destruct (Nat.ltb_spec (apex + (j - apex)) n); [|lia]. replace (apex + (j - apex)) with j by lia. split; [reflexivity|].
        apply in_seq. destruct (Nat.eqb_spec (S j) n); lia.
      * destruct (Nat.ltb_spec (apex + (n - apex + j)) n); [lia|]. replace (apex + (n - apex + j) - n) with j by lia. split; [reflexivity|].
        apply in_seq. destruct (Nat.eqb_spec (S j) n); lia.
    + exact Ha.
    + destruct (Nat.ltb_spec apex j); lia.
  - apply NoDup_map_inj_in; [|apply seq_NoDup].
    intros e e' He He' E. apply in_seq in He, He'. injection E as E _. rewrite !mod_cases in E by lia.
    destruct (Nat.ltb_spec (apex + e) n), (Nat.ltb_spec (apex + e') n); lia.
Qed.
Lemma foldM_push : forall A B (f : A -> outcome B) l acc,
  (forall x, In x l -> exists b, f x = Ok b) ->
  exists out, foldM (fun acc x => let! b := f x in Ok (acc ++ [b])) l acc = Ok (acc ++ out) /\ Forall2 (fun x b => f x = Ok b) l out.
Proof.
  intros A B f l. induction l as [|x l IH]; intros acc H; cbn; [exists []; rewrite app_nil_r; auto|].
  destruct (H x (or_introl eq_refl)) as [b Hb]. rewrite Hb. cbn.
  destruct (IH (acc ++ [b]) (fun y Hy => H y (or_intror Hy))) as (out & E & F). exists (b :: out). split; [|constructor; assumption].
  rewrite E, <- app_assoc. reflexivity.
Qed.
Lemma nth_error_lt : forall A (l : list A) i, i < length l -> exists a, nth_error l i = Some a.
Proof. intros A l i H. destruct (nth_error l i) eqn:E; [eauto|]. apply nth_error_None in E. lia. Qed.
Lemma fan_ok : forall polygon apex, 3 <= length polygon <= 256 -> apex < length polygon ->
  exists triangles, polygon_fan_triangles polygon apex = Ok triangles /\
    Forall2 (triangle_at polygon) (fan_positions (length polygon) apex) triangles.
Proof.
  intros polygon apex Hn Ha. unfold polygon_fan_triangles. destruct (length polygon) as [|last] eqn:El; [lia|]. rewrite <- El in *.
  replace (N.of_nat last) with (N.of_nat (length polygon - 1)) by (f_equal; lia). rewrite LRange2_small by lia.
  set (f := fun edge => let next_apex := (apex + edge) mod length polygon in
        let next_next_apex := if next_apex + 1 =? length polygon then 0 else next_apex + 1 in
        let! a := at_index polygon apex in let! b := at_index polygon next_apex in let! c := at_index polygon next_next_apex in Ok [a; b; c]).
  assert (F : forall e, In e (seq 1 (length polygon - 2)) -> exists t, f e = Ok t /\
     triangle_at polygon (apex, (apex + e) mod length polygon, next_position (length polygon) ((apex + e) mod length polygon)) t).
  { intros e He. unfold f. set (b := (apex + e) mod length polygon). assert (Hb : b < length polygon) by (apply Nat.mod_upper_bound; lia).
    replace (if b + 1 =? length polygon then 0 else b + 1) with (next_position (length polygon) b) by (unfold next_position; rewrite Nat.add_1_r; reflexivity).
    destruct (nth_error_lt _ polygon apex Ha) as [va Ea]. destruct (nth_error_lt _ polygon b Hb) as [vb Eb].
    destruct (nth_error_lt _ polygon _ (next_position_lt _ _ Hb)) as [vc Ec].
    exists [va; vb; vc]. cbn zeta. rewrite (at_index_ok _ _ _ _ Ea), (at_index_ok _ _ _ _ Eb), (at_index_ok _ _ _ _ Ec). split; [reflexivity|].
    exists va, vb, vc. auto. }
  destruct (foldM_push _ _ f (seq 1 (length polygon - 2)) []) as (out & E & F2).
  { intros x Hx. destruct (F x Hx) as (t & Et & _). eauto. }
  exists out. split.
  - etransitivity; [|exact E]. apply foldM_ext_in. intros acc e He. unfold f. cbn zeta.
    destruct (at_index polygon apex); cbn [bind]; try reflexivity.
    destruct (at_index polygon ((apex + e) mod length polygon)); cbn [bind]; try reflexivity.
    match goal with |- context[at_index polygon ?i] => destruct (at_index polygon i) end; reflexivity.
  - unfold fan_positions. clear E. revert F2 F. generalize (seq 1 (length polygon - 2)). intros l F2. induction F2 as [|e t l out Et _ IH]; intros F; [constructor|].
    cbn [map]. constructor.
    + destruct (F e (or_introl eq_refl)) as (t' & Et' & Ht). rewrite Et in Et'. injection Et' as <-. exact Ht.
    + apply IH. intros e' He'. apply F. right. exact He'.
Qed.
Lemma fan_spec : forall polygon apex, 3 <= length polygon <= 256 -> apex < length polygon ->
  exists triangles positions, polygon_fan_triangles polygon apex = Ok triangles /\
    is_fan (length polygon) apex positions /\ Forall2 (triangle_at polygon) positions triangles.
Proof.
  intros polygon apex Hn Ha. destruct (fan_ok polygon apex Hn Ha) as (triangles & E & F). exists triangles, (fan_positions (length polygon) apex).
  split; [exact E|]. split; [apply fan_positions_is_fan; lia|exact F].
Qed.
(** from the first vertex *)
Lemma fan_triangles_in : forall polygon triangles, 3 <= length polygon <= 256 -> polygon_fan_triangles polygon 0 = Ok triangles ->
  forall t, In t triangles <-> fan_triangle polygon t.
Proof.
  intros polygon triangles Hn E t. destruct (fan_ok polygon 0 Hn ltac:(lia)) as (triangles' & E' & F). rewrite E in E'. injection E' as <-.
  assert (Hpos : forall p, In p (fan_positions (length polygon) 0) <-> exists i, 1 <= i /\ S i < length polygon /\ p = (0, i, S i)).
  { intros p. unfold fan_positions. rewrite in_map_iff. split.
    - intros (e & <- & He). apply in_seq in He. exists e. cbn [Nat.add]. rewrite Nat.mod_small by lia. unfold next_position.
      destruct (Nat.eqb_spec (S e) (length polygon)); [lia|]. repeat split; lia.
    - intros (i & H1 & H2 & ->). exists i. cbn [Nat.add]. rewrite Nat.mod_small by lia. unfold next_position.
      destruct (Nat.eqb_spec (S i) (length polygon)); [lia|]. split; [reflexivity|]. apply in_seq. lia. }
  split.
  - intros Ht. clear E. revert F Hpos. generalize (fan_positions (length polygon) 0). intros l F Hpos.
    assert (exists p, In p l /\ triangle_at polygon p t).
    { clear Hpos. induction F as [|p t' l ts' Hp F IH]; [contradiction|]. destruct Ht as [->|Ht]; [exists p; split; [left; reflexivity|exact Hp]|].
      destruct (IH Ht) as (p' & Hp' & H'). exists p'. split; [right; exact Hp'|exact H']. }
    destruct H as (p & Hp & Htp). apply Hpos in Hp. destruct Hp as (i & H1 & H2 & ->). exists i. auto.
  - intros (i & H1 & H2 & Ht). assert (Hp : In (0, i, S i) (fan_positions (length polygon) 0)) by (apply Hpos; eauto).
    revert Hp. clear Hpos E. induction F as [|p t' l ts' Hp F IH]; [contradiction|]. intros [->|Hin]; [|right; apply IH, Hin].
    left. destruct Ht as (a & b & c & -> & A & B & C). destruct Hp as (a' & b' & c' & -> & A' & B' & C'). cbn in *. congruence.
Qed.
Lemma fan_of_triangle : forall a b c t, fan_triangle [a; b; c] t <-> t = [a; b; c].
Proof.
  intros a b c t. split.
  - intros (i & H1 & H2 & x & y & z & -> & A & B & C). cbn in *. assert (i = 1) as -> by lia. cbn in *. congruence.
  - intros ->. exists 1. cbn. split; [lia|]. split; [lia|]. exists a, b, c. auto.
Qed.
Lemma small_no_fan : forall polygon t, length polygon < 3 -> ~ fan_triangle polygon t.
Proof. intros polygon t H (i & H1 & H2 & _). lia. Qed.
