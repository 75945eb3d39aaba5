(** Exact predicates exist: linear constraints over Q are decidable by Fourier-Motzkin elimination. *)
From Coq Require Import List Arith ZArith Bool QArith Lqa Lia.
Import ListNotations.
Local Open Scope Q_scope.

(** [c0 * x0 + c1 * x1 + ... + d], at least 0 or more than 0 *)
Record constraint := mkConstraint { coeffs : list Q; const : Q; strict : bool }.
Fixpoint dot (c x : list Q) : Q := match c, x with a :: c', b :: x' => a * b + dot c' x' | _, _ => 0 end.
Definition sign_ok (s : bool) (v : Q) : Prop := if s then 0 < v else 0 <= v.
Definition holds (x : list Q) (k : constraint) : Prop := sign_ok (strict k) (dot (coeffs k) x + const k).
Definition head (k : constraint) : Q := hd 0 (coeffs k).
Definition tail (k : constraint) : constraint := mkConstraint (tl (coeffs k)) (const k) (strict k).
Fixpoint add (a : Q) (c : list Q) (b : Q) (d : list Q) : list Q :=
  match c, d with
  | [], _ => map (fun y => b * y) d
  | _, [] => map (fun x => a * x) c
  | x :: c', y :: d' => (a * x + b * y) :: add a c' b d'
  end.
(** [a * k + b * l] *)
Definition combine_with (a : Q) (k : constraint) (b : Q) (l : constraint) : constraint :=
  mkConstraint (add a (coeffs k) b (coeffs l)) (a * const k + b * const l) (strict k || strict l).
Definition pos (k : constraint) : bool := if Qlt_le_dec 0 (head k) then true else false.
Definition neg (k : constraint) : bool := if Qlt_le_dec (head k) 0 then true else false.
Definition eliminate (l : list constraint) : list constraint :=
  map tail (filter (fun k => negb (pos k) && negb (neg k)) l) ++
  flat_map (fun p => map (fun n => combine_with (head p) (tail n) (- head n) (tail p)) (filter neg l)) (filter pos l).
Fixpoint feasible (n : nat) (l : list constraint) : bool :=
  match n with
  | O => forallb (fun k => if strict k then (if Qlt_le_dec 0 (const k) then true else false) else (if Qlt_le_dec (const k) 0 then false else true)) l
  | S n' => feasible n' (eliminate l)
  end.

Lemma dot_nil : forall c, dot c [] = 0. Proof. destruct c; reflexivity. Qed.
Lemma dot_map : forall a c x, dot (map (fun y => a * y) c) x == a * dot c x.
Proof. intros a. induction c as [|y c IH]; intros [|b x]; cbn [map dot]; try ring. rewrite IH. ring. Qed.
Lemma dot_add : forall a c b d x, dot (add a c b d) x == a * dot c x + b * dot d x.
Proof.
  intros a. induction c as [|y c IH]; intros b d x; cbn [add].
  - rewrite dot_map. cbn [dot]. ring.
  - destruct d as [|z d]; [change (map _ (y :: c)) with (map (fun y => a * y) (y :: c)); rewrite dot_map; cbn [dot]; ring|].
    destruct x as [|v x]; cbn [dot]; [ring|]. rewrite IH. ring.
Qed.
Lemma dot_cons : forall k v x, dot (coeffs k) (v :: x) == head k * v + dot (coeffs (tail k)) x.
Proof. intros [[|c l] d s] v x; unfold head, tail; cbn; ring. Qed.
Lemma sign_eq : forall s a b, a == b -> sign_ok s a -> sign_ok s b.
Proof. intros [] a b E H; cbn in *; lra. Qed.
Lemma sign_add : forall s t a b, sign_ok s a -> sign_ok t b -> sign_ok (s || t) (a + b).
Proof. intros [] [] a b A B; cbn in *; lra. Qed.
Lemma sign_mult : forall s a b, 0 < a -> sign_ok s b -> sign_ok s (a * b).
Proof. intros [] a b A B; cbn in *; nra. Qed.

(** lower and upper bounds: [(bound, strict)] *)
Definition above (l : Q * bool) (x : Q) : Prop := sign_ok (snd l) (x - fst l).
Definition below (u : Q * bool) (x : Q) : Prop := sign_ok (snd u) (fst u - x).
Lemma strongest_lower : forall l lo, exists b, In b (l :: lo) /\ forall b' x, In b' (l :: lo) -> above b x -> above b' x.
Proof.
  intros l lo. revert l. induction lo as [|l' lo IH]; intros l.
  - exists l. split; [left; reflexivity|]. intros b' x [<-|[]] H. exact H.
  - destruct (IH l') as (b & Hb & K). destruct l as [v s], b as [w t].
    destruct (Qlt_le_dec v w) as [L|L].
    + exists (w, t). split; [right; exact Hb|]. intros b' x [<-|Hb'] H; [|exact (K _ _ Hb' H)]. unfold above in *; cbn [fst snd] in *. destruct s, t; cbn in *; lra.
    + destruct (Qlt_le_dec w v) as [L'|L'].
      * exists (v, s). split; [left; reflexivity|]. intros b' x [<-|Hb'] H; [exact H|]. apply (K _ x Hb'). unfold above in *; cbn [fst snd] in *. destruct s, t; cbn in *; lra.
      * destruct s.
        -- exists (v, true). split; [left; reflexivity|]. intros b' x [<-|Hb'] H; [exact H|]. apply (K _ x Hb'). unfold above in *; cbn [fst snd] in *. destruct t; cbn in *; lra.
        -- exists (w, t). split; [right; exact Hb|]. intros b' x [<-|Hb'] H; [|exact (K _ _ Hb' H)]. unfold above in *; cbn [fst snd] in *. destruct t; cbn in *; lra.
Qed.
Lemma strongest_upper : forall l lo, exists b, In b (l :: lo) /\ forall b' x, In b' (l :: lo) -> below b x -> below b' x.
Proof.
  intros l lo. destruct (strongest_lower (- fst l, snd l) (map (fun u => (- fst u, snd u)) lo)) as ([v s] & Hb & K).
  change ((- fst l, snd l) :: map (fun u => (- fst u, snd u)) lo) with (map (fun u : Q * bool => (- fst u, snd u)) (l :: lo)) in *.
  apply in_map_iff in Hb. destruct Hb as ([w t] & E & Hb). cbn [fst snd] in E. injection E as <- <-.
  exists (w, t). split; [exact Hb|]. intros b' x Hb' H.
  pose proof (K (- fst b', snd b') (- x) (in_map (fun u : Q * bool => (- fst u, snd u)) _ _ Hb')) as G. unfold above, below in *. cbn [fst snd] in *.
  eapply sign_eq; [|apply G; eapply sign_eq; [|exact H]]; ring.
Qed.
Lemma room_between : forall lo up : list (Q * bool),
  (forall l u, In l lo -> In u up -> sign_ok (snd l || snd u) (fst u - fst l)) ->
  exists x, (forall l, In l lo -> above l x) /\ (forall u, In u up -> below u x).
Proof.
  intros lo up H. destruct lo as [|l0 lo].
  - destruct up as [|u0 up]; [exists 0; split; intros ? []|]. destruct (strongest_upper u0 up) as (u & _ & K).
    exists (fst u - 1). split; [intros ? []|]. intros b Hb. apply (K b); [exact Hb|]. unfold below. destruct (snd u); cbn; lra.
  - destruct (strongest_lower l0 lo) as (l & Hl & K). destruct up as [|u0 up].
    + exists (fst l + 1). split; [|intros ? []]. intros b Hb. apply (K b); [exact Hb|]. unfold above. destruct (snd l); cbn; lra.
    + destruct (strongest_upper u0 up) as (u & Hu & K'). pose proof (H l u Hl Hu) as B. exists ((fst l + fst u) * (1 # 2)).
      split; intros b Hb; [apply (K b); [exact Hb|]; unfold above|apply (K' b); [exact Hb|]; unfold below]; destruct (snd l), (snd u); cbn in *; lra.
Qed.

Lemma eliminate_ok : forall l x, (forall k, In k (eliminate l) -> holds x k) <-> exists v, forall k, In k l -> holds (v :: x) k.
Proof.
  intros l x. split.
  - intros H.
    set (rest := fun k => dot (coeffs (tail k)) x + const k).
    destruct (room_between (map (fun k => (- rest k / head k, strict k)) (filter pos l)) (map (fun k => (rest k / - head k, strict k)) (filter neg l))) as (v & V1 & V2).
    + intros a b Ha Hb. apply in_map_iff in Ha, Hb. destruct Ha as (p & <- & Hp), Hb as (n & <- & Hn). cbn [fst snd].
      assert (In (combine_with (head p) (tail n) (- head n) (tail p)) (eliminate l)) as I.
      { apply in_or_app. right. apply in_flat_map. exists p. split; [exact Hp|]. apply in_map_iff. exists n. split; [reflexivity|exact Hn]. }
      apply filter_In in Hp, Hn. destruct Hp as [_ Hp], Hn as [_ Hn]. unfold pos in Hp. unfold neg in Hn.
      destruct (Qlt_le_dec 0 (head p)) as [P|]; [|discriminate]. destruct (Qlt_le_dec (head n) 0) as [N|]; [|discriminate].
      apply H in I. unfold holds, combine_with in I. cbn [coeffs const strict] in I. change (const (tail n)) with (const n) in I. change (const (tail p)) with (const p) in I.
      change (strict (tail n)) with (strict n) in I. change (strict (tail p)) with (strict p) in I.
      rewrite orb_comm in I.
      assert (Ip : 0 < / head p) by (apply Qinv_lt_0_compat; exact P). assert (In' : 0 < / - head n) by (apply Qinv_lt_0_compat; lra).
      eapply sign_eq; [|apply (sign_mult _ (/ head p * / - head n)); [nra|exact I]].
      rewrite dot_add. unfold rest, tail. cbn [coeffs]. field. split; lra.
    + exists v. intros k Hk. unfold holds. eapply sign_eq; [rewrite dot_cons; reflexivity|].
      destruct (Qlt_le_dec 0 (head k)) as [P|P].
      * assert (Hp : In k (filter pos l)) by (apply filter_In; split; [exact Hk|unfold pos; destruct (Qlt_le_dec 0 (head k)); [reflexivity|lra]]).
        pose proof (V1 _ (in_map (fun k => (- rest k / head k, strict k)) _ _ Hp)) as G. unfold above in G. cbn [fst snd] in G.
        eapply sign_eq; [|apply (sign_mult _ (head k)); [exact P|exact G]]. unfold rest. field. lra.
      * destruct (Qlt_le_dec (head k) 0) as [N|N].
        -- assert (Hp : In k (filter neg l)) by (apply filter_In; split; [exact Hk|unfold neg; destruct (Qlt_le_dec (head k) 0); [reflexivity|lra]]).
           pose proof (V2 _ (in_map (fun k => (rest k / - head k, strict k)) _ _ Hp)) as G. unfold below in G. cbn [fst snd] in G.
           eapply sign_eq; [|apply (sign_mult _ (- head k)); [lra|exact G]]. unfold rest. field. lra.
        -- assert (I : In (tail k) (eliminate l)).
           { apply in_or_app. left. apply in_map_iff. exists k. split; [reflexivity|]. apply filter_In. split; [exact Hk|]. unfold pos, neg.
             destruct (Qlt_le_dec 0 (head k)); [lra|]. destruct (Qlt_le_dec (head k) 0); [lra|reflexivity]. }
           apply H in I. unfold holds in I. change (strict (tail k)) with (strict k) in I. change (const (tail k)) with (const k) in I.
           eapply sign_eq; [|exact I]. assert (Z : head k == 0) by lra. rewrite Z. ring.
  - intros (v & H) k Hk. apply in_app_or in Hk. destruct Hk as [Hk|Hk].
    + apply in_map_iff in Hk. destruct Hk as (k0 & <- & Hk). apply filter_In in Hk. destruct Hk as [Hk Z]. unfold pos, neg in Z.
      destruct (Qlt_le_dec 0 (head k0)) as [|P]; [discriminate|]. destruct (Qlt_le_dec (head k0) 0) as [|N]; [discriminate|].
      pose proof (H k0 Hk) as G. unfold holds in *. change (strict (tail k0)) with (strict k0). change (const (tail k0)) with (const k0).
      eapply sign_eq; [|exact G]. rewrite dot_cons. assert (E : head k0 == 0) by lra. rewrite E. ring.
    + apply in_flat_map in Hk. destruct Hk as (p & Hp & Hk). apply in_map_iff in Hk. destruct Hk as (n & <- & Hn).
      apply filter_In in Hp, Hn. destruct Hp as [Ip Hp], Hn as [In' Hn]. unfold pos in Hp. unfold neg in Hn.
      destruct (Qlt_le_dec 0 (head p)) as [P|]; [|discriminate]. destruct (Qlt_le_dec (head n) 0) as [N|]; [|discriminate].
      pose proof (H p Ip) as Gp. pose proof (H n In') as Gn. unfold holds in *. unfold combine_with. cbn [coeffs const strict].
      change (const (tail n)) with (const n). change (const (tail p)) with (const p). change (strict (tail n)) with (strict n). change (strict (tail p)) with (strict p).
      eapply sign_eq; [|apply sign_add; [apply (sign_mult _ (head p)); [exact P|exact Gn]|apply (sign_mult _ (- head n)); [lra|exact Gp]]].
      rewrite dot_add, !dot_cons. ring.
Qed.
Theorem feasible_ok : forall n l, feasible n l = true <-> exists x, List.length x = n /\ forall k, In k l -> holds x k.
Proof.
  induction n as [|n IH]; intros l; cbn [feasible].
  - rewrite forallb_forall. split.
    + intros H. exists []. split; [reflexivity|]. intros k Hk. pose proof (H k Hk) as G. unfold holds, sign_ok. rewrite dot_nil.
      destruct (strict k); [destruct (Qlt_le_dec 0 (const k)); [lra|discriminate]|destruct (Qlt_le_dec (const k) 0); [discriminate|lra]].
    + intros ([|? ?] & L & H) k Hk; [|discriminate]. pose proof (H k Hk) as G. unfold holds, sign_ok in G. rewrite dot_nil in G.
      destruct (strict k); [destruct (Qlt_le_dec 0 (const k)); [reflexivity|lra]|destruct (Qlt_le_dec (const k) 0); [lra|reflexivity]].
  - rewrite IH. split.
    + intros (x & L & H). apply eliminate_ok in H. destruct H as (v & H). exists (v :: x). cbn [List.length]. split; [lia|exact H].
    + intros ([|v x] & L & H); [discriminate|]. exists x. split; [cbn in L; lia|]. apply eliminate_ok. exists v. exact H.
Qed.
