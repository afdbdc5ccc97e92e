(** Property C276: receiving a message does not take forever. *)
From Coq Require Import ZArith Bool Arith List Lia.
From Verif Require Import Time Prop_Time IoTime.
Import ListNotations.
Local Open Scope Z_scope.

(* ================================================================== *)
(** * Specification *)

Definition time_of (e : note) : tspec := match e with Begins t | Got t | Quiet t => t end.
(** The clock does not go back, and less than 24 days pass. *)
Fixpoint orderly (now p : tspec) (log : list note) : Prop :=
  match log with
  | [] => True
  | e :: log' => valid (time_of e) /\ ns p <= ns (time_of e) <= ns now + 2147483648 * MS /\ orderly now (time_of e) log'
  end.

(** Since [t] nothing has come: the last bytes came then, or the reading of the next part began then. *)
Definition heard (before : list note) (t : tspec) : Prop :=
  exists a e b, before = a ++ e :: b /\ (e = Begins t \/ e = Got t) /\ Forall (fun e => exists t', e = Quiet t') b.

(** At [t] there is less than a millisecond left of 300 seconds since [now], or of 20 seconds since [t']. *)
Definition late (now t' t : tspec) : Prop := ns now + 300000 * MS - ns t < MS \/ ns t' + 20000 * MS - ns t < MS.

(* ================================================================== *)
(** * One call, several calls *)

Fixpoint good (now b : tspec) (n : list note) (r : ended) : Prop :=
  match n with
  | [] => r <> Late /\ r <> Overflow
  | Begins t :: n' | Got t :: n' => good now t n' r
  | Quiet t :: n' => (late now b t /\ r = Late /\ n' = []) \/ (~ late now b t /\ good now b n' r)
  end.

Lemma expired now tmo cur : valid now -> valid cur -> 0 <= tmo < 2147483648 -> ns now <= ns cur <= ns now + tmo * MS + 2147483648 * MS ->
  exists d, cur_diff (time_get now tmo) cur = Some d /\ ((d <? 1) = true <-> ns now + tmo * MS - ns cur < MS).
Proof.
  intros A B C D. destruct (c44_expired_partial now tmo cur A B C D) as [d [E F]]. exists d. split; [exact E|].
  rewrite Z.ltb_lt. exact F.
Qed.

Lemma read_good now : valid now -> forall l b left r n l' p, nc_read (time_get now ACT) (time_get b INACT) left l = (r, n, l') ->
  valid b -> ns now <= ns b -> ns b <= ns p -> orderly now p n -> good now b n r.
Proof.
  intros VN. induction l as [|[a t] l IH]; intros b left r n l' p H VB NB BP O.
  - cbn in H. injection H as <- <- <-. cbn. split; discriminate.
  - destruct a as [k| |].
    + cbn [nc_read] in H. destruct (left - Nat.min (S (Nat.pred k)) left =? 0)%nat.
      * injection H as <- <- <-. cbn. split; discriminate.
      * destruct (nc_read (time_get now ACT) (time_get t INACT) (left - Nat.min (S (Nat.pred k)) left) l) as [[r1 n1] l1] eqn:E.
        injection H as <- <- <-. cbn [orderly time_of] in O. destruct O as [O1 [O2 O3]]. cbn [good].
        apply (IH t _ r1 n1 l1 t E); auto; lia.
    + cbn [nc_read] in H.
      assert (OO : valid t /\ ns p <= ns t <= ns now + 2147483648 * MS).
      { destruct (cur_diff (time_get b INACT) t); [destruct (cur_diff (time_get now ACT) t)|];
          [destruct ((z <? 1) || (z0 <? 1)); [|destruct (nc_read (time_get now ACT) (time_get b INACT) left l) as [[r1 n1] l1]]| |];
          injection H as <- <- <-; cbn [orderly time_of] in O; tauto. }
      destruct OO as [VT RT].
      destruct (expired b INACT t VB VT ltac:(unfold INACT; lia) ltac:(unfold INACT; unfold MS in *; lia)) as [x [X1 X2]].
      destruct (expired now ACT t VN VT ltac:(unfold ACT; lia) ltac:(unfold ACT; unfold MS in *; lia)) as [y [Y1 Y2]].
      rewrite X1, Y1 in H.
      assert (L : (x <? 1) || (y <? 1) = true <-> late now b t).
      { rewrite orb_true_iff, X2, Y2. unfold late. change INACT with 20000. change ACT with 300000. tauto. }
      destruct ((x <? 1) || (y <? 1)).
      * injection H as <- <- <-. cbn [good]. left. split; [apply L; reflexivity|auto].
      * destruct (nc_read (time_get now ACT) (time_get b INACT) left l) as [[r1 n1] l1] eqn:E. injection H as <- <- <-.
        cbn [orderly time_of] in O. destruct O as [O1 [O2 O3]]. cbn [good]. right. split.
        -- intros C. apply L in C. discriminate.
        -- apply (IH b left r1 n1 l1 t E); auto; lia.
    + cbn in H. injection H as <- <- <-. cbn. split; discriminate.
Qed.

Lemma good_app now r n' (F : forall b, good now b n' r) : forall n b, good now b n All -> good now b (n ++ n') r.
Proof.
  induction n as [|e n IH]; intros b G; [apply F|].
  destruct e as [t|t|t]; cbn [good app] in *; try (apply IH; exact G).
  destruct G as [[_ [G _]]|[G1 G2]]; [discriminate|]. right. split; [exact G1|apply IH; exact G2].
Qed.
Lemma orderly_split now : forall n p n', orderly now p (n ++ n') -> orderly now p n /\ exists q, ns p <= ns q /\ orderly now q n'.
Proof.
  induction n as [|e n IH]; intros p n' O; [split; [exact Logic.I|exists p; split; [lia|exact O]]|].
  cbn [app orderly] in O. destruct O as [A [B C]]. destruct (IH _ _ C) as [D [q [E F]]]. split.
  - cbn [orderly]. auto.
  - exists q. split; [lia|exact F].
Qed.

Lemma msg_good now : valid now -> forall calls l r log p, read_msg (time_get now ACT) calls l = (r, log) ->
  ns now <= ns p -> orderly now p log -> forall b, good now b log r.
Proof.
  intros VN. induction calls as [|[c t] calls IH]; intros l r log p H NP O b.
  - cbn in H. injection H as <- <-. cbn. split; discriminate.
  - destruct c as [|c]; cbn [read_msg] in H; [exact (IH l r log p H NP O b)|].
    destruct (nc_read (time_get now ACT) (time_get t INACT) (S c) l) as [[r1 n1] l1] eqn:E.
    assert (ONE : forall n2, log = Begins t :: n1 ++ n2 -> good now t n1 r1).
    { intros n2 EQ. rewrite EQ in O. cbn [orderly time_of] in O. destruct O as [A [B C]]. destruct (orderly_split now n1 t n2 C) as [D _].
      apply (read_good now VN l t (S c) r1 n1 l1 t E); auto; lia. }
    destruct r1.
    + destruct (read_msg (time_get now ACT) calls l1) as [r2 n2] eqn:E2. injection H as <- <-. cbn [good].
      apply good_app; [|apply (ONE n2); reflexivity].
      intros b'. cbn [orderly time_of] in O. destruct O as [A [B C]]. destruct (orderly_split now n1 t n2 C) as [_ [q [Q1 Q2]]].
      apply (IH l1 r2 n2 q E2); [lia|exact Q2].
    + injection H as <- <-. cbn [good]. apply (ONE []). rewrite app_nil_r. reflexivity.
    + injection H as <- <-. cbn [good]. apply (ONE []). rewrite app_nil_r. reflexivity.
    + injection H as <- <-. cbn [good]. apply (ONE []). rewrite app_nil_r. reflexivity.
    + injection H as <- <-. cbn [good]. apply (ONE []). rewrite app_nil_r. reflexivity.
Qed.

Lemma good_says now r : forall log pre b, heard pre b -> good now b log r ->
  forall a t z, log = a ++ Quiet t :: z -> exists t', heard (pre ++ a) t' /\ (late now t' t <-> r = Late /\ z = []).
Proof.
  induction log as [|e log IH]; intros pre b H G a t z EQ; [destruct a; discriminate|].
  destruct a as [|e' a].
  - injection EQ as -> ->. exists b. rewrite app_nil_r. split; [exact H|]. cbn [good] in G.
    destruct G as [[G1 G2]|[G1 G2]]; [tauto|]. split; [tauto|]. intros [R Z]. subst z r. cbn in G2. tauto.
  - injection EQ as <- EQ.
    assert (K : forall b', heard (pre ++ [e]) b' -> good now b' log r ->
                exists t', heard (pre ++ e :: a) t' /\ (late now t' t <-> r = Late /\ z = [])).
    { intros b' H' G'. destruct (IH _ b' H' G' a t z EQ) as [t' [X Y]]. exists t'. rewrite <- app_assoc in X. auto. }
    destruct e as [t0|t0|t0]; cbn [good] in G.
    + apply (K t0); [|exact G]. exists pre, (Begins t0), []. auto.
    + apply (K t0); [|exact G]. exists pre, (Got t0), []. auto.
    + destruct G as [[_ [_ G]]|[_ G]]; [subst log; destruct a; discriminate|]. apply (K b); [|exact G].
      destruct H as [x [e [y [H1 [H2 H3]]]]]. exists x, e, (y ++ [Quiet t0]). split; [rewrite H1, <- app_assoc; reflexivity|]. split; [exact H2|].
      apply Forall_app. split; [exact H3|]. constructor; [eexists; reflexivity|constructor].
Qed.
Lemma good_late now : forall log b, good now b log Late -> exists a t, log = a ++ [Quiet t].
Proof.
  induction log as [|e log IH]; intros b G; [cbn in G; tauto|].
  assert (K : forall b', good now b' log Late -> exists a t, e :: log = a ++ [Quiet t]).
  { intros b' G'. destruct (IH b' G') as [a [t ->]]. exists (e :: a), t. reflexivity. }
  destruct e as [t|t|t]; cbn [good] in G; try (apply (K _ G)). destruct G as [[_ [_ ->]]|[_ G]]; [exists [], t; reflexivity|apply (K _ G)].
Qed.
Lemma good_def now r : forall log b, good now b log r -> r <> Overflow.
Proof.
  induction log as [|e log IH]; intros b G; [cbn in G; tauto|].
  destruct e as [t|t|t]; cbn [good] in G; try exact (IH _ G). destruct G as [[_ [-> _]]|[_ G]]; [discriminate|exact (IH _ G)].
Qed.
Lemma begins act : forall calls l, snd (read_msg act calls l) = [] \/ exists t n, snd (read_msg act calls l) = Begins t :: n.
Proof.
  induction calls as [|[c t] calls IH]; intros l; [left; reflexivity|]. destruct c as [|c]; [exact (IH l)|]. right. cbn [read_msg].
  destruct (nc_read act (time_get t INACT) (S c) l) as [[r1 n1] l1].
  destruct r1; [destruct (read_msg act calls l1)| | | |]; do 2 eexists; reflexivity.
Qed.

(* ================================================================== *)
(** * C276 *)

(** The whole claim: after 300 seconds a message is not waited for any longer. *)
Definition c276_full : Prop := forall now calls l r log a e z, valid now -> read_msg_io now calls l = (r, log) -> orderly now now log ->
  log = a ++ e :: z -> z <> [] -> ns (time_of e) < ns now + 300000 * MS.

(** Whenever the peer pauses, the session is given up if 300 seconds have passed since the message was begun or 20 since anything came (within
    the last millisecond), and goes on otherwise; it is given up for the time at no other moment. *)
Theorem c276_partial : forall now calls l r log, valid now -> read_msg_io now calls l = (r, log) -> orderly now now log ->
  (forall a t z, log = a ++ Quiet t :: z -> exists t', heard a t' /\ (late now t' t <-> r = Late /\ z = [])) /\
  (r = Late -> exists a t, log = a ++ [Quiet t]) /\ r <> Overflow.
Proof.
  intros now calls l r log VN H O. unfold read_msg_io in H.
  pose proof (msg_good now VN calls l r log now H ltac:(lia) O) as G. split; [|split].
  - intros a t z EQ. destruct (begins (time_get now ACT) calls l) as [B|[t0 [n B]]]; rewrite H in B; cbn [snd] in B.
    + rewrite B in EQ. destruct a; discriminate.
    + specialize (G t0). rewrite B in EQ, G. destruct a as [|e a]; [discriminate|]. injection EQ as <- EQ. cbn [good] in G.
      apply (good_says now r n [Begins t0] t0) with (a := a) (z := z); [|exact G|exact EQ]. exists [], (Begins t0), []. auto.
  - intros ->. exact (good_late now log now (G now)).
  - exact (good_def now r log now (G now)).
Qed.

(** A peer that sends a byte each second is never given up. *)
Definition T (n : nat) : tspec := mkT (Z.of_nat n) 0.
Lemma drip act : forall k i b left, (k < left)%nat ->
  nc_read act b left (map (fun i => (Bytes 1, T i)) (seq i k)) = (Pending, map (fun i => Got (T i)) (seq i k), []).
Proof.
  induction k as [|k IH]; intros i b left L; [reflexivity|]. cbn [seq map nc_read Nat.pred].
  replace (Nat.min 1 left) with 1%nat by lia. destruct (Nat.eqb_spec (left - 1) 0) as [E|_]; [lia|].
  rewrite IH by lia. reflexivity.
Qed.
Theorem c276_never : forall k, exists calls l, read_msg_io (T 0) calls l = (Pending, Begins (T 0) :: map (fun i => Got (T i)) (seq 1 k)).
Proof.
  intros k. exists [(S k, T 0)], (map (fun i => (Bytes 1, T i)) (seq 1 k)). unfold read_msg_io. cbn [read_msg]. rewrite drip by lia. reflexivity.
Qed.
Theorem c276_full_refuted : ~ c276_full.
Proof.
  intros H. pose proof (H (T 0) [(3%nat, T 0)] [(Bytes 1, mkT 300 0); (Bytes 1, mkT 301 0)] Pending [Begins (T 0); Got (mkT 300 0); Got (mkT 301 0)]
    [Begins (T 0)] (Got (mkT 300 0)) [Got (mkT 301 0)]) as K.
  specialize (K ltac:(unfold valid, T; cbn; lia) eq_refl). cbn [orderly time_of] in K. unfold valid, ns, T, MS in K. cbn in K.
  specialize (K ltac:(repeat split; lia) eq_refl ltac:(discriminate)). lia.
Qed.

(** A peer that pauses for 19 seconds twice goes on, one that pauses for 20 is given up; so is one that pauses for a second after 300. *)
Example ex_pause : read_msg_io (T 0) [(2%nat, T 0); (5%nat, T 20)] [(Nothing, T 19); (Bytes 2, T 20); (Nothing, T 39); (Nothing, T 40); (Bytes 5, T 41)] =
  (Late, [Begins (T 0); Quiet (T 19); Got (T 20); Begins (T 20); Quiet (T 39); Quiet (T 40)]).
Proof. vm_compute. reflexivity. Qed.
Example ex_pause_ok : orderly (T 0) (T 0) [Begins (T 0); Quiet (T 19); Got (T 20); Begins (T 20); Quiet (T 39); Quiet (T 40)].
Proof. cbn [orderly time_of]. unfold valid, ns, T, MS. cbn. repeat split; lia. Qed.
Example ex_long : read_msg_io (T 0) [(100%nat, T 0)] [(Bytes 2, mkT 290 0); (Nothing, mkT 299 0); (Nothing, mkT 300 0)] =
  (Late, [Begins (T 0); Got (mkT 290 0); Quiet (mkT 299 0); Quiet (mkT 300 0)]).
Proof. vm_compute. reflexivity. Qed.

Print Assumptions c276_partial.
Print Assumptions c276_never.
Print Assumptions c276_full_refuted.
