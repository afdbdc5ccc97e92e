(** C301: notifications are sent to subscribers. *)
From Coq Require Import Arith NArith Bool Lia List String.
From Verif Require Import Bytes Notif NotifSend.
Import ListNotations.
Local Open Scope list_scope.

(* ------------------------------------------------------------------ *)
(** ** Specification *)

(** The session had a subscription at some time during the call [k], before anything of it was sent. *)
Definition subscribed_during (l : list event) (k : nat) : Prop :=
  exists l1 l2 t a, l = l1 ++ l2 /\ s_thr (run l1) t = Called k a /\ s_cnt (run l1) <> 0%N.

(** Full statement: when something is sent, the session has a subscription. *)
Definition c301_full : Prop := forall l e, List.length (s_out (step (run l) e)) <> List.length (s_out (run l)) -> s_cnt (run l) <> 0%N.

(** The call [k] was made with this argument. *)
Definition called_with (l : list event) (k : nat) (a : option arg) : Prop :=
  exists l1 t l2, l = l1 ++ Call t a :: l2 /\ s_next (run l1) = k /\ s_thr (run l1) t = Out.

Definition text (w : wire) : bytes * bytes := match w with Whole n m | Part n m => (n, m) end.

(* ------------------------------------------------------------------ *)
(** ** Lemmas *)

Lemma run_snoc l e : run (l ++ [e]) = step (run l) e.
Proof. unfold run. now rewrite fold_left_app. Qed.

Lemma put_same f t p : put f t p t = p.
Proof. unfold put. now rewrite Nat.eqb_refl. Qed.
Lemma put_other f t p i : i <> t -> put f t p i = f i.
Proof. intros N. unfold put. apply Nat.eqb_neq in N. now rewrite N. Qed.

Definition live (p : pc) : option nat := match p with Out => None | Called k _ | Checked k _ _ | Locked k _ _ => Some k end.

(** What holds of the calls after the events [l]: of the ones made, those under way, those that sent. *)
Record inv (l : list event) (s : st) : Prop := {
  i_next : forall t k, live (s_thr s t) = Some k -> k < s_next s;
  i_one : forall t t' k, live (s_thr s t) = Some k -> live (s_thr s t') = Some k -> t = t';
  i_out : forall k w, In (k, w) (s_out s) -> k < s_next s /\ forall t, live (s_thr s t) <> Some k;
  i_rets : forall k r, In (k, r) (s_rets s) -> k < s_next s /\ forall t, live (s_thr s t) <> Some k;
  i_nodup : NoDup (map fst (s_out s));
  i_nodup' : NoDup (map fst (s_rets s));
  i_arg : forall t k a, s_thr s t = Called k a -> called_with l k a;
  i_ok : forall t k n m, s_thr s t = Checked k n m \/ s_thr s t = Locked k n m ->
         subscribed_during l k /\ called_with l k (Some {| a_ntf := Some n; a_time := Some m |});
  i_sent : forall k w, In (k, w) (s_out s) -> subscribed_during l k /\ called_with l k (Some {| a_ntf := Some (fst (text w)); a_time := Some (snd (text w)) |});
  i_ret : forall k, In (k, RNotif) (s_rets s) -> exists w, In (k, w) (s_out s);
  i_whole : forall k n m, In (k, Whole n m) (s_out s) -> In (k, RNotif) (s_rets s) \/ (In (k, RError) (s_rets s) /\ s_running s = false) }.

Lemma during_snoc l e k : subscribed_during l k -> subscribed_during (l ++ [e]) k.
Proof. intros (l1 & l2 & t & a & -> & H). exists l1, (l2 ++ [e]), t, a. now rewrite app_assoc. Qed.
Lemma with_snoc l e k a : called_with l k a -> called_with (l ++ [e]) k a.
Proof. intros (l1 & t & l2 & -> & H). exists l1, t, (l2 ++ [e]). now rewrite <- app_assoc. Qed.

Lemma inv_same l e s s' : inv l s -> s_thr s' = s_thr s -> s_out s' = s_out s -> s_rets s' = s_rets s -> s_next s' = s_next s -> (s_running s = false -> s_running s' = false) -> inv (l ++ [e]) s'.
Proof.
  intros [A B C D E E' F G H I J] T O R N W. split; rewrite ?T, ?O, ?R, ?N; auto.
  - intros t k a Q. apply with_snoc. eauto.
  - intros t k n m Q. destruct (G t k n m Q). split; [now apply during_snoc|now apply with_snoc].
  - intros k w Q. destruct (H k w Q). split; [now apply during_snoc|now apply with_snoc].
  - intros k n m Q. destruct (J k n m Q) as [J'|[J' K]]; auto.
Qed.
Lemma inv_unlocked l s : inv l s -> inv l (unlocked s).
Proof. intros [A B C D E E' F G H I J]. split; auto. Qed.

Lemma snoc_nodup {A} (l : list (nat * A)) k x : NoDup (map fst l) -> (forall y, ~ In (k, y) l) -> NoDup (map fst (l ++ [(k, x)])).
Proof.
  intros N F. rewrite map_app. cbn [map fst]. apply NoDup_rev in N. rewrite <- (rev_involutive (map fst l ++ [k])), rev_app_distr. apply NoDup_rev. cbn [rev app].
  constructor; [|exact N]. rewrite <- in_rev. intros I. apply in_map_iff in I. destruct I as ([k' y] & E & I). cbn in E. subst. now apply (F y).
Qed.

(** A call returns without having sent anything. *)
Lemma inv_back l e s t k r : inv l s -> live (s_thr s t) = Some k -> r <> RNotif -> inv (l ++ [e]) (back s t k r).
Proof.
  intros [A B C D E E' F G H I J] L NR. unfold back.
  assert (P : forall t' k', live (put (s_thr s) t Out t') = Some k' -> t' <> t /\ live (s_thr s t') = Some k').
  { intros t' k' Q. destruct (Nat.eq_dec t' t) as [->|N]; [rewrite put_same in Q; discriminate|]. rewrite put_other in Q by exact N. auto. }
  split; cbn [s_thr s_out s_rets s_next]; auto.
  - intros t' k' Q. apply P in Q. now apply (A t').
  - intros t1 t2 k' Q1 Q2. apply P in Q1, Q2. now apply (B t1 t2 k').
  - intros k' w Q. destruct (C k' w Q) as [C1 C2]. split; [exact C1|]. intros t' Q'. apply P in Q'. now apply (C2 t').
  - intros k' r' Q. apply in_app_or in Q. destruct Q as [Q|[Q|[]]].
    + destruct (D k' r' Q) as [D1 D2]. split; [exact D1|]. intros t' Q'. apply P in Q'. now apply (D2 t').
    + injection Q as -> _. split; [now apply (A t)|]. intros t' Q'. apply P in Q'. destruct Q' as [N Q']. apply N. now apply (B t' t k').
  - apply snoc_nodup; [exact E'|]. intros y Q. destruct (D k y Q) as [_ D2]. now apply (D2 t).
  - intros t' k' a Q. destruct (Nat.eq_dec t' t) as [->|N]; [rewrite put_same in Q; discriminate|]. rewrite put_other in Q by exact N. apply with_snoc. eauto.
  - intros t' k' n m Q. destruct (Nat.eq_dec t' t) as [->|N]; [rewrite put_same in Q; destruct Q; discriminate|]. rewrite put_other in Q by exact N.
    destruct (G t' k' n m Q). split; [now apply during_snoc|now apply with_snoc].
  - intros k' w Q. destruct (H k' w Q). split; [now apply during_snoc|now apply with_snoc].
  - intros k' Q. apply in_app_or in Q. destruct Q as [Q|[Q|[]]]; [auto|]. injection Q as _ ->. congruence.
  - intros k' n m Q. cbn [s_running]. destruct (J k' n m Q) as [J'|[J' K]]; [left|right; split; [|exact K]]; apply in_or_app; now left.
Qed.

(** The thread goes on in its call. *)
Lemma inv_goes l e s t k lk p : inv l s -> live (s_thr s t) = Some k -> live p = Some k -> (forall k a, p <> Called k a) ->
  (forall n m, p = Checked k n m \/ p = Locked k n m -> subscribed_during (l ++ [e]) k /\ called_with (l ++ [e]) k (Some {| a_ntf := Some n; a_time := Some m |})) ->
  inv (l ++ [e]) (goes s t lk p).
Proof.
  intros [A B C D E E' F G H I J] L Lp NC OK. unfold goes.
  assert (P : forall t', live (put (s_thr s) t p t') = live (s_thr s t')).
  { intros t'. destruct (Nat.eq_dec t' t) as [->|N]; [rewrite put_same; congruence|]. now rewrite put_other. }
  split; cbn [s_thr s_out s_rets s_next]; auto.
  - intros t' k'. rewrite P. apply A.
  - intros t1 t2 k'. rewrite !P. apply B.
  - intros k' w Q. destruct (C k' w Q) as [C1 C2]. split; [exact C1|]. intros t'. rewrite P. apply C2.
  - intros k' r Q. destruct (D k' r Q) as [D1 D2]. split; [exact D1|]. intros t'. rewrite P. apply D2.
  - intros t' k' a Q. destruct (Nat.eq_dec t' t) as [->|N]; [rewrite put_same in Q; now apply NC in Q|]. rewrite put_other in Q by exact N. apply with_snoc. eauto.
  - intros t' k' n m Q. destruct (Nat.eq_dec t' t) as [->|N].
    + rewrite put_same in Q. assert (k' = k) by (destruct Q as [Q|Q]; rewrite Q in Lp; cbn in Lp; congruence). subst k'. now apply OK.
    + rewrite put_other in Q by exact N. destruct (G t' k' n m Q). split; [now apply during_snoc|now apply with_snoc].
  - intros k' w Q. destruct (H k' w Q). split; [now apply during_snoc|now apply with_snoc].
Qed.

(** The call sends and returns. *)
Lemma inv_sends l e s t k w v r : inv l s -> s_thr s t = Locked k (fst (text w)) (snd (text w)) -> (forall n m, w = Whole n m -> r = RNotif \/ (r = RError /\ v = false)) ->
  s_running s = true -> inv (l ++ [e]) (back (sends s k w v) t k r).
Proof.
  intros [A B C D E E' F G H I J] L NR Run. unfold back, sends. assert (Lk : live (s_thr s t) = Some k) by now rewrite L.
  assert (P : forall t' k', live (put (s_thr s) t Out t') = Some k' -> t' <> t /\ live (s_thr s t') = Some k').
  { intros t' k' Q. destruct (Nat.eq_dec t' t) as [->|N]; [rewrite put_same in Q; discriminate|]. rewrite put_other in Q by exact N. auto. }
  assert (K : forall t', live (put (s_thr s) t Out t') <> Some k).
  { intros t' Q. apply P in Q. destruct Q as [N Q]. apply N. now apply (B t' t k). }
  split; cbn [s_thr s_out s_rets s_next]; auto.
  - intros t' k' Q. apply P in Q. now apply (A t').
  - intros t1 t2 k' Q1 Q2. apply P in Q1, Q2. now apply (B t1 t2 k').
  - intros k' w' Q. apply in_app_or in Q. destruct Q as [Q|[Q|[]]].
    + destruct (C k' w' Q) as [C1 C2]. split; [exact C1|]. intros t' Q'. apply P in Q'. now apply (C2 t').
    + injection Q as <- _. split; [now apply (A t)|exact K].
  - intros k' r' Q. apply in_app_or in Q. destruct Q as [Q|[Q|[]]].
    + destruct (D k' r' Q) as [D1 D2]. split; [exact D1|]. intros t' Q'. apply P in Q'. now apply (D2 t').
    + injection Q as <- _. split; [now apply (A t)|exact K].
  - apply snoc_nodup; [exact E|]. intros y Q. destruct (C k y Q) as [_ C2]. now apply (C2 t).
  - apply snoc_nodup; [exact E'|]. intros y Q. destruct (D k y Q) as [_ D2]. now apply (D2 t).
  - intros t' k' a Q. destruct (Nat.eq_dec t' t) as [->|N]; [rewrite put_same in Q; discriminate|]. rewrite put_other in Q by exact N. apply with_snoc. eauto.
  - intros t' k' n m Q. destruct (Nat.eq_dec t' t) as [->|N]; [rewrite put_same in Q; destruct Q; discriminate|]. rewrite put_other in Q by exact N.
    destruct (G t' k' n m Q). split; [now apply during_snoc|now apply with_snoc].
  - intros k' w' Q. apply in_app_or in Q. destruct Q as [Q|[Q|[]]].
    + destruct (H k' w' Q). split; [now apply during_snoc|now apply with_snoc].
    + injection Q as <- <-. destruct (G t k _ _ (or_intror L)). split; [now apply during_snoc|now apply with_snoc].
  - intros k' Q. apply in_app_or in Q. destruct Q as [Q|[Q|[]]].
    + destruct (I k' Q) as (w' & I'). exists w'. apply in_or_app. now left.
    + injection Q as <- _. exists w. apply in_or_app. right. now left.
  - intros k' n m Q. cbn [s_running]. apply in_app_or in Q. destruct Q as [Q|[Q|[]]].
    + destruct (J k' n m Q) as [J'|[_ K2]]; [|congruence]. left. apply in_or_app. now left.
    + injection Q as <- Qw. destruct (NR n m Qw) as [->|[-> ->]]; [left|right; split; [|reflexivity]]; apply in_or_app; right; now left.
Qed.

Lemma inv_run : forall l, inv l (run l).
Proof.
  induction l as [|e l IH] using rev_ind; [split; cbn; try apply NoDup_nil; try (intros; discriminate); try (intros; contradiction); intros t k n m [Q|Q]; discriminate|].
  rewrite run_snoc. remember (run l) as s eqn:Rs. destruct e as [c| |t a|t c]; cbn [step]; [now apply (inv_same l _ s)|now apply (inv_same l _ s)| |].
  - destruct (s_thr s t) as [|k0 a0|k0 n0 m0|k0 n0 m0] eqn:T; try (now apply (inv_same l _ s)).
    destruct IH as [A B C D E E' F G H I J].
    assert (P : forall t' k', live (put (s_thr s) t (Called (s_next s) a) t') = Some k' -> (t' = t /\ k' = s_next s) \/ (t' <> t /\ live (s_thr s t') = Some k')).
    { intros t' k' Q. destruct (Nat.eq_dec t' t) as [->|N]; [rewrite put_same in Q; injection Q as <-; auto|]. rewrite put_other in Q by exact N. auto. }
    split; cbn [s_thr s_out s_rets s_next]; auto.
    + intros t' k' Q. apply P in Q. destruct Q as [[_ ->]|[_ Q]]; [lia|]. apply A in Q. lia.
    + intros t1 t2 k' Q1 Q2. apply P in Q1, Q2. destruct Q1 as [[-> ->]|[N1 Q1]], Q2 as [[-> K2]|[N2 Q2]]; auto.
      * apply A in Q2. lia.
      * apply A in Q1. lia.
      * now apply (B t1 t2 k').
    + intros k' w Q. destruct (C k' w Q) as [C1 C2]. split; [lia|]. intros t' Q'. apply P in Q'. destruct Q' as [[_ ->]|[_ Q']]; [lia|]. now apply (C2 t').
    + intros k' w Q. destruct (D k' w Q) as [C1 C2]. split; [lia|]. intros t' Q'. apply P in Q'. destruct Q' as [[_ ->]|[_ Q']]; [lia|]. now apply (C2 t').
    + intros t' k' a' Q. destruct (Nat.eq_dec t' t) as [->|N].
      * rewrite put_same in Q. injection Q as <- <-. exists l, t, []. split; [reflexivity|]. rewrite <- Rs. auto.
      * rewrite put_other in Q by exact N. apply with_snoc. eauto.
    + intros t' k' n m Q. destruct (Nat.eq_dec t' t) as [->|N]; [rewrite put_same in Q; destruct Q; discriminate|]. rewrite put_other in Q by exact N.
      destruct (G t' k' n m Q). split; [now apply during_snoc|now apply with_snoc].
    + intros k' w Q. destruct (H k' w Q). split; [now apply during_snoc|now apply with_snoc].
  - destruct (s_thr s t) as [|k a|k n m|k n m] eqn:T.
    + now apply (inv_same l _ s).
    + destruct (N.eqb_spec (s_cnt s) 0) as [Z|Z]; [apply inv_back; [exact IH|now rewrite T|discriminate]|].
      destruct a as [[[n|] [m|]]|]; try (apply inv_back; [exact IH|now rewrite T|discriminate]).
      apply (inv_goes l _ s t k); [exact IH|now rewrite T|reflexivity|discriminate|]. intros n' m' [Q|Q]; [injection Q as <- <-|discriminate]. split.
      * exists l, [Step t c], t, (Some {| a_ntf := Some n; a_time := Some m |}). rewrite <- Rs. auto.
      * apply with_snoc. exact (i_arg l s IH t k _ T).
    + destruct (negb (s_running s)); [apply inv_back; [exact IH|now rewrite T|discriminate]|].
      assert (Go : inv (l ++ [Step t c]) (goes s t (Some t) (Locked k n m))).
      { apply (inv_goes l _ s t k); [exact IH|now rewrite T|reflexivity|discriminate|]. intros n' m' [Q|Q]; [discriminate|injection Q as <- <-].
        destruct (i_ok l s IH t k n m (or_introl T)). split; [now apply during_snoc|now apply with_snoc]. }
      destruct c; try (apply inv_back; [exact IH|now rewrite T|discriminate]); (destruct (s_lock s); [now apply (inv_same l _ s)|exact Go]).
    + destruct (s_running s) eqn:Run; cbn [negb]; [|apply inv_back; [now apply inv_unlocked|cbn [unlocked s_thr]; now rewrite T|discriminate]].
      destruct c as [| | |print|[]]; apply inv_sends; try exact IH; try exact T; try exact Run; try (intros; discriminate); try (intros; reflexivity); intros n' m' _; auto.
Qed.

(* ------------------------------------------------------------------ *)
(** ** C301 *)

(** Whatever is sent was given by a call, during which there was a subscription. *)
Theorem c301_partial l k w : In (k, w) (s_out (run l)) ->
  subscribed_during l k /\ called_with l k (Some {| a_ntf := Some (fst (text w)); a_time := Some (snd (text w)) |}).
Proof. exact (i_sent l _ (inv_run l) k w). Qed.

(** Each call sends and returns at most once. *)
Theorem c301_once l : NoDup (map fst (s_out (run l))) /\ NoDup (map fst (s_rets (run l))).
Proof. split; [exact (i_nodup l _ (inv_run l))|exact (i_nodup' l _ (inv_run l))]. Qed.

(** A whole notification is reported as sent, unless the session has ended, and none is reported of which nothing was sent. *)
Theorem c301_reported l k : (forall n m, In (k, Whole n m) (s_out (run l)) -> In (k, RNotif) (s_rets (run l)) \/ (In (k, RError) (s_rets (run l)) /\ s_running (run l) = false)) /\
  (In (k, RNotif) (s_rets (run l)) -> exists w, In (k, w) (s_out (run l))).
Proof. split; [intros n m; exact (i_whole l _ (inv_run l) k n m)|exact (i_ret l _ (inv_run l) k)]. Qed.

(** Without any subscription nothing is ever sent. *)
Theorem c301_nobody l : ~ In (Sub NInc) l -> s_out (run l) = [].
Proof.
  intros N. assert (Z : forall l1 l2, l = l1 ++ l2 -> s_cnt (run l1) = 0%N).
  { induction l1 as [|e l1 IH] using rev_ind; intros l2 E; [reflexivity|]. rewrite <- app_assoc in E. specialize (IH _ E). rewrite run_snoc.
    assert (Q : e <> Sub NInc) by (intros ->; apply N; rewrite E; apply in_or_app; right; now left).
    destruct e as [[]| |t a|t c]; cbn [step s_cnt]; try congruence.
    - unfold notif_step. now rewrite IH.
    - destruct (s_thr (run l1) t); exact IH.
    - destruct (s_thr (run l1) t); [exact IH| | |].
      + destruct (_ =? 0)%N; [exact IH|]. destruct a as [[[n|] [m|]]|]; exact IH.
      + destruct (negb _); [exact IH|]. destruct c; try exact IH; destruct (s_lock _); exact IH.
      + destruct (negb _); [exact IH|]. destruct c; exact IH. }
  destruct (s_out (run l)) as [|[k w] o] eqn:O; [reflexivity|]. exfalso.
  destruct (c301_partial l k w) as [(l1 & l2 & t & a & E & _ & C) _]; [rewrite O; now left|]. apply C. exact (Z l1 l2 E).
Qed.

(** Messages are written by one thread at a time. *)
Lemma locked_holds : forall l t k n m, s_thr (run l) t = Locked k n m -> s_lock (run l) = Some t.
Proof.
  induction l as [|e l IH] using rev_ind; intros t k n m; [discriminate|]. rewrite run_snoc. destruct e as [c| |t0 a|t0 c]; cbn [step s_thr s_lock]; [apply IH|apply IH| |].
  - destruct (s_thr (run l) t0) eqn:T0; try apply IH. cbn [s_thr s_lock]. destruct (Nat.eq_dec t t0) as [->|N]; [rewrite put_same; discriminate|]. rewrite put_other by exact N. apply IH.
  - assert (B : forall k0 r, s_thr (back (run l) t0 k0 r) t = Locked k n m -> s_lock (run l) = Some t).
    { intros k0 r. cbn [back s_thr]. destruct (Nat.eq_dec t t0) as [->|N]; [rewrite put_same; discriminate|]. rewrite put_other by exact N. apply IH. }
    destruct (s_thr (run l) t0) as [|k0 a|k0 n0 m0|k0 n0 m0] eqn:T0; [apply IH| | |].
    + destruct (_ =? 0)%N; [apply B|]. destruct a as [[[n'|] [m'|]]|]; try apply B. cbn [goes s_thr s_lock].
      destruct (Nat.eq_dec t t0) as [->|N]; [rewrite put_same; discriminate|]. rewrite put_other by exact N. apply IH.
    + destruct (negb _); [apply B|]. destruct c; try apply B; (destruct (s_lock (run l)) as [h|] eqn:L; [intros Q; rewrite L; exact (IH t k n m Q)|]);
        cbn [goes s_thr s_lock]; (destruct (Nat.eq_dec t t0) as [->|N]; [reflexivity|]); rewrite put_other by exact N; intros Q; apply IH in Q; congruence.
    + assert (H0 := IH t0 k0 n0 m0 T0).
      assert (W : put (s_thr (run l)) t0 Out t = Locked k n m -> None = Some t).
      { destruct (Nat.eq_dec t t0) as [->|N]; [rewrite put_same; discriminate|]. rewrite put_other by exact N. intros Q. apply IH in Q. congruence. }
      destruct (negb _); [exact W|]. destruct c; exact W.
Qed.

Theorem c301_alone l t t' k k' n m n' m' : s_thr (run l) t = Locked k n m -> s_thr (run l) t' = Locked k' n' m' -> t = t'.
Proof. intros A B. apply locked_holds in A, B. congruence. Qed.

(** The lock is free when no thread is writing. *)
Lemma lock_held : forall l t, s_lock (run l) = Some t -> exists k n m, s_thr (run l) t = Locked k n m.
Proof.
  induction l as [|e l IH] using rev_ind; intros t; [discriminate|]. rewrite run_snoc. destruct e as [c| |t0 a|t0 c]; cbn [step s_thr s_lock]; [apply IH|apply IH| |].
  - destruct (s_thr (run l) t0) eqn:T0; try apply IH. cbn [s_thr s_lock]. intros Q. destruct (IH t Q) as (k & n & m & E).
    exists k, n, m. rewrite put_other; [exact E|congruence].
  - assert (B : forall p, (forall k n m, s_thr (run l) t0 <> Locked k n m) -> s_lock (run l) = Some t -> exists k n m, put (s_thr (run l)) t0 p t = Locked k n m).
    { intros p NL Q. destruct (IH t Q) as (k & n & m & E). exists k, n, m. rewrite put_other; [exact E|]. intros ->. now apply (NL k n m). }
    destruct (s_thr (run l) t0) as [|k0 a|k0 n0 m0|k0 n0 m0] eqn:T0; [apply IH| | |].
    + destruct (_ =? 0)%N; [apply B; discriminate|]. destruct a as [[[n'|] [m'|]]|]; apply B; discriminate.
    + destruct (negb _); [apply B; discriminate|]. destruct c; try (apply B; discriminate); (destruct (s_lock (run l)) as [h|] eqn:L; [rewrite L; apply IH|]);
        cbn [goes s_thr s_lock]; intros Q; injection Q as <-; exists k0, n0, m0; apply put_same.
    + destruct (negb _); [discriminate|]. destruct c; discriminate.
Qed.
Theorem c301_free l t : s_lock (run l) = Some t <-> exists k n m, s_thr (run l) t = Locked k n m.
Proof. split; [apply lock_held|]. intros (k & n & m & E). exact (locked_holds l t k n m E). Qed.

(** After the session has ended nothing is sent. *)
Theorem c301_dead l1 : s_running (run l1) = false -> forall l2, s_out (run (l1 ++ l2)) = s_out (run l1) /\ s_running (run (l1 ++ l2)) = false.
Proof.
  intros D. induction l2 as [|e l2 [O R]] using rev_ind; [rewrite app_nil_r; auto|]. rewrite app_assoc, run_snoc, <- O. set (s := run (l1 ++ l2)) in *.
  destruct e as [c| |t a|t c]; cbn [step]; [auto|auto| |].
  - destruct (s_thr s t); auto.
  - rewrite R. cbn [negb]. destruct (s_thr s t) as [|k a|k n m|k n m]; [auto| |auto|auto]. destruct (_ =? 0)%N; [auto|]. destruct a as [[[n|] [m|]]|]; auto.
Qed.

(** A notification of which printing failed is reported as an error. *)
Theorem c301_failed l t k n m : s_thr (run l) t = Locked k n m -> s_rets (step (run l) (Step t (Partly false))) = s_rets (run l) ++ [(k, RError)] /\
  ~ In (k, RNotif) (s_rets (step (run l) (Step t (Partly false)))).
Proof.
  intros T. assert (E : s_rets (step (run l) (Step t (Partly false))) = s_rets (run l) ++ [(k, RError)]) by (cbn [step]; rewrite T; destruct (s_running (run l)); reflexivity).
  split; [exact E|]. rewrite E. intros Q. apply in_app_or in Q. destruct Q as [Q|[Q|[]]]; [|discriminate].
  destruct (i_rets l _ (inv_run l) k RNotif Q) as [_ N]. apply (N t). now rewrite T.
Qed.

(** Between the check and the message the last subscription may end. *)
Definition one : option arg := Some {| a_ntf := Some (bs "<a/>"%string); a_time := Some (bs "t"%string) |}.
Definition late : list event := [Sub NInc; Call 0 one; Step 0 Good; Sub NDec; Step 0 Good].
Theorem c301_refuted : ~ c301_full.
Proof. intros F. specialize (F late (Step 0 Good)). vm_compute in F. apply F; [discriminate|reflexivity]. Qed.

(** Two threads, one of which waits for the lock, and a third too late. *)
Example c301_case :
  let s := run [Sub NInc; Call 0 one; Call 1 one; Step 0 Good; Step 1 Good; Step 1 Good; Step 0 Good; Step 1 Good; Step 0 Good; Sub NDec; Call 2 one; Step 2 Good; Step 0 (Partly true)] in
  map fst (s_out s) = [1; 0] /\ s_rets s = [(1, RNotif); (2, RError); (0, RNotif)] /\ s_lock s = None.
Proof. vm_compute. repeat split; reflexivity. Qed.

Print Assumptions c301_partial.
Print Assumptions c301_once.
Print Assumptions c301_reported.
Print Assumptions c301_nobody.
Print Assumptions c301_dead.
Print Assumptions c301_failed.
Print Assumptions c301_alone.
Print Assumptions c301_free.
Print Assumptions c301_refuted.
