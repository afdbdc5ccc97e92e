(** Properties of the notification threads of a client session: C146-C149. *)
From Coq Require Import List Arith Bool Lia.
From Verif Require Import NotifThr.
Import ListNotations.

(* ------------------------------------------------------------------ *)
(** ** Specification *)

(** A condition on each event of a run, in the state in which it happens. *)
Fixpoint along (P : st -> event -> Prop) (s : st) (tr : list event) : Prop :=
  match tr with [] => True | e :: r => P s e /\ along P (fst (step s e)) r end.

(** The calls that have not returned. *)
Definition in_call (s : st) : Prop := exists d, In d (disps s) /\ d_pos d <> DDone.
(** How the library is to be used: a session is freed once, when no other call works on it, and is not used after. *)
Definition contract (s : st) (e : event) : Prop :=
  match e with
  | EDisp _ => fpt s = FNone
  | EFree => fpt s = FNone /\ ~ in_call s
  | _ => True
  end.
(** nc_recv_notif_dispatch() is not called while another call of it works on the session. *)
Definition one_by_one (s : st) (e : event) : Prop := match e with EDisp _ => ~ in_call s | _ => True end.
(** pthread_create() succeeds. *)
Definition created (s : st) (e : event) : Prop := match e with EDStep _ c => c = true | _ => True end.
(** nc_session_free() does not give up waiting for the threads (it does after a second). *)
Definition patient (s : st) (e : event) : Prop := match e with EFStep to => to = false | _ => True end.
(** No thread ends by itself: no notificationComplete, and the session does not break. *)
Definition going_on (s : st) (e : event) : Prop :=
  match e with ETStep _ (RNotif _ true) | ETStep _ RBroken => False | _ => True end.
(** A notification thread is running. *)
Definition runs (s : st) : Prop := exists x, In x (threads s) /\ t_pos x <> TData /\ t_pos x <> TGone.

(* ------------------------------------------------------------------ *)
(** ** Lists *)

Definition num {A} (f : A -> bool) (l : list A) : nat := length (filter f l).
Definition b2n (b : bool) : nat := if b then 1 else 0.
Lemma num_app {A} f (a b : list A) : num f (a ++ b) = num f a + num f b.
Proof. unfold num. now rewrite filter_app, app_length. Qed.
Lemma num_cons {A} f (x : A) l : num f (x :: l) = b2n (f x) + num f l.
Proof. unfold num, b2n. cbn. now destruct (f x). Qed.
Lemma set_num {A} f (l : list A) i x y : nth_error l i = Some x -> num f (set_nth l i y) + b2n (f x) = num f l + b2n (f y).
Proof.
  revert i. induction l as [|a l IH]; intros [|i] H; cbn in H; try discriminate.
  - injection H as ->. unfold set_nth. cbn [firstn skipn app]. rewrite !num_cons. lia.
  - specialize (IH _ H). unfold set_nth in *. change (firstn (S i) (a :: l)) with (a :: firstn i l). change (skipn (S (S i)) (a :: l)) with (skipn (S i) l).
    cbn [app]. rewrite !num_cons. lia.
Qed.
Lemma set_in {A} (l : list A) i y z : In z (set_nth l i y) -> z = y \/ In z l.
Proof.
  unfold set_nth. intros H. apply in_app_or in H as [H|[H|H]]; auto.
  - right. rewrite <- (firstn_skipn i l). apply in_or_app. now left.
  - right. rewrite <- (firstn_skipn (S i) l). apply in_or_app. now right.
Qed.
Lemma num_pos {A} f (l : list A) : num f l > 0 <-> exists x, In x l /\ f x = true.
Proof.
  induction l as [|a l IH]; [split; [cbn; lia|intros (x & [] & _)]|]. rewrite num_cons. split.
  - intros H. destruct (f a) eqn:E; [exists a; cbn; auto|]. destruct (proj1 IH) as (x & I & F); [cbn in H; lia|]. exists x. cbn. auto.
  - intros (x & [->|I] & F); [rewrite F; cbn; lia|]. assert (num f l > 0) by (apply IH; eauto). lia.
Qed.
Lemma num_zero {A} f (l : list A) : num f l = 0 <-> forall x, In x l -> f x = false.
Proof.
  split.
  - intros H x I. destruct (f x) eqn:E; [|reflexivity]. assert (num f l > 0) by (apply num_pos; eauto). lia.
  - intros H. destruct (num f l) eqn:E; [reflexivity|]. assert (num f l > 0) by lia. apply num_pos in H0 as (x & I & F). rewrite (H _ I) in F. discriminate.
Qed.

(** Calls that hold the count. *)
Definition d_hold (d : disp) : bool := match d_pos d with DSet | DCreate | DDec => true | _ => false end.
Definition d_is (p : dpos) (d : disp) : bool :=
  match p, d_pos d with DCreate, DCreate | DDec, DDec | DClear, DClear => true | _, _ => false end.
Definition nlive s := num t_live (threads s).
Definition nact s := num d_active (disps s).

Lemma in_call_act s : in_call s <-> nact s > 0.
Proof.
  unfold in_call, nact. rewrite num_pos. split; intros (d & I & H); exists d; split; auto; unfold d_active in *; destruct (d_pos d); congruence.
Qed.
Lemma runs_live s : runs s <-> nlive s > 0.
Proof.
  unfold runs, nlive. rewrite num_pos. split.
  - intros (d & I & H1 & H2). exists d. split; auto. unfold t_live. destruct (t_pos d); congruence.
  - intros (d & I & H). exists d. split; auto. unfold t_live in H. destruct (t_pos d); split; congruence.
Qed.

(** The invariant; [seq]: calls one by one, otherwise all threads are created. *)
Record inv (seq : bool) (s : st) : Prop := mkInv {
  i_count : count s = nlive s + num d_hold (disps s);
  i_clear : flag s = false -> match fpt s with FNone | FLoad => nlive s = 0 | _ => True end;
  i_create : fpt s = FNone -> num (d_is DCreate) (disps s) > 0 -> flag s = true;
  i_done : fpt s <> FNone -> nact s = 0;
  i_freed : fpt s = FFreed -> nlive s = 0;
  i_mode : if seq then nact s <= 1 /\ (num (d_is DClear) (disps s) > 0 -> nlive s = 0)
           else num (d_is DDec) (disps s) = 0 /\ num (d_is DClear) (disps s) = 0;
  i_bad : bad s = false }.
Definition proper (seq : bool) (s : st) (e : event) : Prop := contract s e /\ patient s e /\ if seq then one_by_one s e else created s e.

Lemma act_is p (l : list disp) : num (d_is p) l <= num d_active l.
Proof. induction l as [|d l IH]; [cbn; lia|]. rewrite !num_cons. unfold d_is at 1, d_active at 1. destruct p, (d_pos d); cbn; lia. Qed.
Lemma act_hold (l : list disp) : num d_hold l <= num d_active l.
Proof. induction l as [|d l IH]; [cbn; lia|]. rewrite !num_cons. unfold d_hold at 1, d_active at 1. destruct (d_pos d); cbn; lia. Qed.

Lemma inv_init seq : inv seq init.
Proof. constructor; try (cbn; congruence); try reflexivity; try (cbn; lia). destruct seq; cbn; auto. Qed.

Arguments num : simpl never.
Ltac dnum s i d H :=
  pose proof (fun y => set_num d_hold (disps s) i d y H) as NH; pose proof (fun y => set_num (d_is DCreate) (disps s) i d y H) as NC;
  pose proof (fun y => set_num (d_is DDec) (disps s) i d y H) as ND; pose proof (fun y => set_num (d_is DClear) (disps s) i d y H) as NL;
  pose proof (fun y => set_num d_active (disps s) i d y H) as NA.

Lemma inv_d seq s i c : inv seq s -> proper seq s (EDStep i c) -> gone s = false -> inv seq (d_step s i c).
Proof.
  intros I (_ & _ & P) G. unfold d_step. destruct (nth_error (disps s) i) as [[p fr]|] eqn:E; [|exact I].
  dnum s i (mkD p fr) E. destruct I as [Ic Icl Icr Id If Im Ib].
  assert (p <> DDone -> nact s > 0 /\ fpt s = FNone) as AC.
  { intros N. assert (nact s > 0) as A. { apply num_pos. exists (mkD p fr). split; [eapply nth_error_In; eauto|]. unfold d_active. cbn. destruct p; congruence. }
    split; [exact A|]. destruct (fpt s); auto; exfalso; assert (nact s = 0) by (apply Id; discriminate); lia. }
  pose proof (act_is DCreate (disps s)) as L1. pose proof (act_hold (disps s)) as L2. pose proof (act_is DDec (disps s)) as L3. pose proof (act_is DClear (disps s)) as L4.
  assert (forall p' f' c' ts', p <> DDone ->
    c' = num t_live ts' + num d_hold (set_nth (disps s) i (mkD p' fr)) ->
    (f' = false -> num t_live ts' = 0) -> (num (d_is DCreate) (set_nth (disps s) i (mkD p' fr)) > 0 -> f' = true) ->
    (if seq then num d_active (set_nth (disps s) i (mkD p' fr)) <= 1 /\ (num (d_is DClear) (set_nth (disps s) i (mkD p' fr)) > 0 -> num t_live ts' = 0)
     else num (d_is DDec) (set_nth (disps s) i (mkD p' fr)) = 0 /\ num (d_is DClear) (set_nth (disps s) i (mkD p' fr)) = 0) ->
    inv seq (put_d s i (mkD p' fr) f' c' ts')) as K.
  { intros p' f' c' ts' N C1 C2 C3 C4. destruct (AC N) as [A F]. constructor; unfold put_d, nlive, nact; cbn; rewrite ?F; auto; congruence. }
  unfold nact, nlive in *.
  destruct p; [ | | | | | now constructor]; (destruct AC as [A F]; [discriminate|]); rewrite F in Icl.
  - specialize (NH (mkD DSet fr)); specialize (NC (mkD DSet fr)); specialize (ND (mkD DSet fr)); specialize (NL (mkD DSet fr)); specialize (NA (mkD DSet fr)).
    cbn in NH, NC, ND, NL, NA. apply K; auto; try discriminate; try lia.
    + intros X. apply Icr; auto. lia.
    + destruct seq; destruct Im as [M1 M2]; split; lia.
  - specialize (NH (mkD DCreate fr)); specialize (NC (mkD DCreate fr)); specialize (ND (mkD DCreate fr)); specialize (NL (mkD DCreate fr)); specialize (NA (mkD DCreate fr)).
    cbn in NH, NC, ND, NL, NA. apply K; auto; try discriminate; try lia.
    destruct seq; destruct Im as [M1 M2]; split; lia.
  - destruct c.
    + specialize (NH (mkD DDone fr)); specialize (NC (mkD DDone fr)); specialize (ND (mkD DDone fr)); specialize (NL (mkD DDone fr)); specialize (NA (mkD DDone fr)).
      cbn in NH, NC, ND, NL, NA.
      assert (num (d_is DCreate) (disps s) > 0) as DC by lia. specialize (Icr F DC).
      apply K; auto; try discriminate; rewrite ?num_app; change (num t_live [mkT TCheck fr]) with 1; try congruence; try lia.
      destruct seq; destruct Im as [M1 M2]; split; pose proof (act_is DClear (set_nth (disps s) i (mkD DDone fr))); lia.
    + destruct seq; [|cbn in P; discriminate].
      specialize (NH (mkD DDec fr)); specialize (NC (mkD DDec fr)); specialize (ND (mkD DDec fr)); specialize (NL (mkD DDec fr)); specialize (NA (mkD DDec fr)).
      cbn in NH, NC, ND, NL, NA. destruct Im as [M1 M2]. apply K; auto; try discriminate; try lia; try (intros X; apply Icr; auto; lia); try (split; lia).
  - destruct seq; [|cbn in ND; specialize (ND (mkD DDone fr)); cbn in ND; lia]. destruct Im as [M1 M2].
    destruct (Nat.eqb_spec (count s) 1) as [C|C].
    + specialize (NH (mkD DClear fr)); specialize (NC (mkD DClear fr)); specialize (ND (mkD DClear fr)); specialize (NL (mkD DClear fr)); specialize (NA (mkD DClear fr)).
      cbn in NH, NC, ND, NL, NA. apply K; auto; try discriminate; try lia; try (intros X; apply Icr; auto; lia); try (split; lia).
    + specialize (NH (mkD DDone fr)); specialize (NC (mkD DDone fr)); specialize (ND (mkD DDone fr)); specialize (NL (mkD DDone fr)); specialize (NA (mkD DDone fr)).
      cbn in NH, NC, ND, NL, NA. apply K; auto; try discriminate; try lia; try (intros X; apply Icr; auto; lia); try (split; lia).
  - destruct seq; [|cbn in NL; specialize (NL (mkD DDone fr)); cbn in NL; lia].
    specialize (NH (mkD DDone fr)); specialize (NC (mkD DDone fr)); specialize (ND (mkD DDone fr)); specialize (NL (mkD DDone fr)); specialize (NA (mkD DDone fr)).
    cbn in NH, NC, ND, NL, NA. destruct Im as [Im1 Im2]. assert (num t_live (threads s) = 0) as Z by (apply Im2; lia).
    apply K; auto; try discriminate; try lia.
    intros X. pose proof (act_is DCreate (set_nth (disps s) i (mkD DDone fr))). lia.
Qed.

Lemma inv_t seq s t r : inv seq s -> uses s (ETStep t r) && gone s = false -> inv seq (fst (t_step s t r)).
Proof.
  intros I U. unfold t_step. destruct (nth_error (threads s) t) as [[p fr]|] eqn:E; [|exact I].
  pose proof (fun y => set_num t_live (threads s) t (mkT p fr) y E) as NT. destruct I as [Ic Icl Icr Id If Im Ib]. unfold nlive, nact in *.
  assert (forall p' c', b2n (t_live (mkT p' fr)) <= b2n (t_live (mkT p fr)) -> c' + b2n (t_live (mkT p fr)) = count s + b2n (t_live (mkT p' fr)) ->
    inv seq (put_t s t (mkT p' fr) c')) as K.
  { intros p' c' L C. specialize (NT (mkT p' fr)).
    constructor; unfold put_t, nlive, nact; cbn; auto; try lia.
    - intros X. specialize (Icl X). destruct (fpt s); auto; lia.
    - intros X. specialize (If X). lia.
    - destruct seq; auto. destruct Im as [M1 M2]. split; auto. intros X. specialize (M2 X). lia. }
  assert (b2n (t_live (mkT p fr)) <= count s) as LC.
  { assert (b2n (t_live (mkT p fr)) <= num t_live (threads s)); [|lia]. destruct (t_live (mkT p fr)) eqn:T; [|cbn; lia].
    assert (num t_live (threads s) > 0); [|cbn; lia]. apply num_pos. exists (mkT p fr). split; [eapply nth_error_In; eauto|exact T]. }
  destruct p; cbn [fst]; try (apply K; cbn; try lia).
  - destruct (flag s); cbn; lia.
  - destruct (flag s); cbn; lia.
  - destruct r; cbn; lia.
  - destruct r; cbn; lia.
  - destruct complete; cbn; lia.
  - destruct complete; cbn; lia.
  - cbn in LC. lia.
  - now constructor.
Qed.

Lemma inv_step seq s e : inv seq s -> proper seq s e -> inv seq (fst (step s e)).
Proof.
  intros I P. unfold step. destruct (gone s && uses s e) eqn:U.
  - exfalso. apply andb_prop in U as [G U]. assert (fpt s = FFreed) as F by (unfold gone in G; now destruct (fpt s)).
    destruct I as [Ic Icl Icr Id If Im Ib]. destruct P as (C & _). destruct e; cbn in U, C; try discriminate.
    + congruence.
    + destruct (nth_error (disps s) i) as [d|] eqn:E; [|discriminate]. assert (nact s = 0) as Z by (apply Id; congruence).
      unfold nact in Z. assert (d_active d = false) by (apply (proj1 (num_zero _ _) Z); eapply nth_error_In; eauto). congruence.
    + destruct (nth_error (threads s) t) as [d|] eqn:E; [|discriminate]. specialize (If F).
      assert (t_live d = false) by (apply (proj1 (num_zero _ _) If); eapply nth_error_In; eauto). congruence.
    + destruct C. congruence.
  - destruct e as [fr|i c|t r| |to]; cbn [fst].
    + destruct P as (C & _ & O). cbn in C. assert (gone s = false) as G by (unfold gone; now rewrite C).
      destruct I as [Ic Icl Icr Id If Im Ib]. unfold nlive, nact in *.
      constructor; unfold nlive, nact; cbn; rewrite ?C, ?num_app in *; change (num d_hold [mkD DInc fr]) with 0 in *; change (num (d_is DCreate) [mkD DInc fr]) with 0 in *;
        change (num (d_is DClear) [mkD DInc fr]) with 0 in *; change (num (d_is DDec) [mkD DInc fr]) with 0 in *; change (num d_active [mkD DInc fr]) with 1 in *;
        try congruence; try lia; auto.
      * intros X Y. apply Icr; auto. lia.
      * destruct seq; [|split; lia]. cbn in O. rewrite in_call_act in O. unfold nact in O. destruct Im as [M1 M2]. split; [lia|]. intros X. apply M2. lia.
    + destruct (gone s) eqn:G.
      * cbn [andb] in U. unfold d_step. cbn [uses] in U. destruct (nth_error (disps s) i) as [[p fr]|]; [|exact I]. unfold d_active in U. cbn in U. destruct p; try discriminate. exact I.
      * now apply inv_d.
    + apply inv_t; [exact I|]. rewrite andb_comm. exact U.
    + destruct P as ((C1 & C2) & _). destruct I as [Ic Icl Icr Id If Im Ib]. rewrite in_call_act in C2.
      constructor; unfold nlive, nact in *; cbn; rewrite ?C1 in *; auto; try congruence. intros _. lia.
    + destruct P as (_ & T & _). cbn in T. subst to. destruct I as [Ic Icl Icr Id If Im Ib]. unfold f_step. unfold nlive, nact in *.
      destruct (fpt s) eqn:F; try (constructor; unfold nlive, nact; rewrite ?F; auto; fail).
      * destruct (flag s) eqn:FL; constructor; unfold nlive, nact; cbn; auto; try congruence; intros _; apply Id; congruence.
      * constructor; unfold nlive, nact; cbn; auto; try congruence; intros _; apply Id; congruence.
      * destruct (Nat.eqb_spec (count s) 0) as [Z|Z]; [|constructor; unfold nlive, nact; rewrite ?F; auto].
        constructor; unfold nlive, nact; cbn; auto; try congruence; try lia; intros _; apply Id; congruence.
Qed.
Lemma inv_run seq tr : forall s, inv seq s -> along (proper seq) s tr -> inv seq (fst (run s tr)).
Proof.
  induction tr as [|e r IH]; intros s I A; cbn [run]; [exact I|]. destruct A as [P A]. pose proof (inv_step seq s e I P) as I1.
  destruct (step s e) as [s1 a1]. cbn [fst] in *. specialize (IH _ I1 A). destruct (run s1 r) as [s2 a2]. exact IH.
Qed.
Lemma along_imp (P Q : st -> event -> Prop) : (forall s e, P s e -> Q s e) -> forall tr s, along P s tr -> along Q s tr.
Proof. intros H. induction tr as [|e r IH]; intros s A; cbn in *; [exact Logic.I|]. destruct A. split; auto. Qed.
Lemma along_and (P Q : st -> event -> Prop) : forall tr s, along P s tr -> along Q s tr -> along (fun s e => P s e /\ Q s e) s tr.
Proof. induction tr as [|e r IH]; intros s A B; cbn in *; [exact Logic.I|]. destruct A, B. repeat split; auto. Qed.
Lemma along_proper tr s : along contract s tr -> along patient s tr -> along one_by_one s tr \/ along created s tr -> exists seq, along (proper seq) s tr.
Proof.
  intros A B [C|C]; [exists true|exists false]; generalize (along_and _ _ _ _ (along_and _ _ _ _ A B) C); apply along_imp; intros s' e ((X & Y) & Z); repeat split; auto; apply X.
Qed.

(* ------------------------------------------------------------------ *)
(** ** C146: threads and the session *)

(** The session is not used after it was freed, if nc_session_free() does not give up waiting and either the calls of
    nc_recv_notif_dispatch() are one by one or pthread_create() succeeds. *)
Theorem c146_no_use_after_free_partial tr :
  along contract init tr -> along patient init tr -> along one_by_one init tr \/ along created init tr -> bad (fst (run init tr)) = false.
Proof. intros A B C. destruct (along_proper tr init A B C) as (seq & P). exact (i_bad _ _ (inv_run seq tr init (inv_init seq) P)). Qed.
(** The session is freed only when no thread has still to use it. *)
Theorem c146_freed_last_partial tr :
  along contract init tr -> along patient init tr -> along one_by_one init tr \/ along created init tr ->
  fpt (fst (run init tr)) = FFreed -> ~ runs (fst (run init tr)).
Proof.
  intros A B C F. destruct (along_proper tr init A B C) as (seq & P). pose proof (i_freed _ _ (inv_run seq tr init (inv_init seq) P) F). rewrite runs_live. lia.
Qed.
(** Both conditions are needed.  Two calls of which one fails: it clears the flag the other has set, and nc_session_free() does
    not wait for the thread. *)
Definition two_calls : list event :=
  [EDisp true; EDStep 0 true; EDStep 0 true; EDStep 0 false; EDStep 0 true;      (* the first: the thread is not created, the count is 0 *)
   EDisp true; EDStep 1 true; EDStep 1 true; EDStep 1 true; ETStep 0 RNothing;   (* the second sets the flag, its thread has read it *)
   EDStep 0 true;                                                                (* the first clears the flag *)
   EFree; EFStep false; ETStep 0 RNothing].
Theorem c146_two_calls_refuted :
  ~ (forall tr, along contract init tr -> along patient init tr -> bad (fst (run init tr)) = false).
Proof.
  intros H. specialize (H two_calls). vm_compute in H. assert (true = false); [|discriminate]. apply H.
  - repeat split; auto. intros (d & I & N); vm_compute in I; destruct I as [<-|[<-|[]]]; apply N; reflexivity.
  - repeat split.
Qed.
(** A callback that takes longer than a second. *)
Definition slow_callback : list event :=
  [EDisp false; EDStep 0 true; EDStep 0 true; EDStep 0 true; ETStep 0 RNothing; ETStep 0 (RNotif 7 false); EFree; EFStep false; EFStep false; EFStep true;
   ETStep 0 RNothing; ETStep 0 RNothing].
Theorem c146_slow_callback_refuted :
  ~ (forall tr, along contract init tr -> along one_by_one init tr -> along created init tr -> bad (fst (run init tr)) = false).
Proof.
  intros H. specialize (H slow_callback). vm_compute in H. assert (true = false); [|discriminate]. apply H.
  - repeat split; auto. intros (d & I & N); vm_compute in I; destruct I as [<-|[]]; apply N; reflexivity.
  - repeat split; auto. intros (d & [] & _).
  - repeat split.
Qed.
(** Two threads, one of which cannot be created, and the session is freed. *)
Definition good_run : list event :=
  [EDisp true; EDStep 0 true; EDStep 0 true; EDStep 0 true; EDisp true; EDStep 1 true; EDStep 1 true; EDStep 1 false; EDStep 1 true;
   ETStep 0 RNothing; ETStep 0 (RNotif 7 false); EFree; EFStep false; EFStep false; ETStep 0 RNothing; EFStep false; ETStep 0 RNothing; ETStep 0 RNothing;
   EFStep false; ETStep 0 RNothing].
Example c146_case : along contract init good_run /\ along patient init good_run /\ along one_by_one init good_run /\
  fpt (fst (run init good_run)) = FFreed /\ snd (run init good_run) = [AClb 0 7 false; AFree 0].
Proof.
  repeat split; auto.
  - intros (d & I & N); vm_compute in I; destruct I as [<-|[<-|[]]]; apply N; reflexivity.
  - intros (d & [] & _).
  - intros (d & I & N); vm_compute in I; destruct I as [<-|[]]; apply N; reflexivity.
Qed.

(* ------------------------------------------------------------------ *)
(** ** C147: whether a thread is running *)

(** nc_session_ntf_thread_running() gives 0 only if there is no thread running, until the session is being freed. *)
Theorem c147_not_running_partial tr :
  along contract init tr -> along patient init tr -> along one_by_one init tr \/ along created init tr ->
  fpt (fst (run init tr)) = FNone -> thread_running (fst (run init tr)) = false -> ~ runs (fst (run init tr)).
Proof.
  intros A B C F T. destruct (along_proper tr init A B C) as (seq & P). pose proof (i_clear _ _ (inv_run seq tr init (inv_init seq) P) T) as Z. rewrite F in Z.
  rewrite runs_live. lia.
Qed.
(** It gives 1 only if a thread runs or is being created, as long as no thread ends by itself. *)
Theorem c147_running_partial tr :
  along contract init tr -> along patient init tr -> along created init tr -> along going_on init tr ->
  fpt (fst (run init tr)) = FNone -> thread_running (fst (run init tr)) = true -> runs (fst (run init tr)) \/ in_call (fst (run init tr)).
Proof.
  intros A B C G F T. rewrite runs_live, in_call_act.
  assert (forall s, inv false s -> (fpt s = FNone -> (flag s = true -> nlive s + nact s > 0) /\
     (forall x, In x (threads s) -> flag s = true /\ match t_pos x with TCheck | TRecv | TCall _ false => True | _ => False end)) ->
     along contract s tr -> along patient s tr -> along created s tr -> along going_on s tr ->
     fpt (fst (run s tr)) = FNone -> flag (fst (run s tr)) = true -> nlive (fst (run s tr)) + nact (fst (run s tr)) > 0) as K.
  { clear. induction tr as [|e r IH]; intros s I J A B C G; cbn [run].
    - intros F T. now apply J.
    - destruct A as [A1 A], B as [B1 B], C as [C1 C], G as [G1 G]. pose proof (inv_step false s e I (conj A1 (conj B1 C1))) as I1.
      assert (fpt (fst (step s e)) = FNone -> (flag (fst (step s e)) = true -> nlive (fst (step s e)) + nact (fst (step s e)) > 0) /\
        (forall x, In x (threads (fst (step s e))) -> flag (fst (step s e)) = true /\ match t_pos x with TCheck | TRecv | TCall _ false => True | _ => False end)) as J1.
      { clear IH A B C G I1. unfold step. destruct (gone s && uses s e) eqn:U.
        { intros F. cbn in F. unfold gone in U. rewrite F in U. discriminate. }
        destruct e as [fr|i c|t rr| |to]; cbn [fst].
        - cbn. intros F. destruct (J F) as [J1 J2]. split; [|exact J2]. intros _. unfold nact. cbn. rewrite num_app. change (num d_active [mkD DInc fr]) with 1. lia.
        - intros F. unfold d_step in *. destruct (nth_error (disps s) i) as [[p fr]|] eqn:E; [|now apply J].
          pose proof (fun y => set_num d_active (disps s) i (mkD p fr) y E) as NA. pose proof (fun y => set_num (d_is DCreate) (disps s) i (mkD p fr) y E) as NC.
          pose proof (fun y => set_num (d_is DDec) (disps s) i (mkD p fr) y E) as ND. pose proof (fun y => set_num (d_is DClear) (disps s) i (mkD p fr) y E) as NL.
          destruct I as [Ic Icl Icr Id If [Im1 Im2] Ib]. unfold nlive, nact in *. cbn in C1. subst c. destruct p; cbn in *.
          + destruct (J F) as [J1 J2]. split; [|exact J2]. intros _. pose proof (NA (mkD DDone fr)) as NB. specialize (NA (mkD DSet fr)). cbn in NA, NB. lia.
          + destruct (J F) as [J1 J2]. split; [|intros x X; split; [reflexivity|now apply J2]]. intros _. pose proof (NA (mkD DDone fr)) as NB. specialize (NA (mkD DCreate fr)). cbn in NA, NB. lia.
          + destruct (J F) as [J1 J2]. specialize (NC (mkD DDone fr)). cbn in NC. assert (flag s = true) as FT by (apply Icr; [exact F|lia]).
            split; [intros _; rewrite num_app; change (num t_live [mkT TCheck fr]) with 1; lia|].
            intros x X. split; [exact FT|]. apply in_app_or in X as [X|[<-|[]]]; [now apply J2|exact Logic.I].
          + specialize (ND (mkD DDone fr)). cbn in ND. lia.
          + specialize (NL (mkD DDone fr)). cbn in NL. lia.
          + now apply J.
        - intros F. unfold t_step in *. destruct (nth_error (threads s) t) as [[p fr]|] eqn:E; [|now apply J].
          pose proof (fun y => set_num t_live (threads s) t (mkT p fr) y E) as NT.
          assert (fpt s = FNone) as F0 by (destruct p; exact F).
          destruct (J F0) as [J1 J2]. destruct (J2 _ (nth_error_In _ _ E)) as [FT PS]. cbn in PS. unfold nlive, nact in *.
          destruct p as [| |n [|]| | |]; try contradiction; cbn [fst put_t flag threads disps].
          + rewrite FT. split; [intros _; specialize (NT (mkT TRecv fr)); cbn in NT; specialize (J1 FT); lia|].
            intros x X. apply set_in in X as [->|X]; [split; [reflexivity|exact Logic.I]|]. split; [reflexivity|]. now apply J2.
          + assert (match (match rr with RNotif n c => TCall n c | RNothing => TCheck | RBroken => TEnd end) with TCheck | TRecv | TCall _ false => True | _ => False end) as PP
              by (destruct rr as [n [|]| |]; cbn in G1; auto; contradiction).
            split.
            * intros _. specialize (NT (mkT (match rr with RNotif n c => TCall n c | RNothing => TCheck | RBroken => TEnd end) fr)). specialize (J1 FT).
              destruct rr as [n [|]| |]; cbn in NT, PP; try contradiction; lia.
            * intros x X. apply set_in in X as [->|X]; [split; [exact FT|exact PP]|now apply J2].
          + split; [intros _; specialize (NT (mkT TCheck fr)); cbn in NT; specialize (J1 FT); lia|].
            intros x X. apply set_in in X as [->|X]; [split; [exact FT|exact Logic.I]|now apply J2].
        - cbn. destruct (fpt s); discriminate.
        - intros F. unfold f_step in *. destruct (fpt s) eqn:E; cbn in *; try congruence; try (now apply J).
          + destruct (flag s); discriminate.
          + destruct (Nat.eqb (count s) 0), to; cbn in *; congruence. }
      specialize (IH _ I1 J1 A B C G). destruct (step s e) as [s1 a1]. cbn [fst] in *. destruct (run s1 r) as [s2 a2]. exact IH. }
  assert (nlive (fst (run init tr)) + nact (fst (run init tr)) > 0); [|lia].
  apply K; auto.
  - apply inv_init.
  - intros _. split; [discriminate|intros x []].
Qed.
(** After notificationComplete the thread has ended, and the function still says 1. *)
Definition completed : list event :=
  [EDisp false; EDStep 0 true; EDStep 0 true; EDStep 0 true; ETStep 0 RNothing; ETStep 0 (RNotif 7 true); ETStep 0 RNothing; ETStep 0 RNothing; ETStep 0 RNothing].
Theorem c147_running_refuted :
  ~ (forall tr, along contract init tr -> along patient init tr -> along one_by_one init tr -> along created init tr ->
       fpt (fst (run init tr)) = FNone -> thread_running (fst (run init tr)) = true -> runs (fst (run init tr)) \/ in_call (fst (run init tr))).
Proof.
  intros H. specialize (H completed). rewrite runs_live, in_call_act in H. vm_compute in H. destruct H as [H|H]; try lia; try reflexivity; try (repeat split; fail).
  repeat split. intros (d & [] & _).
Qed.

(* ------------------------------------------------------------------ *)
(** ** C148: the callbacks of a thread *)

(** The callbacks of the thread [t], in their order. *)
Definition of_thread (t : nat) (a : act) : bool := match a with AClb u _ _ => Nat.eqb u t | AFree u => Nat.eqb u t end.
Definition clb_of (t : nat) (p : nat * bool) : act := AClb t (fst p) (snd p).
Definition ended (s : st) (t : nat) : Prop := exists x, nth_error (threads s) t = Some x /\ t_pos x = TGone.
(** A thread gets notifications, of which only the last can be notificationComplete; when it ends, its user data are
    freed, if they are to be, once and after all the notifications; a call that created no thread frees nothing. *)
Definition thread_acts (s : st) (t : nat) (l : list act) : Prop :=
  exists ns fin, l = map (clb_of t) ns ++ fin /\
    (forall a b, ns = a ++ b -> b <> [] -> Forall (fun p => snd p = false) a) /\
    match nth_error (threads s) t with
    | None => ns = [] /\ fin = []
    | Some x => match t_pos x with
                | TGone => fin = if t_free x then [AFree t] else []
                | TEnd | TData => fin = []
                | _ => fin = [] /\ Forall (fun p => snd p = false) ns
                end
    end.
Lemma nth_set {A} (l : list A) i j x y : nth_error l i = Some x -> nth_error (set_nth l i y) j = if Nat.eqb i j then Some y else nth_error l j.
Proof.
  revert i j. induction l as [|a l IH]; intros [|i] [|j] H; cbn in H; try discriminate; try reflexivity.
  unfold set_nth in *. change (firstn (S i) (a :: l)) with (a :: firstn i l). change (skipn (S (S i)) (a :: l)) with (skipn (S i) l). cbn [app nth_error]. change (Nat.eqb (S i) (S j)) with (Nat.eqb i j). now apply IH.
Qed.
Lemma all_prefix (ns : list (nat * bool)) : Forall (fun p => snd p = false) ns -> forall a b, ns = a ++ b -> b <> [] -> Forall (fun p => snd p = false) a.
Proof. intros F a b -> _. now apply Forall_app in F. Qed.
Lemma snoc_prefix (ns : list (nat * bool)) p : Forall (fun p => snd p = false) ns -> forall a b, ns ++ [p] = a ++ b -> b <> [] -> Forall (fun p => snd p = false) a.
Proof.
  intros F a b E N. destruct (exists_last N) as (b' & q & ->). rewrite app_assoc in E. apply app_inj_tail in E as [-> _]. now apply Forall_app in F.
Qed.
Theorem c148_callbacks tr t : thread_acts (fst (run init tr)) t (filter (of_thread t) (snd (run init tr))).
Proof.
  assert (forall s acts, thread_acts s t acts -> thread_acts (fst (run s tr)) t (acts ++ filter (of_thread t) (snd (run s tr)))) as K.
  { induction tr as [|e r IH]; intros s acts H; cbn [run].
    - cbn. now rewrite app_nil_r.
    - destruct (step s e) as [s1 a1] eqn:E. specialize (IH s1 (acts ++ filter (of_thread t) a1)).
      destruct (run s1 r) as [s2 a2]. cbn [fst snd] in *. rewrite filter_app, app_assoc. apply IH. clear IH.
      unfold step in E. destruct (gone s && uses s e); [injection E as <- <-; cbn; rewrite app_nil_r; exact H|].
      destruct e as [fr|i c|u rr| |to]; [injection E as <- <-| injection E as <- <-| |injection E as <- <-|injection E as <- <-]; cbn [filter]; rewrite ?app_nil_r.
      + exact H.
      + unfold d_step. destruct (nth_error (disps s) i) as [[p fr]|] eqn:E; [|exact H].
        destruct p; try exact H; [|destruct (Nat.eqb (count s) 1); exact H]. destruct c; [|exact H].
        unfold thread_acts in *. destruct H as (ns & fin & -> & H1 & H2). exists ns, fin. split; [reflexivity|]. split; [exact H1|]. cbn [put_d threads].
        destruct (nth_error (threads s) t) as [x|] eqn:X.
        * rewrite nth_error_app1 by (apply nth_error_Some; congruence). now rewrite X.
        * destruct H2 as [-> ->]. apply nth_error_None in X. rewrite nth_error_app2 by exact X. destruct (t - length (threads s)) as [|k]; cbn; [split; [reflexivity|constructor]|destruct k; cbn; auto].
      + unfold t_step in E. destruct (nth_error (threads s) u) as [[p fr]|] eqn:X; [|injection E as <- <-; cbn; rewrite app_nil_r; exact H].
        destruct (Nat.eqb_spec u t) as [->|N].
        * unfold thread_acts in *. destruct H as (ns & fin & -> & H1 & H2). rewrite X in H2. cbn [t_pos t_free] in H2.
          destruct p as [| |n c| | |]; injection E as <- <-; cbn [filter of_thread]; rewrite ?app_nil_r; cbn [put_t threads]; rewrite ?(nth_set _ _ _ _ _ X), ?Nat.eqb_refl, ?X; cbn [t_pos t_free].
          -- destruct H2 as [-> F]. exists ns, []. split; [reflexivity|]. split; [exact H1|]. destruct (flag s); auto.
          -- destruct H2 as [-> F]. exists ns, []. split; [reflexivity|]. split; [exact H1|]. destruct rr; auto.
          -- destruct H2 as [-> F]. exists (ns ++ [(n, c)]), []. rewrite map_app, !app_nil_r. split; [reflexivity|]. split; [now apply snoc_prefix|].
             destruct c; [reflexivity|]. split; [reflexivity|]. apply Forall_app. split; [exact F|]. constructor; [reflexivity|constructor].
          -- exists ns, []. subst fin. rewrite !app_nil_r. auto.
          -- subst fin. exists ns, (if fr then [AFree t] else []). rewrite app_nil_r. split; [|split; [exact H1|reflexivity]].
             destruct fr; cbn; rewrite ?Nat.eqb_refl; [reflexivity|now rewrite app_nil_r].
          -- exists ns, fin. auto.
        * assert (filter (of_thread t) a1 = []) as ->.
          { destruct p; injection E as _ <-; cbn; rewrite ?(proj2 (Nat.eqb_neq u t) N); auto. destruct fr; cbn; rewrite ?(proj2 (Nat.eqb_neq u t) N); auto. }
          rewrite app_nil_r. assert (nth_error (threads s1) t = nth_error (threads s) t) as ET.
          { destruct p; injection E as <- _; cbn [put_t threads]; rewrite ?(nth_set _ _ _ _ _ X), ?(proj2 (Nat.eqb_neq u t) N); auto. }
          unfold thread_acts in *. now rewrite ET.
      + exact H.
      + unfold f_step. destruct (fpt s); try exact H; [destruct (flag s)|destruct (Nat.eqb (count s) 0), to]; exact H. }
  specialize (K init []). apply K. exists [], []. split; [reflexivity|]. split; [intros a b E N; destruct a; [constructor|discriminate]|]. destruct t; cbn; auto.
Qed.
Example c148_case : filter (of_thread 0) (snd (run init (completed ++ [ETStep 0 RNothing]))) = [AClb 0 7 true] /\ ended (fst (run init completed)) 0.
Proof. split; [reflexivity|]. eexists. split; reflexivity. Qed.

(** The notifications nc_recv_notif() gave a thread. *)
Definition receiving (s : st) (t : nat) : bool :=
  match fpt s, nth_error (threads s) t with FFreed, _ => false | _, Some (mkT TRecv _) => true | _, _ => false end.
Fixpoint received (t : nat) (s : st) (tr : list event) : list (nat * bool) :=
  match tr with
  | [] => []
  | e :: r => (match e with ETStep u (RNotif n c) => if Nat.eqb u t && receiving s t then [(n, c)] else [] | _ => [] end)
              ++ received t (fst (step s e)) r
  end.
Definition is_clb (t : nat) (a : act) : bool := match a with AClb u _ _ => Nat.eqb u t | _ => false end.
(** The thread has received a notification and is about to call the callback. *)
Definition about (s : st) (t : nat) : list (nat * bool) := match nth_error (threads s) t with Some (mkT (TCall n c) _) => [(n, c)] | _ => [] end.
Lemma received_step t s e :
  map (clb_of t) (about s t) ++ map (clb_of t) (match e with ETStep u (RNotif n c) => if Nat.eqb u t && receiving s t then [(n, c)] else [] | _ => [] end)
  = filter (is_clb t) (snd (step s e)) ++ map (clb_of t) (about (fst (step s e)) t).
Proof.
  unfold step. destruct (gone s && uses s e) eqn:U.
  - cbn [fst snd filter]. change (about (set_bad s) t) with (about s t). apply andb_prop in U as [G U]. unfold gone in G. unfold receiving. destruct (fpt s); try discriminate.
    destruct e as [fr|i c|u [n c| |]| |to]; rewrite ?andb_false_r; apply app_nil_r.
  - destruct e as [fr|i c|u r| |to]; cbn [fst snd filter]; rewrite ?app_nil_r; try reflexivity.
    + unfold d_step. destruct (nth_error (disps s) i) as [[p fr]|]; [|reflexivity]. destruct p; try reflexivity; [|now destruct (Nat.eqb (count s) 1)].
      destruct c; [|reflexivity]. unfold about. cbn [put_d threads]. destruct (nth_error (threads s) t) as [x|] eqn:X.
      * now rewrite nth_error_app1, X by (apply nth_error_Some; congruence).
      * apply nth_error_None in X. rewrite nth_error_app2 by exact X. destruct (t - length (threads s)) as [|k]; cbn; [reflexivity|now destruct k].
    + assert (receiving s t = match nth_error (threads s) t with Some (mkT TRecv _) => negb (gone s) | _ => false end) as R.
      { unfold receiving, gone. destruct (fpt s), (nth_error (threads s) t) as [[[| |? ?| | |] ?]|]; reflexivity. }
      unfold t_step. destruct (nth_error (threads s) u) as [[p fr]|] eqn:X.
      * destruct (Nat.eqb_spec u t) as [->|N].
        -- rewrite R, X. unfold about. rewrite X. unfold uses in U. rewrite X in U. unfold t_live in U. cbn [t_pos] in U.
           destruct p as [| |n c| | |]; cbn [fst snd filter put_t threads app map is_clb]; rewrite ?(nth_set _ _ _ _ _ X), ?Nat.eqb_refl, ?X; cbn [andb app map]; try (now destruct r).
           ++ now destruct (flag s), r.
           ++ rewrite andb_true_r in U. rewrite U. now destruct r.
           ++ now destruct c, r.
           ++ now destruct fr, r.
        -- assert (filter (is_clb t) (snd (t_step s u r)) = []) as Z.
           { unfold t_step. rewrite X. destruct p as [| |n c| | |]; cbn; try reflexivity; [destruct (Nat.eqb_spec u t); [contradiction|reflexivity]|now destruct fr]. }
           unfold t_step in Z. rewrite X in Z. rewrite Z. cbn [andb app].
           assert (match r with RNotif n c => if false && receiving s t then [(n, c)] else [] | _ => [] end = []) as Y by now destruct r.
           cbn [andb] in Y. rewrite Y. cbn [map]. rewrite app_nil_r. unfold about.
           destruct p as [| |n c| | |]; cbn [fst put_t threads]; rewrite ?(nth_set _ _ _ _ _ X); destruct (Nat.eqb_spec u t); congruence || reflexivity.
      * cbn [fst snd filter app]. rewrite R. destruct (Nat.eqb_spec u t) as [->|N]; cbn [andb]; [rewrite X|]; destruct r; cbn [map]; apply app_nil_r.
    + unfold f_step. destruct (fpt s); try reflexivity; [now destruct (flag s)|]. destruct (Nat.eqb (count s) 0); [reflexivity|]. now destruct to.
Qed.
(** Each notification a thread received is passed to its callback, once and in their order; at most the last one is still to be. *)
Theorem c148_each tr t :
  map (clb_of t) (received t init tr) = filter (is_clb t) (snd (run init tr)) ++ map (clb_of t) (about (fst (run init tr)) t).
Proof.
  assert (forall s, map (clb_of t) (about s t) ++ map (clb_of t) (received t s tr)
                    = filter (is_clb t) (snd (run s tr)) ++ map (clb_of t) (about (fst (run s tr)) t)) as K.
  { induction tr as [|e r IH]; intros s; cbn [run received]; [cbn; apply app_nil_r|].
    pose proof (received_step t s e) as E. destruct (step s e) as [s1 a1]. cbn [fst snd] in *. specialize (IH s1). destruct (run s1 r) as [s2 a2]. cbn [fst snd] in *.
    rewrite map_app, app_assoc, E, filter_app, <- app_assoc, IH. now rewrite app_assoc. }
  rewrite <- (K init). unfold about, init. cbn [threads]. now destruct t.
Qed.

(* ------------------------------------------------------------------ *)
(** ** C149: threads stop *)

(** Callbacks of a thread in a list. *)
Definition clbs (t : nat) (l : list act) : nat := num (fun a => match a with AClb u _ _ => Nat.eqb u t | _ => false end) l.
(** nc_session_free() has told the threads to quit. *)
Definition told (s : st) : Prop := fpt s = FWait \/ fpt s = FFreed.
Definition inv3 (s : st) : Prop := (fpt s <> FNone -> nact s = 0) /\ (told s -> flag s = false).
Lemma inv3_step s e : inv3 s -> contract s e -> inv3 (fst (step s e)).
Proof.
  intros [I1 I2] C. unfold step. destruct (gone s && uses s e) eqn:U; [split; auto|]. destruct e as [fr|i c|t r| |to]; cbn [fst].
  - cbn in C. unfold inv3, told, nact. cbn. rewrite C. split; [congruence|]. intros [H|H]; discriminate.
  - assert (fpt s <> FNone -> d_step s i c = s) as SAME.
    { intros N. unfold d_step. destruct (nth_error (disps s) i) as [[p fr]|] eqn:E; [|reflexivity].
      assert (nact s = 0) as Z by auto.
      assert (d_active (mkD p fr) = false) as X by (apply (proj1 (num_zero _ _) Z); eapply nth_error_In; eauto). destruct p; try discriminate. reflexivity. }
    destruct (fpt s) eqn:F; try (rewrite SAME by discriminate; split; [rewrite F|]; auto; fail).
    assert (fpt (d_step s i c) = FNone) as FE.
    { unfold d_step. destruct (nth_error (disps s) i) as [[p fr]|]; [|exact F]. destruct p, c; try destruct (Nat.eqb (count s) 1); exact F. }
    unfold inv3, told. rewrite FE. split; [congruence|]. intros [H|H]; discriminate.
  - unfold t_step. destruct (nth_error (threads s) t) as [[p fr]|]; [|split; auto]. destruct p; split; auto.
  - cbn in C. destruct C as [C1 C2]. rewrite in_call_act in C2. unfold inv3, told, nact in *. cbn. rewrite C1. split; [lia|]. intros [H|H]; discriminate.
  - unfold f_step. unfold inv3, told, nact in *. destruct (fpt s) eqn:F; cbn; rewrite ?F.
    + split; auto.
    + destruct (flag s) eqn:FL; cbn; split; auto; try (intros _; apply I1; congruence). intros [H|H]; discriminate.
    + split; auto. intros _. apply I1. congruence.
    + destruct (Nat.eqb (count s) 0); [|destruct to]; cbn; rewrite ?F; split; auto; intros _; apply I1; congruence.
    + split; auto.
Qed.
Lemma inv3_run tr : forall s, inv3 s -> along contract s tr -> inv3 (fst (run s tr)).
Proof.
  induction tr as [|e r IH]; intros s I A; cbn [run]; [exact I|]. destruct A as [P A]. pose proof (inv3_step s e I P) as I1.
  destruct (step s e) as [s1 a1]. cbn [fst] in *. specialize (IH _ I1 A). destruct (run s1 r) as [s2 a2]. exact IH.
Qed.
Lemma along_app P tr1 tr2 : forall s, along P s (tr1 ++ tr2) <-> along P s tr1 /\ along P (fst (run s tr1)) tr2.
Proof.
  induction tr1 as [|e r IH]; intros s; cbn [app along run]; [cbn; tauto|]. rewrite IH. destruct (step s e) as [s1 a1]. cbn [fst].
  destruct (run s1 r) as [s2 a2]. cbn. tauto.
Qed.
(** Once nc_session_free() has told the threads to quit, each calls its callback at most once more. *)
Theorem c149_quit tr1 tr2 t : along contract init (tr1 ++ tr2) -> told (fst (run init tr1)) ->
  clbs t (snd (run (fst (run init tr1)) tr2)) <= 1.
Proof.
  intros A F. apply along_app in A as [A1 A]. assert (inv3 init) as I0 by (split; [intros H; now contradiction H|intros [H|H]; discriminate]).
  pose proof (inv3_run tr1 init I0 A1) as [I1 I2]. clear I0 A1. set (s := fst (run init tr1)) in *. clearbody s.
  assert (flag s = false) as FL by auto. assert (nact s = 0) as D by (apply I1; destruct F; congruence). clear I1 I2.
  set (w := fun s : st => match nth_error (threads s) t with Some x => match t_pos x with TRecv | TCall _ _ => 1 | _ => 0 end | None => 0 end).
  enough (clbs t (snd (run s tr2)) <= w s) as H. { unfold w in H. destruct (nth_error (threads s) t) as [x|]; [destruct (t_pos x)|]; lia. }
  revert s F FL D A. induction tr2 as [|e r IH]; intros s F FL D A; cbn [run]; [unfold clbs, num; cbn; lia|]. destruct A as [A1 A].
  assert (let s1 := fst (step s e) in (fpt s1 = FWait \/ fpt s1 = FFreed) /\ flag s1 = false /\ nact s1 = 0 /\ clbs t (snd (step s e)) + w s1 <= w s) as (F1 & FL1 & D1 & W).
  { cbv zeta. unfold step. destruct (gone s && uses s e); [cbn; repeat split; auto|].
    destruct e as [fr|i c|u rr| |to]; cbn [fst snd].
    - cbn in A1. destruct F; congruence.
    - assert (d_step s i c = s) as ->; [|repeat split; auto]. unfold d_step. destruct (nth_error (disps s) i) as [[p fr]|] eqn:E; [|reflexivity].
      assert (d_active (mkD p fr) = false) as X by (apply (proj1 (num_zero _ _) D); eapply nth_error_In; eauto). destruct p; try discriminate. reflexivity.
    - unfold t_step. destruct (nth_error (threads s) u) as [[p fr]|] eqn:X; [|cbn; repeat split; auto].
      assert (forall x c a, (clbs t a + (if Nat.eqb u t then match t_pos x with TRecv | TCall _ _ => 1 | _ => 0 end else w s) <= w s) ->
        let q := (put_t s u x c, a) in (fpt (fst q) = FWait \/ fpt (fst q) = FFreed) /\ flag (fst q) = false /\ nact (fst q) = 0 /\ clbs t (snd q) + w (fst q) <= w s) as P.
      { intros x c a H. cbn. repeat split; auto. unfold w at 1. cbn [put_t threads]. rewrite (nth_set _ _ _ _ _ X). unfold w in H |- *.
        destruct (Nat.eqb u t); exact H. }
      assert (Nat.eqb u t = true -> w s = match p with TRecv | TCall _ _ => 1 | _ => 0 end) as WS.
      { intros E. apply Nat.eqb_eq in E as ->. unfold w. now rewrite X. }
      rewrite FL. destruct p as [| |n c| | |]; try (apply P); cbn [t_pos]; unfold clbs, num; cbn [filter length];
        try (destruct (Nat.eqb u t) eqn:E; [rewrite (WS eq_refl)|]; cbn; lia).
      + destruct (Nat.eqb u t) eqn:E; [rewrite (WS eq_refl)|]; destruct rr; cbn; lia.
      + destruct (Nat.eqb u t) eqn:E; [rewrite (WS eq_refl)|]; destruct c; cbn; lia.
      + destruct fr; cbn; destruct (Nat.eqb u t) eqn:E; try rewrite (WS eq_refl); lia.
      + cbn. repeat split; auto.
    - cbn in A1. destruct A1, F; congruence.
    - unfold f_step. destruct F as [F|F]; rewrite F; cbn; auto. destruct (Nat.eqb (count s) 0); [cbn; auto|]. destruct to; cbn; rewrite ?F; auto. }
  destruct (step s e) as [s1 a1]. cbn [fst snd] in *. specialize (IH s1 F1 FL1 D1 A). destruct (run s1 r) as [s2 a2]. cbn [fst snd] in *.
  unfold clbs in *. rewrite num_app. lia.
Qed.
Example c149_case : told (fst (run init (firstn 9 slow_callback))) /\ clbs 0 (snd (run (fst (run init (firstn 9 slow_callback))) [ETStep 0 RNothing; ETStep 0 RNothing])) = 1.
Proof. split; [now left|reflexivity]. Qed.

Print Assumptions c146_no_use_after_free_partial.
Print Assumptions c146_freed_last_partial.
Print Assumptions c146_two_calls_refuted.
Print Assumptions c146_slow_callback_refuted.
Print Assumptions c147_not_running_partial.
Print Assumptions c147_running_partial.
Print Assumptions c147_running_refuted.
Print Assumptions c148_callbacks.
Print Assumptions c148_each.
Print Assumptions c149_quit.
