(** Properties C17 (inactivity) and C18 (reasons of termination). *)
From Coq Require Import Ascii String NArith ZArith Bool Lia List Arith.
From Verif Require Import Bytes PsSess PsPoll Prop_PsFair.
Import ListNotations.
Local Open Scope N_scope.

(* ================================================================== *)
(** * Specification: what may cause a reason *)

(** The transport says it is closed, or that it failed, when looked at. *)
Definition says_closed (T : ti) (a : answers) : Prop :=
  match T with
  | TiSsh => a_sshmsg a = None /\ a_chpoll a = SSH_EOF
  | TiTls => a_pending a = 0%Z /\ (0 < a_poll a)%Z /\ has (a_revents a) POLLHUP_NVAL = true
  | TiFd | TiUnix => (0 < a_poll a)%Z /\ has (a_revents a) POLLHUP_NVAL = true
  | TiNone => False
  end.
Definition says_failed (T : ti) (a : answers) : Prop :=
  match T with
  | TiSsh => a_sshmsg a = None /\ a_chpoll a = SSH_ERR
  | TiTls => a_pending a = 0%Z /\ (0 < a_poll a)%Z /\ has (a_revents a) POLLERR = true
  | TiFd | TiUnix => (0 < a_poll a)%Z /\ has (a_revents a) POLLERR = true
  | TiNone => False
  end.
(** In some round of the call session [s] was looked at, with an answer for which [P] holds. *)
Definition seen (p : pst) (c : pcall) (s : sid) (P : answers -> Prop) : Prop :=
  exists k i st, nth_error (q_ents p) i = Some (s, st) /\ P (c_ans c k i).
(** Inactivity as the server measures it: the time reached by the end of the call, in whole seconds. *)
Definition inactive (o : opts) (p : pst) (c : pcall) (s : sid) : Prop :=
  s_callhome (q_heap p s) = false /\ s_notif (q_heap p s) = 0 /\ o_idle o <> 0 /\
  (s_last_rpc (q_heap p s) + Z.of_N (o_idle o) <= end_sec c)%Z.
(** The application sets the reason in the callback of the request served. *)
Definition app_set (c : pcall) (s : sid) (t : term) : Prop :=
  (exists e op, c_rd c = RdOk e op) /\ In (XTerm s t) (cb_effs (c_cb c)).
(** The request of close-session came from the session served. *)
Definition close_asked (c : pcall) : Prop := exists e op, c_rd c = RdOk e op /\ op_clb op = ClbClose.
(** Reading or writing on the session served failed in this way. *)
Definition io_failed (c : pcall) (f : iofail) : Prop := c_rd c = RdFail (Some f) \/ c_w1 c = WrInvalid f \/ c_w2 c = WrInvalid f.

(** What a call that returned session [rs] must have met if it gave [s] the reason [t]. *)
Definition cause (o : opts) (p : pst) (c : pcall) (rs : option sid) (s : sid) (t : term) : Prop :=
  app_set c s t \/
  match t with
  | TNone | TBadHello | TKilled => False
  | TClosed => rs = Some s /\ close_asked c
  | TDropped => seen p c s (says_closed (s_ti (q_heap p s))) \/ (rs = Some s /\ io_failed c FDropped)
  | TTimeout => inactive o p c s
  | TOther => seen p c s (says_failed (s_ti (q_heap p s))) \/ (rs = Some s /\ (io_failed c FOther \/ c_w1 c = WrBlock \/ c_w1 c = WrFail))
  end.

(* ================================================================== *)
(** * Proofs *)

Definition same_cfg (a b : sess) : Prop :=
  s_callhome a = s_callhome b /\ s_notif a = s_notif b /\ s_last_rpc a = s_last_rpc b /\ s_ti a = s_ti b /\ s_v11 a = s_v11 b.
Lemma same_refl s : same_cfg s s. Proof. repeat split. Qed.

Section RoundInv.
Context {St : Type}.
Variable exam : nat -> nat -> St -> St * N.
Variable count : nat.
Variable I : St -> Prop.
Hypothesis HI : forall k i st, (i < count)%nat -> I st -> I (fst (exam k i st)).
Lemma round_inv k : forall n i st, (i < count)%nat -> I st ->
  let '(st', j, r) := round exam k n count i st in I st' /\ (j < count)%nat /\ (r <> TIMEOUT -> exists x, I x /\ exam k j x = (st', r)).
Proof.
  induction n as [|n IH]; intros i st Hi H; cbn [round]; pose proof (HI k i st Hi H) as H'; destruct (exam k i st) as [st' r] eqn:E; cbn [fst] in H'.
  - destruct (N.eqb_spec r TIMEOUT) as [->|Hr].
    + split; [exact H'|]. split; [now apply next_lt|]. congruence.
    + repeat split; auto. intros _. now exists st.
  - destruct (N.eqb_spec r TIMEOUT) as [->|Hr].
    + apply IH; [now apply next_lt|exact H'].
    + repeat split; auto. intros _. now exists st.
Qed.
Lemma select_inv more : forall fuel k last st st' j r, (last < count)%nat -> I st -> select exam more fuel k count last st = Some (st', j, r) ->
  I st' /\ (j < count)%nat /\ (r <> TIMEOUT -> exists k x, I x /\ exam k j x = (st', r)).
Proof.
  induction fuel as [|fuel IH]; intros k last st st' j r Hl H E; [discriminate|]. cbn [select] in E.
  pose proof (round_inv k (count - 1) (start count last) st (next_lt count last Hl) H) as HR.
  destruct (round exam k (count - 1) count (start count last) st) as [[st1 j1] r1]. destruct HR as (H1 & H2 & H3).
  destruct (N.eqb_spec r1 TIMEOUT) as [Er|Hr1].
  - destruct (more k); [exact (IH (S k) last st1 st' j r Hl H1 E)|]. injection E as <- <- <-. repeat split; auto. intros Hn. contradiction.
  - injection E as <- <- <-. repeat split; auto. intros _. destruct (H3 Hr1) as (x & Hx). now exists k, x.
Qed.
End RoundInv.

(** What looking at a session does to it. *)
Lemma fd_cases s a s' r : poll_fd s a = (s', r) ->
  (s' = s /\ (r = RPC \/ r = TIMEOUT)) \/ (s' = with_st s StInvalid /\ r = PERROR)
  \/ (s' = die s TDropped /\ r = TERM_ERR /\ (0 < a_poll a)%Z /\ has (a_revents a) POLLHUP_NVAL = true)
  \/ (s' = die s TOther /\ r = TERM_ERR /\ (0 < a_poll a)%Z /\ has (a_revents a) POLLERR = true).
Proof.
  unfold poll_fd. destruct (Z.ltb_spec (a_poll a) 0); [intros [= <- <-]; auto|]. destruct (Z.ltb_spec 0 (a_poll a)); [|intros [= <- <-]; auto].
  destruct (has (a_revents a) POLLHUP_NVAL) eqn:E1; [intros [= <- <-]; intuition auto 6|].
  destruct (has (a_revents a) POLLERR) eqn:E2; [intros [= <- <-]; intuition auto 8|intros [= <- <-]; auto].
Qed.
Lemma io_cases idle s now a s' r : poll_session_io idle s now a = (s', r) ->
  (s' = s /\ (r = RPC \/ r = TIMEOUT \/ r = PERROR \/ r = SSH_MSG \/ r = SSH_CHANNEL)) \/ (s' = with_st s StInvalid /\ r = PERROR)
  \/ (r = TERM_ERR /\ ((s' = die s TTimeout /\ idle_expired idle s now = true)
                      \/ (s' = die s TDropped /\ says_closed (s_ti s) a) \/ (s' = die s TOther /\ says_failed (s_ti s) a))).
Proof.
  unfold poll_session_io. destruct (idle_expired idle s now); [intros [= <- <-]; intuition auto|].
  destruct (_ <? 0)%Z; [intros [= <- <-]; intuition auto|]. destruct (a_iolock a =? 0)%Z; [intros [= <- <-]; intuition auto|].
  destruct (s_ti s) eqn:ET; cbn [says_closed says_failed].
  - intros [= <- <-]; intuition auto.
  - intros E. apply fd_cases in E. intuition auto.
  - intros E. apply fd_cases in E. intuition auto.
  - destruct (a_sshmsg a) as [[|]|]; [intros [= <- <-]; intuition auto|intros [= <- <-]; intuition auto|].
    destruct (Z.eqb_spec (a_chpoll a) SSH_EOF); [intros [= <- <-]; intuition auto 7|].
    destruct (Z.eqb_spec (a_chpoll a) SSH_ERR); [intros [= <- <-]; intuition auto 8|].
    destruct (_ =? 0)%Z; intros [= <- <-]; intuition auto.
  - destruct (Z.eqb_spec (a_pending a) 0); [|intros [= <- <-]; intuition auto].
    destruct (_ <? 0)%Z; [intros [= <- <-]; intuition auto|]. intros E. apply fd_cases in E. intuition auto 8.
Qed.

Definition look_cause (o : opts) (p : pst) (c : pcall) (s : sid) (t : term) : Prop :=
  match t with
  | TTimeout => inactive o p c s
  | TDropped => seen p c s (says_closed (s_ti (q_heap p s)))
  | TOther => seen p c s (says_failed (s_ti (q_heap p s)))
  | _ => False
  end.
Definition sel_inv (o : opts) (p : pst) (c : pcall) (x : heap * list (sid * pstate)) : Prop :=
  map fst (snd x) = map fst (q_ents p) /\
  forall s, same_cfg (fst x s) (q_heap p s) /\ (s_term (fst x s) = s_term (q_heap p s) \/ look_cause o p c s (s_term (fst x s))).

Lemma sel_init o p c : sel_inv o p c (q_heap p, q_ents p).
Proof. split; [reflexivity|]. intros s. split; [apply same_refl|now left]. Qed.

Lemma expired_inactive o p c s st : same_cfg s (q_heap p st) -> idle_expired (o_idle o) s (end_sec c) = true -> inactive o p c st.
Proof.
  intros (H1 & H2 & H3 & _ & _) E. unfold idle_expired in E. apply andb_true_iff in E. destruct E as [E E4]. apply andb_true_iff in E.
  destruct E as [E E3]. apply andb_true_iff in E. destruct E as [E1 E2]. unfold inactive. rewrite <- H1, <- H2, <- H3.
  apply negb_true_iff in E1, E3. apply N.eqb_eq in E2. apply N.eqb_neq in E3. apply Z.leb_le in E4. auto.
Qed.

Lemma nth_ent (es : list (sid * pstate)) i : (i < length es)%nat -> exists st, nth_error es i = Some (fst (ent_at es i), st).
Proof.
  intros H. destruct (nth_error es i) as [[s st]|] eqn:E; [|apply nth_error_None in E; lia]. exists st. unfold ent_at.
  now rewrite (nth_error_nth _ _ _ E).
Qed.

Lemma look_inv o p c k i x : (i < length (q_ents p))%nat -> sel_inv o p c x -> sel_inv o p c (fst (look o c k i x)).
Proof.
  intros Hi [HM HS]. destruct x as [h es]. cbn [fst snd] in *. unfold look.
  destruct (_ =? -1)%Z; [split; assumption|]. destruct (_ =? 1)%Z; [|split; assumption].
  destruct (ent_at es i) as [s0 st0] eqn:E0. destruct (poll_sess (o_idle o) st0 (h s0) (end_sec c) (c_ans c k i)) as [[st' s'] r] eqn:EP. cbn [fst].
  split; cbn [fst snd]; [now rewrite set_ent_fst|]. intros s. unfold hset. destruct (N.eqb_spec s s0) as [->|]; [|apply HS].
  destruct (HS s0) as [HC HT].
  assert (Hsame : s' = h s0 \/ s' = with_st (h s0) StInvalid \/
     ((s' = die (h s0) TTimeout /\ idle_expired (o_idle o) (h s0) (end_sec c) = true)
       \/ (s' = die (h s0) TDropped /\ says_closed (s_ti (h s0)) (c_ans c k i)) \/ (s' = die (h s0) TOther /\ says_failed (s_ti (h s0)) (c_ans c k i)))).
  { unfold poll_sess in EP. destruct st0; [|injection EP; auto|injection EP; auto]. destruct (status_eqb _ _); [|injection EP; auto].
    destruct (poll_session_io (o_idle o) (h s0) (end_sec c) (c_ans c k i)) as [s1 r1] eqn:EI. injection EP as _ <- _.
    apply io_cases in EI. intuition auto. }
  assert (Hseen : forall P : answers -> Prop, P (c_ans c k i) -> seen p c s0 P).
  { intros P HP. destruct (nth_ent (q_ents p) i Hi) as [st Est]. exists k, i, st. split; [|exact HP].
    rewrite Est. rewrite ent_at_fst, <- HM, <- ent_at_fst, E0. reflexivity. }
  destruct HC as (C1 & C2 & C3 & C4 & C5).
  destruct Hsame as [->|[->|[[-> E]|[[-> E]|[-> E]]]]]; (split; [repeat split; assumption|]).
  - exact HT.
  - exact HT.
  - right. cbn. eapply expired_inactive; [|exact E]. repeat split; assumption.
  - right. cbn. rewrite <- C4. now apply Hseen.
  - right. cbn. rewrite <- C4. now apply Hseen.
Qed.

(** The reason after effects of the application. *)
Lemma eff_term h e s : s_term (apply_eff h e s) = s_term (h s) \/ (e = XTerm s (s_term (apply_eff h e s)) /\ s_term (apply_eff h e s) <> TNone).
Proof.
  destruct e as [i t|i n|i st|i|i]; cbn [apply_eff].
  - destruct (is_none t) eqn:En; [now left|]. unfold hset. destruct (N.eqb_spec s i) as [->|]; [|now left]. right.
    destruct (_ && _); cbn; (split; [reflexivity|intros ->; discriminate]).
  - destruct (_ || _); [now left|]. unfold hset. destruct (N.eqb_spec s i) as [->|]; now left.
  - destruct (status_eqb _ _); [now left|]. unfold hset. destruct (N.eqb_spec s i) as [->|]; now left.
  - unfold hset. destruct (N.eqb_spec s i) as [->|]; now left.
  - unfold hset. destruct (N.eqb_spec s i) as [->|]; now left.
Qed.
Lemma effs_term es : forall h s, s_term (fold_left apply_eff es h s) = s_term (h s) \/ In (XTerm s (s_term (fold_left apply_eff es h s))) es.
Proof.
  induction es as [|e es IH]; intros h s; cbn [fold_left]; [now left|]. destruct (IH (apply_eff h e) s) as [E|E]; [|right; now right].
  rewrite E. destruct (eff_term h e s) as [E'|[E' _]]; [now left|right; left; exact E'].
Qed.

Lemma write_term s e r w : let s' := fst (fst (write_reply s e r w)) in
  s' = s \/ exists f, w = WrInvalid f /\ s' = die s (fail_term f).
Proof. unfold write_reply. destruct (s_status s), w; cbn; auto; right; eexists; split; reflexivity. Qed.
Lemma write_mt s e r w s' m out : write_reply s e r w = (s', m, out) -> mt_reply m = false -> s_status s = StRunning -> w = WrBlock \/ w = WrFail \/ exists f, w = WrInvalid f.
Proof. unfold write_reply. intros E H HS. rewrite HS in E. destruct w; injection E as <- <- <-; try discriminate; eauto. Qed.

Lemma recv_reply_term s e n w ret : s_status s = StRunning -> let s' := fst (fst (recv_reply s e n w ret)) in
  s_term s' = s_term s \/ (exists f, w = WrInvalid f /\ s_term s' = fail_term f) \/ (s_term s' = TOther /\ (w = WrBlock \/ w = WrFail)).
Proof.
  intros HS. unfold recv_reply. pose proof (write_term s e (RError n) w) as HW. destruct (write_reply s e (RError n) w) as [[s1 m] out] eqn:E. cbn [fst] in *.
  destruct (mt_reply m) eqn:Em; cbn [fst].
  - destruct HW as [->|(f & -> & ->)]; [now left|]. right. left. now exists f.
  - destruct (write_mt _ _ _ _ _ _ _ E Em HS) as [->|[->|[f ->]]].
    + unfold write_reply in E. rewrite HS in E. injection E as <- <- <-. rewrite HS. cbn. right. right. auto.
    + unfold write_reply in E. rewrite HS in E. injection E as <- <- <-. rewrite HS. cbn. right. right. auto.
    + unfold write_reply in E. rewrite HS in E. injection E as <- <- <-. cbn. right. left. now exists f.
Qed.

Lemma recv_term s c : let x := recv_rpc s (c_rd c) (c_w1 c) in let s' := fst (fst (fst x)) in
  s_term s' = s_term s \/ (exists f, (c_rd c = RdFail (Some f) \/ c_w1 c = WrInvalid f) /\ s_term s' = fail_term f)
  \/ (s_term s' = TOther /\ (c_w1 c = WrBlock \/ c_w1 c = WrFail)).
Proof.
  cbn zeta. unfold recv_rpc. destruct (negb (status_eqb (s_status s) StRunning)) eqn:ES; [now left|].
  assert (HS : s_status s = StRunning) by (destruct (s_status s); try discriminate; reflexivity).
  assert (HH : forall e n ret, let y := recv_reply s e n (c_w1 c) ret in
     let s' := fst (fst (fst (let '(s', ret, out) := y in (s', ret, @None (envelope * operation), out)))) in
     s_term s' = s_term s \/ (exists f, (c_rd c = RdFail (Some f) \/ c_w1 c = WrInvalid f) /\ s_term s' = fail_term f)
     \/ (s_term s' = TOther /\ (c_w1 c = WrBlock \/ c_w1 c = WrFail))).
  { intros e n ret. pose proof (recv_reply_term s e n (c_w1 c) ret HS) as H. cbn zeta in *. destruct (recv_reply s e n (c_w1 c) ret) as [[s1 r1] out]. cbn [fst] in *.
    destruct H as [H|[(f & H1 & H2)|H]]; [now left| |now right; right]. right. left. exists f. auto. }
  destruct (c_rd c) as [|[f|]| | |e op|e err] eqn:ER; try (now left).
  - right. left. exists f. auto.
  - apply HH.
  - destruct (has_msgid e); [now left|]. apply HH.
  - destruct (prepare_rpc_err s e err); [|now left]. apply HH.
Qed.

Lemma recv_some s r w e op : snd (fst (recv_rpc s r w)) = Some (e, op) -> r = RdOk e op.
Proof.
  unfold recv_rpc. destruct (negb _); [discriminate|]. destruct r as [|[f|]| | |e0 op0|e0 err]; try discriminate.
  - destruct (recv_reply _ _ _ _ _) as [[? ?] ?]. discriminate.
  - destruct (has_msgid e0); [now intros [= -> ->]|]. destruct (recv_reply _ _ _ _ _) as [[? ?] ?]. discriminate.
  - destruct (prepare_rpc_err s e0 err); [|discriminate]. destruct (recv_reply _ _ _ _ _) as [[? ?] ?]. discriminate.
Qed.

Lemma callback_term glob h i op cb s : let h' := fst (run_callback glob h i op cb) in
  s_term (h' s) = s_term (h s) \/ In (XTerm s (s_term (h' s))) (cb_effs cb) \/ (s = i /\ s_term (h' s) = TClosed /\ op_clb op = ClbClose).
Proof.
  unfold run_callback. destruct (op_clb op); [destruct glob|..]; cbn [fst].
  - destruct (effs_term (cb_effs cb) h s); auto.
  - now left.
  - unfold close_session, hset. destruct (N.eqb_spec s i) as [->|]; [|now left]. cbn. auto.
  - destruct (effs_term (cb_effs cb) h s); auto.
Qed.

Definition serve_cause (c : pcall) (s x : sid) (t : term) : Prop :=
  app_set c x t \/ (x = s /\ ((t = TClosed /\ close_asked c) \/ (exists f, io_failed c f /\ t = fail_term f)
     \/ (t = TOther /\ (c_w1 c = WrBlock \/ c_w1 c = WrFail)))).

Lemma serve_term o c h s x : let h' := fst (fst (fst (serve o c h s))) in s_term (h' x) = s_term (h x) \/ serve_cause c s x (s_term (h' x)).
Proof.
  unfold serve. pose proof (recv_term (h s) c) as HR. cbn zeta in HR. pose proof (recv_some (h s) (c_rd c) (c_w1 c)) as HO.
  destruct (recv_rpc (h s) (c_rd c) (c_w1 c)) as [[[s1 ret] rpc] out1]. cbn [fst snd] in *.
  assert (H1 : s_term (hset h s s1 x) = s_term (h x) \/ serve_cause c s x (s_term (hset h s s1 x))).
  { unfold hset. destruct (N.eqb_spec x s) as [->|]; [|now left]. destruct HR as [HR|[(f & Hf & HR)|HR]]; [now left|right|right].
    - right. split; [reflexivity|]. right. left. exists f. split; [|exact HR]. unfold io_failed. tauto.
    - right. split; [reflexivity|]. right. right. exact HR. }
  destruct (has ret _); [destruct (after_recv_fail _ _ _); exact H1|].
  set (h2 := hset (hset h s s1) s (with_last (hset h s s1 s) (sec (c_now c)))).
  assert (E2 : forall y, s_term (h2 y) = s_term (hset h s s1 y)).
  { intros y. unfold h2. unfold hset at 1. destruct (N.eqb_spec y s) as [->|]; reflexivity. }
  unfold send_reply. destruct rpc as [[e op]|].
  - specialize (HO e op eq_refl). pose proof (callback_term (o_glob o) h2 s op (c_cb c)) as HCB.
    destruct (run_callback (o_glob o) h2 s op (c_cb c)) as [h3 rep]. cbn [fst] in HCB.
    pose proof (write_term (h3 s) (Some e) rep (c_w2 c)) as HW. destruct (write_reply (h3 s) (Some e) rep (c_w2 c)) as [[s2 m] out2]. cbn [fst] in HW.
    destruct (after_serve _ _ _) as [ret' st']. cbn [fst].
    assert (H3 : s_term (h3 x) = s_term (h x) \/ serve_cause c s x (s_term (h3 x))).
    { destruct (HCB x) as [E|[E|(-> & E & Ec)]].
      - rewrite E, E2. exact H1.
      - right. left. split; [eauto|exact E].
      - right. right. split; [reflexivity|]. left. split; [exact E|]. exists e, op. auto. }
    unfold hset. destruct (N.eqb_spec x s) as [->|]; [|exact H3].
    assert (ET : forall b : bool, s_term (if b then with_st s2 StInvalid else s2) = s_term s2) by (intros [|]; reflexivity). rewrite ET.
    destruct HW as [->|(f & Ef & ->)]; [exact H3|]. right. right. split; [reflexivity|]. right. left. exists f. unfold io_failed. cbn. auto.
  - destruct (after_serve _ _ _) as [ret' st']. cbn [fst]. rewrite E2. exact H1.
Qed.

(** * C18: reasons *)

(** Whatever a call of nc_ps_poll() meets: if it changes the reason of a session, that reason has its cause. *)
Theorem c18_reason : forall o p c p' ret rs out s, (q_last p < length (q_ents p))%nat ->
  ps_poll o p c = Some (p', ret, rs, out) ->
  s_term (q_heap p' s) = s_term (q_heap p s) \/ cause o p c rs s (s_term (q_heap p' s)).
Proof.
  intros o p c p' ret rs out s Hl E. rewrite ps_poll_eq in E by (intros E0; rewrite E0 in Hl; cbn in Hl; lia).
  destruct (select (look o c) (c_more c) (c_rounds c) 0 (length (q_ents p)) (q_last p) (q_heap p, q_ents p)) as [[[[h es] i] r]|] eqn:ES; [|discriminate].
  cbn zeta in E.
  destruct (select_inv (look o c) (length (q_ents p)) (sel_inv o p c) (fun k i st Hi Hst => look_inv o p c k i st Hi Hst) _ _ _ _ _ _ _ _ Hl
     (sel_init o p c) ES) as ([HM HS] & Hi & _). cbn [fst snd] in *.
  assert (HL : forall x t, look_cause o p c x t -> cause o p c rs x t).
  { intros x t H. right. destruct t; cbn in *; tauto. }
  destruct (N.eqb_spec r RPC) as [->|Hr].
  - pose proof (serve_term o c h (fst (ent_at es i)) s) as HV. cbn zeta in HV.
    destruct (serve o c h (fst (ent_at es i))) as [[[h' ret'] st'] out']. cbn [fst] in HV. injection E as <- _ <- _. cbn [q_heap].
    destruct HV as [HV|HV].
    + rewrite HV. destruct (HS s) as [_ [H|H]]; [now left|right; now apply HL].
    + right. destruct HV as [HV|(-> & HV)]; [now left|right].
      destruct HV as [[-> H]|[(f & Hf & ->)|[-> H]]].
      * split; [reflexivity|exact H].
      * destruct f; cbn; right; auto.
      * cbn. right. split; [reflexivity|]. tauto.
  - injection E as <- _ _ _. cbn [q_heap]. destruct (HS s) as [_ [H|H]]; [now left|right; now apply HL].
Qed.

(** Histories: calls of nc_ps_poll() and what the application does to sessions otherwise. *)
Inductive hev := HPoll (p : pst) (c : pcall) (rs : option sid) | HApp (e : eff).
Inductive hist (o : opts) (p0 : pst) : list hev -> pst -> Prop :=
| hist_nil : hist o p0 [] p0
| hist_poll l p c p' ret rs out : hist o p0 l p -> ps_poll o p c = Some (p', ret, rs, out) -> hist o p0 (l ++ [HPoll p c rs]) p'
| hist_app l p e : hist o p0 l p -> hist o p0 (l ++ [HApp e]) (mkP (apply_eff (q_heap p) e) (q_ents p) (q_last p)).

Lemma poll_shape o p c p' ret rs out : (q_last p < length (q_ents p))%nat -> ps_poll o p c = Some (p', ret, rs, out) ->
  length (q_ents p') = length (q_ents p) /\ (q_last p' < length (q_ents p'))%nat /\ map fst (q_ents p') = map fst (q_ents p).
Proof.
  intros Hl E. rewrite ps_poll_eq in E by (intros E0; rewrite E0 in Hl; cbn in Hl; lia).
  destruct (select (look o c) (c_more c) (c_rounds c) 0 (length (q_ents p)) (q_last p) (q_heap p, q_ents p)) as [[[[h es] i] r]|] eqn:ES; [|discriminate].
  cbn zeta in E.
  destruct (select_inv (look o c) (length (q_ents p)) (sel_inv o p c) (fun k i st Hi Hst => look_inv o p c k i st Hi Hst) _ _ _ _ _ _ _ _ Hl
     (sel_init o p c) ES) as ([HM HS] & Hi & _). cbn [fst snd] in *.
  assert (HL : length es = length (q_ents p)) by (rewrite <- (map_length fst es), HM; apply map_length).
  destruct (r =? RPC).
  - destruct (serve o c h (fst (ent_at es i))) as [[[h' ret'] st'] out']. injection E as <- _ _ _. cbn [q_ents q_last].
    rewrite set_ent_len, set_ent_fst, HL. repeat split; auto. destruct (is_event r); lia.
  - injection E as <- _ _ _. cbn [q_ents q_last]. rewrite HL. repeat split; auto. destruct (is_event r); lia.
Qed.

(** Over any history: a session that was running with no reason and now has one was given it by a call that met its cause, or by
    the application. *)
Theorem c18_reason_history : forall o p0 l p s, hist o p0 l p -> (q_last p0 < length (q_ents p0))%nat -> s_term (q_heap p0 s) = TNone ->
  s_term (q_heap p s) = TNone \/ In (HApp (XTerm s (s_term (q_heap p s)))) l
  \/ exists q c rs, In (HPoll q c rs) l /\ cause o q c rs s (s_term (q_heap p s)).
Proof.
  intros o p0 l p s H Hl H0. cut ((q_last p < length (q_ents p))%nat /\ (s_term (q_heap p s) = TNone \/ In (HApp (XTerm s (s_term (q_heap p s)))) l
  \/ exists q c rs, In (HPoll q c rs) l /\ cause o q c rs s (s_term (q_heap p s)))); [tauto|].
  induction H as [|l p c p' ret rs out H IH E|l p e H IH].
  - auto.
  - destruct IH as [Hlp IH]. destruct (poll_shape o p c p' ret rs out Hlp E) as (_ & Hl' & _). split; [exact Hl'|].
    destruct (c18_reason o p c p' ret rs out s Hlp E) as [->|HC].
    + destruct IH as [IH|[IH|(q & c0 & r0 & Hin & HC)]]; [now left| |]; right; [left; apply in_or_app; now left|].
      right. exists q, c0, r0. split; [apply in_or_app; now left|exact HC].
    + right. right. exists p, c, rs. split; [apply in_or_app; right; now left|exact HC].
  - destruct IH as [Hlp IH]. cbn [q_heap q_ents q_last]. split; [exact Hlp|].
    destruct (eff_term (q_heap p) e s) as [->|[Ee _]].
    + destruct IH as [IH|[IH|(q & c0 & r0 & Hin & HC)]]; [now left| |]; right; [left; apply in_or_app; now left|].
      right. exists q, c0, r0. split; [apply in_or_app; now left|exact HC].
    + right. left. rewrite <- Ee. apply in_or_app. right. now left.
Qed.

(* ================================================================== *)
(** * C18: reporting *)

Lemma lor_has r b x : has (N.lor r b) x = has r x || has b x.
Proof.
  unfold has. rewrite N.land_lor_distr_l. destruct (N.eqb_spec (N.land r x) 0) as [->|H1]; cbn [negb orb]; [now rewrite N.lor_0_l|].
  destruct (N.eqb_spec (N.lor (N.land r x) (N.land b x)) 0) as [E|]; [|reflexivity]. apply N.lor_eq_0_iff in E. tauto.
Qed.

Definition served_ok (r : rd) : Prop := match r with RdOk _ _ | RdMalformed => True | _ => False end.

(** Everything about the result of a call that returns a session and says it ended. *)
Definition reported (ret : N) (t : term) (r : rd) : Prop :=
  (t = TClosed -> has ret SESSION_ERROR = false) /\
  ((t = TTimeout \/ t = TNone) -> has ret SESSION_ERROR = true) /\
  (t = TDropped \/ t = TOther \/ t = TBadHello -> has ret SESSION_ERROR = true \/ served_ok r).

Lemma recv_bits s r w : let '(s', ret, rpc, out) := recv_rpc s r w in has ret SESSION_ERROR = false /\ has ret SESSION_TERM = false
  /\ (s_status s' <> StRunning -> s_status s = StRunning -> s_term s' = TDropped \/ s_term s' = TOther)
  /\ (has ret (N.lor PERROR BAD_RPC) = false -> rpc = None -> s_status s' <> StRunning -> r = RdMalformed)
  /\ (forall x, rpc = Some x -> exists e op, r = RdOk e op).
Proof.
  unfold recv_rpc. destruct (negb (status_eqb (s_status s) StRunning)) eqn:ES.
  { repeat split; try discriminate. intros H1 H2. contradiction. }
  assert (HS : s_status s = StRunning) by (destruct (s_status s); try discriminate; reflexivity).
  assert (HH : forall e n ret0, has ret0 SESSION_ERROR = false -> has ret0 SESSION_TERM = false ->
     let '(s', ret, out) := recv_reply s e n w ret0 in has ret SESSION_ERROR = false /\ has ret SESSION_TERM = false
     /\ (s_status s' <> StRunning -> s_term s' = TDropped \/ s_term s' = TOther) /\ ret = N.lor ret0 REPLY_ERROR).
  { intros e n ret0 H1 H2. unfold recv_reply, write_reply. rewrite HS.
    destruct w as [| | | |[|]]; cbn [mt_reply die with_st with_term s_status s_term status_eqb fail_term]; rewrite ?HS; cbn [status_eqb s_status s_term die with_term with_st];
      (split; [rewrite lor_has, H1; reflexivity|split; [rewrite lor_has, H2; reflexivity|split; [intros Hn; try contradiction; auto|reflexivity]]]). }
  destruct r as [|[f|]| | |e op|e err].
  - repeat split; try discriminate; intros; contradiction.
  - repeat split; try discriminate. intros _ _. destruct f; cbn; auto.
  - repeat split; try discriminate; intros; contradiction.
  - specialize (HH None EMalformed 0 eq_refl eq_refl). destruct (recv_reply s None EMalformed w 0) as [[s' ret] out]. destruct HH as (H1 & H2 & H3 & H4).
    repeat split; auto; discriminate.
  - repeat split; try discriminate; intros; contradiction.
  - destruct (has_msgid e).
    + repeat split; try discriminate; try (intros; contradiction). intros x _. eauto.
    + specialize (HH (Some e) (EMissingAttr TyRpc (bs "message-id"%string) (bs "rpc"%string)) BAD_RPC eq_refl eq_refl). destruct (recv_reply _ _ _ _ _) as [[s' ret] out].
      destruct HH as (H1 & H2 & H3 & ->). repeat split; auto; try discriminate.
  - destruct (prepare_rpc_err s e err) as [n|]; [|repeat split; try discriminate; intros; contradiction].
    specialize (HH e n BAD_RPC eq_refl eq_refl). destruct (recv_reply _ _ _ _ _) as [[s' ret] out].
    destruct HH as (H1 & H2 & H3 & ->). repeat split; auto; try discriminate.
Qed.

Lemma send_bits glob h i rpc cb w : let '(h', ret, out) := send_reply glob h i rpc cb w in has ret SESSION_ERROR = false /\ has ret SESSION_TERM = false.
Proof.
  unfold send_reply. destruct rpc as [[e op]|]; [|split; reflexivity]. destruct (run_callback glob h i op cb) as [h1 rep].
  destruct (write_reply (h1 i) (Some e) rep w) as [[s2 m] out]. rewrite !lor_has. destruct (is_error rep), (mt_reply m); split; reflexivity.
Qed.

Lemma hset_same h i s : hset h i s i = s. Proof. unfold hset. now rewrite N.eqb_refl. Qed.

Lemma serve_report o c h s : s_status (h s) = StRunning -> let '(h', ret, st, out) := serve o c h s in
  has ret SESSION_TERM = true -> reported ret (s_term (h' s)) (c_rd c).
Proof.
  intros HS. unfold serve. pose proof (recv_bits (h s) (c_rd c) (c_w1 c)) as HB. destruct (recv_rpc (h s) (c_rd c) (c_w1 c)) as [[[s1 ret] rpc] out1].
  destruct HB as (B1 & B2 & B3 & B4 & B5). destruct (has ret (N.lor PERROR BAD_RPC)) eqn:EB.
  - unfold after_recv_fail. rewrite hset_same. destruct (status_eqb (s_status s1) StRunning) eqn:E1; [congruence|]. intros _.
    assert (Hne : s_status s1 <> StRunning) by (intros E; now rewrite E in E1). specialize (B3 Hne HS).
    rewrite hset_same. unfold reported. rewrite lor_has. change (has TERM_ERR SESSION_ERROR) with true. rewrite orb_true_r.
    split; [intros E; destruct B3; congruence|]. auto.
  - pose proof (send_bits (o_glob o) (hset (hset h s s1) s (with_last (hset h s s1 s) (sec (c_now c)))) s rpc (c_cb c) (c_w2 c)) as HSB.
    destruct (send_reply (o_glob o) (hset (hset h s s1) s (with_last (hset h s s1 s) (sec (c_now c)))) s rpc (c_cb c) (c_w2 c)) as [[h3 ret3] out3] eqn:ESR. destruct HSB as [S1 S2].
    unfold after_serve. destruct (status_eqb (s_status (h3 s)) StRunning) eqn:E3; [rewrite lor_has, B2, S2; discriminate|]. intros _.
    unfold reported. rewrite !lor_has, B1, S1. change (has SESSION_TERM SESSION_ERROR) with false. cbn [orb].
    split; [intros ->; reflexivity|]. split; [intros [->| ->]; reflexivity|]. intros _. right. destruct rpc as [x|].
    + destruct (B5 x eq_refl) as (e & op & ->). exact I.
    + rewrite (B4 eq_refl eq_refl); [exact I|]. unfold send_reply in ESR. injection ESR as <- _ _. rewrite hset_same in E3. cbn in E3.
      rewrite hset_same in E3. intros E. now rewrite E in E3.
Qed.

Lemma look_cases o c k i x h es r : look o c k i x = (h, es, r) -> r <> TIMEOUT -> r <> PERROR ->
  exists st, (st = PsNone) /\ fst (ent_at es i) = fst (ent_at (snd x) i) /\ ent_at (snd x) i = (fst (ent_at (snd x) i), st) /\
    let s := fst (ent_at (snd x) i) in
    (s_status (fst x s) = StRunning /\ poll_session_io (o_idle o) (fst x s) (end_sec c) (c_ans c k i) = (h s, r))
    \/ (s_status (fst x s) <> StRunning /\ h s = fst x s /\ r = (if term_code (s_term (fst x s)) =? 1 then SESSION_TERM else TERM_ERR)).
Proof.
  destruct x as [h0 es0]. cbn [fst snd]. unfold look. intros E H1 H2. destruct (_ =? -1)%Z; [congruence|]. destruct (_ =? 1)%Z; [|congruence].
  destruct (ent_at es0 i) as [s st] eqn:Ee. destruct (poll_sess (o_idle o) st (h0 s) (end_sec c) (c_ans c k i)) as [[st' s'] r'] eqn:EP.
  injection E as <- <- <-. cbn [fst]. unfold poll_sess in EP. destruct st; [|congruence|congruence]. exists PsNone. split; [reflexivity|].
  split; [rewrite ent_at_fst, set_ent_fst, <- ent_at_fst, Ee; reflexivity|]. split; [reflexivity|]. rewrite hset_same.
  destruct (status_eqb (s_status (h0 s)) StRunning) eqn:ES.
  - left. split; [destruct (s_status (h0 s)); try discriminate; reflexivity|]. destruct (poll_session_io (o_idle o) (h0 s) (end_sec c) (c_ans c k i)) as [s1 r1].
    now injection EP as _ -> ->.
  - right. split; [intros E; now rewrite E in ES|]. injection EP as _ <- <-. auto.
Qed.

(** If a call returns a session and says it ended, its reason decides whether an error is reported: never for closed, always for
    inactivity, and for a lost or failed transport unless that showed only when the reply to a request was written. *)
Theorem c18_report_partial : forall o p c p' ret s out, (q_last p < length (q_ents p))%nat ->
  ps_poll o p c = Some (p', ret, Some s, out) -> has ret SESSION_TERM = true ->
  reported ret (s_term (q_heap p' s)) (c_rd c).
Proof.
  intros o p c p' ret s out Hl E Hb. rewrite ps_poll_eq in E by (intros E0; rewrite E0 in Hl; cbn in Hl; lia).
  destruct (select (look o c) (c_more c) (c_rounds c) 0 (length (q_ents p)) (q_last p) (q_heap p, q_ents p)) as [[[[h es] i] r]|] eqn:ES; [|discriminate].
  cbn zeta in E.
  destruct (select_inv (look o c) (length (q_ents p)) (sel_inv o p c) (fun k i st Hi Hst => look_inv o p c k i st Hi Hst) _ _ _ _ _ _ _ _ Hl
     (sel_init o p c) ES) as (_ & Hi & Hx).
  destruct (is_event r) eqn:Eev; [|destruct (r =? RPC); [destruct (serve _ _ _ _) as [[[? ?] ?] ?]|]; congruence].
  destruct Hx as (k & x & _ & Ex); [now apply event_not_timeout|].
  destruct (look_cases _ _ _ _ _ _ _ _ Ex) as (st & _ & Ef & _ & HC); [now apply event_not_timeout|intros ->; discriminate|]. cbn zeta in HC. rewrite <- Ef in HC.
  destruct (N.eqb_spec r RPC) as [->|Hr].
  - pose proof (serve_report o c h (fst (ent_at es i))) as HV. destruct (serve o c h (fst (ent_at es i))) as [[[h' ret'] st'] out'].
    injection E as <- <- <- _. cbn [q_heap]. apply HV; [|exact Hb]. destruct HC as [[Hrun HC]|(_ & _ & HC)].
    + apply io_cases in HC. destruct HC as [[-> _]|[[_ HC]|[HC _]]]; [exact Hrun|discriminate|discriminate].
    + destruct (_ =? 1); discriminate.
  - injection E as <- <- <- _. cbn [q_heap]. destruct HC as [[Hrun HC]|(_ & -> & ->)].
    + apply io_cases in HC. destruct HC as [[_ [->|[->|[->|[->| ->]]]]]|[[_ ->]|(-> & HC)]]; try discriminate.
      assert (HR : forall t, t <> TClosed -> reported TERM_ERR t (c_rd c)).
      { intros t Ht. unfold reported. change (has TERM_ERR SESSION_ERROR) with true. tauto. }
      apply HR. destruct HC as [[-> _]|[[-> _]|[-> _]]]; discriminate.
    + unfold reported. destruct (s_term (fst x (fst (ent_at es i)))); cbn [term_code]; repeat split; intros; try reflexivity; try discriminate; try (left; reflexivity);
        intuition discriminate.
Qed.

(* ---- witnesses ---- *)
Definition quiet : answers := mkA 1 None 0 0 0 0 0.
Definition readable : answers := mkA 1 None 0 0 0 1 1.
Definition env1 : envelope := mkEnv None NS_BASE [mkAttr None (bs "message-id"%string) (bs "7"%string)].
Definition pair : pst := mkP (fun _ => unix_sess) [(100, PsNone); (200, PsNone)] 0.
(** A request on session 200 whose callback kills session 100 (as an application does for kill-session). *)
Definition kill_call : pcall :=
  mkC 0 0 0 0 (fun _ _ => 1%Z) (fun _ i => if Nat.eqb i 1 then readable else quiet) (fun _ => false) 1
      (RdOk env1 (mkOp 1 ClbApp)) WrSent (mkCb (Some ROk) [XTerm 100 TKilled; XKilledBy 100 2; XStatus 100 StInvalid]) WrSent.
Definition idle_call : pcall :=
  mkC 0 0 0 0 (fun _ _ => 1%Z) (fun _ _ => quiet) (fun _ => false) 1 RdBlock WrSent (mkCb None []) WrSent.
(** A request of a client that is gone when the reply is written. *)
Definition drop_call : pcall :=
  mkC 0 0 0 0 (fun _ _ => 1%Z) (fun _ _ => readable) (fun _ => false) 1
      (RdOk env1 (mkOp 1 ClbApp)) WrSent (mkCb (Some ROk) []) (WrInvalid FDropped).

(** The report is wrong both ways: a killed session is reported as an error, a dropped one is not. *)
Theorem c18_report_refuted :
  (exists p1 p2 ret1 ret2 out1, ps_poll (mkO 0 false) pair kill_call = Some (p1, ret1, Some 200, out1)
    /\ ps_poll (mkO 0 false) p1 idle_call = Some (p2, ret2, Some 100, [])
    /\ s_term (q_heap p2 100) = TKilled /\ has ret2 SESSION_TERM = true /\ has ret2 SESSION_ERROR = true)
  /\ (exists p1 ret, ps_poll (mkO 0 false) pair drop_call = Some (p1, ret, Some 200, [])
    /\ s_term (q_heap p1 200) = TDropped /\ has ret SESSION_TERM = true /\ has ret SESSION_ERROR = false).
Proof.
  split.
  - do 5 eexists. split; [vm_compute; reflexivity|]. split; [vm_compute; reflexivity|]. repeat split; vm_compute; reflexivity.
  - do 2 eexists. split; [vm_compute; reflexivity|]. repeat split; vm_compute; reflexivity.
Qed.

(** A non-trivial case of the reasons: a close-session request closes its session, without error, after the reply. *)
Definition close_call : pcall :=
  mkC 0 0 0 0 (fun _ _ => 1%Z) (fun _ _ => readable) (fun _ => false) 1
      (RdOk env1 (mkOp 2 ClbClose)) WrSent (mkCb None []) WrSent.
Example c18_case : exists p1 ret, ps_poll (mkO 0 false) pair close_call = Some (p1, ret, Some 200, [make_reply (Some env1) ROk])
  /\ s_term (q_heap p1 200) = TClosed /\ s_status (q_heap p1 200) = StInvalid /\ has ret SESSION_TERM = true /\ has ret SESSION_ERROR = false
  /\ cause (mkO 0 false) pair close_call (Some 200) 200 TClosed.
Proof.
  do 2 eexists. split; [vm_compute; reflexivity|]. repeat split; try (vm_compute; reflexivity). right. split; [reflexivity|]. exists env1, (mkOp 2 ClbClose). auto.
Qed.

(* ================================================================== *)
(** * C17 *)

(** A session is given up for inactivity only without subscription and with an idle timeout, and only if the time
    reached by the end of the poll timeout is later than its last recorded activity [t0] by more than the idle timeout less
    one second. *)
Theorem c17_only_partial : forall o p c p' ret rs out s t0, (q_last p < length (q_ents p))%nat ->
  ps_poll o p c = Some (p', ret, rs, out) ->
  s_term (q_heap p s) <> TTimeout -> s_term (q_heap p' s) = TTimeout -> ~ app_set c s TTimeout ->
  (0 <= c_timeout c)%Z -> s_last_rpc (q_heap p s) = sec t0 ->
  s_notif (q_heap p s) = 0 /\ o_idle o <> 0 /\
  ((Z.of_N (o_idle o) - 1) * 1000000000 < c_now2 c + c_timeout c * 1000000 - t0)%Z.
Proof.
  intros o p c p' ret rs out s t0 Hl E H1 H2 Ha Ht Ht0. destruct (c18_reason o p c p' ret rs out s Hl E) as [Eq|HC]; [congruence|].
  rewrite H2 in HC. destruct HC as [HC|(_ & Hn & Hi & HT)]; [contradiction|]. split; [exact Hn|]. split; [exact Hi|].
  unfold end_sec in HT. destruct (Z.ltb_spec (c_timeout c) 0); [lia|]. rewrite Ht0 in HT. unfold sec in HT.
  set (x := (c_now2 c + c_timeout c * 1000000)%Z) in *.
  pose proof (Z.div_mod t0 1000000000 ltac:(lia)). pose proof (Z.mod_pos_bound t0 1000000000 ltac:(lia)).
  pose proof (Z.div_mod x 1000000000 ltac:(lia)). pose proof (Z.mod_pos_bound x 1000000000 ltac:(lia)). lia.
Qed.

(** With idle timeout 0, or with a subscription, never. *)
Theorem c17_never : forall o p c p' ret rs out s, (q_last p < length (q_ents p))%nat ->
  ps_poll o p c = Some (p', ret, rs, out) -> s_term (q_heap p s) <> TTimeout -> ~ app_set c s TTimeout ->
  (o_idle o = 0 \/ s_notif (q_heap p s) <> 0 \/ s_callhome (q_heap p s) = true) -> s_term (q_heap p' s) <> TTimeout.
Proof.
  intros o p c p' ret rs out s Hl E H1 Ha HO H2. destruct (c18_reason o p c p' ret rs out s Hl E) as [Eq|HC]; [congruence|].
  rewrite H2 in HC. destruct HC as [HC|(Hc & Hn & Hi & HT)]; [contradiction|]. destruct HO as [HO|[HO|HO]]; congruence.
Qed.

(** Once inactive for the idle timeout, the next call ends the session, unless it returns another session or fails
    before looking at it. *)
Definition expired (o : opts) (p : pst) (c : pcall) (s : sid) : Prop :=
  s_callhome (q_heap p s) = false /\ s_notif (q_heap p s) = 0 /\ o_idle o <> 0 /\ (0 <= c_timeout c)%Z /\
  (s_last_rpc (q_heap p s) + Z.of_N (o_idle o) <= sec (c_now2 c))%Z.

Lemma sec_mono a b : (a <= b)%Z -> (sec a <= sec b)%Z.
Proof. intros H. unfold sec. apply Z.div_le_mono; lia. Qed.

Theorem c17_terminated_partial : forall o p c p' ret rs out s t, (q_last p < length (q_ents p))%nat -> NoDup (map fst (q_ents p)) ->
  ps_poll o p c = Some (p', ret, rs, out) ->
  nth_error (q_ents p) t = Some (s, PsNone) -> s_status (q_heap p s) = StRunning -> (forall k, c_rpclock c k t = 1%Z) -> expired o p c s ->
  (rs = Some s /\ ret = TERM_ERR /\ s_status (q_heap p' s) = StInvalid /\ s_term (q_heap p' s) = TTimeout)
  \/ (exists s', s' <> s /\ rs = Some s') \/ (rs = None /\ ret = PERROR).
Proof.
  intros o p c p' ret rs out s t Hl ND E Hn Hrun Hlk (X1 & X2 & X3 & X4 & X5).
  assert (Ht : (t < length (q_ents p))%nat) by (apply nth_error_Some; congruence).
  rewrite ps_poll_eq in E by (intros E0; rewrite E0 in Hl; cbn in Hl; lia). set (count := length (q_ents p)) in *.
  destruct (select (look o c) (c_more c) (c_rounds c) 0 count (q_last p) (q_heap p, q_ents p)) as [[[[h es] i] r]|] eqn:ES; [|discriminate].
  cbn zeta in E.
  set (I := fun x : heap * list (sid * pstate) => map fst (snd x) = map fst (q_ents p) /\ ent_at (snd x) t = (s, PsNone) /\ fst x s = q_heap p s).
  assert (Hend : (s_last_rpc (q_heap p s) + Z.of_N (o_idle o) <= end_sec c)%Z).
  { unfold end_sec. destruct (Z.ltb_spec (c_timeout c) 0); [lia|]. pose proof (sec_mono (c_now2 c) (c_now2 c + c_timeout c * 1000000) ltac:(lia)). lia. }
  assert (Hexp : idle_expired (o_idle o) (q_heap p s) (end_sec c) = true).
  { unfold idle_expired. rewrite X1, X2. cbn [negb andb]. change (0 =? 0) with true. destruct (N.eqb_spec (o_idle o) 0); [contradiction|].
    cbn. now apply Z.leb_le. }
  assert (Hinj : forall j x, (j < count)%nat -> j <> t -> I x -> fst (ent_at (snd x) j) <> s).
  { intros j x Hj Hne (HM & HE & _) Es. apply Hne. assert (HLn : length (snd x) = count) by (rewrite <- (map_length fst), HM; apply map_length).
    apply (fst_inj (snd x)); [now rewrite HM|lia|lia|]. now rewrite HE. }
  assert (Hlook : forall k x, I x -> exists x', look o c k t x = (x', TERM_ERR) /\ fst x' s = die (q_heap p s) TTimeout
                    /\ map fst (snd x') = map fst (snd x)).
  { intros k [hx ex] (HM & HE & HH). cbn [fst snd] in *. unfold look. rewrite Hlk. change (1 =? -1)%Z with false. change (1 =? 1)%Z with true. cbn match.
    rewrite HE. unfold poll_sess. rewrite HH, Hrun. cbn [status_eqb]. unfold poll_session_io. rewrite Hexp. cbn match.
    eexists. split; [reflexivity|]. cbn [fst snd]. split; [apply hset_same|apply set_ent_fst]. }
  assert (Hkeep : forall k i st, (i < count)%nat -> i <> t -> I st -> I (fst (look o c k i st))).
  { intros k j [hx ex] Hj Hne HI. pose proof (Hinj j _ Hj Hne HI) as Hs. destruct HI as (HM & HE & HH). cbn [fst snd] in *. unfold look.
    destruct (_ =? -1)%Z; [repeat split; assumption|]. destruct (_ =? 1)%Z; [|repeat split; assumption].
    destruct (ent_at ex j) as [s0 st0] eqn:E0. cbn [fst] in Hs. destruct (poll_sess _ _ _ _ _) as [[st' s'] r'].
    repeat split; cbn [fst snd]; [now rewrite set_ent_fst|now rewrite set_ent_other|]. unfold hset. destruct (N.eqb_spec s s0); [congruence|exact HH]. }
  (* indices stay in range *)
  set (J := fun x : heap * list (sid * pstate) => I x \/ exists k, exists x0, I x0 /\ fst (look o c k t x0) = x).
  assert (HR : r <> TIMEOUT /\ (i < count)%nat /\ (i <> t -> I (h, es)) /\ exists k x, I x /\ look o c k i x = (h, es, r)).
  { clear E. destruct (c_rounds c) as [|fuel]; [discriminate|]. cbn [select] in ES.
    assert (HRR : forall n j st, (j < count)%nat -> (dist count j t <= n)%nat -> I st ->
       let '(st', j', r') := round (look o c) 0 n count j st in r' <> TIMEOUT /\ (j' < count)%nat /\ (j' <> t -> I st') /\ exists k x, I x /\ look o c k j' x = (st', r')).
    { induction n as [|n IH]; intros j st Hj Hd HI; cbn [round].
      - assert (j = t) as -> by (unfold dist in Hd; destruct (Nat.leb_spec j t); lia). destruct (Hlook 0%nat st HI) as (x' & Ex & _).
        rewrite Ex. change (TERM_ERR =? TIMEOUT) with false. cbn match. (split; [discriminate|split; [exact Ht|split; [congruence|exists 0%nat, st; split; [exact HI|exact Ex]]]]).
      - destruct (Nat.eq_dec j t) as [->|Hne].
        + destruct (Hlook 0%nat st HI) as (x' & Ex & _). rewrite Ex. change (TERM_ERR =? TIMEOUT) with false. cbn match.
          (split; [discriminate|split; [exact Ht|split; [congruence|exists 0%nat, st; split; [exact HI|exact Ex]]]]).
        + pose proof (Hkeep 0%nat j st Hj Hne HI) as HI'. destruct (look o c 0 j st) as [st' r'] eqn:El. cbn [fst] in HI'.
          destruct (N.eqb_spec r' TIMEOUT) as [->|Hr'].
          * pose proof (dist_next count j t Hj Ht Hne). apply IH; [now apply next_lt|lia|exact HI'].
          * split; [exact Hr'|split; [exact Hj|split; [intros _; exact HI'|exists 0%nat, st; split; [exact HI|exact El]]]]. }
    assert (Hs0 : (start count (q_last p) < count)%nat) by exact (next_lt count _ Hl).
    assert (HI0 : I (q_heap p, q_ents p)) by (repeat split; cbn [fst snd]; unfold ent_at; now apply nth_error_nth).
    specialize (HRR (count - 1)%nat (start count (q_last p)) (q_heap p, q_ents p) Hs0 ltac:(pose proof (dist_bound count _ t Hs0 Ht); lia) HI0).
    destruct (round (look o c) 0 (count - 1) count (start count (q_last p)) (q_heap p, q_ents p)) as [[st1 j1] r1]. destruct HRR as (H1 & H2 & H3 & H4).
    destruct (N.eqb_spec r1 TIMEOUT); [contradiction|]. injection ES as -> -> ->. auto. }
  clear J. destruct HR as (Hr & Hi & Hkp & k & x & HIx & Ex). destruct (Nat.eq_dec i t) as [->|Hne].
  - destruct (Hlook k x HIx) as (x' & Ex' & Hd & HM). rewrite Ex in Ex'. injection Ex' as <- ->. change (TERM_ERR =? RPC) with false in E.
    change (is_event TERM_ERR) with true in E. cbn match in E. injection E as <- <- <- _. left. cbn [q_heap fst snd] in *. rewrite Hd.
    assert (Es : fst (ent_at es t) = s) by (rewrite ent_at_fst, HM, <- ent_at_fst; destruct HIx as (_ & -> & _); reflexivity). rewrite Es. auto.
  - right. destruct (is_event r) eqn:Eev.
    + left. exists (fst (ent_at es i)). split; [exact (Hinj i _ Hi Hne (Hkp Hne))|].
      destruct (r =? RPC); [destruct (serve _ _ _ _) as [[[? ?] ?] ?]|]; now injection E.
    + right. destruct (N.eqb_spec r RPC) as [->|_]; [discriminate|]. injection E as _ <- <- _. split; [reflexivity|].
      destruct (N.eq_dec r PERROR) as [|Hp]; [assumption|]. destruct (look_cases _ _ _ _ _ _ _ _ Ex Hr Hp) as (st & _ & _ & _ & [[_ HC]|(_ & _ & HC)]).
      * apply io_cases in HC. destruct HC as [[_ [->|[->|[->|[->| ->]]]]]|[[_ ->]|(-> & _)]]; try discriminate; congruence.
      * destruct (_ =? 1); subst r; discriminate.
Qed.

(** The Call Home thread ends a session for inactivity exactly when it has no subscription, the connection is
    periodic with an idle timeout, and that many (whole) seconds passed since the last recorded activity. *)
Theorem c17_callhome : forall periodic idle s now, s_term s <> TTimeout ->
  (s_term (ch_idle_check periodic idle s now) = TTimeout <->
   s_notif s = 0 /\ periodic = true /\ idle <> 0 /\ (s_last_rpc s + Z.of_N idle <= now)%Z).
Proof.
  intros periodic idle s now H. unfold ch_idle_check. destruct (N.eqb_spec (s_notif s) 0) as [E1|E1]; cbn [andb]; [|intuition congruence].
  destruct periodic; cbn [N.eqb negb andb]; [|intuition congruence].
  destruct (N.eqb_spec idle 0) as [E2|E2]; cbn [negb andb]; [intuition congruence|].
  destruct (Z.leb_spec (s_last_rpc s + Z.of_N idle) now) as [E3|E3]; cbn; intuition (try congruence; try lia).
Qed.

(** The full statement is false.  For every idle timeout, a session whose request was served in this very second is ended by
    a poll with a timeout that long. *)
Theorem c17_early_refuted : forall idle, 0 < idle -> exists c p1,
  let p := mkP (fun _ => unix_sess) [(100, PsNone)] 0 in
  s_last_rpc (q_heap p 100) = sec (c_now c) /\ c_timeout c = (Z.of_N idle * 1000)%Z /\ (forall k i, c_ans c k i = quiet) /\
  ps_poll (mkO idle false) p c = Some (p1, TERM_ERR, Some 100, []) /\ s_term (q_heap p1 100) = TTimeout.
Proof.
  intros idle Hi. exists (mkC (Z.of_N idle * 1000) 0 0 0 (fun _ _ => 1%Z) (fun _ _ => quiet) (fun _ => false) 1 RdBlock WrSent (mkCb None []) WrSent).
  assert (HX : idle_expired idle unix_sess (end_sec (mkC (Z.of_N idle * 1000) 0 0 0 (fun _ _ => 1%Z) (fun _ _ => quiet) (fun _ => false) 1 RdBlock WrSent (mkCb None []) WrSent)) = true).
  { unfold idle_expired, end_sec, unix_sess. cbn [c_timeout c_now2 s_callhome s_notif s_last_rpc negb andb].
    destruct (Z.ltb_spec (Z.of_N idle * 1000) 0); [lia|]. destruct (N.eqb_spec idle 0); [lia|]. change (0 =? 0) with true. cbn [negb andb].
    apply Z.leb_le. unfold sec. replace (0 + Z.of_N idle * 1000 * 1000000)%Z with (Z.of_N idle * 1000000000)%Z by lia. rewrite Z.div_mul by lia. lia. }
  eexists. cbn zeta. split; [reflexivity|]. split; [reflexivity|]. split; [reflexivity|]. split.
  - unfold ps_poll. cbn [q_ents length]. cbn [c_rounds select]. cbn [Nat.sub round]. unfold look, start. cbn [Nat.eqb Nat.sub c_rpclock]. change (1 =? -1)%Z with false.
    change (1 =? 1)%Z with true. cbn match. unfold ent_at at 1. cbn [nth]. unfold poll_sess. cbn [q_heap unix_sess s_status status_eqb].
    unfold poll_session_io at 1. cbn [o_idle]. fold unix_sess. rewrite HX. cbn. reflexivity.
  - reflexivity.
Qed.
(** A request that arrives late in a long poll counts as received when the poll began: with an idle timeout of 20 s, a
    request read up to 15 s into the first call does not keep the next call, at 20 s and without waiting, from ending the session. *)
Definition late_call : pcall :=
  mkC 15000 0 0 0 (fun _ _ => 1%Z) (fun k _ => if Nat.eqb k 1 then readable else quiet) (fun _ => true) 2
      (RdOk env1 (mkOp 1 ClbApp)) WrSent (mkCb (Some ROk) []) WrSent.
Definition next_call : pcall :=
  mkC 0 20000000000 20000000000 0 (fun _ _ => 1%Z) (fun _ _ => quiet) (fun _ => false) 1 RdBlock WrSent (mkCb None []) WrSent.
Theorem c17_arrival_refuted : exists p1 p2,
  ps_poll (mkO 20 false) (mkP (fun _ => unix_sess) [(100, PsNone)] 0) late_call = Some (p1, RPC, Some 100, [make_reply (Some env1) ROk])
  /\ ps_poll (mkO 20 false) p1 next_call = Some (p2, TERM_ERR, Some 100, []) /\ s_term (q_heap p2 100) = TTimeout.
Proof. do 2 eexists. split; [vm_compute; reflexivity|]. split; vm_compute; reflexivity. Qed.
(** With an unlimited poll the end time is never set, and its contents decide. *)
Theorem c17_unlimited_refuted : exists c1 c2 p1, let p := mkP (fun _ => unix_sess) [(100, PsNone)] 0 in
  c_timeout c1 = (-1)%Z /\ c_timeout c2 = (-1)%Z /\ c_now2 c1 = c_now2 c2 /\
  ps_poll (mkO 20 false) p c1 = Some (p1, TERM_ERR, Some 100, []) /\ ps_poll (mkO 20 false) p c2 = None.
Proof.
  exists (mkC (-1) 0 0 1000 (fun _ _ => 1%Z) (fun _ _ => quiet) (fun _ => true) 5 RdBlock WrSent (mkCb None []) WrSent),
         (mkC (-1) 0 0 0 (fun _ _ => 1%Z) (fun _ _ => quiet) (fun _ => true) 5 RdBlock WrSent (mkCb None []) WrSent).
  eexists. cbn zeta. repeat split; vm_compute; reflexivity.
Qed.

(** A non-trivial case: after 20 s of silence one of two sessions is ended, the subscribed one is not. *)
Definition subscribed : sess := mkS StRunning TNone 0 false 2 0 TiUnix true.
Example c17_case : let p := mkP (fun s => if s =? 100 then unix_sess else subscribed) [(100, PsNone); (200, PsNone)] 0 in
  expired (mkO 20 false) p next_call 100 /\
  exists p1, ps_poll (mkO 20 false) p next_call = Some (p1, TERM_ERR, Some 100, []) /\ s_status (q_heap p1 200) = StRunning.
Proof. cbn zeta. split; [repeat split; cbn; discriminate|]. eexists. split; vm_compute; reflexivity. Qed.

Print Assumptions c18_reason.
Print Assumptions c18_reason_history.
Print Assumptions c18_report_partial.
Print Assumptions c18_report_refuted.
Print Assumptions c17_only_partial.
Print Assumptions c17_never.
Print Assumptions c17_terminated_partial.
Print Assumptions c17_callhome.
Print Assumptions c17_early_refuted.
Print Assumptions c17_arrival_refuted.
Print Assumptions c17_unlimited_refuted.
