(** Properties C16 (one reply per request) and C20 (messages that are not valid requests). *)
From Coq Require Import Ascii String NArith ZArith Bool Lia List Arith.
From Verif Require Import Bytes PsSess PsPoll Prop_PsFair Prop_PsTerm.
Import ListNotations.
Local Open Scope N_scope.

(* ================================================================== *)
(** * Specification *)

(** The call finds data on session [s] and reads a message of it; [h] are the sessions at that moment. *)
Definition takes (o : opts) (p : pst) (c : pcall) (s : sid) (h : heap) : Prop :=
  exists es i, select (look o c) (c_more c) (c_rounds c) 0 (length (q_ents p)) (q_last p) (q_heap p, q_ents p) = Some (h, es, i, RPC)
               /\ fst (ent_at es i) = s.

(** The message has a message-id attribute (in no namespace, as RFC 6241 has it; in any namespace). *)
Definition identified (e : envelope) : Prop := exists a, In a (en_attrs e) /\ at_name a = bs "message-id" /\ at_ns a = None.
Definition named_id (e : envelope) : Prop := exists a, In a (en_attrs e) /\ at_name a = bs "message-id".

(** What the answer to an operation must contain. *)
Definition expected (o : opts) (op : operation) (cb : cbres) : reply :=
  match op_clb op, o_glob o with
  | ClbClose, _ => ROk
  | ClbNone, false => RError (EOpNotSupported TyProt)
  | _, _ => match cb_reply cb with Some r => r | None => RError (EOpFailed TyApp) end
  end.

(** The answer [m] to [e]: all its attributes (hence its message-id), namespace and prefix. *)
Definition answers_to (e : envelope) (body : reply) (m : rmsg) : Prop :=
  rm_attrs m = en_attrs e /\ rm_ns m = en_ns e /\ rm_prefix m = en_prefix e /\ rm_body m = body.

(** The callback does not end the session whose request it serves. *)
Definition leaves (c : pcall) (s : sid) : Prop := forall st, ~ In (XStatus s st) (cb_effs (c_cb c)).

(** A message that is not a valid request: a malformed frame, not parsable, or without message-id. *)
Definition invalid_msg (r : rd) : Prop :=
  match r with
  | RdMalformed | RdBad _ _ => True
  | RdOk e _ => ~ named_id e
  | _ => False
  end.

(* ================================================================== *)
(** * Proofs *)

Lemma starts_refl a : starts a a = true.
Proof. induction a as [|x a IH]; cbn; [reflexivity|]. now rewrite Ascii.eqb_refl. Qed.
Lemma starts_eq : forall a b, starts a b = true -> length a = length b -> a = b.
Proof.
  induction a as [|x a IH]; intros [|y b] H1 H2; cbn in *; try discriminate; [reflexivity|]. apply andb_prop in H1 as [H1 H3].
  apply Ascii.eqb_eq in H1. f_equal; [exact H1|]. apply IH; [exact H3|lia].
Qed.
Lemma beq_iff a b : beq a b = true <-> a = b.
Proof.
  unfold beq. rewrite andb_true_iff, Nat.eqb_eq. split; [intros [H1 H2]; now apply starts_eq|intros ->; split; [apply starts_refl|reflexivity]].
Qed.
Lemma has_msgid_iff e : has_msgid e = true <-> named_id e.
Proof.
  unfold has_msgid, named_id. rewrite existsb_exists. split; intros (a & H1 & H2); exists a; (split; [exact H1|]); now apply beq_iff.
Qed.

Lemma takes_run o p c s h : (q_last p < length (q_ents p))%nat -> takes o p c s h -> s_status (h s) = StRunning.
Proof.
  intros Hl (es & i & ES & <-).
  destruct (select_inv (look o c) (length (q_ents p)) (sel_inv o p c) (fun k i st Hi Hst => look_inv o p c k i st Hi Hst) _ _ _ _ _ _ _ _ Hl
     (sel_init o p c) ES) as (_ & Hi & Hx).
  destruct Hx as (k & x & _ & Ex); [discriminate|].
  destruct (look_cases _ _ _ _ _ _ _ _ Ex) as (st & _ & Ef & _ & HC); [discriminate|discriminate|]. cbn zeta in HC. rewrite <- Ef in HC.
  destruct HC as [[Hrun HC]|(_ & _ & HC)]; [|destruct (_ =? 1); discriminate].
  apply io_cases in HC. destruct HC as [[-> _]|[[_ HC]|[HC _]]]; [exact Hrun|discriminate|discriminate].
Qed.

Lemma takes_poll o p c s h : (q_last p < length (q_ents p))%nat -> takes o p c s h ->
  exists es i l, ps_poll o p c = let '(h', ret, st, out) := serve o c h s in Some (mkP h' (set_ent es i st) l, ret, Some s, out).
Proof.
  intros Hl (es & i & ES & <-). rewrite ps_poll_eq by (intros E0; rewrite E0 in Hl; cbn in Hl; lia). rewrite ES. cbn zeta.
  change (RPC =? RPC) with true. change (is_event RPC) with true. cbn match.
  exists es, i, i. destruct (serve o c h (fst (ent_at es i))) as [[[h' ret] st] out]. reflexivity.
Qed.

(** Without data on a session nothing is read or sent. *)
Lemma untaken o p c p' ret rs out : ps_poll o p c = Some (p', ret, rs, out) -> (forall s h, ~ takes o p c s h) -> out = [] /\ has ret RPC = false.
Proof.
  intros E Hn. destruct (q_ents p) as [|x l] eqn:EE; [unfold ps_poll in E; rewrite EE in E; injection E as _ <- _ <-; split; reflexivity|].
  rewrite ps_poll_eq in E by (rewrite EE; discriminate).
  destruct (select (look o c) (c_more c) (c_rounds c) 0 (length (q_ents p)) (q_last p) (q_heap p, q_ents p)) as [[[[h es] i] r]|] eqn:ES; [|discriminate].
  cbn zeta in E. destruct (N.eqb_spec r RPC) as [->|Hr]; [exfalso; apply (Hn (fst (ent_at es i)) h); exists es, i; auto|].
  injection E as _ <- _ <-. split; [reflexivity|].
  assert (HV : forall more fuel k last st st' j r', select (look o c) more fuel k (length (q_ents p)) last st = Some (st', j, r') ->
     r' = TIMEOUT \/ exists k i x x', look o c k i x = (x', r')).
  { assert (HVR : forall k n i0 st, let '(st', j, r') := round (look o c) k n (length (q_ents p)) i0 st in r' = TIMEOUT \/ exists k i x x', look o c k i x = (x', r')).
    { intros k n. induction n as [|n IH]; intros i0 st; cbn [round]; destruct (look o c k i0 st) as [x' r'] eqn:El.
      - destruct (N.eqb_spec r' TIMEOUT); [auto|]. right. exists k, i0, st, x'. exact El.
      - destruct (N.eqb_spec r' TIMEOUT); [apply IH|]. right. exists k, i0, st, x'. exact El. }
    intros more. induction fuel as [|fuel IH]; intros k last st st' j r' H; cbn [select] in H; [discriminate|].
    specialize (HVR k (length (q_ents p) - 1)%nat (start (length (q_ents p)) last) st).
    destruct (round _ _ _ _ _ _) as [[st1 j1] r1]. destruct (N.eqb_spec r1 TIMEOUT) as [->|Hne].
    - destruct (more k); [eapply IH; exact H|]. injection H as _ _ <-. auto.
    - injection H as _ _ <-. exact HVR. }
  destruct (HV _ _ _ _ _ _ _ _ ES) as [->|(k & j & y & y' & Hy)]; [reflexivity|].
  destruct (N.eq_dec r TIMEOUT) as [->|H1]; [reflexivity|]. destruct (N.eq_dec r PERROR) as [->|H2]; [reflexivity|].
  destruct y' as [h' es']. destruct (look_cases _ _ _ _ _ _ _ _ Hy H1 H2) as (st & _ & _ & _ & [[_ HC]|(_ & _ & HC)]).
  - apply io_cases in HC. destruct HC as [[_ [->|[->|[->|[->| ->]]]]]|[[_ ->]|(-> & _)]]; try reflexivity; congruence.
  - destruct (_ =? 1); subst r; reflexivity.
Qed.

Lemma eff_status i : forall es h, (forall st, ~ In (XStatus i st) es) -> s_status (fold_left apply_eff es h i) = s_status (h i).
Proof.
  induction es as [|e es IH]; intros h H; cbn [fold_left]; [reflexivity|]. rewrite IH by (intros st Hin; apply (H st); now right).
  destruct e as [s t|s k|s st0|s|s]; cbn [apply_eff].
  - destruct (is_none t); [reflexivity|]. cbn zeta. unfold hset. destruct (N.eqb_spec i s) as [->|]; [|reflexivity]. destruct (_ && _); reflexivity.
  - destruct (_ || _); [reflexivity|]. unfold hset. destruct (N.eqb_spec i s) as [->|]; reflexivity.
  - destruct (status_eqb st0 StStarting); [reflexivity|]. unfold hset. destruct (N.eqb_spec i s) as [->|]; [|reflexivity]. exfalso. apply (H st0). now left.
  - unfold hset. destruct (N.eqb_spec i s) as [->|]; reflexivity.
  - unfold hset. destruct (N.eqb_spec i s) as [->|]; reflexivity.
Qed.

Lemma callback_spec o h i op cb : snd (run_callback (o_glob o) h i op cb) = expected o op cb.
Proof. unfold run_callback, expected. destruct (op_clb op), (o_glob o); reflexivity. Qed.
Lemma callback_status o h i op cb : (forall st, ~ In (XStatus i st) (cb_effs cb)) ->
  s_status (fst (run_callback (o_glob o) h i op cb) i) = s_status (h i).
Proof.
  intros H. unfold run_callback. destruct (op_clb op); [destruct (o_glob o)| |]; cbn [fst]; try (now apply eff_status); try reflexivity.
  unfold close_session, hset. now rewrite N.eqb_refl.
Qed.

Lemma make_answers e r : answers_to e r (make_reply (Some e) r). Proof. repeat split. Qed.

(* ================================================================== *)
(** * C16 *)

(** A call that reads a request with message-id sends exactly one reply, with all attributes of the request and what the callback
    decided, and reports the request. *)
Theorem c16_one_reply_partial : forall o p c s h e op, (q_last p < length (q_ents p))%nat -> takes o p c s h ->
  c_rd c = RdOk e op -> identified e -> c_w2 c = WrSent -> leaves c s ->
  exists p' ret m, ps_poll o p c = Some (p', ret, Some s, [m]) /\ answers_to e (expected o op (c_cb c)) m /\
    has ret RPC = true /\ has ret BAD_RPC = false /\ has ret REPLY_ERROR = match expected o op (c_cb c) with RError _ => true | _ => false end.
Proof.
  intros o p c s h e op Hl HT Hrd (a & Ha1 & Ha2 & _) Hw HL. pose proof (takes_run _ _ _ _ _ Hl HT) as Hrun.
  destruct (takes_poll _ _ _ _ _ Hl HT) as (es & i & l & ->).
  assert (Hid : has_msgid e = true) by (apply has_msgid_iff; exists a; auto).
  unfold serve, recv_rpc. rewrite Hrun, Hrd, Hid. cbn [status_eqb negb]. change (has RPC (N.lor PERROR BAD_RPC)) with false. cbn match.
  unfold send_reply. match goal with |- context [run_callback ?g ?hh s op ?cb] => pose proof (callback_spec o hh s op cb) as H1; pose proof (callback_status o hh s op cb HL) as H2;
    destruct (run_callback g hh s op cb) as [h1 rep] end. cbn [fst snd] in *. subst rep.
  assert (H3 : s_status (h1 s) = StRunning) by (rewrite H2; unfold hset; rewrite !N.eqb_refl; exact Hrun).
  unfold write_reply. rewrite H3, Hw. cbn match. cbn [mt_reply].
  unfold after_serve. match goal with |- context [if ?b then (?x, PsNone) else _] => destruct b end; do 3 eexists; (split; [reflexivity|]);
    (split; [apply make_answers|]); rewrite !lor_has; try (destruct (has (term_code _) 3)); unfold is_error; destruct (expected o op (c_cb c)); repeat split; reflexivity.
Qed.

(** A request without message-id gets exactly one error reply (missing-attribute), and the operation is not run. *)
Theorem c16_no_id_partial : forall o p c s h e op, (q_last p < length (q_ents p))%nat -> takes o p c s h ->
  c_rd c = RdOk e op -> ~ named_id e -> c_w1 c = WrSent ->
  exists p' ret m, ps_poll o p c = Some (p', ret, Some s, [m]) /\
    answers_to e (RError (EMissingAttr TyRpc (bs "message-id") (bs "rpc"))) m /\ has ret RPC = false /\ has ret BAD_RPC = true.
Proof.
  intros o p c s h e op Hl HT Hrd Hid Hw. pose proof (takes_run _ _ _ _ _ Hl HT) as Hrun.
  destruct (takes_poll _ _ _ _ _ Hl HT) as (es & i & l & ->).
  assert (Hid' : has_msgid e = false) by (destruct (has_msgid e) eqn:E; [exfalso; apply Hid; now apply has_msgid_iff|reflexivity]).
  unfold serve, recv_rpc. rewrite Hrun, Hrd, Hid'. cbn [status_eqb negb]. unfold recv_reply, write_reply. rewrite Hrun, Hw. cbn match. cbn [mt_reply].
  change (has (N.lor BAD_RPC REPLY_ERROR) (N.lor PERROR BAD_RPC)) with true. cbn match. unfold after_recv_fail. rewrite hset_same, Hrun. cbn [status_eqb].
  do 3 eexists. split; [reflexivity|]. split; [apply make_answers|]. split; reflexivity.
Qed.

(** Whatever happens, a call sends at most one reply, and only an answer to the message it read: with the attributes of
    that message or, if it could not be parsed, with none. *)
Theorem c16_at_most_one : forall o p c p' ret rs out, (q_last p < length (q_ents p))%nat -> ps_poll o p c = Some (p', ret, rs, out) ->
  out = [] \/
  exists m s h, out = [m] /\ rs = Some s /\ takes o p c s h /\
    match c_rd c with
    | RdOk e op => exists body, answers_to e body m
    | RdBad (Some e) _ => exists err, answers_to e (RError err) m
    | RdBad None _ | RdMalformed => rm_attrs m = [] /\ rm_ns m = NS_BASE /\ exists err, rm_body m = RError err
    | _ => False
    end.
Proof.
  intros o p c p' ret rs out Hl E.
  destruct (select (look o c) (c_more c) (c_rounds c) 0 (length (q_ents p)) (q_last p) (q_heap p, q_ents p)) as [[[[h es] i] r]|] eqn:ES.
  2:{ rewrite ps_poll_eq in E by (intros E0; rewrite E0 in Hl; cbn in Hl; lia). rewrite ES in E. discriminate. }
  destruct (N.eqb_spec r RPC) as [->|Hr].
  2:{ rewrite ps_poll_eq in E by (intros E0; rewrite E0 in Hl; cbn in Hl; lia). rewrite ES in E. cbn zeta in E. apply N.eqb_neq in Hr. rewrite Hr in E.
      injection E as _ _ _ <-. now left. }
  set (s := fst (ent_at es i)) in *. assert (HT : takes o p c s h) by (exists es, i; auto). pose proof (takes_run _ _ _ _ _ Hl HT) as Hrun.
  destruct (takes_poll _ _ _ _ _ Hl HT) as (es' & i' & l & Ep). rewrite Ep in E. clear Ep.
  assert (HW : forall s0 e r w s1 m out0, write_reply s0 e r w = (s1, m, out0) -> out0 = [] \/ out0 = [make_reply e r]).
  { intros s0 e r w s1 m out0 H. unfold write_reply in H. destruct (s_status s0); destruct w; injection H as _ _ <-; auto. }
  assert (HRR : forall s0 e n w b s1 b' out0, recv_reply s0 e n w b = (s1, b', out0) -> out0 = [] \/ out0 = [make_reply e (RError n)]).
  { intros s0 e n w b s1 b' out0 H. unfold recv_reply in H. destruct (write_reply s0 e (RError n) w) as [[s2 m] out2] eqn:EW.
    injection H as _ _ <-. now apply HW in EW. }
  assert (HV : forall h' b st out0, serve o c h s = (h', b, st, out0) -> out0 = [] \/ exists e r, out0 = [make_reply e r] /\
     match c_rd c with
     | RdOk e0 _ => e = Some e0
     | RdBad e0 _ => e = e0 /\ exists err, r = RError err
     | RdMalformed => e = None /\ exists err, r = RError err
     | _ => False end).
  { intros h' b st out0 H. unfold serve, recv_rpc in H. rewrite Hrun in H. cbn [status_eqb negb] in H.
    assert (HF : forall (x y : list rmsg) P, (x = [] \/ P x) -> y = [] -> x ++ y = [] \/ P (x ++ y)) by (intros x y P HX ->; now rewrite app_nil_r).
    destruct (c_rd c) as [|[f|]| | |e op|e err].
    - change (has TIMEOUT (N.lor PERROR BAD_RPC)) with false in H. cbn match in H. cbn [send_reply] in H. destruct (after_serve _ _ _) as [? ?] in H. injection H as _ _ _ <-. now left.
    - change (has PERROR (N.lor PERROR BAD_RPC)) with true in H. destruct (after_recv_fail _ _ _) as [? ?] in H. injection H as _ _ _ <-. now left.
    - change (has PERROR (N.lor PERROR BAD_RPC)) with true in H. destruct (after_recv_fail _ _ _) as [? ?] in H. injection H as _ _ _ <-. now left.
    - destruct (recv_reply (h s) None EMalformed (c_w1 c) 0) as [[s1 b1] o1] eqn:ER. apply HRR in ER.
      destruct (has b1 (N.lor PERROR BAD_RPC)).
      + destruct (after_recv_fail _ _ _) as [? ?] in H. injection H as _ _ _ <-. destruct ER as [->| ->]; [now left|right]. eauto 7.
      + cbn [send_reply] in H. destruct (after_serve _ _ _) as [? ?] in H. injection H as _ _ _ <-. rewrite app_nil_r.
        destruct ER as [->| ->]; [now left|right]. eauto 7.
    - change (has PERROR (N.lor PERROR BAD_RPC)) with true in H. destruct (after_recv_fail _ _ _) as [? ?] in H. injection H as _ _ _ <-. now left.
    - destruct (has_msgid e).
      + change (has RPC (N.lor PERROR BAD_RPC)) with false in H. cbn match in H. unfold send_reply in H.
        destruct (run_callback _ _ _ _ _) as [h1 rep] in H. destruct (write_reply (h1 s) (Some e) rep (c_w2 c)) as [[s2 m] o2] eqn:EW in H.
        destruct (after_serve _ _ _) as [? ?] in H. injection H as _ _ _ <-. apply HW in EW. cbn [app]. destruct EW as [->| ->]; [now left|right]. eauto.
      + destruct (recv_reply (h s) (Some e) _ (c_w1 c) BAD_RPC) as [[s1 b1] o1] eqn:ER in H. apply HRR in ER.
        destruct (has b1 (N.lor PERROR BAD_RPC)).
        * destruct (after_recv_fail _ _ _) as [? ?] in H. injection H as _ _ _ <-. destruct ER as [->| ->]; [now left|right]. eauto.
        * cbn [send_reply] in H. destruct (after_serve _ _ _) as [? ?] in H. injection H as _ _ _ <-. rewrite app_nil_r.
          destruct ER as [->| ->]; [now left|right]. eauto.
    - destruct (prepare_rpc_err (h s) e err) as [n|].
      + destruct (recv_reply (h s) e n (c_w1 c) BAD_RPC) as [[s1 b1] o1] eqn:ER in H. apply HRR in ER.
        destruct (has b1 (N.lor PERROR BAD_RPC)).
        * destruct (after_recv_fail _ _ _) as [? ?] in H. injection H as _ _ _ <-. destruct ER as [->| ->]; [now left|right]. eauto 7.
        * cbn [send_reply] in H. destruct (after_serve _ _ _) as [? ?] in H. injection H as _ _ _ <-. rewrite app_nil_r.
          destruct ER as [->| ->]; [now left|right]. eauto 7.
      + change (has BAD_RPC (N.lor PERROR BAD_RPC)) with true in H. destruct (after_recv_fail _ _ _) as [? ?] in H. injection H as _ _ _ <-. now left. }
  destruct (serve o c h s) as [[[h' b] st] out0]. injection E as _ _ <- <-.
  destruct (HV _ _ _ _ eq_refl) as [->|(e & r & -> & HM)]; [now left|]. right. exists (make_reply e r), s, h. split; [reflexivity|]. split; [reflexivity|].
  split; [exact HT|]. destruct (c_rd c) as [| | | |e0 op|[e0|] err]; try contradiction.
  - destruct HM as [-> [err ->]]. cbn. eauto.
  - subst e. exists r. apply make_answers.
  - destruct HM as [-> [err' ->]]. exists err'. apply make_answers.
  - destruct HM as [-> [err' ->]]. cbn. eauto.
Qed.

(** The full statement is false: a request whose reply the writer gives up is reported as answered. *)
Definition silent_call : pcall :=
  mkC 0 0 0 0 (fun _ _ => 1%Z) (fun _ _ => readable) (fun _ => false) 1
      (RdOk env1 (mkOp 1 ClbApp)) WrSent (mkCb (Some ROk) []) WrSilent.
Theorem c16_silent_refuted : exists p', ps_poll (mkO 0 false) pair silent_call = Some (p', RPC, Some 200, [])
  /\ s_status (q_heap p' 200) = StRunning.
Proof. eexists. split; vm_compute; reflexivity. Qed.
(** Nor is a reply sent if the callback ends the session of the request (here, as kill-session of the own session). *)
Definition suicide_call : pcall :=
  mkC 0 0 0 0 (fun _ _ => 1%Z) (fun _ _ => readable) (fun _ => false) 1
      (RdOk env1 (mkOp 1 ClbApp)) WrSent (mkCb (Some ROk) [XTerm 200 TKilled; XStatus 200 StInvalid]) WrSent.
Theorem c16_suicide_refuted : exists p' ret, ps_poll (mkO 0 false) pair suicide_call = Some (p', ret, Some 200, []) /\ has ret RPC = true.
Proof. do 2 eexists. split; vm_compute; reflexivity. Qed.
(** And a request whose only "message-id" is in another namespace is served, without a message-id in the reply. *)
Definition env_x : envelope := mkEnv None NS_BASE [mkAttr (Some (bs "urn:x")) (bs "message-id") (bs "7")].
Definition foreign_call : pcall :=
  mkC 0 0 0 0 (fun _ _ => 1%Z) (fun _ _ => readable) (fun _ => false) 1
      (RdOk env_x (mkOp 1 ClbApp)) WrSent (mkCb (Some ROk) []) WrSent.
Theorem c16_foreign_refuted : ~ identified env_x /\ exists p', ps_poll (mkO 0 false) pair foreign_call = Some (p', RPC, Some 200, [make_reply (Some env_x) ROk]).
Proof.
  split; [intros (a & [<-|[]] & _ & H); discriminate|]. eexists. vm_compute. reflexivity.
Qed.

(** A non-trivial case: the second session has a request with two attributes; the callback gives data. *)
Definition env2 : envelope := mkEnv (Some (bs "nc")) NS_BASE [mkAttr None (bs "a") (bs "b"); mkAttr None (bs "message-id") (bs "101")].
Definition data2_call : pcall :=
  mkC 0 0 0 0 (fun _ _ => 1%Z) (fun _ i => if Nat.eqb i 1 then readable else quiet) (fun _ => false) 1
      (RdOk env2 (mkOp 1 ClbApp)) WrSent (mkCb (Some (RData 5)) [XInc 200]) WrSent.
Example c16_case : (exists h, takes (mkO 0 false) pair data2_call 200 h) /\ identified env2 /\ leaves data2_call 200
  /\ exists p', ps_poll (mkO 0 false) pair data2_call = Some (p', RPC, Some 200, [make_reply (Some env2) (RData 5)]).
Proof.
  split; [|split; [|split]].
  - eexists. do 2 eexists. split; [vm_compute; reflexivity|reflexivity].
  - exists (mkAttr None (bs "message-id") (bs "101")). cbn. auto.
  - intros st [H|[]]. discriminate.
  - eexists. vm_compute. reflexivity.
Qed.

(* ================================================================== *)
(** * C20 *)

Definition with_cb (c : pcall) (cb : cbres) : pcall :=
  mkC (c_timeout c) (c_now c) (c_now2 c) (c_garbage c) (c_rpclock c) (c_ans c) (c_more c) (c_rounds c) (c_rd c) (c_w1 c) cb (c_w2 c).

(** Unless a valid request was read, no operation is run: the call is the same whatever the callbacks do. *)
Theorem c20_never_processed : forall o p c cb, (forall e op, c_rd c = RdOk e op -> ~ named_id e) ->
  ps_poll o p (with_cb c cb) = ps_poll o p c.
Proof.
  intros o p c cb H. unfold ps_poll. destruct (q_ents p) as [|x l] eqn:EE; [reflexivity|].
  change (look o (with_cb c cb)) with (look o c). cbn [c_more c_rounds with_cb].
  destruct (select (look o c) (c_more c) (c_rounds c) 0 _ (q_last p) _) as [[[[h es] i] r]|]; [|reflexivity].
  cbn zeta. destruct (r =? RPC); [|reflexivity].
  assert (Es : serve o (with_cb c cb) h (fst (ent_at es i)) = serve o c h (fst (ent_at es i))); [|now rewrite Es].
  unfold serve. cbn [c_rd c_w1 c_cb c_w2 c_now with_cb].
  destruct (recv_rpc (h (fst (ent_at es i))) (c_rd c) (c_w1 c)) as [[[s1 ret] rpc] out1] eqn:ER.
  destruct (has ret (N.lor PERROR BAD_RPC)); [reflexivity|].
  assert (rpc = None) as ->; [|reflexivity]. destruct rpc as [[e op]|]; [|reflexivity]. exfalso. unfold recv_rpc in ER.
  destruct (negb _); [congruence|]. destruct (c_rd c) as [|[f|]| | |e0 op0|e0 err]; try discriminate.
  - destruct (recv_reply _ _ _ _ _) as [[? ?] ?]. congruence.
  - destruct (has_msgid e0) eqn:EM; [|destruct (recv_reply _ _ _ _ _) as [[? ?] ?]; congruence]. apply (H e0 op0 eq_refl). now apply has_msgid_iff.
  - destruct (prepare_rpc_err _ _ _); [destruct (recv_reply _ _ _ _ _) as [[? ?] ?]|]; congruence.
Qed.

(** An invalid message is answered with exactly one error reply and the session goes on, if the reply can be written; the only
    exception is an unparsable message on a 1.0 session, for which nothing happens. *)
Theorem c20_answered_partial : forall o p c s h, (q_last p < length (q_ents p))%nat -> takes o p c s h ->
  invalid_msg (c_rd c) -> c_w1 c = WrSent -> s_term (h s) = TNone ->
  exists p' ret, s_status (q_heap p' s) = StRunning /\ s_term (q_heap p' s) = TNone /\ has ret SESSION_TERM = false /\ has ret RPC = false /\
   ((exists m err, ps_poll o p c = Some (p', ret, Some s, [m]) /\ rm_body m = RError err /\ (c_rd c = RdMalformed -> err = EMalformed)
       /\ (forall e, c_rd c = RdBad None e -> err = EMalformed \/ le_msg e = bs "Missing XML namespace." /\ err = EMissingAttr TyRpc (bs "xmlns") (bs "rpc")))
    \/ (ps_poll o p c = Some (p', ret, Some s, []) /\ s_v11 (h s) = false /\ exists e, c_rd c = RdBad None e)).
Proof.
  intros o p c s h Hl HT HI Hw Htn. pose proof (takes_run _ _ _ _ _ Hl HT) as Hrun.
  destruct (takes_poll _ _ _ _ _ Hl HT) as (es & i & l & ->).
  assert (HRR : forall e n b, recv_reply (h s) e n (c_w1 c) b = (h s, N.lor b REPLY_ERROR, [make_reply e (RError n)])).
  { intros e n b. unfold recv_reply, write_reply. rewrite Hrun, Hw. reflexivity. }
  unfold serve, recv_rpc. rewrite Hrun. cbn [status_eqb negb]. destruct (c_rd c) as [|[f|]| | |e op|e err]; try contradiction.
  - rewrite HRR. change (has (N.lor 0 REPLY_ERROR) (N.lor PERROR BAD_RPC)) with false. cbn match. cbn [send_reply]. unfold after_serve.
    rewrite !hset_same. cbn [with_last s_status]. rewrite Hrun. cbn [status_eqb]. do 2 eexists. cbn [q_heap].
    do 4 (split; [shelve|]). left. do 2 eexists. split; [reflexivity|]. split; [reflexivity|]. split; [reflexivity|discriminate].
    Unshelve. all: cbn [q_heap]; rewrite ?hset_same; cbn [with_last s_status s_term]; auto.
  - assert (Hid' : has_msgid e = false) by (destruct (has_msgid e) eqn:E; [exfalso; apply HI; now apply has_msgid_iff|reflexivity]).
    rewrite Hid', HRR. change (has (N.lor BAD_RPC REPLY_ERROR) (N.lor PERROR BAD_RPC)) with true. cbn match. unfold after_recv_fail. rewrite !hset_same, Hrun.
    cbn [status_eqb]. do 2 eexists. do 4 (split; [shelve|]). left. do 2 eexists. split; [reflexivity|]. split; [reflexivity|split; discriminate].
    Unshelve. all: cbn [q_heap]; rewrite ?hset_same; auto.
  - destruct (prepare_rpc_err (h s) e err) as [n|] eqn:EP.
    + rewrite HRR. change (has (N.lor BAD_RPC REPLY_ERROR) (N.lor PERROR BAD_RPC)) with true. cbn match. unfold after_recv_fail. rewrite !hset_same, Hrun.
      cbn [status_eqb]. do 2 eexists. do 4 (split; [shelve|]). left. do 2 eexists. split; [reflexivity|]. split; [destruct e; reflexivity|]. split; [discriminate|].
      intros e0 E0. injection E0 as -> ->. unfold prepare_rpc_err in EP. destruct (s_v11 (h s)); cbn [negb] in EP; [|discriminate].
      destruct (beq (bs "Missing XML namespace.") (le_msg e0)) eqn:EB; injection EP as <-; [right|now left]. apply beq_iff in EB. auto.
      Unshelve. all: cbn [q_heap]; rewrite ?hset_same; auto.
    + change (has BAD_RPC (N.lor PERROR BAD_RPC)) with true. cbn match. unfold after_recv_fail. rewrite !hset_same, Hrun.
      cbn [status_eqb]. do 2 eexists. do 4 (split; [shelve|]). right. split; [reflexivity|].
      unfold prepare_rpc_err in EP. destruct e as [e|].
      { exfalso. destruct (le_node err) as [[name b]|]; repeat match type of EP with (if ?b then _ else _) = _ => destruct b end; try discriminate.
        destruct (quoted_string1 _); discriminate. }
      destruct (s_v11 (h s)); cbn [negb] in EP; [destruct (beq _ _); discriminate|]. split; [reflexivity|]. now exists err.
      Unshelve. all: cbn [q_heap]; rewrite ?hset_same; auto.
Qed.

(** If the reply cannot be written, the session is ended. *)
Theorem c20_ended_partial : forall o p c s h, (q_last p < length (q_ents p))%nat -> takes o p c s h ->
  invalid_msg (c_rd c) -> (forall err, c_rd c = RdBad None err -> s_v11 (h s) = true) ->
  c_w1 c = WrBlock \/ c_w1 c = WrFail \/ (exists f, c_w1 c = WrInvalid f) ->
  exists p' ret, ps_poll o p c = Some (p', ret, Some s, []) /\ s_status (q_heap p' s) = StInvalid /\ has ret SESSION_TERM = true.
Proof.
  intros o p c s h Hl HT HI Hv Hw. pose proof (takes_run _ _ _ _ _ Hl HT) as Hrun.
  destruct (takes_poll _ _ _ _ _ Hl HT) as (es & i & l & ->).
  assert (HRR : forall e n b, exists t, recv_reply (h s) e n (c_w1 c) b = (die (h s) t, N.lor b REPLY_ERROR, [])).
  { intros e n b. unfold recv_reply, write_reply. rewrite Hrun. destruct Hw as [->|[->|[f ->]]]; cbn [mt_reply]; rewrite ?Hrun; cbn; eauto. }
  unfold serve, recv_rpc. rewrite Hrun. cbn [status_eqb negb].
  assert (HF : forall t, exists p' ret, (let '(ret', st) := after_recv_fail (hset h s (die (h s) t)) s (N.lor BAD_RPC REPLY_ERROR) in
       Some (mkP (hset h s (die (h s) t)) (set_ent es i st) l, ret', Some s, @nil rmsg)) = Some (p', ret, Some s, []) /\ s_status (q_heap p' s) = StInvalid /\ has ret SESSION_TERM = true).
  { intros t. unfold after_recv_fail. rewrite !hset_same. cbn [die with_st with_term s_status status_eqb].
    do 2 eexists. split; [reflexivity|]. cbn [q_heap]. rewrite hset_same. split; reflexivity. }
  destruct (c_rd c) as [|[f|]| | |e op|e err]; try contradiction.
  - destruct (HRR None EMalformed 0) as [t ->]. change (has (N.lor 0 REPLY_ERROR) (N.lor PERROR BAD_RPC)) with false. cbn match. cbn [send_reply]. unfold after_serve.
    rewrite !hset_same. cbn [with_last s_status s_term die with_st with_term status_eqb]. do 2 eexists. split; [reflexivity|]. cbn [q_heap]. rewrite hset_same.
    split; [reflexivity|]. rewrite !lor_has. now rewrite !orb_true_r.
  - assert (Hid' : has_msgid e = false) by (destruct (has_msgid e) eqn:E; [exfalso; apply HI; now apply has_msgid_iff|reflexivity]).
    rewrite Hid'. destruct (HRR (Some e) (EMissingAttr TyRpc (bs "message-id") (bs "rpc")) BAD_RPC) as [t ->].
    change (has (N.lor BAD_RPC REPLY_ERROR) (N.lor PERROR BAD_RPC)) with true. cbn match.
    destruct (HF t) as (p' & ret & E1 & E2). exists p', ret. split; [|exact E2]. rewrite <- E1. destruct (after_recv_fail _ _ _). reflexivity.
  - destruct (prepare_rpc_err (h s) e err) as [n|] eqn:EP.
    + destruct (HRR e n BAD_RPC) as [t ->]. change (has (N.lor BAD_RPC REPLY_ERROR) (N.lor PERROR BAD_RPC)) with true. cbn match.
      destruct (HF t) as (p' & ret & E1 & E2). exists p', ret. split; [|exact E2]. rewrite <- E1. destruct (after_recv_fail _ _ _). reflexivity.
    + exfalso. unfold prepare_rpc_err in EP. destruct e as [e|].
      { destruct (le_node err) as [[name b]|]; repeat match type of EP with (if ?b then _ else _) = _ => destruct b end; try discriminate.
        destruct (quoted_string1 _); discriminate. }
      rewrite (Hv err eq_refl) in EP. cbn [negb] in EP. destruct (beq _ _); discriminate.
Qed.

(** The full statement is false.  After a malformed frame the server goes on as if it had a request: it records the time
    of a request and calls the sending function without one, which fails (so the call reports an error of its own). *)
Definition malformed_call : pcall :=
  mkC 0 9000000000 9000000000 0 (fun _ _ => 1%Z) (fun _ _ => readable) (fun _ => false) 1 RdMalformed WrSent (mkCb None []) WrSent.
Theorem c20_absent_refuted : exists p' ret, ps_poll (mkO 0 false) pair malformed_call = Some (p', ret, Some 200, [make_reply None (RError EMalformed)])
  /\ has ret PERROR = true /\ has ret BAD_RPC = false /\ s_last_rpc (q_heap p' 200) = 9%Z.
Proof. do 2 eexists. split; [vm_compute; reflexivity|]. repeat split; vm_compute; reflexivity. Qed.
(** On a 1.0 session an unparsable message is neither answered nor ends the session. *)
Definition old_sess : sess := mkS StRunning TNone 0 false 0 0 TiUnix false.
Definition junk_call : pcall :=
  mkC 0 0 0 0 (fun _ _ => 1%Z) (fun _ _ => readable) (fun _ => false) 1 (RdBad None (mkErr (bs "Invalid XML.") false None [])) WrSent (mkCb None []) WrSent.
Theorem c20_v10_refuted : exists p', ps_poll (mkO 0 false) (mkP (fun _ => old_sess) [(100, PsNone)] 0) junk_call = Some (p', BAD_RPC, Some 100, [])
  /\ s_status (q_heap p' 100) = StRunning.
Proof. eexists. split; vm_compute; reflexivity. Qed.

(** A non-trivial case: an unknown attribute in the second of two sessions. *)
Definition unknown_err : lyerr := mkErr (bs "Unknown XML prefix ""x"" at attribute ""y"".") false (Some (bs "get", true)) [].
Definition unknown_call : pcall :=
  mkC 0 0 0 0 (fun _ _ => 1%Z) (fun _ i => if Nat.eqb i 1 then readable else quiet) (fun _ => false) 1 (RdBad (Some env2) unknown_err) WrSent (mkCb None []) WrSent.
Example c20_case : (exists h, takes (mkO 0 false) pair unknown_call 200 h) /\ invalid_msg (c_rd unknown_call)
  /\ exists p' ret, ps_poll (mkO 0 false) pair unknown_call
       = Some (p', ret, Some 200, [make_reply (Some env2) (RError (EUnknownAttr TyProt (bs "y") (bs "get")))]).
Proof.
  split; [|split; [exact I|]].
  - eexists. do 2 eexists. split; [vm_compute; reflexivity|reflexivity].
  - do 2 eexists. vm_compute. reflexivity.
Qed.

Print Assumptions c16_one_reply_partial.
Print Assumptions c16_no_id_partial.
Print Assumptions c16_at_most_one.
Print Assumptions c16_silent_refuted.
Print Assumptions c16_suicide_refuted.
Print Assumptions c16_foreign_refuted.
Print Assumptions c20_never_processed.
Print Assumptions c20_answered_partial.
Print Assumptions c20_ended_partial.
Print Assumptions c20_absent_refuted.
Print Assumptions c20_v10_refuted.
