(** Property C279: from a client to a server and back.  No new model: sending (ClientMsgs), framing (IoWrite, IoRead), polling (PsPoll) and
    receiving (ClientMsgs) put together. *)
From Coq Require Import String Ascii NArith ZArith Bool Arith Lia List.
From Verif Require Import Bytes CStr IoRead IoWrite IoWriteProofs Prop_Io ClientMsgs Prop_ClientSend Prop_ClientRecv Prop_Messages.
From Verif Require PsSess PsPoll Prop_PsFair Prop_PsTerm Prop_PsServe.
Import ListNotations.
Local Open Scope list_scope.
Local Open Scope N_scope.

(* ================================================================== *)
(** * Specification *)

(** What the sender [w] put on the wire between two states comes in at the receiver, first, in whatever pieces; [rest] comes after it. *)
Definition carried (w w' : wst) (t : list tev) (rest : bytes) : Prop := exists sent, ws_wire w' = ws_wire w ++ sent /\ incoming t = sent ++ rest.

(** The request can be printed: no NUL, no end-of-message marker with 1.0, less than 2 GiB. *)
Definition sendable (v : version) (i : sendin) : Prop := si_print i = true /\ clean v (concat (si_op i)) /\ lenN (concat (si_op i)) < 2147480000.

(** libyang reads the only attribute an <rpc> of the library has. *)
Definition read_back (id : N) (e : PsPoll.envelope) : Prop := PsPoll.en_attrs e = [PsPoll.mkAttr None (bs "message-id") (dec id)].
(** What may be printed for a reply: an element rpc-reply as above.  What libyang reads of it at the client: the attributes of the reply. *)
Definition printed (v : version) (all : list bytes) : Prop :=
  fine v (RpcReply all) /\ lenN (concat all) < 2147480000 /\ exists x, concat all = bs "<rpc-reply" ++ x.
Definition parsed_as (m : PsPoll.rmsg) (p : parsed) : Prop :=
  p_envp p = Some (map (fun a => (PsPoll.at_name a, PsPoll.at_val a)) (PsPoll.rm_attrs m)).

(** The client has no reply waiting that it read before. *)
Definition no_reply (b : buffer) : Prop := forall m, ~ In (Reply, m) b.

(* ================================================================== *)
(** * The way to the server *)

Lemma same_parts k i : si_print i = true -> rpc_parts_of k i = parts_of (Rpc k (si_action i) (si_op i)).
Proof. intros H. unfold rpc_parts_of, parts_of, rpc_parts. rewrite H. reflexivity. Qed.

Lemma dec_len k : k < w64 -> (length (dec k) <= 65)%nat.
Proof.
  intros H. unfold dec. etransitivity; [apply IoRoundTrip.dec_fuel_len|].
  assert (H2 : N.log2 k <= 64).
  { destruct (N.eq_dec k 0) as [->|Nz]; [now vm_compute|].
    apply N.lt_le_incl. apply N.log2_lt_pow2; [destruct k; [contradiction|reflexivity]|]. change (2 ^ 64) with w64. exact H. }
  lia.
Qed.
Lemma lenN_app {A} (a b : list A) : lenN (a ++ b) = lenN a + lenN b.
Proof. unfold lenN. rewrite app_length. lia. Qed.
Lemma rpc_len k a op : lenN (concat op) < 2147480000 -> lenN (text (Rpc k a op)) < 2147483000.
Proof.
  intros H. cbn [text]. rewrite !lenN_app.
  assert (D : lenN (dec ((k + 1) mod 18446744073709551616)) <= 65).
  { unfold lenN. pose proof (dec_len ((k + 1) mod 18446744073709551616) ltac:(apply N.mod_lt; discriminate)). lia. }
  destruct a; rewrite ?lenN_app;
  repeat match goal with |- context [lenN (bs ?s)] => let n := eval vm_compute in (lenN (bs s)) in change (lenN (bs s)) with n end; lia.
Qed.

(** A request reported as sent arrives at the server whole, with the id that was reported to the caller, in version 1.0 and 1.1, however the
    transport cuts it; what comes after it is not touched. *)
Theorem c279_request : forall v i st id st1 alloc t rest,
  usable (c_w st) -> sendable v i -> c_msgid st < 18446744073709551615 -> grants alloc 2147484024 ->
  nc_send_rpc v i st = (SSent, Some id, st1) -> carried (c_w st) (c_w st1) t rest ->
  id = c_msgid st + 1 /\ exists msg t', nc_read_msg_io alloc v t = MMsg msg t' /\ is_rpc id msg /\ incoming t' = rest.
Proof.
  intros v i st id st1 alloc t rest U [P [C L]] K G H [sent [W I]]. unfold nc_send_rpc in H.
  destruct (send_msg v i st) as [r s1] eqn:E. destruct r; try discriminate. injection H as EI <-.
  destruct (send_sent _ _ _ _ E) as (Hid & Hok' & Hok & Hw). rewrite (same_parts _ _ P) in Hw.
  assert (Hm : (c_msgid st + 1) mod w64 = c_msgid st + 1) by (apply N.mod_small; unfold w64; lia).
  rewrite Hm in Hid. split; [congruence|].
  destruct (c81_arrives v (Rpc (c_msgid st) (si_action i) (si_op i)) (c_w st) (c_w s1) alloc t rest sent U C (rpc_len _ _ _ L)
    ltac:(intros n LN; apply G; pose proof (rpc_len (c_msgid st) (si_action i) (si_op i) L); lia) Hw W I) as [t' [R [IR _]]].
  exists (text (Rpc (c_msgid st) (si_action i) (si_op i))), t'. split; [exact R|]. split; [|exact IR].
  assert (EI' : id = c_msgid st + 1) by congruence. cbn [text]. change 18446744073709551616 with w64. rewrite Hm, <- EI'.
  eexists. reflexivity.
Qed.

(* ================================================================== *)
(** * And back *)

Lemma take_none b : no_reply b -> take_type Reply b = None.
Proof.
  induction b as [|[ty m] b IH]; intros H; [reflexivity|]. cbn [take_type]. destruct ty; cbn [mtype_eqb].
  - exfalso. exact (H m (or_introl eq_refl)).
  - rewrite IH; [reflexivity|]. intros m' I. exact (H m' (or_intror I)).
Qed.
Lemma check_id id id' : id < w64 -> recv_reply_check_msgid [(bs "message-id", dec id)] id' = if id =? id' then CReply else CReplyErrMsgid.
Proof.
  intros H. unfold recv_reply_check_msgid. cbn [find fst]. assert (B : streq (bs "message-id") MESSAGE_ID = true) by reflexivity. rewrite B.
  rewrite <- (app_nil_r (dec id)), strtoul_dec; [reflexivity|exact H|]. intros c X. discriminate.
Qed.

(** One exchange, whatever comes before and after it:
    a client sends a request and is told the id; the server reads it in a call of nc_ps_poll() that serves the session [s] and libyang finds
    an operation in it; the callback does not end the session and the transport takes the reply.  Then there is one reply, the one due for the
    operation; it arrives at the client; nc_recv_reply() called for the id accepts it, and called for another id says that it is for another
    request.  Notifications that were read before do not matter. *)
Theorem c279_exchange : forall v i st id st1 alloc ts rest,
  usable (c_w st) -> sendable v i -> c_msgid st < 18446744073709551615 -> grants alloc 2147484024 ->
  nc_send_rpc v i st = (SSent, Some id, st1) -> carried (c_w st) (c_w st1) ts rest ->
  exists msg ts', nc_read_msg_io alloc v ts = MMsg msg ts' /\ is_rpc id msg /\ incoming ts' = rest /\
  forall o p c s h e op, (PsPoll.q_last p < length (PsPoll.q_ents p))%nat -> Prop_PsServe.takes o p c s h ->
    PsPoll.c_rd c = PsPoll.RdOk e op -> read_back id e -> PsPoll.c_w2 c = PsPoll.WrSent -> Prop_PsServe.leaves c s ->
  exists p' ret m, PsPoll.ps_poll o p c = Some (p', ret, Some s, [m]) /\ PsPoll.rm_body m = Prop_PsServe.expected o op (PsPoll.c_cb c) /\
  forall all sw sw' tc crest, printed v all -> usable sw -> nc_write_msg_io v sw (reply_parts all) = (MsgSent, sw') -> carried sw sw' tc crest ->
  exists tc', nc_read_msg_io alloc v tc = MMsg (concat all) tc' /\ incoming tc' = crest /\
  forall parse mem b wire id', parsed_as m (parse (concat all)) -> no_reply b -> id' < 18446744073709551616 ->
    nc_recv_reply true true parse id' LkOk mem b (RdMsg (concat all) :: wire) =
    Ret ((if id =? id' then CReply else CReplyErrMsgid), Some (concat all), b, wire).
Proof.
  intros v i st id st1 alloc ts rest U S0 K G H CA.
  destruct (c279_request v i st id st1 alloc ts rest U S0 K G H CA) as [EI [msg [ts' [R [RP IR]]]]].
  exists msg, ts'. split; [exact R|]. split; [exact RP|]. split; [exact IR|].
  intros o p c s h e op Q T RD RB W2 LV.
  assert (ID : Prop_PsServe.identified e).
  { unfold read_back in RB. exists (PsPoll.mkAttr None (bs "message-id") (dec id)). rewrite RB. repeat split. left. reflexivity. }
  destruct (Prop_PsServe.c16_one_reply_partial o p c s h e op Q T RD ID W2 LV) as [p' [ret [m [PP [[AA [_ [_ AB]]] _]]]]].
  exists p', ret, m. split; [exact PP|]. split; [exact AB|].
  intros all sw sw' tc crest [F [FL FX]] SU SW [sent [W I]].
  destruct (c81_arrives v (RpcReply all) sw sw' alloc tc crest sent SU F ltac:(cbn [text]; lia) ltac:(intros n LN; apply G; cbn [text] in LN; lia) SW W I) as [tc' [R2 [IR2 _]]].
  exists tc'. split; [exact R2|]. split; [exact IR2|].
  intros parse mem b wire id' PA NB LI. unfold nc_recv_reply, recv_reply, recv_msg. cbn [negb]. rewrite (take_none b NB).
  destruct FX as [x FX]. pose proof (proj1 c81_kind all x FX) as KD. cbn [text] in KD. rewrite KD. cbn [mtype_eqb code_of].
  unfold parsed_as in PA. rewrite PA, AA. unfold read_back in RB. rewrite RB. cbn [map PsPoll.at_name PsPoll.at_val].
  rewrite check_id; [reflexivity|]. unfold w64. lia.
Qed.

(* ================================================================== *)
(** * Several requests *)

Lemma sent_one v i st st1 : usable (c_w st) -> sendable v i -> c_msgid st < 18446744073709551615 -> send_msg v i st = (SSent, st1) ->
  c_msgid st1 = c_msgid st + 1 /\ usable (c_w st1).
Proof.
  intros U [P [C L]] K E. destruct (send_sent _ _ _ _ E) as (Hid & Hok' & Hok & Hw). rewrite (same_parts _ _ P) in Hw.
  assert (Hm : (c_msgid st + 1) mod w64 = c_msgid st + 1) by (apply N.mod_small; unfold w64; lia). split; [congruence|].
  exact (proj1 (sent_usable v _ _ _ U (rpc_len _ _ _ L) Hw)).
Qed.
Lemma blocked_one v i st st1 : send_msg v i st = (SWouldblock, st1) -> st1 = st.
Proof.
  unfold send_msg. destruct (negb (ws_ok (c_w st))); [discriminate|]. destruct (negb (si_built i)); [discriminate|].
  destruct (si_lock i); try congruence. destruct (negb (si_mem i)); [discriminate|].
  destruct (nc_write_msg_io v (c_w st) (rpc_parts_of (c_msgid st) i)) as [[] w]; discriminate.
Qed.
Lemma wire_grows v l : forall st o st', sends v l st = (o, st') -> usable (c_w st) -> Forall (sendable v) l -> c_msgid st + lenN l < 18446744073709551616 ->
  Forall (fun x => fst x = SSent \/ fst x = SWouldblock) o -> exists more, ws_wire (c_w st') = ws_wire (c_w st) ++ more.
Proof.
  induction l as [|i l IH]; intros st o st' H U F K R; cbn [sends] in H.
  - injection H as <- <-. exists []. now rewrite app_nil_r.
  - unfold nc_send_rpc in H. destruct (send_msg v i st) as [r s1] eqn:E. destruct (sends v l s1) as [o2 s2] eqn:E2. injection H as <- <-.
    inversion F as [|? ? F1 F2]; subst. inversion R as [|? ? R1 R2]; subst. cbn [fst] in R1.
    assert (LL : lenN (i :: l) = lenN l + 1) by (unfold lenN; cbn [length]; lia).
    destruct R1; subst r.
    + destruct (sent_one v i st s1 U F1 ltac:(lia) E) as [M U1].
      destruct (IH s1 o2 s2 E2 U1 F2 ltac:(lia) R2) as [m2 M2].
      destruct F1 as [P [C L]].
      destruct (c21_on_the_wire_partial v i st (Some (c_msgid s1)) s1 U) as [_ [w [tx [_ [_ W]]]]].
      * split; [exact P|]. apply Forall_forall. intros d D. pose proof (piece_len (si_op i) d D). lia.
      * lia.
      * unfold nc_send_rpc. rewrite E. reflexivity.
      * exists (w ++ m2). rewrite M2, W, app_assoc. reflexivity.
    + apply blocked_one in E. subst s1. apply (IH st o2 s2 E2 U F2); [lia|exact R2].
Qed.

(** Any number of requests, some of which could not be sent because the session was busy: the server reads those that were reported as sent,
    each once, in order, with the ids reported. *)
Theorem c280_requests : forall v l st o st' alloc t rest, sends v l st = (o, st') ->
  usable (c_w st) -> Forall (sendable v) l -> c_msgid st + lenN l < 18446744073709551616 -> grants alloc 2147484024 ->
  Forall (fun x => fst x = SSent \/ fst x = SWouldblock) o -> carried (c_w st) (c_w st') t rest ->
  exists msgs t', receives alloc v t msgs t' /\ Forall2 is_rpc (reported o) msgs /\ incoming t' = rest.
Proof.
  intros v l. induction l as [|i l IH]; intros st o st' alloc t rest H U F K G R CA; cbn [sends] in H.
  - injection H as <- <-. exists [], t. split; [constructor|]. split; [constructor|]. destruct CA as [sent [W I]].
    assert (sent = []) as ->; [|exact I]. apply (app_inv_head (ws_wire (c_w st))). now rewrite app_nil_r.
  - unfold nc_send_rpc in H. destruct (send_msg v i st) as [r s1] eqn:E. destruct (sends v l s1) as [o2 s2] eqn:E2. injection H as <- <-.
    inversion F as [|? ? F1 F2]; subst. inversion R as [|? ? R1 R2]; subst. cbn [fst] in R1.
    assert (LL : lenN (i :: l) = lenN l + 1) by (unfold lenN; cbn [length]; lia).
    destruct R1; subst r; cbn [reported].
    + destruct (sent_one v i st s1 U F1 ltac:(lia) E) as [M U1].
      destruct (wire_grows v l s1 o2 s2 E2 U1 F2 ltac:(lia) R2) as [m2 M2].
      destruct (c21_on_the_wire_partial v i st (Some (c_msgid s1)) s1 U) as [_ [w [tx [_ [_ W]]]]].
      { destruct F1 as [P [C L]]. split; [exact P|]. apply Forall_forall. intros d D. pose proof (piece_len (si_op i) d D). lia. }
      { lia. }
      { unfold nc_send_rpc. rewrite E. reflexivity. }
      destruct CA as [sent [WS I]]. rewrite M2, W, <- app_assoc in WS. apply app_inv_head in WS. subst sent. rewrite <- app_assoc in I.
      destruct (c279_request v i st (c_msgid s1) s1 alloc t (m2 ++ rest) U F1 ltac:(lia) G) as [_ [msg [t' [R1 [RP IR]]]]].
      { unfold nc_send_rpc. rewrite E. reflexivity. }
      { exists w. auto. }
      destruct (IH s1 o2 s2 alloc t' rest E2 U1 F2 ltac:(lia) G R2) as [msgs [t2 [RR [FF II]]]]; [exists m2; auto|].
      exists (msg :: msgs), t2. split; [econstructor; eassumption|]. split; [constructor; assumption|exact II].
    + apply blocked_one in E. subst s1. apply (IH st o2 s2 alloc t rest E2 U F2); [lia|exact G|exact R2|exact CA].
Qed.

(* ================================================================== *)
(** * Examples *)

(** A client whose counter is 100 sends <get/>; the bytes come in two pieces with a wait between. *)
Definition get_in : sendin := mkSI true LkOk true false [bs "<get/>"] true.
Definition cl0 : cst := mkC 100 (mkW true [] (repeat (WAcc 4096) 9)).
Definition cl1 : cst := snd (nc_send_rpc V11 get_in cl0).
Definition to_server : list tev := [TData (firstn 20 (ws_wire (c_w cl1))); TAgain false; TData (skipn 20 (ws_wire (c_w cl1)) ++ bs "more")].
Example ex_sent : nc_send_rpc V11 get_in cl0 = (SSent, Some 101, cl1) /\ carried (c_w cl0) (c_w cl1) to_server (bs "more") /\ sendable V11 get_in /\
  usable (c_w cl0).
Proof.
  split; [vm_compute; reflexivity|]. split; [eexists; split; vm_compute; reflexivity|]. split.
  - split; [reflexivity|]. split; [|vm_compute; reflexivity]. split; [vm_compute; intuition discriminate|discriminate].
  - split; [reflexivity|]. cbn. intuition discriminate.
Qed.
(** The server finds it on the second of two sessions. *)
Definition env101 : PsPoll.envelope := PsPoll.mkEnv None PsPoll.NS_BASE [PsPoll.mkAttr None (bs "message-id") (dec 101)].
Definition poll101 : PsPoll.pcall :=
  PsPoll.mkC 0 0 0 0 (fun _ _ => 1%Z) (fun _ i => if Nat.eqb i 1 then Prop_PsTerm.readable else Prop_PsTerm.quiet) (fun _ => false) 1
      (PsPoll.RdOk env101 (PsPoll.mkOp 1 PsPoll.ClbApp)) PsPoll.WrSent (PsPoll.mkCb (Some PsPoll.ROk) []) PsPoll.WrSent.
Example ex_served : (exists h, Prop_PsServe.takes (PsPoll.mkO 0 false) Prop_PsTerm.pair poll101 200 h) /\ read_back 101 env101 /\
  Prop_PsServe.leaves poll101 200.
Proof.
  split; [eexists; do 2 eexists; split; [vm_compute; reflexivity|reflexivity]|]. split; [reflexivity|]. intros st [].
Qed.
Definition ok101 : list bytes := [bs "<rpc-reply xmlns=""urn:ietf:params:xml:ns:netconf:base:1.0"" message-id=""101"">"; bs "<ok/></rpc-reply>"].
Example ex_printed : printed V11 ok101 /\
  parsed_as (PsPoll.make_reply (Some env101) PsPoll.ROk) (mkP true (Some [(bs "message-id", bs "101")])).
Proof.
  split; [|vm_compute; reflexivity]. split; [|split; [vm_compute; reflexivity|eexists; reflexivity]].
  split; [split; [vm_compute; intuition discriminate|discriminate]|]. eexists. left.
  unfold ok101. cbn [concat]. rewrite app_nil_r. change (bs "<ok/></rpc-reply>") with (bs "<ok/></" ++ bs "rpc-reply>"). rewrite app_assoc. reflexivity.
Qed.

Print Assumptions c279_request.
Print Assumptions c279_exchange.
Print Assumptions c280_requests.
