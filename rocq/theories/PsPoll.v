(** Model of polling sessions and serving requests, src/session_server.c 1381-2152 and 131-174, 760-765, 3239-3294.
    What the transport, libyang, the clock and the application do is given by the arguments called "oracles" below; they are
    arbitrary in the theorems.  Simplifications: one call of nc_ps_poll() is one step (the locks that make calls
    exclude one another are modelled in [PsQueue.v] and [RpcLock.v]); messages are trees, not bytes (see [IoWrite.v] for the
    bytes); memory allocation of replies succeeds; logging is left out. *)
From Coq Require Import Ascii String NArith ZArith Bool Lia List.
From Verif Require Import Bytes PsSess.
Import ListNotations.
Local Open Scope N_scope.

(* ------------------------------------------------------------------ *)
(** ** Sessions *)

(** NC_STATUS (session.h 76-82), NC_SESSION_TERM_REASON (netconf.h 54-66) and its numbers, NC_TRANSPORT_IMPL. *)
Inductive status := StStarting | StClosing | StInvalid | StRunning.
Inductive term := TNone | TClosed | TKilled | TDropped | TTimeout | TBadHello | TOther.
Definition term_code (t : term) : N :=
  match t with TNone => 0 | TClosed => 1 | TKilled => 2 | TDropped => 3 | TTimeout => 4 | TBadHello => 5 | TOther => 6 end.
Inductive ti := TiNone | TiFd | TiUnix | TiSsh | TiTls.
Definition status_eqb (a b : status) : bool :=
  match a, b with StStarting, StStarting | StClosing, StClosing | StInvalid, StInvalid | StRunning, StRunning => true | _, _ => false end.

(** struct nc_session (session_p.h 686-781), the fields used here. *)
Record sess := mkS { s_status : status; s_term : term; s_killed_by : N; s_callhome : bool; s_notif : N; s_last_rpc : Z;
                     s_ti : ti; s_v11 : bool }.
Definition with_st (s : sess) (st : status) : sess :=
  mkS st (s_term s) (s_killed_by s) (s_callhome s) (s_notif s) (s_last_rpc s) (s_ti s) (s_v11 s).
Definition with_term (s : sess) (t : term) : sess :=
  mkS (s_status s) t (s_killed_by s) (s_callhome s) (s_notif s) (s_last_rpc s) (s_ti s) (s_v11 s).
Definition with_last (s : sess) (t : Z) : sess :=
  mkS (s_status s) (s_term s) (s_killed_by s) (s_callhome s) (s_notif s) t (s_ti s) (s_v11 s).
Definition die (s : sess) (t : term) : sess := with_term (with_st s StInvalid) t.

Definition heap := sid -> sess.
Definition hset (h : heap) (i : sid) (s : sess) : heap := fun j => if j =? i then s else h j.

(** What an application (a callback) may do to sessions: lines 131-146 [nc_session_set_term_reason], 148-160
    [nc_session_set_killed_by], 162-174 [nc_session_set_status], 3239-3254 [nc_session_inc_notif_status], 3256-3273
    [nc_session_dec_notif_status].  The counter is uint32_t. *)
Inductive eff := XTerm (i : sid) (t : term) | XKilledBy (i : sid) (by_id : N) | XStatus (i : sid) (st : status)
               | XInc (i : sid) | XDec (i : sid).
Definition set_killed_by (s : sess) (n : N) : sess :=
  mkS (s_status s) (s_term s) n (s_callhome s) (s_notif s) (s_last_rpc s) (s_ti s) (s_v11 s).
Definition set_notif (s : sess) (n : N) : sess :=
  mkS (s_status s) (s_term s) (s_killed_by s) (s_callhome s) n (s_last_rpc s) (s_ti s) (s_v11 s).
Definition is_killed (t : term) : bool := match t with TKilled => true | _ => false end.
Definition is_none (t : term) : bool := match t with TNone => true | _ => false end.

Definition apply_eff (h : heap) (e : eff) : heap :=
  match e with
  | XTerm i t =>
      if is_none t then h
      else let s := h i in
           hset h i (with_term (if negb (is_killed t) && is_killed (s_term s) then set_killed_by s 0 else s) t)
  | XKilledBy i n => if negb (is_killed (s_term (h i))) || (n =? 0) then h else hset h i (set_killed_by (h i) n)
  | XStatus i st => if status_eqb st StStarting then h else hset h i (with_st (h i) st)
  | XInc i => hset h i (set_notif (h i) ((s_notif (h i) + 1) mod w32))
  | XDec i => hset h i (set_notif (h i) (if s_notif (h i) =? 0 then 0 else s_notif (h i) - 1))
  end.

(* ------------------------------------------------------------------ *)
(** ** Results (session_server.h 336-347) *)
Definition NOSESSIONS : N := 1.
Definition TIMEOUT : N := 2.
Definition RPC : N := 4.
Definition BAD_RPC : N := 8.
Definition REPLY_ERROR : N := 16.
Definition SESSION_TERM : N := 32.
Definition SESSION_ERROR : N := 64.
Definition PERROR : N := 128.
Definition SSH_MSG : N := 256.
Definition SSH_CHANNEL : N := 512.
Definition TERM_ERR : N := N.lor SESSION_TERM SESSION_ERROR.
Definition has (r bit : N) : bool := negb (N.land r bit =? 0).

(* ------------------------------------------------------------------ *)
(** ** Looking at one session *)

(** Oracle: what the session's I/O lock and its transport answer when looked at. *)
Record answers := mkA {
  a_iolock : Z;               (* nc_session_io_lock() *)
  a_sshmsg : option bool;     (* ssh_message_get(): a message; true if it made a new NETCONF channel *)
  a_chpoll : Z;               (* ssh_channel_poll_timeout() *)
  a_pending : Z;              (* nc_tls_get_num_pending_bytes_wrap() *)
  a_fd : Z;                   (* nc_tls_get_fd_wrap() *)
  a_poll : Z;                 (* nc_poll() *)
  a_revents : N               (* struct pollfd revents *)
}.
Definition SSH_EOF : Z := (-127)%Z.
Definition SSH_ERR : Z := (-1)%Z.
(** poll.h: POLLERR 8, POLLHUP 0x10, POLLNVAL 0x20. *)
Definition POLLERR : N := 8.
Definition POLLHUP_NVAL : N := 48.

(** Lines 1878-1901 and 1911-1934, the same for both. *)
Definition poll_fd (s : sess) (a : answers) : sess * N :=
  if (a_poll a <? 0)%Z then (with_st s StInvalid, PERROR)
  else if (0 <? a_poll a)%Z then
    if has (a_revents a) POLLHUP_NVAL then (die s TDropped, TERM_ERR)
    else if has (a_revents a) POLLERR then (die s TOther, TERM_ERR)
    else (s, RPC)
  else (s, TIMEOUT).

(** Lines 1796-1803: the inactivity test; [idle] is server_opts.idle_timeout (uint16_t), [now] the time given. *)
Definition idle_expired (idle : N) (s : sess) (now : Z) : bool :=
  negb (s_callhome s) && (s_notif s =? 0) && negb (idle =? 0) && (s_last_rpc s + Z.of_N idle <=? now)%Z.

(** Lines 2853-2864: the inactivity test of the thread of a Call Home session; [periodic]: the connection type, [idle] the timeout of
    the client, [now] the current time in seconds.  Those sessions have the Call Home flag. *)
Definition ch_idle_check (periodic : bool) (idle : N) (s : sess) (now : Z) : sess :=
  let idle := if periodic then idle else 0 in
  if (s_notif s =? 0) && negb (idle =? 0) && (s_last_rpc s + Z.of_N idle <=? now)%Z then die s TTimeout else s.

(** Lines 1785-1943 [nc_ps_poll_session_io].  What nc_session_ssh_msg() does is not modelled here. *)
Definition poll_session_io (idle : N) (s : sess) (now : Z) (a : answers) : sess * N :=
  if idle_expired idle s now then (die s TTimeout, TERM_ERR)
  else if (a_iolock a <? 0)%Z then (s, PERROR)
  else if (a_iolock a =? 0)%Z then (s, TIMEOUT)
  else match s_ti s with
       | TiSsh =>
           match a_sshmsg a with
           | Some newchan => (s, if newchan then SSH_CHANNEL else SSH_MSG)
           | None =>
               if (a_chpoll a =? SSH_EOF)%Z then (die s TDropped, TERM_ERR)
               else if (a_chpoll a =? SSH_ERR)%Z then (die s TOther, TERM_ERR)
               else if (a_chpoll a =? 0)%Z then (s, TIMEOUT)
               else (s, RPC)
           end
       | TiTls =>
           if (a_pending a =? 0)%Z then
             if (a_fd a <? 0)%Z then (s, PERROR) else poll_fd s a
           else (s, RPC)
       | TiFd | TiUnix => poll_fd s a
       | TiNone => (s, PERROR)
       end.

(** Lines 1957-2011 [nc_ps_poll_sess]. *)
Definition poll_sess (idle : N) (st : pstate) (s : sess) (now : Z) (a : answers) : pstate * sess * N :=
  match st with
  | PsNone =>
      if status_eqb (s_status s) StRunning then
        let '(s', r) := poll_session_io idle s now a in
        ((if r =? TERM_ERR then PsInvalid else if r =? RPC then PsBusy else PsNone), s', r)
      else (PsInvalid, s, if term_code (s_term s) =? 1 then SESSION_TERM else TERM_ERR)
  | PsBusy => (PsBusy, s, PERROR)
  | PsInvalid => (PsInvalid, s, TIMEOUT)
  end.

(* ------------------------------------------------------------------ *)
(** ** Choosing a session, lines 2046-2097, over any way [exam] of looking at the session at an index in a round *)
Section Select.
Context {St : Type}.
Variable exam : nat -> nat -> St -> St * N.   (* round, index *)
Variable more : nat -> bool.                  (* time is left after the round (lines 2089-2095) *)

(** Lines 2081-2085. *)
Definition next (count i : nat) : nat := if Nat.eqb i (count - 1) then O else S i.
(** Lines 2049-2053. *)
Definition start (count last : nat) : nat := if Nat.eqb last (count - 1) then O else S last.

(** Lines 2054-2086: [n] more sessions after this one. *)
Fixpoint round (k n count i : nat) (st : St) : St * nat * N :=
  let '(st', r) := exam k i st in
  if r =? TIMEOUT then
    match n with
    | O => (st', next count i, r)
    | S n' => round k n' count (next count i) st'
    end
  else (st', i, r).

(** Lines 2047-2097.  [fuel]: rounds made at most; [None]: still polling after them. *)
Fixpoint select (fuel k count last : nat) (st : St) : option (St * nat * N) :=
  match fuel with
  | O => None
  | S fuel' =>
      let '(st', i, r) := round k (count - 1) count (start count last) st in
      if r =? TIMEOUT then if more k then select fuel' (S k) count last st' else Some (st', i, r)
      else Some (st', i, r)
  end.
End Select.

(** Lines 2099-2115: the results after which last_event_session is set (and the session returned). *)
Definition is_event (r : N) : bool :=
  (r =? RPC) || (r =? SESSION_TERM) || (r =? TERM_ERR) || (r =? SSH_CHANNEL) || (r =? SSH_MSG).

(* ------------------------------------------------------------------ *)
(** ** Requests and replies *)

(** libyang: an attribute of an opaque node, the rpc element, an operation. *)
Record attr := mkAttr { at_ns : option bytes; at_name : bytes; at_val : bytes }.
Record envelope := mkEnv { en_prefix : option bytes; en_ns : bytes; en_attrs : list attr }.
(** Whose callback the operation has: none, the built-in close-session, one of the application. *)
Inductive clb := ClbNone | ClbClose | ClbApp.
(** An operation that libyang parsed is an RPC or contains an action (lines 1718-1734). *)
Record operation := mkOp { op_id : N; op_clb : clb }.

(** Errors made here (nc_err() with these arguments). *)
Inductive etype := TyRpc | TyProt | TyApp.
Inductive nerr := EMalformed | EMissingAttr (t : etype) (attr elem : bytes) | EUnknownAttr (t : etype) (attr elem : bytes)
                | EOpFailed (t : etype) | EResDenied (t : etype) | EOpNotSupported (t : etype) | EApp (n : N).
Inductive reply := ROk | RData (d : N) | RError (e : nerr).
(** A reply on the wire. *)
Record rmsg := mkMsg { rm_prefix : option bytes; rm_ns : bytes; rm_attrs : list attr; rm_body : reply }.
Definition NS_BASE : bytes := bs "urn:ietf:params:xml:ns:netconf:base:1.0".

(** io.c 918-1016: the reply to a request; without its envelope, in the base namespace and without attributes. *)
Definition make_reply (e : option envelope) (r : reply) : rmsg :=
  match e with
  | Some e => mkMsg (en_prefix e) (en_ns e) (en_attrs e) r
  | None => mkMsg None NS_BASE [] r
  end.

(** How the I/O functions invalidate a session (io.c 99-155, 412-478, 590, 623, session_openssl.c 957-977): the transport
    was closed or failed otherwise. *)
Inductive iofail := FDropped | FOther.
Definition fail_term (f : iofail) : term := match f with FDropped => TDropped | FOther => TOther end.

(** Oracle: what becomes of a write: sent; given up by the writer after a transport error that does not invalidate the
    session, reported as sent (see C06); I/O lock timeout; failure without or with invalidation (and its reason). *)
Inductive wr := WrSent | WrSilent | WrBlock | WrFail | WrInvalid (f : iofail).
Inductive wmt := MtReply | MtWouldBlock | MtError.

(** io.c 843-1082 [nc_write_msg_io] for a reply. *)
Definition write_reply (s : sess) (e : option envelope) (r : reply) (w : wr) : sess * wmt * list rmsg :=
  match s_status s with
  | StRunning | StStarting =>
      match w with
      | WrSent => (s, MtReply, [make_reply e r])
      | WrSilent => (s, MtReply, [])
      | WrBlock => (s, MtWouldBlock, [])
      | WrFail => (s, MtError, [])
      | WrInvalid f => (die s (fail_term f), MtError, [])
      end
  | _ => (s, MtError, [])
  end.
Definition mt_reply (m : wmt) : bool := match m with MtReply => true | _ => false end.

(** Lines 1445-1478 [nc_rpc_err_get_quoted_string] with index 1, as strings: the text between the last two quotes
    among the first four. *)
Definition QUOTE : ascii := ascii_of_nat 34.
Fixpoint quoted_loop (msg : bytes) (n : nat) (cur : option bytes) (found : option bytes) : option bytes :=
  match msg with
  | [] => found
  | c :: r =>
      if Ascii.eqb c QUOTE then
        let found' := match cur with None => None | Some t => Some t end in
        match n with
        | O => found'
        | S n' => match n' with O => found' | _ => quoted_loop r n' (Some []) found' end
        end
      else quoted_loop r n (match cur with None => None | Some t => Some (t ++ [c]) end) found
  end.
Definition quoted_string1 (msg : bytes) : option bytes := quoted_loop msg 4 None None.

Fixpoint starts (p s : bytes) : bool :=
  match p, s with
  | [], _ => true
  | a :: p', b :: s' => Ascii.eqb a b && starts p' s'
  | _, [] => false
  end.
Definition beq (a b : bytes) : bool := starts a b && Nat.eqb (length a) (length b).

(** Oracle: the last libyang error: message, whether it is LY_EMEM, the schema node found by its path (lines 1411-1433)
    with its name and whether it is an RPC or its input, and the part of the path after the last colon. *)
Record lyerr := mkErr { le_msg : bytes; le_nomem : bool; le_node : option (bytes * bool); le_attr : bytes }.

(** Lines 1500-1581 [nc_server_prepare_rpc_err].  The text of the message (nc_err_set_msg()) is left out. *)
Definition prepare_rpc_err (s : sess) (e : option envelope) (err : lyerr) : option nerr :=
  match e with
  | None =>
      if negb (s_v11 s) then None
      else if beq (bs "Missing XML namespace.") (le_msg err) then Some (EMissingAttr TyRpc (bs "xmlns") (bs "rpc"))
      else Some EMalformed
  | Some _ =>
      let ty := match le_node err with Some (_, true) => TyProt | _ => TyApp end in
      match le_node err with
      | Some (name, _) =>
          if starts (bs "Missing mandatory prefix") (le_msg err) || starts (bs "Unknown XML prefix") (le_msg err) then
            match quoted_string1 (le_msg err) with
            | Some q => Some (EUnknownAttr ty q name)
            | None => Some (EOpFailed TyApp)
            end
          else if starts (bs "Annotation definition for attribute") (le_msg err) then Some (EUnknownAttr ty (le_attr err) name)
          else if starts (bs "Invalid character sequence") (le_msg err) then Some EMalformed
          else if le_nomem err then Some (EResDenied ty)
          else Some (EOpFailed TyApp)
      | None =>
          if starts (bs "Invalid character sequence") (le_msg err) then Some EMalformed
          else if le_nomem err then Some (EResDenied ty)
          else Some (EOpFailed TyApp)
      end
  end.

(** Oracle: what reading and parsing a message gives: I/O lock timeout, failure (with or without invalidation), a
    malformed frame, memory failure, an operation in its envelope, or a parse error (with the envelope if it was parsed). *)
Inductive rd := RdBlock | RdFail (o : option iofail) | RdMalformed | RdNoMem | RdOk (e : envelope) (op : operation)
              | RdBad (e : option envelope) (err : lyerr).

(** Lines 1381-1401 [recv_rpc_check_msgid]. *)
Definition has_msgid (e : envelope) : bool := existsb (fun a => beq (at_name a) (bs "message-id")) (en_attrs e).

(** Lines 1638-1653: an error reply. *)
Definition recv_reply (s : sess) (e : option envelope) (n : nerr) (w : wr) (ret : N) : sess * N * list rmsg :=
  let '(s', m, out) := write_reply s e (RError n) w in
  let s'' := if mt_reply m then s' else if status_eqb (s_status s') StInvalid then s' else die s' TOther in
  (s'', N.lor ret REPLY_ERROR, out).

(** Lines 1589-1661 [nc_server_recv_rpc_io]: also the request, if any. *)
Definition recv_rpc (s : sess) (r : rd) (w : wr) : sess * N * option (envelope * operation) * list rmsg :=
  if negb (status_eqb (s_status s) StRunning) then (s, PERROR, None, [])
  else
    let fin x := let '(s', ret, out) := x in (s', ret, None, out) in
    match r with
    | RdBlock => (s, TIMEOUT, None, [])
    | RdFail None => (s, PERROR, None, [])
    | RdFail (Some f) => (die s (fail_term f), PERROR, None, [])
    | RdNoMem => (s, PERROR, None, [])
    | RdMalformed => fin (recv_reply s None EMalformed w 0)
    | RdOk e op =>
        if has_msgid e then (s, RPC, Some (e, op), [])
        else fin (recv_reply s (Some e) (EMissingAttr TyRpc (bs "message-id") (bs "rpc")) w BAD_RPC)
    | RdBad e err =>
        match prepare_rpc_err s e err with
        | Some n => fin (recv_reply s e n w BAD_RPC)
        | None => (s, BAD_RPC, None, [])
        end
    end.

(** Oracle: what the callback returns and does to sessions. *)
Record cbres := mkCb { cb_reply : option reply; cb_effs : list eff }.

(** Lines 760-765 [nc_clb_default_close_session]. *)
Definition close_session (h : heap) (i : sid) : heap := hset h i (with_term (h i) TClosed).

(** Lines 1736-1750: the reply of the callback; [glob]: a global callback is set. *)
Definition run_callback (glob : bool) (h : heap) (i : sid) (op : operation) (cb : cbres) : heap * reply :=
  let app := (fold_left apply_eff (cb_effs cb) h,
              match cb_reply cb with Some r => r | None => RError (EOpFailed TyApp) end) in
  match op_clb op with
  | ClbNone => if glob then app else (h, RError (EOpNotSupported TyProt))
  | ClbClose => (close_session h i, ROk)
  | ClbApp => app
  end.
Definition is_error (r : reply) : bool := match r with RError _ => true | _ => false end.

(** Lines 1703-1768 [nc_server_send_reply_io]. *)
Definition send_reply (glob : bool) (h : heap) (i : sid) (rpc : option (envelope * operation)) (cb : cbres) (w : wr)
  : heap * N * list rmsg :=
  match rpc with
  | None => (h, PERROR, [])
  | Some (e, op) =>
      let '(h1, rep) := run_callback glob h i op cb in
      let '(s2, m, out) := write_reply (h1 i) (Some e) rep w in
      let s3 := if status_eqb (s_status s2) StRunning && negb (is_none (s_term s2)) then with_st s2 StInvalid else s2 in
      (hset h1 i s3, N.lor (if is_error rep then REPLY_ERROR else 0) (if mt_reply m then 0 else PERROR), out)
  end.

(* ------------------------------------------------------------------ *)
(** ** The call *)

(** Server options used: idle timeout, whether a global callback is set. *)
Record opts := mkO { o_idle : N; o_glob : bool }.

(** Oracle for one call: the timeout, the clock (nanoseconds) when the current and the end time are made, the contents of the
    uninitialised end time, results of nc_session_rpc_lock() and of looking at the session per round and index, whether time is left
    after a round, how many rounds are followed; reading, writing and the callback. *)
Record pcall := mkC {
  c_timeout : Z; c_now : Z; c_now2 : Z; c_garbage : Z;
  c_rpclock : nat -> nat -> Z; c_ans : nat -> nat -> answers; c_more : nat -> bool; c_rounds : nat;
  c_rd : rd; c_w1 : wr; c_cb : cbres; c_w2 : wr
}.

(** The structure: its sessions with their states, the index of the last event. *)
Record pst := mkP { q_heap : heap; q_ents : list (sid * pstate); q_last : nat }.

Definition sec (ns : Z) : Z := (ns / 1000000000)%Z.
(** session.c 55-81 [nc_timeouttime_get]; lines 2040-2044: the end time, in seconds as passed to [poll_sess] (line 2064). *)
Definition end_sec (c : pcall) : Z :=
  if (c_timeout c <? 0)%Z then c_garbage c else sec (c_now2 c + c_timeout c * 1000000).

Fixpoint set_ent (l : list (sid * pstate)) (i : nat) (st : pstate) : list (sid * pstate) :=
  match l, i with
  | [], _ => []
  | (s, _) :: r, O => (s, st) :: r
  | x :: r, S i' => x :: set_ent r i' st
  end.
Definition ent_at (l : list (sid * pstate)) (i : nat) : sid * pstate := nth i l (0, PsNone).

(** Lines 2055-2074: the session at index [i] in round [k]. *)
Definition look (o : opts) (c : pcall) (k i : nat) (x : heap * list (sid * pstate)) : heap * list (sid * pstate) * N :=
  let '(h, es) := x in
  let lk := c_rpclock c k i in
  if (lk =? -1)%Z then (h, es, PERROR)
  else if (lk =? 1)%Z then
    let '(s, st) := ent_at es i in
    let '(st', s', r) := poll_sess (o_idle o) st (h s) (end_sec c) (c_ans c k i) in
    (hset h s s', set_ent es i st', r)
  else (h, es, TIMEOUT).

(** Lines 2123-2145: the result of serving, added to it the bits for a session that is not running any more. *)
Definition after_recv_fail (h : heap) (s : sid) (ret : N) : N * pstate :=
  if status_eqb (s_status (h s)) StRunning then (ret, PsNone) else (N.lor ret TERM_ERR, PsInvalid).
Definition after_serve (h : heap) (s : sid) (ret : N) : N * pstate :=
  if status_eqb (s_status (h s)) StRunning then (ret, PsNone)
  else (N.lor (N.lor ret SESSION_TERM) (if has (term_code (s_term (h s))) 3 then 0 else SESSION_ERROR), PsInvalid).

(** Lines 2120-2149. *)
Definition serve (o : opts) (c : pcall) (h : heap) (s : sid) : heap * N * pstate * list rmsg :=
  let '(s1, ret, rpc, out1) := recv_rpc (h s) (c_rd c) (c_w1 c) in
  let h1 := hset h s s1 in
  if has ret (N.lor PERROR BAD_RPC) then
    let '(ret', st) := after_recv_fail h1 s ret in (h1, ret', st, out1)
  else
    let h2 := hset h1 s (with_last (h1 s) (sec (c_now c))) in
    let '(h3, ret3, out3) := send_reply (o_glob o) h2 s rpc (c_cb c) (c_w2 c) in
    let '(ret', st) := after_serve h3 s (N.lor ret ret3) in (h3, ret', st, out1 ++ out3).

(** Lines 2013-2152 [nc_ps_poll]: the structure after the call, the result, the session returned, the replies sent.  [None]: still
    polling.  A failed nc_ps_lock() returns NC_PSPOLL_ERROR and is left out.  The entry at the index is written (lines 2126-2143)
    after the pollsession lock was released; that another thread removes it meanwhile is not modelled. *)
Definition ps_poll (o : opts) (p : pst) (c : pcall) : option (pst * N * option sid * list rmsg) :=
  match q_ents p with
  | [] => Some (p, NOSESSIONS, None, [])
  | _ =>
      let count := length (q_ents p) in
      match select (look o c) (c_more c) (c_rounds c) 0 count (q_last p) (q_heap p, q_ents p) with
      | None => None
      | Some (h, es, i, r) =>
          let s := fst (ent_at es i) in
          let last := if is_event r then i else q_last p in
          let ret_s := if is_event r then Some s else None in
          if r =? RPC then
            let '(h', ret, st, out) := serve o c h s in
            Some (mkP h' (set_ent es i st) last, ret, ret_s, out)
          else Some (mkP h es last, r, ret_s, [])
      end
  end.
