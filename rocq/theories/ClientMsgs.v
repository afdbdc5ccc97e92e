(** Client side messages: sending RPCs, receiving replies and notifications, looking up capabilities
    (src/session_client.c, src/session.c, src/io.c). *)
From Coq Require Import Ascii String NArith ZArith Bool Lia List.
From Verif Require Import Bytes CStr IoRead IoWrite.
Import ListNotations.
Local Open Scope N_scope.

(* ------------------------------------------------------------------ *)
(** ** Message type *)

Inductive mtype := Reply | Notif.

Definition mtype_eqb (a b : mtype) : bool :=
  match a, b with Reply, Reply | Notif, Notif => true | _, _ => false end.

(** strstr(s, pat): the part of [s] starting with the first occurrence. *)
Fixpoint strstr (s pat : bytes) : option bytes :=
  if prefixb pat s then Some s else match s with [] => None | _ :: s' => strstr s' pat end.

Definition LT : ascii := "<"%char.

(** session_client.c 2052-2099 [get_msg_type]: the loop, one iteration per skipped comment or
    declaration; [None] = NC_MSG_ERROR.  The message is the C string seen by ly_in_memory().  Not
    represented: isspace() on negative characters (undefined in ISO C, false in glibc). *)
Fixpoint gmt (fuel : nat) (s : bytes) : option mtype :=
  match fuel with
  | O => None
  | S f =>
      match s with
      | [] => None                                           (* Unexpected end of xml message *)
      | _ =>
          match skip_space s with
          | [] => None                                       (* the NUL is an unexpected character *)
          | c :: r =>
              if Ascii.eqb c LT then
                if strncmp0 r (bs "!--") 3 then
                  match strstr r (bs "-->") with Some x => gmt f (skipn 3 x) | None => None end
                else if strncmp0 r (bs "?xml") 4 then
                  match strstr r (bs "?>") with Some x => gmt f (skipn 2 x) | None => None end
                else if strncmp0 r (bs "rpc-reply") 9 then Some Reply
                else if strncmp0 r (bs "notification") 12 then Some Notif
                else None
              else None
          end
      end
  end.
Definition get_msg_type (s : bytes) : option mtype := gmt (S (length s)) s.

(* ------------------------------------------------------------------ *)
(** ** Receiving *)

(** NC_MSG_TYPE values returned by the receiving functions. *)
Inductive code := CError | CWouldblock | CReply | CReplyErrMsgid | CNotif.
Definition code_of (t : mtype) : code := match t with Reply => CReply | Notif => CNotif end.

(** io.c 485-513 [nc_read_msg_poll_io]: 0, -1, -2 (malformed framing, [*msg] is NULL) or a message. *)
Inductive rd := RdTimeout | RdErr | RdBad | RdMsg (m : bytes).

(** How the results of [nc_read_msg_io] (IoRead.v) are returned; [None]: the read does not return, or has
    already gone wrong. *)
Definition rd_of (r : msgres) : option rd :=
  match r with
  | MMsg m _ => Some (RdMsg m)
  | MFail _ _ => Some RdErr
  | MMalformed _ => Some RdBad
  | MWait | MFuel | MUb _ => None
  end.

(** [nc_session_client_msgs_lock]: 1, 0, -1. *)
Inductive lockr := LkOk | LkTimeout | LkErr.

(** [Crash]: dereference of a NULL pointer. *)
Inductive res (A : Type) := Ret (a : A) | Crash.
Arguments Ret {A}. Arguments Crash {A}.

Definition buffer := list (mtype * bytes).

(** Lines 2133-2153: find and unlink the first buffered message of the expected type. *)
Fixpoint take_type (t : mtype) (b : buffer) : option (bytes * buffer) :=
  match b with
  | [] => None
  | (t', m) :: b' =>
      if mtype_eqb t' t then Some (m, b')
      else match take_type t b' with Some (x, b'') => Some (x, (t', m) :: b'') | None => None end
  end.

(** Lines 2113-2196 [recv_msg].  [wire]: what successive reads from the transport will return (no more:
    nothing arrives within the timeout).  [mem]: the malloc of line 2174 succeeds.  Result: return value,
    [*message], the buffer, what is still to be read. *)
Definition recv_msg (t : mtype) (lk : lockr) (mem : bool) (b : buffer) (wire : list rd)
  : res (code * option bytes * buffer * list rd) :=
  match lk with
  | LkTimeout => Ret (CWouldblock, None, b, wire)
  | LkErr => Ret (CError, None, b, wire)
  | LkOk =>
      match take_type t b with
      | Some (m, b') => Ret (code_of t, Some m, b', wire)
      | None =>
          match wire with
          | [] => Ret (CWouldblock, None, b, [])
          | RdTimeout :: w => Ret (CWouldblock, None, b, w)
          | RdErr :: w => Ret (CError, None, b, w)
          | RdBad :: _ => Crash                    (* get_msg_type(session, NULL): ly_in_memory() gives NULL *)
          | RdMsg m :: w =>
              match get_msg_type m with
              | None => Ret (CError, None, b, w)                         (* ly_in_free(msg) *)
              | Some t' =>
                  if mtype_eqb t' t then Ret (code_of t, Some m, b, w)
                  else if mem then Ret (code_of t', None, b ++ [(t', m)], w)
                  else Ret (CError, None, b, w)                          (* ly_in_free(msg) *)
              end
          end
      end
  end.

(** Attributes of the reply envelope as libyang returns them: (name, value), C strings, in document
    order; the namespace of an attribute is not looked at. *)
Definition attrs := list (bytes * bytes).

Definition MESSAGE_ID : bytes := bs "message-id".

(** Lines 2013-2041 [recv_reply_check_msgid]. *)
Definition recv_reply_check_msgid (a : attrs) (msgid : N) : code :=
  match find (fun p => streq (fst p) MESSAGE_ID) a with
  | None => CReplyErrMsgid
  | Some (_, v) => if strtoul v =? msgid then CReply else CReplyErrMsgid
  end.

(** What lyd_parse_op() makes of a message: did it succeed, and the attributes of the envelope if the
    envelope itself was parsed. *)
Record parsed := mkP { p_ok : bool; p_envp : option attrs }.

(** Lines 2198-2240 [recv_reply].  The second component is the message handed to the caller (as parsed
    nodes). *)
Definition recv_reply (parse : bytes -> parsed) (msgid : N) (lk : lockr) (mem : bool) (b : buffer)
    (wire : list rd) : res (code * option bytes * buffer * list rd) :=
  match recv_msg Reply lk mem b wire with
  | Crash => Crash
  | Ret (CReply, Some m, b', w) =>
      let p := parse m in
      match p_envp p with
      | Some a => Ret (recv_reply_check_msgid a msgid, Some m, b', w)
      | None => if p_ok p then Ret (CReply, Some m, b', w) else Ret (CError, None, b', w)
      end
  | Ret (c, _, b', w) => Ret (c, None, b', w)
  end.

(** Lines 2376-2405 [nc_recv_reply].  [run]: the session is a running client session; [dup]: the RPC could
    be duplicated.  Not represented: NULL arguments; the parts of the operation handed over. *)
Definition nc_recv_reply (run dup : bool) (parse : bytes -> parsed) (msgid : N) (lk : lockr) (mem : bool)
    (b : buffer) (wire : list rd) : res (code * option bytes * buffer * list rd) :=
  if negb run then Ret (CError, None, b, wire)
  else if negb dup then Ret (CError, None, b, wire)
  else recv_reply parse msgid lk mem b wire.

(** Lines 2407-2460 [recv_notif], [nc_recv_notif]. *)
Definition nc_recv_notif (run : bool) (parse : bytes -> parsed) (lk : lockr) (mem : bool)
    (b : buffer) (wire : list rd) : res (code * option bytes * buffer * list rd) :=
  if negb run then Ret (CError, None, b, wire)
  else
    match recv_msg Notif lk mem b wire with
    | Crash => Crash
    | Ret (CNotif, Some m, b', w) =>
        if p_ok (parse m) then Ret (CNotif, Some m, b', w) else Ret (CError, None, b', w)
    | Ret (c, _, b', w) => Ret (c, None, b', w)
    end.

(** One call of the API on the session, from any thread: the buffer is only touched under the MSGS lock, so
    the calls of all the threads take effect one after the other. *)
Inductive call :=
| CallReply (run dup : bool) (parse : bytes -> parsed) (msgid : N) (lk : lockr) (mem : bool)
| CallNotif (run : bool) (parse : bytes -> parsed) (lk : lockr) (mem : bool).

Definition do_call (c : call) (b : buffer) (wire : list rd) : res (code * option bytes * buffer * list rd) :=
  match c with
  | CallReply run dup parse id lk mem => nc_recv_reply run dup parse id lk mem b wire
  | CallNotif run parse lk mem => nc_recv_notif run parse lk mem b wire
  end.

(** A sequence of calls; the list of (return value, message handed over). *)
Fixpoint do_calls (cs : list call) (b : buffer) (wire : list rd)
  : res (list (code * option bytes) * buffer * list rd) :=
  match cs with
  | [] => Ret ([], b, wire)
  | c :: cs' =>
      match do_call c b wire with
      | Crash => Crash
      | Ret (r, m, b', w') =>
          match do_calls cs' b' w' with
          | Crash => Crash
          | Ret (l, b'', w'') => Ret ((r, m) :: l, b'', w'')
          end
      end
  end.

(* ------------------------------------------------------------------ *)
(** ** Sending *)

(** The client session: the uint64_t counter of the last id used, and the transport (IoWrite.v; [ws_ok]:
    the status is RUNNING). *)
Record cst := mkC { c_msgid : N; c_w : wst }.

(** One call of [nc_send_rpc].  [si_built]: the data of the RPC were created and belong to the context of
    the session; [si_lock]: result of taking the IO lock; [si_mem]: asprintf succeeds; [si_action]: the
    operation is an action; [si_op]/[si_print]: the pieces libyang prints for it, and whether it finishes. *)
Record sendin := mkSI { si_built : bool; si_lock : lockr; si_mem : bool; si_action : bool;
                        si_op : list bytes; si_print : bool }.

(** io.c 884-913: as [rpc_parts] (IoWrite.v) with [attrs] NULL, and libyang possibly failing. *)
Definition rpc_parts_of (msgid : N) (i : sendin) : list part :=
  [PRaw (bs "<rpc xmlns=" ++ quoted NS_BASE ++ bs " message-id=" ++ quoted (dec ((msgid + 1) mod w64))
         ++ bs ">") false]
  ++ (if si_action i then [PRaw (bs "<action xmlns=" ++ quoted (bs "urn:ietf:params:xml:ns:yang:1") ++ bs ">") false] else [])
  ++ [PPrint (si_op i) (si_print i)]
  ++ (if si_action i then [PRaw (bs "</action>") false] else [])
  ++ [PRaw (bs "</rpc>") false].

(** Return value of [nc_send_rpc]: NC_MSG_RPC, NC_MSG_ERROR, NC_MSG_WOULDBLOCK; or the peer takes no more
    data and the call does not return; or undefined behaviour. *)
Inductive sres := SSent | SError | SWouldblock | SBlocked | SUb.

(** session.c 650-659 [nc_send_msg_io], io.c 845-1082 [nc_write_msg_io] for an RPC, up to the release of
    the IO lock.  The counter goes up on line 915, after everything but the flush.  Simplification: the
    status is looked at once, together with taking the lock. *)
Definition send_msg (v : version) (i : sendin) (st : cst) : sres * cst :=
  if negb (ws_ok (c_w st)) then (SError, st)
  else if negb (si_built i) then (SError, st)
  else
    match si_lock i with
    | LkErr => (SError, st)
    | LkTimeout => (SWouldblock, st)
    | LkOk =>
        if negb (si_mem i) then (SError, st)
        else
          let ps := rpc_parts_of (c_msgid st) i in
          let id := match run_parts v (c_w st) [] ps with
                    | (inl true, _, _) => (c_msgid st + 1) mod w64
                    | _ => c_msgid st
                    end in
          match nc_write_msg_io v (c_w st) ps with
          | (MsgSent, w) => (SSent, mkC id w)
          | (MsgError, w) => (SError, mkC id w)
          | (MsgBlocked, w) => (SBlocked, mkC id w)
          | (MsgUb, w) => (SUb, mkC id w)
          end
    end.

(** session_client.c 3197-3206, end of [nc_send_rpc], without another thread in between: the id is read
    from the session after the IO lock was released, and stored in [*msgid] when the RPC was sent. *)
Definition nc_send_rpc (v : version) (i : sendin) (st : cst) : sres * option N * cst :=
  let '(r, st') := send_msg v i st in
  (r, match r with SSent => Some (c_msgid st') | _ => None end, st').

(** The same with several threads: [ESend th i] is the send under the IO lock, [EReport th] the rest of the
    call.  The state also holds, per thread between the two, the result and the id put on the wire; the
    trace, for each successful call: thread, id on the wire, id reported. *)
Inductive sev := ESend (th : nat) (i : sendin) | EReport (th : nat).

Record cons := mkCC { cc_st : cst; cc_pend : list (nat * sres * N); cc_out : list (nat * N * N) }.

Definition pending (th : nat) (l : list (nat * sres * N)) : option (sres * N) :=
  match find (fun p => Nat.eqb (fst (fst p)) th) l with Some (_, r, n) => Some (r, n) | None => None end.

Definition drop_pending (th : nat) (l : list (nat * sres * N)) :=
  filter (fun p => negb (Nat.eqb (fst (fst p)) th)) l.

(** [None]: not a possible event here. *)
Definition cstep (v : version) (e : sev) (c : cons) : option cons :=
  match e with
  | ESend th i =>
      match pending th (cc_pend c) with
      | Some _ => None
      | None =>
          match send_msg v i (cc_st c) with
          | (SBlocked, _) | (SUb, _) => None
          | (r, st') => Some (mkCC st' ((th, r, c_msgid st') :: cc_pend c) (cc_out c))
          end
      end
  | EReport th =>
      match pending th (cc_pend c) with
      | None => None
      | Some (SSent, n) => Some (mkCC (cc_st c) (drop_pending th (cc_pend c)) (cc_out c ++ [(th, n, c_msgid (cc_st c))]))
      | Some (_, _) => Some (mkCC (cc_st c) (drop_pending th (cc_pend c)) (cc_out c))
      end
  end.

Fixpoint crun (v : version) (es : list sev) (c : cons) : option cons :=
  match es with
  | [] => Some c
  | e :: es' => match cstep v e c with Some c' => crun v es' c' | None => None end
  end.

(* ------------------------------------------------------------------ *)
(** ** Capabilities of the peer *)

(** session_client.c 1949-1964 [nc_session_cpblt].  [None] for the NULL capability array of a session
    whose hello exchange has not taken place. *)
Definition nc_session_cpblt (cpblts : option (list bytes)) (capab : bytes) : res (option bytes) :=
  match cpblts with
  | None => Crash
  | Some l => Ret (find (fun c => strncmp0 c capab (length capab)) l)
  end.
