(** The end of a session (src/session.c 672-1022).  The ring of sessions of an SSH connection is in SshRing. *)
From Coq Require Import Bool List.
Import ListNotations.

(* ------------------------------------------------------------------ *)
(** ** What a session has *)

Inductive side := Server | Client.
Inductive transport := TFd | TUnix | TSsh | TTls | TNone.
(** NC_STATUS_CLOSING, NC_STATUS_RUNNING, all others. *)
Inductive status := Closing | Running | Other.

(** Another session on the same SSH connection, in the order of the ring; [o_starting]: NC_STATUS_STARTING; [o_ext]: it has ext_data. *)
Record other := mkOther { o_id : nat; o_starting : bool; o_shared : bool; o_ext : bool }.

(** [struct nc_session]; [s_shared], [s_callhome], [s_chthread]: the flags NC_SESSION_SHAREDCTX, NC_SESSION_CALLHOME, NC_SESSION_CH_THREAD;
    [s_queue]: how many messages are in the queue of the client; [s_cpblts], [s_ext], [s_io], [s_data]: capabilities, ext_data, io_lock, data
    are not NULL. *)
Record sess := {
  s_side : side; s_ti : transport; s_status : status;
  s_shared : bool; s_callhome : bool; s_chthread : bool;
  s_queue : nat; s_cpblts : bool; s_ext : bool; s_io : bool; s_data : bool;
  s_others : list other }.

(** What can be released. *)
Inductive res :=
| RMsgs | RMsgsLock | RCpblts | RExt | RCtx | RStrings | RRpcLock | RNtfLock | RChLock | RIoLock
| RChannel | RSsh | RSock | RTls | RCert | RStart (id : nat) | RData | RSession.

(** What happens: a thing is used, a thing is released, <close-session> is sent, a message is read, the data of the extension are handed to
    another session, another thread was waited for in vain. *)
Inductive act := Use (r : res) | End (r : res) | SendClose | Read | Hand (id : nat) | InVain.

(** Results of locks: 1, 0 (timeout), -1. *)
Inductive lock := LOk | LTimeout | LErr.
(** Results of [nc_read_msg_poll_io]: a notification, another message, nothing in time, an error. *)
Inductive rd := RNotif | RReply | RNone | RBad.

(** The environment: [e_ntf]: threads for notifications run, and whether they stop in time; [e_ch]: the thread for Call Home stops in time;
    [e_reads]: what is read, by the number of the attempt; [e_rpc_ok]: <close-session> can be created; [e_sock]: the descriptor is valid. *)
Record env := {
  e_ntf : option bool; e_rpc : lock; e_msgs : lock; e_iolock : lock; e_ch : bool;
  e_connected : bool; e_reads : nat -> rd; e_rpc_ok : bool; e_data_free : bool; e_sock : bool }.

(** The session is still being closed, the process was stopped by an assertion, or all is done. *)
Inductive outcome := Pending | Aborted | Done (t : list act).

(* ------------------------------------------------------------------ *)
(** ** Parts of [nc_session_free] *)

Definition reading : list act := [Use RIoLock; Use RSock; Read].

(** Lines 919-922: all messages there are; the number of the next attempt.  [None]: not yet done with this fuel. *)
Fixpoint drain (fuel : nat) (reads : nat -> rd) (k : nat) : option (list act * nat) :=
  match fuel with
  | 0 => None
  | S fuel =>
      match reads k with
      | RNotif | RReply => match drain fuel reads (S k) with
                           | Some (t, k') => Some (reading ++ t, k')
                           | None => None
                           end
      | RNone | RBad => Some (reading, S k)
      end
  end.

(** Lines 688-712: notifications are skipped, anything else ends the reading; a reply is parsed in the context. *)
Fixpoint await (fuel : nat) (reads : nat -> rd) (k : nat) : option (list act) :=
  match fuel with
  | 0 => None
  | S fuel =>
      match reads k with
      | RNotif => match await fuel reads (S k) with
                  | Some t => Some (reading ++ t)
                  | None => None
                  end
      | RReply => Some (reading ++ [Use RCtx])
      | RNone | RBad => Some reading
      end
  end.

(** Lines 672-713 [nc_session_free_close_session]. *)
Definition close_session (fuel : nat) (e : env) (k : nat) : option (list act) :=
  if e_rpc_ok e then
    match await fuel (e_reads e) k with
    | Some t => Some ([Use RCtx; Use RIoLock; Use RSock; SendClose] ++ t ++ [Use RCtx])
    | None => None
    end
  else Some [Use RCtx].

(** Lines 859-874. *)
Definition stop_ntf (s : sess) (e : env) : list act :=
  match s_side s, e_ntf e with
  | Client, Some false => [InVain]
  | _, _ => []
  end.

(** Lines 905-916: the queue; the lock is released if it was taken. *)
Definition free_msgs (s : sess) (e : env) : list act :=
  [Use RMsgsLock; End RMsgs] ++ match e_msgs e with LOk => [Use RMsgsLock] | _ => [InVain] end.

(** Lines 918-926. *)
Definition say_goodbye (fuel : nat) (s : sess) (e : env) : option (list act) :=
  match s_status s with
  | Running => match drain fuel (e_reads e) 0 with
               | None => None
               | Some (t, k) => match close_session fuel e k with Some t' => Some (t ++ t') | None => None end
               end
  | _ => Some []
  end.

(** Lines 937-956.  [None]: the assertion fails. *)
Fixpoint first_started (l : list other) : option other :=
  match l with
  | [] => None
  | o :: l' => if o_starting o then first_started l' else Some o
  end.
Definition is_ssh (t : transport) : bool := match t with TSsh => true | _ => false end.
Definition give_ext (s : sess) : option (list act) :=
  if s_shared s && is_ssh (s_ti s) && negb (match s_others s with [] => true | _ => false end) then
    match first_started (s_others s) with
    | None => Some []
    | Some o => if o_ext o then None else Some (if s_ext s then [Hand (o_id o)] else [])
    end
  else Some (if s_ext s then [Use RCtx; End RExt] else []).

(** Lines 959-961. *)
Definition free_data (s : sess) (e : env) : list act := if s_data s && e_data_free e then [End RData] else [].

(** Lines 963-989. *)
Definition stop_callhome (s : sess) (e : env) : list act :=
  match s_side s with
  | Server => (if s_callhome s then [Use RChLock] else [])
                ++ (if s_chthread s then Use RChLock :: (if e_ch e then [] else [InVain]) else [])
                ++ (if s_callhome s then [Use RChLock] else [])
  | Client => []
  end.

(** Lines 722-847 [nc_session_free_transport]: what happens, and [multisession].  Whether a session is alone is decided by the ring. *)
Definition multi (s : sess) : bool :=
  is_ssh (s_ti s) && match first_started (s_others s) with Some _ => true | None => false end.
Definition close_sock (e : env) : list act := if e_sock e then [End RSock] else [].
Definition free_transport (s : sess) (e : env) : list act :=
  match s_ti s with
  | TFd | TNone => []
  | TUnix => close_sock e
  | TSsh =>
      (if e_connected e then [Use RChannel; End RChannel] else [])
        ++ [Use RIoLock]
        ++ (if multi s then []
            else map (fun o => End (RStart (o_id o))) (s_others s) ++ (if e_connected e then [Use RSsh] else []) ++ [Use RSsh; End RSsh])
        ++ match e_iolock e with LOk => [Use RIoLock] | _ => [InVain] end
        ++ (if multi s then [] else close_sock e)
  | TTls =>
      (if e_connected e then [Use RTls] else []) ++ [End RTls]
        ++ match s_side s with Server => [End RCert] | Client => [] end
        ++ close_sock e
  end.

(** Lines 994-1021. *)
Definition final (s : sess) (e : env) : list act :=
  [End RStrings]
    ++ match s_side s with
       | Server => End RNtfLock :: match e_rpc e with LOk => [Use RRpcLock] | _ => [] end ++ [End RRpcLock]
       | Client => []
       end
    ++ (if s_io s && negb (multi s) then [End RIoLock] else [])
    ++ (if s_shared s then [] else [End RCtx])
    ++ match s_side s with Server => [End RChLock] | Client => [End RMsgsLock] end
    ++ [End RSession].

(** Lines 850-1022 [nc_session_free].  Whether a lock failed in time counts as waiting in vain for the thread that has it. *)
Definition session_free (fuel : nat) (s : sess) (e : env) : outcome :=
  match s_status s with
  | Closing => Done []
  | _ =>
      match s_side s with
      | Server =>
          match e_rpc e with
          | LErr => Done [Use RRpcLock]
          | r => Done ([Use RRpcLock] ++ match r with LOk => [] | _ => [InVain] end
                       ++ free_data s e ++ stop_callhome s e ++ free_transport s e ++ final s e)
          end
      | Client =>
          match e_msgs e with
          | LErr => Done (stop_ntf s e ++ [Use RMsgsLock])
          | _ =>
              match say_goodbye fuel s e with
              | None => Pending
              | Some bye =>
                  match give_ext s with
                  | None => Aborted
                  | Some x =>
                      Done (stop_ntf s e ++ free_msgs s e ++ bye ++ (if s_cpblts s then [End RCpblts] else []) ++ x
                            ++ free_data s e ++ free_transport s e ++ final s e)
                  end
              end
          end
      end
  end.
