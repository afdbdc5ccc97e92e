(** Waiting for a client when an SSH session is accepted: session_server_ssh.c 1766-1803 [nc_accept_ssh_session_open_netconf_channel], 1862-1909
    [nc_accept_ssh_session_auth], 1911-2012 [nc_accept_ssh_session].  Messages are handled as in SshAuth, the time is that of Time. *)
From Coq Require Import ZArith NArith Bool List.
From Verif Require Import Bytes Time SshAuth.
Import ListNotations.
Local Open Scope Z_scope.

(** A round of waiting: whether the client is connected (nc_session_is_connected()), the message that was there, the time of the check. *)
Record round := mkR { r_conn : bool; r_msg : option smsg; r_at : tspec }.
Definition trace := list (smsg * list reply).
(** The result of a loop with the session and what was replied to each message; the rounds are used up; undefined behaviour. *)
Inductive waited := Over (rc : Z) (st : sst) (tr : trace) | Still (st : sst) (tr : trace) | Bad.
Definition pre (t : trace) (w : waited) : waited :=
  match w with Over rc st tr => Over rc st (t ++ tr) | Still st tr => Still st (t ++ tr) | Bad => Bad end.

(** The loops of lines 1775-1802 and 1874-1896, which differ in how messages are handled ([o]: with options and state), when they are done, and
    the deadline.  The message is freed after it was handled (1784, 1885). *)
Fixpoint wait (e : env) (o : option sshopts) (fin : sst -> bool) (dl : option tspec) (l : list round) (st : sst) : waited :=
  match l with
  | [] => Still st []
  | r :: l' =>
      if negb (r_conn r) then Over (-1) st []
      else
        match (match r_msg r with
               | None => Some (st, [])
               | Some m => match handle e o m st with Done st' rs _ => Some (st', [(m, rs)]) | Ub => None end
               end) with
        | None => Bad
        | Some (st', t) =>
            pre t (if fin st' then Over 1 st' []
                   else match dl with
                        | None => wait e o fin dl l' st'
                        | Some d => match cur_diff d (r_at r) with
                                    | None => Bad
                                    | Some x => if x <? 1 then Over 0 st' [] else wait e o fin dl l' st'
                                    end
                        end)
        end
  end.

(** Lines 1862-1909 [nc_accept_ssh_session_auth]; [limit]: [auth_timeout] (uint16_t) in seconds. *)
Definition accept_auth (e : env) (o : sshopts) (limit : Z) (now : tspec) (l : list round) (st : sst) : waited :=
  wait e (Some o) s_authd (if limit =? 0 then None else Some (time_get now (limit * 1000))) l st.
(** Lines 1766-1803 [nc_accept_ssh_session_open_netconf_channel]; line 1773: [timeout] is an int, the product is passed as uint32_t. *)
Definition ready (st : sst) : bool := match s_chan st with Some _ => s_subsys st | None => false end.
Definition open_channel (e : env) (timeout : Z) (now : tspec) (l : list round) (st : sst) : waited :=
  wait e None ready (if timeout =? 0 then None else Some (time_get now ((timeout * 1000) mod 4294967296))) l st.

(** What goes on: key exchange with the answers of ssh_handle_key_exchange() ([None]: SSH_AGAIN; OK or not), the times when the phases begin. *)
Record doing := mkD {
  d_setup : bool;                                   (* lines 1919-1964 *)
  d_t0 : tspec; d_kex : list (option bool * tspec);
  d_t1 : tspec; d_auth : list round;
  d_t2 : tspec; d_open : list round }.
Inductive phase := PKex | PAuth | POpen.
Inductive result := Finished (rc : Z) (st : sst) (tr : trace) | Waiting (p : phase) | Undefined.

(** Lines 1911-2012 [nc_accept_ssh_session]; [timeout] in milliseconds (session_p.h 1123).  The key exchange (1970-1980) has no deadline if
    [timeout] is negative. *)
Definition accept_ssh (e : env) (o : sshopts) (limit timeout : Z) (d : doing) : result :=
  if negb (d_setup d) then Finished (-1) fresh []
  else
    match wait_loop (if -1 <? timeout then Some (time_get (d_t0 d) timeout) else None) (d_kex d) with
    | None => Waiting PKex
    | Some (None, _) => Finished 0 fresh []
    | Some (Some false, _) => Finished (-1) fresh []
    | Some (Some true, _) =>
        match accept_auth e o limit (d_t1 d) (d_auth d) fresh with
        | Bad => Undefined
        | Still _ _ => Waiting PAuth
        | Over rc st tr =>
            if negb (rc =? 1) then Finished rc st tr
            else
              match open_channel e timeout (d_t2 d) (d_open d) st with
              | Bad => Undefined
              | Still _ _ => Waiting POpen
              | Over rc' st' tr' => Finished rc' st' (tr ++ tr')
              end
        end
    end.
