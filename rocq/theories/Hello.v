(** Model of the hello exchange, src/session.c 1277-1555, and of the session creation around it:
    src/session_server.c 984-1030, 2491-2614, 2697-2787, src/session_server_ssh.c 2015-2127,
    src/session_client.c 1422-1560 (nc_connect_inout, nc_connect_unix; the SSH and TLS variants,
    session_client_ssh.c 1736-1750, 1842-1856, 1914-1926 and session_client_tls.c 415-425, 473-485, have the same shape). *)
From Coq Require Import Ascii String NArith ZArith Bool Lia List.
From Verif Require Import Bytes CStr Caps IoRead.
Import ListNotations.
Local Open Scope N_scope.

(** A node of the tree lyd_parse_data() returns with LYD_PARSE_OPAQ: an opaque node, or a node that
    instantiates a schema node of the context.  The code casts every node to an opaque one, which is
    wrong for the second kind (its fields are of a different structure). *)
Inductive xnode :=
| XOpaq (ns : option bytes) (name value : bytes) (children : list xnode)
| XData (children : list xnode).

Definition children_of (x : xnode) : list xnode := match x with XOpaq _ _ _ c => c | XData c => c end.

Definition NC_NS_BASE : bytes := bs "urn:ietf:params:xml:ns:netconf:base:1.0".
Definition is_base (ns : option bytes) : bool := match ns with Some s => beqb s NC_NS_BASE | None => false end.

(** Result of [parse_cpblts]: version 0/1 with the stored list, failure, or a wrongly cast node read. *)
Inductive pcres := PcOk (ver : N) (l : list bytes) | PcFail | PcUb.

(** Lines 1308-1313: both version comparisons use the length of the received capability; [ver] = [None]
    for -1. *)
Definition see_version (ver : option N) (cap : bytes) : option N :=
  let is u := strncmp0 cap u (length cap) in
  match ver with
  | None => if is base10 then Some 0 else if is base11 then Some 1 else None
  | Some 0 => if is base11 then Some 1 else Some 0
  | Some v => Some v
  end.

(** Lines 1293-1330. *)
Fixpoint parse_cpblts_loop (ns : list xnode) (ver : option N) (acc : list bytes) : pcres :=
  match ns with
  | [] => match ver with None => PcFail | Some v => PcOk v acc end
  | XData _ :: _ => PcUb
  | XOpaq mns name value _ :: ns' =>
      if negb (beqb name (bs "capability")) || negb (is_base mns) then PcFail
      else
        match trim value with
        | [] => PcFail
        | cap => parse_cpblts_loop ns' (see_version ver cap) (acc ++ [cap])
        end
  end.
Definition parse_cpblts (caps : xnode) : pcres := parse_cpblts_loop (children_of caps) None [].

(** NC_MSG_TYPE values that occur here. *)
Inductive mtype := T_HELLO | T_ERROR | T_WOULDBLOCK | T_BAD_HELLO.

(** What [nc_read_msg_poll_io] and lyd_parse_data() gave: [RdMsg None] = not parsable,
    [RdMsg (Some None)] = parsed to no tree at all (empty message). *)
Inductive rdres := RdMsg (parsed : option (option xnode)) | RdTimeout | RdFail.

(** The session fields the exchange sets. *)
Record hs := mkH { h_id : N; h_ver : N; h_cpblts : option (list bytes) }.

Inductive hres := HRes (rc : mtype) (s : hs) | HUb.

(** Lines 1403-1446: the loop over the children of the server hello on the client. *)
Fixpoint client_hello_loop (ns : list xnode) (flag : bool) (s : hs) : hres :=
  match ns with
  | [] => if h_id s =? 0 then HRes T_ERROR s else HRes T_HELLO s
  | XData _ :: _ => HUb
  | XOpaq mns name value ch :: ns' =>
      if negb (is_base mns) then client_hello_loop ns' flag s
      else if beqb name (bs "session-id") then
        match strtoll_full value with
        | Some id => if ((id <? 1) || (4294967295 <? id))%Z then HRes T_ERROR s
                     else client_hello_loop ns' flag (mkH (Z.to_N id) (h_ver s) (h_cpblts s))
        | None => HRes T_ERROR s
        end
      else if negb (beqb name (bs "capabilities")) then HRes T_ERROR s
      else if flag then HRes T_ERROR s
      else match parse_cpblts (XOpaq mns name value ch) with
           | PcOk v l => client_hello_loop ns' true (mkH (h_id s) v (Some l))
           | PcFail => HRes T_ERROR s
           | PcUb => HUb
           end
  end.

(** Lines 1382-1463 [nc_client_recv_hello_io]. *)
Definition client_recv_hello (r : rdres) (s : hs) : hres :=
  match r with
  | RdMsg None => HRes T_ERROR s
  | RdMsg (Some None) => client_hello_loop [] false s
  | RdMsg (Some (Some hello)) => client_hello_loop (children_of hello) false s
  | RdTimeout => HRes T_WOULDBLOCK s
  | RdFail => HRes T_ERROR s
  end.

(** Lines 1497-1520. *)
Fixpoint server_hello_loop (ns : list xnode) (flag : bool) (s : hs) : hres :=
  match ns with
  | [] => HRes T_HELLO s
  | XData _ :: _ => HUb
  | XOpaq mns name value ch :: ns' =>
      if negb (is_base mns) then server_hello_loop ns' flag s
      else if negb (beqb name (bs "capabilities")) then HRes T_BAD_HELLO s
      else if flag then HRes T_BAD_HELLO s
      else match parse_cpblts (XOpaq mns name value ch) with
           | PcOk v l => server_hello_loop ns' true (mkH (h_id s) v (h_cpblts s))
           | PcFail => HRes T_BAD_HELLO s
           | PcUb => HUb
           end
  end.

(** Lines 1471-1536 [nc_server_recv_hello_io]. *)
Definition server_recv_hello (r : rdres) (s : hs) : hres :=
  match r with
  | RdMsg None => HRes T_ERROR s
  | RdMsg (Some None) => server_hello_loop [] false s
  | RdMsg (Some (Some hello)) => server_hello_loop (children_of hello) false s
  | RdTimeout => HRes T_WOULDBLOCK s
  | RdFail => HRes T_ERROR s
  end.

(** Lines 1334-1374 [nc_send_hello_io]: the capabilities and the session-id a peer puts into its own
    hello; [None] when the list cannot be built. *)
Definition own_hello (client : bool) (o : sopts) (c : lyctx) (id : N) : option (list bytes * option N) :=
  if client then Some ([bs "urn:ietf:params:netconf:base:1.0"; bs "urn:ietf:params:netconf:base:1.1"], None)
  else match get_cpblts o c 1 with CapOk l => Some (l, Some id) | _ => None end.

(** Lines 1538-1555 [nc_handshake_io]; [sent] = result of sending the own hello. *)
Definition handshake (client : bool) (sent : mtype) (r : rdres) (s : hs) : hres :=
  match sent with
  | T_HELLO => if client then client_recv_hello r s else server_recv_hello r s
  | t => HRes t s
  end.

(* ------------------------------------------------------------------ *)
(** ** Session creation *)

Inductive status := ST_STARTING | ST_RUNNING | ST_INVALID.

(** A session as the application sees it. *)
Record sess := mkSess { se_id : N; se_status : status; se_ver : N; se_cpblts : option (list bytes) }.

(** The counter of session ids is an atomic of [ctr_mod] values: 2^64 (uint_fast32_t on x86-64
    glibc) or 2^32; the session id is the 32 low bits of the old value. *)
Definition next_id (ctr : N) : N := ctr mod w32.

(** Outcome of the transport-specific part: listening/accepting/authenticating. *)
Inductive tpres := TpOk | TpTimeout | TpFail.

(** A call that creates a server session: outcome of the checks and of the transport part, of sending
    the hello, and of receiving.  One shape serves [nc_accept_inout] (session_server.c 984-1030,
    transport part trivial), [nc_accept] (2491-2614), [nc_connect_ch_endpt] (2697-2787). *)
Record attempt := mkA { a_tp : tpres; a_sent : mtype; a_read : rdres }.

(** Result: NC_MSG_TYPE, the session handed out, the new counter. *)
Inductive accres := AccRes (rc : mtype) (session : option sess) (ctr : N) | AccUb.

Definition server_accept (ctr_mod ctr : N) (a : attempt) : accres :=
  if ctr =? 0 then AccRes T_ERROR None ctr              (* NC_CHECK_SRV_INIT_RET *)
  else
    match a_tp a with
    | TpTimeout => AccRes T_WOULDBLOCK None ctr
    | TpFail => AccRes T_ERROR None ctr
    | TpOk =>
        let ctr' := (ctr + 1) mod ctr_mod in
        match handshake false (a_sent a) (a_read a) (mkH (next_id ctr) 0 None) with
        | HUb => AccUb
        | HRes T_HELLO s => AccRes T_HELLO (Some (mkSess (h_id s) ST_RUNNING (h_ver s) (h_cpblts s))) ctr'
        | HRes rc _ => AccRes rc None ctr'              (* nc_session_free, *session = NULL *)
        end
    end.

(** [nc_session_accept_ssh_channel] / [nc_ps_accept_ssh_channel] (session_server_ssh.c 2015-2127): no
    initialisation check (the original session exists); [a_tp] says whether a ready channel was found.
    On failure the new session is not handed out (it stays in the ring, see Ring.v). *)
Definition ssh_channel_accept (ctr_mod ctr : N) (a : attempt) : accres :=
  match a_tp a with
  | TpOk =>
      let ctr' := (ctr + 1) mod ctr_mod in
      match handshake false (a_sent a) (a_read a) (mkH (next_id ctr) 0 None) with
      | HUb => AccUb
      | HRes T_HELLO s => AccRes T_HELLO (Some (mkSess (h_id s) ST_RUNNING (h_ver s) (h_cpblts s))) ctr'
      | HRes rc _ => AccRes rc None ctr'
      end
  | _ => AccRes T_ERROR None ctr
  end.

(** Creating a client session: session_client.c 1422-1560.  [c_fill] = result of
    [nc_ctx_check_and_fill] (success?) and the status of the session after it: filling the
    context exchanges messages, during which the connection may be lost (the base module then falls back
    to the built-in copy, lines 1187-1194). [c_fill_disabled] = auto_context_fill_disabled. *)
Record cattempt := mkC { c_tp : tpres; c_sent : mtype; c_read : rdres; c_fill_disabled : bool; c_fill : bool; c_after : status }.
Inductive conres := ConRes (session : option sess) | ConAbort | ConUb.

Definition client_connect (c : cattempt) : conres :=
  match c_tp c with
  | TpOk =>
      match handshake true (c_sent c) (c_read c) (mkH 0 0 None) with
      | HUb => ConUb
      | HRes T_HELLO s =>
          match h_cpblts s with
          | None => ConAbort                    (* assert(session->opts.client.cpblts ...), line 1272 *)
          | Some l =>
              if c_fill_disabled c then ConRes (Some (mkSess (h_id s) ST_RUNNING (h_ver s) (Some l)))
              else if c_fill c then ConRes (Some (mkSess (h_id s) (c_after c) (h_ver s) (Some l)))
              else ConRes None
          end
      | HRes _ _ => ConRes None
      end
  | _ => ConRes None
  end.
