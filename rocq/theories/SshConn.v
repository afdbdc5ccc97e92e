(** Setting up SSH sessions of a client: src/session_client_ssh.c 1562-1995 (open_netconf_channel, _nc_connect_libssh, nc_connect_ssh,
    nc_connect_ssh_channel, nc_accept_callhome_ssh_sock) with the end of a session that failed (src/session.c 749-814, 840-843, 987-1021).
    Authentication itself (connect_ssh_session) is in ClientSsh, connecting the socket in SockConn, the NETCONF handshake in Hello. *)
From Coq Require Import Ascii String ZArith List Bool.
From Verif Require Import Bytes.
Import ListNotations.
Local Open Scope list_scope.

(* ------------------------------------------------------------------ *)
(** ** What is made, ended and done *)

(** The strings: [OptHost], [OptUser]: copies given by ssh_options_get(); [Local]: strdup("localhost"); [Ip]: the address given by nc_sock_connect();
    [User]: a copy of the user name; [Name]: strdup(host). *)
Inductive strname := OptHost | OptUser | Local | Ip | User | Name.
(** The objects: the NETCONF session (with its lock), the SSH session, the socket, the channel, the libyang context if it is the session's own,
    the buffer of nc_getpw() and the strings. *)
Inductive res := Session | Ssh | Sock | Chan | Ctx | Buf | Str (n : strname).
(** [Auth u]: connect_ssh_session() returned 1: connected, the host key accepted, authenticated as the user set in the SSH session, [u]; [Opened]: the subsystem was accepted; [Hello]: nc_handshake_io() was called. *)
Inductive act := New (r : res) | Free (r : res) | Auth (u : option bytes) | Opened | Hello.

(* ------------------------------------------------------------------ *)
(** ** The environment *)

(** nc_getpw, io.c 1097-1131: an entry in the buffer, no entry (the buffer stays), no memory. *)
Inductive pw := PwOk (name : bytes) | PwNone | PwMem.
Definition pw_buf (p : pw) : list res := match p with PwMem => [] | _ => [Buf] end.
Definition SSH_OK : Z := 0.
Definition SSH_ERROR : Z := -1.
Definition SSH_AGAIN : Z := -2.
(** [e_session]: nc_new_session() succeeds; [e_ssh]: ssh_new(); [e_hostset]: SSH_OPTIONS_HOST can be set; [e_sock]: nc_sock_connect(), which gives the
    address exactly if it succeeds; [e_local], [e_user], [e_name]: memory for "localhost", for the user name, for the name of the host;
    [e_opthost], [e_optuser]: what is set in the SSH session given; [e_up]: it is connected; [e_set]: the user name in the options of the client;
    [e_uid], [e_euid], [e_pw]: the real and the effective user, the entries of users; [e_auth]: what connect_ssh_session() returns;
    [e_alive]: ssh_is_connected() when the channel is opened; [e_chan]: ssh_channel_new();
    [e_open], [e_sub]: the results of opening the channel and of requesting the subsystem, each with whether the time is over after it;
    [e_own]: no context was given; [e_ctx]: it could be made; [e_hello]: a valid hello was received; [e_fill]: nc_ctx_check_and_fill(). *)
Record env := { e_session : bool; e_ssh : bool; e_hostset : bool; e_sock : bool; e_local : bool; e_user : bool; e_name : bool;
  e_opthost : bool; e_optuser : option bytes; e_up : bool; e_set : option bytes; e_uid : nat; e_euid : nat; e_pw : nat -> pw; e_auth : Z;
  e_alive : bool; e_chan : bool; e_open : list (Z * bool); e_sub : list (Z * bool); e_own : bool; e_ctx : bool; e_hello : bool; e_fill : bool }.

(* ------------------------------------------------------------------ *)
(** ** open_netconf_channel, lines 1565-1630 *)

(** Lines 1589-1594, 1609-1614: the result with which the loop is left; [None]: not yet. *)
Fixpoint wait (l : list (Z * bool)) : option Z :=
  match l with
  | [] => None
  | (rc, expired) :: l => if Z.eqb rc SSH_AGAIN then if expired then Some rc else wait l else Some rc
  end.
(** The value returned, what was done, and whether the session has a channel; [None]: not finished yet.  libssh takes NULL for a channel and gives an error. *)
Definition open_channel (e : env) : option (Z * list act * bool) :=
  if negb (e_alive e) then Some ((-1)%Z, [], false)
  else
  let made := if e_chan e then [New Chan] else [] in
  let unmade := if e_chan e then [Free Chan] else [] in
  match (if e_chan e then wait (e_open e) else Some SSH_ERROR) with
  | None => None
  | Some rc =>
    if Z.eqb rc SSH_AGAIN then Some (0%Z, made ++ unmade, false)
    else if Z.eqb rc SSH_ERROR then Some ((-1)%Z, made ++ unmade, false)
    else
    match wait (e_sub e) with
    | None => None
    | Some rc =>
      if Z.eqb rc SSH_AGAIN then Some (0%Z, made ++ unmade, false)
      else if Z.eqb rc SSH_ERROR then Some ((-1)%Z, made ++ unmade, false)
      else Some (1%Z, made ++ [Opened], true)
    end
  end.

(* ------------------------------------------------------------------ *)
(** ** The session *)

(** The fields of the session: [host], [user], whether there is an SSH session, a channel and a context of its own;
    [fd]: ssh_get_fd() gives the socket.  libssh gives it once ssh_connect() was called, a socket only set as an option is not given. *)
Record fields := mkF { host : option strname; user : option strname; ssh : bool; chan : bool; ctx : bool; fd : bool }.
Definition ostr (s : option strname) : list res := match s with None => [] | Some n => [Str n] end.
Definition opt (b : bool) (r : res) : list res := if b then [r] else [].
(** nc_session_free() of a client session that is on its own SSH session: session.c 750-756, 790-796, 840-843, 990-993, 1004-1021.
    A channel that is not freed (not connected) is freed by ssh_free().  Messages, capabilities and the request to close are not represented (SessFree). *)
Definition session_free (f : fields) : list act :=
  map Free (opt (chan f) Chan ++ opt (ssh f) Ssh ++ opt (fd f) Sock ++ ostr (user f) ++ ostr (host f) ++ opt (ctx f) Ctx ++ [Session]).

(** The result of connecting: [None] is not finished; otherwise the session (its fields) or NULL, and what was done. *)
Definition result := option (option fields * list act).

(** Lines 1718-1741 and 1834-1850: from the channel on; [fin]: what is done at the end with the fields, [fail]: what is freed besides the session on failure. *)
Definition establish (e : env) (f : fields) (t : list act) (fin : fields -> fields * list act) (fail : list act) : result :=
  match open_channel e with
  | None => None
  | Some (rc, u, c) =>
    let t := t ++ u in
    let f := mkF (host f) (user f) (ssh f) c (ctx f) (fd f) in
    if negb (Z.eqb rc 1) then Some (None, t ++ fail ++ session_free f)
    else if e_own e && negb (e_ctx e) then Some (None, t ++ fail ++ session_free f)
    else
    let t := t ++ map New (opt (e_own e) Ctx) ++ [Hello] in
    let f := mkF (host f) (user f) (ssh f) (chan f) (e_own e) (fd f) in
    if negb (e_hello e) then Some (None, t ++ fail ++ session_free f)
    else if negb (e_fill e) then Some (None, t ++ fail ++ session_free f)
    else let '(f, u) := fin f in Some (Some f, t ++ u)
  end.

(* ------------------------------------------------------------------ *)
(** ** _nc_connect_libssh, lines 1632-1755 *)

(** Lines 1655-1688: the variable [host], or failure. *)
Definition get_host (e : env) : option strname * list act :=
  if e_opthost e then (Some OptHost, [New (Str OptHost)])
  else if negb (e_local e) then (None, [])
  else if negb (e_hostset e) then (None, [New (Str Local); Free (Str Local)])
  else if negb (e_sock e) then (None, [New (Str Local); Free (Str Local)])
  else (Some Ip, [New (Str Local); New Sock; New (Str Ip); Free (Str Local)]).
(** Lines 1699-1713: the variable [username] when the option was not set, or failure. *)
Definition get_user (e : env) : bool * list act :=
  match e_set e with
  | None =>
    match e_pw e (e_uid e) with
    | PwOk _ => if e_user e then (true, [New Buf; New (Str User); Free Buf]) else (false, [New Buf; Free Buf])
    | p => (false, map New (pw_buf p))
    end
  | Some _ => if e_user e then (true, [New (Str User)]) else (false, [])
  end.
(** The user who logs in: the one of the SSH session, else the one of the options, else the entry of getuid() (line 1701). *)
Definition libssh_user (e : env) : option bytes :=
  match e_optuser e with
  | Some u => Some u
  | None => match e_set e with Some u => Some u | None => match e_pw e (e_uid e) with PwOk u => Some u | _ => None end end
  end.
Definition libssh (e : env) : result :=
  if negb (e_session e) then Some (None, [])
  else
  let t := [New Session] in
  let f := mkF None None true false false (e_up e) in
  let '(h, u) := get_host e in
  let t := t ++ u in
  match h with
  | None => Some (None, t ++ session_free f)
  | Some h =>
    let opt_user := match e_optuser e with Some _ => Some OptUser | None => None end in
    let t := t ++ map New (ostr opt_user) in
    let fin u := fun f => (mkF (Some h) u (ssh f) (chan f) (ctx f) (fd f), []) in
    if e_up e then establish e f t (fin opt_user) []
    else
    let '(ok, u) := match opt_user with Some _ => (true, []) | None => get_user e end in
    let t := t ++ u in
    if negb ok then Some (None, t ++ session_free f)
    else
    let us := match opt_user with Some n => n | None => User end in
    let f := mkF (Some h) (Some us) true false false true in
    if negb (Z.eqb (e_auth e) 1) then Some (None, t ++ session_free f)
    else establish e f (t ++ [Auth (libssh_user e)]) (fin (Some us)) []
  end.
(* ------------------------------------------------------------------ *)
(** ** nc_connect_ssh, lines 1757-1864 *)

Definition connect_user (e : env) : option bytes :=
  match e_set e with Some u => Some u | None => match e_pw e (e_uid e) with PwOk u => Some u | _ => None end end.
(** The name of the user: lines 1780-1792; the buffer stays until the end; with a name in the options its entry is
    looked up and not used (whether that leaves a buffer is taken from the same entry). *)
Definition connect_ssh (e : env) : result :=
  let '(ok, buf) :=
    match e_set e with
    | None => (match e_pw e (e_uid e) with PwOk _ => true | _ => false end, pw_buf (e_pw e (e_uid e)))
    | Some _ => (true, pw_buf (e_pw e (e_uid e)))
    end in
  let t := map New buf in
  let fb := map Free buf in
  if negb ok then Some (None, t ++ fb)
  else if negb (e_session e) then Some (None, t ++ fb)
  else
  let t := t ++ [New Session] in
  let f := mkF None None false false false false in
  if negb (e_ssh e) then Some (None, t ++ fb ++ session_free f)
  else
  let t := t ++ [New Ssh] in
  let f := mkF None None true false false false in
  if negb (e_hostset e) then Some (None, t ++ fb ++ session_free f)
  else if negb (e_sock e) then Some (None, t ++ fb ++ session_free f)
  else
  let nm := if e_name e then Some Name else None in
  let us := if e_user e then Some User else None in
  let t := t ++ [New Sock; New (Str Ip)] ++ map New (ostr nm) ++ map New (ostr us) in
  let f := mkF nm us true false false true in
  let fail := fb ++ [Free (Str Ip)] in
  if negb (Z.eqb (e_auth e) 1) then Some (None, t ++ fail ++ session_free f)
  else establish e f (t ++ [Auth (connect_user e)]) (fun f => (mkF (Some Ip) (user f) (ssh f) (chan f) (ctx f) (fd f), map Free (ostr (host f)) ++ fb)) fail.
(* ------------------------------------------------------------------ *)
(** ** nc_accept_callhome_ssh_sock, lines 1935-1995 *)

(** The socket is given.  That the user name was set in the SSH session is not checked and taken for granted. *)
Definition callhome (e : env) : result :=
  if negb (e_ssh e) then Some (None, [Free Sock])
  else
  let t := [New Ssh] in
  if negb (e_hostset e) then Some (None, t ++ [Free Ssh])
  else
  let found := connect_user e in
  let '(ok, u) :=
    match e_set e with
    | Some _ => (true, [])
    | None => match e_pw e (e_uid e) with PwOk _ => (true, [New Buf; Free Buf]) | p => (false, map New (pw_buf p)) end
    end in
  let t := t ++ u in
  if negb ok then Some (None, t ++ [Free Ssh])
  else
  let e' := {| e_session := e_session e; e_ssh := e_ssh e; e_hostset := e_hostset e; e_sock := e_sock e; e_local := e_local e; e_user := e_user e; e_name := e_name e;
    e_opthost := true; e_optuser := found; e_up := false; e_set := e_set e; e_uid := e_uid e; e_euid := e_euid e; e_pw := e_pw e; e_auth := e_auth e;
    e_alive := e_alive e; e_chan := e_chan e; e_open := e_open e; e_sub := e_sub e; e_own := e_own e; e_ctx := e_ctx e; e_hello := e_hello e; e_fill := e_fill e |} in
  match libssh e' with
  | None => None
  | Some (r, u) => Some (r, t ++ u)
  end.

(* ------------------------------------------------------------------ *)
(** ** nc_connect_ssh_channel, lines 1872-1933 *)

(** A session of the ring: a name for it, whether it is still starting, its host and user. *)
Record peer := mkP { p_id : nat; p_starting : bool; p_host : option bytes; p_user : option bytes }.
(** [ring]: the sessions in the order of [next], the one given first ([next] is NULL if it is alone); [locked]: the lock for I/O they share is held. *)
Record world := mkR { ring : list peer; locked : bool }.
(** [CUndef]: strdup(NULL); [CWait]: not finished; otherwise the session made, or NULL, and the state. *)
Inductive cres := CWait | CUndef | CRet (new : option peer) (w : world).
(** nc_session_free() of the new session, session.c 761-812, if not all others are starting: it is taken off the ring.  The lock is tried for
    NC_SESSION_FREE_LOCK_TIMEOUT and released only if it was got. *)
Definition ring_free (id : nat) (w : world) : world := mkR (filter (fun p => negb (Nat.eqb (p_id p) id)) (ring w)) (locked w).
(** [mem]: nc_new_session(); [lock]: nc_session_io_lock() without a limit gives 1 (else an error); [copy]: the copies of host and user could be made (not checked). *)
Definition ssh_channel (e : env) (lock copy : bool) (new : nat) (w : world) : cres :=
  match ring w with
  | [] => CUndef
  | s :: rest =>
    if negb (e_session e) then CRet None w
    else
    let w := mkR (s :: mkP new true None None :: rest) (locked w) in
    if negb lock then CRet None (ring_free new w)
    else if locked w then CWait
    else
    let w := mkR (ring w) true in
    match open_channel e with
    | None => CWait
    | Some (rc, _, _) =>
      if negb (Z.eqb rc 1) then CRet None (ring_free new w)
      else
      let w := mkR (ring w) false in
      if e_own e && negb (e_ctx e) then CRet None (ring_free new w)
      else if negb (e_hello e) then CRet None (ring_free new w)
      else if negb (e_fill e) then CRet None (ring_free new w)
      else
      match p_host s, p_user s with
      | Some h, Some u =>
        let p := if copy then mkP new false (Some h) (Some u) else mkP new false None None in
        CRet (Some p) (mkR (s :: p :: rest) (locked w))
      | _, _ => CUndef
      end
    end
  end.
(** nc_session_io_lock, session.c 424-453, of any session of the ring; [None]: it does not return. *)
Definition io_lock (timeout : Z) (w : world) : option Z :=
  if locked w then if Z.ltb timeout 0 then None else Some 0%Z else Some 1%Z.
