(** SSH server: authentication and channel requests (src/session_server_ssh.c). *)
From Coq Require Import Ascii String NArith ZArith Bool Lia List.
From Verif Require Import Bytes CStr SshKeys.
Import ListNotations.
Local Open Scope N_scope.

(** session_p.h 170-184 [struct nc_auth_client]; the union of keys and truststore reference is part of the
    store, an unknown value of the store type is [SOther]. *)
Inductive store := SLocal (keys : list bytes) | STruststore (ref : bytes) | SSystem | SOther.
Record client := mkCl { cl_name : bytes; cl_store : store; cl_password : option bytes; cl_kbdint : bool; cl_none : bool }.

(** The parts of [struct nc_server_ssh_opts] used. *)
Record sshopts := mkOpts { so_clients : list client; so_ref : option bytes }.

(** An endpoint is of type SSH or not. *)
Inductive endpt := EpSsh (o : sshopts) | EpOther.

(** ssh_message_auth_publickey_state() *)
Inductive sigstate := SigError | SigNone | SigValid | SigWrong.

(** Authentication requests.  [MKbdint rc]: the exchange (callback, PAM or system) ended with [rc]. *)
Inductive method := MNone | MPassword (p : option bytes) | MPubkey (k : bytes) (s : sigstate) | MKbdint (rc : Z) | MUnsupported.

(** SSH messages as given by ssh_message_get(): authentication, opening a channel ([typ]: of type session;
    [got]: the channel libssh creates), requesting a subsystem ([mem]: memory for a new session), others. *)
Inductive smsg :=
| AuthReq (u : bytes) (m : method)
| ChanOpen (typ : bool) (got : option N)
| Subsystem (c : N) (name : bytes) (mem : bool)
| OtherMsg.

(** What the client gets. *)
Inductive reply := RDefault | RPartial | RSuccess | RPkOk | RChan (c : N) | RSubsys.

Inductive status := Starting | Running | Invalid | Closing.

(** The session being accepted, [struct nc_auth_state] included; [s_made] are the sessions created for
    additional channels (user name, channel). *)
Record sst := mkS {
  s_user : option bytes; s_status : status; s_authd : bool; s_subsys : bool; s_chan : option N;
  s_made : list (bytes * N); s_attempts : N;
  s_methods : N; s_mcount : N; s_smethods : N; s_scount : N; s_offered : N }.

Definition fresh : sst := mkS None Starting false false None [] 0 0 0 0 0 0.

(** Everything outside the session. *)
Record env := mkEnv {
  e_local : option bool;                          (* lys_feature_value(): local users or not; None: error *)
  e_endpts : list (bytes * endpt);                (* server_opts.endpts *)
  e_crypt : bytes -> bytes -> option bytes;       (* crypt_r() *)
  e_today : Z;
  e_passwd : bytes -> option passwd;              (* entries of the system users *)
  e_syskeys : bytes -> pres (list bytes);         (* nc_server_ssh_get_system_keys() *)
  e_truststore : list (bytes * list bytes);       (* public key bags *)
  e_spki : bytes -> bool;                         (* nc_is_pk_subject_public_key_info() != 0 *)
  e_decode : bytes -> option bytes;
  e_import : bytes -> keytype -> option bytes;    (* a key is its public part *)
}.

(** session_server_ssh.c 171-206 [nc_server_ssh_ts_ref_get_keys]. *)
Definition ts_ref_get_keys (e : env) (ref : bytes) : option (list bytes) :=
  match find (fun b => streq ref (fst b)) (e_truststore e) with
  | None => None
  | Some (_, keys) => if existsb (e_spki e) keys then None else Some keys
  end.

(** session_server.c 116-129 [nc_server_get_referenced_endpt]. *)
Definition get_referenced_endpt (e : env) (name : bytes) : option endpt :=
  match find (fun p => streq name (fst p)) (e_endpts e) with Some (_, x) => Some x | None => None end.

(** session_server_ssh.c 1458-1486: looking the user up, also in the referenced endpoint (lines 1468-1477 call
    the function again; nothing was changed before).  [FLoop]: no end of it, or options of another type. *)
Inductive found := FClient (c : client) | FUnknown | FMissing | FLoop.
Fixpoint find_client (fuel : nat) (e : env) (o : sshopts) (u : bytes) : found :=
  match find (fun c => streq (cl_name c) u) (so_clients o) with
  | Some c => FClient c
  | None =>
      match so_ref o with
      | None => FUnknown
      | Some r => match get_referenced_endpt e r with
                  | None => FMissing
                  | Some EpOther => FLoop
                  | Some (EpSsh o') => match fuel with O => FLoop | S f => find_client f e o' u end
                  end
      end
  end.

(** Result of trying a method: 0; 1; -1 with the reply already sent; memory read out of bounds. *)
Inductive tried := TOk | TFail | TReplied (r : reply) | TUb.

(** session_server_ssh.c 1171-1184 [nc_server_ssh_auth_none]; [c = None]: no local users. *)
Definition auth_none (c : option client) : tried :=
  match c with
  | Some c => if cl_none c then TOk else TReplied RDefault
  | None => TReplied RDefault
  end.

(** session_server_ssh.c 1195-1232 [nc_server_ssh_auth_password]; built with HAVE_SHADOW. *)
Definition auth_password (e : env) (u : bytes) (c : option client) (p : option bytes) : tried :=
  let stored := match c with
                | Some c => cl_password c
                | None => get_pwd_hash (e_today e) (e_passwd e u)
                end in
  match stored with
  | None => TFail
  | Some s => if compare_password (e_crypt e) s p then TOk else TFail
  end.

(** session_server_ssh.c 1243-1297 [nc_server_ssh_auth_pubkey]. *)
Definition auth_pubkey (e : env) (u : bytes) (c : option client) (k : bytes) (s : sigstate) : tried :=
  let keys := match c with
              | None => e_syskeys e u
              | Some c => match cl_store c with
                          | SSystem => e_syskeys e u
                          | SLocal ks => POk ks
                          | STruststore r => match ts_ref_get_keys e r with Some ks => POk ks | None => PErr end
                          | SOther => PErr
                          end
              end in
  match keys with
  | PUb => TUb
  | PErr => TFail
  | POk ks =>
      match compare_key bytes (e_decode e) (e_import e) beqb k ks with
      | PUb => TUb
      | POk true => match s with SigNone => TReplied RPkOk | _ => TOk end
      | _ => TFail
      end
  end.

(** session_server_ssh.c 1308-1334 [nc_server_ssh_auth_kbdint]. *)
Definition auth_kbdint (c : option client) (rc : Z) : tried :=
  match c with
  | Some c => if cl_kbdint c then (if (rc =? 0)%Z then TOk else TFail) else TFail
  | None => if (rc =? 0)%Z then TOk else TFail
  end.

(** SSH_AUTH_METHOD_* of libssh. *)
Definition bit_of (m : method) : N :=
  match m with MNone => 1 | MPassword _ => 2 | MPubkey _ _ => 4 | MKbdint _ => 16 | MUnsupported => 0 end.

(** session_server_ssh.c 1493-1512: the methods of a configured user and their number. *)
Definition pubkey_configured (s : store) : bool :=
  match s with SLocal ks => match ks with [] => false | _ => true end | STruststore _ => true | SSystem => true | SOther => false end.
Definition client_methods (c : client) : N * N :=
  let add (b : bool) (bit : N) (p : N * N) := if b then (N.lor (fst p) bit, snd p + 1) else p in
  add (cl_none c) 1 (add (cl_kbdint c) 16 (add (match cl_password c with Some _ => true | None => false end) 2
      (add (pubkey_configured (cl_store c)) 4 (0, 0)))).

Inductive res := Done (st : sst) (rs : list reply) (ret : N) | Ub.

(** session_server_ssh.c 1488-1521: the user name is taken from the first request, and the methods are
    set: added for a configured user, assigned for a system user. *)
Definition set_user (st : sst) (u : bytes) (c : option client) : sst :=
  let '(ms, n) := match c with
                  | Some c => (N.lor (s_methods st) (fst (client_methods c)), s_mcount st + snd (client_methods c))
                  | None => (22, 1)                    (* publickey, password, interactive *)
                  end in
  mkS (Some u) (s_status st) (s_authd st) (s_subsys st) (s_chan st) (s_made st) (s_attempts st)
      ms n (s_smethods st) (s_scount st) ms.

Definition set_status (st : sst) (x : status) : sst :=
  mkS (s_user st) x (s_authd st) (s_subsys st) (s_chan st) (s_made st) (s_attempts st)
      (s_methods st) (s_mcount st) (s_smethods st) (s_scount st) (s_offered st).
Definition set_offered (st : sst) (n : N) : sst :=
  mkS (s_user st) (s_status st) (s_authd st) (s_subsys st) (s_chan st) (s_made st) (s_attempts st)
      (s_methods st) (s_mcount st) (s_smethods st) (s_scount st) n.
Definition add_attempt (st : sst) : sst :=
  mkS (s_user st) (s_status st) (s_authd st) (s_subsys st) (s_chan st) (s_made st) (s_attempts st + 1)
      (s_methods st) (s_mcount st) (s_smethods st) (s_scount st) (s_offered st).
(** Lines 1550-1562. *)
Definition add_success (st : sst) (bit : N) : sst :=
  let sm := N.lor (s_smethods st) bit in
  let sc := s_scount st + 1 in
  let full := negb (sc <? s_mcount st) in
  mkS (s_user st) (s_status st) (s_authd st || full) (s_subsys st) (s_chan st) (s_made st) (s_attempts st)
      (s_methods st) (s_mcount st) sm sc (if full then s_offered st else N.ldiff (s_methods st) sm).

(** session_server_ssh.c 1488-1573, the part of [nc_server_ssh_auth] after the client was found: the user
    name, the method and the reply. *)
Definition auth_user (e : env) (u : bytes) (m : method) (c : option client) (st : sst) : res :=
  match (match s_user st with
         | None => Some (set_user st u c)
         | Some u0 => if streq u u0 then Some st else None
         end) with
  | None => Done (set_status st Invalid) [] 1
  | Some st1 =>
      match (match m with
             | MNone => Some (auth_none c)
             | MPassword p => Some (auth_password e u c p)
             | MPubkey k s => Some (auth_pubkey e u c k s)
             | MKbdint rc => Some (auth_kbdint c rc)
             | MUnsupported => None
             end) with
      | None => Done (add_attempt st1) [RDefault] 0
      | Some TUb => Ub
      | Some TOk => let st2 := add_success st1 (bit_of m) in
                    Done st2 [if s_scount st2 <? s_mcount st2 then RPartial else RSuccess] 0
      | Some TFail => Done (add_attempt st1) [RDefault] 0
      | Some (TReplied r) => Done st1 [r] 0
      end
  end.

(** session_server_ssh.c 1444-1573 [nc_server_ssh_auth].  Allocation of the user name is taken to succeed. *)
Definition ssh_auth (e : env) (o : sshopts) (local : bool) (u : bytes) (m : method) (st : sst) : res :=
  if local then
    match find_client (length (e_endpts e)) e o u with
    | FLoop => Ub
    | FMissing => Done st [] 1
    | FUnknown => Done (set_offered st 4) [RDefault] 0
    | FClient c => auth_user e u m (Some c) st
    end
  else auth_user e u m None st.

(** session_server_ssh.c 1343-1372 [nc_server_ssh_channel_open]; [Done _ [] 1] stands for -1. *)
Definition channel_open (got : option N) (st : sst) : sst * option N :=
  match s_chan st with
  | None => match s_status st, got with
            | Starting, Some c => (mkS (s_user st) (s_status st) (s_authd st) (s_subsys st) (Some c) (s_made st)
                                       (s_attempts st) (s_methods st) (s_mcount st) (s_smethods st) (s_scount st) (s_offered st), Some c)
            | _, _ => (st, None)
            end
  | Some _ => (st, got)
  end.

(** session_server_ssh.c 1382-1430 [nc_server_ssh_channel_subsystem]: [None] = -1.  The session is the only
    one reading messages here, so [ti.libssh.next] is set exactly when another one was made. *)
Definition channel_subsystem (c : N) (name : bytes) (mem : bool) (st : sst) : option sst :=
  if negb (streq name (bs "netconf")) then None
  else if match s_chan st with Some c0 => c =? c0 | None => false end then
    match s_made st, s_status st with
    | [], Starting =>
        if s_subsys st then None
        else Some (mkS (s_user st) (s_status st) (s_authd st) true (s_chan st) (s_made st) (s_attempts st)
                       (s_methods st) (s_mcount st) (s_smethods st) (s_scount st) (s_offered st))
    | _, _ => None
    end
  else if mem then
    Some (mkS (s_user st) (s_status st) (s_authd st) (s_subsys st) (s_chan st)
              ((match s_user st with Some u => u | None => [] end, c) :: s_made st) (s_attempts st)
              (s_methods st) (s_mcount st) (s_smethods st) (s_scount st) (s_offered st))
  else None.

(** session_server_ssh.c 1575-1764 [nc_session_ssh_msg]; [o = None]: called without options and state. *)
Definition ssh_msg (e : env) (o : option sshopts) (m : smsg) (st : sst) : res :=
  match s_status st with
  | Closing | Invalid => Done st [RDefault] 0
  | _ =>
      match m with
      | AuthReq u me =>
          if s_authd st then Done st [RDefault] 0
          else match o with
               | None => Done st [] 1
               | Some opts => match e_local e with
                              | None => Done st [] 1
                              | Some l => ssh_auth e opts l u me st
                              end
               end
      | ChanOpen true got =>
          if s_authd st then
            let '(st', r) := channel_open got st in
            Done st' [match r with Some c => RChan c | None => RDefault end] 0
          else Done st [] 1
      | Subsystem c name mem =>
          if s_authd st then
            match channel_subsystem c name mem st with
            | Some st' => Done st' [RSubsys] 0
            | None => Done st [RDefault] 0
            end
          else Done st [] 1
      | _ => Done st [] 1
      end
  end.

(** The callers (lines 1782-1788, 1879-1885, session_server.c 1816-1820): a message not processed gets the
    default reply. *)
Definition handle (e : env) (o : option sshopts) (m : smsg) (st : sst) : res :=
  match ssh_msg e o m st with
  | Done st' rs 0 => Done st' rs 0
  | Done st' rs r => Done st' (rs ++ [RDefault]) r
  | Ub => Ub
  end.

(** A whole sequence of messages on one connection with what was replied to each: first with the options
    (1862-1909 [nc_accept_ssh_session_auth]), and any mix of calls with and without the authentication
    state afterwards (1767-1803, polling).  [None]: undefined behaviour or endless recursion. *)
Fixpoint run (e : env) (o : sshopts) (ms : list (bool * smsg)) (st : sst) : option (sst * list (smsg * list reply)) :=
  match ms with
  | [] => Some (st, [])
  | (b, m) :: ms' =>
      match handle e (if b then Some o else None) m st with
      | Ub => None
      | Done st' rs _ => match run e o ms' st' with
                         | Some (st'', tr) => Some (st'', (m, rs) :: tr)
                         | None => None
                         end
      end
  end.
