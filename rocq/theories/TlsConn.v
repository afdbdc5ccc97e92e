(** Setting up TLS connections: src/session_client_tls.c 235-495, src/session_server_tls.c 793-943 with src/session_server.c 2491-2614,
    src/session.c 1569-1720 (CRLs) and the functions of src/session_openssl.c 592-800 and src/session_mbedtls.c 902-1105 used there. *)
From Coq Require Import String Ascii NArith Bool List.
From Verif Require Import Bytes.
Import ListNotations.
Local Open Scope list_scope.

Inductive backend := OpenSSL | MbedTLS.

(* ------------------------------------------------------------------ *)
(** ** nc_session_tls_crl_from_cert_ext_fetch, session.c 1651-1720 *)

(** A download: the data given to nc_session_curl_cb() (lines 1569-1586, all appended) and whether curl_easy_perform() succeeded. *)
Record fetch := { d_data : bytes; d_ok : bool }.
Inductive added := Added | Bad | Beyond.
(** [CrlRet fail store left]: the value returned, *crl_store, and the data not freed.  [CrlUndef]: memory was read beyond its end. *)
Inductive crl_result := CrlRet (fail : bool) (store : option (list bytes)) (left : bytes) | CrlUndef.

Section Crl.
(** What the library takes for a CRL in DER, in PEM. *)
Variables der pem : bytes -> bool.

(** nc_server_tls_add_crl_to_store_wrap, session_openssl.c 864-905 (that a failed attempt to read DER takes bytes from the BIO is not represented);
    session_mbedtls.c: the parser of PEM is given one byte more than was downloaded. *)
Definition add_crl (b : backend) (d : bytes) : added :=
  if der d then Added else match b with OpenSSL => if pem d then Added else Bad | MbedTLS => Beyond end.

(** Lines 1685-1706: [buf] is [downloaded], [ret] the variable. *)
Fixpoint crl_loop (b : backend) (l : list fetch) (buf : bytes) (store : list bytes) (ret : bool) : crl_result :=
  match l with
  | [] => CrlRet ret (Some store) buf
  | f :: l =>
    let buf := buf ++ d_data f in
    if negb (d_ok f) then crl_loop b l buf store true
    else match add_crl b buf with
         | Added => crl_loop b l [] (store ++ [buf]) false
         | Bad => CrlRet true None []
         | Beyond => CrlUndef
         end
  end.
(** [mem]: a store can be allocated; [curl]: curl can be set up; [uris]: the distribution points of the certificates can be listed. *)
Definition crl_fetch (b : backend) (mem curl uris : bool) (l : list fetch) : crl_result :=
  if negb mem then CrlRet false None []
  else if negb curl then CrlRet true None []
  else if negb uris then CrlRet true None []
  else match l with [] => CrlRet false None [] | _ => crl_loop b l [] [] false end.
End Crl.

(* ------------------------------------------------------------------ *)
(** ** What is made, freed and done *)

(** The objects: TLS configuration, store of CA certificates, own certificate and key, store of CRLs, TLS session; for mbedTLS also the generator of
    random numbers and the variable with the socket.  The reference counts of OpenSSL are folded: what SSL_CTX_set_cert_store() adopts goes with
    the configuration; references that it takes on the certificate and the key are its own. *)
Inductive res := Cfg | Store | Cert | Key | Crl | Sess | Rng | Box.
Definition res_eqb (a b : res) : bool :=
  match a, b with Cfg, Cfg | Store, Store | Cert, Cert | Key, Key | Crl, Crl | Sess, Sess | Rng, Rng | Box, Box => true | _, _ => false end.
(** [Trust]: the trusted certificates were loaded; [Verify]: the verification of the peer was switched on; [Host h]: the name it has to have, none for
    [None]; [Shake]: a step of the handshake; [Versions], [Suites]: the configured versions and cipher suites were set; [Defaults]:
    mbedtls_ssl_config_defaults(), which sets the versions and the cipher suites of the preset and, for a client, that the peer is verified. *)
Inductive act := New (r : res) | Free (r : res) | Close | Trust | Verify | Host (h : option bytes) | Shake | Versions | Suites | Defaults.

(** A step of the handshake (nc_*_tls_handshake_step_wrap). *)
Inductive shake := Again | Done | Failed.
(** Which step succeeds; [f_shake]: the answers to the steps of the handshake until the timeout; [f_crl]: nothing went wrong with CRLs; [f_crls]: there
    is a store of CRLs; [f_versions], [f_suites]: some are configured; [f_other]: the other checks of the server (referenced endpoint, number of certificates, versions). *)
Record faults := { f_cfg : bool; f_store : bool; f_load : bool; f_trust : bool; f_other : bool; f_crl : bool; f_crls : bool; f_rng : bool; f_box : bool;
  f_cert : bool; f_key : bool; f_move : bool; f_defaults : bool; f_sess : bool; f_host : bool; f_shake : list shake; f_ctx : bool; f_hello : bool; f_fill : bool;
  f_versions : bool; f_suites : bool }.

Fixpoint handshake (l : list shake) : bool * list act :=
  match l with
  | [] => (false, [])
  | Again :: r => let '(ok, t) := handshake r in (ok, Shake :: t)
  | Done :: _ => (true, [Shake])
  | Failed :: _ => (false, [Shake])
  end.
(** nc_tls_init_ctx_wrap: what it makes. *)
Definition init_ctx (b : backend) (f : faults) : bool * list res :=
  match b with
  | OpenSSL => (true, [])
  | MbedTLS => if negb (f_rng f) then (false, []) else if negb (f_box f) then (false, [Rng]) else (true, [Rng; Box])
  end.
(** nc_tls_setup_config_from_ctx_wrap: whether it succeeds. *)
Definition setup (b : backend) (f : faults) : bool :=
  match b with OpenSSL => f_cert f && f_key f && (negb (f_crls f) || f_move f) | MbedTLS => f_defaults f end.
Definition crls (f : faults) : list res := if f_crls f then [Crl] else [].
(** The objects of struct nc_tls_ctx after a successful setup, and what the setup does. *)
Definition ctx_after (b : backend) (f : faults) : list res := match b with OpenSSL => [] | MbedTLS => [Rng; Box; Cert; Key; Store] ++ crls f end.
Definition setup_acts (b : backend) (f : faults) : list act := match b with OpenSSL => map Free ([Cert; Key] ++ crls f) | MbedTLS => [Defaults] end.
(** nc_tls_config_destroy_wrap after the setup. *)
Definition free_cfg (b : backend) : list act := match b with OpenSSL => [Free Cfg; Free Store] | MbedTLS => [Free Cfg] end.
(** nc_tls_ctx_destroy_wrap: does nothing with OpenSSL. *)
Definition ctx_destroy (b : backend) (ctx : list res) : list act := match b with OpenSSL => [] | MbedTLS => map Free ctx end.

(* ------------------------------------------------------------------ *)
(** ** The client *)

(** nc_client_tls_session_new, session_client_tls.c 259-359: success, what was done, and what the context holds. *)
Definition client_new (b : backend) (f : faults) (host : option bytes) : bool * list act * list res :=
  if negb (f_cfg f) then (false, [Close], [])
  else
  let t := [New Cfg] in
  if negb (f_store f) then (false, t ++ [Close; Free Cfg], [])
  else
  let t := t ++ [New Store] in
  if negb (f_load f) then (false, t ++ [Close; Free Store; Free Cfg], [])
  else
  let t := t ++ [New Cert; New Key] in
  if negb (f_trust f) then (false, t ++ [Close; Free Cert; Free Key; Free Store; Free Cfg], [])
  else
  let t := t ++ [Trust] ++ map New (crls f) in
  if negb (f_crl f) then (false, t ++ [Close; Free Cert; Free Key; Free Store] ++ map Free (crls f) ++ [Free Cfg], [])
  else
  let t := t ++ [Verify] in
  let '(ok, made) := init_ctx b f in
  let t := t ++ map New made in
  if negb ok then (false, t ++ [Close; Free Cert; Free Key; Free Store] ++ map Free (crls f) ++ [Free Cfg], made)
  else if negb (setup b f) then (false, t ++ [Close; Free Cfg], made ++ [Cert; Key; Store] ++ crls f)
  else
  let t := t ++ setup_acts b f in
  if negb (f_sess f) then (false, t ++ [Close] ++ free_cfg b, ctx_after b f)
  else
  let t := t ++ [New Sess] in
  if negb (f_host f) then (false, t ++ [Free Sess] ++ free_cfg b, ctx_after b f)
  else
  let '(ok, h) := handshake (f_shake f) in
  let t := t ++ [Host host] ++ h in
  if negb ok then (false, t ++ [Free Sess] ++ free_cfg b, ctx_after b f)
  else (true, t, ctx_after b f).
(** nc_session_free_transport, session.c 808-826, 840-843, of a session with a TLS session. *)
Definition free_session (b : backend) (f : faults) : list act := ctx_destroy b (ctx_after b f) ++ [Free Sess] ++ free_cfg b ++ [Close].
(** nc_connect_tls 392-435 after the socket was connected (host is never missing), nc_accept_callhome_tls_sock 446-494. *)
Definition client_connect (b : backend) (f : faults) (host : option bytes) : bool * list act :=
  let '(ok, t, ctx) := client_new b f host in
  if negb ok then (false, t ++ ctx_destroy b ctx)
  else if negb (f_ctx f && f_hello f && f_fill f) then (false, t ++ free_session b f)
  else (true, t).
(** nc_connect_tls 371-379: the name to be checked. *)
Definition connect_host (host : option bytes) : option bytes := match host with None | Some [] => Some (bs "localhost") | _ => host end.

(* ------------------------------------------------------------------ *)
(** ** The server *)

(** nc_accept_tls_session, session_server_tls.c 793-943, with the cleanup of nc_accept() (session_server.c 2580-2614), where nc_session_free() frees the
    transport only after [ti_type] was set. *)
Definition server_accept (b : backend) (f : faults) : bool * list act :=
  if negb (f_cfg f) then (false, [Close])
  else
  let t := [New Cfg] in
  if negb (f_store f) then (false, t ++ [Close; Free Cfg])
  else
  let t := t ++ [New Store] in
  if negb (f_load f) then (false, t ++ [Close; Free Cfg; Free Store])
  else
  let t := t ++ [New Cert; New Key] in
  if negb (f_trust f && f_other f) then (false, t ++ [Close; Free Cfg; Free Cert; Free Key; Free Store])
  else
  let t := t ++ [Trust] ++ map New (crls f) in
  if negb (f_crl f) then (false, t ++ [Close; Free Cfg; Free Cert; Free Key; Free Store] ++ map Free (crls f))
  else
  let t := t ++ (if f_versions f then [Versions] else []) ++ (if f_suites f then [Suites] else []) ++ [Verify] in
  let '(ok, made) := init_ctx b f in
  let t := t ++ map New made in
  if negb ok then (false, t ++ [Close; Free Cfg; Free Cert; Free Key; Free Store] ++ map Free (crls f))
  else if negb (setup b f) then (false, t ++ [Close; Free Cfg])
  else
  let t := t ++ setup_acts b f in
  if negb (f_sess f) then (false, t ++ [Close] ++ ctx_destroy b (ctx_after b f) ++ free_cfg b ++ match b with OpenSSL => [] | MbedTLS => [Close] end)
  else
  let t := t ++ [New Sess] in
  let '(ok, h) := handshake (f_shake f) in
  let t := t ++ h in
  if negb ok then (false, t ++ free_session b f)
  else if negb (f_hello f) then (false, t ++ free_session b f)
  else (true, t).

(* ------------------------------------------------------------------ *)
(** ** Cipher suites with mbedTLS, session_mbedtls.c 1822-1884 *)

Definition upper (c : ascii) : ascii := let n := N_of_ascii c in if ((97 <=? n) && (n <=? 122))%N then ascii_of_N (n - 32) else c.
Definition tls13 : list bytes :=
  map bs ["tls-aes-256-gcm-sha384"; "tls-aes-128-gcm-sha256"; "tls-chacha20-poly1305-sha256"; "tls-aes-128-ccm-sha256"; "tls-aes-128-ccm-8-sha256"]%string.
(** Lines 1822-1850: the text printed first is written over. *)
Definition mbed_suite (name : bytes) : bytes :=
  let start := if existsb (beqb name) tls13 then skipn 4 name else name in map upper start.
(** Lines 1852-1879: [ciphers] is a pointer to void, whose size is 1 for GCC; an int has 4 bytes.  The list of suites before, the memory it is in. *)
Record suites := { s_ids : list N; s_size : N }.
Inductive appended := Stored (s : suites) | Unknown | Overrun.
Definition mbed_append (id : bytes -> N) (st : option suites) (name : bytes) : appended :=
  let i := id name in
  if N.eqb i 0 then Unknown
  else let ids := match st with None => [] | Some s => s_ids s end in
       let size := (N.of_nat (length ids) + 2)%N in
       if (4 * (N.of_nat (length ids) + 2) <=? size)%N then Stored {| s_ids := ids ++ [i]; s_size := size |} else Overrun.
