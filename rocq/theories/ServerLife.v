(** The life of a server: [nc_server_init], [nc_server_destroy], the two callbacks with user data, and the
    YANG context functions [nc_server_init_ctx] and [nc_server_config_load_modules]
    (session_server.c 176-255, 798-921, 974-982; session_server_ssh.c 970-984; session.c 1180-1182;
    session_server_ssh.c 1319; server_config.c 4215-4302).

    Not modelled here: the deletion of the configuration in [nc_server_destroy] (Endpts.v and Stores.v), the
    certificate expiration thread (CertExp.v), the logging. *)
From Coq Require Import String Arith List Bool.
Import ListNotations.
Local Open Scope string_scope.
Local Open Scope list_scope.

(** * 1. Initialising and destroying the library *)

(** What [nc_server_init] sets up: the attribute of the rwlocks, the locks and condition of [server_opts], and
    the two libraries. *)
Inductive item := Attr | ConfigLock | ChClientLock | Curl | LibSsh | BindLock | NotifLock | NotifCond.

(** A user datum is a number standing for the pointer the application passed. *)
Inductive eff :=
| Init (i : item)                (* the *_init call succeeded *)
| Fini (i : item)                (* the *_destroy / cleanup call *)
| CallContentId (d : option nat) (* content_id_clb called with this datum *)
| CallInteractive (d : option nat)
| FreeData (d : nat).            (* a free_user_data callback called with this datum *)

(** session_p.h 480-495 [struct nc_server_opts], the fields with the callbacks: whether a callback is set, its
    datum (NULL or not) and whether there is a callback freeing it; and the number of capabilities. *)
Record st := mkSt {
  cid_clb : bool; cid_data : option nat; cid_free : bool;
  ia_clb : bool; ia_data : option nat; ia_free : bool;
  caps : nat
}.

(** The zero-initialised [server_opts] (session_server.c 54-60). *)
Definition st0 : st := mkSt false None false false None false 0.

(** session_server.c 798-869 [nc_server_init].  The steps in their order; [fails i] says whether the call
    setting up [i] fails ([Attr]: pthread_rwlockattr_init or, with [setkind_fails], the setting of its kind).
    The build has HAVE_PTHREAD_RWLOCKATTR_SETKIND_NP and NC_ENABLED_SSH_TLS.  Result: success and the effects.
    [attr_p] is an argument of the error exit because it is not reset at 832. *)
Definition init_error (attr_p : bool) : bool * list eff :=
  (false, if attr_p then [Fini Attr] else []).

Definition andthen (e : list eff) (r : bool * list eff) : bool * list eff := (fst r, e ++ snd r).

Definition server_init (fails : item -> bool) (setkind_fails : bool) : bool * list eff :=
  if fails Attr then init_error false                                          (* 810-813, before 814 *)
  else andthen [Init Attr]
  (if setkind_fails then init_error true                                       (* 815-818 *)
  else if fails ConfigLock then init_error true                                (* 821-824 *)
  else andthen [Init ConfigLock]
  (if fails ChClientLock then init_error true                                  (* 825-828 *)
  else andthen [Init ChClientLock; Fini Attr]                                  (* 830-832 *)
  (if fails Curl then init_error true                                          (* 835-838 *)
  else andthen [Init Curl]
  (if fails LibSsh then init_error true                                        (* 841-844 *)
  else andthen [Init LibSsh]
  (if fails BindLock then init_error true                                      (* 847-850 *)
  else andthen [Init BindLock]
  (if fails NotifLock then init_error true                                     (* 853-856 *)
  else andthen [Init NotifLock]
  (if fails NotifCond then init_error true                                     (* 857-860 *)
  else (true, [Init NotifCond])))))))).                                        (* 863 *)

(** session_server.c 871-921 [nc_server_destroy], the parts on capabilities, callbacks, locks and libraries.
    The datum of the content-id callback is freed but stays in [server_opts] (883-885); that of the interactive
    authentication is reset (910-914).  Neither callback is reset. *)
Definition server_destroy (s : st) : st * list eff :=
  ( mkSt (cid_clb s) (cid_data s) (cid_free s) (ia_clb s) None false 0,
    (match cid_data s with Some d => if cid_free s then [FreeData d] else [] | None => [] end)   (* 883-885 *)
    ++ [Fini BindLock]                                                                            (* 903 *)
    ++ (match ia_data s with Some d => if ia_free s then [FreeData d] else [] | None => [] end)  (* 910-912 *)
    ++ [Fini Curl; Fini LibSsh] ).                                                                (* 918-919 *)

(** What an application does and what happens in between. *)
Inductive ev :=
| EInit (fails : item -> bool) (setkind_fails : bool)
| EDestroy
| ESetContentId (clb : bool) (data : option nat) (free : bool)
| ESetInteractive (clb : bool) (data : option nat) (free : bool)
| ESetCapability
| EHello            (* capabilities of a session are generated with ietf-yang-library in the context *)
| EInteractive.     (* a client tries keyboard-interactive authentication *)

Definition step (s : st) (e : ev) : st * list eff :=
  match e with
  | EInit f k => (s, snd (server_init f k))
  | EDestroy => server_destroy s
  | ESetContentId c d f =>                                                     (* session_server.c 974-982 *)
      (mkSt c d f (ia_clb s) (ia_data s) (ia_free s) (caps s), [])
  | ESetInteractive c d f =>                                                   (* session_server_ssh.c 970-984 *)
      (mkSt (cid_clb s) (cid_data s) (cid_free s) c d f (caps s), [])
  | ESetCapability =>                                                          (* session_server.c 953-972 *)
      (mkSt (cid_clb s) (cid_data s) (cid_free s) (ia_clb s) (ia_data s) (ia_free s) (S (caps s)), [])
  | EHello => (s, if cid_clb s then [CallContentId (cid_data s)] else [])      (* session.c 1180-1182 *)
  | EInteractive => (s, if ia_clb s then [CallInteractive (ia_data s)] else [])(* session_server_ssh.c 1317-1319 *)
  end.

Fixpoint run (s : st) (es : list ev) : st * list eff :=
  match es with
  | [] => (s, [])
  | e :: r => let '(s1, f1) := step s e in let '(s2, f2) := run s1 r in (s2, f1 ++ f2)
  end.

(** * 2. YANG contexts *)

Section CTX.
(** libyang: contexts, what is implemented and enabled in them, and ly_ctx_load_module, which says whether it
    succeeded and may have changed the context in any case. *)
Variable ctx : Type.
Variable implemented : ctx -> string -> bool.
Variable enabled : ctx -> string -> string -> bool.
Variable load : ctx -> string -> list string -> bool * ctx.

(** What a call leaves: the returned value, [*ctx] and the contexts destroyed. *)
Record out := mkOut { o_ret : nat; o_ctx : option ctx; o_destroyed : list ctx }.

(** session_server.c 181-184, the features of both modules. *)
Definition netconf_features : list string :=
  ["writable-running"; "candidate"; "rollback-on-error"; "validate"; "startup"; "url"; "xpath"; "confirmed-commit"].
Definition monitoring_features : list string := [].

(** session_server.c 250-254, the cleanup. *)
Definition ctx_cleanup (new_ctx : bool) (ret : nat) (c : ctx) : out :=
  if new_ctx && negb (Nat.eqb ret 0) then mkOut ret None [c] else mkOut ret (Some c) [].

(** session_server.c 216-229, the loop over the features: whether one is not enabled. *)
Fixpoint some_disabled (c : ctx) (fs : list string) : bool :=
  match fs with
  | [] => false
  | f :: r => if negb (enabled c "ietf-netconf" f) then true else some_disabled c r
  end.

(** session_server.c 177-255 [nc_server_init_ctx].  [arg] is NULL ([None]) or points to [*ctx]; [fresh] is what
    ly_ctx_new yields. *)
Definition init_ctx (fresh : option ctx) (arg : option (option ctx)) : out :=
  match arg with
  | None => mkOut 1 None []                                                    (* 186 *)
  | Some None =>                                                               (* 188-196 *)
      match fresh with
      | None => mkOut 1 None []
      | Some c0 =>
          let '(ok1, c1) := load c0 "ietf-netconf" netconf_features in         (* 200-204 *)
          if negb ok1 then ctx_cleanup true 1 c1
          else let '(ok2, c2) := load c1 "ietf-netconf-monitoring" monitoring_features in  (* 206-210 *)
               if negb ok2 then ctx_cleanup true 1 c2 else ctx_cleanup true 0 c2
      end
  | Some (Some c0) =>
      let '(ok1, c1) :=
        if implemented c0 "ietf-netconf" then                                  (* 215-229 *)
          if some_disabled c0 netconf_features then load c0 "ietf-netconf" netconf_features else (true, c0)
        else load c0 "ietf-netconf" netconf_features in                        (* 230-237 *)
      if negb ok1 then ctx_cleanup false 1 c1
      else
        if implemented c1 "ietf-netconf-monitoring" then ctx_cleanup false 0 c1  (* 239-240 *)
        else let '(ok2, c2) := load c1 "ietf-netconf-monitoring" monitoring_features in  (* 242-246 *)
             if negb ok2 then ctx_cleanup false 1 c2 else ctx_cleanup false 0 c2
  end.

(** server_config.c 4268-4284, the two arrays (with the arrays of features of 4228-4266), the NULL at the end
    left out. *)
Definition module_names : list string :=
  ["ietf-netconf-server"; "ietf-x509-cert-to-name"; "ietf-crypto-types"; "ietf-tcp-common"; "ietf-tcp-server";
   "ietf-tcp-client"; "ietf-ssh-common"; "ietf-ssh-server"; "iana-ssh-encryption-algs";
   "iana-ssh-key-exchange-algs"; "iana-ssh-mac-algs"; "iana-ssh-public-key-algs"; "iana-crypt-hash";
   "ietf-keystore"; "ietf-truststore"; "ietf-tls-common"; "ietf-tls-server"; "iana-tls-cipher-suite-algs";
   "libnetconf2-netconf-server"].

Definition module_features : list (list string) :=
  [ ["ssh-listen"; "tls-listen"; "ssh-call-home"; "tls-call-home"; "central-netconf-server-supported"];
    [];
    ["cleartext-passwords"; "cleartext-private-keys"];
    ["keepalives-supported"];
    ["tcp-server-keepalives"];
    ["local-binding-supported"; "tcp-client-keepalives"];
    ["transport-params"];
    ["local-users-supported"; "local-user-auth-publickey"; "local-user-auth-password"; "local-user-auth-none"];
    []; []; []; [];
    ["crypt-hash-md5"; "crypt-hash-sha-256"; "crypt-hash-sha-512"];
    ["central-keystore-supported"; "inline-definitions-supported"; "asymmetric-keys"];
    ["central-truststore-supported"; "inline-definitions-supported"; "certificates"; "public-keys"];
    ["tls10"; "tls11"; "tls12"; "tls13"; "hello-params"];
    ["server-ident-x509-cert"; "client-auth-supported"; "client-auth-x509-cert"];
    []; [] ].

(** server_config.c 4286-4291, the loop; [None] if [module_features[i]] lies behind the end of the array. *)
Fixpoint load_all (names : list string) (i : nat) (c : ctx) : option (bool * ctx) :=
  match names with
  | [] => Some (true, c)
  | n :: r =>
      match nth_error module_features i with
      | None => None
      | Some fs => let '(ok, c') := load c n fs in
                   if negb ok then Some (false, c') else load_all r (S i) c'
      end
  end.

(** server_config.c 4215-4302 [nc_server_config_load_modules]; [None] for an access outside of memory, which
    includes the argument NULL (4220: [*ctx] without a check). *)
Definition load_modules (fresh : option ctx) (arg : option (option ctx)) : option out :=
  match arg with
  | None => None
  | Some None =>
      match fresh with
      | None => Some (mkOut 1 None [])                                         (* 4221-4224, new_ctx is 0 *)
      | Some c0 =>
          match load_all module_names 0 c0 with
          | None => None
          | Some (true, c) => Some (mkOut 0 (Some c) [])
          | Some (false, c) => Some (mkOut 1 None [c])                         (* 4297-4300 *)
          end
      end
  | Some (Some c0) =>
      match load_all module_names 0 c0 with
      | None => None
      | Some (true, c) => Some (mkOut 0 (Some c) [])
      | Some (false, c) => Some (mkOut 1 (Some c) [])
      end
  end.

End CTX.

Arguments o_ret {ctx} _.
Arguments o_ctx {ctx} _.
Arguments o_destroyed {ctx} _.
Arguments mkOut {ctx} _ _ _.
