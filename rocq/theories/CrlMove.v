(** The store of a TLS configuration with OpenSSL: src/session_openssl.c 734-799. *)
From Coq Require Import NArith Bool List.
From Verif Require Import Bytes CStr TlsConn.
Import ListNotations.
Local Open Scope N_scope.

(** An X509_OBJECT: a certificate, a CRL (both by their data), or neither. *)
Inductive obj := OCert (d : bytes) | OCrl (d : bytes) | ONone.
(** An X509_STORE: its objects and the flags for verification. *)
Record store := mkStore { objs : list obj; flags : N }.
(** x509_vfy.h of OpenSSL: X509_V_FLAG_CRL_CHECK, X509_V_FLAG_CRL_CHECK_ALL. *)
Definition CRL_CHECK : N := 4.
Definition CRL_CHECK_ALL : N := 8.

(** X509_STORE_add_crl(): a CRL that is there already is not added again; it fails only without memory. *)
Definition has_crl (d : bytes) (l : list obj) : bool := existsb (fun o => match o with OCrl e => streq d e | _ => false end) l.
Definition store_add_crl (mem : bool) (d : bytes) (s : store) : option store :=
  if negb mem then None else if has_crl d (objs s) then Some s else Some (mkStore (objs s ++ [OCrl d]) (flags s)).

(** Lines 734-759, nc_tls_move_crls_to_store(): [mem i] says whether there is memory for the [i]-th object.  The result is returned with what the
    destination holds then; [true] is success. *)
Fixpoint move_crls (mem : nat -> bool) (i : nat) (src : list obj) (dst : store) : bool * store :=
  match src with
  | [] => (true, dst)
  | OCrl d :: src => match store_add_crl (mem i) d dst with Some dst => move_crls mem (S i) src dst | None => (false, dst) end
  | _ :: src => move_crls mem (S i) src dst
  end.

(** What the context has: certificate, key (whether OpenSSL takes them), store of certificates, store of CRLs. *)
Record tctx := { t_cert : bool; t_key : bool; t_store : store; t_crls : option store }.

(** Lines 761-799, nc_tls_setup_config_from_ctx_wrap(): the store that the configuration gets, none on failure. *)
Definition setup_store (mem : nat -> bool) (c : tctx) : option store :=
  if negb (t_cert c) then None
  else if negb (t_key c) then None
  else match t_crls c with
       | Some crls =>
         match move_crls mem 0 (objs crls) (t_store c) with
         | (true, s) => Some (mkStore (objs s) (N.lor (flags s) (N.lor CRL_CHECK CRL_CHECK_ALL)))
         | (false, _) => None
         end
       | None => Some (t_store c)
       end.

(** nc_session_tls_crl_from_cert_ext_fetch() with the setup (session_server_tls.c 856-893, session_client_tls.c 289-309): the store of CRLs that
    [crl_fetch] gives has the CRLs in the order of the downloads (session_openssl.c 864-905). *)
Definition crl_objs (l : list bytes) : store := mkStore (map OCrl l) 0.
Definition fetch_setup (der pem : bytes -> bool) (can_store curl uris : bool) (l : list fetch) (mem : nat -> bool) (cert key : bool) (s : store) : option store :=
  match crl_fetch der pem OpenSSL can_store curl uris l with
  | CrlRet false crls _ => setup_store mem {| t_cert := cert; t_key := key; t_store := s; t_crls := option_map crl_objs crls |}
  | _ => None
  end.
