(** Model of the TLS versions of a server with mbedTLS: src/session_mbedtls.c 418-441 (nc_server_tls_set_tls_versions_wrap), src/session_server_tls.c 866-871.
    The variable with the versions and OpenSSL: Algs.v. *)
From Coq Require Import NArith Bool List.
From Verif Require Import Bytes Algs.

(** The minimum and the maximum in the configuration of mbedTLS: at first those of mbedtls_ssl_config_defaults(). *)
Record range := { r_min : tlsv; r_max : tlsv }.

(** Lines 418-441. *)
Definition set_versions (bits : N) (r : range) : range :=
  let lo := if has bits V12 then V12 else if has bits V13 then V13 else r_min r in
  let hi := if has bits V13 then V13 else if has bits V12 then V12 else r_max r in
  {| r_min := lo; r_max := hi |}.

(** session_server_tls.c 866-871. *)
Definition session_range (bits : N) (r : range) : range := if (bits =? 0)%N then r else set_versions bits r.
