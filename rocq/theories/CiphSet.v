(** The cipher suites of the TLS sessions of a server with OpenSSL: src/session_openssl.c 1427-1434, src/session_server_tls.c 874-877. *)
From Coq Require Import Ascii NArith Bool List.
From Verif Require Import Bytes.
Import ListNotations.

(** The names in a list of OpenSSL, separated by colons. *)
Fixpoint split (cur s : bytes) : list bytes :=
  match s with
  | [] => [cur]
  | c :: r => if Ascii.eqb c ":"%char then cur :: split [] r else split (cur ++ [c]) r
  end.

(** The cipher suites of an SSL_CTX: those up to TLS 1.2 and those of TLS 1.3. *)
Record suites := { s12 : list bytes; s13 : list bytes }.

Section OpenSSL.
(** Which names OpenSSL has for suites up to TLS 1.2 and of TLS 1.3; whether a name that is none of TLS 1.3 makes
    SSL_CTX_set_ciphersuites() fail (older versions) or is skipped. *)
Variables known12 known13 : bytes -> bool.
Variable strict : bool.

(** SSL_CTX_set_cipher_list(): names that are not known are skipped; if none is left, it fails and no suite up to TLS 1.2 stays. *)
Definition set_cipher_list (c : suites) (s : bytes) : bool * suites :=
  let l := filter known12 (split [] s) in
  (match l with [] => false | _ => true end, {| s12 := l; s13 := s13 c |}).
(** SSL_CTX_set_ciphersuites(): if it fails, nothing is changed; also without any name. *)
Definition set_ciphersuites (c : suites) (s : bytes) : bool * suites :=
  let l := filter known13 (split [] s) in
  if strict && negb (forallb known13 (split [] s)) then (false, c)
  else match l with [] => (false, c) | _ => (true, {| s12 := s12 c; s13 := l |}) end.

(** Lines 1427-1434, nc_server_tls_set_cipher_suites_wrap(): both results are ignored. *)
Definition set_cipher_suites (c : suites) (s : bytes) : suites :=
  let '(_, c) := set_cipher_list c s in
  let '(_, c) := set_ciphersuites c s in
  c.

(** session_server_tls.c 874-877: [dflt] are the suites of a new SSL_CTX, [ciphers] is opts->ciphers. *)
Definition server_suites (dflt : suites) (ciphers : option bytes) : suites :=
  match ciphers with Some s => set_cipher_suites dflt s | None => dflt end.
End OpenSSL.
