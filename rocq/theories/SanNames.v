(** Names from subject alternative names with both TLS libraries, and with memory that runs out: session_openssl.c 411-487, session_mbedtls.c
    608-698, session_server_tls.c 278-327. *)
From Coq Require Import String Ascii NArith Bool List.
From Verif Require Import Bytes CStr TlsNames.
Import ListNotations.
Local Open Scope list_scope.
Local Open Scope N_scope.

Inductive lib := OpenSSL | MbedTLS.

(** The result of [nc_tls_get_san_value_type_wrap]: 0 with value and type, 0 with a pointer that asprintf() left undefined, 1, -1. *)
Inductive got := Value (v : bytes) (t : maptype) | Wild (t : maptype) | Skip | Fatal.

(** "%d.%d.%d.%d" and sixteen "%02x". *)
Definition dotted (a b c d : ascii) : bytes :=
  dec (N_of_ascii a) ++ bs "." ++ dec (N_of_ascii b) ++ bs "." ++ dec (N_of_ascii c) ++ bs "." ++ dec (N_of_ascii d).
Definition hexes (v : bytes) : bytes := flat_map pct02x v.

(** session_openssl.c 428-487; [mem]: strdup() or asprintf() succeeds.  strdup() takes what is before the first NUL. *)
Definition openssl_san (s : san) (mem : bool) : got :=
  match s with
  | SanMail v => if mem then Value (cstr v) MtMail else Fatal
  | SanDns v => if mem then Value (cstr v) MtDns else Fatal
  | SanIp v =>
      match v with
      | [a; b; c; d] => if mem then Value (dotted a b c d) MtIp else Fatal
      | _ => if lenN v =? 16 then (if mem then Value (hexes v) MtIp else Fatal) else Skip
      end
  | SanOther => Skip
  | SanError => Fatal
  end.

(** session_mbedtls.c 637-698; strndup() takes at most the length and what is before the first NUL.  Line 675: [rc] is the comparison, 0 or 1,
    and never -1. *)
Definition mbedtls_san (s : san) (mem : bool) : got :=
  match s with
  | SanMail v => if mem then Value (cstr v) MtMail else Fatal
  | SanDns v => if mem then Value (cstr v) MtDns else Fatal
  | SanIp v =>
      match v with
      | [a; b; c; d] => if mem then Value (dotted a b c d) MtIp else Wild MtIp
      | _ => if lenN v =? 16 then (if mem then Value (hexes v) MtIp else Fatal) else Skip
      end
  | SanOther => Skip
  | SanError => Fatal
  end.
Definition san_wrap (l : lib) : san -> bool -> got := match l with OpenSSL => openssl_san | MbedTLS => mbedtls_san end.

(** [nc_tls_get_sans_wrap] and [nc_tls_get_num_sans_wrap] (session_openssl.c 411-426, session_mbedtls.c 609-634): mbedTLS has a first element
    of the sequence, of no known type, when there are no names. *)
Definition sans_of (l : lib) (names : list san) : option (list san) :=
  match l, names with
  | OpenSSL, [] => None
  | MbedTLS, [] => Some [SanOther]
  | _, _ => Some names
  end.

(** The name that is taken: a string, none (1), an error (-1), or whatever is at a wild pointer, freed by the caller at some time. *)
Inductive name := Name (u : bytes) | NoName | NameError | WildName.

(** session_server_tls.c 286-304; [mem i]: the allocation for the i-th name.  A wild pointer of another type is freed (303). *)
Fixpoint look (l : lib) (t : maptype) (names : list san) (mem : nat -> bool) : name :=
  match names with
  | [] => NoName
  | s :: r =>
      match san_wrap l s (mem 0%nat) with
      | Fatal => NameError
      | Skip => look l t r (fun i => mem (S i))
      | Value v st => if mt_eqb t MtAny || mt_eqb t st then Name v else look l t r (fun i => mem (S i))
      | Wild _ => WildName
      end
  end.

(** 278-327 *)
Definition san_username (l : lib) (t : maptype) (names : list san) (mem : nat -> bool) : name :=
  match sans_of l names with None => NoName | Some n => look l t n mem end.
