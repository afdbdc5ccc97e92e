(** The texts of verification errors with mbedTLS: src/session_mbedtls.c 175-195, 524-549, 1104-1108, src/session_client_tls.c 235-257. *)
From Coq Require Import String NArith Bool List.
From Verif Require Import Bytes.
Import ListNotations.
Local Open Scope list_scope.

(** mbedtls_x509_crt_verify_info() of mbedTLS (x509_crt.c, not a part of this repository) with an empty prefix: [table] lists the bits of the flags with
    their texts; every set bit of it gives a line, the bits that are left give one more.  [room] is the size of the buffer, in which the
    NUL has to fit; [None] for MBEDTLS_ERR_X509_BUFFER_TOO_SMALL, [Some l] for the text written, whose length is returned. *)
Definition NL : bytes := [Ascii.ascii_of_nat 10].
Definition UNKNOWN : bytes := bs "Unknown reason (this should not happen)".
Definition put (room : nat) (line : bytes) : option nat := if Nat.leb room (List.length line) then None else Some (room - List.length line)%nat.
Fixpoint verify_info (table : list (N * bytes)) (room : nat) (fl : N) : option bytes :=
  match table with
  | [] => if (fl =? 0)%N then Some [] else match put room (UNKNOWN ++ NL) with Some _ => Some (UNKNOWN ++ NL) | None => None end
  | (i, t) :: table =>
    if N.testbit fl i then
      match put room (t ++ NL) with
      | Some room => match verify_info table room (N.lxor fl (2 ^ i)) with Some r => Some ((t ++ NL) ++ r) | None => None end
      | None => None
      end
    else verify_info table room fl
  end.

(** Lines 175-195, nc_tls_get_verify_err_str(): a string, NULL, or a byte before the buffer is written. *)
Inductive errstr := Str (s : bytes) | Null | Before.
Definition verify_err_str (mem : bool) (table : list (N * bytes)) (fl : N) : errstr :=
  if negb mem then Null
  else match verify_info table 256 fl with
       | None => Null
       | Some [] => Before
       | Some l => Str (removelast l)
       end.

(** What is logged: nothing, a text, or the behaviour is undefined (a byte before the buffer is written, or NULL is given for %s). *)
Inductive logged := Nothing | Text (s : bytes) | Undef.
Definition log_str (e : errstr) : logged := match e with Str s => Text s | Null | Before => Undef end.

(** mbedTLS: MBEDTLS_X509_BADCERT_NOT_TRUSTED, MBEDTLS_X509_BADCERT_MISSING. *)
Definition NOT_TRUSTED : N := 8.
Definition MISSING : N := 64.
(** Lines 524-549 of nc_server_tls_verify_cb(). *)
Definition server_log (mem : bool) (table : list (N * bytes)) (depth fl : N) : logged :=
  if (fl =? 0)%N then Nothing
  else if ((depth =? 0) && (fl =? NOT_TRUSTED))%N then Nothing
  else if (fl =? MISSING)%N then Nothing
  else log_str (verify_err_str mem table fl).
(** session_client_tls.c 235-257, nc_client_tls_connect_check(): [ok] is connect_ret == 1. *)
Definition client_log (mem : bool) (table : list (N * bytes)) (ok : bool) (fl : N) : logged :=
  if ((fl =? 0)%N && ok) then Nothing else if negb (fl =? 0)%N then log_str (verify_err_str mem table fl) else Nothing.
