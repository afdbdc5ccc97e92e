(** The CA certificates of a client with mbedTLS: src/session_mbedtls.c 1022-1038. *)
From Coq Require Import ZArith Bool List.
Import ListNotations.
Local Open Scope Z_scope.

Section Load.
Context {cert : Type}.
(** A file: its certificates in order, [None] for one that cannot be read as a certificate.  A path without file is [None]. *)
Definition file := list (option cert).
Definition readable (f : file) : list cert := flat_map (fun x => match x with Some c => [c] | None => [] end) f.
Definition bad (f : file) : Z := Z.of_nat (List.length (filter (fun x => match x with Some _ => false | None => true end) f)).

(** mbedtls_x509_crt_parse_file() (mbedTLS, not a part of this repository): negative if there is no file or no certificate in it can be read, otherwise the number of
    certificates that could not be; those that could be are appended to the chain.  Which negative value it is does not matter here. *)
Definition parse_file (f : option file) (store : list cert) : Z * list cert :=
  match f with
  | None => (-1, store)
  | Some f => match readable f with [] => (-1, store) | l => (bad f, store ++ l) end
  end.
(** mbedtls_x509_crt_parse_path(): negative if the directory cannot be opened, otherwise the sum for its files, a file that failed counted as one. *)
Fixpoint parse_files (l : list file) (n : Z) (store : list cert) : Z * list cert :=
  match l with
  | [] => (n, store)
  | f :: l => let '(r, store) := parse_file (Some f) store in parse_files l (if r <? 0 then n + 1 else n + r) store
  end.
Definition parse_path (d : option (list file)) (store : list cert) : Z * list cert :=
  match d with None => (-1, store) | Some l => parse_files l 0 store end.

(** Lines 1022-1038, nc_client_tls_load_trusted_certs_wrap(): [None] for a path that is NULL; [true] is success. *)
Definition load_trusted_certs (store : list cert) (fp : option (option file)) (dp : option (option (list file))) : bool * list cert :=
  let '(rc, store) := match fp with Some f => parse_file f store | None => (0, store) end in
  if rc <? 0 then (false, store)
  else
    let '(rc, store) := match dp with Some d => parse_path d store | None => (0, store) end in
    if rc <? 0 then (false, store) else (true, store).
End Load.
