(** Model of cipher suites in the configuration with MbedTLS: src/session_mbedtls.c 1822-1885 and src/server_config.c 3401-3478. *)
From Coq Require Import Ascii String NArith Bool List.
From Verif Require Import Bytes CStr Algs.
Import ListNotations.
Local Open Scope N_scope.

(** toupper() of the "C" locale. *)
Definition toupper (c : ascii) : ascii :=
  let n := N_of_ascii c in if (97 <=? n) && (n <=? 122) then ascii_of_N (n - 32) else c.

(** What a C string in a buffer is: up to the first zero byte. *)
Fixpoint cstr (b : bytes) : bytes :=
  match b with [] => [] | c :: b => if Ascii.eqb c NUL then [] else c :: cstr b end.

(** Bytes written to the beginning of a buffer of [cap] bytes; [None]: beyond its end. *)
Definition put (cap : N) (new buf : bytes) : option bytes :=
  if cap <? lenN new then None else Some (new ++ skipn (length new) buf).

(** 1828-1830. *)
Definition is_tls13 (c : bytes) : bool :=
  existsb (streq c) [bs "tls-aes-256-gcm-sha384"; bs "tls-aes-128-gcm-sha256"; bs "tls-chacha20-poly1305-sha256";
                     bs "tls-aes-128-ccm-sha256"; bs "tls-aes-128-ccm-8-sha256"].

(** 1822-1849 [nc_tls_process_cipher_suite_wrap]; the pointer [begin] points into [cipher], and what is written is indexed
    from it, thus from the beginning of the buffer.  Memory is there.  [None]: outside of the buffer. *)
Definition process (c : bytes) : option bytes :=
  let '(cap, buf, from) := if is_tls13 c then (lenN c + 3 + 1, put (lenN c + 3 + 1) (bs "TLS1-3" ++ [NUL]) [], skipn 4 c)
                           else (lenN c + 1, Some [], c) in
  match buf with
  | None => None
  | Some buf => match put cap (map toupper from ++ [NUL]) buf with Some b => Some (cstr b) | None => None end
  end.

(** The array of [int]: how many bytes the block has and the numbers written to it one after another; then how many there are,
    uint16_t. *)
Record block := { b_bytes : N; b_ints : list N }.
Record opts := { o_ciphers : option block; o_count : N }.

(** Writing the number with the index [i]: it takes 4 bytes.  [None]: beyond the end of the block. *)
Definition set (b : block) (i v : N) : option block :=
  if b_bytes b <? 4 * i + 4 then None
  else Some {| b_bytes := b_bytes b; b_ints := firstn (N.to_nat i) (b_ints b) ++ v :: skipn (S (N.to_nat i)) (b_ints b) |}.

Inductive out := Done (o : opts) | Refused (o : opts) | Overflow.

(** 1851-1879 [nc_tls_append_cipher_suite_wrap].  [lib]: mbedtls_ssl_get_ciphersuite_id(), 0 if the name is not known; [us n]: how many bytes
    a block has for which [n] were asked, all of which realloc() keeps.  [sizeof *opts->ciphers] is the size of void, 1. *)
Definition append_suite (lib : bytes -> N) (us : N -> N) (o : opts) (name : bytes) : out :=
  let id := lib name in
  if id =? 0 then Refused o
  else
    let r := match o_ciphers o with
             | None => (set {| b_bytes := us (2 * 1); b_ints := [] |} 0 id, 1)
             | Some b => (set {| b_bytes := us ((o_count o + 2) * 1); b_ints := b_ints b |} (o_count o) id, (o_count o + 1) mod 65536)
             end in
    match r with
    | (None, _) => Overflow
    | (Some b, n) => match set b n 0 with
                     | None => Overflow
                     | Some b => Done {| o_ciphers := Some b; o_count := n |}
                     end
    end.

(** server_config.c 3401-3422 [nc_server_config_create_cipher_suite]. *)
Definition create (lib : bytes -> N) (us : N -> N) (o : opts) (c : bytes) : out :=
  match process c with
  | None => Overflow
  | Some name => append_suite lib us o name
  end.

Fixpoint create_all (lib : bytes -> N) (us : N -> N) (o : opts) (cs : list bytes) : out :=
  match cs with
  | [] => Done o
  | c :: cs => match create lib us o c with Done o => create_all lib us o cs | r => r end
  end.

(** The bytes of an [int], the lowest first. *)
Definition int_bytes (n : N) : bytes :=
  [ascii_of_N (n mod 256); ascii_of_N (n / 256 mod 256); ascii_of_N (n / 65536 mod 256); ascii_of_N (n / 16777216 mod 256)].

(** server_config.c 3424-3436 [nc_server_config_del_cipher_suite]: the array is taken for a C string. *)
Definition delete (o : opts) (c : bytes) : res bytes :=
  match remove (match o_ciphers o with Some b => Some (cstr (concat (map int_bytes (b_ints b)))) | None => None end) c ":"%char with
  | Ok (Some t) => Ok t
  | Fail (Some t) => Fail t
  | _ => Undef
  end.
