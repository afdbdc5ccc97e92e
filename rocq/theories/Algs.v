(** Lists of algorithms, TLS versions and cert-to-name entries in the configuration: src/server_config.c 2447-2520, 3178-3345, 3347-3480,
    421-457, 778-826; src/session_openssl.c 246-281, 1387-1434; src/session_mbedtls.c 418-443; src/session_server_ssh.c 1941-1957. *)
From Coq Require Import String Ascii NArith Bool List.
From Verif Require Import Bytes CStr.
Import ListNotations.
Local Open Scope list_scope.

(* ------------------------------------------------------------------ *)
(** ** nc_server_config_delete_substring, server_config.c 2447-2474 *)

(** The text is the C string in the block; what follows its terminating byte is never read.  [Deleted t]: 0, [t] is the text now;
    [Absent]: 1; [Before]: the byte before the block is read, which is undefined. *)
Inductive del_res := Deleted (t : bytes) | Absent | Before.

(** strstr(): the index of the first occurrence. *)
Fixpoint occ (s needle : bytes) : option nat :=
  if prefixb needle s then Some 0 else match s with [] => None | _ :: r => match occ r needle with Some i => Some (S i) | None => None end end.

(** [*(substr + needle_len)]: the terminating byte is [None]. *)
Definition is_at (s : bytes) (i : nat) (c : ascii) : bool := match nth_error s i with Some d => Ascii.eqb d c | None => false end.
Definition ends_at (s : bytes) (i : nat) : bool := match nth_error s i with Some _ => false | None => true end.

(** Line 2459: memmove() of what follows the element, without its terminating byte. *)
Definition move (s : bytes) (i n : nat) : bytes :=
  let rest := skipn (i + n + 1) s in firstn i s ++ rest ++ skipn (i + length rest) s.

(** Lines 2454-2468; [pos] is [haystack] in the block. *)
Fixpoint del_from (fuel : nat) (s needle : bytes) (delim : ascii) (pos : nat) : del_res :=
  match fuel with
  | O => Absent
  | S fuel =>
    match occ (skipn pos s) needle with
    | None => Absent
    | Some k =>
      let i := pos + k in
      let n := length needle in
      if (Nat.eqb i pos && is_at s (i + n) delim) || (negb (Nat.eqb i pos) && is_at s (i - 1) delim && is_at s (i + n) delim)
      then Deleted (move s i n)
      else if Nat.eqb i 0 then Before
      else if is_at s (i - 1) delim && ends_at s (i + n) then Deleted (firstn (i - 1) s)
      else del_from fuel s needle delim (S i)
    end
  end.
(** Each round starts behind the last, so that the length of the text is enough; an empty needle does not occur (names of identities). *)
Definition delete_substring (s needle : bytes) (delim : ascii) : del_res := del_from (S (length s)) s needle delim 0.

(* ------------------------------------------------------------------ *)
(** ** nc_server_config_transport_params, lines 2477-2520 *)

Inductive op := Create | Replace | Delete.
(** [Undef]: undefined behaviour, that is [Before] or strstr(NULL, ...). *)
Inductive res (A : Type) := Ok (a : A) | Fail (a : A) | Undef.
Arguments Ok {A}. Arguments Fail {A}. Arguments Undef {A}.

(** Lines 2483-2494. *)
Definition libssh_name (a : bytes) : bytes :=
  if prefixb (bs "openssh-") a then skipn 8 a ++ bs "@openssh.com"
  else if prefixb (bs "libssh-") a then skipn 7 a ++ bs "@libssh.org" else a.

(** Lines 2497-2508 and session_openssl.c 1410-1424. *)
Definition append (store : option bytes) (a : bytes) (delim : ascii) : option bytes :=
  match store with None => Some a | Some s => Some (s ++ delim :: a) end.

Definition remove (store : option bytes) (a : bytes) (delim : ascii) : res (option bytes) :=
  match store with
  | None => Undef
  | Some s => match delete_substring s a delim with Deleted t => Ok (Some t) | Absent => Fail store | Before => Undef end
  end.

Definition transport_params (store : option bytes) (a : bytes) (o : op) : res (option bytes) :=
  match o with
  | Create | Replace => Ok (append store (libssh_name a) ","%char)
  | Delete => remove store (libssh_name a) ","%char
  end.

(** nc_server_config_parse_tree(), lines 4143-4211: one change after another, to the first that fails. *)
Fixpoint alg_changes (l : list (op * bytes)) (store : option bytes) : res (option bytes) :=
  match l with
  | [] => Ok store
  | (o, a) :: r => match transport_params store a o with Ok s => alg_changes r s | e => e end
  end.

(** session_server_ssh.c 1941-1957: the options set for a new SSH session.  libssh knows a list for each direction; those not set keep the
    default of libssh. *)
Inductive dir := ToClient | ToServer.
Record ssh_algs := { hostkey_algs : option bytes; encryption_algs : option bytes; kex_algs : option bytes; mac_algs : option bytes }.
Record sbind := { b_hostkey : option bytes; b_cipher : dir -> option bytes; b_kex : option bytes; b_mac : dir -> option bytes }.
Definition bind_algs (o : ssh_algs) : sbind :=
  {| b_hostkey := hostkey_algs o;
     b_cipher := fun d => match d with ToClient => encryption_algs o | ToServer => None end;
     b_kex := kex_algs o;
     b_mac := fun d => match d with ToClient => mac_algs o | ToServer => None end |}.

(* ------------------------------------------------------------------ *)
(** ** Cipher suites with OpenSSL: session_openssl.c 1387-1424, server_config.c 3402-3480 *)

Definition upper (c : ascii) : ascii :=
  if Ascii.eqb c "-"%char then "_"%char
  else let n := N_of_ascii c in if ((97 <=? n) && (n <=? 122))%N then ascii_of_N (n - 32) else c.
Definition cipher_suite (store : option bytes) (a : bytes) (o : op) : res (option bytes) :=
  match o with
  | Create => Ok (append store (map upper a) ":"%char)
  | Delete => remove store a ":"%char
  | Replace => Ok store
  end.
Fixpoint cipher_changes (l : list (op * bytes)) (store : option bytes) : res (option bytes) :=
  match l with
  | [] => Ok store
  | (o, a) :: r => match cipher_suite store a o with Ok s => cipher_changes r s | e => e end
  end.

(* ------------------------------------------------------------------ *)
(** ** TLS versions: server_config.c 3347-3399, session.h 65-68 *)

Inductive tlsv := V10 | V11 | V12 | V13.
Definition bit (v : tlsv) : N := match v with V10 => 1 | V11 => 2 | V12 => 4 | V13 => 8 end.
Definition tls_version (bits : N) (v : tlsv) (o : op) : N :=
  match o with
  | Create => N.lor bits (bit v)
  | Delete => if N.eqb (N.land bits (bit v)) 0 then bits else N.ldiff bits (bit v)
  | Replace => bits
  end.
Definition has (bits : N) (v : tlsv) : bool := negb (N.eqb (N.land bits (bit v)) 0).
(** session_openssl.c 246-281: the minimum and the maximum set for a session; session_server_tls.c 866: only if there is a version.
    [None]: the default of the library. *)
Definition openssl_min (b : N) : option tlsv :=
  if has b V10 then Some V10 else if has b V11 then Some V11 else if has b V12 then Some V12 else if has b V13 then Some V13 else None.
Definition openssl_max (b : N) : option tlsv :=
  if has b V13 then Some V13 else if has b V12 then Some V12 else if has b V11 then Some V11 else if has b V10 then Some V10 else None.
(** session_mbedtls.c 418-443. *)
Definition mbedtls_min (b : N) : option tlsv := if has b V12 then Some V12 else if has b V13 then Some V13 else None.
Definition mbedtls_max (b : N) : option tlsv := if has b V13 then Some V13 else if has b V12 then Some V12 else None.

(* ------------------------------------------------------------------ *)
(** ** cert-to-name: server_config.c 3178-3262, 3264-3308, 3310-3345, 421-457, 778-811 *)

(** The linked list; the map type as its identity, already checked (lines 3196-3226). *)
Record ctn := { c_id : N; c_name : option string; c_map : string; c_fp : option string }.

(** Lines 3232-3259: a new entry goes before the first with a greater id; an entry with the same id is reused, with its fingerprint. *)
Definition known_map (m : string) : bool :=
  existsb (String.eqb m) ["specified"; "san-rfc822-name"; "san-dns-name"; "san-ip-address"; "san-any"; "common-name"]%string.
(** The loop of line 3241 from [iter], which is the head of the list and has no greater id. *)
Fixpoint ctn_after (iter : ctn) (l : list ctn) (new : ctn) : list ctn :=
  match l with
  | n :: r => if (c_id n <=? c_id new)%N then iter :: ctn_after n r new
              else if N.eqb (c_id iter) (c_id new) then {| c_id := c_id new; c_name := c_name new; c_map := c_map new; c_fp := c_fp iter |} :: n :: r
              else iter :: new :: n :: r
  | [] => if N.eqb (c_id iter) (c_id new) then [{| c_id := c_id new; c_name := c_name new; c_map := c_map new; c_fp := c_fp iter |}]
          else [iter; new]
  end.
Definition ctn_create (l : list ctn) (id : N) (m : string) (name : option string) : res (list ctn) :=
  if negb (known_map m) then Fail l
  else if String.eqb m "specified" && match name with None => true | _ => false end then Fail l
  else let new := {| c_id := id; c_name := if String.eqb m "specified" then name else None; c_map := m; c_fp := None |} in
       match l with
       | [] => Ok [new]
       | h :: r => if (id <? c_id h)%N then Ok (new :: l) else Ok (ctn_after h r new)
       end.

(** Lines 421-457: the first entry with the id; 778-811 remove it. *)
Fixpoint ctn_del (l : list ctn) (id : N) : option (list ctn) :=
  match l with
  | [] => None
  | c :: r => if N.eqb (c_id c) id then Some r else match ctn_del r id with Some r' => Some (c :: r') | None => None end
  end.
Fixpoint ctn_fp (l : list ctn) (id : N) (fp : option string) : option (list ctn) :=
  match l with
  | [] => None
  | c :: r => if N.eqb (c_id c) id then Some ({| c_id := c_id c; c_name := c_name c; c_map := c_map c; c_fp := fp |} :: r)
              else match ctn_fp r id fp with Some r' => Some (c :: r') | None => None end
  end.

(** The nodes of a change below tls "client-identity-mappings": an entry created with its leaves, an entry deleted, the fingerprint of an
    entry set or removed, and a changed map-type or name, for which nc_server_config_parse_netconf_server() (3846-3958) has no function:
    the name of the node is found in no branch and 0 is returned. *)
Inductive ctn_op :=
| CtnCreate (id : N) (m : string) (name fp : option string)
| CtnDelete (id : N)
| CtnFp (id : N) (fp : option string)
| CtnMap (id : N) (m : string) (name : option string).
Definition opt_res (l : list ctn) (o : option (list ctn)) : res (list ctn) := match o with Some x => Ok x | None => Fail l end.
Definition ctn_change (l : list ctn) (o : ctn_op) : res (list ctn) :=
  match o with
  | CtnCreate id m name fp =>
    match ctn_create l id m name with
    | Ok l' => match fp with Some _ => opt_res l' (ctn_fp l' id fp) | None => Ok l' end
    | e => e
    end
  | CtnDelete id => opt_res l (ctn_del l id)
  | CtnFp id fp => opt_res l (ctn_fp l id fp)
  | CtnMap _ _ _ => Ok l
  end.
Fixpoint ctn_changes (l : list ctn_op) (st : list ctn) : res (list ctn) :=
  match l with
  | [] => Ok st
  | o :: r => match ctn_change st o with Ok s => ctn_changes r s | e => e end
  end.
