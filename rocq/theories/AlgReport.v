(** The lists of supported SSH algorithms the server reports: src/server_config.c 4528-4668, and the identities of the YANG modules they are made
    of. *)
From Coq Require Import String Bool List.
Import ListNotations.
Local Open Scope string_scope.
Local Open Scope list_scope.

(* ------------------------------------------------------------------ *)
(** ** The YANG modules *)

Definition pka_mod : string := "iana-ssh-public-key-algs".
Definition kex_mod : string := "iana-ssh-key-exchange-algs".
Definition enc_mod : string := "iana-ssh-encryption-algs".
Definition macs_mod : string := "iana-ssh-mac-algs".

(** modules/iana-ssh-public-key-algs@2022-06-16.yang, lines 60-412. *)
Definition pka_ids : list string :=
  ["ssh-dss"; "ssh-rsa"; "rsa-sha2-256"; "rsa-sha2-512"; "spki-sign-rsa"; "spki-sign-dss"; "pgp-sign-rsa"; "pgp-sign-dss"; "null";
   "ecdsa-sha2-nistp256"; "ecdsa-sha2-nistp384"; "ecdsa-sha2-nistp521"; "ecdsa-sha2-1.3.132.0.1"; "ecdsa-sha2-1.2.840.10045.3.1.1";
   "ecdsa-sha2-1.3.132.0.33"; "ecdsa-sha2-1.3.132.0.26"; "ecdsa-sha2-1.3.132.0.27"; "ecdsa-sha2-1.3.132.0.16"; "ecdsa-sha2-1.3.132.0.36";
   "ecdsa-sha2-1.3.132.0.37"; "ecdsa-sha2-1.3.132.0.38"; "x509v3-ssh-dss"; "x509v3-ssh-rsa"; "x509v3-rsa2048-sha256";
   "x509v3-ecdsa-sha2-nistp256"; "x509v3-ecdsa-sha2-nistp384"; "x509v3-ecdsa-sha2-nistp521"; "x509v3-ecdsa-sha2-1.3.132.0.1";
   "x509v3-ecdsa-sha2-1.2.840.10045.3.1.1"; "x509v3-ecdsa-sha2-1.3.132.0.33"; "x509v3-ecdsa-sha2-1.3.132.0.26";
   "x509v3-ecdsa-sha2-1.3.132.0.27"; "x509v3-ecdsa-sha2-1.3.132.0.16"; "x509v3-ecdsa-sha2-1.3.132.0.36"; "x509v3-ecdsa-sha2-1.3.132.0.37";
   "x509v3-ecdsa-sha2-1.3.132.0.38"; "ssh-ed25519"; "ssh-ed448"].

(** modules/iana-ssh-key-exchange-algs@2022-06-16.yang, lines 62-2193; the identities of GSS-API are left out. *)
Definition kex_ids : list string :=
  ["diffie-hellman-group-exchange-sha1"; "diffie-hellman-group-exchange-sha256"; "diffie-hellman-group1-sha1";
   "diffie-hellman-group14-sha1"; "diffie-hellman-group14-sha256"; "diffie-hellman-group15-sha512"; "diffie-hellman-group16-sha512";
   "diffie-hellman-group17-sha512"; "diffie-hellman-group18-sha512"; "ecdh-sha2-nistp256"; "ecdh-sha2-nistp384"; "ecdh-sha2-nistp521";
   "ecdh-sha2-1.3.132.0.1"; "ecdh-sha2-1.2.840.10045.3.1.1"; "ecdh-sha2-1.3.132.0.33"; "ecdh-sha2-1.3.132.0.26"; "ecdh-sha2-1.3.132.0.27";
   "ecdh-sha2-1.3.132.0.16"; "ecdh-sha2-1.3.132.0.36"; "ecdh-sha2-1.3.132.0.37"; "ecdh-sha2-1.3.132.0.38"; "ecmqv-sha2"; "rsa1024-sha1";
   "rsa2048-sha256"; "ext-info-s"; "ext-info-c"; "curve25519-sha256"; "curve448-sha512"].

(** modules/iana-ssh-encryption-algs@2022-06-16.yang, lines 62-365. *)
Definition enc_ids : list string :=
  ["triple-des-cbc"; "blowfish-cbc"; "twofish256-cbc"; "twofish-cbc"; "twofish192-cbc"; "twofish128-cbc"; "aes256-cbc"; "aes192-cbc";
   "aes128-cbc"; "serpent256-cbc"; "serpent192-cbc"; "serpent128-cbc"; "arcfour"; "idea-cbc"; "cast128-cbc"; "none"; "des-cbc";
   "arcfour128"; "arcfour256"; "aes128-ctr"; "aes192-ctr"; "aes256-ctr"; "triple-des-ctr"; "blowfish-ctr"; "twofish128-ctr";
   "twofish192-ctr"; "twofish256-ctr"; "serpent128-ctr"; "serpent192-ctr"; "serpent256-ctr"; "idea-ctr"; "cast128-ctr"; "aead-aes-128-gcm";
   "aead-aes-256-gcm"].

(** modules/iana-ssh-mac-algs@2022-06-16.yang, lines 63-138. *)
Definition macs_ids : list string :=
  ["hmac-sha1"; "hmac-sha1-96"; "hmac-md5"; "hmac-md5-96"; "none"; "aead-aes-128-gcm"; "aead-aes-256-gcm"; "hmac-sha2-256";
   "hmac-sha2-512"].

(** modules/libnetconf2-netconf-server@2024-07-09.yang, lines 110-236: the identity and the module of its base. *)
Definition ln2_ids : list (string * string) :=
  [("openssh-ssh-ed25519-cert-v01", pka_mod);
   ("openssh-ecdsa-sha2-nistp521-cert-v01", pka_mod);
   ("openssh-ecdsa-sha2-nistp384-cert-v01", pka_mod);
   ("openssh-ecdsa-sha2-nistp256-cert-v01", pka_mod);
   ("openssh-rsa-sha2-512-cert-v01", pka_mod);
   ("openssh-rsa-sha2-256-cert-v01", pka_mod);
   ("openssh-ssh-rsa-cert-v01", pka_mod);
   ("openssh-ssh-dss-cert-v01", pka_mod);
   ("libssh-curve25519-sha256", kex_mod);
   ("openssh-chacha20-poly1305", enc_mod);
   ("openssh-aes256-gcm", enc_mod);
   ("openssh-aes128-gcm", enc_mod);
   ("openssh-hmac-sha2-256-etm", macs_mod);
   ("openssh-hmac-sha2-512-etm", macs_mod);
   ("openssh-hmac-sha1-etm", macs_mod)].

(* ------------------------------------------------------------------ *)
(** ** nc_server_config_oper_get_algs, lines 4528-4581 *)

(** What is allocated and released: the text of asprintf() and the tree of libyang; a term node becomes part of the tree. *)
Inductive ev := PathNew | PathFree | TreeNew | TreeFree.

(** [mem k]: the k-th asprintf() succeeds; [ly k v]: the k-th call of libyang, lyd_new_path() of path [v] or lyd_new_term() of value [v], succeeds. *)
Record env := { mem : nat -> bool; ly : nat -> string -> bool }.

(** One of the loops, lines 4552-4561 and 4564-4573: [vals] are the values of the leaf-list so far.  [(true, ...)]: all were added. *)
Fixpoint add (e : env) (k : nat) (prefix : string) (names vals : list string) (tr : list ev) : bool * nat * list string * list ev :=
  match names with
  | [] => (true, k, vals, tr)
  | n :: names =>
    if negb (mem e k) then (false, S k, vals, tr)
    else
      let path := (prefix ++ ":" ++ n)%string in
      let tr := tr ++ [PathNew] in
      let ok := ly e k path in
      let tr := tr ++ [PathFree] in
      if negb ok then (false, S k, vals, tr) else add e (S k) prefix names (vals ++ [path]) tr
  end.

(** [ret], the value of [*algs] ([None]: NULL; the values of the leaf-list otherwise) and the trace. *)
Definition oper_get_algs (e : env) (mod_name : string) (ln2 names : list string) : nat * option (list string) * list ev :=
  if negb (mem e 0) then (1, None, [])
  else
    let tr := [PathNew] in
    let ok := ly e 0 ("/" ++ mod_name ++ ":supported-algorithms")%string in
    if negb ok then (1, None, tr ++ [PathFree])
    else
      let tr := tr ++ [TreeNew; PathFree] in
      match add e 1 "libnetconf2-netconf-server" ln2 [] tr with
      | (false, _, _, tr) => (1, None, tr ++ [TreeFree])
      | (true, k, vals, tr) =>
        match add e k mod_name names vals tr with
        | (false, _, _, tr) => (1, None, tr ++ [TreeFree])
        | (true, _, vals, tr) => (0, Some vals, tr)
        end
      end.

(** Lines 4583-4606. *)
Definition hostkey_ln2 := ["openssh-ssh-ed25519-cert-v01"; "openssh-ecdsa-sha2-nistp521-cert-v01"; "openssh-ecdsa-sha2-nistp384-cert-v01";
  "openssh-ecdsa-sha2-nistp256-cert-v01"; "openssh-rsa-sha2-512-cert-v01"; "openssh-rsa-sha2-256-cert-v01"; "openssh-ssh-rsa-cert-v01";
  "openssh-ssh-dss-cert-v01"].
Definition hostkey_iana := ["ssh-ed25519"; "ecdsa-sha2-nistp521"; "ecdsa-sha2-nistp384"; "ecdsa-sha2-nistp256"; "rsa-sha2-512"; "rsa-sha2-256";
  "ssh-rsa"; "ssh-dss"].
Definition get_hostkey_algs (e : env) := oper_get_algs e "iana-ssh-public-key-algs" hostkey_ln2 hostkey_iana.

(** Lines 4608-4627. *)
Definition kex_ln2 := ["libssh-curve25519-sha256"].
Definition kex_iana := ["diffie-hellman-group-exchange-sha1"; "curve25519-sha256"; "ecdh-sha2-nistp256"; "ecdh-sha2-nistp384"; "ecdh-sha2-nistp521";
  "diffie-hellman-group18-sha512"; "diffie-hellman-group16-sha512"; "diffie-hellman-group-exchange-sha256"; "diffie-hellman-group14-sha256"].
Definition get_kex_algs (e : env) := oper_get_algs e "iana-ssh-key-exchange-algs" kex_ln2 kex_iana.

(** Lines 4629-4647. *)
Definition encryption_ln2 := ["openssh-chacha20-poly1305"; "openssh-aes256-gcm"; "openssh-aes128-gcm"].
Definition encryption_iana := ["aes256-ctr"; "aes192-ctr"; "aes128-ctr"; "aes256-cbc"; "aes192-cbc"; "aes128-cbc"; "blowfish-cbc"; "triple-des-cbc";
  "none"].
Definition get_encryption_algs (e : env) := oper_get_algs e "iana-ssh-encryption-algs" encryption_ln2 encryption_iana.

(** Lines 4649-4666. *)
Definition mac_ln2 := ["openssh-hmac-sha2-256-etm"; "openssh-hmac-sha2-512-etm"; "openssh-hmac-sha1-etm"].
Definition mac_iana := ["hmac-sha2-256"; "hmac-sha2-512"; "hmac-sha1"].
Definition get_mac_algs (e : env) := oper_get_algs e "iana-ssh-mac-algs" mac_ln2 mac_iana.
