(** Model of public keys in the configuration: src/server_config.c 1727-1795 (nc_server_config_public_key_format), 1798-1958
    (nc_server_config_public_key), src/session.c 176-205 (nc_is_pk_subject_public_key_info). *)
From Coq Require Import Ascii String ZArith Bool List.
From Verif Require Import Bytes CStr.
Import ListNotations.

(** What a public key is for: a host key of SSH, a key of a user of SSH, the identity of a server of TLS. *)
Inductive use := HostKey | UserKey | TlsId.
Definition use_eqb (a b : use) : bool := match a, b with HostKey, HostKey | UserKey, UserKey | TlsId, TlsId => true | _, _ => false end.

(** Where it is kept: the structure found from the path of the node. *)
Definition slot := (use * nat)%type.
Definition slot_eqb (a b : slot) : bool := use_eqb (fst a) (fst b) && Nat.eqb (snd a) (snd b).

Inductive pubfmt := FSsh | FX509.

(** The format said to be used and the data. *)
Record pubkey := { p_type : option pubfmt; p_data : option bytes }.

(** [local]: the key is in the configuration and not in the keystore or truststore; list entries of the keys of users are not looked at here. *)
Record conf := { c_key : slot -> pubkey; c_local : slot -> bool }.

Definition upd {A} (f : slot -> A) (s : slot) (v : A) : slot -> A := fun t => if slot_eqb t s then v else f t.

Inductive op := Create | Replace | Delete | Nothing.

(** session.c 176-205 [nc_is_pk_subject_public_key_info]: -1 if the text cannot be decoded, otherwise whether
    nc_tls_is_der_subpubkey_wrap() gives other than 0: it gives -1 with MbedTLS if there is no memory (session_mbedtls.c 1140-1143). *)
Definition is_spki (decode : bytes -> option bytes) (der : bytes -> Z) (text : bytes) : Z :=
  match decode text with
  | None => -1
  | Some bin => if (der bin =? 0)%Z then 0 else 1
  end.

(** 1840-1958 [nc_server_config_public_key] for the leaf in [s]; [dup]: strdup() succeeds.  Whether it succeeds and the configuration. *)
Definition public_key (decode : bytes -> option bytes) (der : bytes -> Z) (dup : bool) (s : slot) (o : op) (text : bytes) (c : conf) : bool * conf :=
  let k := c_key c s in
  let spki := negb (is_spki decode der text =? 0)%Z in
  let set := {| p_type := p_type k; p_data := if dup then Some text else None |} in
  match fst s with
  | HostKey =>
      if spki then (false, c)                                                     (* 1866-1870 *)
      else match o with
           | Create | Replace => (dup, {| c_key := upd (c_key c) s set; c_local := upd (c_local c) s true |})
           | _ => (true, c)
           end
  | UserKey =>
      if spki then (false, c)                                                     (* 1912-1916 *)
      else match o with
           | Create | Replace => (dup, {| c_key := upd (c_key c) s set; c_local := c_local c |})
           | Delete => (true, {| c_key := upd (c_key c) s {| p_type := p_type k; p_data := None |}; c_local := c_local c |})
           | Nothing => (true, c)
           end
  | TlsId =>
      if negb spki then (false, c)                                                (* 1935-1939 *)
      else match o with
           | Create | Replace => (dup, {| c_key := upd (c_key c) s set; c_local := upd (c_local c) s true |})
           | _ => (true, c)
           end
  end.

(** 1729-1795 [nc_server_config_public_key_format] with the name of the identity. *)
Definition public_key_format (s : slot) (o : op) (name : bytes) (c : conf) : bool * conf :=
  let f := if streq name (bs "ssh-public-key-format") then Some FSsh
           else if streq name (bs "subject-public-key-info-format") then Some FX509 else None in
  match f with
  | None => (false, c)
  | Some f => match o with
              | Create | Replace => (true, {| c_key := upd (c_key c) s {| p_type := Some f; p_data := p_data (c_key c s) |}; c_local := c_local c |})
              | _ => (true, c)
              end
  end.

Inductive change := Key (dup : bool) (s : slot) (o : op) (text : bytes) | Format (s : slot) (o : op) (name : bytes).

Definition apply (decode : bytes -> option bytes) (der : bytes -> Z) (x : change) (c : conf) : bool * conf :=
  match x with
  | Key dup s o text => public_key decode der dup s o text c
  | Format s o name => public_key_format s o name c
  end.

(** server_config.c 4143-4211: one change after another, to the first that fails. *)
Fixpoint apply_all (decode : bytes -> option bytes) (der : bytes -> Z) (l : list change) (c : conf) : bool * conf :=
  match l with
  | [] => (true, c)
  | x :: l => match apply decode der x c with (true, c) => apply_all decode der l c | r => r end
  end.
