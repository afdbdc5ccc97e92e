(** Model of the host keys a server has in a session of SSH: src/session_server_ssh.c 119-157 (nc_server_ssh_ks_ref_get_key),
    1805-1860 (nc_ssh_bind_add_hostkeys), with the temporary files of KeyFiles.v. *)
From Coq Require Import Ascii String NArith Bool List.
From Verif Require Import Bytes CStr KeyFiles.
Import ListNotations.

(** session_p.h [struct nc_asymmetric_key]: name, format and data of the private key, data of the public one. *)
Record askey := { k_name : bytes; k_type : pkfmt; k_priv : option bytes; k_pub : option bytes }.

(** session_p.h [struct nc_hostkey]: a key of its own or the name of one in the keystore. *)
Inductive hostkey := HLocal (k : askey) | HRef (ref : bytes).

(** The array is searched up to its length. *)
Fixpoint lookup (ref : bytes) (ks : list askey) : option askey :=
  match ks with
  | [] => None
  | k :: ks => if streq ref (k_name k) then Some k else lookup ref ks
  end.

(** 128-157 [nc_server_ssh_ks_ref_get_key]; [spki]: whether nc_is_pk_subject_public_key_info() gives other than 0, which it also does
    for data it cannot decode.  The key is only used if 0 is returned. *)
Definition ks_ref_get_key (spki : bytes -> bool) (ks : list askey) (ref : bytes) : option askey :=
  match lookup ref ks with
  | None => None
  | Some k => match k_pub k with
              | Some p => if spki p then None else Some k
              | None => Some k
              end
  end.

(** What libssh was given, in order, and what is left in /tmp. *)
Record done := { d_set : list bytes; d_left : list bytes }.

Definition opt {A} (o : option A) : list A := match o with Some a => [a] | None => [] end.

(** 1815-1860 [nc_ssh_bind_add_hostkeys] from the key [i]; [w]: what happens to the file of each key.  A key that libssh does not
    take is not among those set.  1838: without data of the private key there is no path. *)
Fixpoint add_hostkeys (spki : bytes -> bool) (ks : list askey) (w : nat -> tmpenv) (i : nat) (hs : list hostkey) (d : done) : bool * done :=
  match hs with
  | [] => (true, d)
  | h :: hs =>
      let key := match h with HLocal k => Some k | HRef r => ks_ref_get_key spki ks r end in
      match key with
      | None => (false, d)
      | Some k =>
          match k_priv k with
          | None => (false, d)
          | Some data =>
              let r := add_hostkey (w i) data (k_type k) in
              let d' := {| d_set := d_set d ++ (if r_ok r then opt (r_seen r) else []); d_left := d_left d ++ opt (r_left r) |} in
              if r_ok r then add_hostkeys spki ks w (S i) hs d' else (false, d')
          end
      end
  end.
