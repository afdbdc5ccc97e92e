(** Model of the buffers that grow until the output of MbedTLS fits: src/session_mbedtls.c 1310-1332
    (nc_tls_export_privkey_pem_wrap), 1355-1377 (nc_tls_export_pubkey_pem_wrap), 1490-1517
    (nc_tls_ec_point_to_bin_wrap), and src/io.c 1084-1095 (nc_realloc). *)
From Coq Require Import NArith ZArith Bool List.
From Verif Require Import Bytes.
Import ListNotations.
Local Open Scope N_scope.

(** mbedtls/base64.h and mbedtls/ecp.h: -0x002A and -0x4F00. *)
Definition BASE64_BUFFER_TOO_SMALL : Z := -42.
Definition ECP_BUFFER_TOO_SMALL : Z := -20224.

(** size_t has 64 bits. *)
Definition two64 : N := 18446744073709551616.

(** Blocks in use with their sizes, the number of the next one, and whether one was freed that was not in use. *)
Record mem := { m_live : list (nat * N); m_next : nat; m_bad : bool }.

(** free(). *)
Definition free (b : nat) (m : mem) : mem :=
  {| m_live := filter (fun e => negb (Nat.eqb (fst e) b)) (m_live m); m_next := m_next m;
     m_bad := m_bad m || negb (existsb (fun e => Nat.eqb (fst e) b) (m_live m)) |}.

(** malloc(); [al]: whether the call that would give this block can have so many bytes. *)
Definition malloc (al : nat -> N -> bool) (n : N) (m : mem) : mem * option nat :=
  if al (m_next m) n then
    ({| m_live := (m_next m, n) :: m_live m; m_next := S (m_next m); m_bad := m_bad m |}, Some (m_next m))
  else ({| m_live := m_live m; m_next := S (m_next m); m_bad := m_bad m |}, None).

(** realloc() of the C library of GNU: without a size the block is freed and NULL returned.  Blocks are taken to move. *)
Definition realloc (al : nat -> N -> bool) (b : nat) (n : N) (m : mem) : mem * option nat :=
  if n =? 0 then (free b m, None)
  else match malloc al n m with
       | (m, Some c) => (free b m, Some c)
       | (m, None) => (m, None)
       end.

(** io.c 1084-1095 [nc_realloc]. *)
Definition nc_realloc (al : nat -> N -> bool) (b : nat) (n : N) (m : mem) : mem * option nat :=
  match realloc al b n m with
  | (m, Some c) => (m, Some c)
  | (m, None) => (free b m, None)
  end.

(** What MbedTLS does with a buffer of so many bytes: its code and what it wrote. *)
Definition library := N -> Z * bytes.

(** How a function ends: with the buffer, with an error, or not within the fuel. *)
Inductive ended := Got (b : nat) (text : bytes) | Failed | OutOfFuel.

(** The loops at 1320-1324, 1365-1369 and 1501-1508: [size <<= 1] loses the highest bit.  The two conditions of
    the last one together are the condition of the others; what follows the loops ([bad]) differs. *)
Fixpoint grow (fuel : nat) (al : nat -> N -> bool) (lib : library) (small : Z) (bad : Z -> bool) (b : nat) (size : N) (m : mem)
  : mem * ended :=
  match fuel with
  | O => (m, OutOfFuel)
  | S fuel =>
      let (rc, text) := lib size in
      if (rc =? small)%Z then
        let size := (size * 2) mod two64 in
        match nc_realloc al b size m with
        | (m, None) => (m, Failed)
        | (m, Some b) => grow fuel al lib small bad b size m
        end
      else if bad rc then (free b m, Failed)
      else (m, Got b text)
  end.

Definition start (fuel : nat) (al : nat -> N -> bool) (lib : library) (small : Z) (bad : Z -> bool) (size : N) (m : mem)
  : mem * ended :=
  match malloc al size m with
  | (m, None) => (m, Failed)
  | (m, Some b) => grow fuel al lib small bad b size m
  end.

(** 1310-1332 [nc_tls_export_privkey_pem_wrap]; [lib]: mbedtls_pk_write_key_pem() with the key. *)
Definition export_privkey_pem (fuel : nat) (al : nat -> N -> bool) (lib : library) (m : mem) : mem * ended :=
  start fuel al lib BASE64_BUFFER_TOO_SMALL (fun rc => (rc <? 0)%Z) 128 m.

(** 1355-1377 [nc_tls_export_pubkey_pem_wrap]; [lib]: mbedtls_pk_write_pubkey_pem(). *)
Definition export_pubkey_pem (fuel : nat) (al : nat -> N -> bool) (lib : library) (m : mem) : mem * ended :=
  start fuel al lib BASE64_BUFFER_TOO_SMALL (fun rc => (rc <? 0)%Z) 128 m.

(** 1490-1517 [nc_tls_ec_point_to_bin_wrap]; [lib]: mbedtls_ecp_point_write_binary(), its text being the [out_len] bytes. *)
Definition ec_point_to_bin (fuel : nat) (al : nat -> N -> bool) (lib : library) (m : mem) : mem * ended :=
  start fuel al lib ECP_BUFFER_TOO_SMALL (fun rc => negb (rc =? 0)%Z) 32 m.
