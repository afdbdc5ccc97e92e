(** Objects of the TLS libraries made and released when memory may run out: the wrappers of session_mbedtls.c
    that allocate several library objects and then initialise them, and the text made of the errors that OpenSSL
    has queued (session_openssl.c 913-936). *)
From Coq Require Import String List Arith Lia.
From Verif Require Import Bytes.
Import ListNotations.
Local Open Scope list_scope.

(** ** Memory

    A block is [Raw] from malloc() on: its contents are indeterminate.  An mbedtls_*_init() makes it [Made].
    An mbedtls_*_free() of a [Made] block releases what the object owns and leaves the block for free();
    of a NULL pointer it does nothing (mbedTLS 2.x and 3.x: all of mbedtls_entropy_free(), mbedtls_ctr_drbg_free(),
    mbedtls_mpi_free(), mbedtls_ecp_group_free(), mbedtls_ecp_point_free(), mbedtls_pk_free() but the first test
    the pointer); of a [Raw] block it reads indeterminate pointers, which is undefined. *)
Inductive blk := Raw | Made.

(** [m_live]: the allocated blocks.  [m_next]: the number of the next call of malloc(), which also names the
    block it returns.  [m_lost]: objects whose block was given to free() while the object still owned memory. *)
Record mem := mkM { m_live : list (nat * blk); m_next : nat; m_lost : nat }.

(** [None]: undefined behaviour. *)
Definition out (A : Type) := option (mem * A).

Definition bind {A B} (x : out A) (f : mem -> A -> out B) : out B :=
  match x with None => None | Some (m, a) => f m a end.

Fixpoint look (l : list (nat * blk)) (b : nat) : option blk :=
  match l with [] => None | (c, s) :: r => if Nat.eqb c b then Some s else look r b end.

Fixpoint put (l : list (nat * blk)) (b : nat) (v : blk) : list (nat * blk) :=
  match l with [] => [] | (c, s) :: r => if Nat.eqb c b then (c, v) :: r else (c, s) :: put r b v end.

Fixpoint drop (l : list (nat * blk)) (b : nat) : list (nat * blk) :=
  match l with [] => [] | (c, s) :: r => if Nat.eqb c b then r else (c, s) :: drop r b end.

(** malloc(): [al n] tells whether call number [n] succeeds. *)
Definition malloc (al : nat -> bool) (m : mem) : mem * option nat :=
  let n := m_next m in
  if al n then (mkM ((n, Raw) :: m_live m) (S n) (m_lost m), Some n) else (mkM (m_live m) (S n) (m_lost m), None).

(** mbedtls_*_init(). *)
Definition init (p : option nat) (m : mem) : out unit :=
  match p with
  | None => None
  | Some b => match look (m_live m) b with
              | None => None
              | Some _ => Some (mkM (put (m_live m) b Made) (m_next m) (m_lost m), tt)
              end
  end.

(** mbedtls_*_free(). *)
Definition wipe (p : option nat) (m : mem) : out unit :=
  match p with
  | None => Some (m, tt)
  | Some b => match look (m_live m) b with
              | Some Made => Some (mkM (put (m_live m) b Raw) (m_next m) (m_lost m), tt)
              | _ => None
              end
  end.

(** free(). *)
Definition free (p : option nat) (m : mem) : out unit :=
  match p with
  | None => Some (m, tt)
  | Some b => match look (m_live m) b with
              | Some Raw => Some (mkM (drop (m_live m) b) (m_next m) (m_lost m), tt)
              | Some Made => Some (mkM (drop (m_live m) b) (m_next m) (S (m_lost m)), tt)
              | None => None
              end
  end.

(** An mbedtls_*_free() followed by free(), as in session_mbedtls.c 285-289 [nc_tls_privkey_destroy_wrap],
    1417-1422 [nc_tls_destroy_mpi_wrap], 1519-1531 [nc_tls_ec_point_destroy_wrap] and
    [nc_tls_ec_group_destroy_wrap]. *)
Definition destroy (p : option nat) (m : mem) : out unit := bind (wipe p m) (fun m _ => free p m).

(** ** session_mbedtls.c *)

(** 159-167 [nc_tls_rng_destroy]: the generator, then, if there is one, the entropy. *)
Definition rng_destroy (ctr ent : option nat) (m : mem) : out unit :=
  bind (destroy ctr m) (fun m _ =>
  match ent with None => Some (m, tt) | Some _ => destroy ent m end).

(** 117-150 [nc_tls_rng_new]: the two objects (generator, entropy); [None] for the return value 1.  The code
    from the label fail on (143-149) does what [nc_tls_rng_destroy] does.  [seed]: whether
    mbedtls_ctr_drbg_seed() succeeds. *)
Definition rng_new (al : nat -> bool) (seed : bool) (m : mem) : out (option (option nat * option nat)) :=
  let fail ctr ent m := bind (rng_destroy ctr ent m) (fun m _ => Some (m, None)) in
  let (m, ent) := malloc al m in
  match ent with
  | None => fail None None m
  | Some _ =>
      let (m, ctr) := malloc al m in
      match ctr with
      | None => fail None ent m
      | Some _ =>
          bind (init ent m) (fun m _ =>
          bind (init ctr m) (fun m _ =>
          if seed then Some (m, Some (ctr, ent)) else fail ctr ent m))
      end
  end.

(** 272-282 [nc_tls_pkey_new_wrap]. *)
Definition pkey_new (al : nat -> bool) (m : mem) : out (option nat) :=
  let (m, p) := malloc al m in
  match p with
  | None => Some (m, None)
  | Some _ => bind (init p m) (fun m _ => Some (m, p))
  end.

(** 361-392 [nc_tls_pem_to_privkey_wrap]; [parse]: whether mbedtls_pk_parse_key() succeeds.  The returned key
    or NULL. *)
Definition pem_to_privkey (al : nat -> bool) (seed parse : bool) (m : mem) : out (option nat) :=
  let cleanup (rc : bool) pkey ctr ent m :=
    bind (if rc then Some (m, tt) else destroy pkey m) (fun m _ =>
    bind (rng_destroy ctr ent m) (fun m _ => Some (m, if rc then pkey else None))) in
  bind (rng_new al seed m) (fun m r =>
  match r with
  | None => cleanup false None None None m
  | Some (ctr, ent) =>
      bind (pkey_new al m) (fun m pkey =>
      match pkey with
      | None => cleanup false None ctr ent m
      | Some _ => cleanup parse pkey ctr ent m
      end)
  end).

(** 959-985 [nc_tls_import_privkey_file_wrap]; [parse]: whether mbedtls_pk_parse_keyfile() succeeds. *)
Definition import_privkey_file (al : nat -> bool) (seed parse : bool) (m : mem) : out (option nat) :=
  bind (rng_new al seed m) (fun m r =>
  match r with
  | None => Some (m, None)
  | Some (ctr, ent) =>
      bind (pkey_new al m) (fun m pkey =>
      match pkey with
      | None => bind (rng_destroy ctr ent m) (fun m _ => Some (m, None))
      | Some _ =>
          bind (rng_destroy ctr ent m) (fun m _ =>
          if parse then Some (m, pkey) else bind (destroy pkey m) (fun m _ => Some (m, None)))
      end)
  end).

(** 1385-1415 [nc_tls_get_rsa_pubkey_params_wrap]; [export]: whether mbedtls_rsa_export() succeeds.  The objects
    stored in e and n. *)
Definition rsa_pubkey_params (al : nat -> bool) (export : bool) (m : mem) : out (option (option nat * option nat)) :=
  let fail e n m :=
    bind (wipe e m) (fun m _ => bind (wipe n m) (fun m _ =>
    bind (free e m) (fun m _ => bind (free n m) (fun m _ => Some (m, None))))) in
  let (m, e) := malloc al m in
  let (m, n) := malloc al m in
  match e, n with
  | Some _, Some _ =>
      bind (init e m) (fun m _ => bind (init n m) (fun m _ =>
      if export then Some (m, Some (e, n)) else fail e n m))
  | _, _ => fail e n m
  end.

(** 1446-1487 [nc_tls_get_ec_pubkey_params_wrap]; [export]: whether mbedtls_ecp_export() succeeds.  The point and
    the group. *)
Definition ec_pubkey_params (al : nat -> bool) (export : bool) (m : mem) : out (option (option nat * option nat)) :=
  let cleanup grp d p m r :=
    bind (destroy grp m) (fun m _ => bind (destroy d m) (fun m _ =>
    bind (destroy p m) (fun m _ => Some (m, r)))) in
  let (m, grp) := malloc al m in
  let (m, d) := malloc al m in
  let (m, p) := malloc al m in
  match grp, d, p with
  | Some _, Some _, Some _ =>
      bind (init grp m) (fun m _ => bind (init d m) (fun m _ => bind (init p m) (fun m _ =>
      if export then cleanup None d None m (Some (p, grp)) else cleanup grp d p m None)))
  | _, _, _ => cleanup grp d p m None
  end.

(** ** session_openssl.c 913-936 [nc_tls_get_err_reasons] *)

(** What the call ends with: undefined behaviour, or the returned string (or NULL). *)
Inductive text := TUndef | TNull | TStr (s : bytes).

(** The buffer [reasons]: NULL or its bytes up to reason_len (a terminating zero follows).  sprintf() of [s] at
    reason_len into [size] bytes: the text and its terminating zero must fit. *)
Definition sprint (size : nat) (old s : bytes) : option bytes :=
  if length old + length s + 1 <=? size then Some (old ++ s) else None.

(** 924-933, the loop: [errs] are the errors queued, each as ERR_reason_error_string() renders it ([None]: NULL);
    [al n] tells whether call number [n] of nc_realloc() succeeds (common.c: a failed one frees the old block).
    [buf]: whether reasons is not NULL.  An int counts the size: OpenSSL queues at most 16 errors (ERR_NUM_ERRORS), sums
    above INT_MAX are not modelled.  Reasons hold no zero byte. *)
Fixpoint reasons_loop (al : nat -> bool) (n : nat) (size : nat) (buf : bool) (txt : bytes) (errs : list (option bytes)) : text :=
  match errs with
  | [] => if buf then TStr txt else TNull
  | e :: rest =>
      let step (n size : nat) (txt : bytes) :=
        match e with
        | None => TUndef
        | Some r =>
            let size := size + length r in
            if al n then
              match sprint size txt r with
              | None => TUndef
              | Some txt => reasons_loop al (S n) size true txt rest
              end
            else TNull
        end in
      match txt with
      | [] => step n size txt
      | _ =>
          let size := size + 2 in
          if al n then
            match sprint size txt (bs "; ") with
            | None => TUndef
            | Some txt => step (S n) size txt
            end
          else TNull
      end
  end.

(** 913-936. *)
Definition get_err_reasons (al : nat -> bool) (errs : list (option bytes)) : text :=
  reasons_loop al 0 1 false [] errs.
