(** The options of a client and their memory (src/session_client_tls.c 43-190, src/session_client_ssh.c 205-228, 793-807, 999-1156, 1167-1263,
    src/session_client.c 283-304, 1999-2010).  The choice of key pairs and the checks of keys are in ClientSsh. *)
From Coq Require Import Ascii String ZArith List Bool.
From Verif Require Import Bytes.
From Verif Require ClientSsh.
Import ListNotations.

(* ------------------------------------------------------------------ *)
(** ** Memory *)

(** [ssh_opts], [tls_opts] against [ssh_ch_opts], [tls_ch_opts]. *)
Inductive side := Plain | Ch.
(** Pointers to strings in the options. *)
Inductive fld := FSearch | FCert (s : side) | FKey (s : side) | FCaFile (s : side) | FCaDir (s : side) | FUser (s : side) | FKnown (s : side).
Definition side_eqb (a b : side) : bool := match a, b with Plain, Plain | Ch, Ch => true | _, _ => false end.
Definition fld_eqb (a b : fld) : bool :=
  match a, b with
  | FSearch, FSearch => true
  | FCert s, FCert t | FKey s, FKey t | FCaFile s, FCaFile t | FCaDir s, FCaDir t | FUser s, FUser t | FKnown s, FKnown t => side_eqb s t
  | _, _ => false
  end.

(** A pointer is NULL or an address. *)
Definition ptr := option nat.
(** [struct] in [keys], session_p.h 319-323; an element above [key_count] may hold anything: [None]. *)
Record key := mkKey { k_pub : ptr; k_priv : ptr; k_crypt : bool }.
Inductive block := BStr (s : bytes) | BKeys (l : list (option key)).

(** Addresses are never given out again, so that a use of released memory can be told.  [heap a] is [None]: not allocated or released. *)
Record st := mkSt { nxt : nat; heap : nat -> option block; strs : fld -> ptr; keys : side -> ptr; kcnt : side -> nat }.

Definition set_heap (s : st) h : st := mkSt (nxt s) h (strs s) (keys s) (kcnt s).
Definition upd {A} (h : nat -> A) (a : nat) (v : A) : nat -> A := fun x => if Nat.eqb x a then v else h x.
Definition set_str (s : st) f p : st := mkSt (nxt s) (heap s) (fun x => if fld_eqb x f then p else strs s x) (keys s) (kcnt s).
Definition set_keys (s : st) d p : st := mkSt (nxt s) (heap s) (strs s) (fun x => if side_eqb x d then p else keys s x) (kcnt s).
Definition set_cnt (s : st) d n : st := mkSt (nxt s) (heap s) (strs s) (keys s) (fun x => if side_eqb x d then n else kcnt s x).

(** free(); [None]: undefined (released twice). *)
Definition free (p : ptr) (s : st) : option st :=
  match p with
  | None => Some s
  | Some a => match heap s a with None => None | Some _ => Some (set_heap s (upd (heap s) a None)) end
  end.
Definition alloc (b : block) (s : st) : nat * st :=
  (nxt s, mkSt (S (nxt s)) (upd (heap s) (nxt s) (Some b)) (strs s) (keys s) (kcnt s)).
(** strdup(); [ok]: there is memory. *)
Definition strdup (ok : bool) (x : bytes) (s : st) : ptr * st :=
  if ok then let '(a, s) := alloc (BStr x) s in (Some a, s) else (None, s).
(** Reading the string at a pointer; [None]: undefined. *)
Definition str_at (p : ptr) (s : st) : option bytes :=
  match p with Some a => match heap s a with Some (BStr x) => Some x | _ => None end | None => None end.
(** [opts->keys[i]]; [None]: undefined. *)
Definition key_at (d : side) (i : nat) (s : st) : option key :=
  match keys s d with
  | Some a => match heap s a with Some (BKeys l) => match nth_error l i with Some (Some k) => Some k | _ => None end | _ => None end
  | None => None
  end.
(** [opts->keys[i] = k]. *)
Definition set_key (d : side) (i : nat) (k : key) (s : st) : option st :=
  match keys s d with
  | Some a => match heap s a with
              | Some (BKeys l) => if Nat.ltb i (length l)
                                  then Some (set_heap s (upd (heap s) a (Some (BKeys (firstn i l ++ Some k :: skipn (S i) l)))))
                                  else None
              | _ => None
              end
  | None => None
  end.
(** nc_realloc (io.c 1084-1095) of [opts->keys] to [n] elements; the block always moves; the old one is released on failure as well. *)
Definition realloc_keys (ok : bool) (d : side) (n : nat) (s : st) : option st :=
  let old := match keys s d with Some a => match heap s a with Some (BKeys l) => l | _ => [] end | None => [] end in
  match free (keys s d) s with
  | None => None
  | Some s =>
    if ok then let '(a, s) := alloc (BKeys (firstn n (old ++ repeat None n))) s in Some (set_keys s d (Some a))
    else Some (set_keys s d None)
  end.

(* ------------------------------------------------------------------ *)
(** ** The functions; the result is the value returned and the new state, or [None]: undefined *)

(** nc_client_set_schema_searchpath (session_client.c 283-298), _nc_client_ssh_set_knownhosts_path (session_client_ssh.c 793-807),
    _nc_client_ssh_set_username (1221-1238); [e]: what is returned when there is no memory. *)
Definition set_one (e : Z) (f : fld) (ok : bool) (x : option bytes) (s : st) : option (Z * st) :=
  match free (strs s f) s with
  | None => None
  | Some s =>
    match x with
    | None => Some (0%Z, set_str s f None)
    | Some x => let '(p, s) := strdup ok x s in Some (match p with None => e | Some _ => 0%Z end, set_str s f p)
    end
  end.

(** _nc_client_tls_set_cert_key_paths, session_client_tls.c 61-81. *)
Definition set_cert (d : side) (ok1 ok2 : bool) (c k : option bytes) (s : st) : option (Z * st) :=
  match c with
  | None => Some ((-1)%Z, s)
  | Some c =>
    match free (strs s (FCert d)) s with
    | None => None
    | Some s =>
      match free (strs s (FKey d)) s with
      | None => None
      | Some s =>
        let '(p, s) := strdup ok1 c s in
        let s := set_str s (FCert d) p in
        match p with
        | None => Some ((-1)%Z, s)
        | Some _ =>
          match k with
          | None => Some (0%Z, set_str s (FKey d) None)
          | Some k => let '(q, s) := strdup ok2 k s in Some (match q with None => (-1)%Z | Some _ => 0%Z end, set_str s (FKey d) q)
          end
        end
      end
    end
  end.

(** _nc_client_tls_set_trusted_ca_paths, lines 121-148. *)
Definition set_ca (d : side) (ok1 ok2 : bool) (c k : option bytes) (s : st) : option (Z * st) :=
  match c, k with
  | None, None => Some ((-1)%Z, s)
  | _, _ =>
    match free (strs s (FCaFile d)) s with
    | None => None
    | Some s =>
      match free (strs s (FCaDir d)) s with
      | None => None
      | Some s =>
        let '(p, s) := match c with None => (None, s) | Some c => strdup ok1 c s end in
        let s := set_str s (FCaFile d) p in
        match c, p with
        | Some _, None => Some ((-1)%Z, s)
        | _, _ =>
          match k with
          | None => Some (0%Z, set_str s (FCaDir d) None)
          | Some k => let '(q, s) := strdup ok2 k s in Some (match q with None => (-1)%Z | Some _ => 0%Z end, set_str s (FCaDir d) q)
          end
        end
      end
    end
  end.

(** The loop of _nc_client_ssh_add_keypair, session_client_ssh.c 1008-1023: is the pair there?  [n] elements from [i]. *)
Fixpoint search (d : side) (pu pr : bytes) (i n : nat) (s : st) : option bool :=
  match n with
  | O => Some false
  | S n =>
    match key_at d i s with
    | None => None
    | Some k =>
      match str_at (k_pub k) s, str_at (k_priv k) s with
      | Some a, Some b => if beqb a pu && beqb b pr then Some true else search d pu pr (S i) n s
      | _, _ => None
      end
    end
  end.

(** _nc_client_ssh_add_keypair, lines 999-1065; [ok]: there is memory for the table; [real]: realpath(), [None] also without memory; [file]: the
    content of a file that can be opened.  The element is written once both paths are known; until [key_count] is increased nobody reads it. *)
Definition add_keypair (d : side) (ok : bool) (real file : bytes -> option bytes) (pu pr : option bytes) (s : st) : option (Z * st) :=
  match pu, pr with
  | Some pu, Some pr =>
    match search d pu pr 0 (kcnt s d) s with
    | None => None
    | Some true => Some ((-1)%Z, s)
    | Some false =>
      match realloc_keys ok d (S (kcnt s d)) s with
      | None => None
      | Some s =>
        if negb ok then Some ((-1)%Z, s)
        else
          match real pu with
          | None => Some ((-1)%Z, s)
          | Some pu =>
            let '(a, s) := alloc (BStr pu) s in
            match real pr with
            | None => match free (Some a) s with None => None | Some s => Some ((-1)%Z, s) end
            | Some pr =>
              let '(b, s) := alloc (BStr pr) s in
              let '(r, c) := match file pr with
                             | None => (0%Z, false)
                             | Some content => match ClientSsh.encrypted content with None => ((-1)%Z, false) | Some c => (0%Z, c) end
                             end in
              match set_key d (kcnt s d) (mkKey (Some a) (Some b) c) s with
              | None => None
              | Some s => Some (r, set_cnt s d (S (kcnt s d)))
              end
            end
          end
      end
    end
  | _, _ => Some ((-1)%Z, s)
  end.

(** _nc_client_ssh_del_keypair, lines 1079-1103; a negative index reads before the table. *)
Definition del_keypair (d : side) (ok : bool) (idx : Z) (s : st) : option (Z * st) :=
  if (Z.of_nat (kcnt s d) <=? idx)%Z then Some ((-1)%Z, s)
  else if (idx <? 0)%Z then None
  else
    let i := Z.to_nat idx in
    match key_at d i s with
    | None => None
    | Some k =>
      match free (k_pub k) s with
      | None => None
      | Some s =>
        match free (k_priv k) s with
        | None => None
        | Some s =>
          let n := pred (kcnt s d) in
          let s := set_cnt s d n in
          match (if Nat.ltb i n then match key_at d n s with None => None | Some l => set_key d i l s end else Some s) with
          | None => None
          | Some s =>
            match n with
            | O => match free (keys s d) s with None => None | Some s => Some (0%Z, set_keys s d None) end
            | S _ => match realloc_keys ok d n s with
                     | None => None
                     | Some s => Some (if ok then 0%Z else (-1)%Z, s)
                     end
            end
          end
        end
      end
    end.

(** Lines 210-213. *)
Fixpoint free_pairs (d : side) (i n : nat) (s : st) : option st :=
  match n with
  | O => Some s
  | S n =>
    match key_at d i s with
    | None => None
    | Some k =>
      match free (k_pub k) s with
      | None => None
      | Some s => match free (k_priv k) s with None => None | Some s => free_pairs d (S i) n s end
      end
    end
  end.
Definition clear (f : fld) (s : st) : option st := match free (strs s f) s with None => None | Some s => Some (set_str s f None) end.
Definition bind (x : option st) (f : st -> option st) : option st := match x with None => None | Some s => f s end.
(** _nc_client_ssh_destroy_opts, lines 205-221; each pointer is made NULL when it is released, not at the end. *)
Definition ssh_destroy (d : side) (s : st) : option st :=
  bind (free_pairs d 0 (kcnt s d) s) (fun s =>
  bind (free (keys s d) s) (fun s =>
  bind (clear (FUser d) (set_keys (set_cnt s d 0) d None)) (fun s => clear (FKnown d) s))).
(** _nc_client_tls_destroy_opts, session_client_tls.c 43-51. *)
Definition tls_destroy (d : side) (s : st) : option st :=
  bind (clear (FCert d) s) (fun s => bind (clear (FKey d) s) (fun s => bind (clear (FCaFile d) s) (fun s => clear (FCaDir d) s))).
(** nc_client_destroy (session_client.c 1999-2010); the same for a thread in nc_client_context_free (lines 108-131).  Without the sockets
    listened on, the lock and libssh. *)
Definition destroy (s : st) : option st :=
  bind (clear FSearch s) (fun s => bind (ssh_destroy Plain s) (fun s => bind (ssh_destroy Ch s) (fun s =>
  bind (tls_destroy Plain s) (fun s => tls_destroy Ch s)))).

(** The getters, session_client_tls.c 95-107, 162-174, session_client_ssh.c 1252-1256, session_client.c 300-304: the caller reads the string. *)
Definition get_one (f : fld) (s : st) : option (option bytes) :=
  match strs s f with None => Some None | Some a => match str_at (Some a) s with None => None | Some x => Some (Some x) end end.
(** _nc_client_ssh_get_keypair with both outputs, lines 1135-1154. *)
Definition get_keypair (d : side) (idx : Z) (s : st) : option (option (bytes * bytes)) :=
  if (Z.of_nat (kcnt s d) <=? idx)%Z then Some None
  else if (idx <? 0)%Z then None
  else match key_at d (Z.to_nat idx) s with
       | None => None
       | Some k => match str_at (k_pub k) s, str_at (k_priv k) s with Some a, Some b => Some (Some (a, b)) | _, _ => None end
       end.

(* ------------------------------------------------------------------ *)
(** ** Calls in a sequence *)

Inductive call :=
| Search (ok : bool) (x : option bytes)
| Known (d : side) (ok : bool) (x : option bytes)
| User (d : side) (ok : bool) (x : option bytes)
| Cert (d : side) (ok1 ok2 : bool) (c k : option bytes)
| Ca (d : side) (ok1 ok2 : bool) (c k : option bytes)
| AddKey (d : side) (ok : bool) (real file : bytes -> option bytes) (pu pr : option bytes)
| DelKey (d : side) (ok : bool) (idx : Z)
| Get (f : fld)
| GetKey (d : side) (idx : Z)
| Count (d : side)
| Destroy.
Inductive res := RInt (z : Z) | RStr (x : option bytes) | RKeys (x : option (bytes * bytes)) | RVoid.

Definition ret (x : option (Z * st)) : option (res * st) := match x with None => None | Some (z, s) => Some (RInt z, s) end.
Definition step (c : call) (s : st) : option (res * st) :=
  match c with
  | Search ok x => ret (set_one 1 FSearch ok x s)
  | Known d ok x => ret (set_one 1 (FKnown d) ok x s)
  | User d ok x => ret (set_one (-1) (FUser d) ok x s)
  | Cert d a b c k => ret (set_cert d a b c k s)
  | Ca d a b c k => ret (set_ca d a b c k s)
  | AddKey d ok real file pu pr => ret (add_keypair d ok real file pu pr s)
  | DelKey d ok idx => ret (del_keypair d ok idx s)
  | Get f => match get_one f s with None => None | Some x => Some (RStr x, s) end
  | GetKey d idx => match get_keypair d idx s with None => None | Some x => Some (RKeys x, s) end
  | Count d => Some (RInt (Z.of_nat (kcnt s d)), s)
  | Destroy => match destroy s with None => None | Some s => Some (RVoid, s) end
  end.
Fixpoint run (cs : list call) (s : st) : option (list res * st) :=
  match cs with
  | [] => Some ([], s)
  | c :: cs => match step c s with
               | None => None
               | Some (r, s) => match run cs s with None => None | Some (rs, s) => Some (r :: rs, s) end
               end
  end.
(** Nothing set, session_client.c 68-93, 155-186. *)
Definition init : st := mkSt 0 (fun _ => None) (fun _ => None) (fun _ => None) (fun _ => 0).

(** The preferences of the methods at start, lines 77, 84, 170-175. *)
Definition default_pref (m : ClientSsh.meth) : Z :=
  match m with ClientSsh.Interactive => 1 | ClientSsh.Password => 2 | ClientSsh.PublicKey => 3 end%Z.
