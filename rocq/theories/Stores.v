(** Where the keys and certificates come from: the unions of src/session_p.h 172-273 and the functions of src/server_config.c which write them. *)
From Coq Require Import String NArith Bool Lia Arith List.
From Verif Require Import Endpts.
Import ListNotations.
Local Open Scope string_scope.
Local Open Scope list_scope.

(* ------------------------------------------------------------------ *)
(** ** The public keys of a user and the certificates of TLS clients *)

(** session_p.h 49-54 NC_STORE_TYPE; NC_STORE_KEYSTORE is not used for these two. *)
Inductive store := SLocal | SKeystore | STruststore | SSystem.

(** session_p.h 126-130 [struct nc_public_key] and 89-92 [struct nc_certificate].  The strings owned by an entry are a block
    with the number [n_id]; the type of a key is left out. *)
Record ent := mkEnt { n_id : nat; n_name : string; n_data : option string }.

(** A slot of an array holds an entry, or bytes which are not one (the text that was in the memory before realloc()). *)
Inductive slot := SJunk | SEnt (e : ent).

(** A block of the heap: freed, a string, or an array. *)
Inductive blk := BFree | BStr (s : string) | BArr (l : list slot).
Inductive ptr := PNull | PBlk (b : nat).

(** session_p.h 172-187 (from [store] to [ts_ref]) and 222-232.  [g_ptr] is the memory shared by [pubkeys] (or [certs]) and [ts_ref]. *)
Record grp := mkG { g_store : store; g_ptr : ptr; g_cnt : nat }.

(** The structure, the heap, the number of entries made and the entries freed. *)
Record gst := mkGst { g_grp : grp; g_heap : list blk; g_next : nat; g_freed : list nat }.

(** The structure is in memory from calloc() or nc_server_config_realloc(). *)
Definition gst0 := mkGst (mkG SLocal PNull 0) [] 0 [].

(** A handler succeeds, fails, or does something undefined. *)
Inductive out := Done (s : gst) | Fail (s : gst) | UB.

Definition set_grp (s : gst) (g : grp) := mkGst g (g_heap s) (g_next s) (g_freed s).

(** free() *)
Definition free_blk (h : list blk) (p : ptr) : option (list blk) :=
  match p with
  | PNull => Some h
  | PBlk b => match nth_error h b with None => None | Some BFree => None | Some _ => Some (upd h b BFree) end
  end.

(** A read of pubkeys[i], with the strings of the entry. *)
Definition read_ent (s : gst) (i : nat) : option ent :=
  match g_ptr (g_grp s) with
  | PNull => None
  | PBlk b => match nth_error (g_heap s) b with
              | Some (BArr l) => match nth_error l i with
                                 | Some (SEnt e) => if existsb (Nat.eqb (n_id e)) (g_freed s) then None else Some e
                                 | _ => None
                                 end
              | _ => None
              end
  end.

(** A write to pubkeys[i]. *)
Definition write_slot (s : gst) (i : nat) (x : slot) : option gst :=
  match g_ptr (g_grp s) with
  | PNull => None
  | PBlk b => match nth_error (g_heap s) b with
              | Some (BArr l) => if Nat.ltb i (length l) then Some (mkGst (g_grp s) (upd (g_heap s) b (BArr (upd l i x))) (g_next s) (g_freed s)) else None
              | _ => None
              end
  end.

(** Lines 311-340 [nc_server_config_get_pubkey] and 366-417 [nc_server_config_get_cert], the loops; [n]: the entries left. *)
Inductive found := FAt (i : nat) (e : ent) | FNot | FUB.
Fixpoint find_from (s : gst) (name : string) (i n : nat) : found :=
  match n with
  | O => FNot
  | S n' => match read_ent s i with
            | None => FUB
            | Some e => if String.eqb (n_name e) name then FAt i e else find_from s name (S i) n'
            end
  end.
Definition get_ent (s : gst) (name : string) : found := find_from s name 0 (g_cnt (g_grp s)).

(** realloc(): the old contents up to the smaller of the sizes, in a new block.  A string that becomes an array leaves junk.
    An allocation does not fail. *)
Definition resize (l : list slot) (n : nat) : list slot := firstn n l ++ repeat SJunk (n - length l).
Definition realloc (h : list blk) (p : ptr) (n : nat) : option (list blk * list slot) :=
  match p with
  | PNull => Some (h, repeat SJunk n)
  | PBlk b => match nth_error h b with
              | None => None
              | Some BFree => None
              | Some (BStr _) => Some (upd h b BFree, repeat SJunk n)
              | Some (BArr l) => Some (upd h b BFree, resize l n)
              end
  end.

(** Lines 538-562 [nc_server_config_realloc].  The count is 16 bits wide; one more than 65535 makes it 0, and the name is then
    written before the array. *)
Definition add_ent (s : gst) (name : string) : out :=
  let g := g_grp s in
  if N.leb 65535 (N.of_nat (g_cnt g)) then UB
  else match realloc (g_heap s) (g_ptr g) (S (g_cnt g)) with
       | None => UB
       | Some (h, l) =>
         let e := mkEnt (g_next s) name None in
         Done (mkGst (mkG (g_store g) (PBlk (length h)) (S (g_cnt g))) (h ++ [BArr (upd l (g_cnt g) (SEnt e))]) (S (g_next s)) (g_freed s))
       end.

(** Lines 588-602 [nc_server_config_del_auth_client_pubkey] and 740-754 [nc_server_config_del_cert], for the entry at [i]. *)
Definition del_at (s : gst) (i : nat) : option gst :=
  let g := g_grp s in
  match read_ent s i with
  | None => None
  | Some e =>
    let fr := n_id e :: g_freed s in
    let c := g_cnt g - 1 in
    if Nat.eqb c 0 then
      match free_blk (g_heap s) (g_ptr g) with
      | None => None
      | Some h => Some (mkGst (mkG (g_store g) PNull 0) h (g_next s) fr)
      end
    else
      let s1 := mkGst (mkG (g_store g) (g_ptr g) c) (g_heap s) (g_next s) fr in
      if Nat.eqb i c then Some s1
      else match g_ptr g with
           | PNull => None
           | PBlk b => match nth_error (g_heap s) b with
                       | Some (BArr l) => match nth_error l c with None => None | Some x => write_slot s1 i x end
                       | _ => None
                       end
           end
  end.

Definition del_ent (s : gst) (name : string) : out :=
  match get_ent s name with
  | FUB => UB
  | FNot => Fail s
  | FAt i _ => match del_at s i with None => UB | Some s' => Done s' end
  end.

(** Lines 1812-1819, 1903-1925 (leaf public-key) and 2883-2932 (leaf cert-data): free() and strdup(), or NULL. *)
Definition set_data (s : gst) (name : string) (d : option string) : out :=
  match get_ent s name with
  | FUB => UB
  | FNot => Fail s
  | FAt i e => match write_slot s i (SEnt (mkEnt (n_id e) (n_name e) d)) with None => UB | Some s' => Done s' end
  end.

(** Lines 2223-2237 and 2251-2262, [nc_server_config_truststore_reference]. *)
Definition ref_set (s : gst) (r : string) : out :=
  match free_blk (g_heap s) (g_ptr (g_grp s)) with
  | None => UB
  | Some h => Done (mkGst (mkG STruststore (PBlk (length h)) (g_cnt (g_grp s))) (h ++ [BStr r]) (g_next s) (g_freed s))
  end.
Definition ref_del (s : gst) : out :=
  match free_blk (g_heap s) (g_ptr (g_grp s)) with
  | None => UB
  | Some h => Done (mkGst (mkG (g_store (g_grp s)) PNull (g_cnt (g_grp s))) h (g_next s) (g_freed s))
  end.

(** Lines 604-618 [nc_server_config_del_auth_client_pubkeys]: the entry at [i] is deleted with the function for one entry, while
    the array gets shorter.  [n]: the rounds left. *)
Fixpoint del_keys_from (s : gst) (i n : nat) : option gst :=
  match n with
  | O => Some s
  | S n' => match del_at s i with None => None | Some s' => del_keys_from s' (S i) n' end
  end.
Definition user_clear (s : gst) : out :=
  match g_store (g_grp s) with
  | SLocal => match del_keys_from s 0 (g_cnt (g_grp s)) with None => UB | Some s' => Done s' end
  | STruststore => ref_del s
  | _ => Done s
  end.

(** Lines 756-776 [nc_server_config_del_certs]. *)
Fixpoint free_ents (s : gst) (i n : nat) : option gst :=
  match n with
  | O => Some s
  | S n' => match read_ent s i with
            | None => None
            | Some e => free_ents (mkGst (g_grp s) (g_heap s) (g_next s) (n_id e :: g_freed s)) (S i) n'
            end
  end.
Definition cert_clear (s : gst) : out :=
  let g := g_grp s in
  match g_store g with
  | SLocal =>
    match free_ents s 0 (g_cnt g) with
    | None => UB
    | Some s1 => match free_blk (g_heap s1) (g_ptr g) with
                 | None => UB
                 | Some h => Done (mkGst (mkG SLocal PNull 0) h (g_next s1) (g_freed s1))
                 end
    end
  | STruststore =>
    match free_blk (g_heap s) (g_ptr g) with
    | None => UB
    | Some h => Done (mkGst (mkG SLocal PNull (g_cnt g)) h (g_next s) (g_freed s))
    end
  | _ => Done (set_grp s (mkG SLocal (g_ptr g) (g_cnt g)))
  end.

(** A node of the difference of two configurations, below "public-keys" of a user, or below "ca-certs" or "ee-certs". *)
Inductive cop :=
| KCreate (n : string)                      (* create of a list entry *)
| KData (n : string) (d : option string)    (* its leaf with the key or certificate; [None]: delete *)
| KDel (n : string)                         (* delete of a list entry *)
| RSet (r : string)                         (* create or replace of central-truststore-reference *)
| RDel                                      (* its delete *)
| SysSet | SysDel                           (* create and delete of use-system-keys *)
| Clear.                                    (* delete of the container *)

(** Lines 1879-1925, 2206-2339: the handlers of a user. *)
Definition user_op (s : gst) (o : cop) : out :=
  match o with
  | KCreate n => add_ent (set_grp s (mkG SLocal (g_ptr (g_grp s)) (g_cnt (g_grp s)))) n
  | KData n d => set_data s n d
  | KDel n => del_ent s n
  | RSet r => ref_set s r
  | RDel => ref_del s
  | SysSet => Done (set_grp s (mkG SSystem (g_ptr (g_grp s)) (g_cnt (g_grp s))))
  | SysDel => Done s
  | Clear => user_clear s
  end.

(** Lines 2883-2932, 3011-3176, 2239-2262: the handlers of a group of certificates.  There is no use-system-keys. *)
Definition cert_op (s : gst) (o : cop) : out :=
  match o with
  | KCreate n => add_ent s n
  | KData n d => set_data s n d
  | KDel n => del_ent s n
  | RSet r => ref_set s r
  | RDel => ref_del s
  | SysSet | SysDel => Done s
  | Clear => cert_clear s
  end.

(** Lines 4203-4209: the nodes in their order, to the first failure. *)
Fixpoint run (f : gst -> cop -> out) (s : gst) (l : list cop) : out :=
  match l with
  | [] => Done s
  | o :: r => match f s o with Done s' => run f s' r | x => x end
  end.

(** What is used to authenticate: these entries; the bag with this name; the keys of the system; nothing (the method is not
    offered or no certificate is trusted); the authentication fails; undefined behaviour. *)
Inductive use := UKeys (l : list (string * option string)) | URef (r : string) | USys | UOff | UFail | UUndef.

Fixpoint read_all (s : gst) (i n : nat) : option (list (string * option string)) :=
  match n with
  | O => Some []
  | S n' => match read_ent s i, read_all s (S i) n' with
            | Some e, Some l => Some ((n_name e, n_data e) :: l)
            | _, _ => None
            end
  end.

(** session_server_ssh.c 167-200, session_server_tls.c 68-98: strcmp() with the name of each bag, when there is one ([bags]).  An
    array read as a string is some bytes which are not a name: no bag is found. *)
Definition use_ref (s : gst) (bags : bool) : use :=
  match g_ptr (g_grp s) with
  | PNull => if bags then UUndef else UFail
  | PBlk b => match nth_error (g_heap s) b with
              | Some (BStr r) => URef r
              | Some (BArr _) => UFail
              | _ => if bags then UUndef else UFail
              end
  end.
Definition use_local (s : gst) : use :=
  match g_cnt (g_grp s) with
  | O => UOff
  | S _ => match read_all s 0 (g_cnt (g_grp s)) with Some l => UKeys l | None => UUndef end
  end.

(** session_server_ssh.c 1492-1500 (the method is offered) and 1253-1271 [nc_server_ssh_auth_pubkey]. *)
Definition user_use (s : gst) (bags : bool) : use :=
  match g_store (g_grp s) with
  | SLocal => use_local s
  | STruststore => use_ref s bags
  | SSystem => USys
  | SKeystore => UFail
  end.
(** session_server_tls.c 517-535 and 715-727. *)
Definition cert_use (s : gst) (bags : bool) : use :=
  match g_store (g_grp s) with SLocal => use_local s | _ => use_ref s bags end.

(* ------------------------------------------------------------------ *)
(** ** SSH host keys and the identity of a TLS server *)

(** Eight bytes of a union: zero (NULL), a pointer, a small number whose upper half is zero, or a pointer with its lower half
    overwritten by a number. *)
Inductive word := W0 | WBlk (b : nat) | WInt | WMix.

(** The strings from strdup(); [None]: freed. *)
Definition sheap := list (option string).

Definition wfree (h : sheap) (w : word) : option sheap :=
  match w with
  | W0 => Some h
  | WBlk b => match nth_error h b with Some (Some _) => Some (upd h b None) | _ => None end
  | WInt | WMix => None
  end.

(** A string read through the word. *)
Definition wread (h : sheap) (w : word) : option string :=
  match w with WBlk b => match nth_error h b with Some (Some s) => Some s | _ => None end | _ => None end.

(** free(x); x = strdup(v), or x = NULL *)
Definition wset (h : sheap) (w : word) (v : option string) : option (sheap * word) :=
  match wfree h w with
  | None => None
  | Some h1 => match v with None => Some (h1, W0) | Some s => Some (h1 ++ [Some s], WBlk (length h1)) end
  end.

(** session_p.h 189-198 [struct nc_hostkey] with 103-113 [struct nc_asymmetric_key]: [k_ref] is ks_ref, which is the memory of
    key.name; that name is never used for host keys.  The formats of the keys are left out. *)
Record hk := mkHk { k_store : store; k_ref : word; k_pub : word; k_priv : word; k_heap : sheap }.

(** Lines 1684-1726: a new host key is in zeroed memory. *)
Definition hk0 := mkHk SLocal W0 W0 W0 [].

(** Changes below a host key: public-key, cleartext-private-key, central-keystore-reference; [None]: delete. *)
Inductive hop := HPub (v : option string) | HPriv (v : option string) | HRef (v : option string).

(** Lines 1822-1829 and 1869-1877; 2042-2050; 2078-2115.  [None]: undefined behaviour. *)
Definition hk_op (k : hk) (o : hop) : option hk :=
  match o with
  | HPub None => Some k
  | HPub (Some s) => match wset (k_heap k) (k_pub k) (Some s) with Some (h, w) => Some (mkHk SLocal (k_ref k) w (k_priv k) h) | None => None end
  | HPriv v => match wset (k_heap k) (k_priv k) v with Some (h, w) => Some (mkHk (k_store k) (k_ref k) (k_pub k) w h) | None => None end
  | HRef v => match wset (k_heap k) (k_ref k) v with
              | Some (h, w) => Some (mkHk (match v with Some _ => SKeystore | None => k_store k end) w (k_pub k) (k_priv k) h)
              | None => None
              end
  end.
Fixpoint hk_run (k : hk) (l : list hop) : option hk :=
  match l with [] => Some k | o :: r => match hk_op k o with Some k' => hk_run k' r | None => None end end.

(** Lines 566-579 [nc_server_config_del_hostkey]: the heap afterwards. *)
Definition hk_del (k : hk) : option sheap :=
  match k_store k with
  | SLocal => match wfree (k_heap k) (k_pub k) with Some h => wfree h (k_priv k) | None => None end
  | _ => wfree (k_heap k) (k_ref k)
  end.

(** session_server_ssh.c 1826-1836: the private key with this text, the key with this name of the keystore, or the use of NULL. *)
Inductive huse := HKey (s : string) | HName (r : string) | HUndef.
Definition hk_use (k : hk) : huse :=
  match k_store k with
  | SLocal => match wread (k_heap k) (k_priv k) with Some s => HKey s | None => HUndef end
  | _ => match wread (k_heap k) (k_ref k) with Some r => HName r | None => HUndef end
  end.

(** session_p.h 256-273 [struct nc_server_tls_opts] to the end of the union.  [t_w0] is pubkey_type and key_ref, [t_w1] is
    pubkey_data and cert_ref. *)
Record tid := mkT { t_store : store; t_w0 : word; t_w1 : word; t_priv : word; t_cert : word; t_heap : sheap }.
Definition tid0 := mkT SLocal W0 W0 W0 W0 [].

(** Changes below server-identity: public-key-format (0 is NC_PUBKEY_FORMAT_SSH, 1 NC_PUBKEY_FORMAT_X509), public-key,
    cleartext-private-key, cert-data; asymmetric-key and certificate of central-keystore-reference; [None]: delete. *)
Inductive top := TType (v : option bool) | TPub (v : option string) | TPriv (v : option string) | TCert (v : option string)
               | TKRef (v : option string) | TCRef (v : option string).

(** A four byte number written to the start of the word. *)
Definition wtype (w : word) (x509 : bool) : word :=
  match w with
  | W0 | WInt => if x509 then WInt else W0
  | WBlk _ | WMix => WMix
  end.

(** Lines 1785-1787; 1832-1839 and 1926-1949; 2058-2066; 2898-2907; 2934-2970; 3127-3138. *)
Definition tid_op (t : tid) (o : top) : option tid :=
  match o with
  | TType None => Some t
  | TType (Some b) => Some (mkT (t_store t) (wtype (t_w0 t) b) (t_w1 t) (t_priv t) (t_cert t) (t_heap t))
  | TPub None => Some t
  | TPub (Some s) => match wset (t_heap t) (t_w1 t) (Some s) with Some (h, w) => Some (mkT SLocal (t_w0 t) w (t_priv t) (t_cert t) h) | None => None end
  | TPriv v => match wset (t_heap t) (t_priv t) v with Some (h, w) => Some (mkT (t_store t) (t_w0 t) (t_w1 t) w (t_cert t) h) | None => None end
  | TCert None => Some t
  | TCert (Some s) => match wset (t_heap t) (t_cert t) (Some s) with Some (h, w) => Some (mkT (t_store t) (t_w0 t) (t_w1 t) (t_priv t) w h) | None => None end
  | TKRef v => match wset (t_heap t) (t_w0 t) v with
               | Some (h, w) => Some (mkT (match v with Some _ => SKeystore | None => t_store t end) w (t_w1 t) (t_priv t) (t_cert t) h)
               | None => None
               end
  | TCRef v => match wset (t_heap t) (t_w1 t) v with
               | Some (h, w) => Some (mkT (match v with Some _ => SKeystore | None => t_store t end) (t_w0 t) w (t_priv t) (t_cert t) h)
               | None => None
               end
  end.
Fixpoint tid_run (t : tid) (l : list top) : option tid :=
  match l with [] => Some t | o :: r => match tid_op t o with Some t' => tid_run t' r | None => None end end.

(** Lines 833-840, [nc_server_config_del_tls_opts]. *)
Definition tid_del (t : tid) : option sheap :=
  match t_store t with
  | SLocal => match wfree (t_heap t) (t_w1 t) with
              | Some h => match wfree h (t_priv t) with Some h' => wfree h' (t_cert t) | None => None end
              | None => None
              end
  | SKeystore => match wfree (t_heap t) (t_w0 t) with Some h => wfree h (t_w1 t) | None => None end
  | _ => Some (t_heap t)
  end.

(** session_server_tls.c 677-694: the private key and the certificate, or their names in the keystore; [TNothing]: "not configured". *)
Inductive tuse := TLocal (k c : string) | TNames (k c : string) | TNothing | TUndef.
Definition tid_use (t : tid) : tuse :=
  match t_store t with
  | SLocal => match t_priv t, t_cert t with
              | W0, _ => TNothing
              | _, W0 => TNothing
              | p, c => match wread (t_heap t) p, wread (t_heap t) c with Some a, Some b => TLocal a b | _, _ => TUndef end
              end
  | _ => match wread (t_heap t) (t_w0 t), wread (t_heap t) (t_w1 t) with Some a, Some b => TNames a b | _, _ => TUndef end
  end.
