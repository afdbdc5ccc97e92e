(** Configuration of the keystore and of the truststore: src/server_config_ks.c, src/server_config_ts.c, with
    src/server_config.c 519-562, 460-475, 4143-4212 and the parts of 4368-4502 about them.
    Nodes, operations and positions in the tree are those of ChConf. *)
From Coq Require Import String List Arith Bool NArith ZArith.
From Verif Require Import Bytes ChConf.
Import ListNotations.
Local Open Scope list_scope.

(* ------------------------------------------------------------------ *)
(** ** Memory *)

(** An array allocated with nc_server_config_realloc(): the entries that are in memory, and the count; NULL is
    the array without entries.  Entries after the count are left over from deletions. *)
Record arr (A : Type) := mkA { slots : list A; cnt : nat }.
Arguments mkA {A}. Arguments slots {A}. Arguments cnt {A}.
Definition null {A} : arr A := mkA [] 0.
Definition live {A} (a : arr A) : list A := firstn (cnt a) (slots a).

(** session_p.h 88-96, 101-113, 127-170: a certificate or a public key of a bag ([i_type] is its type), and a key
    of the keystore or a bag (of which [o_pub] ... are unused).  [i_id], [o_id] stand for the blocks of memory
    the entry owns, the name and the data; [None] is NULL. *)
Record inner := mkI { i_id : nat; i_name : bytes; i_type : nat; i_data : option bytes }.
Record outer := mkO { o_id : nat; o_name : bytes; o_ptype : nat; o_pub : option bytes; o_vtype : nat; o_priv : option bytes;
                      o_items : arr inner }.

(** The three arrays server_opts.keystore.asym_keys, server_opts.truststore.cert_bags and pub_bags; what was
    freed; the number of entries ever made. *)
Inductive kind := Keys | CertBags | KeyBags.
Record st := mkS { keys : arr outer; cbags : arr outer; kbags : arr outer; freed : list nat; made : nat }.
Definition sel (k : kind) (s : st) : arr outer := match k with Keys => keys s | CertBags => cbags s | KeyBags => kbags s end.
Definition put (k : kind) (a : arr outer) (f : list nat) (m : nat) (s : st) : st :=
  match k with
  | Keys => mkS a (cbags s) (kbags s) f m
  | CertBags => mkS (keys s) a (kbags s) f m
  | KeyBags => mkS (keys s) (cbags s) a f m
  end.
Definition init : st := mkS null null null [] 0.

(** Success, return code 1, or undefined behaviour, with the state reached. *)
Inductive res := ROk (s : st) | RFail (s : st) | RUb (s : st).

(** free() of the blocks of an entry; [None]: they were freed before. *)
Definition free_id (i : nat) (f : list nat) : option (list nat) :=
  if existsb (Nat.eqb i) f then None else Some (i :: f).
Definition free_inner (x : inner) (f : list nat) : option (list nat) := free_id (i_id x) f.

(** server_config.c 538-562 [nc_server_config_realloc]; the count is 16 bits wide, one more than 65535 makes it 0
    and the name is written before the array.  Allocation does not fail. *)
Definition add {A} (x : A) (a : arr A) : option (arr A) :=
  if N.leb 65535 (N.of_nat (cnt a)) then None else Some (mkA (live a ++ [x]) (S (cnt a))).

(** server_config_ks.c 126-138, 152-161, server_config_ts.c 223-235, 238-250, 264-271, 286-293: deletion of the entry at
    [i], whose blocks are freed by [fr]; the array is not made shorter. *)
Definition set_at {A} (l : list A) (i : nat) (x : A) : list A := upd l i (fun _ => x).
Definition del_at {A} (fr : A -> list nat -> option (list nat)) (a : arr A) (i : nat) (f : list nat)
  : option (arr A * list nat) :=
  match nth_error (slots a) i with
  | None => None
  | Some x =>
      match fr x f with
      | None => None
      | Some f1 =>
          let c := cnt a - 1 in
          if Nat.eqb c 0 then Some (null, f1)
          else if Nat.eqb i c then Some (mkA (slots a) c, f1)
          else match nth_error (slots a) c with
               | None => None
               | Some y => Some (mkA (set_at (slots a) i y) c, f1)
               end
      end
  end.
(** server_config_ks.c 147-150, 172-177, server_config_ts.c 259-262, 281-284, 305-309, 321-326: the entries at [i], [i+1], ... are
    deleted one by one, [n] of them, while the array changes. *)
Fixpoint del_loop {A} (fr : A -> list nat -> option (list nat)) (a : arr A) (i n : nat) (f : list nat)
  : option (arr A * list nat) :=
  match n with
  | O => Some (a, f)
  | S n' => match del_at fr a i f with None => None | Some (a1, f1) => del_loop fr a1 (S i) n' f1 end
  end.
(** server_config_ks.c 141-150, server_config_ts.c 253-262, 275-284: what a key or bag owns. *)
Definition free_outer (x : outer) (f : list nat) : option (list nat) :=
  match free_id (o_id x) f with
  | None => None
  | Some f1 => option_map snd (del_loop free_inner (o_items x) 0 (cnt (o_items x)) f1)
  end.

(** server_config_ks.c 62-70, 111-119, server_config_ts.c 62-70, 111-119, 155-163, 208-216: the entry with a name. *)
Fixpoint find_at {A} (nm : A -> bytes) (l : list A) (n : bytes) : option (nat * A) :=
  match l with
  | [] => None
  | x :: r => if beqb (nm x) n then Some (0, x) else option_map (fun p => (S (fst p), snd p)) (find_at nm r n)
  end.

(* ------------------------------------------------------------------ *)
(** ** Handlers *)

(** The names of the lists. *)
Definition outer_node (k : kind) : bytes :=
  match k with Keys => bs "asymmetric-key" | CertBags => bs "certificate-bag" | KeyBags => bs "public-key-bag" end.
Definition inner_node (k : kind) : bytes := match k with KeyBags => bs "public-key" | _ => bs "certificate" end.

(** server_config_ks.c 48-61, server_config_ts.c 48-61, 141-154: the nearest node of that name upwards; its first child is
    taken for the key (an assert, which is an error here). *)
Definition key_of (d : dnode) : option bytes :=
  match d_kids d with k :: _ => if beqb (d_name k) (bs "name") then Some (d_str k) else None | [] => None end.
Fixpoint climb (test : dnode -> bool) (p : list dnode) : option dnode :=
  match p with [] => None | d :: r => if test d then Some d else climb test r end.
Definition outer_key (k : kind) (p : list dnode) : option bytes :=
  match climb (fun d => beqb (d_name d) (outer_node k)) p with None => None | Some d => key_of d end.
(** server_config_ks.c 97-110, server_config_ts.c 97-110, 190-207: for a public key only nodes with children count. *)
Definition inner_key (k : kind) (p : list dnode) : option bytes :=
  match climb (fun d => beqb (d_name d) (inner_node k) &&
                        match k with KeyBags => match d_kids d with [] => false | _ => true end | _ => true end) p with
  | None => None
  | Some d => key_of d
  end.

(** Work on the key or bag, and on the certificate or public key, a node is in. *)
Definition with_outer (k : kind) (p : list dnode) (s : st) (g : nat -> outer -> res) : res :=
  match outer_key k p with
  | None => RFail s
  | Some n => match find_at o_name (live (sel k s)) n with None => RFail s | Some (i, x) => g i x end
  end.
Definition with_inner (k : kind) (p : list dnode) (s : st) (g : nat -> outer -> nat -> inner -> res) : res :=
  with_outer k p s (fun i x =>
    match inner_key k p with
    | None => RFail s
    | Some n => match find_at i_name (live (o_items x)) n with None => RFail s | Some (j, y) => g i x j y end
    end).
Definition wr_outer (k : kind) (s : st) (i : nat) (x : outer) (f : list nat) (m : nat) : st :=
  put k (mkA (set_at (slots (sel k s)) i x) (cnt (sel k s))) f m s.
Definition set_items (x : outer) (a : arr inner) : outer :=
  mkO (o_id x) (o_name x) (o_ptype x) (o_pub x) (o_vtype x) (o_priv x) a.
Definition wr_inner (k : kind) (s : st) (i : nat) (x : outer) (j : nat) (y : inner) : st :=
  wr_outer k s i (set_items x (mkA (set_at (slots (o_items x)) j y) (cnt (o_items x)))) (freed s) (made s).

(** server_config_ks.c 164-180, server_config_ts.c 296-330: on deletion all. *)
Definition h_all (k : kind) (o : op) (s : st) : res :=
  match o with
  | ODelete => match del_loop free_outer (sel k s) 0 (cnt (sel k s)) (freed s) with
               | None => RUb s
               | Some (a, f) => ROk (put k a f (made s) s)
               end
  | _ => ROk s
  end.
(** server_config_ts.c 332-343 [nc_server_config_ts_truststore]. *)
Definition h_truststore (o : op) (s : st) : res :=
  match h_all CertBags o s with ROk s1 => h_all KeyBags o s1 | x => x end.

(** server_config_ks.c 194-226, server_config_ts.c 345-376, 437-468: a key or a bag. *)
Definition new_outer (id : nat) (n : bytes) : outer := mkO id n 0 None 0 None null.
Definition h_outer (k : kind) (p : list dnode) (o : op) (s : st) : res :=
  if setting o then
    match p with
    | d :: _ => match key_of d with
                | None => RFail s
                | Some n => match add (new_outer (made s) n) (sel k s) with
                            | None => RUb s
                            | Some a => ROk (put k a (freed s) (S (made s)) s)
                            end
                end
    | [] => RFail s
    end
  else with_outer k p s (fun i x =>
         match del_at free_outer (sel k s) i (freed s) with
         | None => RUb s
         | Some (a, f) => ROk (put k a f (made s) s)
         end).

(** server_config_ks.c 326-361, server_config_ts.c 378-415, 470-512: a certificate or a public key of a bag. *)
Definition h_inner (k : kind) (p : list dnode) (o : op) (s : st) : res :=
  if setting o then
    with_outer k p s (fun i x =>
      match p with
      | d :: _ => match key_of d with
                  | None => RFail s
                  | Some n => match add (mkI (made s) n 0 None) (o_items x) with
                              | None => RUb s
                              | Some a => ROk (wr_outer k s i (set_items x a) (freed s) (S (made s)))
                              end
                  end
      | [] => RFail s
      end)
  else with_inner k p s (fun i x j y =>
         match del_at free_inner (o_items x) j (freed s) with
         | None => RUb s
         | Some (a, f) => ROk (wr_outer k s i (set_items x a) f (made s))
         end).

(** server_config_ks.c 363-382, server_config_ts.c 417-435: cert-data, nothing on deletion. *)
Definition h_cert_data (k : kind) (p : list dnode) (o : op) (s : st) : res :=
  if setting o then
    match p with
    | d :: _ => with_inner k p s (fun i x j y => ROk (wr_inner k s i x j (mkI (i_id y) (i_name y) (i_type y) (Some (d_str d)))))
    | [] => RFail s
    end
  else ROk s.

(** server_config_ks.c 228-252, server_config_ts.c 514-538: NC_PUBKEY_FORMAT_SSH is 1 and NC_PUBKEY_FORMAT_X509 is 2 here; an
    unknown format changes nothing. *)
Definition pub_type (v : bytes) (old : nat) : nat :=
  if beqb v (bs "ssh-public-key-format") then 1
  else if beqb v (bs "subject-public-key-info-format") then 2
  else old.
Definition h_pub_format (p : list dnode) (s : st) : res :=
  match p with
  | d :: _ => with_outer Keys p s (fun i x =>
      ROk (wr_outer Keys s i (mkO (o_id x) (o_name x) (pub_type (d_str d) (o_ptype x)) (o_pub x) (o_vtype x) (o_priv x) (o_items x)) (freed s) (made s)))
  | [] => RFail s
  end.
Definition h_bag_format (p : list dnode) (s : st) : res :=
  match p with
  | d :: _ => with_inner KeyBags p s (fun i x j y =>
      ROk (wr_inner KeyBags s i x j (mkI (i_id y) (i_name y) (pub_type (d_str d) (i_type y)) (i_data y))))
  | [] => RFail s
  end.
(** server_config_ks.c 254-273 [nc_server_config_ks_public_key], whatever the operation. *)
Definition h_pub (p : list dnode) (s : st) : res :=
  match p with
  | d :: _ => with_outer Keys p s (fun i x =>
      ROk (wr_outer Keys s i (mkO (o_id x) (o_name x) (o_ptype x) (Some (d_str d)) (o_vtype x) (o_priv x) (o_items x)) (freed s) (made s)))
  | [] => RFail s
  end.
(** server_config.c 460-475 and server_config_ks.c 275-302 [nc_server_config_ks_private_key_format]. *)
Definition priv_type (v : bytes) : option nat :=
  if beqb v (bs "rsa-private-key-format") then Some 1
  else if beqb v (bs "ec-private-key-format") then Some 2
  else if beqb v (bs "private-key-info-format") then Some 3
  else if beqb v (bs "openssh-private-key-format") then Some 4
  else None.
Definition h_priv_format (p : list dnode) (s : st) : res :=
  match p with
  | d :: _ => with_outer Keys p s (fun i x =>
      match priv_type (d_str d) with
      | None => RFail s
      | Some t => ROk (wr_outer Keys s i (mkO (o_id x) (o_name x) (o_ptype x) (o_pub x) t (o_priv x) (o_items x)) (freed s) (made s))
      end)
  | [] => RFail s
  end.
(** server_config_ks.c 304-324 [nc_server_config_ks_cleartext_private_key]. *)
Definition h_priv (p : list dnode) (o : op) (s : st) : res :=
  match p with
  | d :: _ => with_outer Keys p s (fun i x =>
      ROk (wr_outer Keys s i (mkO (o_id x) (o_name x) (o_ptype x) (o_pub x) (o_vtype x) (if setting o then Some (d_str d) else None) (o_items x)) (freed s) (made s)))
  | [] => RFail s
  end.
(** server_config_ts.c 480-512 [nc_server_config_ts_public_key]: the list or the leaf. *)
Definition h_bag_key (p : list dnode) (o : op) (s : st) : res :=
  match p with
  | d :: _ =>
      if equal_parent_name p 1 (bs "public-key-bag") then h_inner KeyBags p o s
      else with_inner KeyBags p s (fun i x j y =>
             ROk (wr_inner KeyBags s i x j (mkI (i_id y) (i_name y) (i_type y) (Some (d_str d)))))
  | [] => RFail s
  end.

(** server_config_ks.c 384-414 [nc_server_config_parse_keystore]. *)
Definition handle_ks (p : list dnode) (o : op) (s : st) : res :=
  match p with
  | [] => ROk s
  | d :: _ =>
    let is n := beqb (d_name d) (bs n) in
    if is "keystore"%string then h_all Keys o s
    else if is "asymmetric-keys"%string then h_all Keys o s
    else if is "asymmetric-key"%string then h_outer Keys p o s
    else if is "public-key-format"%string then h_pub_format p s
    else if is "public-key"%string then h_pub p s
    else if is "private-key-format"%string then h_priv_format p s
    else if is "cleartext-private-key"%string then h_priv p o s
    else if is "certificate"%string then h_inner Keys p o s
    else if is "cert-data"%string then h_cert_data Keys p o s
    else ROk s
  end.
(** server_config_ts.c 540-574 [nc_server_config_parse_truststore]. *)
Definition handle_ts (p : list dnode) (o : op) (s : st) : res :=
  match p with
  | [] => ROk s
  | d :: _ =>
    let is n := beqb (d_name d) (bs n) in
    if is "truststore"%string then h_truststore o s
    else if is "certificate-bags"%string then h_all CertBags o s
    else if is "certificate-bag"%string then h_outer CertBags p o s
    else if is "certificate"%string then h_inner CertBags p o s
    else if is "cert-data"%string then h_cert_data CertBags p o s
    else if is "public-key-bags"%string then h_all KeyBags o s
    else if is "public-key-bag"%string then h_outer KeyBags p o s
    else if is "public-key"%string then h_bag_key p o s
    else if is "public-key-format"%string then h_bag_format p s
    else ROk s
  end.

(* ------------------------------------------------------------------ *)
(** ** Trees *)

(** server_config.c 4143-4212, nc_server_config_parse_tree, with the handler of the module. *)
Fixpoint walk (h : list dnode -> op -> st -> res) (d : dnode) (anc : list dnode) (parent : option op) (s : st) {struct d} : res :=
  match cur_op d parent with
  | None => RFail s
  | Some o =>
      match (match o with ONone => ROk s | _ => h (d :: anc) o s end) with
      | ROk s1 =>
          match o with
          | ODelete => ROk s1
          | _ => match d with
                 | DN _ _ _ _ _ _ kids =>
                   (fix go (ks : list dnode) (s : st) : res :=
                      match ks with
                      | [] => ROk s
                      | k :: r => match walk h k (d :: anc) (Some o) s with ROk s2 => go r s2 | x => x end
                      end) kids s1
                 end
          end
      | x => x
      end
  end.

(** The keystore and the truststore of a diff or of data, if there are any (server_config_ks.c 416-443, server_config_ts.c
    576-603), as the library applies them (server_config.c 4379-4392, 4460-4475).  [parent]: [None] for a diff, creation
    for data. *)
Definition fill (dk dt : option dnode) (parent : option op) (s : st) : res :=
  match (match dk with Some d => walk handle_ks d [] parent s | None => ROk s end) with
  | ROk s1 => match dt with Some d => walk handle_ts d [] parent s1 | None => ROk s1 end
  | x => x
  end.
Definition setup_diff (dk dt : option dnode) (s : st) : res := fill dk dt None s.
(** server_config.c 4456-4475; operations in the trees are not refused unless the trees follow that of
    ietf-netconf-server (4443-4453), which they need not. *)
Definition setup_data (dk dt : option dnode) (s : st) : res :=
  match h_all Keys ODelete s with
  | ROk s1 => match h_truststore ODelete s1 with ROk s2 => fill dk dt (Some OCreate) s2 | x => x end
  | x => x
  end.
