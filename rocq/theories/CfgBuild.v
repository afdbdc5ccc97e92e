(** The functions an application builds its configuration with: nc_server_config_add_* and
    nc_server_config_del_* (server_config_util.c 35-199, 886-1366, server_config_util_ssh.c,
    server_config_util_tls.c).  Each prints a path of YANG nodes with names of the caller in it and
    has libyang create or free the node of that path.

    libyang is modelled as far as these functions use it: the syntax of data paths, finding the schema
    node of a path, creating the nodes of a path, finding a node, freeing a subtree.  What it decides by
    the types of values is given by oracles. *)
From Coq Require Import Ascii String NArith Bool Lia List.
From Verif Require Import Bytes.
Import ListNotations.
Local Open Scope string_scope.
Local Open Scope list_scope.

(** ** Data trees

    A node is named by the steps from the root to it: the name of each schema node, preceded by its
    module if that is another than the one of the parent, and for entries of lists the value of the
    key (all lists of this configuration have one key).  Key leaves are not nodes of their own in the
    model. *)
Definition step := (bytes * option bytes)%type.
Definition path := list step.

(** A data tree (all top-level siblings): its nodes, in the order of their creation, and the values of
    leaves.  Nodes that exist only by default (implicit nodes, lyd_new_implicit_tree()) are not kept
    here, see [implicit]. *)
Definition store := list (path * option bytes).

Definition okeyb (a b : option bytes) : bool :=
  match a, b with
  | None, None => true
  | Some x, Some y => beqb x y
  | _, _ => false
  end.

Fixpoint patheqb (p q : path) : bool :=
  match p, q with
  | [], [] => true
  | (n, k) :: p', (m, l) :: q' => beqb n m && okeyb k l && patheqb p' q'
  | _, _ => false
  end.

(** [p] is [q] or one of its ancestors. *)
Fixpoint underb (p q : path) : bool :=
  match p, q with
  | [], _ => true
  | (n, k) :: p', (m, l) :: q' => beqb n m && okeyb k l && underb p' q'
  | _, _ => false
  end.

Fixpoint lookup (p : path) (st : store) : option (option bytes) :=
  match st with
  | [] => None
  | (q, v) :: r => if patheqb p q then Some v else lookup p r
  end.

Fixpoint setval (p : path) (v : option bytes) (st : store) : store :=
  match st with
  | [] => [(p, v)]
  | (q, w) :: r => if patheqb p q then (q, v) :: r else (q, w) :: setval p v r
  end.

Definition ensure (st : store) (p : path) : store :=
  match lookup p st with
  | Some _ => st
  | None => st ++ [(p, None)]
  end.

(** The non-empty beginnings of a path, shortest first. *)
Fixpoint inits (p : path) : list path :=
  match p with
  | [] => []
  | s :: r => [s] :: map (cons s) (inits r)
  end.

(** ** Paths as texts *)

(** libyang's data paths: [/name], [/name\[key='value'\]] or with double quotes.  Blanks between the
    parts, which libyang skips, positions and values of leaf-lists are not modelled (taken as errors):
    the formats below have none.  A step is read as its name and its predicates. *)
Definition qstep := (bytes * list (bytes * bytes))%type.

Inductive pmode :=
| PName (n : bytes)                                        (* in a name *)
| PKey (n : bytes) (ps : list (bytes * bytes)) (k : bytes) (* in the key of a predicate *)
| PQuote (n : bytes) (ps : list (bytes * bytes)) (k : bytes)
| PVal (n : bytes) (ps : list (bytes * bytes)) (k : bytes) (q : ascii) (v : bytes)
| PEnd (n : bytes) (ps : list (bytes * bytes)) (k v : bytes) (* after the value *)
| PNext (n : bytes) (ps : list (bytes * bytes)).             (* after a predicate *)

Definition special (c : ascii) : bool :=
  Ascii.eqb c "["%char || Ascii.eqb c "]"%char || Ascii.eqb c "/"%char || Ascii.eqb c "="%char ||
  Ascii.eqb c "'"%char || Ascii.eqb c """"%char || Ascii.eqb c " "%char.

Definition empty (b : bytes) : bool := match b with [] => true | _ => false end.

Definition pstep (done : list qstep) (m : pmode) (c : ascii) : option (list qstep * pmode) :=
  match m with
  | PName n =>
      if Ascii.eqb c "/"%char then if empty n then None else Some (done ++ [(n, [])], PName [])
      else if Ascii.eqb c "["%char then if empty n then None else Some (done, PKey n [] [])
      else if special c then None else Some (done, PName (n ++ [c]))
  | PKey n ps k =>
      if Ascii.eqb c "="%char then if empty k then None else Some (done, PQuote n ps k)
      else if special c then None else Some (done, PKey n ps (k ++ [c]))
  | PQuote n ps k =>
      if Ascii.eqb c "'"%char || Ascii.eqb c """"%char then Some (done, PVal n ps k c []) else None
  | PVal n ps k q v =>
      if Ascii.eqb c q then Some (done, PEnd n ps k v) else Some (done, PVal n ps k q (v ++ [c]))
  | PEnd n ps k v =>
      if Ascii.eqb c "]"%char then Some (done, PNext n (ps ++ [(k, v)])) else None
  | PNext n ps =>
      if Ascii.eqb c "/"%char then Some (done ++ [(n, ps)], PName [])
      else if Ascii.eqb c "["%char then Some (done, PKey n ps []) else None
  end.

Fixpoint ploop (done : list qstep) (m : pmode) (s : bytes) : option (list qstep) :=
  match s with
  | [] => match m with
          | PName n => if empty n then None else Some (done ++ [(n, [])])
          | PNext n ps => Some (done ++ [(n, ps)])
          | _ => None
          end
  | c :: r => match pstep done m c with
              | None => None
              | Some (d, m') => ploop d m' r
              end
  end.

(** ly_path_parse() of an absolute path. *)
Definition parse (s : bytes) : option (list qstep) :=
  match s with
  | c :: r => if Ascii.eqb c "/"%char then ploop [] (PName []) r else None
  | [] => None
  end.

(** vasprintf() with the conversion %s only; numbers are printed before. *)
Fixpoint pf (fmt : bytes) (args : list bytes) : bytes :=
  match fmt with
  | [] => []
  | c :: r =>
      if Ascii.eqb c "%"%char then
        match r with
        | d :: r' => match args with
                     | a :: args' => a ++ pf r' args'
                     | [] => []
                     end
        | [] => []
        end
      else c :: pf r args
  end.

(** Decimal digits, for %d, %u. *)
Fixpoint digits (fuel : nat) (n : N) : bytes :=
  match fuel with
  | O => []
  | Datatypes.S f => (if (n <? 10)%N then [] else digits f (n / 10)%N) ++
                     [ascii_of_N (48 + n mod 10)%N]
  end.
Definition dec (n : N) : bytes := digits 20 n.

(** ** The schema

    The part of the modules ietf-netconf-server, ietf-keystore, ietf-truststore (2023-12-28) and
    libnetconf2-netconf-server (2024-07-09) these functions are about (modules/ in the repository).
    Choices and cases are no data nodes. *)
Inductive kind := Cont | Lst (key : bytes) | Leaf.
Inductive sch := Sch (name : bytes) (kd : kind) (kids : list sch).

Definition cont (n : string) (kids : list sch) : sch := Sch (bs n) Cont kids.
Definition lst (n : string) (kids : list sch) : sch := Sch (bs n) (Lst (bs "name")) kids.
Definition leaf (n : string) : sch := Sch (bs n) Leaf [].

(** ietf-crypto-types [asymmetric-key-pair-grouping], [public-key-grouping]. *)
Definition s_pub : list sch := [leaf "public-key-format"; leaf "public-key"].
Definition s_pair : list sch := s_pub ++ [leaf "private-key-format"; leaf "cleartext-private-key"].

(** ietf-truststore 192-242 [inline-or-truststore-certs-grouping]. *)
Definition s_certs (n : string) : sch :=
  cont n [cont "inline-definition" [lst "certificate" [leaf "cert-data"]];
          leaf "central-truststore-reference"].

(** ietf-ssh-server 143-423 and the augments of libnetconf2-netconf-server 343-385. *)
Definition s_ssh (tcp : sch) : sch :=
  cont "ssh"
    [tcp;
     cont "ssh-server-parameters"
       [cont "server-identity"
          [lst "host-key" [cont "public-key" [cont "inline-definition" s_pair;
                                              leaf "central-keystore-reference"]]];
        cont "client-authentication"
          [cont "users"
             [lst "user"
                [cont "public-keys"
                   [cont "inline-definition" [lst "public-key" s_pub];
                    leaf "central-truststore-reference";
                    cont "libnetconf2-netconf-server:use-system-keys" []];
                 leaf "password";
                 cont "libnetconf2-netconf-server:keyboard-interactive" [cont "use-system-auth" []]]];
           leaf "libnetconf2-netconf-server:endpoint-reference"]]].

(** ietf-tls-server 175-525, ietf-netconf-server 299-316 and the augments 387-396. *)
Definition s_tls (tcp : sch) : sch :=
  cont "tls"
    [tcp;
     cont "tls-server-parameters"
       [cont "server-identity"
          [cont "certificate"
             [cont "inline-definition" (s_pair ++ [leaf "cert-data"]);
              cont "central-keystore-reference" [leaf "asymmetric-key"; leaf "certificate"]]];
        cont "client-authentication"
          [s_certs "ca-certs"; s_certs "ee-certs";
           leaf "libnetconf2-netconf-server:endpoint-reference"]];
     cont "netconf-server-parameters"
       [cont "client-identity-mappings"
          [Sch (bs "cert-to-name") (Lst (bs "id")) [leaf "fingerprint"; leaf "map-type"; leaf "name"]]]].

Definition s_listen_tcp : sch := cont "tcp-server-parameters" [leaf "local-address"; leaf "local-port"].
Definition s_ch_tcp : sch := cont "tcp-client-parameters" [leaf "remote-address"; leaf "remote-port"].

(** ietf-netconf-server 440-690, ietf-keystore, ietf-truststore 293-390. *)
Definition schema : list sch :=
  [cont "ietf-netconf-server:netconf-server"
     [cont "listen"
        [cont "endpoints" [lst "endpoint" [s_ssh s_listen_tcp; s_tls s_listen_tcp]]];
      cont "call-home"
        [lst "netconf-client"
           [cont "endpoints" [lst "endpoint" [s_ssh s_ch_tcp; s_tls s_ch_tcp]];
            cont "connection-type"
              [cont "persistent" [];
               cont "periodic" [leaf "period"; leaf "anchor-time"; leaf "idle-timeout"]];
            cont "reconnect-strategy" [leaf "start-with"; leaf "max-wait"; leaf "max-attempts"]]]];
   cont "ietf-keystore:keystore"
     [cont "asymmetric-keys"
        [lst "asymmetric-key" (s_pair ++ [cont "certificates" [lst "certificate" [leaf "cert-data"]]])]];
   cont "ietf-truststore:truststore"
     [cont "certificate-bags" [lst "certificate-bag" [lst "certificate" [leaf "cert-data"]]];
      cont "public-key-bags" [lst "public-key-bag" [lst "public-key" s_pub]]]].

(** The module of a node called [n] below a node of the module [md]. *)
Fixpoint before_colon (n : bytes) : option bytes :=
  match n with
  | [] => None
  | c :: r => if Ascii.eqb c ":"%char then Some [] else option_map (cons c) (before_colon r)
  end.
Definition module_of (md n : bytes) : bytes :=
  match before_colon n with Some m => m | None => md end.

(** The child called [n] in a path: the module may be given although it is that of the parent. *)
Definition sname (s : sch) : bytes := match s with Sch n _ _ => n end.
Definition child (kids : list sch) (md n : bytes) : option sch :=
  List.find (fun s => beqb (sname s) n || beqb (md ++ ":"%char :: sname s) n) kids.

(** ly_path_compile(): the nodes of a path, and the kind of the last one.  Entries of lists before the
    last step need their key; predicates of other nodes, of other keys and repeated ones are errors. *)
Fixpoint resolve (kids : list sch) (md : bytes) (q : list qstep) : option (path * kind) :=
  match q with
  | [] => None
  | (n, ps) :: r =>
      match child kids md n with
      | None => None
      | Some (Sch nm kd ks) =>
          match (match kd, ps with
                 | Lst k, [(k', v)] => if beqb k k' then Some (nm, Some v) else None
                 | Lst _, [] => match r with [] => Some (nm, None) | _ => None end
                 | _, [] => Some (nm, None)
                 | _, _ => None
                 end) with
          | None => None
          | Some s =>
              match r with
              | [] => Some ([s], kd)
              | _ => match resolve ks (module_of md nm) r with
                     | None => None
                     | Some (p, kd') => Some (s :: p, kd')
                     end
              end
          end
      end
  end.

Definition target (s : bytes) : option (path * kind) :=
  match parse s with
  | None => None
  | Some q => resolve schema [] q
  end.

(** Is this the path of a list, without a key? *)
Definition keyless (p : path) (kd : kind) : bool :=
  match kd with
  | Lst _ => match snd (last p ([], None)) with None => true | Some _ => false end
  | _ => false
  end.

Fixpoint keys (p : path) : list bytes :=
  match p with
  | [] => []
  | (_, Some k) :: r => k :: keys r
  | (_, None) :: r => keys r
  end.

(** What the argument [config] points to: no tree, or a tree; and the trees no pointer is left to. *)
Record cstate := { c_tree : option store; c_lost : list store }.

Definition top : path := [(bs "ietf-netconf-server:netconf-server", None)].

Section Build.

(** Does libyang take this value for the leaf, and what does it store (its canonical form)? *)
Variable canon : path -> bytes -> option bytes.
(** Does it take this text as the key of an entry? *)
Variable okkey : bytes -> bool.
(** Is there an implicit node (default, or container without presence) of this path? *)
Variable implicit : store -> path -> bool.
(** lyd_find_path() wants the path of a single node: libyang refuses the path of a list without a key
    as the last step ([true]).  With [false] it would take the first entry. *)
Variable single : bool.

(** lyd_new_path() with LYD_NEW_PATH_UPDATE: creates the missing nodes of the path and sets the value
    of a leaf.  Nothing is created if it fails. *)
Definition lyd_new_path (st : store) (s : bytes) (value : option bytes) : option store :=
  match target s with
  | None => None
  | Some (p, kd) =>
      if keyless p kd || negb (forallb okkey (keys p)) then None
      else match kd with
           | Leaf => match canon p (match value with Some v => v | None => [] end) with
                     | None => None
                     | Some w => Some (setval p (Some w) (fold_left ensure (inits p) st))
                     end
           | _ => Some (fold_left ensure (inits p) st)
           end
  end.

(** lyd_find_path(): the node, LY_EINCOMPLETE or LY_ENOTFOUND, or another error. *)
Inductive found := FNode (p : path) | FNone | FError.

(** The first entry of a list. *)
Fixpoint first_entry (l : path) (st : store) : option path :=
  match st with
  | [] => None
  | (p, _) :: r =>
      if Nat.eqb (List.length p) (List.length l) && underb (removelast l) p &&
         beqb (fst (last p ([], None))) (fst (last l ([], None)))
      then Some p else first_entry l r
  end.

Definition lyd_find_path (st : store) (s : bytes) : found :=
  match target s with
  | None => FError
  | Some (p, kd) =>
      if negb (forallb okkey (keys p)) then FError
      else if keyless p kd then
        if single then FError
        else match first_entry p st with Some q => FNode q | None => FNone end
      else match lookup p st with
           | Some _ => FNode p
           | None => if implicit st p then FNode p else FNone
           end
  end.

(** lyd_free_tree(). *)
Definition lyd_free_tree (st : store) (p : path) : store :=
  filter (fun e => negb (underb p (fst e))) st.

(** lyd_find_path() of the container netconf-server with *tree as the result: if there is none, *tree
    is set to NULL. *)
Definition set_top (st : store) (s : cstate) : cstate * bool :=
  match lookup top st with
  | Some _ => ({| c_tree := Some st; c_lost := c_lost s |}, true)
  | None => ({| c_tree := None; c_lost := st :: c_lost s |}, false)
  end.

(** A part of a function: what is done to *config, and whether it succeeded (the functions return at
    the first failure). *)
Definition prog := cstate -> cstate * bool.
Definition seq (f g : prog) : prog :=
  fun s => let (s1, ok) := f s in if ok then g s1 else (s1, false).
Definition fail : prog := fun s => (s, false).
Notation "f ;; g" := (seq f g) (at level 61, right associativity).

(** server_config_util.c 35-76 [nc_server_config_create], without failing allocations of the path. *)
Definition create (value : option bytes) (path : bytes) : prog :=
  fun s =>
    match lyd_new_path (match c_tree s with Some st => st | None => [] end) path value with
    | None => (s, false)
    | Some st => set_top st s
    end.

(** server_config_util.c 79-117 [nc_server_config_append]. *)
Definition append (parent : bytes) (child_name : string) (value : option bytes) : prog :=
  create value (pf (bs "%s/%s") [parent; bs child_name]).

(** server_config_util.c 120-159 [nc_server_config_delete]: with no tree lyd_find_path() fails. *)
Definition delete (path : bytes) : prog :=
  fun s =>
    match c_tree s with
    | None => (s, false)
    | Some st =>
        match lyd_find_path st path with
        | FNode p => set_top (lyd_free_tree st p) s
        | _ => (s, false)
        end
    end.

(** server_config_util.c 162-199 [nc_server_config_check_delete]. *)
Definition check_delete (path : bytes) : prog :=
  fun s =>
    match c_tree s with
    | None => (s, false)
    | Some st =>
        match lyd_find_path st path with
        | FNode p => set_top (lyd_free_tree st p) s
        | FNone => (s, true)
        | FError => (s, false)
        end
    end.

(** What was read from a file, converted or hashed; if that failed, so does the function. *)
Definition given {A} (o : option A) (f : A -> prog) : prog :=
  match o with Some a => f a | None => fail end.

(** Key pairs as read by nc_server_config_util_get_asym_key_pair() (KeyFiles): the private key, the
    identity of its format, the public key. *)
Definition pair := (bytes * bytes * bytes)%type.

Inductive transport := SSH | TLS | OtherTransport.

(** server_config_util.c 886-923 [nc_server_config_add_address_port]. *)
Definition add_address_port (e : bytes) (t : transport) (address : bytes) (port : N) : prog :=
  match t with
  | SSH =>
      create (Some address) (pf (bs "/ietf-netconf-server:netconf-server/listen/endpoints/endpoint[name='%s']/ssh/tcp-server-parameters/local-address") [e]) ;;
      create (Some (dec port)) (pf (bs "/ietf-netconf-server:netconf-server/listen/endpoints/endpoint[name='%s']/ssh/tcp-server-parameters/local-port") [e])
  | TLS =>
      create (Some address) (pf (bs "/ietf-netconf-server:netconf-server/listen/endpoints/endpoint[name='%s']/tls/tcp-server-parameters/local-address") [e]) ;;
      create (Some (dec port)) (pf (bs "/ietf-netconf-server:netconf-server/listen/endpoints/endpoint[name='%s']/tls/tcp-server-parameters/local-port") [e])
  | OtherTransport => fail
  end.

(** server_config_util.c 925-960 [nc_server_config_add_ch_address_port]: the port is a text here. *)
Definition add_ch_address_port (c e : bytes) (t : transport) (address port : bytes) : prog :=
  match t with
  | SSH =>
      create (Some address) (pf (bs "/ietf-netconf-server:netconf-server/call-home/netconf-client[name='%s']/endpoints/endpoint[name='%s']/ssh/tcp-client-parameters/remote-address") [c; e]) ;;
      create (Some port) (pf (bs "/ietf-netconf-server:netconf-server/call-home/netconf-client[name='%s']/endpoints/endpoint[name='%s']/ssh/tcp-client-parameters/remote-port") [c; e])
  | TLS =>
      create (Some address) (pf (bs "/ietf-netconf-server:netconf-server/call-home/netconf-client[name='%s']/endpoints/endpoint[name='%s']/tls/tcp-client-parameters/remote-address") [c; e]) ;;
      create (Some port) (pf (bs "/ietf-netconf-server:netconf-server/call-home/netconf-client[name='%s']/endpoints/endpoint[name='%s']/tls/tcp-client-parameters/remote-port") [c; e])
  | OtherTransport => fail
  end.

(** server_config_util.c 962-972 [nc_server_config_del_endpt]. *)
Definition del_endpt (e : option bytes) : prog :=
  match e with
  | Some e => delete (pf (bs "/ietf-netconf-server:netconf-server/listen/endpoints/endpoint[name='%s']") [e])
  | None => delete (pf (bs "/ietf-netconf-server:netconf-server/listen/endpoints/endpoint") [])
  end.

(** server_config_util.c 974-984 [nc_server_config_del_ch_client]. *)
Definition del_ch_client (c : option bytes) : prog :=
  match c with
  | Some c => delete (pf (bs "/ietf-netconf-server:netconf-server/call-home/netconf-client[name='%s']") [c])
  | None => delete (pf (bs "/ietf-netconf-server:netconf-server/call-home/netconf-client") [])
  end.

(** server_config_util.c 986-998 [nc_server_config_del_ch_endpt]. *)
Definition del_ch_endpt (c : bytes) (e : option bytes) : prog :=
  match e with
  | Some e => delete (pf (bs "/ietf-netconf-server:netconf-server/call-home/netconf-client[name='%s']/endpoints/endpoint[name='%s']") [c; e])
  | None => delete (pf (bs "/ietf-netconf-server:netconf-server/call-home/netconf-client[name='%s']/endpoints/endpoint") [c])
  end.

Definition ssh_format : bytes := bs "ietf-crypto-types:ssh-public-key-format".
Definition spki_format : bytes := bs "ietf-crypto-types:subject-public-key-info-format".

(** server_config_util.c 1000-1069 [nc_server_config_add_keystore_asym_key].  The key pair is read with
    a public key of the format of the transport. *)
Definition add_keystore_asym_key (t : transport) (a : bytes) (kp : option pair) : prog :=
  match t with
  | OtherTransport => fail
  | _ =>
      given kp (fun '(priv, fmt, pub) =>
      create (Some (match t with SSH => ssh_format | _ => spki_format end)) (pf (bs "/ietf-keystore:keystore/asymmetric-keys/asymmetric-key[name='%s']/public-key-format") [a]) ;;
      create (Some pub) (pf (bs "/ietf-keystore:keystore/asymmetric-keys/asymmetric-key[name='%s']/public-key") [a]) ;;
      create (Some fmt) (pf (bs "/ietf-keystore:keystore/asymmetric-keys/asymmetric-key[name='%s']/private-key-format") [a]) ;;
      create (Some priv) (pf (bs "/ietf-keystore:keystore/asymmetric-keys/asymmetric-key[name='%s']/cleartext-private-key") [a]))
  end.

(** server_config_util.c 1071-1081 [nc_server_config_del_keystore_asym_key]. *)
Definition del_keystore_asym_key (a : option bytes) : prog :=
  match a with
  | Some a => delete (pf (bs "/ietf-keystore:keystore/asymmetric-keys/asymmetric-key[name='%s']") [a])
  | None => delete (pf (bs "/ietf-keystore:keystore/asymmetric-keys/asymmetric-key") [])
  end.

(** server_config_util.c 1083-1104 [nc_server_config_add_keystore_cert]. *)
Definition add_keystore_cert (a n : bytes) (crt : option bytes) : prog :=
  given crt (fun crt =>
  create (Some crt) (pf (bs "/ietf-keystore:keystore/asymmetric-keys/asymmetric-key[name='%s']/certificates/certificate[name='%s']/cert-data") [a; n])).

(** server_config_util.c 1106-1118 [nc_server_config_del_keystore_cert]. *)
Definition del_keystore_cert (a : bytes) (n : option bytes) : prog :=
  match n with
  | Some n => delete (pf (bs "/ietf-keystore:keystore/asymmetric-keys/asymmetric-key[name='%s']/certificates/certificate[name='%s']") [a; n])
  | None => delete (pf (bs "/ietf-keystore:keystore/asymmetric-keys/asymmetric-key[name='%s']/certificates/certificate") [a])
  end.

(** server_config_util.c 1120-1150 [nc_server_config_add_truststore_pubkey]. *)
Definition add_truststore_pubkey (b k : bytes) (pub : option bytes) : prog :=
  given pub (fun pub =>
  create (Some ssh_format) (pf (bs "/ietf-truststore:truststore/public-key-bags/public-key-bag[name='%s']/public-key[name='%s']/public-key-format") [b; k]) ;;
  create (Some pub) (pf (bs "/ietf-truststore:truststore/public-key-bags/public-key-bag[name='%s']/public-key[name='%s']/public-key") [b; k])).

(** server_config_util.c 1152-1165 [nc_server_config_del_truststore_pubkey]. *)
Definition del_truststore_pubkey (b : bytes) (k : option bytes) : prog :=
  match k with
  | Some k => delete (pf (bs "/ietf-truststore:truststore/public-key-bags/public-key-bag[name='%s']/public-key[name='%s']") [b; k])
  | None => delete (pf (bs "/ietf-truststore:truststore/public-key-bags/public-key-bag[name='%s']/public-key") [b])
  end.

(** server_config_util.c 1167-1190 [nc_server_config_add_truststore_cert]. *)
Definition add_truststore_cert (b n : bytes) (crt : option bytes) : prog :=
  given crt (fun crt =>
  create (Some crt) (pf (bs "/ietf-truststore:truststore/certificate-bags/certificate-bag[name='%s']/certificate[name='%s']/cert-data") [b; n])).

(** server_config_util.c 1192-1205 [nc_server_config_del_truststore_cert]. *)
Definition del_truststore_cert (b : bytes) (n : option bytes) : prog :=
  match n with
  | Some n => delete (pf (bs "/ietf-truststore:truststore/certificate-bags/certificate-bag[name='%s']/certificate[name='%s']") [b; n])
  | None => delete (pf (bs "/ietf-truststore:truststore/certificate-bags/certificate-bag[name='%s']/certificate") [b])
  end.

(** server_config_util.c 1209-1222 [nc_server_config_add_ch_persistent]. *)
Definition add_ch_persistent (c : bytes) : prog :=
  check_delete (pf (bs "/ietf-netconf-server:netconf-server/call-home/netconf-client[name='%s']/connection-type/periodic") [c]) ;;
  create None (pf (bs "/ietf-netconf-server:netconf-server/call-home/netconf-client[name='%s']/connection-type/persistent") [c]).

(** server_config_util.c 1224-1241 [nc_server_config_add_ch_period]. *)
Definition add_ch_period (c : bytes) (v : N) : prog :=
  check_delete (pf (bs "/ietf-netconf-server:netconf-server/call-home/netconf-client[name='%s']/connection-type/persistent") [c]) ;;
  create (Some (dec v)) (pf (bs "/ietf-netconf-server:netconf-server/call-home/netconf-client[name='%s']/connection-type/periodic/period") [c]).

(** server_config_util.c 1243-1250 [nc_server_config_del_ch_period]. *)
Definition del_ch_period (c : bytes) : prog :=
  delete (pf (bs "/ietf-netconf-server:netconf-server/call-home/netconf-client[name='%s']/connection-type/periodic/period") [c]).

(** server_config_util.c 1252-1266 [nc_server_config_add_ch_anchor_time]. *)
Definition add_ch_anchor_time (c : bytes) (v : bytes) : prog :=
  check_delete (pf (bs "/ietf-netconf-server:netconf-server/call-home/netconf-client[name='%s']/connection-type/persistent") [c]) ;;
  create (Some v) (pf (bs "/ietf-netconf-server:netconf-server/call-home/netconf-client[name='%s']/connection-type/periodic/anchor-time") [c]).

(** server_config_util.c 1268-1275 [nc_server_config_del_ch_anchor_time]. *)
Definition del_ch_anchor_time (c : bytes) : prog :=
  delete (pf (bs "/ietf-netconf-server:netconf-server/call-home/netconf-client[name='%s']/connection-type/periodic/anchor-time") [c]).

(** server_config_util.c 1277-1294 [nc_server_config_add_ch_idle_timeout]. *)
Definition add_ch_idle_timeout (c : bytes) (v : N) : prog :=
  check_delete (pf (bs "/ietf-netconf-server:netconf-server/call-home/netconf-client[name='%s']/connection-type/persistent") [c]) ;;
  create (Some (dec v)) (pf (bs "/ietf-netconf-server:netconf-server/call-home/netconf-client[name='%s']/connection-type/periodic/idle-timeout") [c]).

(** server_config_util.c 1296-1303 [nc_server_config_del_ch_idle_timeout]. *)
Definition del_ch_idle_timeout (c : bytes) : prog :=
  delete (pf (bs "/ietf-netconf-server:netconf-server/call-home/netconf-client[name='%s']/connection-type/periodic/idle-timeout") [c]).

Inductive start_with := FirstListed | LastConnected | RandomSelection | OtherStart.

(** server_config_util.c 1310-1357 [nc_server_config_add_ch_reconnect_strategy]: for an unknown
    start_with the result is the number of bytes of the path, an error. *)
Definition add_ch_reconnect_strategy (c : bytes) (sw : start_with) (max_wait max_attempts : N) : prog :=
  let path := (pf (bs "/ietf-netconf-server:netconf-server/call-home/netconf-client[name='%s']/reconnect-strategy") [c]) in
  match sw with
  | OtherStart => fail
  | _ => append path "start-with" (Some (bs (match sw with
                                            | FirstListed => "first-listed"
                                            | LastConnected => "last-connected"
                                            | _ => "random-selection"
                                            end)))
  end ;;
  (if (max_attempts =? 0)%N then fun s => (s, true)
   else append path "max-attempts" (Some (dec max_attempts))) ;;
  (if (max_wait =? 0)%N then fun s => (s, true)
   else append path "max-wait" (Some (dec max_wait))).

(** server_config_util.c 1359-1366 [nc_server_config_del_ch_reconnect_strategy]. *)
Definition del_ch_reconnect_strategy (c : bytes) : prog :=
  delete (pf (bs "/ietf-netconf-server:netconf-server/call-home/netconf-client[name='%s']/reconnect-strategy") [c]).

(** server_config_util_ssh.c 35-90 [_nc_server_config_add_ssh_hostkey]. *)
Definition _add_ssh_hostkey (path : bytes) (kp : option pair) : prog :=
  given kp (fun '(priv, fmt, pub) =>
  append path "inline-definition/public-key-format" (Some ssh_format) ;;
  append path "inline-definition/public-key" (Some pub) ;;
  append path "inline-definition/private-key-format" (Some fmt) ;;
  append path "inline-definition/cleartext-private-key" (Some priv) ;;
  check_delete (pf (bs "%s/central-keystore-reference") [path])).

(** server_config_util_ssh.c 92-113 [nc_server_config_add_ssh_hostkey]. *)
Definition add_ssh_hostkey (e : bytes) (h : bytes) (kp : option pair) : prog :=
  let path := (pf (bs "/ietf-netconf-server:netconf-server/listen/endpoints/endpoint[name='%s']/ssh/ssh-server-parameters/server-identity/host-key[name='%s']/public-key") [e; h]) in
  _add_ssh_hostkey path kp.

(** server_config_util_ssh.c 115-137 [nc_server_config_add_ch_ssh_hostkey]. *)
Definition add_ch_ssh_hostkey (c : bytes) (e : bytes) (h : bytes) (kp : option pair) : prog :=
  let path := (pf (bs "/ietf-netconf-server:netconf-server/call-home/netconf-client[name='%s']/endpoints/endpoint[name='%s']/ssh/ssh-server-parameters/server-identity/host-key[name='%s']/public-key") [c; e; h]) in
  _add_ssh_hostkey path kp.

(** server_config_util_ssh.c 139-152 [nc_server_config_del_ssh_hostkey]. *)
Definition del_ssh_hostkey (e : bytes) (h : option bytes) : prog :=
  match h with
  | Some h => delete (pf (bs "/ietf-netconf-server:netconf-server/listen/endpoints/endpoint[name='%s']/ssh/ssh-server-parameters/server-identity/host-key[name='%s']") [e; h])
  | None => delete (pf (bs "/ietf-netconf-server:netconf-server/listen/endpoints/endpoint[name='%s']/ssh/ssh-server-parameters/server-identity/host-key") [e])
  end.

(** server_config_util_ssh.c 154-169 [nc_server_config_del_ch_ssh_hostkey]. *)
Definition del_ch_ssh_hostkey (c : bytes) (e : bytes) (h : option bytes) : prog :=
  match h with
  | Some h => delete (pf (bs "/ietf-netconf-server:netconf-server/call-home/netconf-client[name='%s']/endpoints/endpoint[name='%s']/ssh/ssh-server-parameters/server-identity/host-key[name='%s']") [c; e; h])
  | None => delete (pf (bs "/ietf-netconf-server:netconf-server/call-home/netconf-client[name='%s']/endpoints/endpoint[name='%s']/ssh/ssh-server-parameters/server-identity/host-key") [c; e])
  end.

(** server_config_util_ssh.c 171-196 [nc_server_config_add_ssh_keystore_ref]. *)
Definition add_ssh_keystore_ref (e : bytes) (h : bytes) (r : bytes) : prog :=
  create (Some r) (pf (bs "/ietf-netconf-server:netconf-server/listen/endpoints/endpoint[name='%s']/ssh/ssh-server-parameters/server-identity/host-key[name='%s']/public-key/central-keystore-reference") [e; h]) ;;
  check_delete (pf (bs "/ietf-netconf-server:netconf-server/listen/endpoints/endpoint[name='%s']/ssh/ssh-server-parameters/server-identity/host-key[name='%s']/public-key/inline-definition") [e; h]).

(** server_config_util_ssh.c 198-223 [nc_server_config_add_ch_ssh_keystore_ref]. *)
Definition add_ch_ssh_keystore_ref (c : bytes) (e : bytes) (h : bytes) (r : bytes) : prog :=
  create (Some r) (pf (bs "/ietf-netconf-server:netconf-server/call-home/netconf-client[name='%s']/endpoints/endpoint[name='%s']/ssh/ssh-server-parameters/server-identity/host-key[name='%s']/public-key/central-keystore-reference") [c; e; h]) ;;
  check_delete (pf (bs "/ietf-netconf-server:netconf-server/call-home/netconf-client[name='%s']/endpoints/endpoint[name='%s']/ssh/ssh-server-parameters/server-identity/host-key[name='%s']/public-key/inline-definition") [c; e; h]).

(** server_config_util_ssh.c 225-234 [nc_server_config_del_ssh_keystore_ref]. *)
Definition del_ssh_keystore_ref (e : bytes) (h : bytes) : prog :=
  delete (pf (bs "/ietf-netconf-server:netconf-server/listen/endpoints/endpoint[name='%s']/ssh/ssh-server-parameters/server-identity/host-key[name='%s']/public-key/central-keystore-reference") [e; h]).

(** server_config_util_ssh.c 236-245 [nc_server_config_del_ch_ssh_keystore_ref]. *)
Definition del_ch_ssh_keystore_ref (c : bytes) (e : bytes) (h : bytes) : prog :=
  delete (pf (bs "/ietf-netconf-server:netconf-server/call-home/netconf-client[name='%s']/endpoints/endpoint[name='%s']/ssh/ssh-server-parameters/server-identity/host-key[name='%s']/public-key/central-keystore-reference") [c; e; h]).

(** server_config_util_ssh.c 247-274 [_nc_server_config_add_ssh_user_pubkey]. *)
Definition _add_ssh_user_pubkey (path : bytes) (pub : option bytes) : prog :=
  given pub (fun pub =>
  append path "public-key-format" (Some ssh_format) ;;
  append path "public-key" (Some pub)).

(** server_config_util_ssh.c 276-314 [nc_server_config_add_ssh_user_pubkey]. *)
Definition add_ssh_user_pubkey (e : bytes) (u : bytes) (k : bytes) (pub : option bytes) : prog :=
  let path := (pf (bs "/ietf-netconf-server:netconf-server/listen/endpoints/endpoint[name='%s']/ssh/ssh-server-parameters/client-authentication/users/user[name='%s']/public-keys/inline-definition/public-key[name='%s']") [e; u; k]) in
  _add_ssh_user_pubkey path pub ;;
  check_delete (pf (bs "/ietf-netconf-server:netconf-server/listen/endpoints/endpoint[name='%s']/ssh/ssh-server-parameters/client-authentication/users/user[name='%s']/public-keys/central-truststore-reference") [e; u]) ;;
  check_delete (pf (bs "/ietf-netconf-server:netconf-server/listen/endpoints/endpoint[name='%s']/ssh/ssh-server-parameters/client-authentication/users/user[name='%s']/public-keys/libnetconf2-netconf-server:use-system-keys") [e; u]).

(** server_config_util_ssh.c 316-356 [nc_server_config_add_ch_ssh_user_pubkey]. *)
Definition add_ch_ssh_user_pubkey (c : bytes) (e : bytes) (u : bytes) (k : bytes) (pub : option bytes) : prog :=
  let path := (pf (bs "/ietf-netconf-server:netconf-server/call-home/netconf-client[name='%s']/endpoints/endpoint[name='%s']/ssh/ssh-server-parameters/client-authentication/users/user[name='%s']/public-keys/inline-definition/public-key[name='%s']") [c; e; u; k]) in
  _add_ssh_user_pubkey path pub ;;
  check_delete (pf (bs "/ietf-netconf-server:netconf-server/call-home/netconf-client[name='%s']/endpoints/endpoint[name='%s']/ssh/ssh-server-parameters/client-authentication/users/user[name='%s']/public-keys/central-truststore-reference") [c; e; u]) ;;
  check_delete (pf (bs "/ietf-netconf-server:netconf-server/call-home/netconf-client[name='%s']/endpoints/endpoint[name='%s']/ssh/ssh-server-parameters/client-authentication/users/user[name='%s']/public-keys/libnetconf2-netconf-server:use-system-keys") [c; e; u]).

(** server_config_util_ssh.c 358-373 [nc_server_config_del_ssh_user_pubkey]. *)
Definition del_ssh_user_pubkey (e : bytes) (u : bytes) (k : option bytes) : prog :=
  match k with
  | Some k => delete (pf (bs "/ietf-netconf-server:netconf-server/listen/endpoints/endpoint[name='%s']/ssh/ssh-server-parameters/client-authentication/users/user[name='%s']/public-keys/inline-definition/public-key[name='%s']") [e; u; k])
  | None => delete (pf (bs "/ietf-netconf-server:netconf-server/listen/endpoints/endpoint[name='%s']/ssh/ssh-server-parameters/client-authentication/users/user[name='%s']/public-keys/inline-definition/public-key") [e; u])
  end.

(** server_config_util_ssh.c 375-392 [nc_server_config_del_ch_ssh_user_pubkey]. *)
Definition del_ch_ssh_user_pubkey (c : bytes) (e : bytes) (u : bytes) (k : option bytes) : prog :=
  match k with
  | Some k => delete (pf (bs "/ietf-netconf-server:netconf-server/call-home/netconf-client[name='%s']/endpoints/endpoint[name='%s']/ssh/ssh-server-parameters/client-authentication/users/user[name='%s']/public-keys/inline-definition/public-key[name='%s']") [c; e; u; k])
  | None => delete (pf (bs "/ietf-netconf-server:netconf-server/call-home/netconf-client[name='%s']/endpoints/endpoint[name='%s']/ssh/ssh-server-parameters/client-authentication/users/user[name='%s']/public-keys/inline-definition/public-key") [c; e; u])
  end.

(** server_config_util_ssh.c 394-431 [nc_server_config_add_ssh_user_authkey]. *)
Definition add_ssh_user_authkey (e : bytes) (u : bytes) : prog :=
  let path := (pf (bs "/ietf-netconf-server:netconf-server/listen/endpoints/endpoint[name='%s']/ssh/ssh-server-parameters/client-authentication/users/user[name='%s']/public-keys") [e; u]) in
  append path "libnetconf2-netconf-server:use-system-keys" None ;;
  check_delete (pf (bs "/ietf-netconf-server:netconf-server/listen/endpoints/endpoint[name='%s']/ssh/ssh-server-parameters/client-authentication/users/user[name='%s']/public-keys/inline-definition") [e; u]) ;;
  check_delete (pf (bs "/ietf-netconf-server:netconf-server/listen/endpoints/endpoint[name='%s']/ssh/ssh-server-parameters/client-authentication/users/user[name='%s']/public-keys/central-truststore-reference") [e; u]).

(** server_config_util_ssh.c 433-471 [nc_server_config_add_ch_ssh_user_authkey]. *)
Definition add_ch_ssh_user_authkey (c : bytes) (e : bytes) (u : bytes) : prog :=
  let path := (pf (bs "/ietf-netconf-server:netconf-server/call-home/netconf-client[name='%s']/endpoints/endpoint[name='%s']/ssh/ssh-server-parameters/client-authentication/users/user[name='%s']/public-keys") [c; e; u]) in
  append path "libnetconf2-netconf-server:use-system-keys" None ;;
  check_delete (pf (bs "/ietf-netconf-server:netconf-server/call-home/netconf-client[name='%s']/endpoints/endpoint[name='%s']/ssh/ssh-server-parameters/client-authentication/users/user[name='%s']/public-keys/inline-definition") [c; e; u]) ;;
  check_delete (pf (bs "/ietf-netconf-server:netconf-server/call-home/netconf-client[name='%s']/endpoints/endpoint[name='%s']/ssh/ssh-server-parameters/client-authentication/users/user[name='%s']/public-keys/central-truststore-reference") [c; e; u]).

(** server_config_util_ssh.c 473-481 [nc_server_config_del_ssh_user_authkey]. *)
Definition del_ssh_user_authkey (e : bytes) (u : bytes) : prog :=
  delete (pf (bs "/ietf-netconf-server:netconf-server/listen/endpoints/endpoint[name='%s']/ssh/ssh-server-parameters/client-authentication/users/user[name='%s']/public-keys/libnetconf2-netconf-server:use-system-keys") [e; u]).

(** server_config_util_ssh.c 483-492 [nc_server_config_ch_del_ssh_user_authkey]. *)
Definition ch_del_ssh_user_authkey (c : bytes) (e : bytes) (u : bytes) : prog :=
  delete (pf (bs "/ietf-netconf-server:netconf-server/call-home/netconf-client[name='%s']/endpoints/endpoint[name='%s']/ssh/ssh-server-parameters/client-authentication/users/user[name='%s']/public-keys/libnetconf2-netconf-server:use-system-keys") [c; e; u]).

(** server_config_util_ssh.c 494-519 [_nc_server_config_add_ssh_user_password]: crypt_r() with the
    salt $6$idsizuippipk$. *)
Definition _add_ssh_user_password (path : bytes) (hash : option bytes) : prog :=
  given hash (fun hash => append path "password" (Some hash)).

(** server_config_util_ssh.c 521-542 [nc_server_config_add_ssh_user_password]. *)
Definition add_ssh_user_password (e : bytes) (u : bytes) (hash : option bytes) : prog :=
  let path := (pf (bs "/ietf-netconf-server:netconf-server/listen/endpoints/endpoint[name='%s']/ssh/ssh-server-parameters/client-authentication/users/user[name='%s']") [e; u]) in
  _add_ssh_user_password path hash.

(** server_config_util_ssh.c 544-566 [nc_server_config_add_ch_ssh_user_password]. *)
Definition add_ch_ssh_user_password (c : bytes) (e : bytes) (u : bytes) (hash : option bytes) : prog :=
  let path := (pf (bs "/ietf-netconf-server:netconf-server/call-home/netconf-client[name='%s']/endpoints/endpoint[name='%s']/ssh/ssh-server-parameters/client-authentication/users/user[name='%s']") [c; e; u]) in
  _add_ssh_user_password path hash.

(** server_config_util_ssh.c 568-575 [nc_server_config_del_ssh_user_password]. *)
Definition del_ssh_user_password (e : bytes) (u : bytes) : prog :=
  delete (pf (bs "/ietf-netconf-server:netconf-server/listen/endpoints/endpoint[name='%s']/ssh/ssh-server-parameters/client-authentication/users/user[name='%s']/password") [e; u]).

(** server_config_util_ssh.c 577-586 [nc_server_config_del_ch_ssh_user_password]. *)
Definition del_ch_ssh_user_password (c : bytes) (e : bytes) (u : bytes) : prog :=
  delete (pf (bs "/ietf-netconf-server:netconf-server/call-home/netconf-client[name='%s']/endpoints/endpoint[name='%s']/ssh/ssh-server-parameters/client-authentication/users/user[name='%s']/password") [c; e; u]).

(** server_config_util_ssh.c 588-609 [nc_server_config_add_ssh_user_interactive]. *)
Definition add_ssh_user_interactive (e : bytes) (u : bytes) : prog :=
  let path := (pf (bs "/ietf-netconf-server:netconf-server/listen/endpoints/endpoint[name='%s']/ssh/ssh-server-parameters/client-authentication/users/user[name='%s']/libnetconf2-netconf-server:keyboard-interactive") [e; u]) in
  append path "use-system-auth" None.

(** server_config_util_ssh.c 611-633 [nc_server_config_add_ch_ssh_user_interactive]. *)
Definition add_ch_ssh_user_interactive (c : bytes) (e : bytes) (u : bytes) : prog :=
  let path := (pf (bs "/ietf-netconf-server:netconf-server/call-home/netconf-client[name='%s']/endpoints/endpoint[name='%s']/ssh/ssh-server-parameters/client-authentication/users/user[name='%s']/libnetconf2-netconf-server:keyboard-interactive") [c; e; u]) in
  append path "use-system-auth" None.

(** server_config_util_ssh.c 635-643 [nc_server_config_del_ssh_user_interactive]. *)
Definition del_ssh_user_interactive (e : bytes) (u : bytes) : prog :=
  delete (pf (bs "/ietf-netconf-server:netconf-server/listen/endpoints/endpoint[name='%s']/ssh/ssh-server-parameters/client-authentication/users/user[name='%s']/libnetconf2-netconf-server:keyboard-interactive") [e; u]).

(** server_config_util_ssh.c 645-654 [nc_server_config_del_ch_ssh_user_interactive]. *)
Definition del_ch_ssh_user_interactive (c : bytes) (e : bytes) (u : bytes) : prog :=
  delete (pf (bs "/ietf-netconf-server:netconf-server/call-home/netconf-client[name='%s']/endpoints/endpoint[name='%s']/ssh/ssh-server-parameters/client-authentication/users/user[name='%s']/libnetconf2-netconf-server:keyboard-interactive") [c; e; u]).

(** server_config_util_ssh.c 656-669 [nc_server_config_del_ssh_user]. *)
Definition del_ssh_user (e : bytes) (u : option bytes) : prog :=
  match u with
  | Some u => delete (pf (bs "/ietf-netconf-server:netconf-server/listen/endpoints/endpoint[name='%s']/ssh/ssh-server-parameters/client-authentication/users/user[name='%s']") [e; u])
  | None => delete (pf (bs "/ietf-netconf-server:netconf-server/listen/endpoints/endpoint[name='%s']/ssh/ssh-server-parameters/client-authentication/users/user") [e])
  end.

(** server_config_util_ssh.c 671-685 [nc_server_config_del_ch_ssh_user]. *)
Definition del_ch_ssh_user (c : bytes) (e : bytes) (u : option bytes) : prog :=
  match u with
  | Some u => delete (pf (bs "/ietf-netconf-server:netconf-server/call-home/netconf-client[name='%s']/endpoints/endpoint[name='%s']/ssh/ssh-server-parameters/client-authentication/users/user[name='%s']") [c; e; u])
  | None => delete (pf (bs "/ietf-netconf-server:netconf-server/call-home/netconf-client[name='%s']/endpoints/endpoint[name='%s']/ssh/ssh-server-parameters/client-authentication/users/user") [c; e])
  end.

(** server_config_util_ssh.c 687-696 [nc_server_config_add_ssh_endpoint_client_ref]. *)
Definition add_ssh_endpoint_client_ref (e : bytes) (r : bytes) : prog :=
  create (Some r) (pf (bs "/ietf-netconf-server:netconf-server/listen/endpoints/endpoint[name='%s']/ssh/ssh-server-parameters/client-authentication/libnetconf2-netconf-server:endpoint-reference") [e]).

(** server_config_util_ssh.c 698-705 [nc_server_config_del_ssh_endpoint_client_ref]. *)
Definition del_ssh_endpoint_client_ref (e : bytes) : prog :=
  delete (pf (bs "/ietf-netconf-server:netconf-server/listen/endpoints/endpoint[name='%s']/ssh/ssh-server-parameters/client-authentication/libnetconf2-netconf-server:endpoint-reference") [e]).

(** server_config_util_ssh.c 707-740 [nc_server_config_add_ssh_truststore_ref]. *)
Definition add_ssh_truststore_ref (e : bytes) (u : bytes) (r : bytes) : prog :=
  create (Some r) (pf (bs "/ietf-netconf-server:netconf-server/listen/endpoints/endpoint[name='%s']/ssh/ssh-server-parameters/client-authentication/users/user[name='%s']/public-keys/central-truststore-reference") [e; u]) ;;
  check_delete (pf (bs "/ietf-netconf-server:netconf-server/listen/endpoints/endpoint[name='%s']/ssh/ssh-server-parameters/client-authentication/users/user[name='%s']/public-keys/inline-definition") [e; u]) ;;
  check_delete (pf (bs "/ietf-netconf-server:netconf-server/listen/endpoints/endpoint[name='%s']/ssh/ssh-server-parameters/client-authentication/users/user[name='%s']/public-keys/libnetconf2-netconf-server:use-system-keys") [e; u]).

(** server_config_util_ssh.c 742-776 [nc_server_config_add_ch_ssh_truststore_ref]. *)
Definition add_ch_ssh_truststore_ref (c : bytes) (e : bytes) (u : bytes) (r : bytes) : prog :=
  create (Some r) (pf (bs "/ietf-netconf-server:netconf-server/call-home/netconf-client[name='%s']/endpoints/endpoint[name='%s']/ssh/ssh-server-parameters/client-authentication/users/user[name='%s']/public-keys/central-truststore-reference") [c; e; u]) ;;
  check_delete (pf (bs "/ietf-netconf-server:netconf-server/call-home/netconf-client[name='%s']/endpoints/endpoint[name='%s']/ssh/ssh-server-parameters/client-authentication/users/user[name='%s']/public-keys/inline-definition") [c; e; u]) ;;
  check_delete (pf (bs "/ietf-netconf-server:netconf-server/call-home/netconf-client[name='%s']/endpoints/endpoint[name='%s']/ssh/ssh-server-parameters/client-authentication/users/user[name='%s']/public-keys/libnetconf2-netconf-server:use-system-keys") [c; e; u]).

(** server_config_util_ssh.c 778-787 [nc_server_config_del_ssh_truststore_ref]. *)
Definition del_ssh_truststore_ref (e : bytes) (u : bytes) : prog :=
  delete (pf (bs "/ietf-netconf-server:netconf-server/listen/endpoint[name='%s']/ssh/ssh-server-parameters/client-authentication/users/user[name='%s']/public-keys/central-truststore-reference") [e; u]).

(** server_config_util_ssh.c 789-798 [nc_server_config_del_ch_ssh_truststore_ref]. *)
Definition del_ch_ssh_truststore_ref (c : bytes) (e : bytes) (u : bytes) : prog :=
  delete (pf (bs "/ietf-netconf-server:netconf-server/call-home/netconf-client[name='%s']/endpoints/endpoint[name='%s']/ssh/ssh-server-parameters/client-authentication/users/user[name='%s']/public-keys/central-truststore-reference") [c; e; u]).

(** server_config_util_tls.c 35-103 [_nc_server_config_add_tls_server_cert]. *)
Definition _add_tls_server_cert (path : bytes) (kp : option pair) (crt : option bytes) : prog :=
  given kp (fun '(priv, fmt, pub) =>
  given crt (fun crt =>
  append path "inline-definition/public-key-format" (Some spki_format) ;;
  append path "inline-definition/public-key" (Some pub) ;;
  append path "inline-definition/private-key-format" (Some fmt) ;;
  append path "inline-definition/cleartext-private-key" (Some priv) ;;
  append path "inline-definition/cert-data" (Some crt) ;;
  check_delete (pf (bs "%s/central-keystore-reference") [path]))).

(** server_config_util_tls.c 105-128 [nc_server_config_add_tls_server_cert]. *)
Definition add_tls_server_cert (e : bytes) (kp : option pair) (crt : option bytes) : prog :=
  let path := (pf (bs "/ietf-netconf-server:netconf-server/listen/endpoints/endpoint[name='%s']/tls/tls-server-parameters/server-identity/certificate") [e]) in
  _add_tls_server_cert path kp crt.

(** server_config_util_tls.c 130-137 [nc_server_config_del_tls_server_cert]. *)
Definition del_tls_server_cert (e : bytes) : prog :=
  delete (pf (bs "/ietf-netconf-server:netconf-server/listen/endpoints/endpoint[name='%s']/tls/tls-server-parameters/server-identity/certificate/inline-definition") [e]).

(** server_config_util_tls.c 139-163 [nc_server_config_add_ch_tls_server_cert]. *)
Definition add_ch_tls_server_cert (c : bytes) (e : bytes) (kp : option pair) (crt : option bytes) : prog :=
  let path := (pf (bs "/ietf-netconf-server:netconf-server/call-home/netconf-client[name='%s']/endpoints/endpoint[name='%s']/tls/tls-server-parameters/server-identity/certificate") [c; e]) in
  _add_tls_server_cert path kp crt.

(** server_config_util_tls.c 165-174 [nc_server_config_del_ch_tls_server_cert]. *)
Definition del_ch_tls_server_cert (c : bytes) (e : bytes) : prog :=
  delete (pf (bs "/ietf-netconf-server:netconf-server/call-home/netconf-client[name='%s']/endpoints/endpoint[name='%s']/tls/tls-server-parameters/server-identity/certificate/inline-definition") [c; e]).

(** server_config_util_tls.c 176-202 [_nc_server_config_add_tls_keystore_ref]. *)
Definition _add_tls_keystore_ref (path ar cr : bytes) : prog :=
  append path "central-keystore-reference/asymmetric-key" (Some ar) ;;
  append path "central-keystore-reference/certificate" (Some cr) ;;
  check_delete (pf (bs "%s/inline-definition") [path]).

(** server_config_util_tls.c 204-225 [nc_server_config_add_tls_keystore_ref]. *)
Definition add_tls_keystore_ref (e : bytes) (ar : bytes) (cr : bytes) : prog :=
  let path := (pf (bs "/ietf-netconf-server:netconf-server/listen/endpoints/endpoint[name='%s']/tls/tls-server-parameters/server-identity/certificate") [e]) in
  _add_tls_keystore_ref path ar cr.

(** server_config_util_tls.c 227-234 [nc_server_config_del_tls_keystore_ref]. *)
Definition del_tls_keystore_ref (e : bytes) : prog :=
  delete (pf (bs "/ietf-netconf-server:netconf-server/listen/endpoints/endpoint[name='%s']/tls/tls-server-parameters/server-identity/certificate/central-keystore-reference") [e]).

(** server_config_util_tls.c 236-257 [nc_server_config_add_ch_tls_keystore_ref]. *)
Definition add_ch_tls_keystore_ref (c : bytes) (e : bytes) (ar : bytes) (cr : bytes) : prog :=
  let path := (pf (bs "/ietf-netconf-server:netconf-server/call-home/netconf-client[name='%s']/endpoints/endpoint[name='%s']/tls/tls-server-parameters/server-identity/certificate") [c; e]) in
  _add_tls_keystore_ref path ar cr.

(** server_config_util_tls.c 259-268 [nc_server_config_del_ch_tls_keystore_ref]. *)
Definition del_ch_tls_keystore_ref (c : bytes) (e : bytes) : prog :=
  delete (pf (bs "/ietf-netconf-server:netconf-server/call-home/netconf-client[name='%s']/endpoints/endpoint[name='%s']/tls/tls-server-parameters/server-identity/certificate/central-keystore-reference") [c; e]).

(** server_config_util_tls.c 270-293 [_nc_server_config_add_tls_client_cert]. *)
Definition _add_tls_client_cert (path : bytes) (crt : option bytes) : prog :=
  given crt (fun crt => append path "cert-data" (Some crt)).

(** server_config_util_tls.c 295-324 [nc_server_config_add_tls_client_cert]. *)
Definition add_tls_client_cert (e : bytes) (n : bytes) (crt : option bytes) : prog :=
  let path := (pf (bs "/ietf-netconf-server:netconf-server/listen/endpoints/endpoint[name='%s']/tls/tls-server-parameters/client-authentication/ee-certs/inline-definition/certificate[name='%s']") [e; n]) in
  _add_tls_client_cert path crt ;;
  check_delete (pf (bs "/ietf-netconf-server:netconf-server/listen/endpoints/endpoint[name='%s']/tls/tls-server-parameters/client-authentication/ee-certs/central-truststore-reference") [e]).

(** server_config_util_tls.c 326-340 [nc_server_config_del_tls_client_cert]. *)
Definition del_tls_client_cert (e : bytes) (n : option bytes) : prog :=
  match n with
  | Some n => delete (pf (bs "/ietf-netconf-server:netconf-server/listen/endpoints/endpoint[name='%s']/tls/tls-server-parameters/client-authentication/ee-certs/inline-definition/certificate[name='%s']") [e; n])
  | None => delete (pf (bs "/ietf-netconf-server:netconf-server/listen/endpoints/endpoint[name='%s']/tls/tls-server-parameters/client-authentication/ee-certs/inline-definition/certificate") [e])
  end.

(** server_config_util_tls.c 342-373 [nc_server_config_add_ch_tls_client_cert]. *)
Definition add_ch_tls_client_cert (c : bytes) (e : bytes) (n : bytes) (crt : option bytes) : prog :=
  let path := (pf (bs "/ietf-netconf-server:netconf-server/call-home/netconf-client[name='%s']/endpoints/endpoint[name='%s']/tls/tls-server-parameters/client-authentication/ee-certs/inline-definition/certificate[name='%s']") [c; e; n]) in
  _add_tls_client_cert path crt ;;
  check_delete (pf (bs "/ietf-netconf-server:netconf-server/call-home/netconf-client[name='%s']/endpoints/endpoint[name='%s']/tls/tls-server-parameters/client-authentication/ee-certs/central-truststore-reference") [c; e]).

(** server_config_util_tls.c 375-390 [nc_server_config_del_ch_tls_client_cert]. *)
Definition del_ch_tls_client_cert (c : bytes) (e : bytes) (n : option bytes) : prog :=
  match n with
  | Some n => delete (pf (bs "/ietf-netconf-server:netconf-server/call-home/netconf-client[name='%s']/endpoints/endpoint[name='%s']/tls/tls-server-parameters/client-authentication/ee-certs/inline-definition/certificate[name='%s']") [c; e; n])
  | None => delete (pf (bs "/ietf-netconf-server:netconf-server/call-home/netconf-client[name='%s']/endpoints/endpoint[name='%s']/tls/tls-server-parameters/client-authentication/ee-certs/inline-definition/certificate") [c; e])
  end.

(** server_config_util_tls.c 392-415 [nc_server_config_add_tls_client_cert_truststore_ref]. *)
Definition add_tls_client_cert_truststore_ref (e : bytes) (r : bytes) : prog :=
  create (Some r) (pf (bs "/ietf-netconf-server:netconf-server/listen/endpoints/endpoint[name='%s']/tls/tls-server-parameters/client-authentication/ee-certs/central-truststore-reference") [e]) ;;
  check_delete (pf (bs "/ietf-netconf-server:netconf-server/listen/endpoints/endpoint[name='%s']/tls/tls-server-parameters/client-authentication/ee-certs/inline-definition") [e]).

(** server_config_util_tls.c 417-424 [nc_server_config_del_tls_client_cert_truststore_ref]. *)
Definition del_tls_client_cert_truststore_ref (e : bytes) : prog :=
  delete (pf (bs "/ietf-netconf-server:netconf-server/listen/endpoints/endpoint[name='%s']/tls/tls-server-parameters/client-authentication/ee-certs/central-truststore-reference") [e]).

(** server_config_util_tls.c 426-451 [nc_server_config_add_ch_tls_client_cert_truststore_ref]. *)
Definition add_ch_tls_client_cert_truststore_ref (c : bytes) (e : bytes) (r : bytes) : prog :=
  create (Some r) (pf (bs "/ietf-netconf-server:netconf-server/call-home/netconf-client[name='%s']/endpoints/endpoint[name='%s']/tls/tls-server-parameters/client-authentication/ee-certs/central-truststore-reference") [c; e]) ;;
  check_delete (pf (bs "/ietf-netconf-server:netconf-server/call-home/netconf-client[name='%s']/endpoints/endpoint[name='%s']/tls/tls-server-parameters/client-authentication/ee-certs/inline-definition") [c; e]).

(** server_config_util_tls.c 453-462 [nc_server_config_del_ch_tls_client_cert_truststore_ref]. *)
Definition del_ch_tls_client_cert_truststore_ref (c : bytes) (e : bytes) : prog :=
  delete (pf (bs "/ietf-netconf-server:netconf-server/call-home/netconf-client[name='%s']/endpoints/endpoint[name='%s']/tls/tls-server-parameters/client-authentication/ee-certs/central-truststore-reference") [c; e]).

(** server_config_util_tls.c 464-493 [nc_server_config_add_tls_ca_cert]. *)
Definition add_tls_ca_cert (e : bytes) (n : bytes) (crt : option bytes) : prog :=
  let path := (pf (bs "/ietf-netconf-server:netconf-server/listen/endpoints/endpoint[name='%s']/tls/tls-server-parameters/client-authentication/ca-certs/inline-definition/certificate[name='%s']") [e; n]) in
  _add_tls_client_cert path crt ;;
  check_delete (pf (bs "/ietf-netconf-server:netconf-server/listen/endpoints/endpoint[name='%s']/tls/tls-server-parameters/client-authentication/ca-certs/central-truststore-reference") [e]).

(** server_config_util_tls.c 495-509 [nc_server_config_del_tls_ca_cert]. *)
Definition del_tls_ca_cert (e : bytes) (n : option bytes) : prog :=
  match n with
  | Some n => delete (pf (bs "/ietf-netconf-server:netconf-server/listen/endpoints/endpoint[name='%s']/tls/tls-server-parameters/client-authentication/ca-certs/inline-definition/certificate[name='%s']") [e; n])
  | None => delete (pf (bs "/ietf-netconf-server:netconf-server/listen/endpoints/endpoint[name='%s']/tls/tls-server-parameters/client-authentication/ca-certs/inline-definition/certificate") [e])
  end.

(** server_config_util_tls.c 511-542 [nc_server_config_add_ch_tls_ca_cert]. *)
Definition add_ch_tls_ca_cert (c : bytes) (e : bytes) (n : bytes) (crt : option bytes) : prog :=
  let path := (pf (bs "/ietf-netconf-server:netconf-server/call-home/netconf-client[name='%s']/endpoints/endpoint[name='%s']/tls/tls-server-parameters/client-authentication/ca-certs/inline-definition/certificate[name='%s']") [c; e; n]) in
  _add_tls_client_cert path crt ;;
  check_delete (pf (bs "/ietf-netconf-server:netconf-server/call-home/netconf-client[name='%s']/endpoints/endpoint[name='%s']/tls/tls-server-parameters/client-authentication/ca-certs/central-truststore-reference") [c; e]).

(** server_config_util_tls.c 544-559 [nc_server_config_del_ch_tls_ca_cert]. *)
Definition del_ch_tls_ca_cert (c : bytes) (e : bytes) (n : option bytes) : prog :=
  match n with
  | Some n => delete (pf (bs "/ietf-netconf-server:netconf-server/call-home/netconf-client[name='%s']/endpoints/endpoint[name='%s']/tls/tls-server-parameters/client-authentication/ca-certs/inline-definition/certificate[name='%s']") [c; e; n])
  | None => delete (pf (bs "/ietf-netconf-server:netconf-server/call-home/netconf-client[name='%s']/endpoints/endpoint[name='%s']/tls/tls-server-parameters/client-authentication/ca-certs/inline-definition/certificate") [c; e])
  end.

(** server_config_util_tls.c 561-584 [nc_server_config_add_tls_ca_cert_truststore_ref]. *)
Definition add_tls_ca_cert_truststore_ref (e : bytes) (r : bytes) : prog :=
  create (Some r) (pf (bs "/ietf-netconf-server:netconf-server/listen/endpoints/endpoint[name='%s']/tls/tls-server-parameters/client-authentication/ca-certs/central-truststore-reference") [e]) ;;
  check_delete (pf (bs "/ietf-netconf-server:netconf-server/listen/endpoints/endpoint[name='%s']/tls/tls-server-parameters/client-authentication/ca-certs/inline-definition") [e]).

(** server_config_util_tls.c 586-593 [nc_server_config_del_tls_ca_cert_truststore_ref]. *)
Definition del_tls_ca_cert_truststore_ref (e : bytes) : prog :=
  delete (pf (bs "/ietf-netconf-server:netconf-server/listen/endpoints/endpoint[name='%s']/tls/tls-server-parameters/client-authentication/ca-certs/central-truststore-reference") [e]).

(** server_config_util_tls.c 595-620 [nc_server_config_add_ch_tls_ca_cert_truststore_ref]. *)
Definition add_ch_tls_ca_cert_truststore_ref (c : bytes) (e : bytes) (r : bytes) : prog :=
  create (Some r) (pf (bs "/ietf-netconf-server:netconf-server/call-home/netconf-client[name='%s']/endpoints/endpoint[name='%s']/tls/tls-server-parameters/client-authentication/ca-certs/central-truststore-reference") [c; e]) ;;
  check_delete (pf (bs "/ietf-netconf-server:netconf-server/call-home/netconf-client[name='%s']/endpoints/endpoint[name='%s']/tls/tls-server-parameters/client-authentication/ca-certs/inline-definition") [c; e]).

(** server_config_util_tls.c 622-631 [nc_server_config_del_ch_tls_ca_cert_truststore_ref]. *)
Definition del_ch_tls_ca_cert_truststore_ref (c : bytes) (e : bytes) : prog :=
  delete (pf (bs "/ietf-netconf-server:netconf-server/call-home/netconf-client[name='%s']/endpoints/endpoint[name='%s']/tls/tls-server-parameters/client-authentication/ca-certs/central-truststore-reference") [c; e]).

(** server_config_util_tls.c 633-654 [nc_server_config_tls_maptype2str]. *)
Inductive maptype := MSpecified | MRfc822 | MDns | MIp | MAny | MCommonName | MUnknown.
Definition maptype2str (m : maptype) : option bytes :=
  match m with
  | MSpecified => Some (bs "ietf-x509-cert-to-name:specified")
  | MRfc822 => Some (bs "ietf-x509-cert-to-name:san-rfc822-name")
  | MDns => Some (bs "ietf-x509-cert-to-name:san-dns-name")
  | MIp => Some (bs "ietf-x509-cert-to-name:san-ip-address")
  | MAny => Some (bs "ietf-x509-cert-to-name:san-any")
  | MCommonName => Some (bs "ietf-x509-cert-to-name:common-name")
  | MUnknown => None
  end.

(** server_config_util_tls.c 656-692 [_nc_server_config_add_tls_ctn]. *)
Definition _add_tls_ctn (path : bytes) (fp : option bytes) (mt : maptype) (name : bytes) : prog :=
  (match fp with
   | Some fp => append path "fingerprint" (Some fp)
   | None => fun s => (s, true)
   end) ;;
  given (maptype2str mt) (fun map =>
  append path "map-type" (Some map) ;;
  append path "name" (Some name)).

(** server_config_util_tls.c 694-716 [nc_server_config_add_tls_ctn]. *)
Definition add_tls_ctn (e : bytes) (id : N) (fp : option bytes) (mt : maptype) (name : bytes) : prog :=
  let path := (pf (bs "/ietf-netconf-server:netconf-server/listen/endpoints/endpoint[name='%s']/tls/netconf-server-parameters/client-identity-mappings/cert-to-name[id='%s']") [e; dec id]) in
  if (id =? 0)%N then fail else _add_tls_ctn path fp mt name.

(** server_config_util_tls.c 718-730 [nc_server_config_del_tls_ctn]. *)
Definition del_tls_ctn (e : bytes) (id : N) : prog :=
  if (id =? 0)%N then delete (pf (bs "/ietf-netconf-server:netconf-server/listen/endpoints/endpoint[name='%s']/tls/netconf-server-parameters/client-identity-mappings/cert-to-name") [e])
  else delete (pf (bs "/ietf-netconf-server:netconf-server/listen/endpoints/endpoint[name='%s']/tls/netconf-server-parameters/client-identity-mappings/cert-to-name[id='%s']") [e; dec id]).

(** server_config_util_tls.c 732-755 [nc_server_config_add_ch_tls_ctn]. *)
Definition add_ch_tls_ctn (c : bytes) (e : bytes) (id : N) (fp : option bytes) (mt : maptype) (name : bytes) : prog :=
  let path := (pf (bs "/ietf-netconf-server:netconf-server/call-home/netconf-client[name='%s']/endpoints/endpoint[name='%s']/tls/netconf-server-parameters/client-identity-mappings/cert-to-name[id='%s']") [c; e; dec id]) in
  if (id =? 0)%N then fail else _add_tls_ctn path fp mt name.

(** server_config_util_tls.c 757-772 [nc_server_config_del_ch_tls_ctn]. *)
Definition del_ch_tls_ctn (c : bytes) (e : bytes) (id : N) : prog :=
  if (id =? 0)%N then delete (pf (bs "/ietf-netconf-server:netconf-server/call-home/netconf-client[name='%s']/endpoints/endpoint[name='%s']/tls/netconf-server-parameters/client-identity-mappings/cert-to-name") [c; e])
  else delete (pf (bs "/ietf-netconf-server:netconf-server/call-home/netconf-client[name='%s']/endpoints/endpoint[name='%s']/tls/netconf-server-parameters/client-identity-mappings/cert-to-name[id='%s']") [c; e; dec id]).

(** server_config_util_tls.c 774-781 [nc_server_config_add_tls_endpoint_client_ref]. *)
Definition add_tls_endpoint_client_ref (e : bytes) (r : bytes) : prog :=
  create (Some r) (pf (bs "/ietf-netconf-server:netconf-server/listen/endpoints/endpoint[name='%s']/tls/tls-server-parameters/client-authentication/libnetconf2-netconf-server:endpoint-reference") [e]).

(** server_config_util_tls.c 783-790 [nc_server_config_del_tls_endpoint_client_ref]. *)
Definition del_tls_endpoint_client_ref (e : bytes) : prog :=
  delete (pf (bs "/ietf-netconf-server:netconf-server/listen/endpoints/endpoint[name='%s']/tls/tls-server-parameters/client-authentication/libnetconf2-netconf-server:endpoint-reference") [e]).
(** ** A call of one of the functions

    Most come in two variants, for endpoints the server listens on and for Call Home. *)
Inductive place := Listen (e : bytes) | CallHome (c e : bytes).

Inductive call :=
| AddressPort (e : bytes) (t : transport) (address : bytes) (port : N)
| ChAddressPort (c e : bytes) (t : transport) (address port : bytes)
| DelEndpt (e : option bytes)
| DelChClient (c : option bytes)
| DelChEndpt (c : bytes) (e : option bytes)
| KsKey (t : transport) (a : bytes) (kp : option pair)
| DelKsKey (a : option bytes)
| KsCert (a n : bytes) (crt : option bytes)
| DelKsCert (a : bytes) (n : option bytes)
| TsKey (b k : bytes) (pub : option bytes)
| DelTsKey (b : bytes) (k : option bytes)
| TsCert (b n : bytes) (crt : option bytes)
| DelTsCert (b : bytes) (n : option bytes)
| Persistent (c : bytes)
| Period (c : bytes) (v : N)
| DelPeriod (c : bytes)
| Anchor (c v : bytes)
| DelAnchor (c : bytes)
| Idle (c : bytes) (v : N)
| DelIdle (c : bytes)
| Reconnect (c : bytes) (sw : start_with) (max_wait max_attempts : N)
| DelReconnect (c : bytes)
| HostKey (l : place) (h : bytes) (kp : option pair)
| DelHostKey (l : place) (h : option bytes)
| HostKeyRef (l : place) (h r : bytes)
| DelHostKeyRef (l : place) (h : bytes)
| UserKey (l : place) (u k : bytes) (pub : option bytes)
| DelUserKey (l : place) (u : bytes) (k : option bytes)
| UserSystem (l : place) (u : bytes)
| DelUserSystem (l : place) (u : bytes)
| Password (l : place) (u : bytes) (hash : option bytes)
| DelPassword (l : place) (u : bytes)
| Interactive (l : place) (u : bytes)
| DelInteractive (l : place) (u : bytes)
| DelUser (l : place) (u : option bytes)
| SshEndptRef (e r : bytes)
| DelSshEndptRef (e : bytes)
| UserRef (l : place) (u r : bytes)
| DelUserRef (l : place) (u : bytes)
| ServerCert (l : place) (kp : option pair) (crt : option bytes)
| DelServerCert (l : place)
| ServerCertRef (l : place) (ar cr : bytes)
| DelServerCertRef (l : place)
| EeCert (l : place) (n : bytes) (crt : option bytes)
| DelEeCert (l : place) (n : option bytes)
| EeRef (l : place) (r : bytes)
| DelEeRef (l : place)
| CaCert (l : place) (n : bytes) (crt : option bytes)
| DelCaCert (l : place) (n : option bytes)
| CaRef (l : place) (r : bytes)
| DelCaRef (l : place)
| Ctn (l : place) (id : N) (fp : option bytes) (mt : maptype) (name : bytes)
| DelCtn (l : place) (id : N)
| TlsEndptRef (e r : bytes)
| DelTlsEndptRef (e : bytes).

Definition run (x : call) : prog :=
  match x with
  | AddressPort e t a p => add_address_port e t a p
  | ChAddressPort c e t a p => add_ch_address_port c e t a p
  | DelEndpt e => del_endpt e
  | DelChClient c => del_ch_client c
  | DelChEndpt c e => del_ch_endpt c e
  | KsKey t a kp => add_keystore_asym_key t a kp
  | DelKsKey a => del_keystore_asym_key a
  | KsCert a n crt => add_keystore_cert a n crt
  | DelKsCert a n => del_keystore_cert a n
  | TsKey b k pub => add_truststore_pubkey b k pub
  | DelTsKey b k => del_truststore_pubkey b k
  | TsCert b n crt => add_truststore_cert b n crt
  | DelTsCert b n => del_truststore_cert b n
  | Persistent c => add_ch_persistent c
  | Period c v => add_ch_period c v
  | DelPeriod c => del_ch_period c
  | Anchor c v => add_ch_anchor_time c v
  | DelAnchor c => del_ch_anchor_time c
  | Idle c v => add_ch_idle_timeout c v
  | DelIdle c => del_ch_idle_timeout c
  | Reconnect c sw w a => add_ch_reconnect_strategy c sw w a
  | DelReconnect c => del_ch_reconnect_strategy c
  | HostKey (Listen e) h kp => add_ssh_hostkey e h kp
  | HostKey (CallHome c e) h kp => add_ch_ssh_hostkey c e h kp
  | DelHostKey (Listen e) h => del_ssh_hostkey e h
  | DelHostKey (CallHome c e) h => del_ch_ssh_hostkey c e h
  | HostKeyRef (Listen e) h r => add_ssh_keystore_ref e h r
  | HostKeyRef (CallHome c e) h r => add_ch_ssh_keystore_ref c e h r
  | DelHostKeyRef (Listen e) h => del_ssh_keystore_ref e h
  | DelHostKeyRef (CallHome c e) h => del_ch_ssh_keystore_ref c e h
  | UserKey (Listen e) u k pub => add_ssh_user_pubkey e u k pub
  | UserKey (CallHome c e) u k pub => add_ch_ssh_user_pubkey c e u k pub
  | DelUserKey (Listen e) u k => del_ssh_user_pubkey e u k
  | DelUserKey (CallHome c e) u k => del_ch_ssh_user_pubkey c e u k
  | UserSystem (Listen e) u => add_ssh_user_authkey e u
  | UserSystem (CallHome c e) u => add_ch_ssh_user_authkey c e u
  | DelUserSystem (Listen e) u => del_ssh_user_authkey e u
  | DelUserSystem (CallHome c e) u => ch_del_ssh_user_authkey c e u
  | Password (Listen e) u h => add_ssh_user_password e u h
  | Password (CallHome c e) u h => add_ch_ssh_user_password c e u h
  | DelPassword (Listen e) u => del_ssh_user_password e u
  | DelPassword (CallHome c e) u => del_ch_ssh_user_password c e u
  | Interactive (Listen e) u => add_ssh_user_interactive e u
  | Interactive (CallHome c e) u => add_ch_ssh_user_interactive c e u
  | DelInteractive (Listen e) u => del_ssh_user_interactive e u
  | DelInteractive (CallHome c e) u => del_ch_ssh_user_interactive c e u
  | DelUser (Listen e) u => del_ssh_user e u
  | DelUser (CallHome c e) u => del_ch_ssh_user c e u
  | SshEndptRef e r => add_ssh_endpoint_client_ref e r
  | DelSshEndptRef e => del_ssh_endpoint_client_ref e
  | UserRef (Listen e) u r => add_ssh_truststore_ref e u r
  | UserRef (CallHome c e) u r => add_ch_ssh_truststore_ref c e u r
  | DelUserRef (Listen e) u => del_ssh_truststore_ref e u
  | DelUserRef (CallHome c e) u => del_ch_ssh_truststore_ref c e u
  | ServerCert (Listen e) kp crt => add_tls_server_cert e kp crt
  | ServerCert (CallHome c e) kp crt => add_ch_tls_server_cert c e kp crt
  | DelServerCert (Listen e) => del_tls_server_cert e
  | DelServerCert (CallHome c e) => del_ch_tls_server_cert c e
  | ServerCertRef (Listen e) ar cr => add_tls_keystore_ref e ar cr
  | ServerCertRef (CallHome c e) ar cr => add_ch_tls_keystore_ref c e ar cr
  | DelServerCertRef (Listen e) => del_tls_keystore_ref e
  | DelServerCertRef (CallHome c e) => del_ch_tls_keystore_ref c e
  | EeCert (Listen e) n crt => add_tls_client_cert e n crt
  | EeCert (CallHome c e) n crt => add_ch_tls_client_cert c e n crt
  | DelEeCert (Listen e) n => del_tls_client_cert e n
  | DelEeCert (CallHome c e) n => del_ch_tls_client_cert c e n
  | EeRef (Listen e) r => add_tls_client_cert_truststore_ref e r
  | EeRef (CallHome c e) r => add_ch_tls_client_cert_truststore_ref c e r
  | DelEeRef (Listen e) => del_tls_client_cert_truststore_ref e
  | DelEeRef (CallHome c e) => del_ch_tls_client_cert_truststore_ref c e
  | CaCert (Listen e) n crt => add_tls_ca_cert e n crt
  | CaCert (CallHome c e) n crt => add_ch_tls_ca_cert c e n crt
  | DelCaCert (Listen e) n => del_tls_ca_cert e n
  | DelCaCert (CallHome c e) n => del_ch_tls_ca_cert c e n
  | CaRef (Listen e) r => add_tls_ca_cert_truststore_ref e r
  | CaRef (CallHome c e) r => add_ch_tls_ca_cert_truststore_ref c e r
  | DelCaRef (Listen e) => del_tls_ca_cert_truststore_ref e
  | DelCaRef (CallHome c e) => del_ch_tls_ca_cert_truststore_ref c e
  | Ctn (Listen e) id fp mt n => add_tls_ctn e id fp mt n
  | Ctn (CallHome c e) id fp mt n => add_ch_tls_ctn c e id fp mt n
  | DelCtn (Listen e) id => del_tls_ctn e id
  | DelCtn (CallHome c e) id => del_ch_tls_ctn c e id
  | TlsEndptRef e r => add_tls_endpoint_client_ref e r
  | DelTlsEndptRef e => del_tls_endpoint_client_ref e
  end.

End Build.
