(** One listening endpoint of the server with its memory: the options of the transport, the address it
    listens on and the socket, as the handlers of changes of the configuration leave them.
    Blocks and sockets are numbers; what happens to one that is gone is a result of its own.
    Simplification: the options are one block each (what hangs on them is in ChConf, CertCfg, SshAuth); memory suffices. *)
From Coq Require Import NArith Arith Bool List.
Import ListNotations.

Inductive tk := Ssh | Tls.
Inductive blk := BOpts (t : tk) | BStr.
Definition tk_eqb (a b : tk) : bool := match a, b with Ssh, Ssh | Tls, Tls => true | _, _ => false end.

(** session_p.h struct nc_endpt (ti, opts) and struct nc_bind (address, port, sock). *)
Record st := mkSt { ti : option tk; opts : nat; addr : option nat; port : N; sock : option nat; live : nat -> option blk; open : nat -> bool; nxt : nat }.

Inductive bad := DoubleFree | UseAfterFree | WrongType | BadClose | Assertion.
(** [Fail]: the handler returned an error, the configuration is not read further. *)
Inductive res := Ok (s : st) | Fail (s : st) | Bad (b : bad).
Definition andthen (r : res) (f : st -> res) : res := match r with Ok s => f s | x => x end.

Definition upd {A} (f : nat -> A) (i : nat) (v : A) : nat -> A := fun j => if Nat.eqb j i then v else f j.
Definition with_live (s : st) l := mkSt (ti s) (opts s) (addr s) (port s) (sock s) l (open s) (nxt s).
Definition with_open (s : st) o := mkSt (ti s) (opts s) (addr s) (port s) (sock s) (live s) o (nxt s).

(** free(): nothing for NULL. *)
Definition free (p : option nat) (s : st) : res :=
  match p with
  | None => Ok s
  | Some i => match live s i with None => Bad DoubleFree | Some _ => Ok (with_live s (upd (live s) i None)) end
  end.
(** if (sock > -1) close(sock). *)
Definition close (p : option nat) (s : st) : res :=
  match p with
  | None => Ok s
  | Some i => if open s i then Ok (with_open s (upd (open s) i false)) else Bad BadClose
  end.

(** server_config.c 1200-1208 [nc_server_config_create_ssh], 1278-1286 [nc_server_config_create_tls]. *)
Definition create (t : tk) (s : st) : res :=
  Ok (mkSt (Some t) (nxt s) (addr s) (port s) (sock s) (upd (live s) (nxt s) (Some (BOpts t))) (open s) (S (nxt s))).

(** server_config.c 638-666 [nc_server_config_del_ssh_opts], 825-850 [nc_server_config_del_tls_opts]: neither bind nor endpt is changed. *)
Definition del_opts (t : tk) (s : st) : res :=
  andthen (free (addr s) s) (fun s => andthen (close (sock s) s) (fun s =>
    match live s (opts s) with
    | None => Bad UseAfterFree
    | Some (BOpts u) => if tk_eqb u t then free (Some (opts s)) s else Bad WrongType
    | Some BStr => Bad UseAfterFree
    end)).

(** session_server.c 2197-2258 [nc_server_set_address_port]; [isset]: an address is given; [l]: listening succeeds. *)
Definition set_address_port (isset : bool) (p : N) (l : bool) (s : st) : res :=
  if Bool.eqb isset (N.eqb p 0) then
    let port' := if isset then port s else p in
    let has := if isset then true else match addr s with Some _ => true | None => false end in
    if has && negb (N.eqb port' 0) then
      if l then andthen (close (sock s) s) (fun s => Ok (mkSt (ti s) (opts s) (addr s) (port s) (Some (nxt s)) (live s) (upd (open s) (nxt s) true) (S (nxt s))))
      else Fail s
    else Ok s
  else Bad Assertion.

(** Children of the container of the transport: the local address, the local port, anything else that is stored in the options. *)
Inductive leaf := LAddr (listens : bool) | LPort (p : N) (listens : bool) | LOpt.
(** server_config.c 1353-1380 [nc_server_config_local_address], the operation is not looked at; the new string is made at once. *)
Definition h_addr (l : bool) (s : st) : res :=
  andthen (free (addr s) s) (fun s =>
    set_address_port true 0 l (mkSt (ti s) (opts s) (Some (nxt s)) (port s) (sock s) (upd (live s) (nxt s) (Some BStr)) (open s) (S (nxt s)))).
(** server_config.c 1414-1440 [nc_server_config_local_port]; 0 for a removal. *)
Definition h_port (p : N) (l : bool) (s : st) : res :=
  set_address_port false p l (mkSt (ti s) (opts s) (addr s) p (sock s) (live s) (open s) (nxt s)).
(** Any handler below ssh or tls that reads or writes endpt->opts, e.g. server_config.c 1684-1720 [nc_server_config_host_key]. *)
Definition h_opt (t : tk) (s : st) : res :=
  match live s (opts s) with Some (BOpts u) => if tk_eqb u t then Ok s else Bad WrongType | _ => Bad UseAfterFree end.
Definition h_leaf (t : tk) (x : leaf) (s : st) : res :=
  match x with LAddr l => h_addr l s | LPort p l => h_port p l s | LOpt => h_opt t s end.
Fixpoint h_leafs (t : tk) (l : list leaf) (s : st) : res := match l with [] => Ok s | x :: l => andthen (h_leaf t x s) (h_leafs t l) end.

Definition other (t : tk) : tk := match t with Ssh => Tls | Tls => Ssh end.
(** One change of the configuration of the endpoint, server_config.c 4143-4211 [nc_server_config_parse_tree]: other children under
    the container of the transport, or another container; the new one is created before the old one is removed or after it,
    as the nodes are ordered.  1237-1345 [nc_server_config_ssh], [nc_server_config_tls]. *)
Inductive chg := Edit (l : list leaf) | Switch (first : bool) (l : list leaf).
Definition change (c : chg) (s : st) : res :=
  match ti s, c with
  | None, _ => Fail s
  | Some t, Edit l => h_leafs t l s
  | Some t, Switch first l =>
      let make s := andthen (create (other t) s) (h_leafs (other t) l) in
      if first then andthen (make s) (del_opts t) else andthen (del_opts t s) make
  end.
Fixpoint changes (l : list chg) (s : st) : res := match l with [] => Ok s | c :: l => andthen (change c s) (changes l) end.

(** server_config.c 1101-1124 [nc_server_config_create_endpoint]: no transport, no options (block 0 is none), no socket. *)
Definition new_endpt : st := mkSt None 0 None 0 None (fun _ => None) (fun _ => false) 1.
(** The endpoint is created with the container of its transport. *)
Definition start (t : tk) (l : list leaf) : res := andthen (create t new_endpt) (h_leafs t l).
(** server_config.c 1151-1167: the endpoint is removed. *)
Definition destroy (s : st) : res := match ti s with Some t => del_opts t s | None => Fail s end.
Definition state (r : res) : option st := match r with Ok s | Fail s => Some s | Bad _ => None end.
