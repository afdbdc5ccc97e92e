(** Which callback of the server handles a request: session_server.c 60, 773-796 [nc_server_init_cb_ctx], 995, 2507, 2721, 1663-1667
    [nc_set_global_rpc_clb], 1704-1750 [nc_server_send_reply_io], netconf.h 49 [nc_set_rpc_callback]. *)
From Coq Require Import Bool Arith List.
Import ListNotations.

(** A node of the schema: its context and its place in it.  Functions of the application are numbers. *)
Definition node := (nat * nat)%type.
Definition node_eqb (a b : node) : bool := Nat.eqb (fst a) (fst b) && Nat.eqb (snd a) (snd b).
Inductive kind := KRpc | KAction | KOther.
Inductive clb := App (f : nat) | DefSchema | DefClose.

(** What libyang says of contexts: the kind of a node; ly_ctx_get_module_implemented() of "ietf-netconf-monitoring" with lys_find_path() of
    its get-schema (782-784); lys_find_path() of close-session (790). *)
Record lib := mkLib { l_kind : node -> kind; l_schema : nat -> option nat; l_close : nat -> option nat }.

(** The private pointer of schema nodes, the global callback (line 60). *)
Record st := mkSt { priv : node -> option clb; glob : option nat }.
Definition start : st := mkSt (fun _ => None) None.
Definition set_priv (x : st) (n : node) (v : option clb) : st := mkSt (fun m => if node_eqb m n then v else priv x m) (glob x).

(** Lines 785-787 and 791-793. *)
Definition default (x : st) (c : nat) (n : option nat) (d : clb) : st :=
  match n with
  | Some k => match priv x (c, k) with None => set_priv x (c, k) (Some d) | Some _ => x end
  | None => x
  end.
(** Lines 773-796 [nc_server_init_cb_ctx]. *)
Definition init_cb_ctx (L : lib) (x : st) (c : nat) : st :=
  match glob x with
  | Some _ => x
  | None => default (default x c (l_schema L c) DefSchema) c (l_close L c) DefClose
  end.

(** A request: the data tree that libyang made of it. *)
Inductive tree := Node (n : nat) (kids : list tree).
Definition root (t : tree) : nat := match t with Node n _ => n end.
(** LYD_TREE_DFS_BEGIN (lines 1723-1729): parents before children, children in order, until the first action.  Nodes without a schema are not
    modelled: libyang is told to refuse them (messages are parsed with LYD_PARSE_STRICT). *)
Fixpoint first_action (L : lib) (c : nat) (t : tree) : option nat :=
  match t with
  | Node n kids =>
      match l_kind L (c, n) with
      | KAction => Some n
      | _ => (fix go (l : list tree) : option nat :=
                match l with [] => None | k :: r => match first_action L c k with Some a => Some a | None => go r end end) kids
      end
  end.
(** Lines 1718-1735. *)
Definition operation (L : lib) (c : nat) (t : tree) : option nat :=
  match l_kind L (c, root t) with KRpc => Some (root t) | _ => first_action L c t end.

(** What happens with a request; the functions that are called, in order. *)
Inductive call := Calls (d : clb) | CallsGlobal (f : nat) | NotSupported | Internal.
(** Lines 1737-1747. *)
Definition dispatch (L : lib) (x : st) (c : nat) (t : tree) : list call :=
  match operation L c t with
  | None => [Internal]
  | Some n =>
      match priv x (c, n) with
      | None => match glob x with None => [NotSupported] | Some g => [CallsGlobal g] end
      | Some d => [Calls d]
      end
  end.

(** What the application does: nc_set_rpc_callback(), nc_set_global_rpc_clb(), accepting a session with a context (nc_accept(),
    nc_accept_inout(), Call Home). *)
Inductive ev := SetClb (n : node) (f : option nat) | SetGlobal (f : option nat) | Accept (c : nat).
Definition step (L : lib) (x : st) (v : ev) : st :=
  match v with
  | SetClb n f => set_priv x n (option_map App f)
  | SetGlobal f => mkSt (priv x) f
  | Accept c => init_cb_ctx L x c
  end.
Definition run (L : lib) (h : list ev) : st := fold_left (step L) h start.
