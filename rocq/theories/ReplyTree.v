(** Model of what happens to the trees of a reply when it is written: src/io.c 917-1019 (nc_write_msg_io with NC_MSG_REPLY).  What is written is told
    as the tree given to lyd_print_clb() (its bytes: IoWrite.v). *)
From Coq Require Import Bool List.
From Verif Require Import Bytes.
Import ListNotations.

Section Tree.
(** The nodes of libyang and the attributes of opaque nodes. *)
Variables (A attrs : Type).
(** lyd_insert_child() of one node: into the (opaque) envelope; into the operation of a reply with data.  That it succeeds is assumed. *)
Variables ins_env ins_op : list A -> A -> list A.

(** struct nc_server_reply: the children of the operation of a reply with data; the errors, linked to each other. *)
Inductive reply := ROk | RData (l : list A) | RErr (l : list A) | RUnknown.
(** The envelope of the RPC: name.prefix, name.module_ns and the attributes. *)
Record envelope := { e_prefix : option bytes; e_ns : bytes; e_attr : attrs }.

Inductive body := BOk (prefix : option bytes) (ns : bytes) | BNodes (l : list A).
(** The tree that is printed: "rpc-reply" with prefix, namespace, attributes and content. *)
Record printed := { p_prefix : option bytes; p_ns : bytes; p_attr : option attrs; p_body : body }.

(** The result: [w_ok], whether writing goes on to the end of the message; what was printed; the reply afterwards; nodes of the reply that were freed;
    whether the envelope is lost (the attributes of the RPC are taken from it before it is freed).  [Null]: NULL was read. *)
Record done := { w_ok : bool; w_tree : option printed; w_reply : reply; w_freed : list A; w_lost : bool }.
Inductive result := Done (d : done) | Null.

(** What the libraries give: are the envelope and the node "ok" made, is the tree printed. *)
Record world := { makes_env : bool; makes_ok : bool; prints : bool }.

Definition fails (r : reply) (lost : bool) : result :=
  Done {| w_ok := false; w_tree := None; w_reply := r; w_freed := []; w_lost := lost |}.

(** Inserting a node without parent inserts all that follow it, too. *)
Definition ins_all (l : list A) : list A := fold_left ins_env l [].

(** Lines 917-1019; NC_NS_BASE is [base]. *)
Definition write_reply (base : bytes) (w : world) (rpc : option envelope) (r : reply) : result :=
  if negb (makes_env w) then fails r false                                       (* 922-935 *)
  else
    let prefix := match rpc with Some e => e_prefix e | None => None end in
    let ns := match rpc with Some e => e_ns e | None => base end in
    let attr := match rpc with Some e => Some (e_attr e) | None => None end in   (* 987-990 *)
    let tree b := Some {| p_prefix := prefix; p_ns := ns; p_attr := attr; p_body := b |} in
    match r with
    | ROk =>                                                                     (* 938-946, 998-1001 *)
        match rpc with
        | None => Null
        | Some e =>
            if negb (makes_ok w) then fails r false
            else Done {| w_ok := prints w; w_tree := tree (BOk (e_prefix e) (e_ns e)); w_reply := r; w_freed := []; w_lost := false |}
        end
    | RData l =>                                                                 (* 947-973, 1002-1008 *)
        let moved := fold_left ins_env l [] in
        Done {| w_ok := prints w; w_tree := tree (BNodes moved); w_reply := RData (fold_left ins_op moved []); w_freed := []; w_lost := false |}
    | RErr l =>                                                                  (* 974-977, 1009-1013: only the first child is unlinked *)
        let moved := ins_all l in
        Done {| w_ok := prints w; w_tree := tree (BNodes moved); w_reply := RErr (firstn 1 moved); w_freed := skipn 1 moved; w_lost := false |}
    | RUnknown => fails r true                                                   (* 978-982 *)
    end.
End Tree.
Arguments ROk {A}. Arguments RData {A}. Arguments RErr {A}. Arguments RUnknown {A}.
Arguments BOk {A}. Arguments BNodes {A}. Arguments Done {A attrs}. Arguments Null {A attrs}.
Arguments w_ok {A attrs}. Arguments w_tree {A attrs}. Arguments w_reply {A attrs}. Arguments w_freed {A attrs}. Arguments w_lost {A attrs}.
Arguments p_prefix {A attrs}. Arguments p_ns {A attrs}. Arguments p_attr {A attrs}. Arguments p_body {A attrs}.
Arguments e_prefix {attrs}. Arguments e_ns {attrs}. Arguments e_attr {attrs}. Arguments fails {A attrs}. Arguments write_reply {A attrs}.
