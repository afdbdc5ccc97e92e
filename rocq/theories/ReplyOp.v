(** Receiving the reply of a request: the operation a reply is read as and the trees made on the way,
    src/session_client.c 2197-2432, and the two places of the library that wait for one, 447-529 and 825-893. *)
From Coq Require Import String Ascii NArith Bool List.
From Verif Require Import RpcSend.
Import ListNotations.
Local Open Scope string_scope.
Local Open Scope list_scope.

(* ------------------------------------------------------------------ *)
(** ** Requests *)

(** A tree given to nc_rpc_act_generic(): what libyang knows about a node ([Opaque]: its schema is NULL), the names of
    its module and of itself, the children. *)
Inductive kind := Opaque | Plain | Operation.
Inductive gtree := G (k : kind) (m n : string) (cs : list gtree).

(** [struct nc_rpc]: one of the requests of RpcSend.v, a generic one with data, a generic one with a text
    (messages_client.c 46-93). *)
Inductive request := Std (r : rpc) | GData (t : gtree) | GXml (s : string).

(* ------------------------------------------------------------------ *)
(** ** Trees of libyang: made and freed *)

Definition tree := nat.
Inductive ev := New (t : tree) | Free (t : tree).
Record heap := mkH { h_next : tree; h_log : list ev }.

Definition mk (h : heap) : tree * heap := (h_next h, mkH (Datatypes.S (h_next h)) (h_log h ++ [New (h_next h)])).
(** lyd_free_tree(); of NULL nothing. *)
Definition fr (t : option tree) (h : heap) : heap :=
  match t with Some t => mkH (h_next h) (h_log h ++ [Free t]) | None => h end.

(* ------------------------------------------------------------------ *)
(** ** Lines 2241-2401 [recv_reply_dup_rpc] *)

(** 2258-2265: the first operation on the way through the tree; [FWild]: the schema of a node without one is read. *)
Inductive found := Found (m n : string) | NotFound | FWild.
Fixpoint first_op (t : gtree) : found :=
  let fix go (ts : list gtree) : found :=
    match ts with
    | [] => NotFound
    | t :: r => match first_op t with NotFound => go r | x => x end
    end in
  match t with
  | G Opaque _ _ _ => FWild
  | G Operation m n _ => Found m n
  | G Plain _ _ cs => go cs
  end.

(** 2282-2376: the module and the name of the operation; 2356, 2361: the other module that has to be there. *)
Definition named (r : rpc) : string * string * option string :=
  match r with
  | GetConfig _ _ _ => ("ietf-netconf", "get-config", None)
  | Edit _ _ _ _ _ => ("ietf-netconf", "edit-config", None)
  | Copy _ _ _ _ _ => ("ietf-netconf", "copy-config", None)
  | Delete _ _ => ("ietf-netconf", "delete-config", None)
  | Lock _ => ("ietf-netconf", "lock", None)
  | Unlock _ => ("ietf-netconf", "unlock", None)
  | Get _ _ => ("ietf-netconf", "get", None)
  | Kill _ => ("ietf-netconf", "kill-session", None)
  | Commit _ _ _ _ => ("ietf-netconf", "commit", None)
  | Discard => ("ietf-netconf", "discard-changes", None)
  | Cancel _ => ("ietf-netconf", "cancel-commit", None)
  | Validate _ _ => ("ietf-netconf", "validate", None)
  | GetSchema _ _ _ => ("ietf-netconf-monitoring", "get-schema", None)
  | Subscribe _ _ _ _ => ("notifications", "create-subscription", None)
  | GetData _ _ _ _ _ _ _ _ => ("ietf-netconf-nmda", "get-data", None)
  | EditData _ _ _ => ("ietf-netconf-nmda", "edit-data", None)
  | EstSub _ _ _ _ _ => ("ietf-subscribed-notifications", "establish-subscription", None)
  | ModSub _ _ _ => ("ietf-subscribed-notifications", "modify-subscription", None)
  | DelSub _ => ("ietf-subscribed-notifications", "delete-subscription", None)
  | KillSub _ => ("ietf-subscribed-notifications", "kill-subscription", None)
  | EstPush _ _ _ _ _ => ("ietf-subscribed-notifications", "establish-subscription", Some "ietf-yang-push")
  | ModPush _ _ _ _ _ => ("ietf-subscribed-notifications", "modify-subscription", Some "ietf-yang-push")
  | Resync _ => ("ietf-yang-push", "resync-subscription", None)
  end.

(** What libyang does: [w_mods] ly_ctx_get_module_implemented() finds the module, [w_inner] lyd_new_inner() makes the
    operation, [w_dup] lyd_dup_single() succeeds, [w_xml] the operation lyd_parse_op() finds in a text. *)
Record world := mkW { w_mods : string -> bool; w_inner : string -> string -> bool; w_dup : bool; w_xml : string -> option (string * string) }.

(** The result: [d_ok] 0 is returned; [d_op] the pointer afterwards; [d_is] the operation it points to, if this call made it. *)
Inductive dres := DRet (d_ok : bool) (d_op : option tree) (d_is : option (string * string)) (h : heap) | DWild.

Definition made (m n : string) (h : heap) : dres := let (t, h) := mk h in DRet true (Some t) (Some (m, n)) h.

Definition dup_rpc (w : world) (q : request) (op : option tree) (h : heap) : dres :=
  match q with
  | GData t =>                                                                          (* 2254-2265 *)
    match first_op t with
    | Found m n => if w_dup w then made m n h else DRet false op None h
    | NotFound => DRet false op None h
    | FWild => DWild
    end
  | GXml s =>                                                                           (* 2267-2279 *)
    match w_xml w s with
    | None => DRet false op None h
    | Some (m, n) =>
      let (t, h) := mk h in
      if w_dup w then match made m n h with DRet ok o i h => DRet ok o i (fr (Some t) h) | DWild => DWild end
      else DRet false op None (fr (Some t) h)
    end
  | Std r =>
    let '(m, n, check) := named r in
    if negb (w_mods w m) then DRet false op None h                                      (* 2378-2383 *)
    else
      let bad := match check with Some c => negb (w_mods w c) | None => false end in    (* 2388-2393 *)
      if w_inner w m n then
        match made m n h with DRet ok o i h => DRet (negb bad) o i h | DWild => DWild end
      else DRet false op None h
  end.

(* ------------------------------------------------------------------ *)
(** ** Lines 2197-2238 [recv_reply], 2403-2432 [nc_recv_reply] *)

Inductive code := CError | CWouldblock | CNotif | CReply | CErrMsgid.

(** What comes: no reply (2211-2214, the value recv_msg() returned) or one: [envp] lyd_parse_op() made the envelope, [bad] it
    failed, [idok] the message-id is the expected one, [data] it put children into the operation. *)
Inductive got := GNone (c : code) | GReply (envp bad idok data : bool).

Inductive rres := RRet (c : code) (envp op : option tree) (is : option (string * string)) (h : heap) | RWild.

(** [running]: a running session of a client.  [envp], [op]: the variables of the caller before the call. *)
Definition nc_recv_reply (running : bool) (w : world) (q : request) (g : got) (envp op : option tree) (h : heap) : rres :=
  if negb running then RRet CError envp op None h                                       (* 2411-2414 *)
  else match dup_rpc w q op h with
  | DWild => RWild
  | DRet false op i h => RRet CError envp op i h                                        (* 2417-2419 *)
  | DRet true op i h =>
    let '(c, envp, data, h) :=
      match g with
      | GNone c => (c, None, false, h)                                                  (* 2207, 2212 *)
      | GReply true _ idok data => let (t, h) := mk h in (if idok then CReply else CErrMsgid, Some t, data, h)   (* 2221-2225 *)
      | GReply false true _ data => (CError, None, data, h)                             (* 2227-2233 *)
      | GReply false false _ data => (CReply, None, data, h)
      end in
    let keep := match c with CReply | CErrMsgid => data | _ => false end in             (* 2425 *)
    if keep then RRet c envp op i h else RRet c envp None None (fr op h)
  end.

(* ------------------------------------------------------------------ *)
(** ** Waiting for a reply *)

(** One turn of a loop: the session, libyang and what comes. *)
Record turn := mkT { t_running : bool; t_world : world; t_got : got }.
Definition again (c : code) : bool := match c with CNotif | CErrMsgid => true | _ => false end.

(** Lines 857-862 [get_oper_data], then 883-886; the answer itself is the data of [op], which are taken out of it.  [None]:
    still waiting after these turns. *)
Fixpoint oper_loop (q : request) (ts : list turn) (envp op : option tree) (h : heap) : option (code * option tree * option tree * heap) :=
  match ts with
  | [] => None
  | t :: r =>
    let h := fr op (fr envp h) in
    match nc_recv_reply (t_running t) (t_world t) q (t_got t) envp op h with
    | RRet c envp op _ h => if again c then oper_loop q r envp op h else Some (c, envp, op, h)
    | RWild => None
    end
  end.
Definition get_oper_data (q : request) (ts : list turn) : option (code * heap) :=
  match oper_loop q ts None None (mkH 0 []) with
  | Some (c, envp, op, h) => Some (c, fr op (fr envp h))
  | None => None
  end.

(** Lines 459-461 [retrieve_module_data_getschema], then 525-527. *)
Fixpoint schema_loop (q : request) (ts : list turn) (envp op : option tree) (h : heap) : option (code * option tree * option tree * heap) :=
  match ts with
  | [] => None
  | t :: r =>
    match nc_recv_reply (t_running t) (t_world t) q (t_got t) envp op h with
    | RRet c envp op _ h => if again c then schema_loop q r envp op h else Some (c, envp, op, h)
    | RWild => None
    end
  end.
Definition get_schema (q : request) (ts : list turn) : option (code * heap) :=
  match schema_loop q ts None None (mkH 0 []) with
  | Some (c, envp, op, h) => Some (c, fr op (fr envp h))
  | None => None
  end.
