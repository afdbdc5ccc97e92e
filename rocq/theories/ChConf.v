(** Call Home part of the server configuration: application of YANG data and of
    YANG diffs (server_config.c).

    Not modelled here: the contents of the SSH and TLS options of an endpoint
    (their handlers are the oracle [other]), memory exhaustion, the wrap of the
    16-bit counters at 65536 entries, the locks (the callers hold the
    configuration lock for the whole call; the threads are in ChThread.v) and
    the [listen] subtree. *)
From Coq Require Import String List NArith ZArith Lia Bool.
From Verif Require Import Bytes.
Import ListNotations.
Local Open Scope N_scope.
Local Open Scope list_scope.

(** session_p.h:38-44, NC_OPERATION; NC_OP_UNKNOWN is [None] of [option op]. *)
Inductive op := ONone | OCreate | ODelete | OReplace.

(** A node of a diff or of data: schema name, whether it is a list (a libyang
    node type), the value of its yang:operation metadata if any, the canonical
    value as a string, as an unsigned number and as a time, and the children.
    (libyang's struct lyd_node; a node has one value, which the handlers read in
    one of the three ways.) *)
Inductive dnode := DN (nm : bytes) (islist : bool) (meta : option bytes)
                      (str : bytes) (num : N) (sec : Z) (kids : list dnode).
Definition d_name '(DN n _ _ _ _ _ _) := n.
Definition d_list '(DN _ l _ _ _ _ _) := l.
Definition d_meta '(DN _ _ m _ _ _ _) := m.
Definition d_str '(DN _ _ _ s _ _ _) := s.
Definition d_num '(DN _ _ _ _ n _ _) := n.
Definition d_sec '(DN _ _ _ _ _ t _) := t.
Definition d_kids '(DN _ _ _ _ _ _ k) := k.

(** session_p.h:534-556, struct nc_ch_endpt, with the pointers' states:
    [e_freed] says that the members were released although the entry is still
    counted; [e_opts] is the union of option pointers: [None] is NULL,
    [Some OFreed] a pointer to released memory. *)
Inductive tik := TNone | TSsh | TTls.
Inductive okind := OSsh | OTls | OFreed.
Record endpt := { e_name : bytes; e_freed : bool; e_ti : tik; e_opts : option okind;
  e_src : option bytes; e_sport : N; e_dst : option bytes; e_dport : N;
  e_ka : bool; e_idle : N; e_probes : N; e_intv : N }.

(** session_p.h:529-571, struct nc_ch_client. [c_thread]: thread_data is not
    NULL. The array of endpoints is the list of the counted entries. *)
Inductive conn := CUnset | CPersist | CPeriod.
Inductive startw := SFirst | SLast | SRandom.
Record client := { c_name : bytes; c_thread : bool; c_eps : list endpt;
  c_conn : conn; c_period : N; c_anchor : Z; c_idle : N;
  c_start : startw; c_attempts : N; c_wait : N }.

(** Outcome of a handler: success, return code 1 with the state reached, or
    undefined behaviour. *)
Inductive ubk := UseFreed | FreeTwice | NullDeref | WrongType.
Inductive res := ROk (l : list client) | RFail (l : list client) | RUb (u : ubk).

(* ------------------------------------------------------------------ *)
(** ** Position in the tree; a path is a node followed by its ancestors *)

(** server_config.c:38-52, nc_server_config_get_parent. *)
Fixpoint get_parent (p : list dnode) (name : bytes) : option (list dnode) :=
  match p with
  | [] => None
  | d :: r => if beqb (d_name d) name then Some p else get_parent r name
  end.
(** server_config.c:54-69, nc_server_config_get_parent_list. *)
Fixpoint get_parent_list (p : list dnode) (name : bytes) : option dnode :=
  match p with
  | [] => None
  | d :: r => if d_list d && beqb (d_name d) name then Some d else get_parent_list r name
  end.
(** server_config.c:71-98, nc_server_config_get_parent_list_key_value. *)
Definition list_key (p : list dnode) (name key : bytes) : option bytes :=
  match get_parent_list p name with
  | None => None
  | Some d => match d_kids d with
              | [] => None
              | k :: _ => if beqb (d_name k) key then Some (d_str k) else None
              end
  end.
(** server_config.c:519-536, equal_parent_name ([n] is the number of parents;
    a node without such a parent dereferences NULL, which is [false] here as the
    callers ask for nodes whose schema has these parents). *)
Definition equal_parent_name (p : list dnode) (n : nat) (name : bytes) : bool :=
  match nth_error p n with Some d => beqb (d_name d) name | None => false end.

(* ------------------------------------------------------------------ *)
(** ** Arrays *)

(** server_config.c:163-187, 480-507: the client with a given name. *)
Fixpoint find_cl (l : list client) (n : bytes) : option nat :=
  match l with
  | [] => None
  | c :: r => if beqb (c_name c) n then Some 0%nat else option_map Datatypes.S (find_cl r n)
  end.
(** server_config.c:189-216, nc_server_config_get_ch_endpt; comparing the name
    of a released entry reads freed memory. *)
Inductive fnd := FAt (i : nat) | FNo | FUb.
Fixpoint find_ep (l : list endpt) (n : bytes) : fnd :=
  match l with
  | [] => FNo
  | e :: r => if e_freed e then FUb
              else if beqb (e_name e) n then FAt 0
              else match find_ep r n with FAt i => FAt (Datatypes.S i) | x => x end
  end.
Fixpoint upd {A} (l : list A) (i : nat) (f : A -> A) : list A :=
  match l, i with
  | [], _ => []
  | x :: r, 0%nat => f x :: r
  | x :: r, Datatypes.S j => x :: upd r j f
  end.

(** server_config.c:538-562, nc_server_config_realloc for an endpoint (1114-1122
    and the initialisation of sock_pending in 1181): a zeroed entry at the end. *)
Definition new_ep (n : bytes) : endpt :=
  {| e_name := n; e_freed := false; e_ti := TNone; e_opts := None; e_src := None;
     e_sport := 0; e_dst := None; e_dport := 0; e_ka := false; e_idle := 0;
     e_probes := 0; e_intv := 0 |}.
(** server_config.c:3482-3508, nc_server_config_create_netconf_client. A zeroed
    conn_type is not one of the two types. *)
Definition new_cl (n : bytes) : client :=
  {| c_name := n; c_thread := false; c_eps := []; c_conn := CUnset; c_period := 0;
     c_anchor := 0%Z; c_idle := 0; c_start := SFirst; c_attempts := 3; c_wait := 0 |}.

(** server_config.c:638-667 and 824-849, nc_server_config_del_ssh_opts and
    nc_server_config_del_tls_opts on a pointer of the union. *)
Definition del_opts (want : okind) (o : option okind) : option ubk :=
  match o with
  | None => Some NullDeref
  | Some OFreed => Some FreeTwice
  | Some OSsh => match want with OSsh => None | _ => Some WrongType end
  | Some OTls => match want with OTls => None | _ => Some WrongType end
  end.

(** server_config.c:876-900, the part of nc_server_config_ch_del_endpt that
    releases the members. *)
Definition free_ep (e : endpt) : option ubk :=
  if e_freed e then Some FreeTwice
  else match e_ti e with
       | TSsh => del_opts OSsh (e_opts e)
       | TTls => del_opts OTls (e_opts e)
       | TNone => None
       end.
Definition mark_freed (e : endpt) : endpt :=
  {| e_name := e_name e; e_freed := true; e_ti := e_ti e; e_opts := e_opts e;
     e_src := e_src e; e_sport := e_sport e; e_dst := e_dst e; e_dport := e_dport e;
     e_ka := e_ka e; e_idle := e_idle e; e_probes := e_probes e; e_intv := e_intv e |}.
(** server_config.c:902-907: the count is decremented, no entry is moved, so the
    last entry is the one that is not counted any more. *)
Definition del_ep (l : list endpt) (i : nat) : ubk + list endpt :=
  match nth_error l i with
  | None => inr l
  | Some e => match free_ep e with
              | Some u => inl u
              | None => inr (removelast (upd l i mark_freed))
              end
  end.
(** server_config.c:909-939, nc_server_config_destroy_ch_client on a copy of the
    client. thread_data is dereferenced first; the end of the thread is in
    ChThread.v. The loop releases every entry that is counted at its start. *)
Fixpoint free_eps (l : list endpt) : option ubk :=
  match l with
  | [] => None
  | e :: r => match free_ep e with Some u => Some u | None => free_eps r end
  end.
Definition destroy_cl (c : client) : option ubk :=
  if c_thread c then free_eps (c_eps c) else Some NullDeref.
(** server_config.c:959-971: the last client is copied over the deleted one. *)
Definition drop_cl (l : list client) (i : nat) : list client :=
  match rev l with
  | [] => []
  | last :: _ => removelast (upd l i (fun _ => last))
  end.

(* ------------------------------------------------------------------ *)
(** ** Setters of single members *)
Definition set_ti k o e := {| e_name := e_name e; e_freed := e_freed e; e_ti := k; e_opts := o;
     e_src := e_src e; e_sport := e_sport e; e_dst := e_dst e; e_dport := e_dport e;
     e_ka := e_ka e; e_idle := e_idle e; e_probes := e_probes e; e_intv := e_intv e |}.
Definition set_src v e := {| e_name := e_name e; e_freed := e_freed e; e_ti := e_ti e; e_opts := e_opts e;
     e_src := v; e_sport := e_sport e; e_dst := e_dst e; e_dport := e_dport e;
     e_ka := e_ka e; e_idle := e_idle e; e_probes := e_probes e; e_intv := e_intv e |}.
Definition set_sport v e := {| e_name := e_name e; e_freed := e_freed e; e_ti := e_ti e; e_opts := e_opts e;
     e_src := e_src e; e_sport := v; e_dst := e_dst e; e_dport := e_dport e;
     e_ka := e_ka e; e_idle := e_idle e; e_probes := e_probes e; e_intv := e_intv e |}.
Definition set_dst v e := {| e_name := e_name e; e_freed := e_freed e; e_ti := e_ti e; e_opts := e_opts e;
     e_src := e_src e; e_sport := e_sport e; e_dst := v; e_dport := e_dport e;
     e_ka := e_ka e; e_idle := e_idle e; e_probes := e_probes e; e_intv := e_intv e |}.
Definition set_dport v e := {| e_name := e_name e; e_freed := e_freed e; e_ti := e_ti e; e_opts := e_opts e;
     e_src := e_src e; e_sport := e_sport e; e_dst := e_dst e; e_dport := v;
     e_ka := e_ka e; e_idle := e_idle e; e_probes := e_probes e; e_intv := e_intv e |}.
Definition set_ka v e := {| e_name := e_name e; e_freed := e_freed e; e_ti := e_ti e; e_opts := e_opts e;
     e_src := e_src e; e_sport := e_sport e; e_dst := e_dst e; e_dport := e_dport e;
     e_ka := v; e_idle := e_idle e; e_probes := e_probes e; e_intv := e_intv e |}.
Definition set_idle v e := {| e_name := e_name e; e_freed := e_freed e; e_ti := e_ti e; e_opts := e_opts e;
     e_src := e_src e; e_sport := e_sport e; e_dst := e_dst e; e_dport := e_dport e;
     e_ka := e_ka e; e_idle := v; e_probes := e_probes e; e_intv := e_intv e |}.
Definition set_probes v e := {| e_name := e_name e; e_freed := e_freed e; e_ti := e_ti e; e_opts := e_opts e;
     e_src := e_src e; e_sport := e_sport e; e_dst := e_dst e; e_dport := e_dport e;
     e_ka := e_ka e; e_idle := e_idle e; e_probes := v; e_intv := e_intv e |}.
Definition set_intv v e := {| e_name := e_name e; e_freed := e_freed e; e_ti := e_ti e; e_opts := e_opts e;
     e_src := e_src e; e_sport := e_sport e; e_dst := e_dst e; e_dport := e_dport e;
     e_ka := e_ka e; e_idle := e_idle e; e_probes := e_probes e; e_intv := v |}.

Definition set_thread v c := {| c_name := c_name c; c_thread := v; c_eps := c_eps c; c_conn := c_conn c;
     c_period := c_period c; c_anchor := c_anchor c; c_idle := c_idle c; c_start := c_start c;
     c_attempts := c_attempts c; c_wait := c_wait c |}.
Definition set_eps v c := {| c_name := c_name c; c_thread := c_thread c; c_eps := v; c_conn := c_conn c;
     c_period := c_period c; c_anchor := c_anchor c; c_idle := c_idle c; c_start := c_start c;
     c_attempts := c_attempts c; c_wait := c_wait c |}.
(** [set_conn k p a i]: connection type, period, anchor time, idle timeout. *)
Definition set_conn k p a i c := {| c_name := c_name c; c_thread := c_thread c; c_eps := c_eps c; c_conn := k;
     c_period := p; c_anchor := a; c_idle := i; c_start := c_start c;
     c_attempts := c_attempts c; c_wait := c_wait c |}.
(** [set_rec s a w]: start-with, max-attempts, max-wait. *)
Definition set_rec s a w c := {| c_name := c_name c; c_thread := c_thread c; c_eps := c_eps c; c_conn := c_conn c;
     c_period := c_period c; c_anchor := c_anchor c; c_idle := c_idle c; c_start := s;
     c_attempts := a; c_wait := w |}.

(* ------------------------------------------------------------------ *)
(** ** The handlers *)

Section HANDLERS.
(** Whether the data for dispatching threads are set (session_server.c,
    nc_server_ch_set_dispatch_data) and whether creating a thread succeeds. *)
Variable disp : bool.
Variable spawn : bytes -> bool.
(** Result of the handlers that only change the contents of SSH and TLS options. *)
Variable other : list dnode -> op -> bool.

(** The common start of the handlers: the client of the node is looked up and
    locked; without it the handler returns 1. *)
Definition with_cl (p : list dnode) (l : list client) (k : nat -> client -> res) : res :=
  match list_key p (bs "netconf-client") (bs "name") with
  | None => RFail l
  | Some n => match find_cl l n with
              | None => RFail l
              | Some i => match nth_error l i with Some c => k i c | None => RFail l end
              end
  end.
(** …and the endpoint, nc_server_config_get_ch_endpt. *)
Definition with_ep (p : list dnode) (l : list client) (k : nat -> client -> nat -> endpt -> res) : res :=
  with_cl p l (fun i c =>
    match list_key p (bs "endpoint") (bs "name") with
    | None => RFail l
    | Some n => match find_ep (c_eps c) n with
                | FUb => RUb UseFreed
                | FNo => RFail l
                | FAt j => match nth_error (c_eps c) j with Some e => k i c j e | None => RFail l end
                end
    end).
Definition mod_cl (l : list client) (i : nat) (f : client -> client) : res := ROk (upd l i f).
Definition mod_ep (l : list client) (i j : nat) (f : endpt -> endpt) : res :=
  ROk (upd l i (fun c => set_eps (upd (c_eps c) j f) c)).
Definition setting (o : op) : bool := match o with OCreate | OReplace => true | _ => false end.

(** session_server.c:3165-3220, nc_connect_ch_client_dispatch: the client gets
    thread_data if the thread was created. *)
Definition dispatch (n : bytes) (l : list client) : res :=
  match find_cl l n with
  | None => RFail l
  | Some i => if spawn n then ROk (upd l i (set_thread true)) else RFail l
  end.

(** server_config.c:941-972, nc_server_config_ch_del_client: an unknown client
    is only logged. *)
Definition del_client (p : list dnode) (l : list client) : res :=
  match list_key p (bs "netconf-client") (bs "name") with
  | None => ROk l
  | Some n => match find_cl l n with
              | None => ROk l
              | Some i => match nth_error l i with
                          | None => ROk l
                          | Some c => match destroy_cl c with Some u => RUb u | None => ROk (drop_cl l i) end
                          end
              end
  end.
(** server_config.c:3510-3544, nc_server_config_netconf_client. *)
Definition h_client (p : list dnode) (o : op) (l : list client) : res :=
  match o, p with
  | OCreate, d :: _ =>
      match d_kids d with
      | [] => RUb NullDeref
      | k :: _ => let l1 := l ++ [new_cl (d_str k)] in
                  if disp then dispatch (d_str k) l1 else ROk l1
      end
  | ODelete, _ => del_client p l
  | _, _ => ROk l
  end.
(** server_config.c:1014-1046, nc_server_config_ch. *)
Fixpoint destroy_all (cs : list client) : res :=
  match cs with
  | [] => ROk []
  | c :: r => match destroy_cl c with Some u => RUb u | None => destroy_all r end
  end.
Definition h_ch (o : op) (l : list client) : res :=
  match o with ODelete => destroy_all l | _ => ROk l end.
(** server_config.c:1124-1196, nc_server_config_endpoint, Call Home part. *)
Definition h_endpoint (p : list dnode) (o : op) (l : list client) : res :=
  with_cl p l (fun i c =>
    match o, p with
    | OCreate, d :: _ =>
        match d_kids d with
        | [] => RUb NullDeref
        | k :: _ => mod_cl l i (set_eps (c_eps c ++ [new_ep (d_str k)]))
        end
    | ODelete, _ =>
        with_ep p l (fun i c j e =>
          match del_ep (c_eps c) j with
          | inl u => RUb u
          | inr es => mod_cl l i (set_eps es)
          end)
    | _, _ => ROk l
    end).
(** server_config.c:1200-1352, nc_server_config_ssh and nc_server_config_tls,
    Call Home part: deleting releases the options and leaves type and pointer. *)
Definition h_transport (t : tik) (k : okind) (p : list dnode) (o : op) (l : list client) : res :=
  with_ep p l (fun i c j e =>
    match o with
    | OCreate => mod_ep l i j (set_ti t (Some k))
    | ODelete => match del_opts k (e_opts e) with
                 | Some u => RUb u
                 | None => mod_ep l i j (set_ti (e_ti e) (Some OFreed))
                 end
    | _ => ROk l
    end).
(** The members of an endpoint. server_config.c:3547-3611 remote-address and
    remote-port, 1354-1465 local-address and local-port, 1467-1672 keepalives,
    idle-time, max-probes, probe-interval. *)
Definition h_ep (f : endpt -> endpt) (p : list dnode) (l : list client) : res :=
  with_ep p l (fun i c j e => mod_ep l i j f).
Definition h_raddr (d : dnode) o := h_ep (set_dst (if setting o then Some (d_str d) else None)).
Definition h_rport (d : dnode) o := h_ep (set_dport (if setting o then d_num d else 0)).
Definition h_laddr (d : dnode) o := h_ep (set_src (if setting o then Some (d_str d) else None)).
Definition h_lport (d : dnode) o := h_ep (set_sport (if setting o then d_num d else 0)).
Definition h_ka (o : op) := h_ep (set_ka (match o with OCreate => true | _ => false end)).
Definition h_idletime (d : dnode) o := h_ep (set_idle (if setting o then d_num d else 7200)).
Definition h_probes (d : dnode) o := h_ep (set_probes (if setting o then d_num d else 9)).
Definition h_intv (d : dnode) o := h_ep (set_intv (if setting o then d_num d else 75)).

(** The members of a client. server_config.c:3614-3697 persistent, periodic,
    period; 3699-3726 anchor-time; 1048-1079 idle-timeout; 3728-3844
    reconnect-strategy, start-with, max-wait, max-attempts. *)
Definition h_cl (f : client -> client) (p : list dnode) (l : list client) : res :=
  with_cl p l (fun i c => mod_cl l i f).
Definition h_persistent (o : op) p l :=
  match o with
  | ODelete => ROk l
  | _ => h_cl (fun c => set_conn CPersist (c_period c) (c_anchor c) (c_idle c) c) p l
  end.
Definition h_periodic (o : op) p l :=
  match o with ODelete => ROk l | _ => h_cl (set_conn CPeriod 60 0%Z 180) p l end.
Definition h_period (d : dnode) o :=
  h_cl (fun c => set_conn (c_conn c) (if setting o then d_num d else 60) (c_anchor c) (c_idle c) c).
Definition h_anchor (d : dnode) o :=
  h_cl (fun c => set_conn (c_conn c) (c_period c) (if setting o then d_sec d else 0%Z) (c_idle c) c).
Definition h_idleto (d : dnode) o :=
  h_cl (fun c => set_conn (c_conn c) (c_period c) (c_anchor c) (if setting o then d_num d else 180) c).
Definition h_reconnect := h_cl (set_rec SFirst 3 5).
Definition h_startwith (d : dnode) (o : op) p l :=
  let put s := h_cl (fun c => set_rec s (c_attempts c) (c_wait c) c) p l in
  match o with
  | ODelete => put SFirst
  | _ => if beqb (d_str d) (bs "first-listed") then put SFirst
         else if beqb (d_str d) (bs "last-connected") then put SLast
         else if beqb (d_str d) (bs "random-selection") then put SRandom
         else RFail l
  end.
Definition h_wait (d : dnode) o :=
  h_cl (fun c => set_rec (c_start c) (c_attempts c) (if setting o then d_num d else 5) c).
Definition h_attempts (d : dnode) o :=
  h_cl (fun c => set_rec (c_start c) (if setting o then d_num d else 3) (c_wait c) c).

(** server_config.c:3847-3968, nc_server_config_parse_netconf_server on a node
    of the Call Home subtree. keepalives and its leafs and the local address and
    port do nothing unless they are under tcp-client-parameters (1514, 1541,
    1593, 1645, 1378, 1439). *)
Definition handle (p : list dnode) (o : op) (l : list client) : res :=
  match p with
  | [] => ROk l
  | d :: _ =>
    let is s := beqb (d_name d) (bs s) in
    let tcp n := equal_parent_name p n (bs "tcp-client-parameters") in
    if is "anchor-time"%string then h_anchor d o p l
    else if is "call-home"%string then h_ch o l
    else if is "endpoint"%string then h_endpoint p o l
    else if is "idle-timeout"%string then h_idleto d o p l
    else if is "max-attempts"%string then h_attempts d o p l
    else if is "max-wait"%string then h_wait d o p l
    else if is "netconf-client"%string then h_client p o l
    else if is "period"%string then h_period d o p l
    else if is "periodic"%string then h_periodic o p l
    else if is "persistent"%string then h_persistent o p l
    else if is "reconnect-strategy"%string then h_reconnect p l
    else if is "start-with"%string then h_startwith d o p l
    else if is "idle-time"%string then (if tcp 2%nat then h_idletime d o p l else ROk l)
    else if is "keepalives"%string then (if tcp 1%nat then h_ka o p l else ROk l)
    else if is "local-address"%string then (if tcp 1%nat then h_laddr d o p l else ROk l)
    else if is "local-port"%string then (if tcp 1%nat then h_lport d o p l else ROk l)
    else if is "max-probes"%string then (if tcp 2%nat then h_probes d o p l else ROk l)
    else if is "probe-interval"%string then (if tcp 2%nat then h_intv d o p l else ROk l)
    else if is "remote-address"%string then h_raddr d o p l
    else if is "remote-port"%string then h_rport d o p l
    else if is "ssh"%string then h_transport TSsh OSsh p o l
    else if is "tls"%string then h_transport TTls OTls p o l
    else if other p o then ROk l else RFail l
  end.

(** server_config.c:4143-4212, nc_server_config_parse_tree. *)
Definition meta_op (m : option bytes) : option op :=
  match m with
  | None => None
  | Some v => if beqb v (bs "create") then Some OCreate
              else if beqb v (bs "delete") then Some ODelete
              else if beqb v (bs "replace") then Some OReplace
              else if beqb v (bs "none") then Some ONone
              else None
  end.
Definition cur_op (d : dnode) (parent : option op) : option op :=
  match meta_op (d_meta d) with Some o => Some o | None => parent end.
Definition act (o : op) (p : list dnode) (l : list client) : res :=
  match o with ONone => ROk l | _ => handle p o l end.
Fixpoint parse_tree (d : dnode) (anc : list dnode) (parent : option op) (l : list client) {struct d} : res :=
  match cur_op d parent with
  | None => RFail l
  | Some o =>
      match act o (d :: anc) l with
      | ROk l1 =>
          match o with
          | ODelete => ROk l1
          | _ => match d with
                 | DN _ _ _ _ _ _ kids =>
                   (fix go (ks : list dnode) (l : list client) : res :=
                      match ks with
                      | [] => ROk l
                      | k :: r => match parse_tree k (d :: anc) (Some o) l with
                                  | ROk l2 => go r l2
                                  | x => x
                                  end
                      end) kids l1
                 end
          end
      | x => x
      end
  end.

(** server_config.c:4368-4421, nc_server_config_setup_diff, for the call-home
    container [d] of the diff under ancestors that say nothing about it. *)
Definition setup_diff (d : dnode) (l : list client) : res := parse_tree d [] None l.
(** server_config.c:4423-4502, nc_server_config_setup_data: metadata are refused
    by the caller's check (4446-4455), everything is deleted and the data are
    applied as created. *)
Fixpoint no_meta (d : dnode) : bool :=
  match d with
  | DN _ _ m _ _ _ kids =>
      match m with None => true | Some _ => false end && forallb no_meta kids
  end.
Definition setup_data (d : dnode) (l : list client) : res :=
  if no_meta d then
    match h_ch ODelete l with
    | ROk l1 => parse_tree d [] (Some OCreate) l1
    | x => x
    end
  else RFail l.
End HANDLERS.
