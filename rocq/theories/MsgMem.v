(** Memory of requests, replies and notifications: who frees what.

    messages_client.c 44-862: all constructors of requests, 864-1047 [nc_rpc_free]; messages_server.c
    35-129 and 738-765: replies; 768-821: notifications.

    A block of memory is an argument of the caller or was allocated by the library; strings and data
    trees are one block, arrays of strings are a block and its strings.  Every allocation may fail
    ([ok n]: the n-th one succeeds).  Fields that are no pointers are left out, but for those deciding what
    is freed.  [valid]: the checks of the values of the arguments (first characters, numbers that must not
    be 0) succeed. *)
From Coq Require Import List Arith Bool.
Import ListNotations.

Inductive block := Arg (n : nat) | New (n : nat).
Definition ptr := option block.

(** Tried allocations, those that succeeded, what was freed; [m_bad]: a field was read that was never
    set. *)
Record mem := { m_tries : nat; m_made : list nat; m_freed : list block; m_bad : bool }.
Definition start : mem := {| m_tries := 0; m_made := []; m_freed := []; m_bad := false |}.

(** NC_PARAMTYPE (netconf.h 121-125). *)
Inductive paramtype := Const | Free | DupAndFree.

(** The arguments of the caller: NULL or a block. *)
Definition arg := option nat.
Definition of_arg (a : arg) : ptr := match a with Some n => Some (Arg n) | None => None end.

Inductive field :=
| Data | XmlStr | Filter | EditCont | UrlTrg | UrlConfigSrc | Url | Persist | PersistId | Identifier | Version
| Format | Stream | StartTime | StopTime | Datastore | ConfigFilter | Encoding | AnchorTime | EventTime | Err.

(** NC_RPC_TYPE (messages_p.h). *)
Inductive rtype :=
| ActGeneric | GetConfig | Edit | Copy | Delete | Lock | Unlock | Get | Kill | Commit | Discard | Cancel
| Validate | GetSchema | Subscribe | GetData | EditData | EstablishSub | ModifySub | DeleteSub | KillSub
| EstablishPush | ModifyPush | ResyncSub.

(** A structure: its own block, what of it was set (malloc() sets nothing). *)
Record rpc := {
  r_self : block;
  r_type : rtype;
  r_free : bool;
  r_flds : list (field * ptr);
  r_has_data : bool;
  r_periodic : bool;
  r_array : option (ptr * list ptr);       (* origin_filter, excluded_change *)
}.

Definition field_eqb (a b : field) : bool :=
  match a, b with
  | Data, Data | XmlStr, XmlStr | Filter, Filter | EditCont, EditCont | UrlTrg, UrlTrg
  | UrlConfigSrc, UrlConfigSrc | Url, Url | Persist, Persist | PersistId, PersistId | Identifier, Identifier
  | Version, Version | Format, Format | Stream, Stream | StartTime, StartTime | StopTime, StopTime
  | Datastore, Datastore | ConfigFilter, ConfigFilter | Encoding, Encoding | AnchorTime, AnchorTime
  | EventTime, EventTime | Err, Err => true
  | _, _ => false
  end.

Fixpoint get (f : field) (l : list (field * ptr)) : option ptr :=
  match l with
  | [] => None
  | (g, p) :: l => if field_eqb f g then Some p else get f l
  end.

Section Memory.
Variable ok : nat -> bool.

Definition alloc (m : mem) : mem * ptr :=
  if ok (m_tries m)
  then ({| m_tries := S (m_tries m); m_made := m_tries m :: m_made m; m_freed := m_freed m; m_bad := m_bad m |},
        Some (New (m_tries m)))
  else ({| m_tries := S (m_tries m); m_made := m_made m; m_freed := m_freed m; m_bad := m_bad m |}, None).

Definition free (p : ptr) (m : mem) : mem :=
  match p with
  | None => m
  | Some b => {| m_tries := m_tries m; m_made := m_made m; m_freed := b :: m_freed m; m_bad := m_bad m |}
  end.

Definition misread (m : mem) : mem :=
  {| m_tries := m_tries m; m_made := m_made m; m_freed := m_freed m; m_bad := true |}.

(** [rpc->f = (a && paramtype == NC_PARAMTYPE_DUP_AND_FREE) ? strdup(a) : a]. *)
Definition take (pt : paramtype) (a : arg) (m : mem) : mem * ptr :=
  match a, pt with
  | Some _, DupAndFree => alloc m
  | _, _ => (m, of_arg a)
  end.

(** [rpc->free = (paramtype == NC_PARAMTYPE_CONST ? 0 : 1)]. *)
Definition frees (pt : paramtype) : bool := match pt with Const => false | _ => true end.

Definition mk (self : block) (t : rtype) (fr : bool) (fl : list (field * ptr)) : rpc :=
  {| r_self := self; r_type := t; r_free := fr; r_flds := fl; r_has_data := false; r_periodic := false;
     r_array := None |}.

Definition is_null (a : arg) : bool := match a with None => true | Some _ => false end.

(** The common start of the constructors: checks, then the structure is allocated. *)
Definition with_self (good : bool) (m : mem) (k : mem -> block -> mem * option rpc) : mem * option rpc :=
  if negb good then (m, None)
  else match alloc m with
       | (m1, None) => (m1, None)
       | (m1, Some b) => k m1 b
       end.

(** messages_client.c 44-71 [nc_rpc_act_generic]; [valid]: the tree has no siblings. *)
Definition nc_rpc_act_generic (valid : bool) (data : arg) (pt : paramtype) (m : mem) : mem * option rpc :=
  with_self (negb (is_null data) && valid) m (fun m self =>
  match take pt data m with
  | (m1, None) => (free (Some self) m1, None)
  | (m1, Some p) =>
      (m1, Some {| r_self := self; r_type := ActGeneric; r_free := frees pt; r_flds := [(Data, Some p)];
                   r_has_data := true; r_periodic := false; r_array := None |})
  end).

(** messages_client.c 73-93 [nc_rpc_act_generic_xml]. *)
Definition nc_rpc_act_generic_xml (xml : arg) (pt : paramtype) (m : mem) : mem * option rpc :=
  with_self (negb (is_null xml)) m (fun m self =>
  let (m1, p) := take pt xml m in
  (m1, Some (mk self ActGeneric (frees pt) [(XmlStr, p)]))).

(** messages_client.c 95-121 [nc_rpc_getconfig]. *)
Definition nc_rpc_getconfig (valid : bool) (filter : arg) (pt : paramtype) (m : mem) : mem * option rpc :=
  with_self valid m (fun m self =>
  let (m1, p) := take pt filter m in
  (m1, Some (mk self GetConfig (frees pt) [(Filter, p)]))).

(** messages_client.c 123-152 [nc_rpc_edit]. *)
Definition nc_rpc_edit (valid : bool) (edit_content : arg) (pt : paramtype) (m : mem) : mem * option rpc :=
  with_self (negb (is_null edit_content) && valid) m (fun m self =>
  let (m1, p) := take pt edit_content m in
  (m1, Some (mk self Edit (frees pt) [(EditCont, p)]))).

(** messages_client.c 154-187 [nc_rpc_copy]. *)
Definition nc_rpc_copy (valid : bool) (url_trg url_or_config_src : arg) (pt : paramtype) (m : mem) : mem * option rpc :=
  with_self valid m (fun m self =>
  let (m1, p) := take pt url_trg m in
  let (m2, q) := take pt url_or_config_src m1 in
  (m2, Some (mk self Copy (frees pt) [(UrlTrg, p); (UrlConfigSrc, q)]))).

(** messages_client.c 189-209 [nc_rpc_delete]. *)
Definition nc_rpc_delete (valid : bool) (url : arg) (pt : paramtype) (m : mem) : mem * option rpc :=
  with_self valid m (fun m self =>
  let (m1, p) := take pt url m in
  (m1, Some (mk self Delete (frees pt) [(Url, p)]))).

(** messages_client.c 211-241 [nc_rpc_lock], [nc_rpc_unlock], 268-282 [nc_rpc_kill], 311-322
    [nc_rpc_discard], 613-643 [nc_rpc_deletesub], [nc_rpc_killsub], 848-862 [nc_rpc_resyncsub]: nothing but
    numbers; the field free is not set. *)
Definition nc_rpc_plain (t : rtype) (valid : bool) (m : mem) : mem * option rpc :=
  with_self valid m (fun m self => (m, Some (mk self t false []))).

(** messages_client.c 243-266 [nc_rpc_get]. *)
Definition nc_rpc_get (valid : bool) (filter : arg) (pt : paramtype) (m : mem) : mem * option rpc :=
  with_self valid m (fun m self =>
  let (m1, p) := take pt filter m in
  (m1, Some (mk self Get (frees pt) [(Filter, p)]))).

(** messages_client.c 284-309 [nc_rpc_commit]. *)
Definition nc_rpc_commit (persist persist_id : arg) (pt : paramtype) (m : mem) : mem * option rpc :=
  with_self true m (fun m self =>
  let (m1, p) := take pt persist m in
  let (m2, q) := take pt persist_id m1 in
  (m2, Some (mk self Commit (frees pt) [(Persist, p); (PersistId, q)]))).

(** messages_client.c 324-341 [nc_rpc_cancel]. *)
Definition nc_rpc_cancel (persist_id : arg) (pt : paramtype) (m : mem) : mem * option rpc :=
  with_self true m (fun m self =>
  let (m1, p) := take pt persist_id m in
  (m1, Some (mk self Cancel (frees pt) [(PersistId, p)]))).

(** messages_client.c 343-368 [nc_rpc_validate]. *)
Definition nc_rpc_validate (valid : bool) (url_or_config : arg) (pt : paramtype) (m : mem) : mem * option rpc :=
  with_self valid m (fun m self =>
  let (m1, p) := take pt url_or_config m in
  (m1, Some (mk self Validate (frees pt) [(UrlConfigSrc, p)]))).

(** messages_client.c 370-399 [nc_rpc_getschema]. *)
Definition nc_rpc_getschema (identifier version format : arg) (pt : paramtype) (m : mem) : mem * option rpc :=
  with_self (negb (is_null identifier)) m (fun m self =>
  let (m1, p) := take pt identifier m in
  let (m2, q) := take pt version m1 in
  let (m3, r) := take pt format m2 in
  (m3, Some (mk self GetSchema (frees pt) [(Identifier, p); (Version, q); (Format, r)]))).

(** messages_client.c 401-439 [nc_rpc_subscribe]. *)
Definition nc_rpc_subscribe (valid : bool) (stream filter start_time stop_time : arg) (pt : paramtype) (m : mem)
  : mem * option rpc :=
  with_self valid m (fun m self =>
  let (m1, p) := take pt stream m in
  let (m2, q) := take pt filter m1 in
  let (m3, r) := take pt start_time m2 in
  let (m4, s) := take pt stop_time m3 in
  (m4, Some (mk self Subscribe (frees pt) [(Stream, p); (Filter, q); (StartTime, r); (StopTime, s)]))).

(** Strings given in an array: the array itself and its strings. *)
Definition array := option (nat * list nat).

(** The loop of nc_rpc_getdata(): stops at the first string that cannot be copied. *)
Fixpoint dup_strings (l : list nat) (m : mem) : mem * list ptr * bool :=
  match l with
  | [] => (m, [], true)
  | _ :: l =>
      match alloc m with
      | (m1, None) => (m1, [], false)
      | (m1, Some b) => let '(m2, r, good) := dup_strings l m1 in (m2, Some b :: r, good)
      end
  end.

Definition as_given (a : array) : option (ptr * list ptr) :=
  match a with
  | Some (n, l) => Some (Some (Arg n), map (fun k => Some (Arg k)) l)
  | None => Some (None, [])
  end.

Definition free_flds (fs : list field) (r : rpc) (m : mem) : mem :=
  fold_left (fun m f => match get f (r_flds r) with Some p => free p m | None => misread m end) fs m.

Definition free_array (r : rpc) (m : mem) : mem :=
  match r_array r with
  | Some (p, l) => free p (fold_left (fun m q => free q m) l m)
  | None => misread m
  end.

(** nc_rpc_free() goes through excluded_change up to the first NULL. *)
Fixpoint up_to_null (l : list ptr) : list ptr :=
  match l with
  | Some b :: l => Some b :: up_to_null l
  | _ => []
  end.

Definition free_changes (r : rpc) (m : mem) : mem :=
  match r_array r with
  | Some (None, _) => m
  | Some (p, l) => free p (fold_left (fun m q => free q m) (up_to_null l) m)
  | None => misread m
  end.

(** messages_client.c 864-1047 [nc_rpc_free]. *)
Definition nc_rpc_free (o : option rpc) (m : mem) : mem :=
  match o with
  | None => m
  | Some r =>
      let fr fs := if r_free r then free_flds fs r m else m in
      free (Some (r_self r))
        (match r_type r with
         | ActGeneric => fr [if r_has_data r then Data else XmlStr]
         | GetConfig => fr [Filter]
         | Edit => fr [EditCont]
         | Copy => fr [UrlConfigSrc; UrlTrg]
         | Delete => fr [Url]
         | Get => fr [Filter]
         | Commit => fr [Persist; PersistId]
         | Cancel => fr [PersistId]
         | Validate => fr [UrlConfigSrc]
         | GetSchema => fr [Identifier; Version; Format]
         | Subscribe => fr [Stream; Filter; StartTime; StopTime]
         | GetData =>
             if r_free r then free_array r (free_flds [Datastore; Filter; ConfigFilter] r m) else m
         | EditData => fr [Datastore; EditCont]
         | EstablishSub => fr [Filter; Stream; StartTime; StopTime; Encoding]
         | ModifySub => fr [Filter; StopTime]
         | EstablishPush =>
             if r_free r then
               let m1 := free_flds [Datastore; Filter; StopTime; Encoding] r m in
               if r_periodic r then free_flds [AnchorTime] r m1 else free_changes r m1
             else m
         | ModifyPush =>
             if r_free r then
               let m1 := free_flds [Datastore; Filter; StopTime] r m in
               if r_periodic r then free_flds [AnchorTime] r m1 else m1
             else m
         | Lock | Unlock | Kill | Discard | DeleteSub | KillSub | ResyncSub => m
         end)
  end.

Definition with_array (r : rpc) (a : ptr * list ptr) : rpc :=
  {| r_self := r_self r; r_type := r_type r; r_free := r_free r; r_flds := r_flds r; r_has_data := r_has_data r;
     r_periodic := r_periodic r; r_array := Some a |}.

(** messages_client.c 441-498 [nc_rpc_getdata]: the array has as many strings as were copied. *)
Definition nc_rpc_getdata (valid : bool) (datastore filter config_filter : arg) (origin : array) (pt : paramtype)
  (m : mem) : mem * option rpc :=
  with_self (negb (is_null datastore) && valid) m (fun m self =>
  let (m1, p) := take pt datastore m in
  let (m2, q) := take pt filter m1 in
  let (m3, s) := take pt config_filter m2 in
  let r := mk self GetData (frees pt) [(Datastore, p); (Filter, q); (ConfigFilter, s)] in
  match origin, pt with
  | Some (_, l), DupAndFree =>
      match alloc m3 with
      | (m4, None) => (nc_rpc_free (Some (with_array r (None, []))) m4, None)
      | (m4, Some b) =>
          let '(m5, l', good) := dup_strings l m4 in
          let r' := with_array r (Some b, l') in
          if good then (m5, Some r') else (nc_rpc_free (Some r') m5, None)
      end
  | Some (n, l), _ => (m3, Some (with_array r (Some (Arg n), map (fun k => Some (Arg k)) l)))
  | None, _ => (m3, Some (with_array r (None, [])))
  end).

(** messages_client.c 500-530 [nc_rpc_editdata]. *)
Definition nc_rpc_editdata (valid : bool) (datastore edit_content : arg) (pt : paramtype) (m : mem) : mem * option rpc :=
  with_self (negb (is_null datastore) && negb (is_null edit_content) && valid) m (fun m self =>
  let (m1, p) := take pt datastore m in
  let (m2, q) := take pt edit_content m1 in
  (m2, Some (mk self EditData (frees pt) [(Datastore, p); (EditCont, q)]))).

(** messages_client.c 532-578 [nc_rpc_establishsub]. *)
Definition nc_rpc_establishsub (valid : bool) (filter stream start_time stop_time encoding : arg) (pt : paramtype)
  (m : mem) : mem * option rpc :=
  with_self (negb (is_null stream) && valid) m (fun m self =>
  let (m1, p) := take pt filter m in
  let (m2, q) := take pt stream m1 in
  let (m3, r) := take pt start_time m2 in
  let (m4, s) := take pt stop_time m3 in
  let (m5, t) := take pt encoding m4 in
  (m5, Some (mk self EstablishSub (frees pt)
               [(Filter, p); (Stream, q); (StartTime, r); (StopTime, s); (Encoding, t)]))).

(** messages_client.c 580-611 [nc_rpc_modifysub]. *)
Definition nc_rpc_modifysub (valid : bool) (filter stop_time : arg) (pt : paramtype) (m : mem) : mem * option rpc :=
  with_self valid m (fun m self =>
  let (m1, p) := take pt filter m in
  let (m2, q) := take pt stop_time m1 in
  (m2, Some (mk self ModifySub (frees pt) [(Filter, p); (StopTime, q)]))).

Definition periodic (r : rpc) : rpc :=
  {| r_self := r_self r; r_type := r_type r; r_free := r_free r; r_flds := r_flds r; r_has_data := r_has_data r;
     r_periodic := true; r_array := r_array r |}.

(** messages_client.c 645-693 [nc_rpc_establishpush_periodic]. *)
Definition nc_rpc_establishpush_periodic (valid : bool) (datastore filter stop_time encoding anchor_time : arg)
  (pt : paramtype) (m : mem) : mem * option rpc :=
  with_self (negb (is_null datastore) && valid) m (fun m self =>
  let (m1, p) := take pt datastore m in
  let (m2, q) := take pt filter m1 in
  let (m3, r) := take pt stop_time m2 in
  let (m4, s) := take pt encoding m3 in
  let (m5, t) := take pt anchor_time m4 in
  (m5, Some (periodic (mk self EstablishPush (frees pt)
               [(Datastore, p); (Filter, q); (StopTime, r); (Encoding, s); (AnchorTime, t)])))).

(** The loop of nc_rpc_establishpush_onchange(): the array [arr] is enlarged for each string (the block
    moves); if that fails it is freed, but not its strings, and there is none.  A string that cannot be
    copied is a NULL in the array. *)
Fixpoint dup_changes (l : list nat) (arr : ptr) (done : list ptr) (m : mem) : mem * (ptr * list ptr) :=
  match l with
  | [] => (m, (arr, done))
  | _ :: l =>
      match alloc m with
      | (m1, None) => (free arr m1, (None, []))
      | (m1, Some b) => let (m2, s) := alloc (free arr m1) in dup_changes l (Some b) (done ++ [s]) m2
      end
  end.

(** messages_client.c 695-759 [nc_rpc_establishpush_onchange]. *)
Definition nc_rpc_establishpush_onchange (valid : bool) (datastore filter stop_time encoding : arg) (excluded : array)
  (pt : paramtype) (m : mem) : mem * option rpc :=
  with_self (negb (is_null datastore) && valid) m (fun m self =>
  let (m1, p) := take pt datastore m in
  let (m2, q) := take pt filter m1 in
  let (m3, r) := take pt stop_time m2 in
  let (m4, s) := take pt encoding m3 in
  let x := mk self EstablishPush (frees pt) [(Datastore, p); (Filter, q); (StopTime, r); (Encoding, s)] in
  match excluded, pt with
  | Some (_, l), DupAndFree =>
      let (m5, a) := dup_changes l None [] m4 in
      (m5, Some (with_array x a))
  | Some (n, l), _ => (m4, Some (with_array x (Some (Arg n), map (fun k => Some (Arg k)) l)))
  | None, _ => (m4, Some (with_array x (None, [])))
  end).

(** messages_client.c 761-805 [nc_rpc_modifypush_periodic]. *)
Definition nc_rpc_modifypush_periodic (valid : bool) (datastore filter stop_time anchor_time : arg)
  (pt : paramtype) (m : mem) : mem * option rpc :=
  with_self (negb (is_null datastore) && valid) m (fun m self =>
  let (m1, p) := take pt datastore m in
  let (m2, q) := take pt filter m1 in
  let (m3, r) := take pt stop_time m2 in
  let (m4, t) := take pt anchor_time m3 in
  (m4, Some (periodic (mk self ModifyPush (frees pt)
               [(Datastore, p); (Filter, q); (StopTime, r); (AnchorTime, t)])))).

(** messages_client.c 807-846 [nc_rpc_modifypush_onchange]. *)
Definition nc_rpc_modifypush_onchange (valid : bool) (datastore filter stop_time : arg) (pt : paramtype) (m : mem)
  : mem * option rpc :=
  with_self (negb (is_null datastore) && valid) m (fun m self =>
  let (m1, p) := take pt datastore m in
  let (m2, q) := take pt filter m1 in
  let (m3, r) := take pt stop_time m2 in
  (m3, Some (mk self ModifyPush (frees pt) [(Datastore, p); (Filter, q); (StopTime, r)]))).

(** * Replies and notifications *)

(** Trees handed to a reply are blocks; an error reply has a list of them, linked as siblings. *)
Inductive reply :=
| ROk (self : block)
| RData (self : block) (data : ptr) (fr : bool)
| RError (self : block) (errs : list block).

(** messages_server.c 35-45 [nc_server_reply_ok]. *)
Definition nc_server_reply_ok (m : mem) : mem * option reply :=
  match alloc m with
  | (m1, None) => (m1, None)
  | (m1, Some b) => (m1, Some (ROk b))
  end.

(** messages_server.c 47-78 [nc_server_reply_data]; [valid]: the tree is an RPC or action. *)
Definition nc_server_reply_data (valid : bool) (data : arg) (pt : paramtype) (m : mem) : mem * option reply :=
  if is_null data || negb valid then (m, None)
  else match alloc m with
       | (m1, None) => (m1, None)
       | (m1, Some b) =>
           match take pt data m1 with
           | (m2, None) => (free (Some b) m2, None)
           | (m2, Some p) => (m2, Some (RData b (Some p) (frees pt)))
           end
       end.

(** messages_server.c 80-93 [nc_server_reply_err]. *)
Definition nc_server_reply_err (err : arg) (m : mem) : mem * option reply :=
  match err with
  | None => (m, None)
  | Some e => match alloc m with
              | (m1, None) => (m1, None)
              | (m1, Some b) => (m1, Some (RError b [Arg e]))
              end
  end.

(** messages_server.c 95-110 [nc_server_reply_add_err]; lyd_insert_sibling() puts the opaque nodes that errors
    are after the others. *)
Definition nc_server_reply_add_err (r : reply) (err : arg) : reply * bool :=
  match r, err with
  | RError b l, Some e => (RError b (l ++ [Arg e]), true)
  | _, _ => (r, false)
  end.

(** messages_server.c 112-129 [nc_server_reply_get_last_err]: the last of the siblings. *)
Definition nc_server_reply_get_last_err (r : reply) : option block :=
  match r with
  | RError _ l => match rev l with e :: _ => Some e | [] => None end
  | _ => None
  end.

(** messages_server.c 738-766 [nc_server_reply_free]. *)
Definition nc_server_reply_free (o : option reply) (m : mem) : mem :=
  match o with
  | None => m
  | Some (ROk b) => free (Some b) m
  | Some (RData b p fr) => free (Some b) (if fr then free p m else m)
  | Some (RError b l) => free (Some b) (fold_left (fun m e => free (Some e) m) l m)
  end.

Record notif := { n_self : block; n_event : ptr; n_time : ptr; n_free : bool }.

(** messages_server.c 768-807 [nc_server_notif_new]; [valid]: the tree has a notification.  If the tree
    cannot be copied, the copied time is not freed. *)
Definition nc_server_notif_new (valid : bool) (event eventtime : arg) (pt : paramtype) (m : mem) : mem * option notif :=
  if is_null event || is_null eventtime || negb valid then (m, None)
  else match alloc m with
       | (m1, None) => (m1, None)
       | (m1, Some b) =>
           let (m2, t) := take pt eventtime m1 in
           match take pt event m2 with
           | (m3, None) => (free (Some b) m3, None)
           | (m3, Some e) => (m3, Some {| n_self := b; n_event := Some e; n_time := t; n_free := frees pt |})
           end
       end.

(** messages_server.c 809-821 [nc_server_notif_free]. *)
Definition nc_server_notif_free (o : option notif) (m : mem) : mem :=
  match o with
  | None => m
  | Some n =>
      free (Some (n_self n)) (if n_free n then free (n_time n) (free (n_event n) m) else m)
  end.

End Memory.
