(** Requests of a client: the constructors of src/messages_client.c 95-862 and the tree made from a request by nc_send_rpc(),
    src/session_client.c 2575-3207. *)
From Coq Require Import String Ascii NArith Bool List.
From Verif Require Import Bytes.
Import ListNotations.
Local Open Scope string_scope.
Local Open Scope list_scope.

(* ------------------------------------------------------------------ *)
(** ** Values *)

(** netconf.h 88-95, without NC_DATASTORE_ERROR; session_client.c 58 [ncds2str]. *)
Inductive ds := DsConfig | DsUrl | DsRunning | DsStartup | DsCandidate.
Definition ds_str (d : ds) : string :=
  match d with DsConfig => "config" | DsUrl => "url" | DsRunning => "running" | DsStartup => "startup" | DsCandidate => "candidate" end.

(** netconf.h 100-106; session_client.c 2575-2592 [nc_wd2str]. *)
Inductive wd := WdUnknown | WdAll | WdAllTag | WdTrim | WdExplicit.
Definition wd_str (w : wd) : string :=
  match w with WdAll => "report-all" | WdAllTag => "report-all-tagged" | WdTrim => "trim" | WdExplicit => "explicit" | WdUnknown => "" end.

(** messages_client.h: the options of edit-config, 0 is "unknown"; messages_client.c 32-34. *)
Inductive dfltop := DoUnknown | DoMerge | DoReplace | DoNone.
Inductive testopt := ToUnknown | ToTestset | ToSet | ToTest.
Inductive erropt := EoUnknown | EoStop | EoContinue | EoRollback.
Definition dfltop_str (x : dfltop) := match x with DoMerge => "merge" | DoReplace => "replace" | DoNone => "none" | DoUnknown => "" end.
Definition testopt_str (x : testopt) := match x with ToTestset => "test-then-set" | ToSet => "set" | ToTest => "test-only" | ToUnknown => "" end.
Definition erropt_str (x : erropt) := match x with EoStop => "stop-on-error" | EoContinue => "continue-on-error" | EoRollback => "rollback-on-error" | EoUnknown => "" end.

(** messages_p.h 70-265: the structures; a missing text is [None]. *)
Inductive trig := Periodic (period : N) (anchor : option string) | OnChange (damp : N) (sync : bool) (excl : list string).
Inductive mtrig := MPeriodic (period : N) (anchor : option string) | MOnChange (damp : N).
Inductive rpc :=
| GetConfig (src : ds) (f : option string) (w : wd)
| Edit (tgt : ds) (d : dfltop) (t : testopt) (e : erropt) (c : string)
| Copy (tgt : ds) (url : option string) (src : ds) (cont : option string) (w : wd)
| Delete (tgt : ds) (url : option string)
| Lock (tgt : ds)
| Unlock (tgt : ds)
| Get (f : option string) (w : wd)
| Kill (sid : N)
| Commit (confirmed : bool) (timeout : N) (persist persist_id : option string)
| Discard
| Cancel (persist_id : option string)
| Validate (src : ds) (cont : option string)
| GetSchema (ident : string) (version format : option string)
| Subscribe (stream f start stop : option string)
| GetData (store : string) (f cf : option string) (origins : list string) (negated : bool) (depth : N) (worigin : bool) (w : wd)
| EditData (store : string) (d : dfltop) (c : string)
| EstSub (f : option string) (stream : string) (start stop enc : option string)
| ModSub (id : N) (f stop : option string)
| DelSub (id : N)
| KillSub (id : N)
| EstPush (store : string) (f stop enc : option string) (t : trig)
| ModPush (id : N) (store : string) (f stop : option string) (t : mtrig)
| Resync (id : N).

(* ------------------------------------------------------------------ *)
(** ** Constructors *)

(** isalpha() in the locale "C"; the bytes from 128 on, negative as char, are no letters. *)
Definition alpha (c : ascii) : bool :=
  let n := N_of_ascii c in ((65 <=? n) && (n <=? 90) || (97 <=? n) && (n <=? 122))%N.

(** The first character of a filter (lines 102, 248, 407, 451, ...) and of a configuration or URL (lines 131, 162, 350, 507). *)
Definition filter_ok (f : option string) : bool :=
  match f with Some (String c _) => Ascii.eqb c "<"%char || Ascii.eqb c "/"%char || alpha c | _ => true end.
Definition cont_ok (f : option string) : bool :=
  match f with Some (String c _) => Ascii.eqb c "<"%char || alpha c | _ => true end.

(** Each function of lines 95-862: the checks and the structure; NULL is [None], and so are NC_DATASTORE_ERROR and missing mandatory
    texts.  Copies of the texts are the texts; allocations do not fail.  NC_CHECK_ARG_RET (log_p.h 69) of an id or a period also
    refuses 0. *)
Definition nz (n : N) : bool := negb (N.eqb n 0).
Definition chk (b : bool) (r : rpc) : option rpc := if b then Some r else None.
Definition construct (r : rpc) : option rpc :=
  match r with
  | GetConfig _ f _ => chk (filter_ok f) r
  | Edit _ _ _ _ c => chk (cont_ok (Some c)) r
  | Copy _ _ _ c _ => chk (cont_ok c) r
  | Get f _ => chk (filter_ok f) r
  | Kill n => chk (nz n) r
  | Validate _ c => chk (cont_ok c) r
  | Subscribe _ f _ _ => chk (filter_ok f) r
  | GetData _ f _ _ _ _ _ _ => chk (filter_ok f) r
  | EditData _ _ c => chk (cont_ok (Some c)) r
  | EstSub f _ _ _ _ => chk (filter_ok f) r
  | ModSub n f _ => chk (nz n && filter_ok f) r
  | DelSub n | KillSub n | Resync n => chk (nz n) r
  | EstPush _ f _ _ (Periodic p _) => chk (nz p && filter_ok f) r
  | EstPush _ f _ _ (OnChange _ _ _) => chk (filter_ok f) r
  | ModPush n _ f _ _ => chk (nz n && filter_ok f) r
  | _ => Some r
  end.

(* ------------------------------------------------------------------ *)
(** ** The tree *)

(** Data nodes of libyang: leaves with their text, anydata with its text (if any) and attributes, inner nodes.  A node has its module
    and its name. *)
Inductive node :=
| Leaf (m n : string) (v : string)
| AnyN (m n : string) (v : option string) (meta : list (string * string))
| Inner (m n : string) (ch : list node).

(** One call of libyang: lyd_new_inner(data, ...), lyd_new_term(data or cont, ...), lyd_new_any(...), lyd_new_meta(...).  NULL as the
    value of a leaf is the empty text. *)
Inductive call :=
| CInner (m n : string)
| CLeaf (cont : bool) (m n v : string)
| CAny (cont : bool) (m n : string) (v : option string)
| CMeta (a v : string).

(** The children of [data] after a call; [cont] is the inner node made last, and attributes go to the node made last. *)
Fixpoint on_last (f : node -> node) (l : list node) : list node :=
  match l with [] => [] | [x] => [f x] | x :: r => x :: on_last f r end.
Definition addc (x : node) (p : node) : node := match p with Inner m n ch => Inner m n (ch ++ [x]) | _ => p end.
Definition addm (a v : string) (p : node) : node := match p with AnyN m n t l => AnyN m n t (l ++ [(a, v)]) | _ => p end.
Definition put1 (l : list node) (c : call) : list node :=
  match c with
  | CInner m n => l ++ [Inner m n []]
  | CLeaf false m n v => l ++ [Leaf m n v]
  | CLeaf true m n v => on_last (addc (Leaf m n v)) l
  | CAny false m n v => l ++ [AnyN m n v []]
  | CAny true m n v => on_last (addc (AnyN m n v [])) l
  | CMeta a v => on_last (addm a v) l
  end.

(** The statements of one case: a call with CHECK_LYRC_BREAK (line 2715), a loop of such calls, or an unconditional error (a module
    that is missing).  "break" in a loop ends only the loop. *)
Inductive item := Call (c : call) | Loop (cs : list call) | Err.

(** [acc]: libyang makes the node, which depends on the nodes there are.  The result is the tree and lyrc (true: no error). *)
Section Exec.
  Variable acc : list node -> call -> bool.
  Fixpoint exec_loop (cs : list call) (st : list node) (rc : bool) : list node * bool :=
    match cs with
    | [] => (st, rc)
    | c :: r => if acc st c then exec_loop r (put1 st c) true else (st, false)
    end.
  Fixpoint exec (l : list item) (st : list node) (rc : bool) : list node * bool :=
    match l with
    | [] => (st, rc)
    | Call c :: r => if acc st c then exec r (put1 st c) true else (st, false)
    | Loop cs :: r => let (st', rc') := exec_loop cs st rc in exec r st' rc'
    | Err :: _ => (st, false)
    end.
End Exec.

Definition nc := "ietf-netconf".
Definition ncwd := "ietf-netconf-with-defaults".
Definition ncm := "ietf-netconf-monitoring".
Definition ntf := "notifications".
Definition nmda := "ietf-netconf-nmda".
Definition sn := "ietf-subscribed-notifications".
Definition yp := "ietf-yang-push".

(** sprintf(str, "%" PRIu32, n) *)
Definition num (n : N) : string := string_of_list_ascii (dec n).

Definition opt_leaf (c : bool) (m n : string) (v : option string) : list item := match v with Some x => [Call (CLeaf c m n x)] | None => [] end.
Definition num_leaf (c : bool) (m n : string) (v : N) : list item := if N.eqb v 0 then [] else [Call (CLeaf c m n (num v))].
Definition xml_first (s : string) : bool := match s with EmptyString => true | String c _ => Ascii.eqb c "<"%char end.
Definition path_first (s : string) : bool := match s with EmptyString => false | String c _ => Ascii.eqb c "/"%char end.

(** Lines 2740-2749 and their copies: "filter" with the attributes of ietf-netconf. *)
Definition filter_items (m : string) (f : option string) : list item :=
  match f with
  | None => []
  | Some x => if xml_first x
              then [Call (CAny false m "filter" (Some x)); Call (CMeta "ietf-netconf:type" "subtree")]
              else [Call (CAny false m "filter" None); Call (CMeta "ietf-netconf:type" "xpath"); Call (CMeta "ietf-netconf:select" x)]
  end.
(** Lines 2751-2759 and their copies; [mods]: the implemented modules. *)
Definition wd_items (mods : string -> bool) (w : wd) : list item :=
  match w with WdUnknown => [] | _ => if mods ncwd then [Call (CLeaf false ncwd "with-defaults" (wd_str w))] else [Err] end.
(** Lines 3024-3034 and their copies. *)
Definition sub_filter (m a b c : string) (f : option string) : list item :=
  match f with
  | None => []
  | Some x => if xml_first x then [Call (CAny false m a (Some x))] else if path_first x then [Call (CLeaf false m b x)] else [Call (CLeaf false m c x)]
  end.
(** Lines 2778-2782 and their copies. *)
Definition cont_items (c : bool) (m x : string) : list item :=
  if xml_first x then [Call (CAny c m "config" (Some x))] else [Call (CLeaf c m "url" x)].
Definition ds_item (d : ds) : list item := [Call (CLeaf true nc (ds_str d) "")].
Definition dfltop_items (m : string) (d : dfltop) : list item := match d with DoUnknown => [] | _ => [Call (CLeaf false m "default-operation" (dfltop_str d))] end.

(** Lines 2734-3181: the module and the name of the operation, and the statements after the first. *)
Definition program (mods : string -> bool) (r : rpc) : string * string * list item :=
  match r with
  | GetConfig src f w => (nc, "get-config", Call (CInner nc "source") :: ds_item src ++ filter_items nc f ++ wd_items mods w)
  | Edit tgt d t e c =>
    (nc, "edit-config", Call (CInner nc "target") :: ds_item tgt ++ dfltop_items nc d
       ++ match t with ToUnknown => [] | _ => [Call (CLeaf false nc "test-option" (testopt_str t))] end
       ++ match e with EoUnknown => [] | _ => [Call (CLeaf false nc "error-option" (erropt_str e))] end
       ++ cont_items false nc c)
  | Copy tgt url src c w =>
    (nc, "copy-config", Call (CInner nc "target") :: match url with Some u => [Call (CLeaf true nc "url" u)] | None => ds_item tgt end
       ++ Call (CInner nc "source") :: match c with Some x => cont_items true nc x | None => ds_item src end
       ++ wd_items mods w)
  | Delete tgt url => (nc, "delete-config", Call (CInner nc "target") :: match url with Some u => [Call (CLeaf true nc "url" u)] | None => ds_item tgt end)
  | Lock tgt => (nc, "lock", Call (CInner nc "target") :: ds_item tgt)
  | Unlock tgt => (nc, "unlock", Call (CInner nc "target") :: ds_item tgt)
  | Get f w => (nc, "get", filter_items nc f ++ wd_items mods w)
  | Kill n => (nc, "kill-session", [Call (CLeaf false nc "session-id" (num n))])
  | Commit cf tm p pid =>
    (nc, "commit", (if cf then [Call (CLeaf false nc "confirmed" "")] else []) ++ num_leaf false nc "confirm-timeout" tm
       ++ opt_leaf false nc "persist" p ++ opt_leaf false nc "persist-id" pid)
  | Discard => (nc, "discard-changes", [])
  | Cancel pid => (nc, "cancel-commit", opt_leaf false nc "persist-id" pid)
  | Validate src c => (nc, "validate", Call (CInner nc "source") :: match c with Some x => cont_items true nc x | None => ds_item src end)
  | GetSchema i v f => (ncm, "get-schema", Call (CLeaf false ncm "identifier" i) :: opt_leaf false ncm "version" v ++ opt_leaf false ncm "format" f)
  | Subscribe s f a b => (ntf, "create-subscription", opt_leaf false ntf "stream" s ++ filter_items ntf f ++ opt_leaf false ntf "startTime" a ++ opt_leaf false ntf "stopTime" b)
  | GetData st f cf os neg depth wo w =>
    (nmda, "get-data", Call (CLeaf false nmda "datastore" st)
       :: match f with Some x => if xml_first x then [Call (CAny false nmda "subtree-filter" (Some x))] else [Call (CLeaf false nmda "xpath-filter" x)] | None => [] end
       ++ opt_leaf false nmda "config-filter" cf
       ++ Loop (map (fun o => CLeaf false nmda (if neg then "negated-origin-filter" else "origin-filter") o) os)
       :: num_leaf false nmda "max-depth" depth
       ++ (if wo then [Call (CLeaf false nmda "with-origin" "")] else [])
       ++ match w with WdUnknown => [] | _ => [Call (CLeaf false nmda "with-defaults" (wd_str w))] end)
  | EditData st d c => (nmda, "edit-data", Call (CLeaf false nmda "datastore" st) :: dfltop_items nmda d ++ cont_items false nmda c)
  | EstSub f s a b e =>
    (sn, "establish-subscription", sub_filter sn "stream-subtree-filter" "stream-xpath-filter" "stream-filter-name" f
       ++ Call (CLeaf false sn "stream" s) :: opt_leaf false sn "replay-start-time" a ++ opt_leaf false sn "stop-time" b ++ opt_leaf false sn "encoding" e)
  | ModSub i f b =>
    (sn, "modify-subscription", Call (CLeaf false sn "id" (num i)) :: sub_filter sn "stream-subtree-filter" "stream-xpath-filter" "stream-filter-name" f
       ++ opt_leaf false sn "stop-time" b)
  | DelSub i => (sn, "delete-subscription", [Call (CLeaf false sn "id" (num i))])
  | KillSub i => (sn, "kill-subscription", [Call (CLeaf false sn "id" (num i))])
  | EstPush st f b e t =>
    (sn, "establish-subscription", Call (CLeaf false yp "datastore" st)
       :: sub_filter yp "datastore-subtree-filter" "datastore-xpath-filter" "selection-filter-ref" f
       ++ opt_leaf false sn "stop-time" b ++ opt_leaf false sn "encoding" e
       ++ match t with
          | Periodic p a => Call (CInner yp "periodic") :: Call (CLeaf true yp "period" (num p)) :: opt_leaf true yp "anchor-time" a
          | OnChange d s x => Call (CInner yp "on-change") :: num_leaf true yp "dampening-period" d
                              ++ Call (CLeaf true yp "sync-on-start" (if s then "true" else "false"))
                              :: [Loop (map (fun v => CLeaf true yp "excluded-change" v) x)]
          end)
  | ModPush i st f b t =>
    (sn, "modify-subscription", Call (CLeaf false sn "id" (num i)) :: Call (CLeaf false yp "datastore" st)
       :: sub_filter yp "datastore-subtree-filter" "datastore-xpath-filter" "selection-filter-ref" f
       ++ opt_leaf false sn "stop-time" b
       ++ match t with
          | MPeriodic p a => Call (CInner yp "periodic") :: Call (CLeaf true yp "period" (num p)) :: opt_leaf true yp "anchor-time" a
          | MOnChange d => Call (CInner yp "on-change") :: num_leaf true yp "dampening-period" d
          end)
  | Resync i => (yp, "resync-subscription", [Call (CLeaf false yp "id" (num i))])
  end.

(** Lines 2636-2713: the modules an operation needs. *)
Definition needs (r : rpc) : list string :=
  match r with
  | GetSchema _ _ _ => [ncm]
  | Subscribe _ _ _ _ => [ntf]
  | GetData _ _ _ _ _ _ _ _ | EditData _ _ _ => [nmda]
  | EstSub _ _ _ _ _ | ModSub _ _ _ | DelSub _ | KillSub _ => [sn]
  | EstPush _ _ _ _ _ | ModPush _ _ _ _ _ => [sn; yp]
  | Resync _ => [yp]
  | _ => [nc]
  end.

(** Lines 2594-3197 [nc_send_rpc] to the call of nc_send_msg_io(), without the generic request, whose tree is the caller's: the tree given to it, or NC_MSG_ERROR ([None]).  [running]: a
    running session of a client; [root]: libyang makes the operation itself. *)
Definition send_tree (running : bool) (mods : string -> bool) (root : string -> string -> bool) (acc : list node -> call -> bool) (r : rpc) : option node :=
  if negb running then None
  else if negb (forallb mods (needs r)) then None
  else let '(m, n, items) := program mods r in
       if negb (root m n) then None
       else let (st, rc) := exec acc items [] true in
            if rc then Some (Inner m n st) else None.
