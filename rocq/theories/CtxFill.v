(** Client side: filling the context of a new session with the modules of the server
    (src/session_client.c 354-785, 816-1024, 1100-1419). *)
From Coq Require Import Ascii String NArith ZArith Bool Lia List.
From Verif Require Import Bytes CStr ClientMsgs ModInfo.
Import ListNotations.

(** A module of a libyang context (struct lys_module): name, revision, whether it is implemented, its
    enabled features. *)
Record lmod := mkLM { lm_name : bytes; lm_rev : option bytes; lm_impl : bool; lm_feats : list bytes }.

(** What happens, newest first: a search for a local file, a <get-schema> request, a call of the user's
    callback (all with the result), a request of libyang for an imported module or submodule, the parsing of
    a module, a call of lys_set_implemented(), a request for operational data, the compilation. *)
Inductive ev :=
| ELocal (name : bytes) (rev : option bytes) (got : bool)
| EGet (name : bytes) (rev : option bytes) (got : bool)
| EUser (name : bytes) (rev : option bytes) (got : bool)
| EImport (name : bytes) (rev : option bytes) (sub : option (bytes * option bytes))
| EParse (name : bytes) (ok : bool)
| EImpl (name : bytes) (ok : bool)
| EOper (got : bool)
| ECompile (ok : bool).
Definition hist := list ev.

(** Everything outside of the code: answers may depend on all that happened before.
    - [w_local]: lys_search_localfile() and the content of the file: name of the file without directory, and
      the content unless it cannot be read;
    - [w_get]: the reply to <get-schema>: data, and whether the session is still running;
    - [w_user]: the data of the user's callback;
    - [w_imports]: what libyang asks for while parsing the data;
    - [w_parse]: the module lys_parse() creates from the data obtained for a name, and modules added by its
      imports; [None] if it fails;
    - [w_impl]: whether lys_set_implemented() succeeds;
    - [w_yl], [w_mounts]: the reply to the request for yang-library data ([None]: no or unexpected data)
      and for the schema mounts ([Some v]: there are such data, [v]: they are valid), and whether the session
      is still running;
    - [w_builtin]: whether a module compiled into the library is parsed;
    - [w_compile]: ly_ctx_compile(). *)
Record world := {
  w_local : hist -> bytes -> option bytes -> option (bytes * option bytes);
  w_get : hist -> bytes -> option bytes -> option bytes * bool;
  w_user : hist -> bytes -> option bytes -> option bytes;
  w_imports : hist -> bytes -> list (bytes * option bytes * option (bytes * option bytes));
  w_parse : hist -> bytes -> bytes -> option (lmod * list lmod);
  w_impl : hist -> lmod -> option (list bytes) -> bool;
  w_yl : hist -> option (list (list ychild)) * bool;
  w_mounts : hist -> option bool * bool;
  w_builtin : hist -> bytes -> bool;
  w_compile : hist -> bool }.

(** The import callback of the context: the one set before, none, or [retrieve_module_data_imp]. *)
Inductive cb := CbUser | CbNone | CbOurs.

(** The session and its context.  [dis], [expl]: LY_CTX_DISABLE_SEARCHDIRS, LY_CTX_EXPLICIT_COMPILE;
    [running]: status NC_STATUS_RUNNING; [lax]: NC_SESSION_CLIENT_NOT_STRICT; [mounts]: ext_data set. *)
Record ses := mkS { mods : list lmod; clb : cb; dis : bool; expl : bool; running : bool; lax : bool;
                    mounts : bool; log : hist }.
Definition put (e : ev) (s : ses) : ses := mkS (mods s) (clb s) (dis s) (expl s) (running s) (lax s) (mounts s) (e :: log s).
Definition set_mods l s := mkS l (clb s) (dis s) (expl s) (running s) (lax s) (mounts s) (log s).
Definition set_clb c s := mkS (mods s) c (dis s) (expl s) (running s) (lax s) (mounts s) (log s).
Definition set_opts d e s := mkS (mods s) (clb s) d e (running s) (lax s) (mounts s) (log s).
Definition set_running b s := mkS (mods s) (clb s) (dis s) (expl s) b (lax s) (mounts s) (log s).
Definition set_lax s := mkS (mods s) (clb s) (dis s) (expl s) (running s) true (mounts s) (log s).
Definition set_mounts s := mkS (mods s) (clb s) (dis s) (expl s) (running s) (lax s) true (log s).

Definition isSome {A} (o : option A) : bool := match o with Some _ => true | None => false end.
Definition has_at (f : bytes) : bool := existsb (fun c => Ascii.eqb c "@"%char) f.

(** Lines 364-424 [retrieve_module_data_localfile].  A file whose name has no '@' is not used when a
    revision is asked for. *)
Definition localfile (w : world) (s : ses) (name : bytes) (rev : option bytes) : ses * option bytes :=
  let r := match w_local w (log s) name rev with
           | None => None
           | Some (f, d) => if isSome rev && negb (has_at f) then None else d
           end in
  (put (ELocal name rev (isSome r)) s, r).

(** Lines 436-531 [retrieve_module_data_getschema].  On a session that is not running nothing can be sent;
    empty data count as none.  Storing the module in the search path is not modelled. *)
Definition getschema (w : world) (s : ses) (name : bytes) (rev : option bytes) : ses * option bytes :=
  if running s then
    let (d, alive) := w_get w (log s) name rev in
    let r := match d with Some (_ :: _) => d | _ => None end in
    (put (EGet name rev (isSome r)) (set_running alive s), r)
  else (put (EGet name rev false) s, None).

(** Lines 567-571, 676-680: the user's callback, if there is one. *)
Definition usercb (w : world) (has : bool) (s : ses) (name : bytes) (rev : option bytes) : ses * option bytes :=
  if has then let r := w_user w (log s) name rev in (put (EUser name rev (isSome r)) s, r)
  else (s, None).

(** The three sources one after the other until one has the data. *)
Definition orelse (a : ses * option bytes) (f : ses -> ses * option bytes) : ses * option bytes :=
  match a with
  | (s, Some d) => (s, Some d)
  | (s, None) => f s
  end.

(** Parameters of the fill: [gs]: has_get_schema; [ucb]: there is a callback of the user. *)
Record params := { gs : bool; ucb : bool }.
Definition server (w : world) (p : params) (s : ses) name rev : ses * option bytes :=
  if gs p then getschema w s name rev else (s, None).

(** Lines 551-576 [retrieve_module_data]. *)
Definition retrieve (w : world) (p : params) (s : ses) (name : bytes) (rev : option bytes) : ses * option bytes :=
  orelse (orelse (localfile w s name rev) (fun s => server w p s name rev)) (fun s => usercb w (ucb p) s name rev).

(** Lines 591-685 [retrieve_module_data_imp]; what to ask for is decided by [retrieve_imp] of ModInfo.
    [Crash]: strcmp() of NULL there. *)
Definition retrieve_import (w : world) (p : params) (ms : list minfo) (s : ses)
    (q : bytes * option bytes * option (bytes * option bytes)) : res ses :=
  let '(mn, mr, sub) := q in
  let s := put (EImport mn mr sub) s in
  match retrieve_imp ms mn mr sub with
  | Crash => Crash
  | Ret NotFound => Ret s
  | Ret (Want name rev true) =>
      Ret (fst (orelse (orelse (localfile w s name rev) (fun s => server w p s name rev)) (fun s => usercb w (ucb p) s name rev)))
  | Ret (Want name rev false) =>
      Ret (fst (orelse (orelse (server w p s name rev) (fun s => localfile w s name rev)) (fun s => usercb w (ucb p) s name rev)))
  end.
Fixpoint imports (w : world) (p : params) (ms : list minfo) (s : ses) (l : list (bytes * option bytes * option (bytes * option bytes))) : res ses :=
  match l with
  | [] => Ret s
  | q :: r => match retrieve_import w p ms s q with Ret s1 => imports w p ms s1 r | Crash => Crash end
  end.

(** libyang: ly_ctx_get_module_implemented(), ly_ctx_get_module(), ly_ctx_get_module_latest(). *)
Definition get_implemented (c : list lmod) (name : bytes) : option lmod :=
  find (fun m => beqb (lm_name m) name && lm_impl m) c.
Definition oeqb (a b : option bytes) : bool :=
  match a, b with Some x, Some y => beqb x y | None, None => true | _, _ => false end.
Definition get_module (c : list lmod) (name : bytes) (rev : option bytes) : option lmod :=
  find (fun m => beqb (lm_name m) name && oeqb (lm_rev m) rev) c.
Definition newer (a b : option bytes) : bool :=
  match a, b with Some x, Some y => strcmp_gt x y | Some _, None => true | None, _ => false end.
Definition get_latest (c : list lmod) (name : bytes) : option lmod :=
  fold_left (fun a m => if beqb (lm_name m) name
                        then match a with Some x => if newer (lm_rev m) (lm_rev x) then Some m else a | None => Some m end
                        else a) c None.

(** libyang: lys_set_implemented() of a module of the context succeeds; without features ([None]) the enabled
    ones stay. *)
Definition implement (c : list lmod) (name : bytes) (rev : option bytes) (feats : option (list bytes)) : list lmod :=
  map (fun m => if beqb (lm_name m) name && oeqb (lm_rev m) rev
                then mkLM (lm_name m) (lm_rev m) true (match feats with Some f => f | None => lm_feats m end)
                else m) c.
Definition set_implemented (w : world) (s : ses) (m : lmod) (feats : option (list bytes)) : ses * bool :=
  let ok := w_impl w (log s) m feats in
  let s := put (EImpl (lm_name m) ok) s in
  (if ok then set_mods (implement (mods s) (lm_name m) (lm_rev m) feats) s else s, ok).

(** libyang: a parsed module is implemented with the given features. *)
Definition parsed_mod (m : lmod) (feats : option (list bytes)) : lmod :=
  mkLM (lm_name m) (lm_rev m) true (match feats with Some f => f | None => [] end).

(** Lines 702-785 [nc_ctx_load_module]; the result and the module. *)
Definition load_module (w : world) (p : params) (ms : list minfo) (s : ses) (name : bytes) (rev : option bytes)
    (feats : option (list bytes)) : res (ses * (bool * option lmod)) :=
  let found := match get_implemented (mods s) name with
               | Some m => Some m
               | None => if isSome rev then get_module (mods s) name rev else get_latest (mods s) name
               end in
  match found with
  | Some m => let (s1, ok) := set_implemented w s m feats in Ret (s1, (ok, Some m))
  | None =>
      match retrieve w p s name rev with
      | (s1, None) => Ret (s1, (false, None))
      | (s1, Some d) =>
          match imports w p ms (set_clb CbOurs s1) (w_imports w (log s1) d) with
          | Crash => Crash
          | Ret s2 =>
              match w_parse w (log s2) name d with
              | None => Ret (set_clb CbNone (put (EParse name false) s2), (false, None))
              | Some (m, xs) =>
                  Ret (set_clb CbNone (set_mods (mods s2 ++ parsed_mod m feats :: xs) (put (EParse name true) s2)), (true, Some m))
              end
          end
      end
  end.

(** Lines 1111-1148 [nc_ctx_fill]. *)
Fixpoint fill (w : world) (p : params) (all ms : list minfo) (s : ses) : res (ses * bool) :=
  match ms with
  | [] => Ret (s, true)
  | m :: r =>
      if mi_impl m then
        match load_module w p all s (mi_name m) (mi_rev m) (mi_feats m) with
        | Crash => Crash
        | Ret (s1, (_, Some _)) => fill w p all r s1
        | Ret (s1, (_, None)) => if running s1 then fill w p all r (set_lax s1) else Ret (s1, false)
        end
      else fill w p all r s
  end.

Definition IETF_NETCONF : bytes := bs "ietf-netconf".
Definition IETF_YL : bytes := bs "ietf-yang-library".
Definition IETF_DS : bytes := bs "ietf-datastores".
Definition IETF_NMDA : bytes := bs "ietf-netconf-nmda".
Definition IETF_MON : bytes := bs "ietf-netconf-monitoring".

(** Lines 1191-1194, 1317: a module compiled into the library is parsed. *)
Definition builtin (w : world) (s : ses) (name : bytes) (feats : option (list bytes)) : ses * bool :=
  let ok := w_builtin w (log s) name in
  let s := put (EParse name ok) s in
  (if ok then set_mods (mods s ++ [parsed_mod (mkLM name None true []) feats]) s else s, ok).

(** Lines 1161-1202 [nc_ctx_fill_ietf_netconf]. *)
Definition fill_ietf_netconf (w : world) (p : params) (ms : list minfo) (s : ses) : res (ses * bool) :=
  match find (fun m => beqb (mi_name m) IETF_NETCONF) ms with
  | None => Ret (s, false)
  | Some mi =>
      match get_implemented (mods s) IETF_NETCONF with
      | Some m => Ret (fst (set_implemented w s m (mi_feats mi)), true)
      | None =>
          match load_module w p ms s IETF_NETCONF None (mi_feats mi) with
          | Crash => Crash
          | Ret (s1, (_, Some _)) => Ret (s1, true)
          | Ret (s1, (_, None)) => Ret (builtin w s1 IETF_NETCONF (mi_feats mi))
          end
      end
  end.

(** Lines 826-898 [get_oper_data]: on a session that is not running nothing is received and the result is an
    error; otherwise it is an error iff the session does not run any more. *)
Definition oper {A} (s : ses) (answer : hist -> option A * bool) : ses * option A * bool :=
  if running s then
    let (d, alive) := answer (log s) in
    (put (EOper (isSome d)) (set_running alive s), d, alive)
  else (put (EOper false) s, None, false).

(** Lines 910-1024 [build_module_info_yl]: the error of get_oper_data() is not passed on.  [None]: memory
    never written is read (by the loops over the result). *)
Definition module_info_yl (w : world) (s : ses) (notif : bool) : res (ses * option (list minfo)) :=
  match oper s (w_yl w) with
  | (s1, Some l, true) => match entries (build_module_info_yl false notif l) with
                          | Some ms => Ret (s1, Some ms)
                          | None => Crash
                          end
  | (s1, _, _) => Ret (s1, None)
  end.

(** Lines 1204-1266 [nc_client_set_new_session_context_schema_mount]; [shared]: NC_SESSION_SHAREDCTX. *)
Definition schema_mount (w : world) (shared : bool) (s : ses) : ses * bool :=
  if shared then (s, true)
  else match get_implemented (mods s) IETF_YL with
       | None => (s, false)
       | Some _ => match oper s (w_mounts w) with
                   | (s1, _, false) => (s1, false)
                   | (s1, None, true) => (s1, true)
                   | (s1, Some v, true) => if v then (set_mounts s1, true) else (s1, false)
                   end
       end.

Definition MON_CAP : bytes := bs "urn:ietf:params:xml:ns:yang:ietf-netconf-monitoring?".
Definition YL_CAP : bytes := bs "urn:ietf:params:netconf:capability:yang-library:".
Definition NOTIF_CAP : bytes := bs "urn:ietf:params:netconf:capability:notification:1.0".
(** Lines 1295-1305: the last capability with a prefix; [None] if there is none. *)
Definition last_cap (pre : bytes) (cs : list bytes) : option bytes :=
  fold_left (fun a c => if strncmp0 c pre (length pre) then Some c else a) cs None.

(** nc_session_cpblt() (lines 1949-1964): a capability starting with the given one. *)
Definition has_cpblt (c : bytes) (cs : list bytes) : bool := existsb (fun x => strncmp0 x c (length c)) cs.

(** Lines 1384-1419: the second half of [nc_ctx_check_and_fill] and its cleanup. *)
Definition cleanup (s : ses) : ses := set_opts false false (set_clb CbUser s).
Definition finish (w : world) (p : params) (shared yl : bool) (ms : list minfo) (s : ses) : res (ses * bool) :=
  let s := set_opts (dis s) true s in
  match fill w p ms ms s with
  | Crash => Crash
  | Ret (s1, false) => Ret (cleanup s1, false)
  | Ret (s1, true) =>
      let ok := w_compile w (log s1) in
      let s2 := put (ECompile ok) s1 in
      if ok then
        if yl then let (s3, r) := schema_mount w shared s2 in Ret (cleanup s3, r)
        else Ret (cleanup s2, true)
      else Ret (cleanup s2, false)
  end.

(** Lines 1327-1354: ietf-yang-library and ietf-datastores; the result: whether the library can be used. *)
Definition load_yanglib (w : world) (p : params) (ms : list minfo) (s : ses) (cap : option bytes) : res (ses * bool) :=
  match cap with
  | None => Ret (s, false)
  | Some c =>
      match strstr c (bs "revision=") with
      | None => Ret (s, false)
      | Some r =>
          let rev := firstn 10 (skipn 9 r) in
          match load_module w p ms s IETF_YL (Some rev) None with
          | Crash => Crash
          | Ret (s1, (ok, _)) =>
              if negb (strcmp_gt (bs "2019-01-04") rev) then
                match load_module w p ms s1 IETF_DS None None with
                | Crash => Crash
                | Ret (s2, (ok2, _)) => Ret (s2, ok && ok2)
                end
              else Ret (s1, ok)
          end
      end
  end.

(** Lines 1268-1419 [nc_ctx_check_and_fill].  [disabled]: auto_context_fill_disabled; [hasucb]: the context
    has a callback of the user. *)
Definition check_and_fill (w : world) (disabled hasucb shared : bool) (cs : list bytes) (s : ses) : res (ses * bool) :=
  if disabled then Ret (s, true)
  else
    let s0 := set_clb CbNone (set_opts true (expl s) s) in
    let ms := ModInfo.build_module_info_cpblts cs in
    let '(s1, gs1) := if isSome (last_cap MON_CAP cs) then builtin w s0 IETF_MON None else (s0, false) in
    let p := {| gs := gs1; ucb := hasucb |} in
    match fill_ietf_netconf w p ms s1 with
    | Crash => Crash
    | Ret (s2, false) => Ret (cleanup s2, false)
    | Ret (s2, true) =>
        match load_yanglib w p ms s2 (last_cap YL_CAP cs) with
        | Crash => Crash
        | Ret (s3, false) => finish w p shared false ms s3
        | Ret (s3, true) =>
            match module_info_yl w s3 (has_cpblt NOTIF_CAP cs) with
            | Crash => Crash
            | Ret (s4, None) => finish w p shared true ms s4
            | Ret (s4, Some sm) =>
                if existsb (fun m => beqb (mi_name m) IETF_NMDA && mi_impl m) sm then
                  match load_module w p sm s4 IETF_NMDA None None with
                  | Crash => Crash
                  | Ret (s5, _) => finish w p shared true sm s5
                  end
                else finish w p shared true sm s4
            end
        end
    end.
