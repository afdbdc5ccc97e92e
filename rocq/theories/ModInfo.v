(** Client side: the modules of the server and which of their revisions are retrieved; Call Home binds
    (src/session_client.c). *)
From Coq Require Import Ascii String NArith ZArith Bool Lia List.
From Verif Require Import Bytes CStr ClientMsgs.
Import ListNotations.
Local Open Scope N_scope.

(** session_client.c 334-344 [struct module_info].  The array ends with an entry without name; it is a
    list here.  [mi_subs]: [None] for the NULL pointer. *)
Record minfo := mkMI { mi_name : bytes; mi_rev : option bytes; mi_subs : option (list (bytes * option bytes));
                       mi_feats : option (list bytes); mi_impl : bool }.

(* ------------------------------------------------------------------ *)
(** ** Modules from capabilities *)

Definition AMP : ascii := "&"%char.
Definition COMMA : ascii := ","%char.

(** Lines 1075-1091: the features up to '&', split at commas; [cur] = the characters since [ptr2]. *)
Fixpoint split_features (cur : bytes) (s : bytes) : list bytes :=
  match s with
  | [] => [cur]
  | c :: s' =>
      if Ascii.eqb c AMP then [cur]
      else if Ascii.eqb c COMMA then cur :: split_features [] s'
      else split_features (cur ++ [c]) s'
  end.

(** Value following a key found by strstr(), up to '&' (lines 1052-1068). *)
Definition value_at (key s : bytes) : option bytes :=
  match strstr s key with
  | Some p => Some (before AMP (skipn (length key) p))
  | None => None
  end.

(** Lines 1043-1098, one iteration of [build_module_info_cpblts].  Allocation failures are not represented
    (strndup and nc_realloc results are not checked there). *)
Definition module_of_cpblt (c : bytes) : option minfo :=
  match strstr c (bs "module=") with
  | None => None
  | Some p =>
      Some (mkMI (before AMP (skipn 7 p)) (value_at (bs "revision=") p) None
              (match strstr p (bs "features=") with
               | Some f => Some (split_features [] (skipn 9 f))
               | None => None
               end) true)
  end.

(** Lines 1030-1098 [build_module_info_cpblts]. *)
Fixpoint build_module_info_cpblts (cs : list bytes) : list minfo :=
  match cs with
  | [] => []
  | c :: cs' => match module_of_cpblt c with
                | Some m => m :: build_module_info_cpblts cs'
                | None => build_module_info_cpblts cs'
                end
  end.

(* ------------------------------------------------------------------ *)
(** ** Modules from the yang-library *)

(** One child of a "module" list entry of the yang-library module itself, with a non-empty value
    (lines 945-953); [YOther]: any other. *)
Inductive ychild :=
| YName (v : bytes) | YRevision (v : bytes) | YConf (v : bytes) | YFeature (v : bytes)
| YSubmodule (name : option bytes) (rev : option bytes) | YOther.

(** Lines 954-974. *)
Definition yl_child (m : minfo) (c : ychild) : minfo :=
  match c with
  | YName v => mkMI v (mi_rev m) (mi_subs m) (mi_feats m) (mi_impl m)
  | YRevision v => mkMI (mi_name m) (Some v) (mi_subs m) (mi_feats m) (mi_impl m)
  | YConf v => mkMI (mi_name m) (mi_rev m) (mi_subs m) (mi_feats m) (streq v (bs "implement"))
  | YFeature v => mkMI (mi_name m) (mi_rev m) (mi_subs m)
                    (Some (match mi_feats m with None => [v] | Some l => l ++ [v] end)) (mi_impl m)
  | YSubmodule _ _ | YOther => m
  end.

(** Lines 976-994: the array of submodules; the index [v] stays 0, every submodule is stored in the first
    entry.  A submodule list entry is counted (line 971) only if it has a value, which a list never has:
    lyd_get_value() of a list is NULL, so line 949 skips it. [counted] tells which it is. *)
Definition yl_submodules (counted : bool) (cs : list ychild) : option (list (bytes * option bytes)) :=
  let subs := fold_left (fun a c => match c with
                                    | YSubmodule n r =>
                                        Some (match n with Some x => x | None => match a with Some (x, _) => x | None => [] end end,
                                              match r with Some x => Some x | None => match a with Some (_, y) => y | None => None end end)
                                    | _ => a
                                    end) cs None in
  if counted then match subs with Some s => Some [s] | None => None end else None.

Definition yl_module (counted : bool) (cs : list ychild) : minfo :=
  let m := fold_left yl_child cs (mkMI [] None None None false) in
  mkMI (mi_name m) (mi_rev m) (yl_submodules counted cs) (mi_feats m) (mi_impl m).

(** What an array cell holds: an entry, the all-zero terminator, or memory never written. *)
Inductive cell := CEntry (m : minfo) | CZero | CUninit.

(** Lines 911-1020 [build_module_info_yl], the part after the data were received.  When the notification
    capability is there and neither of the notification modules, the array is enlarged by nc_realloc() to
    count + 3 entries and two more are filled: of the new entry count + 1 only name, revision, implemented
    are written, the entry count + 2 not at all. *)
Definition NOTIFICATIONS : bytes := bs "notifications".
Definition NC_NOTIFICATIONS : bytes := bs "nc-notifications".
Definition REV5277 : bytes := bs "2008-07-14".

Definition build_module_info_yl (counted notif_cap : bool) (mods : list (list ychild)) : list cell :=
  let l := map (yl_module counted) mods in
  let found := existsb (fun m => streq (mi_name m) NOTIFICATIONS || streq (mi_name m) NC_NOTIFICATIONS) l in
  map CEntry l ++
  (if notif_cap && negb found then
     [CEntry (mkMI NOTIFICATIONS (Some REV5277) None None true);
      CEntry (mkMI NC_NOTIFICATIONS (Some REV5277) None None true); CUninit]
   else [CZero]).

(** The loops over the array (lines 1120, 1168, 613): the entries up to the first without a name;
    [None]: memory never written is used as the name. *)
Fixpoint entries (a : list cell) : option (list minfo) :=
  match a with
  | [] => None
  | CUninit :: _ => None
  | CZero :: _ => Some []
  | CEntry m :: a' => match entries a' with Some l => Some (m :: l) | None => None end
  end.

(* ------------------------------------------------------------------ *)
(** ** Which revision is retrieved *)

(** strcmp(a, b) > 0: bytes compared as unsigned char. *)
Fixpoint strcmp_gt (a b : bytes) : bool :=
  match a, b with
  | [], _ => false
  | _ :: _, [] => true
  | x :: a', y :: b' => if N_of_ascii x =? N_of_ascii y then strcmp_gt a' b' else N_of_ascii y <? N_of_ascii x
  end.

(** Lines 612-621: the loop over the modules; [u] = index, [match_] and [rev] the variables; [Crash]:
    strcmp() with NULL. *)
Fixpoint newest (name : bytes) (ms : list minfo) (u match_ : nat) (rev : option bytes) : res (nat * option bytes) :=
  match ms with
  | [] => Ret (match_, rev)
  | m :: ms' =>
      if negb (streq name (mi_name m)) then newest name ms' (S u) match_ rev
      else
        match match_ with
        | O => newest name ms' (S u) (S u) (mi_rev m)
        | S _ =>
            match rev, mi_rev m with
            | Some a, Some b => newest name ms' (S u) (S u) (if strcmp_gt a b then mi_rev m else rev)
            | _, _ => Crash
            end
        end
  end.

(** Lines 641-644: the last submodule of that name. *)
Definition sub_rev_of (sub : bytes) (l : list (bytes * option bytes)) : option bytes :=
  fold_left (fun a s => if streq sub (fst s) then snd s else a) l None.

(** What [retrieve_module_data_imp] decides to ask for: name, revision, local file first or the server
    first; or LY_ENOTFOUND. *)
Inductive want := Want (name : bytes) (rev : option bytes) (local_first : bool) | NotFound.

(** Lines 600-662.  [mod_rev] = [None] for NULL; an empty string counts as none. *)
Definition retrieve_imp (ms : list minfo) (mod_name : bytes) (mod_rev : option bytes)
    (submod : option (bytes * option bytes)) : res want :=
  let r := match mod_rev with
           | Some (c :: t) => Ret (1%nat, mod_rev)
           | _ => newest mod_name ms 0 0 mod_rev
           end in
  match r with
  | Crash => Crash
  | Ret (match_, rev) =>
      let found := match match_ with O => false | S _ => true end in
      match submod with
      | None => Ret (Want mod_name rev found)
      | Some (sub, Some sr) => Ret (Want sub (Some sr) found)
      | Some (sub, None) =>
          match match_ with
          | O => Ret (Want sub None false)
          | S k =>
              match (match nth_error ms k with Some m => mi_subs m | None => None end) with
              | None => Ret (Want sub None true)
              | Some l => match sub_rev_of sub l with
                          | None => Ret NotFound
                          | Some sr => Ret (Want sub (Some sr) true)
                          end
              end
          end
      end
  end.

(* ------------------------------------------------------------------ *)
(** ** Call Home binds *)

(** client_opts.ch_binds[i] and ch_binds_aux[i] (session_p.h), kept in step: one record here. *)
Record chbind := mkCB { cb_address : bytes; cb_port : N; cb_ti : N; cb_sock : N }.

(** Lines 1803-1839 [nc_client_ch_add_bind_listen], with the socket obtained ([None]: not) and memory
    available. *)
Definition ch_add_bind (address : bytes) (port ti : N) (sock : option N) (l : list chbind) : Z * list chbind :=
  match sock with
  | None => ((-1)%Z, l)
  | Some s => (0%Z, l ++ [mkCB address port ti s])
  end.

(** Lines 1864-1866; [None] address, 0 port, 0 transport = any. *)
Definition ch_match (address : option bytes) (port ti : N) (b : chbind) : bool :=
  (match address with None => true | Some a => streq (cb_address b) a end) &&
  ((port =? 0) || (cb_port b =? port)) && ((ti =? 0) || (cb_ti b =? ti)).

(** Lines 1863-1886: the loop; [passed] = the entries before index i, [rest] = entries from i on.  A matching
    entry is overwritten with the last one, and the index goes up all the same.  [ret] = the variable of
    that name.  [fuel]: at least the length of [rest]. *)
Fixpoint ch_del_loop (fuel : nat) (m : chbind -> bool) (ret : Z) (passed rest : list chbind) : Z * list chbind :=
  match fuel with
  | O => (ret, passed ++ rest)
  | S f =>
      match rest with
      | [] => (ret, passed)
      | x :: tl =>
          if m x then
            match tl with
            | [] => (0%Z, passed)
            | y :: _ => ch_del_loop f m 0%Z (passed ++ [last tl y]) (removelast tl)
            end
          else ch_del_loop f m ret (passed ++ [x]) tl
      end
  end.

(** Lines 1842-1889 [nc_client_ch_del_bind]. *)
Definition ch_del_bind (address : option bytes) (port ti : N) (l : list chbind) : Z * list chbind :=
  match address, port =? 0, ti =? 0 with
  | None, true, true => ((if (length l =? 0)%nat then -1 else 0)%Z, [])
  | _, _, _ => ch_del_loop (length l) (ch_match address port ti) (-1)%Z [] l
  end.
