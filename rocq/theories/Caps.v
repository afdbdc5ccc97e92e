(** Model of the server capability list, src/session.c 1024-1275 and the capability setters
    src/session_server.c 923-973. *)
From Coq Require Import Ascii String NArith ZArith Bool Lia List.
From Verif Require Import Bytes CStr.
Import ListNotations.
Local Open Scope N_scope.

Definition QMARK : ascii := "?"%char.

(** Lines 1033-1045: the part that identifies a capability. *)
Definition uri (c : bytes) : bytes := before QMARK c.

(** Line 1041: an equal capability is already there, [len] = length of the part before '?'. *)
Definition same_cpblt (len : nat) (capab have : bytes) : bool :=
  strncmp0 have capab len &&
  match nth_error have len with None => true | Some c => Ascii.eqb c QMARK end.

(** Lines 1024-1059 [add_cpblt] with a non-NULL capability (allocation never fails here). *)
Definition add_cpblt (capab : bytes) (l : list bytes) : list bytes :=
  let len := length (uri capab) in
  if existsb (same_cpblt len capab) l then l else l ++ [capab].

(** netconf.h 100-106: the with-defaults modes. *)
Definition NC_WD_ALL : N := 1.
Definition NC_WD_ALL_TAG : N := 2.
Definition NC_WD_TRIM : N := 3.
Definition NC_WD_EXPLICIT : N := 4.

(** A module of the libyang context, as far as it matters: lines 1183-1262. *)
Record modl := mkMod {
  m_name : bytes; m_ns : bytes; m_rev : option bytes;
  m_version : N;                       (* 0 undefined, 1 = YANG 1.0, 2 = YANG 1.1 *)
  m_feats : list (bytes * bool);       (* features, enabled *)
  m_devs : option (list bytes)         (* deviated_by *)
}.

(** The context: features enabled in ietf-netconf if implemented, whether
    ietf-netconf-with-defaults is implemented, the modules, the change count. *)
Record lyctx := mkCtx { c_netconf : option (list bytes); c_withdef : bool; c_mods : list modl; c_change : N }.

(** Server options that matter: [s_cid] = content-id callback result ([None]: no callback set,
    [Some None]: it returned NULL). *)
Record sopts := mkS { s_basic : N; s_also : N; s_caps : list bytes; s_cid : option (option bytes) }.

(** Lines 923-937 [nc_server_set_capab_withdefaults]; [also] is an int used as a bit array. *)
Definition set_withdefaults (basic also : N) (o : sopts) : option sopts :=
  if (basic =? 0) || (basic =? NC_WD_ALL_TAG) then None
  else if negb (also =? 0) && (N.land also (N.lor NC_WD_ALL (N.lor NC_WD_ALL_TAG (N.lor NC_WD_TRIM NC_WD_EXPLICIT))) =? 0) then None
  else Some (mkS basic also (s_caps o) (s_cid o)).

(** Lines 953-972 [nc_server_set_capability] (server_opts is assumed not to overflow the count). *)
Definition set_capability (value : bytes) (o : sopts) : option sopts :=
  match value with [] => None | _ => Some (mkS (s_basic o) (s_also o) (s_caps o ++ [value]) (s_cid o)) end.

Definition base10 : bytes := bs "urn:ietf:params:netconf:base:1.0".
Definition base11 : bytes := bs "urn:ietf:params:netconf:base:1.1".
Definition capa (s : string) : bytes := bs "urn:ietf:params:netconf:capability:" ++ bs s.

Definition has (f : string) (fs : list bytes) : bool := existsb (beqb (bs f)) fs.
Definition add_if (b : bool) (c : bytes) (l : list bytes) : list bytes := if b then add_cpblt c l else l.

(** Lines 1086-1120. *)
Definition netconf_cpblts (fs : list bytes) (l : list bytes) : list bytes :=
  let l := add_if (has "writable-running" fs) (capa "writable-running:1.0") l in
  let l := if has "candidate" fs then
             let l := add_cpblt (capa "candidate:1.0") l in
             add_if (has "confirmed-commit" fs) (capa "confirmed-commit:1.1") l
           else l in
  let l := add_if (has "rollback-on-error" fs) (capa "rollback-on-error:1.0") l in
  let l := add_if (has "validate" fs) (capa "validate:1.1") l in
  let l := add_if (has "startup" fs) (capa "startup:1.0") l in
  add_if (has "xpath" fs) (capa "xpath:1.0") l.

(** Lines 1128-1141 (the unknown basic mode is only logged). *)
Definition wd_basic_str (basic : N) : bytes :=
  if basic =? NC_WD_ALL then bs "?basic-mode=report-all"
  else if basic =? NC_WD_TRIM then bs "?basic-mode=trim"
  else if basic =? NC_WD_EXPLICIT then bs "?basic-mode=explicit"
  else [].

(** Lines 1144-1158: bit tests with enumerators that are not single bits; the last character (a comma,
    or the "=" when no mode matched) is cut off. *)
Definition wd_also_str (also : N) : bytes :=
  let t m s := if N.land also m =? 0 then [] else bs s in
  removelast (bs "&also-supported=" ++ t NC_WD_ALL "report-all,"%string ++ t NC_WD_ALL_TAG "report-all-tagged,"%string
              ++ t NC_WD_TRIM "trim,"%string ++ t NC_WD_EXPLICIT "explicit,"%string).

(** Lines 1122-1164.  The longest string here is below 200 bytes, so the 4096-byte buffer is not
    checked. *)
Definition withdef_cpblts (o : sopts) (l : list bytes) : list bytes :=
  if s_basic o =? 0 then l
  else if s_also o =? 0 then l
  else add_cpblt (capa "with-defaults:1.0" ++ wd_basic_str (s_basic o) ++ wd_also_str (s_also o)) l.

(** Result of building: a list, an error (NULL returned), or a write past [str]. *)
Inductive capres := CapOk (l : list bytes) | CapErr | CapUb.

Definition BUF_LEN : N := 4096.
(** strcat/sprintf to [str]: room for the NUL needed. *)
Definition cat (b s : bytes) : option bytes := if lenN b + lenN s <? BUF_LEN then Some (b ++ s) else None.

(** Lines 1222-1241: the features loop; [n]: features_count is not 0. [None] = buffer overrun. *)
Fixpoint cat_feats (b : bytes) (n : bool) (fs : list (bytes * bool)) : option bytes :=
  match fs with
  | [] => Some b
  | (_, false) :: fs' => cat_feats b n fs'
  | (f, true) :: fs' =>
      match (if n then Some b else cat b (bs "&features=")) with
      | None => None
      | Some b1 =>
          if BUF_LEN <=? lenN b1 + 1 + lenN f then Some b1       (* ERRINT; break *)
          else match cat b1 (if n then bs "," ++ f else f) with
               | None => None
               | Some b2 => cat_feats b2 true fs'
               end
      end
  end.

(** Lines 1247-1260. *)
Fixpoint cat_devs (b : bytes) (n : bool) (ds : list bytes) : option bytes :=
  match ds with
  | [] => Some b
  | d :: ds' =>
      if BUF_LEN <=? lenN b + 1 + lenN d then Some b
      else match cat b (if n then bs "," ++ d else d) with
           | None => None
           | Some b2 => cat_devs b2 true ds'
           end
  end.

(** Lines 1214-1262: the capability of a module. *)
Definition mod_str (m : modl) : option bytes :=
  match cat [] (m_ns m ++ bs "?module=" ++ m_name m ++ match m_rev m with None => [] | Some r => bs "&revision=" ++ r end) with
  | None => None
  | Some b =>
      match cat_feats b false (m_feats m) with
      | None => None
      | Some b1 =>
          match m_devs m with
          | None => Some b1
          | Some ds => match cat b1 (bs "&deviations=") with
                       | None => None
                       | Some b2 => cat_devs b2 false ds
                       end
          end
      end
  end.

Definition REV16 : bytes := bs "2016-06-21".
Definition REV19 : bytes := bs "2019-01-04".

(** Lines 1180-1264: the loop over modules; [version] = 0 (undefined), 1 or 2. *)
Fixpoint mods_cpblts (o : sopts) (change version : N) (ms : list modl) (l : list bytes) : capres :=
  match ms with
  | [] => CapOk l
  | m :: ms' =>
      if beqb (m_name m) (bs "ietf-yang-library") then
        match m_rev m with
        | None => CapErr
        | Some r =>
            if negb (beqb r REV16) && negb (beqb r REV19) then CapErr
            else
              match (match s_cid o with None => Some (dec (change mod w32)) | Some x => x end) with
              | None => CapErr
              | Some cid =>
                  match cat [] (if beqb r REV19
                                then capa "yang-library:1.1?revision=" ++ r ++ bs "&content-id=" ++ cid
                                else capa "yang-library:1.0?revision=" ++ r ++ bs "&module-set-id=" ++ cid) with
                  | None => CapUb
                  | Some s => mods_cpblts o change version ms' (add_cpblt s l)
                  end
              end
        end
      else if (version =? 1) && (version <? m_version m) then mods_cpblts o change version ms' l
      else if (version =? 2) && negb (m_version m =? version) then mods_cpblts o change version ms' l
      else match mod_str m with
           | None => CapUb
           | Some s => mods_cpblts o change version ms' (add_cpblt s l)
           end
  end.

(** Lines 1061-1269 [nc_server_get_cpblts_version] (the terminating NULL is the end of the list). *)
Definition get_cpblts (o : sopts) (c : lyctx) (version : N) : capres :=
  let l := [base10; base11] in
  let l := match c_netconf c with Some fs => netconf_cpblts fs l | None => l end in
  let l := if c_withdef c then withdef_cpblts o l else l in
  let l := fold_left (fun l c => add_cpblt c l) (s_caps o) l in
  mods_cpblts o (c_change c) version (c_mods c) l.
