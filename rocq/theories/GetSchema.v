(** <get-schema> answered by the server (src/session_server.c 666-758). *)
From Coq Require Import Ascii String Bool List.
From Verif Require Import Bytes.
Import ListNotations.

(* ------------------------------------------------------------------ *)
(** ** The context of the server *)

(** [struct lysp_submodule]; [b_latest]: its flag latest_revision. *)
Record sub := mkSub { b_name : bytes; b_rev : option bytes; b_latest : bool }.
(** [struct lys_module]; [g_impl]: implemented; [g_latest]: its flag latest_revision. *)
Record smod := mkSmod { g_name : bytes; g_rev : option bytes; g_impl : bool; g_latest : bool; g_subs : list sub }.

(** What can be printed. *)
Inductive schema := SMod (m : smod) | SSub (b : sub).
Inductive format := Yang | Yin.

Definition orev (a : option bytes) (b : bytes) : bool := match a with Some a => beqb a b | None => false end.

(** libyang: [ly_ctx_get_module] with a revision, [ly_ctx_get_module_implemented], [ly_ctx_get_module_latest],
    [ly_ctx_get_submodule] with a revision, [ly_ctx_get_submodule_latest]: the first in the order of the context. *)
Definition get_module (c : list smod) (name rev : bytes) : option smod :=
  find (fun m => beqb (g_name m) name && orev (g_rev m) rev) c.
Definition get_implemented (c : list smod) (name : bytes) : option smod :=
  find (fun m => beqb (g_name m) name && g_impl m) c.
Definition get_latest (c : list smod) (name : bytes) : option smod :=
  find (fun m => beqb (g_name m) name && g_latest m) c.
Definition get_submodule (c : list smod) (name rev : bytes) : option sub :=
  find (fun b => beqb (b_name b) name && orev (b_rev b) rev) (flat_map g_subs c).
Definition get_submodule_latest (c : list smod) (name : bytes) : option sub :=
  find (fun b => beqb (b_name b) name && b_latest b) (flat_map g_subs c).

(* ------------------------------------------------------------------ *)
(** ** The callback *)

(** Results: a reply with data, an error, no reply at all (NULL). *)
Inductive reply := RData (text : bytes) | RError (msg : bytes) | RNull.
Definition BAD_VERSION : bytes := bs "The requested version is not supported.".
Definition NOT_FOUND : bytes := bs "The requested module was not found.".
Definition BAD_FORMAT : bytes := bs "The requested format is not supported.".

(** What libyang does: [p_print] is lys_print_module() and lys_print_submodule(): whether they succeed, and what is in the memory
    afterwards; [p_envelope]: ietf-netconf-monitoring is implemented and the nodes of the reply can be created. *)
Record lib := { p_print : schema -> format -> bool * option bytes; p_envelope : bool }.

(** Lines 677-688: the children of the request, each a name and a value; the last of a name counts. *)
Fixpoint param (name : bytes) (l : list (bytes * bytes)) (found : option bytes) : option bytes :=
  match l with
  | [] => found
  | (n, v) :: l' => param name l' (if beqb n name then Some v else found)
  end.
Definition identifier_of (l : list (bytes * bytes)) : option bytes := param (bs "identifier") l None.
Definition version_of (l : list (bytes * bytes)) : option bytes :=
  match param (bs "version") l None with Some [] => None | r => r end.
Definition format_of (l : list (bytes * bytes)) : option bytes := param (bs "format") l None.

(** Lines 698-712.  libyang refuses a name that is NULL. *)
Definition lookup (c : list smod) (identifier revision : option bytes) : option schema :=
  match identifier with
  | None => None
  | Some i =>
      match revision with
      | Some r => match get_module c i r with
                  | Some m => Some (SMod m)
                  | None => option_map SSub (get_submodule c i r)
                  end
      | None => match get_implemented c i with
                | Some m => Some (SMod m)
                | None => match get_latest c i with
                          | Some m => Some (SMod m)
                          | None => option_map SSub (get_submodule_latest c i)
                          end
                end
      end
  end.

(** Lines 720-728. *)
Definition outformat (f : option bytes) : option format :=
  match f with
  | None => Some Yang
  | Some f => if beqb f (bs "ietf-netconf-monitoring:yang") then Some Yang
              else if beqb f (bs "ietf-netconf-monitoring:yin") then Some Yin
              else None
  end.

(** Lines 666-758 [nc_clb_default_get_schema].  The values returned by the printers are ignored. *)
Definition get_schema (y : lib) (c : list smod) (rpc : list (bytes * bytes)) : reply :=
  let revision := version_of rpc in
  if match revision with
     | Some r => negb (Nat.eqb (length r) 10) && negb (beqb r (bs "1.0"))
     | None => false
     end then RError BAD_VERSION
  else match lookup c (identifier_of rpc) revision with
  | None => RError NOT_FOUND
  | Some s =>
      match outformat (format_of rpc) with
      | None => RError BAD_FORMAT
      | Some f =>
          let (_, model_data) := p_print y s f in
          match model_data with
          | None => RNull
          | Some t => if p_envelope y then RData t else RNull
          end
      end
  end.
