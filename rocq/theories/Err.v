(** Building of an rpc-error: src/messages_server.c 131-259 (names), 261-474 [nc_err], 476-745 (reading and setting its parts).

    An element is its name, its value (empty if there is none), the attribute xml:lang and its children.  Memory suffices, so that creating an element succeeds. *)
From Coq Require Import String Bool List Arith ZArith.
From Verif Require Import Bytes.
Import ListNotations.
Local Open Scope string_scope.
Local Open Scope list_scope.
Local Open Scope Z_scope.

Record elem := mkE { n_name : string; n_val : string; n_lang : option string; n_kids : list (string * string) }.

(** messages_server.h 42-63, the enumerators of NC_ERR in order, from 1. *)
Definition IN_USE := 1. Definition INVALID_VALUE := 2. Definition TOO_BIG := 3. Definition MISSING_ATTR := 4. Definition BAD_ATTR := 5.
Definition UNKNOWN_ATTR := 6. Definition MISSING_ELEM := 7. Definition BAD_ELEM := 8. Definition UNKNOWN_ELEM := 9. Definition UNKNOWN_NS := 10.
Definition ACCESS_DENIED := 11. Definition LOCK_DENIED := 12. Definition RES_DENIED := 13. Definition ROLLBACK_FAILED := 14. Definition DATA_EXISTS := 15.
Definition DATA_MISSING := 16. Definition OP_NOT_SUPPORTED := 17. Definition OP_FAILED := 18. Definition MALFORMED_MSG := 19.
(** messages_server.h 68-74, NC_ERR_TYPE. *)
Definition TRAN := 1. Definition RPC := 2. Definition PROT := 3. Definition APP := 4.

(** 131-179 [nc_err_tag2str]; no name: NULL. *)
Definition tag2str (t : Z) : option string :=
  if t =? IN_USE then Some "in-use" else if t =? INVALID_VALUE then Some "invalid-value" else if t =? ACCESS_DENIED then Some "access-denied"
  else if t =? ROLLBACK_FAILED then Some "rollback-failed" else if t =? OP_NOT_SUPPORTED then Some "operation-not-supported" else if t =? TOO_BIG then Some "too-big"
  else if t =? RES_DENIED then Some "resource-denied" else if t =? MISSING_ATTR then Some "missing-attribute" else if t =? BAD_ATTR then Some "bad-attribute"
  else if t =? UNKNOWN_ATTR then Some "unknown-attribute" else if t =? MISSING_ELEM then Some "missing-element" else if t =? BAD_ELEM then Some "bad-element"
  else if t =? UNKNOWN_ELEM then Some "unknown-element" else if t =? UNKNOWN_NS then Some "unknown-namespace" else if t =? LOCK_DENIED then Some "lock-denied"
  else if t =? DATA_EXISTS then Some "data-exists" else if t =? DATA_MISSING then Some "data-missing" else if t =? OP_FAILED then Some "operation-failed"
  else if t =? MALFORMED_MSG then Some "malformed-message" else None.

(** 181-223 [nc_err_str2tag] *)
Definition str2tag (s : string) : Z :=
  if String.eqb s "in-use" then IN_USE else if String.eqb s "invalid-value" then INVALID_VALUE else if String.eqb s "access-denied" then ACCESS_DENIED
  else if String.eqb s "rollback-failed" then ROLLBACK_FAILED else if String.eqb s "operation-not-supported" then OP_NOT_SUPPORTED else if String.eqb s "too-big" then TOO_BIG
  else if String.eqb s "resource-denied" then RES_DENIED else if String.eqb s "missing-attribute" then MISSING_ATTR else if String.eqb s "bad-attribute" then BAD_ATTR
  else if String.eqb s "unknown-attribute" then UNKNOWN_ATTR else if String.eqb s "missing-element" then MISSING_ELEM else if String.eqb s "bad-element" then BAD_ELEM
  else if String.eqb s "unknown-element" then UNKNOWN_ELEM else if String.eqb s "unknown-namespace" then UNKNOWN_NS else if String.eqb s "lock-denied" then LOCK_DENIED
  else if String.eqb s "data-exists" then DATA_EXISTS else if String.eqb s "data-missing" then DATA_MISSING else if String.eqb s "operation-failed" then OP_FAILED
  else if String.eqb s "malformed-message" then MALFORMED_MSG else 0.

(** 225-243 [nc_err_type2str] *)
Definition type2str (t : Z) : option string :=
  if t =? TRAN then Some "transport" else if t =? RPC then Some "rpc" else if t =? PROT then Some "protocol" else if t =? APP then Some "application" else None.

(** 245-259 [nc_err_str2type] *)
Definition str2type (s : string) : Z :=
  if String.eqb s "transport" then TRAN else if String.eqb s "rpc" then RPC else if String.eqb s "protocol" then PROT else if String.eqb s "application" then APP else 0.

(** libyang: lyd_find_sibling_opaq_next(), lyd_free_tree() of what it found, lyd_new_opaq2() under a parent (as the last child; no value becomes the empty one). *)
Fixpoint find (l : list elem) (n : string) : option elem :=
  match l with [] => None | e :: l' => if String.eqb (n_name e) n then Some e else find l' n end.
Fixpoint drop_first (l : list elem) (n : string) : list elem :=
  match l with [] => [] | e :: l' => if String.eqb (n_name e) n then l' else e :: drop_first l' n end.
Definition new (l : list elem) (n : string) (v : option string) (lang : option string) : list elem :=
  l ++ [mkE n (match v with Some x => x | None => "" end) lang []].

Fixpoint drop_kid (l : list (string * string)) (n : string) : list (string * string) :=
  match l with [] => [] | (m, v) :: l' => if String.eqb m n then l' else (m, v) :: drop_kid l' n end.

(** The first element with the name, changed. *)
Fixpoint change (l : list elem) (n : string) (f : elem -> elem) : list elem :=
  match l with [] => [] | e :: l' => if String.eqb (n_name e) n then f e :: l' else e :: change l' n f end.

(** 476-504 *)
Definition get_type (l : list elem) : Z := match find l "error-type" with Some e => str2type (n_val e) | None => 0 end.
Definition get_tag (l : list elem) : Z := match find l "error-tag" with Some e => str2tag (n_val e) | None => 0 end.
(** 526-539, 561-574, 600-613 *)
Definition get_val (l : list elem) (n : string) : option string := option_map n_val (find l n).

(** 506-524 and 541-559 [nc_err_set_app_tag], [nc_err_set_path] *)
Definition set_app_tag (l : list elem) (v : string) : list elem := new (drop_first l "error-app-tag") "error-app-tag" (Some v) None.
Definition set_path (l : list elem) (v : string) : list elem := new (drop_first l "error-path") "error-path" (Some v) None.

(** 576-598 [nc_err_set_msg] *)
Definition set_msg (l : list elem) (v : string) (lang : option string) : list elem :=
  match find l "error-message" with
  | Some _ => change l "error-message" (fun e => mkE (n_name e) v (n_lang e) (n_kids e))
  | None => new l "error-message" (Some v) lang
  end.

(** 622-626 and the like: error-info, created if it is not there. *)
Definition with_info (l : list elem) : list elem := match find l "error-info" with Some _ => l | None => new l "error-info" None None end.
Definition in_info (l : list elem) (f : list (string * string) -> list (string * string)) : list elem :=
  change (with_info l) "error-info" (fun e => mkE (n_name e) (n_val e) (n_lang e) (f (n_kids e))).

(** 615-641 [nc_err_set_sid]; the number as text is [dec]. *)
Definition set_sid (l : list elem) (sid : N) : list elem := in_info l (fun k => drop_kid k "session-id" ++ [("session-id", string_of_list_ascii (dec sid))]).
(** 643-707 [nc_err_add_bad_attr], [nc_err_add_bad_elem], [nc_err_add_bad_ns]; 709-725 [nc_err_add_info_other] *)
Definition add_kid (l : list elem) (n : string) (v : option string) : list elem :=
  match v with None => l | Some x => in_info l (fun k => k ++ [(n, x)]) end.

(** 280-340: the error type, or failure.  [ty]: the variadic argument. *)
Definition err_type (tag ty : Z) : option Z :=
  if (tag =? IN_USE) || (tag =? INVALID_VALUE) || (tag =? ACCESS_DENIED) || (tag =? ROLLBACK_FAILED) || (tag =? OP_NOT_SUPPORTED) then
    if negb (ty =? PROT) && negb (ty =? APP) then None else Some ty
  else if (tag =? TOO_BIG) || (tag =? RES_DENIED) then Some ty
  else if (tag =? MISSING_ATTR) || (tag =? BAD_ATTR) || (tag =? UNKNOWN_ATTR) then if ty =? TRAN then None else Some ty
  else if (tag =? MISSING_ELEM) || (tag =? BAD_ELEM) || (tag =? UNKNOWN_ELEM) then if negb (ty =? PROT) && negb (ty =? APP) then None else Some ty
  else if tag =? UNKNOWN_NS then if negb (ty =? PROT) && negb (ty =? APP) then None else Some ty
  else if tag =? LOCK_DENIED then Some PROT
  else if (tag =? DATA_EXISTS) || (tag =? DATA_MISSING) then Some APP
  else if tag =? OP_FAILED then if ty =? TRAN then None else Some ty
  else if tag =? MALFORMED_MSG then Some RPC
  else None.

(** 357-417: the default message. *)
Definition err_msg (t : Z) : string :=
  if t =? IN_USE then "The request requires a resource that already is in use."
  else if t =? INVALID_VALUE then "The request specifies an unacceptable value for one or more parameters."
  else if t =? TOO_BIG then "The request or response (that would be generated) is too large for the implementation to handle."
  else if t =? MISSING_ATTR then "An expected attribute is missing."
  else if t =? BAD_ATTR then "An attribute value is not correct."
  else if t =? UNKNOWN_ATTR then "An unexpected attribute is present."
  else if t =? MISSING_ELEM then "An expected element is missing."
  else if t =? BAD_ELEM then "An element value is not correct."
  else if t =? UNKNOWN_ELEM then "An unexpected element is present."
  else if t =? UNKNOWN_NS then "An unexpected namespace is present."
  else if t =? ACCESS_DENIED then "Access to the requested protocol operation or data model is denied because authorization failed."
  else if t =? LOCK_DENIED then "Access to the requested lock is denied because the lock is currently held by another entity."
  else if t =? RES_DENIED then "Request could not be completed because of insufficient resources."
  else if t =? ROLLBACK_FAILED then "Request to roll back some configuration change was not completed for some reason."
  else if t =? DATA_EXISTS then "Request could not be completed because the relevant data model content already exists."
  else if t =? DATA_MISSING then "Request could not be completed because the relevant data model content does not exist."
  else if t =? OP_NOT_SUPPORTED then "Request could not be completed because the requested operation is not supported by this implementation."
  else if t =? OP_FAILED then "Request could not be completed because the requested operation failed for a non-specific reason."
  else "A message could not be handled because it failed to be parsed correctly.".

(** 261-474 [nc_err]: the children of rpc-error.  The variadic arguments: [ty] where a type is expected, [arg1], [arg2] (a NULL is [None]) and [sid]. *)
Definition nc_err (tag ty : Z) (arg1 arg2 : option string) (sid : N) : option (list elem) :=
  if tag =? 0 then None
  else match err_type tag ty with
       | None => None
       | Some t =>
           let l := new [] "error-type" (type2str t) None in
           let l := new l "error-tag" (tag2str tag) None in
           let l := new l "error-severity" (Some "error") None in
           let l := set_msg l (err_msg tag) (Some "en") in
           Some (if (tag =? MISSING_ATTR) || (tag =? BAD_ATTR) || (tag =? UNKNOWN_ATTR) then add_kid (add_kid l "bad-attribute" arg1) "bad-element" arg2
                 else if (tag =? MISSING_ELEM) || (tag =? BAD_ELEM) || (tag =? UNKNOWN_ELEM) then add_kid l "bad-element" arg1
                 else if tag =? UNKNOWN_NS then add_kid (add_kid l "bad-element" arg1) "bad-namespace" arg2
                 else if tag =? LOCK_DENIED then set_sid l sid
                 else l)
       end.

Inductive eop :=
| SetAppTag (v : string)
| SetPath (v : string)
| SetMsg (v : string) (lang : option string)
| SetSid (n : N)
| AddAttr (v : string)
| AddElem (v : string)
| AddNs (v : string)
| AddOther (n v : string).   (* an application's element, of no other children *)

Definition eapply (l : list elem) (o : eop) : list elem :=
  match o with
  | SetAppTag v => set_app_tag l v
  | SetPath v => set_path l v
  | SetMsg v g => set_msg l v g
  | SetSid n => set_sid l n
  | AddAttr v => add_kid l "bad-attribute" (Some v)
  | AddElem v => add_kid l "bad-element" (Some v)
  | AddNs v => add_kid l "bad-namespace" (Some v)
  | AddOther n v => add_kid l n (Some v)
  end.
