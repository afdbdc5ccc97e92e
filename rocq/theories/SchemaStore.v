(** Client side: files and memory when the text of a module is retrieved (src/session_client.c 354-576, 745-764). *)
From Coq Require Import Ascii String Bool List.
From Verif Require Import Bytes CStr.
Import ListNotations.

(* ------------------------------------------------------------------ *)
(** ** Files *)

Definition SLASH : ascii := "/"%char.
Definition AT : ascii := "@"%char.

(** The parts of a path between slashes. *)
Fixpoint split (cur p : bytes) : list bytes :=
  match p with
  | [] => [rev cur]
  | c :: p' => if Ascii.eqb c SLASH then rev cur :: split [] p' else split (c :: cur) p'
  end.
(** Following a path from the root: empty parts and "." stay, ".." goes up.  Paths are absolute, there are no symbolic links, and that
    directories on the way exist is part of the answer of fopen(). *)
Definition follow (at_ : list bytes) (part : bytes) : list bytes :=
  if beqb part [] || beqb part (bs ".") then at_
  else if beqb part (bs "..") then removelast at_
  else at_ ++ [part].
Definition resolve (p : bytes) : list bytes := fold_left follow (split [] p) [].

(** The content of the file at a place. *)
Definition files := list bytes -> option bytes.
Fixpoint place_eqb (a b : list bytes) : bool :=
  match a, b with
  | [], [] => true
  | x :: a', y :: b' => beqb x y && place_eqb a' b'
  | _, _ => false
  end.
Definition put (q : list bytes) (t : bytes) (fs : files) : files := fun q' => if place_eqb q q' then Some t else fs q'.

(** The environment.
    - [e_search]: lys_search_localfile(), with the working directory or without; the path has a slash;
    - [e_read]: all calls needed to read a file succeed;
    - [e_alloc]: asprintf() succeeds (if not, [localfile] is not set by every C library; it is taken as NULL);
    - [e_create]: fopen() for writing succeeds;
    - [e_written]: how many bytes fputs() and fclose() get into the file. *)
Record env := {
  e_search : bool -> files -> bytes -> option bytes -> option bytes;
  e_read : bytes -> bool;
  e_alloc : bool;
  e_create : bytes -> bool;
  e_written : bytes -> nat }.

Definition isSome {A} (o : option A) : bool := match o with Some _ => true | None => false end.
(** [strrchr(localfile, '/')]: the end of a path, from the last slash on. *)
Definition base (p : bytes) : bytes := last (split [] p) [].
Definition has_at (f : bytes) : bool := existsb (fun c => Ascii.eqb c AT) f.

(** Lines 364-424 [retrieve_module_data_localfile]: the text, and the blocks of memory lost. *)
Definition read_local (e : env) (fs : files) (name : bytes) (rev : option bytes) : option bytes * nat :=
  match e_search e true fs name rev with
  | None => (None, 0)
  | Some p =>
      if isSome rev && negb (has_at (base p)) then (None, 1)          (* localfile = NULL *)
      else match fs (resolve p) with
           | None => (None, 0)
           | Some c => if e_read e p then (Some c, 0) else (None, 0)
           end
  end.

(** Lines 511-512. *)
Definition store_path (dir name : bytes) (rev : option bytes) : bytes :=
  dir ++ bs "/" ++ name ++ match rev with Some r => bs "@" ++ r | None => [] end ++ bs ".yang".

(** Lines 492-531, the end of [retrieve_module_data_getschema]: [answer] is the text in the reply, [dir] is
    client_opts.schema_searchpath.  The exchange with the server is in CtxFill. *)
Definition get_schema (e : env) (dir : option bytes) (fs : files) (name : bytes) (rev : option bytes) (answer : option bytes)
    : files * option bytes :=
  match answer with
  | None | Some [] => (fs, None)
  | Some t =>
      match e_search e false fs name rev, dir with
      | None, Some d =>
          let p := store_path d name rev in
          if e_alloc e && e_create e p then (put (resolve p) (firstn (e_written e p) t) fs, Some t)
          else (fs, Some t)
      | _, _ => (fs, Some t)
      end
  end.

(* ------------------------------------------------------------------ *)
(** ** Who releases the text *)

(** Where a text is: memory of malloc(), memory that is never released, memory of the user with a function of theirs. *)
Inductive memory := Malloc | Static | Own.
(** The function given with it: free(), none, the one of the user. *)
Inductive release := ByFree | ByNone | ByUser.
(** What happens to the text at the end. *)
Inductive end_ := Freed | Kept | Returned.

(** Lines 533-538 [free_with_user_data]; 572, 682: this function is set after the callback of the user, whatever the callback set.
    [user]: what the callback gave.  [local], [server]: the first sources had it. *)
Definition release_of (local server : bool) (user : memory * release) : memory * release :=
  if local || server then (Malloc, ByFree) else (fst user, ByFree).
(** Lines 756-758: the function is called if there is one. *)
Definition finish (r : release) : end_ := match r with ByFree => Freed | ByNone => Kept | ByUser => Returned end.
(** free() of memory that is not of malloc() is undefined: [None]. *)
Definition done (m : memory) (f : end_) : option end_ :=
  match m, f with
  | Malloc, _ => Some f
  | _, Freed => None
  | _, _ => Some f
  end.
Definition text_end (local server : bool) (user : memory * release) : option end_ :=
  let (m, r) := release_of local server user in done m (finish r).
