(** Model of the functions that read the complaints of libyang: src/session_server.c 1403-1478 (nc_rpc_err_find_lysc_node,
    nc_rpc_err_get_quoted_string) and 1555-1557, with pointers as indices. *)
From Coq Require Import Ascii String Arith NArith Bool List.
From Verif Require Import Bytes.
Import ListNotations.

Definition DQUOTE : ascii := """"%char.
Definition u32 (n : N) : N := (n mod 4294967296)%N.

(** strrchr(): the index of the last. *)
Fixpoint strrchr (c : ascii) (i : nat) (s : bytes) : option nat :=
  match s with
  | [] => None
  | x :: s => match strrchr c (S i) s with Some k => Some k | None => if Ascii.eqb x c then Some i else None end
  end.

Definition strchr (c : ascii) (s : bytes) : bool := existsb (fun x => Ascii.eqb x c) s.

(** [NullRead]: a string function is given NULL; [NoPath]: no path or no memory, nothing is searched; [Asks p]: lys_find_path() is asked for [p]. *)
Inductive found := NullRead | NoPath | Asks (p : bytes).

(** 1410-1433 [nc_rpc_err_find_lysc_node]; [dup]: strdup() succeeds. *)
Definition find_lysc_node (dup : bool) (path : option bytes) : found :=
  match path with
  | None => NoPath
  | Some s =>
      if negb dup then NoPath
      else match strrchr "/"%char 0 s with
           | None => NullRead                                         (* 1425: strchr(NULL, '@') *)
           | Some last => if strchr "@"%char (skipn last s) then Asks (firstn last s) else Asks s
           end
  end.

(** 1555-1557: the name of the attribute is what follows the last colon of the path; [None]: NULL + 1 is read. *)
Definition attr_of (path : bytes) : option bytes :=
  match strrchr ":"%char 0 path with
  | None => None
  | Some i => Some (skipn (i + 1) path)
  end.

(** 1453-1466: the loop at the index [i], [s] is what follows; the pointers start and end. *)
Fixpoint quotes (last : N) (i : nat) (s : bytes) (start en : option nat) (cnt : N) : option nat * option nat :=
  match s with
  | [] => (start, en)
  | c :: s =>
      if negb (Ascii.eqb c DQUOTE) then quotes last (S i) s start en cnt
      else let cnt := u32 (cnt + 1) in
           if (cnt =? last)%N then (en, Some i) else quotes last (S i) s en (Some i) cnt
  end.

(** 1444-1478 [nc_rpc_err_get_quoted_string]; strndup() succeeds. *)
Definition get_quoted_string (msg : bytes) (index : N) : option bytes :=
  match quotes (u32 (u32 (index + 1) * 2)) 0 msg None None 0 with
  | (Some a, Some b) => Some (firstn (b - (a + 1)) (skipn (a + 1) msg))
  | _ => None
  end.
