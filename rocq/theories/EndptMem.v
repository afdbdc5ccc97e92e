(** Model of UNIX socket endpoints when memory is short: src/session_server.c 2349-2483 and nc_realloc(), src/io.c 1084-1095.
    Blocks are counted; what the endpoints are otherwise is in Endpts.v. *)
From Coq Require Import Ascii String ZArith Bool List.
From Verif Require Import Bytes CStr.
Import ListNotations.

(** An endpoint and its bind: NULL pointers are [None]; [e_opts]: the options with their address; [e_sock]: the socket listens. *)
Record ep := { e_name : option bytes; e_unix : bool; e_bind : option bytes; e_opts : option (option bytes); e_sock : bool }.

(** The pointer to an array: NULL, to a block, to a block that was freed. *)
Inductive arr := Null | Block | Freed.

(** The entries, the pointers server_opts.endpts and server_opts.binds, how many blocks are allocated. *)
Record st := { s_eps : list ep; s_endpts : arr; s_binds : arr; s_live : Z }.

(** Which allocations succeed, and whether listening does. *)
Record mem := { m_endpts : bool; m_binds : bool; m_name : bool; m_bind : bool; m_opts : bool; m_addr : bool; m_listen : bool }.

(** [Crash]: memory that was freed or NULL is accessed. *)
Inductive res := Crash | Ret (code : Z) (s : st).

(** io.c 1084-1095 [nc_realloc]: the block is freed if it cannot be enlarged.  The pointer after it, whether it succeeded, the change of the number of
    blocks; [None]: it was freed before. *)
Definition grow (ok : bool) (a : arr) : option (arr * bool * Z) :=
  match a, ok with
  | Freed, _ => None
  | Null, true => Some (Block, true, 1%Z)
  | Null, false => Some (Null, false, 0%Z)
  | Block, true => Some (Block, true, 0%Z)
  | Block, false => Some (Freed, false, (-1)%Z)
  end.

(** 2361-2367, 2461-2467: the first with the name; [None]: reads freed memory or compares with a name that is NULL. *)
Fixpoint find (i : nat) (n : bytes) (l : list ep) : option (option nat) :=
  match l with
  | [] => Some None
  | e :: l => match e_name e with
              | None => None
              | Some m => if streq n m then Some (Some i) else find (S i) n l
              end
  end.

Definition search (n : bytes) (s : st) : option (option nat) :=
  match s_eps s, s_endpts s with
  | _ :: _, Block => find 0 n (s_eps s)
  | _ :: _, _ => None
  | [], _ => Some None
  end.

(** 2349-2415 [nc_server_add_endpt_unix_socket_listen]. *)
Definition add (m : mem) (n path : bytes) (s : st) : res :=
  match search n s with
  | None => Crash
  | Some (Some _) => Ret 1 s
  | Some None =>
      match grow (m_endpts m) (s_endpts s) with                                             (* 2370 *)
      | None => Crash
      | Some (ea, false, d) => Ret 1 {| s_eps := s_eps s; s_endpts := ea; s_binds := s_binds s; s_live := s_live s + d |}
      | Some (ea, true, d) =>
          match grow (m_binds m) (s_binds s) with                                           (* 2376 *)
          | None => Crash
          | Some (ba, false, d') => Ret 1 {| s_eps := s_eps s; s_endpts := ea; s_binds := ba; s_live := s_live s + d + d' |}
          | Some (ba, true, d') =>
              let put e k := {| s_eps := s_eps s ++ [e]; s_endpts := ea; s_binds := ba; s_live := s_live s + d + d' + k |} in
              if negb (m_name m) then Ret 1 (put {| e_name := None; e_unix := false; e_bind := None; e_opts := None; e_sock := false |} 0%Z)
              else if negb (m_bind m) then Ret 1 (put {| e_name := Some n; e_unix := true; e_bind := None; e_opts := None; e_sock := false |} 1%Z)
              else if negb (m_opts m) then Ret 1 (put {| e_name := Some n; e_unix := true; e_bind := Some path; e_opts := None; e_sock := false |} 2%Z)
              else if negb (m_addr m) then Ret 1 (put {| e_name := Some n; e_unix := true; e_bind := Some path; e_opts := Some None; e_sock := false |} 3%Z)
              else Ret (if m_listen m then 0 else 1)
                       (put {| e_name := Some n; e_unix := true; e_bind := Some path; e_opts := Some (Some path); e_sock := m_listen m |} 4%Z)
          end
      end
  end.

Definition b2z {A} (o : option A) : Z := match o with Some _ => 1%Z | None => 0%Z end.

(** 2418-2449 [_nc_server_del_endpt_unix_socket]: the last entry takes the place of the one at [i]. *)
Definition del_at (i : nat) (s : st) : res :=
  match nth_error (s_eps s) i, s_binds s with
  | Some e, Block =>
      match e_opts e with
      | None => Crash                                                                       (* 2427 *)
      | Some a =>
          let live := (s_live s - b2z (e_name e) - b2z (e_bind e) - b2z a - 1)%Z in
          let l := removelast (s_eps s) in
          match l with
          | [] => Ret 0 {| s_eps := []; s_endpts := Null; s_binds := Null; s_live := live - 2 |}
          | _ => Ret 0 {| s_eps := if Nat.eqb i (length l) then l else firstn i l ++ [last (s_eps s) e] ++ skipn (S i) l;
                          s_endpts := s_endpts s; s_binds := s_binds s; s_live := live |}
          end
      end
  | _, _ => Crash
  end.

(** 2451-2483 [nc_server_del_endpt_unix_socket]. *)
Definition del (n : bytes) (s : st) : res :=
  match search n s with
  | None => Crash
  | Some None => Ret 0 s
  | Some (Some i) => match nth_error (s_eps s) i with
                     | Some e => if e_unix e then del_at i s else Ret 0 s
                     | None => Crash
                     end
  end.

Inductive call := Add (m : mem) (n path : bytes) | Del (n : bytes).
Definition exec (x : call) (s : st) : res := match x with Add m n p => add m n p s | Del n => del n s end.

(** Calls one after another. *)
Fixpoint run (l : list call) (s : st) : res :=
  match l with
  | [] => Ret 0 s
  | x :: l => match exec x s with Crash => Crash | Ret _ s => run l s end
  end.
