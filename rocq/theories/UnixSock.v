(** Model of UNIX sockets: src/session_server.c 384-437 (listening), 2271-2347 (accepting), 2418-2430 (removal),
    src/session_client.c 1466-1544 (connecting), src/io.c 1098-1133 (nc_getpw). *)
From Coq Require Import Ascii String ZArith Bool Lia List.
From Verif Require Import Bytes.
Import ListNotations.
Local Open Scope Z_scope.

(* ------------------------------------------------------------------ *)
(** ** The file system and the system calls *)

(** A file: the socket of a descriptor with its permissions, or something else. *)
Inductive file := Sock (fd : nat) (mode uid gid : Z) | Other.

(** The files by path, the listening descriptors, the open descriptors. *)
Record world := { w_fs : bytes -> option file; w_listen : nat -> bool; w_open : nat -> bool }.

Definition set_fs (p : bytes) (f : option file) (w : world) : world :=
  {| w_fs := fun q => if beqb q p then f else w_fs w q; w_listen := w_listen w; w_open := w_open w |}.
Definition set_open (fd : nat) (b : bool) (w : world) : world :=
  {| w_fs := w_fs w; w_listen := fun x => if Nat.eqb x fd then false else w_listen w x;
     w_open := fun x => if Nat.eqb x fd then b else w_open w x |}.
Definition set_listen (fd : nat) (w : world) : world :=
  {| w_fs := w_fs w; w_listen := fun x => if Nat.eqb x fd then true else w_listen w x; w_open := w_open w |}.

(** What the system does: the descriptor of socket(), whether the other calls succeed, the permissions of a new file. *)
Record env := {
  e_socket : option nat; e_unlink : bool; e_bind : bool; e_chmod : bool; e_chown : bool; e_listen : bool;
  e_mode : Z; e_uid : Z; e_gid : Z
}.

Definition sys_unlink (e : env) (p : bytes) (w : world) : world := if e_unlink e then set_fs p None w else w.
(** bind() fails if there is such a file. *)
Definition sys_bind (e : env) (fd : nat) (p : bytes) (w : world) : option world :=
  match w_fs w p with
  | Some _ => None
  | None => if e_bind e then Some (set_fs p (Some (Sock fd (e_mode e) (e_uid e) (e_gid e))) w) else None
  end.
Definition sys_chmod (e : env) (p : bytes) (m : Z) (w : world) : option world :=
  match w_fs w p with
  | Some (Sock fd _ u g) => if e_chmod e then Some (set_fs p (Some (Sock fd m u g)) w) else None
  | Some Other => if e_chmod e then Some w else None
  | None => None
  end.
(** chown(): -1 is [None], it stays as it is. *)
Definition sys_chown (e : env) (p : bytes) (u g : option Z) (w : world) : option world :=
  match w_fs w p with
  | Some (Sock fd m u0 g0) =>
      if e_chown e then Some (set_fs p (Some (Sock fd m (match u with Some u => u | None => u0 end) (match g with Some g => g | None => g0 end))) w)
      else None
  | Some Other => if e_chown e then Some w else None
  | None => None
  end.
Definition sys_listen (e : env) (fd : nat) (w : world) : option world := if e_listen e then Some (set_listen fd w) else None.

(** sizeof(sun.sun_path) *)
Definition sun_path_size : nat := 108.
(** snprintf(sun_path, size, "%s", s): at most size - 1 characters. *)
Definition snprintf (size : nat) (s : bytes) : bytes := firstn (size - 1) s.

(* ------------------------------------------------------------------ *)
(** ** The server *)

(** [struct nc_server_unix_opts]; -1 is [None]. *)
Record unix_opts := { o_address : bytes; o_mode : option Z; o_uid : option Z; o_gid : option Z }.

(** session_server.c 384-437 [nc_sock_listen_unix]: the socket, and the worlds after each system call, the last first. *)
Definition listen_unix (e : env) (o : unix_opts) (w : world) : option nat * list world :=
  if Nat.ltb (sun_path_size - 1) (length (o_address o)) then (None, [w])
  else match e_socket e with
  | None => (None, [w])
  | Some fd =>
      let path := snprintf (sun_path_size - 1) (o_address o) in
      let fail w h := (None, set_open fd false w :: h) in
      let w1 := set_open fd true w in
      let w2 := sys_unlink e path w1 in
      let h := [w2; w1; w] in
      match sys_bind e fd path w2 with
      | None => fail w2 h
      | Some w3 =>
          let h := w3 :: h in
          match match o_mode o with None => Some w3 | Some m => sys_chmod e path m w3 end with
          | None => fail w3 h
          | Some w4 =>
              let h := w4 :: h in
              match match o_uid o, o_gid o with None, None => Some w4 | u, g => sys_chown e path u g w4 end with
              | None => fail w4 h
              | Some w5 =>
                  let h := w5 :: h in
                  match sys_listen e fd w5 with
                  | None => fail w5 h
                  | Some w6 => (Some fd, w6 :: h)
                  end
              end
          end
      end
  end.
Definition last_world (w : world) (h : list world) : world := hd w h.

(** session_server.c 2418-2430 [nc_server_del_endpt_unix_socket_opts]; the address of the bind is that of the options. *)
Definition del_unix (e : env) (fd : option nat) (o : unix_opts) (w : world) : world :=
  sys_unlink e (o_address o) (match fd with Some fd => set_open fd false w | None => w end).

(* ------------------------------------------------------------------ *)
(** ** The client *)

(** session_client.c 1485-1492: the listening socket connected to. *)
Definition client_connect (address : bytes) (w : world) : option nat :=
  match w_fs w (snprintf sun_path_size address) with
  | Some (Sock fd _ _ _) => if w_listen w fd then Some fd else None
  | _ => None
  end.

(* ------------------------------------------------------------------ *)
(** ** Users *)

(** What getpwuid_r() or getpwnam_r() gives. *)
Inductive pw := PRange | PError | PNone | PFound (name : bytes).

(** sysconf(), realloc() to a size, getpwuid_r() with a buffer of a size, and strdup(). *)
Record users := { u_sysconf : option Z; u_realloc : Z -> bool; u_getpw : Z -> pw; u_strdup : bool }.

(** io.c 1098-1133 [nc_getpw] with an empty buffer at first: the entry, and whether there is a buffer; [None]: too little fuel. *)
Fixpoint getpw (fuel : nat) (u : users) (size : Z) : option (option bytes * bool) :=
  match fuel with
  | O => None
  | S fuel =>
      let size := if size =? 0 then match u_sysconf u with None => 2048 | Some s => s end else size + 2048 in
      if negb (u_realloc u size) then Some (None, false)
      else match u_getpw u size with
           | PRange => getpw fuel u size
           | PError => Some (None, true)
           | PNone => Some (None, true)
           | PFound n => Some (Some n, true)
           end
  end.

(** The result of accepting: the name the session got; how often the socket was closed; whether the buffer was lost. *)
Record accepted := { a_name : option bytes; a_closed : nat; a_lost : bool }.

(** session_server.c 2305-2347 [nc_accept_unix_session]; [uid]: what nc_get_uid() (2271-2293) gave; [users]: for each UID. *)
Definition accept_unix (fuel : nat) (uid : option Z) (us : Z -> users) : option accepted :=
  match uid with
  | None => Some {| a_name := None; a_closed := 1; a_lost := false |}
  | Some uid =>
      match getpw fuel (us uid) 0 with
      | None => None
      | Some (None, buf) => Some {| a_name := None; a_closed := 1; a_lost := buf |}
      | Some (Some n, _) =>
          if negb (u_strdup (us uid)) then Some {| a_name := None; a_closed := 1; a_lost := false |}
          else Some {| a_name := Some n; a_closed := 0; a_lost := false |}
      end
  end.
