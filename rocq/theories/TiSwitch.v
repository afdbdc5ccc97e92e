(** Model of the transport of one listening endpoint in the configuration: src/server_config.c 638-667, 824-874, 1126-1167, 1204-1258,
    1279-1318, 1354-1448 and src/session_server.c 2197-2258. *)
From Coq Require Import Ascii String Arith ZArith NArith Bool List.
From Verif Require Import Bytes.
Import ListNotations.

Inductive ti := Ssh | Tls.
Definition ti_eqb (a b : ti) : bool := match a, b with Ssh, Ssh | Tls, Tls => true | _, _ => false end.

(** The union [opts] of the endpoint: NULL, options of a transport, options that were freed. *)
Inductive optsp := ONull | OOpts (t : ti) | OFreed.
(** [address] of the bind. *)
Inductive addrp := ANull | AText (a : bytes) | AFreed.

(** The endpoint with its bind; [s_ti]: NC_TI_NONE is [None]; [s_fd]: -1 is [None].  [s_open]: the descriptors that are open in the process;
    [s_blocks]: how many blocks there are for options and addresses. *)
Record st := { s_ti : option ti; s_opts : optsp; s_addr : addrp; s_port : N; s_fd : option nat; s_open : list nat; s_blocks : Z }.

Inductive ub := FreeTwice | WrongType | NullDeref | ReadFreed | CloseClosed.
Inductive res := Ub (u : ub) | Ret (code : Z) (s : st).

(** close(): of a descriptor that is not open it is an error of the program, as any other part of it may have it by then. *)
Definition close (fd : option nat) (open : list nat) : option (list nat) :=
  match fd with
  | None => Some open
  | Some n => if existsb (Nat.eqb n) open then Some (remove Nat.eq_dec n open) else None
  end.

(** The calls for the nodes of the endpoint.  [listen]: the descriptor socket() and the calls after it give; [dup]: strdup() succeeds. *)
Inductive call :=
| Create (t : ti)                                    (* container ssh or tls, create *)
| Delete (t : ti)                                    (* the same, delete *)
| Address (dup : bool) (a : bytes) (listen : option nat)   (* local-address *)
| Port (p : N) (listen : option nat)                 (* local-port *)
| Remove                                             (* the list entry endpoint, delete *)
| Other (fd : nat)                                   (* another part of the process opens a descriptor *).

(** session_server.c 2197-2258 [nc_server_set_address_port] from where a socket is created; descriptors are new.  Compiled without assert(). *)
Definition relisten (listen : option nat) (s : st) : res :=
  match listen with
  | None => Ret 1 s
  | Some n =>
      if existsb (Nat.eqb n) (s_open s) then Ret 1 s
      else match close (s_fd s) (s_open s) with
           | None => Ub CloseClosed
           | Some open => Ret (match s_ti s with Some _ => 0 | None => 1 end)
                              {| s_ti := s_ti s; s_opts := s_opts s; s_addr := s_addr s; s_port := s_port s; s_fd := Some n; s_open := n :: open; s_blocks := s_blocks s |}
           end
  end.

(** server_config.c 638-667 and 824-849 with the bind: address, socket, options; nothing is set to NULL or -1. *)
Definition del_opts (t : ti) (s : st) : res :=
  match s_addr s with
  | AFreed => Ub FreeTwice
  | a =>
      match close (s_fd s) (s_open s) with
      | None => Ub CloseClosed
      | Some open =>
          match s_opts s with
          | ONull => Ub NullDeref
          | OFreed => Ub FreeTwice
          | OOpts t' =>
              if ti_eqb t t' then
                Ret 0 {| s_ti := s_ti s; s_opts := OFreed; s_addr := match a with AText _ => AFreed | a => a end; s_port := s_port s; s_fd := s_fd s;
                         s_open := open; s_blocks := s_blocks s - 1 - match a with AText _ => 1 | _ => 0 end |}
              else Ub WrongType
          end
      end
  end.

Definition exec (x : call) (s : st) : res :=
  match x with
  | Create t =>                                                                            (* 1204-1211, 1279-1287 *)
      Ret 0 {| s_ti := Some t; s_opts := OOpts t; s_addr := s_addr s; s_port := s_port s; s_fd := s_fd s; s_open := s_open s; s_blocks := s_blocks s + 1 |}
  | Delete t => del_opts t s                                                               (* 1246-1248, 1320-1322 *)
  | Address dup a listen =>                                                                (* 1366-1379 *)
      match s_addr s with
      | AFreed => Ub FreeTwice
      | old =>
          let blocks := (s_blocks s - match old with AText _ => 1 | _ => 0 end)%Z in
          let set v k := {| s_ti := s_ti s; s_opts := s_opts s; s_addr := v; s_port := s_port s; s_fd := s_fd s; s_open := s_open s; s_blocks := blocks + k |} in
          if dup then let s1 := set (AText a) 1%Z in if (s_port s =? 0)%N then Ret 0 s1 else relisten listen s1
          else Ret 1 (set ANull 0%Z)
      end
  | Port p listen =>                                                                       (* 1421-1436 *)
      let s1 := {| s_ti := s_ti s; s_opts := s_opts s; s_addr := s_addr s; s_port := p; s_fd := s_fd s; s_open := s_open s; s_blocks := s_blocks s |} in
      match s_addr s with
      | ANull => Ret 0 s1
      | AText _ => if (p =? 0)%N then Ret 0 s1 else relisten listen s1
      | AFreed => if (p =? 0)%N then Ret 0 s1 else Ub ReadFreed
      end
  | Remove =>                                                                              (* 1143-1167; the entry is gone afterwards *)
      match s_ti s with
      | Some t => del_opts t s
      | None => Ret 1 s
      end
  | Other fd => Ret 0 {| s_ti := s_ti s; s_opts := s_opts s; s_addr := s_addr s; s_port := s_port s; s_fd := s_fd s;
                         s_open := if existsb (Nat.eqb fd) (s_open s) then s_open s else fd :: s_open s; s_blocks := s_blocks s |}
  end.

(** One call after another, whatever they return. *)
Fixpoint run (l : list call) (s : st) : res :=
  match l with
  | [] => Ret 0 s
  | x :: l => match exec x s with Ub u => Ub u | Ret _ s => run l s end
  end.
