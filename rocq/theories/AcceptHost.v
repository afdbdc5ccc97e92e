(** What the server learns of an accepted connection: session_server.c 448-524 and 597-660, the second half of
    [nc_sock_accept_binds] (Accept has the first: which socket is accepted on). *)
From Coq Require Import List NArith Bool.
From Verif Require Import Bytes.
Import ListNotations.
Local Open Scope N_scope.

(** The address accept() stores in saddr: the family, the address as a number, the scope (interface) of an IPv6
    address and the bytes of the port as they are in memory, in network byte order. *)
Inductive peer :=
| PUnix
| PInet (a : N) (hi lo : N)
| PInet6 (a scope : N) (hi lo : N)
| POther.

(** Reading two bytes of memory as a uint16_t on a little-endian machine, and ntohs() there. *)
Definition load16 (b0 b1 : N) : N := b0 + 256 * b1.
Definition ntohs (x : N) : N := (x mod 256) * 256 + x / 256.

(** The library and the system: inet_ntop() for both families, getsockname() (the path of the socket), whether
    memory can be allocated, whether fcntl() works. *)
Record env := mkE {
  ntop4 : N -> option bytes;
  ntop6 : N -> option bytes;
  sockname : option bytes;
  alloc : bool;
  fcntl : bool }.

(** The result of one of the three functions: [None] for -1, else the string stored in host (one block of memory) and the
    port.  [b]: blocks of memory still allocated by the function. *)
Definition learnt := (option (bytes * N) * nat)%type.

(** 448-472 [sock_host_unix]; the port is set to 0 in 621.  sun_path is an array, so that the test in 466 never
    holds and an unnamed socket has the empty path. *)
Definition sock_host_unix (e : env) : learnt :=
  match sockname e with
  | None => (None, 0%nat)
  | Some p => if alloc e then (Some (p, 0), 1%nat) else (None, 0%nat)
  end.

(** 482-498 [sock_host_inet], 508-524 [sock_host_inet6]. *)
Definition sock_host_ip (e : env) (ntop : option bytes) (hi lo : N) : learnt :=
  if alloc e then
    match ntop with
    | None => (None, 0%nat)                               (* 488-491: the block is freed *)
    | Some h => (Some (h, ntohs (load16 hi lo)), 1%nat)
    end
  else (None, 0%nat).

(** 616-633. *)
Definition learn (e : env) (p : peer) : learnt :=
  match p with
  | PUnix => sock_host_unix e
  | PInet a hi lo => sock_host_ip e (ntop4 e a) hi lo
  | PInet6 a _ hi lo => sock_host_ip e (ntop6 e a) hi lo
  | POther => (None, 0%nat)
  end.

(** What the caller has afterwards.  [r_sock]: whether the accepted socket was stored; [r_open]: whether it is open; [r_nonblock]:
    whether O_NONBLOCK is set on it; [r_host], [r_port]: what was stored through the pointers; [r_blocks]: blocks still allocated. *)
Record outcome := mkR { r_ret : bool; r_sock : bool; r_open : bool; r_nonblock : bool; r_host : option bytes; r_port : option N; r_blocks : nat }.

(** 597-660: [wh], [wp]: the caller passes a place for the host and for the port ([nc_accept] passes both, the
    pointers of idx are in Accept). *)
Definition accepted (e : env) (wh wp : bool) (p : peer) : outcome :=
  let fail nb blocks := mkR false false false nb None None blocks in
  if fcntl e then
    match learn e p with
    | (None, b) => fail true b
    | (Some (h, port), b) =>
        mkR true true true true (if wh then Some h else None) (if wp then Some port else None) (if wh then b else Nat.pred b)
    end
  else fail false 0%nat.
