(** Model of sending notifications from several threads: src/session_server.c 1669-1690 (nc_server_notif_send), 3239-3294 (the subscription
    counter, Notif.v), src/io.c 846-877, 1021-1033 and 1066-1082 (nc_write_msg_io), of nc_write() (573-654) that it refuses sessions not running.  One server session. *)
From Coq Require Import Arith NArith Bool List.
From Verif Require Import Bytes Notif.
Import ListNotations.

(** The argument: NULL, or a notification of which the tree and the time may be NULL. *)
Record arg := { a_ntf : option bytes; a_time : option bytes }.

(** Where a thread is in the call with the number [k]: it was called; the parameters were checked; the lock for input and output is held. *)
Inductive pc := Out | Called (k : nat) (a : option arg) | Checked (k : nat) (ntf time : bytes) | Locked (k : nat) (ntf time : bytes).

Inductive ret := RNotif | RError | RWouldBlock.
(** What reached the connection of a message: all or a part. *)
Inductive wire := Whole (ntf time : bytes) | Part (ntf time : bytes).

(** The counter, whether the session is running (starting ones have no subscriptions), who holds the lock, the threads, what was sent and returned by which call; the number of the next call. *)
Record st := { s_cnt : N; s_running : bool; s_lock : option nat; s_thr : nat -> pc; s_out : list (nat * wire); s_rets : list (nat * ret); s_next : nat }.

Definition init : st := {| s_cnt := 0; s_running := true; s_lock := None; s_thr := fun _ => Out; s_out := []; s_rets := []; s_next := 0 |}.

(** What may happen to the next step of a thread: the lock is got, or not in time, or taking it fails; the message is written, or only a part of it reaches the
    connection, and then whether lyd_print_clb() fails (the results of nc_write_clb() are not looked at; a write error of a file descriptor does not
    change the status); the session ends while all or a part is written. *)
Inductive chance := Good | Timeout | LockFails | Partly (print : bool) | Ends (whole : bool).

Inductive event := Sub (c : ncall) | Dies | Call (t : nat) (a : option arg) | Step (t : nat) (c : chance).

Definition put (f : nat -> pc) (t : nat) (p : pc) : nat -> pc := fun i => if Nat.eqb i t then p else f i.

(** The call [k] of the thread [t] returns [r]. *)
Definition back (s : st) (t k : nat) (r : ret) : st :=
  {| s_cnt := s_cnt s; s_running := s_running s; s_lock := s_lock s; s_thr := put (s_thr s) t Out; s_out := s_out s; s_rets := s_rets s ++ [(k, r)]; s_next := s_next s |}.
Definition goes (s : st) (t : nat) (l : option nat) (p : pc) : st :=
  {| s_cnt := s_cnt s; s_running := s_running s; s_lock := l; s_thr := put (s_thr s) t p; s_out := s_out s; s_rets := s_rets s; s_next := s_next s |}.
Definition unlocked (s : st) : st :=
  {| s_cnt := s_cnt s; s_running := s_running s; s_lock := None; s_thr := s_thr s; s_out := s_out s; s_rets := s_rets s; s_next := s_next s |}.
Definition sends (s : st) (k : nat) (w : wire) (runs : bool) : st :=
  {| s_cnt := s_cnt s; s_running := runs; s_lock := None; s_thr := s_thr s; s_out := s_out s ++ [(k, w)]; s_rets := s_rets s; s_next := s_next s |}.

Definition step (s : st) (e : event) : st :=
  match e with
  | Sub c => {| s_cnt := notif_step (s_cnt s) c; s_running := s_running s; s_lock := s_lock s; s_thr := s_thr s; s_out := s_out s; s_rets := s_rets s; s_next := s_next s |}
  | Dies => {| s_cnt := s_cnt s; s_running := false; s_lock := s_lock s; s_thr := s_thr s; s_out := s_out s; s_rets := s_rets s; s_next := s_next s |}
  | Call t a =>
      match s_thr s t with
      | Out => {| s_cnt := s_cnt s; s_running := s_running s; s_lock := s_lock s; s_thr := put (s_thr s) t (Called (s_next s) a); s_out := s_out s;
                  s_rets := s_rets s; s_next := S (s_next s) |}
      | _ => s
      end
  | Step t c =>
      match s_thr s t with
      | Out => s
      | Called k a =>                                                    (* session_server.c 1674-1681 *)
          if (s_cnt s =? 0)%N then back s t k RError
          else match a with
               | Some {| a_ntf := Some n; a_time := Some m |} => goes s t (s_lock s) (Checked k n m)
               | _ => back s t k RError
               end
      | Checked k n m =>                                                 (* io.c 863-877 *)
          if negb (s_running s) then back s t k RError
          else match c, s_lock s with
               | Timeout, _ => back s t k RWouldBlock
               | LockFails, _ => back s t k RError
               | _, None => goes s t (Some t) (Locked k n m)
               | _, Some _ => s
               end
      | Locked k n m =>                                                  (* io.c 1021-1033, 1066-1082 *)
          if negb (s_running s) then back (unlocked s) t k RError
          else match c with
               | Partly print => back (sends s k (Part n m) true) t k (if print then RNotif else RError)
               | Ends whole => back (sends s k (if whole then Whole n m else Part n m) false) t k RError
               | _ => back (sends s k (Whole n m) true) t k RNotif
               end
      end
  end.

Definition run (l : list event) : st := fold_left step l init.
