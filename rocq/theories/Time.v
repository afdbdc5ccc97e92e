(** Model of session.c 55-95 and 106-137 (time stamps and nc_poll()), 430-453 and 469-508 (locks with a timeout), and of the
    loops with a deadline used by polling, accepting and connecting.

    A time stamp is a pair of seconds and nanoseconds; the clock is read through arguments.  clock_gettime() is assumed to succeed. *)
From Coq Require Import ZArith Bool List.
Import ListNotations.
Local Open Scope Z_scope.

Record tspec := mkT { t_sec : Z; t_nsec : Z }.
(** A clock reading. *)
Definition valid (t : tspec) : Prop := 0 <= t_nsec t < 1000000000.

(** Lines 55-81 [nc_timeouttime_get]: [add] milliseconds (uint32_t) after [cur].  time_t does not overflow. *)
Definition time_get (cur : tspec) (add : Z) : tspec :=
  if add =? 0 then cur
  else
    let s := t_sec cur + add / 1000 in
    let n := t_nsec cur + (add mod 1000) * 1000000 in
    if 1000000000 <=? n then mkT (s + 1) (n - 1000000000)
    else if n <? 0 then mkT (s - 1) (n + 1000000000)
    else mkT s n.

(** Conversion to int32_t. *)
Definition to32 (x : Z) : Z := let y := x mod 4294967296 in if y <? 2147483648 then y else y - 4294967296.
Definition fits64 (x : Z) : bool := (-9223372036854775808 <=? x) && (x <=? 9223372036854775807).

(** Lines 83-95 [nc_timeouttime_cur_diff] at time [cur]; [None]: signed overflow.  C division truncates. *)
Definition cur_diff (ts cur : tspec) : option Z :=
  let d := t_sec ts - t_sec cur in
  if negb (fits64 d) || negb (fits64 (d * 1000000000)) then None
  else
    let n := d * 1000000000 + (t_nsec ts - t_nsec cur) in
    if negb (fits64 n) then None else Some (to32 (Z.quot n 1000000)).

(** One return of poll(): its result, whether it was interrupted (errno EINTR), the time read after it. *)
Record pret := mkPret { p_rc : Z; p_eintr : bool; p_at : tspec }.

Inductive out := Ret (rc : Z) (at_time : tspec) | Unfinished | UBOverflow.

(** Lines 106-137 [nc_poll]: [start] the time read before the first call, then the returns of poll(). *)
Fixpoint poll_loop (start : tspec) (tmo : Z) (l : list pret) : out :=
  match l with
  | [] => Unfinished
  | r :: l' =>
      let again tmo' := if (p_rc r =? -1) && p_eintr r then poll_loop start tmo' l' else Ret (p_rc r) (p_at r) in
      if 0 <? tmo then
        match cur_diff start (p_at r) with
        | None => UBOverflow
        | Some d => if tmo + d <? 0 then Ret 0 (p_at r) else again (tmo + d)
        end
      else again tmo
  end.
Definition nc_poll (start : tspec) (tmo : Z) (l : list pret) : out := poll_loop start tmo l.

(** The timeouts passed to poll(), one per call made. *)
Fixpoint poll_args (start : tspec) (tmo : Z) (l : list pret) : list Z :=
  match l with
  | [] => [tmo]
  | r :: l' =>
      let again tmo' := if (p_rc r =? -1) && p_eintr r then tmo :: poll_args start tmo' l' else [tmo] in
      if 0 <? tmo then
        match cur_diff start (p_at r) with
        | None => [tmo]
        | Some d => if tmo + d <? 0 then [tmo] else again (tmo + d)
        end
      else again tmo
  end.

(** Lines 469-508 [nc_session_client_msgs_lock] with the mutex acquired (positive timeout): the remaining timeout. *)
Definition msgs_lock_left (start after : tspec) (tmo : Z) : option Z :=
  match cur_diff start after with None => None | Some d => Some (tmo - d) end.

(** The loops with a deadline (session_server.c 2047-2096, session_server_ssh.c 1976, session_server_tls.c 913, session_client_ssh.c
    1308-1613, ...): [deadline] as of nc_timeouttime_get() or none (timeout -1); the answers of the steps, each with the time of the check
    after it.  Result: the answer of the step that ended the loop, or [None] for the timeout, and the time. *)
Fixpoint wait_loop {A} (deadline : option tspec) (l : list (option A * tspec)) : option (option A * tspec) :=
  match l with
  | [] => None
  | (Some a, t) :: _ => Some (Some a, t)
  | (None, t) :: l' =>
      match deadline with
      | None => wait_loop deadline l'
      | Some dl => match cur_diff dl t with
                   | None => None
                   | Some d => if d <? 1 then Some (None, t) else wait_loop deadline l'
                   end
      end
  end.
