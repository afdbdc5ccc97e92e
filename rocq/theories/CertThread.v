(** Model of the threads around the certificate expiration notifications: src/session_server.c 3883-4110, src/server_config.c
    3968-4115, 4410-4414 and 4491-4495. *)
From Coq Require Import Bool Lia List Arith.
Import ListNotations.

(** Where a notification thread is. *)
Inductive pc :=
| Chk      (* before nc_server_notif_cert_exp_thread_is_running() of the loop, line 3913 *)
| Cmp      (* the flag was set; computes the wake-up time, has not yet entered pthread_cond_clockwait(), 3914-3918 *)
| Waiting  (* in pthread_cond_clockwait(), 3919 *)
| Woken    (* it returned 0, 3923 *)
| Timed    (* it returned ETIMEDOUT, 3939 *)
| Done.

(** A thread: its place, the configuration it uses (a number), whether its pointer to the configured intervals is still valid. *)
Record worker := mkW { w_pc : pc; w_cfg : nat; w_valid : bool }.

(** server_opts.cert_exp_notif.thread_running, the number of the present configuration, the threads ever created, the calls of the
    callback. *)
Record st := mkS { s_running : bool; s_cfg : nat; s_ws : list worker; s_sent : nat }.

Inductive outcome := Run (s : st) | UseAfterFree.

(** What can happen.  Everything done under cert_exp_notif.lock is one event.  A signal wakes the waiting thread given, if any
    thread waits. *)
Inductive event :=
| Start (created : bool)                        (* lines 4041-4087, [created] false: pthread_create() fails *)
| Stop (to : option nat)                        (* lines 4089-4110 up to the unlock *)
| Change (moved : bool)                         (* a configuration change; [moved]: the array of intervals is freed or reallocated *)
| Signal (to : option nat)                      (* server_config.c 4410-4414: the signal after the change *)
| Check (i : nat)                               (* 3913 *)
| Enter (i : nat)                               (* 3919: atomically gives up the lock and waits *)
| Timeout (i : nat)                             (* the wake-up time came *)
| Spurious (i : nat)                            (* a spurious wake-up *)
| Reload (i : nat) (ok : bool)                  (* 3923-3938 *)
| Notify (i : nat) (ok : bool).                 (* 3939-3960, with a certificate; [ok] false: an error, the thread ends *)

Definition waiting (w : worker) : bool := match w_pc w with Waiting => true | _ => false end.

Fixpoint upd (l : list worker) (i : nat) (w : worker) : list worker :=
  match l, i with
  | [], _ => []
  | _ :: l', O => w :: l'
  | x :: l', S i' => x :: upd l' i' w
  end.

(** pthread_cond_signal() *)
Definition signal (ws : list worker) (to : option nat) : option (list worker) :=
  match to with
  | None => if existsb waiting ws then None else Some ws
  | Some i => match nth_error ws i with
              | Some w => if waiting w then Some (upd ws i (mkW Woken (w_cfg w) (w_valid w))) else None
              | None => None
              end
  end.

Definition with_ws (s : st) ws := mkS (s_running s) (s_cfg s) ws (s_sent s).
Definition at_pc (s : st) (i : nat) (p : pc -> bool) (f : worker -> outcome) : option outcome :=
  match nth_error (s_ws s) i with Some w => if p (w_pc w) then Some (f w) else None | None => None end.
Definition goto (s : st) (i : nat) (w : worker) (p : pc) : outcome := Run (with_ws s (upd (s_ws s) i (mkW p (w_cfg w) (w_valid w)))).

(** One event, [None] if it cannot happen now. *)
Definition step (s : st) (e : event) : option outcome :=
  match e with
  | Start created =>
      if s_running s then Some (Run s)
      else if created then Some (Run (mkS true (s_cfg s) (s_ws s ++ [mkW Chk (s_cfg s) true]) (s_sent s)))
      else Some (Run (mkS true (s_cfg s) (s_ws s) (s_sent s)))
  | Stop to =>
      if s_running s then
        match signal (s_ws s) to with Some ws => Some (Run (mkS false (s_cfg s) ws (s_sent s))) | None => None end
      else Some (Run s)
  | Change moved =>
      Some (Run (mkS (s_running s) (S (s_cfg s)) (map (fun w => mkW (w_pc w) (w_cfg w) (w_valid w && negb moved)) (s_ws s)) (s_sent s)))
  | Signal to =>
      if s_running s then match signal (s_ws s) to with Some ws => Some (Run (with_ws s ws)) | None => None end
      else Some (Run s)
  | Check i => at_pc s i (fun p => match p with Chk => true | _ => false end) (fun w => goto s i w (if s_running s then Cmp else Done))
  | Enter i => at_pc s i (fun p => match p with Cmp => true | _ => false end) (fun w => goto s i w Waiting)
  | Timeout i => at_pc s i (fun p => match p with Waiting => true | _ => false end) (fun w => goto s i w Timed)
  | Spurious i => at_pc s i (fun p => match p with Waiting => true | _ => false end) (fun w => goto s i w Woken)
  | Reload i ok =>
      at_pc s i (fun p => match p with Woken => true | _ => false end)
        (fun w => if s_running s then Run (with_ws s (upd (s_ws s) i (mkW (if ok then Chk else Done) (s_cfg s) true))) else goto s i w Done)
  | Notify i ok =>
      at_pc s i (fun p => match p with Timed => true | _ => false end)
        (fun w => if w_valid w then Run (mkS (s_running s) (s_cfg s) (upd (s_ws s) i (mkW (if ok then Chk else Done) (w_cfg w) true)) (S (s_sent s)))
                  else UseAfterFree)
  end.

Definition s0 := mkS false 0 [] 0.

Fixpoint exec (s : st) (es : list event) : option outcome :=
  match es with
  | [] => Some (Run s)
  | e :: es' => match step s e with Some (Run s') => exec s' es' | r => r end
  end.
