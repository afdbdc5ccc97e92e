(** Lifetime of the thread of a Call Home client (session_server.c) against the
    removal of the client (server_config.c), for one name of a client.

    A state has the client if it is configured, the threads that were ever
    dispatched for it, and the position of the remover. Every section of code
    under a lock is one step, which is what the locks make of it; a step of a
    thread that cannot go on because of a lock is not enabled. What the steps do
    beside (connecting, contexts, endpoints) is in other files. *)
From Coq Require Import List Arith Lia Bool.
Import ListNotations.

(** The four calls of nc_server_ch_client_with_endpt_lock() in
    session_server.c:3003, 3046, 3074 and 3113. *)
Inductive look := KStart | KAfter | KPeriodic | KMaxWait.
(** Positions in nc_ch_client_thread(), session_server.c:2988-3162:
    - [PLook k]: before such a call
    - [PLoop]: condition of the loop (3012), the client is locked
    - [PConn]: connecting (3017), the client is locked
    - [PChk1]: after the session was created, the client unlocked (3022)
    - [PSess]: in nc_server_ch_client_thread_session_cond_wait(), 2798-2879
    - [PChk2]: after the session (3037)
    - [PWait k]: in nc_server_ch_client_thread_is_running_wait(), 2891-2922,
      called in 3069 and 3107; [k] is the call that follows
    - [PClean]: label cleanup (3151)
    - [PDone]: the thread has returned *)
Inductive pc := PLook (k : look) | PLoop | PConn | PChk1 | PSess | PChk2 | PWait (k : look) | PClean | PDone.
(** struct nc_ch_client_thread_arg of a thread: the flag thread_running and
    whether the memory was released. *)
Record th := { t_pc : pc; t_run : bool; t_freed : bool }.
(** The remover, server_config.c:909-972: [DRemoved d]: the client was taken from
    the list and copied, [d] is its thread_data; [DJoin i]: waiting for a thread;
    [DDone]: returned. *)
Inductive dpc := DIdle | DRemoved (d : option nat) | DJoin (i : nat) | DDone.
Inductive badk := BNull | BFreed | BAbort.
Record st := { present : bool; eps : bool; td : option nat; ths : list th; dp : dpc; bad : option badk }.

(** [Go], [Alt], [Fail]: what happens in a step of a thread, see [tstep]. *)
Inductive choice := Go | Alt | Fail.
(** [New]: the client is configured; [Eps b]: it has endpoints or not; [Disp]:
    nc_connect_ch_client_dispatch(); [Rm1], [Rm2], [Rm3]: the removal; [T i c]:
    step of thread [i]. *)
Inductive ev := New | Eps (b : bool) | Disp | Rm1 | Rm2 | Rm3 | T (i : nat) (c : choice).

Definition holds (t : th) : bool := match t_pc t with PLoop | PConn => true | _ => false end.
(** session_server.c:66-112: the mutex of the client is held by some thread; it
    also holds the rwlock for reading. *)
Definition locked (s : st) : bool := existsb holds (ths s).

Fixpoint upd {A} (l : list A) (i : nat) (x : A) : list A :=
  match l, i with
  | [], _ => []
  | _ :: r, 0 => x :: r
  | y :: r, S j => y :: upd r j x
  end.
Definition set_th (s : st) (i : nat) (t : th) : st :=
  {| present := present s; eps := eps s; td := td s; ths := upd (ths s) i t; dp := dp s; bad := bad s |}.
Definition set_bad (s : st) (b : badk) : st :=
  {| present := present s; eps := eps s; td := td s; ths := ths s; dp := dp s; bad := Some b |}.
Definition to (t : th) (p : pc) : th := {| t_pc := p; t_run := t_run t; t_freed := t_freed t |}.

(** One step of thread [i]. *)
Definition tstep (s : st) (i : nat) (t : th) (c : choice) : option st :=
  let goto p := Some (set_th s i (to t p)) in
  match t_pc t with
  | PLook k =>
      (* session_server.c:2958-2980: the client is looked up and locked; without
         endpoints it is unlocked and the call repeated; 3004, 3047: without the
         client the thread ends; 3075, 3114: assert(client) *)
      if present s then
        if locked s then None
        else if eps s then
          match k, c with
          | KAfter, Alt => goto (PWait KPeriodic)     (* 3054-3066, periodic *)
          | _, _ => goto PLoop
          end
        else goto (PLook k)
      else match k with
           | KStart | KAfter => goto PClean
           | KPeriodic | KMaxWait => Some (set_bad s BAbort)
           end
  | PLoop => if t_run t then goto PConn else goto PClean
  | PConn => match c with
             | Alt => goto (PWait KMaxWait)          (* 3100-3104, not connected *)
             | _ => goto PChk1
             end
  | PChk1 => if t_run t then goto PSess else goto PClean
  | PSess => match c with
             | Alt => goto PChk2                     (* 2833, 2816: session over or refused *)
             | Fail => goto PClean                   (* 2838, 3031: waiting failed *)
             | Go => (* 2847-2853: the client is looked up *)
                     if present s then (if locked s then None else goto PSess) else goto PClean
             end
  | PChk2 => if t_run t then goto (PLook KAfter) else goto PClean
  | PWait k => if t_run t then
                 match c with
                 | Go => goto (PLook k)              (* 2912: the time is over *)
                 | Fail => goto PClean               (* 2916: waiting failed *)
                 | Alt => goto (PWait k)
                 end
               else goto PClean
  | PClean => (* 3153-3159 *)
              Some (set_th s i {| t_pc := PDone; t_run := t_run t; t_freed := true |})
  | PDone => None
  end.

Definition step (s : st) (e : ev) : option st :=
  match bad s with
  | Some _ => None
  | None =>
  match e with
  | New => (* server_config.c:3482-3508; the remover holds the configuration lock *)
      match dp s with
      | DIdle | DDone =>
          if present s then None
          else Some {| present := true; eps := false; td := None; ths := ths s; dp := DIdle; bad := None |}
      | _ => None
      end
  | Eps b => if present s && negb (locked s) then
               Some {| present := true; eps := b; td := td s; ths := ths s; dp := dp s; bad := None |}
             else None
  | Disp => (* session_server.c:3165-3220, under the lock of the client *)
      if present s && negb (locked s) then
        Some {| present := true; eps := eps s; td := Some (length (ths s));
                ths := ths s ++ [{| t_pc := PLook KStart; t_run := true; t_freed := false |}];
                dp := dp s; bad := None |}
      else None
  | Rm1 => (* server_config.c:946-969, under the write lock *)
      if present s && negb (locked s) then
        Some {| present := false; eps := eps s; td := None; ths := ths s; dp := DRemoved (td s); bad := None |}
      else None
  | Rm2 => (* server_config.c:915-921, 929-932 *)
      match dp s with
      | DRemoved None => Some (set_bad s BNull)
      | DRemoved (Some i) =>
          match nth_error (ths s) i with
          | None => None
          | Some t =>
              if t_freed t then Some (set_bad s BFreed)
              else if t_run t then
                Some {| present := present s; eps := eps s; td := td s;
                        ths := upd (ths s) i {| t_pc := t_pc t; t_run := false; t_freed := t_freed t |};
                        dp := DJoin i; bad := None |}
              else Some {| present := present s; eps := eps s; td := td s; ths := ths s; dp := DDone; bad := None |}
          end
      | _ => None
      end
  | Rm3 => (* server_config.c:924-927, pthread_join(), then the members are released *)
      match dp s with
      | DJoin i => match nth_error (ths s) i with
                   | Some t => match t_pc t with
                               | PDone => Some {| present := present s; eps := eps s; td := td s; ths := ths s; dp := DDone; bad := None |}
                               | _ => None
                               end
                   | None => None
                   end
      | _ => None
      end
  | T i c => match nth_error (ths s) i with Some t => tstep s i t c | None => None end
  end
  end.
Fixpoint exec (s : st) (es : list ev) : option st :=
  match es with
  | [] => Some s
  | e :: r => match step s e with Some s1 => exec s1 r | None => None end
  end.
Definition start : st := {| present := false; eps := false; td := None; ths := []; dp := DIdle; bad := None |}.
