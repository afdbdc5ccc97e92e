(** Model of the pollsession lock, src/session_server.c 1032-1186.  The lock is a ring buffer of ids
    (bytes) guarded by a mutex; the thread whose id is at the beginning owns the structure.
    Every step below is one critical section of that mutex.  Simplifications: pthread_mutex_lock() succeeds,
    clock and logging calls are left out. *)
From Coq Require Import NArith Bool Lia List.
Import ListNotations.
Local Open Scope N_scope.

Definition thread := nat.

Section Queue.
(** NC_PS_QUEUE_SIZE (config.h.in 76, CMakeLists.txt 99; 6 by default). *)
Variable Q : N.

(** session_p.h 802-804. *)
Record ring := mkRing { r_arr : N -> N; r_begin : N; r_len : N }.

Definition upd {A} (f : N -> A) (i : N) (v : A) : N -> A := fun j => if j =? i then v else f j.

(** Lines 1032-1054 [nc_ps_queue_add_id]; not called on a full queue.  Ids and indices are uint8_t. *)
Definition add_id (r : ring) : ring * N :=
  let id := if r_len r =? 0 then 0 else (r_arr r (((r_begin r + r_len r - 1) mod Q) mod 256) + 1) mod 256 in
  let len := (r_len r + 1) mod 256 in
  (mkRing (upd (r_arr r) (((r_begin r + len - 1) mod Q) mod 256) id) (r_begin r) len, id).

(** Lines 1061-1081: the loop, from position [i] with [n] iterations left; [found] = 0, 1, 2. *)
Fixpoint remove_loop (b : N) (id : N) (n : nat) (i : N) (found : N) (a : N -> N) {struct n} : N * (N -> N) :=
  match n with
  | O => (found, a)
  | S n' =>
      let q := ((b + i) mod Q) mod 256 in
      if negb (found =? 0) then
        remove_loop b id n' (i + 1) found
          (if found =? 2 then upd a (if q =? 0 then Q - 1 else q - 1) (a q) else a)
      else if a q =? id then remove_loop b id n' (i + 1) (if i =? 0 then 1 else 2) a
      else remove_loop b id n' (i + 1) 0 a
  end.

(** Lines 1056-1094 [nc_ps_queue_remove_id]. *)
Definition remove_id (r : ring) (id : N) : ring :=
  let '(found, a) := remove_loop (r_begin r) id (N.to_nat (r_len r)) 0 0 (r_arr r) in
  if found =? 0 then mkRing a (r_begin r) (r_len r)
  else mkRing a (if found =? 1 then ((r_begin r + 1) mod Q) mod 256 else r_begin r) (r_len r - 1).

(** What a thread is doing: nothing, waiting on the condition variable with its id, owning the structure. *)
Inductive tst := Idle | Waiting (id : N) (woken : bool) | Holding (id : N).
Record st := mkSt { s_ring : ring; s_thr : thread -> tst }.

Definition set_thr (f : thread -> tst) (t : thread) (v : tst) : thread -> tst :=
  fun u => if Nat.eqb u t then v else f u.
(** pthread_cond_broadcast(). *)
Definition wake_all (f : thread -> tst) : thread -> tst :=
  fun u => match f u with Waiting id _ => Waiting id true | x => x end.

(** Events: a call of nc_ps_lock(), return of the wait of a thread for a signal (or spuriously), by timeout, or
    with another error; a call of nc_ps_unlock(). *)
Inductive ev := ELock (t : thread) | EWake (t : thread) | ETimeout (t : thread) | EWaitErr (t : thread) | EUnlock (t : thread).
(** Outcomes: the thread owns the structure, (still) waits, failed because the queue is full, gave up, released,
    or failed to release. *)
Inductive out := OGot | OWait | OFull | OGaveUp | OReleased | OErr.

Definition head (r : ring) : N := r_arr r (r_begin r).

(** Lines 1096-1154 [nc_ps_lock] and 1156-1186 [nc_ps_unlock]. [None]: the event is impossible (a thread
    locks only when it does nothing and unlocks with the id it got). *)
Definition step (s : st) (e : ev) : option (st * out) :=
  let r := s_ring s in
  match e with
  | ELock t =>
      match s_thr s t with
      | Idle =>
          if r_len r =? Q then Some (s, OFull)
          else let '(r', id) := add_id r in
               if head r' =? id then Some (mkSt r' (set_thr (s_thr s) t (Holding id)), OGot)
               else Some (mkSt r' (set_thr (s_thr s) t (Waiting id false)), OWait)
      | _ => None
      end
  | EWake t =>
      match s_thr s t with
      | Waiting id _ =>
          if head r =? id then Some (mkSt r (set_thr (s_thr s) t (Holding id)), OGot)
          else Some (mkSt r (set_thr (s_thr s) t (Waiting id false)), OWait)
      | _ => None
      end
  | ETimeout t =>
      match s_thr s t with
      | Waiting id _ =>
          if head r =? id then Some (mkSt r (set_thr (s_thr s) t (Holding id)), OGot)
          else Some (mkSt (remove_id r id) (set_thr (s_thr s) t Idle), OGaveUp)
      | _ => None
      end
  | EWaitErr t =>
      match s_thr s t with
      | Waiting id _ => Some (mkSt (remove_id r id) (set_thr (s_thr s) t Idle), OGaveUp)
      | _ => None
      end
  | EUnlock t =>
      match s_thr s t with
      | Holding id =>
          if head r =? id
          then Some (mkSt (remove_id r id) (wake_all (set_thr (s_thr s) t Idle)), OReleased)
          else Some (mkSt r (set_thr (s_thr s) t Idle), OErr)
      | _ => None
      end
  end.

(** A new structure (lines 1188-1199, calloc). *)
Definition init : st := mkSt (mkRing (fun _ => 0) 0 0) (fun _ => Idle).

(** All runs: a list of events, each with its outcome, oldest first. *)
Inductive runs : st -> list (ev * out) -> Prop :=
| runs_nil : runs init []
| runs_step s tr e s' o : runs s tr -> step s e = Some (s', o) -> runs s' (tr ++ [(e, o)]).
End Queue.
