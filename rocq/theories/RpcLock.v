(** Model of session.c 293-422: the lock that a thread holds while it processes an RPC of a session
    (nc_session_rpc_lock() and nc_session_rpc_unlock()).

    Any number of threads; each statement between two accesses to shared state is one step, steps of different threads
    interleave freely.  Simplifications: sequential consistency; unlocking a mutex by its owner does not fail; the session is one of a
    server (lines 304-307, 380-383 return -1 otherwise); pthread_cond_signal() wakes one waiting thread, if there is any, and
    a thread that was woken does not report a timeout; threads may also wake spuriously. *)
From Coq Require Import ZArith Bool List.
Import ListNotations.

Definition tid := nat.
(** The timeout argument: positive, zero, -1. *)
Inductive mode := Timed | Try | Inf.

(** Where a thread is. *)
Inductive pc :=
| Out                       (* in none of the functions, without the lock *)
| L1 (m : mode)             (* lines 313, 326, 335: acquiring the mutex *)
| L2 (m : mode)             (* lines 315, 328, 337: has the mutex, about to test rpc_inuse *)
| LGo (m : mode)            (* rpc_inuse was set: about to wait (has the mutex) *)
| LW (m : mode) (woken : bool)  (* lines 316, 338: waiting on the condition, without the mutex *)
| LT (r : Z)                (* the wait failed: reacquires the mutex, the call will return r *)
| LX (r : Z)                (* lines 319, 329, 340: has the mutex, releases it and returns r *)
| L3                        (* lines 358-359: rpc_inuse was clear (has the mutex) *)
| L4                        (* line 362: has the mutex *)
| In                        (* outside, with the lock *)
| U1 (h : bool) (m : mode)  (* lines 387-398; h: the caller has the lock *)
| U2 (h x : bool)           (* line 408; x: has the mutex *)
| U3 (x : bool)             (* line 409 *)
| U4 (x : bool).            (* lines 411-421 *)

Record st := mkSt { mtx : option tid; inuse : bool; pcs : tid -> pc }.
Definition init : st := mkSt None false (fun _ => Out).
Definition at_pc (s : st) (t : tid) (p : pc) : tid -> pc := fun u => if Nat.eqb u t then p else pcs s u.

(** What can be seen of a step. *)
Inductive obs := OTau | OLockCall | OLockRet (r : Z) | OUnlockCall | OUnlockRet (r : Z) | OAbort.

Inductive step : st -> tid -> obs -> st -> Prop :=
(* nc_session_rpc_lock *)
| SLock s t m : pcs s t = Out -> step s t OLockCall (mkSt (mtx s) (inuse s) (at_pc s t (L1 m)))
| SGot s t m : pcs s t = L1 m -> mtx s = None -> step s t OTau (mkSt (Some t) (inuse s) (at_pc s t (L2 m)))
| SBusy s t m : pcs s t = L1 m -> m <> Inf -> mtx s <> None -> step s t (OLockRet 0) (mkSt (mtx s) (inuse s) (at_pc s t Out))
| SErr s t m : pcs s t = L1 m -> step s t (OLockRet (-1)) (mkSt (mtx s) (inuse s) (at_pc s t Out))
| SFree s t m : pcs s t = L2 m -> inuse s = false -> step s t OTau (mkSt (mtx s) (inuse s) (at_pc s t L3))
| STryUsed s t : pcs s t = L2 Try -> inuse s = true -> step s t OTau (mkSt (mtx s) (inuse s) (at_pc s t (LX 0)))
| SUsed s t m : pcs s t = L2 m -> m <> Try -> inuse s = true -> step s t OTau (mkSt (mtx s) (inuse s) (at_pc s t (LGo m)))
| SWait s t m : pcs s t = LGo m -> step s t OTau (mkSt None (inuse s) (at_pc s t (LW m false)))
| SSpurious s t m : pcs s t = LW m false -> step s t OTau (mkSt (mtx s) (inuse s) (at_pc s t (LW m true)))
| SReacq s t m : pcs s t = LW m true -> mtx s = None -> step s t OTau (mkSt (Some t) (inuse s) (at_pc s t (L2 m)))
| SExpire s t : pcs s t = LW Timed false -> step s t OTau (mkSt (mtx s) (inuse s) (at_pc s t (LT 0)))
| SWaitErr s t m : pcs s t = LW m false -> step s t OTau (mkSt (mtx s) (inuse s) (at_pc s t (LT (-1))))
| SReacqFail s t r : pcs s t = LT r -> mtx s = None -> step s t OTau (mkSt (Some t) (inuse s) (at_pc s t (LX r)))
| SFail s t r : pcs s t = LX r -> step s t (OLockRet r) (mkSt None (inuse s) (at_pc s t Out))
| SSet s t : pcs s t = L3 -> inuse s = false -> step s t OTau (mkSt (mtx s) true (at_pc s t L4))
| SSetAbort s t : pcs s t = L3 -> inuse s = true -> step s t OAbort s
| SLocked s t : pcs s t = L4 -> step s t (OLockRet 1) (mkSt None (inuse s) (at_pc s t In))
(* nc_session_rpc_unlock, whoever calls it; line 385: the assertion *)
| SUnlock s t h m : pcs s t = (if h : bool then In else Out) -> inuse s = true ->
    step s t OUnlockCall (mkSt (mtx s) (inuse s) (at_pc s t (U1 h m)))
| SUnlockAbort s t : pcs s t = In \/ pcs s t = Out -> inuse s = false -> step s t OAbort s
| SUGot s t h m : pcs s t = U1 h m -> mtx s = None -> step s t OTau (mkSt (Some t) (inuse s) (at_pc s t (U2 h true)))
| SUBusy s t h m : pcs s t = U1 h m -> m <> Inf -> mtx s <> None -> step s t OTau (mkSt (mtx s) (inuse s) (at_pc s t (U2 h false)))
| SUErr s t (h : bool) m : pcs s t = U1 h m -> step s t (OUnlockRet (-1)) (mkSt (mtx s) (inuse s) (at_pc s t (if h then In else Out)))
| SClear s t h x : pcs s t = U2 h x -> step s t OTau (mkSt (mtx s) false (at_pc s t (U3 x)))
| SSignal s t u m x : pcs s t = U3 x -> pcs s u = LW m false -> u <> t ->
    step s t OTau (mkSt (mtx s) (inuse s) (fun v => if Nat.eqb v u then LW m true else at_pc s t (U4 x) v))
| SSignalNone s t x : pcs s t = U3 x -> (forall u m, pcs s u <> LW m false) -> step s t OTau (mkSt (mtx s) (inuse s) (at_pc s t (U4 x)))
| SUDone s t (x : bool) : pcs s t = U4 x -> step s t (OUnlockRet 1) (mkSt (if x then None else mtx s) (inuse s) (at_pc s t Out)).

(** Runs from the beginning, with what was seen, the latest first. *)
Inductive run : list (tid * obs) -> st -> Prop :=
| RNil : run [] init
| RStep l s t o s' : run l s -> step s t o s' -> run ((t, o) :: l) s'.
