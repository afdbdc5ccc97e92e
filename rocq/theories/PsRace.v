(** Several threads on one pollsession structure: nc_ps_poll(), nc_ps_add_session(), nc_ps_del_session(), nc_ps_clear() and nc_session_free() of server sessions
    (session_server.c 1225-1308, 1957-2195, session.c 850-1022).  What matters here is which blocks are alive and who uses them: the entries
    (struct nc_ps_session, allocated on adding) and the sessions.  What is read from and written to the sessions is PsPoll.v.

    The lock of the structure is taken to exclude (C13, PsLock.v); the RPC lock of a session is the flag rpc_inuse with its owner (RpcLock.v).  What is
    done under both locks in nc_ps_poll() for one session is one step: others can meanwhile only change the status of sessions. *)
From Coq Require Import Bool Arith List.
Import ListNotations.

Definition tid := nat.
Definition sid := nat.
Definition eid := nat.

(** session_p.h: enum nc_ps_session_state. *)
Inductive state := SNone | SBusy | SInvalid.
(** struct nc_ps_session. *)
Record ent := mkE { en_sid : sid; en_state : state }.
(** struct nc_session: status is NC_STATUS_RUNNING; the thread that has the RPC lock. *)
Record ses := mkS { se_run : bool; se_rpc : option tid }.

(** Where a thread is. *)
Inductive pc :=
| Idle
| Looking                                  (* 2048-2096: has the lock of the structure *)
| Leaving (term : option sid)              (* about to unlock (2120) and to return; [term]: NC_PSPOLL_SESSION_TERM of that session *)
| Found (e : eid) (s : sid)                (* about to unlock with the RPC lock of the session, NC_PSPOLL_RPC *)
| Serving (e : eid) (s : sid)              (* 2123-2146: reads, answers *)
| Freeing (s : sid) (term : bool)          (* about to unlock the RPC lock (2148) and to return *)
| Clearing                                 (* nc_ps_clear(ps, 0): has the lock of the structure *)
| ClearWait (s : sid).                     (* in nc_session_free() called there *)

(** What an application sees, in order. *)
Inductive note := NAdd (s : sid) | NTerm (t : tid) (s : sid) | NServed (t : tid) (s : sid) | NDel (t : tid) (s : sid) | NFree (s : sid).

Record st := mkSt { ents : list eid; heap : eid -> option ent; sess : sid -> option ses; lock : option tid; fresh : eid;
  known : sid; pcs : tid -> pc; log : list note }.
Definition upd {A} (f : nat -> A) (k : nat) (v : A) : nat -> A := fun x => if Nat.eqb x k then v else f x.

(** nc_ps_new(), no sessions, no threads at work. *)
Definition init : st := mkSt [] (fun _ => None) (fun _ => None) None 0 0 (fun _ => Idle) [].

(** Freed memory is used, the thread cannot do this now, or the next state. *)
Inductive blk := BEnt | BSes.
Inductive out := Wild (b : blk) | Not | Go (x : st).

Definition set_pc (x : st) (t : tid) (p : pc) : st := mkSt (ents x) (heap x) (sess x) (lock x) (fresh x) (known x) (upd (pcs x) t p) (log x).
Definition set_lock (x : st) (l : option tid) : st := mkSt (ents x) (heap x) (sess x) l (fresh x) (known x) (pcs x) (log x).
Definition set_ent (x : st) (e : eid) (v : option ent) : st := mkSt (ents x) (upd (heap x) e v) (sess x) (lock x) (fresh x) (known x) (pcs x) (log x).
Definition set_ses (x : st) (s : sid) (v : option ses) : st := mkSt (ents x) (heap x) (upd (sess x) s v) (lock x) (fresh x) (known x) (pcs x) (log x).
Definition set_ents (x : st) (l : list eid) : st := mkSt l (heap x) (sess x) (lock x) (fresh x) (known x) (pcs x) (log x).
Definition add_log (x : st) (n : note) : st := mkSt (ents x) (heap x) (sess x) (lock x) (fresh x) (known x) (pcs x) (log x ++ [n]).

(** What nc_session_rpc_lock() with no timeout gives when nobody has the lock; what nc_ps_poll_session_io() finds in a running session. *)
Inductive rlock := LkTry | LkBusy | LkError.
Inductive look := OTimeout | OError | OTerm | ORpc | OSsh.

Inductive ev :=
| ENew                                     (* a session is accepted *)
| EStop (s : sid)                          (* the status of a session is changed by the application: killed *)
| EAdd (t : tid) (s : sid)
| EPoll (t : tid)
| ELook (t : tid) (i : nat) (r : rlock) (o : look)
| EGiveUp (t : tid)                        (* final timeout, 2092-2095 *)
| EUnlock (t : tid)
| EWork (t : tid) (stop : bool)            (* one use of the session while the RPC is served, perhaps ending it *)
| EState (t : tid)                         (* 2125-2144 *)
| ERpcUnlock (t : tid)
| EDel (t : tid) (s : sid)
| EFree (t : tid) (s : sid)
| EFreeLate (t : tid) (s : sid)            (* the RPC lock was not got in time: session.c 877-884 goes on *)
| EClear (t : tid)
| EClearOne (t : tid) (i : nat)
| EClearFree (t : tid) (late : bool)
| EClearEnd (t : tid).

Definition at_idle (x : st) (t : tid) (o : out) : out := match pcs x t with Idle => o | _ => Not end.
Definition when_free (x : st) (o : out) : out := match lock x with None => o | Some _ => Not end.

(** Lines 1269-1282: the last entry takes the place of the removed one. *)
Fixpoint replace (l : list eid) (i : nat) (v : eid) : list eid :=
  match l, i with [], _ => [] | _ :: r, O => v :: r | y :: r, S i' => y :: replace r i' v end.
Definition remove_at (l : list eid) (i : nat) : list eid :=
  match rev l with [] => [] | z :: r => replace (rev r) i z end.
(** Lines 1269-1270; [None]: a freed entry is read. *)
Fixpoint find (h : eid -> option ent) (l : list eid) (s : sid) (i : nat) : option (option nat) :=
  match l with
  | [] => Some None
  | e :: r => match h e with
              | None => None
              | Some v => if Nat.eqb (en_sid v) s then Some (Some i) else find h r s (S i)
              end
  end.

(** Lines 1957-2010 [nc_ps_poll_sess] with the RPC lock taken before (2059) and given back after (2067-2070): the entry, the session and
    where the thread is next. *)
Definition poll_sess (t : tid) (e : eid) (v : ent) (w : ses) (o : look) : ent * ses * pc :=
  match en_state v with
  | SNone =>
      if se_run w then
        match o with
        | OTerm => (mkE (en_sid v) SInvalid, mkS false None, Leaving (Some (en_sid v)))
        | OError => (mkE (en_sid v) SNone, mkS true None, Leaving None)
        | OTimeout => (mkE (en_sid v) SNone, mkS true None, Looking)
        | OSsh => (mkE (en_sid v) SNone, mkS true None, Leaving None)
        | ORpc => (mkE (en_sid v) SBusy, mkS true (Some t), Found e (en_sid v))
        end
      else (mkE (en_sid v) SInvalid, mkS false None, Leaving (Some (en_sid v)))
  | SBusy => (v, mkS (se_run w) None, Leaving None)
  | SInvalid => (v, mkS (se_run w) None, Looking)
  end.

(** Lines 2055-2087: one session of the round.  The order of the round (C15) does not matter here. *)
Definition look_at (x : st) (t : tid) (i : nat) (r : rlock) (o : look) : out :=
  match nth_error (ents x) i with
  | None => Not
  | Some e =>
      match heap x e with
      | None => Wild BEnt
      | Some v =>
          match sess x (en_sid v) with
          | None => Wild BSes
          | Some w =>
              match r, se_rpc w with
              | LkError, _ => Go (set_pc x t (Leaving None))
              | LkBusy, _ => Go x
              | LkTry, Some _ => Go x
              | LkTry, None =>
                  let '(v', w', p) := poll_sess t e v w o in
                  Go (set_pc (set_ses (set_ent x e (Some v')) (en_sid v) (Some w')) t p)
              end
          end
      end
  end.

Definition step (x : st) (v : ev) : out :=
  match v with
  | ENew => Go (mkSt (ents x) (heap x) (upd (sess x) (known x) (Some (mkS true None))) (lock x) (fresh x) (S (known x)) (pcs x) (log x))
  | EStop s => match sess x s with None => Wild BSes | Some w => Go (set_ses x s (Some (mkS false (se_rpc w)))) end
  | EAdd t s => (* 1225-1258 *)
      at_idle x t (when_free x
        (Go (add_log (mkSt (ents x ++ [fresh x]) (upd (heap x) (fresh x) (Some (mkE s SNone))) (sess x) (lock x) (S (fresh x)) (known x) (pcs x) (log x)) (NAdd s))))
  | EPoll t => (* 2029-2037 *)
      at_idle x t (when_free x (match ents x with [] => Go x | _ => Go (set_pc (set_lock x (Some t)) t Looking) end))
  | ELook t i r o => match pcs x t with Looking => look_at x t i r o | _ => Not end
  | EGiveUp t => match pcs x t with Looking => Go (set_pc x t (Leaving None)) | _ => Not end
  | EUnlock t =>
      match pcs x t with
      | Leaving None => Go (set_pc (set_lock x None) t Idle)
      | Leaving (Some s) => Go (add_log (set_pc (set_lock x None) t Idle) (NTerm t s))
      | Found e s => Go (set_pc (set_lock x None) t (Serving e s))
      | _ => Not
      end
  | EWork t stop =>
      match pcs x t with
      | Serving e s => match sess x s with
                       | None => Wild BSes
                       | Some w => Go (set_ses x s (Some (mkS (se_run w && negb stop) (se_rpc w))))
                       end
      | _ => Not
      end
  | EState t =>
      match pcs x t with
      | Serving e s => match sess x s, heap x e with
                       | None, _ => Wild BSes
                       | _, None => Wild BEnt
                       | Some w, Some v =>
                           Go (set_pc (set_ent x e (Some (mkE (en_sid v) (if se_run w then SNone else SInvalid)))) t (Freeing s (negb (se_run w))))
                       end
      | _ => Not
      end
  | ERpcUnlock t =>
      match pcs x t with
      | Freeing s term => match sess x s with
                          | None => Wild BSes
                          | Some w => Go (add_log (set_pc (set_ses x s (Some (mkS (se_run w) None))) t Idle) (if term then NTerm t s else NServed t s))
                          end
      | _ => Not
      end
  | EDel t s => (* 1288-1308 *)
      at_idle x t (when_free x
        (match find (heap x) (ents x) s 0 with
         | None => Wild BEnt
         | Some None => Go x
         | Some (Some i) => match nth_error (ents x) i with
                            | None => Not
                            | Some e => Go (add_log (set_ents (set_ent x e None) (remove_at (ents x) i)) (NDel t s))
                            end
         end))
  | EFree t s => (* session.c 877: the RPC lock is got *)
      at_idle x t (match sess x s with
                   | None => Wild BSes
                   | Some w => match se_rpc w with None => Go (add_log (set_ses x s None) (NFree s)) | Some _ => Not end
                   end)
  | EFreeLate t s =>
      at_idle x t (match sess x s with
                   | None => Wild BSes
                   | Some w => match se_rpc w with None => Not | Some _ => Go (add_log (set_ses x s None) (NFree s)) end
                   end)
  | EClear t => at_idle x t (when_free x (Go (set_pc (set_lock x (Some t)) t Clearing)))
  | EClearOne t i => (* 2178-2183 *)
      match pcs x t with
      | Clearing =>
          match nth_error (ents x) i with
          | None => Not
          | Some e => match heap x e with
                      | None => Wild BEnt
                      | Some v => match sess x (en_sid v) with
                                  | None => Wild BSes
                                  | Some w => if se_run w then Not
                                              else Go (set_pc (set_ents (set_ent x e None) (remove_at (ents x) i)) t (ClearWait (en_sid v)))
                                  end
                      end
          end
      | _ => Not
      end
  | EClearFree t late =>
      match pcs x t with
      | ClearWait s => match sess x s with
                       | None => Wild BSes
                       | Some w => match se_rpc w, late with
                                   | None, false | Some _, true => Go (add_log (set_pc (set_ses x s None) t Clearing) (NFree s))
                                   | _, _ => Not
                                   end
                       end
      | _ => Not
      end
  | EClearEnd t => match pcs x t with Clearing => Go (set_pc (set_lock x None) t Idle) | _ => Not end
  end.

Fixpoint run (x : st) (l : list ev) : out :=
  match l with
  | [] => Go x
  | v :: l' => match step x v with Go y => run y l' | o => o end
  end.
