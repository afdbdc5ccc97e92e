(** Model of the collection of sessions in a pollsession structure, src/session_server.c 1188-1380 and 2154-2195.
    Every function below is one critical section of the pollsession lock ([PsQueue.v]); [lk = false] is a failed
    nc_ps_lock().  nc_ps_unlock() by the owner succeeds (see [c13_results_partial]).  Sessions are identified by their
    addresses; nc_session_free() is not modelled here. *)
From Coq Require Import NArith ZArith Bool Lia List.
Import ListNotations.
Local Open Scope N_scope.

Definition sid := N.

(** session_p.h 783-787: NC_PS_STATE_*. *)
Inductive pstate := PsNone | PsBusy | PsInvalid.

(** What a pointer in the array may be: an entry (struct nc_ps_session), NULL, or uninitialised/freed. *)
Inductive slot := SEnt (s : sid) (st : pstate) | SNull | SGarbage.

(** session_p.h 794-806, without the lock.  [p_arr = None]: sessions is NULL. *)
Record ps := mkPs { p_arr : option (list slot); p_count : N; p_last : N }.

(** Lines 1188-1199 [nc_ps_new]. *)
Definition ps_new : ps := mkPs None 0 0.

(** Outcome of a call: a value or undefined behaviour. *)
Inductive res (A : Type) := Val (a : A) | UB.
Arguments Val {A} a.
Arguments UB {A}.

Definition slot_at (a : option (list slot)) (i : N) : option slot :=
  match a with None => None | Some l => nth_error l (N.to_nat i) end.

Fixpoint set_nth (l : list slot) (i : nat) (v : slot) : list slot :=
  match l, i with
  | [], _ => []
  | _ :: r, O => v :: r
  | x :: r, S i' => x :: set_nth r i' v
  end.
Definition set_at (a : option (list slot)) (i : N) (v : slot) : option (list slot) :=
  match a with None => None | Some l => Some (set_nth l (N.to_nat i) v) end.

(** realloc() to [n] pointers (n > 0): a prefix is kept, the rest is uninitialised. *)
Definition resize (a : option (list slot)) (n : nat) : list slot :=
  let l := match a with None => [] | Some l => l end in
  firstn n l ++ repeat SGarbage (n - length l).

(** Which of the allocations fails. *)
Inductive alloc := AOk | AReallocFail | ACallocFail.

(** Lines 1225-1258 [nc_ps_add_session].  session_count is uint16_t.  nc_realloc() (io.c 1084-1095) frees the
    array when it fails; with size 0 realloc() already freed it, so it is freed twice. *)
Definition ps_add (lk : bool) (p : ps) (s : sid) (al : alloc) : res (ps * Z) :=
  if negb lk then Val (p, (-1)%Z)
  else
    let count := (p_count p + 1) mod 65536 in
    if count =? 0 then UB
    else match al with
         | AReallocFail => Val (mkPs None count (p_last p), (-1)%Z)
         | ACallocFail =>
             Val (mkPs (set_at (Some (resize (p_arr p) (N.to_nat count))) (count - 1) SNull) (count - 1) (p_last p), (-1)%Z)
         | AOk =>
             Val (mkPs (set_at (Some (resize (p_arr p) (N.to_nat count))) (count - 1) (SEnt s PsNone)) count (p_last p), 0%Z)
         end.

(** Lines 1271-1282: removal of the entry at [i]. *)
Definition del_at (p : ps) (i : N) : res ps :=
  let count := (p_count p + 65535) mod 65536 in
  let arr :=
    if i <=? count then
      match slot_at (p_arr p) i, slot_at (p_arr p) count with
      | Some SGarbage, _ | None, _ | _, None => UB
      | Some _, Some v => Val (set_at (p_arr p) i (if i =? count then SGarbage else v))
      end
    else Val (p_arr p) in
  match arr with
  | UB => UB
  | Val a => Val (mkPs (if count =? 0 then None else a) count 0)
  end.

(** Lines 1269-1270: the loop, [n] positions left from [i]. *)
Fixpoint del_find (p : ps) (s : sid) (i : N) (n : nat) : res (option N) :=
  match n with
  | O => Val None
  | S n' => match slot_at (p_arr p) i with
            | Some (SEnt s' _) => if s' =? s then Val (Some i) else del_find p s (i + 1) n'
            | _ => UB
            end
  end.

(** Lines 1260-1287 [_nc_ps_del_session] without an index, 1289-1308 [nc_ps_del_session]. *)
Definition ps_del (lk : bool) (p : ps) (s : sid) : res (ps * Z) :=
  if negb lk then Val (p, (-1)%Z)
  else match del_find p s 0 (N.to_nat (p_count p)) with
       | UB => UB
       | Val None => Val (p, (-1)%Z)
       | Val (Some i) => match del_at p i with UB => UB | Val p' => Val (p', 0%Z) end
       end.

(** Lines 1310-1331 [nc_ps_get_session]. *)
Definition ps_get (lk : bool) (p : ps) (idx : N) : res (option sid) :=
  if negb lk then Val None
  else if idx <? p_count p then
         match slot_at (p_arr p) idx with Some (SEnt s _) => Val (Some s) | _ => UB end
       else Val None.

(** Lines 1333-1358 [nc_ps_find_session]. *)
Fixpoint find_loop (p : ps) (f : sid -> bool) (i : N) (n : nat) : res (option sid) :=
  match n with
  | O => Val None
  | S n' => match slot_at (p_arr p) i with
            | Some (SEnt s _) => if f s then Val (Some s) else find_loop p f (i + 1) n'
            | _ => UB
            end
  end.
Definition ps_find (lk : bool) (p : ps) (f : sid -> bool) : res (option sid) :=
  if negb lk then Val None else find_loop p f 0 (N.to_nat (p_count p)).

(** Lines 1360-1379 [nc_ps_session_count]. *)
Definition ps_count (lk : bool) (p : ps) : N := if negb lk then 0 else p_count p.

(** Lines 2172-2175: the entries are freed. *)
Fixpoint clear_all (p : ps) (i : N) (n : nat) : res unit :=
  match n with
  | O => Val tt
  | S n' => match slot_at (p_arr p) i with Some (SEnt _ _) => clear_all p (i + 1) n' | _ => UB end
  end.

(** Lines 2181-2190; [run s]: session [s] is running.  The fuel is the count: each turn removes a session or moves on. *)
Fixpoint clear_dead (p : ps) (run : sid -> bool) (i : N) (n : nat) : res ps :=
  if negb (i <? p_count p) then Val p
  else match n with
       | O => UB
       | S n' => match slot_at (p_arr p) i with
                 | Some (SEnt s _) =>
                     if run s then clear_dead p run (i + 1) n'
                     else match del_at p i with UB => UB | Val p' => clear_dead p' run i n' end
                 | _ => UB
                 end
       end.

(** Lines 2154-2195 [nc_ps_clear]. *)
Definition ps_clear (lk : bool) (p : ps) (all : bool) (run : sid -> bool) : res ps :=
  if negb lk then Val p
  else if all then match clear_all p 0 (N.to_nat (p_count p)) with UB => UB | Val _ => Val (mkPs None 0 0) end
  else clear_dead p run 0 (N.to_nat (p_count p)).

(** Calls and histories. *)
Inductive call := CAdd (s : sid) (al : alloc) | CDel (s : sid) | CClear (all : bool) (run : sid -> bool).

(** One call: the structure after it, and whether it returned 0 (a call of nc_ps_clear() always counts as such
    unless the lock failed). *)
Definition call_step (p : ps) (c : call) (lk : bool) : res (ps * bool) :=
  match c with
  | CAdd s al => match ps_add lk p s al with UB => UB | Val (p', r) => Val (p', (r =? 0)%Z) end
  | CDel s => match ps_del lk p s with UB => UB | Val (p', r) => Val (p', (r =? 0)%Z) end
  | CClear all run => match ps_clear lk p all run with UB => UB | Val p' => Val (p', lk) end
  end.

(** Histories: calls with the success of the lock and the result, oldest first, and the structure reached. *)
Inductive history : list (call * bool) -> ps -> Prop :=
| h_new : history [] ps_new
| h_step h p c lk p' ok : history h p -> call_step p c lk = Val (p', ok) -> history (h ++ [(c, ok)]) p'.
