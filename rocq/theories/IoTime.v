(** How long a message is waited for: io.c 57-170 [nc_read] with its time limits, as called by nc_read_until(), nc_read_chunk() and
    nc_read_msg_io() (173-387).  What is read is IoRead's concern; here a message is a list of calls of nc_read() with the numbers of bytes they
    want and the times when they begin. *)
From Coq Require Import ZArith Bool Arith List.
From Verif Require Import Time.
Import ListNotations.
Local Open Scope Z_scope.

(** An attempt to read (lines 79-140): bytes, none (with or without an interrupt), or an error of the transport. *)
Inductive ans := Bytes (n : nat) | Nothing | Fails.
(** What happened, with the time that was read then: a call begins (76), bytes came (163), none came (148). *)
Inductive note := Begins (t : tspec) | Got (t : tspec) | Quiet (t : tspec).
Inductive ended := All | Late | Broken | Pending | Overflow.

(** CMakeLists.txt 97-98: READ_INACTIVE_TIMEOUT, READ_ACTIVE_TIMEOUT in seconds (the defaults); io.c 277 and 289: in milliseconds. *)
Definition INACT : Z := 20 * 1000.
Definition ACT : Z := 300 * 1000.

(** Lines 77-166; read() gives at least one byte and no more than it is asked for.  The status checked on entry (68-70) is not modelled, and
    the time is read once per attempt instead of up to three times (148-149).  [left] bytes are missing, [act] and [inact] are the limits.  With the result the attempts that are left. *)
Fixpoint nc_read (act inact : tspec) (left : nat) (l : list (ans * tspec)) : ended * list note * list (ans * tspec) :=
  match l with
  | [] => (Pending, [], [])
  | (Fails, _) :: l' => (Broken, [], l')
  | (Nothing, t) :: l' =>
      match cur_diff inact t, cur_diff act t with
      | Some x, Some y =>
          if (x <? 1) || (y <? 1) then (Late, [Quiet t], l')
          else let '(r, n, l'') := nc_read act inact left l' in (r, Quiet t :: n, l'')
      | _, _ => (Overflow, [Quiet t], l')
      end
  | (Bytes k, t) :: l' =>
      let k := Nat.min (S (Nat.pred k)) left in
      if (left - k =? 0)%nat then (All, [Got t], l')
      else let '(r, n, l'') := nc_read act (time_get t INACT) (left - k) l' in (r, Got t :: n, l'')
  end.

(** The calls for one message, all with the same [act] (line 289): a call for no bytes returns at once (72-74). *)
Fixpoint read_msg (act : tspec) (calls : list (nat * tspec)) (l : list (ans * tspec)) : ended * list note :=
  match calls with
  | [] => (All, [])
  | (O, _) :: calls' => read_msg act calls' l
  | (c, t) :: calls' =>
      match nc_read act (time_get t INACT) c l with
      | (All, n, l') => let '(r, n') := read_msg act calls' l' in (r, Begins t :: n ++ n')
      | (r, n, _) => (r, Begins t :: n)
      end
  end.
(** Lines 270-387 [nc_read_msg_io] at the time [now] (289); the lock is waited for after that (291-298), so the wait counts. *)
Definition read_msg_io (now : tspec) (calls : list (nat * tspec)) (l : list (ans * tspec)) : ended * list note := read_msg (time_get now ACT) calls l.
