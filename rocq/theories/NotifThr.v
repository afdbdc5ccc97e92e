(** Notification threads of a client session: session_client.c 1967-1977, 2480-2573, and the beginning of nc_session_free(),
    session.c 855-874.  All threads of the program interleave; one event is one access to the shared fields of the
    session (the atomic operations are relaxed, but all are on the two fields, and are taken to be sequentially consistent here). *)
From Coq Require Import List Arith Bool Lia.
Import ListNotations.

(** What nc_recv_notif() gives a thread (session_client.c 2502-2516): a notification, with a number and whether it is
    notificationComplete of nc-notifications; nothing (timeout, or an error while the session is running); an error on a
    session that is not running. *)
Inductive recvd := RNotif (n : nat) (complete : bool) | RNothing | RBroken.

(** Where a thread is: about to read the flag (2500), in nc_recv_notif() (2501), about to call the callback (2503), to decrease the
    count (2521), to free the user data (2522-2524), ended. *)
Inductive tpos := TCheck | TRecv | TCall (n : nat) (complete : bool) | TEnd | TData | TGone.
Record thread := mkT { t_pos : tpos; t_free : bool }.       (* [t_free]: there is a free_data callback *)

(** Where a call of nc_recv_notif_dispatch_data() is: about to increase the count (2557), to set the flag (2560), to create
    the thread (2562), to decrease the count (2566), to clear the flag (2567), returned. *)
Inductive dpos := DInc | DSet | DCreate | DDec | DClear | DDone.
Record disp := mkD { d_pos : dpos; d_free : bool }.

(** Where nc_session_free() is: not called, about to read the flag (session.c 861), to clear it (863), in the loop (867), and the
    session is freed (all the rest is one step). *)
Inductive fpos := FNone | FLoad | FStore | FWait | FFreed.

(** [bad]: the session was used after it was freed. *)
Record st := mkS { flag : bool; count : nat; threads : list thread; disps : list disp; fpt : fpos; bad : bool }.
Definition init : st := mkS false 0 [] [] FNone false.

(** The calls of the user's callbacks: a notification to the thread [t], the user data of the thread [t] freed. *)
Inductive act := AClb (t n : nat) (complete : bool) | AFree (t : nat).

(** Events: a call of nc_recv_notif_dispatch_data() begins; a step of the call [i], where pthread_create() succeeds or not;
    a step of the thread [t], where nc_recv_notif() gives [r]; nc_session_free() is called; a step of it, where the time
    of waiting is over or not. *)
Inductive event := EDisp (fr : bool) | EDStep (i : nat) (created : bool) | ETStep (t : nat) (r : recvd) | EFree | EFStep (timeout : bool).

Definition set_nth {A} (l : list A) (i : nat) (x : A) : list A := firstn i l ++ x :: skipn (S i) l.
Definition gone (s : st) : bool := match fpt s with FFreed => true | _ => false end.
Definition set_bad (s : st) : st := mkS (flag s) (count s) (threads s) (disps s) (fpt s) true.
Definition put_d (s : st) (i : nat) (d : disp) (f : bool) (c : nat) (ts : list thread) : st :=
  mkS f c ts (set_nth (disps s) i d) (fpt s) (bad s).
Definition put_t (s : st) (t : nat) (x : thread) (c : nat) : st :=
  mkS (flag s) c (set_nth (threads s) t x) (disps s) (fpt s) (bad s).

(** 2536-2573: a step of a call; what it does is on the session. *)
Definition d_step (s : st) (i : nat) (created : bool) : st :=
  match nth_error (disps s) i with
  | None => s
  | Some (mkD p fr) =>
      match p with
      | DInc => put_d s i (mkD DSet fr) (flag s) (S (count s)) (threads s)
      | DSet => put_d s i (mkD DCreate fr) true (count s) (threads s)
      | DCreate =>
          if created then put_d s i (mkD DDone fr) (flag s) (count s) (threads s ++ [mkT TCheck fr])
          else put_d s i (mkD DDec fr) (flag s) (count s) (threads s)
      | DDec =>
          if Nat.eqb (count s) 1 then put_d s i (mkD DClear fr) (flag s) (count s - 1) (threads s)
          else put_d s i (mkD DDone fr) (flag s) (count s - 1) (threads s)
      | DClear => put_d s i (mkD DDone fr) false (count s) (threads s)
      | DDone => s
      end
  end.
Definition d_active (d : disp) : bool := match d_pos d with DDone => false | _ => true end.
(** 2480-2527: a step of a thread, with the callbacks called. *)
Definition t_step (s : st) (t : nat) (r : recvd) : st * list act :=
  match nth_error (threads s) t with
  | None => (s, [])
  | Some (mkT p fr) =>
      match p with
      | TCheck => (put_t s t (mkT (if flag s then TRecv else TEnd) fr) (count s), [])
      | TRecv =>
          (put_t s t (mkT (match r with RNotif n c => TCall n c | RNothing => TCheck | RBroken => TEnd end) fr) (count s), [])
      | TCall n c => (put_t s t (mkT (if c then TEnd else TCheck) fr) (count s), [AClb t n c])
      | TEnd => (put_t s t (mkT TData fr) (count s - 1), [])
      | TData => (put_t s t (mkT TGone fr) (count s), if fr then [AFree t] else [])
      | TGone => (s, [])
      end
  end.
(** The thread has still to use the session. *)
Definition t_live (x : thread) : bool := match t_pos x with TData | TGone => false | _ => true end.
(** session.c 855-874. *)
Definition f_step (s : st) (timeout : bool) : st :=
  let go p f := mkS f (count s) (threads s) (disps s) p (bad s) in
  match fpt s with
  | FNone | FFreed => s
  | FLoad => if flag s then go FStore (flag s) else go FFreed (flag s)
  | FStore => go FWait false
  | FWait => if Nat.eqb (count s) 0 then go FFreed (flag s) else if timeout then go FFreed (flag s) else s
  end.
Definition uses (s : st) (e : event) : bool :=
  match e with
  | EDisp _ => true
  | EDStep i _ => match nth_error (disps s) i with Some d => d_active d | None => false end
  | ETStep t _ => match nth_error (threads s) t with Some x => t_live x | None => false end
  | EFree => true
  | EFStep _ => false
  end.
Definition step (s : st) (e : event) : st * list act :=
  if gone s && uses s e then (set_bad s, [])
  else match e with
       | EDisp fr => (mkS (flag s) (count s) (threads s) (disps s ++ [mkD DInc fr]) (fpt s) (bad s), [])
       | EDStep i c => (d_step s i c, [])
       | ETStep t r => t_step s t r
       | EFree => (mkS (flag s) (count s) (threads s) (disps s) (match fpt s with FNone => FLoad | p => p end) (bad s), [])
       | EFStep to => (f_step s to, [])
       end.
Fixpoint run (s : st) (tr : list event) : st * list act :=
  match tr with
  | [] => (s, [])
  | e :: r => let '(s1, a1) := step s e in let '(s2, a2) := run s1 r in (s2, a1 ++ a2)
  end.

(** session_client.c 1967-1977 [nc_session_ntf_thread_running]. *)
Definition thread_running (s : st) : bool := flag s.
