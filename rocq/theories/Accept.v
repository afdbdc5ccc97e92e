(** Accepting a connection on one of the listening sockets (session_server.c 526-663 [nc_sock_accept_binds], called by [nc_accept], 2491-2525).

    Simplifications: memory suffices; the system calls on the accepted socket (fcntl, getpeername) succeed; poll() itself does not fail.  The lock of the bindings is
    held from the first look at them until accept() has returned, so that calls of several threads happen one after the other; a call is one step. *)
From Coq Require Import Bool List Arith.
Import ListNotations.

(** session_p.h [struct nc_bind], the socket (none: -1) and the remembered event. *)
Record bnd := mkK { k_sock : option nat; k_pollin : bool }.

(** 543-562: the first binding with a remembered event, which is forgotten: index, socket and the bindings after. *)
Fixpoint leftover (l : list bnd) (i : nat) : option (nat * nat * list bnd) :=
  match l with
  | [] => None
  | b :: l' =>
      match k_sock b with
      | None => option_map (fun '(j, fd, m) => (j, fd, b :: m)) (leftover l' (S i))
      | Some fd => if k_pollin b then Some (i, fd, mkK (Some fd) false :: l')
                   else option_map (fun '(j, f, m) => (j, f, b :: m)) (leftover l' (S i))
      end
  end.

(** 543-562: the sockets for poll() (when the loop is not left). *)
Fixpoint pollfds (l : list bnd) : list nat :=
  match l with
  | [] => []
  | b :: l' => match k_sock b with Some fd => fd :: pollfds l' | None => pollfds l' end
  end.

(** What poll() reports of a socket: POLLIN and any other event. *)
Definition events := nat -> bool * bool.

(** The return value of poll(): the number of sockets with any event. *)
Definition nready (ev : events) (pfd : list nat) : nat := length (filter (fun fd => fst (ev fd) || snd (ev fd)) pfd).

(** 576-594: the loop over the polled sockets; the bindings are searched for the next of them.  The search does not stop at the end of the bindings:
    [None]. *)
Fixpoint pick (l : list bnd) (i : nat) (pfd : list nat) (ev : events) (ret : nat) : option (list bnd * option (nat * nat)) :=
  match pfd with
  | [] => Some (l, None)
  | fd :: pfd' =>
      match l with
      | [] => None
      | b :: l' =>
          if match k_sock b with Some f => Nat.eqb f fd | None => false end then
            if fst (ev fd) then
              if Nat.eqb (ret - 1) 0 then Some (b :: l', Some (i, fd))
              else option_map (fun '(m, r) => (mkK (k_sock b) true :: m, r)) (pick l' (S i) pfd' ev (ret - 1))
            else option_map (fun '(m, r) => (b :: m, r)) (pick l' (S i) pfd' ev ret)
          else option_map (fun '(m, r) => (b :: m, r)) (pick l' (S i) pfd ev ret)
      end
  end.

(** The bindings, the connections waiting at each socket and the sockets poll() reports an error of (closed ones: POLLNVAL). *)
Record world := mkW { w_binds : list bnd; w_queue : nat -> list nat; w_broken : nat -> bool }.

Inductive outcome :=
| Accepted (i fd client : nat)   (* the index returned, the listening socket, the connection *)
| TimedOut                       (* 0 *)
| Failed                         (* -1 *)
| Blocks (fd : nat)              (* in accept(), the listening sockets being blocking ones, with the locks held *)
| OutOfBounds.

Definition setq (q : nat -> list nat) (fd : nat) (l : list nat) : nat -> list nat := fun f => if Nat.eqb f fd then l else q f.

(** 605-610: accept() *)
Definition accept (w : world) (binds : list bnd) (i fd : nat) : world * outcome :=
  if w_broken w fd then (mkW binds (w_queue w) (w_broken w), Failed)
  else match w_queue w fd with
       | [] => (mkW binds (w_queue w) (w_broken w), Blocks fd)
       | c :: q => (mkW binds (setq (w_queue w) fd q) (w_broken w), Accepted i fd c)
       end.

(** What poll() would report now. *)
Definition now (w : world) : events := fun fd => if w_broken w fd then (false, true) else (negb (Nat.eqb (length (w_queue w fd)) 0), false).

(** 526-663.  When nothing is ready, poll() returns 0 after the timeout (with an infinite one it returns later: the arrivals come before the call). *)
Definition call (w : world) : world * outcome :=
  match leftover (w_binds w) 0 with
  | Some (i, fd, binds) => accept w binds i fd
  | None =>
      let pfd := pollfds (w_binds w) in
      let ret := nready (now w) pfd in
      if Nat.eqb ret 0 then (w, TimedOut)
      else match pick (w_binds w) 0 pfd (now w) ret with
           | None => (w, OutOfBounds)
           | Some (binds, None) => (mkW binds (w_queue w) (w_broken w), Failed)
           | Some (binds, Some (i, fd)) => accept w binds i fd
           end
  end.

Inductive event :=
| Call
| Arrive (fd c : nat)       (* a connection arrives *)
| Vanish (fd : nat)         (* a waiting connection is dropped by the system *)
| Rebind (i fd : nat)       (* session_server.c 2226-2233: the socket of a binding is replaced by a new one; the remembered event stays *)
| Break (fd : nat).         (* the socket is closed, the number stays: server_config.c 632-640 by way of 1215-1230 *)

Fixpoint rebind (l : list bnd) (i fd : nat) : list bnd :=
  match l, i with
  | [], _ => []
  | b :: l', O => mkK (Some fd) (k_pollin b) :: l'
  | b :: l', S i' => b :: rebind l' i' fd
  end.

Definition estep (w : world) (e : event) : world * option outcome :=
  match e with
  | Call => let '(w', o) := call w in (w', Some o)
  | Arrive fd c => (mkW (w_binds w) (setq (w_queue w) fd (w_queue w fd ++ [c])) (w_broken w), None)
  | Vanish fd => (mkW (w_binds w) (setq (w_queue w) fd (tl (w_queue w fd))) (w_broken w), None)
  | Rebind i fd => (mkW (rebind (w_binds w) i fd) (setq (w_queue w) fd []) (w_broken w), None)
  | Break fd => (mkW (w_binds w) (setq (w_queue w) fd []) (fun f => Nat.eqb f fd || w_broken w f), None)
  end.

(** The outcomes of the calls, in order. *)
Fixpoint trace (w : world) (es : list event) : list outcome :=
  match es with
  | [] => []
  | e :: es' => let '(w', o) := estep w e in match o with Some x => x :: trace w' es' | None => trace w' es' end
  end.
