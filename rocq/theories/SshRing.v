(** The ring of NETCONF sessions sharing one SSH connection: session_server_ssh.c [nc_server_ssh_channel_subsystem]
    (and, for the client, session_client_ssh.c [nc_connect_ssh_channel]) and session.c [nc_session_free_transport]. *)
From Coq Require Import NArith Bool Lia List.
Import ListNotations.
Local Open Scope N_scope.

(** session_p.h [NC_STATUS], the part that matters. *)
Inductive rstatus := RStarting | RRunning | RInvalid | RClosing.
Definition starting (s : rstatus) : bool := match s with RStarting => true | _ => false end.

(** [struct nc_session]: the members [status] and [ti.libssh.next]; [None] is NULL. *)
Record node := mkNode { n_next : option N; n_status : rstatus }.

(** The memory: which sessions of this connection are allocated, and what is in them. *)
Definition heap := N -> option node.
Definition upd (h : heap) (a : N) (v : option node) : heap := fun b => if b =? a then v else h b.
Definition set_next (h : heap) (a : N) (n : option N) : option heap :=
  match h a with None => None | Some x => Some (upd h a (Some (mkNode n (n_status x)))) end.

(** session_server_ssh.c 1405-1419: session [s] gets a request on a further channel and makes session [a], for
    which the allocator gives any unused address.  session_client_ssh.c 1889-1897 does the same for a client.
    [None]: an access to a session that is not allocated. *)
Definition subsystem (h : heap) (s a : N) : option heap :=
  match h s with
  | None => None
  | Some x => set_next (upd h a (Some (mkNode (match n_next x with None => Some s | Some n => Some n end) RStarting))) s (Some a)
  end.

(** session.c 765-770: is any other session in the ring not starting? *)
Fixpoint scan (fuel : nat) (h : heap) (s i : N) : option bool :=
  match fuel with
  | O => None
  | S f => if i =? s then Some false
           else match h i with
                | None => None
                | Some x => if starting (n_status x)
                            then match n_next x with None => None | Some j => scan f h s j end
                            else Some true
                end
  end.

(** session.c 776-788: free the starting sessions. *)
Fixpoint drop (fuel : nat) (h : heap) (s : N) : option heap :=
  match fuel with
  | O => None
  | S f =>
      match h s with
      | Some x =>
          match n_next x with
          | None => None
          | Some i =>
              match h i with
              | None => None
              | Some y =>
                  match set_next h s (n_next y) with
                  | None => None
                  | Some h1 =>
                      let h2 := upd h1 i None in
                      match n_next y with
                      | Some j => if j =? s then Some h2 else drop f h2 s
                      | None => drop f h2 s            (* NULL != session *)
                      end
                  end
              end
          end
      | None => None
      end
  end.

(** session.c 799: the session before [s], starting at [i]. *)
Fixpoint find_prev (fuel : nat) (h : heap) (s i : N) : option N :=
  match fuel with
  | O => None
  | S f => match h i with
           | None => None
           | Some x => match n_next x with
                       | None => None
                       | Some j => if j =? s then Some i else find_prev f h s j
                       end
           end
  end.

(** session.c 762-812 and 1021 [nc_session_free_transport] (SSH) and the final free of the session itself.
    The flag tells whether the connection (SSH session, socket and its lock) was released.  [fuel] bounds the
    loops; running out of it is undefined here.  Runs under the IO lock of the connection; that the lock is not
    waited for longer than NC_SESSION_FREE_LOCK_TIMEOUT is not modelled. *)
Definition free_session (fuel : nat) (h : heap) (s : N) : option (heap * bool) :=
  match h s with
  | None => None
  | Some x =>
      match n_next x with
      | None => Some (upd h s None, true)
      | Some n =>
          match scan fuel h s n with
          | None => None
          | Some false =>
              match drop fuel h s with
              | None => None
              | Some h1 => Some (upd h1 s None, true)
              end
          | Some true =>
              match find_prev fuel h s n with
              | None => None
              | Some p =>
                  match set_next h p (if n =? p then None else Some n) with
                  | None => None
                  | Some h1 => Some (upd h1 s None, false)
                  end
              end
          end
      end
  end.

(** What can happen to the sessions of a connection. *)
Inductive op :=
| Open (s a : N)                (* a further channel is opened, [s] handles the message *)
| Mark (s : N) (st : rstatus)   (* accepted, found broken, being closed *)
| Free (s : N).

Record rst := mkR { r_heap : heap; r_released : N; r_made : nat }.   (* [r_made]: sessions made, only bounds the loops *)

Definition step (st : rst) (o : op) : option rst :=
  match o with
  | Open s a => match subsystem (r_heap st) s a with
                | None => None
                | Some h => Some (mkR h (r_released st) (S (r_made st)))
                end
  | Mark s t => match r_heap st s with
                | None => None
                | Some x => Some (mkR (upd (r_heap st) s (Some (mkNode (n_next x) t))) (r_released st) (r_made st))
                end
  | Free s => match free_session (S (r_made st)) (r_heap st) s with
              | None => None
              | Some (h, rel) => Some (mkR h (r_released st + if rel then 1 else 0) (r_made st))
              end
  end.

Fixpoint steps (st : rst) (os : list op) : option rst :=
  match os with [] => Some st | o :: t => match step st o with None => None | Some st' => steps st' t end end.

(** session_server_ssh.c 1934-2012 [nc_accept_ssh_session]: the first session of a connection. *)
Definition first (s : N) : rst := mkR (upd (fun _ => None) s (Some (mkNode None RStarting))) 0 1.
