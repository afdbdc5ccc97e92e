(** The blocking locks of the server and its threads: which locks each function takes, in which order, which threads
    are created and waited for, and which shared data are used on the way.

    Not modelled here: the locks that are taken with a time limit (rpc_lock, io_lock; see Prop_RpcLock and others) never
    block for ever; the data themselves; what functions return; cancellation of threads. *)
From Coq Require Import List Bool Arith.
Import ListNotations.

(** The locks: server_opts.config_lock and ch_client_lock (session_p.h 499, 507, 527-528, 573, 604),
    nc_ch_client.lock, nc_ch_client_thread_arg.cond_lock of a client, bind_lock, cert_exp_notif.lock, ch_lock of a session,
    lock of a poll session, ntf_status_lock of a session. A number stands for a client, session or poll session. *)
Inductive lock := Config | Clients | Client (c : nat) | Cond (c : nat) | Bind | Cert | Sess (s : nat) | Poll (p : nat) | Ntf (s : nat).

(** Shared data: the endpoints, binds, keystore and truststore of server_opts; the array of Call Home clients;
    the data of one client; the intervals of the certificate notifications. *)
Inductive loc := VListen | VClients | VClient (c : nat) | VIntv.

(** pthread_rwlock_rdlock; pthread_rwlock_wrlock or pthread_mutex_lock; unlock; pthread_create; pthread_join; a read (false)
    or write (true) of shared data. A thread is a number. *)
Inductive act := Rd (l : lock) | Wr (l : lock) | Rel (l : lock) | Spawn (t : nat) | Join (t : nat) | Use (x : loc) (w : bool).

(** The functions an application calls that take any of these locks. *)
Inductive api :=
  ASetup | AAccept | AConfig | AIsClient | AIsEndpt (c : nat) | ADispatch (c t : nat) | AFree (s : nat) | APs (p : nat) | APsClear (p : nat)
| ANtf (s : nat) | ACertStart (t : nat) | ACertStop (wait : bool) (t : nat) | ADestroy.

(** What the text of a function may do: nothing, one action, sequence, branch, loop, and a choice of a number or function. *)
Inductive prog :=
  Nop | Do (a : act) | Seq (p q : prog) | Alt (p q : prog) | Loop (p : prog) | AnyN (f : nat -> prog) | AnyA (f : api -> prog).

Notation "p ;; q" := (Seq p q) (at level 61, right associativity).

(** The actions on a way through a text. *)
Fixpoint path (p : prog) (l : list act) : Prop :=
  match p with
  | Nop => l = []
  | Do a => l = [a]
  | Seq p q => exists l1 l2, path p l1 /\ path q l2 /\ l = l1 ++ l2
  | Alt p q => path p l \/ path q l
  | Loop p => exists ls, Forall (path p) ls /\ l = concat ls
  | AnyN f => exists n, path (f n) l
  | AnyA f => exists a, path (f a) l
  end.

(** Threads of the application, of a Call Home client, and the one that notifies about certificates. *)
Inductive role := App | Ch (c : nat) | CertT.

(** Where the application is called: its own threads; new_session_cb; acquire_ctx_cb, release_ctx_cb and the SSH and TLS callbacks while
    a Call Home client connects; the SSH and TLS callbacks in nc_accept; the callback of certificate notifications. *)
Inductive kind := Main | NewSess | Ctx | Auth | Clb.

Section Server.
(** the kind of each thread *)
Variable role_of : nat -> role.
(** whether a Call Home session gets established, and so may be known to others than its thread *)
Variable est : nat -> bool.
(** which functions are called where *)
Variable calls : kind -> api -> bool.

(** [p] if [b] *)
Definition only (b : bool) (p : prog) : prog := if b then p else Nop.

(** lock, use, unlock *)
Definition under (l : lock) (p : prog) : prog := Do (Wr l) ;; p ;; Do (Rel l).

(** nc_server_ch_client_lock, session_server.c 70-98; nc_server_config_get_ch_client_with_lock, server_config.c 478-507, is the same:
    [found] is what is done with the client and the lock held, nc_server_ch_client_unlock, session_server.c 101-111, included by the caller.
    If there is no such client the lock is released. *)
Definition ch_client_lock (c : nat) (found : prog) : prog :=
  Do (Rd Clients) ;; Do (Use VClients false) ;; Alt (Do (Rel Clients)) (Do (Wr (Client c)) ;; found).

(** nc_server_ch_client_unlock, session_server.c 101-111; nc_ch_client_unlock, server_config.c 509-516 *)
Definition ch_client_unlock (c : nat) : prog := Do (Rel (Client c)) ;; Do (Rel Clients).

(** nc_connect_ch_client_dispatch, session_server.c 3165-3222: [t] is the new thread *)
Definition dispatch (c t : nat) : prog :=
  ch_client_lock c
    ((match role_of t with
      | Ch d => only (Nat.eqb c d) (Alt Nop (Do (Spawn t)))
      | _ => Nop
      end) ;; Do (Use (VClient c) true) ;; ch_client_unlock c).

(** nc_server_config_destroy_ch_client, server_config.c 912-943: the thread is waited for if it runs. The data of the client are a copy
    or a detached array by now. *)
Definition destroy_ch_client : prog :=
  AnyN (fun t =>
    match role_of t with
    | Ch c => under (Cond c) Nop ;; Alt Nop (Do (Join t))
    | _ => Nop
    end).

(** nc_server_config_ch_del_client, server_config.c 945-976 *)
Definition ch_del_client : prog :=
  Do (Wr Clients) ;; Do (Use VClients false) ;;
  Alt (Do (Rel Clients)) (Do (Use VClients true) ;; Do (Rel Clients) ;; destroy_ch_client).

(** nc_server_config_ch with the operation delete, server_config.c 1013-1047 *)
Definition config_ch : prog :=
  Do (Wr Clients) ;; Do (Use VClients true) ;; Do (Rel Clients) ;; Loop destroy_ch_client.

(** nc_server_config_create_netconf_client, server_config.c 3483-3508 *)
Definition create_client : prog := Do (Wr Clients) ;; Do (Use VClients true) ;; Do (Rel Clients).

(** nc_server_config_del_endpt_references, server_config.c 670-717, and the second part of nc_server_config_check_endpt_references,
    2697-2802: all clients one after another, the latter may end with a failure at any *)
Definition all_clients : prog :=
  Do (Rd Clients) ;; Do (Use VClients false) ;;
  Loop (AnyN (fun c => Do (Wr (Client c)) ;; Do (Use (VClient c) true) ;; Do (Rel (Client c)))) ;;
  Do (Rel Clients).

(** nc_server_config_listen with delete 978-1011 and the handlers of nodes of endpoints, keystore and truststore (1083-3480): *)
Definition listen_nodes : prog := Do (Use VListen true) ;; Alt Nop all_clients.

(** the handlers of nodes of a Call Home client (1051-3844): each locks the client, and unlocks it at its only end *)
Definition ch_nodes : prog :=
  AnyN (fun c => ch_client_lock c (Do (Use (VClient c) true) ;; ch_client_unlock c)).

(** nc_server_config_interval, 4085-4117, and nc_server_config_ln2_netconf_server, 3969-3990 *)
Definition intervals : prog := under Cert (Do (Use VIntv true)).

(** nc_server_config_setup_diff, nc_server_config_setup_data, server_config.c 4368-4500: handlers in any order, as the data say; an error
    may end them at any. *)
Definition setup : prog :=
  Do (Wr Config) ;;
  Loop (Alt listen_nodes (Alt ch_nodes (Alt create_client (Alt (AnyN (fun c => AnyN (dispatch c)))
       (Alt ch_del_client (Alt config_ch (Alt all_clients intervals))))))) ;;
  Alt Nop (under Cert Nop) ;;
  Do (Rel Config).

(** [auth] is done while the transport session is being established: nc_accept, session_server.c 2493-2615, and nc_sock_accept_binds, 541-661 *)
Definition accept (auth : prog) : prog :=
  Do (Rd Config) ;; Do (Use VListen false) ;; under Bind Nop ;;
  Alt Nop (Do (Use VListen false) ;; auth ;; Do (Use VListen false)) ;;
  Do (Rel Config).

(** nc_server_add_endpt_unix_socket_listen, nc_server_del_endpt_unix_socket, session_server.c 2345-2482; the setters of session_server_ssh.c 970-1045 *)
Definition config_set : prog := Do (Wr Config) ;; Do (Use VListen true) ;; Do (Rel Config).

(** nc_server_ch_is_client, session_server.c 2619-2643 *)
Definition is_client : prog := Do (Rd Clients) ;; Do (Use VClients false) ;; Do (Rel Clients).

(** nc_server_ch_client_is_endpt, session_server.c 2646-2681: the lock of the client is not taken *)
Definition is_endpt (c : nat) : prog :=
  Do (Rd Clients) ;; Do (Use VClients false) ;; Alt Nop (Do (Use (VClient c) false)) ;; Do (Rel Clients).

(** nc_session_free of a Call Home session, session.c 955-987: the wait for the Call Home thread has a time limit and gives the lock away
    meanwhile. *)
Definition session_free (s : nat) : prog :=
  under (Sess s) (Loop (Do (Rel (Sess s)) ;; Do (Wr (Sess s)))).

(** nc_ps_lock and nc_ps_unlock, session_server.c 1094-1185, of all functions of poll sessions: the wait for the turn has a time limit. nc_ps_clear frees
    the sessions between the two ([work]), when the mutex is not held. *)
Definition ps_op (p : nat) (work : prog) : prog :=
  under (Poll p) (Loop (Do (Rel (Poll p)) ;; Do (Wr (Poll p)))) ;; work ;; under (Poll p) Nop.
Definition ps_free : prog := Loop (AnyN (fun s => only (est s) (session_free s))).

(** nc_session_inc_notif_status, dec, get, session_server.c 3240-3295 *)
Definition ntf_op (s : nat) : prog := under (Ntf s) Nop.

(** nc_server_notif_cert_expiration_thread_start, session_server.c 3976-4018 *)
Definition cert_start (t : nat) : prog :=
  under Cert (match role_of t with CertT => Alt Nop (Do (Spawn t)) | _ => Nop end).

(** nc_server_notif_cert_expiration_thread_stop, session_server.c 4020-4051 *)
Definition cert_stop (wait : bool) (t : nat) : prog :=
  under Cert Nop ;; match role_of t with CertT => only wait (Alt Nop (Do (Join t))) | _ => Nop end.

(** nc_server_destroy, session_server.c 870-930: no lock of the configuration is taken *)
Definition destroy : prog :=
  AnyN (cert_stop true) ;; intervals ;; Do (Use VListen true) ;; Alt Nop all_clients ;; config_ch ;; Do (Use VListen true).

(** One call of a function; [auth] as above. *)
Definition api_prog (auth : prog) (a : api) : prog :=
  match a with
  | ASetup => setup
  | AAccept => accept auth
  | AConfig => config_set
  | AIsClient => is_client
  | AIsEndpt c => is_endpt c
  | ADispatch c t => dispatch c t
  | AFree s => only (est s) (session_free s)
  | APs p => ps_op p Nop
  | APsClear p => ps_op p ps_free
  | ANtf s => ntf_op s
  | ACertStart t => cert_start t
  | ACertStop w t => cert_stop w t
  | ADestroy => destroy
  end.

(** A callback of the application: any calls it makes. Callbacks called by these functions in turn call nothing. *)
Definition callback (k : kind) : prog := Loop (AnyA (fun a => only (calls k a) (api_prog Nop a))).

(** A thread of the application. *)
Definition app_thread : prog := Loop (AnyA (fun a => only (calls Main a) (api_prog (callback Auth) a))).

(** nc_server_ch_client_thread_is_running, session_server.c 2935-2949, and the end of the thread, 3156-3158 *)
Definition is_running (c : nat) : prog := under (Cond c) Nop.

(** nc_server_ch_client_thread_is_running_wait, 2890-2923 *)
Definition is_running_wait (c : nat) : prog := under (Cond c) (Loop (Do (Rel (Cond c)) ;; Do (Wr (Cond c)))).

(** nc_connect_ch_endpt, 2696-2789: the lock of the client is held. The configuration of listening endpoints, the keystore and the truststore are
    used (session_server_ssh.c 131, 171, 1470, session_server_tls.c 43, 80, 499, 567, 835). If a session is made and fails it is freed. *)
Definition connect_endpt (c : nat) : prog :=
  Do (Use (VClient c) false) ;;
  Alt Nop (callback Ctx ;; Do (Use VListen false) ;; callback Ctx ;;
           Alt Nop (AnyN (fun s => only (negb (est s)) (session_free s)) ;; callback Ctx)).

(** nc_server_ch_client_thread_session_cond_wait, 2798-2880, for session [s] *)
Definition session_cond_wait (c s : nat) : prog :=
  Do (Wr (Sess s)) ;; callback NewSess ;;
  Alt (Do (Rel (Sess s)) ;; session_free s)
      (Loop (Do (Rel (Sess s)) ;; Do (Wr (Sess s)) ;;
             ch_client_lock c (Do (Use (VClient c) false) ;; ch_client_unlock c)) ;;
       Do (Rel (Sess s))).

(** nc_server_ch_client_with_endpt_lock, 2957-2980, up to its last try, which ends with the client locked or not; see [ch_thread] *)
Definition endpt_tries (c : nat) : prog :=
  Loop (ch_client_lock c (Do (Use (VClient c) false) ;; ch_client_unlock c)).

(** One round of the loop of nc_ch_client_thread, 3009-3146, from the end of the check in its head: the client is locked before and after;
    [last] is a round that ends the thread with nothing locked. *)
Definition lock_found (c : nat) : prog :=
  endpt_tries c ;; Do (Rd Clients) ;; Do (Use VClients false) ;; Do (Wr (Client c)) ;; Do (Use (VClient c) false).
Definition after_connect (c : nat) : prog :=
  connect_endpt c ;; ch_client_unlock c ;; is_running c ;;
  AnyN (fun s => only (est s) (session_cond_wait c s)) ;; is_running c.
Definition period_wait (c : nat) : prog :=
  ch_client_unlock c ;; is_running_wait c ;; lock_found c.
Definition round (c : nat) : prog :=
  Alt (after_connect c ;; lock_found c ;; Alt Nop (period_wait c))
      (connect_endpt c ;; ch_client_unlock c ;; is_running_wait c ;; lock_found c).
Definition last (c : nat) : prog :=
  Alt (ch_client_unlock c)
 (Alt (connect_endpt c ;; ch_client_unlock c ;; is_running c)
 (Alt (connect_endpt c ;; ch_client_unlock c ;; is_running c ;; AnyN (fun s => only (est s) (session_cond_wait c s)))
 (Alt (after_connect c)
 (Alt (after_connect c ;; endpt_tries c ;; is_client)
 (Alt (after_connect c ;; lock_found c ;; ch_client_unlock c ;; is_running_wait c)
      (connect_endpt c ;; ch_client_unlock c ;; is_running_wait c)))))).

(** nc_ch_client_thread, 2988-3161 *)
Definition ch_thread (c : nat) : prog :=
  Alt (endpt_tries c ;; is_client)
      (lock_found c ;; Loop (is_running c ;; round c) ;; is_running c ;; last c) ;;
  is_running c.

(** nc_server_notif_cert_exp_intervals_get, 3858-3877 *)
Definition intervals_get : prog := under Cert (Do (Use VIntv false)).

(** nc_server_notif_cert_exp_dates_get, 3680-3760, all error ends included *)
Definition dates_get : prog :=
  Do (Rd Config) ;; Do (Use VListen false) ;; Do (Use VIntv false) ;;
  Alt Nop
    (Do (Rd Clients) ;; Do (Use VClients false) ;;
     Loop (AnyN (fun c => Do (Wr (Client c)) ;; Do (Use (VClient c) false) ;; Do (Rel (Client c)))) ;;
     Do (Rel Clients)) ;;
  Alt Nop (Do (Use VListen false)) ;;
  Do (Rel Config).

(** nc_server_notif_cert_exp_thread, 3883-3974: the wait is for the time of the next notification; the intervals got are used after it without a lock *)
Definition cert_thread : prog :=
  intervals_get ;; dates_get ;;
  Loop (under Cert Nop ;; under Cert (Do (Rel Cert) ;; Do (Wr Cert)) ;;
        Alt (under Cert Nop) (Alt (under Cert Nop ;; intervals_get ;; dates_get)
            (callback Clb ;; Do (Use VIntv false)))).

(** What a thread does from its start. *)
Definition thread (r : role) : prog :=
  match r with App => app_thread | Ch c => ch_thread c | CertT => cert_thread end.
End Server.

(** ** Running threads *)

(** For each thread: what remains to be done, which locks it has (true for exclusive), whether it was created. *)
Record state := mk { rest : nat -> list act; held : nat -> list (lock * bool); born : nat -> bool }.

Definition upd {A} (f : nat -> A) (i : nat) (x : A) : nat -> A := fun j => if Nat.eqb j i then x else f j.

Definition lock_eqb (a b : lock) : bool :=
  match a, b with
  | Config, Config | Clients, Clients | Bind, Bind | Cert, Cert => true
  | Client x, Client y | Cond x, Cond y | Sess x, Sess y | Poll x, Poll y | Ntf x, Ntf y => Nat.eqb x y
  | _, _ => false
  end.

(** One lock of those held is given up. *)
Fixpoint give (l : lock) (h : list (lock * bool)) : option (list (lock * bool)) :=
  match h with
  | [] => None
  | (m, w) :: r => if lock_eqb l m then Some r else match give l r with Some r' => Some ((m, w) :: r') | None => None end
  end.

Section Run.
(** the number of threads, and whether a lock that a thread waits for exclusively can still be taken shared (POSIX leaves that to the implementation;
    by default glibc lets readers in) *)
Variable n : nat.
Variable readers_first : bool.

(** Some thread has the lock; has it exclusively; waits, or is about to, to have it exclusively. *)
Definition taken (s : state) (l : lock) : bool :=
  existsb (fun i => existsb (fun e => lock_eqb l (fst e)) (held s i)) (seq 0 n).
Definition taken_wr (s : state) (l : lock) : bool :=
  existsb (fun i => existsb (fun e => lock_eqb l (fst e) && snd e) (held s i)) (seq 0 n).
Definition awaited (s : state) (l : lock) : bool :=
  existsb (fun i => born s i && match rest s i with Wr m :: _ => lock_eqb l m | _ => false end) (seq 0 n).

(** One action of thread [i], if it can be done now. Releasing a lock that is not held cannot. A thread that was never created is not waited for. *)
Definition step (s : state) (i : nat) : option state :=
  if negb (Nat.ltb i n && born s i) then None else
  match rest s i with
  | [] => None
  | a :: k =>
    let s' := mk (upd (rest s) i k) (held s) (born s) in
    match a with
    | Rd l => if taken_wr s l || (negb readers_first && awaited s l) then None
              else Some (mk (rest s') (upd (held s) i ((l, false) :: held s i)) (born s))
    | Wr l => if taken s l then None
              else Some (mk (rest s') (upd (held s) i ((l, true) :: held s i)) (born s))
    | Rel l => match give l (held s i) with
               | Some h => Some (mk (rest s') (upd (held s) i h) (born s))
               | None => None
               end
    | Spawn t => Some (mk (rest s') (held s) (upd (born s) t true))
    | Join t => if Nat.ltb t n && born s t && match rest s t with [] => false | _ => true end then None else Some s'
    | Use _ _ => Some s'
    end
  end.

(** The threads act in the given order. *)
Fixpoint run (s : state) (sched : list nat) : option state :=
  match sched with
  | [] => Some s
  | i :: r => match step s i with Some s' => run s' r | None => None end
  end.
End Run.
