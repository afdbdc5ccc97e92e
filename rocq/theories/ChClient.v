(** Call Home of a client: the addresses it listens on and the connections it accepts: src/session_client.c 1800-1937, src/session.c 207-250 (as far
    as it fails), src/session_server.c 526-663 by way of Accept.

    Simplifications: strdup() succeeds.  One thread uses the client context (it is thread local unless shared).  The SSH or TLS client that takes a
    connection over is an argument (C90-C93 have that of TLS, SshConn that of SSH). *)
From Coq Require Import Ascii ZArith NArith Bool List Arith.
From Verif Require Import Bytes.
From Verif Require Accept.
Import ListNotations.
Local Open Scope list_scope.

(** What has to be released: listening sockets, the texts of addresses and host names, the two arrays, accepted connections and the texts of their
    addresses. *)
Inductive obj := Sock (fd : nat) | Addr (id : nat) | Host (id : nat) | ArrBinds | ArrAux | Conn (c : nat) | Peer (id : nat).
Inductive ev := New (o : obj) | Free (o : obj).

(** session_p.h: [struct nc_bind] and [ch_binds_aux], with the texts they own. *)
Record cbind := mkB { b_addr : nat; b_text : bytes; b_port : N; b_sock : nat; b_pollin : bool }.
Record caux := mkX { x_ti : N; x_host : option (nat * bytes) }.

(** The part of [client_opts]: the arrays ([None]: NULL; an element [None]: never written), [ch_bind_count]; the next identifier of a text, and what
    happened so far, the last first.  [queue]: the connections that wait at a socket, of the system; at a new one there are none. *)
Record st := { binds : option (list (option cbind)); aux : option (list (option caux)); count : nat; next : nat; log : list ev; queue : nat -> list nat }.
Definition st0 : st := {| binds := None; aux := None; count := 0; next := 0; log := []; queue := fun _ => [] |}.

Inductive res (A : Type) := Ok (a : A) | Undef.
Arguments Ok {A}. Arguments Undef {A}.

(** nc_realloc(): of [n] elements; what is new is not written.  It frees the block if there is no memory. *)
Definition resize {A} (n : nat) (l : option (list (option A))) : list (option A) :=
  let l := match l with Some l => l | None => [] end in firstn n l ++ repeat None (n - length l).
Definition realloc_ev {A} (o : obj) (ok : bool) (l : option (list A)) : list ev :=
  match l, ok with None, true => [New o] | Some _, false => [Free o] | _, _ => [] end.
Fixpoint put {A} (l : list A) (i : nat) (x : A) : list A :=
  match l, i with [], _ => [] | _ :: l, O => x :: l | y :: l, S i => y :: put l i x end.

(** Lines 1802-1839; [sock]: what nc_sock_listen_inet() returns; [m1], [m2]: nc_realloc() succeeds. *)
Definition add (address : option bytes) (port : N) (host : option bytes) (ti : N) (sock : option nat) (m1 m2 : bool) (s : st) : Z * st :=
  match address with
  | None => ((-1)%Z, s)
  | Some a =>
    if (port =? 0)%N then ((-1)%Z, s)
    else match sock with
    | None => ((-1)%Z, s)
    | Some fd =>
      let lg := New (Sock fd) :: log s in
      let n := S (count s) in
      if negb m1 then
        ((-1)%Z, {| binds := None; aux := aux s; count := n; next := next s; log := Free (Sock fd) :: realloc_ev ArrBinds false (binds s) ++ lg; queue := queue s |})
      else
        let lg := realloc_ev ArrBinds true (binds s) ++ lg in
        let bs := resize n (binds s) in
        if negb m2 then
          ((-1)%Z, {| binds := Some bs; aux := None; count := n; next := next s; log := Free (Sock fd) :: realloc_ev ArrAux false (aux s) ++ lg; queue := queue s |})
        else
          let lg := realloc_ev ArrAux true (aux s) ++ lg in
          let xs := resize n (aux s) in
          let id := next s in
          let lg := match host with Some _ => New (Host (S id)) :: lg | None => lg end in
          let x := mkX ti (match host with Some h => Some (S id, h) | None => None end) in
          let b := mkB id a port fd false in
          (0%Z, {| binds := Some (put bs (count s) (Some b)); aux := Some (put xs (count s) (Some x)); count := n; next := S (S id);
                   log := New (Addr id) :: lg; queue := Accept.setq (queue s) fd [] |})
    end
  end.

(** [client_opts.ch_binds[i]]. *)
Definition at_ {A} (l : option (list (option A))) (i : nat) : res A :=
  match l with
  | None => Undef
  | Some l => match nth_error l i with Some (Some x) => Ok x | _ => Undef end
  end.

(** Lines 1864-1866. *)
Definition asked (address : option bytes) (port ti : N) (b : cbind) (x : caux) : bool :=
  (match address with None => true | Some a => if list_eq_dec ascii_dec (b_text b) a then true else false end)
  && ((port =? 0)%N || (b_port b =? port)%N) && ((ti =? 0)%N || (x_ti x =? ti)%N).

(** Lines 1863-1886, the loop from index [i]; it runs at most [fuel] more times. *)
Fixpoint del_loop (fuel i : nat) (m : cbind -> caux -> bool) (ret : Z) (s : st) : res (Z * st) :=
  match fuel with
  | O => Ok (ret, s)
  | S fuel =>
    if count s <=? i then Ok (ret, s)
    else match at_ (binds s) i, at_ (aux s) i with
    | Ok b, Ok x =>
      if m b x then
        let lg := Free (Addr (b_addr b)) :: Free (Sock (b_sock b)) :: log s in
        let n := count s - 1 in
        if n =? 0 then
          Ok (0%Z, {| binds := None; aux := None; count := 0; next := next s; log := Free ArrAux :: Free ArrBinds :: lg; queue := queue s |})
        else if i <? n then
          match at_ (binds s) n, at_ (aux s) n with
          | Ok b', Ok x' =>
            del_loop fuel (S i) m 0%Z {| binds := option_map (fun l => put l i (Some b')) (binds s); aux := option_map (fun l => put l i (Some x')) (aux s);
              count := n; next := next s; log := lg; queue := queue s |}
          | _, _ => Undef
          end
        else del_loop fuel (S i) m 0%Z {| binds := binds s; aux := aux s; count := n; next := next s; log := lg; queue := queue s |}
      else del_loop fuel (S i) m ret s
    | _, _ => Undef
    end
  end.

(** Lines 1848-1861: all are removed. *)
Definition free_host (x : caux) : list ev := match x_host x with Some (id, _) => [Free (Host id)] | None => [] end.
Fixpoint free_all (n i : nat) (s : st) : res (list ev) :=
  match n with
  | O => Ok []
  | S n =>
    match at_ (binds s) i, at_ (aux s) i, free_all n (S i) s with
    | Ok b, Ok x, Ok l => Ok (l ++ free_host x ++ [Free (Addr (b_addr b)); Free (Sock (b_sock b))])
    | _, _, _ => Undef
    end
  end.
Definition free_arr {A} (o : obj) (l : option (list A)) : list ev := match l with Some _ => [Free o] | None => [] end.

(** Lines 1841-1889. *)
Definition del (address : option bytes) (port ti : N) (s : st) : res (Z * st) :=
  match address, (port =? 0)%N && (ti =? 0)%N with
  | None, true =>
    match free_all (count s) 0 s with
    | Ok l => Ok ((if Nat.eqb (count s) 0 then -1 else 0)%Z,
        {| binds := None; aux := None; count := 0; next := next s; log := free_arr ArrAux (aux s) ++ free_arr ArrBinds (binds s) ++ l ++ log s; queue := queue s |})
    | Undef => Undef
    end
  | _, _ => del_loop (count s) 0 (asked address port ti) (-1)%Z s
  end.

(** What nc_sock_accept_binds() sees. *)
Fixpoint slots {A} (n : nat) (l : list (option A)) : option (list A) :=
  match n, l with
  | O, _ => Some []
  | S n, Some x :: l => match slots n l with Some r => Some (x :: r) | None => None end
  | S n, _ => None
  end.
Definition listen_of (b : cbind) : Accept.bnd := Accept.mkK (Some (b_sock b)) (b_pollin b).
Fixpoint set_pollin (l : list (option cbind)) (k : list Accept.bnd) : list (option cbind) :=
  match l, k with
  | Some b :: l, w :: k => Some (mkB (b_addr b) (b_text b) (b_port b) (b_sock b) (Accept.k_pollin w)) :: set_pollin l k
  | l, _ => l
  end.

(** A connection: accepted at the listening socket [h_fd], and given to the client of transport [h_ti] with the host name [h_name]. *)
Record handed := mkH { h_fd : nat; h_conn : nat; h_ti : N; h_name : option bytes }.
(** session.h, NC_TRANSPORT_IMPL *)
Definition NC_TI_SSH : N := 3.
Definition NC_TI_TLS : N := 4.

(** Lines 1891-1935: the result, whether the session pointer is set, and the connection handed over.  [ka]: nc_sock_configure_ka() succeeds; [sess]: the SSH or
    TLS client returns a session.  A timeout gives 0; Accept has what else nc_sock_accept_binds() can do; [Undef] if it waits forever. *)
Definition accept_callhome (ka sess : bool) (s : st) : res (Z * bool * option handed * st) :=
  match binds s with
  | None => Ok ((-1)%Z, false, None, s)
  | Some bl =>
    match slots (count s) bl with
    | None => Undef
    | Some l =>
      match Accept.call (Accept.mkW (map listen_of l) (queue s) (fun _ => false)) with
      | (w, Accept.Accepted i fd c) =>
        let id := next s in
        let s' lg := {| binds := Some (set_pollin bl (Accept.w_binds w)); aux := aux s; count := count s; next := S id; log := lg; queue := Accept.w_queue w |} in
        let lg := New (Peer id) :: New (Conn c) :: log s in
        if negb ka then Ok ((-1)%Z, false, None, s' (Free (Conn c) :: Free (Peer id) :: lg))
        else match at_ (aux s) i with
             | Undef => Undef
             | Ok x =>
               if (x_ti x =? NC_TI_SSH)%N then
                 Ok ((if sess then 1 else -1)%Z, sess, Some (mkH fd c NC_TI_SSH None), s' (Free (Peer id) :: lg))
               else if (x_ti x =? NC_TI_TLS)%N then
                 Ok ((if sess then 1 else -1)%Z, sess, Some (mkH fd c NC_TI_TLS (option_map snd (x_host x))), s' (Free (Peer id) :: lg))
               else Ok ((-1)%Z, false, None, s' (Free (Peer id) :: Free (Conn c) :: lg))
             end
      | (w, Accept.TimedOut) => Ok (0%Z, false, None, s)
      | (w, Accept.Failed) => Ok ((-1)%Z, false, None, s)
      | (w, Accept.Blocks _) => Undef
      | (w, Accept.OutOfBounds) => Undef
      end
    end
  end.

(** What the application, the system and the peers do. *)
Inductive event :=
| Add (address : option bytes) (port : N) (host : option bytes) (ti : N) (sock : option nat) (m1 m2 : bool)
| Del (address : option bytes) (port ti : N)
| Arrive (fd c : nat)
| AcceptCall (ka sess : bool).

Definition step (s : st) (e : event) : res (st * option handed) :=
  match e with
  | Add a p h t k m1 m2 => Ok (snd (add a p h t k m1 m2 s), None)
  | Del a p t => match del a p t s with Ok (_, s') => Ok (s', None) | Undef => Undef end
  | Arrive fd c =>
      Ok ({| binds := binds s; aux := aux s; count := count s; next := next s; log := log s; queue := Accept.setq (queue s) fd (queue s fd ++ [c]) |}, None)
  | AcceptCall ka sess => match accept_callhome ka sess s with Ok (_, _, h, s') => Ok (s', h) | Undef => Undef end
  end.
