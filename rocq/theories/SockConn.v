(** Outgoing connections: src/session_client.c 1588-1798 (sock_connect, nc_sock_connect), as used by clients
    and for Call Home (src/session_server.c 2683-2787, 3105-3135, src/server_config.c 876-890). *)
From Coq Require Import List Arith Lia Bool.
Import ListNotations.

(** Addresses: what getaddrinfo() gives for a name. *)
Definition addr := nat.

(** Sockets are numbered in the order they are created.  What happens to them: creation for an address,
    close(), setting of keepalives and of TCP_NODELAY, handing over to a session. *)
Inductive act := Open (i : nat) (a : addr) | Close (i : nat) | Ka (i : nat) | NoDelay (i : nat) | Give (i : nat).

(** How one call of sock_connect() ends (lines 1598-1706):
    - [FAddr]: the address cannot be printed (1614-1617), [FSocket]: socket() fails (1621-1625);
    - [FSetup]: fcntl(), setsockopt(), nc_sock_bind_inet() or connect() fail (1626-1653);
    - [FPoll]: poll() fails, also when interrupted (1660-1663); [FTimeout]: 1664-1674;
    - [FError]: getsockopt() fails or gives an error (1677-1688); [FKa]: nc_sock_configure_ka() fails;
    - [OK]: connected. *)
Inductive out := FAddr | FSocket | FSetup | FPoll | FTimeout | FError | FKa | OK.

(** Lines 1598-1706 [sock_connect].  [pend]: [None] if sock_pending is NULL, else its value, [Some None] being
    -1; [n]: the number of the next socket.  With a pending socket the failures before poll() cannot occur;
    they are treated as an error of the socket.  The result: the socket or -1, sock_pending, what happened
    (in order), the number of the next socket. *)
Definition sock_connect (pend : option (option nat)) (a : addr) (o : out) (n : nat)
  : option nat * option (option nat) * list act * nat :=
  let none := match pend with Some _ => Some None | None => None end in
  match pend with
  | Some (Some i) =>
      match o with
      | OK => (Some i, none, [Ka i], n)
      | FTimeout => (None, Some (Some i), [], n)
      | _ => (None, none, [Close i], n)
      end
  | _ =>
      match o with
      | FAddr | FSocket => (None, pend, [], n)
      | OK => (Some n, none, [Open n a; Ka n], S n)
      | FTimeout => match pend with
                    | Some _ => (None, Some (Some n), [Open n a], S n)
                    | None => (None, None, [Open n a; Close n], S n)
                    end
      | FKa => (None, none, [Open n a; Ka n; Close n], S n)
      | FSetup | FPoll | FError => (None, none, [Open n a; Close n], S n)
      end
  end.

(** Lines 1735-1769: the loop over the addresses with the outcome of each attempt; [nd], [str]: setsockopt()
    of TCP_NODELAY and nc_saddr2str() succeed.  The result: the socket or -1, whether the end was reached by
    "goto error", sock_pending, what happened, the number of the next socket. *)
Fixpoint try_all (pend : option (option nat)) (l : list (addr * out)) (nd str : bool) (n : nat)
  : option nat * bool * option addr * option (option nat) * list act * nat :=
  match l with
  | [] => (None, false, None, pend, [], n)
  | (a, o) :: r =>
      match sock_connect pend a o n with
      | (None, p1, t, n1) =>
          match p1 with
          | Some (Some _) => (None, false, None, p1, t, n1)
          | _ => match try_all p1 r nd str n1 with
                 | (x, e, h, p2, t2, n2) => (x, e, h, p2, t ++ t2, n2)
                 end
          end
      | (Some i, p1, t, n1) =>
          if nd then if str then (Some i, false, Some a, p1, t ++ [NoDelay i], n1)
                     else (Some i, true, None, p1, t ++ [NoDelay i], n1)
          else (Some i, true, None, p1, t, n1)
      end
  end.

(** Lines 1708-1798 [nc_sock_connect].  [gai]: the addresses of the host with the outcomes, [None] if the host
    cannot be translated.  For a pending socket: [o] is the outcome, [fd0]: the descriptor is 0 (the test is
    "sock > 0", line 1775), [peer]: what getpeername() and nc_saddr2str() give.  Addresses given by
    getaddrinfo() are freed on every path (1771, 1788-1790).  The result: the socket or -1, ip_host,
    sock_pending, what happened, the number of the next socket. *)
Definition nc_sock_connect (pend : option (option nat)) (gai : option (list (addr * out))) (o : out)
  (nd str fd0 : bool) (peer : option addr) (n : nat)
  : option nat * option addr * option (option nat) * list act * nat :=
  let none := match pend with Some _ => Some None | None => None end in
  match pend with
  | Some (Some _) =>
      match sock_connect pend 0 o n with
      | (Some j, p1, t, n1) => if fd0 then (Some j, None, p1, t, n1)
                               else match peer with
                                    | Some h => (Some j, Some h, p1, t, n1)
                                    | None => (None, None, none, t ++ [Close j], n1)
                                    end
      | (None, p1, t, n1) => (None, None, p1, t, n1)
      end
  | _ =>
      match gai with
      | None => (None, None, none, [], n)
      | Some l => match try_all pend l nd str n with
                  | (Some i, true, _, _, t, n1) => (None, None, none, t ++ [Close i], n1)
                  | (None, true, _, _, t, n1) => (None, None, none, t, n1)
                  | (i, false, h, p1, t, n1) => (i, h, p1, t, n1)
                  end
      end
  end.

(* ------------------------------------------------------------------ *)
(** ** A Call Home endpoint *)

(** The address a socket was created for. *)
Fixpoint addr_of (t : list act) (i : nat) : option addr :=
  match t with
  | [] => None
  | Open j a :: r => if Nat.eqb j i then Some a else addr_of r i
  | _ :: r => addr_of r i
  end.

(** [pending]: endpt->sock_pending; [dst]: endpt->dst_addr, a name; [sess]: the sockets of the sessions, each with
    the address the session has as its host and the name configured when it was established; [acts]: what has
    happened to sockets; [next]: the number of the next socket. *)
Record st := { pending : option nat; dst : nat; sess : list (nat * (option addr * nat)); acts : list act; next : nat }.

(** What happens after the connection (session_server.c 2711-2787): no context (2712-2717), no session
    (2723-2724), an unknown or not established transport (2731-2763; the socket is closed there or with the
    session), the handshake fails (2769-2772; the socket is closed with the session), or all is well. *)
Inductive after := NoCtx | NoSession | NoTransport | NoHello | Established.

(** Events: an attempt of the thread (session_server.c 2697-2787), the thread gives the pending socket up
    (session_server.c 3125-3130), the address is changed in the configuration (server_config.c 3567-3572), the
    endpoint is removed (server_config.c 884-887; the events that follow are of a new endpoint of that name), a
    session ends. *)
Inductive ev :=
| Attempt (outs : list out) (gok : bool) (o : out) (nd str fd0 peer : bool) (f : after)
| GiveUp | SetAddr (a : nat) | Remove | End (i : nat).

Definition closing (p : option nat) : list act := match p with Some i => [Close i] | None => [] end.

Section Endpoint.
(** getaddrinfo(): the addresses of a name. *)
Variable resolve : nat -> list addr.

Definition flat (p : option (option nat)) : option nat := match p with Some x => x | None => None end.

Definition step (s : st) (e : ev) : st :=
  match e with
  | Attempt outs gok o nd str fd0 peer f =>
      match nc_sock_connect (Some (pending s)) (if gok then Some (combine (resolve (dst s)) outs) else None) o nd str fd0
              (if peer then match pending s with Some i => addr_of (acts s) i | None => None end else None) (next s) with
      | (None, _, p1, t, n1) =>
          {| pending := flat p1; dst := dst s; sess := sess s; acts := acts s ++ t; next := n1 |}
      | (Some i, h, p1, t, n1) =>
          match f with
          | Established => {| pending := flat p1; dst := dst s; sess := (i, (h, dst s)) :: sess s;
                              acts := acts s ++ t ++ [Give i]; next := n1 |}
          | _ => {| pending := flat p1; dst := dst s; sess := sess s; acts := acts s ++ t ++ [Close i]; next := n1 |}
          end
      end
  | GiveUp | Remove =>
      {| pending := None; dst := dst s; sess := sess s; acts := acts s ++ closing (pending s); next := next s |}
  | SetAddr a => {| pending := pending s; dst := a; sess := sess s; acts := acts s; next := next s |}
  | End i =>
      if existsb (fun x => Nat.eqb (fst x) i) (sess s)
      then {| pending := pending s; dst := dst s; sess := filter (fun x => negb (Nat.eqb (fst x) i)) (sess s);
              acts := acts s ++ [Close i]; next := next s |}
      else s
  end.
Definition start (a : nat) : st := {| pending := None; dst := a; sess := []; acts := []; next := 0 |}.
Definition run (a : nat) (es : list ev) : st := fold_left step es (start a).
End Endpoint.
