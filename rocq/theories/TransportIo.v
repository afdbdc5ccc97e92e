(** What the transports make of the results of the system and of the libraries of SSH and TLS (src/io.c 76-138, 518-558, 596-643,
    src/session_openssl.c 598-629, 938-1042, src/session_mbedtls.c 848-899, 909-946, 1206-1287); the loops of nc_read() and nc_write() are in IoRead and IoWrite. *)
From Coq Require Import Ascii String ZArith NArith List Bool.
From Verif Require Import Bytes IoRead IoWrite.
Import ListNotations.
Local Open Scope Z_scope.

(* ------------------------------------------------------------------ *)
(** ** Numbers *)

(** errno on Linux. *)
Definition EINTR : Z := 4.
Definition EAGAIN : Z := 11.
Definition EWOULDBLOCK : Z := 11.
Definition EPIPE : Z := 32.
Definition ECONNRESET : Z := 104.
(** MbedTLS. *)
Definition WANT_READ : Z := -26880.
Definition WANT_WRITE : Z := -26752.
Definition PEER_CLOSE_NOTIFY : Z := -30848.
Definition NET_CONN_RESET : Z := -80.
Definition NET_SEND_FAILED : Z := -78.
Definition NET_RECV_FAILED : Z := -76.
Definition SSL_CONN_EOF : Z := -29312.

(** SSL_get_error() of OpenSSL. *)
Inductive oerr := OWantRead | OWantWrite | OZeroReturn | OSyscall | OSsl | OOther.

(** The outcome of a call of a transport for [read] or [write]:
    [Fd r]: a descriptor, [r] bytes; [FdErr e]: -1 with errno [e];
    [SshRc r]: libssh returned [r]; [SshEof]: 0, or before writing, and the channel is at its end or closed;
    [Ossl rc e]: OpenSSL returned [rc] and SSL_get_error() is [e];
    [OsslSock e]: under OpenSSL the system call failed with errno [e];
    [Mbed rc]: MbedTLS returned [rc] of its own;
    [MbedSock e]: under MbedTLS the system call in the callback failed with errno [e] and MbedTLS returned what the callback did. *)
Inductive att := Fd (r : Z) | FdErr (e : Z) | SshRc (r : Z) | SshEof | Ossl (rc : Z) (e : oerr) | OsslSock (e : Z) | Mbed (rc : Z) | MbedSock (e : Z).

(* ------------------------------------------------------------------ *)
(** ** Callbacks and wrappers *)

(** nc_server_tls_send, session_mbedtls.c 858-865 and nc_server_tls_recv, 889-896: the second comparison is an assignment, [errno = EAGAIN]. *)
Definition callback_err (want failed : Z) (errno : Z) : Z :=
  let '(c1, errno) := if errno =? EWOULDBLOCK then (true, errno) else let errno := EAGAIN in (negb (errno =? 0), errno) in
  if c1 || (errno =? EINTR) then want
  else if (errno =? EPIPE) || (errno =? ECONNRESET) then NET_CONN_RESET
  else failed.
Definition send_cb (e : Z) : Z := callback_err WANT_WRITE NET_SEND_FAILED e.
Definition recv_cb (e : Z) : Z := callback_err WANT_READ NET_RECV_FAILED e.
(** Not in the repository: the socket BIO of OpenSSL retries after these errors, all others are SSL_ERROR_SYSCALL. *)
Definition ossl_sock (e : Z) : oerr := if (e =? EAGAIN) || (e =? EINTR) then OWantRead else OSyscall.

(** Why a session was made invalid. *)
Inductive reason := Dropped | OtherReason.
(** nc_tls_read_wrap, session_openssl.c 938-983: the value returned, and the reason if the session was made invalid. *)
Definition ossl_read_wrap (rc : Z) (e : oerr) : Z * option reason :=
  if rc <=? 0 then
    match e with
    | OWantRead | OWantWrite => (0, None)
    | OZeroReturn => (-1, Some Dropped)
    | OSyscall | OSsl | OOther => (-1, Some OtherReason)
    end
  else (rc, None).
(** nc_tls_write_wrap, lines 986-1024. *)
Definition ossl_write_wrap (rc : Z) (e : oerr) : Z :=
  if rc <? 1 then match e with OWantWrite | OWantRead => 0 | _ => -1 end else rc.
(** nc_tls_read_wrap, session_mbedtls.c 1205-1234. *)
Definition mbed_read_wrap (rc : Z) : Z * option reason :=
  if rc <=? 0 then
    if (rc =? WANT_READ) || (rc =? WANT_WRITE) then (0, None)
    else if rc =? PEER_CLOSE_NOTIFY then (-1, Some Dropped)
    else (-1, Some OtherReason)
  else (rc, None).
(** nc_tls_write_wrap, lines 1236-1261. *)
Definition mbed_write_wrap (rc : Z) : Z :=
  if rc <? 0 then if (rc =? WANT_READ) || (rc =? WANT_WRITE) then 0 else -1 else rc.

(* ------------------------------------------------------------------ *)
(** ** Reading and writing *)

Definition tls_write_ev (c : Z) : wev := if c <? 0 then WErr else if c =? 0 then WAgain else WAcc (Z.to_N c).
(** nc_write, io.c 596-643. *)
Definition write_ev (a : att) : wev :=
  match a with
  | Fd r => WAcc (Z.to_N r)
  | FdErr e => if e =? EAGAIN then WAgain else if e =? EINTR then WIntr else WErr
  | SshEof => WClosed
  | SshRc r => if r =? -1 then WErr else WAcc (Z.to_N r)
  | Ossl rc e => tls_write_ev (ossl_write_wrap rc e)
  | OsslSock e => tls_write_ev (ossl_write_wrap (-1) (ossl_sock e))
  | Mbed rc => tls_write_ev (mbed_write_wrap rc)
  | MbedSock e => tls_write_ev (mbed_write_wrap (send_cb e))
  end.

Definition tls_read_ev (r : Z * option reason) (data : bytes) (expired : bool) : tev :=
  let '(c, w) := r in
  if c <? 0 then match w with Some Dropped => TEof | _ => TErr end else if c =? 0 then TAgain expired else TData (takeN (Z.to_N c) data).
(** nc_read, io.c 76-138; [data]: what came; [expired]: one of the time limits is over when it is checked after this. *)
Definition read_ev (a : att) (data : bytes) (expired : bool) : tev :=
  match a with
  | Fd r => if r =? 0 then TEof else TData (takeN (Z.to_N r) data)
  | FdErr e => if e =? EAGAIN then TAgain expired else if e =? EINTR then TIntr expired else TErr
  | SshEof => TEof
  | SshRc r => if r =? -2 then TAgain expired else if r =? -1 then TErr else if r =? 0 then TAgain expired else TData (takeN (Z.to_N r) data)
  | Ossl rc e => tls_read_ev (ossl_read_wrap rc e) data expired
  | OsslSock e => tls_read_ev (ossl_read_wrap (-1) (ossl_sock e)) data expired
  | Mbed rc => tls_read_ev (mbed_read_wrap rc) data expired
  | MbedSock e => tls_read_ev (mbed_read_wrap (recv_cb e)) data expired
  end.

(* ------------------------------------------------------------------ *)
(** ** The rest of TLS *)

(** nc_tls_close_notify_wrap, session_mbedtls.c 1275-1287: [true] if it returned after the given calls. *)
Fixpoint mbed_close (l : list att) : bool :=
  match l with
  | [] => false
  | a :: l =>
    let rc := match a with Mbed rc => rc | MbedSock e => send_cb e | _ => 0 end in
    if rc =? 0 then true
    else if negb (rc =? WANT_READ) && negb (rc =? WANT_WRITE) then true
    else mbed_close l
  end.
(** nc_tls_close_notify_wrap, session_openssl.c 1038-1042: one call, whatever it gives. *)
Definition ossl_close (l : list att) : bool := match l with [] => false | _ => true end.

(** nc_server_tls_handshake_step_wrap, session_mbedtls.c 908-921 and session_openssl.c 597-612. *)
Definition server_step (a : att) : Z :=
  match a with
  | Mbed rc => if rc =? 0 then 1 else if (rc =? WANT_READ) || (rc =? WANT_WRITE) then 0 else rc
  | MbedSock e => let rc := recv_cb e in if rc =? 0 then 1 else if (rc =? WANT_READ) || (rc =? WANT_WRITE) then 0 else rc
  | Ossl rc e => if rc =? 1 then 1 else if (rc =? -1) && match e with OWantRead | OWantWrite => true | _ => false end then 0 else -1
  | OsslSock e => match ossl_sock e with OWantRead | OWantWrite => 0 | _ => -1 end
  | _ => -1
  end.
(** nc_client_tls_handshake_step_wrap, session_mbedtls.c 923-946 and session_openssl.c 614-629; [hup]: poll() fails or tells that the connection is broken. *)
Definition client_step (a : att) (hup : bool) : Z :=
  match a with
  | Mbed rc => if rc =? 0 then 1 else if (rc =? WANT_READ) || (rc =? WANT_WRITE) then if hup then -1 else 0 else rc
  | MbedSock e => let rc := recv_cb e in if rc =? 0 then 1 else if (rc =? WANT_READ) || (rc =? WANT_WRITE) then if hup then -1 else 0 else rc
  | _ => server_step a
  end.
Inductive hres := HWait | HTimeout | HDone (rc : Z).
(** session_server_tls.c 907-918, session_client_tls.c 327-337 on the results of the steps, each with whether the time is over after it ([false] if there is no limit). *)
Fixpoint handshake (l : list (Z * bool)) : hres :=
  match l with
  | [] => HWait
  | (rc, expired) :: l => if rc =? 0 then if expired then HTimeout else handshake l else HDone rc
  end.

(* ------------------------------------------------------------------ *)
(** ** Is anybody there? *)

Inductive transport := TFd | TUnix | TSsh | TOssl | TMbed.
(** nc_session_is_connected, io.c 518-558: [fd_ok]: the descriptor is not -1; [poll]: [None] on error, else POLLHUP or POLLERR on the descriptor polled;
    [ssh]: ssh_is_connected(). *)
Definition is_connected (t : transport) (fd_ok : bool) (poll : option bool) (ssh : bool) : bool :=
  match t with
  | TSsh => ssh
  | _ => if negb fd_ok then false else match poll with None => false | Some hup => negb hup end
  end.
(** SIGPIPE: a write to a descriptor that nobody reads; the callback for MbedTLS uses MSG_NOSIGNAL (line 858), write() (io.c 601) and the BIO of OpenSSL do not. *)
Definition signals (a : att) : bool := match a with FdErr e | OsslSock e => e =? EPIPE | _ => false end.
Inductive kres := Killed | Came (r : wout).
(** nc_write, io.c 577-654, with the signal; [conn]: nc_session_is_connected(). *)
Fixpoint write_loop (l : list att) (rem : bytes) : kres :=
  match l with
  | [] => Came WBlocked
  | a :: l =>
    if signals a then Killed
    else match write_ev a with
         | WAcc k => match dropN k rem with [] => Came WSent | rem => write_loop l rem end
         | WAgain | WIntr => match rem with [] => Came WSent | _ => write_loop l rem end
         | WErr | WClosed => Came WFailed
         end
  end.
Definition write_all (running conn : bool) (l : list att) (buf : bytes) : kres :=
  if running && conn then write_loop l buf else Came WFailed.
