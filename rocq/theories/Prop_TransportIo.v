(** Properties of the transports (C199-C204). *)
From Coq Require Import Ascii String ZArith NArith List Bool Lia.
From Verif Require Import Bytes IoRead IoWrite TransportIo.
Import ListNotations.
Local Open Scope Z_scope.

(* ------------------------------------------------------------------ *)
(** ** Specification *)

(** The system call under a transport failed with errno [e]; libssh gives SSH_ERROR. *)
Definition fails (t : transport) (e : Z) : att :=
  match t with TFd | TUnix => FdErr e | TSsh => SshRc (-1) | TOssl => OsslSock e | TMbed => MbedSock e end.
(** Not "try again": the connection cannot be used any more. *)
Definition for_good (e : Z) : Prop := e <> EAGAIN /\ e <> EINTR.

(* ------------------------------------------------------------------ *)
(** ** C199: writing to a broken connection ends *)

Definition c199_at (t : transport) : Prop := forall e more wire buf, for_good e ->
  nc_write_loop (map write_ev (fails t e :: more)) wire buf = (WFailed, mkW true wire (map write_ev more)).
Definition c199_full : Prop := forall t, c199_at t.

Lemma eqb_ne a b : a <> b -> (a =? b) = false.
Proof. apply Z.eqb_neq. Qed.

Theorem c199_ends_partial : forall t, t <> TMbed -> c199_at t.
Proof.
  intros t T e more wire buf [A B]. destruct t; try (now destruct T); cbn [fails map write_ev].
  - rewrite (eqb_ne _ _ A), (eqb_ne _ _ B). reflexivity.
  - rewrite (eqb_ne _ _ A), (eqb_ne _ _ B). reflexivity.
  - reflexivity.
  - unfold ossl_sock. rewrite (eqb_ne _ _ A), (eqb_ne _ _ B). reflexivity.
Qed.

(** Every errno becomes "try again". *)
Lemma send_cb_any e : send_cb e = WANT_WRITE.
Proof. unfold send_cb, callback_err. destruct (e =? EWOULDBLOCK); reflexivity. Qed.
Lemma recv_cb_any e : recv_cb e = WANT_READ.
Proof. unfold recv_cb, callback_err. destruct (e =? EWOULDBLOCK); reflexivity. Qed.

(** With MbedTLS nc_write() never returns on a broken connection. *)
Theorem c199_endless : forall es wire buf, buf <> [] ->
  fst (nc_write_loop (map write_ev (map (fails TMbed) es)) wire buf) = WBlocked.
Proof.
  intros es wire buf N. induction es as [|e es IH]; [reflexivity|]. cbn [map fails write_ev]. rewrite send_cb_any.
  change (tls_write_ev (mbed_write_wrap WANT_WRITE)) with WAgain. cbn [nc_write_loop]. destruct buf; [congruence|exact IH].
Qed.
Theorem c199_mbed_refuted : ~ c199_full.
Proof.
  intros H. specialize (H TMbed EPIPE [] [] (bs "x")). cbn in H. discriminate H. split; discriminate.
Qed.
Example c199_example : nc_write_loop (map write_ev [Ossl 3 OOther; fails TOssl EINTR; fails TOssl ECONNRESET]) [] (bs "hello") = (WFailed, mkW true (bs "hel") []) /\
  nc_write_loop (map write_ev [Mbed 3; fails TMbed EINTR; fails TMbed ECONNRESET; fails TMbed EPIPE]) [] (bs "hello") = (WBlocked, mkW true (bs "hel") []).
Proof. split; vm_compute; reflexivity. Qed.

(* ------------------------------------------------------------------ *)
(** ** C200: reading from a broken connection ends *)

Definition c200_at (t : transport) : Prop := forall e d x more cap readd count, for_good e ->
  nc_read_loop (read_ev (fails t e) d x :: more) cap readd count = RFail FIoErr more.
Definition c200_full : Prop := forall t, c200_at t.
Theorem c200_ends_partial : forall t, t <> TMbed -> c200_at t.
Proof.
  intros t T e d x more cap readd count [A B]. destruct t; try (now destruct T); cbn [fails read_ev].
  - rewrite (eqb_ne _ _ A), (eqb_ne _ _ B). reflexivity.
  - rewrite (eqb_ne _ _ A), (eqb_ne _ _ B). reflexivity.
  - reflexivity.
  - unfold ossl_sock. rewrite (eqb_ne _ _ A), (eqb_ne _ _ B). reflexivity.
Qed.
(** With MbedTLS the time limit ends it, and before that nothing. *)
Theorem c200_until_timeout : forall es cap readd count,
  (forall p, In p es -> snd p = false) ->
  nc_read_loop (map (fun p => read_ev (fails TMbed (fst p)) [] (snd p)) es) cap readd count = RWait /\
  forall e more, nc_read_loop (map (fun p => read_ev (fails TMbed (fst p)) [] (snd p)) es ++ read_ev (fails TMbed e) [] true :: more) cap readd count = RFail FTimeout more.
Proof.
  intros es cap readd count. induction es as [|[e x] es IH]; intros H.
  - split; [reflexivity|]. intros e more. cbn [map app fails read_ev]. rewrite recv_cb_any. reflexivity.
  - cbn [map app fst snd fails read_ev]. rewrite recv_cb_any. pose proof (H (e, x) (or_introl eq_refl)) as X. cbn in X. subst x.
    change (tls_read_ev (mbed_read_wrap WANT_READ) [] false) with (TAgain false). cbn [nc_read_loop]. apply IH. intros p P. apply H. now right.
Qed.
Theorem c200_mbed_refuted : ~ c200_full.
Proof. intros H. specialize (H TMbed ECONNRESET [] false [] 9%N 0%N 1%N). cbn in H. discriminate H. split; discriminate. Qed.
Example c200_example : nc_read_loop [read_ev (Ossl 2 OOther) (bs "abc") false; read_ev (fails TOssl ECONNRESET) [] false] 9 0 5 = RFail FIoErr [] /\
  nc_read_loop [read_ev (Mbed 2) (bs "abc") false; read_ev (fails TMbed ECONNRESET) [] false] 9 0 5 = RWait.
Proof. split; vm_compute; reflexivity. Qed.

(* ------------------------------------------------------------------ *)
(** ** C201: saying goodbye over TLS ends *)

(** After at most [n] calls of the library, whatever they give. *)
Definition c201_full (close : list att -> bool) : Prop := exists n, forall l, (n <= length l)%nat -> close l = true.
Theorem c201_openssl : c201_full ossl_close.
Proof. exists 1%nat. intros [|a l] H; [cbn in H; lia|reflexivity]. Qed.
(** It ends once the library gives anything but "try again". *)
Theorem c201_mbed_partial : forall l rc more, rc <> WANT_READ -> rc <> WANT_WRITE -> mbed_close (l ++ Mbed rc :: more) = true.
Proof.
  intros l rc more A B. induction l as [|a l IH]; cbn [app mbed_close].
  - rewrite (eqb_ne _ _ A), (eqb_ne _ _ B). now destruct (rc =? 0).
  - destruct (_ =? 0); [reflexivity|]. destruct (_ && _); [reflexivity|exact IH].
Qed.
(** A peer that does not read, or a connection that is broken, keeps nc_session_free() for ever. *)
Theorem c201_mbed_endless : forall es, mbed_close (map (fails TMbed) es) = false.
Proof. intros es. induction es as [|e es IH]; [reflexivity|]. cbn [map fails mbed_close]. rewrite send_cb_any. exact IH. Qed.
Theorem c201_mbed_refuted : ~ c201_full mbed_close.
Proof. intros [n H]. specialize (H (map (fails TMbed) (repeat EPIPE n))). rewrite c201_mbed_endless in H. discriminate H. rewrite map_length, repeat_length. lia. Qed.
Example c201_example : mbed_close [fails TMbed EAGAIN; Mbed WANT_WRITE; Mbed 0] = true /\ mbed_close [fails TMbed EPIPE; fails TMbed EPIPE] = false.
Proof. split; vm_compute; reflexivity. Qed.

(* ------------------------------------------------------------------ *)
(** ** C202: a handshake on a broken connection ends *)

Inductive role := AsServer | AsClient (hup : bool).
Definition hstep (r : role) (a : att) : Z := match r with AsServer => server_step a | AsClient hup => client_step a hup end.
(** The handshake fails at the first call that fails for good. *)
Definition c202_at (t : transport) (r : role) : Prop := forall e x more, for_good e -> exists rc, handshake ((hstep r (fails t e), x) :: more) = HDone rc /\ rc < 0.
Definition c202_full : Prop := forall t r, t = TOssl \/ t = TMbed -> c202_at t r.
Theorem c202_ends_partial : forall t r, t = TOssl \/ t = TMbed /\ r = AsClient true -> c202_at t r.
Proof.
  intros t r H e x more [A B]. exists (-1). split; [|lia]. destruct H as [->|[-> ->]].
  - assert (Q : hstep r (OsslSock e) = -1).
    { destruct r; cbn [hstep client_step server_step]; unfold ossl_sock; rewrite (eqb_ne _ _ A), (eqb_ne _ _ B); reflexivity. }
    cbn [fails]. cbn [handshake]. now rewrite Q.
  - cbn [fails hstep client_step]. rewrite recv_cb_any. reflexivity.
Qed.
(** A server with MbedTLS goes on until the time is over; without a limit, for ever. *)
Theorem c202_until_timeout : forall es, handshake (map (fun e => (hstep AsServer (fails TMbed e), false)) es) = HWait /\
  forall e more, handshake (map (fun e => (hstep AsServer (fails TMbed e), false)) es ++ (hstep AsServer (fails TMbed e), true) :: more) = HTimeout.
Proof.
  assert (Q : forall e, hstep AsServer (fails TMbed e) = 0).
  { intros e. cbn [fails hstep server_step]. rewrite recv_cb_any. reflexivity. }
  intros es. induction es as [|e es [I J]]; (split; [|intros e' more]); cbn [map app handshake]; rewrite ?Q; try reflexivity.
  - exact I.
  - specialize (J e' more). rewrite Q in J. exact J.
Qed.
Theorem c202_mbed_refuted : ~ c202_full.
Proof.
  intros H. destruct (H TMbed AsServer (or_intror eq_refl) ECONNRESET false []) as (rc & A & _); [split; discriminate|]. vm_compute in A. discriminate.
Qed.
Example c202_example : handshake [(hstep AsServer (fails TOssl EAGAIN), false); (hstep AsServer (fails TOssl ECONNRESET), false)] = HDone (-1) /\
  handshake [(hstep (AsClient true) (fails TMbed EPIPE), false)] = HDone (-1).
Proof. split; vm_compute; reflexivity. Qed.

(* ------------------------------------------------------------------ *)
(** ** C203: both TLS libraries are treated the same *)

(** What can happen to a call. *)
(** [NotNow w]: the library waits until it can write ([w]) or read. *)
Inductive situation := Moved (n : Z) | NotNow (w : bool) | PeerClosed | Eof | Protocol (code : Z) | System (e : Z).
Definition possible (s : situation) : Prop :=
  match s with
  | Moved n => 0 < n
  | Protocol code => code < 0 /\ code <> WANT_READ /\ code <> WANT_WRITE /\ code <> PEER_CLOSE_NOTIFY
  | _ => True
  end.
Definition on_ossl (s : situation) : att :=
  match s with Moved n => Ossl n OOther | NotNow w => Ossl (-1) (if w then OWantWrite else OWantRead) | PeerClosed => Ossl 0 OZeroReturn | Eof => Ossl 0 OSsl | Protocol _ => Ossl (-1) OSsl | System e => OsslSock e end.
Definition on_mbed (s : situation) : att :=
  match s with Moved n => Mbed n | NotNow w => Mbed (if w then WANT_WRITE else WANT_READ) | PeerClosed => Mbed PEER_CLOSE_NOTIFY | Eof => Mbed SSL_CONN_EOF | Protocol c => Mbed c | System e => MbedSock e end.
Definition same (s : situation) : Prop := write_ev (on_ossl s) = write_ev (on_mbed s) /\ forall d x, read_ev (on_ossl s) d x = read_ev (on_mbed s) d x.
Definition c203_full : Prop := forall s, possible s -> same s.
Theorem c203_same_partial : forall s, possible s -> (forall e, s = System e -> ~ for_good e) -> same s.
Proof.
  intros s P H. split; [|intros d x].
  - destruct s as [n|[]| | |code|e]; cbn [on_ossl on_mbed write_ev]; try reflexivity.
    + cbn in P. unfold ossl_write_wrap, mbed_write_wrap. replace (n <? 1) with false by (symmetry; apply Z.ltb_ge; lia).
      now replace (n <? 0) with false by (symmetry; apply Z.ltb_ge; lia).
    + destruct P as (A & B & C & D). unfold mbed_write_wrap. replace (code <? 0) with true by (symmetry; apply Z.ltb_lt; lia).
      now rewrite (eqb_ne _ _ B), (eqb_ne _ _ C).
    + specialize (H e eq_refl). rewrite send_cb_any. unfold ossl_sock.
      destruct (Z.eqb_spec e EAGAIN), (Z.eqb_spec e EINTR); try reflexivity. now destruct H.
  - destruct s as [n|[]| | |code|e]; cbn [on_ossl on_mbed read_ev]; try reflexivity.
    + cbn in P. unfold ossl_read_wrap, mbed_read_wrap. now replace (n <=? 0) with false by (symmetry; apply Z.leb_gt; lia).
    + destruct P as (A & B & C & D). unfold mbed_read_wrap. replace (code <=? 0) with true by (symmetry; apply Z.leb_le; lia).
      now rewrite (eqb_ne _ _ B), (eqb_ne _ _ C), (eqb_ne _ _ D).
    + specialize (H e eq_refl). rewrite recv_cb_any. unfold ossl_sock.
      destruct (Z.eqb_spec e EAGAIN), (Z.eqb_spec e EINTR); try reflexivity. now destruct H.
Qed.
Theorem c203_errors_refuted : ~ c203_full.
Proof. intros H. destruct (H (System EPIPE) Logic.I) as [A _]. vm_compute in A. discriminate. Qed.
(** A session is made invalid by reading exactly if it is told an error, dropped exactly if the peer closed it. *)
Theorem c203_reason : forall s d x, possible s ->
  (s = PeerClosed -> read_ev (on_ossl s) d x = TEof /\ read_ev (on_mbed s) d x = TEof) /\
  (s = Eof \/ (exists c, s = Protocol c) -> read_ev (on_ossl s) d x = TErr /\ read_ev (on_mbed s) d x = TErr) /\
  ((exists w, s = NotNow w) -> read_ev (on_ossl s) d x = TAgain x /\ read_ev (on_mbed s) d x = TAgain x).
Proof.
  intros s d x P. split; [intros ->; split; reflexivity|]. split; [|intros [[] ->]; split; reflexivity].
  intros [->|[c ->]]; (split; [reflexivity|]); [reflexivity|].
  destruct P as (A & B & C & D). cbn [on_mbed read_ev]. unfold mbed_read_wrap. replace (c <=? 0) with true by (symmetry; apply Z.leb_le; lia).
  now rewrite (eqb_ne _ _ B), (eqb_ne _ _ C), (eqb_ne _ _ D).
Qed.
(** Exactly the bytes that moved are counted; while nothing moves writing is tried again; anything else fails it. *)
Theorem c203_counted : forall s, possible s ->
  (forall n, s = Moved n -> write_ev (on_ossl s) = WAcc (Z.to_N n) /\ write_ev (on_mbed s) = WAcc (Z.to_N n) /\
    forall d x, read_ev (on_ossl s) d x = TData (firstn (Z.to_nat n) d) /\ read_ev (on_mbed s) d x = TData (firstn (Z.to_nat n) d)) /\
  ((exists w, s = NotNow w) -> write_ev (on_ossl s) = WAgain /\ write_ev (on_mbed s) = WAgain) /\
  (s = PeerClosed \/ s = Eof \/ (exists c, s = Protocol c) -> write_ev (on_ossl s) = WErr /\ write_ev (on_mbed s) = WErr).
Proof.
  intros s P. split; [|split].
  - intros n ->. cbn in P. assert (W : write_ev (on_mbed (Moved n)) = WAcc (Z.to_N n)).
    { cbn [on_mbed write_ev]. unfold mbed_write_wrap, tls_write_ev. replace (n <? 0) with false by (symmetry; apply Z.ltb_ge; lia).
      replace (n <? 0) with false by (symmetry; apply Z.ltb_ge; lia). now replace (n =? 0) with false by (symmetry; apply Z.eqb_neq; lia). }
    assert (V : forall d x, read_ev (on_mbed (Moved n)) d x = TData (firstn (Z.to_nat n) d)).
    { intros d x. cbn [on_mbed read_ev]. unfold mbed_read_wrap, tls_read_ev. replace (n <=? 0) with false by (symmetry; apply Z.leb_gt; lia).
      replace (n <? 0) with false by (symmetry; apply Z.ltb_ge; lia). replace (n =? 0) with false by (symmetry; apply Z.eqb_neq; lia).
      rewrite takeN_firstn. do 2 f_equal. lia. }
    destruct (c203_same_partial (Moved n) P) as [A B]; [discriminate|]. split; [now rewrite A|]. split; [exact W|]. intros d x. now rewrite B, V.
  - intros [w ->]. now destruct w.
  - intros [->|[H|[c ->]]]; [split; reflexivity|subst s; split; reflexivity|]. destruct (c203_same_partial (Protocol c) P) as [A _]; [discriminate|].
    rewrite <- A. split; reflexivity.
Qed.
Example c203_example : possible (Moved 5) /\ read_ev (on_mbed (Moved 2)) (bs "abc") false = TData (bs "ab") /\ read_ev (on_ossl (Moved 2)) (bs "abc") false = TData (bs "ab").
Proof. repeat split; vm_compute; reflexivity. Qed.

(* ------------------------------------------------------------------ *)
(** ** C204: writing does not kill the process *)

(** A connection: is the other end of what is polled and of what is written to gone before the call; [l]: the calls. *)
Definition of_transport (t : transport) (a : att) : Prop :=
  match t, a with
  | (TFd | TUnix), (Fd _ | FdErr _) | TSsh, (SshRc _ | SshEof) | TOssl, (Ossl _ _ | OsslSock _) | TMbed, (Mbed _ | MbedSock _) => True
  | _, _ => False
  end.
Definition c204_full : Prop := forall t running fd_ok poll ssh l buf, Forall (of_transport t) l ->
  write_all running (is_connected t fd_ok poll ssh) l buf <> Killed.
(** Over SSH and MbedTLS never; over the others if the end of the connection is seen by poll(), or comes only after the call. *)
Theorem c204_alive_partial : forall t running fd_ok poll ssh l buf, Forall (of_transport t) l ->
  t = TSsh \/ t = TMbed \/ poll = Some true \/ ~ In (fails t EPIPE) l ->
  write_all running (is_connected t fd_ok poll ssh) l buf <> Killed.
Proof.
  intros t running fd_ok poll ssh l buf F H. unfold write_all. destruct running; [|discriminate].
  destruct (is_connected t fd_ok poll ssh) eqn:C; [|discriminate]. cbn [andb].
  assert (S : Forall (fun a => signals a = false) l).
  { apply Forall_forall. intros a A. rewrite Forall_forall in F. specialize (F a A).
    destruct H as [H|[H|[H|H]]].
    - subst t. now destruct a.
    - subst t. now destruct a.
    - subst poll. destruct t; cbn in C; try (destruct fd_ok; discriminate C). now destruct a.
    - destruct a as [r|e|r| |rc e|e|rc|e]; try reflexivity; cbn; apply eqb_ne; intros ->; apply H; destruct t; cbn in F; try contradiction; exact A. }
  clear - S. revert buf. induction S as [|a l A S IH]; intros buf; cbn [write_loop]; [discriminate|]. rewrite A.
  destruct (write_ev a); try discriminate.
  - destruct (dropN k buf); [discriminate|apply IH].
  - destruct buf; [discriminate|apply IH].
  - destruct buf; [discriminate|apply IH].
Qed.
(** The peer closes the connection after poll(); with separate descriptors it can have done so before, only the one for reading is polled. *)
Theorem c204_signal_refuted : forall t, t = TFd \/ t = TUnix \/ t = TOssl -> exists l, Forall (of_transport t) l /\
  write_all true (is_connected t true (Some false) true) l (bs "<rpc/>") = Killed.
Proof. intros t H. exists [fails t EPIPE]. destruct H as [H|[H|H]]; subst t; (split; [repeat constructor|vm_compute; reflexivity]). Qed.
Theorem c204_full_refuted : ~ c204_full.
Proof. intros H. destruct (c204_signal_refuted TFd (or_introl eq_refl)) as (l & A & B). exact (H _ _ _ _ _ _ _ A B). Qed.
(** Nobody there according to poll(): nothing is written. *)
Theorem c204_gone : forall t running ssh l buf, t <> TSsh -> write_all running (is_connected t true (Some true) ssh) l buf = Came WFailed.
Proof. intros [] running ssh l buf T; try (now destruct T); destruct running; reflexivity. Qed.
Example c204_example : write_all true (is_connected TUnix true (Some false) false) [Fd 3; FdErr EINTR; Fd 3] (bs "<rpc/>") = Came WSent.
Proof. vm_compute. reflexivity. Qed.

(** Without a signal, the loop is the one of IoWrite. *)
Theorem write_loop_same : forall l wire buf, Forall (fun a => signals a = false) l -> write_loop l buf = Came (fst (nc_write_loop (map write_ev l) wire buf)).
Proof.
  intros l wire buf S. revert wire buf. induction S as [|a l A S IH]; intros wire buf; cbn [write_loop map nc_write_loop]; [reflexivity|]. rewrite A.
  destruct (write_ev a); try reflexivity.
  - destruct (dropN k buf); [reflexivity|apply IH].
  - destruct buf; [reflexivity|apply IH].
  - destruct buf; [reflexivity|apply IH].
Qed.

Print Assumptions c199_ends_partial.
Print Assumptions c199_endless.
Print Assumptions c199_mbed_refuted.
Print Assumptions c200_ends_partial.
Print Assumptions c200_until_timeout.
Print Assumptions c200_mbed_refuted.
Print Assumptions c201_openssl.
Print Assumptions c201_mbed_partial.
Print Assumptions c201_mbed_endless.
Print Assumptions c201_mbed_refuted.
Print Assumptions c202_ends_partial.
Print Assumptions c202_until_timeout.
Print Assumptions c202_mbed_refuted.
Print Assumptions c203_same_partial.
Print Assumptions c203_errors_refuted.
Print Assumptions c203_reason.
Print Assumptions c203_counted.
Print Assumptions c204_alive_partial.
Print Assumptions c204_signal_refuted.
Print Assumptions c204_full_refuted.
Print Assumptions c204_gone.
