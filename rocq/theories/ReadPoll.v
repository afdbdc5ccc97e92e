(** Waiting for a message: io.c 388-484 [nc_read_poll], 486-516 [nc_read_msg_poll_io], 270-387 [nc_read_msg_io] (locks only), session.c 424-451
    [nc_session_io_lock]. *)
From Coq Require Import ZArith Bool List.
From Verif Require Import Time.
Import ListNotations.
Local Open Scope Z_scope.

(** session_p.h: the status and the reason of termination (session.h), as far as this code knows them. *)
Inductive status := Starting | Running | Other.
Inductive reason := RNone | ROther | RDropped.
(** [invalid]: the status was set to NC_STATUS_INVALID here. *)
Record sess := mkS { se_status : status; se_invalid : bool; se_reason : reason }.
Definition works (s : sess) : bool := match se_status s with Other => false | _ => true end.
Definition invalidate (r : reason) : sess := mkS Other true r.

Inductive trans := TNone | TFd | TUnix | TSsh | TTls.
(** Bits of [revents]. *)
Record events := mkEv { e_in : bool; e_err : bool; e_hup : bool }.
Definition no_events : events := mkEv false false false.

(** What the outside does: ssh_channel_poll_timeout() and the time when it returns; SSL_pending() or mbedtls_ssl_get_bytes_avail(); the returns
    of poll() and what is in [revents] after nc_poll(). *)
Record world := mkW { w_ssh : Z * tspec; w_pending : Z; w_poll : list pret; w_revents : events }.

Definition INT_MAX : Z := 2147483647.
(** libssh.h *)
Definition SSH_ERROR : Z := -1.
Definition SSH_EOF : Z := -127.

Inductive pres := Done (ret : Z) (s : sess) (t : tspec) | Waits | Undef.

(** io.c 460-483: the result of poll. *)
Definition result (ret : Z) (ev : events) (s : sess) : Z * sess :=
  if ret <? 0 then (-1, invalidate ROther)
  else if e_err ev then (-1, invalidate ROther)
  else if e_hup ev && negb (e_in ev) then (-1, invalidate RDropped)
  else (ret, s).
Definition finish (ret : Z) (ev : events) (s : sess) (t : tspec) : pres := let '(r, s') := result ret ev s in Done r s' t.

(** io.c 440-452 at the time [now]. *)
Definition by_poll (w : world) (tmo : Z) (now : tspec) (s : sess) : pres :=
  match nc_poll now tmo (w_poll w) with
  | Ret rc t => finish rc (w_revents w) s t
  | Unfinished => Waits
  | UBOverflow => Undef
  end.

(** io.c 388-484 [nc_read_poll] at the time [now].  The messages are not modelled. *)
Definition read_poll (tr : trans) (w : world) (tmo : Z) (now : tspec) (s : sess) : pres :=
  if negb (works s) then Done (-1) s now
  else
    match tr with
    | TSsh =>
        let '(rc, t) := w_ssh w in
        if rc =? SSH_ERROR then Done (-1) (invalidate ROther) t
        else if rc =? SSH_EOF then Done (-1) (invalidate RDropped) t
        else if 0 <? rc then finish 1 (mkEv true false false) s t
        else finish rc no_events s t
    | TTls => if w_pending w =? 0 then by_poll w tmo now s else finish 1 (mkEv true false false) s now
    | TFd | TUnix => by_poll w tmo now s
    | TNone => Done (-1) s now
    end.
(** The timeout given to ssh_channel_poll_timeout (407-413). *)
Definition ssh_tmo (tmo : Z) : Z := if tmo =? -1 then INT_MAX else tmo.

(** What pthread_mutex_clocklock() and the like answer: 0, EBUSY or ETIMEDOUT, another error; session.c 424-451 [nc_session_io_lock]. *)
Inductive mutex := Gets | Busy | MError.
Definition io_lock (m : mutex) : Z := match m with Gets => 1 | Busy => 0 | MError => -1 end.

(** What is done with the lock and the transport, with times; waiting that has not ended has no [to]. *)
Inductive act := Lock | Unlock | Polls (tmo : Z) (from : tspec) (to : option tspec) | Reads (t : tspec).
Inductive mres := MDone (ret : Z) (s : sess) (l : list act) | MWaits (l : list act) | MUndef (l : list act).

(** io.c 270-387 [nc_read_msg_io] with the lock passed: [rd]: its result and the session after reading. *)
Definition read_msg_io (rd : sess -> Z * sess) (t : tspec) (s : sess) : Z * sess * list act :=
  if negb (works s) then (-1, s, [Unlock])
  else let '(r, s') := rd s in (r, s', [Reads t; Unlock]).

(** io.c 486-516 [nc_read_msg_poll_io]: [m] and [tl]: what the mutex answers and when; [s']: the session then. *)
Definition read_msg_poll_io (tr : trans) (w : world) (rd : sess -> Z * sess) (tmo : Z) (m : mutex) (tl : tspec) (s s' : sess) : mres :=
  if negb (works s) then MDone (-1) s []
  else
    let ret := io_lock m in
    if ret <? 1 then MDone ret s' []
    else
      match read_poll tr w tmo tl s' with
      | Done ret s'' t =>
          if ret <? 1 then MDone ret s'' [Lock; Polls tmo tl (Some t); Unlock]
          else let '(r, s3, l) := read_msg_io rd t s'' in MDone r s3 ([Lock; Polls tmo tl (Some t)] ++ l)
      | Waits => MWaits [Lock; Polls tmo tl None]
      | Undef => MUndef [Lock; Polls tmo tl None]
      end.
