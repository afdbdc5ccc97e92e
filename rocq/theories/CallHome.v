(** Model of the Call Home client thread of the server, src/session_server.c. *)
From Coq Require Import Ascii String NArith ZArith Bool Lia List.
From Verif Require Import Bytes CStr.
Import ListNotations.
Local Open Scope Z_scope.

(** session.h [NC_CH_START_WITH]: anything but the first two means random. *)
Inductive startw := FirstListed | LastConnected | RandomOne.

(** session_p.h 529-571 [struct nc_ch_client]: names of the endpoints, persistent or periodic with the period in minutes
    (uint16_t), anchor (time_t, 0 for none) and idle timeout (uint16_t), start policy, attempts (uint8_t), seconds to wait. *)
Record chcfg := mkCh {
  ch_eps : list bytes; ch_periodic : bool; ch_period : Z; ch_anchor : Z; ch_idle : Z;
  ch_start : startw; ch_max : Z; ch_wait : Z }.

(** The search for an endpoint by name, lines 3077-3081 and 3110-3114. *)
Fixpoint index (n : bytes) (l : list bytes) : option nat :=
  match l with
  | [] => None
  | x :: l' => if streq x n then Some O else match index n l' with Some i => Some (S i) | None => None end
  end.

(** Lines 3045-3051: seconds until the reconnection.  C's % truncates; the result is stored in a uint32_t.
    [None]: division by zero. *)
Definition reconnect_in (c : chcfg) (now : Z) : option Z :=
  if ch_anchor c =? 0 then Some (ch_period c * 60 mod 2 ^ 32)
  else if ch_period c * 60 =? 0 then None
  else Some (Z.rem (now - ch_anchor c) (ch_period c * 60) mod 2 ^ 32).

(** Lines 2892-2903: the wait in milliseconds, as given to nc_timeouttime_get() (uint32_t). *)
Definition wait_ms (s : Z) : Z := s * 1000 mod 2 ^ 32.

(** The variables of the thread: the configuration while it is locked, [cur_endpt] as a position, [cur_endpt_name],
    [cur_attempts]. *)
Record chst := mkSt { st_cfg : chcfg; st_pos : nat; st_name : bytes; st_att : Z }.

(** What a round of the main loop meets.  [REnd]: the thread is told to stop.  [RFail]: the connection fails; whether the
    thread goes on after the wait; the client when locked again ([None]: removed).  [RConn]: it succeeds; whether the thread is
    still running; what waiting for the end of the session returned; still running; the client when locked again; the time; (periodic)
    whether it goes on after the wait and the client after it; rand(). *)
Inductive round :=
| REnd
| RFail (go : bool) (c : option chcfg)
| RConn (run1 : bool) (w : Z) (run2 : bool) (c : option chcfg) (now : Z) (go : bool) (c2 : option chcfg) (rnd : nat).

(** How the thread ends: returning (with a session that was not given to the user or not), or by assert(), division by zero or
    using a NULL pointer. *)
Inductive fin := Returned (lost_session : bool) | Crashed.

(** Lines 3134-3136: [cur_endpt] for an index. *)
Definition goto (c : chcfg) (i : nat) (att : Z) : chst + fin :=
  match nth_error (ch_eps c) i with Some n => inl (mkSt c i n att) | None => inr Crashed end.

(** Lines 3071-3091: the endpoint to start with. *)
Definition start_index (c : chcfg) (name : bytes) (rnd : nat) : nat :=
  match ch_start c with
  | FirstListed => O
  | LastConnected => match index name (ch_eps c) with Some i => i | None => O end
  | RandomOne => Nat.modulo rnd (length (ch_eps c))
  end.

(** Lines 3107-3131: after a failed connection; [++cur_attempts] is modulo 256. *)
Definition after_fail (c : chcfg) (name : bytes) (att : Z) : nat * Z :=
  let att := (att + 1) mod 256 in
  match index name (ch_eps c) with
  | None => (O, 0)
  | Some i => if att =? ch_max c then ((if Nat.ltb i (length (ch_eps c) - 1) then S i else O), 0) else (i, att)
  end.

(** Lines 3011-3137: one round of the loop.  nc_server_ch_client_with_endpt_lock() (2961-2985) returns clients with endpoints only,
    so every configuration in a round is taken to have some.  The state goes on or the thread ends. *)
Definition ch_round (s : chst) (r : round) : chst + fin :=
  match r with
  | REnd => inr (Returned false)
  | RFail go c =>
      if go then
        match c with
        | None => inr Crashed
        | Some c => let '(i, att) := after_fail c (st_name s) (st_att s) in goto c i att
        end
      else inr (Returned false)
  | RConn run1 w run2 c now go c2 rnd =>
      if negb run1 then inr (Returned true)
      else if negb (w =? 0) then inr (Returned false)
      else if negb run2 then inr (Returned false)
      else match c with
           | None => inr (Returned false)
           | Some c =>
               if ch_periodic c then
                 match reconnect_in c now with
                 | None => inr Crashed
                 | Some _ => if go then match c2 with
                                        | None => inr Crashed
                                        | Some c2 => goto c2 (start_index c2 (st_name s) rnd) (st_att s)
                                        end
                             else inr (Returned false)
                 end
               else goto c (start_index c (st_name s) rnd) (st_att s)
           end
  end.

(** Lines 3000-3137: the endpoint tried in each round, until the rounds are used up or the thread ends. *)
Fixpoint ch_run (s : chst) (rs : list round) : list (bytes * round) * (chst + fin) :=
  match rs with
  | [] => ([], inl s)
  | REnd :: _ => ([], inr (Returned false))
  | r :: rs' => match ch_round s r with
                | inl s' => let '(l, e) := ch_run s' rs' in ((st_name s, r) :: l, e)
                | inr f => ([(st_name s, r)], inr f)
                end
  end.

(** Lines 3000-3009: the beginning. *)
Definition ch_begin (c : chcfg) : chst + fin := goto c 0 0.

(* ------------------------------------------------------------------ *)
(** ** Waiting for the end of a session *)

(** One turn of the loop of lines 2821-2862: the condition was signalled, timed out or failed; the status of the session is still
    running when seen after the wait; the client ([None]: removed); the session has subscriptions; the time in seconds; the time of
    the last RPC; and the session is still running at the end of the turn (line 2864), if not terminated by it. *)
Inductive wres := WSignal | WTimeout | WError.
Record turn := mkTurn { tn_res : wres; tn_running : bool; tn_client : option chcfg; tn_subs : bool; tn_now : Z; tn_last : Z; tn_still : bool }.

(** Result: return value, and whether the session was terminated for being idle. *)
Inductive wend := WEnd (rc : Z) (idle : bool) | WMore.

Definition idle_turn (t : turn) : wend :=
  match tn_res t with
  | WError => WEnd (-1) false
  | r =>
      if match r with WSignal => negb (tn_running t) | _ => false end then WEnd 0 false
      else match tn_client t with
           | None => WEnd 1 false
           | Some c =>
               let idle := if ch_periodic c then ch_idle c else 0 in
               if negb (tn_subs t) && negb (idle =? 0) && (tn_last t + idle <=? tn_now t) then WEnd 0 true
               else if tn_still t then WMore else WEnd 0 false
           end
  end.

(** Lines 2797-2880 [nc_server_ch_client_thread_session_cond_wait]; [taken]: the callback for new sessions returned 0. *)
Fixpoint idle_loop (l : list turn) : wend :=
  match l with [] => WMore | t :: l' => match idle_turn t with WMore => idle_loop l' | r => r end end.
Definition session_wait (taken : bool) (l : list turn) : wend := if taken then idle_loop l else WEnd 0 false.
