(** Model of session_server.c 3239-3294: the counter of subscriptions of a session.  Each function takes the lock of the
    counter for its whole body, so calls of different threads are a sequence. *)
From Coq Require Import NArith List.
Import ListNotations.
Local Open Scope N_scope.

Inductive ncall := NInc | NDec.
(** Lines 3240-3254 [nc_session_inc_notif_status], 3257-3273 [nc_session_dec_notif_status]; the counter is uint32_t. *)
Definition notif_step (n : N) (c : ncall) : N :=
  match c with
  | NInc => (n + 1) mod 4294967296
  | NDec => if n =? 0 then n else n - 1
  end.
(** nc_server_session starts with zeroed options: calloc() in nc_new_session(), session.c 256. *)
Definition notif_run (l : list ncall) : N := fold_left notif_step l 0.
(** Lines 3276-3294 [nc_session_get_notif_status]: the counter as int; non-zero means on. *)
Definition notif_on (l : list ncall) : bool := negb (notif_run l =? 0).
