(** Model of the certificate expiration notifications, src/session_server.c 3361-4000. *)
From Coq Require Import ZArith Bool Lia List.
Import ListNotations.
Local Open Scope Z_scope.

(* ------------------------------------------------------------------ *)
(** ** Calendar arithmetic *)

(** session_p.h 399-404 [struct nc_cert_exp_time] *)
Record ptime := mkP { pt_months : Z; pt_weeks : Z; pt_days : Z; pt_hours : Z }.

(** Day number (from 1970-01-01) of the first day of a month, months counted from January of the year 0 of the Gregorian calendar. *)
Definition month_day (k : Z) : Z :=
  let y := k / 12 in let m := k mod 12 + 1 in
  let y' := if m <=? 2 then y - 1 else y in
  let era := y' / 400 in let yoe := y' mod 400 in
  let doy := (153 * (m + (if 2 <? m then -3 else 9)) + 2) / 5 in
  era * 146097 + (yoe * 365 + yoe / 4 - yoe / 100 + doy) - 719468.

(** The month a day is in. *)
Definition day_month (d : Z) : Z :=
  let z := d + 719468 in
  let era := z / 146097 in let doe := z mod 146097 in
  let yoe := (doe - doe / 1460 + doe / 36524 - doe / 146096) / 365 in
  let doy := doe - (365 * yoe + yoe / 4 - yoe / 100) in
  let mp := (5 * doy + 2) / 153 in
  let m := if mp <? 10 then mp + 3 else mp - 9 in
  let y := yoe + era * 400 + (if m <=? 2 then 1 else 0) in
  12 * y + (m - 1).

(** localtime_r(), changed fields, mktime() in the time zone UTC without leap seconds.  Fields out of range are normalised by
    mktime(): months first, then days and hours simply count. *)
Definition shift (t months days hours : Z) : Z :=
  let d := t / 86400 in
  let k := day_month d in
  (month_day (k + months) + (d - month_day k) + days) * 86400 + t mod 86400 + hours * 3600.

(** Lines 3361-3379 [nc_server_notif_cert_exp_time_add].  Neither function fails. *)
Definition utc_add (t : Z) (p : ptime) : option Z := Some (shift t (pt_months p) (7 * pt_weeks p + pt_days p) (pt_hours p)).
(** Lines 3388-3406 [nc_server_notif_cert_exp_time_sub] *)
Definition utc_sub (t : Z) (p : ptime) : option Z := Some (shift t (- pt_months p) (- (7 * pt_weeks p) - pt_days p) (- pt_hours p)).

(* ------------------------------------------------------------------ *)
(** ** Notification times *)

Section CertExp.
(** Addition and subtraction, [None] for -1. *)
Variable add sub : Z -> ptime -> option Z.

(** session_p.h 599-602 [struct nc_interval] *)
Record interval := mkI { iv_anchor : ptime; iv_period : ptime }.

(** session_p.h 409-417 [struct nc_cert_expiration] without the XPath. *)
Record cexp := mkE { ce_starts : list Z; ce_cur : nat; ce_exp : Z; ce_notif : Z }.

(** Result of a function: a value, an error it reports, or an access out of bounds (or, with too little fuel, no result). *)
Inductive res {A} := Ok (a : A) | Err | Bad.
Arguments res : clear implicits.

Definition day_period := mkP 0 0 1 0.

(** Lines 3416-3451 [nc_server_notif_cert_exp_next_notif_time_get]: the interval and the time.  difftime() is exact. *)
Definition next_notif (ivs : list interval) (now : Z) (e : cexp) : res (nat * Z) :=
  if ce_exp e - now <? 0 then
    match add (ce_notif e) day_period with Some t => Ok (ce_cur e, t) | None => Err end
  else
    match nth_error ivs (ce_cur e) with
    | None => Bad
    | Some iv =>
        match add (ce_notif e) (iv_period iv) with
        | None => Err
        | Some t =>
            if Nat.eqb (ce_cur e) (length ivs - 1) then Ok (ce_cur e, t)
            else match nth_error (ce_starts e) (S (ce_cur e)) with
                 | None => Bad
                 | Some s => if 0 <? s - t then Ok (ce_cur e, t) else Ok (S (ce_cur e), s)
                 end
        end
    end.

(** Lines 3461-3478 [nc_server_notif_cert_exp_init_intervals]; malloc() is taken to succeed. *)
Fixpoint init_starts (ivs : list interval) (exp : Z) : option (list Z) :=
  match ivs with
  | [] => Some []
  | iv :: ivs' => match sub exp (iv_anchor iv) with
                  | None => None
                  | Some s => match init_starts ivs' exp with Some l => Some (s :: l) | None => None end
                  end
  end.

(** Lines 3516-3521: the interval [now] is in, of the intervals from [i] on. *)
Fixpoint find_interval (starts : list Z) (i : nat) (now : Z) : nat :=
  match starts with
  | s :: ((s' :: _) as rest) => if (0 <=? now - s) && (now - s' <? 0) then i else find_interval rest (S i) now
  | _ => i
  end.

(** Lines 3524-3539: the loop. *)
Fixpoint first_loop (fuel : nat) (ivs : list interval) (starts : list Z) (now : Z) (i : nat) (t : Z) : res (nat * Z) :=
  match fuel with
  | O => Bad
  | S fuel' =>
      if t - now <? 0 then
        match nth_error ivs i with
        | None => Bad
        | Some iv =>
            match add t (iv_period iv) with
            | None => Err
            | Some t' =>
                if Nat.eqb i (length ivs - 1) then first_loop fuel' ivs starts now i t'
                else match nth_error starts (S i) with
                     | None => Bad
                     | Some s => if 0 <=? t' - s then Ok (S i, s) else first_loop fuel' ivs starts now i t'
                     end
            end
        end
      else Ok (i, t)
  end.

(** Lines 3489-3544 [nc_server_notif_cert_exp_first_notif_time_get] *)
Definition first_notif (fuel : nat) (ivs : list interval) (starts : list Z) (exp now : Z) : res (nat * Z) :=
  match starts with
  | [] => Bad
  | s0 :: _ =>
      if 0 <? s0 - now then Ok (O, s0)
      else if exp - now <? 0 then Ok ((length ivs - 1)%nat, now)
      else let i := find_interval starts 0 now in
           match nth_error starts i with None => Bad | Some s => first_loop fuel ivs starts now i s end
  end.

(** Lines 3765-3804 [nc_server_notif_cert_exp_wakeup_time_get]: the times of the certificates; the time and the certificate. *)
Fixpoint wakeup_loop (l : list Z) (i : nat) (now : Z) (min wake : Z) (next : option nat) : Z * option nat :=
  match l with
  | [] => (wake, next)
  | t :: l' => let diff := t - now in
               if diff <=? 0 then (0, Some i)
               else if diff <? min then wakeup_loop l' (S i) now diff t (Some i)
               else wakeup_loop l' (S i) now min wake next
  end.
Definition LONG_MAX := 2 ^ 63 - 1.
Definition wakeup (l : list Z) (now : Z) : Z * option nat :=
  match l with
  | [] => (now + 365 * 24 * 60 * 60, None)
  | _ => wakeup_loop l 0 now LONG_MAX 0 None
  end.

(** Lines 3900-3996, for one certificate: the notifications sent at the given times (of the call of time(NULL) after each), as
    long as the configuration stays.  The list has the notification time at each turn. *)
Fixpoint notifications (ivs : list interval) (e : cexp) (nows : list Z) : res (list Z) :=
  match nows with
  | [] => Ok [ce_notif e]
  | now :: nows' =>
      match next_notif ivs now e with
      | Ok (i, t) => match notifications ivs (mkE (ce_starts e) i (ce_exp e) t) nows' with Ok l => Ok (ce_notif e :: l) | Err => Err | Bad => Bad end
      | Err => Err
      | Bad => Bad
      end
  end.
End CertExp.
Arguments res : clear implicits.

(** Lines 3895-3899: the default intervals. *)
Definition default_intervals : list interval :=
  [mkI (mkP 3 0 0 0) (mkP 1 0 0 0); mkI (mkP 0 2 0 0) (mkP 0 1 0 0); mkI (mkP 0 0 7 0) (mkP 0 0 1 0)].
