(** The calendar arithmetic of the expiration notifications goes forward. *)
From Coq Require Import ZArith Bool Lia List.
From Verif Require Import CertExp.
Import ListNotations.
Local Open Scope Z_scope.

Ltac dlia := Z.to_euclidean_division_equations; lia.

(** Days of the years before the year [y] (from March), days of the months before month [m] (from March), from 0000-03-01. *)
Definition year_days (y : Z) : Z := 365 * y + y / 4 - y / 100 + y / 400.
Definition months_days (m : Z) : Z := (153 * m + 2) / 5.

Lemma month_day_alt k : month_day k = year_days ((k - 2) / 12) + months_days ((k - 2) mod 12) - 719468.
Proof.
  unfold month_day, year_days, months_days.
  assert (C : (k mod 12 <= 1 /\ (k - 2) / 12 = k / 12 - 1 /\ (k - 2) mod 12 = k mod 12 + 10) \/
              (1 < k mod 12 /\ (k - 2) / 12 = k / 12 /\ (k - 2) mod 12 = k mod 12 - 2)) by dlia.
  destruct C as [(L & A & B)|(L & A & B)]; rewrite A, B.
  - destruct (Z.leb_spec (k mod 12 + 1) 2); [|lia]. destruct (Z.ltb_spec 2 (k mod 12 + 1)); [lia|].
    replace (k mod 12 + 1 + 9) with (k mod 12 + 10) by lia. generalize (k / 12 - 1). intros y. dlia.
  - destruct (Z.leb_spec (k mod 12 + 1) 2); [lia|]. destruct (Z.ltb_spec 2 (k mod 12 + 1)); [|lia].
    replace (k mod 12 + 1 + -3) with (k mod 12 - 2) by lia. generalize (k / 12). intros y. dlia.
Qed.

Lemma year_step y : year_days y + 365 <= year_days (y + 1) <= year_days y + 366.
Proof. unfold year_days. dlia. Qed.

Lemma months_step m : 0 <= m -> months_days m + 30 <= months_days (m + 1).
Proof. unfold months_days. dlia. Qed.

(** Months have at least 28 days. *)
Lemma month_step k : month_day k + 28 <= month_day (k + 1).
Proof.
  rewrite !month_day_alt. pose proof (year_step ((k - 2) / 12)) as Y.
  assert (C : ((k - 2) mod 12 < 11 /\ (k + 1 - 2) / 12 = (k - 2) / 12 /\ (k + 1 - 2) mod 12 = (k - 2) mod 12 + 1) \/
              ((k - 2) mod 12 = 11 /\ (k + 1 - 2) / 12 = (k - 2) / 12 + 1 /\ (k + 1 - 2) mod 12 = 0)) by dlia.
  destruct C as [(L & A & B)|(L & A & B)]; rewrite A, B.
  - pose proof (months_step ((k - 2) mod 12) ltac:(dlia)). lia.
  - rewrite L. change (months_days 11) with 337. change (months_days 0) with 0. lia.
Qed.

Lemma month_steps k n : 0 <= n -> month_day k + 28 * n <= month_day (k + n).
Proof.
  intros Hn. pattern n. apply natlike_ind; [|intros x Hx IH|exact Hn].
  - replace (k + 0) with k by lia. lia.
  - replace (k + Z.succ x) with (k + x + 1) by lia. pose proof (month_step (k + x)). lia.
Qed.

(** The year of a day, within 400 years. *)
Definition year_sum (d : Z) : Z := d - d / 1460 + d / 36524 - d / 146096.

Lemma year_sum_step d : 0 <= d < 146096 -> year_sum d <= year_sum (d + 1).
Proof. unfold year_sum. intros H. dlia. Qed.

Lemma year_sum_mono n : forall d, 0 <= n -> 0 <= d -> d + n <= 146096 -> year_sum d <= year_sum (d + n).
Proof.
  intros d Hn Hd. pattern n. apply natlike_ind; [|intros x Hx IH|exact Hn]; intros Hb.
  - replace (d + 0) with d by lia. lia.
  - specialize (IH ltac:(lia)). replace (d + Z.succ x) with (d + x + 1) by lia. pose proof (year_sum_step (d + x) ltac:(lia)). lia.
Qed.

Fixpoint allb (n : nat) (f : Z -> bool) (z : Z) : bool :=
  match n with O => true | S n' => f z && allb n' f (z + 1) end.

Lemma allb_spec n f : forall z, allb n f z = true -> forall x, z <= x < z + Z.of_nat n -> f x = true.
Proof.
  induction n as [|n IH]; intros z H x Hx; [lia|]. cbn [allb] in H. apply andb_true_iff in H. destruct H as [A B].
  destruct (Z.eq_dec x z) as [->|]; [exact A|]. apply (IH (z + 1) B). lia.
Qed.

(** First and last day of each of the 400 years. *)
Lemma year_ends y : 0 <= y < 400 -> year_sum (year_days y) / 365 = y /\ year_sum (year_days (y + 1) - 1) / 365 = y.
Proof.
  intros H. assert (A : allb 400 (fun y => (year_sum (year_days y) / 365 =? y) && (year_sum (year_days (y + 1) - 1) / 365 =? y)) 0 = true) by (vm_compute; reflexivity).
  pose proof (allb_spec _ _ _ A y ltac:(lia)) as B. cbv beta in B. apply andb_true_iff in B. rewrite !Z.eqb_eq in B. exact B.
Qed.

Lemma year_days_bounds y : 0 <= y <= 400 -> 365 * y <= year_days y <= 146097.
Proof. unfold year_days. intros H. dlia. Qed.

Lemma year_of d y : 0 <= d < 146097 -> y = year_sum d / 365 -> 0 <= y < 400 /\ year_days y <= d < year_days (y + 1).
Proof.
  intros Hd Ey.
  assert (Hy : 0 <= y < 400).
  { pose proof (year_sum_mono d 0 ltac:(lia) ltac:(lia) ltac:(lia)) as A. pose proof (year_sum_mono (146096 - d) d ltac:(lia) ltac:(lia) ltac:(lia)) as B.
    replace (0 + d) with d in A by lia. replace (d + (146096 - d)) with 146096 in B by lia. change (year_sum 0) with 0 in A. change (year_sum 146096) with 145999 in B.
    clear -A B Ey. dlia. }
  split; [exact Hy|]. destruct (Z_lt_le_dec d (year_days y)) as [L|L].
  - exfalso. assert (y <> 0). { intros E. rewrite E in L. change (year_days 0) with 0 in L. lia. }
    destruct (year_ends (y - 1) ltac:(lia)) as [_ E]. replace (y - 1 + 1) with y in E by lia.
    pose proof (year_days_bounds y ltac:(lia)). pose proof (year_sum_mono (year_days y - 1 - d) d ltac:(lia) ltac:(lia) ltac:(lia)) as M.
    replace (d + (year_days y - 1 - d)) with (year_days y - 1) in M by lia.
    pose proof (Z.div_le_mono _ _ 365 ltac:(lia) M). lia.
  - split; [exact L|]. destruct (Z_lt_le_dec d (year_days (y + 1))) as [G|G]; [exact G|]. exfalso.
    pose proof (year_days_bounds (y + 1) ltac:(lia)).
    assert (y + 1 < 400). { destruct (Z.eq_dec (y + 1) 400) as [E|]; [|lia]. rewrite E in G. change (year_days 400) with 146097 in G. lia. }
    destruct (year_ends (y + 1) ltac:(lia)) as [E _].
    pose proof (year_sum_mono (d - year_days (y + 1)) (year_days (y + 1)) ltac:(lia) ltac:(lia) ltac:(lia)) as M.
    replace (year_days (y + 1) + (d - year_days (y + 1))) with d in M by lia.
    pose proof (Z.div_le_mono _ _ 365 ltac:(lia) M) as M2. lia.
Qed.

Lemma months_of doy : months_days ((5 * doy + 2) / 153) <= doy < months_days ((5 * doy + 2) / 153 + 1).
Proof. unfold months_days. dlia. Qed.

Lemma year_days_era y e : year_days (y + 400 * e) = year_days y + 146097 * e.
Proof. unfold year_days. dlia. Qed.

(** A day is in its month. *)
Lemma day_month_spec d : month_day (day_month d) <= d < month_day (day_month d + 1).
Proof.
  unfold day_month. set (z := d + 719468). set (doe := z mod 146097). fold (year_sum doe). set (y := year_sum doe / 365).
  pose proof (Z.mod_pos_bound z 146097 ltac:(lia)) as Hb. fold doe in Hb. destruct (year_of doe y Hb eq_refl) as (Hy & Hlo & Hhi).
  pose proof (year_step y) as Ys.
  assert (Ey : 365 * y + y / 4 - y / 100 = year_days y) by (clearbody y; unfold year_days; dlia). rewrite Ey.
  set (doy := doe - year_days y). pose proof (months_of doy) as M. set (mp := (5 * doy + 2) / 153) in *.
  assert (Hdoy : 0 <= doy <= 365) by (unfold doy; lia).
  assert (Hmp : 0 <= mp <= 11) by (unfold mp; clearbody doy; clear - Hdoy; dlia).
  set (k := 12 * _ + _).
  assert (Ez : d = 146097 * (z / 146097) + doe - 719468) by (unfold doe, z; clear; dlia).
  assert (Ek : k - 2 = 12 * (y + 400 * (z / 146097)) + mp).
  { unfold k. clearbody mp y. destruct (Z.ltb_spec mp 10).
    - destruct (Z.leb_spec (mp + 3) 2); lia.
    - destruct (Z.leb_spec (mp - 9) 2); lia. }
  assert (Ed : doe = year_days y + doy) by (unfold doy; lia).
  clearbody k mp doy y doe. set (e := z / 146097) in *. clearbody e.
  rewrite !month_day_alt. replace (k + 1 - 2) with (k - 2 + 1) by lia. rewrite Ek.
  assert (A : (12 * (y + 400 * e) + mp) / 12 = y + 400 * e) by dlia.
  assert (B : (12 * (y + 400 * e) + mp) mod 12 = mp) by dlia.
  rewrite A, B, year_days_era. split; [lia|].
  destruct (Z.eq_dec mp 11) as [E|E].
  - rewrite E. assert (A2 : (12 * (y + 400 * e) + 11 + 1) / 12 = y + 1 + 400 * e) by dlia.
    assert (B2 : (12 * (y + 400 * e) + 11 + 1) mod 12 = 0) by dlia.
    rewrite A2, B2, year_days_era. change (months_days 0) with 0. lia.
  - assert (A2 : (12 * (y + 400 * e) + mp + 1) / 12 = y + 400 * e) by dlia.
    assert (B2 : (12 * (y + 400 * e) + mp + 1) mod 12 = mp + 1) by dlia.
    rewrite A2, B2, year_days_era. lia.
Qed.

(** A period as the YANG module allows: not negative, not empty. *)
Definition positive (p : ptime) : Prop :=
  0 <= pt_months p /\ 0 <= pt_weeks p /\ 0 <= pt_days p /\ 0 <= pt_hours p /\ 0 < pt_months p + pt_weeks p + pt_days p + pt_hours p.

Lemma shift_eq t m d h : shift t m d h = t + (month_day (day_month (t / 86400) + m) - month_day (day_month (t / 86400)) + d) * 86400 + h * 3600.
Proof. unfold shift. pose proof (Z.div_mod t 86400 ltac:(lia)). lia. Qed.

(** Adding a period goes at least an hour forward; without months it is exact. *)
Theorem utc_add_forward t p : positive p -> exists t', utc_add t p = Some t' /\ t + 3600 <= t'.
Proof.
  intros (A & B & C & D & E). eexists. split; [reflexivity|]. rewrite shift_eq.
  pose proof (month_steps (day_month (t / 86400)) (pt_months p) A). lia.
Qed.

Theorem utc_add_exact t p : pt_months p = 0 -> utc_add t p = Some (t + (7 * pt_weeks p + pt_days p) * 86400 + pt_hours p * 3600).
Proof. intros E. unfold utc_add. rewrite shift_eq, E, Z.add_0_r. f_equal. lia. Qed.

(** Subtracting goes back, and a longer time further. *)
Theorem utc_sub_back t p : positive p -> exists t', utc_sub t p = Some t' /\ t' + 3600 <= t.
Proof.
  intros (A & B & C & D & E). eexists. split; [reflexivity|]. rewrite shift_eq.
  pose proof (month_steps (day_month (t / 86400) + - pt_months p) (pt_months p) A) as M.
  replace (day_month (t / 86400) + - pt_months p + pt_months p) with (day_month (t / 86400)) in M by lia. lia.
Qed.

(** 2024-01-31 12:00 and one month is 2024-03-02 12:00; 2000-02-29 and 12 months is 2001-03-01. *)
Example ex_jan31 : utc_add 1706702400 (mkP 1 0 0 0) = Some 1709380800.
Proof. reflexivity. Qed.
Example ex_feb29 : utc_add 951782400 (mkP 12 0 0 0) = Some 983404800.
Proof. reflexivity. Qed.
Example ex_months : day_month 0 = 12 * 1970 /\ month_day (12 * 2024 + 1) = 19754.
Proof. split; reflexivity. Qed.
