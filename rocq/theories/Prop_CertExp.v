(** C42: notification times of certificate expiration; C53: stopping the thread. *)
From Coq Require Import ZArith Bool Lia List.
From Verif Require Import CertExp Prop_Calendar.
Import ListNotations.
Local Open Scope Z_scope.

(* ------------------------------------------------------------------ *)
(** ** Specification: the schedule *)

(** The [n]th time of an interval: its start and [n] periods. *)
Fixpoint nth_time (add : Z -> ptime -> option Z) (start : Z) (period : ptime) (n : nat) : option Z :=
  match n with
  | O => Some start
  | S n' => match nth_time add start period n' with Some t => add t period | None => None end
  end.

(** [t] is a time of interval [i]: some periods after its start, before the start of the next interval. *)
Definition time_of (add : Z -> ptime -> option Z) (ivs : list interval) (starts : list Z) (i : nat) (t : Z) : Prop :=
  exists s iv n, nth_error starts i = Some s /\ nth_error ivs i = Some iv /\ nth_time add s (iv_period iv) n = Some t /\
                 (forall s', nth_error starts (S i) = Some s' -> t < s').

Definition scheduled add ivs starts t := exists i, time_of add ivs starts i t.

(** [t] is the first scheduled time that is [from] or later (than [from]). *)
Definition first_at add ivs starts (from t : Z) : Prop :=
  scheduled add ivs starts t /\ from <= t /\ forall x, scheduled add ivs starts x -> from <= x -> t <= x.
Definition first_after add ivs starts (from t : Z) : Prop :=
  scheduled add ivs starts t /\ from < t /\ forall x, scheduled add ivs starts x -> from < x -> t <= x.

(** The intervals start one after the other. *)
Definition ascending (starts : list Z) : Prop :=
  forall i s s', nth_error starts i = Some s -> nth_error starts (S i) = Some s' -> s < s'.

(** Adding a period goes forward. *)
Definition forward (add : Z -> ptime -> option Z) (ivs : list interval) : Prop :=
  forall iv t t', In iv ivs -> add t (iv_period iv) = Some t' -> t < t'.

(* ------------------------------------------------------------------ *)
(** ** Lemmas *)

Section S.
Variable add : Z -> ptime -> option Z.
Variable ivs : list interval.
Variable starts : list Z.
Hypothesis Hlen : length starts = length ivs.
Hypothesis Hasc : ascending starts.
Hypothesis Hfwd : forward add ivs.

Lemma asc_lt i : forall j s s', (i < j)%nat -> nth_error starts i = Some s -> nth_error starts j = Some s' -> s < s'.
Proof.
  induction j as [|j IH]; intros s s' Hij Hs Hs'; [lia|].
  destruct (Nat.eq_dec i j) as [->|]; [exact (Hasc j s s' Hs Hs')|].
  destruct (nth_error starts j) as [sj|] eqn:Ej.
  - pose proof (IH s sj ltac:(lia) Hs eq_refl). pose proof (Hasc j sj s' Ej Hs'). lia.
  - apply nth_error_None in Ej. assert (nth_error starts (S j) = None) by (apply nth_error_None; lia). congruence.
Qed.

Lemma nth_time_mono iv s (Hiv : In iv ivs) : forall m n a b, (n <= m)%nat -> nth_time add s (iv_period iv) n = Some a ->
  nth_time add s (iv_period iv) m = Some b -> a + Z.of_nat (m - n) <= b.
Proof.
  induction m as [|m IH]; intros n a b Hnm Ha Hb.
  - assert (n = O) by lia. subst n. assert (a = b) by congruence. subst. cbn. lia.
  - destruct (Nat.eq_dec n (S m)) as [->|]. { assert (a = b) by congruence. subst. rewrite Nat.sub_diag. lia. }
    cbn [nth_time] in Hb. destruct (nth_time add s (iv_period iv) m) as [c|] eqn:Ec; [|discriminate].
    pose proof (IH n a c ltac:(lia) Ha eq_refl). pose proof (Hfwd iv c b Hiv Hb). lia.
Qed.

Lemma nth_time_prefix p s : forall m n b, (n <= m)%nat -> nth_time add s p m = Some b -> exists a, nth_time add s p n = Some a.
Proof.
  induction m as [|m IH]; intros n b Hnm Hb.
  - assert (n = O) by lia. subst. eauto.
  - destruct (Nat.eq_dec n (S m)) as [->|]; [eauto|]. cbn [nth_time] in Hb.
    destruct (nth_time add s p m) as [c|] eqn:Ec; [|discriminate]. exact (IH n c ltac:(lia) eq_refl).
Qed.

(** Between a time and the next of the interval there is none. *)
Lemma nth_time_gap iv s t t' x n m : In iv ivs -> nth_time add s (iv_period iv) n = Some t -> add t (iv_period iv) = Some t' ->
  nth_time add s (iv_period iv) m = Some x -> x <= t \/ t' <= x.
Proof.
  intros Hiv Ht Ht' Hx. destruct (le_lt_dec m n) as [L|L].
  - left. pose proof (nth_time_mono iv s Hiv n m x t L Hx Ht). lia.
  - right. assert (E : nth_time add s (iv_period iv) (S n) = Some t') by (cbn [nth_time]; rewrite Ht; exact Ht').
    pose proof (nth_time_mono iv s Hiv m (S n) t' x L E Hx). lia.
Qed.

Lemma time_of_ge i s t : time_of add ivs starts i t -> nth_error starts i = Some s -> s <= t.
Proof.
  intros (s' & iv & n & Hs & Hiv & Hn & _) Hs'. assert (s' = s) by congruence. subst.
  pose proof (nth_time_mono iv s (nth_error_In _ _ Hiv) n 0 s t ltac:(lia) eq_refl Hn). lia.
Qed.

Lemma time_of_lt i j s t : time_of add ivs starts i t -> (i < j)%nat -> nth_error starts j = Some s -> t < s.
Proof.
  intros (s' & iv & n & Hs & Hiv & Hn & Hb) Hij Hs'.
  destruct (nth_error starts (S i)) as [si|] eqn:E.
  - specialize (Hb si eq_refl). destruct (Nat.eq_dec j (S i)) as [->|]; [congruence|].
    pose proof (asc_lt (S i) j si s ltac:(lia) E Hs'). lia.
  - apply nth_error_None in E. assert (nth_error starts j = None) by (apply nth_error_None; lia). congruence.
Qed.

Lemma start_time i s iv : nth_error starts i = Some s -> nth_error ivs i = Some iv -> time_of add ivs starts i s.
Proof. intros Hs Hiv. exists s, iv, O. repeat split; auto. intros s' Hs'. exact (Hasc i s s' Hs Hs'). Qed.

Lemma ivs_some i s : nth_error starts i = Some s -> exists iv, nth_error ivs i = Some iv.
Proof.
  intros H. destruct (nth_error ivs i) eqn:E; [eauto|]. apply nth_error_None in E.
  assert (nth_error starts i = None) by (apply nth_error_None; lia). congruence.
Qed.
Lemma starts_some i iv : nth_error ivs i = Some iv -> exists s, nth_error starts i = Some s.
Proof.
  intros H. destruct (nth_error starts i) eqn:E; [eauto|]. apply nth_error_None in E.
  assert (nth_error ivs i = None) by (apply nth_error_None; lia). congruence.
Qed.

(** One step of an interval: to its next time, or to the start of the next interval. *)
Lemma step_within i t t' iv : time_of add ivs starts i t -> nth_error ivs i = Some iv -> add t (iv_period iv) = Some t' ->
  (forall s', nth_error starts (S i) = Some s' -> t' < s') ->
  time_of add ivs starts i t' /\ t < t' /\ forall x, scheduled add ivs starts x -> t < x -> t' <= x.
Proof.
  intros (s & iv' & n & Hs & Hiv' & Hn & Hb) Hiv Ha Hlt. assert (iv' = iv) by congruence. subst iv'.
  split; [|split].
  - exists s, iv, (S n). repeat split; auto. cbn [nth_time]. rewrite Hn. exact Ha.
  - exact (Hfwd iv t t' (nth_error_In _ _ Hiv) Ha).
  - intros x (j & Hx) Hgt. destruct (Nat.lt_trichotomy j i) as [L|[->|L]].
    + pose proof (time_of_lt j i s x Hx L Hs).
      pose proof (nth_time_mono iv s (nth_error_In _ _ Hiv) n 0 s t ltac:(lia) eq_refl Hn). lia.
    + destruct Hx as (s2 & iv2 & m & Hs2 & Hiv2 & Hm & _). assert (s2 = s) by congruence. assert (iv2 = iv) by congruence. subst.
      destruct (nth_time_gap iv s t t' x n m (nth_error_In _ _ Hiv) Hn Ha Hm); lia.
    + pose proof Hx as (s2 & iv2 & m & Hs2 & _). pose proof (time_of_ge j s2 x Hx Hs2).
      destruct (nth_error starts (S i)) as [si|] eqn:E.
      * specialize (Hlt si eq_refl). destruct (Nat.eq_dec j (S i)) as [->|].
        -- assert (si = s2) by congruence. subst. lia.
        -- pose proof (asc_lt (S i) j si s2 ltac:(lia) E Hs2). lia.
      * apply nth_error_None in E. assert (nth_error starts j = None) by (apply nth_error_None; lia). congruence.
Qed.

Lemma step_over i t t' iv s' : time_of add ivs starts i t -> nth_error ivs i = Some iv -> add t (iv_period iv) = Some t' ->
  nth_error starts (S i) = Some s' -> s' <= t' ->
  time_of add ivs starts (S i) s' /\ t < s' /\ forall x, scheduled add ivs starts x -> t < x -> s' <= x.
Proof.
  intros Ht Hiv Ha Hs' Hle. destruct (ivs_some _ _ Hs') as [iv2 Hiv2]. split; [|split].
  - exact (start_time (S i) s' iv2 Hs' Hiv2).
  - exact (time_of_lt i (S i) s' t Ht ltac:(lia) Hs').
  - intros x (j & Hx) Hgt. destruct (Nat.lt_trichotomy j i) as [L|[->|L]].
    + pose proof Ht as (s & _ & _ & Hs & _). pose proof (time_of_lt j i s x Hx L Hs). pose proof (time_of_ge i s t Ht Hs). lia.
    + pose proof (time_of_lt i (S i) s' x Hx ltac:(lia) Hs').
      destruct Ht as (s & iv1 & n & Hs & Hiv1 & Hn & _). destruct Hx as (s2 & iv3 & m & Hs2 & Hiv3 & Hm & _).
      assert (s2 = s) by congruence. assert (iv1 = iv) by congruence. assert (iv3 = iv) by congruence. subst.
      destruct (nth_time_gap iv s t t' x n m (nth_error_In _ _ Hiv) Hn Ha Hm); lia.
    + pose proof Hx as (s2 & iv3 & m & Hs2 & _). pose proof (time_of_ge j s2 x Hx Hs2).
      destruct (Nat.eq_dec j (S i)) as [->|].
      * assert (s' = s2) by congruence. lia.
      * pose proof (asc_lt (S i) j s' s2 ltac:(lia) Hs' Hs2). lia.
Qed.

(** The loop: from a time before now it finds the first scheduled time from now on. *)
Lemma first_loop_spec now : forall fuel i t r, time_of add ivs starts i t ->
  (forall x, scheduled add ivs starts x -> now <= x -> t <= x) ->
  (forall s', nth_error starts (S i) = Some s' -> now < s') ->
  first_loop add fuel ivs starts now i t = Ok r ->
  time_of add ivs starts (fst r) (snd r) /\ now <= snd r /\ forall x, scheduled add ivs starts x -> now <= x -> snd r <= x.
Proof.
  induction fuel as [|fuel IH]; intros i t r Ht Hmin Hn H; cbn [first_loop] in H; [discriminate|].
  destruct (Z.ltb_spec (t - now) 0) as [L|L].
  - destruct (nth_error ivs i) as [iv|] eqn:Eiv; [|discriminate]. destruct (add t (iv_period iv)) as [t'|] eqn:Ea; [|discriminate].
    destruct (Nat.eqb_spec i (length ivs - 1)) as [El|El].
    + assert (Hnone : nth_error starts (S i) = None) by (apply nth_error_None; lia).
      destruct (step_within i t t' iv Ht Eiv Ea) as (A & B & C). { intros s' E'. congruence. }
      apply (IH i t' r A); auto. intros x Hx Hge. apply C; auto. lia.
    + destruct (nth_error starts (S i)) as [s'|] eqn:Es; [|discriminate].
      destruct (Z.leb_spec 0 (t' - s')) as [G|G].
      * injection H as <-. cbn [fst snd]. destruct (step_over i t t' iv s' Ht Eiv Ea Es ltac:(lia)) as (A & B & C).
        split; [exact A|]. split; [specialize (Hn s' eq_refl); lia|]. intros x Hx Hge. apply C; auto. lia.
      * destruct (step_within i t t' iv Ht Eiv Ea) as (A & B & C). { intros s2 E2. assert (s2 = s') by congruence. lia. }
        apply (IH i t' r A); auto.
        -- intros x Hx Hge. apply C; auto. lia.
        -- intros s2 E2. assert (s2 = s') by congruence. subst. apply Hn. reflexivity.
  - injection H as <-. cbn [fst snd]. repeat split; auto. lia.
Qed.

Lemma find_interval_spec now : forall l k, l <> [] -> (forall s, hd_error l = Some s -> s <= now) ->
  let i := find_interval l k now in
  (k <= i)%nat /\ (exists s, nth_error l (i - k) = Some s /\ s <= now) /\ (forall s', nth_error l (S (i - k)) = Some s' -> now < s').
Proof.
  induction l as [|s l IH]; intros k Hne Hh; [congruence|]. cbn zeta.
  destruct l as [|s' l].
  - cbn [find_interval]. rewrite Nat.sub_diag. split; [lia|]. split; [exists s; split; [reflexivity|apply Hh; reflexivity]|]. intros s' E; discriminate.
  - change (find_interval (s :: s' :: l) k now) with (if (0 <=? now - s) && (now - s' <? 0) then k else find_interval (s' :: l) (S k) now).
    pose proof (Hh s eq_refl) as Hs.
    destruct (Z.leb_spec 0 (now - s)) as [A|A]; [|lia]. cbn [andb].
    destruct (Z.ltb_spec (now - s') 0) as [B|B].
    + rewrite Nat.sub_diag. split; [lia|]. split; [exists s; split; [reflexivity|lia]|].
      intros s2 E. cbn in E. injection E as <-. lia.
    + destruct (IH (S k) ltac:(congruence)) as (I1 & I2 & I3). { intros s2 E. cbn in E. injection E as <-. lia. }
      set (i := find_interval (s' :: l) (S k) now) in *. replace (i - k)%nat with (S (i - S k)) by lia.
      split; [lia|]. split; [exact I2|exact I3].
Qed.

(** The first notification is the first scheduled time from now on. *)
Theorem first_spec fuel exp now i t : first_notif add fuel ivs starts exp now = Ok (i, t) ->
  (now <= exp \/ (exists s, hd_error starts = Some s /\ now < s)) ->
  time_of add ivs starts i t /\ first_at add ivs starts now t.
Proof.
  intros H Hn. unfold first_notif in H. destruct starts as [|s0 l] eqn:Est; [discriminate|]. rewrite <- Est in *.
  assert (E0 : nth_error starts 0 = Some s0) by (rewrite Est; reflexivity).
  destruct (ivs_some _ _ E0) as [iv0 Eiv0].
  destruct (Z.ltb_spec 0 (s0 - now)) as [L|L].
  - injection H as <- <-. pose proof (start_time 0 s0 iv0 E0 Eiv0) as T. split; [exact T|]. split; [exists O; exact T|]. split; [lia|].
    intros x (j & Hx) _. pose proof Hx as (sj & _ & _ & Hj & _). pose proof (time_of_ge j sj x Hx Hj).
    destruct j as [|j]; [assert (sj = s0) by congruence; lia|]. pose proof (asc_lt 0 (S j) s0 sj ltac:(lia) E0 Hj). lia.
  - destruct (Z.ltb_spec (exp - now) 0) as [X|X].
    { destruct Hn as [Hn|(s & Hs & Hn)]; [lia|]. rewrite Est in Hs. cbn in Hs. injection Hs as ->. lia. }
    pose proof (find_interval_spec now starts 0 ltac:(rewrite Est; congruence)) as F. cbn zeta in F.
    destruct F as (_ & (s & Es & Hle) & Hnext). { intros s Hs. rewrite Est in Hs. cbn in Hs. injection Hs as <-. lia. }
    rewrite Nat.sub_0_r in Es, Hnext. rewrite Es in H. destruct (ivs_some _ _ Es) as [iv Eiv].
    pose proof (start_time _ s iv Es Eiv) as T.
    assert (Hmin : forall x, scheduled add ivs starts x -> now <= x -> s <= x) by (intros; lia).
    destruct (first_loop_spec now fuel _ s (i, t) T Hmin Hnext H) as (A & B & C). cbn [fst snd] in *.
    split; [exact A|]. split; [eexists; exact A|]. split; assumption.
Qed.

(** The next notification is the first scheduled time after the last one. *)
Theorem next_spec now e i t : ce_starts e = starts -> time_of add ivs starts (ce_cur e) (ce_notif e) -> now <= ce_exp e ->
  next_notif add ivs now e = Ok (i, t) ->
  time_of add ivs starts i t /\ first_after add ivs starts (ce_notif e) t.
Proof.
  intros Est Ht Hnow H. unfold next_notif in H. rewrite Est in H. destruct (Z.ltb_spec (ce_exp e - now) 0) as [L|_]; [lia|].
  destruct (nth_error ivs (ce_cur e)) as [iv|] eqn:Eiv; [|discriminate].
  destruct (add (ce_notif e) (iv_period iv)) as [t'|] eqn:Ea; [|discriminate].
  destruct (Nat.eqb_spec (ce_cur e) (length ivs - 1)) as [El|El].
  - injection H as <- <-. destruct (step_within _ _ t' iv Ht Eiv Ea) as (A & B & C).
    { intros s' E'. assert (nth_error starts (S (ce_cur e)) = None) by (apply nth_error_None; lia). congruence. }
    split; [exact A|]. split; [eexists; exact A|]. split; assumption.
  - destruct (nth_error starts (S (ce_cur e))) as [s'|] eqn:Es; [|discriminate].
    destruct (Z.ltb_spec 0 (s' - t')) as [G|G]; injection H as <- <-.
    + destruct (step_within _ _ t' iv Ht Eiv Ea) as (A & B & C). { intros s2 E2. assert (s2 = s') by congruence. lia. }
      split; [exact A|]. split; [eexists; exact A|]. split; assumption.
    + destruct (step_over _ _ t' iv s' Ht Eiv Ea Es ltac:(lia)) as (A & B & C).
      split; [exact A|]. split; [eexists; exact A|]. split; assumption.
Qed.

(** No access is out of bounds. *)
Lemma next_not_bad now e : ce_starts e = starts -> (ce_cur e < length ivs)%nat -> next_notif add ivs now e <> Bad.
Proof.
  intros Est Hc. unfold next_notif. rewrite Est. destruct (_ <? 0). { destruct (add _ _); discriminate. }
  destruct (nth_error ivs (ce_cur e)) as [iv|] eqn:Eiv. 2: { apply nth_error_None in Eiv. lia. }
  destruct (add _ _); [|discriminate]. destruct (Nat.eqb_spec (ce_cur e) (length ivs - 1)); [discriminate|].
  destruct (nth_error starts (S (ce_cur e))) eqn:Es. 2: { apply nth_error_None in Es. lia. }
  destruct (0 <? _); discriminate.
Qed.

(** The loop ends. *)
Lemma first_loop_ends now : forall fuel i t, (i < length ivs)%nat -> (Z.to_nat (now - t) < fuel)%nat -> first_loop add fuel ivs starts now i t <> Bad.
Proof.
  induction fuel as [|fuel IH]; intros i t Hi Hf; [lia|]. cbn [first_loop]. destruct (Z.ltb_spec (t - now) 0); [|discriminate].
  destruct (nth_error ivs i) as [iv|] eqn:Eiv. 2: { apply nth_error_None in Eiv. lia. }
  destruct (add t (iv_period iv)) as [t'|] eqn:Ea; [|discriminate]. pose proof (Hfwd iv t t' (nth_error_In _ _ Eiv) Ea).
  destruct (Nat.eqb_spec i (length ivs - 1)). { apply IH; lia. }
  destruct (nth_error starts (S i)) as [s'|] eqn:Es. 2: { apply nth_error_None in Es. lia. }
  destruct (0 <=? t' - s'); [discriminate|]. apply IH; lia.
Qed.

Theorem first_ends fuel exp now : ivs <> [] -> (forall s, hd_error starts = Some s -> (Z.to_nat (now - s) < fuel)%nat) ->
  first_notif add fuel ivs starts exp now <> Bad.
Proof.
  intros Hne Hf. unfold first_notif. destruct starts as [|s0 l] eqn:Est.
  - destruct ivs; [congruence|cbn in Hlen; lia].
  - rewrite <- Est in *. destruct (Z.ltb_spec 0 (s0 - now)); [discriminate|]. destruct (exp - now <? 0); [discriminate|].
    pose proof (find_interval_spec now starts 0 ltac:(rewrite Est; congruence)) as F. cbn zeta in F.
    destruct F as (_ & (s & Es & Hle) & Hnext). { intros s Hs. rewrite Est in Hs. cbn in Hs. injection Hs as <-. lia. }
    rewrite Nat.sub_0_r in Es. rewrite Es. apply first_loop_ends.
    + rewrite <- Hlen. apply nth_error_Some. congruence.
    + assert (E0 : nth_error starts 0 = Some s0) by (rewrite Est; reflexivity).
      specialize (Hf s0). rewrite Est in Hf. specialize (Hf eq_refl). assert (s0 <= s); [|lia].
      destruct (find_interval starts 0 now) as [|k] eqn:Ek; [assert (s = s0) by congruence; lia|].
      pose proof (asc_lt 0 (S k) s0 s ltac:(lia) E0 Es). lia.
Qed.

(** Repeated computation: the times follow each other, with nothing scheduled left out. *)
Lemma notifications_spec : forall nows e l, ce_starts e = starts -> time_of add ivs starts (ce_cur e) (ce_notif e) ->
  Forall (fun now => now <= ce_exp e) nows -> notifications add ivs e nows = Ok l ->
  hd_error l = Some (ce_notif e) /\ length l = S (length nows) /\
  (forall x, In x l -> scheduled add ivs starts x) /\
  (forall k a b, nth_error l k = Some a -> nth_error l (S k) = Some b -> first_after add ivs starts a b) /\
  (forall x b, scheduled add ivs starts x -> ce_notif e <= x -> In b l -> x <= b -> In x l) /\
  (forall k a, nth_error l k = Some a -> ce_notif e + Z.of_nat k <= a).
Proof.
  induction nows as [|now nows IH]; intros e l Est Ht Hf H; cbn [notifications] in H.
  - injection H as <-. split; [reflexivity|]. split; [reflexivity|]. split; [|split; [|split]].
    + intros x [<-|[]]. exists (ce_cur e). exact Ht.
    + intros [|k] a b Ha Hb; [discriminate|destruct k; discriminate].
    + intros x b Hx Hge [<-|[]] Hle. left. lia.
    + intros [|k] a Ha; [injection Ha as <-; cbn; lia|destruct k; discriminate].
  - destruct (next_notif add ivs now e) as [[i t]| |] eqn:En; try discriminate.
    destruct (notifications add ivs _ nows) as [l'| |] eqn:El; try discriminate. injection H as <-.
    apply Forall_cons_iff in Hf. destruct Hf as [Hnow Hf'].
    destruct (next_spec now e i t Est Ht Hnow En) as (A & (B1 & B2 & B3)).
    destruct (IH (mkE (ce_starts e) i (ce_exp e) t) l' Est A Hf' El) as (I1 & I2 & I3 & I4 & I5 & I6). cbn [ce_notif] in *.
    split; [reflexivity|]. split; [cbn [length]; lia|]. split; [|split; [|split]].
    + intros x [<-|Hx]; [exists (ce_cur e); exact Ht|apply I3, Hx].
    + intros [|k] a b Ha Hb.
      * cbn in Ha, Hb. destruct l' as [|b' l'']; [discriminate|]. cbn in I1. injection I1 as ->. injection Ha as <-. injection Hb as <-.
        split; [exact B1|]. split; assumption.
      * exact (I4 k a b Ha Hb).
    + intros x b Hx Hge Hb Hle. destruct (Z.eq_dec x (ce_notif e)) as [->|]; [left; reflexivity|]. right.
      assert (t <= x) by (apply B3; auto; lia). destruct Hb as [<-|Hb]; [lia|]. exact (I5 x b Hx ltac:(lia) Hb Hle).
    + intros [|k] a Ha; [injection Ha as <-; cbn; lia|]. cbn in Ha. specialize (I6 k a Ha). lia.
Qed.
End S.

(* ------------------------------------------------------------------ *)
(** ** The calendar never fails and goes forward *)

Definition valid_periods (ivs : list interval) := Forall (fun iv => positive (iv_period iv)) ivs.

Lemma utc_forward ivs : valid_periods ivs -> forward utc_add ivs.
Proof.
  intros H iv t t' Hin Ha. unfold valid_periods in H. rewrite Forall_forall in H.
  destruct (utc_add_forward t _ (H iv Hin)) as (t2 & E & L). assert (t2 = t') by congruence. lia.
Qed.

Lemma utc_first_loop_ok ivs starts now : forall fuel i t, first_loop utc_add fuel ivs starts now i t <> Err.
Proof.
  induction fuel as [|fuel IH]; intros i t; cbn [first_loop]; [discriminate|]. destruct (t - now <? 0); [|discriminate].
  destruct (nth_error ivs i); [|discriminate]. unfold utc_add at 1. destruct (Nat.eqb _ _); [apply IH|].
  destruct (nth_error starts (S i)); [|discriminate]. destruct (0 <=? _); [discriminate|apply IH].
Qed.

Lemma init_starts_len ivs exp : exists l, init_starts utc_sub ivs exp = Some l /\ length l = length ivs.
Proof.
  induction ivs as [|iv ivs (l & E & L)]; [exists []; split; reflexivity|]. cbn [init_starts]. unfold utc_sub at 1. rewrite E.
  eexists. split; [reflexivity|]. cbn [length]. congruence.
Qed.

(* ------------------------------------------------------------------ *)
(** ** C42 *)

(** First notification: before the expiration, a result exists and it is the first scheduled time from now on; after it, it is
    now. *)
Theorem c42_first_partial ivs starts exp now :
  ivs <> [] -> valid_periods ivs -> init_starts utc_sub ivs exp = Some starts -> ascending starts ->
  exists fuel i t, first_notif utc_add fuel ivs starts exp now = Ok (i, t) /\
    (now <= exp -> time_of utc_add ivs starts i t /\ first_at utc_add ivs starts now t) /\
    (exp < now -> hd_error starts <> None -> (forall s, hd_error starts = Some s -> s <= now) -> t = now).
Proof.
  intros Hne Hv Hi Ha. destruct (init_starts_len ivs exp) as (l & E & Hlen). assert (l = starts) by congruence. subst l.
  pose proof (utc_forward ivs Hv) as Hf.
  set (fuel := match starts with s :: _ => S (Z.to_nat (now - s)) | [] => O end).
  exists fuel. pose proof (first_ends utc_add ivs starts Hlen Ha Hf fuel exp now Hne) as Hnb.
  assert (Hnb' : first_notif utc_add fuel ivs starts exp now <> Bad).
  { apply Hnb. intros s Hs. unfold fuel. destruct starts; [discriminate|]. cbn in Hs. injection Hs as ->. lia. }
  destruct (first_notif utc_add fuel ivs starts exp now) as [[i t]| |] eqn:Ef; [| |congruence].
  - exists i, t. split; [reflexivity|]. split.
    + intros Hn. exact (first_spec utc_add ivs starts Hlen Ha Hf fuel exp now i t Ef (or_introl Hn)).
    + intros Hn Hh Hs. unfold first_notif in Ef. destruct starts as [|s0 l]; [cbn in Hh; congruence|]. specialize (Hs s0 eq_refl).
      destruct (Z.ltb_spec 0 (s0 - now)); [lia|]. destruct (Z.ltb_spec (exp - now) 0); [|lia]. congruence.
  - exfalso. unfold first_notif in Ef. destruct starts as [|s0 l]; [discriminate|].
    destruct (0 <? s0 - now); [discriminate|]. destruct (exp - now <? 0); [discriminate|].
    destruct (nth_error _ _); [|discriminate]. exact (utc_first_loop_ok _ _ _ _ _ _ Ef).
Qed.

(** Next notification: until the expiration the first scheduled time after the last notification, then a day later. *)
Theorem c42_next_partial ivs starts now e :
  valid_periods ivs -> init_starts utc_sub ivs (ce_exp e) = Some starts -> ascending starts ->
  ce_starts e = starts -> time_of utc_add ivs starts (ce_cur e) (ce_notif e) ->
  exists i t, next_notif utc_add ivs now e = Ok (i, t) /\
    (now <= ce_exp e -> time_of utc_add ivs starts i t /\ first_after utc_add ivs starts (ce_notif e) t) /\
    (ce_exp e < now -> t = ce_notif e + 86400).
Proof.
  intros Hv Hi Ha Hs Ht. destruct (init_starts_len ivs (ce_exp e)) as (l & E & Hlen). assert (l = starts) by congruence. subst l.
  pose proof (utc_forward ivs Hv) as Hf.
  assert (Hc : (ce_cur e < length ivs)%nat). { destruct Ht as (s & iv & n & _ & Hiv & _). apply nth_error_Some. congruence. }
  pose proof (next_not_bad utc_add ivs starts Hlen now e Hs Hc) as Hnb.
  destruct (next_notif utc_add ivs now e) as [[i t]| |] eqn:En; [| |congruence].
  - exists i, t. split; [reflexivity|]. split.
    + intros Hn. exact (next_spec utc_add ivs starts Hlen Ha Hf now e i t Hs Ht Hn En).
    + intros Hn. unfold next_notif in En. destruct (Z.ltb_spec (ce_exp e - now) 0); [|lia].
      rewrite utc_add_exact in En by reflexivity. unfold day_period in En. cbn [pt_weeks pt_days pt_hours] in En. injection En as <- <-. lia.
  - exfalso. unfold next_notif in En. destruct (_ <? 0); [discriminate|]. destruct (nth_error ivs _); [|discriminate].
    unfold utc_add in En. destruct (Nat.eqb _ _); [discriminate|]. destruct (nth_error _ _); [|discriminate]. destruct (0 <? _); discriminate.
Qed.

(** After the expiration too the times are a day apart for ever, whatever the intervals are. *)
Theorem c42_daily ivs : forall nows e, Forall (fun now => ce_exp e < now) nows ->
  exists l, notifications utc_add ivs e nows = Ok l /\ l = map (fun k => ce_notif e + 86400 * Z.of_nat k) (seq 0 (S (length nows))).
Proof.
  assert (G : forall nows e, Forall (fun now => ce_exp e < now) nows -> notifications utc_add ivs e nows = Ok (map (fun k => ce_notif e + 86400 * Z.of_nat k) (seq 0 (S (length nows))))).
  { induction nows as [|now nows IH]; intros e Hf; cbn [notifications].
    - cbn. f_equal. f_equal. lia.
    - apply Forall_cons_iff in Hf. destruct Hf as [Hn Hf]. unfold next_notif at 1. destruct (Z.ltb_spec (ce_exp e - now) 0); [|lia].
      rewrite utc_add_exact by reflexivity. rewrite IH by exact Hf. f_equal. cbn [length]. change (seq 0 (S (S (length nows)))) with (O :: seq 1 (S (length nows))). rewrite <- (seq_shift (S (length nows)) 0).
      change (map (fun k => ce_notif e + 86400 * Z.of_nat k) (O :: map S (seq 0 (S (length nows))))) with
        ((ce_notif e + 86400 * Z.of_nat 0) :: map (fun k => ce_notif e + 86400 * Z.of_nat k) (map S (seq 0 (S (length nows))))).
      f_equal; [lia|]. rewrite map_map. apply map_ext. intros k. unfold day_period. cbn [ce_notif pt_weeks pt_days pt_hours]. lia. }
  intros nows e Hf. eexists. split; [apply G; exact Hf|reflexivity].
Qed.

(** Until the expiration: every scheduled time is notified, in order, and after enough turns the expiration is passed. *)
Theorem c42_all_sent_partial ivs starts e nows :
  valid_periods ivs -> init_starts utc_sub ivs (ce_exp e) = Some starts -> ascending starts ->
  ce_starts e = starts -> time_of utc_add ivs starts (ce_cur e) (ce_notif e) -> Forall (fun now => now <= ce_exp e) nows ->
  exists l, notifications utc_add ivs e nows = Ok l /\ length l = S (length nows) /\
    (forall k a b, nth_error l k = Some a -> nth_error l (S k) = Some b -> first_after utc_add ivs starts a b) /\
    (forall x b, scheduled utc_add ivs starts x -> ce_notif e <= x -> In b l -> x <= b -> In x l) /\
    (ce_exp e < ce_notif e + Z.of_nat (length nows) -> forall x, scheduled utc_add ivs starts x -> ce_notif e <= x <= ce_exp e -> In x l).
Proof.
  intros Hv Hi Ha Hs Ht Hn. destruct (init_starts_len ivs (ce_exp e)) as (l0 & E & Hlen). assert (l0 = starts) by congruence. subst l0.
  assert (Hok : exists l, notifications utc_add ivs e nows = Ok l).
  { clear Hi E. revert e Hs Ht Hn. induction nows as [|now nows IH]; intros e Hs Ht Hn; cbn [notifications]; [eauto|].
    apply Forall_cons_iff in Hn. destruct Hn as [Hn Hf].
    assert (Hc : (ce_cur e < length ivs)%nat). { destruct Ht as (s & iv & n & _ & Hiv & _). apply nth_error_Some. congruence. }
    pose proof (next_not_bad utc_add ivs starts Hlen now e Hs Hc) as Hnb.
    destruct (next_notif utc_add ivs now e) as [[i t]| |] eqn:En; [| |congruence].
    - destruct (next_spec utc_add ivs starts Hlen Ha (utc_forward ivs Hv) now e i t Hs Ht Hn En) as (A & _).
      destruct (IH (mkE (ce_starts e) i (ce_exp e) t) Hs A Hf) as (l & El). rewrite El. eauto.
    - exfalso. unfold next_notif in En. destruct (_ <? 0); [discriminate|]. destruct (nth_error ivs _); [|discriminate].
      unfold utc_add in En. destruct (Nat.eqb _ _); [discriminate|]. destruct (nth_error _ _); [|discriminate]. destruct (0 <? _); discriminate. }
  destruct Hok as (l & El). exists l.
  destruct (notifications_spec utc_add ivs starts Hlen Ha (utc_forward ivs Hv) nows e l Hs Ht Hn El) as (I1 & I2 & I3 & I4 & I5 & I6).
  split; [exact El|]. split; [exact I2|]. split; [exact I4|]. split; [exact I5|].
  intros Hfar x Hx Hr. destruct (nth_error l (length nows)) as [b|] eqn:Eb. 2: { apply nth_error_None in Eb. lia. }
  apply (I5 x b Hx); [lia|apply nth_error_In in Eb; exact Eb|]. specialize (I6 _ _ Eb). lia.
Qed.

(** The default intervals are in order for every expiration time. *)
Theorem c42_default exp : exists starts, init_starts utc_sub default_intervals exp = Some starts /\ ascending starts /\ valid_periods default_intervals.
Proof.
  unfold default_intervals. cbn [init_starts iv_anchor]. unfold utc_sub. eexists. split; [reflexivity|]. split.
  - assert (A : shift exp (-3) 0 0 + 84 * 86400 <= exp).
    { rewrite shift_eq. pose proof (month_steps (day_month (exp / 86400) + -3) 3 ltac:(lia)) as M.
      replace (day_month (exp / 86400) + -3 + 3) with (day_month (exp / 86400)) in M by lia. lia. }
    intros i s s' Hs Hs'. cbn [pt_months pt_weeks pt_days pt_hours] in *.
    change (- (7 * 0) - 0) with 0 in *. change (- (7 * 2) - 0) with (-14) in *. change (- (7 * 0) - 7) with (-7) in *. change (- 0) with 0 in *. change (- (3)) with (-3) in *.
    assert (B : shift exp 0 (-14) 0 = exp - 14 * 86400) by (rewrite shift_eq; replace (day_month (exp / 86400) + 0) with (day_month (exp / 86400)) by lia; lia).
    assert (C : shift exp 0 (-7) 0 = exp - 7 * 86400) by (rewrite shift_eq; replace (day_month (exp / 86400) + 0) with (day_month (exp / 86400)) by lia; lia).
    rewrite B, C in Hs, Hs'.
    destruct i as [|[|[|i]]]; cbn [nth_error] in Hs, Hs'; try discriminate.
    + injection Hs as <-. injection Hs' as <-. lia.
    + injection Hs as <-. injection Hs' as <-. lia.
  - unfold valid_periods. repeat constructor; cbn; lia.
Qed.

(** The thread wakes up at the earliest time of all certificates, at once if that is not in the future. *)
Lemma wakeup_loop_spec now : forall l k min wake next,
  (next = None -> min = LONG_MAX) ->
  let r := wakeup_loop l k now min wake next in
  (exists t, In t l /\ t <= now) /\ (exists i t, r = (0, Some (k + i)%nat) /\ nth_error l i = Some t /\ t <= now) \/
  (forall t, In t l -> now < t) /\
  ((exists i t, r = (t, Some (k + i)%nat) /\ nth_error l i = Some t /\ t - now < min /\ forall t', In t' l -> t <= t') \/
   (r = (wake, next) /\ forall t', In t' l -> min <= t' - now)).
Proof.
  induction l as [|t l IH]; intros k min wake next Hn r.
  - right. split; [intros t []|]. right. split; [reflexivity|intros t []].
  - subst r. cbn [wakeup_loop]. cbv zeta. destruct (Z.leb_spec (t - now) 0) as [L|L].
    + left. split; [exists t; split; [left; reflexivity|lia]|]. exists O, t. rewrite Nat.add_0_r. split; [reflexivity|]. split; [reflexivity|lia].
    + destruct (Z.ltb_spec (t - now) min) as [M|M].
      * destruct (IH (S k) (t - now) t (Some k) ltac:(discriminate)) as [((u & Hu & Hle) & (i & u' & Er & Ei & Hle'))|(Hall & [(i & u & Er & Ei & Hm & Hmin)|(Er & Hmin)])].
        -- left. split; [exists u; split; [right; exact Hu|lia]|]. exists (S i), u'. rewrite Er. split; [do 2 f_equal; lia|]. split; assumption.
        -- right. split; [intros x [<-|Hx]; [lia|apply Hall, Hx]|]. left. exists (S i), u. rewrite Er. split; [do 2 f_equal; lia|]. split; [exact Ei|]. split; [lia|].
           intros x [<-|Hx]; [lia|apply Hmin, Hx].
        -- right. split; [intros x [<-|Hx]; [lia|apply Hall, Hx]|]. left. exists O, t. rewrite Er. split; [do 2 f_equal; lia|]. split; [reflexivity|]. split; [lia|].
           intros x [<-|Hx]; [lia|specialize (Hmin x Hx); lia].
      * destruct (IH (S k) min wake next Hn) as [((u & Hu & Hle) & (i & u' & Er & Ei & Hle'))|(Hall & [(i & u & Er & Ei & Hm & Hmin)|(Er & Hmin)])].
        -- left. split; [exists u; split; [right; exact Hu|lia]|]. exists (S i), u'. rewrite Er. split; [do 2 f_equal; lia|]. split; assumption.
        -- right. split; [intros x [<-|Hx]; [lia|apply Hall, Hx]|]. left. exists (S i), u. rewrite Er. split; [do 2 f_equal; lia|]. split; [exact Ei|]. split; [lia|].
           intros x [<-|Hx]; [lia|apply Hmin, Hx].
        -- right. split; [intros x [<-|Hx]; [lia|apply Hall, Hx]|]. right. rewrite Er. split; [reflexivity|].
           intros x [<-|Hx]; [lia|apply Hmin, Hx].
Qed.

Theorem c42_wakeup l now w next : l <> [] -> (forall t, In t l -> t - now < LONG_MAX) -> wakeup l now = (w, next) ->
  exists i t, next = Some i /\ nth_error l i = Some t /\
    ((t <= now /\ w = 0) \/ (now < t /\ w = t /\ forall t', In t' l -> t <= t')).
Proof.
  intros Hne Hmax H. assert (E : wakeup l now = wakeup_loop l 0 now LONG_MAX 0 None) by (destruct l; [congruence|reflexivity]).
  rewrite E in H. destruct (wakeup_loop_spec now l 0 LONG_MAX 0 None ltac:(reflexivity)) as [(_ & (i & t & Er & Ei & Hle))|(Hall & [(i & t & Er & Ei & Hm & Hmin)|(Er & Hmin)])].
  - rewrite Er in H. injection H as <- <-. exists i, t. split; [reflexivity|]. split; [exact Ei|]. left. split; [exact Hle|reflexivity].
  - rewrite Er in H. injection H as <- <-. exists i, t. split; [reflexivity|]. split; [exact Ei|]. right.
    split; [apply Hall, (nth_error_In _ _ Ei)|]. split; [reflexivity|exact Hmin].
  - exfalso. destruct l as [|t l]; [congruence|]. specialize (Hmin t (or_introl eq_refl)). specialize (Hmax t (or_introl eq_refl)). lia.
Qed.

(** A certificate with a time in the past is never waited for. *)
Theorem c42_wakeup_late l now w next : wakeup l now = (w, next) -> (exists t, In t l /\ t <= now) -> w = 0.
Proof.
  intros H (t & Hin & Hle). assert (E : wakeup l now = wakeup_loop l 0 now LONG_MAX 0 None) by (destruct l; [destruct Hin|reflexivity]).
  rewrite E in H. destruct (wakeup_loop_spec now l 0 LONG_MAX 0 None ltac:(reflexivity)) as [(_ & (i & u & Er & _))|(Hall & _)].
  - rewrite Er in H. congruence.
  - specialize (Hall t Hin). lia.
Qed.

(* ------------------------------------------------------------------ *)
(** ** What is false *)

(** The order of the intervals is that of the configuration.  With the interval of 7 days before the one of 3 months, the first
    notification of a certificate that expires in 60 days comes 7 days before the expiration; one was due 30 days earlier. *)
Theorem c42_unsorted_refuted : exists ivs starts exp now i t x,
  valid_periods ivs /\ init_starts utc_sub ivs exp = Some starts /\ now <= exp /\
  first_notif utc_add 10 ivs starts exp now = Ok (i, t) /\
  ascending (rev starts) /\ scheduled utc_add (rev ivs) (rev starts) x /\ now <= x /\ x + 20 * 86400 < t.
Proof.
  exists [mkI (mkP 0 0 7 0) (mkP 0 0 1 0); mkI (mkP 3 0 0 0) (mkP 1 0 0 0)].
  exists [1803859200 - 7 * 86400; 1796083200], 1803859200, (1803859200 - 60 * 86400), O, (1803859200 - 7 * 86400), 1801440000.
  split; [|split; [|split; [|split; [|split; [|split; [|split]]]]]].
  - unfold valid_periods. repeat constructor; cbn; lia.
  - vm_compute. reflexivity.
  - lia.
  - vm_compute. reflexivity.
  - intros [|[|i]] s s' A B; cbn in A, B; try discriminate; try (destruct i; discriminate); injection A as <-; injection B as <-; lia.
  - exists O. eexists _, _, 2%nat. split; [reflexivity|]. split; [reflexivity|]. split; [vm_compute; reflexivity|].
    intros s' E. cbn in E. injection E as <-. lia.
  - lia.
  - lia.
Qed.

(** A thread that is late (a suspended machine) computes times in the past, which it then notifies one after the other. *)
Theorem c42_late_refuted : exists ivs starts e now i t,
  valid_periods ivs /\ init_starts utc_sub ivs (ce_exp e) = Some starts /\ ascending starts /\ ce_starts e = starts /\
  time_of utc_add ivs starts (ce_cur e) (ce_notif e) /\ ce_notif e <= now <= ce_exp e /\
  next_notif utc_add ivs now e = Ok (i, t) /\ t < now.
Proof.
  exists [mkI (mkP 0 0 7 0) (mkP 0 0 0 1)], [1803859200 - 7 * 86400], (mkE [1803859200 - 7 * 86400] 0 1803859200 (1803859200 - 7 * 86400)), (1803859200 - 5 * 86400).
  exists O, (1803859200 - 7 * 86400 + 3600).
  split; [|split; [|split; [|split; [|split; [|split; [|split]]]]]].
  - unfold valid_periods. repeat constructor; cbn; lia.
  - vm_compute. reflexivity.
  - intros [|i] s s' A B; cbn in A, B; try discriminate; destruct i; discriminate.
  - reflexivity.
  - eexists _, _, O. split; [reflexivity|]. split; [reflexivity|]. split; [reflexivity|]. intros s' E; discriminate.
  - cbn [ce_notif ce_exp]. lia.
  - vm_compute. reflexivity.
  - lia.
Qed.

(** Two intervals can start at the same time although their anchors differ: a month and four weeks before 2027-03-01.  The time
    is then notified twice. *)
Theorem c42_twice_refuted : exists ivs starts exp now i t,
  valid_periods ivs /\ init_starts utc_sub ivs exp = Some starts /\ now <= exp /\
  first_notif utc_add 10 ivs starts exp now = Ok (i, t) /\ next_notif utc_add ivs t (mkE starts i exp t) = Ok (S i, t).
Proof.
  exists [mkI (mkP 1 0 0 0) (mkP 0 1 0 0); mkI (mkP 0 4 0 0) (mkP 0 0 1 0)]. exists [1801440000; 1801440000], 1803859200, 1800000000, O, 1801440000.
  split; [unfold valid_periods; repeat constructor; cbn; lia|]. split; [vm_compute; reflexivity|]. split; [lia|].
  split; vm_compute; reflexivity.
Qed.

(** An empty period, which the YANG module does not allow, would be an endless loop. *)
Theorem c42_zero_period : exists ivs starts exp now, init_starts utc_sub ivs exp = Some starts /\ now <= exp /\
  forall fuel, first_notif utc_add fuel ivs starts exp now = Bad.
Proof.
  exists [mkI (mkP 0 0 7 0) (mkP 0 0 0 0)], [1803859200 - 7 * 86400], 1803859200, (1803859200 - 86400).
  split; [vm_compute; reflexivity|]. split; [lia|]. intros fuel. unfold first_notif.
  destruct (Z.ltb_spec 0 (1803859200 - 7 * 86400 - (1803859200 - 86400))); [lia|].
  destruct (Z.ltb_spec (1803859200 - (1803859200 - 86400)) 0); [lia|]. cbn [find_interval nth_error].
  induction fuel as [|fuel IH]; [reflexivity|]. cbn [first_loop nth_error].
  destruct (Z.ltb_spec (1803859200 - 7 * 86400 - (1803859200 - 86400)) 0); [|lia]. cbn [iv_period].
  rewrite utc_add_exact by reflexivity. cbn [pt_weeks pt_days pt_hours length].
  change (Nat.eqb 0 (1 - 1)) with true. cbv iota. replace (1803859200 - 7 * 86400 + (7 * 0 + 0) * 86400 + 0 * 3600) with (1803859200 - 7 * 86400) by lia. exact IH.
Qed.

(* ------------------------------------------------------------------ *)
(** ** Examples *)

(** A certificate that expires on 2027-03-01, the default intervals, today 2027-01-15: notifications on 2027-02-01 (2 months after
    the start on 2026-12-01), 02-15, 02-22 and then daily. *)
Example ex_first : first_notif utc_add 100 default_intervals [1796083200; 1802649600; 1803254400] 1803859200 1799971200 = Ok (0%nat, 1801440000).
Proof. vm_compute. reflexivity. Qed.
Example ex_starts : init_starts utc_sub default_intervals 1803859200 = Some [1796083200; 1802649600; 1803254400].
Proof. vm_compute. reflexivity. Qed.
Example ex_run : notifications utc_add default_intervals (mkE [1796083200; 1802649600; 1803254400] 0 1803859200 1801440000)
    [1801440000; 1802649600; 1803254400; 1803340800] = Ok [1801440000; 1802649600; 1803254400; 1803340800; 1803427200].
Proof. vm_compute. reflexivity. Qed.
Example ex_wakeup : wakeup [500; 300; 400] 100 = (300, Some 1%nat) /\ wakeup [500; 90; 80] 100 = (0, Some 1%nat).
Proof. split; reflexivity. Qed.

Print Assumptions c42_first_partial.
Print Assumptions c42_next_partial.
Print Assumptions c42_all_sent_partial.
Print Assumptions c42_daily.
Print Assumptions c42_default.
Print Assumptions c42_wakeup.
