(** Property C44: deadlines and blocking calls. *)
From Coq Require Import ZArith Bool List Lia.
From Verif Require Import Time.
Import ListNotations.
Local Open Scope Z_scope.

(* ================================================================== *)
(** * Specification *)

(** Time in nanoseconds. *)
Definition ns (t : tspec) : Z := t_sec t * 1000000000 + t_nsec t.
Definition MS : Z := 1000000.

(** [d] is the time [r] (in ns) in milliseconds, rounded towards zero. *)
Definition in_ms (r d : Z) : Prop := (0 <= r -> d * MS <= r < (d + 1) * MS) /\ (r <= 0 -> (d - 1) * MS < r <= d * MS).

(** poll(), called at [a] with these timeouts, behaves: it returns after it was called, no later than its timeout, and 0 only
    when the timeout passed. *)
Fixpoint honest (a : tspec) (args : list Z) (l : list pret) : Prop :=
  match args, l with
  | x :: xs, r :: rs =>
      valid (p_at r) /\ ns a <= ns (p_at r) /\ (0 <= x -> ns (p_at r) <= ns a + x * MS) /\
      (p_rc r = 0 -> 0 <= x /\ ns a + x * MS <= ns (p_at r)) /\ honest (p_at r) xs rs
  | _, _ => True
  end.

(* ================================================================== *)
(** * Deadlines *)

(** A deadline is exactly the timeout after the moment it is computed. *)
Theorem c44_deadline : forall cur add, valid cur -> 0 <= add -> valid (time_get cur add) /\ ns (time_get cur add) = ns cur + add * MS.
Proof.
  intros [s n] add [H1 H2] Ha. cbn [t_nsec] in *. unfold time_get, valid, ns, MS. cbn [t_sec t_nsec].
  pose proof (Z.div_mod add 1000 ltac:(lia)). pose proof (Z.mod_pos_bound add 1000 ltac:(lia)).
  destruct (Z.eqb_spec add 0); [subst; cbn [t_sec t_nsec]; lia|].
  destruct (Z.leb_spec 1000000000 (n + add mod 1000 * 1000000)); cbn [t_sec t_nsec]; [lia|].
  destruct (Z.ltb_spec (n + add mod 1000 * 1000000) 0); cbn [t_sec t_nsec]; lia.
Qed.

Lemma to32_id x : -2147483648 <= x <= 2147483647 -> to32 x = x.
Proof.
  intros H. unfold to32. destruct (Z_lt_le_dec x 0).
  - rewrite <- (Z.mod_add x 1 4294967296) by lia. rewrite Z.mod_small by lia. destruct (Z.ltb_spec (x + 1 * 4294967296) 2147483648); lia.
  - rewrite Z.mod_small by lia. destruct (Z.ltb_spec x 2147483648); lia.
Qed.

Lemma quot_ms r : in_ms r (Z.quot r 1000000).
Proof.
  unfold in_ms, MS. split; intros H.
  - rewrite Z.quot_div_nonneg by lia. pose proof (Z.div_mod r 1000000 ltac:(lia)). pose proof (Z.mod_pos_bound r 1000000 ltac:(lia)). lia.
  - replace r with (- (- r)) by lia. rewrite Z.quot_opp_l by lia. rewrite Z.quot_div_nonneg by lia.
    pose proof (Z.div_mod (- r) 1000000 ltac:(lia)). pose proof (Z.mod_pos_bound (- r) 1000000 ltac:(lia)). lia.
Qed.

Lemma diff_ok ts cur : valid ts -> valid cur -> -2147483648 * MS <= ns ts - ns cur < 2147483648 * MS ->
  cur_diff ts cur = Some (Z.quot (ns ts - ns cur) 1000000).
Proof.
  intros [H1 H2] [H3 H4] HB. unfold cur_diff, ns, MS in *. destruct ts as [s n], cur as [s' n']. cbn [t_sec t_nsec] in *.
  assert (HF : forall x, -9223372036854775808 <= x <= 9223372036854775807 -> fits64 x = true).
  { intros x Hx. unfold fits64. apply andb_true_intro. split; apply Z.leb_le; lia. }
  rewrite !HF by lia. cbn [negb orb]. rewrite to32_id.
  - f_equal. f_equal. lia.
  - pose proof (quot_ms ((s - s') * 1000000000 + (n - n'))) as [Q1 Q2]. unfold MS in *. lia.
Qed.

(** The remaining time is the true one, in whole milliseconds, if it is less than 2^31 ms either way. *)
Theorem c44_remaining_partial : forall ts cur, valid ts -> valid cur -> -2147483648 * MS <= ns ts - ns cur < 2147483648 * MS ->
  exists d, cur_diff ts cur = Some d /\ in_ms (ns ts - ns cur) d.
Proof. intros ts cur H1 H2 H3. exists (Z.quot (ns ts - ns cur) 1000000). split; [now apply diff_ok|apply quot_ms]. Qed.

(** For every timeout an int can hold, from the moment the deadline is computed until 2^31 ms after it: the test for its end
    ([diff < 1]) holds exactly when less than a millisecond is left. *)
Theorem c44_expired_partial : forall now tmo cur, valid now -> valid cur -> 0 <= tmo < 2147483648 ->
  ns now <= ns cur <= ns now + tmo * MS + 2147483648 * MS ->
  exists d, cur_diff (time_get now tmo) cur = Some d /\ (d < 1 <-> ns now + tmo * MS - ns cur < MS).
Proof.
  intros now tmo cur H1 H2 Ht HB. destruct (c44_deadline now tmo H1 (proj1 Ht)) as [Hv He].
  destruct (c44_remaining_partial (time_get now tmo) cur Hv H2) as (d & E & Q1 & Q2); [unfold MS in *; lia|]. exists d. split; [exact E|].
  rewrite He in *. unfold MS in *. lia.
Qed.

(** Beyond that it is false: 2^31 ms (24.9 days) and a bit after the deadline there seem to be 24.9 days left. *)
Theorem c44_wrap_refuted : exists ts cur, valid ts /\ valid cur /\ ns ts < ns cur /\ cur_diff ts cur = Some 2147483647.
Proof. exists (mkT 0 0), (mkT 2147483 649000000). unfold valid, ns. cbn [t_sec t_nsec]. repeat split; lia. Qed.

(* ================================================================== *)
(** * nc_poll() *)

Lemma args_hd start x l : exists xs, poll_args start x l = x :: xs.
Proof.
  destruct l as [|r l]; cbn [poll_args]; [eauto|]. destruct (0 <? x); [destruct (cur_diff start (p_at r)) as [d|]; [destruct (x + d <? 0)|]|];
    try (destruct ((p_rc r =? -1) && p_eintr r)); eauto.
Qed.

(** It returns within a millisecond of its timeout, whatever interruptions there are. *)
Theorem c44_poll_within : forall start tmo l rc t, valid start -> 0 < tmo < 2147483648 -> honest start (poll_args start tmo l) l ->
  nc_poll start tmo l = Ret rc t -> ns t < ns start + (tmo + 1) * MS.
Proof.
  intros start tmo l rc t Hv HT HH HR.
  assert (G : forall l a x, 0 <= x <= tmo -> ns start <= ns a -> ns a + x * MS < ns start + (tmo + 1) * MS -> honest a (poll_args start x l) l ->
     poll_loop start x l = Ret rc t -> ns t < ns start + (tmo + 1) * MS).
  { clear l HH HR. induction l as [|r l IH]; intros a x Hx Ha HB HH HR; cbn [poll_loop] in HR; [discriminate|].
    destruct (args_hd start x (r :: l)) as [xs Exs]. pose proof HH as HH0. rewrite Exs in HH0. cbn [honest] in HH0. destruct HH0 as (V & Hge & Hle & H0 & HT').
    specialize (Hle (proj1 Hx)). cbn [poll_args] in *. destruct (Z.ltb_spec 0 x) as [Hp|Hp].
    - rewrite (diff_ok start (p_at r)) in HR, HH by (try assumption; unfold MS in *; lia). pose proof (quot_ms (ns start - ns (p_at r))) as [_ Q2].
      specialize (Q2 ltac:(lia)). set (d := Z.quot (ns start - ns (p_at r)) 1000000) in *.
      destruct (Z.ltb_spec (x + d) 0) as [Hn|Hn]; [injection HR as _ <-; lia|].
      destruct ((p_rc r =? -1) && p_eintr r); [|injection HR as _ <-; lia].
      apply (IH (p_at r) (x + d)); try assumption; unfold MS in *; try lia. cbn [honest] in HH. tauto.
    - assert (x = 0) by lia. subst x. destruct ((p_rc r =? -1) && p_eintr r); [|injection HR as _ <-; lia].
      apply (IH (p_at r) 0); try assumption; try lia. cbn [honest] in HH. tauto. }
  apply (G l start tmo); auto; unfold MS; lia.
Qed.

(** Without interruption the result is that of poll(): a timeout no earlier than its time, and no event lost. *)
Theorem c44_poll_plain_partial : forall start tmo r l, valid start -> 0 < tmo < 2147483648 -> honest start (poll_args start tmo (r :: l)) (r :: l) ->
  (p_rc r =? -1) && p_eintr r = false -> nc_poll start tmo (r :: l) = Ret (p_rc r) (p_at r).
Proof.
  intros start tmo r l Hv HT HH Hi. unfold nc_poll. destruct (args_hd start tmo (r :: l)) as [xs Exs]. rewrite Exs in HH. cbn [honest] in HH.
  destruct HH as (V & Hge & Hle & _). specialize (Hle ltac:(lia)). cbn [poll_loop]. destruct (Z.ltb_spec 0 tmo); [|lia].
  rewrite (diff_ok start (p_at r)) by (try assumption; unfold MS in *; lia). pose proof (quot_ms (ns start - ns (p_at r))) as [_ Q2].
  specialize (Q2 ltac:(lia)). destruct (Z.ltb_spec (tmo + Z.quot (ns start - ns (p_at r)) 1000000) 0); [unfold MS in *; lia|]. now rewrite Hi.
Qed.

(** With interruptions it is false, since the whole time from the start is subtracted each time: interrupted at 400 and 700 ms, a
    timeout of one second ends at 700 ms; and an event at 900 ms after one interruption at 200 ms is not reported. *)
Definition at_ms (m : Z) : tspec := mkT 0 (m * 1000000).
Theorem c44_early_refuted :
  let l := [mkPret (-1) true (at_ms 400); mkPret (-1) true (at_ms 700)] in
  honest (at_ms 0) (poll_args (at_ms 0) 1000 l) l /\ nc_poll (at_ms 0) 1000 l = Ret 0 (at_ms 700).
Proof. cbn zeta. split; [|reflexivity]. vm_compute. repeat split; discriminate. Qed.
Theorem c44_event_lost_refuted :
  let l := [mkPret (-1) true (at_ms 200); mkPret 1 false (at_ms 900)] in
  honest (at_ms 0) (poll_args (at_ms 0) 1000 l) l /\ nc_poll (at_ms 0) 1000 l = Ret 0 (at_ms 900).
Proof. cbn zeta. split; [|reflexivity]. vm_compute. repeat split; discriminate. Qed.

(* ================================================================== *)
(** * The message lock of a client, loops with a deadline *)

(** The time spent waiting for the lock is added to the timeout of the call that follows, for every wait of a millisecond or
    more. *)
Theorem c44_msgs_lock_refuted : forall start after tmo, valid start -> valid after -> MS <= ns after - ns start < 2147483648 * MS ->
  exists left, msgs_lock_left start after tmo = Some left /\ left > tmo /\ in_ms (ns after - ns start) (left - tmo).
Proof.
  intros start after tmo H1 H2 HB. unfold msgs_lock_left. rewrite diff_ok by (try assumption; unfold MS in *; lia).
  eexists. split; [reflexivity|]. pose proof (quot_ms (ns start - ns after)) as [_ Q2]. specialize (Q2 ltac:(unfold MS in *; lia)). split; [unfold MS in *; lia|].
  split; unfold MS in *; lia.
Qed.

(** A loop with a deadline gives up only when less than a millisecond is left, and at the first check for which that holds. *)
Theorem c44_loop_partial : forall (A : Type) now tmo (l : list (option A * tspec)) r t, valid now -> 0 <= tmo < 2147483648 ->
  (forall x, In x l -> valid (snd x) /\ ns now <= ns (snd x) <= ns now + tmo * MS + 2147483648 * MS) ->
  wait_loop (Some (time_get now tmo)) l = Some (r, t) ->
  exists l1 l2, l = l1 ++ (r, t) :: l2 /\ (r = None -> ns now + tmo * MS - ns t < MS) /\
    (forall x, In x l1 -> fst x = None /\ MS <= ns now + tmo * MS - ns (snd x)).
Proof.
  intros A now tmo l r t Hv HT. induction l as [|[a t0] l IH]; intros HL HR; cbn [wait_loop] in HR; [discriminate|].
  destruct a as [a|].
  - injection HR as <- <-. exists [], l. split; [reflexivity|]. split; [discriminate|intros x []].
  - destruct (HL (None, t0) (or_introl eq_refl)) as [V B]. cbn [snd] in *. destruct (c44_expired_partial now tmo t0 Hv V HT B) as (d & E & HD).
    rewrite E in HR. destruct (Z.ltb_spec d 1) as [Hd|Hd].
    + injection HR as <- <-. exists [], l. split; [reflexivity|]. split; [intros _; now apply HD|intros x []].
    + destruct IH as (l1 & l2 & -> & H1 & H2); [intros x Hx; apply HL; now right|exact HR|]. exists ((None, t0) :: l1), l2. split; [reflexivity|]. split; [exact H1|].
      intros x [<-|Hx]; [|now apply H2]. split; [reflexivity|]. cbn [snd]. destruct (Z_lt_le_dec (ns now + tmo * MS - ns t0) MS); [apply HD in l; lia|assumption].
Qed.
(** And it ends once a check is made after the deadline. *)
Theorem c44_loop_ends_partial : forall (A : Type) now tmo (l : list (option A * tspec)), valid now -> 0 <= tmo < 2147483648 ->
  (forall x, In x l -> valid (snd x) /\ ns now <= ns (snd x) <= ns now + tmo * MS + 2147483648 * MS) ->
  (exists x, In x l /\ ns now + tmo * MS <= ns (snd x)) -> wait_loop (Some (time_get now tmo)) l <> None.
Proof.
  intros A now tmo l Hv HT. induction l as [|[a t0] l IH]; intros HL (x & Hx & HX); [destruct Hx|]. cbn [wait_loop]. destruct a as [a|]; [discriminate|].
  destruct (HL (None, t0) (or_introl eq_refl)) as [V B]. cbn [snd] in *. destruct (c44_expired_partial now tmo t0 Hv V HT B) as (d & E & HD).
  rewrite E. destruct (Z.ltb_spec d 1) as [Hd|Hd]; [discriminate|]. destruct Hx as [<-|Hx].
  - cbn [snd] in HX. exfalso. assert (d < 1) by (apply HD; unfold MS in *; lia). lia.
  - apply IH; [intros y Hy; apply HL; now right|eauto].
Qed.

(** Non-trivial cases. *)
Example c44_case : valid (mkT 5 999999999) /\ time_get (mkT 5 999999999) 1500 = mkT 7 499999999
  /\ cur_diff (time_get (mkT 5 999999999) 1500) (mkT 6 0) = Some 1499.
Proof. unfold valid. cbn [t_nsec]. split; [lia|split; reflexivity]. Qed.
Example c44_poll_case : let l := [mkPret (-1) true (at_ms 100); mkPret 1 false (at_ms 300)] in
  honest (at_ms 0) (poll_args (at_ms 0) 1000 l) l /\ nc_poll (at_ms 0) 1000 l = Ret 1 (at_ms 300).
Proof. cbn zeta. split; [|reflexivity]. vm_compute. repeat split; discriminate. Qed.
Example c44_loop_case : wait_loop (A := nat) (Some (time_get (at_ms 0) 500)) [(None, at_ms 200); (None, at_ms 400); (None, at_ms 600)] = Some (None, at_ms 600).
Proof. reflexivity. Qed.

Print Assumptions c44_deadline.
Print Assumptions c44_remaining_partial.
Print Assumptions c44_expired_partial.
Print Assumptions c44_wrap_refuted.
Print Assumptions c44_poll_within.
Print Assumptions c44_poll_plain_partial.
Print Assumptions c44_early_refuted.
Print Assumptions c44_event_lost_refuted.
Print Assumptions c44_msgs_lock_refuted.
Print Assumptions c44_loop_partial.
Print Assumptions c44_loop_ends_partial.
