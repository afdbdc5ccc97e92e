(** C53: stopping the expiration notifications, and changes of the configuration. *)
From Coq Require Import Bool Lia List Arith.
From Verif Require Import CertThread.
Import ListNotations.

(** A state that can be reached. *)
Definition reachable (s : st) : Prop := exists es, exec s0 es = Some (Run s).

(** Nothing but the clock (or a spurious wake-up) takes a thread out of its wait. *)
Definition sleeps (s : st) : Prop := exists i w, nth_error (s_ws s) i = Some w /\ w_pc w = Waiting.

Lemma nth_upd l w : forall i j, nth_error (upd l i w) j = if Nat.eqb i j then match nth_error l i with Some _ => Some w | None => None end else nth_error l j.
Proof.
  induction l as [|x l IH]; intros [|i] [|j]; cbn [upd nth_error Nat.eqb]; try reflexivity.
  - destruct (Nat.eqb i j); reflexivity.
  - apply IH.
Qed.

Lemma upd_forall (P : worker -> Prop) l : forall i w, Forall P l -> P w -> Forall P (upd l i w).
Proof. induction l as [|x l IH]; intros [|i] w Hl Hw; cbn [upd]; auto; inversion Hl; subst; constructor; auto. Qed.

Lemma nth_forall (P : worker -> Prop) l i w : Forall P l -> nth_error l i = Some w -> P w.
Proof. intros H E. rewrite Forall_forall in H. apply H, (nth_error_In _ _ E). Qed.

Lemma signal_forall (P : worker -> Prop) ws to ws' : Forall P ws -> (forall w, P w -> P (mkW Woken (w_cfg w) (w_valid w))) ->
  signal ws to = Some ws' -> Forall P ws'.
Proof.
  intros H Hw E. unfold signal in E. destruct to as [i|].
  - destruct (nth_error ws i) as [w|] eqn:En; [|discriminate]. destruct (waiting w); [|discriminate]. injection E as <-.
    apply upd_forall; [exact H|]. apply Hw, (nth_forall _ _ _ _ H En).
  - destruct (existsb waiting ws); [discriminate|]. injection E as <-. exact H.
Qed.

(** ** Stop *)

(** A thread that is on its way to the check of the flag. *)
Definition leaving (w : worker) : Prop := w_pc w <> Cmp /\ w_pc w <> Waiting.

Definition no_start (e : event) : Prop := forall b, e <> Start b.

(** A state after the stop in which no thread waits or is about to: none ever will again. *)
Lemma stopped_step s e s' : s_running s = false -> Forall leaving (s_ws s) -> no_start e -> step s e = Some (Run s') ->
  s_running s' = false /\ Forall leaving (s_ws s').
Proof.
  intros Hr Hl Hn H. unfold step, at_pc, goto, with_ws in H. rewrite ?Hr in H. destruct e.
  - exfalso. apply (Hn created). reflexivity.
  - injection H as <-. auto.
  - injection H as <-. cbn. split; [first [exact Hr | reflexivity]|]. rewrite Forall_map. cbn. eapply Forall_impl; [|exact Hl]. intros w [A B]. split; exact A || exact B.
  - injection H as <-. auto.
  - destruct (nth_error (s_ws s) i) as [w|] eqn:En; [|discriminate]. destruct (w_pc w); try discriminate. injection H as <-. cbn.
    split; [first [exact Hr | reflexivity]|]. apply upd_forall; [exact Hl|]. split; cbn; discriminate.
  - destruct (nth_error (s_ws s) i) as [w|] eqn:En; [|discriminate]. pose proof (nth_forall _ _ _ _ Hl En) as [A B]. destruct (w_pc w); try discriminate; congruence.
  - destruct (nth_error (s_ws s) i) as [w|] eqn:En; [|discriminate]. pose proof (nth_forall _ _ _ _ Hl En) as [A B]. destruct (w_pc w); try discriminate; congruence.
  - destruct (nth_error (s_ws s) i) as [w|] eqn:En; [|discriminate]. pose proof (nth_forall _ _ _ _ Hl En) as [A B]. destruct (w_pc w); try discriminate; congruence.
  - destruct (nth_error (s_ws s) i) as [w|] eqn:En; [|discriminate]. destruct (w_pc w); try discriminate. injection H as <-. cbn.
    split; [first [exact Hr | reflexivity]|]. apply upd_forall; [exact Hl|]. split; cbn; discriminate.
  - destruct (nth_error (s_ws s) i) as [w|] eqn:En; [|discriminate]. destruct (w_pc w); try discriminate. destruct (w_valid w); [|discriminate].
    injection H as <-. cbn. split; [first [exact Hr | reflexivity]|]. apply upd_forall; [exact Hl|]. split; cbn; destruct ok; discriminate.
Qed.

Lemma stopped_exec : forall es s s', s_running s = false -> Forall leaving (s_ws s) -> Forall no_start es -> exec s es = Some (Run s') ->
  s_running s' = false /\ Forall leaving (s_ws s').
Proof.
  induction es as [|e es IH]; intros s s' Hr Hl Hn H; cbn [exec] in H.
  - injection H as <-. auto.
  - apply Forall_cons_iff in Hn. destruct Hn as [Hn Hns]. destruct (step s e) as [[s1|]|] eqn:Es; try discriminate.
    destruct (stopped_step s e s1 Hr Hl Hn Es) as [A B]. exact (IH s1 s' A B Hns H).
Qed.

(** Steps a thread still makes before it ends. *)
Definition left_of (p : pc) : nat := match p with Timed => 2 | Chk | Woken => 1 | _ => 0 end.
Definition own (e : event) : option nat :=
  match e with Check i | Enter i | Timeout i | Spurious i | Reload i _ | Notify i _ => Some i | _ => None end.
Definition total (s : st) : nat := fold_right (fun w n => left_of (w_pc w) + n) 0 (s_ws s).

Lemma total_upd l w' : forall i w, nth_error l i = Some w ->
  fold_right (fun w n => left_of (w_pc w) + n) 0 (upd l i w') + left_of (w_pc w) = fold_right (fun w n => left_of (w_pc w) + n) 0 l + left_of (w_pc w').
Proof.
  induction l as [|x l IH]; intros [|i] w E; cbn [upd fold_right nth_error] in *; try discriminate.
  - injection E as ->. lia.
  - specialize (IH i w E). lia.
Qed.

(** Each own step of a thread after the stop brings it nearer to its end, and other events do not delay it. *)
Lemma stopped_total s e s' : s_running s = false -> Forall leaving (s_ws s) -> no_start e -> step s e = Some (Run s') ->
  (own e <> None -> total s' < total s) /\ (own e = None -> total s' = total s).
Proof.
  intros Hr Hl Hn H. unfold step, at_pc, goto, with_ws in H. rewrite ?Hr in H. unfold total. destruct e; cbn [own].
  - exfalso. apply (Hn created). reflexivity.
  - injection H as <-. split; [congruence|reflexivity].
  - injection H as <-. cbn. split; [congruence|]. intros _. induction (s_ws s); cbn; [reflexivity|]. inversion Hl; subst. f_equal; auto.
  - injection H as <-. split; [congruence|reflexivity].
  - destruct (nth_error (s_ws s) i) as [w|] eqn:En; [|discriminate]. destruct (w_pc w) eqn:Ep; try discriminate. injection H as <-. cbn [s_ws].
    split; [|discriminate]. intros _. pose proof (total_upd (s_ws s) (mkW Done (w_cfg w) (w_valid w)) i w En) as T. rewrite Ep in T. cbn [w_pc left_of] in T. lia.
  - destruct (nth_error (s_ws s) i) as [w|] eqn:En; [|discriminate]. pose proof (nth_forall _ _ _ _ Hl En) as [A B]. destruct (w_pc w); try discriminate; congruence.
  - destruct (nth_error (s_ws s) i) as [w|] eqn:En; [|discriminate]. pose proof (nth_forall _ _ _ _ Hl En) as [A B]. destruct (w_pc w); try discriminate; congruence.
  - destruct (nth_error (s_ws s) i) as [w|] eqn:En; [|discriminate]. pose proof (nth_forall _ _ _ _ Hl En) as [A B]. destruct (w_pc w); try discriminate; congruence.
  - destruct (nth_error (s_ws s) i) as [w|] eqn:En; [|discriminate]. destruct (w_pc w) eqn:Ep; try discriminate. injection H as <-. cbn [s_ws].
    split; [|discriminate]. intros _. pose proof (total_upd (s_ws s) (mkW Done (w_cfg w) (w_valid w)) i w En) as T. rewrite Ep in T. cbn [w_pc left_of] in T. lia.
  - destruct (nth_error (s_ws s) i) as [w|] eqn:En; [|discriminate]. destruct (w_pc w) eqn:Ep; try discriminate. destruct (w_valid w); [|discriminate].
    injection H as <-. cbn [s_ws]. split; [|discriminate]. intros _.
    pose proof (total_upd (s_ws s) (mkW (if ok then Chk else Done) (w_cfg w) true) i w En) as T. rewrite Ep in T. cbn [w_pc left_of] in T. destruct ok; cbn [left_of] in T; lia.
Qed.

(** If no thread is between its check of the flag and its wait when the stop comes, and at most one waits (and so is woken), then
    no thread ever waits again, and each ends after at most two steps of its own. *)
Theorem c53_stop_partial s to s1 es s2 :
  Forall (fun w => w_pc w <> Cmp) (s_ws s) -> (forall i j w w', nth_error (s_ws s) i = Some w -> nth_error (s_ws s) j = Some w' -> w_pc w = Waiting -> w_pc w' = Waiting -> i = j) ->
  s_running s = true -> step s (Stop to) = Some (Run s1) -> Forall no_start es -> exec s1 es = Some (Run s2) ->
  ~ sleeps s2 /\ (forall i w, nth_error (s_ws s1) i = Some w -> left_of (w_pc w) <= 2) /\
  (forall e s3, no_start e -> own e <> None -> step s2 e = Some (Run s3) -> total s3 < total s2).
Proof.
  intros Hc Hone Hr Hs Hns He.
  assert (A : s_running s1 = false /\ Forall leaving (s_ws s1)).
  { unfold step in Hs. rewrite Hr in Hs. destruct (signal (s_ws s) to) as [ws|] eqn:Es; [|discriminate]. injection Hs as <-. cbn. split; [reflexivity|].
    apply Forall_forall. intros w Hw. apply In_nth_error in Hw. destruct Hw as [j Hj]. unfold signal in Es. destruct to as [i|].
    - destruct (nth_error (s_ws s) i) as [wi|] eqn:Ei; [|discriminate]. destruct (waiting wi) eqn:Ew; [|discriminate]. injection Es as <-.
      rewrite nth_upd, Ei in Hj. destruct (Nat.eqb_spec i j) as [->|Hij].
      + injection Hj as <-. split; cbn; discriminate.
      + split; [exact (nth_forall _ _ _ _ Hc Hj)|]. intros W. apply Hij. apply (Hone i j wi w Ei Hj); [|exact W].
        unfold waiting in Ew. destruct (w_pc wi); try discriminate. reflexivity.
    - destruct (existsb waiting (s_ws s)) eqn:Ex; [discriminate|]. injection Es as <-. split; [exact (nth_forall _ _ _ _ Hc Hj)|].
      intros W. assert (X : existsb waiting (s_ws s) = true); [|congruence]. apply existsb_exists. exists w. split; [exact (nth_error_In _ _ Hj)|]. unfold waiting. rewrite W. reflexivity. }
  destruct A as [A1 A2]. destruct (stopped_exec es s1 s2 A1 A2 Hns He) as [B1 B2]. split; [|split].
  - intros (i & w & E & W). pose proof (nth_forall _ _ _ _ B2 E) as [_ L]. congruence.
  - intros i w E. destruct (w_pc w); cbn; lia.
  - intros e s3 Hn Ho H3. exact (proj1 (stopped_total s2 e s3 B1 B2 Hn H3) Ho).
Qed.

(** The full claim is false: the signal comes between the check of the flag and the wait, and is lost.  The thread then sleeps until
    the next notification (up to a year), and only the clock gets it on; it even notifies once more. *)
Theorem c53_stop_refuted : exists s, exec s0 [Start true; Check 0; Stop None; Enter 0] = Some (Run s) /\
  s_running s = false /\ sleeps s /\
  (forall e s', no_start e -> (forall i, e <> Timeout i) -> (forall i, e <> Spurious i) -> step s e = Some (Run s') -> sleeps s') /\
  exists s'', exec s [Timeout 0; Notify 0 true] = Some (Run s'') /\ s_sent s'' = 1.
Proof.
  exists (mkS false 0 [mkW Waiting 0 true] 0). split; [reflexivity|]. split; [reflexivity|]. split; [exists 0, (mkW Waiting 0 true); split; reflexivity|]. split.
  - intros e s' Hn Ht Hsp H. unfold step, at_pc in H. cbn in H. destruct e; try (exfalso; eapply Hn; reflexivity); try (exfalso; eapply Ht; reflexivity); try (exfalso; eapply Hsp; reflexivity);
      try (injection H as <-; eexists 0, _; split; reflexivity);
      destruct i as [|i]; cbn in H; try discriminate; destruct i; discriminate.
  - eexists. split; reflexivity.
Qed.

(** ** Changes of the configuration *)

(** The same window loses a change: the thread sleeps with the old certificates and intervals. *)
Theorem c53_change_refuted : exists s w, exec s0 [Start true; Check 0; Change false; Signal None; Enter 0] = Some (Run s) /\
  nth_error (s_ws s) 0 = Some w /\ w_pc w = Waiting /\ w_cfg w <> s_cfg s.
Proof. eexists _, _. split; [reflexivity|]. split; [reflexivity|]. split; [reflexivity|]. cbn. discriminate. Qed.

(** If the thread waits, the change reaches it: it uses the new configuration when it is at the check again. *)
Theorem c53_change_partial s i w moved s1 s2 s3 :
  s_running s = true -> nth_error (s_ws s) i = Some w -> w_pc w = Waiting ->
  step s (Change moved) = Some (Run s1) -> step s1 (Signal (Some i)) = Some (Run s2) -> step s2 (Reload i true) = Some (Run s3) ->
  nth_error (s_ws s3) i = Some (mkW Chk (s_cfg s3) true) /\ s_cfg s3 = S (s_cfg s).
Proof.
  intros Hr Hi Hw H1 H2 H3. cbn [step] in H1. injection H1 as <-.
  assert (E1 : nth_error (map (fun w => mkW (w_pc w) (w_cfg w) (w_valid w && negb moved)) (s_ws s)) i = Some (mkW Waiting (w_cfg w) (w_valid w && negb moved))).
  { rewrite nth_error_map, Hi. cbn. rewrite Hw. reflexivity. }
  unfold step in H2. cbn [s_running s_ws] in H2. rewrite Hr in H2. unfold signal in H2. rewrite E1 in H2. cbn [waiting w_pc] in H2. injection H2 as <-.
  unfold step, at_pc in H3. cbn [s_ws with_ws s_running s_cfg s_sent] in H3. rewrite nth_upd, Nat.eqb_refl, E1 in H3. cbn [w_pc] in H3. injection H3 as <-.
  cbn [s_ws s_cfg with_ws s_running s_sent]. rewrite nth_upd, Nat.eqb_refl, nth_upd, Nat.eqb_refl, E1. split; reflexivity.
Qed.

(** A thread whose time has come uses the intervals it took earlier without the lock: they may be freed. *)
Theorem c53_intervals_refuted : exec s0 [Start true; Check 0; Enter 0; Timeout 0; Change true; Notify 0 true] = Some UseAfterFree.
Proof. reflexivity. Qed.

(** ** At most one thread *)

Definition alive (w : worker) : bool := match w_pc w with Done => false | _ => true end.
Definition count_alive (s : st) : nat := length (filter alive (s_ws s)).

(** A stop that does not wait, followed by a start, can leave two threads, each with its own notifications. *)
Theorem c53_two_threads_refuted : exists s, exec s0 [Start true; Check 0; Enter 0; Stop (Some 0); Start true; Reload 0 true; Check 0; Check 1; Enter 0; Enter 1] = Some (Run s) /\
  count_alive s = 2 /\ s_running s = true.
Proof. eexists. split; [vm_compute; reflexivity|]. split; reflexivity. Qed.

(** A start whose thread could not be created leaves the flag set: all later starts are refused although there is no thread. *)
Theorem c53_failed_start_refuted : exists s, exec s0 [Start false; Start true] = Some (Run s) /\ count_alive s = 0 /\ s_running s = true.
Proof. eexists. split; [reflexivity|]. split; reflexivity. Qed.

Lemma filter_upd l w' : forall i w, nth_error l i = Some w -> (alive w = false -> alive w' = false) ->
  length (filter alive (upd l i w')) <= length (filter alive l).
Proof.
  induction l as [|x l IH]; intros [|i] w E H; cbn [upd filter nth_error] in *; try discriminate.
  - injection E as ->. destruct (alive w') eqn:A'; destruct (alive w) eqn:A; cbn; try lia.
  - specialize (IH i w E H). destruct (alive x); cbn; lia.
Qed.

Lemma alive_map moved l : length (filter alive (map (fun w => mkW (w_pc w) (w_cfg w) (w_valid w && negb moved)) l)) = length (filter alive l).
Proof.
  induction l as [|w l IHl]; [reflexivity|]. cbn [map filter]. replace (alive (mkW (w_pc w) (w_cfg w) (w_valid w && negb moved))) with (alive w) by reflexivity. destruct (alive w); cbn [length]; congruence.
Qed.

(** If a thread is started only when the earlier ones have ended (the stop waited), there is at most one, and if the flag is
    cleared nothing adds another. *)
Definition orderly (s : st) (e : event) : Prop := (exists b, e = Start b) -> s_running s = true \/ count_alive s = 0.

Inductive orderly_exec : st -> list event -> st -> Prop :=
| oe_nil s : orderly_exec s [] s
| oe_cons s e s1 es s2 : orderly s e -> step s e = Some (Run s1) -> orderly_exec s1 es s2 -> orderly_exec s (e :: es) s2.

Theorem c53_one_thread_partial es s : orderly_exec s0 es s -> count_alive s <= 1.
Proof.
  assert (G : forall s es s', orderly_exec s es s' -> count_alive s <= 1 -> count_alive s' <= 1).
  { intros s1 es1 s2 H. induction H as [|s1 e s2 es1 s3 Ho Hs _ IH]; intros Hc; [exact Hc|]. apply IH.
    unfold count_alive in *. unfold step, at_pc, goto, with_ws in Hs. destruct e.
    - destruct (s_running s1) eqn:Er; [injection Hs as <-; exact Hc|]. destruct (Ho (ex_intro _ created eq_refl)) as [X|X]; [congruence|].
      unfold count_alive in X. destruct created; injection Hs as <-; cbn [s_ws]; [|lia]. rewrite filter_app, app_length, X. cbn. lia.
    - destruct (s_running s1); [|injection Hs as <-; exact Hc]. destruct (signal (s_ws s1) to) as [ws|] eqn:Es; [|discriminate]. injection Hs as <-. cbn [s_ws].
      unfold signal in Es. destruct to as [i|]; [|destruct (existsb _ _); [discriminate|]; injection Es as <-; exact Hc].
      destruct (nth_error (s_ws s1) i) as [w|] eqn:Ei; [|discriminate]. destruct (waiting w) eqn:Ew; [|discriminate]. injection Es as <-.
      pose proof (filter_upd (s_ws s1) (mkW Woken (w_cfg w) (w_valid w)) i w Ei) as F. unfold waiting, alive in *. destruct (w_pc w); try discriminate. specialize (F ltac:(discriminate)). lia.
    - injection Hs as <-. cbn [s_ws]. rewrite alive_map. exact Hc.
    - destruct (s_running s1); [|injection Hs as <-; exact Hc]. destruct (signal (s_ws s1) to) as [ws|] eqn:Es; [|discriminate]. injection Hs as <-. cbn [s_ws].
      unfold signal in Es. destruct to as [i|]; [|destruct (existsb _ _); [discriminate|]; injection Es as <-; exact Hc].
      destruct (nth_error (s_ws s1) i) as [w|] eqn:Ei; [|discriminate]. destruct (waiting w) eqn:Ew; [|discriminate]. injection Es as <-.
      pose proof (filter_upd (s_ws s1) (mkW Woken (w_cfg w) (w_valid w)) i w Ei) as F. unfold waiting, alive in *. destruct (w_pc w); try discriminate. specialize (F ltac:(discriminate)). lia.
    - destruct (nth_error (s_ws s1) i) as [w|] eqn:Ei; [|discriminate]. destruct (w_pc w) eqn:Ep; try discriminate. injection Hs as <-. cbn [s_ws].
      pose proof (filter_upd (s_ws s1) (mkW (if s_running s1 then Cmp else Done) (w_cfg w) (w_valid w)) i w Ei) as F. unfold alive at 1 in F. rewrite Ep in F. specialize (F ltac:(discriminate)). lia.
    - destruct (nth_error (s_ws s1) i) as [w|] eqn:Ei; [|discriminate]. destruct (w_pc w) eqn:Ep; try discriminate. injection Hs as <-. cbn [s_ws].
      pose proof (filter_upd (s_ws s1) (mkW Waiting (w_cfg w) (w_valid w)) i w Ei) as F. unfold alive at 1 in F. rewrite Ep in F. specialize (F ltac:(discriminate)). lia.
    - destruct (nth_error (s_ws s1) i) as [w|] eqn:Ei; [|discriminate]. destruct (w_pc w) eqn:Ep; try discriminate. injection Hs as <-. cbn [s_ws].
      pose proof (filter_upd (s_ws s1) (mkW Timed (w_cfg w) (w_valid w)) i w Ei) as F. unfold alive at 1 in F. rewrite Ep in F. specialize (F ltac:(discriminate)). lia.
    - destruct (nth_error (s_ws s1) i) as [w|] eqn:Ei; [|discriminate]. destruct (w_pc w) eqn:Ep; try discriminate. injection Hs as <-. cbn [s_ws].
      pose proof (filter_upd (s_ws s1) (mkW Woken (w_cfg w) (w_valid w)) i w Ei) as F. unfold alive at 1 in F. rewrite Ep in F. specialize (F ltac:(discriminate)). lia.
    - destruct (nth_error (s_ws s1) i) as [w|] eqn:Ei; [|discriminate]. destruct (w_pc w) eqn:Ep; try discriminate.
      destruct (s_running s1); injection Hs as <-; cbn [s_ws].
      + pose proof (filter_upd (s_ws s1) (mkW (if ok then Chk else Done) (s_cfg s1) true) i w Ei) as F. unfold alive at 1 in F. rewrite Ep in F. specialize (F ltac:(discriminate)). lia.
      + pose proof (filter_upd (s_ws s1) (mkW Done (w_cfg w) (w_valid w)) i w Ei) as F. unfold alive at 1 in F. rewrite Ep in F. specialize (F ltac:(discriminate)). lia.
    - destruct (nth_error (s_ws s1) i) as [w|] eqn:Ei; [|discriminate]. destruct (w_pc w) eqn:Ep; try discriminate. destruct (w_valid w); [|discriminate]. injection Hs as <-. cbn [s_ws].
      pose proof (filter_upd (s_ws s1) (mkW (if ok then Chk else Done) (w_cfg w) true) i w Ei) as F. unfold alive at 1 in F. rewrite Ep in F. specialize (F ltac:(discriminate)). lia. }
  intros H. exact (G s0 es s H ltac:(cbn; lia)).
Qed.

(** Examples: a thread that waits is stopped; the hypotheses of [c53_stop_partial] and [c53_one_thread_partial] are met. *)
Example ex_stop : exists s s1 s2, exec s0 [Start true; Check 0; Enter 0] = Some (Run s) /\ Forall (fun w => w_pc w <> Cmp) (s_ws s) /\
  step s (Stop (Some 0)) = Some (Run s1) /\ exec s1 [Reload 0 true] = Some (Run s2) /\ count_alive s2 = 0.
Proof.
  eexists _, _, _. split; [reflexivity|]. split; [repeat constructor; cbn; discriminate|]. split; [reflexivity|]. split; reflexivity.
Qed.
Example ex_orderly : exists s, orderly_exec s0 [Start true; Check 0; Enter 0; Stop (Some 0); Reload 0 true; Start true] s /\ count_alive s = 1.
Proof.
  eexists. split.
  - repeat (eapply oe_cons; [intros (b & E); try discriminate E; cbn; auto|reflexivity|]). apply oe_nil.
  - reflexivity.
Qed.

Print Assumptions c53_stop_partial.
Print Assumptions c53_stop_refuted.
Print Assumptions c53_change_partial.
Print Assumptions c53_one_thread_partial.
