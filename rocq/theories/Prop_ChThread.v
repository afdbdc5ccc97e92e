(** C122, C123: removal of Call Home clients and their threads. *)
From Coq Require Import List Arith Lia Bool.
From Verif Require Import ChThread.
Import ListNotations.

(* ------------------------------------------------------------------ *)
(** ** Lemmas on lists of threads *)
Lemma nth_upd {A} (l : list A) i x j :
  nth_error (upd l i x) j = if Nat.eqb i j then match nth_error l j with Some _ => Some x | None => None end else nth_error l j.
Proof.
  revert i j. induction l as [|y l IH]; intros i j; cbn [upd].
  - destruct (Nat.eqb i j), j; reflexivity.
  - destruct i, j; cbn [nth_error Nat.eqb]; auto.
Qed.
Lemma len_upd {A} (l : list A) i x : length (upd l i x) = length l.
Proof. revert i. induction l as [|y l IH]; intros [|i]; cbn; auto. Qed.
Lemma not_locked s i t : locked s = false -> nth_error (ths s) i = Some t -> holds t = false.
Proof.
  unfold locked. intros H HN. destruct (holds t) eqn:E; [|reflexivity].
  assert (existsb holds (ths s) = true) as G; [|congruence]. apply existsb_exists. exists t. split; [now apply nth_error_In with i|exact E].
Qed.

Ltac dth s e := unfold step in *; destruct (bad s) eqn:?; [discriminate|].

(* ------------------------------------------------------------------ *)
(** ** C123: what always holds *)

(** A thread uses the structure of the client from the lookup to the unlock. *)
Definition uses_client (t : th) : Prop := t_pc t = PLoop \/ t_pc t = PConn.
Lemma uses_holds t : uses_client t <-> holds t = true.
Proof. unfold uses_client, holds. destruct (t_pc t); split; try tauto; try discriminate; intros [|]; discriminate. Qed.

Definition always (s : st) : Prop :=
  (forall i t, nth_error (ths s) i = Some t -> holds t = true -> present s = true) /\
  (forall i j a b, nth_error (ths s) i = Some a -> nth_error (ths s) j = Some b -> holds a = true -> holds b = true -> i = j) /\
  (forall i t, nth_error (ths s) i = Some t -> (t_freed t = true <-> t_pc t = PDone)).

Lemma always_set s i t u : always s -> nth_error (ths s) i = Some t ->
  (holds u = true -> present s = true /\ (holds t = true \/ locked s = false)) ->
  (t_freed u = true <-> t_pc u = PDone) -> always (set_th s i u).
Proof.
  intros (A & B & C) HN HU HF. unfold always, set_th. cbn [ths present].
  assert (N : forall j x, nth_error (upd (ths s) i u) j = Some x -> (j = i /\ x = u) \/ (j <> i /\ nth_error (ths s) j = Some x)).
  { intros j x. rewrite nth_upd. destruct (Nat.eqb_spec i j) as [-> | NE]; [|auto]. rewrite HN. intros [= <-]. auto. }
  split; [|split].
  - intros j x H Hx. destruct (N j x H) as [[-> ->] | [_ G]]; [apply HU; exact Hx|exact (A j x G Hx)].
  - intros j k a b Ha Hb Ua Ub. destruct (N j a Ha) as [[-> ->] | [Nj Ga]], (N k b Hb) as [[-> ->] | [Nk Gb]]; auto.
    + destruct (HU Ua) as [_ [H|H]]; [exact (B i k t b HN Gb H Ub)|]. rewrite (not_locked s k b H Gb) in Ub. discriminate.
    + destruct (HU Ub) as [_ [H|H]]; [exact (B j i a t Ga HN Ua H)|]. rewrite (not_locked s j a H Ga) in Ua. discriminate.
    + exact (B j k a b Ga Gb Ua Ub).
  - intros j x H. destruct (N j x H) as [[-> ->] | [_ G]]; [exact HF|exact (C j x G)].
Qed.
Lemma freed_to s i t p : always s -> nth_error (ths s) i = Some t -> t_pc t <> PDone -> p <> PDone ->
  (t_freed (to t p) = true <-> t_pc (to t p) = PDone).
Proof.
  intros (_ & _ & C) HN H1 H2. cbn [to t_freed t_pc]. split; intros H; [|congruence].
  apply (C i t HN) in H. congruence.
Qed.

Lemma always_step s e s' : always s -> step s e = Some s' -> always s'.
Proof.
  intros HA. assert (HA' := HA). destruct HA' as (A & B & C). unfold step. destruct (bad s); [discriminate|].
  destruct e as [ |b| | | | |i c].
  - destruct (dp s); try discriminate; destruct (present s) eqn:P; try discriminate; intros [= <-]; unfold always; cbn [ths present];
      (split; [reflexivity|split; [exact B|exact C]]).
  - destruct (present s && negb (locked s)); [|discriminate]. intros [= <-]. unfold always; cbn [ths present]. auto.
  - destruct (present s && negb (locked s)) eqn:E; [|discriminate]. intros [= <-]. unfold always; cbn [ths present].
    apply andb_prop in E. destruct E as [P L].
    assert (N : forall j x, nth_error (ths s ++ [{| t_pc := PLook KStart; t_run := true; t_freed := false |}]) j = Some x ->
      nth_error (ths s) j = Some x \/ x = {| t_pc := PLook KStart; t_run := true; t_freed := false |}).
    { intros j x H. destruct (Nat.lt_ge_cases j (length (ths s))); [left; now rewrite nth_error_app1 in H|right].
      rewrite nth_error_app2 in H by assumption. destruct (j - length (ths s)); cbn in H; [congruence|destruct n; discriminate]. }
    split; [auto|split].
    + intros j k a b Ha Hb Ua Ub. destruct (N j a Ha) as [Ga | ->]; [|discriminate]. destruct (N k b Hb) as [Gb | ->]; [|discriminate].
      exact (B j k a b Ga Gb Ua Ub).
    + intros j x H. destruct (N j x H) as [G | ->]; [exact (C j x G)|]. cbn. split; discriminate.
  - destruct (present s && negb (locked s)) eqn:E; [|discriminate]. intros [= <-]. unfold always; cbn [ths present].
    apply andb_prop in E. destruct E as [P L]. apply negb_true_iff in L. split; [|auto].
    intros i t H Ht. rewrite (not_locked s i t L H) in Ht. discriminate.
  - destruct (dp s) as [|[i|]| |]; try discriminate.
    + destruct (nth_error (ths s) i) as [t|] eqn:HN; [|discriminate]. destruct (t_freed t) eqn:F; [intros [= <-]; exact HA|].
      destruct (t_run t); [|intros [= <-]; exact HA]. intros [= <-].
      pose (u := {| t_pc := t_pc t; t_run := false; t_freed := t_freed t |}).
      assert (G : always (set_th s i u)).
      { apply (always_set s i t u HA HN); [|exact (C i t HN)].
        change (holds u) with (holds t). intros H. split; [exact (A i t HN H)|now left]. }
      unfold u in G. rewrite F in G. exact G.
    + intros [= <-]. exact HA.
  - destruct (dp s) as [| |i|]; try discriminate. destruct (nth_error (ths s) i) as [t|]; [|discriminate].
    destruct (t_pc t); try discriminate. intros [= <-]. exact HA.
  - destruct (nth_error (ths s) i) as [t|] eqn:HN; [|discriminate]. unfold tstep.
    assert (GO : forall p, holds (to t p) = false -> p <> PDone -> t_pc t <> PDone -> always (set_th s i (to t p))).
    { intros p H1 H2 H3. apply (always_set s i t _ HA HN); [rewrite H1; discriminate|]. now apply (freed_to s i t p HA HN). }
    destruct (t_pc t) as [k| | | | | |k| |] eqn:PC.
    + destruct (present s) eqn:P.
      * destruct (locked s) eqn:L; [discriminate|].
        assert (G : always (set_th s i (to t PLoop))).
        { apply (always_set s i t _ HA HN); [auto|]. apply (freed_to s i t _ HA HN); congruence. }
        destruct (eps s); [|intros [= <-]; apply GO; congruence || reflexivity].
        destruct k, c; intros [= <-]; try exact G; apply GO; congruence || reflexivity.
      * destruct k; intros [= <-]; try exact HA; apply GO; congruence || reflexivity.
    + assert (H : holds t = true) by (unfold holds; now rewrite PC).
      destruct (t_run t); intros [= <-]; [|apply GO; congruence || reflexivity].
      apply (always_set s i t _ HA HN); [intros _; split; [exact (A i t HN H)|now left]|]. apply (freed_to s i t _ HA HN); congruence.
    + destruct c; intros [= <-]; apply GO; congruence || reflexivity.
    + destruct (t_run t); intros [= <-]; apply GO; congruence || reflexivity.
    + destruct c; try (intros [= <-]; apply GO; congruence || reflexivity).
      destruct (present s); [destruct (locked s); [discriminate|]|]; intros [= <-]; apply GO; congruence || reflexivity.
    + destruct (t_run t); intros [= <-]; apply GO; congruence || reflexivity.
    + destruct (t_run t); [destruct c|]; intros [= <-]; apply GO; congruence || reflexivity.
    + intros [= <-]. apply (always_set s i t _ HA HN); [discriminate|]. cbn. tauto.
    + discriminate.
Qed.
Lemma always_start : always start.
Proof.
  unfold always, start; cbn [ths]. split; [|split].
  - intros [|i] t H; discriminate H.
  - intros [|i] j a b H; discriminate H.
  - intros [|i] t H; discriminate H.
Qed.
Lemma always_exec es : forall s s', always s -> exec s es = Some s' -> always s'.
Proof.
  induction es as [|e es IH]; intros s s' A; cbn [exec]; [intros [= <-]; exact A|].
  destruct (step s e) as [s1|] eqn:E; [|discriminate]. apply IH. exact (always_step s e s1 A E).
Qed.

(** No thread uses a client that was removed, and no two threads use it at once. *)
Theorem c123_client_not_used_after_removal es s i t :
  exec start es = Some s -> nth_error (ths s) i = Some t -> uses_client t -> present s = true.
Proof. intros H HN U. apply uses_holds in U. destruct (always_exec es _ _ always_start H) as (A & _). eauto. Qed.
Theorem c123_one_user es s i j a b :
  exec start es = Some s -> nth_error (ths s) i = Some a -> nth_error (ths s) j = Some b ->
  uses_client a -> uses_client b -> i = j.
Proof. intros H Ha Hb Ua Ub. apply uses_holds in Ua, Ub. destruct (always_exec es _ _ always_start H) as (_ & B & _). eauto. Qed.

(** The removal waits for a thread: it is over only when the thread has returned
    and has released its data. *)
Theorem c123_removal_waits es s s' i :
  exec start es = Some s -> dp s = DJoin i -> step s Rm3 = Some s' ->
  exists t, nth_error (ths s') i = Some t /\ t_pc t = PDone /\ t_freed t = true.
Proof.
  intros H D. unfold step. destruct (bad s); [discriminate|]. rewrite D.
  destruct (nth_error (ths s) i) as [t|] eqn:HN; [|discriminate]. destruct (t_pc t) eqn:P; try discriminate.
  intros [= <-]. exists t. cbn [ths]. split; [exact HN|]. split; [exact P|].
  destruct (always_exec es _ _ always_start H) as (_ & _ & C). now apply (C i t HN).
Qed.

(** Once told to end, a thread ends after at most three steps of its own and
    never has to wait, unless the program is aborted. *)
Definition rank (p : pc) : nat := match p with PSess => 3 | PClean => 1 | PDone => 0 | _ => 2 end.
Fixpoint count (i : nat) (es : list ev) : nat :=
  match es with
  | [] => 0
  | T j _ :: r => (if Nat.eqb i j then 1 else 0) + count i r
  | _ :: r => count i r
  end.
(** While the remover waits the client is gone and the flag is reset. *)
Definition joining (s : st) : Prop := forall i, dp s = DJoin i ->
  present s = false /\ exists t, nth_error (ths s) i = Some t /\ t_run t = false.
Definition removing (s : st) : Prop := forall d, dp s = DRemoved d -> present s = false.

Lemma tstep_frame s i t c s' : tstep s i t c = Some s' ->
  (exists u, s' = set_th s i u /\ t_run u = t_run t) \/ s' = set_bad s BAbort.
Proof.
  unfold tstep. destruct (t_pc t) as [k| | | | | |k| |].
  - destruct (present s); [destruct (locked s); [discriminate|]; destruct (eps s)|].
    + destruct k, c; intros [= <-]; left; eexists; split; reflexivity.
    + intros [= <-]; left; eexists; split; reflexivity.
    + destruct k; intros [= <-]; try (right; reflexivity); left; eexists; split; reflexivity.
  - destruct (t_run t) eqn:E; intros [= <-]; left; eexists; split; try reflexivity; cbn; congruence.
  - destruct c; intros [= <-]; left; eexists; split; reflexivity.
  - destruct (t_run t) eqn:E; intros [= <-]; left; eexists; split; try reflexivity; cbn; congruence.
  - destruct c; [destruct (present s); [destruct (locked s); [discriminate|]|]| |]; intros [= <-]; left; eexists; split; reflexivity.
  - destruct (t_run t) eqn:E; intros [= <-]; left; eexists; split; try reflexivity; cbn; congruence.
  - destruct (t_run t) eqn:E; [destruct c|]; intros [= <-]; left; eexists; split; try reflexivity; cbn; congruence.
  - intros [= <-]; left; eexists; split; reflexivity.
  - discriminate.
Qed.
Lemma phases_step s e s' : joining s /\ removing s -> step s e = Some s' -> joining s' /\ removing s'.
Proof.
  intros [J R]. unfold step. destruct (bad s); [discriminate|]. destruct e as [ |b| | | | |i c].
  - destruct (dp s); try discriminate; destruct (present s); try discriminate; intros [= <-]; (split; intros ? H; discriminate H).
  - destruct (present s && negb (locked s)) eqn:E; [|discriminate]. apply andb_prop in E. destruct E as [P _]. intros [= <-].
    split; intros d H; cbn [dp] in H; [destruct (J d H)|specialize (R d H)]; congruence.
  - destruct (present s && negb (locked s)) eqn:E; [|discriminate]. apply andb_prop in E. destruct E as [P _]. intros [= <-].
    split; intros d H; cbn [dp] in H; [destruct (J d H)|specialize (R d H)]; congruence.
  - destruct (present s && negb (locked s)) eqn:E; [|discriminate]. intros [= <-]. split; intros d H; cbn [dp present] in *; [discriminate|reflexivity].
  - destruct (dp s) as [|[i|]| |] eqn:D; try discriminate.
    + destruct (nth_error (ths s) i) as [t|] eqn:HN; [|discriminate]. destruct (t_freed t); [|destruct (t_run t)]; intros [= <-].
      * split; intros d H; cbn [set_bad dp present ths] in *; [destruct (J d H); congruence|exact (R d H)].
      * split; intros d H; cbn [dp present ths] in *; [|discriminate]. injection H as <-. split; [exact (R _ D)|].
        eexists. rewrite nth_upd, Nat.eqb_refl, HN. split; reflexivity.
      * split; intros d H; discriminate H.
    + intros [= <-]. split; intros d H; cbn [set_bad dp present ths] in *; [exact (J d H)|exact (R d H)].
  - destruct (dp s) as [| |i|] eqn:D; try discriminate. destruct (nth_error (ths s) i) as [t|]; [|discriminate].
    destruct (t_pc t); try discriminate. intros [= <-]. split; intros d H; discriminate H.
  - destruct (nth_error (ths s) i) as [t|] eqn:HN; [|discriminate]. intros H.
    destruct (tstep_frame s i t c s' H) as [(u & -> & E) | ->]; [|split; intros d G; cbn in *; [exact (J d G)|exact (R d G)]].
    split; intros d G; cbn [set_th dp present ths] in *; [|exact (R d G)]. destruct (J d G) as (P & x & Hx & Rx).
    split; [exact P|]. rewrite nth_upd. destruct (Nat.eqb_spec i d) as [-> | NE]; [|eauto].
    rewrite Hx. exists u. split; [reflexivity|]. congruence.
Qed.
Lemma phases_exec es : forall s s', joining s /\ removing s -> exec s es = Some s' -> joining s' /\ removing s'.
Proof.
  induction es as [|e es IH]; intros s s' A; cbn [exec]; [intros [= <-]; exact A|].
  destruct (step s e) as [s1|] eqn:E; [|discriminate]. apply IH. exact (phases_step s e s1 A E).
Qed.
Lemma phases_start : joining start /\ removing start.
Proof. split; intros d H; discriminate H. Qed.

(** The thread being joined, or one that has returned. *)
Definition ending (i : nat) (n : nat) (s : st) : Prop :=
  exists t, nth_error (ths s) i = Some t /\ rank (t_pc t) <= n /\ (dp s = DJoin i \/ t_pc t = PDone).
Lemma rank0 p : rank p = 0 <-> p = PDone.
Proof. destruct p; cbn; split; congruence || lia. Qed.
Lemma ending_step s e s' i n : always s -> joining s -> ending i n s -> step s e = Some s' ->
  match e with T j _ => if Nat.eqb i j then bad s' <> None \/ (1 <= n /\ ending i (n - 1) s') else ending i n s' | _ => ending i n s' end.
Proof.
  intros HA J (t & HN & HR & HD). unfold step. destruct (bad s); [discriminate|]. destruct e as [ |b| | | | |j c].
  - destruct (dp s) eqn:D; try discriminate; destruct (present s); try discriminate; intros [= <-]; exists t; cbn [ths dp];
      (split; [exact HN|split; [exact HR|]]); destruct HD; auto; discriminate.
  - destruct (present s && negb (locked s)); [|discriminate]. intros [= <-]. exists t. auto.
  - destruct (present s && negb (locked s)); [|discriminate]. intros [= <-]. exists t. cbn [ths dp].
    split; [|auto]. rewrite nth_error_app1; [exact HN|]. apply nth_error_Some. congruence.
  - destruct (present s && negb (locked s)) eqn:E; [|discriminate]. apply andb_prop in E. destruct E as [P _]. intros [= <-]. exists t. cbn [ths dp].
    split; [exact HN|split; [exact HR|]]. destruct HD as [D|D]; [|auto]. destruct (J i D). congruence.
  - destruct (dp s) as [|[k|]| |] eqn:D; try discriminate.
    + destruct HD as [D'|D']; [discriminate|].
      destruct (nth_error (ths s) k) as [x|] eqn:HK; [|discriminate]. destruct (t_freed x) eqn:F; [intros [= <-]; exists t; auto|].
      destruct (t_run x); intros [= <-]; [|exists t; cbn [ths dp]; auto].
      destruct (Nat.eqb_spec k i) as [-> | NE].
      * destruct HA as (_ & _ & C). assert (x = t) by congruence. subst x. apply (C i t HN) in D'. congruence.
      * exists t. cbn [ths dp]. split; [|auto]. rewrite nth_upd. apply Nat.eqb_neq in NE. now rewrite NE.
    + intros [= <-]. destruct HD as [D'|D']; [discriminate|]. exists t. auto.
  - destruct (dp s) as [| |k|] eqn:D; try discriminate. destruct (nth_error (ths s) k) as [x|] eqn:HK; [|discriminate].
    destruct (t_pc x) eqn:PX; try discriminate. intros [= <-]. exists t. cbn [ths dp]. split; [exact HN|split; [exact HR|right]].
    destruct HD as [D'|D']; [|exact D']. injection D' as ->. congruence.
  - destruct (nth_error (ths s) j) as [x|] eqn:HJ; [|discriminate]. intros H.
    destruct (Nat.eqb_spec i j) as [<- | NE].
    + assert (x = t) by congruence. subst x. destruct HD as [D|D]; [|unfold tstep in H; rewrite D in H; discriminate].
      destruct (J i D) as (P & x & Hx & Rx). assert (x = t) by congruence. subst x. clear Hx HJ.
      destruct HA as (A & _).
      assert (G : forall u, s' = set_th s i u -> S (rank (t_pc u)) <= rank (t_pc t) -> 1 <= n /\ ending i (n - 1) s').
      { intros u -> L. split; [lia|]. exists u. cbn [set_th ths dp]. rewrite nth_upd, Nat.eqb_refl, HN. split; [reflexivity|]. split; [lia|now left]. }
      assert (A' := A i t HN). unfold holds in A'. unfold tstep in H. rewrite P, Rx in H.
      destruct (t_pc t) as [k| | | | | |k| |] eqn:PC; try (specialize (A' eq_refl); congruence).
      * destruct k; injection H as <-; try (left; discriminate); right; (eapply G; [reflexivity|cbn; lia]).
      * injection H as <-. right. eapply G; [reflexivity|cbn; lia].
      * destruct c; injection H as <-; right; (eapply G; [reflexivity|cbn; lia]).
      * injection H as <-. right. eapply G; [reflexivity|cbn; lia].
      * injection H as <-. right. eapply G; [reflexivity|cbn; lia].
      * injection H as <-. right. eapply G; [reflexivity|cbn; lia].
      * discriminate.
    + destruct (tstep_frame s j x c s' H) as [(u & -> & _) | ->]; [|exists t; auto]. exists t. cbn [set_th ths dp].
      split; [|auto]. rewrite nth_upd. destruct (Nat.eqb_spec j i); [congruence|exact HN].
Qed.
Lemma ending_exec i es : forall n s s', always s -> joining s /\ removing s -> ending i n s -> exec s es = Some s' -> bad s' = None -> count i es <= n.
Proof.
  induction es as [|e es IH]; intros n s s' A JR En; cbn [exec count]; [lia|].
  destruct (step s e) as [s1|] eqn:E; [|discriminate]. intros H B.
  assert (A1 := always_step s e s1 A E). assert (J1 := phases_step s e s1 JR E). assert (G := ending_step s e s1 i n A (proj1 JR) En E).
  destruct e as [ |b| | | | |j c]; try exact (IH n s1 s' A1 J1 G H B).
  destruct (Nat.eqb i j); [|exact (IH n s1 s' A1 J1 G H B)].
  destruct G as [G|[Ln G]]; [|specialize (IH (n - 1) s1 s' A1 J1 G H B); lia].
  destruct es as [|e2 es]; [cbn in H; congruence|]. cbn [exec] in H. unfold step in H. destruct (bad s1); [discriminate|congruence].
Qed.
Theorem c123_told_thread_ends es s i more s' :
  exec start es = Some s -> dp s = DJoin i ->
  exec s more = Some s' -> bad s' = None ->
  count i more <= 3.
Proof.
  intros H D HM B. assert (A := always_exec es _ _ always_start H). assert (JR := phases_exec es _ _ phases_start H).
  eapply ending_exec; eauto. destruct (proj1 JR i D) as (_ & t & HN & _). exists t. split; [exact HN|]. split; [|now left].
  destruct (t_pc t); cbn; lia.
Qed.
Theorem c123_told_thread_can_go_on es s i :
  exec start es = Some s -> dp s = DJoin i -> bad s = None ->
  (exists s', step s Rm3 = Some s') \/ (exists c s', step s (T i c) = Some s').
Proof.
  intros H D B. destruct (proj1 (phases_exec es _ _ phases_start H) i D) as (P & t & HN & R). unfold step. rewrite B, D, HN.
  unfold tstep. rewrite P, R. destruct (t_pc t) as [k| | | | | |k| |]; try (left; eexists; reflexivity); right; exists Go;
    try destruct k; eexists; reflexivity.
Qed.

(* ------------------------------------------------------------------ *)
(** ** C122: removing a client is safe *)

(** The full claim: whatever happens, no memory is misused, the program is not
    aborted, and when the removal is over no thread of the client is left. *)
Definition removal_safe : Prop := forall es s, exec start es = Some s ->
  bad s = None /\ (dp s = DDone -> forall t, In t (ths s) -> t_pc t = PDone /\ t_freed t = true).

(** What the proved version leaves out:
    - a client dispatched again while it has a thread,
    - the removal of a client without a thread,
    - a thread that fails to wait and ends on its own,
    - a thread looking its removed client up before it was told to end, or where
      the code asserts that the client exists. *)
Definition looks_up (t : th) (c : choice) : option look :=
  match t_pc t, c with
  | PLook k, _ => Some k
  | PSess, Go => Some KAfter
  | _, _ => None
  end.
Definition unlucky (s : st) (e : ev) : Prop :=
  match e with
  | Disp => td s <> None
  | Rm1 => td s = None
  | T i c => exists t, nth_error (ths s) i = Some t /\
      ((c = Fail /\ t_run t = true /\ (t_pc t = PSess \/ exists k, t_pc t = PWait k)) \/
       (present s = false /\ exists k, looks_up t c = Some k /\ (k = KPeriodic \/ k = KMaxWait \/ t_run t = true)))
  | _ => False
  end.
Fixpoint lucky (s : st) (es : list ev) : Prop :=
  match es with
  | [] => True
  | e :: r => ~ unlucky s e /\ forall s1, step s e = Some s1 -> lucky s1 r
  end.

Definition owner (s : st) : option nat :=
  match dp s with DIdle => td s | DRemoved d => d | DJoin i => Some i | DDone => None end.
Definition alive (t : th) : Prop := t_run t = true /\ t_freed t = false /\ t_pc t <> PClean /\ t_pc t <> PDone.
Definition good (s : st) : Prop :=
  bad s = None /\
  (forall j t, nth_error (ths s) j = Some t -> owner s <> Some j -> t_pc t = PDone) /\
  match dp s with
  | DIdle => forall i, td s = Some i -> present s = true /\ exists t, nth_error (ths s) i = Some t /\ alive t
  | DRemoved d => present s = false /\ exists i t, d = Some i /\ nth_error (ths s) i = Some t /\ alive t
  | DJoin i => present s = false /\ exists t, nth_error (ths s) i = Some t /\ t_run t = false
  | DDone => present s = false
  end.

Lemma good_step s e s' : always s -> good s -> ~ unlucky s e -> step s e = Some s' -> good s'.
Proof.
  intros HA (B & O & P) NU. unfold step. rewrite B. destruct e as [ |b| | | | |i c]; cbn [unlucky] in NU.
  - destruct (dp s) eqn:D; try discriminate; destruct (present s) eqn:PR; try discriminate; intros [= <-].
    + unfold good, owner in *. rewrite D in *. cbn [bad ths dp td present]. split; [reflexivity|split; [|discriminate]].
      intros j t H _. apply (O j t H). intros E. destruct (P j E). discriminate.
    + unfold good, owner in *. rewrite D in *. cbn [bad ths dp td present]. split; [reflexivity|split; [|discriminate]].
      intros j t H _. apply (O j t H). discriminate.
  - destruct (present s && negb (locked s)) eqn:E; [|discriminate]. apply andb_prop in E. destruct E as [PR _]. intros [= <-].
    unfold good, owner in *. cbn [bad ths dp td present]. split; [reflexivity|split; [exact O|]]. rewrite PR in P. exact P.
  - destruct (present s && negb (locked s)) eqn:E; [|discriminate]. apply andb_prop in E. destruct E as [PR _]. intros [= <-].
    unfold good, owner in *. rewrite PR in P. cbn [bad ths dp td present].
    destruct (dp s) as [|d|d|] eqn:D; try (destruct P; discriminate); try discriminate.
    destruct (td s) as [x|] eqn:TD; [destruct NU; congruence|]. split; [reflexivity|]. split.
    + intros j t H NE. destruct (Nat.lt_ge_cases j (length (ths s))) as [L|L].
      * rewrite nth_error_app1 in H by exact L. apply (O j t H). discriminate.
      * rewrite nth_error_app2 in H by exact L. destruct (Nat.eq_dec j (length (ths s))) as [-> | N2]; [congruence|].
        destruct (j - length (ths s)) as [|[|m]] eqn:Z; [lia|discriminate|discriminate].
    + intros i [= <-]. split; [reflexivity|]. eexists. rewrite nth_error_app2, Nat.sub_diag by lia. split; [reflexivity|].
      unfold alive; cbn. repeat split; discriminate.
  - destruct (present s && negb (locked s)) eqn:E; [|discriminate]. apply andb_prop in E. destruct E as [PR _]. intros [= <-].
    unfold good, owner in *. rewrite PR in P. cbn [bad ths dp td present].
    destruct (dp s) as [|d|d|] eqn:D; try (destruct P; discriminate); try discriminate.
    split; [reflexivity|split; [exact O|]]. split; [reflexivity|]. destruct (td s) as [x|] eqn:TD; [|congruence].
    destruct (P x eq_refl) as (_ & t & G). exists x, t. tauto.
  - destruct (dp s) as [|d| |] eqn:D; try discriminate. destruct P as (PR & i & t & -> & HN & R & F & N1 & N2). rewrite HN, F, R.
    intros [= <-]. unfold good, owner in *. rewrite D in O. cbn [bad ths dp td present]. split; [reflexivity|split].
    + intros j x. rewrite nth_upd. destruct (Nat.eqb_spec i j); [congruence|apply O].
    + split; [exact PR|]. eexists. rewrite nth_upd, Nat.eqb_refl, HN. split; reflexivity.
  - destruct (dp s) as [| |i|] eqn:D; try discriminate. destruct P as (PR & t & HN & R). rewrite HN. destruct (t_pc t) eqn:PC; try discriminate.
    intros [= <-]. unfold good, owner in *. rewrite D in O. cbn [bad ths dp td present]. split; [reflexivity|split; [|exact PR]].
    intros j x H _. destruct (Nat.eq_dec j i) as [-> | NE]; [congruence|]. apply (O j x H). congruence.
  - destruct (nth_error (ths s) i) as [t|] eqn:HN; [|discriminate]. intros H.
    assert (ND : t_pc t <> PDone) by (intros E; unfold tstep in H; rewrite E in H; discriminate).
    assert (OW : owner s = Some i). { destruct (owner s) as [x|] eqn:OW; [|exfalso; apply ND; apply (O i t HN); discriminate].
      destruct (Nat.eq_dec x i) as [-> | NE]; [reflexivity|]. exfalso. apply ND, (O i t HN). congruence. }
    assert (FR : t_freed t = false). { destruct HA as (_ & _ & C). destruct (t_freed t) eqn:F; [|reflexivity]. destruct ND. now apply (C i t HN). }
    assert (G : exists u, s' = set_th s i u /\ t_run u = t_run t /\ (t_run t = true -> (present s = true \/ t_pc t <> PClean) -> t_pc t <> PClean -> t_freed u = false /\ t_pc u <> PClean /\ t_pc u <> PDone)).
    { assert (NF : ~ (c = Fail /\ t_run t = true /\ (t_pc t = PSess \/ (exists k, t_pc t = PWait k)))) by (intros Z; apply NU; eauto).
      assert (NL : ~ (present s = false /\ (exists k, looks_up t c = Some k /\ (k = KPeriodic \/ k = KMaxWait \/ t_run t = true)))) by (intros Z; apply NU; eauto).
      unfold tstep in H. unfold looks_up in NL. clear NU.
      destruct (t_pc t) as [k| | | | | |k| |] eqn:PC.
      - destruct (present s) eqn:PR; [destruct (locked s); [discriminate|]; destruct (eps s)|].
        + destruct k, c; injection H as <-; eexists; (split; [reflexivity|]); cbn; repeat split; auto; discriminate.
        + injection H as <-; eexists; (split; [reflexivity|]); cbn; repeat split; auto; discriminate.
        + destruct k; try (exfalso; apply NL; split; [reflexivity|]; eexists; split; [reflexivity|]; tauto).
          all: injection H as <-; eexists; (split; [reflexivity|]); cbn; split; [reflexivity|]; intros RT; exfalso; apply NL; eauto 6.
      - destruct (t_run t) eqn:R; injection H as <-; eexists; (split; [reflexivity|]); cbn; (split; [congruence|]); repeat split; auto; discriminate.
      - destruct c; injection H as <-; eexists; (split; [reflexivity|]); cbn; (split; [congruence|]); repeat split; auto; discriminate.
      - destruct (t_run t) eqn:R; injection H as <-; eexists; (split; [reflexivity|]); cbn; (split; [congruence|]); repeat split; auto; discriminate.
      - destruct c.
        + destruct (present s) eqn:PR; [destruct (locked s); [discriminate|]|]; injection H as <-; eexists; (split; [reflexivity|]); cbn; (split; [congruence|]);
            [repeat split; auto; discriminate|]. intros RT. exfalso. apply NL. eauto 6.
        + injection H as <-; eexists; (split; [reflexivity|]); cbn; (split; [congruence|]); repeat split; auto; discriminate.
        + injection H as <-; eexists; (split; [reflexivity|]); cbn; (split; [congruence|]). intros RT. exfalso. apply NF. auto.
      - destruct (t_run t) eqn:R; injection H as <-; eexists; (split; [reflexivity|]); cbn; (split; [congruence|]); repeat split; auto; discriminate.
      - destruct (t_run t) eqn:R; [destruct c|]; injection H as <-; eexists; (split; [reflexivity|]); cbn; (split; [congruence|]); try (repeat split; auto; discriminate).
        intros _. exfalso. apply NF. eauto.
      - injection H as <-; eexists; (split; [reflexivity|]); cbn; (split; [congruence|]). congruence.
      - discriminate. }
    destruct G as (u & -> & RU & AU). unfold good, owner in *. cbn [set_th bad ths dp td present]. split; [exact B|split].
    + intros j x. rewrite nth_upd. destruct (Nat.eqb_spec i j); [congruence|apply O].
    + assert (AL : alive t -> alive u). { intros (a1 & a2 & a3 & a4). unfold alive. split; [congruence|]. apply AU; auto. }
      assert (NU' : nth_error (upd (ths s) i u) i = Some u) by (rewrite nth_upd, Nat.eqb_refl, HN; reflexivity).
      destruct (dp s) as [|d|d|] eqn:D.
      * intros i0 TD. assert (i0 = i) by congruence. subst i0. destruct (P i TD) as (PR & x & Hx & Ax). split; [exact PR|].
        exists u. split; [exact NU'|]. apply AL. congruence.
      * destruct P as (PR & i0 & x & -> & Hx & Ax). split; [exact PR|]. injection OW as ->. exists i, u. split; [reflexivity|].
        split; [exact NU'|]. apply AL. congruence.
      * destruct P as (PR & x & Hx & Rx). split; [exact PR|]. injection OW as ->. exists u. split; [exact NU'|]. congruence.
      * exact P.
Qed.
Lemma good_start : good start.
Proof. unfold good, owner, start; cbn. repeat split; try discriminate. intros [|j] t H; discriminate H. Qed.
Lemma good_exec es : forall s s', always s -> good s -> lucky s es -> exec s es = Some s' -> good s'.
Proof.
  induction es as [|e es IH]; intros s s' A G L; cbn [exec]; [intros [= <-]; exact G|].
  destruct L as [NU L]. destruct (step s e) as [s1|] eqn:E; [|discriminate].
  apply IH; [exact (always_step s e s1 A E)|exact (good_step s e s1 A G NU E)|exact (L s1 eq_refl)].
Qed.

Theorem c122_removal_safe_partial es s :
  lucky start es -> exec start es = Some s ->
  bad s = None /\ (dp s = DDone -> forall t, In t (ths s) -> t_pc t = PDone /\ t_freed t = true).
Proof.
  intros L H. destruct (good_exec es _ _ always_start good_start L H) as (B & O & P). split; [exact B|].
  intros D t IN. apply In_nth_error in IN. destruct IN as [j HN].
  assert (t_pc t = PDone). { apply (O j t HN). unfold owner. rewrite D. discriminate. }
  split; [assumption|]. destruct (always_exec es _ _ always_start H) as (_ & _ & C). now apply (C j t HN).
Qed.

(** The five ways in which the full claim fails. *)
Definition w_session := [New; Eps true; Disp; T 0 Go; T 0 Go; T 0 Go; T 0 Go; Rm1; T 0 Go; T 0 Go; Rm2].
Theorem c122_thread_first_refuted : exists s, exec start w_session = Some s /\ bad s = Some BFreed.
Proof. eexists. split; reflexivity. Qed.
Definition w_assert := [New; Eps true; Disp; T 0 Go; T 0 Go; T 0 Alt; T 0 Go; Rm1; Rm2; T 0 Go].
Theorem c122_assert_refuted : exists s, exec start w_assert = Some s /\ bad s = Some BAbort.
Proof. eexists. split; reflexivity. Qed.
Definition w_null := [New; Rm1; Rm2].
Theorem c122_no_thread_refuted : exists s, exec start w_null = Some s /\ bad s = Some BNull.
Proof. eexists. split; reflexivity. Qed.
Definition w_fail := [New; Eps true; Disp; T 0 Go; T 0 Go; T 0 Alt; T 0 Fail; T 0 Go; Rm1; Rm2].
Theorem c122_failed_wait_refuted : exists s, exec start w_fail = Some s /\ bad s = Some BFreed.
Proof. eexists. split; reflexivity. Qed.
Definition w_twice := [New; Eps true; Disp; Disp; Rm1; Rm2; T 1 Go; T 1 Go; Rm3].
Theorem c122_two_threads_refuted : exists s t, exec start w_twice = Some s /\ bad s = None /\ dp s = DDone /\
  In t (ths s) /\ t_pc t = PLook KStart /\ t_run t = true.
Proof. eexists _, _. split; [reflexivity|]. cbn. split; [reflexivity|]. split; [reflexivity|]. split; [left; reflexivity|]. split; reflexivity. Qed.
Theorem c122_removal_safe_refuted : ~ removal_safe.
Proof. intros H. destruct c122_no_thread_refuted as (s & E & B). destruct (H _ _ E). congruence. Qed.

(* ------------------------------------------------------------------ *)
(** ** Examples *)
(** A removal while the thread serves a session, signalled in time; a client of the same name is then created. *)
Definition x_good := [New; Eps true; Disp; T 0 Go; T 0 Go; T 0 Go; T 0 Go; Rm1; Rm2; T 0 Go; T 0 Go; Rm3; New; Eps true; Disp; T 1 Go].
Lemma lucky_cons s e r s1 : ~ unlucky s e -> step s e = Some s1 -> lucky s1 r -> lucky s (e :: r).
Proof. intros N E L. split; [exact N|]. intros s2 E2. congruence. Qed.
Lemma x_lucky : lucky start x_good.
Proof.
  unfold x_good.
  repeat (match goal with |- lucky ?s (?e :: ?r) => let x := eval vm_compute in (step s e) in
           match x with Some ?y => apply (lucky_cons s e r y); [|reflexivity|] end end);
    try exact Logic.I; unfold not; cbn;
    try (intros H; exact H); try (intros H; now apply H); try discriminate;
    intros (t & [= <-] & [(E & _)|(E & k & L & H)]); try discriminate.
  cbn in H, L. injection L as <-. destruct H as [H|[H|H]]; discriminate.
Qed.
Example x_good_runs : exists s, exec start x_good = Some s /\ present s = true /\ td s = Some 1 /\ map t_pc (ths s) = [PDone; PLoop].
Proof. eexists. split; [reflexivity|]. repeat split. Qed.
(** The client in use by a thread cannot be removed. *)
Example x_in_use : exec start [New; Eps true; Disp; T 0 Go; Rm1] = None.
Proof. reflexivity. Qed.
(** Three steps are needed from a session. *)
Example x_three : exists s s', exec start [New; Eps true; Disp; T 0 Go; T 0 Go; T 0 Go; T 0 Go; Rm1; Rm2] = Some s /\ dp s = DJoin 0 /\
  exec s [T 0 Alt; T 0 Go; T 0 Go] = Some s' /\ bad s' = None /\ count 0 [T 0 Alt; T 0 Go; T 0 Go] = 3.
Proof. eexists _, _. split; [reflexivity|]. split; [reflexivity|]. split; [reflexivity|]. split; reflexivity. Qed.

Print Assumptions c123_client_not_used_after_removal.
Print Assumptions c123_one_user.
Print Assumptions c123_removal_waits.
Print Assumptions c123_told_thread_ends.
Print Assumptions c123_told_thread_can_go_on.
Print Assumptions c122_removal_safe_partial.
Print Assumptions c122_removal_safe_refuted.
