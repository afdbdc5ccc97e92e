(** Properties C277-C278: waiting for a message. *)
From Coq Require Import ZArith Bool List Lia.
From Verif Require Import Time Prop_Time ReadPoll.
Import ListNotations.
Local Open Scope Z_scope.

(* ================================================================== *)
(** * Specification *)

(** What is known of the peer when the wait ends. *)
Inductive seen := Data | Silent | Closed | Failed.

(** What libssh says of a channel: bytes to be read, none, the end, an error. *)
Definition ssh_says (rc : Z) (x : seen) : Prop :=
  match x with Data => 0 < rc | Silent => rc = 0 | Closed => rc = -127 | Failed => rc < 0 /\ rc <> -127 end.
(** What poll() says of a descriptor: the result, then errors, then a peer that has closed and left nothing to be read. *)
Definition poll_says (rc : Z) (ev : events) (x : seen) : Prop :=
  match x with
  | Failed => rc < 0 \/ e_err ev = true
  | Closed => 0 <= rc /\ e_err ev = false /\ e_hup ev = true /\ e_in ev = false
  | Data => 0 < rc /\ e_err ev = false /\ (e_hup ev = true -> e_in ev = true)
  | Silent => rc = 0 /\ e_err ev = false /\ (e_hup ev = true -> e_in ev = true)
  end.
Inductive learnt : trans -> world -> Z -> tspec -> seen -> tspec -> Prop :=
| by_ssh w tmo now x : ssh_says (fst (w_ssh w)) x -> learnt TSsh w tmo now x (snd (w_ssh w))
| by_tls w tmo now : w_pending w <> 0 -> learnt TTls w tmo now Data now
| by_fd tr w tmo now rc t x : tr = TFd \/ tr = TUnix \/ (tr = TTls /\ w_pending w = 0) -> nc_poll now tmo (w_poll w) = Ret rc t ->
    poll_says rc (w_revents w) x -> learnt tr w tmo now x t.

(** The lock is not taken, or taken first, given back last and not touched in between. *)
Definition untouched (l : list act) : Prop := Forall (fun a => a <> Lock /\ a <> Unlock) l.
Definition locked_once (l : list act) : Prop := exists mid, l = Lock :: mid ++ [Unlock] /\ untouched mid.
Definition reads_none (l : list act) : Prop := forall t, ~ In (Reads t) l.

(* ================================================================== *)
(** * C277 *)

Lemma finish_says rc ev s t : exists x, poll_says rc ev x /\
  finish rc ev s t = match x with
                     | Data | Silent => Done rc s t
                     | Closed => Done (-1) (mkS Other true RDropped) t
                     | Failed => Done (-1) (mkS Other true ROther) t
                     end.
Proof.
  unfold finish, result. destruct (Z.ltb_spec rc 0) as [A|A]; [exists Failed; split; [left; exact A|reflexivity]|].
  destruct (e_err ev) eqn:E; [exists Failed; split; [right; exact E|reflexivity]|].
  destruct (e_hup ev) eqn:H; destruct (e_in ev) eqn:I; cbn [andb negb].
  2:{ exists Closed. cbn. auto. }
  all: destruct (Z.eq_dec rc 0) as [Z|Z]; [exists Silent|exists Data]; (split; [cbn; rewrite ?E, ?H, ?I; repeat split; auto; try lia; discriminate|reflexivity]).
Qed.

Lemma poll_learnt tr w tmo now s r s' t : read_poll tr w tmo now s = Done r s' t -> works s = true -> tr <> TNone ->
  exists x, learnt tr w tmo now x t /\
    match x with
    | Data => 0 < r /\ s' = s
    | Silent => r = 0 /\ s' = s
    | Closed => r = -1 /\ s' = mkS Other true RDropped
    | Failed => r = -1 /\ s' = mkS Other true ROther
    end.
Proof.
  unfold read_poll. intros H W N. rewrite W in H. cbn [negb] in H.
  assert (P : tr = TFd \/ tr = TUnix \/ (tr = TTls /\ w_pending w = 0) -> by_poll w tmo now s = Done r s' t ->
    exists x, learnt tr w tmo now x t /\
      match x with
      | Data => 0 < r /\ s' = s | Silent => r = 0 /\ s' = s
      | Closed => r = -1 /\ s' = mkS Other true RDropped | Failed => r = -1 /\ s' = mkS Other true ROther end).
  { intros T B. unfold by_poll in B. destruct (nc_poll now tmo (w_poll w)) as [rc t0| |] eqn:E; try discriminate.
    destruct (finish_says rc (w_revents w) s t0) as [x [X Y]]. rewrite Y in B. exists x.
    destruct x; injection B as <- <- <-; (split; [exact (by_fd tr w tmo now rc _ _ T E X)|]); cbn in X; intuition auto. }
  destruct tr; [congruence|apply P; auto|apply P; auto| |].
  - pose proof (by_ssh w tmo now) as L. destruct (w_ssh w) as [rc t0]. cbn [fst snd] in L. unfold SSH_ERROR, SSH_EOF in H.
    destruct (Z.eqb_spec rc (-1)) as [A|A].
    { injection H as <- <- <-. exists Failed. split; [apply L; cbn; lia|auto]. }
    destruct (Z.eqb_spec rc (-127)) as [B|B].
    { injection H as <- <- <-. exists Closed. split; [apply L; exact B|auto]. }
    destruct (Z.ltb_spec 0 rc) as [C|C].
    { injection H as <- <- <-. exists Data. split; [apply L; exact C|split; [lia|reflexivity]]. }
    unfold finish, result in H. cbn in H. destruct (Z.ltb_spec rc 0) as [D|D]; injection H as <- <- <-.
    + exists Failed. split; [apply L; cbn; lia|auto].
    + exists Silent. split; [apply L; cbn; lia|split; [lia|reflexivity]].
  - destruct (Z.eqb_spec (w_pending w) 0) as [A|A]; [apply P; auto|]. injection H as <- <- <-. exists Data. split; [apply by_tls; exact A|split; [lia|reflexivity]].
Qed.

(** When a message is waited for and the call returns:
    - on a session that neither starts nor runs, or without the lock, nothing is read and the session is left alone;
    - the lock that was got is given back, as the last thing;
    - the peer is silent: 0 is returned and the session is left alone; it closed or failed: the session is invalid and says so, and nothing is
      read; otherwise the message is read, once, after the wait. *)
Theorem c277_waiting : forall tr w rd tmo m tl s s' ret s2 l, read_msg_poll_io tr w rd tmo m tl s s' = MDone ret s2 l ->
  (works s = false -> ret = -1 /\ s2 = s /\ l = []) /\
  (works s = true -> m <> Gets -> (ret = 0 <-> m = Busy) /\ (ret = -1 <-> m = MError) /\ s2 = s' /\ l = []) /\
  (works s = true -> m = Gets -> locked_once l /\
     (works s' = false \/ tr = TNone -> ret = -1 /\ s2 = s' /\ reads_none l) /\
     (works s' = true -> tr <> TNone -> exists x t, learnt tr w tmo tl x t /\ (x <> Data -> reads_none l) /\
        match x with
        | Silent => ret = 0 /\ s2 = s'
        | Closed => ret = -1 /\ s2 = mkS Other true RDropped
        | Failed => ret = -1 /\ s2 = mkS Other true ROther
        | Data => (ret, s2) = rd s' /\ l = [Lock; Polls tmo tl (Some t); Reads t; Unlock]
        end)).
Proof.
  intros tr w rd tmo m tl s s' ret s2 l H. unfold read_msg_poll_io in H.
  split; [|split]; intros W; rewrite W in H; cbn [negb] in H.
  - injection H as <- <- <-. auto.
  - intros M. destruct m; [congruence| |]; cbn in H; injection H as <- <- <-; repeat split; auto; discriminate.
  - intros ->. cbn in H. destruct (read_poll tr w tmo tl s') as [r sx t| |] eqn:E; try discriminate.
    assert (LO : locked_once l).
    { destruct (r <? 1).
      - injection H as _ _ <-. exists [Polls tmo tl (Some t)]. split; [reflexivity|]. constructor; [split; discriminate|constructor].
      - unfold read_msg_io in H. destruct (works sx); cbn [negb] in H.
        + destruct (rd sx). injection H as _ _ <-. exists [Polls tmo tl (Some t); Reads t]. split; [reflexivity|].
          repeat (constructor; [split; discriminate|]). constructor.
        + injection H as _ _ <-. exists [Polls tmo tl (Some t)]. split; [reflexivity|]. constructor; [split; discriminate|constructor]. }
    split; [exact LO|]. split.
    + intros B. assert (EQ : r = -1 /\ sx = s').
      { unfold read_poll in E. destruct (works s') eqn:W'; cbn [negb] in E; [|injection E as <- <- _; auto].
        destruct B as [B|B]; [discriminate|]. subst tr. injection E as <- <- _. auto. }
      destruct EQ as [-> ->]. cbn in H. injection H as <- <- <-. repeat split. intros t0 [C|[C|[C|[]]]]; discriminate.
    + intros W' N. destruct (poll_learnt tr w tmo tl s' r sx t E W' N) as [x [X Y]]. exists x, t. split; [exact X|].
      destruct x; destruct Y as [Y1 ->].
      * destruct (Z.ltb_spec r 1) as [C|C]; [lia|]. unfold read_msg_io in H. rewrite W' in H. cbn [negb] in H.
        destruct (rd s') as [a b]. injection H as <- <- <-. split; [congruence|]. auto.
      * subst r. cbn in H. injection H as <- <- <-. split; [|auto]. intros _ t0 [C|[C|[C|[]]]]; discriminate.
      * subst r. cbn in H. injection H as <- <- <-. split; [|auto]. intros _ t0 [C|[C|[C|[]]]]; discriminate.
      * subst r. cbn in H. injection H as <- <- <-. split; [|auto]. intros _ t0 [C|[C|[C|[]]]]; discriminate.
Qed.

(* ================================================================== *)
(** * C278 *)

(** The mutex is got within the timeout, libssh and poll() return within theirs. *)
Definition on_time (tr : trans) (w : world) (tmo : Z) (now tl : tspec) : Prop :=
  valid now /\ valid tl /\ ns now <= ns tl <= ns now + tmo * MS /\ ns tl <= ns (snd (w_ssh w)) <= ns tl + ssh_tmo tmo * MS /\
  honest tl (poll_args tl tmo (w_poll w)) (w_poll w).

(** The whole claim: it is known within the timeout whether there is a message. *)
Definition c278_full : Prop := forall tr w rd tmo now tl s s' ret s2 l from t, 0 < tmo < 2147483648 -> on_time tr w tmo now tl ->
  read_msg_poll_io tr w rd tmo Gets tl s s' = MDone ret s2 l -> In (Polls tmo from (Some t)) l -> ns t < ns now + (tmo + 1) * MS.

(** It is known within twice the timeout: once for the lock, once for the peer. *)
Theorem c278_partial : forall tr w rd tmo now tl s s' ret s2 l from t, 0 < tmo < 2147483648 -> on_time tr w tmo now tl ->
  read_msg_poll_io tr w rd tmo Gets tl s s' = MDone ret s2 l -> In (Polls tmo from (Some t)) l ->
  from = tl /\ ns t < ns tl + (tmo + 1) * MS /\ ns t < ns now + (2 * tmo + 1) * MS.
Proof.
  intros tr w rd tmo now tl s s' ret s2 l from t TM [VN [VT [A [B C]]]] H I. unfold read_msg_poll_io in H.
  destruct (works s); cbn in H; [|injection H as _ _ <-; destruct I].
  destruct (read_poll tr w tmo tl s') as [r sx t0| |] eqn:E; try discriminate.
  assert (EQ : from = tl /\ t0 = t).
  { assert (F : In (Polls tmo from (Some t)) [Polls tmo tl (Some t0)]).
    { destruct (r <? 1); [injection H as _ _ <-|unfold read_msg_io in H; destruct (works sx); cbn [negb] in H; [destruct (rd sx)|]; injection H as _ _ <-];
        cbn in I |- *; repeat (destruct I as [I|I]; [first [discriminate I|left; congruence]|]); contradiction. }
    destruct F as [F|[]]. injection F as <- <-. auto. }
  destruct EQ as [-> ->]. split; [reflexivity|].
  assert (K : ns t < ns tl + (tmo + 1) * MS); [|split; [exact K|unfold MS in *; lia]].
  assert (P : forall sy, by_poll w tmo tl sy = Done r sx t -> ns t < ns tl + (tmo + 1) * MS).
  { intros sy Q. unfold by_poll in Q. destruct (nc_poll tl tmo (w_poll w)) as [rc t1| |] eqn:D; try discriminate.
    unfold finish in Q. destruct (result rc (w_revents w) sy). injection Q as _ _ <-. exact (c44_poll_within tl tmo (w_poll w) rc t1 VT TM C D). }
  unfold read_poll in E. destruct (works s'); cbn [negb] in E; [|injection E as _ _ <-; unfold MS; lia].
  destruct tr; try exact (P _ E).
  - injection E as _ _ <-. unfold MS. lia.
  - unfold ssh_tmo in B. destruct (Z.eqb_spec tmo (-1)) as [X|_]; [lia|]. destruct (w_ssh w) as [rc t1]. cbn [snd] in B.
    assert (t1 = t); [|subst t1; unfold MS in *; lia]. unfold finish in E.
    destruct (rc =? SSH_ERROR); [congruence|]. destruct (rc =? SSH_EOF); [congruence|].
    destruct (0 <? rc); [|destruct (result rc no_events s')]; cbn in E; congruence.
  - destruct (w_pending w =? 0); [exact (P _ E)|]. injection E as _ _ <-. unfold MS. lia.
Qed.

(** Another thread has the lock for a second, and then the peer sends nothing for a second. *)
Definition busy_world : world := mkW (0, mkT 2 0) 0 [mkPret 0 false (mkT 2 0)] no_events.
Definition run0 : sess := mkS Running false RNone.
Example ex_busy : read_msg_poll_io TFd busy_world (fun s => (1, s)) 1000 Gets (mkT 1 0) run0 run0 =
  MDone 0 run0 [Lock; Polls 1000 (mkT 1 0) (Some (mkT 2 0)); Unlock].
Proof. vm_compute. reflexivity. Qed.
Lemma busy_on_time : on_time TFd busy_world 1000 (mkT 0 0) (mkT 1 0).
Proof. unfold on_time, valid, busy_world, ns, MS, ssh_tmo. cbn. unfold valid, ns, MS. cbn. repeat split; lia. Qed.
Theorem c278_full_refuted : ~ c278_full.
Proof.
  intros H. specialize (H TFd busy_world (fun s => (1, s)) 1000 (mkT 0 0) (mkT 1 0) run0 run0 0 run0 _ (mkT 1 0) (mkT 2 0) ltac:(lia) busy_on_time ex_busy
    (or_intror (or_introl eq_refl))). unfold ns, MS in H. cbn in H. lia.
Qed.

(** A message over SSH, and a client that closed its socket. *)
Example ex_ssh : read_msg_poll_io TSsh (mkW (5, mkT 1 0) 0 [] no_events) (fun s => (1, s)) (-1) Gets (mkT 0 0) run0 run0 =
  MDone 1 run0 [Lock; Polls (-1) (mkT 0 0) (Some (mkT 1 0)); Reads (mkT 1 0); Unlock].
Proof. vm_compute. reflexivity. Qed.
Example ex_hup : read_msg_poll_io TUnix (mkW (0, mkT 0 0) 0 [mkPret 1 false (mkT 1 0)] (mkEv false false true)) (fun s => (1, s)) 2000 Gets (mkT 0 0) run0 run0 =
  MDone (-1) (mkS Other true RDropped) [Lock; Polls 2000 (mkT 0 0) (Some (mkT 1 0)); Unlock].
Proof. vm_compute. reflexivity. Qed.

Print Assumptions c277_waiting.
Print Assumptions c278_partial.
Print Assumptions c278_full_refuted.
