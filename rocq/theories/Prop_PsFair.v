(** Property C15: polling is complete and fair. *)
From Coq Require Import NArith ZArith Bool Lia List Arith.
From Verif Require Import Bytes PsSess PsPoll.
Import ListNotations.
Local Open Scope N_scope.

(* ================================================================== *)
(** * One round *)

(** Looking at sessions in any way, noting which are looked at. *)
Definition noting {St} (exam : nat -> nat -> St -> St * N) (k i : nat) (x : St * list nat) : (St * list nat) * N :=
  let '(st', r) := exam k i (fst x) in ((st', snd x ++ [i]), r).

(** The positions after [last], in a circle of [count], [m] of them. *)
Definition circle (count last m : nat) : list nat := map (fun x => (last + 1 + x) mod count)%nat (seq 0 m).

Lemma next_mod count i : (i < count)%nat -> next count i = ((i + 1) mod count)%nat.
Proof.
  intros H. unfold next. destruct (Nat.eqb_spec i (count - 1)) as [->|Hne].
  - replace (count - 1 + 1)%nat with count by lia. now rewrite Nat.mod_same by lia.
  - rewrite Nat.mod_small by lia. lia.
Qed.

Lemma noting_same {St} (exam : nat -> nat -> St -> St * N) k count : forall n i st l,
  let '(x, j, r) := round (noting exam) k n count i (st, l) in round exam k n count i st = (fst x, j, r).
Proof.
  induction n as [|n IH]; intros i st l; cbn [round]; unfold noting at 1; cbn [fst snd]; destruct (exam k i st) as [st' r];
    destruct (r =? TIMEOUT); try reflexivity. exact (IH (next count i) st' (l ++ [i])).
Qed.

Lemma round_visits {St} (exam : nat -> nat -> St -> St * N) k count : (0 < count)%nat -> forall n base i st l,
  i = (base mod count)%nat ->
  let '(x, j, r) := round (noting exam) k n count i (st, l) in
  exists m, (m <= n)%nat /\ snd x = l ++ map (fun x => (base + x) mod count)%nat (seq 0 (S m)) /\
            ((r = TIMEOUT /\ m = n) \/ (r <> TIMEOUT /\ j = ((base + m) mod count)%nat)).
Proof.
  intros Hc. induction n as [|n IH]; intros base i st l Hi; cbn [round]; unfold noting at 1; cbn [fst snd]; destruct (exam k i st) as [st' r].
  - destruct (N.eqb_spec r TIMEOUT) as [->|Hr].
    + exists 0%nat. cbn. rewrite Nat.add_0_r, <- Hi. auto.
    + exists 0%nat. cbn. rewrite Nat.add_0_r, <- Hi. auto.
  - destruct (N.eqb_spec r TIMEOUT) as [->|Hr].
    + assert (Hi' : next count i = ((base + 1) mod count)%nat).
      { rewrite next_mod by (rewrite Hi; apply Nat.mod_upper_bound; lia). rewrite Hi. now rewrite Nat.add_mod_idemp_l by lia. }
      specialize (IH (base + 1)%nat (next count i) st' (l ++ [i]) Hi').
      destruct (round (noting exam) k n count (next count i) (st', l ++ [i])) as [[x j] r']. destruct IH as (m & Hm & Hx & Hr).
      exists (S m). split; [lia|]. split.
      * rewrite Hx, <- app_assoc. f_equal. change (seq 0 (S (S m))) with (0%nat :: seq 1 (S m)). cbn [app map]. f_equal.
        { rewrite Nat.add_0_r. exact Hi. }
        rewrite <- seq_shift, map_map. apply map_ext. intros a. f_equal. lia.
      * destruct Hr as [[-> ->]|[Hr ->]]; [now left|right]. split; [exact Hr|]. f_equal. lia.
    + exists 0%nat. split; [lia|]. cbn. rewrite Nat.add_0_r, <- Hi. auto.
Qed.

Lemma circle_nodup count last m : (0 < count)%nat -> (m <= count)%nat -> NoDup (circle count last m).
Proof.
  intros Hc Hm. unfold circle.
  assert (H : forall a b, (a < m)%nat -> (b < m)%nat -> ((last + 1 + a) mod count = (last + 1 + b) mod count)%nat -> a = b).
  { intros a b Ha Hb E. pose proof (Nat.div_mod (last + 1 + a) count ltac:(lia)) as D1.
    pose proof (Nat.div_mod (last + 1 + b) count ltac:(lia)) as D2. rewrite E in D1.
    set (q1 := ((last + 1 + a) / count)%nat) in *. set (q2 := ((last + 1 + b) / count)%nat) in *.
    destruct (Nat.eq_dec q1 q2) as [->|Hq]; [lia|]. assert (q1 < q2 \/ q2 < q1)%nat as [Hlt|Hlt] by lia; nia. }
  remember (seq 0 m) as s eqn:Es. assert (Hs : forall x, In x s -> (x < m)%nat) by (intros x Hx; rewrite Es in Hx; apply in_seq in Hx; lia).
  assert (ND : NoDup s) by (rewrite Es; apply seq_NoDup). clear Es. induction s as [|x s IH]; [constructor|]. inversion ND. subst. cbn [map]. constructor.
  - intros Hin. apply in_map_iff in Hin. destruct Hin as (y & E & Hy). apply H in E; [subst; contradiction| |]; apply Hs; [now right|now left].
  - apply IH; [intros y Hy; apply Hs; now right|assumption].
Qed.
Lemma circle_all count last i : (i < count)%nat -> In i (circle count last count).
Proof.
  intros Hi. assert (Hc : (0 < count)%nat) by lia. pose proof (circle_nodup count last count Hc (le_n _)) as ND.
  assert (L : length (circle count last count) = count) by (unfold circle; now rewrite map_length, seq_length).
  assert (incl (seq 0 count) (circle count last count)).
  { apply NoDup_length_incl; [exact ND|rewrite L, seq_length; lia|]. intros x Hx. apply in_map_iff in Hx. destruct Hx as (y & <- & _).
    apply in_seq. pose proof (Nat.mod_upper_bound (last + 1 + y) count ltac:(lia)). lia. }
  apply H. apply in_seq. lia.
Qed.

(** One round looks at the sessions after the last event in a circle, at each at most once, stopping at the first
    that has anything, and at all of them if none has. *)
Theorem c15_round : forall St (exam : nat -> nat -> St -> St * N) k count last st, (last < count)%nat ->
  exists visited st' i r, round (noting exam) k (count - 1) count (start count last) (st, []) = ((st', visited), i, r) /\
    round exam k (count - 1) count (start count last) st = (st', i, r) /\
    NoDup visited /\ (exists m, (1 <= m <= count)%nat /\ visited = circle count last m) /\
    (r = TIMEOUT -> forall j, (j < count)%nat -> In j visited) /\
    (r <> TIMEOUT -> exists v, visited = v ++ [i]).
Proof.
  intros St exam k count last st Hl. assert (Hc : (0 < count)%nat) by lia.
  assert (Hs : start count last = ((last + 1) mod count)%nat) by (unfold start; apply (next_mod count last Hl)).
  pose proof (round_visits exam k count Hc (count - 1) (last + 1) _ st [] Hs) as HV.
  pose proof (noting_same exam k count (count - 1) (start count last) st []) as HN.
  destruct (round (noting exam) k (count - 1) count (start count last) (st, [])) as [[[st' v] i] r]. cbn [fst snd app] in *.
  destruct HV as (m & Hm & Hv & Hr). exists v, st', i, r.
  assert (Hv' : v = circle count last (S m)) by exact Hv.
  split; [reflexivity|]. split; [exact HN|]. split; [rewrite Hv'; apply circle_nodup; lia|]. split; [exists (S m); split; [lia|exact Hv']|]. split.
  - intros E j Hj. destruct Hr as [[_ Em]|[Hr _]]; [|contradiction]. rewrite Hv'. replace (S m) with count by lia. now apply circle_all.
  - intros E. destruct Hr as [[Er _]|[_ Ei]]; [contradiction|]. exists (circle count last m). rewrite Hv'. unfold circle. rewrite seq_S, map_app. cbn [map]. now rewrite Ei.
Qed.

(* ================================================================== *)
(** * Being served *)

Definition dist (count i t : nat) : nat := if Nat.leb i t then (t - i)%nat else (t + count - i)%nat.

Lemma dist_next count i t : (i < count)%nat -> (t < count)%nat -> i <> t -> (S (dist count (next count i) t) = dist count i t)%nat.
Proof.
  intros Hi Ht Hne. unfold dist, next. destruct (Nat.eqb_spec i (count - 1)) as [->|Hn].
  - destruct (Nat.leb_spec 0 t); destruct (Nat.leb_spec (count - 1) t); lia.
  - destruct (Nat.leb_spec (S i) t); destruct (Nat.leb_spec i t); lia.
Qed.
Lemma dist_bound count i t : (i < count)%nat -> (t < count)%nat -> (dist count i t < count)%nat.
Proof. intros Hi Ht. unfold dist. destruct (Nat.leb_spec i t); lia. Qed.
Lemma next_lt count i : (i < count)%nat -> (next count i < count)%nat.
Proof. intros Hi. unfold next. destruct (Nat.eqb_spec i (count - 1)); lia. Qed.

Section Serve.
Context {St : Type}.
Variable exam : nat -> nat -> St -> St * N.
Variable (count t : nat).
Variable I : St -> Prop.
Hypothesis Ht : (t < count)%nat.
Hypothesis Hkeep : forall k i st, i <> t -> I st -> I (fst (exam k i st)).
Hypothesis Hready : forall k st, I st -> snd (exam k t st) <> TIMEOUT.

Lemma round_ready k : forall n i st, (i < count)%nat -> (dist count i t <= n)%nat -> I st ->
  let '(st', j, r) := round exam k n count i st in
  r <> TIMEOUT /\ (j < count)%nat /\ (dist count j t <= dist count i t)%nat /\ (j <> t -> I st')
  /\ exists x, I x /\ exam k j x = (st', r).
Proof.
  induction n as [|n IH]; intros i st Hi Hd HI; cbn [round].
  - assert (i = t) as -> by (unfold dist in Hd; destruct (Nat.leb_spec i t); lia).
    pose proof (Hready k st HI) as Hr. destruct (exam k t st) as [st' r] eqn:E. cbn [snd] in Hr.
    destruct (N.eqb_spec r TIMEOUT); [contradiction|]. repeat split; auto; [congruence|]. now exists st.
  - destruct (exam k i st) as [st' r] eqn:E. destruct (N.eqb_spec r TIMEOUT) as [->|Hr].
    + assert (Hne : i <> t) by (intros ->; apply (Hready k st HI); now rewrite E).
      pose proof (Hkeep k i st Hne HI) as HI'. rewrite E in HI'. cbn [fst] in HI'.
      pose proof (dist_next count i t Hi Ht Hne) as Hdn.
      specialize (IH (next count i) st' (next_lt count i Hi) ltac:(lia) HI').
      destruct (round exam k n count (next count i) st') as [[st'' j] r']. intuition lia.
    + repeat split; auto; [intros Hne; pose proof (Hkeep k i st Hne HI) as HI'; now rewrite E in HI'|]. now exists st.
Qed.

Lemma select_ready more fuel last st st' j r : (last < count)%nat -> I st -> select exam more fuel 0 count last st = Some (st', j, r) ->
  r <> TIMEOUT /\ (j < count)%nat /\ (dist count j t <= dist count (start count last) t)%nat /\ (j <> t -> I st')
  /\ exists k x, I x /\ exam k j x = (st', r).
Proof.
  intros Hl HI E. destruct fuel as [|fuel]; [discriminate|]. cbn [select] in E.
  assert (Hs : (start count last < count)%nat) by exact (next_lt count last Hl).
  pose proof (round_ready 0 (count - 1) (start count last) st Hs ltac:(pose proof (dist_bound count _ t Hs Ht); lia) HI) as HR.
  destruct (round exam 0 (count - 1) count (start count last) st) as [[st1 j1] r1]. destruct HR as (H1 & H2 & H3 & H4 & x & Hx & Ex).
  destruct (N.eqb_spec r1 TIMEOUT); [contradiction|]. injection E as <- <- <-. repeat split; auto. now exists 0%nat, x.
Qed.
End Serve.

(** Calls of nc_ps_poll() one after another on a structure whose collection of sessions does not change, with the session each
    returns. *)
Inductive polls (o : opts) : pst -> list pcall -> list (option sid) -> pst -> Prop :=
| polls_nil p : polls o p [] [] p
| polls_cons p c p1 ret rs out cs l p' :
    ps_poll o p c = Some (p1, ret, rs, out) -> polls o p1 cs l p' -> polls o p (c :: cs) (rs :: l) p'.

(** The transport has something for us whenever looked at. *)
Definition data_ready (T : ti) (a : answers) : Prop :=
  (0 < a_iolock a)%Z /\
  match T with
  | TiSsh => a_sshmsg a <> None \/ a_chpoll a <> 0%Z
  | TiTls => a_pending a <> 0%Z \/ ((0 <= a_fd a)%Z /\ (0 < a_poll a)%Z)
  | TiFd | TiUnix => (0 < a_poll a)%Z
  | TiNone => False
  end.
(** During the call, nobody else works with the session at index [t] and it has data whenever looked at. *)
Definition pending (T : ti) (c : pcall) (t : nat) : Prop := forall k, c_rpclock c k t = 1%Z /\ data_ready T (c_ans c k t).

(* ---- what a look changes ---- *)
Lemma set_ent_fst es i st : map fst (set_ent es i st) = map fst es.
Proof. revert i. induction es as [|[s x] es IH]; intros [|i]; cbn; try reflexivity. now rewrite IH. Qed.
Lemma set_ent_other es i j st : i <> j -> ent_at (set_ent es i st) j = ent_at es j.
Proof.
  unfold ent_at. revert i j. induction es as [|[s x] es IH]; intros [|i] [|j] H; cbn; try reflexivity; try contradiction.
  apply IH. congruence.
Qed.
Lemma set_ent_same es i st : (i < length es)%nat -> ent_at (set_ent es i st) i = (fst (ent_at es i), st).
Proof. unfold ent_at. revert i. induction es as [|[s x] es IH]; intros [|i] H; cbn in *; try lia; try reflexivity. apply IH. lia. Qed.
Lemma set_ent_len es i st : length (set_ent es i st) = length es.
Proof. rewrite <- (map_length fst), set_ent_fst. apply map_length. Qed.
Lemma ent_at_fst es i : fst (ent_at es i) = nth i (map fst es) 0.
Proof. unfold ent_at. rewrite <- (map_nth fst es (0, PsNone) i). reflexivity. Qed.
Lemma fst_inj es i j : NoDup (map fst es) -> (i < length es)%nat -> (j < length es)%nat -> fst (ent_at es i) = fst (ent_at es j) -> i = j.
Proof. intros ND Hi Hj E. rewrite !ent_at_fst in E. eapply NoDup_nth; [exact ND|now rewrite map_length|now rewrite map_length|exact E]. Qed.

Definition keeps_ti (h h' : heap) : Prop := forall s, s_ti (h' s) = s_ti (h s).
Lemma hset_ti h i s : s_ti s = s_ti (h i) -> keeps_ti h (hset h i s).
Proof. intros E j. unfold hset. destruct (N.eqb_spec j i) as [->|]; auto. Qed.

Lemma io_ti idle s now a : s_ti (fst (poll_session_io idle s now a)) = s_ti s.
Proof.
  unfold poll_session_io, poll_fd. repeat match goal with
  | |- context [if ?b then _ else _] => destruct b
  | |- context [match ?x with _ => _ end] => destruct x eqn:?
  end; cbn; auto.
Qed.
Lemma sess_ti idle st s now a : s_ti (snd (fst (poll_sess idle st s now a))) = s_ti s.
Proof.
  unfold poll_sess. destruct st; try reflexivity. destruct (status_eqb _ _); [|reflexivity].
  pose proof (io_ti idle s now a) as H. destruct (poll_session_io idle s now a) as [s' r]. exact H.
Qed.

(** The target's entry. *)
Definition tgt (T : ti) (count t : nat) (s : sid) (x : heap * list (sid * pstate)) : Prop :=
  length (snd x) = count /\ NoDup (map fst (snd x)) /\ ent_at (snd x) t = (s, PsNone) /\ s_ti (fst x s) = T.

Lemma look_keep T count o c t s k i x : (t < count)%nat -> i <> t -> tgt T count t s x -> tgt T count t s (fst (look o c k i x)).
Proof.
  intros Ht Hne (HL & ND & HE & HT). destruct x as [h es]. cbn [fst snd] in *. unfold look.
  destruct (_ =? -1)%Z; [repeat split; auto|]. destruct (_ =? 1)%Z; [|repeat split; auto].
  destruct (ent_at es i) as [s0 st0] eqn:E0. pose proof (sess_ti (o_idle o) st0 (h s0) (end_sec c) (c_ans c k i)) as HS.
  destruct (poll_sess (o_idle o) st0 (h s0) (end_sec c) (c_ans c k i)) as [[st' s'] r]. cbn [fst snd] in *.
  repeat split; cbn [fst snd]; [now rewrite set_ent_len|now rewrite set_ent_fst|now rewrite set_ent_other|].
  rewrite <- HT. now apply hset_ti.
Qed.

Lemma io_ready T idle s now a : s_ti s = T -> data_ready T a ->
  let r := snd (poll_session_io idle s now a) in is_event r = true.
Proof.
  intros HT [Hio HD]. unfold poll_session_io. destruct (idle_expired idle s now); [reflexivity|].
  destruct (Z.ltb_spec (a_iolock a) 0); [lia|]. destruct (Z.eqb_spec (a_iolock a) 0); [lia|]. rewrite HT. unfold poll_fd. destruct T.
  - contradiction.
  - destruct (Z.ltb_spec (a_poll a) 0); [lia|]. destruct (Z.ltb_spec 0 (a_poll a)); [|lia]. destruct (has _ _); [reflexivity|]. now destruct (has _ _).
  - destruct (Z.ltb_spec (a_poll a) 0); [lia|]. destruct (Z.ltb_spec 0 (a_poll a)); [|lia]. destruct (has _ _); [reflexivity|]. now destruct (has _ _).
  - destruct (a_sshmsg a) as [[|]|]; try reflexivity. destruct HD as [HD|HD]; [congruence|].
    destruct (_ =? SSH_EOF)%Z; [reflexivity|]. destruct (_ =? SSH_ERR)%Z; [reflexivity|]. destruct (Z.eqb_spec (a_chpoll a) 0); [contradiction|reflexivity].
  - destruct (Z.eqb_spec (a_pending a) 0) as [E0|E0]; [|reflexivity]. destruct HD as [HD|[H1 H2]]; [contradiction|].
    destruct (Z.ltb_spec (a_fd a) 0); [lia|]. destruct (Z.ltb_spec (a_poll a) 0); [lia|]. destruct (Z.ltb_spec 0 (a_poll a)); [|lia].
    destruct (has _ _); [reflexivity|]. now destruct (has _ _).
Qed.

Lemma look_ready T count o c t s k x : pending T c t -> tgt T count t s x -> is_event (snd (look o c k t x)) = true.
Proof.
  intros HP (HL & ND & HE & HT). destruct x as [h es]. cbn [fst snd] in *. unfold look. destruct (HP k) as [-> HD].
  change (1 =? -1)%Z with false. change (1 =? 1)%Z with true. cbn match. rewrite HE. unfold poll_sess.
  destruct (status_eqb (s_status (h s)) StRunning).
  - pose proof (io_ready T (o_idle o) (h s) (end_sec c) _ HT HD) as HR. cbn zeta in HR.
    destruct (poll_session_io (o_idle o) (h s) (end_sec c) (c_ans c k t)) as [s' r]. exact HR.
  - cbn [fst snd]. now destruct (term_code _ =? 1).
Qed.

Lemma event_not_timeout r : is_event r = true -> r <> TIMEOUT.
Proof. intros H ->. discriminate. Qed.

(* ---- serving keeps the others' entries and every transport ---- *)
Lemma die_ti s t : s_ti (die s t) = s_ti s. Proof. reflexivity. Qed.
Lemma write_ti s e r w : s_ti (fst (fst (write_reply s e r w))) = s_ti s.
Proof. unfold write_reply. destruct (s_status s), w; reflexivity. Qed.
Lemma recv_reply_ti s e n w ret : s_ti (fst (fst (recv_reply s e n w ret))) = s_ti s.
Proof.
  unfold recv_reply. pose proof (write_ti s e (RError n) w) as H. destruct (write_reply s e (RError n) w) as [[s' m] out]. cbn [fst] in *.
  destruct (mt_reply m); [exact H|]. destruct (status_eqb _ _); exact H.
Qed.
Lemma recv_ti s r w : s_ti (fst (fst (fst (recv_rpc s r w)))) = s_ti s.
Proof.
  unfold recv_rpc. destruct (negb _); [reflexivity|]. destruct r as [|[f|]| | |e op|e err]; try reflexivity.
  - pose proof (recv_reply_ti s None EMalformed w 0) as H. destruct (recv_reply s None EMalformed w 0) as [[? ?] ?]. exact H.
  - destruct (has_msgid e); [reflexivity|].
    match goal with |- context [recv_reply ?a ?b ?c ?d ?e] => pose proof (recv_reply_ti a b c d e) as H; destruct (recv_reply a b c d e) as [[? ?] ?]; exact H end.
  - destruct (prepare_rpc_err s e err); [|reflexivity].
    match goal with |- context [recv_reply ?a ?b ?c ?d ?e] => pose proof (recv_reply_ti a b c d e) as H; destruct (recv_reply a b c d e) as [[? ?] ?]; exact H end.
Qed.
Lemma eff_ti h e : keeps_ti h (apply_eff h e).
Proof.
  destruct e; cbn [apply_eff].
  - destruct (is_none t); [intros s; reflexivity|]. apply hset_ti. cbn. now destruct (_ && _).
  - destruct (_ || _); [intros s; reflexivity|]. now apply hset_ti.
  - destruct (status_eqb _ _); [intros s; reflexivity|]. now apply hset_ti.
  - now apply hset_ti.
  - now apply hset_ti.
Qed.
Lemma effs_ti es : forall h, keeps_ti h (fold_left apply_eff es h).
Proof. induction es as [|e es IH]; intros h s; cbn [fold_left]; [reflexivity|]. rewrite IH. apply eff_ti. Qed.
Lemma callback_ti glob h i op cb : keeps_ti h (fst (run_callback glob h i op cb)).
Proof.
  unfold run_callback. destruct (op_clb op); [destruct glob|..]; cbn [fst]; try apply effs_ti; try (intros s; reflexivity).
  unfold close_session. now apply hset_ti.
Qed.
Lemma send_ti glob h i rpc cb w : keeps_ti h (fst (fst (send_reply glob h i rpc cb w))).
Proof.
  unfold send_reply. destruct rpc as [[e op]|]; [|intros s; reflexivity].
  pose proof (callback_ti glob h i op cb) as HC. destruct (run_callback glob h i op cb) as [h1 rep]. cbn [fst] in HC.
  pose proof (write_ti (h1 i) (Some e) rep w) as HW. destruct (write_reply (h1 i) (Some e) rep w) as [[s2 m] out]. cbn [fst] in *.
  intros s. rewrite <- HC. apply hset_ti. destruct (_ && _); exact HW.
Qed.
Lemma serve_ti o c h s : keeps_ti h (fst (fst (fst (serve o c h s)))).
Proof.
  unfold serve. pose proof (recv_ti (h s) (c_rd c) (c_w1 c)) as HR. destruct (recv_rpc (h s) (c_rd c) (c_w1 c)) as [[[s1 ret] rpc] out1]. cbn [fst] in HR.
  destruct (has ret _).
  - destruct (after_recv_fail _ _ _). cbn [fst]. now apply hset_ti.
  - pose proof (send_ti (o_glob o) (hset (hset h s s1) s (with_last (hset h s s1 s) (sec (c_now c)))) s rpc (c_cb c) (c_w2 c)) as HS.
    destruct (send_reply _ _ _ _ _ _) as [[h3 ret3] out3]. destruct (after_serve _ _ _). cbn [fst] in *. intros x. rewrite HS.
    unfold hset. destruct (N.eqb_spec x s) as [->|]; [|reflexivity]. cbn. now rewrite N.eqb_refl.
Qed.

Lemma ps_poll_eq o p c : q_ents p <> [] ->
  ps_poll o p c =
      match select (look o c) (c_more c) (c_rounds c) 0 (length (q_ents p)) (q_last p) (q_heap p, q_ents p) with
      | None => None
      | Some (h, es, i, r) =>
          let s := fst (ent_at es i) in
          let last := if is_event r then i else q_last p in
          let ret_s := if is_event r then Some s else None in
          if r =? RPC then
            let '(h', ret, st, out) := serve o c h s in
            Some (mkP h' (set_ent es i st) last, ret, ret_s, out)
          else Some (mkP h es last, r, ret_s, [])
      end.
Proof. unfold ps_poll. destruct (q_ents p); [contradiction|reflexivity]. Qed.

(** The call that does not serve the target keeps it, and comes closer. *)
Lemma poll_closer T o p c p1 ret rs out t s :
  let count := length (q_ents p) in
  (t < count)%nat -> (q_last p < count)%nat -> tgt T count t s (q_heap p, q_ents p) -> pending T c t ->
  ps_poll o p c = Some (p1, ret, rs, out) -> rs <> None ->
  rs = Some s \/ (tgt T count t s (q_heap p1, q_ents p1) /\ (q_last p1 < count)%nat /\
    (dist count (start count (q_last p1)) t < dist count (start count (q_last p)) t)%nat).
Proof.
  intros count Ht Hl HT HP E Hrs. rewrite ps_poll_eq in E by (intros E0; unfold count in Ht; rewrite E0 in Ht; cbn in Ht; lia). fold count in E. cbn zeta in E.
  destruct (select (look o c) (c_more c) (c_rounds c) 0 count (q_last p) (q_heap p, q_ents p)) as [[[[h es] i] r]|] eqn:ES; [|discriminate].
  assert (HR := select_ready (look o c) count t (tgt T count t s) Ht
    (fun k i st Hne Hst => look_keep T count o c t s k i st Ht Hne Hst)
    (fun k st Hst => event_not_timeout _ (look_ready T count o c t s k st HP Hst)) _ _ _ _ _ _ _ Hl HT ES).
  destruct HR as (Hr & Hi & Hd & Hkeep & k & x & Hx & Ex).
  assert (Hev : is_event r = true).
  { destruct (is_event r) eqn:Eev; [reflexivity|]. exfalso. apply Hrs. destruct (r =? RPC); [|now injection E].
    destruct (serve o c h (fst (ent_at es i))) as [[[? ?] ?] ?]. now injection E. }
  rewrite Hev in E. destruct (Nat.eq_dec i t) as [->|Hne].
  - left. assert (Es : fst (ent_at es t) = s).
    { destruct Hx as (HL & ND & HE & _). assert (Em : map fst es = map fst (snd x)).
      { destruct x as [hx ex]. unfold look in Ex. destruct (_ =? -1)%Z; [injection Ex as _ <- _; reflexivity|]. destruct (_ =? 1)%Z; [|injection Ex as _ <- _; reflexivity].
        destruct (ent_at ex t) as [s0 st0]. destruct (poll_sess _ _ _ _ _) as [[st' s'] r']. injection Ex as _ <- _. apply set_ent_fst. }
      rewrite ent_at_fst, Em, <- ent_at_fst, HE. reflexivity. }
    rewrite Es in E. destruct (r =? RPC); [|now injection E as _ _ <- _].
    destruct (serve o c h s) as [[[h' ret'] st'] out']. now injection E as _ _ <- _.
  - right. specialize (Hkeep Hne). destruct Hkeep as (HL & ND & HE & HTi). cbn [fst snd] in *.
    assert (HD : (dist count (start count i) t < dist count (start count (q_last p)) t)%nat).
    { pose proof (dist_next count i t Hi Ht Hne) as HN. change (start count i) with (next count i). lia. }
    destruct (r =? RPC).
    + pose proof (serve_ti o c h (fst (ent_at es i))) as HS. destruct (serve o c h (fst (ent_at es i))) as [[[h' ret'] st'] out']. cbn [fst] in HS.
      injection E as <- _ _ _. cbn [q_heap q_ents q_last]. split; [|split; [exact Hi|exact HD]].
      repeat split; cbn [fst snd]; [now rewrite set_ent_len|now rewrite set_ent_fst|now rewrite set_ent_other|]. now rewrite HS.
    + injection E as <- _ _ _. cbn [q_heap q_ents q_last]. repeat split; auto.
Qed.

(** A session with pending data is returned by one of as many calls as there are sessions, whatever the others do, if
    every call returns some session, that is, none of them fails otherwise. *)
Theorem c15_served_partial : forall o p cs l p' t s T,
  polls o p cs l p' -> (q_last p < length (q_ents p))%nat -> (t < length (q_ents p))%nat -> NoDup (map fst (q_ents p)) ->
  nth_error (q_ents p) t = Some (s, PsNone) -> s_ti (q_heap p s) = T ->
  (forall c, In c cs -> pending T c t) -> (forall rs, In rs l -> rs <> None) ->
  length cs = length (q_ents p) -> In (Some s) l.
Proof.
  intros o p cs l p' t s T H Hl Ht ND HE HT HP Hsome Hlen.
  assert (Htgt : tgt T (length (q_ents p)) t s (q_heap p, q_ents p)).
  { repeat split; cbn [fst snd]; auto. unfold ent_at. now apply nth_error_nth. }
  assert (Hd : (dist (length (q_ents p)) (start (length (q_ents p)) (q_last p)) t < length cs)%nat).
  { rewrite Hlen. apply dist_bound; [exact (next_lt _ _ Hl)|exact Ht]. }
  clear Hlen ND HE HT. remember (length (q_ents p)) as count eqn:Ec.
  revert Ec Hl Htgt Hd HP Hsome. induction H as [p|p c p1 ret rs out cs l p' E H IH]; intros Ec Hl Htgt Hd HP Hsome; [cbn in Hd; lia|].
  destruct (poll_closer T o p c p1 ret rs out t s) as [->|(Ht1 & Hl1 & Hd1)]; try (now rewrite <- Ec); try exact E;
    try (apply HP; now left); try (apply Hsome; now left).
  - now left.
  - right. rewrite <- Ec in *. apply IH.
    + destruct Ht1 as (HL1 & _). cbn [snd] in HL1. congruence.
    + exact Hl1.
    + exact Ht1.
    + cbn in Hd. lia.
    + intros c' Hc'. apply HP. now right.
    + intros rs' Hrs'. apply Hsome. now right.
Qed.

(** Without the last condition the statement is false: a session whose lock fails each time it is looked at ends every
    call, polling begins with it again, and the others are never looked at. *)
Definition bad_answers : answers := mkA 1 None 0 0 0 1 1.
Definition err_call : pcall :=
  mkC 0 0 0 0 (fun _ i => if Nat.eqb i 1 then (-1)%Z else 1%Z) (fun _ _ => bad_answers) (fun _ => false) 1
      RdBlock WrSent (mkCb None []) WrSent.
Definition unix_sess : sess := mkS StRunning TNone 0 false 0 0 TiUnix true.
Definition two : pst := mkP (fun _ => unix_sess) [(100, PsNone); (200, PsNone)] 0.
Theorem c15_refuted : forall n,
  pending TiUnix err_call 0 /\ polls (mkO 0 false) two (repeat err_call n) (repeat None n) two.
Proof.
  intros n. split; [intros k; repeat split; reflexivity|]. induction n as [|n IH]; cbn [repeat]; [constructor|].
  eapply polls_cons; [|exact IH]. reflexivity.
Qed.

(** A non-trivial case: three sessions that always have data, calls return them in turn, beginning after the first. *)
Definition data_call : pcall :=
  mkC 0 0 0 0 (fun _ _ => 1%Z) (fun _ _ => bad_answers) (fun _ => false) 1 RdBlock WrSent (mkCb None []) WrSent.
Definition three : pst := mkP (fun _ => unix_sess) [(100, PsNone); (200, PsNone); (300, PsNone)] 0.
Example c15_case : pending TiUnix data_call 0 /\
  exists p', polls (mkO 0 false) three [data_call; data_call; data_call] [Some 200; Some 300; Some 100] p'.
Proof.
  split; [intros k; repeat split; reflexivity|]. eexists.
  repeat (eapply polls_cons; [vm_compute; reflexivity|]). apply polls_nil.
Qed.

Print Assumptions c15_round.
Print Assumptions c15_served_partial.
Print Assumptions c15_refuted.
