(** C267: how often nc_session_free() waits for others in vain; the model is SessFree. *)
From Coq Require Import Bool Arith Lia List.
From Verif Require Import SessFree Prop_SessFree.
Import ListNotations.

(** ** Specification *)

(** Waits that ended without what was waited for. *)
Fixpoint vain (t : list act) : nat := match t with [] => 0 | InVain :: r => S (vain r) | _ :: r => vain r end.

(** Who still uses the session: a thread that handles its RPC, or that has its queue of messages; a thread that has the transport; threads that
    wait for notifications, and the thread of Call Home, that do not stop when told to. *)
Inductive user := RpcThread | QueueThread | IoThread | NtfThreads | ChThread.
Definition stays (s : sess) (e : env) (u : user) : Prop :=
  match u with
  | RpcThread => s_side s = Server /\ e_rpc e = LTimeout
  | QueueThread => s_side s = Client /\ e_msgs e = LTimeout
  | IoThread => s_ti s = TSsh /\ e_iolock e <> LOk
  | NtfThreads => s_side s = Client /\ e_ntf e = Some false
  | ChThread => s_side s = Server /\ s_chthread s = true /\ e_ch e = false
  end.
Definition all_stays (s : sess) (e : env) (l : list user) : Prop := NoDup l /\ forall u, In u l <-> stays s e u.

(** ** Proofs *)
Lemma vain_app a b : vain (a ++ b) = vain a + vain b.
Proof. induction a as [|x a IH]; [reflexivity|]. destruct x; cbn [app vain]; lia. Qed.
Lemma vain_none l : (forall x, In x l -> x <> InVain) -> vain l = 0.
Proof.
  induction l as [|x l IH]; intros H; [reflexivity|]. assert (X : x <> InVain) by (apply H; now left).
  destruct x; try (cbn [vain]; apply IH; intros y Y; apply H; now right). congruence.
Qed.
Lemma reading_vain : vain reading = 0.
Proof. reflexivity. Qed.
Lemma drain_vain fuel : forall reads k t k', drain fuel reads k = Some (t, k') -> vain t = 0.
Proof.
  induction fuel as [|f IH]; intros reads k t k'; [discriminate|]. cbn [drain]. destruct (reads k); try (intros [= <- <-]; reflexivity);
  (destruct (drain f reads (S k)) as [[t1 k1]|] eqn:E; [|discriminate]; intros [= <- <-]; exact (IH _ _ _ _ E)).
Qed.
Lemma await_vain fuel : forall reads k t, await fuel reads k = Some t -> vain t = 0.
Proof.
  induction fuel as [|f IH]; intros reads k t; [discriminate|]. cbn [await]. destruct (reads k); try (intros [= <-]; reflexivity).
  destruct (await f reads (S k)) as [t1|] eqn:E; [|discriminate]. intros [= <-]. exact (IH _ _ _ E).
Qed.
Lemma bye_vain fuel s e t : say_goodbye fuel s e = Some t -> vain t = 0.
Proof.
  unfold say_goodbye. destruct (s_status s); try (intros [= <-]; reflexivity).
  destruct (drain fuel (e_reads e) 0) as [[t1 k]|] eqn:D; [|discriminate]. unfold close_session. destruct (e_rpc_ok e).
  - destruct (await fuel (e_reads e) k) as [t2|] eqn:A; [|discriminate]. intros H.
    assert (t = t1 ++ [Use RCtx; Use RIoLock; Use RSock; SendClose] ++ t2 ++ [Use RCtx]) as -> by congruence.
    rewrite !vain_app, (drain_vain _ _ _ _ _ D), (await_vain _ _ _ _ A). reflexivity.
  - intros H. assert (t = t1 ++ [Use RCtx]) as -> by congruence. rewrite vain_app, (drain_vain _ _ _ _ _ D). reflexivity.
Qed.
Lemma ext_vain s t : give_ext s = Some t -> vain t = 0.
Proof.
  unfold give_ext. destruct (_ && _); [destruct (first_started _) as [o|]; [destruct (o_ext o); [discriminate|]|]|];
  try destruct (s_ext s); intros [= <-]; reflexivity.
Qed.
Lemma starts_vain (l : list other) : vain (map (fun o => End (RStart (o_id o))) l) = 0.
Proof. induction l as [|o l IH]; [reflexivity|exact IH]. Qed.

Definition io_vain (s : sess) (e : env) : nat := match s_ti s, e_iolock e with TSsh, LOk => 0 | TSsh, _ => 1 | _, _ => 0 end.
Lemma transport_vain s e : vain (free_transport s e) = io_vain s e.
Proof.
  unfold free_transport, io_vain, close_sock. destruct (s_ti s); try (destruct (e_sock e); reflexivity); try reflexivity.
  - destruct (e_connected e), (multi s), (e_iolock e), (e_sock e); rewrite ?vain_app, ?starts_vain; reflexivity.
  - destruct (e_connected e), (s_side s), (e_sock e); reflexivity.
Qed.
Lemma final_vain s e : vain (final s e) = 0.
Proof. unfold final. destruct (s_side s), (e_rpc e), (s_io s && negb (multi s)), (s_shared s); reflexivity. Qed.
Lemma data_vain s e : vain (free_data s e) = 0.
Proof. unfold free_data. destruct (_ && _); reflexivity. Qed.

Definition staysb (s : sess) (e : env) (u : user) : bool :=
  match u with
  | RpcThread => match s_side s, e_rpc e with Server, LTimeout => true | _, _ => false end
  | QueueThread => match s_side s, e_msgs e with Client, LTimeout => true | _, _ => false end
  | IoThread => match s_ti s, e_iolock e with TSsh, LOk => false | TSsh, _ => true | _, _ => false end
  | NtfThreads => match s_side s, e_ntf e with Client, Some false => true | _, _ => false end
  | ChThread => match s_side s with Server => s_chthread s && negb (e_ch e) | Client => false end
  end.
Lemma stays_iff s e u : staysb s e u = true <-> stays s e u.
Proof.
  destruct u; cbn [staysb stays].
  - destruct (s_side s), (e_rpc e); intuition congruence.
  - destruct (s_side s), (e_msgs e); intuition congruence.
  - destruct (s_ti s), (e_iolock e); intuition congruence.
  - destruct (s_side s), (e_ntf e) as [[|]|]; intuition congruence.
  - destruct (s_side s), (s_chthread s), (e_ch e); cbn; intuition congruence.
Qed.
Definition everyone := [RpcThread; QueueThread; IoThread; NtfThreads; ChThread].
Lemma who_stays s e : all_stays s e (filter (staysb s e) everyone).
Proof.
  split; [apply NoDup_filter; repeat constructor; cbn; intuition discriminate|].
  intros u. rewrite filter_In, stays_iff. split; [tauto|]. intros H. split; [destruct u; cbn; auto 10|exact H].
Qed.
Lemma io_who s e : io_vain s e = if staysb s e IoThread then 1 else 0.
Proof. unfold io_vain. cbn [staysb]. destruct (s_ti s), (e_iolock e); reflexivity. Qed.

(** A session that is freed is waited for once for everyone who still uses it, and for nobody else. *)
Theorem c267_waits fuel s e t : s_status s <> Closing -> e_rpc e <> LErr -> e_msgs e <> LErr -> session_free fuel s e = Done t ->
  exists l, all_stays s e l /\ vain t = length l.
Proof.
  intros NC R M H. exists (filter (staysb s e) everyone). split; [apply who_stays|]. revert H. unfold session_free.
  replace (match s_status s with Closing => Done [] | _ => _ end) with
    (match s_side s with
     | Server => match e_rpc e with LErr => Done [Use RRpcLock] | r => Done ([Use RRpcLock] ++ match r with LOk => [] | _ => [InVain] end
                       ++ free_data s e ++ stop_callhome s e ++ free_transport s e ++ final s e) end
     | Client => match e_msgs e with LErr => Done (stop_ntf s e ++ [Use RMsgsLock]) | _ =>
              match say_goodbye fuel s e with None => Pending | Some bye => match give_ext s with None => Aborted | Some x =>
                 Done (stop_ntf s e ++ free_msgs s e ++ bye ++ (if s_cpblts s then [End RCpblts] else []) ++ x
                            ++ free_data s e ++ free_transport s e ++ final s e) end end end end)
    by (destruct (s_status s); try congruence; reflexivity).
  destruct (s_side s) eqn:SD.
  - assert (X : forall v, (match v with LOk => 0 | _ => 1 end) = vain (match v with LOk => [] | _ => [InVain] end)) by (intros []; reflexivity).
    assert (C : vain (stop_callhome s e) = if s_chthread s && negb (e_ch e) then 1 else 0).
    { unfold stop_callhome. rewrite SD. destruct (s_callhome s), (s_chthread s), (e_ch e); reflexivity. }
    destruct (e_rpc e) eqn:ER; try congruence; intros H;
    (match type of H with Done ?l = Done _ => assert (t = l) as -> by congruence end);
    rewrite !vain_app, data_vain, C, transport_vain, final_vain, io_who; cbn [filter everyone]; cbn [staysb]; rewrite SD, ER;
    destruct (s_ti s), (e_iolock e), (s_chthread s && negb (e_ch e)); reflexivity.
  - assert (N1 : vain (stop_ntf s e) = match e_ntf e with Some false => 1 | _ => 0 end).
    { unfold stop_ntf. rewrite SD. destruct (e_ntf e) as [[|]|]; reflexivity. }
    destruct (e_msgs e) eqn:EM; try congruence;
    (destruct (say_goodbye fuel s e) as [b|] eqn:B; [|discriminate]; destruct (give_ext s) as [x|] eqn:X; [|discriminate]); intros H;
    (match type of H with Done ?l = Done _ => assert (t = l) as -> by congruence end);
    rewrite !vain_app, N1, (bye_vain _ _ _ _ B), (ext_vain _ _ X), data_vain, transport_vain, final_vain, io_who;
    unfold free_msgs; rewrite EM; cbn [filter everyone]; cbn [staysb]; rewrite SD, EM;
    destruct (s_ti s), (e_iolock e), (e_ntf e) as [[|]|], (s_cpblts s); reflexivity.
Qed.

(** So never more than three times, and not at all if nobody else uses it. *)
Theorem c267_at_most_three fuel s e t : session_free fuel s e = Done t -> vain t <= 3.
Proof.
  intros H. unfold session_free in H.
  assert (I3 : io_vain s e <= 1) by (unfold io_vain; destruct (s_ti s), (e_iolock e); lia).
  assert (V : forall l, Done l = Done t -> vain l <= 3 -> vain t <= 3) by (intros l [= ->]; auto).
  assert (S1 : forall r, r <> LErr -> vain ([Use RRpcLock] ++ match r with LOk => [] | _ => [InVain] end
                       ++ free_data s e ++ stop_callhome s e ++ free_transport s e ++ final s e) <= 3).
  { intros r Nr. rewrite !vain_app, data_vain, transport_vain, final_vain.
    assert (vain (stop_callhome s e) <= 1) by (unfold stop_callhome; destruct (s_side s), (s_callhome s), (s_chthread s), (e_ch e); cbn; lia).
    assert (vain (match r with LOk => [] | _ => [InVain] end) <= 1) by (destruct r; cbn; lia). cbn [vain]. lia. }
  assert (N1 : vain (stop_ntf s e) <= 1) by (unfold stop_ntf; destruct (s_side s), (e_ntf e) as [[|]|]; cbn; lia).
  assert (C1 : forall b x, say_goodbye fuel s e = Some b -> give_ext s = Some x -> vain (stop_ntf s e ++ free_msgs s e ++ b ++ (if s_cpblts s then [End RCpblts] else []) ++ x
                            ++ free_data s e ++ free_transport s e ++ final s e) <= 3).
  { intros b x B X. rewrite !vain_app, (bye_vain _ _ _ _ B), (ext_vain _ _ X), data_vain, transport_vain, final_vain.
    assert (vain (free_msgs s e) <= 1) by (unfold free_msgs; destruct (e_msgs e); cbn; lia).
    assert (vain (if s_cpblts s then [End RCpblts] else []) = 0) by (destruct (s_cpblts s); reflexivity). lia. }
  destruct (s_status s); [injection H as <-; cbn; lia|..];
  (destruct (s_side s);
   [destruct (e_rpc e); [| |injection H as <-; cbn; lia]; refine (V _ H _); try (exact (S1 LOk ltac:(discriminate))); exact (S1 LTimeout ltac:(discriminate))|]);
  (destruct (e_msgs e); [| |refine (V _ H _); rewrite vain_app; cbn [vain]; lia];
   (destruct (say_goodbye fuel s e) as [b|] eqn:B; [|discriminate]; destruct (give_ext s) as [x|] eqn:X; [|discriminate]; refine (V _ H _); exact (C1 b x eq_refl eq_refl))).
Qed.

Theorem c267_none fuel s e t : (forall u, ~ stays s e u) -> s_status s <> Closing -> e_rpc e <> LErr -> e_msgs e <> LErr ->
  session_free fuel s e = Done t -> vain t = 0.
Proof.
  intros N1 A B C H. destruct (c267_waits fuel s e t A B C H) as (l & [_ L] & ->). destruct l as [|u l]; [reflexivity|].
  exfalso. apply (N1 u). apply L. now left.
Qed.

(** A client session with a thread for notifications that does not stop; three who stay; nobody. *)
Definition w_sess : sess := {| s_side := Client; s_status := Running; s_ti := TSsh; s_others := []; s_shared := false; s_ext := false;
  s_queue := 0; s_cpblts := true; s_data := false; s_callhome := false; s_chthread := false; s_io := true |}.
Definition w_env (n : option bool) (m i : lock) : env := {| e_ntf := n; e_rpc := LOk; e_msgs := m; e_iolock := i; e_ch := true; e_connected := true;
  e_reads := fun _ => RNone; e_rpc_ok := true; e_data_free := false; e_sock := true |}.
Example c267_case : (exists t, session_free 5 w_sess (w_env (Some false) LOk LOk) = Done t /\ vain t = 1) /\
  (exists t, session_free 5 w_sess (w_env (Some false) LTimeout LTimeout) = Done t /\ vain t = 3) /\
  (exists t, session_free 5 w_sess (w_env (Some true) LOk LOk) = Done t /\ vain t = 0).
Proof. repeat split; eexists; (split; [vm_compute; reflexivity|reflexivity]). Qed.

Print Assumptions c267_waits.
Print Assumptions c267_at_most_three.
Print Assumptions c267_none.
