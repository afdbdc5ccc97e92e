(** C189-C193: the end of a session. *)
From Coq Require Import Bool Arith Lia List.
From Verif Require Import SessFree.
Import ListNotations.
Local Open Scope list_scope.

(* ------------------------------------------------------------------ *)
(** ** What is said *)

Definition res_eq_dec (a b : res) : {a = b} + {a <> b}.
Proof. decide equality. apply Nat.eq_dec. Defined.
Definition act_eq_dec (a b : act) : {a = b} + {a <> b}.
Proof. decide equality; (apply res_eq_dec || apply Nat.eq_dec). Defined.
Definition ended (r : res) (t : list act) : nat := count_occ act_eq_dec t (End r).

(** The session is the last on its connection, or alone on it. *)
Definition last_one (s : sess) : Prop := s_ti s <> TSsh \/ (forall o, In o (s_others s) -> o_starting o = true).
(** What is to be released with a session that is not closing: its own things, those of the connection if it is the last, and not the
    context if it is shared, the descriptors if they came from the caller.  [k]: the connection exists, [o]: the descriptor is valid,
    [d]: there is a function for the user's data. *)
Definition due (s : sess) (k o d : bool) (r : res) : Prop :=
  match r with
  | RMsgs | RMsgsLock => s_side s = Client
  | RCpblts => s_side s = Client /\ s_cpblts s = true
  | RExt => s_side s = Client /\ s_ext s = true
  | RCtx => s_shared s = false
  | RStrings | RSession => True
  | RRpcLock | RNtfLock | RChLock => s_side s = Server
  | RIoLock => s_io s = true /\ last_one s
  | RChannel => s_ti s = TSsh /\ k = true
  | RSsh => s_ti s = TSsh /\ last_one s
  | RSock => (s_ti s = TUnix \/ s_ti s = TTls \/ s_ti s = TSsh) /\ last_one s /\ o = true
  | RTls => s_ti s = TTls
  | RCert => s_ti s = TTls /\ s_side s = Server
  | RStart id => s_ti s = TSsh /\ last_one s /\ In id (map o_id (s_others s))
  | RData => s_data s = true /\ d = true
  end.

(** Sessions as they are: others on the connection only with SSH and with numbers of their own; data of the extension only with a context of
    one's own (src/session_client.c 1211, CtxFill). *)
Definition real (s : sess) : Prop := (s_ti s <> TSsh -> s_others s = []) /\ NoDup (map o_id (s_others s)) /\ (s_shared s = true -> s_ext s = false).

(** Nothing is used or released again after it was released. *)
Definition mentions (r : res) (a : act) : Prop := a = Use r \/ a = End r.
Definition in_order (t : list act) : Prop := forall t1 t2 r a, t = t1 ++ End r :: t2 -> In a t2 -> ~ mentions r a.

(* ------------------------------------------------------------------ *)
(** ** The parts *)

Lemma ended_app r a b : ended r (a ++ b) = ended r a + ended r b.
Proof. apply count_occ_app. Qed.

Lemma started_none l : first_started l = None <-> (forall o, In o l -> o_starting o = true).
Proof.
  induction l as [|o l IH]; cbn [first_started]; [split; [intros _ o []|reflexivity]|].
  destruct (o_starting o) eqn:E.
  - rewrite IH. split; [intros H x [<-|K]; auto|]. intros H x K. apply H. now right.
  - split; [discriminate|]. intros H. rewrite (H o (or_introl eq_refl)) in E. discriminate.
Qed.
Lemma multi_last s : multi s = false <-> last_one s.
Proof.
  unfold multi, last_one. destruct (s_ti s); cbn [is_ssh andb]; try (split; [intros _; left; discriminate|reflexivity]).
  destruct (first_started (s_others s)) eqn:E.
  - split; [discriminate|]. intros [H|H]; [congruence|]. apply started_none in H. congruence.
  - split; [intros _; right; now apply started_none|reflexivity].
Qed.

Lemma reads_ended r : ended r reading = 0.
Proof. destruct r; reflexivity. Qed.
Local Opaque reading.
Lemma drain_ended r fuel reads : forall k t k', drain fuel reads k = Some (t, k') -> ended r t = 0.
Proof.
  induction fuel as [|fuel IH]; intros k t k'; cbn [drain]; [discriminate|].
  destruct (reads k); try (intros [= <- <-]; apply reads_ended);
    (destruct (drain fuel reads (S k)) as [[t0 k0]|] eqn:E; [|discriminate]; intros [= <- <-]; rewrite ended_app, reads_ended; exact (IH _ _ _ E)).
Qed.
Lemma await_ended r fuel reads : forall k t, await fuel reads k = Some t -> ended r t = 0.
Proof.
  induction fuel as [|fuel IH]; intros k t; cbn [await]; [discriminate|].
  destruct (reads k); try (intros [= <-]; rewrite ?ended_app, reads_ended; destruct r; reflexivity).
  destruct (await fuel reads (S k)) as [t0|] eqn:E; [|discriminate]. intros [= <-]. rewrite ended_app, reads_ended. exact (IH _ _ E).
Qed.
Lemma goodbye_ended r fuel s e t : say_goodbye fuel s e = Some t -> ended r t = 0.
Proof.
  unfold say_goodbye. destruct (s_status s); try (intros [= <-]; reflexivity).
  destruct (drain fuel (e_reads e) 0) as [[t1 k]|] eqn:D; [|discriminate]. unfold close_session. destruct (e_rpc_ok e).
  - destruct (await fuel (e_reads e) k) as [t2|] eqn:A; [|discriminate]. intros [= <-]. cbn [app]. rewrite ended_app, (drain_ended _ _ _ _ _ _ D).
    change (Use RCtx :: Use RIoLock :: Use RSock :: SendClose :: t2 ++ [Use RCtx]) with ([Use RCtx; Use RIoLock; Use RSock; SendClose] ++ t2 ++ [Use RCtx]).
    rewrite !ended_app, (await_ended _ _ _ _ _ A). destruct r; reflexivity.
  - intros [= <-]. rewrite ended_app, (drain_ended _ _ _ _ _ _ D). destruct r; reflexivity.
Qed.

Lemma ends_starting id l : NoDup (map o_id l) ->
  ended (RStart id) (map (fun o => End (RStart (o_id o))) l) = if in_dec Nat.eq_dec id (map o_id l) then 1 else 0.
Proof.
  intros N. induction l as [|o l IH]; [reflexivity|]. cbn [map] in *. inversion N as [|? ? N1 N2]. subst. specialize (IH N2).
  unfold ended in *. cbn [count_occ]. destruct (act_eq_dec (End (RStart (o_id o))) (End (RStart id))) as [E|E].
  - injection E as E. rewrite IH. destruct (in_dec Nat.eq_dec id (map o_id l)) as [I|I]; [rewrite E in N1; contradiction|].
    destruct (in_dec Nat.eq_dec id (o_id o :: map o_id l)) as [J|J]; [reflexivity|]. destruct J. now left.
  - rewrite IH. destruct (in_dec Nat.eq_dec id (map o_id l)) as [I|I]; destruct (in_dec Nat.eq_dec id (o_id o :: map o_id l)) as [J|J]; try reflexivity.
    + destruct J. now right.
    + destruct J as [J|J]; [congruence|contradiction].
Qed.
Lemma ends_other r l : (forall id, r <> RStart id) -> ended r (map (fun o => End (RStart (o_id o))) l) = 0.
Proof.
  intros H. induction l as [|o l IH]; [reflexivity|]. unfold ended in *. cbn [map count_occ].
  destruct (act_eq_dec (End (RStart (o_id o))) (End r)) as [E|E]; [injection E as E; destruct (H _ (eq_sym E))|exact IH].
Qed.

(** The end of the others in the ring, by number. *)
Definition starting_ended (s : sess) (r : res) : nat :=
  match r with RStart id => if is_ssh (s_ti s) && negb (multi s) then (if in_dec Nat.eq_dec id (map o_id (s_others s)) then 1 else 0) else 0 | _ => 0 end.

Definition b2n (b : bool) : nat := if b then 1 else 0.
(** How often each thing is released by the common part: transport and final cleanup. *)
Definition common (s : sess) (e : env) (r : res) : nat :=
  match r with
  | RMsgs | RCpblts | RExt | RData => 0
  | RMsgsLock => match s_side s with Client => 1 | Server => 0 end
  | RCtx => b2n (negb (s_shared s))
  | RStrings | RSession => 1
  | RRpcLock | RNtfLock | RChLock => match s_side s with Server => 1 | Client => 0 end
  | RIoLock => b2n (s_io s && negb (multi s))
  | RChannel => b2n (is_ssh (s_ti s) && e_connected e)
  | RSsh => b2n (is_ssh (s_ti s) && negb (multi s))
  | RSock => match s_ti s with TUnix | TTls => b2n (e_sock e) | TSsh => b2n (negb (multi s) && e_sock e) | _ => 0 end
  | RTls => match s_ti s with TTls => 1 | _ => 0 end
  | RCert => match s_ti s, s_side s with TTls, Server => 1 | _, _ => 0 end
  | RStart id => starting_ended s (RStart id)
  end.
Lemma final_ended s e r : ended r (final s e) =
  match r with
  | RMsgsLock => match s_side s with Client => 1 | Server => 0 end
  | RCtx => b2n (negb (s_shared s))
  | RStrings | RSession => 1
  | RRpcLock | RNtfLock | RChLock => match s_side s with Server => 1 | Client => 0 end
  | RIoLock => b2n (s_io s && negb (multi s))
  | _ => 0
  end.
Proof. unfold final. rewrite !ended_app. destruct (s_side s), (e_rpc e), (s_io s && negb (multi s)), (s_shared s); destruct r; reflexivity. Qed.
Lemma sock_ended e r : ended r (close_sock e) = match r with RSock => b2n (e_sock e) | _ => 0 end.
Proof. unfold close_sock. destruct (e_sock e), r; reflexivity. Qed.
Lemma common_ended s e r : NoDup (map o_id (s_others s)) -> ended r (free_transport s e ++ final s e) = common s e r.
Proof.
  intros N. rewrite ended_app, final_ended. unfold free_transport, common, starting_ended.
  assert (K : ended r (map (fun o => End (RStart (o_id o))) (s_others s)) =
              match r with RStart id => if in_dec Nat.eq_dec id (map o_id (s_others s)) then 1 else 0 | _ => 0 end).
  { destruct r; try (apply ends_other; discriminate). now apply ends_starting. }
  destruct (s_ti s); cbn [is_ssh andb].
  - destruct r; reflexivity.
  - rewrite sock_ended. destruct r; cbn; lia.
  - destruct (multi s); cbn [negb andb].
    + rewrite !ended_app. destruct (e_connected e), (e_iolock e), r; cbn; lia.
    + rewrite !ended_app, K, sock_ended. clear K. destruct (e_connected e), (e_iolock e), r; cbn; lia.
  - rewrite !ended_app, sock_ended. destruct (e_connected e), (s_side s), r; cbn; lia.
  - destruct r; reflexivity.
Qed.

Lemma b2n_iff b P : (b = true <-> P) -> (b2n b = 1 /\ P) \/ (b2n b = 0 /\ ~ P).
Proof. intros H. destruct b; [left; split; [reflexivity|now apply H]|right; split; [reflexivity|]]. intros K. apply H in K. discriminate. Qed.

(** Released once if due, and otherwise not at all. *)
Definition exactly (n : nat) (P : Prop) : Prop := (P -> n = 1) /\ (~ P -> n = 0).
Lemma exactly_b b P : (b = true <-> P) -> exactly (b2n b) P.
Proof. intros H. unfold exactly. destruct (b2n_iff b P H) as [[A B]|[A B]]; split; tauto. Qed.

Lemma multi_true s : negb (multi s) = true <-> last_one s.
Proof. rewrite negb_true_iff. apply multi_last. Qed.

Lemma common_due s e r : common s e r = common s e r ->
  match r with RMsgs | RCpblts | RExt | RData => True | _ => exactly (common s e r) (due s (e_connected e) (e_sock e) true r) end.
Proof.
  intros _. destruct r; cbn [common due]; try exact Logic.I.
  - destruct (s_side s); split; (reflexivity || discriminate || congruence || tauto).
  - apply exactly_b. apply negb_true_iff.
  - split; [reflexivity|tauto].
  - destruct (s_side s); split; (reflexivity || discriminate || congruence || tauto).
  - destruct (s_side s); split; (reflexivity || discriminate || congruence || tauto).
  - destruct (s_side s); split; (reflexivity || discriminate || congruence || tauto).
  - apply exactly_b. rewrite andb_true_iff, multi_true. tauto.
  - apply exactly_b. rewrite andb_true_iff. destruct (s_ti s); cbn [is_ssh]; intuition congruence.
  - apply exactly_b. rewrite andb_true_iff, multi_true. destruct (s_ti s); cbn [is_ssh]; intuition congruence.
  - destruct (s_ti s) eqn:T.
    + split; [intros [[H|[H|H]] _]; discriminate|reflexivity].
    + apply exactly_b. assert (last_one s) by (left; congruence). intuition.
    + apply exactly_b. rewrite andb_true_iff, multi_true. intuition.
    + apply exactly_b. assert (last_one s) by (left; congruence). intuition.
    + split; [intros [[H|[H|H]] _]; discriminate|reflexivity].
  - destruct (s_ti s); split; (reflexivity || discriminate || congruence || tauto).
  - destruct (s_ti s), (s_side s); split; (reflexivity || (intros [? ?]; discriminate) || (intros H; exfalso; apply H; split; reflexivity)).
  - unfold starting_ended. destruct (is_ssh (s_ti s) && negb (multi s)) eqn:E.
    + apply andb_true_iff in E. destruct E as [E1 E2]. apply multi_true in E2.
      assert (T : s_ti s = TSsh) by (destruct (s_ti s); (discriminate || reflexivity)).
      destruct (in_dec Nat.eq_dec id (map o_id (s_others s))); split; (reflexivity || tauto).
    + split; [|reflexivity]. intros (T & L & _). rewrite T in E. apply multi_true in L. rewrite L in E. discriminate.
  - split; [reflexivity|tauto].
Qed.

Lemma free_data_ended s e r : ended r (free_data s e) = match r with RData => b2n (s_data s && e_data_free e) | _ => 0 end.
Proof. unfold free_data. destruct (s_data s && e_data_free e), r; reflexivity. Qed.
Lemma callhome_ended s e r : ended r (stop_callhome s e) = 0.
Proof. unfold stop_callhome. destruct (s_side s); [|reflexivity]. rewrite !ended_app. destruct (s_callhome s), (s_chthread s), (e_ch e), r; reflexivity. Qed.
Lemma stop_ended s e r : ended r (stop_ntf s e) = 0.
Proof. unfold stop_ntf. destruct (s_side s), (e_ntf e) as [[|]|], r; reflexivity. Qed.
Lemma msgs_ended s e r : ended r (free_msgs s e) = match r with RMsgs => 1 | _ => 0 end.
Proof. unfold free_msgs. rewrite ended_app. destruct (e_msgs e), r; reflexivity. Qed.
Lemma ext_ended s x r : (s_shared s = true -> s_ext s = false) -> give_ext s = Some x ->
  ended r x = match r with RExt => b2n (s_ext s) | _ => 0 end /\ (forall id, ~ In (Hand id) x).
Proof.
  intros R. unfold give_ext. destruct (s_shared s) eqn:S; cbn [andb].
  - rewrite (R eq_refl). destruct (is_ssh (s_ti s) && negb _).
    + destruct (first_started (s_others s)) as [o|]; [destruct (o_ext o); [discriminate|]|]; intros [= <-]; (split; [now destruct r|intros id []]).
    + intros [= <-]. split; [now destruct r|intros id []].
  - intros [= <-]. destruct (s_ext s); (split; [now destruct r|]); intros id H; cbn [In] in H; intuition discriminate.
Qed.

(* ------------------------------------------------------------------ *)
(** ** C189: everything is released once *)

Definition c189_full : Prop := forall fuel s e t, real s -> s_status s <> Closing -> session_free fuel s e = Done t ->
  forall r, exactly (ended r t) (due s (e_connected e) (e_sock e) (e_data_free e) r).

(** Missing: locks that cannot be had because of an error. *)
Theorem c189_once_partial fuel s e t : real s -> s_status s <> Closing -> e_rpc e <> LErr -> e_msgs e <> LErr ->
  session_free fuel s e = Done t -> forall r, exactly (ended r t) (due s (e_connected e) (e_sock e) (e_data_free e) r).
Proof.
  intros (_ & N & R) C L1 L2 H r.
  pose proof (common_due s e r eq_refl) as CD.
  assert (D0 : match r with RMsgs | RCpblts | RExt | RData => False | _ => True end -> ended r t = common s e r ->
               exactly (ended r t) (due s (e_connected e) (e_sock e) (e_data_free e) r)).
  { intros A ->. destruct r; (contradiction || exact CD). }
  unfold session_free in H. assert (H' : match s_side s with
      | Server => match e_rpc e with LErr => Done [Use RRpcLock] | r => Done ([Use RRpcLock] ++ match r with LOk => [] | _ => [InVain] end
                       ++ free_data s e ++ stop_callhome s e ++ free_transport s e ++ final s e) end
      | Client => match e_msgs e with LErr => Done (stop_ntf s e ++ [Use RMsgsLock]) | _ =>
              match say_goodbye fuel s e with None => Pending | Some bye =>
                  match give_ext s with None => Aborted | Some x =>
                      Done (stop_ntf s e ++ free_msgs s e ++ bye ++ (if s_cpblts s then [End RCpblts] else []) ++ x
                            ++ free_data s e ++ free_transport s e ++ final s e) end end end end = Done t)
    by (destruct (s_status s); [congruence|exact H|exact H]). clear H. rename H' into H.
  destruct (s_side s) eqn:SD.
  - assert (E : ended r t = match r with RData => b2n (s_data s && e_data_free e) | _ => 0 end + common s e r).
    { destruct (e_rpc e); [| |congruence]; match type of H with Done ?x = Done _ => replace t with x by congruence end; rewrite !ended_app, free_data_ended, callhome_ended;
        rewrite <- (common_ended s e r N), ended_app; destruct r; cbn; lia. }
    destruct r; cbn [due]; try (apply D0; [exact Logic.I|exact E]); rewrite E, ?SD; cbn [common].
    + split; [discriminate|reflexivity].
    + split; [intros [? _]; discriminate|reflexivity].
    + split; [intros [? _]; discriminate|reflexivity].
    + rewrite Nat.add_0_r. apply exactly_b. apply andb_true_iff.
  - assert (M : e_msgs e <> LErr) by exact L2.
    assert (H' : match say_goodbye fuel s e with None => Pending | Some bye =>
                  match give_ext s with None => Aborted | Some x =>
                      Done (stop_ntf s e ++ free_msgs s e ++ bye ++ (if s_cpblts s then [End RCpblts] else []) ++ x
                            ++ free_data s e ++ free_transport s e ++ final s e) end end = Done t)
      by (destruct (e_msgs e); [exact H|exact H|congruence]). clear H. rename H' into H.
    destruct (say_goodbye fuel s e) as [bye|] eqn:B; [|discriminate]. destruct (give_ext s) as [x|] eqn:X; [|discriminate].
    destruct (ext_ended s x r R X) as [EX _].
    assert (E : ended r t = match r with RMsgs => 1 | _ => 0 end + (match r with RCpblts => b2n (s_cpblts s) | _ => 0 end +
                 (match r with RExt => b2n (s_ext s) | _ => 0 end + (match r with RData => b2n (s_data s && e_data_free e) | _ => 0 end + common s e r)))).
    { match type of H with Done ?x = Done _ => replace t with x by congruence end. rewrite !ended_app, stop_ended, msgs_ended, (goodbye_ended r _ _ _ _ B), EX, free_data_ended.
      rewrite <- (common_ended s e r N), ended_app. destruct (s_cpblts s); destruct r; cbn; lia. }
    destruct r; cbn [due]; try (apply D0; [exact Logic.I|exact E]); rewrite E, ?SD; cbn [common].
    + split; [reflexivity|congruence].
    + rewrite !Nat.add_0_r, Nat.add_0_l. apply exactly_b. tauto.
    + rewrite !Nat.add_0_r, Nat.add_0_l. apply exactly_b. tauto.
    + rewrite Nat.add_0_r, !Nat.add_0_l. apply exactly_b. apply andb_true_iff.
Qed.

(** A lock that cannot be had because of an error: the session is neither released nor marked. *)
Definition s_unix : sess := {| s_side := Server; s_ti := TUnix; s_status := Running; s_shared := true; s_callhome := false; s_chthread := false;
  s_queue := 0; s_cpblts := false; s_ext := false; s_io := true; s_data := false; s_others := [] |}.
Definition e_fine : env := {| e_ntf := None; e_rpc := LOk; e_msgs := LOk; e_iolock := LOk; e_ch := true; e_connected := true;
  e_reads := fun k => match k with 1 => RNotif | 2 => RReply | _ => RNone end; e_rpc_ok := true; e_data_free := true; e_sock := true |}.
Definition e_err : env := {| e_ntf := None; e_rpc := LErr; e_msgs := LErr; e_iolock := LOk; e_ch := true; e_connected := true;
  e_reads := fun _ => RNone; e_rpc_ok := true; e_data_free := true; e_sock := true |}.
Lemma real_unix : real s_unix.
Proof. split; [reflexivity|]. split; [constructor|reflexivity]. Qed.
Theorem c189_error_refuted : ~ c189_full.
Proof.
  intros F. destruct (F 0 s_unix e_err _ real_unix ltac:(discriminate) eq_refl RSock) as [A _].
  assert (K : 0 = 1) by (apply A; cbn; split; [now left|split; [left; discriminate|reflexivity]]). discriminate.
Qed.

(* ------------------------------------------------------------------ *)
(** ** C190: nothing is used after it was released *)

(** Kinds of things, by the part that releases them. *)
Fixpoint ordered (t : list act) : Prop :=
  match t with
  | [] => True
  | End r :: t' => (forall a, In a t' -> ~ mentions r a) /\ ordered t'
  | _ :: t' => ordered t'
  end.
Lemma ordered_in_order t : ordered t -> in_order t.
Proof.
  intros O t1. revert t O. induction t1 as [|x t1 IH]; intros t O t2 r a -> I.
  - cbn [app ordered] in O. now apply (proj1 O).
  - cbn [app ordered] in O. assert (O' : ordered (t1 ++ End r :: t2)) by (destruct x; tauto). exact (IH _ O' t2 r a eq_refl I).
Qed.
Definition apart (a b : list act) : Prop := forall r x, In (End r) a -> In x b -> ~ mentions r x.
Lemma ordered_app a b : ordered a -> ordered b -> apart a b -> ordered (a ++ b).
Proof.
  induction a as [|x a IH]; intros A B P; [exact B|]. cbn [app].
  assert (P' : apart a b) by (intros r y H1 H2; apply (P r y); [now right|exact H2]).
  assert (A' : ordered a) by (cbn [ordered] in A; destruct x; tauto).
  destruct x; cbn [ordered] in *; try (now apply IH).
  split; [|now apply IH]. intros y H. apply in_app_iff in H. destruct H as [H|H]; [now apply (proj1 A)|]. apply (P r y); [now left|exact H].
Qed.
Lemma apart_app_l a b c : apart a c -> apart b c -> apart (a ++ b) c.
Proof. intros A B r x H I. apply in_app_iff in H. destruct H as [H|H]; [now apply (A r)|now apply (B r)]. Qed.
Lemma apart_app_r a b c : apart a b -> apart a c -> apart a (b ++ c).
Proof. intros A B r x H I. apply in_app_iff in I. destruct I as [I|I]; [now apply (A r)|now apply (B r)]. Qed.
(** Things released in [a] are among [l], things mentioned in [b] are not. *)
Definition ends_in (l : res -> bool) (a : list act) : Prop := forall r, In (End r) a -> l r = true.
Definition avoids (l : res -> bool) (b : list act) : Prop := forall r x, In x b -> mentions r x -> l r = false.
Lemma apart_by l a b : ends_in l a -> avoids l b -> apart a b.
Proof. intros A B r x H I M. pose proof (A r H). pose proof (B r x I M). congruence. Qed.
Lemma ends_app l a b : ends_in l a -> ends_in l b -> ends_in l (a ++ b).
Proof. intros A B r H. apply in_app_iff in H. destruct H; auto. Qed.
Lemma avoids_app l a b : avoids l a -> avoids l b -> avoids l (a ++ b).
Proof. intros A B r x H. apply in_app_iff in H. destruct H; eauto. Qed.

(** What the parts release. *)
Definition of_queue (r : res) : bool := match r with RMsgs => true | _ => false end.
Definition of_session (r : res) : bool := match r with RCpblts | RExt | RData => true | _ => false end.
Definition of_transport (r : res) : bool := match r with RChannel | RSsh | RSock | RTls | RCert | RStart _ => true | _ => false end.
Definition none (_ : res) : bool := false.

Ltac cases := repeat match goal with |- context [if ?b then _ else _] => destruct b end.
Ltac listed := let r := fresh in let x := fresh in let H := fresh in let M := fresh in intros r x H M; cbn [app In] in H; repeat (destruct H as [<-|H]; [destruct M as [M|M]; (discriminate M || (injection M as <-; reflexivity))|]); destruct H.
Ltac elisted := let r := fresh in let H := fresh in intros r H; cbn [app In] in H; repeat (destruct H as [H|H]; [(discriminate H || (injection H as <-; reflexivity))|]); destruct H.

Lemma goodbye_uses l fuel s e t : say_goodbye fuel s e = Some t -> l RIoLock = false -> l RSock = false -> l RCtx = false -> avoids l t.
Proof.
  intros H L1 L2 L3.
  assert (RD : avoids l reading).
  { Transparent reading. intros r x H0 M. unfold reading in H0. cbn [In] in H0.
    destruct H0 as [<-|[<-|[<-|[]]]]; destruct M as [M|M]; try discriminate M; injection M as <-; assumption. Opaque reading. }
  assert (UC : avoids l [Use RCtx]).
  { intros r x [<-|[]] [M|M]; [injection M as <-; exact L3|discriminate]. }
  assert (SC : avoids l [Use RCtx; Use RIoLock; Use RSock; SendClose]).
  { intros r x H0 M. cbn [In] in H0. destruct H0 as [<-|[<-|[<-|[<-|[]]]]]; destruct M as [M|M]; try discriminate M; injection M as <-; assumption. }
  assert (DR : forall reads k t k', drain fuel reads k = Some (t, k') -> avoids l t).
  { clear H t. induction fuel as [|fuel IH]; intros reads k t k'; cbn [drain]; [discriminate|].
    destruct (reads k); try (intros [= <- <-]; exact RD);
      (destruct (drain fuel reads (S k)) as [[t0 k0]|] eqn:E; [|discriminate]; intros [= <- <-]; apply avoids_app; [exact RD|exact (IH _ _ _ _ E)]). }
  assert (AW : forall reads k t, await fuel reads k = Some t -> avoids l t).
  { clear H t DR. induction fuel as [|fuel IH]; intros reads k t; cbn [await]; [discriminate|].
    destruct (reads k); try (intros [= <-]; exact RD).
    - destruct (await fuel reads (S k)) as [t0|] eqn:E; [|discriminate]. intros [= <-]. apply avoids_app; [exact RD|exact (IH _ _ _ E)].
    - intros [= <-]. apply avoids_app; [exact RD|exact UC]. }
  unfold say_goodbye in H. destruct (s_status s); try (injection H as <-; intros r x []).
  destruct (drain fuel (e_reads e) 0) as [[t1 k]|] eqn:D; [|discriminate]. unfold close_session in H. destruct (e_rpc_ok e).
  - destruct (await fuel (e_reads e) k) as [t2|] eqn:A; [|discriminate].
    match type of H with Some ?x = Some _ => replace t with x by congruence end.
    apply avoids_app; [exact (DR _ _ _ _ D)|]. apply avoids_app; [exact SC|]. apply avoids_app; [exact (AW _ _ _ A)|exact UC].
  - match type of H with Some ?x = Some _ => replace t with x by congruence end. apply avoids_app; [exact (DR _ _ _ _ D)|exact UC].
Qed.
Lemma no_ends_ordered t : (forall r, ~ In (End r) t) -> ordered t.
Proof.
  induction t as [|x t IH]; intros H; [exact Logic.I|]. assert (O : ordered t) by (apply IH; intros r K; apply (H r); now right).
  destruct x; try exact O. destruct (H r). now left.
Qed.
Lemma ended_none t : (forall r, ended r t = 0) -> forall r, ~ In (End r) t.
Proof. intros H r K. specialize (H r). unfold ended in H. apply (count_occ_not_In act_eq_dec) in H. contradiction. Qed.

Lemma starts_ordered l : NoDup (map o_id l) -> ordered (map (fun o => End (RStart (o_id o))) l).
Proof.
  induction l as [|o l IH]; intros N; [exact Logic.I|]. cbn [map] in *. inversion N as [|? ? N1 N2]. subst. cbn [ordered]. split; [|now apply IH].
  intros a H [M|M]; apply in_map_iff in H; destruct H as (o' & E & I); subst a; [discriminate|]. injection M as M. apply N1. rewrite <- M. now apply in_map.
Qed.
Lemma starts_ends l : ends_in of_transport (map (fun o => End (RStart (o_id o))) l).
Proof. intros r H. apply in_map_iff in H. destruct H as (o & E & _). injection E as <-. reflexivity. Qed.
Lemma starts_avoids k l : (forall id, k (RStart id) = false) -> avoids k (map (fun o => End (RStart (o_id o))) l).
Proof. intros K r x H M. apply in_map_iff in H. destruct H as (o & <- & _). destruct M as [M|M]; [discriminate|]. injection M as <-. apply K. Qed.

Definition conn (r : res) : bool := match r with RStart _ => true | _ => false end.
Lemma transport_ordered s e : NoDup (map o_id (s_others s)) -> ordered (free_transport s e).
Proof.
  intros N. unfold free_transport, close_sock. destruct (s_ti s); try exact Logic.I.
  - destruct (e_sock e); cbn [ordered]; [split; [intros a []|exact Logic.I]|exact Logic.I].
  - assert (T : forall (u : bool) (v : lock) (w : bool), ordered ((if e_connected e then [Use RChannel; End RChannel] else []) ++ [Use RIoLock] ++
      (if u then [] else map (fun o => End (RStart (o_id o))) (s_others s) ++ (if e_connected e then [Use RSsh] else []) ++ [Use RSsh; End RSsh])
      ++ (match v with LOk => [Use RIoLock] | _ => [InVain] end) ++ (if w : bool then [] else if e_sock e then [End RSock] else []))).
    2: apply T.
    intros u v w.
    assert (T1 : ordered ((match v with LOk => [Use RIoLock] | _ => [InVain] end) ++ (if w : bool then [] else if e_sock e then [End RSock] else []))).
    { destruct v, w, (e_sock e); cbn [app ordered]; try exact Logic.I; (split; [intros a []|exact Logic.I]). }
    set (tl := (match v with LOk => [Use RIoLock] | _ => [InVain] end) ++ (if w : bool then [] else if e_sock e then [End RSock] else [])) in *.
    assert (T2 : forall l, l RIoLock = false -> l RSock = false -> avoids l tl).
    { intros l A B r x H M. subst tl. destruct v, w, (e_sock e); cbn [app In] in H;
        repeat (destruct H as [<-|H]; [destruct M as [M|M]; try discriminate M; injection M as <-; assumption|]); destruct H. }
    clearbody tl.
    assert (T3 : ordered ((if u : bool then [] else map (fun o => End (RStart (o_id o))) (s_others s) ++ (if e_connected e then [Use RSsh] else []) ++ [Use RSsh; End RSsh]) ++ tl)).
    { destruct u; [exact T1|]. rewrite <- !app_assoc. apply ordered_app; [now apply starts_ordered| |].
      - apply ordered_app; [destruct (e_connected e); exact Logic.I| |destruct (e_connected e); intros r x H; cbn in H; intuition discriminate].
        apply ordered_app; [cbn [ordered]; split; [intros a []|exact Logic.I]|exact T1|].
        apply (apart_by (fun r => match r with RSsh => true | _ => false end)); [elisted|]. now apply T2.
      - apply (apart_by conn); [intros r H; apply in_map_iff in H; destruct H as (o & E & _); injection E as <-; reflexivity|].
        apply avoids_app; [destruct (e_connected e); listed|]. apply avoids_app; [listed|]. now apply T2. }
    apply ordered_app; [destruct (e_connected e); cbn [ordered]; [split; [intros a []|]|]; exact Logic.I| |].
    + apply ordered_app; [exact Logic.I|exact T3|intros r x H; cbn in H; intuition discriminate].
    + apply (apart_by (fun r => match r with RChannel => true | _ => false end)); [destruct (e_connected e); elisted|].
      apply avoids_app; [listed|]. apply avoids_app; [|now apply T2]. destruct u; [listed|]. apply avoids_app; [now apply starts_avoids|].
      apply avoids_app; [destruct (e_connected e); listed|listed].
  - destruct (e_connected e), (s_side s), (e_sock e); cbn [app ordered]; repeat split; intros a H M; cbn [In] in H;
      repeat (destruct H as [<-|H]; [destruct M as [M|M]; discriminate M|]); exact H.
Qed.
Lemma transport_ends s e : ends_in of_transport (free_transport s e).
Proof.
  unfold free_transport, close_sock. destruct (s_ti s); try (destruct (e_sock e); elisted).
  - repeat apply ends_app; try (cases; elisted); [destruct (multi s); [elisted|]|destruct (e_iolock e); elisted].
    repeat apply ends_app; try (cases; elisted). apply starts_ends.
  - repeat apply ends_app; try (cases; elisted); destruct (s_side s); elisted.
Qed.
Lemma transport_avoids s e l : (forall r, of_transport r = true -> l r = false) -> l RIoLock = false -> avoids l (free_transport s e).
Proof.
  intros L I. assert (A : forall r, In r [RChannel; RSsh; RSock; RTls; RCert] -> l r = false) by (intros r H; apply L; cbn [In] in H; intuition (subst; reflexivity)).
  cbn [In] in A. unfold free_transport, close_sock.
  assert (G : forall t, (forall x, In x t -> In x [Use RChannel; End RChannel; Use RIoLock; Use RSsh; End RSsh; InVain; End RSock; Use RTls; End RTls; End RCert]) -> avoids l t).
  { intros t H r x K M. specialize (H x K). cbn [In] in H.
    repeat (destruct H as [<-|H]; [destruct M as [M|M]; try discriminate M; injection M as <-; (exact I || (apply A; tauto))|]). destruct H. }
  destruct (s_ti s).
  - apply G. intros x [].
  - apply G. intros x H. destruct (e_sock e); cbn [In] in *; tauto.
  - repeat apply avoids_app.
    + apply G. intros x H. destruct (e_connected e); cbn [In] in *; tauto.
    + apply G. intros x H. cbn [In] in *; tauto.
    + destruct (multi s); [apply G; intros x []|]. apply avoids_app; [apply starts_avoids; intros id; now apply L|].
      apply G. intros x H. apply in_app_iff in H. destruct (e_connected e); cbn [In] in *; tauto.
    + apply G. intros x H. destruct (e_iolock e); cbn [In] in *; tauto.
    + apply G. intros x H. destruct (multi s); [destruct H|]. destruct (e_sock e); cbn [In] in *; tauto.
  - apply G. intros x H. rewrite !in_app_iff in H. destruct (e_connected e), (s_side s), (e_sock e); cbn [In] in *; tauto.
  - apply G. intros x [].
Qed.
Lemma final_ordered s e : ordered (final s e).
Proof.
  unfold final. destruct (s_side s), (e_rpc e), (s_io s && negb (multi s)), (s_shared s); cbn [app ordered];
    repeat split; intros a H M; cbn [In] in H; repeat (destruct H as [<-|H]; [destruct M as [M|M]; discriminate M|]); exact H.
Qed.
Lemma final_avoids s e l : (forall r, l r = true -> of_queue r = true \/ of_session r = true \/ of_transport r = true) -> avoids l (final s e).
Proof.
  intros L. assert (G : forall r, of_queue r = false -> of_session r = false -> of_transport r = false -> l r = false).
  { intros r A B C. destruct (l r) eqn:E; [|reflexivity]. destruct (L r E) as [K|[K|K]]; congruence. }
  unfold final. intros r x H M. rewrite !in_app_iff in H.
  destruct (s_side s), (e_rpc e), (s_io s && negb (multi s)), (s_shared s); cbn [In app] in H;
    decompose [or] H; subst; try contradiction; destruct M as [M|M]; try discriminate M; injection M as <-; apply G; reflexivity.
Qed.

Lemma data_ordered s e : ordered (free_data s e).
Proof. unfold free_data. cases; cbn [ordered]; [split; [intros a []|]|]; exact Logic.I. Qed.
Lemma data_ends s e : ends_in of_session (free_data s e).
Proof. unfold free_data. cases; elisted. Qed.
Lemma callhome_avoids l s e : l RChLock = false -> avoids l (stop_callhome s e).
Proof.
  intros L. unfold stop_callhome. destruct (s_side s); [|intros r x []]. intros r x H M. rewrite !in_app_iff in H.
  destruct (s_callhome s), (s_chthread s), (e_ch e); cbn [In] in H; decompose [or] H; subst; try contradiction;
    destruct M as [M|M]; try discriminate M; injection M as <-; exact L.
Qed.
Lemma cut s e (a : list act) : NoDup (map o_id (s_others s)) -> ordered a ->
  ends_in (fun r => of_queue r || of_session r) a -> ordered (a ++ free_transport s e ++ final s e).
Proof.
  intros N O E. apply ordered_app; [exact O| |].
  - apply ordered_app; [now apply transport_ordered|apply final_ordered|].
    apply (apart_by of_transport); [apply transport_ends|]. apply final_avoids. tauto.
  - apply (apart_by (fun r => of_queue r || of_session r)); [exact E|]. apply avoids_app.
    + apply transport_avoids; [|reflexivity]. intros r. destruct r; cbn; congruence.
    + apply final_avoids. intros r H. apply orb_true_iff in H. tauto.
Qed.

(** The trace of a client and of a server. *)
Lemma client_done fuel s e t : s_side s = Client -> s_status s <> Closing -> e_msgs e <> LErr -> session_free fuel s e = Done t ->
  exists bye x, say_goodbye fuel s e = Some bye /\ give_ext s = Some x /\
    t = stop_ntf s e ++ free_msgs s e ++ bye ++ (if s_cpblts s then [End RCpblts] else []) ++ x ++ free_data s e ++ free_transport s e ++ final s e.
Proof.
  intros S C M H. unfold session_free in H. rewrite S in H.
  destruct (say_goodbye fuel s e) as [bye|]; [|destruct (s_status s); [congruence|destruct (e_msgs e); congruence|destruct (e_msgs e); congruence]].
  destruct (give_ext s) as [x|]; [|destruct (s_status s); [congruence|destruct (e_msgs e); congruence|destruct (e_msgs e); congruence]].
  exists bye, x. split; [reflexivity|]. split; [reflexivity|].
  destruct (s_status s); [congruence|destruct (e_msgs e); congruence|destruct (e_msgs e); congruence].
Qed.
Lemma server_done fuel s e t : s_side s = Server -> s_status s <> Closing -> e_rpc e <> LErr -> session_free fuel s e = Done t ->
  t = [Use RRpcLock] ++ match e_rpc e with LOk => [] | _ => [InVain] end ++ free_data s e ++ stop_callhome s e ++ free_transport s e ++ final s e.
Proof.
  intros S C M H. unfold session_free in H. rewrite S in H. destruct (s_status s); [congruence| |]; destruct (e_rpc e); congruence.
Qed.

Lemma no_end_part k (a : list act) : (forall r, ended r a = 0) -> ends_in k a.
Proof. intros H r I. exfalso. revert I. now apply ended_none. Qed.
Lemma no_end_apart (a b : list act) : (forall r, ended r a = 0) -> apart a b.
Proof. intros H r x I. exfalso. revert I. now apply ended_none. Qed.

Lemma server_ordered s e : NoDup (map o_id (s_others s)) ->
  ordered ([Use RRpcLock] ++ match e_rpc e with LOk => [] | _ => [InVain] end ++ free_data s e ++ stop_callhome s e ++ free_transport s e ++ final s e).
Proof.
  intros N. set (w := match e_rpc e with LOk => [] | _ => [InVain] end).
  assert (W : forall r, ended r w = 0) by (intros r; subst w; now destruct (e_rpc e)).
  replace ([Use RRpcLock] ++ w ++ free_data s e ++ stop_callhome s e ++ free_transport s e ++ final s e)
    with (([Use RRpcLock] ++ w ++ free_data s e ++ stop_callhome s e) ++ free_transport s e ++ final s e) by now rewrite <- !app_assoc.
  clearbody w. apply cut; [exact N| |].
  - apply ordered_app; [exact Logic.I| |now apply no_end_apart].
    apply ordered_app; [apply no_ends_ordered; now apply ended_none| |now apply no_end_apart].
    apply ordered_app; [apply data_ordered|apply no_ends_ordered, ended_none; intros r; apply callhome_ended|].
    apply (apart_by of_session); [apply data_ends|now apply callhome_avoids].
  - apply ends_app; [now apply no_end_part|]. apply ends_app; [now apply no_end_part|].
    apply ends_app; [intros r I; apply data_ends in I; now rewrite I, orb_true_r|]. apply no_end_part. intros r. apply callhome_ended.
Qed.

Lemma ext_parts s x : give_ext s = Some x -> ordered x /\ ends_in of_session x /\ avoids of_queue x /\ (s_cpblts s = true -> avoids (fun r => match r with RCpblts => true | _ => false end) x).
Proof.
  unfold give_ext. intros H.
  assert (G : x = [] \/ (exists id, x = [Hand id]) \/ x = [Use RCtx; End RExt]).
  { destruct (s_shared s && is_ssh (s_ti s) && negb _).
    - destruct (first_started (s_others s)) as [o|]; [destruct (o_ext o); [discriminate|]; destruct (s_ext s)|]; injection H as <-; eauto.
    - destruct (s_ext s); injection H as <-; auto. }
  destruct G as [G|[[id G]|G]]; subst x; cbn [ordered]; (split; [(exact Logic.I || (split; [intros a []|exact Logic.I]))|]); (split; [elisted|]); (split; [listed|intros _; listed]).
Qed.

Lemma client_ordered fuel s e bye x : NoDup (map o_id (s_others s)) -> say_goodbye fuel s e = Some bye -> give_ext s = Some x ->
  ordered (stop_ntf s e ++ free_msgs s e ++ bye ++ (if s_cpblts s then [End RCpblts] else []) ++ x ++ free_data s e ++ free_transport s e ++ final s e).
Proof.
  intros N B X. destruct (ext_parts s x X) as (X1 & X2 & X3 & X4).
  assert (DA : forall k, (k = of_queue \/ k = (fun r => match r with RCpblts => true | _ => false end) \/ k = (fun r => match r with RExt => true | _ => false end)) -> avoids k (free_data s e)).
  { intros k K. unfold free_data. destruct K as [K|[K|K]]; subst k; cases; listed. }
  replace (stop_ntf s e ++ free_msgs s e ++ bye ++ (if s_cpblts s then [End RCpblts] else []) ++ x ++ free_data s e ++ free_transport s e ++ final s e)
    with ((stop_ntf s e ++ free_msgs s e ++ bye ++ (if s_cpblts s then [End RCpblts] else []) ++ x ++ free_data s e) ++ free_transport s e ++ final s e) by now rewrite <- !app_assoc.
  apply cut; [exact N| |].
  - apply ordered_app; [apply no_ends_ordered, ended_none; intros r; apply stop_ended| |apply no_end_apart; intros r; apply stop_ended].
    apply ordered_app.
    + unfold free_msgs. destruct (e_msgs e); cbn [app ordered]; split; try exact Logic.I; intros a H M; cbn [In] in H;
        repeat (destruct H as [<-|H]; [destruct M as [M|M]; discriminate M|]); exact H.
    + apply ordered_app; [apply no_ends_ordered, ended_none; intros r; now apply (goodbye_ended r fuel s e)| |apply no_end_apart; intros r; now apply (goodbye_ended r fuel s e)].
      apply ordered_app; [cases; cbn [ordered]; [split; [intros a []|]|]; exact Logic.I| |].
      * apply ordered_app; [exact X1|apply data_ordered|]. apply (apart_by (fun r => match r with RExt => true | _ => false end)); [|apply DA; auto].
        intros r I. unfold give_ext in X. destruct (s_shared s && is_ssh (s_ti s) && negb _).
        -- destruct (first_started (s_others s)) as [o|]; [destruct (o_ext o); [discriminate|]; destruct (s_ext s)|]; injection X as <-; revert r I; elisted.
        -- destruct (s_ext s); injection X as <-; revert r I; elisted.
      * destruct (s_cpblts s); [|intros r y []]. apply (apart_by (fun r => match r with RCpblts => true | _ => false end)); [elisted|].
        apply avoids_app; [now apply X4|apply DA; auto].
    + apply (apart_by of_queue); [unfold free_msgs; destruct (e_msgs e); elisted|].
      apply avoids_app; [now apply (goodbye_uses _ fuel s e)|]. apply avoids_app; [cases; listed|]. apply avoids_app; [exact X3|apply DA; auto].
  - apply ends_app; [apply no_end_part; intros r; apply stop_ended|].
    apply ends_app; [unfold free_msgs; destruct (e_msgs e); elisted|].
    apply ends_app; [apply no_end_part; intros r; now apply (goodbye_ended r fuel s e)|].
    apply ends_app; [cases; elisted|].
    apply ends_app; [intros r I; apply X2 in I; now rewrite I, orb_true_r|intros r I; apply data_ends in I; now rewrite I, orb_true_r].
Qed.

(** Nothing is used or released again after it was released. *)
Theorem c190_in_order fuel s e t : real s -> session_free fuel s e = Done t -> in_order t.
Proof.
  intros (_ & N & _) H. apply ordered_in_order.
  destruct (s_status s) eqn:C; [unfold session_free in H; rewrite C in H; injection H as <-; exact Logic.I| |].
  all: assert (C' : s_status s <> Closing) by congruence; destruct (s_side s) eqn:SD.
  1, 3: destruct (e_rpc e) eqn:L; [| |unfold session_free in H; rewrite C, SD, L in H; injection H as <-; exact Logic.I];
    (assert (L' : e_rpc e <> LErr) by congruence; rewrite (server_done _ _ _ _ SD C' L' H); now apply server_ordered).
  all: destruct (e_msgs e) eqn:L; [| |unfold session_free in H; rewrite C, SD, L in H;
    match type of H with Done ?x = Done _ => replace t with x by congruence end; apply no_ends_ordered, ended_none; intros r; rewrite ended_app, stop_ended; destruct r; reflexivity];
    (assert (L' : e_msgs e <> LErr) by congruence; destruct (client_done _ _ _ _ SD C' L' H) as (bye & x & B & X & ->); now apply (client_ordered fuel)).
Qed.

(** The structure itself is released last. *)
Theorem c190_last fuel s e t : session_free fuel s e = Done t -> In (End RSession) t -> exists t', t = t' ++ [End RSession].
Proof.
  intros H I.
  assert (F : exists f, final s e = f ++ [End RSession]).
  { unfold final. rewrite !app_assoc. eexists. reflexivity. }
  destruct F as [f F].
  destruct (s_status s) eqn:C; [unfold session_free in H; rewrite C in H; injection H as <-; destruct I| |].
  all: assert (C' : s_status s <> Closing) by congruence; destruct (s_side s) eqn:SD.
  1, 3: destruct (e_rpc e) eqn:L; [| |unfold session_free in H; rewrite C, SD, L in H; injection H as <-; destruct I as [I|[]]; discriminate];
    (assert (L' : e_rpc e <> LErr) by congruence; rewrite (server_done _ _ _ _ SD C' L' H), F, !app_assoc; eexists; reflexivity).
  all: destruct (e_msgs e) eqn:L; [| |unfold session_free in H; rewrite C, SD, L in H;
    match type of H with Done ?x = Done _ => assert (T : t = x) by congruence end; rewrite T in I; apply in_app_iff in I; destruct I as [I|[I|[]]];
      [exfalso; revert I; apply ended_none; intros r; apply stop_ended|discriminate]];
    (assert (L' : e_msgs e <> LErr) by congruence; destruct (client_done _ _ _ _ SD C' L' H) as (bye & x & B & X & ->); rewrite F, !app_assoc; eexists; reflexivity).
Qed.

(* ------------------------------------------------------------------ *)
(** ** C191: the server is told *)

Lemma drain_quiet fuel reads : forall k t k', drain fuel reads k = Some (t, k') -> ~ In SendClose t.
Proof.
  assert (R : ~ In SendClose reading). { Transparent reading. unfold reading. cbn [In]. intuition discriminate. Opaque reading. }
  induction fuel as [|fuel IH]; intros k t k'; cbn [drain]; [discriminate|].
  destruct (reads k); try (intros [= <- <-]; exact R);
    (destruct (drain fuel reads (S k)) as [[t0 k0]|] eqn:E; [|discriminate]; intros [= <- <-] I; apply in_app_iff in I; destruct I as [I|I]; [now apply R|exact (IH _ _ _ E I)]).
Qed.
Lemma await_quiet fuel reads : forall k t, await fuel reads k = Some t -> ~ In SendClose t.
Proof.
  assert (R : ~ In SendClose reading). { Transparent reading. unfold reading. cbn [In]. intuition discriminate. Opaque reading. }
  induction fuel as [|fuel IH]; intros k t; cbn [await]; [discriminate|]. destruct (reads k); try (intros [= <-]; exact R).
  - destruct (await fuel reads (S k)) as [t0|] eqn:E; [|discriminate]. intros [= <-] I. apply in_app_iff in I.
    destruct I as [I|I]; [now apply R|exact (IH _ _ E I)].
  - intros [= <-] I. apply in_app_iff in I. destruct I as [I|[I|[]]]; [now apply R|discriminate].
Qed.
Lemma rest_quiet s e : ~ In SendClose (free_data s e ++ free_transport s e ++ final s e) /\ ~ In SendClose (stop_ntf s e ++ free_msgs s e)
  /\ ~ In SendClose (stop_callhome s e).
Proof.
  repeat split.
  - rewrite !in_app_iff. intros [H|[H|H]].
    + unfold free_data in H. destruct (s_data s && e_data_free e); cbn [In] in H; intuition discriminate.
    + unfold free_transport, close_sock in H. destruct (s_ti s); rewrite ?in_app_iff in H.
      * destruct H.
      * destruct (e_sock e); cbn [In] in H; intuition discriminate.
      * destruct H as [H|[H|[H|[H|H]]]].
        -- destruct (e_connected e); cbn [In] in *; intuition discriminate.
        -- cbn [In] in *; intuition discriminate.
        -- destruct (multi s); [contradiction|]. rewrite !in_app_iff in H. destruct H as [H|[H|H]].
           ++ apply in_map_iff in H. destruct H as (o & E & _). discriminate.
           ++ destruct (e_connected e); cbn [In] in *; intuition discriminate.
           ++ cbn [In] in *; intuition discriminate.
        -- destruct (e_iolock e); cbn [In] in *; intuition discriminate.
        -- destruct (multi s), (e_sock e); cbn [In] in *; intuition discriminate.
      * destruct (e_connected e), (s_side s), (e_sock e); cbn [In] in H; intuition discriminate.
      * destruct H.
    + unfold final in H. rewrite ?in_app_iff in H. destruct (s_side s), (e_rpc e), (s_io s && negb (multi s)), (s_shared s); cbn [In app] in H; intuition discriminate.
  - rewrite in_app_iff. unfold stop_ntf, free_msgs. intros [H|H].
    + destruct (s_side s), (e_ntf e) as [[|]|]; cbn [In] in H; intuition discriminate.
    + destruct (e_msgs e); cbn [In app] in H; intuition discriminate.
  - unfold stop_callhome. intros H. destruct (s_side s); [|destruct H]. rewrite !in_app_iff in H.
    destruct (s_callhome s), (s_chthread s), (e_ch e); cbn [In] in H; intuition discriminate.
Qed.

(** A running client sends <close-session> once, before anything but its queue of messages is released. *)
Theorem c191_told fuel s e t : s_side s = Client -> s_status s = Running -> e_msgs e <> LErr -> e_rpc_ok e = true ->
  session_free fuel s e = Done t ->
  exists t1 t2, t = t1 ++ SendClose :: t2 /\ ~ In SendClose t1 /\ ~ In SendClose t2 /\ (forall r, In (End r) t1 -> r = RMsgs).
Proof.
  intros SD C L P H. assert (C' : s_status s <> Closing) by congruence. destruct (client_done _ _ _ _ SD C' L H) as (bye & x & B & X & ->).
  unfold say_goodbye in B. rewrite C in B. destruct (drain fuel (e_reads e) 0) as [[d k]|] eqn:D; [|discriminate].
  unfold close_session in B. rewrite P in B. destruct (await fuel (e_reads e) k) as [w|] eqn:A; [|discriminate].
  match type of B with Some ?y = Some _ => replace bye with y by congruence end.
  destruct (rest_quiet s e) as (Q1 & Q2 & _).
  exists (stop_ntf s e ++ free_msgs s e ++ d ++ [Use RCtx; Use RIoLock; Use RSock]),
         (w ++ [Use RCtx] ++ (if s_cpblts s then [End RCpblts] else []) ++ x ++ free_data s e ++ free_transport s e ++ final s e).
  split; [rewrite <- !app_assoc; reflexivity|]. split; [|split].
  - rewrite !in_app_iff in *. intros [K|[K|[K|K]]]; [tauto|tauto|exact (drain_quiet _ _ _ _ _ D K)|]. cbn [In] in K. intuition discriminate.
  - rewrite !in_app_iff in *. intros [K|[K|[K|[K|K]]]]; [exact (await_quiet _ _ _ _ A K)|cbn [In] in K; intuition discriminate| | |tauto].
    + destruct (s_cpblts s); cbn [In] in K; intuition discriminate.
    + unfold give_ext in X. destruct (s_shared s && is_ssh (s_ti s) && negb _).
      * destruct (first_started (s_others s)) as [o|]; [destruct (o_ext o); [discriminate|]; destruct (s_ext s)|]; injection X as <-; cbn [In] in K; intuition discriminate.
      * destruct (s_ext s); injection X as <-; cbn [In] in K; intuition discriminate.
  - intros r K. rewrite !in_app_iff in K. destruct K as [K|[K|[K|K]]].
    + exfalso. revert K. apply ended_none. intros r'. apply stop_ended.
    + unfold free_msgs in K. destruct (e_msgs e); cbn [In app] in K; decompose [or] K; try discriminate; try contradiction; congruence.
    + exfalso. revert K. apply ended_none. intros r'. exact (drain_ended r' _ _ _ _ _ D).
    + cbn [In] in K. intuition discriminate.
Qed.

(** Nothing is sent by a server, and nothing on a session that is not running. *)
Theorem c191_quiet fuel s e t : s_side s = Server \/ s_status s <> Running -> session_free fuel s e = Done t -> ~ In SendClose t.
Proof.
  intros W H I. destruct (rest_quiet s e) as (Q1 & Q2 & Q3).
  destruct (s_status s) eqn:C; [unfold session_free in H; rewrite C in H; injection H as <-; destruct I| |].
  all: assert (C' : s_status s <> Closing) by congruence; destruct (s_side s) eqn:SD.
  1, 3: destruct (e_rpc e) eqn:L; [| |unfold session_free in H; rewrite C, SD, L in H; injection H as <-; destruct I as [I|[]]; discriminate];
    (assert (L' : e_rpc e <> LErr) by congruence; rewrite (server_done _ _ _ _ SD C' L' H), L in I; rewrite !in_app_iff in *; cbn [In] in I; intuition discriminate).
  - destruct W as [W|W]; [discriminate|congruence].
  - destruct (e_msgs e) eqn:L; [| |unfold session_free in H; rewrite C, SD, L in H;
      match type of H with Done ?x = Done _ => assert (T : t = x) by congruence end; rewrite T in I; rewrite in_app_iff in *; destruct I as [I|[I|[]]]; [tauto|discriminate]].
    all: assert (L' : e_msgs e <> LErr) by congruence; destruct (client_done _ _ _ _ SD C' L' H) as (bye & x & B & X & ->).
    all: unfold say_goodbye in B; rewrite C in B; injection B as <-.
    all: assert (XQ : ~ In SendClose x) by (unfold give_ext in X; destruct (s_shared s && is_ssh (s_ti s) && negb _);
      [destruct (first_started (s_others s)) as [o|]; [destruct (o_ext o); [discriminate|]; destruct (s_ext s)|]; injection X as <-; cbn [In]; intuition discriminate
      |destruct (s_ext s); injection X as <-; cbn [In]; intuition discriminate]).
    all: rewrite !in_app_iff in *; destruct (s_cpblts s); cbn [In] in I; intuition discriminate.
Qed.

(* ------------------------------------------------------------------ *)
(** ** C192: closing comes to an end *)

Definition c192_full : Prop := forall s e, exists fuel, session_free fuel s e <> Pending.

Lemma drain_ends reads n : (forall k, n <= k -> reads k = RNone \/ reads k = RBad) ->
  forall m k, n - k <= m -> exists t k', drain (S m) reads k = Some (t, k').
Proof.
  intros Q. induction m as [|m IH]; intros k M.
  - destruct (Q k ltac:(lia)) as [E|E]; cbn [drain]; rewrite E; eauto.
  - cbn [drain]. destruct (reads k); eauto; destruct (IH (S k) ltac:(lia)) as (t & k' & E); cbn [drain] in E; rewrite E; eauto.
Qed.
Lemma await_ends reads n : (forall k, n <= k -> reads k = RNone \/ reads k = RBad) ->
  forall m k, n - k <= m -> exists t, await (S m) reads k = Some t.
Proof.
  intros Q. induction m as [|m IH]; intros k M.
  - destruct (Q k ltac:(lia)) as [E|E]; cbn [await]; rewrite E; eauto.
  - cbn [await]. destruct (reads k); eauto; destruct (IH (S k) ltac:(lia)) as (t & E); cbn [await] in E; rewrite E; eauto.
Qed.

(** Missing: servers that send without end.  If at most [n] messages come, at most [n] more attempts are made. *)
Theorem c192_ends_partial s e n : (forall k, n <= k -> e_reads e k = RNone \/ e_reads e k = RBad) -> session_free (S n) s e <> Pending.
Proof.
  intros Q H. unfold session_free in H.
  assert (G : say_goodbye (S n) s e <> None).
  { unfold say_goodbye. destruct (s_status s); try discriminate. destruct (drain_ends _ _ Q n 0 ltac:(lia)) as (t & k & E). rewrite E.
    unfold close_session. destruct (e_rpc_ok e); [|discriminate]. destruct (await_ends _ _ Q n k ltac:(lia)) as (w & E2). now rewrite E2. }
  destruct (say_goodbye (S n) s e) as [bye|]; [|congruence].
  destruct (s_status s), (s_side s), (e_rpc e), (e_msgs e), (give_ext s); discriminate.
Qed.

Definition s_client : sess := {| s_side := Client; s_ti := TSsh; s_status := Running; s_shared := false; s_callhome := false; s_chthread := false;
  s_queue := 2; s_cpblts := true; s_ext := true; s_io := true; s_data := true; s_others := [] |}.
Definition e_endless : env := {| e_ntf := None; e_rpc := LOk; e_msgs := LOk; e_iolock := LOk; e_ch := true; e_connected := true;
  e_reads := fun _ => RNotif; e_rpc_ok := true; e_data_free := true; e_sock := true |}.
Theorem c192_endless_refuted : ~ c192_full.
Proof.
  intros F. destruct (F s_client e_endless) as [fuel N]. apply N. unfold session_free. cbn [s_status s_client s_side e_msgs e_endless].
  assert (D : forall f k, drain f (e_reads e_endless) k = None) by (induction f as [|f IH]; intros k; [reflexivity|]; cbn [drain e_reads e_endless]; now rewrite IH).
  unfold say_goodbye. cbn [s_status s_client]. now rewrite D.
Qed.
(** Notifications alone suffice, however slowly they come: each has to come only before the timeout of one reading. *)
Definition slow : nat -> rd := fun k => match k with 0 => RNone | _ => RNotif end.
Theorem c192_notifications fuel k : await fuel slow (S k) = None.
Proof. revert k. induction fuel as [|f IH]; intros k; [reflexivity|]. cbn [await slow]. now rewrite IH. Qed.

(* ------------------------------------------------------------------ *)
(** ** C193: sessions on one connection can be closed in any order *)

Definition c193_full : Prop := forall fuel s e, real s -> (forall o, In o (s_others s) -> o_shared o = true -> o_ext o = false) ->
  session_free fuel s e <> Aborted.

(** Missing: a session with a context of the user beside one with data for schema mounts. *)
Theorem c193_no_abort_partial fuel s e : s_shared s = false \/ (forall o, In o (s_others s) -> o_ext o = false) -> session_free fuel s e <> Aborted.
Proof.
  intros W H. assert (G : give_ext s <> None).
  { unfold give_ext. destruct W as [W|W]; [rewrite W; discriminate|].
    destruct (s_shared s && is_ssh (s_ti s) && negb _); [|discriminate]. destruct (first_started (s_others s)) as [o|] eqn:E; [|discriminate].
    assert (I : In o (s_others s)).
    { clear W H. revert E. generalize (s_others s). induction l as [|a l IH]; cbn [first_started]; [discriminate|].
      destruct (o_starting a); [right; auto|]. intros [= ->]. now left. }
    rewrite (W o I). discriminate. }
  unfold session_free in H. destruct (give_ext s); [|congruence].
  destruct (s_status s), (s_side s), (e_rpc e), (e_msgs e), (say_goodbye fuel s e); discriminate.
Qed.

(** The first session of the connection has its own context with data for schema mounts, the second one a context of the user, and the
    second one is closed. *)
Definition s_second : sess := {| s_side := Client; s_ti := TSsh; s_status := Running; s_shared := true; s_callhome := false; s_chthread := false;
  s_queue := 0; s_cpblts := true; s_ext := false; s_io := true; s_data := false; s_others := [mkOther 1 false false true] |}.
Lemma real_second : real s_second.
Proof. split; [intros H; now destruct H|]. split; [repeat constructor; intros []|reflexivity]. Qed.
Theorem c193_abort_refuted : ~ c193_full.
Proof.
  intros F. apply (F 5 s_second e_fine real_second); [|vm_compute; reflexivity]. intros o [<-|[]]. discriminate.
Qed.

(* ------------------------------------------------------------------ *)
(** ** Examples *)

Lemma real_client : real s_client.
Proof. split; [intros H; now destruct H|]. split; [constructor|discriminate]. Qed.
Example ex_client : exists t, session_free 5 s_client e_fine = Done t /\ ended RSsh t = 1 /\ ended RCtx t = 1 /\ ended RSock t = 1 /\ ended RCert t = 0.
Proof. eexists. split; [reflexivity|]. vm_compute. repeat split; reflexivity. Qed.
(** A session beside a running one leaves the connection. *)
Definition s_beside : sess := {| s_side := Server; s_ti := TSsh; s_status := Running; s_shared := true; s_callhome := false; s_chthread := false;
  s_queue := 0; s_cpblts := false; s_ext := false; s_io := true; s_data := false; s_others := [mkOther 1 true true false; mkOther 2 false true false] |}.
Example ex_beside : exists t, session_free 0 s_beside e_fine = Done t /\ ended RSsh t = 0 /\ ended RIoLock t = 0 /\ ended (RStart 1) t = 0 /\ ended RChannel t = 1.
Proof. eexists. split; [reflexivity|]. vm_compute. repeat split; reflexivity. Qed.
Definition s_last : sess := {| s_side := Server; s_ti := TSsh; s_status := Running; s_shared := true; s_callhome := true; s_chthread := true;
  s_queue := 0; s_cpblts := false; s_ext := false; s_io := true; s_data := false; s_others := [mkOther 1 true true false; mkOther 2 true true false] |}.
Example ex_last : exists t, session_free 0 s_last e_fine = Done t /\ ended RSsh t = 1 /\ ended RIoLock t = 1 /\ ended (RStart 1) t = 1 /\ ended (RStart 2) t = 1 /\ ended (RStart 3) t = 0.
Proof. eexists. split; [reflexivity|]. vm_compute. repeat split; reflexivity. Qed.
Example ex_ends : session_free 4 s_client e_fine <> Pending.
Proof. apply (c192_ends_partial s_client e_fine 3). intros k H. left. cbn. destruct k as [|[|[|k]]]; try lia. reflexivity. Qed.

Print Assumptions c189_once_partial.
Print Assumptions c189_error_refuted.
Print Assumptions c190_in_order.
Print Assumptions c190_last.
Print Assumptions c191_told.
Print Assumptions c191_quiet.
Print Assumptions c192_ends_partial.
Print Assumptions c192_endless_refuted.
Print Assumptions c192_notifications.
Print Assumptions c193_no_abort_partial.
Print Assumptions c193_abort_refuted.
