(** C274-C275: waiting for the client of an SSH session; the model is SshWait. *)
From Coq Require Import ZArith NArith Bool Lia List String.
From Verif Require Import Bytes CStr Time SshAuth SshWait Prop_Time Prop_SshAuth.
Import ListNotations.
Local Open Scope Z_scope.
Local Open Scope list_scope.

(** ** Specification *)

(** Readings of the clock from a moment on, for less than 2^31 ms. *)
Definition after (now : tspec) (ts : list tspec) : Prop :=
  valid now /\ Forall (fun t => valid t /\ ns now <= ns t < ns now + 2147483648 * MS) ts.
(** All of them were less than [ms] milliseconds after it. *)
Definition soon (now : tspec) (ms : Z) (ts : list tspec) : Prop := Forall (fun t => ns t < ns now + ms * MS) ts.
Definition kex_times (d : doing) : list tspec := map snd (d_kex d).
Definition auth_times (d : doing) : list tspec := map r_at (d_auth d).
Definition open_times (d : doing) : list tspec := map r_at (d_open d).
Definition clocks (d : doing) : Prop := after (d_t0 d) (kex_times d) /\ after (d_t1 d) (auth_times d) /\ after (d_t2 d) (open_times d).

(** The server goes on waiting only for the time given: the limit for authentication if there is one, the timeout for everything else. *)
Definition limits (other : Z) (limit timeout : Z) (d : doing) (p : phase) : Prop :=
  match p with
  | PKex => soon (d_t0 d) timeout (kex_times d)
  | PAuth => limit <> 0 -> soon (d_t1 d) (limit * 1000) (auth_times d)
  | POpen => soon (d_t2 d) other (open_times d)
  end.
Definition c274_full : Prop := forall e o limit timeout d p, 0 <= limit <= 65535 -> 0 < timeout <= 2147483 -> clocks d ->
  accept_ssh e o limit timeout d = Waiting p -> limits timeout limit timeout d p.

(** The way of a client to a session. *)
Definition whole_way (tr : trace) (u : bytes) : Prop :=
  exists t1 me t2 ch t3 mem, tr = t1 ++ (AuthReq u me, [RSuccess]) :: t2 ++ (ChanOpen true (Some ch), [RChan ch]) :: t3 ++ [(Subsystem ch (bs "netconf") mem, [RSubsys])].

(** ** Waiting *)
Lemma expired now tmo t d : valid now -> valid t -> 0 <= tmo < 2147483648 -> ns now <= ns t < ns now + 2147483648 * MS ->
  cur_diff (time_get now tmo) t = Some d -> (d <? 1) = false -> ns t < ns now + tmo * MS.
Proof.
  intros V1 V2 T B E L. destruct (c44_expired_partial now tmo t V1 V2 T) as (d' & E' & H); [unfold MS in *; lia|].
  assert (d' = d) as -> by congruence. apply Z.ltb_ge in L. unfold MS in *. destruct (Z.lt_ge_cases (ns t) (ns now + tmo * 1000000)); [assumption|].
  assert (d < 1) by (apply H; lia). lia.
Qed.
Lemma pre_still t w st tr : pre t w = Still st tr -> exists tr', w = Still st tr'.
Proof. destruct w; try discriminate. intros [= -> _]. eauto. Qed.
Lemma wait_soon e o fin now tmo : 0 <= tmo < 2147483648 -> forall l st st' tr, after now (map r_at l) ->
  wait e o fin (Some (time_get now tmo)) l st = Still st' tr -> soon now tmo (map r_at l).
Proof.
  intros T. induction l as [|r l IH]; intros st st' tr [V A]; cbn [wait map]; [constructor|]. apply Forall_cons_iff in A. destruct A as [[V2 B] A].
  destruct (r_conn r); cbn [negb]; [|discriminate]. destruct (match r_msg r with None => _ | Some _ => _ end) as [[s1 t]|]; [|discriminate].
  intros E. apply pre_still in E. destruct E as [tr' E]. destruct (fin s1); [discriminate|]. destruct (cur_diff _ _) as [x|] eqn:D; [|discriminate].
  destruct (x <? 1) eqn:X; [discriminate|]. constructor; [exact (expired _ _ _ _ V V2 T B D X)|]. eapply IH; [split; assumption|exact E].
Qed.
Lemma kex_soon now tmo : 0 <= tmo < 2147483648 -> forall l : list (option bool * tspec), after now (map snd l) ->
  wait_loop (Some (time_get now tmo)) l = None -> soon now tmo (map snd l).
Proof.
  intros T. induction l as [|[a t] l IH]; intros [V A]; cbn [wait_loop map snd]; [constructor|]. apply Forall_cons_iff in A. destruct A as [[V2 B] A].
  destruct a; [discriminate|]. destruct (c44_expired_partial now tmo t V V2 T) as (d & D & _); [cbn in *; unfold MS in *; lia|]. rewrite D.
  destruct (d <? 1) eqn:X; [discriminate|]. intros E. constructor; [exact (expired _ _ _ _ V V2 T B D X)|]. apply IH; [split; assumption|exact E].
Qed.

(** ** C274 *)
Theorem c274_partial e o limit timeout d p : 0 <= limit <= 65535 -> 0 < timeout <= 2147483 -> clocks d ->
  accept_ssh e o limit timeout d = Waiting p -> limits (timeout * 1000) limit timeout d p.
Proof.
  intros L T (C0 & C1 & C2). unfold accept_ssh. destruct (d_setup d); cbn [negb]; [|discriminate].
  destruct (Z.ltb_spec (-1) timeout); [|lia]. destruct (wait_loop _ _) as [[[[]|] t]|] eqn:K; try discriminate.
  - destruct (accept_auth _ _ _ _ _ _) as [rc st tr|st tr|] eqn:A; try discriminate.
    + destruct (rc =? 1); cbn [negb]; [|discriminate]. destruct (open_channel _ _ _ _ _) as [rc' st' tr'|st' tr'|] eqn:O; try discriminate. intros [= <-].
      unfold open_channel in O. destruct (Z.eqb_spec timeout 0); [lia|]. rewrite Z.mod_small in O by lia.
      cbn [limits]. unfold open_times. eapply wait_soon; [|exact C2|exact O]. lia.
    + intros [= <-]. cbn [limits]. intros N1. unfold accept_auth in A. destruct (Z.eqb_spec limit 0); [congruence|]. eapply wait_soon; [|exact C1|exact A]. lia.
  - intros [= <-]. cbn [limits]. apply kex_soon; [lia|exact C0|exact K].
Qed.

(** ** C275 *)
Lemma Beqb a b : streq a b = true -> a = b.
Proof. unfold streq. now rewrite beqb_spec. Qed.
Lemma auth_user_keeps e u m c st st' rs r : auth_user e u m c st = Done st' rs r -> s_chan st' = s_chan st /\ s_subsys st' = s_subsys st /\
  (s_user st = None \/ s_user st' = s_user st) /\ (s_authd st = false -> s_authd st' = true -> rs = [RSuccess] /\ r = 0%N /\ s_user st' = Some u).
Proof.
  unfold auth_user.
  assert (Q : forall st1, s_chan st1 = s_chan st /\ s_subsys st1 = s_subsys st /\ s_authd st1 = s_authd st /\ s_user st1 = Some u /\ (s_user st = None \/ s_user st1 = s_user st) -> forall x,
    match x with
    | None => Done (add_attempt st1) [RDefault] 0
    | Some TUb => Ub
    | Some TOk => let st2 := add_success st1 (bit_of m) in Done st2 [if (s_scount st2 <? s_mcount st2)%N then RPartial else RSuccess] 0
    | Some TFail => Done (add_attempt st1) [RDefault] 0
    | Some (TReplied r) => Done st1 [r] 0
    end = Done st' rs r -> s_chan st' = s_chan st /\ s_subsys st' = s_subsys st /\ (s_user st = None \/ s_user st' = s_user st) /\ (s_authd st = false -> s_authd st' = true -> rs = [RSuccess] /\ r = 0%N /\ s_user st' = Some u)).
  { intros st1 (A & B & C & F & G) [[| |r0|]|]; try discriminate; cbv zeta; intros [= <- <- <-]; cbn; (split; [exact A|]; split; [exact B|]; split; [exact G|]); rewrite ?C; intros D; rewrite ?D; try discriminate.
    cbn [orb]. rewrite negb_true_iff. intros ->. auto. }
  destruct (s_user st) as [u0|] eqn:UU.
  - destruct (streq u u0) eqn:SU; [apply Beqb in SU; subst u0; intros E; apply Q in E; [exact E|repeat split; auto]|]. intros [= <- <- <-]. cbn. repeat split; auto; congruence.
  - intros E. apply Q in E; [exact E|]. unfold set_user. destruct c; cbn; auto 6.
Qed.
(** What a message can change. *)
Definition changes (m : smsg) (rs : list reply) (st st' : sst) : Prop :=
  (s_authd st = false -> s_authd st' = true -> exists u me, m = AuthReq u me /\ rs = [RSuccess] /\ s_user st' = Some u) /\
  (s_authd st = true -> s_authd st' = true /\ s_user st' = s_user st) /\
  (s_chan st' = s_chan st \/ (s_authd st = true /\ s_chan st = None /\ exists ch, s_chan st' = Some ch /\ m = ChanOpen true (Some ch) /\ rs = [RChan ch] /\ s_subsys st' = s_subsys st)) /\
  (s_subsys st' = s_subsys st \/ (s_authd st = true /\ exists ch mem, s_chan st = Some ch /\ s_chan st' = Some ch /\ m = Subsystem ch (bs "netconf") mem /\ rs = [RSubsys])).
Lemma handle_keeps e o m st st' rs r : handle e o m st = Done st' rs r -> changes m rs st st'.
Proof.
  unfold handle. destruct (ssh_msg e o m st) as [s1 rs1 r1|] eqn:H; [|discriminate].
  assert (E0 : match r1 with 0%N => Done s1 rs1 0 | _ => Done s1 (rs1 ++ [RDefault]) r1 end = Done st' rs r ->
    s1 = st' /\ ((r1 = 0%N /\ rs = rs1) \/ (r1 <> 0%N))).
  { destruct r1; intros [= <- <- <-]; auto. split; [reflexivity|]. right. discriminate. }
  intros E. destruct (E0 E) as [-> ER]. clear E E0.
  assert (K : st' = st -> changes m rs st st') by (intros ->; unfold changes; repeat split; auto; congruence).
  unfold ssh_msg in H.
  assert (Z0 : forall rs0 r0, Done st rs0 r0 = Done st' rs1 r1 -> st' = st) by (intros rs0 r0 [= <- _ _]; reflexivity).
  destruct (s_status st); try (apply K; eapply Z0; exact H); clear Z0.
  all: destruct m as [u me|[] got|c nm mem|];
    try (destruct (s_authd st) eqn:AD); try (apply K; congruence).
  all: try (destruct o as [o|]; [|apply K; congruence]; destruct (e_local e) as [b|]; [|apply K; congruence]).
  all: try (unfold ssh_auth in H; destruct b; [destruct (find_client _ _ _ _) as [c| | |]; try discriminate; try (apply K; congruence)|];
    [..|idtac]; try (injection H as <- <- <-; unfold changes; cbn; rewrite AD; repeat split; auto; discriminate);
    (apply auth_user_keeps in H; destruct H as (HC & HS & _ & HA); unfold changes; split;
      [intros _ X; destruct (HA AD X) as (-> & -> & HU); destruct ER as [[_ ->]|ER]; [exists u, me; auto|congruence]|split; [congruence|split; left; assumption]])).
  all: try (unfold channel_open in H; destruct (s_chan st) eqn:SC; [injection H as <- <- <-; apply K; reflexivity|];
    destruct (s_status st) eqn:SS, got as [ch|]; injection H as <- <- <-; destruct ER as [[_ ->]|ER]; try congruence; try (apply K; reflexivity);
    unfold changes; cbn; rewrite ?AD, ?SC; repeat split; auto; try congruence;
    right; split; [reflexivity|]; split; [reflexivity|]; exists ch; auto).
  all: try (destruct (channel_subsystem c nm mem st) as [s2|] eqn:CS; [|apply K; congruence]; injection H as <- <- <-; unfold channel_subsystem in CS;
    destruct (streq nm (bs "netconf")) eqn:SN; [|discriminate CS]; apply Beqb in SN; subst nm; cbn [negb] in CS;
    destruct (s_chan st) as [c0|] eqn:SC; [destruct (N.eqb_spec c c0) as [->|NE]|];
    [destruct (s_made st), (s_status st); try discriminate CS; destruct (s_subsys st) eqn:SB; [discriminate CS|]; injection CS as <-; destruct ER as [[_ ->]|ER]; [|congruence];
       unfold changes; cbn; rewrite AD; repeat split; auto; [congruence|]; right; split; [reflexivity|]; exists c0, mem; auto
    |destruct mem; [|discriminate CS]; injection CS as <-; unfold changes; cbn; rewrite AD, ?SC; repeat split; auto; congruence..]).
Qed.

(** The messages handled before a loop is done. *)
Inductive path (e : env) (o : option sshopts) (fin : sst -> bool) : sst -> trace -> sst -> Prop :=
| p_nil st : fin st = false -> path e o fin st [] st
| p_snoc st tr s m rs r st' : path e o fin st tr s -> handle e o m s = Done st' rs r -> fin st' = false -> path e o fin st (tr ++ [(m, rs)]) st'.
Lemma wait_over e o fin dl l : forall st0 tr0 st st' tr, path e o fin st0 tr0 st -> wait e o fin dl l st = Over 1 st' tr ->
  exists t s m rs r, path e o fin st0 t s /\ handle e o m s = Done st' rs r /\ fin st' = true /\ tr0 ++ tr = t ++ [(m, rs)].
Proof.
  induction l as [|r l IH]; intros st0 tr0 st st' tr P; cbn [wait]; [discriminate|]. destruct (r_conn r); cbn [negb]; [|discriminate].
  assert (F : fin st = false) by (destruct P; assumption).
  destruct (r_msg r) as [m|].
  - destruct (handle e o m st) as [s1 rs r1|] eqn:H; [|discriminate]. destruct (fin s1) eqn:F1.
    + cbn [pre]. intros [= <- <-]. exists tr0, st, m, rs, r1. auto.
    + pose proof (p_snoc _ _ _ _ _ _ _ _ _ _ P H F1) as P1.
      assert (G : forall w, pre [(m, rs)] w = Over 1 st' tr -> w = wait e o fin dl l s1 ->
        exists t s m rs r, path e o fin st0 t s /\ handle e o m s = Done st' rs r /\ fin st' = true /\ tr0 ++ tr = t ++ [(m, rs)]).
      { intros w E ->. destruct (wait e o fin dl l s1) as [rc s2 t2| |] eqn:W; try discriminate E. cbn [pre] in E. injection E as -> -> <-.
        destruct (IH st0 _ s1 _ _ P1 W) as (t & s & m' & rs' & r' & A & B & C & D). exists t, s, m', rs', r'. repeat split; auto. rewrite <- D, <- app_assoc. reflexivity. }
      destruct dl as [d|]; [destruct (cur_diff d (r_at r)) as [x|]; [destruct (x <? 1)|]; try discriminate|]; intros E; eapply G; eauto.
  - rewrite F.
    assert (G : forall w, pre [] w = Over 1 st' tr -> w = wait e o fin dl l st ->
        exists t s m rs r, path e o fin st0 t s /\ handle e o m s = Done st' rs r /\ fin st' = true /\ tr0 ++ tr = t ++ [(m, rs)]).
    { intros w E ->. destruct (wait e o fin dl l st) as [rc s2 t2| |] eqn:W; try discriminate E. cbn [pre app] in E. injection E as -> -> ->. eapply IH; eauto. }
    destruct dl as [d|]; [destruct (cur_diff d (r_at r)) as [x|]; [destruct (x <? 1)|]; try discriminate|]; intros E; eapply G; eauto.
Qed.
Lemma auth_path e o st tr s : path e o s_authd st tr s -> s_chan st = None -> s_subsys st = false -> s_chan s = None /\ s_subsys s = false /\ s_authd s = false.
Proof.
  induction 1 as [st F|st tr s m rs r st' P IH H F]; intros C S1; [auto|]. destruct (IH C S1) as (A & B & D).
  destruct (handle_keeps _ _ _ _ _ _ _ H) as (_ & _ & X & Y). split; [destruct X as [X|(X & _)]; congruence|]. split; [destruct Y as [Y|(Y & _)]; congruence|exact F].
Qed.
Lemma open_path e o st tr s : path e o ready st tr s -> s_authd st = true -> s_chan st = None -> s_subsys st = false ->
  s_authd s = true /\ s_user s = s_user st /\ s_subsys s = false /\ (s_chan s = None \/ exists ch t2 t3, s_chan s = Some ch /\ tr = t2 ++ (ChanOpen true (Some ch), [RChan ch]) :: t3).
Proof.
  induction 1 as [st F|st tr s m rs r st' P IH H F]; intros A C S1; [auto|]. destruct (IH A C S1) as (A1 & U1 & B & D).
  destruct (handle_keeps _ _ _ _ _ _ _ H) as (_ & W & X & Y). destruct (W A1) as [W1 W2]. split; [exact W1|]. split; [congruence|].
  assert (SS : s_subsys st' = false).
  { destruct Y as [Y|(_ & ch & mem & Y1 & Y2 & _)]; [congruence|]. unfold ready in F. now rewrite Y2 in F. }
  split; [exact SS|]. destruct X as [X|(_ & X1 & ch & X2 & -> & -> & _)].
  - rewrite X. destruct D as [D|(ch & t2 & t3 & D1 & ->)]; [auto|]. right. exists ch, t2, (t3 ++ [(m, rs)]). split; [exact D1|]. now rewrite <- app_assoc.
  - right. exists ch, tr, []. auto.
Qed.
Theorem c275_accepted e o limit timeout d st tr : accept_ssh e o limit timeout d = Finished 1 st tr -> exists u, s_user st = Some u /\ whole_way tr u.
Proof.
  unfold accept_ssh. destruct (d_setup d); cbn [negb]; [|discriminate]. destruct (wait_loop _ _) as [[[[]|] t]|]; try discriminate.
  destruct (accept_auth _ _ _ _ _ _) as [rc s1 tr1|s1 tr1|] eqn:A; try discriminate. destruct (Z.eqb_spec rc 1) as [->|N1]; cbn [negb]; [|intros [= -> _ _]; congruence].
  destruct (open_channel _ _ _ _ _) as [rc' s2 tr2|s2 tr2|] eqn:O; try discriminate. intros [= -> -> <-].
  apply (wait_over _ _ _ _ _ fresh [] fresh) in A; [|constructor; reflexivity]. destruct A as (ta & sa & ma & rsa & ra & PA & HA & FA & EA).
  destruct (auth_path _ _ _ _ _ PA eq_refl eq_refl) as (CA & SA & AA).
  destruct (handle_keeps _ _ _ _ _ _ _ HA) as (KA & _ & XA & YA). destruct (KA AA FA) as (u & me & -> & -> & UA).
  assert (C1 : s_chan s1 = None) by (destruct XA as [X|(X & _)]; congruence). assert (S1 : s_subsys s1 = false) by (destruct YA as [Y|(Y & _)]; congruence).
  unfold open_channel in O. apply (wait_over _ _ _ _ _ s1 [] s1) in O; [|constructor; unfold ready; now rewrite C1].
  destruct O as (tb & sb & mb & rsb & rb & PB & HB & FB & EB). destruct (open_path _ _ _ _ _ PB FA C1 S1) as (AB & UB & SB & DB).
  destruct (handle_keeps _ _ _ _ _ _ _ HB) as (_ & WB & XB & YB). destruct (WB AB) as [_ WB2].
  exists u. split; [congruence|]. unfold ready in FB. destruct (s_chan st) as [c2|] eqn:C2; [|discriminate].
  destruct YB as [YB|(_ & ch & mem & Y1 & Y2 & -> & ->)]; [congruence|].
  destruct DB as [DB|(ch' & t2 & t3 & D1 & ->)]; [congruence|]. assert (ch' = ch) as -> by congruence.
  exists ta, me, t2, ch, t3, mem. cbn [app] in EA, EB. rewrite EA, EB. rewrite <- !app_assoc. reflexivity.
Qed.

(** ** The timeout for the channel *)
(** The user "joe" has a key and a password and needs both; the times are seconds. *)
Definition at_ (s : Z) : tspec := mkT s 0.
Definition kex1 : list (option bool * tspec) := [(None, at_ 1); (Some true, at_ 2)].
Definition auth1 : list round :=
  [mkR true (Some (AuthReq (bs "joe") (MPassword (Some (bs "secret"))))) (at_ 3); mkR true None (at_ 4);
   mkR true (Some (AuthReq (bs "joe") (MPubkey (bs "data") SigValid))) (at_ 5)].
(** The client does nothing after that; the server waits for more than ten seconds with a timeout of 10000 milliseconds. *)
Definition lazy_client : doing := mkD true (at_ 0) kex1 (at_ 2) auth1 (at_ 5) [mkR true None (at_ 6); mkR true None (at_ 9000)].
Lemma clocks_ok now l : 0 <= now -> forallb (fun x => (now <=? x) && (x <? now + 2147483)) l = true -> after (at_ now) (map at_ l).
Proof.
  intros P H. split; [unfold valid, at_; cbn; lia|]. apply Forall_map, Forall_forall. intros x I. rewrite forallb_forall in H. specialize (H x I).
  rewrite andb_true_iff, Z.leb_le, Z.ltb_lt in H. unfold valid, ns, MS, at_. cbn [t_sec t_nsec]. lia.
Qed.
Lemma lazy_clocks : clocks lazy_client.
Proof.
  split; [apply (clocks_ok 0 [1; 2]); [lia|reflexivity]|]. split; [apply (clocks_ok 2 [3; 4; 5]); [lia|reflexivity]|apply (clocks_ok 5 [6; 9000]); [lia|reflexivity]].
Qed.
Theorem c274_full_refuted : ~ c274_full.
Proof.
  intros H. assert (E : accept_ssh ex_env ex_opts 30 10000 lazy_client = Waiting POpen) by (vm_compute; reflexivity).
  specialize (H ex_env ex_opts 30 10000 lazy_client POpen ltac:(lia) ltac:(lia) lazy_clocks E). cbn [limits] in H. unfold soon in H. rewrite Forall_forall in H.
  specialize (H (at_ 9000) ltac:(cbn; auto)). vm_compute in H. discriminate H.
Qed.

(** ** Cases *)
Example case_c274 : clocks lazy_client /\ accept_ssh ex_env ex_opts 30 10000 lazy_client = Waiting POpen /\
  accept_ssh ex_env ex_opts 30 10000 (mkD true (at_ 0) [(None, at_ 1); (None, at_ 10)] (at_ 0) [] (at_ 0) []) = Finished 0 fresh [] /\
  (exists st tr, accept_ssh ex_env ex_opts 30 10000 (mkD true (at_ 0) kex1 (at_ 2) [mkR true None (at_ 3); mkR true None (at_ 32)] (at_ 0) []) = Finished 0 st tr).
Proof. split; [exact lazy_clocks|]. split; [vm_compute; reflexivity|]. split; [vm_compute; reflexivity|]. eexists; eexists. vm_compute. reflexivity. Qed.
Example case_c275 : match accept_ssh ex_env ex_opts 30 10000 (mkD true (at_ 0) kex1 (at_ 2) auth1 (at_ 5)
  [mkR true (Some (ChanOpen true (Some 8%N))) (at_ 7); mkR true (Some OtherMsg) (at_ 7); mkR true (Some (Subsystem 8 (bs "netconf") true)) (at_ 8)])
  with Finished 1 st tr => s_user st = Some (bs "joe") /\ List.length tr = 5%nat | _ => False end.
Proof. vm_compute. auto. Qed.

Print Assumptions c274_partial.
Print Assumptions c274_full_refuted.
Print Assumptions c275_accepted.
