(** Properties of keyboard-interactive authentication and of the time authentication takes: C140-C145. *)
From Coq Require Import String List Arith Bool NArith ZArith Lia.
From Verif Require Import Bytes SshKeys Prop_SshKeys KbdInt.
Import ListNotations.
Local Open Scope list_scope.
Local Open Scope Z_scope.

(* ------------------------------------------------------------------ *)
(** ** Specification *)

(** Time: at least a millisecond is left of [secs] seconds since [t0] (times in nanoseconds). *)
Definition in_time (t0 secs now : Z) : Prop := now + 1000000 <= t0 + secs * 1000000000.
(** Nothing has happened: connected, no message. *)
Definition quiet (t : turn) : Prop := t_conn t = true /\ t_msg t = false.
(** After some turns in which nothing happens, a message comes. *)
Definition comes (before : list turn) (t : turn) : Prop := Forall quiet before /\ t_conn t = true /\ t_msg t = true.

(** The messages of PAM modules. *)
Definition asks (m : pmsg) : bool := match m_style m with 1 | 2 => true | _ => false end.       (* a question to the user *)
Definition visible (m : pmsg) : bool := match m_style m with 2 => true | _ => false end.       (* the answer may be seen *)
Definition info (m : pmsg) : Prop := m_style m = 4.
Definition acceptable (ms : list pmsg) : Prop :=
  (0 < length ms < 32)%nat /\ Forall (fun m => asks m = true \/ info m) ms.
(** What the user is asked: the questions in their order, with echo for those whose answer may be seen. *)
Definition questions (ms : list pmsg) : list (bytes * bool) := map (fun m => (m_text m, visible m)) (filter asks ms).
(** The answers the client gave to the questions of a conversation, if it gave them in time. *)
Inductive answered (secs : Z) (r : round) : list bytes -> Prop :=
| answered_intro before t after a :
    r_sent r = true -> r_turns r = before ++ t :: after -> comes before t ->
    (forall b, In b before -> secs <> 0 /\ in_time (r_start r) secs (t_now b)) ->
    r_answers r = Some a -> answered secs r a.
(** pam_conv(3): the array of responses has a response for each message, that for a question is the answer to it. *)
Fixpoint responses_for (ms : list pmsg) (answers : list bytes) (resp : list (option bytes)) : Prop :=
  match ms, resp with
  | [], [] => True
  | m :: ms', x :: resp' =>
      if asks m then match answers with a :: as' => x = Some a /\ responses_for ms' as' resp' | [] => False end
      else responses_for ms' answers resp'
  | _, _ => False
  end.

(** What a PAM stack returns when it is run, with the rounds of the client: each conversation gets a code and responses. *)
Inductive gives (secs : Z) : pam -> list round -> Z -> list round -> Prop :=
| gives_ret c rs : gives secs (PRet c) rs c rs
| gives_conv ms k r rs c rs2 :
    gives secs (k (c_code (conv secs ms r)) (c_resp (conv secs ms r))) rs c rs2 -> gives secs (PConv ms k) (r :: rs) c rs2.

(* ------------------------------------------------------------------ *)
(** ** C140: waiting for the answers *)

Lemma left_in_time t0 secs now : 1 <= left_ms (deadline t0 secs) now <-> in_time t0 secs now.
Proof.
  unfold left_ms, deadline, in_time. split; intros H.
  - destruct (Z.le_gt_cases 0 (t0 + secs * 1000000000 - now)) as [P|P].
    + rewrite Z.quot_div_nonneg in H by lia. assert (1000000 * ((t0 + secs * 1000000000 - now) / 1000000) <= t0 + secs * 1000000000 - now) by (apply Z.mul_div_le; lia). lia.
    + exfalso. assert (Z.quot (t0 + secs * 1000000000 - now) 1000000 <= 0); [|lia].
      assert (0 <= Z.quot (- (t0 + secs * 1000000000 - now)) 1000000) by (apply Z.quot_pos; lia). rewrite Z.quot_opp_l in H0 by lia. lia.
  - rewrite Z.quot_div_nonneg by lia. apply Z.div_le_lower_bound; lia.
Qed.
Lemma goes_on t0 secs now : negb (secs =? 0) && (1 <=? left_ms (deadline t0 secs) now) = true <-> secs <> 0 /\ in_time t0 secs now.
Proof. rewrite andb_true_iff, negb_true_iff, Z.eqb_neq, Z.leb_le, left_in_time. reflexivity. Qed.

(** The wait ends with a message exactly if a message comes and, after each turn before it, time was left. *)
Theorem c140_message t0 secs ts :
  wait_answers t0 secs ts = WMsg <->
  exists before t after, ts = before ++ t :: after /\ comes before t /\ forall b, In b before -> secs <> 0 /\ in_time t0 secs (t_now b).
Proof.
  induction ts as [|t r IH]; cbn [wait_answers].
  - split; [discriminate|]. intros (b & x & a & E & _). destruct b; discriminate.
  - destruct (t_conn t) eqn:C; cbn [negb].
    2:{ split; [discriminate|]. intros ([|b0 b] & x & a & [= -> E] & (Q & C1 & M1) & _); [congruence|]. inversion Q as [|? ? [C2 _] _]. congruence. }
    destruct (t_msg t) eqn:M.
    { split; [|reflexivity]. intros _. exists [], t, r. repeat split; auto; destruct H. }
    destruct (negb (secs =? 0) && (1 <=? left_ms (deadline t0 secs) (t_now t))) eqn:G.
    + apply goes_on in G. rewrite IH. split.
      * intros (b & x & a & -> & (Q & C1 & M1) & T). exists (t :: b), x, a. split; [reflexivity|]. split; [split; [constructor; [split; auto|exact Q]|auto]|].
        intros y [<-|I]; auto.
      * intros ([|b0 b] & x & a & [= -> E] & (Q & C1 & M1) & T); [congruence|]. exists b, x, a. split; [exact E|].
        inversion Q; subst. split; [split; auto|]. intros y I. apply T. now right.
    + split; [discriminate|]. intros ([|b0 b] & x & a & [= -> E] & (Q & C1 & M1) & T); [congruence|].
      assert (secs <> 0 /\ in_time t0 secs (t_now b0)) as X by (apply T; now left). apply goes_on in X. congruence.
Qed.
(** With a timeout, the client that answers before it is over is heard. *)
Theorem c140_heard_partial t0 secs before t after : secs <> 0 -> comes before t -> (forall b, In b before -> in_time t0 secs (t_now b)) ->
  wait_answers t0 secs (before ++ t :: after) = WMsg.
Proof. intros S C T. apply c140_message. exists before, t, after. repeat split; auto; apply C. Qed.
(** It is given up only if the connection is lost, or if the time is over. *)
Theorem c140_given_up_partial t0 secs ts : secs <> 0 ->
  (wait_answers t0 secs ts = WTimeout -> exists before t after, ts = before ++ t :: after /\ Forall quiet before /\ quiet t /\ ~ in_time t0 secs (t_now t)) /\
  (wait_answers t0 secs ts = WLost -> exists before t after, ts = before ++ t :: after /\ Forall quiet before /\ t_conn t = false).
Proof.
  intros S. induction ts as [|t r IH]; cbn [wait_answers]; [split; discriminate|].
  destruct (t_conn t) eqn:C; cbn [negb]. 2:{ split; [discriminate|]. intros _. now exists [], t, r. }
  destruct (t_msg t) eqn:M; [split; discriminate|].
  destruct (negb (secs =? 0) && (1 <=? left_ms (deadline t0 secs) (t_now t))) eqn:G.
  - destruct IH as [I1 I2]. split; intros H.
    + destruct (I1 H) as (b & x & a & -> & Q & Q2 & N). exists (t :: b), x, a. split; [reflexivity|]. split; [constructor; [split; auto|exact Q]|auto].
    + destruct (I2 H) as (b & x & a & -> & Q & N). exists (t :: b), x, a. split; [reflexivity|]. split; [constructor; [split; auto|exact Q]|auto].
  - split; [|discriminate]. intros _. exists [], t, r. split; [reflexivity|]. split; [constructor|]. split; [split; auto|].
    intros X. assert (negb (secs =? 0) && (1 <=? left_ms (deadline t0 secs) (t_now t)) = true) by (apply goes_on; auto). congruence.
Qed.
(** The timeout 0, which is no limit to authentication otherwise ([c145_no_limit]), ends the wait after the first turn. *)
Theorem c140_zero_refuted :
  (forall t0 t r, quiet t -> wait_answers t0 0 (t :: r) = WTimeout) /\
  ~ (forall t0 secs before t after, comes before t -> (forall b, In b before -> secs = 0 \/ in_time t0 secs (t_now b)) ->
       wait_answers t0 secs (before ++ t :: after) = WMsg).
Proof.
  split.
  - intros t0 t r [C M]. cbn. now rewrite C, M.
  - intros H. specialize (H 0 0 [mkT true false 100000] (mkT true true 200000) []). cbn in H. discriminate H.
    + repeat split. constructor; [split; reflexivity|constructor].
    + auto.
Qed.
Example c140_case : wait_answers 0 30 [mkT true false 100000; mkT true false 29000000000; mkT true true 29500000000] = WMsg /\
  wait_answers 0 30 [mkT true false 100000; mkT true false 29999500000; mkT true true 30000000000] = WTimeout.
Proof. split; vm_compute; reflexivity. Qed.

Lemma get_answers_spec secs r a : get_answers secs r = Some a <-> r_sent r = false /\ get_answers secs r = Some a \/ answered secs r a.
Proof.
  split.
  - intros H. destruct (r_sent r) eqn:S; [|now left]. right. unfold get_answers in H.
    destruct (wait_answers (r_start r) secs (r_turns r)) eqn:W; try discriminate. apply c140_message in W as (b & t & x & E & C & T).
    exact (answered_intro secs r b t x a S E C T H).
  - intros [[_ H]|H]; [exact H|]. destruct H as [b t x a S E C T A]. unfold get_answers.
    assert (wait_answers (r_start r) secs (r_turns r) = WMsg) as -> by (apply c140_message; eauto 6). exact A.
Qed.
Lemma answered_iff secs r a : answered secs r a <-> r_sent r = true /\ get_answers secs r = Some a.
Proof.
  split.
  - intros H. split; [now destruct H|]. apply get_answers_spec. now right.
  - intros [S H]. apply get_answers_spec in H as [[F _]|H]; [congruence|exact H].
Qed.

(* ------------------------------------------------------------------ *)
(** ** The conversation *)

Lemma prompt_asks m : prompt m = asks m.
Proof. unfold prompt, asks. destruct (m_style m) as [|[[p|p|]|[p|p|]|]|p]; reflexivity. Qed.
Lemma shown_questions ms : combine (prompts ms) (echoes ms) = questions ms.
Proof.
  unfold prompts, questions. induction ms as [|m r IH]; [reflexivity|]. cbn [filter echoes]. rewrite prompt_asks.
  assert ((m_style m = 2 /\ asks m = true /\ visible m = true) \/ (m_style m = 1 /\ asks m = true /\ visible m = false) \/
          (m_style m <> 1 /\ m_style m <> 2 /\ asks m = false)) as [(S & A & V)|[(S & A & V)|(S1 & S2 & A)]].
  { unfold asks, visible. destruct (m_style m) as [|[[p|p|]|[p|p|]|]|p]; auto; right; right; repeat split; discriminate. }
  - rewrite A, S. change (2 =? 2) with true. cbn [map combine]. now rewrite IH, V.
  - rewrite A, S. change (1 =? 2) with false. change (1 =? 1) with true. cbn [map combine]. now rewrite IH, V.
  - rewrite A. apply Z.eqb_neq in S1, S2. rewrite S1, S2. exact IH.
Qed.
Lemma count_spec ms : forall n, Forall (fun m => asks m = true \/ info m) ms -> count_requests ms n = Some (n - Z.of_nat (length ms) + Z.of_nat (length (filter asks ms))).
Proof.
  induction ms as [|m r IH]; intros n F; cbn [count_requests filter length]; [f_equal; lia|]. inversion F as [|? ? H F']; subst.
  destruct H as [H|H].
  - rewrite H. assert (m_style m =? 3 = false /\ m_style m =? 4 = false) as [-> ->].
    { unfold asks in H. destruct (m_style m) as [|[[p|p|]|[p|p|]|]|p]; try discriminate; split; reflexivity. }
    rewrite (IH _ F'). f_equal. cbn [length]. lia.
  - assert (asks m = false) as -> by (unfold asks; now rewrite H). rewrite H. change (4 =? 3) with false. change (4 =? 4) with true. cbn iota.
    rewrite (IH _ F'). f_equal. lia.
Qed.
Lemma count_none ms : forall n, forallb valid_style ms = true -> ~ Forall (fun m => asks m = true \/ info m) ms -> count_requests ms n = None.
Proof.
  induction ms as [|m r IH]; intros n V F; [exfalso; apply F; constructor|]. cbn [forallb count_requests] in *. apply andb_prop in V as [V1 V2].
  destruct (m_style m =? 3) eqn:E; [reflexivity|]. apply IH; [exact V2|]. intros F'. apply F. constructor; [|exact F'].
  unfold valid_style, asks, info in *. destruct (m_style m) as [|[[p|p|]|[[p|p|]|[p|p|]|]|]|p]; auto; discriminate.
Qed.
Lemma forall_valid ms : Forall (fun m => asks m = true \/ info m) ms -> forallb valid_style ms = true.
Proof.
  induction 1 as [|m r H F IH]; [reflexivity|]. cbn. rewrite IH, andb_true_r. unfold valid_style. destruct H as [H|H].
  - unfold asks in H. destruct (m_style m) as [|[[p|p|]|[p|p|]|]|p]; auto; discriminate.
  - now rewrite H.
Qed.
Lemma acceptable_dec ms : {acceptable ms} + {~ acceptable ms}.
Proof.
  unfold acceptable. destruct (lt_dec 0 (length ms)) as [L1|L1]; [|right; lia]. destruct (lt_dec (length ms) 32) as [L2|L2]; [|right; lia].
  destruct (Forall_dec (fun m => asks m = true \/ info m)) with (l := ms) as [F|F]; [|left; auto|right; tauto].
  intros m. unfold info. destruct (asks m); [left; auto|]. destruct (Z.eq_dec (m_style m) 4); [left; auto|right; intros [H|H]; [discriminate|auto]].
Defined.
Lemma conv_bad secs ms r : ~ acceptable ms -> conv secs ms r = mkC PAM_CONV_ERR None None.
Proof.
  intros N. unfold conv. destruct (Z.leb_spec (Z.of_nat (length ms)) 0); [reflexivity|]. destruct (Z.leb_spec 32 (Z.of_nat (length ms))); [reflexivity|].
  cbn [orb]. destruct (forallb valid_style ms) eqn:V; [|reflexivity]. cbn [negb]. rewrite count_none; [reflexivity|exact V|].
  intros F. apply N. split; [lia|exact F].
Qed.
Lemma conv_good secs ms r : acceptable ms ->
  conv secs ms r =
    match filter asks ms with
    | [] => mkC PAM_SUCCESS None None
    | _ =>
      let arr := repeat None (length (filter asks ms)) in
      if negb (r_sent r) then mkC PAM_CONV_ERR (Some arr) None
      else match get_answers secs r with
           | None => mkC PAM_CONV_ERR (Some arr) (Some (questions ms))
           | Some a => if Nat.eqb (length a) (length (filter asks ms)) then mkC PAM_SUCCESS (Some (map Some a)) (Some (questions ms))
                       else mkC PAM_CONV_ERR (Some arr) (Some (questions ms))
           end
    end.
Proof.
  intros [L F]. unfold conv. rewrite (proj2 (Z.leb_gt _ _)) by lia. rewrite (proj2 (Z.leb_gt 32 _)) by lia. cbn [orb].
  rewrite (forall_valid _ F). cbn [negb]. rewrite (count_spec _ _ F), shown_questions.
  replace (Z.of_nat (length ms) - Z.of_nat (length ms) + Z.of_nat (length (filter asks ms))) with (Z.of_nat (length (filter asks ms))) by lia.
  rewrite Nat2Z.id. destruct (filter asks ms) as [|q qs] eqn:E; [reflexivity|].
  assert (Z.of_nat (length (q :: qs)) <=? 0 = false) as -> by (apply Z.leb_gt; cbn [length]; lia).
  destruct (r_sent r); [|reflexivity]. cbn [negb]. destruct (get_answers secs r) as [a|]; [|reflexivity].
  assert (forall x y, (Z.of_nat x =? Z.of_nat y) = Nat.eqb x y) as -> ; [|reflexivity].
  intros x y. destruct (Nat.eqb_spec x y); [subst; apply Z.eqb_refl|]. apply Z.eqb_neq. lia.
Qed.

(** *** C141: what the user sees *)
(** What is sent to the client are the questions of the modules in their order; the answer to a question is echoed only if the
    module allows it, and nothing else is sent. *)
Theorem c141_questions secs ms r l : c_shown (conv secs ms r) = Some l ->
  l = questions ms /\ l <> [] /\ (forall m, In m ms -> m_style m = 1 -> In (m_text m, false) l) /\
  (forall q e, In (q, e) l -> exists m, In m ms /\ m_text m = q /\ (e = true -> m_style m = 2) /\ (e = false -> m_style m = 1)).
Proof.
  destruct (acceptable_dec ms) as [A|A]; [|now rewrite conv_bad by exact A]. rewrite (conv_good _ _ _ A). intros H.
  assert (l = questions ms /\ filter asks ms <> []) as [-> NE].
  { destruct (filter asks ms); [discriminate|]. cbv zeta in H. destruct (r_sent r); [|discriminate]. cbn [negb] in H.
    destruct (get_answers secs r) as [a|]; [destruct (Nat.eqb _ _)|]; cbn in H; split; congruence. }
  split; [reflexivity|]. unfold questions. split; [destruct (filter asks ms); [congruence|discriminate]|]. split.
  - intros m I E. apply in_map_iff. exists m. unfold visible. rewrite E. split; [reflexivity|]. apply filter_In. split; [exact I|]. unfold asks. now rewrite E.
  - intros q e I. apply in_map_iff in I as (m & [= <- <-] & I). apply filter_In in I as [I Q]. exists m. split; [exact I|]. split; [reflexivity|].
    unfold asks, visible in *. destruct (m_style m) as [|[[p|p|]|[p|p|]|]|p]; try discriminate; split; intros; congruence.
Qed.
Example c141_case : c_shown (conv 30 [mkM 4 (bs "Hello"); mkM 2 (bs "Name:"); mkM 1 (bs "Password:")] (mkR true 0 [mkT true true 1] (Some [bs "a"; bs "b"]))) =
  Some [(bs "Name:", true); (bs "Password:", false)].
Proof. vm_compute. reflexivity. Qed.

(** *** C142: the responses *)
(** The conversation succeeds exactly if the messages are acceptable and, if there are questions, the client answered as
    many; then the responses are the answers in the order of the questions. *)
Theorem c142_success secs ms r :
  c_code (conv secs ms r) = PAM_SUCCESS <->
  acceptable ms /\ (filter asks ms = [] \/ exists a, answered secs r a /\ length a = length (filter asks ms)).
Proof.
  destruct (acceptable_dec ms) as [A|A]; [|rewrite conv_bad by exact A; split; [discriminate|tauto]]. rewrite (conv_good _ _ _ A).
  destruct (filter asks ms) as [|q qs]; [cbn; tauto|]. cbv zeta. destruct (r_sent r) eqn:S; cbn [negb].
  - destruct (get_answers secs r) as [a|] eqn:G.
    + destruct (Nat.eqb_spec (length a) (length (q :: qs))) as [E|E]; cbn [c_code].
      * split; [|reflexivity]. intros _. split; [exact A|]. right. exists a. split; [now apply answered_iff|exact E].
      * split; [discriminate|]. intros (_ & [H|(a' & H & H2)]); [discriminate|]. apply answered_iff in H as [_ H]. congruence.
    + split; [discriminate|]. intros (_ & [H|(a' & H & H2)]); [discriminate|]. apply answered_iff in H as [_ H]. congruence.
  - split; [discriminate|]. intros (_ & [H|(a' & H & H2)]); [discriminate|]. apply answered_iff in H as [H _]. congruence.
Qed.
(** A conversation that fails gives no answer to the module. *)
Theorem c142_failed secs ms r resp : c_code (conv secs ms r) <> PAM_SUCCESS -> c_resp (conv secs ms r) = Some resp -> Forall (eq None) resp.
Proof.
  destruct (acceptable_dec ms) as [A|A]; [|rewrite conv_bad by exact A; discriminate]. rewrite (conv_good _ _ _ A).
  assert (forall n, Forall (eq None) (repeat (@None bytes) n)) as R by (induction n; constructor; auto).
  destruct (filter asks ms) as [|q qs]; [discriminate|]. cbv zeta. destruct (r_sent r); cbn [negb].
  - destruct (get_answers secs r) as [a|]; [destruct (Nat.eqb _ _)|]; cbn [c_code c_resp]; intros H; try congruence; intros [= <-]; apply (R (length (q :: qs))).
  - intros _ [= <-]. apply (R (length (q :: qs))).
Qed.
(** The responses are as PAM wants them if the messages are all questions. *)
Theorem c142_responses_partial secs ms r : c_code (conv secs ms r) = PAM_SUCCESS -> Forall (fun m => asks m = true) ms ->
  exists a resp, answered secs r a /\ c_resp (conv secs ms r) = Some resp /\ responses_for ms a resp.
Proof.
  intros C F. apply c142_success in C as C'. destruct C' as [A H]. rewrite (conv_good _ _ _ A) in *.
  assert (filter asks ms = ms) as FA.
  { clear - F. induction F as [|m r' H F IH]; [reflexivity|]. cbn. now rewrite H, IH. }
  rewrite FA in *. destruct ms as [|m ms]; [destruct A; cbn in *; lia|]. destruct H as [H|(a & AN & L)]; [discriminate|].
  exists a, (map Some a). split; [exact AN|]. apply answered_iff in AN as [S G]. cbv zeta in *. rewrite S, G in *. cbn [negb] in *. rewrite L, Nat.eqb_refl in *.
  split; [reflexivity|]. clear - F L. revert a L. induction F as [|x l H F IH]; intros [|b a] L; try discriminate; [exact Logic.I|].
  cbn [map responses_for]. rewrite H. split; [reflexivity|]. apply IH. cbn in L. congruence.
Qed.
(** With an information before a question the response is at the wrong place, and the module reads after the array. *)
Theorem c142_responses_refuted :
  ~ (forall secs ms r, c_code (conv secs ms r) = PAM_SUCCESS -> filter asks ms <> [] ->
       exists a resp, answered secs r a /\ c_resp (conv secs ms r) = Some resp /\ responses_for ms a resp) /\
  exists secs ms r resp i m, c_code (conv secs ms r) = PAM_SUCCESS /\ c_resp (conv secs ms r) = Some resp /\
    nth_error ms i = Some m /\ asks m = true /\ nth_error resp i = None.
Proof.
  split.
  - intros H. destruct (H 30 [mkM 4 (bs "Hello"); mkM 1 (bs "Password:")] (mkR true 0 [mkT true true 1] (Some [bs "pw"]))) as (a & resp & _ & R & F).
    + vm_compute. reflexivity.
    + vm_compute. discriminate.
    + vm_compute in R. injection R as <-. exact F.
  - exists 30, [mkM 4 (bs "Hello"); mkM 1 (bs "Password:")], (mkR true 0 [mkT true true 1] (Some [bs "pw"])), [Some (bs "pw")], 1%nat, (mkM 1 (bs "Password:")).
    repeat split; vm_compute; reflexivity.
Qed.
Example c142_case : responses_for [mkM 2 (bs "Name:"); mkM 1 (bs "Password:")] [bs "a"; bs "b"] [Some (bs "a"); Some (bs "b")] /\
  c_resp (conv 30 [mkM 2 (bs "Name:"); mkM 1 (bs "Password:")] (mkR true 0 [mkT true false 1; mkT true true 2] (Some [bs "a"; bs "b"]))) = Some [Some (bs "a"); Some (bs "b")].
Proof. split; [cbn; auto|vm_compute; reflexivity]. Qed.

(* ------------------------------------------------------------------ *)
(** ** C143: PAM decides *)

Lemma exec_gives secs p : forall rs c rs2, (exists tr, exec secs p rs = Some (c, rs2, tr)) <-> gives secs p rs c rs2.
Proof.
  induction p as [c0|ms k IH]; intros rs c rs2; cbn [exec].
  - split; [intros (tr & [= <- <- _]); constructor|]. intros H. inversion H; subst. eauto.
  - destruct rs as [|r rs]; [split; [intros (tr & [=])|intros H; inversion H]|]. cbv zeta. split.
    + intros (tr & H). destruct (exec secs (k _ _) rs) as [[[c1 rs1] t]|] eqn:E; [|discriminate]. injection H as <- <- _.
      constructor. apply IH. eauto.
    + intros H. inversion H as [|? ? ? ? ? ? G]; subst. apply IH in G as (tr & ->). eauto.
Qed.
Lemma gives_fun secs p rs c rs2 c' rs2' : gives secs p rs c rs2 -> gives secs p rs c' rs2' -> c = c' /\ rs2 = rs2'.
Proof. intros H1 H2. apply exec_gives in H1 as (t1 & H1), H2 as (t2 & H2). rewrite H1 in H2. injection H2. auto. Qed.
Lemma exec_talk secs p : forall rs c rs2 tr, exec secs p rs = Some (c, rs2, tr) -> Forall (fun x => exists ms o, x = CTalk ms o) tr.
Proof.
  induction p as [c0|ms k IH]; intros rs c rs2 tr; cbn [exec]; [intros [= _ _ <-]; constructor|].
  destruct rs as [|r rs]; [discriminate|]. cbv zeta. destruct (exec secs (k _ _) rs) as [[[c1 rs1] t]|] eqn:E; [|discriminate].
  intros [= _ _ <-]. constructor; [eauto|]. exact (IH _ _ _ _ _ _ E).
Qed.

(** The user is authenticated exactly if PAM is configured and can be used, its modules say that the user, by the answers
    given, is who they claim to be, and that the account may be used, or that its token has expired and was changed. *)
Definition pam_agrees (secs : Z) (y : system) (rs : list round) : Prop :=
  y_conf y = true /\ y_start y = PAM_SUCCESS /\
  exists rs1, gives secs (y_auth y) rs PAM_SUCCESS rs1 /\
    ((exists rs2, gives secs (y_acct y) rs1 PAM_SUCCESS rs2) \/
     (exists rs2 rs3, gives secs (y_acct y) rs1 PAM_NEW_AUTHTOK_REQD rs2 /\ gives secs (y_chtok y) rs2 PAM_SUCCESS rs3)).
Theorem c143_decision secs y rs : (exists rs' tr, auth_pam secs y rs = Some (0, rs', tr)) <-> pam_agrees secs y rs.
Proof.
  unfold pam_agrees, auth_pam, fin. destruct (y_conf y); cbn [negb]; [|split; [intros (? & ? & [=])|intros ([=] & _)]].
  destruct (Z.eqb_spec (y_start y) PAM_SUCCESS) as [S|S]; cbn [negb].
  2:{ split; [intros (rs' & tr & H); injection H as H _ _; contradiction|intros (_ & H & _); contradiction]. }
  split.
  - intros (rs' & tr & H). split; [reflexivity|]. split; [exact S|].
    destruct (exec secs (y_auth y) rs) as [[[c1 rs1] t1]|] eqn:E1; [|discriminate].
    destruct (Z.eqb_spec c1 PAM_SUCCESS) as [->|N]; cbn [negb] in H; [|injection H as H _ _; contradiction].
    exists rs1. split; [apply exec_gives; eauto|]. destruct (exec secs (y_acct y) rs1) as [[[c2 rs2] t2]|] eqn:E2; [|discriminate].
    destruct (Z.eqb_spec c2 PAM_SUCCESS) as [->|N2]; cbn [negb andb] in H.
    + left. exists rs2. apply exec_gives. eauto.
    + destruct (Z.eqb_spec c2 PAM_NEW_AUTHTOK_REQD) as [->|N3]; cbn [negb andb] in H; [|injection H as H _ _; contradiction].
      destruct (exec secs (y_chtok y) rs2) as [[[c3 rs3] t3]|] eqn:E3; [|discriminate]. injection H as -> _ _.
      right. exists rs2, rs3. split; apply exec_gives; eauto.
  - intros (_ & _ & rs1 & G1 & H). apply exec_gives in G1 as (t1 & ->). rewrite Z.eqb_refl. cbn [negb].
    destruct H as [(rs2 & G2)|(rs2 & rs3 & G2 & G3)].
    + apply exec_gives in G2 as (t2 & ->). cbn. eauto.
    + apply exec_gives in G2 as (t2 & ->). apply exec_gives in G3 as (t3 & ->). cbn. eauto.
Qed.
(** PAM is closed at the end, once, exactly if it was opened; the account is checked only for a user who was authenticated, and
    a token is changed only if the account asks for it. *)
Definition is_call (a b : call) : bool :=
  match a, b with CStart, CStart | CAuth, CAuth | CAcct, CAcct | CChtok, CChtok | CEnd, CEnd => true | _, _ => false end.
Definition calls (tr : list call) : list call := filter (fun x => match x with CTalk _ _ => false | _ => true end) tr.
Lemma calls_talk t : Forall (fun x => exists ms o, x = CTalk ms o) t -> calls t = [].
Proof. induction 1 as [|x t (ms & o & ->) F IH]; [reflexivity|exact IH]. Qed.
Lemma calls_app a b : calls (a ++ b) = calls a ++ calls b.
Proof. apply filter_app. Qed.
Theorem c143_calls secs y rs c rs' tr : auth_pam secs y rs = Some (c, rs', tr) ->
  let e := if y_handle y then [CEnd] else [] in
  y_conf y = false /\ calls tr = [] \/ y_start y <> PAM_SUCCESS /\ calls tr = [CStart] ++ e \/
  (exists c1 rs1, gives secs (y_auth y) rs c1 rs1 /\
     (c1 <> PAM_SUCCESS /\ calls tr = [CStart; CAuth] ++ e \/
      c1 = PAM_SUCCESS /\ exists c2 rs2, gives secs (y_acct y) rs1 c2 rs2 /\
        (c2 <> PAM_NEW_AUTHTOK_REQD /\ calls tr = [CStart; CAuth; CAcct] ++ e \/
         c2 = PAM_NEW_AUTHTOK_REQD /\ calls tr = [CStart; CAuth; CAcct; CChtok] ++ e))).
Proof.
  cbv zeta. unfold auth_pam, fin. assert (calls (if y_handle y then [CEnd] else []) = if y_handle y then [CEnd] else []) as CE by now destruct (y_handle y).
  destruct (y_conf y); cbn [negb]; [|intros [= _ _ <-]; now left].
  destruct (Z.eqb_spec (y_start y) PAM_SUCCESS) as [S|S]; cbn [negb]; [|intros [= _ _ <-]; right; left; split; [exact S|]; now destruct (y_handle y)].
  destruct (exec secs (y_auth y) rs) as [[[c1 rs1] t1]|] eqn:E1; [|discriminate]. apply exec_talk in E1 as T1. apply calls_talk in T1.
  intros H. right. right. exists c1, rs1. split; [apply exec_gives; eauto|].
  destruct (Z.eqb_spec c1 PAM_SUCCESS) as [N|N]; cbn [negb] in H.
  2:{ left. injection H as _ _ <-. split; [exact N|]. cbn [app calls filter]. fold (calls (t1 ++ (if y_handle y then [CEnd] else []))). now rewrite calls_app, T1, CE. }
  right. split; [exact N|]. destruct (exec secs (y_acct y) rs1) as [[[c2 rs2] t2]|] eqn:E2; [|discriminate]. apply exec_talk in E2 as T2. apply calls_talk in T2.
  exists c2, rs2. split; [apply exec_gives; eauto|].
  assert (calls ((CStart :: CAuth :: t1) ++ CAcct :: t2) = [CStart; CAuth; CAcct]) as C2.
  { rewrite calls_app. cbn [calls filter app]. fold (calls t1) (calls t2). now rewrite T1, T2. }
  destruct (Z.eqb_spec c2 PAM_NEW_AUTHTOK_REQD) as [R|R]; [|].
  - right. split; [exact R|]. destruct (Z.eqb_spec c2 PAM_SUCCESS) as [X|X]; [unfold PAM_SUCCESS, PAM_NEW_AUTHTOK_REQD in *; lia|]. cbn [negb andb] in H.
    destruct (exec secs (y_chtok y) rs2) as [[[c3 rs3] t3]|] eqn:E3; [|discriminate]. apply exec_talk in E3 as T3. apply calls_talk in T3.
    match type of H with Some (_, _, ?X) = _ => assert (tr = X) as -> by congruence end.
    rewrite calls_app, CE, (calls_app (_ ++ _)), C2. cbn [calls filter app]. fold (calls t3). now rewrite T3.
  - left. split; [exact R|]. destruct (Z.eqb_spec c2 PAM_SUCCESS) as [X|X]; cbn [negb andb] in H;
      match type of H with Some (_, _, ?X) = _ => assert (tr = X) as -> by congruence end; rewrite calls_app, CE, C2; reflexivity.
Qed.
(** A module that asks for a password and accepts only the right one. *)
Definition ask_pw : pam := PConv [mkM 1 (bs "Password:")] (fun c resp =>
  match resp with Some [Some p] => PRet (if (c =? 0) && beqb p (bs "secret") then 0 else 7) | _ => PRet 7 end).
Definition sys1 : system := mkSys true 0 true ask_pw (PRet 0) (PRet 0).
Example c143_case : exists rs' tr rs2 tr2,
  auth_pam 30 sys1 [mkR true 0 [mkT true true 1] (Some [bs "secret"])] = Some (0, rs', tr) /\ calls tr = [CStart; CAuth; CAcct; CEnd] /\
  auth_pam 30 sys1 [mkR true 0 [mkT true true 1] (Some [bs "guess"])] = Some (7, rs2, tr2) /\ calls tr2 = [CStart; CAuth; CEnd].
Proof. repeat eexists; vm_compute; reflexivity. Qed.

(* ------------------------------------------------------------------ *)
(** ** C144: the passwords of the system *)

(** Without PAM: the user is authenticated exactly if the system has a usable password for them and the client gave one
    answer, in time, that is this password; the question is asked without echo. *)
Theorem c144_system crypt secs user today entry r :
  (fst (auth_system crypt secs user (get_pwd_hash today entry) r) = true <->
   exists h p, usable today entry h /\ answered secs r [p] /\ matches crypt h p) /\
  (forall l, snd (auth_system crypt secs user (get_pwd_hash today entry) r) = Some l -> l = [(user ++ bs "'s password:", false)]).
Proof.
  unfold auth_system. split.
  - destruct (get_pwd_hash today entry) as [h|] eqn:P.
    + apply c32_system_password in P. destruct (r_sent r) eqn:S; cbn [negb].
      * destruct (get_answers secs r) as [[|a [|b l]]|] eqn:G; cbn [fst].
        -- split; [discriminate|]. intros (h' & p & _ & A & _). apply answered_iff in A as [_ A]. congruence.
        -- rewrite c32_password. split.
           ++ intros (p & [= <-] & M). exists h, a. split; [exact P|]. split; [now apply answered_iff|exact M].
           ++ intros (h' & p & U & A & M). apply answered_iff in A as [_ A]. rewrite G in A. injection A as <-. exists a. split; [reflexivity|].
              apply c32_system_password in U, P. congruence.
        -- split; [discriminate|]. intros (h' & p & _ & A & _). apply answered_iff in A as [_ A]. congruence.
        -- split; [discriminate|]. intros (h' & p & _ & A & _). apply answered_iff in A as [_ A]. congruence.
      * split; [discriminate|]. intros (h' & p & _ & A & _). apply answered_iff in A as [A _]. congruence.
    + split; [discriminate|]. intros (h' & p & U & _). apply c32_system_password in U. congruence.
  - destruct (get_pwd_hash today entry) as [h|]; [|discriminate]. destruct (r_sent r); cbn [negb]; [|discriminate]. intros l.
    destruct (get_answers secs r) as [[|a [|b l']]|]; intros [= <-]; reflexivity.
Qed.
Example c144_case : auth_system (fun _ _ => None) 30 (bs "bob") (Some (bs "$0$pw")) (mkR true 0 [mkT true true 5] (Some [bs "pw"])) = (true, Some [(bs "bob's password:", false)]).
Proof. vm_compute. reflexivity. Qed.

(* ------------------------------------------------------------------ *)
(** ** C145: the time of an authentication *)

Definition asked_ok (secs : Z) (y : system) (s : step) : bool :=
  match s_msg s with None => false | Some (Quick b) => b | Some (Kbdint rs) => kbdint_ok secs y rs end.
(** A request that succeeds. *)
Definition succeeds (secs : Z) (y : system) (s : step) : Prop :=
  match s_msg s with None => False | Some (Quick b) => b = true | Some (Kbdint rs) => pam_agrees secs y rs end.
Lemma asked_succeeds secs y s : asked_ok secs y s = true <-> succeeds secs y s.
Proof.
  unfold asked_ok, succeeds. destruct (s_msg s) as [[b|rs]|]; [reflexivity| |split; [discriminate|intros []]].
  rewrite <- c143_decision. unfold kbdint_ok. destruct (auth_pam secs y rs) as [[[c rs'] tr]|]; [|split; [discriminate|intros (? & ? & [=])]].
  rewrite Z.eqb_eq. split; [intros ->; eauto|intros (? & ? & [= -> _ _]); reflexivity].
Qed.
Lemma asked_fails secs y s : asked_ok secs y s = false <-> ~ succeeds secs y s.
Proof. rewrite <- asked_succeeds. destruct (asked_ok secs y s); split; congruence. Qed.
Lemma over t0 secs now : negb (secs =? 0) && (left_ms (deadline t0 secs) now <? 1) = true <-> secs <> 0 /\ ~ in_time t0 secs now.
Proof. rewrite andb_true_iff, negb_true_iff, Z.eqb_neq, Z.ltb_lt, <- left_in_time. split; intros [H1 H2]; split; auto; lia. Qed.
(** A client is authenticated exactly by the first request that succeeds, if the connection was up and time was left after
    each turn before; with the timeout 0 there is no limit. *)
Theorem c145_authenticated t0 secs y l :
  auth_loop t0 secs y l = VYes <->
  exists before s after, l = before ++ s :: after /\ s_conn s = true /\ succeeds secs y s /\
    forall b, In b before -> s_conn b = true /\ ~ succeeds secs y b /\ (secs = 0 \/ in_time t0 secs (s_now b)).
Proof.
  enough (auth_loop t0 secs y l = VYes <->
    exists before s after, l = before ++ s :: after /\ s_conn s = true /\ asked_ok secs y s = true /\
      forall b, In b before -> s_conn b = true /\ asked_ok secs y b = false /\ (secs = 0 \/ in_time t0 secs (s_now b))) as H.
  { rewrite H. split; intros (b & s & a & E & C & O & T); exists b, s, a; (split; [exact E|]; split; [exact C|]; split; [now apply asked_succeeds|]);
      intros x I; destruct (T x I) as (T1 & T2 & T3); (split; [exact T1|]; split; [now apply asked_fails|exact T3]). }
  induction l as [|s r IH]; cbn [auth_loop].
  - split; [discriminate|]. intros (b & x & a & E & _). destruct b; discriminate.
  - fold (asked_ok secs y s). destruct (s_conn s) eqn:C; cbn [negb].
    2:{ split; [discriminate|]. intros ([|b0 b] & x & a & [= -> E] & C1 & _ & T); [congruence|]. assert (s_conn b0 = true) by (apply T; now left). congruence. }
    destruct (asked_ok secs y s) eqn:O.
    { split; [|reflexivity]. intros _. exists [], s, r. repeat split; auto; destruct H. }
    destruct (negb (secs =? 0) && (left_ms (deadline t0 secs) (s_now s) <? 1)) eqn:G.
    + apply over in G as [G1 G2]. split; [discriminate|]. intros ([|b0 b] & x & a & [= -> E] & C1 & O1 & T); [congruence|].
      destruct (T b0) as (_ & _ & [X|X]); [now left|congruence|contradiction].
    + rewrite IH. assert (secs = 0 \/ in_time t0 secs (s_now s)) as IT.
      { destruct (Z.eq_dec secs 0) as [Z0|Z0]; [now left|right]. destruct (Z.le_gt_cases (s_now s + 1000000) (t0 + secs * 1000000000)) as [L|L]; [exact L|].
        assert (negb (secs =? 0) && (left_ms (deadline t0 secs) (s_now s) <? 1) = true) by (apply over; split; [exact Z0|unfold in_time; lia]). congruence. }
      split.
      * intros (b & x & a & -> & C1 & O1 & T). exists (s :: b), x, a. repeat split; auto; destruct H as [<-|I]; auto; now apply T.
      * intros ([|b0 b] & x & a & [= -> E] & C1 & O1 & T); [congruence|]. exists b, x, a. repeat split; auto; apply T; now right.
Qed.
(** With a timeout, the loop ends at the first check after it. *)
Theorem c145_ends t0 secs y before s after : secs <> 0 -> ~ in_time t0 secs (s_now s) -> auth_loop t0 secs y (before ++ s :: after) <> VMore.
Proof.
  intros N O. induction before as [|b r IH]; cbn [app auth_loop].
  - destruct (s_conn s); cbn [negb]; [|discriminate]. fold (asked_ok secs y s). destruct (asked_ok secs y s); [discriminate|].
    assert (negb (secs =? 0) && (left_ms (deadline t0 secs) (s_now s) <? 1) = true) as -> by (apply over; auto). discriminate.
  - destruct (s_conn b); cbn [negb]; [|discriminate]. fold (asked_ok secs y b). destruct (asked_ok secs y b); [discriminate|].
    destruct (negb _ && _); [discriminate|exact IH].
Qed.
Theorem c145_no_limit t0 y l : auth_loop t0 0 y l <> VTimeout.
Proof.
  induction l as [|s r IH]; cbn [auth_loop]; [discriminate|]. destruct (s_conn s); cbn [negb]; [|discriminate].
  destruct (match s_msg s with None => false | Some (Quick b) => b | Some (Kbdint rs) => kbdint_ok 0 y rs end); [discriminate|exact IH].
Qed.
(** When something was heard from the client in an exchange: the time of its last turn. *)
Definition heard_at (s : step) : list Z :=
  match s_msg s with Some (Kbdint rs) => flat_map (fun r => match rev (r_turns r) with t :: _ => [t_now t] | [] => [] end) rs | _ => [] end.
(** "The maximum amount of seconds an authentication can go on for" (the YANG module): a client that is authenticated had sent
    everything before that time was over.  Proved for clients without keyboard-interactive exchanges: nothing is
    accepted after the first check that finds the time over. *)
Theorem c145_limit_partial t0 secs y l : secs <> 0 -> auth_loop t0 secs y l = VYes ->
  exists before s after, l = before ++ s :: after /\ succeeds secs y s /\ Forall (fun b => in_time t0 secs (s_now b)) before.
Proof.
  intros N H. apply c145_authenticated in H as (b & s & a & -> & _ & O & T). exists b, s, a. split; [reflexivity|]. split; [exact O|].
  apply Forall_forall. intros x I. destruct (T x I) as (_ & _ & [X|X]); [contradiction|exact X].
Qed.
(** Refuted: each keyboard-interactive exchange has the whole time again, and each of its conversations; the limit can be exceeded
    any number of times. *)
Fixpoint ask_times (n : nat) : pam :=
  match n with O => PRet 0 | S n' => PConv [mkM 1 (bs "Code:")] (fun c _ => if c =? 0 then ask_times n' else PRet 7) end.
Fixpoint slow_rounds (n : nat) (t : Z) : list round :=
  match n with O => [] | S n' => mkR true t [mkT true true (t + 29 * 1000000000)] (Some [bs "x"]) :: slow_rounds n' (t + 29 * 1000000000) end.
Lemma slow_ok n : forall t, gives 30 (ask_times n) (slow_rounds n t) PAM_SUCCESS [].
Proof.
  induction n as [|n IH]; intros t; cbn [ask_times slow_rounds]; [constructor|]. constructor.
  assert (c_code (conv 30 [mkM 1 (bs "Code:")] (mkR true t [mkT true true (t + 29 * 1000000000)] (Some [bs "x"]))) = 0) as E.
  { unfold conv, get_answers. cbn. reflexivity. }
  rewrite E. cbn. apply IH.
Qed.
Lemma slow_heard n : forall t, (0 < n)%nat -> In (t + Z.of_nat n * 29 * 1000000000)
  (flat_map (fun r => match rev (r_turns r) with t :: _ => [t_now t] | [] => [] end) (slow_rounds n t)).
Proof.
  induction n as [|n IH]; intros t L; [lia|]. cbn [slow_rounds flat_map r_turns rev app t_now]. destruct n as [|n].
  - left. lia.
  - right. replace (t + Z.of_nat (S (S n)) * 29 * 1000000000) with ((t + 29 * 1000000000) + Z.of_nat (S n) * 29 * 1000000000) by lia. apply IH. lia.
Qed.
Theorem c145_limit_refuted : forall n : nat, (0 < n)%nat ->
  exists y l s, auth_loop 0 30 y l = VYes /\ In s l /\ In (Z.of_nat n * 29 * 1000000000) (heard_at s).
Proof.
  intros n L. set (s := mkStep true (Some (Kbdint (slow_rounds n 0))) (Z.of_nat n * 29 * 1000000000)).
  exists (mkSys true 0 true (ask_times n) (PRet 0) (PRet 0)), [s], s. split; [|split; [now left|exact (slow_heard n 0 L)]].
  apply c145_authenticated. exists [], s, []. split; [reflexivity|]. split; [reflexivity|]. split; [|easy].
  split; [reflexivity|]. split; [reflexivity|]. exists []. split; [apply slow_ok|]. left. exists []. constructor.
Qed.
Example c145_case : auth_loop 0 30 sys1 [mkStep true (Some (Quick false)) 5; mkStep true None 29000000000; mkStep true (Some (Quick true)) 29100000000] = VYes /\
  auth_loop 0 30 sys1 [mkStep true None 29000000000; mkStep true None 29999900000; mkStep true (Some (Quick true)) 30000000000] = VTimeout.
Proof. split; vm_compute; reflexivity. Qed.

Print Assumptions c140_message.
Print Assumptions c140_heard_partial.
Print Assumptions c140_given_up_partial.
Print Assumptions c140_zero_refuted.
Print Assumptions c141_questions.
Print Assumptions c142_success.
Print Assumptions c142_failed.
Print Assumptions c142_responses_partial.
Print Assumptions c142_responses_refuted.
Print Assumptions c143_decision.
Print Assumptions c143_calls.
Print Assumptions c144_system.
Print Assumptions c145_authenticated.
Print Assumptions c145_ends.
Print Assumptions c145_no_limit.
Print Assumptions c145_limit_partial.
Print Assumptions c145_limit_refuted.
