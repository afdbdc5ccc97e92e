(** C240: the authentication methods an SSH client is offered (ssh_set_auth_methods()). *)
From Coq Require Import Ascii String NArith ZArith Bool Lia List.
From Verif Require Import Bytes CStr SshKeys SshAuth Prop_SshAuth.
Import ListNotations.
Local Open Scope N_scope.

(** ** Specification *)

(** The numbers of libssh: SSH_AUTH_METHOD_NONE 0x01, PASSWORD 0x02, PUBLICKEY 0x04, INTERACTIVE 0x10. *)
Definition number (k : kind) : N := match k with KNone => 0x01 | KPassword => 0x02 | KPubkey => 0x04 | KKbdint => 0x10 end.
Definition offers (st : sst) (k : kind) : Prop := N.land (s_offered st) (number k) <> 0.

Definition passed (tr : trace) (k : kind) : Prop := exists v m, In (v, m) (successes tr) /\ kind_of m k.

(** The claim: a client known and not authenticated yet is offered the methods of its user it has not passed. *)
Definition c240_claim (e : env) (o : sshopts) (st : sst) (tr : trace) (u : bytes) : Prop :=
  s_user st = Some u -> s_authd st = false ->
  (e_local e = Some true -> exists c, configured_user e o u c /\ forall k, offers st k <-> (configured c k /\ ~ passed tr k)) /\
  (e_local e = Some false -> forall k, offers st k <-> k <> KNone).

Definition c240_full : Prop := forall e o ms st tr u, run e o ms fresh = Some (st, tr) -> c240_claim e o st tr u.

(** ** Proof *)

Definition pos (k : kind) : N := match k with KNone => 0 | KPassword => 1 | KPubkey => 2 | KKbdint => 4 end.

Lemma land_number n k : N.land n (number k) <> 0 <-> N.testbit n (pos k) = true.
Proof.
  assert (E : number k = 2 ^ pos k) by (destruct k; reflexivity).
  rewrite E. split; intros H.
  - destruct (N.testbit n (pos k)) eqn:T; [reflexivity|]. exfalso. apply H. apply N.bits_inj. intros i.
    rewrite N.land_spec, N.pow2_bits_eqb, N.bits_0. destruct (N.eqb_spec (pos k) i) as [X|X]; [|apply andb_false_r].
    subst i. rewrite T. reflexivity.
  - intros Z. apply (f_equal (fun x => N.testbit x (pos k))) in Z.
    rewrite N.land_spec, N.pow2_bits_true, N.bits_0, H in Z. discriminate.
Qed.

Lemma bit_pos m k : N.testbit (bit_of m) (pos k) = true <-> kind_of m k.
Proof. destruct m, k; cbn; split; intros H; try reflexivity; try exact Logic.I; try discriminate; contradiction. Qed.

Lemma methods_bits c k : N.testbit (fst (client_methods c)) (pos k) = true <-> configured c k.
Proof.
  unfold client_methods. destruct c as [n s p kb no]. cbn [cl_none cl_kbdint cl_password cl_store].
  assert (X : pubkey_configured s = true <-> configured (mkCl n s p kb no) KPubkey).
  { cbn. destruct s as [[|b ks]|r| |]; cbn; split; intros H; try discriminate; try reflexivity.
    - destruct H as [(b & ks & H)|[(r & H)|H]]; discriminate.
    - left. eauto.
    - right. left. eauto.
    - right. right. reflexivity.
    - destruct H as [(b & ks & H)|[(r & H)|H]]; discriminate. }
  assert (Y : match p with Some _ => true | None => false end = true <-> configured (mkCl n s p kb no) KPassword).
  { cbn. destruct p; split; intros H; try discriminate; try reflexivity; [eauto|destruct H; discriminate]. }
  destruct k; [change (configured _ KNone) with (no = true) | rewrite <- Y | rewrite <- X | change (configured _ KKbdint) with (kb = true)];
    destruct no, kb, p, (pubkey_configured s); cbn; split; intros; auto; discriminate.
Qed.

Definition smask (l : list (bytes * method)) : N := fold_left (fun n x => N.lor n (bit_of (snd x))) l 0.

Lemma smask_snoc l v m : smask (l ++ [(v, m)]) = N.lor (smask l) (bit_of m).
Proof. unfold smask. rewrite fold_left_app. reflexivity. Qed.

Lemma smask_bits l k : N.testbit (smask l) (pos k) = true <-> exists v m, In (v, m) l /\ kind_of m k.
Proof.
  induction l as [|[v m] l IH] using rev_ind.
  - split; [cbn; destruct k; discriminate|]. intros (v & m & [] & _).
  - rewrite smask_snoc, N.lor_spec, orb_true_iff, IH, bit_pos. split.
    + intros [(v' & m' & I & K)|K]; [exists v', m'|exists v, m]; rewrite in_app_iff; cbn [In]; auto.
    + intros (v' & m' & I & K). rewrite in_app_iff in I. cbn [In] in I. destruct I as [I|[I|[]]]; [left; eauto|].
      injection I as <- <-. right. exact K.
Qed.

(** What holds after every message. *)
Record held (e : env) (o : sshopts) (u : bytes) (st : sst) (tr : trace) : Prop := {
  hd_none : s_user st = None -> s_methods st = 0 /\ s_smethods st = 0 /\ successes tr = [];
  hd_user : forall v, s_user st = Some v -> v = u;
  hd_some : s_user st = Some u -> s_authd st = false ->
    s_smethods st = smask (successes tr) /\ s_offered st = N.ldiff (s_methods st) (s_smethods st) /\
    exists l c, e_local e = Some l /\ client_of e o l u c /\
      s_methods st = match c with Some c => fst (client_methods c) | None => 22 end /\ (l = false -> s_mcount st = 1 /\ successes tr = []) }.

Lemma successes_snoc tr m rs : successes (tr ++ [(m, rs)]) =
  successes tr ++ match m with AuthReq u me => if existsb positive rs then [(u, me)] else [] | _ => [] end.
Proof. unfold successes. rewrite flat_map_app. cbn [flat_map fst snd]. rewrite app_nil_r. reflexivity. Qed.

Lemma held_quiet e o u st st' tr m rs : held e o u st tr ->
  s_user st' = s_user st -> s_authd st' = s_authd st -> s_methods st' = s_methods st -> s_smethods st' = s_smethods st ->
  s_mcount st' = s_mcount st -> s_offered st' = s_offered st -> existsb positive rs = false -> held e o u st' (tr ++ [(m, rs)]).
Proof.
  intros [A B C] E1 E2 E3 E4 E5 E6 P.
  assert (Q : successes (tr ++ [(m, rs)]) = successes tr).
  { rewrite successes_snoc. destruct m; rewrite ?P; apply app_nil_r. }
  split; rewrite ?E1, ?E2, ?E3, ?E4, ?E5, ?E6, ?Q; assumption.
Qed.

Lemma auth_user_held e o u l c me st tr : e_local e = Some l -> client_of e o l u c -> held e o u st tr -> s_authd st = false ->
  forall st' rs r, auth_user e u me c st = Done st' rs r ->
    held e o u st' (tr ++ [(AuthReq u me, match r with 0 => rs | _ => rs ++ [RDefault] end)]).
Proof.
  intros EL CO H AU st' rs r. unfold auth_user.
  assert (K : exists st1, (match s_user st with None => Some (set_user st u c) | Some u0 => if streq u u0 then Some st else None end) = Some st1
              /\ s_user st1 = Some u /\ s_authd st1 = false /\ held e o u st1 tr).
  { destruct (s_user st) as [v|] eqn:U.
    - rewrite (hd_user _ _ _ _ _ H v U). unfold streq. assert (X : beqb (u) (u) = true) by (apply beqb_spec; reflexivity).
      rewrite X. exists st. rewrite (hd_user _ _ _ _ _ H v U) in U. auto.
    - eexists. split; [reflexivity|]. destruct (hd_none _ _ _ _ _ H U) as (M & S1 & S2).
      unfold set_user. destruct c as [c|]; cbn [s_user s_authd].
      + split; [reflexivity|]. split; [exact AU|]. split; cbn [s_user s_authd s_methods s_smethods s_mcount s_offered].
        * discriminate.
        * intros v [= <-]. reflexivity.
        * intros _ _. rewrite S1, S2, M. split; [reflexivity|]. rewrite N.ldiff_0_r, N.lor_0_l. split; [reflexivity|].
          exists l, (Some c). refine (conj EL (conj CO (conj eq_refl _))). intros ->. discriminate CO.
      + split; [reflexivity|]. split; [exact AU|]. split; cbn [s_user s_authd s_methods s_smethods s_mcount s_offered].
        * discriminate.
        * intros v [= <-]. reflexivity.
        * intros _ _. rewrite S1, S2. split; [reflexivity|]. split; [reflexivity|].
          exists l, None. refine (conj EL (conj CO (conj eq_refl _))). auto. }
  destruct K as (st1 & -> & U1 & A1 & H1).
  assert (QQ : forall rs st2, existsb positive rs = false -> (st2 = st1 \/ st2 = add_attempt st1) -> held e o u st2 (tr ++ [(AuthReq u me, rs)])).
  { intros rs0 st2 P [-> | ->]; eapply held_quiet; eauto. }
  set (t := match me with MNone => _ | MPassword p => _ | MPubkey k s => _ | MKbdint rc => _ | MUnsupported => _ end).
  assert (RP : forall x, t = Some (TReplied x) -> positive x = false).
  { subst t. intros x. destruct me as [|p|k s|rc|]; [| | | |discriminate].
    - unfold auth_none. destruct c as [c|]; [destruct (cl_none c)|]; intros X; injection X as <- || discriminate X; reflexivity.
    - unfold auth_password. destruct (match c with Some c => cl_password c | None => get_pwd_hash (e_today e) (e_passwd e u) end); [|discriminate].
      destruct (compare_password _ _ _); discriminate.
    - unfold auth_pubkey. destruct (match c with None => _ | Some _ => _ end); try discriminate.
      destruct (compare_key _ _ _ _ _ _) as [[|]| |]; try discriminate. destruct s; try discriminate. intros [= <-]. reflexivity.
    - unfold auth_kbdint. destruct c as [c|]; [destruct (cl_kbdint c)|]; destruct (rc =? 0)%Z; discriminate. }
  destruct t as [[| |x|]|] eqn:T; intros R; try discriminate R.
  - injection R as <- <- <-.
    destruct (hd_some _ _ _ _ _ H1 U1 A1) as (S1 & O1 & l' & c' & L1 & C1 & M1 & F1).
    split; unfold add_success; cbn [s_user s_authd s_methods s_smethods s_mcount s_offered s_scount].
    + rewrite U1. discriminate.
    + intros v. rewrite U1. intros [= <-]. reflexivity.
    + intros _ X. apply orb_false_iff in X. destruct X as [_ X].
      apply negb_false_iff in X. rewrite X. cbn [negb]. rewrite successes_snoc. cbn [existsb positive orb].
      rewrite smask_snoc, S1. split; [reflexivity|]. split; [reflexivity|].
      exists l', c'. refine (conj L1 (conj C1 (conj M1 _))). intros LF. exfalso.
      destruct (F1 LF) as [MC _]. rewrite MC in X. apply N.ltb_lt in X. lia.
  - injection R as <- <- <-. apply QQ; [reflexivity|auto].
  - injection R as <- <- <-. apply QQ; [|auto]. cbn [existsb]. rewrite (RP x eq_refl). reflexivity.
  - injection R as <- <- <-. apply QQ; [reflexivity|auto].
Qed.

Definition answer (rs : list reply) (r : N) : list reply := match r with 0 => rs | _ => rs ++ [RDefault] end.

Lemma msg_held e o u (b : bool) m st tr : (forall v me, m = AuthReq v me -> v = u) -> held e o u st tr ->
  forall st' rs r, ssh_msg e (if b then Some o else None) m st = Done st' rs r -> held e o u st' (tr ++ [(m, answer rs r)]).
Proof.
  intros V H st' rs r.
  assert (Q : forall rs, existsb positive rs = false -> held e o u st (tr ++ [(m, rs)])) by (intros; eapply held_quiet; eauto).
  unfold ssh_msg. destruct (match s_status st with Closing | Invalid => true | _ => false end) eqn:SS.
  { destruct (s_status st); try discriminate SS; intros [= <- <- <-]; apply Q; reflexivity. }
  assert (R : (match m with
      | AuthReq u me =>
          if s_authd st then Done st [RDefault] 0
          else match (if b then Some o else None) with
               | None => Done st [] 1
               | Some opts => match e_local e with None => Done st [] 1 | Some l => ssh_auth e opts l u me st end
               end
      | ChanOpen true got =>
          if s_authd st then
            let '(st', r) := channel_open got st in
            Done st' [match r with Some c => RChan c | None => RDefault end] 0
          else Done st [] 1
      | Subsystem c name mem =>
          if s_authd st then
            match channel_subsystem c name mem st with
            | Some st' => Done st' [RSubsys] 0
            | None => Done st [RDefault] 0
            end
          else Done st [] 1
      | _ => Done st [] 1
      end) = Done st' rs r -> held e o u st' (tr ++ [(m, answer rs r)])).
  2:{ destruct (s_status st); try discriminate SS; exact R. }
  destruct m as [v me|[|] got|c name mem|].
  - rewrite (V v me eq_refl) in *. destruct (s_authd st) eqn:AU; [intros [= <- <- <-]; apply Q; reflexivity|].
    destruct b; [|intros [= <- <- <-]; apply Q; reflexivity].
    destruct (e_local e) as [[|]|] eqn:EL; [| |intros [= <- <- <-]; apply Q; reflexivity]; unfold ssh_auth.
    + destruct (find_client _ e o u) as [c| | |] eqn:FC; [| |intros [= <- <- <-]; apply Q; reflexivity|discriminate].
      * intros A. exact (auth_user_held e o u true (Some c) me st tr EL (ex_intro _ c (conj eq_refl FC)) H AU _ _ _ A).
      * intros [= <- <- <-]. destruct (s_user st) as [w|] eqn:US.
        -- exfalso. pose proof (hd_user _ _ _ _ _ H w US) as ->. destruct (hd_some _ _ _ _ _ H US AU) as (_ & _ & l & c & L & C & _).
           rewrite EL in L. injection L as <-. destruct C as (c' & _ & F). congruence.
        -- destruct (hd_none _ _ _ _ _ H US) as (M & S1 & S2).
           split; cbn [set_offered s_user s_methods s_smethods]; try (rewrite US; discriminate).
           intros _. rewrite successes_snoc. cbn [answer existsb positive orb]. rewrite app_nil_r. auto.
    + intros A. exact (auth_user_held e o u false None me st tr EL eq_refl H AU _ _ _ A).
  - destruct (s_authd st) eqn:AU; [|intros [= <- <- <-]; apply Q; reflexivity].
    unfold channel_open. destruct (s_chan st).
    + intros [= <- <- <-]. apply Q. destruct got; reflexivity.
    + destruct (s_status st), got; intros [= <- <- <-]; try (apply Q; reflexivity);
        (eapply held_quiet; [exact H| | | | | | |]; reflexivity).
  - intros [= <- <- <-]; apply Q; reflexivity.
  - destruct (s_authd st) eqn:AU; [|intros [= <- <- <-]; apply Q; reflexivity].
    unfold channel_subsystem. destruct (negb _); [intros [= <- <- <-]; apply Q; reflexivity|].
    destruct (match s_chan st with Some c0 => c =? c0 | None => false end).
    + destruct (s_made st); [|intros [= <- <- <-]; apply Q; reflexivity].
      destruct (s_status st); [|intros [= <- <- <-]; apply Q; reflexivity..].
      destruct (s_subsys st); intros [= <- <- <-]; [apply Q; reflexivity|].
      eapply held_quiet; [exact H| | | | | | |]; reflexivity.
    + destruct mem; intros [= <- <- <-]; [|apply Q; reflexivity]. eapply held_quiet; [exact H| | | | | | |]; reflexivity.
  - intros [= <- <- <-]; apply Q; reflexivity.
Qed.

Lemma run_held e o u ms : forall st tr0 st' tr, (forall b v me, In (b, AuthReq v me) ms -> v = u) -> held e o u st tr0 ->
  run e o ms st = Some (st', tr) -> held e o u st' (tr0 ++ tr).
Proof.
  induction ms as [|[b m] ms IH]; intros st tr0 st' tr V H; cbn [run].
  - intros [= <- <-]. rewrite app_nil_r. exact H.
  - unfold handle. destruct (ssh_msg e _ m st) as [st1 rs1 r1|] eqn:SM; [|discriminate].
    pose proof (msg_held e o u b m st tr0 (fun v me E => V b v me (or_introl (f_equal (Datatypes.pair b) E))) H _ _ _ SM) as G.
    assert (X : (match r1 with 0 => Done st1 rs1 0 | _ => Done st1 (rs1 ++ [RDefault]) r1 end) = Done st1 (answer rs1 r1) r1) by (destruct r1; reflexivity).
    rewrite X. destruct (run e o ms st1) as [[st2 tr2]|] eqn:R; [|discriminate].
    intros [= <- <-]. change ((m, answer rs1 r1) :: tr2) with ([(m, answer rs1 r1)] ++ tr2). rewrite app_assoc.
    eapply IH; [|exact G|exact R]. intros b' v me I. apply (V b' v me). right. exact I.
Qed.

(** C240, if the client names one user only. *)
Theorem c240_partial e o ms st tr u :
  (forall b v me, In (b, AuthReq v me) ms -> v = u) -> run e o ms fresh = Some (st, tr) -> c240_claim e o st tr u.
Proof.
  intros V R US AU.
  assert (F : held e o u fresh []) by (split; cbn; try discriminate; auto).
  pose proof (run_held e o u ms fresh [] st tr V F R) as H. cbn [app] in H.
  destruct (hd_some _ _ _ _ _ H US AU) as (S1 & O1 & l & c & L & C & M & F1).
  split; intros EL; rewrite EL in L; injection L as <-.
  - destruct C as (c' & -> & FC). exists c'. split; [eapply find_client_known; exact FC|].
    intros k. unfold offers. rewrite land_number, O1, N.ldiff_spec, M, S1, andb_true_iff, methods_bits.
    unfold passed. rewrite negb_true_iff, <- smask_bits. destruct (N.testbit (smask (successes tr)) (pos k)); intuition congruence.
  - cbn in C. subst c. destruct (F1 eq_refl) as [_ E]. intros k. unfold offers. rewrite land_number, O1, S1, E, M.
    destruct k; cbn; split; congruence.
Qed.

(** ** Cases *)

Definition joe : client := mkCl (bs "joe") (SLocal [bs "KEY"]) (Some (bs "$0$secret")) true false.
Definition opts : sshopts := mkOpts [joe] None.

(** joe must pass a password, a key and an exchange; after the password the other two are offered. *)
Example c240_case : exists st,
  run ex_env opts [(true, AuthReq (bs "joe") MNone); (true, AuthReq (bs "joe") (MPassword (Some (bs "secret"))))] fresh
    = Some (st, [(AuthReq (bs "joe") MNone, [RDefault]); (AuthReq (bs "joe") (MPassword (Some (bs "secret"))), [RPartial])])
  /\ s_user st = Some (bs "joe") /\ s_authd st = false /\ offers st KPubkey /\ offers st KKbdint /\ ~ offers st KPassword /\ ~ offers st KNone.
Proof. eexists. split; [vm_compute; reflexivity|]. unfold offers. vm_compute. intuition discriminate. Qed.

(** False in general: after the name of an unknown user joe, who has no key left to show, is offered keys only. *)
Theorem c240_full_refuted : ~ c240_full.
Proof.
  intros F.
  destruct (run ex_env opts [(true, AuthReq (bs "joe") (MPubkey (bs "data") SigValid)); (true, AuthReq (bs "eve") MNone)] fresh) as [[st tr]|] eqn:R;
    [|vm_compute in R; discriminate R].
  specialize (F _ _ _ _ _ (bs "joe") R). vm_compute in R. injection R as <- <-.
  destruct (F eq_refl eq_refl) as [G _]. destruct (G eq_refl) as (c & (o' & Re & I & N) & K).
  specialize (K KPubkey). destruct K as [K _]. destruct K as [_ K].
  - vm_compute. discriminate.
  - apply K. exists (bs "joe"), (MPubkey (bs "data") SigValid). split; [left; reflexivity|exact Logic.I].
Qed.

Print Assumptions c240_partial.
Print Assumptions c240_full_refuted.
