(** C29 (identity), C30 (all methods), C31 (no channel before authentication), and the signature part of C33. *)
From Coq Require Import Ascii String NArith ZArith Bool Lia List.
From Verif Require Import Bytes CStr SshKeys Prop_SshKeys SshAuth.
Import ListNotations.
Local Open Scope N_scope.

(* ------------------------------------------------------------------ *)
(** ** Specification *)

(** A user is configured for an endpoint in it or in one it refers to, directly or not. *)
Inductive reaches (e : env) : sshopts -> sshopts -> Prop :=
| re_self o : reaches e o o
| re_ref o r o' o'' : so_ref o = Some r -> In (r, EpSsh o') (e_endpts e) -> reaches e o' o'' -> reaches e o o''.

Definition configured_user (e : env) (o : sshopts) (u : bytes) (c : client) : Prop :=
  exists o', reaches e o o' /\ In c (so_clients o') /\ cl_name c = u.

Inductive kind := KNone | KPassword | KPubkey | KKbdint.
Definition kind_of (m : method) (k : kind) : Prop :=
  match m, k with
  | MNone, KNone | MPassword _, KPassword | MPubkey _ _, KPubkey | MKbdint _, KKbdint => True
  | _, _ => False
  end.

(** The methods configured for a user. *)
Definition configured (c : client) (k : kind) : Prop :=
  match k with
  | KNone => cl_none c = true
  | KPassword => exists p, cl_password c = Some p
  | KKbdint => cl_kbdint c = true
  | KPubkey => (exists b ks, cl_store c = SLocal (b :: ks)) \/ (exists r, cl_store c = STruststore r) \/ cl_store c = SSystem
  end.

(** The public keys of a user, [None] being a system user. *)
Definition user_keys (e : env) (u : bytes) (c : option client) (keys : list bytes) : Prop :=
  match c with
  | None => e_syskeys e u = POk keys
  | Some c => cl_store c = SLocal keys
              \/ (exists r, cl_store c = STruststore r /\ In (r, keys) (e_truststore e))
              \/ (cl_store c = SSystem /\ e_syskeys e u = POk keys)
  end.

(** What a successful request proves. *)
Definition evidence (e : env) (u : bytes) (c : option client) (m : method) : Prop :=
  match m with
  | MNone => exists c', c = Some c' /\ cl_none c' = true
  | MPassword p => exists stored pw, p = Some pw /\ matches (e_crypt e) stored pw
       /\ match c with Some c => cl_password c = Some stored | None => usable (e_today e) (e_passwd e u) stored end
  | MPubkey k s => s <> SigNone /\ exists keys, user_keys e u c keys /\ keys <> []
       /\ (Forall (well_formed (e_decode e)) keys -> exists b, In b keys /\ denotes bytes (e_decode e) (e_import e) b k)
  | MKbdint rc => rc = 0%Z /\ match c with Some c => cl_kbdint c = true | None => True end
  | MUnsupported => False
  end.

(** What can be observed: the messages with the replies to them. *)
Definition trace := list (smsg * list reply).
Definition positive (r : reply) : bool := match r with RPartial | RSuccess => true | _ => false end.

(** The successful authentication requests. *)
Definition successes (tr : trace) : list (bytes * method) :=
  flat_map (fun x => match fst x with
                     | AuthReq u m => if existsb positive (snd x) then [(u, m)] else []
                     | _ => []
                     end) tr.
Definition authenticated (tr : trace) : Prop := exists m rs, In (m, rs) tr /\ In RSuccess rs.
Definition channel_granted (rs : list reply) : Prop := In RSubsys rs \/ exists c, In (RChan c) rs.

(* ------------------------------------------------------------------ *)
(** ** What one message does *)

Lemma find_client_known fuel e o u c : find_client fuel e o u = FClient c -> configured_user e o u c.
Proof.
  revert o; induction fuel as [|f IH]; intros o; cbn [find_client].
  - destruct (find _ (so_clients o)) as [c'|] eqn:F.
    + intros [= ->]. apply find_some in F. destruct F as [I B]. unfold streq in B. apply beqb_spec in B.
      exists o. split; [constructor|]. auto.
    + destruct (so_ref o); [|discriminate]. destruct (get_referenced_endpt e b) as [[o'|]|]; discriminate.
  - destruct (find _ (so_clients o)) as [c'|] eqn:F.
    + intros [= ->]. apply find_some in F. destruct F as [I B]. unfold streq in B. apply beqb_spec in B.
      exists o. split; [constructor|]. auto.
    + destruct (so_ref o) as [r|] eqn:R; [|discriminate].
      destruct (get_referenced_endpt e r) as [[o'|]|] eqn:G; [|discriminate|discriminate].
      intros H. apply IH in H. destruct H as (o'' & Re & H). exists o''. split; [|exact H].
      unfold get_referenced_endpt in G. destruct (find _ (e_endpts e)) as [[n x]|] eqn:FE; [|discriminate].
      injection G as ->. apply find_some in FE. destruct FE as [I B]. unfold streq in B. cbn [fst] in B.
      apply beqb_spec in B. subst n. exact (re_ref e o r o' o'' R I Re).
Qed.

Lemma compare_key_some key dec imp kc k ks : compare_key key dec imp kc k ks = POk true -> ks <> [].
Proof. destruct ks; [discriminate|discriminate]. Qed.

Lemma tried_evidence e u c m :
  match m with
  | MNone => auth_none c = TOk
  | MPassword p => auth_password e u c p = TOk
  | MPubkey k s => auth_pubkey e u c k s = TOk
  | MKbdint rc => auth_kbdint c rc = TOk
  | MUnsupported => False
  end -> evidence e u c m.
Proof.
  destruct m as [|p|k s|rc|]; cbn [evidence].
  - unfold auth_none. destruct c as [c|]; [|discriminate]. destruct (cl_none c) eqn:E; [|discriminate]. eauto.
  - unfold auth_password.
    destruct (match c with Some c0 => cl_password c0 | None => get_pwd_hash (e_today e) (e_passwd e u) end) as [s|] eqn:S; [|discriminate].
    destruct (compare_password (e_crypt e) s p) eqn:C; [|discriminate]. intros _. apply c32_password in C.
    destruct C as (pw & -> & M). exists s, pw. split; [reflexivity|]. split; [exact M|].
    destruct c; [exact S|]. apply c32_system_password. exact S.
  - unfold auth_pubkey.
    destruct (match c with None => e_syskeys e u | Some c0 => _ end) as [ks| |] eqn:K; [|discriminate|discriminate].
    destruct (compare_key _ _ _ _ _ _) as [[|]| |] eqn:C; [|discriminate|discriminate|discriminate].
    intros S. split; [destruct s; [discriminate|discriminate S|discriminate|discriminate]|].
    exists ks. split; [|split; [exact (compare_key_some _ _ _ _ _ _ C)|]].
    + unfold user_keys. destruct c as [c|]; [|exact K]. destruct (cl_store c) as [l|r| |].
      * injection K as ->. left; reflexivity.
      * unfold ts_ref_get_keys in K. destruct (find _ (e_truststore e)) as [[n l]|] eqn:F; [|discriminate].
        destruct (existsb _ l); [discriminate|]. injection K as ->. apply find_some in F. destruct F as [I B].
        unfold streq in B. cbn [fst] in B. apply beqb_spec in B. subst n. right; left. eauto.
      * right; right. split; [reflexivity|exact K].
      * discriminate.
    + intros W. apply (c33_key_partial bytes (e_decode e) (e_import e) beqb k ks) in C; [exact C| |exact W].
      intros a b. apply beqb_spec.
  - unfold auth_kbdint. destruct (Z.eqb_spec rc 0) as [->|N].
    + destruct c as [c|]; [|auto]. destruct (cl_kbdint c); [auto|discriminate].
    + destruct c as [c|]; [destruct (cl_kbdint c)|]; discriminate.
  - intros [].
Qed.

(** The client found for a user. *)
Definition client_of (e : env) (o : sshopts) (l : bool) (u : bytes) (c : option client) : Prop :=
  if l then exists c', c = Some c' /\ find_client (length (e_endpts e)) e o u = FClient c' else c = None.

Definition needed (c : option client) : N := match c with Some c => snd (client_methods c) | None => 1 end.

(** Nothing about identity, authentication or channels changes. *)
Definition same (a b : sst) : Prop :=
  s_user a = s_user b /\ s_authd a = s_authd b /\ s_subsys a = s_subsys b /\ s_chan a = s_chan b
  /\ s_made a = s_made b /\ s_mcount a = s_mcount b /\ s_scount a = s_scount b.

Definition dull (rs : list reply) : Prop := forall r, In r rs -> r = RDefault \/ r = RPkOk.

Inductive stepcase (e : env) (o : sshopts) (st : sst) : smsg -> sst -> list reply -> Prop :=
| sc_quiet m st' rs : same st st' -> dull rs -> stepcase e o st m st' rs
| sc_first u me st' rs l c :
    s_user st = None -> s_authd st = false -> e_local e = Some l -> client_of e o l u c ->
    same (set_user st u c) st' -> dull rs -> stepcase e o st (AuthReq u me) st' rs
| sc_success u me st' rs l c st1 :
    s_authd st = false -> e_local e = Some l -> client_of e o l u c ->
    (s_user st = None /\ st1 = set_user st u c) \/ (s_user st = Some u /\ st1 = st) ->
    evidence e u c me ->
    st' = add_success st1 (bit_of me) ->
    rs = [if s_scount st' <? s_mcount st' then RPartial else RSuccess] ->
    stepcase e o st (AuthReq u me) st' rs
| sc_channel m st' rs : s_authd st = true -> s_user st' = s_user st -> s_authd st' = true ->
    s_mcount st' = s_mcount st -> s_scount st' = s_scount st ->
    existsb positive rs = false ->
    (forall x, In x (s_made st') -> In x (s_made st) \/ s_user st = None \/ s_user st = Some (fst x)) ->
    (match m with AuthReq _ _ => False | _ => True end) ->
    stepcase e o st m st' rs.

Lemma same_refl st : same st st. Proof. repeat split. Qed.

Lemma auth_cases e o l u me st st' rs ret : s_authd st = false -> e_local e = Some l ->
  ssh_auth e o l u me st = Done st' rs ret ->
  stepcase e o st (AuthReq u me) st' (if ret =? 0 then rs else rs ++ [RDefault]).
Proof.
  intros A L. unfold ssh_auth.
  assert (G : forall c, client_of e o l u c -> auth_user e u me c st = Done st' rs ret ->
              stepcase e o st (AuthReq u me) st' (if ret =? 0 then rs else rs ++ [RDefault])).
  { intros c C. unfold auth_user.
    assert (B : forall st1, (s_user st = None /\ st1 = set_user st u c) \/ (s_user st = Some u /\ st1 = st) ->
      match (match me with
             | MNone => Some (auth_none c)
             | MPassword p => Some (auth_password e u c p)
             | MPubkey k s => Some (auth_pubkey e u c k s)
             | MKbdint rc => Some (auth_kbdint c rc)
             | MUnsupported => None
             end) with
      | None => Done (add_attempt st1) [RDefault] 0
      | Some TUb => Ub
      | Some TOk => let st2 := add_success st1 (bit_of me) in
                    Done st2 [if s_scount st2 <? s_mcount st2 then RPartial else RSuccess] 0
      | Some TFail => Done (add_attempt st1) [RDefault] 0
      | Some (TReplied r) => Done st1 [r] 0
      end = Done st' rs ret -> stepcase e o st (AuthReq u me) st' (if ret =? 0 then rs else rs ++ [RDefault])).
    { intros st1 U.
      assert (Q : forall st2 r, same st1 st2 -> r = RDefault \/ r = RPkOk -> stepcase e o st (AuthReq u me) st2 [r]).
      { intros st2 r Sm Hr. assert (D : dull [r]) by (intros r' [<-|[]]; exact Hr).
        destruct U as [[U ->] | [U ->]]; [eapply sc_first; eauto|apply sc_quiet; assumption]. }
      assert (Qa : stepcase e o st (AuthReq u me) (add_attempt st1) [RDefault]) by (apply Q; [repeat split|auto]).
      assert (Sc : evidence e u c me -> stepcase e o st (AuthReq u me) (add_success st1 (bit_of me))
                   [if s_scount (add_success st1 (bit_of me)) <? s_mcount (add_success st1 (bit_of me)) then RPartial else RSuccess]).
      { intros Ev. eapply sc_success; eauto. }
      pose proof (tried_evidence e u c me) as TE.
      destruct me as [|p|k s|rc|]; cbv beta iota.
      - destruct (auth_none c) as [| |r|] eqn:T; intros H; try discriminate H; injection H as <- <- <-;
          [exact (Sc (TE eq_refl))|exact Qa|].
        apply Q; [apply same_refl|]. unfold auth_none in T.
        destruct c as [c|]; [destruct (cl_none c)|]; try discriminate; injection T as <-; auto.
      - destruct (auth_password e u c p) as [| |r|] eqn:T; intros H; try discriminate H; injection H as <- <- <-;
          [exact (Sc (TE eq_refl))|exact Qa|].
        exfalso. unfold auth_password in T.
        destruct (match c with Some c0 => cl_password c0 | None => get_pwd_hash (e_today e) (e_passwd e u) end); [|discriminate].
        destruct (compare_password _ _ _); discriminate.
      - destruct (auth_pubkey e u c k s) as [| |r|] eqn:T; intros H; try discriminate H; injection H as <- <- <-;
          [exact (Sc (TE eq_refl))|exact Qa|].
        apply Q; [apply same_refl|]. unfold auth_pubkey in T.
        destruct (match c with None => e_syskeys e u | Some c0 => _ end); try discriminate.
        destruct (compare_key _ _ _ _ _ _) as [[|]| |]; try discriminate.
        destruct s; try discriminate. injection T as <-. auto.
      - destruct (auth_kbdint c rc) as [| |r|] eqn:T; intros H; try discriminate H; injection H as <- <- <-;
          [exact (Sc (TE eq_refl))|exact Qa|].
        exfalso. unfold auth_kbdint in T. destruct (Z.eqb rc 0), c as [c|]; try destruct (cl_kbdint c); discriminate.
      - intros H. injection H as <- <- <-. exact Qa. }
    destruct (s_user st) as [u0|] eqn:U.
    - destruct (streq u u0) eqn:E.
      + unfold streq in E. apply beqb_spec in E. subst u0. apply B. auto.
      + intros [= <- <- <-]. apply sc_quiet; [repeat split|]. intros r [<-|[]]. left; reflexivity.
    - apply B. auto. }
  destruct l.
  - destruct (find_client _ _ _ _) as [c| | |] eqn:F.
    + apply G. exists c. auto.
    + intros [= <- <- <-]. apply sc_quiet; [repeat split|]. intros r [<-|[]]. left; reflexivity.
    + intros [= <- <- <-]. apply sc_quiet; [repeat split|]. intros r [<-|[]]. left; reflexivity.
    + discriminate.
  - apply G. reflexivity.
Qed.

Lemma handle_cases e o b m st st' rs ret :
  handle e (if b : bool then Some o else None) m st = Done st' rs ret -> stepcase e o st m st' rs.
Proof.
  unfold handle. destruct (ssh_msg e (if b then Some o else None) m st) as [s1 r1 n|] eqn:H; [|discriminate].
  intros R. assert (R' : s1 = st' /\ rs = if n =? 0 then r1 else r1 ++ [RDefault]).
  { destruct n; injection R as <- <- <-; split; reflexivity. }
  destruct R' as [-> ->]. clear R. unfold ssh_msg in H.
  assert (Dd : dull [RDefault]) by (intros r [<-|[]]; left; reflexivity).
  assert (D1 : forall k, Done st [RDefault] 0 = Done st' r1 n -> stepcase e o st k st' (if n =? 0 then r1 else r1 ++ [RDefault])).
  { intros k [= <- <- <-]. apply sc_quiet; [apply same_refl|exact Dd]. }
  assert (D2 : forall k, Done st [] 1 = Done st' r1 n -> stepcase e o st k st' (if n =? 0 then r1 else r1 ++ [RDefault])).
  { intros k [= <- <- <-]. apply sc_quiet; [apply same_refl|exact Dd]. }
  assert (D3 : match m with
      | AuthReq u me =>
          if s_authd st then Done st [RDefault] 0
          else match (if b then Some o else None) with
               | None => Done st [] 1
               | Some opts => match e_local e with None => Done st [] 1 | Some l => ssh_auth e opts l u me st end
               end
      | ChanOpen true got =>
          if s_authd st then
            let '(s2, r) := channel_open got st in Done s2 [match r with Some c => RChan c | None => RDefault end] 0
          else Done st [] 1
      | Subsystem c name mem =>
          if s_authd st then
            match channel_subsystem c name mem st with Some s2 => Done s2 [RSubsys] 0 | None => Done st [RDefault] 0 end
          else Done st [] 1
      | _ => Done st [] 1
      end = Done st' r1 n -> stepcase e o st m st' (if n =? 0 then r1 else r1 ++ [RDefault])).
  { clear H. destruct m as [u me|typ got|c name mem|].
    - destruct (s_authd st) eqn:A; [apply D1|]. destruct b; [|apply D2].
      destruct (e_local e) as [l|] eqn:L; [|apply D2]. intros H. eapply auth_cases; eauto.
    - destruct typ; [|apply D2]. destruct (s_authd st) eqn:A; [|apply D2].
      unfold channel_open. destruct (s_chan st) as [c0|].
      + intros [= <- <- <-]. apply sc_channel; auto; [destruct got; reflexivity].
      + destruct (s_status st), got as [c|]; intros [= <- <- <-]; apply sc_channel; auto.
    - destruct (s_authd st) eqn:A; [|apply D2].
      destruct (channel_subsystem c name mem st) as [s2|] eqn:C; [|apply D1]. intros [= <- <- <-].
      unfold channel_subsystem in C. destruct (negb _); [discriminate|].
      destruct (match s_chan st with Some c0 => c =? c0 | None => false end).
      + destruct (s_made st) eqn:M; [|discriminate]. destruct (s_status st); try discriminate. destruct (s_subsys st); [discriminate|].
        injection C as <-. apply sc_channel; auto. rewrite M. cbn. tauto.
      + destruct mem; [|discriminate]. injection C as <-. apply sc_channel; auto.
        intros x [<-|I]; [|auto]. cbn [fst]. destruct (s_user st); auto.
    - apply D2. }
  destruct (s_status st); auto.
Qed.

(* ------------------------------------------------------------------ *)
(** ** Invariant *)

Lemma successes_app a b : successes (a ++ b) = successes a ++ successes b.
Proof. unfold successes. apply flat_map_app. Qed.

Lemma successes_one m rs : existsb positive rs = false -> successes [(m, rs)] = [].
Proof. unfold successes. cbn [flat_map fst snd]. intros ->. destruct m; reflexivity. Qed.

Lemma dull_positive rs : dull rs -> existsb positive rs = false.
Proof.
  intros D. apply not_true_is_false. intros H. apply existsb_exists in H. destruct H as (r & I & P).
  destruct (D r I) as [-> | ->]; discriminate.
Qed.
Lemma dull_success rs : dull rs -> ~ In RSuccess rs.
Proof. intros D I. destruct (D _ I); discriminate. Qed.
Lemma dull_channel rs : dull rs -> ~ channel_granted rs.
Proof. intros D [I|[c I]]; destruct (D _ I); discriminate. Qed.

Record inv (e : env) (o : sshopts) (st : sst) (tr : trace) : Prop := mkInv {
  i_count : s_scount st = lenN (successes tr);
  i_auth : s_authd st = true <-> authenticated tr;
  i_none : s_user st = None -> successes tr = [] /\ s_mcount st = 0 /\ s_authd st = false;
  i_user : forall u, s_user st = Some u -> exists l c, e_local e = Some l /\ client_of e o l u c /\ s_mcount st = needed c
             /\ forall v m, In (v, m) (successes tr) -> v = u /\ evidence e u c m;
  i_full : s_authd st = true -> s_mcount st <= s_scount st /\ successes tr <> [];
  i_made : forall x, In x (s_made st) -> s_user st = Some (fst x)
}.

Lemma auth_app tr m rs : authenticated (tr ++ [(m, rs)]) <-> authenticated tr \/ In RSuccess rs.
Proof.
  unfold authenticated. split.
  - intros (m' & rs' & I & H). apply in_app_or in I. destruct I as [I|[[= <- <-]|[]]]; eauto.
  - intros [(m' & rs' & I & H) | H].
    + exists m', rs'. split; [apply in_or_app; left; exact I|exact H].
    + exists m, rs. split; [apply in_or_app; right; left; reflexivity|exact H].
Qed.

Lemma client_of_fun e o l u c c' : client_of e o l u c -> client_of e o l u c' -> c = c'.
Proof.
  unfold client_of. destruct l; [|congruence]. intros (a & -> & A) (b & -> & B). congruence.
Qed.

Lemma set_user_counts st u c : s_mcount st = 0 -> s_mcount (set_user st u c) = needed c.
Proof. intros Z. unfold set_user, needed. destruct c; cbn [s_mcount]; lia. Qed.

Lemma set_user_same st u c : s_scount (set_user st u c) = s_scount st /\ s_authd (set_user st u c) = s_authd st
  /\ s_user (set_user st u c) = Some u /\ s_made (set_user st u c) = s_made st /\ s_chan (set_user st u c) = s_chan st.
Proof. unfold set_user. destruct c; repeat split. Qed.

Lemma inv_step e o st m st' rs tr : stepcase e o st m st' rs -> inv e o st tr -> inv e o st' (tr ++ [(m, rs)]).
Proof.
  intros SC [Ic Ia In_ Iu If Im]. destruct SC as [m st' rs S D | u me st' rs l c U A L C S D | u me st' rs l c st1 A L C U Ev E R
                                              | m st' rs A U A' Mc Sc P Md NA].
  - destruct S as (S1 & S2 & S3 & S4 & S5 & S6 & S7). pose proof (dull_positive _ D) as P.
    constructor.
    + rewrite successes_app, (successes_one _ _ P), app_nil_r. congruence.
    + rewrite auth_app, <- S2, Ia. pose proof (dull_success _ D). tauto.
    + rewrite <- S1, <- S2, <- S6, successes_app, (successes_one _ _ P), app_nil_r. exact In_.
    + intros u. rewrite <- S1, <- S6, successes_app, (successes_one _ _ P), app_nil_r. apply Iu.
    + rewrite <- S2, <- S6, <- S7, successes_app, (successes_one _ _ P), app_nil_r. exact If.
    + intros x. rewrite <- S5, <- S1. apply Im.
  - destruct S as (S1 & S2 & S3 & S4 & S5 & S6 & S7). pose proof (dull_positive _ D) as P.
    destruct (In_ U) as (N1 & N2 & N3). pose proof (set_user_same st u c) as (W1 & W2 & W3 & W4 & W5).
    pose proof (set_user_counts st u c N2) as W6.
    constructor.
    + rewrite successes_app, (successes_one _ _ P), app_nil_r. congruence.
    + rewrite auth_app, <- S2, W2, Ia. pose proof (dull_success _ D). tauto.
    + rewrite <- S1, W3. discriminate.
    + intros v. rewrite <- S1, W3. intros [= <-]. exists l, c. rewrite <- S6, W6.
      split; [exact L|]. split; [exact C|]. split; [reflexivity|].
      rewrite successes_app, (successes_one _ _ P), app_nil_r, N1. intros ? ? [].
    + rewrite <- S2, W2, A. discriminate.
    + intros x. rewrite <- S5, W4. intros H. apply Im in H. congruence.
  - assert (Hs : successes (tr ++ [(AuthReq u me, rs)]) = successes tr ++ [(u, me)]).
    { rewrite successes_app. f_equal. subst rs. unfold successes. cbn [flat_map fst snd existsb].
      destruct (s_scount st' <? s_mcount st'); reflexivity. }
    assert (H1 : s_user st1 = Some u /\ s_scount st1 = s_scount st /\ s_authd st1 = false /\ s_mcount st1 = needed c
                 /\ s_made st1 = s_made st
                 /\ forall v m, In (v, m) (successes tr) -> v = u /\ evidence e u c m).
    { destruct U as [[U ->] | [U ->]].
      - destruct (In_ U) as (N1 & N2 & N3). pose proof (set_user_same st u c) as (W1 & W2 & W3 & W4 & W5).
        rewrite W1, W2, W3, W4, (set_user_counts _ _ _ N2). repeat split; auto; rewrite N1 in *; contradiction.
      - destruct (Iu u U) as (l' & c' & L' & C' & M' & H'). assert (l' = l) by congruence. subst l'.
        rewrite (client_of_fun _ _ _ _ _ _ C C'). split; [exact U|]. split; [reflexivity|]. split; [exact A|].
        split; [exact M'|]. split; [reflexivity|exact H']. }
    destruct H1 as (U1 & Sc1 & A1 & Mc1 & Md1 & Ev1).
    assert (Sc : s_scount st' = s_scount st + 1) by (subst st'; unfold add_success; cbn [s_scount]; lia).
    assert (Mc : s_mcount st' = needed c) by (subst st'; exact Mc1).
    assert (Au : s_authd st' = negb (s_scount st' <? s_mcount st')).
    { subst st'. unfold add_success. cbn [s_authd s_scount s_mcount]. rewrite A1. reflexivity. }
    constructor.
    + rewrite Hs. unfold lenN in *. rewrite app_length. cbn [length]. lia.
    + rewrite auth_app, Au. split.
      * intros H. right. subst rs. destruct (s_scount st' <? s_mcount st'); [discriminate|left; reflexivity].
      * intros [H|H]; [apply Ia in H; congruence|]. subst rs. destruct (s_scount st' <? s_mcount st'); [|reflexivity].
        destruct H as [H|[]]; discriminate.
    + intros N. exfalso. subst st'. unfold add_success in N. cbn [s_user] in N. congruence.
    + intros v Hv. assert (v = u) by (subst st'; unfold add_success in Hv; cbn [s_user] in Hv; congruence). subst v.
      exists l, c. split; [exact L|]. split; [exact C|]. split; [exact Mc|].
      rewrite Hs. intros v m I. apply in_app_or in I. destruct I as [I|[[= <- <-]|[]]]; auto.
    + intros H. rewrite Au in H. apply negb_true_iff, N.ltb_ge in H. split; [exact H|]. rewrite Hs.
      intros F. apply app_eq_nil in F. destruct F; discriminate.
    + intros x I. assert (I' : In x (s_made st1)) by (subst st'; exact I). rewrite Md1 in I'. apply Im in I'.
      subst st'. unfold add_success. cbn [s_user]. destruct U as [[U _] | [U _]]; congruence.
  - constructor.
    + rewrite successes_app, (successes_one _ _ P), app_nil_r. congruence.
    + rewrite auth_app, A'. split; [|reflexivity]. intros _. left. apply Ia. exact A.
    + rewrite U. intros N. destruct (In_ N) as (_ & _ & F). congruence.
    + intros u. rewrite U, Mc, successes_app, (successes_one _ _ P), app_nil_r. apply Iu.
    + intros _. rewrite Mc, Sc, successes_app, (successes_one _ _ P), app_nil_r. apply If. exact A.
    + intros x I. rewrite U. destruct (Md x I) as [H|[H|H]]; [apply Im; exact H| |exact H].
      destruct (In_ H) as (_ & _ & F). congruence.
Qed.

Lemma inv_run e o ms : forall st tr st' tr', inv e o st tr -> run e o ms st = Some (st', tr') -> inv e o st' (tr ++ tr').
Proof.
  induction ms as [|[b m] ms IH]; intros st tr st' tr' I; cbn [run].
  - intros [= <- <-]. rewrite app_nil_r. exact I.
  - destruct (handle e (if b then Some o else None) m st) as [s1 rs ret|] eqn:H; [|discriminate].
    destruct (run e o ms s1) as [[s2 t2]|] eqn:R; [|discriminate]. intros [= <- <-].
    apply handle_cases in H. pose proof (inv_step _ _ _ _ _ _ _ H I) as I1.
    replace (tr ++ (m, rs) :: t2) with ((tr ++ [(m, rs)]) ++ t2) by (rewrite <- app_assoc; reflexivity).
    eapply IH; eauto.
Qed.

Lemma inv_fresh e o : inv e o fresh [].
Proof.
  constructor; cbn; try discriminate; auto.
  - split; [discriminate|intros (? & ? & [] & _)].
  - intros x [].
Qed.

(* ------------------------------------------------------------------ *)
(** ** C29 *)

(** After any messages: if the client was told it is authenticated, the session has one user name, every
    successful step was for it, there was at least one, each proves knowledge of the user's credentials, and
    the user is configured. *)
Theorem c29_identity e o ms st tr :
  run e o ms fresh = Some (st, tr) -> authenticated tr ->
  exists u c, s_user st = Some u /\ successes tr <> []
    /\ (forall v m, In (v, m) (successes tr) -> v = u /\ evidence e u c m)
    /\ (e_local e = Some true -> exists c', c = Some c' /\ configured_user e o u c').
Proof.
  intros R A. pose proof (inv_run _ _ _ _ _ _ _ (inv_fresh e o) R) as [Ic Ia In_ Iu If Im]. cbn [app] in *.
  apply Ia in A. destruct (s_user st) as [u|] eqn:U; [|destruct (In_ eq_refl) as (_ & _ & F); congruence].
  destruct (Iu u eq_refl) as (l & c & L & C & M & H). exists u, c. split; [reflexivity|].
  split; [apply If; exact A|]. split; [exact H|]. intros E. rewrite L in E. injection E as ->.
  destruct C as (c' & -> & F). exists c'. split; [reflexivity|]. eapply find_client_known; eauto.
Qed.

(** The name never changes once set, whatever comes, and sessions on further channels have the same one. *)
Theorem c29_fixed e o ms st tr ms' st' tr' u :
  run e o ms fresh = Some (st, tr) -> s_user st = Some u ->
  run e o ms' st = Some (st', tr') ->
  s_user st' = Some u /\ forall v c, In (v, c) (s_made st') -> v = u.
Proof.
  intros R U R'. pose proof (inv_run _ _ _ _ _ _ _ (inv_fresh e o) R) as I. cbn [app] in I.
  assert (G : forall ms st tr st' tr', inv e o st tr -> s_user st = Some u -> run e o ms st = Some (st', tr') ->
              s_user st' = Some u).
  { clear. induction ms as [|[b m] ms IH]; intros st tr st' tr' I U; cbn [run].
    - intros [= <- <-]. exact U.
    - destruct (handle e (if b then Some o else None) m st) as [s1 rs ret|] eqn:H; [|discriminate].
      destruct (run e o ms s1) as [[s2 t2]|] eqn:R; [|discriminate]. intros [= <- <-].
      apply handle_cases in H. pose proof (inv_step _ _ _ _ _ _ _ H I) as I1. eapply IH; [exact I1| |exact R].
      destruct H as [m st' rs (S1 & _) D | v me st' rs l c U' A L C S D | v me st' rs l c st1 A L C U' Ev E Rr | m st' rs A U' A' Mc Sc P Md NA].
      + congruence.
      + congruence.
      + subst st'. unfold add_success. cbn [s_user]. destruct U' as [[U' _] | [U' ->]]; congruence.
      + congruence. }
  pose proof (G _ _ _ _ _ I U R') as U'. split; [exact U'|].
  pose proof (inv_run _ _ _ _ _ _ _ I R') as I'. intros v c M. apply (i_made _ _ _ _ I') in M. cbn [fst] in M. congruence.
Qed.

(** An unconfigured user never succeeds in anything. *)
Theorem c29_unconfigured e o ms st tr u m :
  e_local e = Some true -> (forall c, ~ configured_user e o u c) ->
  run e o ms fresh = Some (st, tr) -> ~ In (u, m) (successes tr).
Proof.
  intros L N R I. pose proof (inv_run _ _ _ _ _ _ _ (inv_fresh e o) R) as [Ic Ia In_ Iu If Im]. cbn [app] in *.
  destruct (s_user st) as [v|] eqn:U; [|destruct (In_ eq_refl) as (E & _); rewrite E in I; contradiction].
  destruct (Iu v eq_refl) as (l & c & L' & C & M & H). destruct (H _ _ I) as [-> _].
  assert (l = true) by congruence. subst l. destruct C as (c' & -> & F).
  exact (N c' (find_client_known _ _ _ _ _ F)).
Qed.

(* ------------------------------------------------------------------ *)
(** ** C30 *)

Definition all_kinds := [KPubkey; KPassword; KKbdint; KNone].
Definition configuredb (c : client) (k : kind) : bool :=
  match k with
  | KNone => cl_none c | KKbdint => cl_kbdint c
  | KPassword => match cl_password c with Some _ => true | None => false end
  | KPubkey => pubkey_configured (cl_store c)
  end.

Lemma configuredb_spec c k : configuredb c k = true <-> configured c k.
Proof.
  destruct k; cbn [configuredb configured]; try reflexivity.
  - destruct (cl_password c); split; eauto; try discriminate. intros [p H]; discriminate.
  - destruct (cl_store c) as [[|b ks]|r| |]; cbn [pubkey_configured]; split; try discriminate; eauto.
    + intros [(b & ks & H) | [(r & H) | H]]; discriminate.
    + intros [(b & ks & H) | [(r & H) | H]]; discriminate.
Qed.

Lemma methods_count c : snd (client_methods c) = lenN (filter (configuredb c) all_kinds).
Proof.
  unfold client_methods, all_kinds. cbn [filter configuredb].
  destruct (pubkey_configured _), (cl_password c), (cl_kbdint c), (cl_none c); reflexivity.
Qed.

Definition kindf (m : method) : kind :=
  match m with MPassword _ => KPassword | MPubkey _ _ => KPubkey | MKbdint _ => KKbdint | _ => KNone end.

Lemma kindf_of m k : m <> MUnsupported -> (kind_of m k <-> kindf m = k).
Proof. destruct m, k; cbn; split; intros; try discriminate; auto; contradiction || congruence. Qed.

Lemma evidence_configured e u c m : evidence e u (Some c) m -> configured c (kindf m) /\ m <> MUnsupported.
Proof.
  destruct m as [|p|k s|rc|]; cbn [evidence kindf configured].
  - intros (c' & [= <-] & H). split; [exact H|discriminate].
  - intros (s & pw & _ & _ & H). split; [eauto|discriminate].
  - intros (_ & keys & U & N & _). split; [|discriminate]. unfold user_keys in U. destruct U as [U|[(r & U & _)|(U & _)]]; eauto.
    destruct keys as [|b ks]; [congruence|]. eauto.
  - intros (_ & H). split; [exact H|discriminate].
  - intros [].
Qed.

(** What remains true: every successful step was in a configured method, and there were at least as many
    of them as methods; so if no method succeeded twice, all of them succeeded. *)
Theorem c30_all_methods_partial e o ms st tr :
  e_local e = Some true ->
  run e o ms fresh = Some (st, tr) -> authenticated tr ->
  exists u c, configured_user e o u c
    /\ (forall v m, In (v, m) (successes tr) -> v = u /\ exists k, kind_of m k /\ configured c k)
    /\ (forall ks, (forall k, In k ks -> configured c k) -> NoDup ks -> (length ks <= length (successes tr))%nat)
    /\ ((forall i j u1 m1 u2 m2 k, nth_error (successes tr) i = Some (u1, m1) -> nth_error (successes tr) j = Some (u2, m2) ->
           kind_of m1 k -> kind_of m2 k -> i = j) ->
        forall k, configured c k -> exists m, In (u, m) (successes tr) /\ kind_of m k).
Proof.
  intros L R A. pose proof (inv_run _ _ _ _ _ _ _ (inv_fresh e o) R) as [Ic Ia In_ Iu If Im]. cbn [app] in *.
  apply Ia in A. destruct (s_user st) as [u|] eqn:U; [|destruct (In_ eq_refl) as (_ & _ & F); congruence].
  destruct (Iu u eq_refl) as (l & oc & L' & C & M & H). assert (l = true) by congruence. subst l.
  destruct C as (c & -> & F). destruct (If A) as [Le _]. exists u, c.
  split; [eapply find_client_known; eauto|].
  assert (EC : forall v m, In (v, m) (successes tr) -> v = u /\ configured c (kindf m) /\ m <> MUnsupported).
  { intros v m I. destruct (H v m I) as [-> Ev]. split; [reflexivity|]. eapply evidence_configured; eauto. }
  assert (Cnt : (length (filter (configuredb c) all_kinds) <= length (successes tr))%nat).
  { cbn [needed] in M. rewrite M, methods_count, Ic in Le. unfold lenN in Le. lia. }
  split.
  { intros v m I. destruct (EC v m I) as (-> & K & N). split; [reflexivity|]. exists (kindf m).
    split; [apply kindf_of; [exact N|reflexivity]|exact K]. }
  split.
  { intros ks Hk Nd. etransitivity; [|exact Cnt]. apply NoDup_incl_length; [exact Nd|]. intros k I.
    apply filter_In. split; [destruct k; cbn; auto|]. apply configuredb_spec. auto. }
  intros Once k K.
  set (kinds := map (fun x => kindf (snd x)) (successes tr)).
  assert (Nd : NoDup kinds).
  { apply (NoDup_nth_error kinds). intros i j Hi E. unfold kinds in *. rewrite map_length in Hi.
    rewrite !nth_error_map in E.
    destruct (nth_error (successes tr) i) as [[u1 m1]|] eqn:E1; [|apply nth_error_None in E1; lia].
    destruct (nth_error (successes tr) j) as [[u2 m2]|] eqn:E2; [|discriminate].
    cbn [option_map snd] in E. injection E as E.
    destruct (EC _ _ (nth_error_In _ _ E1)) as (_ & _ & N1). destruct (EC _ _ (nth_error_In _ _ E2)) as (_ & _ & N2).
    eapply (Once i j u1 m1 u2 m2 (kindf m1)); eauto; apply kindf_of; auto. }
  assert (Inc : incl kinds (filter (configuredb c) all_kinds)).
  { intros k' I. unfold kinds in I. apply in_map_iff in I. destruct I as ([v m] & <- & I). cbn [snd].
    destruct (EC v m I) as (_ & K' & _). apply filter_In. split; [destruct (kindf m); cbn; auto|]. apply configuredb_spec. exact K'. }
  assert (Inc' : incl (filter (configuredb c) all_kinds) kinds).
  { apply NoDup_length_incl; [exact Nd| |exact Inc]. unfold kinds. rewrite map_length. exact Cnt. }
  assert (I : In k kinds).
  { apply Inc'. apply filter_In. split; [destruct k; cbn; auto|]. apply configuredb_spec. exact K. }
  unfold kinds in I. apply in_map_iff in I. destruct I as ([v m] & E & I). cbn [snd] in E.
  destruct (EC v m I) as (-> & _ & N). exists m. split; [exact I|]. apply kindf_of; assumption.
Qed.

(** With a single configured method the claim holds. *)
Theorem c30_single_partial e o ms st tr :
  e_local e = Some true ->
  run e o ms fresh = Some (st, tr) -> authenticated tr ->
  exists u c, configured_user e o u c
    /\ ((forall k1 k2, configured c k1 -> configured c k2 -> k1 = k2) ->
        forall k, configured c k -> exists m, In (u, m) (successes tr) /\ kind_of m k).
Proof.
  intros L R A. destruct (c29_identity e o ms st tr R A) as (u0 & _ & _ & Ne & _).
  destruct (c30_all_methods_partial e o ms st tr L R A) as (u & c & K & S & _ & _). exists u, c.
  split; [exact K|]. intros One k Ck. destruct (successes tr) as [|[v m] l] eqn:E; [congruence|].
  destruct (S v m (or_introl eq_refl)) as (-> & k' & Km & Ck'). exists m. split; [left; reflexivity|].
  rewrite (One k k' Ck Ck'). exact Km.
Qed.

(* ------------------------------------------------------------------ *)
(** ** C31 *)

Theorem c31_no_channel e o ms st tr before m rs after :
  run e o ms fresh = Some (st, tr) -> tr = before ++ (m, rs) :: after ->
  channel_granted rs -> authenticated before.
Proof.
  intros R E G.
  assert (H : forall ms st tr0 st' tr' before m rs after, inv e o st tr0 -> run e o ms st = Some (st', tr') ->
              tr' = before ++ (m, rs) :: after -> channel_granted rs -> authenticated (tr0 ++ before)).
  { clear. induction ms as [|[b m0] ms IH]; intros st tr0 st' tr' before m rs after I; cbn [run].
    - intros [= <- <-] E. destruct before; discriminate.
    - destruct (handle e (if b then Some o else None) m0 st) as [s1 r1 ret|] eqn:H; [|discriminate].
      destruct (run e o ms s1) as [[s2 t2]|] eqn:R; [|discriminate]. intros [= <- <-] E G.
      apply handle_cases in H. destruct before as [|x before].
      + injection E as -> -> ->. rewrite app_nil_r. apply (i_auth _ _ _ _ I).
        destruct H as [m s1 rs S D | u me s1 rs l c U A L C S D | u me s1 rs l c st1 A L C U Ev E' Rr | m s1 rs A U A' Mc Sc P Md NA].
        * exfalso. exact (dull_channel _ D G).
        * exfalso. exact (dull_channel _ D G).
        * exfalso. subst rs. destruct (s_scount s1 <? s_mcount s1); destruct G as [[G|[]]|[c0 [G|[]]]]; discriminate.
        * exact A.
      + injection E as <- ->. pose proof (inv_step _ _ _ _ _ _ _ H I) as I1.
        replace (tr0 ++ (m0, r1) :: before) with ((tr0 ++ [(m0, r1)]) ++ before) by (rewrite <- app_assoc; reflexivity).
        eapply IH; [exact I1|exact R|reflexivity|exact G]. }
  exact (H ms fresh [] st tr before m rs after (inv_fresh e o) R E G).
Qed.

(* ------------------------------------------------------------------ *)
(** ** C33, signatures *)

(** libssh is documented to give the states none, valid and wrong, and drops requests with a wrong signature
    itself; if the state is only ever none or valid, access needs a valid signature. *)
Theorem c33_signature_partial e o ms st tr u k s :
  run e o ms fresh = Some (st, tr) ->
  (forall b u k s, In (b, AuthReq u (MPubkey k s)) ms -> s = SigNone \/ s = SigValid) ->
  In (u, MPubkey k s) (successes tr) -> s = SigValid.
Proof.
  intros R H I. pose proof (inv_run _ _ _ _ _ _ _ (inv_fresh e o) R) as [Ic Ia In_ Iu If Im]. cbn [app] in *.
  destruct (s_user st) as [v|] eqn:U; [|destruct (In_ eq_refl) as (E & _); rewrite E in I; contradiction].
  destruct (Iu v eq_refl) as (l & c & L' & C & M & H'). destruct (H' _ _ I) as [-> Ev]. destruct Ev as [Ne _].
  assert (G : forall ms st st' tr, run e o ms st = Some (st', tr) -> forall m rs, In (m, rs) tr -> exists b, In (b, m) ms).
  { clear. induction ms as [|[b m0] ms IH]; intros st st' tr; cbn [run].
    - intros [= <- <-] ? ? [].
    - destruct (handle e (if b then Some o else None) m0 st) as [s1 r1 ret|]; [|discriminate].
      destruct (run e o ms s1) as [[s2 t2]|] eqn:R; [|discriminate]. intros [= <- <-] m rs [[= -> ->]|I].
      + exists b. left; reflexivity.
      + destruct (IH _ _ _ R _ _ I) as [b' I']. exists b'. right; exact I'. }
  unfold successes in I. apply in_flat_map in I. destruct I as ([m rs] & I1 & I2). cbn [fst snd] in I2.
  destruct m as [u' m| | |]; try contradiction. destruct (existsb positive rs); [|contradiction].
  destruct I2 as [[= -> ->]|[]]. destruct (G _ _ _ _ R _ _ I1) as [b Ib].
  destruct (H _ _ _ _ Ib); congruence.
Qed.

(* ------------------------------------------------------------------ *)
(** ** Cases and refutations *)

(** A user with a password and a public key; two endpoints, the first refers to the second. *)
Definition ex_user : client := mkCl (bs "joe") (SLocal [bs "KEY"]) (Some (bs "$0$secret")) false false.
Definition ex_other : client := mkCl (bs "ann") (SLocal []) (Some (bs "$0$x")) false false.
Definition ex_opts : sshopts := mkOpts [ex_other] (Some (bs "second")).
Definition ex_env : env := mkEnv (Some true) [(bs "first", EpSsh ex_opts); (bs "second", EpSsh (mkOpts [ex_user] None))]
  (fun _ _ => None) 20000 (fun _ => None) (fun _ => PErr) [] (fun _ => false)
  (fun b => if beqb b (bs "KEY") then Some (len4 7 ++ bs "ssh-rsa" ++ bs "data") else None)
  (fun b _ => if beqb b (bs "KEY") then Some (bs "data") else None).

Example c29_case : exists st,
  run ex_env ex_opts
    [(true, AuthReq (bs "joe") MNone); (true, ChanOpen true (Some 1)); (true, AuthReq (bs "joe") (MPassword (Some (bs "bad"))));
     (true, AuthReq (bs "joe") (MPubkey (bs "data") SigNone)); (true, AuthReq (bs "joe") (MPubkey (bs "data") SigValid));
     (true, AuthReq (bs "joe") (MPassword (Some (bs "secret")))); (false, ChanOpen true (Some 1));
     (false, Subsystem 1 (bs "netconf") true); (false, Subsystem 2 (bs "netconf") true)] fresh
  = Some (st, [(AuthReq (bs "joe") MNone, [RDefault]); (ChanOpen true (Some 1), [RDefault]);
               (AuthReq (bs "joe") (MPassword (Some (bs "bad"))), [RDefault]);
               (AuthReq (bs "joe") (MPubkey (bs "data") SigNone), [RPkOk]);
               (AuthReq (bs "joe") (MPubkey (bs "data") SigValid), [RPartial]);
               (AuthReq (bs "joe") (MPassword (Some (bs "secret"))), [RSuccess]);
               (ChanOpen true (Some 1), [RChan 1]); (Subsystem 1 (bs "netconf") true, [RSubsys]);
               (Subsystem 2 (bs "netconf") true, [RSubsys])])
  /\ s_made st = [(bs "joe", 2)] /\ s_user st = Some (bs "joe").
Proof. eexists. split; [vm_compute; reflexivity|]. split; reflexivity. Qed.

(** Changing the user name ends it. *)
Example c29_case_change : exists st,
  run ex_env ex_opts [(true, AuthReq (bs "joe") (MPassword (Some (bs "secret")))); (true, AuthReq (bs "ann") (MPassword (Some (bs "x"))));
                      (true, AuthReq (bs "joe") (MPubkey (bs "data") SigValid))] fresh
  = Some (st, [(AuthReq (bs "joe") (MPassword (Some (bs "secret"))), [RPartial]);
               (AuthReq (bs "ann") (MPassword (Some (bs "x"))), [RDefault]);
               (AuthReq (bs "joe") (MPubkey (bs "data") SigValid), [RDefault])]).
Proof. eexists. vm_compute. reflexivity. Qed.

(** C30 is false: the password given twice counts as two methods, the key is never shown. *)
Theorem c30_repeated_refuted :
  exists e o ms st tr, e_local e = Some true /\ run e o ms fresh = Some (st, tr) /\ authenticated tr
    /\ exists u c, configured_user e o u c /\ configured c KPubkey
       /\ (forall u' c', configured_user e o u' c' -> u' = u -> c' = c)
       /\ forall v m, In (v, m) (successes tr) -> v = u /\ ~ kind_of m KPubkey.
Proof.
  exists ex_env, ex_opts,
    [(true, AuthReq (bs "joe") (MPassword (Some (bs "secret")))); (true, AuthReq (bs "joe") (MPassword (Some (bs "secret"))))].
  eexists. eexists. split; [reflexivity|]. split; [vm_compute; reflexivity|]. split.
  { eexists. eexists. split; [right; left; reflexivity|left; reflexivity]. }
  exists (bs "joe"), ex_user. split.
  { exists (mkOpts [ex_user] None). split; [|split; [left; reflexivity|reflexivity]].
    apply (re_ref _ _ (bs "second") (mkOpts [ex_user] None)); [reflexivity|right; left; reflexivity|constructor]. }
  split; [left; eexists; eexists; reflexivity|]. split.
  - intros u' c' (o' & Re & I & N) ->.
    assert (Q : o' = ex_opts \/ o' = mkOpts [ex_user] None).
    { clear I N. inversion Re as [o1|o1 r o2 o3 E1 E2 E3]; subst; [left; reflexivity|].
      right. injection E1 as <-. cbn [e_endpts ex_env In] in E2. destruct E2 as [E2|[E2|[]]]; [discriminate|].
      injection E2 as <-. inversion E3 as [o1|o1 r o2' o3' F1 F2 F3]; subst; [reflexivity|discriminate]. }
    destruct Q as [-> | ->]; cbn [so_clients ex_opts In] in I; destruct I as [<-|[]]; [discriminate|reflexivity].
  - intros v m I. cbn in I. destruct I as [[= <- <-]|[[= <- <-]|[]]]; split; try reflexivity; intros [].
Qed.

(** A signature found to be wrong, or not checked because of an error, would grant access. *)
Theorem c33_signature_refuted :
  exists e o ms st tr u k, run e o ms fresh = Some (st, tr) /\ In (u, MPubkey k SigWrong) (successes tr).
Proof.
  exists ex_env, ex_opts, [(true, AuthReq (bs "joe") (MPubkey (bs "data") SigWrong))].
  eexists. eexists. exists (bs "joe"), (bs "data"). split; [vm_compute; reflexivity|]. left. reflexivity.
Qed.

(** Two endpoints referring to each other: the lookup of an unknown user does not end. *)
Theorem c29_cycle_refuted :
  exists e o ms, run e o ms fresh = None.
Proof.
  exists (mkEnv (Some true) [(bs "a", EpSsh (mkOpts [] (Some (bs "b")))); (bs "b", EpSsh (mkOpts [] (Some (bs "a"))))]
    (fun _ _ => None) 0 (fun _ => None) (fun _ => PErr) [] (fun _ => false) (fun _ => None) (fun _ _ => None)),
    (mkOpts [] (Some (bs "b"))), [(true, AuthReq (bs "joe") MNone)]. vm_compute. reflexivity.
Qed.

Print Assumptions c29_identity.
Print Assumptions c29_fixed.
Print Assumptions c29_unconfigured.
Print Assumptions c29_cycle_refuted.
Print Assumptions c30_all_methods_partial.
Print Assumptions c30_single_partial.
Print Assumptions c30_repeated_refuted.
Print Assumptions c31_no_channel.
Print Assumptions c33_signature_partial.
Print Assumptions c33_signature_refuted.
