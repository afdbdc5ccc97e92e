(** C306: the CRLs that were fetched are used to verify peers (OpenSSL). *)
From Coq Require Import String NArith Bool List Lia.
From Verif Require Import Bytes CStr TlsConn CrlMove.
Import ListNotations.
Local Open Scope list_scope.

(* ---------------- specification ---------------- *)
(** A peer is verified with [s]: whom it trusts, which CRLs it knows, and whether the whole chain is looked up in them. *)
Definition trusts (s : store) (d : bytes) : Prop := In (OCert d) (objs s).
Definition knows (s : store) (d : bytes) : Prop := In (OCrl d) (objs s).
(** X509_V_FLAG_CRL_CHECK is bit 2, X509_V_FLAG_CRL_CHECK_ALL is bit 3. *)
Definition checks (s : store) : Prop := N.testbit (flags s) 2 = true /\ N.testbit (flags s) 3 = true.

(* ---------------- lemmas ---------------- *)
Lemma has_crl_spec d l : has_crl d l = true <-> In (OCrl d) l.
Proof.
  unfold has_crl. rewrite existsb_exists. split.
  - intros ([e|e|] & I & E); try discriminate. apply beqb_spec in E as ->. exact I.
  - intros I. exists (OCrl d). split; [exact I|]. now apply beqb_spec.
Qed.

Lemma add_spec d s s' : store_add_crl true d s = Some s' ->
  flags s' = flags s /\ (forall o, In o (objs s') <-> In o (objs s) \/ o = OCrl d).
Proof.
  unfold store_add_crl; cbn [negb]. destruct (has_crl d (objs s)) eqn:H; intros [= <-].
  - split; [reflexivity|]. intros o. split; [now left|]. intros [I| ->]; [exact I|]. now apply has_crl_spec.
  - cbn [flags objs]. split; [reflexivity|]. intros o. rewrite in_app_iff. cbn. intuition congruence.
Qed.

Lemma move_spec mem : forall src i dst s, move_crls mem i src dst = (true, s) ->
  flags s = flags dst /\ (forall o, In o (objs s) <-> In o (objs dst) \/ exists d, o = OCrl d /\ In (OCrl d) src).
Proof.
  induction src as [|o src IH]; intros i dst s; cbn [move_crls].
  - intros [= <-]. split; [reflexivity|]. intros o. split; [now left|]. intros [I|(d & _ & [])]. exact I.
  - destruct o as [d|d|].
    + intros E. apply IH in E as [F I]. split; [exact F|]. intros o. rewrite I. cbn [In].
      split; (intros [?|(e & ? & J)]; [now left|right; exists e; split; [assumption|]]); [now right|].
      destruct J as [J|J]; [discriminate|exact J].
    + destruct (mem i) eqn:M.
      * destruct (store_add_crl true d dst) as [t|] eqn:A; [|discriminate].
        intros E. apply add_spec in A as [FA IA]. apply IH in E as [F I]. split; [congruence|].
        intros o. rewrite I, IA. cbn [In]. split.
        -- intros [[?| ->]|(e & ? & J)]; [now left|right; exists d; auto|right; exists e; auto].
        -- intros [?|(e & -> & [J|J])]; [now left; left|left; right; congruence|right; exists e; auto].
      * discriminate.
    + intros E. apply IH in E as [F I]. split; [exact F|]. intros o. rewrite I. cbn [In].
      split; (intros [?|(e & ? & J)]; [now left|right; exists e; split; [assumption|]]); [now right|].
      destruct J as [J|J]; [discriminate|exact J].
Qed.

(** Moving succeeds exactly if there is memory for all the CRLs. *)
Lemma move_ok mem : forall src i dst, fst (move_crls mem i src dst) = true <->
  forall k d, nth_error src k = Some (OCrl d) -> mem (i + k)%nat = true.
Proof.
  induction src as [|o src IH]; intros i dst; cbn [move_crls].
  - split; [|reflexivity]. intros _ [|k] d; discriminate.
  - assert (T : (forall k d, nth_error src k = Some (OCrl d) -> mem (S i + k)%nat = true) ->
                (forall d, o = OCrl d -> mem i = true) ->
                forall k d, nth_error (o :: src) k = Some (OCrl d) -> mem (i + k)%nat = true).
    { intros R Z [|k] d; cbn [nth_error]; intros E; [injection E as E; rewrite PeanoNat.Nat.add_0_r; now apply (Z d)|].
      replace (i + S k)%nat with (S i + k)%nat by lia. now apply (R k d). }
    assert (B : (forall k d, nth_error (o :: src) k = Some (OCrl d) -> mem (i + k)%nat = true) ->
                forall k d, nth_error src k = Some (OCrl d) -> mem (S i + k)%nat = true).
    { intros R k d E. replace (S i + k)%nat with (i + S k)%nat by lia. now apply (R (S k) d). }
    destruct o as [d|d|].
    + rewrite IH. split; [intros R; apply T; [exact R|discriminate]|exact B].
    + unfold store_add_crl. destruct (mem i) eqn:M; cbn [negb].
      * destruct (has_crl d (objs dst)); rewrite IH; (split; [intros R; apply T; auto|exact B]).
      * cbn. split; [discriminate|]. intros R. specialize (R 0%nat d eq_refl). rewrite PeanoNat.Nat.add_0_r in R. congruence.
    + rewrite IH. split; [intros R; apply T; [exact R|discriminate]|exact B].
Qed.

Lemma bits f : N.testbit (N.lor f (N.lor CRL_CHECK CRL_CHECK_ALL)) 2 = true /\ N.testbit (N.lor f (N.lor CRL_CHECK CRL_CHECK_ALL)) 3 = true.
Proof. rewrite !N.lor_spec. cbn. split; apply orb_true_r. Qed.

(* ---------------- theorems ---------------- *)
(** Nobody is trusted because of the store of CRLs, and nobody trusted is lost. *)
Theorem c306_trust : forall mem c s, setup_store mem c = Some s -> forall d, trusts s d <-> trusts (t_store c) d.
Proof.
  intros mem c s. unfold setup_store, trusts. destruct (t_cert c), (t_key c); cbn [negb]; try discriminate.
  destruct (t_crls c) as [r|]; [|intros [= <-]; reflexivity].
  destruct (move_crls mem 0 (objs r) (t_store c)) as [[] t] eqn:E; [|discriminate].
  intros [= <-] d. cbn [objs]. apply move_spec in E as [_ I]. rewrite I. split; [intros [J|(e & X & _)]; [exact J|discriminate]|now left].
Qed.

(** All CRLs of both stores are known, and no others. *)
Theorem c306_known : forall mem c s, setup_store mem c = Some s ->
  forall d, knows s d <-> knows (t_store c) d \/ exists r, t_crls c = Some r /\ knows r d.
Proof.
  intros mem c s. unfold setup_store, knows. destruct (t_cert c), (t_key c); cbn [negb]; try discriminate.
  destruct (t_crls c) as [r|].
  - destruct (move_crls mem 0 (objs r) (t_store c)) as [[] t] eqn:E; [|discriminate].
    intros [= <-] d. cbn [objs]. apply move_spec in E as [_ I]. rewrite I. split.
    + intros [J|(e & [= <-] & J)]; [now left|right; exists r; auto].
    + intros [J|(q & [= <-] & J)]; [now left|right; exists d; auto].
  - intros [= <-] d. split; [now left|]. intros [J|(q & [=] & _)]. exact J.
Qed.

(** CRLs are checked for the whole chain if there is a store of them; no other flag is changed, and none without such a store. *)
Theorem c306_checks : forall mem c s, setup_store mem c = Some s ->
  match t_crls c with
  | Some _ => checks s /\ forall i, i <> 2%N -> i <> 3%N -> N.testbit (flags s) i = N.testbit (flags (t_store c)) i
  | None => flags s = flags (t_store c)
  end.
Proof.
  intros mem c s. unfold setup_store. destruct (t_cert c), (t_key c); cbn [negb]; try discriminate.
  destruct (t_crls c) as [r|]; [|now intros [= <-]].
  destruct (move_crls mem 0 (objs r) (t_store c)) as [[] t] eqn:E; [|discriminate].
  intros [= <-]. apply move_spec in E as [F _]. unfold checks. cbn [flags]. split; [apply bits|].
  intros i A B. rewrite F. change (N.lor CRL_CHECK CRL_CHECK_ALL) with 12%N. rewrite N.lor_spec.
  assert (Z : N.testbit 12 i = false).
  { destruct (N.lt_ge_cases i 4) as [L|L].
    - assert (i = 0 \/ i = 1)%N as [-> | ->] by lia; reflexivity.
    - apply N.bits_above_log2. change (N.log2 12) with 3%N. lia. }
  rewrite Z. apply orb_false_r.
Qed.

(** It succeeds exactly if OpenSSL takes the certificate and the key, and there is memory for every CRL. *)
Theorem c306_succeeds : forall mem c, (exists s, setup_store mem c = Some s) <->
  t_cert c = true /\ t_key c = true /\
  forall r k d, t_crls c = Some r -> nth_error (objs r) k = Some (OCrl d) -> mem k = true.
Proof.
  intros mem c. unfold setup_store. destruct (t_cert c), (t_key c); cbn [negb];
    try (split; [intros (s & [=])|intros (A & B & _); discriminate]).
  destruct (t_crls c) as [r|].
  - pose proof (move_ok mem (objs r) 0 (t_store c)) as M. cbn [Nat.add] in M.
    destruct (move_crls mem 0 (objs r) (t_store c)) as [[] t]; cbn [fst] in M.
    + split; [|eauto]. intros _. split; [|split]; auto. intros q k d [= <-]. now apply (proj1 M eq_refl k d).
    + split; [intros (s & [=])|]. intros (_ & _ & H). assert (X : false = true) by (apply M; intros k d; now apply (H r k d)). discriminate.
  - split; [|eauto]. intros _. split; [|split]; auto. intros q k d [=].
Qed.

(** The full claim: where the certificates name distribution points, a connection is set up only with the checks. *)
Definition c306_full : Prop := forall der pem can_store curl uris l mem cert key s s', l <> [] ->
  fetch_setup der pem can_store curl uris l mem cert key s = Some s' -> checks s'.

(** It holds if the store of CRLs could be made. *)
Theorem c306_partial : forall der pem curl uris l mem cert key s s', l <> [] ->
  fetch_setup der pem true curl uris l mem cert key s = Some s' -> checks s'.
Proof.
  intros der pem curl uris l mem cert key s s' N. unfold fetch_setup, crl_fetch. cbn [negb].
  destruct curl, uris; cbn [negb]; try discriminate. destruct l as [|f l]; [congruence|].
  assert (K : forall l buf st r o x, crl_loop der pem OpenSSL l buf st r = CrlRet false o x -> o <> None).
  { clear. induction l as [|f l IH]; intros buf st r o x; cbn [crl_loop]; [intros [= _ <- _]; discriminate|].
    destruct (d_ok f); cbn [negb]; [|apply IH].
    destruct (add_crl der pem OpenSSL (buf ++ d_data f)); [apply IH|discriminate|discriminate]. }
  destruct (crl_loop der pem OpenSSL (f :: l) [] [] false) as [[] o x|] eqn:E; try discriminate.
  apply K in E. destruct o as [o|]; [|congruence]. intros H. now apply c306_checks in H as [H _].
Qed.

(** What was fetched is known, besides the CRLs that were in the store before. *)
Theorem c306_known_fetched : forall der pem can_store curl uris l mem cert key s s' o x,
  crl_fetch der pem OpenSSL can_store curl uris l = CrlRet false (Some o) x ->
  fetch_setup der pem can_store curl uris l mem cert key s = Some s' ->
  forall d, knows s' d <-> knows s d \/ In d o.
Proof.
  intros der pem can_store curl uris l mem cert key s s' o x E. unfold fetch_setup. rewrite E. cbn [option_map].
  intros H d. apply c306_known with (d := d) in H. cbn [t_store t_crls] in H. rewrite H. unfold knows. split.
  - intros [J|(r & [= <-] & J)]; [now left|right]. cbn [crl_objs objs] in J. apply in_map_iff in J as (e & [= ->] & J). exact J.
  - intros [J|J]; [now left|right]. eexists. split; [reflexivity|]. cbn [crl_objs objs]. now apply in_map.
Qed.

(** Without memory for the store of CRLs, the connection is set up without any check, whatever the certificates name. *)
Theorem c306_unchecked : forall der pem curl uris l mem s,
  fetch_setup der pem false curl uris l mem true true s = Some s.
Proof. reflexivity. Qed.

Theorem c306_refuted : ~ c306_full.
Proof.
  intros H. specialize (H (fun _ => true) (fun _ => true) false true true [{| d_data := bs "crl"; d_ok := true |}] (fun _ => true) true true
    (mkStore [OCert (bs "ca")] 0) (mkStore [OCert (bs "ca")] 0)).
  destruct H as [H _]; [discriminate|reflexivity|discriminate].
Qed.

(* ---------------- cases ---------------- *)
Example c306_case :
  setup_store (fun _ => true) {| t_cert := true; t_key := true; t_store := mkStore [OCert (bs "ca"); OCrl (bs "a")] 32;
    t_crls := Some (mkStore [OCrl (bs "a"); ONone; OCert (bs "evil"); OCrl (bs "b")] 0) |}
  = Some (mkStore [OCert (bs "ca"); OCrl (bs "a"); OCrl (bs "b")] 44).
Proof. reflexivity. Qed.
Example c306_case_memory :
  setup_store (fun i => Nat.eqb i 0) {| t_cert := true; t_key := true; t_store := mkStore [OCert (bs "ca")] 0;
    t_crls := Some (mkStore [OCrl (bs "a"); OCrl (bs "b")] 0) |} = None.
Proof. reflexivity. Qed.
Example c306_case_fetch :
  fetch_setup (fun _ => true) (fun _ => false) true true true [{| d_data := bs "x"; d_ok := true |}; {| d_data := bs "y"; d_ok := true |}] (fun _ => true) true true
    (mkStore [OCert (bs "ca")] 0) = Some (mkStore [OCert (bs "ca"); OCrl (bs "x"); OCrl (bs "y")] 12).
Proof. reflexivity. Qed.

Print Assumptions c306_trust.
Print Assumptions c306_known.
Print Assumptions c306_checks.
Print Assumptions c306_succeeds.
Print Assumptions c306_partial.
Print Assumptions c306_known_fetched.
Print Assumptions c306_unchecked.
Print Assumptions c306_refuted.
