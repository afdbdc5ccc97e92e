(** C38: a TLS client is accepted only if it is trusted. *)
From Coq Require Import Ascii String NArith ZArith Bool Lia List.
From Verif Require Import Bytes CStr ClientMsgs TlsNames Prop_TlsHex Prop_TlsName.
Import ListNotations.
Local Open Scope N_scope.

Section C38.
Variable digest : alg -> cert -> option bytes.
Variable endpts : list (bytes * tlsopts).
Variable truststore : list (bytes * list bytes).
Variable import : bytes -> option cert.
Variable user_clb : option (bytes -> bool).

(* ------------------------------------------------------------------ *)
(** ** Specification *)

(** The first pair with a name. *)
Definition named {A} (l : list (bytes * A)) (n : bytes) (x : A) : Prop :=
  exists pre post, l = pre ++ (n, x) :: post /\ forall y, ~ In (n, y) pre.

(** [b] (base64) is an end-entity certificate of a group. *)
Definition in_group (g : grouping) (b : bytes) : Prop :=
  match g with
  | GLocal l => In b l
  | GTruststore r => exists l, named truststore r l /\ In b l
  end.

(** The certificate equals a configured end-entity certificate, of the endpoint or of the one it refers to. *)
Definition equals_ee (o : tlsopts) (c : cert) : Prop :=
  exists o', (o' = o \/ exists n, to_ref o = Some n /\ named endpts n o')
    /\ exists b c', in_group (to_ee o') b /\ import b = Some c' /\ ct_der c' = ct_der c.

(** What the callback is called with by OpenSSL: the certificate at depth 0 is the client's, and the last call is the successful
    one for it. *)
Definition calls_of (leaf : cert) (evs : list event) : Prop :=
  (forall e, In e evs -> ev_depth e = 0 -> ev_cert e = leaf)
  /\ (forall pre e post, evs = pre ++ e :: post -> ev_err e = None -> ev_depth e = 0 -> post = []).

Let run o chain leaf evs := verify_run digest endpts truststore import user_clb o chain leaf evs None.

(* ------------------------------------------------------------------ *)
(** ** Lemmas *)

Lemma ee_loop_ok c l : ee_loop import c l = VOk -> exists b c', In b l /\ import b = Some c' /\ ct_der c' = ct_der c.
Proof.
  induction l as [|b l IH]; [discriminate|]. cbn [ee_loop]. destruct (import b) as [c'|] eqn:E; [|discriminate].
  destruct (beqb (ct_der c) (ct_der c')) eqn:Q.
  - intros _. apply beqb_spec in Q. exists b, c'. split; [left; reflexivity|]. auto.
  - intros H. destruct (IH H) as (b1 & c1 & I & R). exists b1, c1. split; [right; exact I|exact R].
Qed.

Lemma peer1_ok c g : verify_peer1 truststore import c g = VOk -> exists b c', in_group g b /\ import b = Some c' /\ ct_der c' = ct_der c.
Proof.
  unfold verify_peer1, group_certs. destruct g as [l|r].
  - intros H. apply ee_loop_ok in H. exact H.
  - destruct (find _ truststore) as [x|] eqn:F; [|discriminate]. intros H. apply ee_loop_ok in H.
    destruct H as (b & c' & I & R). exists b, c'. split; [|exact R]. exists (snd x). split; [|exact I].
    apply find_named. rewrite F. reflexivity.
Qed.

Lemma peer_ok c o : verify_peer endpts truststore import c o = VOk -> equals_ee o c.
Proof.
  unfold verify_peer. destruct (verify_peer1 truststore import c (to_ee o)) eqn:P1.
  - intros _. exists o. split; [left; reflexivity|]. exact (peer1_ok _ _ P1).
  - destruct (to_ref o) as [n|] eqn:R; [|discriminate]. destruct (referenced endpts n) as [o'|] eqn:Rf; [|discriminate].
    destruct (verify_peer1 truststore import c (to_ee o')) eqn:P2; try discriminate. intros _.
    exists o'. split; [right; exists n; split; [exact R|apply find_named; exact Rf]|]. exact (peer1_ok _ _ P2).
  - destruct (to_ref o) as [n|] eqn:R; [|discriminate]. destruct (referenced endpts n) as [o'|] eqn:Rf; [|discriminate].
    destruct (verify_peer1 truststore import c (to_ee o')) eqn:P2; try discriminate. intros _.
    exists o'. split; [right; exists n; split; [exact R|apply find_named; exact Rf]|]. exact (peer1_ok _ _ P2).
  - discriminate.
Qed.

(** What verifying a certificate does. *)
Lemma verify_cert_spec o chain c d trusted r u :
  verify_cert digest endpts truststore import user_clb o chain c d trusted None = (r, u) ->
  (r = VOk -> (d = 0 /\ (trusted = true \/ equals_ee o c) /\ exists n, u = Some n /\ opts_name digest endpts o chain = NName n
                 /\ (forall f, user_clb = Some f -> f n = true))
              \/ (d <> 0 /\ u = None))
  /\ (d <> 0 -> u = None).
Proof.
  unfold verify_cert. destruct (ct_subject c); [destruct (ct_issuer c)|]; try (intros [= <- <-]; split; [discriminate|reflexivity]).
  destruct (N.eqb_spec d 0) as [E|E]; [|intros [= <- <-]; split; [right; auto|reflexivity]].
  destruct (if trusted then VOk else verify_peer endpts truststore import c o) eqn:P;
    try (intros [= <- <-]; split; [discriminate|reflexivity]).
  assert (T : trusted = true \/ equals_ee o c) by (destruct trusted; [left; reflexivity|right; apply peer_ok; exact P]).
  destruct (opts_name digest endpts o chain) as [n| | |] eqn:O; try (intros [= <- <-]; split; [discriminate|reflexivity]).
  destruct user_clb as [f|] eqn:Uc.
  - destruct (f n) eqn:Fn; intros [= <- <-]; (split; [|congruence]); [|discriminate].
    intros _. left. split; [exact E|]. split; [exact T|]. exists n. split; [reflexivity|]. split; [reflexivity|]. intros g [= <-]. exact Fn.
  - intros [= <- <-]. split; [|congruence]. intros _. left. split; [exact E|]. split; [exact T|]. exists n. split; [reflexivity|].
    split; [reflexivity|discriminate].
Qed.

Lemma verify_cert_known o chain c d trusted n :
  verify_cert digest endpts truststore import user_clb o chain c d trusted (Some n) = (VOk, Some n).
Proof. reflexivity. Qed.

(** One call that lets the verification go on. *)
Lemma cb_spec o chain leaf e u u' :
  (ev_depth e = 0 -> ev_cert e = leaf) ->
  verify_cb digest endpts truststore import user_clb o chain leaf e u = Some (true, u') ->
  (forall x, ev_err e = Some x -> (ev_depth e = 0 \/ x = SelfSignedInChain) -> (equals_ee o leaf \/ exists n, u = Some n))
  /\ (u = u' \/ (u = None /\ ev_depth e = 0 /\ (ev_err e = None \/ equals_ee o leaf)
       /\ exists n, u' = Some n /\ opts_name digest endpts o chain = NName n /\ (forall f, user_clb = Some f -> f n = true)))
  /\ (ev_err e = None -> ev_depth e = 0 -> u' <> None).
Proof.
  intros L. unfold verify_cb.
  destruct u as [n|].
  { (* the name is known *)
    intros H. split; [intros; right; eauto|].
    assert (U : Some n = u').
    { destruct (ev_err e) as [x|]; [|rewrite verify_cert_known in H; congruence].
      destruct x; try rewrite verify_cert_known in H; try destruct (ev_depth e =? 0); try destruct (0 <? ev_depth e);
        try destruct (verify_peer endpts truststore import leaf o); congruence. }
    split; [left; exact U|]. intros _ _. rewrite <- U. discriminate. }
  destruct (ev_err e) as [x|] eqn:Ex.
  - assert (G : forall r v, verify_cert digest endpts truststore import user_clb o chain (ev_cert e) (ev_depth e) false None = (r, v) ->
        match r with VUb => None | VFatal => Some (false, v) | VOk => Some (true, v) | VNo => Some (0 <? ev_depth e, v) end = Some (true, u') ->
        (forall y, Some x = Some y -> (ev_depth e = 0 \/ y = SelfSignedInChain) -> (ev_depth e = 0 -> equals_ee o leaf))
        /\ (None = u' \/ (@None bytes = None /\ ev_depth e = 0 /\ (Some x = None \/ equals_ee o leaf)
       /\ exists n, u' = Some n /\ opts_name digest endpts o chain = NName n /\ (forall f, user_clb = Some f -> f n = true)))).
    { intros r v V H. destruct (verify_cert_spec _ _ _ _ _ _ _ V) as [A B]. destruct r; try discriminate.
      - injection H as ->. destruct (A eq_refl) as [(D & [T|T] & n & N) | (D & N)]; [discriminate| |].
        + rewrite (L D) in T. split; [intros; exact T|]. right. split; [reflexivity|]. split; [exact D|]. split; [right; exact T|]. exists n. exact N.
        + split; [intros y _ _ D0; contradiction|left; congruence].
      - destruct (N.ltb_spec 0 (ev_depth e)) as [Lt|Le]; [|discriminate]. injection H as <-.
        split; [intros y _ _ D0; lia|]. left. symmetry. apply B. lia. }
    destruct x; intros H.
    + destruct (N.eqb_spec (ev_depth e) 0) as [D|D].
      * destruct (verify_cert _ _ _ _ _ _ _ _ _ _ _) as [r v] eqn:V. destruct (G r v eq_refl H) as [G1 G2].
        split; [intros y Y O; left; eapply G1; eauto|]. split; [exact G2|discriminate].
      * destruct (0 <? ev_depth e) eqn:Z; [|discriminate]. injection H as <-.
        split; [intros y [= <-] [F|F]; [congruence|discriminate]|]. split; [left; reflexivity|discriminate].
    + destruct (N.eqb_spec (ev_depth e) 0) as [D|D].
      * destruct (verify_cert _ _ _ _ _ _ _ _ _ _ _) as [r v] eqn:V. destruct (G r v eq_refl H) as [G1 G2].
        split; [intros y Y O; left; eapply G1; eauto|]. split; [exact G2|discriminate].
      * destruct (0 <? ev_depth e) eqn:Z; [|discriminate]. injection H as <-.
        split; [intros y [= <-] [F|F]; [congruence|discriminate]|]. split; [left; reflexivity|discriminate].
    + destruct (verify_cert _ _ _ _ _ _ _ _ _ _ _) as [r v] eqn:V. destruct (G r v eq_refl H) as [G1 G2].
      split; [intros y Y [O|O]; [left; eapply G1; eauto|congruence]|]. split; [exact G2|discriminate].
    + destruct (verify_cert _ _ _ _ _ _ _ _ _ _ _) as [r v] eqn:V. destruct (G r v eq_refl H) as [G1 G2].
      split; [intros y Y [O|O]; [left; eapply G1; eauto|congruence]|]. split; [exact G2|discriminate].
    + destruct (verify_peer endpts truststore import leaf o) eqn:P; try discriminate. injection H as <-.
      split; [intros y _ _; left; apply peer_ok; exact P|]. split; [left; reflexivity|discriminate].
    + destruct (N.ltb_spec 0 (ev_depth e)) as [Lt|Le]; [|discriminate]. injection H as <-.
      split; [intros y [= <-] [F|F]; [lia|discriminate]|]. split; [left; reflexivity|discriminate].
  - destruct (verify_cert _ _ _ _ _ _ _ _ _ _ _) as [r v] eqn:V. destruct (verify_cert_spec _ _ _ _ _ _ _ V) as [A B].
    intros H. split; [discriminate|]. destruct r; try discriminate.
    + injection H as ->. destruct (A eq_refl) as [(D & _ & n & N) | (D & N)].
      * split; [right; split; [reflexivity|]; split; [exact D|]; split; [left; reflexivity|exists n; exact N]|].
        intros _ _. destruct N as [-> _]. discriminate.
      * split; [left; congruence|]. intros _ D0. contradiction.
    + destruct (N.ltb_spec 0 (ev_depth e)) as [Lt|Le]; [|discriminate]. injection H as <-.
      split; [left; symmetry; apply B; lia|]. intros _ D0. lia.
Qed.

Lemma run_spec o chain leaf evs : forall u u',
  calls_of leaf evs -> (forall n, u = Some n -> equals_ee o leaf \/ evs = []) ->
  verify_run digest endpts truststore import user_clb o chain leaf evs u = Some (true, u') ->
  (forall e x, In e evs -> ev_err e = Some x -> (ev_depth e = 0 \/ x = SelfSignedInChain) -> equals_ee o leaf)
  /\ (u = u' \/ exists n, u' = Some n /\ opts_name digest endpts o chain = NName n /\ (forall f, user_clb = Some f -> f n = true))
  /\ ((exists e, In e evs /\ ev_err e = None /\ ev_depth e = 0) -> u' <> None).
Proof.
  induction evs as [|e evs IH]; intros u u' [C1 C2] Hu; cbn [verify_run].
  - intros [= ->]. split; [intros e x []|]. split; [left; reflexivity|]. intros (e & [] & _).
  - destruct (verify_cb _ _ _ _ _ _ _ _ _ _) as [[[|] v]|] eqn:Cb; try discriminate. intros H.
    destruct (cb_spec _ _ _ _ _ _ (C1 e (or_introl eq_refl)) Cb) as (S1 & S2 & S3).
    assert (Cs : calls_of leaf evs).
    { split; [intros e' I; apply C1; right; exact I|]. intros pre e' post E. apply (C2 (e :: pre) e' post). rewrite E. reflexivity. }
    assert (Hv : forall n, v = Some n -> equals_ee o leaf \/ evs = []).
    { intros n ->. destruct S2 as [-> | (_ & D & [N|Q] & _)].
      - destruct (Hu n eq_refl) as [Q|Q]; [left; exact Q|discriminate].
      - right. exact (C2 [] e evs eq_refl N D).
      - left; exact Q. }
    destruct (IH v u' Cs Hv H) as (I1 & I2 & I3).
    assert (Hk : v <> None -> u' <> None).
    { intros Nv. destruct I2 as [-> | (n & -> & _)]; [exact Nv|discriminate]. }
    split; [|split].
    + intros e' x [<-|I] Ex Dx; [|eapply I1; eauto]. destruct (S1 x Ex Dx) as [Q|[n ->]]; [exact Q|].
      destruct (Hu n eq_refl) as [Q|Q]; [exact Q|discriminate].
    + destruct I2 as [-> | I2]; [|right; exact I2]. destruct S2 as [-> | (_ & _ & _ & S2)]; [left; reflexivity|right; exact S2].
    + intros (e' & [<-|I] & Ne & D); [apply Hk; apply S3; assumption|apply I3; eauto].
Qed.

(* ------------------------------------------------------------------ *)
(** ** Theorems *)

(** C38: with errors only for the client's certificate itself, or of the kind "self-signed certificate in the chain", a client is
    accepted only if there is no error or it equals a configured end-entity certificate. *)
Theorem c38_trusted_partial o chain leaf evs u :
  calls_of leaf evs -> run o chain leaf evs = Some (true, u) ->
  (forall e x, In e evs -> ev_err e = Some x -> ev_depth e = 0 \/ x = SelfSignedInChain) ->
  (forall e, In e evs -> ev_err e = None) \/ equals_ee o leaf.
Proof.
  intros C H E. destruct (run_spec o chain leaf evs None u C ltac:(intros ? F; discriminate F) H) as (R & _).
  clear H C. revert R E. generalize evs as l. induction l as [|e l IH]; intros R E; [left; intros e []|].
  destruct (ev_err e) as [x|] eqn:Ex.
  - right. apply (R e x); [left; reflexivity|exact Ex|]. apply (E e x); [left; reflexivity|exact Ex].
  - destruct IH as [IH|IH].
    + intros e' x I. apply R. right; exact I.
    + intros e' x I. apply E. right; exact I.
    + left. intros e' [<-|I]; auto.
    + right; exact IH.
Qed.

(** In any case an error for the client's own certificate is overcome only by an end-entity certificate. *)
Theorem c38_own_errors o chain leaf evs u e x :
  calls_of leaf evs -> run o chain leaf evs = Some (true, u) ->
  In e evs -> ev_err e = Some x -> ev_depth e = 0 \/ x = SelfSignedInChain -> equals_ee o leaf.
Proof. intros C H. destruct (run_spec o chain leaf evs None u C ltac:(intros ? F; discriminate F) H) as (R & _). apply R. Qed.

(** And an expired, revoked or otherwise faulty certificate of the client is never accepted. *)
Theorem c38_faulty o chain leaf evs e n :
  In e evs -> ev_depth e = 0 -> ev_err e = Some (OtherError n) -> forall u, run o chain leaf evs <> Some (true, u).
Proof.
  unfold run. generalize (@None bytes) as v. induction evs as [|a evs IH]; intros v I D E u; [destruct I|]. cbn [verify_run].
  destruct I as [<-|I].
  - unfold verify_cb. rewrite E, D. cbn. discriminate.
  - destruct (verify_cb _ _ _ _ _ _ _ _ _ _) as [[[|] w]|]; try discriminate. apply IH; assumption.
Qed.

(** C36: a client is accepted only under a name given by its certificates, approved by the application if it wants to. *)
Theorem c36_refused o chain leaf evs u :
  calls_of leaf evs -> run o chain leaf evs = Some (true, u) ->
  (exists e, In e evs /\ ev_err e = None /\ ev_depth e = 0) ->
  exists n, u = Some n /\ opts_name digest endpts o chain = NName n /\ (forall f, user_clb = Some f -> f n = true).
Proof.
  intros C H L. destruct (run_spec o chain leaf evs None u C ltac:(intros ? F; discriminate F) H) as (_ & [<- | N] & K); [|exact N].
  exfalso. apply (K L). reflexivity.
Qed.

(* ------------------------------------------------------------------ *)
(** ** mbedTLS *)

Definition mcalls_of (leaf : cert) (evs : list mevent) : Prop :=
  (forall e, In e evs -> me_depth e = 0 -> me_cert e = leaf)
  /\ (forall pre e post, evs = pre ++ e :: post -> me_depth e = 0 -> post = []).

(** C38 with mbedTLS.  The flag "certificate missing" is not given to a certificate. *)
Theorem c38_mbedtls o leaf evs u :
  mcalls_of leaf evs -> (forall e, In e evs -> me_flags e <> FlMissing) ->
  mverify_run digest endpts truststore import user_clb o [] evs None true = Some (true, u) ->
  (forall e, In e evs -> me_flags e = FlOk) \/ equals_ee o leaf.
Proof.
  generalize (@nil cert) as chain. generalize true at 1 as good.
  induction evs as [|e evs IH]; intros good chain [C1 C2] M; cbn [mverify_run]; [intros _; left; intros e []|].
  destruct (mverify_cb _ _ _ _ _ _ _ _ _) as [[[[|] f] v]|] eqn:Cb; try discriminate.
  assert (Last : forall evs chain v g u, mverify_run digest endpts truststore import user_clb o chain evs v g = Some (true, u) -> g = true).
  { clear. induction evs as [|e evs IH]; intros chain v g u; cbn [mverify_run]; [congruence|].
    destruct (mverify_cb _ _ _ _ _ _ _ _ _) as [[[[|] f] w]|]; try discriminate. intros H. apply IH in H. apply andb_true_iff in H. tauto. }
  intros H. pose proof (Last _ _ _ _ _ H) as G. apply andb_true_iff in G. destruct G as [G F]. destruct f; try discriminate. clear F.
  unfold mverify_cb in Cb.
  destruct (me_flags e) eqn:Fl; try discriminate.
  - (* no error *)
    destruct (N.eqb_spec (me_depth e) 0) as [D|D].
    + pose proof (C2 [] e evs eq_refl D). subst evs. left. intros e' [<-|[]]. exact Fl.
    + destruct (verify_cert _ _ _ _ _ _ _ _ _ _ _) as [r w] eqn:V. destruct (verify_cert_spec _ _ _ _ _ _ _ V) as [_ B].
      assert (v = None) as ->.
      { specialize (B D). subst w. destruct r; try discriminate; injection Cb; intros; subst; auto. }
      assert (Cs : mcalls_of leaf evs).
      { split; [intros e' I; apply C1; right; exact I|]. intros pre e' post E. apply (C2 (e :: pre) e' post). rewrite E. reflexivity. }
      destruct (IH (good && true) (chain ++ [me_cert e]) Cs) as [Q|Q]; auto.
      * intros e' I. apply M. right; exact I.
      * left. intros e' [<-|I]; auto.
  - (* not trusted *)
    destruct (N.eqb_spec (me_depth e) 0) as [D|D].
    + destruct (verify_cert _ _ _ _ _ _ _ _ _ _ _) as [r w] eqn:V. destruct (verify_cert_spec _ _ _ _ _ _ _ V) as [A _].
      cbn in Cb. destruct r; try discriminate.
      destruct (A eq_refl) as [(_ & [T|T] & _) | (N0 & _)]; [discriminate| |congruence].
      right. rewrite <- (C1 e (or_introl eq_refl) D). exact T.
    + cbn in Cb. destruct (me_depth e); discriminate.
  - exfalso. apply (M e (or_introl eq_refl)). exact Fl.
  - destruct (me_depth e); discriminate.
Qed.
End C38.

(* ------------------------------------------------------------------ *)
(** ** Where it fails, and cases *)

Definition open_opts : tlsopts := mkTls [mkCtn None MtCn None] None (GLocal []).
Definition mallory := mkCert (bs "m") (Some [(bs "CN", bs "admin")]) true None.
Definition rogue := mkCert (bs "r") (Some [(bs "CN", bs "Rogue intermediate CA")]) true None.

(** OpenSSL's calls for a client's certificate signed by a certificate whose issuer is not known: "unable to get local issuer
    certificate" at depth 1, then success for the client's certificate, whose signature is good.  There is no end-entity certificate
    and no authority that issued any of the chain, but the client is accepted. *)
Theorem c38_unknown_issuer_refuted :
  exists evs, calls_of mallory evs /\ (exists e, In e evs /\ ev_err e = Some NoIssuerLocally)
    /\ ~ equals_ee [] [] (fun _ => None) open_opts mallory
    /\ forall digest, verify_run digest [] [] (fun _ => None) None open_opts [mallory; rogue] mallory evs None = Some (true, Some (bs "admin")).
Proof.
  exists [mkEv (Some NoIssuerLocally) 1 rogue; mkEv None 0 mallory].
  split; [|split; [|split]].
  - split; [intros e [<-|[<-|[]]] D; [discriminate|reflexivity]|].
    intros [|a [|b [|c pre]]] e post E N D; injection E; intros; subst; try discriminate; reflexivity.
  - eexists. split; [left; reflexivity|reflexivity].
  - intros (o' & _ & b & c' & _ & F & _). discriminate.
  - reflexivity.
Qed.

(** An expired (10) or revoked (23) certificate of an authority does not matter either. *)
Theorem c38_expired_authority_refuted n :
  exists evs, calls_of mallory evs /\ (exists e, In e evs /\ ev_err e = Some (OtherError n))
    /\ ~ equals_ee [] [] (fun _ => None) open_opts mallory
    /\ forall digest, verify_run digest [] [] (fun _ => None) None open_opts [mallory; rogue] mallory evs None = Some (true, Some (bs "admin")).
Proof.
  exists [mkEv (Some (OtherError n)) 1 rogue; mkEv None 1 rogue; mkEv None 0 mallory].
  split; [|split; [|split]].
  - split; [intros e [<-|[<-|[<-|[]]]] D; [discriminate|discriminate|reflexivity]|].
    intros [|a [|b [|c [|d pre]]]] e post E N D; injection E; intros; subst; try discriminate; reflexivity.
  - eexists. split; [left; reflexivity|reflexivity].
  - intros (o' & _ & b & c' & _ & F & _). discriminate.
  - reflexivity.
Qed.

(** A configured end-entity certificate that cannot be decoded makes the comparison undefined. *)
Theorem c38_undecodable_refuted digest endpts truststore import user_clb o b l chain c :
  to_ee o = GLocal (b :: l) -> import b = None -> (exists s, ct_subject c = Some s) -> ct_issuer c = true ->
  verify_run digest endpts truststore import user_clb o chain c [mkEv (Some DepthZeroSelfSigned) 0 c] None = None.
Proof.
  intros E I [s S] Is. cbn [verify_run]. unfold verify_cb. cbn [ev_err ev_depth ev_cert]. cbn [N.eqb].
  unfold verify_cert. rewrite S, Is. cbn [N.eqb]. unfold verify_peer, verify_peer1, group_certs. rewrite E. cbn [ee_loop]. rewrite I. reflexivity.
Qed.

(** A self-signed client's certificate that is configured as an end-entity certificate is accepted; another is not. *)
Definition ee_opts : tlsopts := mkTls [mkCtn None MtCn None] None (GTruststore (bs "clients")).
Definition ex_import (b : bytes) : option cert := if beqb b (bs "leaf64") then Some ex_leaf else None.
Definition ex_store := [(bs "clients", [bs "leaf64"])].
Example ex_ee_accepted :
  verify_run ex_digest [] ex_store ex_import (Some (fun n => beqb n (bs "joe"))) ee_opts [ex_leaf] ex_leaf
    [mkEv (Some DepthZeroSelfSigned) 0 ex_leaf; mkEv None 0 ex_leaf] None = Some (true, Some (bs "joe")).
Proof. vm_compute. reflexivity. Qed.
Example ex_ee_refused :
  verify_run ex_digest [] ex_store ex_import None ee_opts [mallory] mallory
    [mkEv (Some DepthZeroSelfSigned) 0 mallory; mkEv None 0 mallory] None = Some (false, None).
Proof. vm_compute. reflexivity. Qed.
Example ex_ca_accepted :
  verify_run ex_digest [] [] (fun _ => None) None open_opts [ex_leaf; ex_ca] ex_leaf [mkEv None 1 ex_ca; mkEv None 0 ex_leaf] None
  = Some (true, Some (bs "joe")).
Proof. vm_compute. reflexivity. Qed.
Example ex_calls : calls_of ex_leaf [mkEv (Some DepthZeroSelfSigned) 0 ex_leaf; mkEv None 0 ex_leaf]
  /\ calls_of ex_leaf [mkEv None 1 ex_ca; mkEv None 0 ex_leaf].
Proof.
  split.
  - split; [intros e [<-|[<-|[]]] D; reflexivity|].
    intros [|a [|b [|c pre]]] e post E N D; injection E; intros; subst; try discriminate; reflexivity.
  - split; [intros e [<-|[<-|[]]] D; [discriminate|reflexivity]|].
    intros [|a [|b [|c pre]]] e post E N D; injection E; intros; subst; try discriminate; reflexivity.
Qed.
Example ex_mbedtls :
  mverify_run ex_digest [] [] (fun _ => None) None (mkTls [mkCtn (Some (bs "02:ab:61")) MtCn None] None (GLocal []))
    [] [mkMev FlOk 1 ex_ca; mkMev FlOk 0 ex_leaf] None true = Some (true, Some (bs "joe"))
  /\ (exists n, mverify_run ex_digest [] [] (fun _ => None) None open_opts [] [mkMev FlNotTrusted 1 rogue; mkMev FlOk 0 mallory] None true = Some (false, n)).
Proof. split; [vm_compute; reflexivity|eexists; vm_compute; reflexivity]. Qed.

(** C51 with mbedTLS: the chain is collected from its top, so with an entry without fingerprint a client gets the name of the
    topmost authority that has one. *)
Theorem c51_mbedtls_refuted :
  exists leaf ca, ct_subject leaf = Some [(bs "O", bs "org"); (bs "CN", bs "joe")] /\ forall digest,
    mverify_run digest [] [] (fun _ => None) None open_opts [] [mkMev FlOk 1 ca; mkMev FlOk 0 leaf] None true = Some (true, Some (bs "ca")).
Proof. exists ex_leaf, ex_ca. split; reflexivity. Qed.

Print Assumptions c51_mbedtls_refuted.
Print Assumptions c38_trusted_partial.
Print Assumptions c38_own_errors.
Print Assumptions c38_faulty.
Print Assumptions c36_refused.
Print Assumptions c38_mbedtls.
Print Assumptions c38_unknown_issuer_refuted.
Print Assumptions c38_expired_authority_refuted.
Print Assumptions c38_undecodable_refuted.
