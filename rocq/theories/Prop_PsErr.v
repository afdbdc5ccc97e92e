(** C241, C242: the error a client is told when its message cannot be parsed. *)
From Coq Require Import Ascii String NArith ZArith Bool Lia List Arith.
From Verif Require Import Bytes PsSess PsPoll Prop_PsFair Prop_PsTerm Prop_PsServe.
Import ListNotations.
Local Open Scope N_scope.

(** ** Specification *)

Definition begins (p : string) (m : bytes) : Prop := exists r, m = (bs p ++ r)%list.

Definition Q : ascii := """"%char.
Definition plain (t : bytes) : Prop := ~ In Q t.

(** The second text in quotes of a message, or what there is of it. *)
Inductive quoted : bytes -> option bytes -> Prop :=
| q_none a : plain a -> quoted a None
| q_open a b : plain a -> plain b -> quoted (a ++ Q :: b) None
| q_one a b c : plain a -> plain b -> plain c -> quoted (a ++ Q :: b ++ Q :: c) (Some b)
| q_half a b c d : plain a -> plain b -> plain c -> plain d -> quoted (a ++ Q :: b ++ Q :: c ++ Q :: d) (Some c)
| q_two a b c d r : plain a -> plain b -> plain c -> plain d -> quoted (a ++ Q :: b ++ Q :: c ++ Q :: d ++ Q :: r) (Some d).

(** The layer of the protocol: that of operations if libyang names an operation or its input. *)
Definition layer (e : lyerr) : etype := match le_node e with Some (_, true) => TyProt | _ => TyApp end.
Definition about_prefix (e : lyerr) : Prop := begins "Missing mandatory prefix" (le_msg e) \/ begins "Unknown XML prefix" (le_msg e).
Definition about_annotation (e : lyerr) : Prop := begins "Annotation definition for attribute" (le_msg e).
Definition about_chars (e : lyerr) : Prop := begins "Invalid character sequence" (le_msg e).

(** The error told on a session of 1.1 or not, for a message with its envelope or without, by what libyang says. *)
Inductive told (v11 : bool) : option envelope -> lyerr -> option nerr -> Prop :=
| t_old e : v11 = false -> told v11 None e None
| t_ns e : v11 = true -> le_msg e = bs "Missing XML namespace." -> told v11 None e (Some (EMissingAttr TyRpc (bs "xmlns") (bs "rpc")))
| t_mal e : v11 = true -> le_msg e <> bs "Missing XML namespace." -> told v11 None e (Some EMalformed)
| t_prefix v e name b q : le_node e = Some (name, b) -> about_prefix e -> quoted (le_msg e) (Some q) ->
    told v11 (Some v) e (Some (EUnknownAttr (layer e) q name))
| t_prefix_no v e name b : le_node e = Some (name, b) -> about_prefix e -> quoted (le_msg e) None -> told v11 (Some v) e (Some (EOpFailed TyApp))
| t_annot v e name b : le_node e = Some (name, b) -> about_annotation e -> told v11 (Some v) e (Some (EUnknownAttr (layer e) (le_attr e) name))
| t_chars v e : about_chars e -> told v11 (Some v) e (Some EMalformed)
| t_memory v e : (le_node e = None \/ ~ about_prefix e /\ ~ about_annotation e) -> ~ about_chars e -> le_nomem e = true ->
    told v11 (Some v) e (Some (EResDenied (layer e)))
| t_other v e : (le_node e = None \/ ~ about_prefix e /\ ~ about_annotation e) -> ~ about_chars e -> le_nomem e = false ->
    told v11 (Some v) e (Some (EOpFailed TyApp)).

(** ** Proof *)

Lemma starts_begins p m : starts (bs p) m = true <-> begins p m.
Proof.
  unfold begins. generalize (bs p) as l. intros l. revert m. induction l as [|a l IH]; intros m; cbn [starts app].
  - split; [eauto|reflexivity].
  - destruct m as [|b m]; [split; [discriminate|intros [r E]; discriminate]|].
    rewrite andb_true_iff, IH, Ascii.eqb_eq. split.
    + intros [-> [r ->]]. eauto.
    + intros [r E]. injection E as -> ->. eauto.
Qed.

Lemma loop_plain t : forall m n cur f, plain t ->
  quoted_loop (t ++ m) n cur f = quoted_loop m n (match cur with None => None | Some x => Some (x ++ t)%list end) f.
Proof.
  induction t as [|c t IH]; intros m n cur f P; cbn [app quoted_loop].
  - destruct cur; rewrite ?app_nil_r; reflexivity.
  - destruct (Ascii.eqb_spec c QUOTE) as [E|E]; [exfalso; apply P; left; exact E|].
    rewrite IH by (intros I; apply P; right; exact I). destruct cur; rewrite <- ?app_assoc; reflexivity.
Qed.

Lemma loop_end t n cur f : plain t -> quoted_loop t n cur f = f.
Proof. intros P. rewrite <- (app_nil_r t), loop_plain by exact P. reflexivity. Qed.

Lemma loop_quote m n cur f : quoted_loop (Q :: m) n cur f =
  match n with O => cur | S O => cur | S n' => quoted_loop m n' (Some []) cur end.
Proof. cbn [quoted_loop]. change (Ascii.eqb Q QUOTE) with true. cbv iota. destruct n as [|[|n]]; destruct cur; reflexivity. Qed.

Lemma quoted_iff m r : quoted_string1 m = r <-> quoted m r.
Proof.
  assert (F : forall r, quoted m r -> quoted_string1 m = r).
  { unfold quoted_string1. intros r0 H. destruct H as [a A|a b A B|a b c A B C|a b c d A B C D|a b c d x A B C D].
    - apply loop_end. exact A.
    - rewrite loop_plain by exact A. rewrite loop_quote. apply loop_end. exact B.
    - rewrite loop_plain, loop_quote, loop_plain, loop_quote by assumption. cbn [app]. apply loop_end. exact C.
    - rewrite loop_plain, loop_quote, loop_plain, loop_quote, loop_plain, loop_quote by assumption. cbn [app]. apply loop_end. exact D.
    - rewrite loop_plain, loop_quote, loop_plain, loop_quote, loop_plain, loop_quote, loop_plain, loop_quote by assumption. reflexivity. }
  assert (S1 : forall t, (plain t) \/ exists a b, t = (a ++ Q :: b)%list /\ plain a).
  { induction t as [|c t IH]; [left; intros []|]. destruct (ascii_dec c Q) as [-> |N].
    - right. exists [], t. split; [reflexivity|intros []].
    - destruct IH as [P|(a & b & -> & P)].
      + left. intros [E|I]; [congruence|exact (P I)].
      + right. exists (c :: a), b. split; [reflexivity|]. intros [E|I]; [congruence|exact (P I)]. }
  assert (E : exists r, quoted m r).
  { destruct (S1 m) as [P|(a & m1 & -> & A)]; [eexists; constructor; exact P|].
    destruct (S1 m1) as [P|(b & m2 & -> & B)]; [eexists; apply q_open; assumption|].
    destruct (S1 m2) as [P|(c & m3 & -> & C)]; [eexists; apply q_one; assumption|].
    destruct (S1 m3) as [P|(d & m4 & -> & D)]; [eexists; apply q_half; assumption|]. eexists. apply q_two; assumption. }
  split; [|apply F]. intros <-. destruct E as [r0 E]. rewrite (F _ E). exact E.
Qed.

Lemma begins_dec p m : begins p m \/ ~ begins p m.
Proof. rewrite <- starts_begins. destruct (starts (bs p) m); [left; reflexivity|right; discriminate]. Qed.

Lemma prepare_told s e err : told (s_v11 s) e err (prepare_rpc_err s e err).
Proof.
  unfold prepare_rpc_err. destruct e as [v|].
  - assert (TL : (le_node err = None \/ ~ about_prefix err /\ ~ about_annotation err) ->
        told (s_v11 s) (Some v) err
          (if starts (bs "Invalid character sequence") (le_msg err) then Some EMalformed else if le_nomem err then Some (EResDenied (layer err)) else Some (EOpFailed TyApp))).
    { intros NN. destruct (starts (bs "Invalid character sequence") (le_msg err)) eqn:E; [apply t_chars; apply starts_begins; exact E|].
      assert (NC : ~ about_chars err) by (unfold about_chars; rewrite <- starts_begins, E; discriminate).
      destruct (le_nomem err) eqn:M; [apply t_memory|apply t_other]; assumption. }
    unfold layer in *. destruct (le_node err) as [[name b]|] eqn:LN; [|apply TL; left; reflexivity].
    destruct (starts (bs "Missing mandatory prefix") (le_msg err) || starts (bs "Unknown XML prefix") (le_msg err)) eqn:P.
    + assert (AP : about_prefix err) by (apply orb_true_iff in P; unfold about_prefix; rewrite <- !starts_begins; exact P).
      destruct (quoted_string1 (le_msg err)) as [q|] eqn:QS; apply quoted_iff in QS.
      * pose proof (t_prefix (s_v11 s) v err name b q LN AP QS) as T. unfold layer in T. rewrite LN in T. exact T.
      * exact (t_prefix_no (s_v11 s) v err name b LN AP QS).
    + assert (AP : ~ about_prefix err).
      { unfold about_prefix. rewrite <- !starts_begins. apply orb_false_iff in P. destruct P as [-> ->]. intros [X|X]; discriminate. }
      destruct (starts (bs "Annotation definition for attribute") (le_msg err)) eqn:A.
      * apply starts_begins in A. pose proof (t_annot (s_v11 s) v err name b LN A) as T. unfold layer in T. rewrite LN in T. exact T.
      * apply TL. right. split; [exact AP|]. unfold about_annotation. rewrite <- starts_begins, A. discriminate.
  - destruct (s_v11 s) eqn:V; cbn [negb]; [|apply t_old; reflexivity].
    destruct (beq (bs "Missing XML namespace.") (le_msg err)) eqn:B.
    + apply t_ns; [reflexivity|]. symmetry. apply beq_iff. exact B.
    + apply t_mal; [reflexivity|]. intros X. symmetry in X. apply beq_iff in X. congruence.
Qed.

Lemma begins_first c p m : begins (String c p) m -> hd_error m = Some c.
Proof. intros [r ->]. reflexivity. Qed.

(** One error for each message. *)
Lemma told_one v e err r1 r2 : told v e err r1 -> told v e err r2 -> r1 = r2.
Proof.
  assert (PA : about_prefix err -> about_annotation err -> False).
  { intros [P|P] A; apply begins_first in P, A; congruence. }
  assert (PC : about_prefix err -> about_chars err -> False).
  { intros [P|P] A; apply begins_first in P, A; congruence. }
  assert (AC : about_annotation err -> about_chars err -> False).
  { intros P A; apply begins_first in P, A; congruence. }
  intros T1 T2.
  destruct T1 as [e V|e V M|e V M|w e name b q LN P QT|w e name b LN P QT|w e name b LN A|w e C|w e NN NC NM|w e NN NC NM]; inversion T2; subst; try congruence.
  all: try (exfalso; solve [auto | intuition congruence]).
  all: try (apply quoted_iff in QT; match goal with H : quoted _ _ |- _ => apply quoted_iff in H end; congruence).
Qed.

Lemma poll_bad o p c s h env err : (q_last p < length (q_ents p))%nat -> takes o p c s h ->
  c_rd c = RdBad env err -> c_w1 c = WrSent ->
  exists p' ret, ps_poll o p c = Some (p', ret, Some s, match prepare_rpc_err (h s) env err with Some n => [make_reply env (RError n)] | None => [] end).
Proof.
  intros Hl HT RD Hw. pose proof (takes_run _ _ _ _ _ Hl HT) as Hrun.
  destruct (takes_poll _ _ _ _ _ Hl HT) as (es & i & l & ->).
  unfold serve, recv_rpc. rewrite Hrun, RD. cbn [status_eqb negb].
  destruct (prepare_rpc_err (h s) env err) as [n|].
  - unfold recv_reply, write_reply. rewrite Hrun, Hw. cbn [mt_reply].
    change (has (N.lor BAD_RPC REPLY_ERROR) (N.lor PERROR BAD_RPC)) with true. cbv iota beta.
    destruct (after_recv_fail _ _ _) as [ret st]. do 2 eexists. reflexivity.
  - change (has BAD_RPC (N.lor PERROR BAD_RPC)) with true. cbv iota beta.
    destruct (after_recv_fail _ _ _) as [ret st]. do 2 eexists. reflexivity.
Qed.

(** C241.  A message that cannot be parsed is answered with the error of the table and no other, in the envelope of the request
    if there is one, if the reply can be written. *)
Theorem c241_told o p c s h env err : (q_last p < length (q_ents p))%nat -> takes o p c s h ->
  c_rd c = RdBad env err -> c_w1 c = WrSent ->
  exists p' ret out, ps_poll o p c = Some (p', ret, Some s, out) /\
    forall r, told (s_v11 (h s)) env err r <-> out = match r with Some n => [make_reply env (RError n)] | None => [] end.
Proof.
  intros Hl HT RD Hw. destruct (poll_bad o p c s h env err Hl HT RD Hw) as (p' & ret & ->).
  eexists _, _, _. split; [reflexivity|]. intros r. pose proof (prepare_told (h s) env err) as T. split.
  - intros T2. rewrite (told_one _ _ _ _ _ T T2). reflexivity.
  - destruct (prepare_rpc_err (h s) env err) as [n|], r as [n'|]; intros E; try discriminate E; [|exact T].
    injection E as E. destruct env; cbn in E; injection E as ->; exact T.
Qed.

(** The table leaves out no message. *)
Theorem c241_total v11 env err : exists r, told v11 env err r.
Proof. eexists. exact (prepare_told (mkS StRunning TNone 0 false 0 0 TiUnix v11) env err). Qed.

(** C242.  RFC 6241, Appendix A: malformed-message "is new in :base:1.1 and MUST NOT be sent to old clients".  (A frame is
    malformed only in the framing of 1.1, io.c 325-342.) *)
Definition c242_full : Prop := forall o p c s h p' ret t out m, (q_last p < length (q_ents p))%nat -> takes o p c s h ->
  c_rd c <> RdMalformed -> s_v11 (h s) = false -> ps_poll o p c = Some (p', ret, t, out) -> In m out -> rm_body m = RError EMalformed ->
  exists e op, c_rd c = RdOk e op.                      (* unless an operation was served, and it answered that *)

Theorem c242_partial o p c s h p' ret t out m : (q_last p < length (q_ents p))%nat -> takes o p c s h ->
  (forall v err, c_rd c = RdBad (Some v) err -> ~ about_chars err) ->
  c_rd c <> RdMalformed -> s_v11 (h s) = false -> ps_poll o p c = Some (p', ret, t, out) -> In m out -> rm_body m = RError EMalformed ->
  exists e op, c_rd c = RdOk e op.
Proof.
  intros Hl HT NC NM V PP IM MB. pose proof (takes_run _ _ _ _ _ Hl HT) as Hrun.
  destruct (takes_poll _ _ _ _ _ Hl HT) as (es & i & l & E). rewrite E in PP. clear E. revert PP.
  unfold serve, recv_rpc. rewrite Hrun. cbn [status_eqb negb].
  destruct (c_rd c) as [|f| | |e op|e err] eqn:RD; [| |congruence| |eauto|].
  - change (has TIMEOUT (N.lor PERROR BAD_RPC)) with false. cbv iota beta.
    cbn [send_reply]. destruct (after_serve _ _ _) as [? ?] eqn:AS. intros X. exfalso. injection X as _ _ _ <-. destruct IM.
  - destruct f as [f|].
    + change (has PERROR (N.lor PERROR BAD_RPC)) with true. cbv iota beta. destruct (after_recv_fail _ _ _). intros X. exfalso. injection X as _ _ _ <-. destruct IM.
    + change (has PERROR (N.lor PERROR BAD_RPC)) with true. cbv iota beta. destruct (after_recv_fail _ _ _). intros X. exfalso. injection X as _ _ _ <-. destruct IM.
  - change (has PERROR (N.lor PERROR BAD_RPC)) with true. cbv iota beta. destruct (after_recv_fail _ _ _). intros X. exfalso. injection X as _ _ _ <-. destruct IM.
  - pose proof (prepare_told (h s) e err) as T. destruct (prepare_rpc_err (h s) e err) as [n|].
    + unfold recv_reply, write_reply. rewrite Hrun. intros X. exfalso.
      assert (O : out = [] \/ out = [make_reply e (RError n)]).
      { revert X. destruct (c_w1 c); cbn [mt_reply]; rewrite ?Hrun; cbn [die with_st with_term s_status status_eqb];
          match goal with |- context [has ?a ?b] => change (has a b) with true end; cbv iota beta;
          destruct (after_recv_fail _ _ _); intros X; injection X as _ _ _ <-; auto. }
      destruct O as [-> | ->]; [destruct IM|]. destruct IM as [<-|[]].
      assert (n = EMalformed) as -> by (destruct e; cbn in MB; congruence).
      inversion T; subst; try congruence. eapply NC; [reflexivity|eassumption].
    + change (has BAD_RPC (N.lor PERROR BAD_RPC)) with true. cbv iota beta. destruct (after_recv_fail _ _ _). intros X. exfalso. injection X as _ _ _ <-. destruct IM.
Qed.

(** ** Cases *)

Definition bad_chars : lyerr := mkErr (bs "Invalid character sequence ""&x"".") false None [].
Definition chars_call : pcall :=
  mkC 0 0 0 0 (fun _ _ => 1%Z) (fun _ _ => readable) (fun _ => false) 1 (RdBad (Some env2) bad_chars) WrSent (mkCb None []) WrSent.

(** Refuted: a client of 1.0 sends an operation with a wrong character and is told malformed-message. *)
Theorem c242_full_refuted : ~ c242_full.
Proof.
  intros F. set (p := mkP (fun _ => old_sess) [(100, PsNone)] 0).
  assert (T : exists h, takes (mkO 0 false) p chars_call 100 h /\ s_v11 (h 100) = false).
  { eexists. split; [do 2 eexists; split; [vm_compute; reflexivity|reflexivity]|reflexivity]. }
  destruct T as (h & T & V).
  assert (LL : (q_last p < length (q_ents p))%nat) by (cbn; lia).
  destruct (poll_bad (mkO 0 false) p chars_call 100 h (Some env2) bad_chars LL T eq_refl eq_refl) as (p' & ret & PP).
  change (prepare_rpc_err (h 100) (Some env2) bad_chars) with (Some EMalformed) in PP.
  destruct (F _ _ _ _ _ _ _ _ _ _ LL T ltac:(discriminate) V PP (or_introl eq_refl) eq_refl) as (e & op & X). discriminate X.
Qed.

(** On a 1.1 session a prefix not declared: the attribute and the element are named. *)
Example c241_case : told true (Some env2) unknown_err (Some (EUnknownAttr TyProt (bs "y") (bs "get"))).
Proof.
  apply (t_prefix true env2 unknown_err (bs "get") true (bs "y")); [reflexivity|right; eexists; reflexivity|].
  apply quoted_iff. reflexivity.
Qed.

Print Assumptions c241_told.
Print Assumptions c241_total.
Print Assumptions c242_partial.
Print Assumptions c242_full_refuted.
