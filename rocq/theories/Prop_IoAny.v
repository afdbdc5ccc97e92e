(** C01 and C03 for messages of any bytes: framing keeps to the message, but the text given to the parser ends at the
    first NUL. *)
From Coq Require Import Ascii String NArith ZArith Bool Lia List.
From Verif Require Import Bytes IoRead IoReadProofs IoWrite IoWriteProofs IoRoundTrip Prop_Io.
Import ListNotations.
Local Open Scope N_scope.

(** What of a message is text: all of it, or all before the first NUL. *)
Definition text_of (msg m : bytes) : Prop :=
  (m = msg /\ ~ In NUL msg) \/ (exists r, msg = m ++ NUL :: r /\ ~ In NUL m).

Lemma cstr_text msg : text_of msg (cstr msg).
Proof.
  induction msg as [|c r IH]; [left; split; [reflexivity|intros []]|]. cbn [cstr]. destruct (Ascii.eqb_spec c NUL) as [->|N].
  - right. exists r. split; [reflexivity|intros []].
  - destruct IH as [[E H]|[x [E H]]].
    + left. rewrite E. split; [reflexivity|]. intros [K|K]; [congruence|exact (H K)].
    + right. exists x. rewrite E at 1. split; [reflexivity|]. intros [K|K]; [congruence|exact (H K)].
Qed.
Lemma text_unique msg m1 m2 : text_of msg m1 -> text_of msg m2 -> m1 = m2.
Proof.
  intros [[-> H1]|[r1 [E1 H1]]] [[-> H2]|[r2 [E2 H2]]].
  - reflexivity.
  - exfalso. apply H1. rewrite E2. apply in_or_app. right. left. reflexivity.
  - exfalso. apply H2. rewrite E1. apply in_or_app. right. left. reflexivity.
  - subst. revert m2 E2 H2. induction m1 as [|a m1 IH]; intros [|b m2] E2 H2; cbn in E2.
    + reflexivity.
    + inversion E2; subst. exfalso. apply H2. left. reflexivity.
    + inversion E2; subst. exfalso. apply H1. left. reflexivity.
    + inversion E2; subst. f_equal. apply IH; [intro K; apply H1; right; exact K|assumption|intro K; apply H2; right; exact K].
Qed.

(** The full statement of C01. *)
Definition c01_full : Prop := forall ps st st' alloc t rest,
  usable st -> Forall reasonable ps -> payload ps <> [] ->
  lenN (payload ps) < 18446744073709550000 -> grants alloc (lenN (payload ps) + 1024) ->
  nc_write_msg_io V11 st ps = (MsgSent, st') ->
  forall sent, ws_wire st' = ws_wire st ++ sent -> incoming t = sent ++ rest ->
  exists t', nc_read_msg_io alloc V11 t = MMsg (payload ps) t' /\ incoming t' = rest /\ failure t' = failure t.

(** Without a condition on the bytes: the message is read to its end, and what is before the first NUL is received. *)
Theorem c01_any_bytes_partial : forall ps st st' alloc t rest,
  usable st -> Forall reasonable ps -> payload ps <> [] ->
  lenN (payload ps) < 18446744073709550000 -> grants alloc (lenN (payload ps) + 1024) ->
  nc_write_msg_io V11 st ps = (MsgSent, st') ->
  forall sent, ws_wire st' = ws_wire st ++ sent -> incoming t = sent ++ rest ->
  exists m t', nc_read_msg_io alloc V11 t = MMsg m t' /\ text_of (payload ps) m /\ incoming t' = rest /\ failure t' = failure t.
Proof.
  intros ps st st' alloc t rest [Hok He] Hr Hne Hw Ha Hs sent Hsent Hin.
  apply reasonable_small in Hr. rewrite payload_text in *.
  destruct (write_ok V11 st ps st' Hok He Hr Hs) as (Hw1 & _).
  rewrite Hw1 in Hsent. apply app_inv_head in Hsent. subst sent.
  destruct (msg_chunks_content ps Hr) as [Hc1 Hc2].
  destruct (read11_exact alloc t (msg_chunks ps) rest) as (t' & H1 & H2 & H3); auto using msg_chunks_ne.
  - rewrite Hc2. unfold w64. lia.
  - rewrite Hc2. exact Ha.
  - rewrite <- incoming_avail, Hin, <- app_assoc. reflexivity.
  - exists (cstr (msg_text ps)), t'. rewrite H1, Hc2. split; [reflexivity|]. split; [apply cstr_text|].
    rewrite !incoming_avail, !failure_tail. auto.
Qed.

(** One byte after the NUL is enough. *)
Definition nul_parts : list part := [PRaw [ascii_of_nat 97; NUL; ascii_of_nat 98] false].
Definition nul_sender : wst := mkW true [] (repeat (WAcc 100) 9).
Definition nul_wire : bytes := Eval vm_compute in ws_wire (snd (nc_write_msg_io V11 nul_sender nul_parts)).
Theorem c01_full_refuted : ~ c01_full.
Proof.
  intro F.
  assert (E : exists st', nc_write_msg_io V11 nul_sender nul_parts = (MsgSent, st') /\ ws_wire st' = nul_wire).
  { eexists. split; vm_compute; reflexivity. }
  destruct E as [st' [E W]].
  destruct (F nul_parts nul_sender st' (fun _ => true) [TData nul_wire] []) with (sent := nul_wire) as [t' [R _]].
  - split; [reflexivity|]. cbn. intuition discriminate.
  - repeat constructor.
  - discriminate.
  - reflexivity.
  - intros n _. reflexivity.
  - exact E.
  - rewrite W. reflexivity.
  - rewrite app_nil_r. reflexivity.
  - vm_compute in R. discriminate.
Qed.

(** The full statement of C03, and what holds of any bytes: as many messages, each read to its end. *)
Definition c03_full : Prop := forall msgs st st' alloc t rest sent B,
  usable st ->
  Forall (fun ps => Forall reasonable ps /\ payload ps <> [] /\ lenN (payload ps) + 1024 <= B) msgs ->
  B < 18446744073709551616 -> grants alloc B ->
  sends V11 st msgs st' -> ws_wire st' = ws_wire st ++ sent -> incoming t = sent ++ rest ->
  exists t', receives alloc V11 t (map payload msgs) t' /\ incoming t' = rest /\ failure t' = failure t.

Theorem c03_any_bytes_partial : forall msgs st st' alloc t rest sent B,
  usable st ->
  Forall (fun ps => Forall reasonable ps /\ payload ps <> [] /\ lenN (payload ps) + 1024 <= B) msgs ->
  B < 18446744073709551000 -> grants alloc B ->
  sends V11 st msgs st' -> ws_wire st' = ws_wire st ++ sent -> incoming t = sent ++ rest ->
  exists ms t', receives alloc V11 t ms t' /\ Forall2 (fun ps m => text_of (payload ps) m) msgs ms /\
                incoming t' = rest /\ failure t' = failure t.
Proof.
  intros msgs st st' alloc t rest sent B Hu Hall HB Ha Hs. revert t sent Hu. induction Hs as [st|st p st1 ps st2 H1 Hs IH]; intros t sent Hu Hsent Hin.
  - assert (sent = []) by (apply (app_inv_head (ws_wire st)); rewrite app_nil_r; congruence). subst sent.
    exists [], t. split; [constructor|]. split; [constructor|]. auto.
  - inversion Hall as [|? ? (P1 & P2 & P3) Hall']; subst. destruct Hu as [Hok He].
    pose proof (write_ok V11 st p st1 Hok He (reasonable_small p P1) H1) as K.
    assert (W1 : exists s1, ws_wire st1 = ws_wire st ++ s1) by (destruct K as (K & _); eauto). destruct W1 as [s1 W1].
    assert (U1 : usable st1) by (destruct K as (_ & K1 & K2); split; [exact K1|exact K2]).
    assert (W2 : exists s2, ws_wire st2 = ws_wire st1 ++ s2).
    { assert (A : Forall (Forall part_small) ps) by (revert Hall'; apply Forall_impl; intros q (A & _); now apply reasonable_small).
      rewrite (send_all_wire V11 st1 ps st2 (proj1 U1) (proj2 U1) A (sends_send_all _ _ _ _ Hs)). eauto. }
    destruct W2 as [s2 W2].
    assert (sent = s1 ++ s2) by (apply (app_inv_head (ws_wire st)); rewrite app_assoc, <- W1, <- W2; congruence). subst sent.
    rewrite <- app_assoc in Hin.
    destruct (c01_any_bytes_partial p st st1 alloc t (s2 ++ rest) (conj Hok He) P1 P2) with (sent := s1) as (m & t1 & R & T & I1 & F1); auto; [lia|intros n Hn; apply Ha; lia|].
    destruct (IH Hall' t1 s2 U1 W2 I1) as (ms & t' & R' & T' & I' & F').
    exists (m :: ms), t'. split; [econstructor; eassumption|]. split; [constructor; assumption|]. split; [exact I'|congruence].
Qed.

Theorem c03_full_refuted : ~ c03_full.
Proof.
  intro F.
  assert (E : exists st', nc_write_msg_io V11 nul_sender nul_parts = (MsgSent, st') /\ ws_wire st' = nul_wire).
  { eexists. split; vm_compute; reflexivity. }
  destruct E as [st' [E W]].
  destruct (F [nul_parts] nul_sender st' (fun _ => true) [TData nul_wire] [] nul_wire 2000) as [t' [R _]].
  - split; [reflexivity|]. cbn. intuition discriminate.
  - constructor; [|constructor]. split; [repeat constructor|]. split; [discriminate|]. intro X. vm_compute in X. discriminate.
  - reflexivity.
  - intros n _. reflexivity.
  - econstructor; [exact E|constructor].
  - rewrite W. reflexivity.
  - rewrite app_nil_r. reflexivity.
  - inversion R as [|? ? ? ? ? R1 R2]; subst. vm_compute in R1. discriminate.
Qed.

Print Assumptions c01_any_bytes_partial.
Print Assumptions c01_full_refuted.
Print Assumptions c03_any_bytes_partial.
Print Assumptions c03_full_refuted.
