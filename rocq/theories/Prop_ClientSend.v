(** Property C21: message ids of RPCs sent by a client.  Specification, theorems, examples. *)
From Coq Require Import Ascii String NArith ZArith Bool Lia List Sorted.
From Verif Require Import Bytes CStr IoRead IoWrite IoWriteProofs Prop_Io ClientMsgs.
Import ListNotations.
Local Open Scope N_scope.

(* ================================================================== *)
(** * Specification *)

(** [framed v whole text]: [whole] is [text] framed as one NETCONF message (RFC 6242). *)
Definition framed (v : version) (whole text : bytes) : Prop :=
  match v with
  | V11 => exists cs, rfc_chunks whole cs /\ concat cs = text
  | V10 => whole = text ++ bs "]]>]]>"
  end.

(** An <rpc> element with the message-id [id]. *)
Definition is_rpc (id : N) (text : bytes) : Prop :=
  exists rest, text = bs "<rpc xmlns=""urn:ietf:params:xml:ns:netconf:base:1.0"" message-id=""" ++ dec id ++
                      bs """>" ++ rest ++ bs "</rpc>".

(** A sequence of calls: the return value of each and the id stored in [*msgid], if any. *)
Fixpoint sends (v : version) (l : list sendin) (st : cst) : list (sres * option N) * cst :=
  match l with
  | [] => ([], st)
  | i :: l' =>
      let '(r, id, st1) := nc_send_rpc v i st in
      let '(o, st2) := sends v l' st1 in ((r, id) :: o, st2)
  end.
Fixpoint reported (o : list (sres * option N)) : list N :=
  match o with
  | [] => []
  | (_, Some n) :: o' => n :: reported o'
  | (_, None) :: o' => reported o'
  end.

(** The operation is printed completely, in pieces shorter than 2^32 - 1024 bytes. *)
Definition printable (i : sendin) : Prop :=
  si_print i = true /\ Forall (fun d => lenN d < 4294966272) (si_op i).

(* ================================================================== *)
(** * Lemmas *)

Lemma rpc_reasonable k i : k < w64 -> printable i -> Forall reasonable (rpc_parts_of k i).
Proof.
  intros Hk [Hp Ho]. unfold rpc_parts_of.
  assert (L : (length (dec ((k + 1) mod w64)) <= 65)%nat).
  { unfold dec. etransitivity; [apply IoRoundTrip.dec_fuel_len|].
    assert (H : (k + 1) mod w64 < w64) by (apply N.mod_lt; discriminate).
    assert (H2 : N.log2 ((k + 1) mod w64) <= 64).
    { destruct (N.eq_dec ((k + 1) mod w64) 0) as [->|Nz]; [now vm_compute|].
      apply N.lt_le_incl. apply N.log2_lt_pow2; [destruct ((k + 1) mod w64); [contradiction|reflexivity]|]. change (2 ^ 64) with w64. exact H. }
    lia. }
  assert (H1 : reasonable (PRaw (bs "<rpc xmlns=" ++ quoted NS_BASE ++ bs " message-id=" ++
    quoted (dec ((k + 1) mod w64)) ++ bs ">") false)).
  { cbn [reasonable]. unfold quoted, lenN. repeat rewrite ?app_length, ?app_comm_cons. cbn [length].
    repeat rewrite ?app_length. cbn [length].
    change (length (bs "<rpc xmlns=")) with 11%nat. change (length NS_BASE) with 39%nat.
    change (length (bs " message-id=")) with 12%nat. change (length (bs ">")) with 1%nat.
    revert L. generalize (length (dec ((k + 1) mod w64))). intros n Hn. lia. }
  apply Forall_app; split; [constructor; [exact H1|constructor]|].
  apply Forall_app; split; [destruct (si_action i); repeat constructor|].
  apply Forall_app; split; [repeat constructor; [exact Hp|exact Ho]|].
  apply Forall_app; split; [destruct (si_action i); repeat constructor|repeat constructor].
Qed.

Lemma rpc_payload k i : is_rpc ((k + 1) mod w64) (payload (rpc_parts_of k i)).
Proof.
  unfold is_rpc, rpc_parts_of, payload. set (d := dec ((k + 1) mod w64)).
  set (op := si_op i). set (pk := si_print i).
  destruct (si_action i); cbn [app map concat].
  - exists (bs "<action xmlns=" ++ quoted (bs "urn:ietf:params:xml:ns:yang:1") ++ bs ">" ++ concat op ++ bs "</action>").
    unfold quoted. repeat (cbn [app bs list_ascii_of_string String.append]; rewrite <- ?app_assoc, ?app_nil_r).
    reflexivity.
  - exists (concat op).
    unfold quoted. repeat (cbn [app bs list_ascii_of_string]; rewrite <- ?app_assoc, ?app_nil_r).
    reflexivity.
Qed.

Lemma write_sent v w ps w' : nc_write_msg_io v w ps = (MsgSent, w') ->
  (exists b w1, run_parts v w [] ps = (inl true, b, w1)) /\ ws_ok w' = true.
Proof.
  unfold nc_write_msg_io. destruct (negb (ws_ok w)); [discriminate|].
  destruct (run_parts v w [] ps) as [[[[|]|o] b] w1]; try discriminate.
  - destruct (nc_write_clb_end v w1 b) as [[| | |] w2]; try discriminate;
      destruct (ws_ok w2) eqn:E; try discriminate; intros H; injection H as <-; eauto.
  - destruct o; discriminate.
Qed.

Lemma write_error v w ps w' : nc_write_msg_io v w ps = (MsgError, w') ->
  ws_ok w = false \/ (exists b w1, run_parts v w [] ps = (inl false, b, w1)) \/ ws_ok w' = false.
Proof.
  unfold nc_write_msg_io. destruct (ws_ok w) eqn:Ew; [|now left]. cbn [negb].
  destruct (run_parts v w [] ps) as [[[[|]|o] b] w1].
  - destruct (nc_write_clb_end v w1 b) as [[| | |] w2]; try discriminate;
      destruct (ws_ok w2) eqn:E; try discriminate; intros H; injection H as <-; auto.
  - intros H; injection H as <-. right; left; eauto.
  - destruct o; discriminate.
Qed.

Lemma send_sent v i st st' : send_msg v i st = (SSent, st') ->
  c_msgid st' = (c_msgid st + 1) mod w64 /\ ws_ok (c_w st') = true /\ ws_ok (c_w st) = true /\
  nc_write_msg_io v (c_w st) (rpc_parts_of (c_msgid st) i) = (MsgSent, c_w st').
Proof.
  unfold send_msg. destruct (ws_ok (c_w st)) eqn:Ew; [|discriminate]. cbn [negb].
  destruct (si_built i); [|discriminate]. cbn [negb].
  destruct (si_lock i); try discriminate. destruct (si_mem i); [|discriminate]. cbn [negb].
  destruct (nc_write_msg_io v (c_w st) (rpc_parts_of (c_msgid st) i)) as [[| | |] w] eqn:E; try discriminate.
  intros H. apply (f_equal snd) in H. cbn [snd] in H. subst st'. cbn [c_msgid c_w].
  destruct (write_sent _ _ _ _ E) as [(b & w1 & ->) Hok]. auto.
Qed.

Lemma send_failed v i st r st' : send_msg v i st = (r, st') -> r = SError \/ r = SWouldblock ->
  c_msgid st' = c_msgid st \/ ws_ok (c_w st') = false.
Proof.
  unfold send_msg. destruct (ws_ok (c_w st)) eqn:Ew; cbn [negb];
    [|intros H; injection H as <- <-; auto].
  destruct (si_built i); cbn [negb]; [|intros H; injection H as <- <-; auto].
  destruct (si_lock i); try (intros H; injection H as <- <-; now auto).
  destruct (si_mem i); cbn [negb]; [|intros H; injection H as <- <-; auto].
  destruct (nc_write_msg_io v (c_w st) (rpc_parts_of (c_msgid st) i)) as [[| | |] w] eqn:E;
    intros H; pose proof (f_equal fst H) as H1; apply (f_equal snd) in H; cbn [fst snd] in H1, H; subst r st';
    intros [Hr|Hr]; try discriminate; cbn [c_msgid c_w].
  destruct (write_error _ _ _ _ E) as [Hx|[(b & w1 & ->)|Hx]]; [congruence|auto|auto].
Qed.

Lemma send_id_range v i st r st' : send_msg v i st = (r, st') ->
  c_msgid st' = c_msgid st \/ c_msgid st' = (c_msgid st + 1) mod w64.
Proof.
  unfold send_msg. destruct (negb (ws_ok (c_w st))); [intros H; injection H as <- <-; auto|].
  destruct (negb (si_built i)); [intros H; injection H as <- <-; auto|].
  destruct (si_lock i); try (intros H; injection H as <- <-; now auto).
  destruct (negb (si_mem i)); [intros H; injection H as <- <-; auto|].
  destruct (run_parts v (c_w st) [] (rpc_parts_of (c_msgid st) i)) as [[[[|]|o] b] w1];
    destruct (nc_write_msg_io v (c_w st) (rpc_parts_of (c_msgid st) i)) as [[| | |] w];
    intros H; apply (f_equal snd) in H; cbn [snd] in H; subst st'; cbn [c_msgid]; auto.
Qed.

(* ================================================================== *)
(** * Theorems *)

(** When an RPC is reported as sent, the complete message is on the wire after what was there before,
    it is an <rpc> with the id reported to the caller, and that id is the next after the previous one.
    Conditions (why partial): no other thread uses the session between the send and the return (see
    [c21_reported_id_refuted]), the transport reports no write error without the session being
    invalidated (C06), the counter is not at its maximum. *)
Theorem c21_on_the_wire_partial : forall v i st id st',
  usable (c_w st) -> printable i -> c_msgid st < 18446744073709551615 ->
  nc_send_rpc v i st = (SSent, id, st') ->
  id = Some (c_msgid st + 1) /\
  exists whole text, framed v whole text /\ is_rpc (c_msgid st + 1) text /\
    ws_wire (c_w st') = ws_wire (c_w st) ++ whole.
Proof.
  intros v i st id st' Hu Hp Hk H. unfold nc_send_rpc in H.
  destruct (send_msg v i st) as [r s1] eqn:E. injection H as -> <- <-.
  destruct (send_sent _ _ _ _ E) as (Hid & Hok' & Hok & Hw).
  assert (Hm : (c_msgid st + 1) mod w64 = c_msgid st + 1) by (apply N.mod_small; unfold w64; lia).
  rewrite Hid, Hm. split; [reflexivity|].
  assert (Hr : Forall reasonable (rpc_parts_of (c_msgid st) i)) by (apply rpc_reasonable; [unfold w64; lia|exact Hp]).
  destruct (c06_output_partial v _ _ _ _ Hu Hr Hw) as (_ & whole & sent & missing & Hf & -> & Hwire & Hs & _).
  destruct (Hs eq_refl) as [-> _]. rewrite app_nil_r in Hf.
  exists sent, (payload (rpc_parts_of (c_msgid st) i)). split; [exact Hf|split; [|exact Hwire]].
  rewrite <- Hm. apply rpc_payload.
Qed.

(** For every sequence of calls, failing or not, the reported ids are strictly increasing and greater
    than any id used before, as long as the 64-bit counter does not wrap. *)
Theorem c21_increasing_partial : forall v l st,
  c_msgid st + lenN l < 18446744073709551616 ->
  StronglySorted N.lt (c_msgid st :: reported (fst (sends v l st))).
Proof.
  assert (H : forall v l st, c_msgid st + lenN l < 18446744073709551616 ->
    StronglySorted N.lt (reported (fst (sends v l st))) /\
    Forall (N.lt (c_msgid st)) (reported (fst (sends v l st)))).
  { intros v l; induction l as [|i l IH]; intros st Hb; [split; constructor|].
    cbn [sends]. unfold nc_send_rpc. destruct (send_msg v i st) as [r s1] eqn:E.
    assert (Hlen : lenN (i :: l) = lenN l + 1) by (unfold lenN; cbn [length]; lia).
    assert (Hle : c_msgid st <= c_msgid s1 <= c_msgid st + 1).
    { destruct (send_id_range _ _ _ _ _ E) as [->|Hx]; [lia|].
      rewrite N.mod_small in Hx by (unfold w64; lia). lia. }
    specialize (IH s1 ltac:(lia)). destruct (sends v l s1) as [o s2]. cbn [fst] in *.
    destruct IH as [IH1 IH2].
    assert (IH2' : Forall (N.lt (c_msgid st)) (reported o)).
    { eapply Forall_impl; [|exact IH2]. cbv beta. intros; lia. }
    destruct r; cbn [reported]; auto.
    destruct (send_sent _ _ _ _ E) as (Hid & _).
    rewrite N.mod_small in Hid by (unfold w64; lia).
    split; [constructor; assumption|constructor; [lia|exact IH2']]. }
  intros v l st Hb. destruct (H v l st Hb). constructor; assumption.
Qed.

(** A failed send leaves the id to the next one, or else the session is lost: every further send fails. *)
Theorem c21_failed_send_partial : forall v i st r id st',
  nc_send_rpc v i st = (r, id, st') -> r = SError \/ r = SWouldblock ->
  id = None /\
  (c_msgid st' = c_msgid st \/ forall v' i', nc_send_rpc v' i' st' = (SError, None, st')).
Proof.
  intros v i st r id st' H Hr. unfold nc_send_rpc in H. destruct (send_msg v i st) as [r1 s1] eqn:E.
  injection H as -> <- <-. split; [destruct Hr as [-> | ->]; reflexivity|].
  destruct (send_failed _ _ _ _ _ E Hr) as [Hx|Hx]; [left; exact Hx|right].
  intros v' i'. unfold nc_send_rpc, send_msg. rewrite Hx. reflexivity.
Qed.

(** The claim "a failed send consumes no id" as stated is false: when the peer is found gone while the
    message is flushed, NC_MSG_ERROR is returned and the counter has gone up. *)
Theorem c21_failed_send_refuted : exists v i st st',
  usable (c_w st) /\ printable i /\
  nc_send_rpc v i st = (SError, None, st') /\ c_msgid st' = c_msgid st + 1.
Proof.
  exists V11, (mkSI true LkOk true false [bs "<get/>"] true), (mkC 4 (mkW true [] [WClosed])).
  eexists. repeat apply conj.
  - reflexivity.
  - intros [H|[]]; discriminate.
  - reflexivity.
  - repeat constructor.
  - vm_compute. reflexivity.
  - reflexivity.
Qed.

(** The claim "the id reported is the one put on the wire" is false with two threads: the id is read
    after the lock is released.  Both calls report 2; nobody is told about 1. *)
Theorem c21_reported_id_refuted : exists es c,
  crun V11 es (mkCC (mkC 0 (mkW true [] (repeat (WAcc 4096) 12))) [] []) = Some c /\
  In (1%nat, 1, 2) (cc_out c) /\ In (2%nat, 2, 2) (cc_out c).
Proof.
  pose (i := mkSI true LkOk true false [bs "<get/>"] true).
  exists [ESend 1 i; ESend 2 i; EReport 1; EReport 2]. eexists. split; [vm_compute; reflexivity|].
  cbn [cc_out]. split; [left; reflexivity|right; left; reflexivity].
Qed.

(** With any number of threads and any interleaving: no two RPCs get the same id, the id reported for a
    call is never smaller than the one put on the wire for it, and it is that id if nothing else was sent
    in between. *)
Definition wire_ids (c : cons) : list N :=
  map (fun o => snd (fst o)) (cc_out c) ++
  map snd (filter (fun p => match snd (fst p) with SSent => true | _ => false end) (cc_pend c)).

Lemma in_filter_drop th l x :
  In x (map snd (filter (fun p : nat * sres * N => match snd (fst p) with SSent => true | _ => false end) (drop_pending th l))) ->
  In x (map snd (filter (fun p : nat * sres * N => match snd (fst p) with SSent => true | _ => false end) l)).
Proof.
  unfold drop_pending. rewrite !in_map_iff. intros (p & <- & Hp). exists p. split; [reflexivity|].
  rewrite !filter_In in *. tauto.
Qed.

Lemma nodup_drop th l :
  NoDup (map snd (filter (fun p : nat * sres * N => match snd (fst p) with SSent => true | _ => false end) l)) ->
  NoDup (map snd (filter (fun p : nat * sres * N => match snd (fst p) with SSent => true | _ => false end) (drop_pending th l))).
Proof.
  induction l as [|p l IH]; [auto|]. cbn [filter]. unfold drop_pending in *. cbn [filter].
  destruct (negb (Nat.eqb (fst (fst p)) th)); cbn [filter]; destruct (snd (fst p)); cbn [map]; auto;
    intros H; inversion H; subst; [|auto]. constructor; [|auto].
  intros Hin. apply (in_filter_drop th) in Hin. contradiction.
Qed.

Lemma pending_in th l n : pending th l = Some (SSent, n) ->
  In n (map snd (filter (fun p : nat * sres * N => match snd (fst p) with SSent => true | _ => false end) l)) /\
  (NoDup (map snd (filter (fun p : nat * sres * N => match snd (fst p) with SSent => true | _ => false end) l)) ->
   ~ In n (map snd (filter (fun p : nat * sres * N => match snd (fst p) with SSent => true | _ => false end) (drop_pending th l)))).
Proof.
  unfold pending, drop_pending. induction l as [|[[t r] m] l IH]; [discriminate|]. cbn [find fst].
  destruct (Nat.eqb t th) eqn:E.
  - intros H. injection H as -> ->. cbn [filter fst snd map]. rewrite E. cbn [negb map filter snd fst].
    split; [left; reflexivity|]. intros Hd Hin. inversion Hd; subst.
    apply (in_filter_drop th) in Hin. contradiction.
  - intros H. destruct (IH H) as [I1 I2]. cbn [filter fst]. rewrite E. cbn [negb filter fst snd].
    destruct r; cbn [map snd]; auto. split; [right; exact I1|].
    intros Hd [Hx|Hx]; inversion Hd; subst; [contradiction|]. now apply I2.
Qed.

Lemma nodup_app (a b : list N) :
  NoDup (a ++ b) <-> NoDup a /\ NoDup b /\ (forall x, In x a -> ~ In x b).
Proof.
  induction a as [|x a IH]; cbn [app].
  - split; [intros H; repeat split; [constructor|exact H|intros y []]|tauto].
  - split.
    + intros H. inversion H as [|? ? Hx Hr]; subst. apply IH in Hr. destruct Hr as (A & B & C).
      rewrite in_app_iff in Hx. repeat split; [constructor; tauto|exact B|].
      intros y [<-|Hy]; [tauto|auto].
    + intros (A & B & C). inversion A; subst. constructor.
      * rewrite in_app_iff. intros [Hx|Hx]; [contradiction|]. exact (C x (or_introl eq_refl) Hx).
      * apply IH. repeat split; auto. intros y Hy. apply C. right; exact Hy.
Qed.

Definition cinv (c : cons) : Prop :=
  NoDup (wire_ids c) /\ (forall n, In n (wire_ids c) -> n <= c_msgid (cc_st c)) /\
  (forall th n rep, In (th, n, rep) (cc_out c) -> n <= rep).

Lemma cstep_inv v e c c' : cstep v e c = Some c' -> cinv c -> c_msgid (cc_st c) + 1 < w64 ->
  cinv c' /\ c_msgid (cc_st c) <= c_msgid (cc_st c') <= c_msgid (cc_st c) + 1.
Proof.
  intros H (I1 & I2 & I3) Hb. destruct e as [th i|th]; cbn [cstep] in H.
  - destruct (pending th (cc_pend c)); [discriminate|].
    destruct (send_msg v i (cc_st c)) as [r st'] eqn:E.
    assert (Hr : c_msgid (cc_st c) <= c_msgid st' <= c_msgid (cc_st c) + 1).
    { destruct (send_id_range _ _ _ _ _ E) as [->|Hx]; [lia|]. rewrite N.mod_small in Hx by exact Hb. lia. }
    assert (Hc : c' = mkCC st' ((th, r, c_msgid st') :: cc_pend c) (cc_out c)) by (destruct r; congruence).
    subst c'. cbn [cc_st]. split; [|exact Hr].
    destruct r; try discriminate; unfold cinv, wire_ids; cbn [cc_st cc_pend cc_out filter fst snd map];
      try (split; [exact I1|split; [intros n Hn; specialize (I2 n Hn); lia|exact I3]]).
    destruct (send_sent _ _ _ _ E) as (Hid & _). rewrite N.mod_small in Hid by exact Hb.
    assert (Hnew : ~ In (c_msgid st') (wire_ids c)) by (intros Hin; specialize (I2 _ Hin); lia).
    split; [|split; [|exact I3]].
    + apply NoDup_Add with (a := c_msgid st') (l := wire_ids c); [apply Add_app|auto].
    + intros n Hn. apply in_app_or in Hn. destruct Hn as [Hn|[<-|Hn]]; [|lia|];
        (assert (Hx : In n (wire_ids c)) by (apply in_or_app; auto); specialize (I2 n Hx); lia).
  - destruct (pending th (cc_pend c)) as [[r n]|] eqn:Ep; [|discriminate].
    unfold wire_ids in I1. apply nodup_app in I1. destruct I1 as (HO & HD & HX).
    assert (W : forall m, In m (wire_ids (mkCC (cc_st c) (drop_pending th (cc_pend c)) (cc_out c))) -> In m (wire_ids c)).
    { intros m. unfold wire_ids. cbn [cc_out cc_pend]. rewrite !in_app_iff. intros [Hm|Hm]; [auto|].
      apply in_filter_drop in Hm. auto. }
    assert (Wd : NoDup (wire_ids (mkCC (cc_st c) (drop_pending th (cc_pend c)) (cc_out c)))).
    { apply nodup_app. cbn [cc_out cc_pend]. repeat split; [exact HO|apply nodup_drop; exact HD|].
      intros x Hx Hy. apply in_filter_drop in Hy. exact (HX x Hx Hy). }
    assert (D : r = SSent \/ c' = mkCC (cc_st c) (drop_pending th (cc_pend c)) (cc_out c)).
    { destruct r; [left; reflexivity|right; congruence..]. }
    destruct D as [-> | ->].
    + injection H as <-. cbn [cc_st]. split; [|lia].
      destruct (pending_in _ _ _ Ep) as [P1 P2].
      assert (Hn : In n (wire_ids c)) by (apply in_or_app; right; exact P1).
      unfold cinv, wire_ids in *. cbn [cc_st cc_pend cc_out] in *. rewrite map_app, <- app_assoc. cbn [map fst snd app].
      split; [|split].
      * eapply NoDup_Add; [apply Add_app|]. split; [exact Wd|].
        rewrite in_app_iff. intros [Hx|Hx]; [exact (HX _ Hx P1)|exact (P2 HD Hx)].
      * intros m Hm. apply in_app_or in Hm. destruct Hm as [Hm|[<-|Hm]].
        -- apply I2, in_or_app; auto.
        -- apply I2; exact Hn.
        -- apply in_filter_drop in Hm. apply I2, in_or_app; auto.
      * intros t m rep Hm. apply in_app_or in Hm. destruct Hm as [Hm|[Hm|[]]]; [eapply I3; exact Hm|].
        injection Hm as <- <- <-. apply I2. exact Hn.
    + cbn [cc_st]. split; [|lia]. split; [exact Wd|split; [|exact I3]]. intros m Hm. apply I2, W, Hm.
Qed.

Theorem c21_concurrent_partial : forall v es st c,
  c_msgid st + lenN es < 18446744073709551616 ->
  crun v es (mkCC st [] []) = Some c ->
  NoDup (map (fun o => snd (fst o)) (cc_out c)) /\
  (forall th wire rep, In (th, wire, rep) (cc_out c) -> wire <= rep).
Proof.
  intros v es st c Hb H.
  assert (G : forall es c0, cinv c0 -> c_msgid (cc_st c0) + lenN es < w64 -> crun v es c0 = Some c -> cinv c).
  { clear. intros es; induction es as [|e es IH]; intros c0 Hi Hb H; [injection H as <-; exact Hi|].
    assert (Hl : lenN (e :: es) = lenN es + 1) by (unfold lenN; cbn [length]; lia).
    cbn [crun] in H. destruct (cstep v e c0) as [c1|] eqn:E; [|discriminate].
    destruct (cstep_inv _ _ _ _ E Hi ltac:(lia)) as [Hi1 Hm]. eapply IH; [exact Hi1|lia|exact H]. }
  specialize (G es (mkCC st [] [])). destruct G as (G1 & _ & G3); [|exact Hb|exact H|].
  - split; [constructor|split; [intros n []|intros th n rep []]].
  - split; [|exact G3]. apply nodup_app in G1. tauto.
Qed.

Theorem c21_undisturbed_partial : forall v th i c c',
  crun v [ESend th i; EReport th] c = Some c' ->
  cc_out c' = cc_out c \/ exists id, cc_out c' = cc_out c ++ [(th, id, id)].
Proof.
  intros v th i c c'. cbn [crun cstep]. destruct (pending th (cc_pend c)); [discriminate|].
  destruct (send_msg v i (cc_st c)) as [r st']. destruct r; try discriminate;
    unfold pending; cbn [cc_pend find fst]; rewrite Nat.eqb_refl; intros H; injection H as <-; cbn [cc_out cc_st]; eauto.
Qed.

(* ================================================================== *)
(** * Examples *)

(** Two RPCs over a transport that takes everything: ids 1 and 2. *)
Example c21_two_rpcs :
  let i := mkSI true LkOk true false [bs "<get/>"] true in
  let st := mkC 0 (mkW true [] (repeat (WAcc 4096) 9)) in
  reported (fst (sends V10 [i; i] st)) = [1; 2] /\
  ws_wire (c_w (snd (sends V10 [i] st))) =
    bs "<rpc xmlns=""urn:ietf:params:xml:ns:netconf:base:1.0"" message-id=""1""><get/></rpc>]]>]]>".
Proof. split; vm_compute; reflexivity. Qed.

(** A send that fails because the lock was not obtained, between two that succeed. *)
Example c21_failure_between :
  let i := mkSI true LkOk true false [bs "<get/>"] true in
  let j := mkSI true LkTimeout true false [bs "<get/>"] true in
  sends V11 [i; j; i] (mkC 7 (mkW true [] (repeat (WAcc 4096) 12))) =
  ([(SSent, Some 8); (SWouldblock, None); (SSent, Some 9)],
   snd (sends V11 [i; j; i] (mkC 7 (mkW true [] (repeat (WAcc 4096) 12))))).
Proof. vm_compute. reflexivity. Qed.

Print Assumptions c21_on_the_wire_partial.
Print Assumptions c21_increasing_partial.
Print Assumptions c21_failed_send_partial.
Print Assumptions c21_failed_send_refuted.
Print Assumptions c21_reported_id_refuted.
Print Assumptions c21_concurrent_partial.
Print Assumptions c21_undisturbed_partial.
