(** C81-C83: the messages of the library, sent and received; the writer ends. *)
From Coq Require Import String Ascii NArith ZArith Bool Arith Lia List.
From Verif Require Import Bytes CStr IoRead IoReadProofs IoWrite IoWriteProofs IoRoundTrip IoSafety Prop_Io ClientMsgs.
Import ListNotations.
Local Open Scope list_scope.
Local Open Scope N_scope.

(* ------------------------------------------------------------------ *)
(** ** Specification *)

(** What the library sends.  Data printed by libyang come in pieces. *)
Inductive message :=
| Rpc (before : N) (action : bool) (op : list bytes)      (* the counter of message ids before it *)
| RpcReply (all : list bytes)
| Notification (time : bytes) (ntf : list bytes)
| HelloMsg (caps : list bytes) (sid : option N).

(** The text of each. *)
Definition text (m : message) : bytes :=
  match m with
  | Rpc n action op =>
    bs "<rpc xmlns=""urn:ietf:params:xml:ns:netconf:base:1.0"" message-id=""" ++ dec ((n + 1) mod 18446744073709551616) ++ bs """>"
    ++ (if action then bs "<action xmlns=""urn:ietf:params:xml:ns:yang:1"">" ++ concat op ++ bs "</action>" else concat op) ++ bs "</rpc>"
  | RpcReply all => concat all
  | Notification time ntf =>
    bs "<notification xmlns=""urn:ietf:params:xml:ns:netconf:notification:1.0""><eventTime>" ++ time ++ bs "</eventTime>" ++ concat ntf ++ bs "</notification>"
  | HelloMsg caps sid =>
    bs "<hello xmlns=""urn:ietf:params:xml:ns:netconf:base:1.0""><capabilities>"
    ++ concat (map (fun c => bs "<capability>" ++ escape c ++ bs "</capability>") caps)
    ++ match sid with Some i => bs "</capabilities><session-id>" ++ dec i ++ bs "</session-id></hello>" | None => bs "</capabilities></hello>" end
  end.

(** What is asked of data and texts that are printed as they are: no NUL, and no end-of-message marker on a session of version 1.0.  A reply, which is printed
    as a whole, ends with its end tag or is an empty element.  Capabilities may be any C strings; hello messages have version 1.0. *)
Definition clean (v : version) (d : bytes) : Prop := ~ In NUL d /\ (v = V10 -> ~ contains d (bs "]]>]]>")).
Definition fine (v : version) (m : message) : Prop :=
  match m with
  | Rpc _ _ op => clean v (concat op)
  | RpcReply all => clean v (concat all) /\ exists a, concat all = a ++ bs "rpc-reply>" \/ concat all = a ++ bs "/>"
  | Notification time ntf => clean v time /\ clean v (concat ntf)
  | HelloMsg caps _ => v = V10 /\ forall c, In c caps -> ~ In NUL c
  end.

(** What nc_write_msg_io() does for it (io.c 883-1058). *)
Definition parts_of (m : message) : list part :=
  match m with
  | Rpc n action op => rpc_parts n [] action op
  | RpcReply all => reply_parts all
  | Notification time ntf => notif_parts time ntf
  | HelloMsg caps sid => hello_parts caps sid
  end.

(* ------------------------------------------------------------------ *)
(** ** Texts *)

Lemma payload_cons p ps : payload (p :: ps) = match p with PRaw d false => d | PRaw d true => escape d | PPrint pieces _ => concat pieces end ++ payload ps.
Proof. reflexivity. Qed.
Lemma payload_app a b : payload (a ++ b) = payload a ++ payload b.
Proof. unfold payload. rewrite map_app, concat_app. reflexivity. Qed.
Lemma payload_caps caps :
  payload (flat_map (fun c => [PRaw (bs "<capability>") false; PRaw c true; PRaw (bs "</capability>") false]) caps)
  = concat (map (fun c => bs "<capability>" ++ escape c ++ bs "</capability>") caps).
Proof.
  induction caps as [|c caps IH]; [reflexivity|]. cbn [flat_map map concat]. rewrite payload_app, IH. rewrite !payload_cons. change (payload []) with (@nil ascii).
  rewrite app_nil_r. reflexivity.
Qed.
Lemma parts_text m : payload (parts_of m) = text m.
Proof.
  destruct m as [n action op|all|time ntf|caps sid]; cbn [parts_of text].
  - unfold rpc_parts. rewrite !payload_app, !payload_cons. change (payload []) with (@nil ascii). rewrite !app_nil_r, ?app_nil_l.
    change w64 with 18446744073709551616. set (d := dec _).
    destruct action; rewrite ?payload_cons; change (payload []) with (@nil ascii); rewrite ?app_nil_r, ?app_nil_l;
      unfold quoted, NS_BASE; cbn [app bs list_ascii_of_string]; rewrite <- ?app_assoc; reflexivity.
  - unfold reply_parts. rewrite payload_cons. change (payload []) with (@nil ascii). apply app_nil_r.
  - unfold notif_parts. rewrite !payload_cons. change (payload []) with (@nil ascii). rewrite !app_nil_r. unfold quoted, NS_NOTIF.
    cbn [app bs list_ascii_of_string]. reflexivity.
  - unfold hello_parts. rewrite !payload_app, payload_caps, !payload_cons. change (payload []) with (@nil ascii). rewrite !app_nil_r.
    unfold quoted, NS_BASE. cbn [app bs list_ascii_of_string]. destruct sid; reflexivity.
Qed.

Lemma dec_not n c : is_digit c = false -> ~ In c (dec n).
Proof. intros H X. apply dec_digits in X. congruence. Qed.
Lemma escape_not c d : In c (escape d) -> c <> ">"%char /\ (c = NUL -> In NUL d).
Proof.
  rewrite escape_esc1. induction d as [|x d IH]; [intros []|]. cbn [flat_map]. intros X. apply in_app_or in X. destruct X as [X|X].
  - unfold esc1 in X. destruct (Ascii.eqb_spec x "&"), (Ascii.eqb_spec x "<"), (Ascii.eqb_spec x ">"); subst;
      try solve [cbn in X; repeat (destruct X as [<-|X]; [split; [discriminate|intros Y; discriminate]|]); destruct X].
    destruct X as [<-|[]]. split; [assumption|]. intros ->. left; reflexivity.
  - destruct (IH X) as [H1 H2]. split; [exact H1|]. intros Y. right. auto.
Qed.
Lemma in_concat_ex (l : list bytes) c : In c (concat l) -> exists x, In x l /\ In c x.
Proof. intros X. apply in_concat in X. destruct X as (x & A & B). exists x. auto. Qed.
Ltac lit := match goal with H : In _ (bs _) |- _ => vm_compute in H; intuition discriminate end.
Ltac ins := repeat match goal with H : In _ (_ ++ _) |- _ => apply in_app_or in H; destruct H as [H|H] end.
Lemma no_nul v m : fine v m -> ~ In NUL (text m).
Proof.
  destruct m as [n action op|all|time ntf|caps sid]; cbn [text fine].
  - intros [H _] X. destruct action; ins; try lit; try (apply H; assumption); exact (dec_not _ NUL eq_refl X).
  - intros [[H _] _] X. exact (H X).
  - intros [[H _] [K _]] X. ins; try lit; auto.
  - intros [_ H] X. ins; try lit.
    + apply in_concat_ex in X. destruct X as (x & Y & Z). apply in_map_iff in Y. destruct Y as (c & <- & C). ins; try lit.
      apply escape_not in Z. destruct Z as [_ Z]. exact (H c C (Z eq_refl)).
    + destruct sid as [i|]; ins; try lit. exact (dec_not _ NUL eq_refl X).
Qed.

(** The marker begins with a bracket and has no "<". *)
Lemma app_eq_split {A} (a b c d : list A) : a ++ b = c ++ d -> (exists x, a = c ++ x /\ d = x ++ b) \/ (exists x, c = a ++ x /\ b = x ++ d).
Proof.
  revert c. induction a as [|h a IH]; intros c E.
  - right. exists c. auto.
  - destruct c as [|k c]; [left; exists (h :: a); auto|]. cbn in E. injection E as -> E. destruct (IH c E) as [(x & -> & ->)|(x & -> & ->)]; [left|right]; exists x; auto.
Qed.
Lemma contains_skip p d : ~ In "]"%char p -> contains (p ++ d) (bs "]]>]]>") -> contains d (bs "]]>]]>").
Proof.
  induction p as [|c p IH]; intros N X; [exact X|]. destruct X as (a & b & E). destruct a as [|h a].
  - cbn in E. injection E as -> _. exfalso. apply N. left; reflexivity.
  - cbn in E. injection E as _ E. apply IH; [intros Y; apply N; right; exact Y|]. exists a, b. exact E.
Qed.
Lemma contains_lt x y tag : ~ In "<"%char tag -> contains (x ++ "<"%char :: y) tag -> contains x tag \/ contains y tag.
Proof.
  intros N (a & b & E). destruct (app_eq_split _ _ _ _ E) as [(z & -> & F)|(z & -> & F)].
  - destruct (app_eq_split _ _ _ _ F) as [(w & -> & G)|(w & -> & G)].
    + destruct w as [|c w]; [rewrite app_nil_r; left; exists a, []; rewrite app_nil_r; reflexivity|]. exfalso.
      cbn in G. injection G as <- _. apply N. apply in_or_app. right; left; reflexivity.
    + left. exists a, w. reflexivity.
  - destruct z as [|c z].
    + cbn in F. destruct tag as [|t tag]; [left; exists x, []; rewrite !app_nil_r; reflexivity|]. cbn in F. injection F as <- _. exfalso. apply N. left; reflexivity.
    + cbn in F. injection F as _ F. right. exists z, b. exact F.
Qed.
Lemma contains_none p : ~ In "]"%char p -> ~ contains p (bs "]]>]]>").
Proof. intros N (a & b & ->). apply N. apply in_or_app. right. left. reflexivity. Qed.
Lemma no_lt : ~ In "<"%char (bs "]]>]]>"). Proof. vm_compute. intuition discriminate. Qed.
Lemma no_gt d : ~ In ">"%char d -> ~ contains d (bs "]]>]]>").
Proof. intros N (a & b & ->). apply N. apply in_or_app. right. do 2 right. left. reflexivity. Qed.
Lemma caps_none caps q : ~ In "]"%char q -> ~ contains (concat (map (fun c => bs "<capability>" ++ escape c ++ bs "</capability>") caps) ++ q) (bs "]]>]]>").
Proof.
  intros N. induction caps as [|c caps IH]; [apply contains_none; exact N|]. cbn [map concat]. intros X. rewrite <- !app_assoc in X.
  apply contains_skip in X; [|vm_compute; intuition discriminate].
  change (bs "</capability>" ++ ?z) with ("<"%char :: (bs "/capability>" ++ z)) in X. apply contains_lt in X; [|exact no_lt]. destruct X as [X|X].
  - apply (no_gt (escape c)); [|exact X]. intros Y. apply escape_not in Y. destruct Y as [Y _]. congruence.
  - apply contains_skip in X; [|vm_compute; intuition discriminate]. exact (IH X).
Qed.
Lemma no_marker m : fine V10 m -> ~ contains (text m) (bs "]]>]]>").
Proof.
  destruct m as [n action op|all|time ntf|caps sid]; cbn [text fine].
  - intros [_ H] X. specialize (H eq_refl). apply contains_skip in X; [|vm_compute; intuition discriminate].
    apply contains_skip in X; [|apply dec_not; reflexivity]. apply contains_skip in X; [|vm_compute; intuition discriminate].
    destruct action.
    + rewrite <- !app_assoc in X. apply contains_skip in X; [|vm_compute; intuition discriminate].
      change (bs "</action>" ++ ?z) with ("<"%char :: (bs "/action>" ++ z)) in X. apply contains_lt in X; [|exact no_lt]. destruct X as [X|X]; [exact (H X)|].
      revert X. apply contains_none. vm_compute. intuition discriminate.
    + change (bs "</rpc>") with ("<"%char :: bs "/rpc>") in X. apply contains_lt in X; [|exact no_lt]. destruct X as [X|X]; [exact (H X)|].
      revert X. apply contains_none. vm_compute. intuition discriminate.
  - intros [[_ H] _]. exact (H eq_refl).
  - intros [[_ H] [_ K]] X. specialize (H eq_refl). specialize (K eq_refl). apply contains_skip in X; [|vm_compute; intuition discriminate].
    change (bs "</eventTime>" ++ ?z) with ("<"%char :: (bs "/eventTime>" ++ z)) in X. apply contains_lt in X; [|exact no_lt]. destruct X as [X|X]; [exact (H X)|].
    apply contains_skip in X; [|vm_compute; intuition discriminate].
    change (bs "</notification>") with ("<"%char :: bs "/notification>") in X. apply contains_lt in X; [|exact no_lt]. destruct X as [X|X]; [exact (K X)|].
    revert X. apply contains_none. vm_compute. intuition discriminate.
  - intros [_ H] X. apply contains_skip in X; [|vm_compute; intuition discriminate]. revert X. apply caps_none.
    destruct sid as [i|]; intros X; ins; try lit. revert X. apply dec_not. reflexivity.
Qed.

(** All end with ">" after another character than a bracket. *)
Definition ended (t : bytes) : Prop := exists a c, c <> "]"%char /\ t = a ++ [c; ">"%char].
Lemma ended_app p q : ended q -> ended (p ++ q).
Proof. intros (a & c & C & ->). exists (p ++ a), c. split; [exact C | apply app_assoc]. Qed.
Lemma ends m : (forall v, fine v m -> exists a c, c <> "]"%char /\ text m = a ++ [c; ">"%char]).
Proof.
  intros v. destruct m as [n action op|all|time ntf|caps sid]; cbn [text fine]; intros F.
  - do 4 apply ended_app. exists (bs "</rp"), "c"%char. split; [discriminate | reflexivity].
  - destruct F as [_ (a & [-> | ->])]; apply ended_app; [exists (bs "rpc-repl"), "y"%char | exists [], "/"%char]; (split; [discriminate | reflexivity]).
  - do 4 apply ended_app. exists (bs "</notificatio"), "n"%char. split; [discriminate | reflexivity].
  - do 2 apply ended_app. destruct sid; [do 2 apply ended_app; exists (bs "</session-id></hell"), "o"%char | exists (bs "</capabilities></hell"), "o"%char]; (split; [discriminate | reflexivity]).
Qed.
Lemma two_last {A} (a b : list A) x y z w : a ++ [x; y] = b ++ [z; w] -> x = z /\ y = w.
Proof.
  intros E. change [x; y] with ([x] ++ [y]) in E. change [z; w] with ([z] ++ [w]) in E. rewrite !app_assoc in E.
  apply app_inj_tail in E. destruct E as [E ->]. apply app_inj_tail in E. destruct E as [_ ->]. auto.
Qed.

(** Lengths. *)
Lemma esc_len d : lenN d <= lenN (escape d).
Proof.
  rewrite escape_esc1. induction d as [|c d IH]; [reflexivity|]. cbn [flat_map]. rewrite lenN_cons, lenN_app. pose proof (esc1_len c). lia.
Qed.
Lemma piece_len (ds : list bytes) d : In d ds -> lenN d <= lenN (concat ds).
Proof. induction ds as [|x ds IH]; [intros []|]. cbn [concat In]. rewrite lenN_app. intros [-> |X]; [lia|]. specialize (IH X). lia. Qed.
Lemma all_reasonable ps : lenN (payload ps) < 4294966272 -> (forall ds ok, In (PPrint ds ok) ps -> ok = true) -> Forall reasonable ps.
Proof.
  induction ps as [|p ps IH]; intros L O; [constructor|]. rewrite payload_cons, lenN_app in L. constructor.
  - destruct p as [d [|]|ds ok]; cbn [reasonable].
    + pose proof (esc_len d). lia.
    + lia.
    + split; [apply (O ds ok); left; reflexivity|]. apply Forall_forall. intros d D. pose proof (piece_len _ _ D). lia.
  - apply IH; [lia|]. intros ds ok X. apply (O ds ok). right; exact X.
Qed.
Lemma parts_ok m : forall ds ok, In (PPrint ds ok) (parts_of m) -> ok = true.
Proof.
  destruct m as [n action op|all|time ntf|caps sid]; cbn [parts_of]; intros ds ok X.
  - unfold rpc_parts in X. destruct action; cbn in X; intuition (try discriminate; congruence).
  - unfold reply_parts in X. cbn in X. intuition (try discriminate; congruence).
  - unfold notif_parts in X. cbn in X. intuition (try discriminate; congruence).
  - unfold hello_parts in X. apply in_app_or in X. destruct X as [X|X]; [cbn in X; intuition discriminate|]. apply in_app_or in X. destruct X as [X|X].
    + apply in_flat_map in X. destruct X as (c & _ & X). cbn in X. intuition discriminate.
    + destruct sid; cbn in X; intuition discriminate.
Qed.
Lemma text_nonempty v m : fine v m -> text m <> [].
Proof. intros F. destruct (ends m v F) as (a & c & _ & ->). destruct a; discriminate. Qed.

(* ------------------------------------------------------------------ *)
(** ** C81: messages arrive *)

Theorem c81_arrives : forall v m st st' alloc t rest sent,
  usable st -> fine v m -> lenN (text m) < 2147483000 -> grants alloc (lenN (text m) + 1024) ->
  nc_write_msg_io v st (parts_of m) = (MsgSent, st') -> ws_wire st' = ws_wire st ++ sent -> incoming t = sent ++ rest ->
  exists t', nc_read_msg_io alloc v t = MMsg (text m) t' /\ incoming t' = rest /\ failure t' = failure t.
Proof.
  intros v m st st' alloc t rest sent U F L G W S I.
  assert (R : Forall reasonable (parts_of m)) by (apply all_reasonable; [rewrite parts_text; lia | apply parts_ok]).
  destruct v.
  - pose proof (c02_eom_sender _ _ _ U R W) as E. rewrite parts_text in E. rewrite E in S. apply app_inv_head in S. subst sent.
    destruct (ends m V10 F) as (a & c & C & T).
    apply (c02_eom_round_trip_partial (text m)); try assumption.
    + apply no_marker; exact F.
    + apply (no_nul V10); exact F.
    + intros b E2. rewrite T in E2. change [c; ">"%char] with ([c] ++ [">"%char]) in E2. rewrite app_assoc in E2. apply app_inj_tail in E2. destruct E2 as [_ E2]. discriminate E2.
    + intros b E2. rewrite T in E2. change (b ++ bs "]]>") with (b ++ [("]"%char)] ++ ["]"%char; ">"%char]) in E2. rewrite app_assoc in E2.
      apply two_last in E2. destruct E2. contradiction.
    + rewrite <- app_assoc in I. exact I.
  - rewrite <- parts_text in L, G |- *. eapply (c01_chunked_round_trip_partial (parts_of m) st st' alloc t rest); try eassumption.
    + rewrite parts_text. eapply text_nonempty; exact F.
    + rewrite parts_text. eapply no_nul; exact F.
    + lia.
Qed.

Lemma sent_usable v m st st' : usable st -> lenN (text m) < 2147483000 -> nc_write_msg_io v st (parts_of m) = (MsgSent, st') ->
  usable st' /\ exists sent, ws_wire st' = ws_wire st ++ sent.
Proof.
  intros U L W. assert (R : Forall reasonable (parts_of m)) by (apply all_reasonable; [rewrite parts_text; lia | apply parts_ok]).
  destruct (c06_output_partial _ _ _ _ _ U R W) as (_ & whole & s & mi & _ & _ & E & H & _). split; [apply H; reflexivity | exists s; exact E].
Qed.
(** Any number of messages, one after another: what is read are the messages, in order, and nothing else. *)
Theorem c81_sequence : forall ms v st st' alloc t rest sent,
  usable st -> Forall (fun m => fine v m /\ lenN (text m) < 2147483000 /\ grants alloc (lenN (text m) + 1024)) ms ->
  sends v st (map parts_of ms) st' -> ws_wire st' = ws_wire st ++ sent -> incoming t = sent ++ rest ->
  exists t', receives alloc v t (map text ms) t' /\ incoming t' = rest /\ failure t' = failure t.
Proof.
  induction ms as [|m ms IH]; intros v st st' alloc t rest sent U A S W I; cbn [map] in *.
  - inversion S; subst. rewrite <- (app_nil_r (ws_wire st')) in W at 1. apply app_inv_head in W. subst sent. exists t. split; [constructor | auto].
  - inversion S as [|? ? st1 ? ? W1 S1]; subst. inversion A as [|? ? (F & L & G) A1]; subst.
    destruct (sent_usable _ _ _ _ U L W1) as [U1 (s1 & E1)].
    assert (exists s2, ws_wire st' = ws_wire st1 ++ s2) as (s2 & E2).
    { clear - U1 A1 S1. revert st1 U1 S1. induction ms as [|x ms IH]; intros st1 U1 S1; cbn [map] in S1; inversion S1; subst.
      - exists []. rewrite app_nil_r. reflexivity.
      - inversion A1 as [|? ? (F & L & G) A2]; subst. destruct (sent_usable _ _ _ _ U1 L H2) as [U2 (a & E)].
        destruct (IH A2 _ U2 H4) as (b & E'). exists (a ++ b). rewrite E', E, app_assoc. reflexivity. }
    rewrite E2, E1, <- app_assoc in W. apply app_inv_head in W. subst sent. rewrite <- app_assoc in I.
    destruct (c81_arrives _ _ _ _ _ _ _ _ U F L G W1 E1 I) as (t1 & R1 & I1 & F1).
    destruct (IH v st1 st' alloc t1 rest s2 U1 A1 S1 E2 I1) as (t2 & R2 & I2 & F2).
    exists t2. split; [econstructor; eassumption | split; [exact I2 | congruence]].
Qed.

(** What a server sends is told apart by the client as it is: libyang prints the envelope of a reply, named rpc-reply, first. *)
Theorem c81_kind :
  (forall all x, concat all = bs "<rpc-reply" ++ x -> get_msg_type (text (RpcReply all)) = Some Reply) /\
  (forall time ntf, get_msg_type (text (Notification time ntf)) = Some Notif) /\
  (forall caps sid, get_msg_type (text (HelloMsg caps sid)) = None) /\ (forall n a op, get_msg_type (text (Rpc n a op)) = None).
Proof. split; [|split; [|split]]; intros; cbn [text]; try rewrite H; reflexivity. Qed.

(** A hello message has no version 1.0 marker in it whatever the capabilities are; an event time is not escaped. *)
Theorem c81_time_refuted : exists m v st st' alloc t t' msg, (exists time ntf, m = Notification time ntf /\ ~ In NUL time /\ clean V10 (concat ntf)) /\
  usable st /\ lenN (text m) < 2147483000 /\ grants alloc (lenN (text m) + 1024) /\
  nc_write_msg_io v st (parts_of m) = (MsgSent, st') /\ incoming t = ws_wire st' /\ ws_wire st = [] /\
  nc_read_msg_io alloc v t = MMsg msg t' /\ msg <> text m.
Proof.
  exists (Notification (bs "]]>]]>") []), V10, (mkW true [] [WAcc 5000; WAcc 5000]). eexists. exists (fun _ => true). eexists [TData _]. eexists. eexists.
  split; [exists (bs "]]>]]>"), []; split; [reflexivity|]; split; [vm_compute; intuition discriminate|]; split; [intros []|]; intros _ (a & b & E); destruct a; discriminate E|].
  split; [split; [reflexivity|]; intros [X|[X|[]]]; discriminate X|]. split; [vm_compute; reflexivity|]. split; [intros ? ?; reflexivity|].
  split; [vm_compute; reflexivity|]. split; [cbn [incoming ws_wire]; rewrite app_nil_r; reflexivity|]. split; [reflexivity|]. split; [vm_compute; reflexivity|].
  vm_compute. discriminate.
Qed.

(* ------------------------------------------------------------------ *)
(** ** C82: the writer ends *)

(** The transport neither fails nor is closed. *)
Definition calm (l : list wev) : Prop := ~ In WErr l /\ ~ In WClosed l.
(** How many times it takes at least one byte. *)
Fixpoint takes (l : list wev) : N := match l with [] => 0 | WAcc k :: r => (if k =? 0 then 0 else 1) + takes r | _ :: r => takes r end.

Definition step (st : wst) (o : wout) (st' : wst) : Prop :=
  ws_ok st' = true /\ calm (ws_ev st') /\ (o = WSent \/ o = WUb \/ (o = WBlocked /\ ws_ev st' = [])) /\
  takes (ws_ev st) + lenN (ws_wire st) <= takes (ws_ev st') + lenN (ws_wire st').
Lemma calm_tl e l : calm (e :: l) -> calm l.
Proof. intros [A B]. split; intros X; [apply A | apply B]; right; exact X. Qed.
Lemma loop_step evs : forall wire rem, calm evs -> rem <> [] ->
  step (mkW true wire evs) (fst (nc_write_loop evs wire rem)) (snd (nc_write_loop evs wire rem)).
Proof.
  induction evs as [|e evs IH]; intros wire rem C R; cbn [nc_write_loop].
  - repeat split; try apply C; cbn; auto. lia.
  - pose proof (calm_tl _ _ C) as C'. destruct e as [k| | | |].
    + assert (L : takes (WAcc k :: evs) + lenN wire <= takes evs + lenN (wire ++ takeN k rem)).
      { cbn [takes]. rewrite lenN_app, lenN_takeN. destruct rem as [|x rem]; [congruence|]. rewrite lenN_cons.
        destruct (N.eqb_spec k 0); lia. }
      destruct (dropN k rem) as [|x r] eqn:D.
      * cbn [fst snd]. split; [reflexivity|]. split; [exact C'|]. split; [auto | exact L].
      * destruct (IH (wire ++ takeN k rem) (x :: r) C' ltac:(discriminate)) as (A1 & A2 & A3 & A4). split; [exact A1|]. split; [exact A2|]. split; [exact A3|].
        cbn [ws_ev ws_wire] in *. lia.
    + destruct rem as [|x rem]; [congruence|]. exact (IH wire (x :: rem) C' R).
    + destruct rem as [|x rem]; [congruence|]. exact (IH wire (x :: rem) C' R).
    + exfalso. apply (proj1 C). left; reflexivity.
    + exfalso. apply (proj2 C). left; reflexivity.
Qed.
Lemma write_step st buf : ws_ok st = true -> calm (ws_ev st) -> buf <> [] -> step st (fst (nc_write st buf)) (snd (nc_write st buf)).
Proof. intros O C B. unfold nc_write. rewrite O. destruct st as [ok w e]. cbn in O, C |- *. subst ok. apply loop_step; assumption. Qed.
Lemma step_refl st : ws_ok st = true -> calm (ws_ev st) -> step st WSent st.
Proof. intros O C. repeat split; try apply C; auto. lia. Qed.
Lemma step_trans st o st1 o2 st2 : step st o st1 -> step st1 o2 st2 -> step st o2 st2.
Proof. intros (A1 & A2 & A3 & A4) (B1 & B2 & B3 & B4). split; [exact B1|]. split; [exact B2|]. split; [exact B3 | lia]. Qed.
Lemma then_step st r k : step st (fst r) (snd r) -> (forall s, ws_ok s = true -> calm (ws_ev s) -> step s (fst (k s)) (snd (k s))) ->
  step st (fst (andthen r k)) (snd (andthen r k)).
Proof.
  destruct r as [o s]. cbn [fst snd]. intros H K. unfold andthen. destruct o; try exact H.
  pose proof H as (A1 & A2 & _). exact (step_trans _ _ _ _ _ H (K s A1 A2)).
Qed.
Lemma start_step v st b : ws_ok st = true -> calm (ws_ev st) -> b <> [] ->
  step st (fst (nc_write_starttag_and_msg v st b)) (snd (nc_write_starttag_and_msg v st b)).
Proof.
  intros O C B. destruct v; cbn [nc_write_starttag_and_msg]; [apply write_step; assumption|].
  apply then_step; [apply write_step; try assumption; discriminate|]. intros. apply write_step; assumption.
Qed.
Lemma flush_step v st b : ws_ok st = true -> calm (ws_ev st) -> step st (fst (nc_write_clb_flush v st b)) (snd (nc_write_clb_flush v st b)).
Proof. intros O C. destruct b as [|x b]; cbn [nc_write_clb_flush]; [apply step_refl; assumption | apply start_step; try assumption; discriminate]. Qed.
Lemma xml_step v data : forall st b, ws_ok st = true -> calm (ws_ev st) ->
  step st (fst (fst (nc_write_xml_loop v st b data))) (snd (nc_write_xml_loop v st b data)).
Proof.
  induction data as [|c data IH]; intros st b O C; cbn [nc_write_xml_loop]; [apply step_refl; assumption|].
  destruct (WRITE_BUFSIZE <=? lenN b + 5).
  - pose proof (flush_step v st b O C) as F. destruct (nc_write_clb_flush v st b) as [o s]. cbn [fst snd] in F. destruct o; try exact F.
    pose proof F as (A1 & A2 & A3 & A4). destruct (put [] (esc1 c)) as [b2|].
    + exact (step_trans _ _ _ _ _ F (IH s b2 A1 A2)).
    + split; [exact A1|]. split; [exact A2|]. split; [auto | exact A4].
  - destruct (put b (esc1 c)) as [b2|]; [apply IH; assumption|]. split; [exact O|]. split; [exact C|]. split; [auto | cbn; lia].
Qed.
Lemma clb_step v st b data xml : ws_ok st = true -> calm (ws_ev st) ->
  step st (fst (fst (nc_write_clb v st b data xml))) (snd (nc_write_clb v st b data xml)).
Proof.
  intros O C. unfold nc_write_clb. cbv zeta.
  assert (K : forall s b1, ws_ok s = true -> calm (ws_ev s) ->
    step s (fst (fst (if negb xml && (WRITE_BUFSIZE <? lenN data) then let '(o, st2) := nc_write_starttag_and_msg v s data in (o, b1, st2)
       else if xml then nc_write_xml_loop v s b1 data else match put b1 data with None => (WUb, b1, s) | Some b2 => (WSent, b2, s) end)))
      (snd (if negb xml && (WRITE_BUFSIZE <? lenN data) then let '(o, st2) := nc_write_starttag_and_msg v s data in (o, b1, st2)
       else if xml then nc_write_xml_loop v s b1 data else match put b1 data with None => (WUb, b1, s) | Some b2 => (WSent, b2, s) end))).
  { intros s b1 O1 C1. destruct xml; cbn [negb andb]; [apply xml_step; assumption|]. destruct (N.ltb_spec WRITE_BUFSIZE (lenN data)).
    - assert (data <> []) as N by (intros ->; cbn in H; lia). pose proof (start_step v s data O1 C1 N) as S.
      destruct (nc_write_starttag_and_msg v s data) as [o s2]. exact S.
    - destruct (put b1 data); [apply step_refl; assumption|]. split; [exact O1|]. split; [exact C1|]. split; [auto | cbn; lia]. }
  destruct (negb (lenN b =? 0) && (WRITE_BUFSIZE <? (lenN b + lenN data) mod w32)).
  - pose proof (flush_step v st b O C) as F. destruct (nc_write_clb_flush v st b) as [o s]. cbn [fst snd] in F. destruct o; try exact F.
    pose proof F as (A1 & A2 & _). exact (step_trans _ _ _ _ _ F (K s [] A1 A2)).
  - apply K; assumption.
Qed.
Lemma pieces_step v ps : forall st b, ws_ok st = true -> calm (ws_ev st) -> step st (fst (fst (run_pieces v st b ps))) (snd (run_pieces v st b ps)).
Proof.
  induction ps as [|p ps IH]; intros st b O C; cbn [run_pieces]; [apply step_refl; assumption|]. unfold nc_write_xmlclb.
  pose proof (clb_step v st b (takeN (lenN p mod w32) p) false O C) as F. destruct (nc_write_clb _ _ _ _ _) as [[o b1] s]. cbn [fst snd] in F.
  destruct o; try exact F. pose proof F as (A1 & A2 & _). exact (step_trans _ _ _ _ _ F (IH s b1 A1 A2)).
Qed.
Definition wout_of (r : bool + wout) : wout := match r with inl _ => WSent | inr o => o end.
Lemma parts_step v ps : forall st b, (forall ds ok, In (PPrint ds ok) ps -> ok = true) -> ws_ok st = true -> calm (ws_ev st) ->
  step st (wout_of (fst (fst (run_parts v st b ps)))) (snd (run_parts v st b ps)) /\ fst (fst (run_parts v st b ps)) <> inl false /\ fst (fst (run_parts v st b ps)) <> inr WSent.
Proof.
  induction ps as [|p ps IH]; intros st b K O C; cbn [run_parts].
  - split; [apply step_refl; assumption | split; discriminate].
  - assert (K' : forall ds ok, In (PPrint ds ok) ps -> ok = true) by (intros; eapply K; right; eassumption).
    destruct p as [d xml|ds ok].
    + pose proof (clb_step v st b d xml O C) as F. destruct (nc_write_clb v st b d xml) as [[o b1] s]. cbn [fst snd] in F. pose proof F as (A1 & A2 & A3 & A4).
      destruct o; try (split; [exact F | split; discriminate]).
      * destruct (IH s b1 K' A1 A2) as [B1 B2]. split; [exact (step_trans _ _ _ _ _ F B1) | exact B2].
      * exfalso. intuition discriminate.
    + pose proof (pieces_step v ds st b O C) as F. destruct (run_pieces v st b ds) as [[o b1] s]. cbn [fst snd] in F. pose proof F as (A1 & A2 & A3 & A4).
      rewrite (K ds ok (or_introl eq_refl)).
      destruct o; try (split; [exact F | split; discriminate]).
      * destruct (IH s b1 K' A1 A2) as [B1 B2]. split; [exact (step_trans _ _ _ _ _ F B1) | exact B2].
      * exfalso. intuition discriminate.
Qed.
Lemma msg_step v st ps : (forall ds ok, In (PPrint ds ok) ps -> ok = true) -> ws_ok st = true -> calm (ws_ev st) ->
  let '(o, st') := nc_write_msg_io v st ps in
  (o = MsgSent \/ o = MsgUb \/ (o = MsgBlocked /\ ws_ev st' = [])) /\ calm (ws_ev st') /\
  takes (ws_ev st) + lenN (ws_wire st) <= takes (ws_ev st') + lenN (ws_wire st').
Proof.
  intros K O C. unfold nc_write_msg_io. rewrite O. cbn [negb]. destruct (parts_step v ps st [] K O C) as (F & N & N2).
  destruct (run_parts v st [] ps) as [[r b] s]. cbn [fst snd] in F, N, N2. pose proof F as (A1 & A2 & A3 & A4). destruct r as [[|]|o]; [| congruence |].
  - assert (E : step s (fst (nc_write_clb_end v s b)) (snd (nc_write_clb_end v s b))).
    { unfold nc_write_clb_end. apply then_step; [apply flush_step; assumption|]. intros. unfold nc_write_endtag. apply write_step; try assumption. destruct v; discriminate. }
    destruct (nc_write_clb_end v s b) as [o2 s2]. cbn [fst snd] in E. pose proof (step_trans _ _ _ _ _ F E) as (B1 & B2 & B3 & B4).
    destruct B3 as [-> |[-> |[-> B5]]]; cbn; rewrite ?B1; (split; [|split; [exact B2 | exact B4]]); auto.
  - cbn [wout_of] in *. destruct A3 as [-> |[-> |[-> A5]]]; cbn; (split; [|split; [exact A2 | exact A4]]); auto; congruence.
Qed.

(** The first [n] of what the transport will do. *)
Fixpoint first_of (f : nat -> wev) (n : nat) : list wev := match n with O => [] | S n => first_of f n ++ [f n] end.
Lemma first_in f n e : In e (first_of f n) -> exists i, f i = e.
Proof. induction n as [|n IH]; [intros []|]. cbn [first_of]. intros X. apply in_app_or in X. destruct X as [X|[X|[]]]; [exact (IH X) | exists n; exact X]. Qed.
Lemma takes_app a b : takes (a ++ b) = takes a + takes b.
Proof. induction a as [|[k| | | |] a IH]; cbn [takes app]; lia. Qed.
Lemma takes_grow f : (forall n, exists m k, (n <= m)%nat /\ f m = WAcc k /\ k <> 0) -> forall b, exists n, b < takes (first_of f n).
Proof.
  intros H b. induction b as [|b (n & IH)] using N.peano_ind.
  - destruct (H O) as (m & k & _ & E & K). exists (S m). cbn [first_of]. rewrite takes_app, E. cbn [takes]. destruct (N.eqb_spec k 0); [congruence | lia].
  - destruct (H n) as (m & k & L & E & K). exists (S m). cbn [first_of]. rewrite takes_app, E. cbn [takes].
    assert (M : takes (first_of f n) <= takes (first_of f m)).
    { clear - L. induction L as [|m L IH]; [lia|]. cbn [first_of]. rewrite takes_app. lia. }
    destruct (N.eqb_spec k 0); [congruence | lia].
Qed.

(** If the transport never fails and takes some bytes again and again, in whatever portions and after whatever waiting and interruptions, every message is
    written completely after finitely many attempts. *)
Theorem c82_sent : forall v m wire f, lenN (text m) < 4294966272 -> text m <> [] ->
  (forall i, f i <> WErr /\ f i <> WClosed) -> (forall n, exists i k, (n <= i)%nat /\ f i = WAcc k /\ k <> 0) ->
  exists n st', nc_write_msg_io v (mkW true wire (first_of f n)) (parts_of m) = (MsgSent, st') /\
    exists whole, ws_wire st' = wire ++ whole /\ match v with V11 => rfc_message whole (text m) | V10 => whole = text m ++ bs "]]>]]>" end.
Proof.
  intros v m wire f L NE NF T. assert (R : Forall reasonable (parts_of m)) by (apply all_reasonable; [rewrite parts_text; exact L | apply parts_ok]).
  assert (C : forall n, calm (first_of f n)).
  { intros n. split; intros X; apply first_in in X; destruct X as (i & X); destruct (NF i); congruence. }
  destruct (takes_grow f T (lenN (frames v (msg_chunks (parts_of m)) ++ frame_end v))) as (n & G).
  exists n. pose proof (msg_step v (mkW true wire (first_of f n)) (parts_of m) (parts_ok m) eq_refl (C n)) as S.
  assert (PS : Forall part_small (parts_of m)) by (apply reasonable_small; exact R).
  pose proof (write_msg_spec v (mkW true wire (first_of f n)) (parts_of m) eq_refl (proj1 (C n)) PS) as W.
  assert (U : usable (mkW true wire (first_of f n))) by (split; [reflexivity | exact (proj1 (C n))]).
  pose proof (fun o st' => c06_output_partial v (parts_of m) (mkW true wire (first_of f n)) o st' U R) as O.
  destruct (nc_write_msg_io v (mkW true wire (first_of f n)) (parts_of m)) as [o st']. exists st'. specialize (O o st' eq_refl).
  destruct S as (S1 & S2 & S3), W as (sent & rest & W1 & W2 & W3 & _). cbn [ws_ev ws_wire] in *.
  assert (o = MsgSent) as ->.
  { destruct S1 as [X|[X|[_ X]]]; [exact X | congruence |]. exfalso. rewrite X, W2, lenN_app in S3. cbn [takes] in S3. rewrite W1, lenN_app in G. lia. }
  split; [reflexivity|]. destruct O as (_ & whole & s & missing & O1 & O2 & O3 & O4 & _). destruct (O4 eq_refl) as [-> _]. rewrite app_nil_r in O2. subst s.
  exists whole. split; [exact O3|]. destruct v.
  - rewrite parts_text in O1. exact O1.
  - destruct O1 as (cs & O1 & E). exists cs. rewrite parts_text in E. split; [exact O1|]. split; [|congruence].
    intros ->. cbn in E. congruence.
Qed.

(** Both together: sent by a transport that keeps taking bytes, received from one that delivers them in any portions. *)
Theorem c82_delivered : forall v m wire f, fine v m -> lenN (text m) < 2147483000 ->
  (forall i, f i <> WErr /\ f i <> WClosed) -> (forall n, exists i k, (n <= i)%nat /\ f i = WAcc k /\ k <> 0) ->
  exists n st' sent, nc_write_msg_io v (mkW true wire (first_of f n)) (parts_of m) = (MsgSent, st') /\ ws_wire st' = wire ++ sent /\
    forall alloc t rest, grants alloc (lenN (text m) + 1024) -> incoming t = sent ++ rest ->
      exists t', nc_read_msg_io alloc v t = MMsg (text m) t' /\ incoming t' = rest /\ failure t' = failure t.
Proof.
  intros v m wire f F L NF T. destruct (c82_sent v m wire f ltac:(lia) (text_nonempty v m F) NF T) as (n & st' & W & sent & S & _).
  exists n, st', sent. split; [exact W|]. split; [exact S|]. intros alloc t rest G I.
  refine (c81_arrives v m _ st' alloc t rest sent _ F L G W S I). split; [reflexivity|]. intros X. apply first_in in X. destruct X as (i & X). exact (proj1 (NF i) X).
Qed.

(* ------------------------------------------------------------------ *)
(** ** C83: what an application passes does not end a message early *)

(** Capabilities may be any texts. *)
Theorem c83_hello : forall caps sid, ~ contains (text (HelloMsg caps sid)) (bs "]]>]]>").
Proof.
  intros caps sid X. cbn [text] in X. apply contains_skip in X; [|vm_compute; intuition discriminate]. revert X. apply caps_none.
  destruct sid as [i|]; intros X; ins; try lit. revert X. apply dec_not. reflexivity.
Qed.
(** Other messages have the marker only if what libyang prints, or the time of the event, has. *)
Theorem c83_data_partial : forall m, contains (text m) (bs "]]>]]>") ->
  match m with
  | Rpc _ _ op => contains (concat op) (bs "]]>]]>")
  | RpcReply all => contains (concat all) (bs "]]>]]>")
  | Notification time ntf => contains time (bs "]]>]]>") \/ contains (concat ntf) (bs "]]>]]>")
  | HelloMsg _ _ => False
  end.
Proof.
  destruct m as [n action op|all|time ntf|caps sid]; intros X.
  - cbn [text] in X. apply contains_skip in X; [|vm_compute; intuition discriminate].
    apply contains_skip in X; [|apply dec_not; reflexivity]. apply contains_skip in X; [|vm_compute; intuition discriminate].
    destruct action.
    + rewrite <- !app_assoc in X. apply contains_skip in X; [|vm_compute; intuition discriminate].
      change (bs "</action>" ++ ?z) with ("<"%char :: (bs "/action>" ++ z)) in X. apply contains_lt in X; [|exact no_lt]. destruct X as [X|X]; [exact X|].
      exfalso. revert X. apply contains_none. vm_compute. intuition discriminate.
    + change (bs "</rpc>") with ("<"%char :: bs "/rpc>") in X. apply contains_lt in X; [|exact no_lt]. destruct X as [X|X]; [exact X|].
      exfalso. revert X. apply contains_none. vm_compute. intuition discriminate.
  - exact X.
  - cbn [text] in X. apply contains_skip in X; [|vm_compute; intuition discriminate].
    change (bs "</eventTime>" ++ ?z) with ("<"%char :: (bs "/eventTime>" ++ z)) in X. apply contains_lt in X; [|exact no_lt]. destruct X as [X|X]; [left; exact X|].
    apply contains_skip in X; [|vm_compute; intuition discriminate]. right.
    change (bs "</notification>") with ("<"%char :: bs "/notification>") in X. apply contains_lt in X; [|exact no_lt]. destruct X as [X|X]; [exact X|].
    exfalso. revert X. apply contains_none. vm_compute. intuition discriminate.
  - exact (c83_hello _ _ X).
Qed.

(** A request and a notification, meeting the conditions above. *)
Example c81_case : fine V10 (Rpc 6 false [bs "<get/>"]) /\ fine V11 (Notification (bs "2026-11-15T00:00:00Z") [bs "<e xmlns=""u"">"; bs "</e>"])
  /\ text (Rpc 6 true [bs "<a/>"]) = bs "<rpc xmlns=""urn:ietf:params:xml:ns:netconf:base:1.0"" message-id=""7""><action xmlns=""urn:ietf:params:xml:ns:yang:1""><a/></action></rpc>".
Proof.
  split; [|split; [|reflexivity]].
  - split; [vm_compute; intuition discriminate|]. intros _. apply contains_none. vm_compute. intuition discriminate.
  - repeat split; try discriminate; vm_compute; intuition discriminate.
Qed.
(** A transport that takes three bytes, is interrupted and makes the sender wait, again and again. *)
Example c82_case : let f := fun i => match (i mod 3)%nat with 0%nat => WAcc 3 | 1%nat => WIntr | _ => WAgain end in
  (forall i, f i <> WErr /\ f i <> WClosed) /\ (forall n, exists i k, (n <= i)%nat /\ f i = WAcc k /\ k <> 0).
Proof.
  cbv zeta. split.
  - intros i. destruct (i mod 3)%nat as [|[|x]]; split; discriminate.
  - intros n. exists (n * 3)%nat, 3. rewrite Nat.mod_mul by discriminate. split; [lia|]. split; [reflexivity | discriminate].
Qed.

Print Assumptions c81_arrives.
Print Assumptions c81_sequence.
Print Assumptions c81_kind.
Print Assumptions c81_time_refuted.
Print Assumptions c82_sent.
Print Assumptions c82_delivered.
Print Assumptions c83_hello.
Print Assumptions c83_data_partial.
