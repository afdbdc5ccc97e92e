(** Properties C08-C12, C49: hello exchange, session creation, capabilities. *)
From Coq Require Import Ascii String NArith ZArith Bool Lia List.
From Verif Require Import Bytes CStr Caps Hello HelloProofs IoRead.
Import ListNotations.
Local Open Scope N_scope.

(* ================================================================== *)
(** * Specification *)

(** ** Versions *)
Definition v10 : bytes := bs "urn:ietf:params:netconf:base:1.0".
Definition v11 : bytes := bs "urn:ietf:params:netconf:base:1.1".
Inductive version := V10 | V11.
(** What two peers advertising [mine] and [theirs] have to use; [None]: no session. *)
Inductive agreed (mine theirs : list bytes) : option version -> Prop :=
| agreed_11 : In v11 mine -> In v11 theirs -> agreed mine theirs (Some V11)
| agreed_10 : ~ (In v11 mine /\ In v11 theirs) -> In v10 mine -> In v10 theirs -> agreed mine theirs (Some V10)
| agreed_no : ~ (In v11 mine /\ In v11 theirs) -> ~ (In v10 mine /\ In v10 theirs) -> agreed mine theirs None.

(** ** Hello messages *)
Definition ns10 : bytes := bs "urn:ietf:params:xml:ns:netconf:base:1.0".
Definition el (name : string) (text : bytes) (children : list xnode) : xnode := XOpaq (Some ns10) (bs name) text children.
(** A <hello> with a <capabilities> element with the given texts and, optionally, a <session-id>. *)
Definition hello_doc (texts : list bytes) (sid : option bytes) : xnode :=
  el "hello" [] (el "capabilities" [] (map (fun t => el "capability" t []) texts)
                 :: match sid with Some v => [el "session-id" v []] | None => [] end).
(** A received text shows a capability, surrounded by any white space. *)
Definition shows (text cap : bytes) : Prop :=
  exists ws ws', text = ws ++ cap ++ ws' /\ forallb is_space ws = true /\ forallb is_space ws' = true
    /\ (exists x r, cap = x :: r /\ is_space x = false) /\ (exists r x, cap = r ++ [x] /\ is_space x = false).
(** No capability is a proper beginning of a base capability. *)
Definition tidy (caps : list bytes) : Prop :=
  forall c r, In c caps -> c ++ r = v10 \/ c ++ r = v11 -> r = [].
(** The elements of the base namespace with some name among the children of a message. *)
Definition named (name : string) (hello : xnode) : list bytes :=
  concat (map (fun x => match x with
                        | XOpaq (Some n) nm v _ => if beqb n ns10 && beqb nm (bs name) then [v] else []
                        | _ => []
                        end) (children_of hello)).
Definition decimal (ds : bytes) : N := fold_left (fun a c => 10 * a + (N_of_ascii c - 48)) ds 0.
(** Text [v] is the number [n]: white space, possibly a plus sign, decimal digits. *)
Definition number (v : bytes) (n : N) : Prop :=
  exists ws sign ds, v = ws ++ sign ++ ds /\ forallb is_space ws = true /\ (sign = [] \/ sign = bs "+")
    /\ ds <> [] /\ forallb is_digit ds = true /\ decimal ds = n.

(** The version of a session after a handshake that established it. *)
Definition established (r : hres) : option version :=
  match r with
  | HRes T_HELLO s => if h_ver s =? 0 then Some V10 else if h_ver s =? 1 then Some V11 else None
  | _ => None
  end.
(** The same as [hello_doc] for the capabilities and id a peer really sends. *)
Definition as_doc (h : list bytes * option N) : xnode :=
  hello_doc (fst h) (match snd h with Some id => Some (dec id) | None => None end).
Definition fresh (id : N) : hs := mkH id 0 None.

(* ================================================================== *)
(** * Bridging lemmas *)

Lemma shows_trim t c : shows t c -> trim t = c /\ c <> [].
Proof.
  intros (ws & ws' & -> & H1 & H2 & (x & r & E & Hx) & (r' & y & E' & Hy)). split; [|rewrite E; discriminate].
  apply trim_pad; auto. exists x. split; [rewrite E; reflexivity|]. split; [exact Hx|]. exists r', y. auto.
Qed.

Lemma cap_list_shows ts cs : Forall2 shows ts cs ->
  cap_list (map (fun t => el "capability" t []) ts) = Some cs.
Proof.
  induction 1 as [|t c ts cs H _ IH]; [reflexivity|]. cbn [map].
  change (cap_list (el "capability" t [] :: map (fun t => el "capability" t []) ts)) with
    (match trim t, cap_list (map (fun t => el "capability" t []) ts) with
        | [], _ => None
        | c, Some l => Some (c :: l)
        | _, None => None
        end).
  destruct (shows_trim _ _ H) as [-> Hne]. rewrite IH. destruct c; [congruence|reflexivity].
Qed.

Lemma tidy_all cs : tidy cs -> Forall tidy_cap cs.
Proof.
  intros H. apply Forall_forall. intros c Hc Hp. destruct Hp as [[r E]|[r E]].
  - left. rewrite (H c r Hc) in E by (left; symmetry; exact E). rewrite app_nil_r in E. now symmetry.
  - right. rewrite (H c r Hc) in E by (right; symmetry; exact E). rewrite app_nil_r in E. now symmetry.
Qed.

Lemma has_in u cs : existsb (beqb u) cs = true <-> In u cs.
Proof.
  rewrite existsb_exists. split.
  - intros (x & H & E). apply beqb_spec in E. now subst.
  - intros H. exists u. split; [exact H|apply beqb_refl].
Qed.

Definition ver_of (v : option N) : option version :=
  match v with Some 0 => Some V10 | Some 1 => Some V11 | _ => None end.

Lemma rule_agreed mine cs : In v10 mine -> In v11 mine -> agreed mine cs (ver_of (rule None cs)).
Proof.
  intros H10 H11. unfold rule. change base11 with v11. change base10 with v10. destruct (existsb (beqb v11) cs) eqn:E1.
  - apply has_in in E1. cbn [ver_of]. now apply agreed_11.
  - assert (~ In v11 cs) by (intros H; apply has_in in H; congruence).
    destruct (existsb (beqb v10) cs) eqn:E0.
    + apply has_in in E0. cbn [ver_of]. apply agreed_10; auto. tauto.
    + assert (~ In v10 cs) by (intros H'; apply has_in in H'; congruence). cbn [ver_of]. apply agreed_no; tauto.
Qed.

Lemma agreed_fun mine theirs a b : agreed mine theirs a -> agreed mine theirs b -> a = b.
Proof. intros [] []; try reflexivity; tauto. Qed.

Lemma parse_doc ts cs : Forall2 shows ts cs ->
  parse_cpblts (el "capabilities" [] (map (fun t => el "capability" t []) ts)) =
  match see_all None cs with Some v => PcOk v cs | None => PcFail end.
Proof.
  intros H. pose proof (cap_list_shows _ _ H) as Hc. destruct (see_all None cs) as [v|] eqn:E.
  - apply parse_ok. auto.
  - destruct (parse_cpblts _) as [v l| |] eqn:Ep; [|reflexivity|].
    + apply parse_ok in Ep. cbn [children_of el] in Ep. rewrite Hc in Ep. destruct Ep as [[= <-] Ep]. congruence.
    + exfalso. revert Ep. unfold parse_cpblts. cbn [children_of el]. clear.
      generalize (@None N) (@nil bytes). induction ts as [|t ts IH]; intros v acc; cbn [map].
      * cbn. destruct v; discriminate.
      * change (parse_cpblts_loop (el "capability" t [] :: map (fun t => el "capability" t []) ts) v acc) with
          (match trim t with [] => PcFail | cap => parse_cpblts_loop (map (fun t => el "capability" t []) ts) (see_version v cap) (acc ++ [cap]) end).
        destruct (trim t); [discriminate|apply IH].
Qed.

Lemma server_doc ts cs s : Forall2 shows ts cs ->
  server_recv_hello (RdMsg (Some (Some (hello_doc ts None)))) s =
  match see_all None cs with Some v => HRes T_HELLO (mkH (h_id s) v (h_cpblts s)) | None => HRes T_BAD_HELLO s end.
Proof.
  intros H. unfold server_recv_hello, hello_doc. cbn [children_of el].
  change (server_hello_loop [el "capabilities" [] (map (fun t => el "capability" t []) ts)] false s) with
    (match parse_cpblts (el "capabilities" [] (map (fun t => el "capability" t []) ts)) with
     | PcOk v l => HRes T_HELLO (mkH (h_id s) v (h_cpblts s)) | PcFail => HRes T_BAD_HELLO s | PcUb => HUb end).
  rewrite (parse_doc _ _ H). now destruct (see_all None cs).
Qed.

Lemma client_doc ts cs id s : Forall2 shows ts cs -> 1 <= id <= 4294967295 ->
  client_recv_hello (RdMsg (Some (Some (hello_doc ts (Some (dec id)))))) s =
  match see_all None cs with Some v => HRes T_HELLO (mkH id v (Some cs)) | None => HRes T_ERROR s end.
Proof.
  intros H Hid. unfold client_recv_hello, hello_doc. cbn [children_of el].
  change (client_hello_loop [el "capabilities" [] (map (fun t => el "capability" t []) ts); el "session-id" (dec id) []] false s) with
    (match parse_cpblts (el "capabilities" [] (map (fun t => el "capability" t []) ts)) with
     | PcOk v l => client_hello_loop [el "session-id" (dec id) []] true (mkH (h_id s) v (Some l))
     | PcFail => HRes T_ERROR s | PcUb => HUb end).
  rewrite (parse_doc _ _ H). destruct (see_all None cs) as [v|]; [|reflexivity].
  change (client_hello_loop [el "session-id" (dec id) []] true (mkH (h_id s) v (Some cs))) with
    (match strtoll_full (dec id) with
     | Some z => if ((z <? 1) || (4294967295 <? z))%Z then HRes T_ERROR (mkH (h_id s) v (Some cs))
                 else client_hello_loop [] true (mkH (Z.to_N z) v (Some cs))
     | None => HRes T_ERROR (mkH (h_id s) v (Some cs)) end).
  rewrite strtoll_full_dec.
  assert (((Z.of_N id <? 1) || (4294967295 <? Z.of_N id))%Z = false) as ->.
  { apply orb_false_iff. rewrite !Z.ltb_ge. lia. }
  rewrite N2Z.id. cbn [client_hello_loop h_id]. destruct (N.eqb_spec id 0); [lia|reflexivity].
Qed.

Lemma see_all_ver cs v : see_all None cs = Some v -> v = 0 \/ v = 1.
Proof. intros H. destruct (see_all_values cs None (or_introl eq_refl)) as [E|[E|E]]; rewrite E in H; [discriminate| |]; injection H as <-; auto. Qed.

Lemma named_els name x : named name x = map el_value (filter (base_el (bs name)) (children_of x)).
Proof.
  unfold named. induction (children_of x) as [|[[n|] nm v c|c] ns IH]; [reflexivity| | |]; cbn [map concat filter base_el is_base].
  - change ns10 with NC_NS_BASE in *. destruct (beqb n NC_NS_BASE && beqb nm (bs name)); cbn [map el_value app]; now rewrite IH.
  - exact IH.
  - exact IH.
Qed.

(* ================================================================== *)
(** * C08 version agreement *)

(** The server, for every list of client capabilities in every order, with any white space around
    them. [mine] is what this server itself advertises. *)
Theorem c08_server_partial : forall o c mine id texts theirs want,
  own_hello false o c id = Some (mine, Some id) ->
  Forall2 shows texts theirs -> tidy theirs -> agreed mine theirs want ->
  established (server_recv_hello (RdMsg (Some (Some (hello_doc texts None)))) (fresh id)) = want.
Proof.
  intros o c mine id texts theirs want Hm Hs Ht Ha. rewrite (server_doc _ _ _ Hs).
  rewrite (see_all_tidy _ _ (or_introl eq_refl) (tidy_all _ Ht)).
  assert (Hb : In v10 mine /\ In v11 mine).
  { unfold own_hello in Hm. destruct (get_cpblts o c 1) as [l| |] eqn:E; try discriminate. injection Hm as <-.
    apply cpblts_start in E. split; eapply ext_in; try exact E; cbn; auto. }
  destruct Hb as [H10 H11]. rewrite (agreed_fun _ _ _ _ Ha (rule_agreed mine theirs H10 H11)).
  destruct (rule_values None theirs (or_introl eq_refl)) as [-> | [-> | ->]]; reflexivity.
Qed.

(** The client. *)
Theorem c08_client_partial : forall o c mine sid id texts theirs want,
  own_hello true o c sid = Some (mine, None) -> 1 <= id <= 4294967295 ->
  Forall2 shows texts theirs -> tidy theirs -> agreed mine theirs want ->
  established (client_recv_hello (RdMsg (Some (Some (hello_doc texts (Some (dec id)))))) (fresh 0)) = want.
Proof.
  intros o c mine sid id texts theirs want Hm Hid Hs Ht Ha. rewrite (client_doc _ _ _ _ Hs Hid).
  rewrite (see_all_tidy _ _ (or_introl eq_refl) (tidy_all _ Ht)).
  assert (mine = [v10; v11]) as -> by (unfold own_hello in Hm; now inversion_clear Hm).
  rewrite (agreed_fun _ _ _ _ Ha (rule_agreed [v10; v11] theirs (or_introl eq_refl) (or_intror (or_introl eq_refl)))).
  destruct (rule_values None theirs (or_introl eq_refl)) as [-> | [-> | ->]]; reflexivity.
Qed.

(** Two peers using this library, for every server configuration and context: both use 1.1.  Server
    capabilities are trimmed by the client, hence the condition on user capabilities. *)
Theorem c08_both_peers : forall o c id srv cli,
  own_hello false o c id = Some srv -> own_hello true o c id = Some cli ->
  (forall t, In t (fst srv) -> exists cap, shows t cap) -> 1 <= id <= 4294967295 ->
  established (client_recv_hello (RdMsg (Some (Some (as_doc srv)))) (fresh 0)) = Some V11 /\
  established (server_recv_hello (RdMsg (Some (Some (as_doc cli)))) (fresh id)) = Some V11.
Proof.
  intros o c id srv cli Hs Hc Hb Hid. split.
  - unfold own_hello in Hs. destruct (get_cpblts o c 1) as [l| |] eqn:E; try discriminate. injection Hs as <-.
    cbn [fst] in Hb. unfold as_doc. cbn [fst snd].
    assert (exists cs, Forall2 shows l cs) as [cs Hcs].
    { clear E. induction l as [|t l IH]; [now exists []|]. destruct (Hb t (or_introl eq_refl)) as [cap Hcap].
      destruct IH as [cs Hcs]; [intros x Hx; apply Hb; now right|]. exists (cap :: cs). now constructor. }
    rewrite (client_doc _ _ _ _ Hcs Hid). apply cpblts_start in E. destruct E as [[r ->] _]. cbn [app] in Hcs.
    inversion Hcs as [|? c1 ? cs1 S1 F1]. subst. inversion F1 as [|? c2 ? cs2 S2 F2]. subst.
    apply shows_trim in S1, S2. destruct S1 as [<- _], S2 as [<- _].
    change (see_all None (trim base10 :: trim base11 :: cs2)) with (see_all (Some 1) cs2).
    rewrite see_all_11. reflexivity.
  - injection Hc as <-. reflexivity.
Qed.

(** That condition is needed: the setter takes a blank capability, and then no client gets a session. *)
Theorem c08_blank_capability_refuted : exists o o' c srv,
  set_capability (bs " ") o = Some o' /\ own_hello false o' c 1 = Some srv /\
  established (client_recv_hello (RdMsg (Some (Some (as_doc srv)))) (fresh 0)) = None.
Proof.
  exists (mkS 0 0 [] None), (mkS 0 0 [bs " "] None), (mkCtx None false [] 0), ([v10; v11; bs " "], Some 1).
  repeat split.
Qed.
Example c08_both_peers_case : exists srv, own_hello false (mkS 0 0 [bs "urn:a b?c"] None) (mkCtx None false [] 0) 1 = Some srv
  /\ (forall t, In t (fst srv) -> exists cap, shows t cap).
Proof.
  eexists. split; [reflexivity|]. cbn [fst]. intros t Ht.
  assert (K : forall x r r' y, x :: r = r' ++ [y] -> is_space x = false -> is_space y = false -> shows (x :: r) (x :: r)).
  { intros x r r' y E Hx Hy. exists [], []. rewrite app_nil_r. repeat split; [eauto|]. exists r', y. auto. }
  exists t. repeat (destruct Ht as [<-|Ht];
    [match goal with |- shows ?l _ => apply (K _ _ (removelast l) (last l NL)); reflexivity end|]). destruct Ht.
Qed.

(** The full statement is false: a beginning of a base URI counts as the base capability (twice: as
    both), and a hello without any capabilities is accepted by the server as 1.0. *)
Theorem c08_versions_refuted :
  established (server_recv_hello (RdMsg (Some (Some (hello_doc [bs "u"] None)))) (fresh 1)) = Some V10 /\
  established (server_recv_hello (RdMsg (Some (Some (hello_doc [bs "u"; bs "u"] None)))) (fresh 1)) = Some V11 /\
  established (client_recv_hello (RdMsg (Some (Some (hello_doc [bs "u"; bs "u"] (Some (bs "7")))))) (fresh 0)) = Some V11 /\
  established (server_recv_hello (RdMsg (Some (Some (el "hello" [] [])))) (fresh 1)) = Some V10 /\
  established (server_recv_hello (RdMsg (Some (Some (el "rpc" [] [])))) (fresh 1)) = Some V10 /\
  established (server_recv_hello (RdMsg (Some None)) (fresh 1)) = Some V10.
Proof. repeat split. Qed.

(** What holds of every message: an established version is justified by a single <capabilities>
    element, or there is none. *)
Theorem c08_any_hello_partial : forall (client : bool) x id s',
  (if client then client_recv_hello else server_recv_hello) (RdMsg (Some (Some x))) (fresh id) = HRes T_HELLO s' ->
  (named "capabilities" x = [] /\ h_ver s' = 0) \/ (exists v, named "capabilities" x = [v] /\ h_ver s' <= 1).
Proof.
  intros client x id s' H. rewrite named_els.
  assert (G : match caps_els (children_of x) with [] => h_ver s' = 0 | [y] => h_ver s' <= 1 | _ => False end).
  { destruct client; cbn [client_recv_hello server_recv_hello] in H.
    - apply client_loop_ok in H. destruct H as (_ & _ & _ & _ & H). destruct (caps_els _) as [|y [|z r]]; [tauto| |tauto].
      destruct H as (_ & caps & _ & Hv & _). apply see_all_ver in Hv. lia.
    - apply server_loop_ok in H. destruct H as (_ & _ & _ & _ & H). destruct (caps_els _) as [|y [|z r]]; [tauto| |tauto].
      destruct H as (_ & caps & _ & Hv). apply see_all_ver in Hv. lia. }
  unfold caps_els in G. destruct (filter _ _) as [|y [|z r]]; [left; auto|right; exists (el_value y); auto|contradiction].
Qed.

Lemma shows_self c : (exists x r, c = x :: r /\ is_space x = false) -> (exists r x, c = r ++ [x] /\ is_space x = false) -> shows c c.
Proof. intros. exists [], []. rewrite app_nil_r. auto. Qed.

Example c08_case_10 : established (server_recv_hello (RdMsg (Some (Some
    (hello_doc [bs "urn:x"; NL :: v10 ++ bs "  "] None)))) (fresh 5)) = Some V10.
Proof. reflexivity. Qed.
Example c08_case_11 : established (server_recv_hello (RdMsg (Some (Some
    (hello_doc [v11; v10] None)))) (fresh 5)) = Some V11.
Proof. reflexivity. Qed.
Example c08_case_none : established (server_recv_hello (RdMsg (Some (Some
    (hello_doc [bs "urn:x"] None)))) (fresh 5)) = None /\ tidy [bs "urn:x"] /\ agreed [v10; v11] [bs "urn:x"] None.
Proof.
  split; [reflexivity|]. split.
  - intros c r [<-|[]] [H|H]; discriminate.
  - apply agreed_no; cbn; intuition discriminate.
Qed.

(* ================================================================== *)
(** * C09 session ids in hellos *)

(** A client session is established only with the number in a <session-id> of the server's hello. *)
Theorem c09_client : forall sent r s',
  handshake true sent r (fresh 0) = HRes T_HELLO s' ->
  sent = T_HELLO /\ exists x v, r = RdMsg (Some (Some x)) /\ In v (named "session-id" x) /\
    (forall before after w, named "session-id" x = before ++ [w] ++ after -> after = [] -> v = w) /\
    number v (h_id s') /\ 1 <= h_id s' <= 4294967295.
Proof.
  intros sent r s' H. unfold handshake in H. destruct sent; try discriminate. split; [reflexivity|].
  destruct r as [[[x|]|]| |]; try discriminate. cbn [client_recv_hello] in H.
  apply client_loop_ok in H. destruct H as (Hz & H & _). unfold sid_els in H. exists x. rewrite named_els.
  destruct (rev _) as [|y r] eqn:E.
  - cbn in H. lia.
  - assert (E2 : filter (base_el (bs "session-id")) (children_of x) = rev r ++ [y]).
    { rewrite <- (rev_involutive (filter _ _)), E. reflexivity. }
    rewrite E2. exists (el_value y). split; [reflexivity|]. split; [apply in_map, in_or_app; right; now left|].
    destruct (id_of_shape _ _ H) as (ws & sign & ds & H1 & H2 & H3 & H4 & H5 & H6 & H7).
    split; [|split; [exists ws, sign, ds; auto 10|exact H7]].
    intros b a w Hw ->. rewrite map_app in Hw. cbn in Hw. apply app_inj_tail in Hw. now destruct Hw.
Qed.

(** A server session is established only if the client's hello has no <session-id>, and keeps the id
    the server gave it. *)
Theorem c09_server : forall sent r id s',
  handshake false sent r (fresh id) = HRes T_HELLO s' ->
  h_id s' = id /\ forall x, r = RdMsg (Some (Some x)) -> named "session-id" x = [].
Proof.
  intros sent r id s' H. split; [exact (handshake_server_id _ _ _ _ H)|]. intros x ->. unfold handshake in H. destruct sent; try discriminate.
  cbn [server_recv_hello] in H. apply server_loop_ok in H. destruct H as (_ & _ & H & _).
  rewrite named_els. unfold sid_els in H. now rewrite H.
Qed.

Example c09_client_case : exists s, handshake true T_HELLO (RdMsg (Some (Some (hello_doc [v11] (Some (bs "42")))))) (fresh 0)
  = HRes T_HELLO s /\ h_id s = 42.
Proof. eexists. split; reflexivity. Qed.
Example c09_client_no_id : handshake true T_HELLO (RdMsg (Some (Some (hello_doc [v11] None)))) (fresh 0) = HRes T_ERROR (mkH 0 1 (Some [v11])).
Proof. reflexivity. Qed.
Example c09_server_case : handshake false T_HELLO (RdMsg (Some (Some (hello_doc [v11] None)))) (fresh 9) = HRes T_HELLO (mkH 9 1 None).
Proof. reflexivity. Qed.
Example c09_server_id : handshake false T_HELLO (RdMsg (Some (Some (hello_doc [v11] (Some (bs "42")))))) (fresh 9) = HRes T_BAD_HELLO (mkH 9 1 None).
Proof. reflexivity. Qed.

(* ================================================================== *)
(** * C10 sessions handed out *)

(** Both ways of accepting: [chan] = an SSH channel of an existing session. *)
Theorem c10_server : forall cm ctr chan a rc s ctr',
  run_call cm ctr (chan, a) = AccRes rc s ctr' ->
  (rc = T_HELLO <-> exists x, s = Some x) /\
  (forall x, s = Some x -> se_status x = ST_RUNNING /\ a_tp a = TpOk /\
     exists h, handshake false (a_sent a) (a_read a) (fresh (next_id ctr)) = HRes T_HELLO h /\ se_id x = h_id h /\ se_ver x = h_ver h).
Proof.
  intros cm ctr chan a rc s ctr' H. unfold run_call, ssh_channel_accept, server_accept in H. cbn [fst snd] in H.
  assert (N : forall rc0 c0, rc0 <> T_HELLO -> AccRes rc0 None c0 = AccRes rc s ctr' ->
    (rc = T_HELLO <-> exists x, s = Some x) /\
    (forall x, s = Some x -> se_status x = ST_RUNNING /\ a_tp a = TpOk /\
     exists h, handshake false (a_sent a) (a_read a) (fresh (next_id ctr)) = HRes T_HELLO h /\ se_id x = h_id h /\ se_ver x = h_ver h)).
  { intros rc0 c0 Hne E. inversion E. subst. split; [split; [congruence|intros [? ?]; discriminate]|discriminate]. }
  assert (G : a_tp a = TpOk -> match handshake false (a_sent a) (a_read a) (mkH (next_id ctr) 0 None) with
        | HUb => AccUb
        | HRes T_HELLO s => AccRes T_HELLO (Some (mkSess (h_id s) ST_RUNNING (h_ver s) (h_cpblts s))) ((ctr + 1) mod cm)
        | HRes rc _ => AccRes rc None ((ctr + 1) mod cm) end = AccRes rc s ctr' ->
    (rc = T_HELLO <-> exists x, s = Some x) /\
    (forall x, s = Some x -> se_status x = ST_RUNNING /\ a_tp a = TpOk /\
     exists h, handshake false (a_sent a) (a_read a) (fresh (next_id ctr)) = HRes T_HELLO h /\ se_id x = h_id h /\ se_ver x = h_ver h)).
  { intros Htp. unfold fresh in *. destruct (handshake _ _ _ _) as [[] t|] eqn:E; try discriminate; try (apply N; discriminate).
    intros E2. inversion E2. subst. split; [split; eauto|]. intros x [= <-]. split; [reflexivity|]. split; [exact Htp|]. exists t. auto. }
  destruct chan; [|destruct (ctr =? 0); [eapply N; [|exact H]; discriminate|]];
    (destruct (a_tp a); [apply G; auto|eapply N; [|exact H]; discriminate|eapply N; [|exact H]; discriminate]).
Qed.

(** Connecting clients. *)
Theorem c10_client_partial : forall c x,
  client_connect c = ConRes (Some x) ->
  c_tp c = TpOk /\
  (exists h, handshake true (c_sent c) (c_read c) (fresh 0) = HRes T_HELLO h /\ se_id x = h_id h /\ se_ver x = h_ver h
             /\ se_cpblts x = h_cpblts h) /\
  (c_fill_disabled c = true \/ c_after c = ST_RUNNING -> se_status x = ST_RUNNING).
Proof.
  intros c x H. unfold client_connect in H. destruct (c_tp c); try discriminate. split; [reflexivity|].
  unfold fresh. destruct (handshake _ _ _ _) as [[] t|] eqn:E; try discriminate.
  destruct (h_cpblts t) as [l|] eqn:El; [|discriminate].
  destruct (c_fill_disabled c) eqn:Ef.
  - injection H as <-. cbn. split; [exists t; auto|auto].
  - destruct (c_fill c); [|discriminate]. injection H as <-. cbn. split; [exists t; auto|]. intros [?|?]; [discriminate|assumption].
Qed.
(** A client may get a session that is no longer running: the connection is lost while the context is filled. *)
Theorem c10_client_running_refuted :
  exists c x, client_connect c = ConRes (Some x) /\ se_status x <> ST_RUNNING.
Proof.
  exists (mkC TpOk T_HELLO (RdMsg (Some (Some (hello_doc [v11] (Some (bs "1")))))) false true ST_INVALID).
  eexists. split; [reflexivity|discriminate].
Qed.

Example c10_case : exists x, run_call w64 1 (false, mkA TpOk T_HELLO (RdMsg (Some (Some (hello_doc [v10] None))))) = AccRes T_HELLO (Some x) 2
   /\ se_id x = 1.
Proof. eexists. split; reflexivity. Qed.
Example c10_client_case : exists x, client_connect (mkC TpOk T_HELLO (RdMsg (Some (Some (hello_doc [v11] (Some (bs "1")))))) true false ST_RUNNING)
  = ConRes (Some x).
Proof. eexists. reflexivity. Qed.

(* ================================================================== *)
(** * C11 session ids *)

(** Every history of fewer than 2^32 calls of any kind on a started server: the ids handed out are
    non-zero, fit 32 bits, and differ. *)
Theorem c11_ids_unique_partial : forall cm h, w32 <= cm -> N.of_nat (length h) < w32 ->
  NoDup (ids_from cm 1 h) /\ forall i, In i (ids_from cm 1 h) -> 1 <= i < w32.
Proof. intros cm h Hcm Hl. destruct (ids_range cm h 1) as [H1 H2]; [exact Hcm|lia|lia|]. auto. Qed.

Lemma ids_repeat cm k n h : forall ctr, run_call cm ctr k = run_call cm ctr k ->
  (forall c, 1 <= c -> run_call cm c k = AccRes T_ERROR None ((c + 1) mod cm)) ->
  1 <= ctr -> ctr + N.of_nat n < cm -> ids_from cm ctr (repeat k n ++ h) = ids_from cm (ctr + N.of_nat n) h.
Proof.
  induction n as [|n IH]; intros ctr _ Hk H1 H2; [cbn; now rewrite N.add_0_r|].
  rewrite Nat2N.inj_succ in *. cbn [repeat app ids_from]. rewrite Hk by exact H1. cbn [app].
  rewrite N.mod_small by lia. rewrite IH; [f_equal; lia|reflexivity|exact Hk|lia|lia].
Qed.

(** Beyond that, an id can be zero (the counter is wider than the id on common platforms). *)
Theorem c11_wrap_refuted : exists h, N.of_nat (length h) = w32 /\ ids_from w64 1 h = [0].
Proof.
  set (bad := (false, mkA TpOk T_ERROR RdFail) : acc_call).
  set (good := (false, mkA TpOk T_HELLO (RdMsg (Some (Some (hello_doc [v11] None))))) : acc_call).
  exists (repeat bad (N.to_nat (w32 - 1)) ++ [good]).
  split; [rewrite app_length, repeat_length; cbn [length]; unfold w32; lia|].
  rewrite ids_repeat.
  - rewrite N2Nat.id. reflexivity.
  - reflexivity.
  - intros c Hc. unfold run_call, server_accept. cbn [fst snd bad a_tp]. destruct (N.eqb_spec c 0); [lia|reflexivity].
  - lia.
  - rewrite N2Nat.id. reflexivity.
Qed.

Example c11_case : ids_from w64 1
  [(false, mkA TpOk T_HELLO (RdMsg (Some (Some (hello_doc [v11] None)))));
   (false, mkA TpOk T_HELLO RdTimeout); (true, mkA TpOk T_HELLO (RdMsg (Some (Some (hello_doc [v10] None)))))] = [1; 3].
Proof. reflexivity. Qed.

(* ================================================================== *)
(** * C12 contents of the capability list *)

Definition ident (c : bytes) : bytes := before "?"%char c.
(** Modes and how they are configured and written (RFC 6243). *)
Inductive mode := ReportAll | ReportAllTagged | Trim | Explicit.
Definition code (m : mode) : N := match m with ReportAll => NC_WD_ALL | ReportAllTagged => NC_WD_ALL_TAG | Trim => NC_WD_TRIM | Explicit => NC_WD_EXPLICIT end.
Definition mode_name (m : mode) : bytes :=
  match m with ReportAll => bs "report-all" | ReportAllTagged => bs "report-all-tagged" | Trim => bs "trim" | Explicit => bs "explicit" end.
Definition mask (ms : list mode) : N := fold_left N.lor (map code ms) 0.
Fixpoint commas (l : list bytes) : bytes := match l with [] => [] | [x] => x | x :: r => x ++ bs "," ++ commas r end.
Definition wd_ident : bytes := bs "urn:ietf:params:netconf:capability:with-defaults:1.0".
Definition wd_cap (basic : mode) (also : list mode) : bytes :=
  wd_ident ++ bs "?basic-mode=" ++ mode_name basic ++ bs "&also-supported=" ++ commas (map mode_name also).

Theorem c12_base : forall o c v l, get_cpblts o c v = CapOk l -> In v10 l /\ In v11 l /\ NoDup (map ident l).
Proof.
  intros o c v l H. apply cpblts_start in H. split; [eapply ext_in; [exact H|now left]|].
  split; [eapply ext_in; [exact H|right; now left]|]. apply H. repeat constructor; cbn; intuition discriminate.
Qed.

(** Every user capability is represented: an entry with the same identifier (text before "?"). *)
Theorem c12_user_partial : forall o c v l x, get_cpblts o c v = CapOk l -> In x (s_caps o) ->
  exists y, In y l /\ ident y = ident x.
Proof.
  intros o c v l x H Hx. unfold get_cpblts in H. apply mods_ext in H. 
  assert (Hu : In (uri x) (map uri l)) by (eapply ext_uri; [exact H|]; apply fold_uri; exact Hx).
  apply in_map_iff in Hu. destruct Hu as (y & E & Hy). exists y. auto.
Qed.
(** It is there unchanged if its identifier is not a standard NETCONF one and not that of an earlier
    user capability. *)
Theorem c12_user_first_partial : forall o c v l pre x post,
  get_cpblts o c v = CapOk l -> s_caps o = pre ++ x :: post ->
  (forall p, In p pre -> ident p <> ident x) ->
  (forall r, ident x <> bs "urn:ietf:params:netconf:" ++ r) -> In x l.
Proof.
  intros o c v l pre x post H Hc Hp Hs. unfold get_cpblts in H. apply mods_ext in H. eapply ext_in; [exact H|].
  rewrite Hc. apply fold_first.
  - intros Hi. apply in_map_iff in Hi. destruct Hi as (y & E & Hy).
    assert (G : exists r, uri y = bs "urn:ietf:params:netconf:" ++ r).
    { assert (B : forall l0, In y l0 -> l0 = match c_netconf c with Some fs => netconf_cpblts fs [base10; base11] | None => [base10; base11] end ->
          exists r, uri y = bs "urn:ietf:params:netconf:" ++ r).
      { intros l0 Hl ->. assert (Hl' : In y [base10; base11] \/ nc_feature_cap y) by (destruct (c_netconf c) as [fs|]; [now apply (netconf_in fs)|now left]).
        destruct Hl' as [[<-|[<-|[]]]|Hl']; [eexists; reflexivity..|].
        unfold nc_feature_cap in Hl'. cbn [map In] in Hl'.
        repeat (destruct Hl' as [<-|Hl']; [eexists; reflexivity|]). destruct Hl'. }
      destruct (c_withdef c); [|now apply (B _ Hy)].
      unfold withdef_cpblts in Hy. destruct (s_basic o =? 0); [now apply (B _ Hy)|]. destruct (s_also o =? 0); [now apply (B _ Hy)|].
      apply add_in_cases in Hy. destruct Hy as [Hy|Hy]; [now apply (B _ Hy)|]. subst y.
      eexists. unfold uri, capa, wd_basic_str. cbn. reflexivity. }
    destruct G as [r G]. apply (Hs r). rewrite <- G. symmetry. exact E.
  - intros Hi. apply in_map_iff in Hi. destruct Hi as (p & E & Hi). apply (Hp p Hi). exact E.
Qed.
(** The full statement is false: a second capability differing only in its parameters is dropped. *)
Theorem c12_user_refuted : exists o c l x, get_cpblts o c 1 = CapOk l /\ In x (s_caps o) /\ ~ In x l.
Proof.
  exists (mkS 0 0 [bs "urn:x?a=1"; bs "urn:x?a=2"] None), (mkCtx None false [] 0), [v10; v11; bs "urn:x?a=1"], (bs "urn:x?a=2").
  split; [reflexivity|]. split; [cbn; auto|]. cbn. intuition discriminate.
Qed.

(** With-defaults is not advertised when not configured, unless the application itself or a module
    namespace uses that identifier. *)
Theorem c12_withdefaults_absent : forall o c v l x,
  get_cpblts o c v = CapOk l -> s_basic o = 0 -> In x l -> ident x = wd_ident ->
  In x (s_caps o) \/ exists m, In m (c_mods c) /\ ident (m_ns m ++ bs "?") = wd_ident.
Proof.
  intros o c v l x H Hb Hx Hi. destruct (cpblts_in _ _ _ _ _ H Hx) as [E|[E|[E|[E|[E|[E|E]]]]]].
  - subst; discriminate.
  - subst; discriminate.
  - unfold nc_feature_cap in E. cbn [map In] in E. repeat (destruct E as [<-|E]; [discriminate|]). destruct E.
  - tauto.
  - now left.
  - destruct E as [[r ->]|[r ->]]; discriminate.
  - right. destruct E as (m & Hm & r & ->). exists m. split; [exact Hm|]. rewrite <- Hi. unfold ident.
    generalize (m_ns m) as n. clear. induction n as [|x n IH]; [reflexivity|]. cbn [app before]. destruct (Ascii.eqb x "?"); [reflexivity|].
    now rewrite IH.
Qed.
(** With a basic mode and additional modes configured, and the module implemented, the entry is there
    with that basic mode, and no configured additional mode is missing from its list. *)
Theorem c12_withdefaults_present_partial : forall o c v l basic ms,
  get_cpblts o c v = CapOk l -> c_withdef c = true -> basic <> ReportAllTagged -> ms <> [] ->
  s_basic o = code basic -> s_also o = mask ms ->
  exists listed, In (wd_cap basic listed) l /\ (forall m, In m ms -> In m listed) /\ NoDup listed.
Proof.
  intros o c v l basic ms H Hw Hb Hne Eb Ea.
  assert (Hin : forall x, In x (withdef_cpblts o (match c_netconf c with Some fs => netconf_cpblts fs [base10; base11] | None => [base10; base11] end)) -> In x l).
  { intros x Hx. unfold get_cpblts in H. rewrite Hw in H. apply mods_ext in H. eapply ext_in; [exact H|]. eapply ext_in; [apply fold_ext|exact Hx]. }
  assert (Hbits : forall m, In m ms -> N.land (mask ms) (code m) <> 0).
  { intros m Hm E. assert (Hs : N.land (mask ms) (code m) = code m).
    { unfold mask. clear - Hm.
      assert (K : forall a, (In m ms -> N.land (fold_left N.lor (map code ms) a) (code m) = code m)
                            /\ (N.land a (code m) = code m -> N.land (fold_left N.lor (map code ms) a) (code m) = code m)).
      { clear Hm. induction ms as [|x ms IH]; intros a; [split; [intros []|auto]|]. cbn [map fold_left].
        assert (A : N.land a (code m) = code m -> N.land (N.lor a (code x)) (code m) = code m).
        { intros E. rewrite N.land_lor_distr_l, E. apply N.bits_inj. intros i. rewrite N.lor_spec, N.land_spec.
          destruct (N.testbit (code m) i); [now rewrite ?orb_true_l|]. now rewrite andb_false_r. }
        split.
        - intros [-> | Hi]; [|exact (proj1 (IH _) Hi)]. apply (proj2 (IH _)). rewrite N.land_lor_distr_l, N.land_diag. apply N.bits_inj. intros i.
          rewrite N.lor_spec, N.land_spec. destruct (N.testbit a i), (N.testbit (code m) i); reflexivity.
        - intros E. apply (proj2 (IH _)). now apply A. }
      exact (proj1 (K 0) Hm). }
    rewrite Hs in E. destruct m; discriminate. }
  assert (Hm0 : mask ms <> 0).
  { intros E. destruct ms as [|m ms]; [congruence|]. apply (Hbits m (or_introl eq_refl)). rewrite E. reflexivity. }
  assert (Hx : In (capa "with-defaults:1.0" ++ wd_basic_str (s_basic o) ++ wd_also_str (s_also o)) l).
  { apply Hin. unfold withdef_cpblts. destruct (N.eqb_spec (s_basic o) 0) as [E|E]; [rewrite Eb in E; destruct basic; discriminate|].
    destruct (N.eqb_spec (s_also o) 0) as [E'|_]; [congruence|]. apply add_ext.
    intros Hi. apply in_map_iff in Hi. destruct Hi as (y & Ey & Hy). 
    assert (Hy' : In y [base10; base11] \/ nc_feature_cap y) by (destruct (c_netconf c) as [fs|]; [now apply (netconf_in fs)|now left]).
    assert (Eu : uri (capa "with-defaults:1.0" ++ wd_basic_str (s_basic o) ++ wd_also_str (s_also o)) = wd_ident).
    { rewrite Eb. destruct basic; try congruence; reflexivity. }
    rewrite Eu in Ey. destruct Hy' as [[<-|[<-|[]]]|Hy']; [discriminate..|].
    unfold nc_feature_cap in Hy'. cbn [map In] in Hy'. repeat (destruct Hy' as [<-|Hy']; [discriminate|]). destruct Hy'. }
  rewrite Ea in Hx.
  set (t m := negb (N.land (mask ms) (code m) =? 0)).
  exists (filter t [ReportAll; ReportAllTagged; Trim; Explicit]). split; [|split].
  - assert (E : wd_cap basic (filter t [ReportAll; ReportAllTagged; Trim; Explicit]) =
                capa "with-defaults:1.0" ++ wd_basic_str (s_basic o) ++ wd_also_str (mask ms)).
    { rewrite Eb. unfold wd_also_str. cbn [filter]. unfold t. cbn [code].
      assert (Hs : exists m, In m ms) by (destruct ms as [|m r]; [congruence|exists m; now left]).
      destruct Hs as [m0 Hm0']. pose proof (Hbits m0 Hm0') as Hb0. clear - Hb Hb0.
      destruct (N.eqb_spec (N.land (mask ms) NC_WD_ALL) 0); destruct (N.eqb_spec (N.land (mask ms) NC_WD_ALL_TAG) 0);
      destruct (N.eqb_spec (N.land (mask ms) NC_WD_TRIM) 0); destruct (N.eqb_spec (N.land (mask ms) NC_WD_EXPLICIT) 0);
      destruct basic; try congruence; try reflexivity; exfalso; destruct m0; cbn [code] in Hb0; congruence. }
    now rewrite E.
  - intros m Hm. apply filter_In. split; [destruct m; cbn; auto 10|]. unfold t. apply negb_true_iff. apply N.eqb_neq. now apply Hbits.
  - apply NoDup_filter. repeat constructor; cbn; intuition discriminate.
Qed.
(** The calls of nc_server_set_capab_withdefaults() that succeed: every basic mode but one, any additional modes; they change nothing else. *)
Theorem c12_withdefaults_set : forall o ms,
  (forall basic, basic <> ReportAllTagged -> exists o', set_withdefaults (code basic) (mask ms) o = Some o' /\
     s_basic o' = code basic /\ s_also o' = mask ms /\ s_caps o' = s_caps o /\ s_cid o' = s_cid o) /\
  set_withdefaults (code ReportAllTagged) (mask ms) o = None /\ set_withdefaults 0 (mask ms) o = None.
Proof.
  intros o ms. assert (M : negb (mask ms =? 0) && (N.land (mask ms) (N.lor NC_WD_ALL (N.lor NC_WD_ALL_TAG (N.lor NC_WD_TRIM NC_WD_EXPLICIT))) =? 0) = false).
  { change (N.lor NC_WD_ALL (N.lor NC_WD_ALL_TAG (N.lor NC_WD_TRIM NC_WD_EXPLICIT))) with 7. destruct (N.eqb_spec (mask ms) 0) as [E|E]; [reflexivity|].
    cbn [negb andb]. apply N.eqb_neq. intros Z. apply E. rewrite <- Z. symmetry.
    assert (L : forall a, N.land a 7 = a -> N.land (fold_left N.lor (map code ms) a) 7 = fold_left N.lor (map code ms) a).
    { clear. induction ms as [|m ms IH]; intros a H; [exact H|]. cbn [map fold_left]. apply IH.
      rewrite N.land_lor_distr_l, H. destruct m; reflexivity. }
    apply (L 0). reflexivity. }
  split; [|split; reflexivity].
  intros basic Hb. eexists. split; [unfold set_withdefaults; rewrite M; destruct basic; try congruence; reflexivity|]. repeat split.
Qed.

(** What is announced after such a call. *)
Theorem c12_withdefaults_announced_partial : forall o o' c v l basic ms,
  set_withdefaults (code basic) (mask ms) o = Some o' -> ms <> [] -> c_withdef c = true -> get_cpblts o' c v = CapOk l ->
  exists listed, In (wd_cap basic listed) l /\ (forall m, In m ms -> In m listed) /\ NoDup listed.
Proof.
  intros o o' c v l basic ms S1 Hm Hw H. destruct (c12_withdefaults_set o ms) as (A & B & _).
  destruct basic; try (rewrite B in S1; discriminate);
  (match type of S1 with set_withdefaults (code ?b) _ _ = _ => destruct (A b ltac:(discriminate)) as (o2 & E & E1 & E2 & _); rewrite E in S1; injection S1 as <-;
     exact (c12_withdefaults_present_partial o2 c v l b ms H Hw ltac:(discriminate) Hm E1 E2) end).
Qed.

(** The full statement is false: without additional modes nothing is advertised, and "trim" is listed
    when only "report-all" was configured. *)
Theorem c12_withdefaults_refuted :
  (exists o o' c l, set_withdefaults (code Explicit) (mask []) o = Some o' /\ c_withdef c = true /\
     get_cpblts o' c 1 = CapOk l /\ forall x, In x l -> ident x <> wd_ident) /\
  (exists o o' c l, set_withdefaults (code Explicit) (mask [ReportAll]) o = Some o' /\ c_withdef c = true /\
     get_cpblts o' c 1 = CapOk l /\ ~ In (wd_cap Explicit [ReportAll]) l /\ In (wd_cap Explicit [ReportAll; Trim]) l).
Proof.
  split.
  - exists (mkS 0 0 [] None); eexists; exists (mkCtx None true [] 0); eexists. split; [reflexivity|]. split; [reflexivity|]. split; [reflexivity|].
    intros x [<-|[<-|[]]]; discriminate.
  - exists (mkS 0 0 [] None); eexists; exists (mkCtx None true [] 0); eexists. split; [reflexivity|]. split; [reflexivity|]. split; [reflexivity|].
    split; [cbn; intuition discriminate|right; right; now left].
Qed.

Example c12_case : get_cpblts (mkS NC_WD_EXPLICIT NC_WD_EXPLICIT [bs "urn:my"] None)
    (mkCtx (Some [bs "candidate"]) true [mkMod (bs "m") (bs "urn:m") (Some (bs "2024-01-01")) 1 [(bs "f", true)] None] 3) 1
  = CapOk [v10; v11; bs "urn:ietf:params:netconf:capability:candidate:1.0"; wd_cap Explicit [Explicit]; bs "urn:my";
           bs "urn:m?module=m&revision=2024-01-01&features=f"].
Proof. reflexivity. Qed.

(* ================================================================== *)
(** * C49 no hello crashes the receiver *)

Fixpoint opaque (x : xnode) : bool := match x with XOpaq _ _ _ c => forallb opaque c | XData _ => false end.

Theorem c49_hello_safe_refuted :
  (exists x, server_recv_hello (RdMsg (Some (Some x))) (fresh 1) = HUb) /\
  (exists c, c_sent c = T_HELLO /\ client_connect c = ConAbort).
Proof.
  split; [exists (el "hello" [] [XData []]); reflexivity|].
  exists (mkC TpOk T_HELLO (RdMsg (Some (Some (el "hello" [] [el "session-id" (bs "1") []])))) true true ST_RUNNING). split; reflexivity.
Qed.

Lemma opaque_parse ch : forallb opaque ch = true -> forall v acc, parse_cpblts_loop ch v acc <> PcUb.
Proof.
  induction ch as [|[mns n t c|c] ch IH]; cbn [forallb opaque]; intros H v acc; cbn [parse_cpblts_loop].
  - destruct v; discriminate.
  - apply andb_true_iff in H. destruct H as [_ H]. destruct (_ || _); [discriminate|]. destruct (trim t); [discriminate|now apply IH].
  - discriminate.
Qed.

(** Every message whose elements are all unknown to the context is handled. *)
Theorem c49_hello_safe_partial : forall x id,
  forallb opaque (children_of x) = true ->
  server_recv_hello (RdMsg (Some (Some x))) (fresh id) <> HUb /\ client_recv_hello (RdMsg (Some (Some x))) (fresh id) <> HUb.
Proof.
  intros x id H. cbn [server_recv_hello client_recv_hello]. generalize (fresh id) false. revert H.
  induction (children_of x) as [|[mns n t c|c] ns IH]; intros H s flag; cbn [forallb opaque] in H.
  - cbn. destruct (h_id s =? 0); split; discriminate.
  - apply andb_true_iff in H. destruct H as [Hc H]. specialize (IH H).
    assert (Hp : parse_cpblts (XOpaq mns n t c) <> PcUb) by (apply opaque_parse; exact Hc).
    split; cbn [server_hello_loop client_hello_loop].
    + destruct (negb _); [apply IH|]. destruct (negb _); [discriminate|]. destruct flag; [discriminate|].
      destruct (parse_cpblts _); [apply IH|discriminate|congruence].
    + destruct (negb _); [apply IH|]. destruct (beqb n _).
      * destruct (strtoll_full t); [|discriminate]. destruct (_ || _)%bool; [discriminate|apply IH].
      * destruct (negb _); [discriminate|]. destruct flag; [discriminate|].
        destruct (parse_cpblts _); [apply IH|discriminate|congruence].
  - discriminate.
Qed.
Example c49_case : forallb opaque (children_of (hello_doc [bs "  "; []] (Some (bs "x")))) = true.
Proof. reflexivity. Qed.

Print Assumptions c08_server_partial. Print Assumptions c08_client_partial. Print Assumptions c08_both_peers.
Print Assumptions c08_blank_capability_refuted. Print Assumptions c08_any_hello_partial. Print Assumptions c08_versions_refuted.
Print Assumptions c09_client. Print Assumptions c09_server. Print Assumptions c10_server.
Print Assumptions c10_client_partial. Print Assumptions c10_client_running_refuted.
Print Assumptions c11_ids_unique_partial. Print Assumptions c11_wrap_refuted.
Print Assumptions c12_base. Print Assumptions c12_user_partial. Print Assumptions c12_user_first_partial. Print Assumptions c12_user_refuted.
Print Assumptions c12_withdefaults_set.
Print Assumptions c12_withdefaults_announced_partial.
Print Assumptions c12_withdefaults_absent. Print Assumptions c12_withdefaults_present_partial. Print Assumptions c12_withdefaults_refuted.
Print Assumptions c49_hello_safe_refuted. Print Assumptions c49_hello_safe_partial.
