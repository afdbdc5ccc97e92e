(** Property C284: two programs that use the library, from the first byte.  No new model: hello messages (Hello), framing (IoWrite, IoRead), requests
    (ClientMsgs) and replies put together. *)
From Coq Require Import String Ascii NArith ZArith Bool Arith Lia List.
From Verif Require Import Bytes CStr IoRead IoWrite IoWriteProofs Prop_Io ClientMsgs Prop_ClientSend Prop_Messages Prop_Exchange.
From Verif Require Caps Hello Prop_Hello.
Import ListNotations.
Local Open Scope list_scope.
Local Open Scope N_scope.

(* ================================================================== *)
(** * Specification *)

(** The text of a hello with these capabilities and id. *)
Definition hello_text (h : list bytes * option N) : bytes := text (HelloMsg (fst h) (snd h)).
(** libyang reads back the elements of a hello, their names and texts. *)
Definition reads_back (parse : bytes -> option (option Hello.xnode)) (h : list bytes * option N) : Prop := parse (hello_text h) = Some (Some (Prop_Hello.as_doc h)).
(** Capabilities are C strings that are not blank; a hello has less than 2 GiB. *)
Definition plain_hello (h : list bytes * option N) : Prop :=
  (forall c, In c (fst h) -> ~ In NUL c /\ exists cap, Prop_Hello.shows c cap) /\ lenN (hello_text h) < 2147483000.

(* ================================================================== *)
(** * Proofs *)

Lemma hello_arrives (h : list bytes * option N) w w' alloc t rest :
  plain_hello h -> usable w -> grants alloc 2147484024 -> nc_write_msg_io V10 w (hello_parts (fst h) (snd h)) = (MsgSent, w') -> carried w w' t rest ->
  exists t', nc_read_msg_io alloc V10 t = MMsg (hello_text h) t' /\ incoming t' = rest.
Proof.
  intros [P L] U G W [s [E I]].
  destruct (c81_arrives V10 (HelloMsg (fst h) (snd h)) w w' alloc t rest s U) as (t' & R & I' & _); [|exact L| |exact W|exact E|exact I|exists t'; auto].
  - split; [reflexivity|]. intros c C. apply (P c C).
  - intros n N. apply G. unfold hello_text in L. lia.
Qed.
Lemma hello_usable (h : list bytes * option N) w w' : plain_hello h -> usable w -> nc_write_msg_io V10 w (hello_parts (fst h) (snd h)) = (MsgSent, w') ->
  usable w' /\ exists s, ws_wire w' = ws_wire w ++ s.
Proof. intros [P L] U W. exact (sent_usable V10 (HelloMsg (fst h) (snd h)) w w' U L W). Qed.

(* ================================================================== *)
(** * C284 *)

(** The way from the client to the server: the server reads the hello, takes version 1.1 and its own id, and then reads, with the framing of that
    version, the requests reported as sent, each once, in order, with the ids reported. *)
Theorem c284_server : forall o c id srv cli parse alloc cw st l out st' t rest,
  Hello.own_hello false o c id = Some srv -> Hello.own_hello true o c id = Some cli -> plain_hello srv -> 1 <= id <= 4294967295 -> reads_back parse cli ->
  usable cw -> grants alloc 2147484024 ->
  nc_write_msg_io V10 cw (hello_parts (fst cli) (snd cli)) = (MsgSent, c_w st) ->
  sends V11 l st = (out, st') -> Forall (sendable V11) l -> c_msgid st + lenN l < 18446744073709551616 ->
  Forall (fun x => fst x = SSent \/ fst x = SWouldblock) out -> carried cw (c_w st') t rest ->
  exists hello t1 s, nc_read_msg_io alloc V10 t = MMsg hello t1 /\
    Hello.handshake false Hello.T_HELLO (Hello.RdMsg (parse hello)) (Prop_Hello.fresh id) = Hello.HRes Hello.T_HELLO s /\
    Prop_Hello.established (Hello.HRes Hello.T_HELLO s) = Some Prop_Hello.V11 /\ Hello.h_id s = id /\
  exists msgs t2, receives alloc V11 t1 msgs t2 /\ Forall2 is_rpc (Prop_ClientSend.reported out) msgs /\ incoming t2 = rest.
Proof.
  intros o c id srv cli parse alloc cw st l out st' t rest OS OC PS ID RB U G W S F K R CA.
  assert (PC : plain_hello cli).
  { injection OC as <-. split; [|vm_compute; reflexivity]. intros d [<-|[<-|[]]]; (split; [vm_compute; intuition discriminate|]);
    (eexists; exists [], []; split; [cbn [app]; rewrite app_nil_r; reflexivity|]; split; [reflexivity|]; split; [reflexivity|]; split).
    - exists "u"%char. eexists. split; reflexivity.
    - exists (bs "urn:ietf:params:netconf:base:1."), "0"%char. split; reflexivity.
    - exists "u"%char. eexists. split; reflexivity.
    - exists (bs "urn:ietf:params:netconf:base:1."), "1"%char. split; reflexivity. }
  destruct (hello_usable cli cw (c_w st) PC U W) as [U1 [s1 E1]].
  destruct (wire_grows V11 l st out st' S U1 F K R) as [s2 E2].
  destruct CA as [s [E I]]. rewrite E2, E1, <- app_assoc in E. apply app_inv_head in E. subst s. rewrite <- app_assoc in I.
  destruct (hello_arrives cli cw (c_w st) alloc t (s2 ++ rest) PC U G W) as (t1 & R1 & I1); [exists s1; auto|].
  destruct (Prop_Hello.c08_both_peers o c id srv cli OS OC (fun x X => proj2 (proj1 PS x X)) ID) as [_ V].
  exists (hello_text cli), t1. rewrite RB. cbn [Hello.handshake].
  destruct (Hello.server_recv_hello (Hello.RdMsg (Some (Some (Prop_Hello.as_doc cli)))) (Prop_Hello.fresh id)) as [rc h|] eqn:Q; [|discriminate].
  destruct rc; try discriminate. exists h. split; [exact R1|]. split; [reflexivity|]. split; [exact V|].
  split; [exact (proj1 (Prop_Hello.c09_server Hello.T_HELLO _ id h Q))|].
  destruct (c280_requests V11 l st out st' alloc t1 rest S U1 F K G R) as (msgs & t2 & RR & FF & II); [exists s2; auto|]. exists msgs, t2. auto.
Qed.

(** The way back: the client reads the hello, takes version 1.1 and the id of the server, and then reads the replies and notifications the server
    reported as sent, each once, in order. *)
Theorem c284_client : forall o c id srv cli parse alloc sw sw1 ms sw2 t rest,
  Hello.own_hello false o c id = Some srv -> Hello.own_hello true o c id = Some cli -> plain_hello srv -> 1 <= id <= 4294967295 -> reads_back parse srv ->
  usable sw -> grants alloc 2147484024 ->
  nc_write_msg_io V10 sw (hello_parts (fst srv) (snd srv)) = (MsgSent, sw1) ->
  Prop_Io.sends V11 sw1 (map parts_of ms) sw2 -> Forall (fun m => fine V11 m /\ lenN (text m) < 2147483000) ms -> carried sw sw2 t rest ->
  exists hello t1 s, nc_read_msg_io alloc V10 t = MMsg hello t1 /\
    Hello.handshake true Hello.T_HELLO (Hello.RdMsg (parse hello)) (Prop_Hello.fresh 0) = Hello.HRes Hello.T_HELLO s /\
    Prop_Hello.established (Hello.HRes Hello.T_HELLO s) = Some Prop_Hello.V11 /\ Hello.h_id s = id /\
  exists t2, receives alloc V11 t1 (map text ms) t2 /\ incoming t2 = rest.
Proof.
  intros o c id srv cli parse alloc sw sw1 ms sw2 t rest OS OC PS ID RB U G W S F CA.
  destruct (hello_usable srv sw sw1 PS U W) as [U1 [s1 E1]].
  assert (exists s2, ws_wire sw2 = ws_wire sw1 ++ s2) as (s2 & E2).
  { clear - U1 F S. revert sw1 U1 S. induction ms as [|x ms IH]; intros sw1 U1 S; cbn [map] in S; inversion S as [|? ? st1 ? ? W1 S1]; subst.
    - exists []. rewrite app_nil_r. reflexivity.
    - inversion F as [|? ? [_ L] F']; subst. destruct (sent_usable _ _ _ _ U1 L W1) as [U2 (a & E)].
      destruct (IH F' _ U2 S1) as (b & E'). exists (a ++ b). rewrite E', E, app_assoc. reflexivity. }
  destruct CA as [s [E I]]. rewrite E2, E1, <- app_assoc in E. apply app_inv_head in E. subst s. rewrite <- app_assoc in I.
  destruct (hello_arrives srv sw sw1 alloc t (s2 ++ rest) PS U G W) as (t1 & R1 & I1); [exists s1; auto|].
  destruct (Prop_Hello.c08_both_peers o c id srv cli OS OC (fun x X => proj2 (proj1 PS x X)) ID) as [V _].
  exists (hello_text srv), t1. rewrite RB. cbn [Hello.handshake].
  destruct (Hello.client_recv_hello (Hello.RdMsg (Some (Some (Prop_Hello.as_doc srv)))) (Prop_Hello.fresh 0)) as [rc h|] eqn:Q; [|discriminate].
  destruct rc; try discriminate. exists h. split; [exact R1|]. split; [reflexivity|]. split; [exact V|]. split.
  - assert (D : snd srv = Some id).
    { unfold Hello.own_hello in OS. destruct (Caps.get_cpblts o c 1); try discriminate. injection OS as <-. reflexivity. }
    unfold Prop_Hello.as_doc in Q. rewrite D in Q.
    assert (exists cs, Forall2 Prop_Hello.shows (fst srv) cs) as [cs Hcs].
    { destruct PS as [PS _]. clear - PS. induction (fst srv) as [|x r IH]; [exists []; constructor|]. destruct (PS x (or_introl eq_refl)) as [_ [cap Hcap]].
      destruct IH as [cs Hcs]; [intros y Hy; apply PS; right; exact Hy|]. exists (cap :: cs). constructor; assumption. }
    rewrite (Prop_Hello.client_doc _ _ _ _ Hcs ID) in Q. destruct (HelloProofs.see_all None cs); try discriminate; injection Q as <-; reflexivity.
  - destruct (c81_sequence ms V11 sw1 sw2 alloc t1 rest s2 U1) as (t2 & RR & II & _); [|exact S|exact E2|exact I1|exists t2; auto].
    eapply Forall_impl; [|exact F]. intros m [A B]. split; [exact A|]. split; [exact B|]. intros n N. apply G. lia.
Qed.

(* ================================================================== *)
(** * A case *)

(** A server with one capability of its own and id 7. *)
Definition ex_srv : list bytes * option N := ([Caps.base10; Caps.base11; bs "urn:mine"], Some 7).
Definition ex_cli : list bytes * option N := ([Caps.base10; Caps.base11], None).
Definition ex_parse (b : bytes) : option (option Hello.xnode) :=
  if beqb b (hello_text ex_srv) then Some (Some (Prop_Hello.as_doc ex_srv)) else if beqb b (hello_text ex_cli) then Some (Some (Prop_Hello.as_doc ex_cli)) else None.
Definition many : list wev := repeat (WAcc 4096) 9.
Definition ex_w : wst := mkW true [] many.
Definition ex_st : cst := mkC 0 (snd (nc_write_msg_io V10 ex_w (hello_parts (fst ex_cli) (snd ex_cli)))).
Definition ex_out : list (sres * option N) * cst := sends V11 [get_in; get_in] ex_st.
Example ex_hello : Hello.own_hello false (Caps.mkS 0 0 [bs "urn:mine"] None) (Caps.mkCtx None false [] 0) 7 = Some ex_srv /\
  Hello.own_hello true (Caps.mkS 0 0 [bs "urn:mine"] None) (Caps.mkCtx None false [] 0) 7 = Some ex_cli /\ plain_hello ex_srv /\ reads_back ex_parse ex_srv /\
  reads_back ex_parse ex_cli /\ usable ex_w.
Proof.
  split; [vm_compute; reflexivity|]. split; [reflexivity|]. split; [|split; [vm_compute; reflexivity|split; [vm_compute; reflexivity|split; [reflexivity|cbn; intuition discriminate]]]].
  split; [|vm_compute; reflexivity]. intros d [<-|[<-|[<-|[]]]]; (split; [vm_compute; intuition discriminate|]);
    (eexists; exists [], []; split; [cbn [app]; rewrite app_nil_r; reflexivity|]; split; [reflexivity|]; split; [reflexivity|]; split).
  - exists "u"%char. eexists. split; reflexivity.
  - exists (bs "urn:ietf:params:netconf:base:1."), "0"%char. split; reflexivity.
  - exists "u"%char. eexists. split; reflexivity.
  - exists (bs "urn:ietf:params:netconf:base:1."), "1"%char. split; reflexivity.
  - exists "u"%char. eexists. split; reflexivity.
  - exists (bs "urn:min"), "e"%char. split; reflexivity.
Qed.
Example ex_requests : fst ex_out = [(SSent, Some 1); (SSent, Some 2)] /\
  nc_write_msg_io V10 ex_w (hello_parts (fst ex_cli) (snd ex_cli)) = (MsgSent, c_w ex_st).
Proof. split; vm_compute; reflexivity. Qed.

Print Assumptions c284_server.
Print Assumptions c284_client.
