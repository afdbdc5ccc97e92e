(** C222-C224: the operation a reply is read as, and the trees made while receiving it. *)
From Coq Require Import String Ascii NArith Bool List Permutation Lia Arith.
From Verif Require Import RpcSend ReplyOp.
Import ListNotations.
Local Open Scope string_scope.
Local Open Scope list_scope.

(* ------------------------------------------------------------------ *)
(** ** Specification *)

(** The trees that are there after a history, if it frees only trees that are. *)
Fixpoint rem (t : tree) (l : list tree) : list tree :=
  match l with [] => [] | x :: r => if Nat.eqb x t then r else x :: rem t r end.
Fixpoint live (l : list ev) (s : list tree) : option (list tree) :=
  match l with
  | [] => Some s
  | New t :: r => live r (t :: s)
  | Free t :: r => if in_dec Nat.eq_dec t s then live r (rem t s) else None
  end.

(** Exactly the trees of [l] are there, and nothing was freed that was not. *)
Definition owns (h : heap) (l : list tree) : Prop := exists s, live (h_log h) [] = Some s /\ Permutation s l.
Definition opt (x : option tree) : list tree := match x with Some t => [t] | None => [] end.

(** The nodes of a tree, a node before its children. *)
Fixpoint nodes (t : gtree) : list gtree := match t with G _ _ _ cs => t :: flat_map nodes cs end.
Definition is_op (t : gtree) : bool := match t with G Operation _ _ _ => true | _ => false end.
Definition has_schema (t : gtree) : bool := match t with G Opaque _ _ _ => false | _ => true end.

(** The operation of a request: of the tree that is sent. *)
Definition sends (w : world) (q : request) (m n : string) : Prop :=
  match q with
  | Std r => exists acc cs, send_tree true (w_mods w) (w_inner w) acc r = Some (Inner m n cs)
  | GData t => exists cs, filter is_op (nodes t) = [G Operation m n cs] /\ forallb has_schema (nodes t) = true
  | GXml s => w_xml w s = Some (m, n)
  end.

(* ------------------------------------------------------------------ *)
(** ** C222 *)

(** Every request that is sent can be read the answer of, as the same operation of the same module. *)
Theorem c222_same : forall w q m n op h,
  w_dup w = true -> sends w q m n ->
  exists t h', dup_rpc w q op h = DRet true (Some t) (Some (m, n)) h'.
Proof.
  intros w q m n op h Hd H. destruct q as [r|t|s]; cbn [sends] in H.
  - destruct H as [acc [cs H]]. unfold send_tree in H. cbn [negb] in H.
    destruct (forallb (w_mods w) (needs r)) eqn:Hn; [|discriminate]. cbn [negb] in H.
    destruct (program (w_mods w) r) as [[m0 n0] items] eqn:Hp.
    destruct (w_inner w m0 n0) eqn:Hi; [|discriminate]. cbn [negb] in H.
    destruct (exec acc items [] true) as [st [|]]; [|discriminate]. inversion H; subst; clear H.
    assert (N : exists c, named r = (m, n, c) /\ w_mods w m = true /\ match c with Some c => w_mods w c = true | None => True end).
    { destruct r; cbn [program] in Hp; inversion Hp; subst; cbn [needs forallb] in Hn;
        repeat (apply andb_prop in Hn as [? Hn]); eexists; (split; [reflexivity|split; [assumption|try exact Logic.I; assumption]]). }
    destruct N as [c [Nn [Nm Nc]]]. cbn [dup_rpc]. rewrite Nn, Nm. cbn [negb]. rewrite Hi. unfold made, mk.
    destruct c as [c|]; [rewrite Nc|]; cbn [negb]; do 2 eexists; reflexivity.
  - destruct H as [cs [Ho Hs]]. cbn [dup_rpc].
    assert (F : forall t, forallb has_schema (nodes t) = true ->
                first_op t = match filter is_op (nodes t) with G _ m n _ :: _ => Found m n | [] => NotFound end).
    { fix IH 1. intros [k m1 n1 ts] Hk. destruct k.
      - discriminate.
      - cbn [nodes forallb has_schema] in Hk. cbn [andb] in Hk. cbn [first_op nodes filter is_op].
        revert Hk. induction ts as [|x ts IHt]; intro Hk; [reflexivity|]. cbn [flat_map] in Hk |- *.
        rewrite forallb_app in Hk. apply andb_prop in Hk as [Hx Hk]. rewrite (IH x Hx). rewrite filter_app.
        destruct (filter is_op (nodes x)) as [|[k2 m2 n2 c2] rest] eqn:Ef; [|reflexivity].
        cbn [app]. apply IHt. exact Hk.
      - reflexivity. }
    rewrite (F t Hs), Ho, Hd. unfold made, mk. do 2 eexists. reflexivity.
  - cbn [dup_rpc]. rewrite H, Hd. unfold made, mk. do 2 eexists. reflexivity.
Qed.

(** Two operations of the same name in different modules are told apart: an answer is read as at most one operation. *)
Theorem c222_unique : forall w q m n op h t i h',
  sends w q m n -> dup_rpc w q op h = DRet true t i h' -> i = Some (m, n).
Proof.
  intros w q m n op h t i h' H D. destruct (w_dup w) eqn:Hd.
  - destruct (c222_same w q m n op h Hd H) as [t1 [h1 D1]]. congruence.
  - pose proof (c222_same (mkW (w_mods w) (w_inner w) true (w_xml w)) q m n op h eq_refl) as C.
    assert (H2 : sends (mkW (w_mods w) (w_inner w) true (w_xml w)) q m n) by (destruct q; exact H).
    destruct (C H2) as [t1 [h1 D1]]. clear C H2.
    destruct q as [r|g|s]; cbn [dup_rpc w_mods w_inner w_dup w_xml] in D, D1.
    + congruence.
    + destruct (first_op g); rewrite ?Hd in D; discriminate.
    + destruct (w_xml w s) as [[? ?]|]; [|discriminate]. rewrite Hd in D. unfold mk in D. discriminate.
Qed.

Definition every : world := mkW (fun _ => true) (fun _ _ => true) true (fun s => if String.eqb s "<x/>" then Some ("m", "x") else None).
Example c222_ex :
  sends every (Std (EstPush "ds" None None None (OnChange 3 true []))) "ietf-subscribed-notifications" "establish-subscription" /\
  sends every (GData (G Plain "m" "c" [G Plain "m" "k" []; G Plain "m" "l" [G Operation "m" "reset" [G Plain "m" "z" []]; G Plain "m" "u" []]])) "m" "reset".
Proof. split; cbn [sends]; [exists (fun _ _ => true)|]; eexists; [reflexivity|split; reflexivity]. Qed.

(* ------------------------------------------------------------------ *)
(** ** C223 *)

Lemma rem_perm t l : In t l -> Permutation l (t :: rem t l).
Proof.
  induction l as [|x r IH]; intro H; [destruct H|]. cbn [rem]. destruct (Nat.eqb x t) eqn:E.
  - apply Nat.eqb_eq in E. subst. reflexivity.
  - destruct H as [->|H]; [rewrite Nat.eqb_refl in E; discriminate|]. rewrite perm_swap. constructor. apply IH. exact H.
Qed.
Lemma live_app l1 : forall l2 s, live (l1 ++ l2) s = match live l1 s with Some s => live l2 s | None => None end.
Proof.
  induction l1 as [|[t|t] l1 IH]; intros l2 s; cbn [app live]; [reflexivity|apply IH|].
  destruct (in_dec Nat.eq_dec t s); [apply IH|reflexivity].
Qed.
Lemma owns_mk h l t h' : mk h = (t, h') -> owns h l -> owns h' (t :: l).
Proof.
  unfold mk. intros E [s [H P]]. inversion E; subst. cbn [h_log]. unfold owns. cbn [h_log]. rewrite live_app, H. cbn [live].
  exists (h_next h :: s). split; [reflexivity|]. constructor. exact P.
Qed.
Lemma owns_two h l : owns h l -> owns (snd (mk (snd (mk h)))) (Datatypes.S (h_next h) :: h_next h :: l).
Proof.
  intro O. apply (owns_mk (snd (mk h)) _ (Datatypes.S (h_next h))); [reflexivity|]. apply (owns_mk h _ (h_next h)); [reflexivity|exact O].
Qed.
Lemma owns_fr h l t l' : owns h l -> Permutation l (t :: l') -> owns (fr (Some t) h) l'.
Proof.
  intros [s [H P]] Q. unfold owns, fr. cbn [h_log]. rewrite live_app, H. cbn [live].
  assert (Hin : In t s) by (apply (Permutation_in t (Permutation_sym (Permutation_trans P Q))); left; reflexivity).
  destruct (in_dec Nat.eq_dec t s) as [_|N]; [|contradiction]. exists (rem t s). split; [reflexivity|].
  apply Permutation_cons_inv with (a := t). rewrite <- (rem_perm t s Hin). rewrite P. exact Q.
Qed.
Lemma owns_perm h l l' : owns h l -> Permutation l l' -> owns h l'.
Proof. intros [s [H P]] Q. exists s. split; [exact H|]. rewrite P. exact Q. Qed.
Lemma owns_fro h x l : owns h (opt x ++ l) -> owns (fr x h) l.
Proof. destruct x; intro H; [|exact H]. eapply owns_fr; [exact H|]. cbn. reflexivity. Qed.

(** dup_rpc either leaves everything as it is or makes one tree, the operation; it says so, but for the requests of
    ietf-yang-push. *)
Definition push_unsent (w : world) (q : request) : Prop :=
  match q with
  | Std r => match named r with (m, n, Some c) => w_mods w m = true /\ w_inner w m n = true /\ w_mods w c = false | _ => False end
  | _ => False
  end.
Lemma dup_owns w q op h l ok o i h' : dup_rpc w q op h = DRet ok o i h' -> owns h l ->
  (ok = true /\ (exists t, o = Some t /\ owns h' (t :: l)) /\ i <> None) \/ (ok = false /\ o = op /\ i = None /\ owns h' l) \/ push_unsent w q.
Proof.
  intros D O. destruct q as [r|g|s]; cbn [dup_rpc] in D.
  - destruct (named r) as [[m n] c] eqn:Nn. destruct (w_mods w m) eqn:Hm; cbn [negb] in D; [|inversion D; subst; auto 10].
    destruct (w_inner w m n) eqn:Hi; [|inversion D; subst; auto 10]. unfold made in D. destruct (mk h) as [t h1] eqn:Hk.
    destruct c as [c|]; [destruct (w_mods w c) eqn:Hc|]; cbn [negb] in D; inversion D; subst; clear D.
    + left. split; [reflexivity|]. split; [|discriminate]. exists t. split; [reflexivity|]. eapply owns_mk; eauto.
    + right. right. cbn [push_unsent]. rewrite Nn. auto.
    + left. split; [reflexivity|]. split; [|discriminate]. exists t. split; [reflexivity|]. eapply owns_mk; eauto.
  - destruct (first_op g); [|inversion D; subst; auto 10|discriminate]. destruct (w_dup w); [|inversion D; subst; auto 10].
    unfold made in D. destruct (mk h) as [t h1] eqn:Hk. inversion D; subst. left. split; [reflexivity|]. split; [|discriminate].
    exists t. split; [reflexivity|]. eapply owns_mk; eauto.
  - destruct (w_xml w s) as [[m n]|]; [|inversion D; subst; auto 10]. destruct (mk h) as [t h1] eqn:Hk. pose proof (owns_mk _ _ _ _ Hk O) as O1.
    destruct (w_dup w).
    + unfold made in D. destruct (mk h1) as [t2 h2] eqn:Hk2. pose proof (owns_mk _ _ _ _ Hk2 O1) as O2. inversion D; subst.
      left. split; [reflexivity|]. split; [|discriminate]. exists t2. split; [reflexivity|]. eapply owns_fr; [exact O2|]. apply perm_swap.
    + inversion D; subst. right. left. repeat split; auto. eapply owns_fr; [exact O1|]. reflexivity.
Qed.

Definition reply (c : code) : Prop := c = CReply \/ c = CErrMsgid.
(** Values recv_msg() returns when it does not return a reply, and what lyd_parse_op() does: no failure without an envelope. *)
Definition sane (g : got) : Prop :=
  match g with GNone c => c = CError \/ c = CWouldblock \/ c = CNotif | GReply e bad _ _ => e = false -> bad = true end.

Lemma recv_owns running w q g envp op h l c e o i h' :
  sane g -> ~ push_unsent w q -> nc_recv_reply running w q g envp op h = RRet c e o i h' -> owns h l ->
  (c = CError /\ e = envp /\ o = op /\ owns h' l /\ (running = false \/ exists op' i' h', dup_rpc w q op h = DRet false op' i' h')) \/
  (~ reply c /\ e = None /\ o = None /\ owns h' l) \/
  (reply c /\ (exists t, e = Some t) /\ owns h' (opt e ++ opt o ++ l) /\ (o <> None -> exists m n, i = Some (m, n)) /\
   exists bad idok data, g = GReply true bad idok data /\ (c = CReply <-> idok = true) /\ (o <> None <-> data = true)).
Proof.
  intros Hs Hp H O. unfold nc_recv_reply in H. destruct running; cbn [negb] in H; [|inversion H; subst; left; auto 10].
  destruct (dup_rpc w q op h) as [ok o1 i1 h1|] eqn:D; [|discriminate].
  destruct (dup_owns _ _ _ _ _ _ _ _ _ D O) as [[-> [[t [-> O1]] Hi]]|[[-> [-> [-> O1]]]|X]]; [| |contradiction].
  - right. destruct g as [c0|[|] bad idok data].
    + assert (K : ~ reply c0) by (cbn in Hs; unfold reply; intuition congruence).
      replace (match c0 with CReply | CErrMsgid => false | _ => false end) with false in H by (destruct c0; reflexivity).
      inversion H; subst. left. repeat split; auto. eapply owns_fr; [exact O1|reflexivity].
    + destruct (mk h1) as [t2 h2] eqn:Hk. pose proof (owns_mk _ _ _ _ Hk O1) as O2. right.
      destruct data.
      * replace (match (if idok then CReply else CErrMsgid) with CReply | CErrMsgid => true | _ => false end) with true in H by (destruct idok; reflexivity).
        inversion H; subst. split; [destruct idok; [left|right]; reflexivity|]. split; [eexists; reflexivity|].
        split; [exact O2|]. split; [intros _; destruct i as [[m n]|]; [eauto|contradiction Hi; reflexivity]|].
        exists bad, idok, true. split; [reflexivity|]. destruct idok; split; split; congruence.
      * replace (match (if idok then CReply else CErrMsgid) with CReply | CErrMsgid => false | _ => false end) with false in H by (destruct idok; reflexivity).
        inversion H; subst. split; [destruct idok; [left|right]; reflexivity|]. split; [eexists; reflexivity|].
        split; [cbn [opt app]; eapply owns_fr; [exact O2|apply perm_swap]|]. split; [congruence|].
        exists bad, idok, false. split; [reflexivity|]. destruct idok; split; split; congruence.
    + cbn [sane] in Hs. rewrite (Hs eq_refl) in H. inversion H; subst. left. repeat split; auto; [intros [?|?]; discriminate|].
      eapply owns_fr; [exact O1|reflexivity].
  - inversion H; subst. left. repeat split; auto. right. eauto.
Qed.

Lemma sends_not_push w q m n : sends w q m n -> ~ push_unsent w q.
Proof.
  intros S P. destruct q as [r|t|s]; cbn [push_unsent] in P; [|exact P|exact P].
  pose proof (c222_same (mkW (w_mods w) (w_inner w) true (w_xml w)) (Std r) m n None (mkH 0 []) eq_refl S) as [t [h D]].
  cbn [dup_rpc w_mods w_inner] in D. destruct (named r) as [[m1 n1] [c|]]; [|exact P]. destruct P as [P1 [P2 P3]].
  rewrite P1, P2, P3 in D. cbn [negb] in D. unfold made, mk in D. discriminate.
Qed.

(** After receiving the reply of a request that was sent, the caller has every tree that is left: the envelope of a
    reply and the operation with the data, if there are any; and the operation is the one that was sent. *)
Theorem c223_sent : forall running w q m n g h l c e o i h',
  sends w q m n -> sane g -> owns h l ->
  nc_recv_reply running w q g None None h = RRet c e o i h' ->
  owns h' (opt e ++ opt o ++ l) /\
  (e <> None <-> reply c) /\
  (o <> None -> reply c /\ i = Some (m, n)) /\
  (reply c -> exists bad idok data, g = GReply true bad idok data /\ (c = CReply <-> idok = true) /\ (o <> None <-> data = true)).
Proof.
  intros running w q m n g h l c e o i h' S Hs O H.
  destruct (recv_owns _ _ _ _ _ _ _ _ _ _ _ _ _ Hs (sends_not_push _ _ _ _ S) H O) as [[-> [-> [-> [O1 _]]]]|[[N [-> [-> O1]]]|[R [[t ->] [O1 [Hi X]]]]]].
  - cbn [opt app]. split; [exact O1|]. split; [split; [congruence|intros [?|?]; discriminate]|]. split; [congruence|]. intros [?|?]; discriminate.
  - cbn [opt app]. split; [exact O1|]. split; [split; [congruence|tauto]|]. split; [congruence|]. tauto.
  - split; [exact O1|]. split; [split; [auto|congruence]|]. split; [|auto]. intro Ho. split; [exact R|].
    unfold nc_recv_reply in H. destruct running; cbn [negb] in H; [|inversion H; subst; congruence].
    destruct (dup_rpc w q None h) as [[|] o1 i1 h1|] eqn:D; [| |discriminate].
    + rewrite (c222_unique _ _ _ _ _ _ _ _ _ S D) in H.
      destruct g as [c0|[|] bad idok data]; [| |].
      * destruct c0; inversion H; subst; congruence.
      * destruct (mk h1). destruct idok, data; inversion H; subst; congruence.
      * destruct bad; [inversion H; subst; congruence|]. destruct data; inversion H; subst; congruence.
    + inversion H.
Qed.

(** The same of all requests. *)
Definition c223_full : Prop := forall running w q g h l c e o i h',
  sane g -> owns h l -> nc_recv_reply running w q g None None h = RRet c e o i h' ->
  owns h' (opt e ++ opt o ++ l) /\ (o <> None -> reply c).
(** The operation of a push subscription is made before the module of it is looked for. *)
Definition no_push : world := mkW (fun m => negb (String.eqb m "ietf-yang-push")) (fun _ _ => true) true (fun _ => None).
Theorem c223_full_refuted : ~ c223_full.
Proof.
  intro F. assert (O : owns (mkH 0 []) []) by (exists []; split; reflexivity).
  specialize (F true no_push (Std (EstPush "ds" None None None (OnChange 3 true []))) (GNone CWouldblock) (mkH 0 []) [] _ _ _ _ _
                (or_intror (or_introl eq_refl)) O eq_refl).
  destruct F as [_ F]. destruct F as [F|F]; discriminate.
Qed.
(** ... which is the only case. *)
Theorem c223_partial : forall running w q g h l c e o i h',
  sane g -> owns h l -> ~ push_unsent w q -> nc_recv_reply running w q g None None h = RRet c e o i h' ->
  owns h' (opt e ++ opt o ++ l) /\ (o <> None -> reply c).
Proof.
  intros running w q g h l c e o i h' Hs O P H.
  destruct (recv_owns _ _ _ _ _ _ _ _ _ _ _ _ _ Hs P H O) as [[-> [-> [-> [O1 _]]]]|[[N [-> [-> O1]]]|[R [_ [O1 _]]]]]; auto; (split; [exact O1|congruence]).
Qed.

Example c223_ex :
  nc_recv_reply true every (GXml "<x/>") (GReply true false true true) None None (mkH 0 []) =
    RRet CReply (Some 2) (Some 1) (Some ("m", "x")) (mkH 3 [New 0; New 1; Free 0; New 2]) /\
  owns (mkH 3 [New 0; New 1; Free 0; New 2]) [2; 1].
Proof. split; [reflexivity|]. exists [2; 1]. split; reflexivity. Qed.

(* ------------------------------------------------------------------ *)
(** ** C224 *)

(** Waiting for the data of the server: every tree is freed, once. *)
Definition c224_oper_full : Prop := forall q ts c h,
  Forall (fun t => sane (t_got t) /\ ~ push_unsent (t_world t) q) ts -> get_oper_data q ts = Some (c, h) -> owns h [].
(** A turn that fails before anything is received: the session is not running any more, or there is no memory. *)
Definition early (q : request) (t : turn) : Prop :=
  t_running t = false \/ exists op h op' i' h', dup_rpc (t_world t) q op h = DRet false op' i' h'.

(** A reply with another message-id, and then the node of the request is not made: the envelope is freed twice. *)
Theorem c224_oper_full_refuted : ~ c224_oper_full.
Proof.
  intro F. pose (q := Std (Get None WdUnknown)).
  pose (t1 := mkT true every (GReply true false false false)).
  pose (t2 := mkT true (mkW (fun _ => true) (fun _ _ => false) true (fun _ => None)) (GNone CWouldblock)).
  specialize (F q [t1; t2] CError (mkH 2 [New 0; New 1; Free 0; Free 1; Free 1])). destruct F as [s [F _]].
  - repeat constructor; cbn; intuition congruence.
  - reflexivity.
  - cbn in F. discriminate.
Qed.

Theorem c224_oper_partial : forall q t ts c h,
  Forall (fun t => sane (t_got t) /\ ~ push_unsent (t_world t) q) (t :: ts) -> Forall (fun t => ~ early q t) ts ->
  get_oper_data q (t :: ts) = Some (c, h) -> owns h [].
Proof.
  intros q t ts c h Hs He H. unfold get_oper_data in H.
  destruct (oper_loop q (t :: ts) None None (mkH 0 [])) as [[[[c1 e1] o1] h1]|] eqn:L; [|discriminate]. inversion H; subst; clear H.
  assert (O : owns (mkH 0 []) (@nil tree)) by (exists []; split; reflexivity).
  cut (owns h1 (opt e1 ++ opt o1 ++ [])).
  { intro K. apply owns_fro. apply owns_fro. exact K. }
  assert (G : forall ts envp op h, Forall (fun t => sane (t_got t) /\ ~ push_unsent (t_world t) q) ts -> Forall (fun t => ~ early q t) ts ->
              owns h (opt envp ++ opt op ++ []) -> oper_loop q ts envp op h = Some (c, e1, o1, h1) -> owns h1 (opt e1 ++ opt o1 ++ [])).
  { clear. induction ts as [|t ts IH]; intros envp op h Hs He O L; cbn [oper_loop] in L; [discriminate|].
    inversion Hs as [|? ? [S1 S2] Hs']; subst. inversion He as [|? ? E1 He']; subst.
    apply owns_fro in O. apply owns_fro in O. set (h2 := fr op (fr envp h)) in *.
    destruct (nc_recv_reply (t_running t) (t_world t) q (t_got t) envp op h2) as [c2 e2 o2 i2 h3|] eqn:R; [|discriminate].
    destruct (recv_owns _ _ _ _ _ _ _ _ _ _ _ _ _ S1 S2 R O) as [[_ [_ [_ [_ X]]]]|[[N [-> [-> O1]]]|[_ [_ [O1 _]]]]].
    - exfalso. apply E1. destruct X as [X|[op' [i' [h' X]]]]; [left; exact X|right; eauto 8].
    - destruct (again c2); [|inversion L; subst; exact O1]. apply (IH None None h3 Hs' He'); [exact O1|exact L].
    - destruct (again c2); [|inversion L; subst; exact O1]. apply (IH e2 o2 h3 Hs' He'); [exact O1|exact L]. }
  cbn [oper_loop fr] in L. inversion Hs as [|? ? [S1 S2] Hs']; subst.
  destruct (nc_recv_reply (t_running t) (t_world t) q (t_got t) None None (mkH 0 [])) as [c2 e2 o2 i2 h3|] eqn:R; [|discriminate].
  destruct (recv_owns _ _ _ _ _ _ _ _ _ _ _ _ _ S1 S2 R O) as [[-> [-> [-> [O1 _]]]]|[[N [-> [-> O1]]]|[_ [_ [O1 _]]]]].
  - cbn [again] in L. inversion L; subst. exact O1.
  - destruct (again c2); [|inversion L; subst; exact O1]. apply (G ts None None h3 Hs' He O1 L).
  - destruct (again c2); [|inversion L; subst; exact O1]. apply (G ts e2 o2 h3 Hs' He O1 L).
Qed.

(** Waiting for a schema: the same. *)
Definition c224_schema_full : Prop := forall q ts c h,
  Forall (fun t => sane (t_got t) /\ ~ push_unsent (t_world t) q) ts -> get_schema q ts = Some (c, h) -> owns h [].
(** Replies with another message-id stay, as many as the server sends. *)
Theorem c224_schema_leak : forall k, exists ts h,
  Forall (fun t => sane (t_got t) /\ ~ push_unsent (t_world t) (Std (GetSchema "m" None None))) ts /\
  get_schema (Std (GetSchema "m" None None)) ts = Some (CReply, h) /\
  exists l, owns h l /\ length l = 2 * k.
Proof.
  intro k. pose (q := Std (GetSchema "m" None None)). fold q.
  pose (t := mkT true every (GReply true false false true)). pose (z := mkT true every (GReply true false true true)).
  assert (G : forall k envp op h l, owns h (opt envp ++ opt op ++ l) -> exists e o h' l',
            schema_loop q (repeat t k ++ [z]) envp op h = Some (CReply, e, o, h') /\ owns h' (opt e ++ opt o ++ l') /\
            length l' = 2 * k + length (opt envp ++ opt op ++ l)).
  { clear k. induction k as [|k IH]; intros envp op h l O; cbn [repeat app schema_loop].
    - destruct h as [nx lg]. cbn. do 4 eexists. split; [reflexivity|]. split; [|reflexivity]. cbn [opt app].
      change (owns (snd (mk (snd (mk (mkH nx lg))))) (Datatypes.S nx :: nx :: opt envp ++ opt op ++ l)).
      apply (owns_two (mkH nx lg)). exact O.
    - destruct h as [nx lg]. cbn [nc_recv_reply t t_running t_world t_got negb].
      change (exists e o h' l', schema_loop q (repeat t k ++ [z]) (Some (Datatypes.S nx)) (Some nx)
         (snd (mk (snd (mk (mkH nx lg))))) = Some (CReply, e, o, h') /\ owns h' (opt e ++ opt o ++ l') /\
         length l' = 2 * Datatypes.S k + length (opt envp ++ opt op ++ l)).
      destruct (IH (Some (Datatypes.S nx)) (Some nx) (snd (mk (snd (mk (mkH nx lg))))) (opt envp ++ opt op ++ l)) as [e [o [h' [l' [A [B C]]]]]].
      + apply (owns_two (mkH nx lg)). exact O.
      + exists e, o, h', l'. split; [exact A|]. split; [exact B|]. rewrite C. cbn [opt app length]. lia. }
  exists (repeat t k ++ [z]). destruct (G k None None (mkH 0 []) []) as [e [o [h' [l' [A [B C]]]]]].
  { exists []. split; reflexivity. }
  exists (fr o (fr e h')). split; [|split].
  - apply Forall_app. split; [apply Forall_forall; intros x Hx; apply repeat_spec in Hx; subst x|repeat constructor]; cbn; intuition congruence.
  - unfold get_schema. rewrite A. reflexivity.
  - exists l'. split; [apply owns_fro; apply owns_fro; exact B|]. rewrite C. cbn. lia.
Qed.
Theorem c224_schema_full_refuted : ~ c224_schema_full.
Proof.
  intro F. destruct (c224_schema_leak 1) as [ts [h [A [B [l [O L]]]]]]. destruct (F _ _ _ _ A B) as [s [X P]].
  destruct O as [s' [Y Q]]. rewrite X in Y. inversion Y; subst. apply Permutation_length in P. apply Permutation_length in Q. cbn in P. lia.
Qed.
(** But nothing is freed that is not there, whatever happens ... *)
Theorem c224_schema_partial : forall q ts c h,
  Forall (fun t => sane (t_got t) /\ ~ push_unsent (t_world t) q) ts -> get_schema q ts = Some (c, h) ->
  exists l, owns h l /\
  (* ... and everything is freed if no reply has another message-id. *)
  (Forall (fun t => forall e b d, t_got t <> GReply e b false d) ts -> l = []).
Proof.
  intros q ts c h Hs H. unfold get_schema in H.
  destruct (schema_loop q ts None None (mkH 0 [])) as [[[[c1 e1] o1] h1]|] eqn:L; [|discriminate]. inversion H; subst; clear H.
  assert (G : forall ts envp op h l, Forall (fun t => sane (t_got t) /\ ~ push_unsent (t_world t) q) ts ->
              owns h (opt envp ++ opt op ++ l) -> schema_loop q ts envp op h = Some (c, e1, o1, h1) ->
              exists l', owns h1 (opt e1 ++ opt o1 ++ l') /\
                (Forall (fun t => forall e b d, t_got t <> GReply e b false d) ts -> envp = None -> op = None -> l' = l)).
  { clear. induction ts as [|t ts IH]; intros envp op h l Hs O L; cbn [schema_loop] in L; [discriminate|].
    inversion Hs as [|? ? [S1 S2] Hs']; subst.
    destruct (nc_recv_reply (t_running t) (t_world t) q (t_got t) envp op h) as [c2 e2 o2 i2 h3|] eqn:R; [|discriminate].
    destruct (recv_owns _ _ _ _ _ _ _ _ _ _ _ _ _ S1 S2 R O) as [[-> [-> [-> [O1 X]]]]|[[N [-> [-> O1]]]|[Rp [_ [O1 [_ [b [i [d [Eg [Ei _]]]]]]]]]]].
    - cbn [again] in L. inversion L; subst. exists l. auto.
    - destruct (again c2).
      + destruct (IH None None h3 (opt envp ++ opt op ++ l) Hs' O1 L) as [l' [A B]]. exists l'. split; [exact A|].
        intros F -> ->. inversion F; subst. apply B; auto.
      + inversion L; subst. exists (opt envp ++ opt op ++ l). split; [exact O1|]. intros _ -> ->. reflexivity.
    - destruct (again c2) eqn:Ea.
      + destruct (IH e2 o2 h3 (opt envp ++ opt op ++ l) Hs' O1 L) as [l' [A B]]. exists l'. split; [exact A|].
        intros F. exfalso. inversion F as [|? ? F1 F2]; subst. destruct i; [|apply (F1 _ _ _ Eg)].
        rewrite (proj2 Ei eq_refl) in Ea. discriminate.
      + inversion L; subst. exists (opt envp ++ opt op ++ l). split; [exact O1|]. intros _ -> ->. reflexivity. }
  destruct (G ts None None (mkH 0 []) [] Hs) as [l [A B]]; [exists []; split; reflexivity|exact L|].
  exists l. split; [apply owns_fro; apply owns_fro; exact A|]. auto.
Qed.

(** Nothing is waited for any more after a timeout, an error or the reply. *)
Theorem c224_ends : forall q t r envp op h,
  (exists c, t_got t = GNone c /\ (c = CError \/ c = CWouldblock)) \/ (exists e b d, t_got t = GReply e b true d) ->
  oper_loop q (t :: r) envp op h = oper_loop q [t] envp op h /\ schema_loop q (t :: r) envp op h = schema_loop q [t] envp op h.
Proof.
  intros q t r envp op h H.
  assert (K : forall h c e o i h', nc_recv_reply (t_running t) (t_world t) q (t_got t) envp op h = RRet c e o i h' -> again c = false).
  { clear h. intros h c e o i h' R. unfold nc_recv_reply in R. destruct (t_running t); cbn [negb] in R; [|inversion R; reflexivity].
    destruct (dup_rpc (t_world t) q op h) as [[|] o1 i1 h1|]; [|inversion R; reflexivity|discriminate].
    destruct H as [[c1 [E [E2|E2]]]|[e1 [b1 [d1 E]]]]; rewrite E in R; [subst c1; inversion R; reflexivity..|].
    destruct e1; [destruct (mk h1)|destruct b1]; destruct d1; inversion R; reflexivity. }
  cbn [oper_loop schema_loop]. split.
  - destruct (nc_recv_reply (t_running t) (t_world t) q (t_got t) envp op (fr op (fr envp h))) eqn:R; [|reflexivity]. rewrite (K _ _ _ _ _ _ R). reflexivity.
  - destruct (nc_recv_reply (t_running t) (t_world t) q (t_got t) envp op h) eqn:R; [|reflexivity]. rewrite (K _ _ _ _ _ _ R). reflexivity.
Qed.

Print Assumptions c224_ends.
Print Assumptions c222_same.
Print Assumptions c222_unique.
Print Assumptions c223_sent.
Print Assumptions c223_full_refuted.
Print Assumptions c223_partial.
Print Assumptions c224_oper_full_refuted.
Print Assumptions c224_oper_partial.
Print Assumptions c224_schema_leak.
Print Assumptions c224_schema_full_refuted.
Print Assumptions c224_schema_partial.
