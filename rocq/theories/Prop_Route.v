(** Properties C219-C221 on where the nodes of a configuration go (Route.v). *)
From Coq Require Import String Arith List Bool Lia.
From Verif Require Import Route.
Import ListNotations.
Local Open Scope string_scope.
Local Open Scope list_scope.

(** * The schema

    The configuration nodes of ietf-netconf-server (with the groupings it uses, the augments of
    libnetconf2-netconf-server and the features of nc_server_config_load_modules), ietf-keystore and ietf-truststore of
    /repo/modules, as trees.  Each node is annotated with the member of the server's options its value
    belongs to, for a value being set and for one being deleted. *)
Inductive what :=
| No                        (* nothing: a container without meaning, a key, or a leaf without effect *)
| Val (f : field)           (* set and deleted *)
| Set_ (f : field)          (* only set: deleting it is done by setting the alternative *)
| Del (f : field).          (* only deleted: setting it is done with the nodes below *)

Inductive sch := Nd (name : string) (shape : kind) (w : what) (ch : list sch).

Definition cont n w ch := Nd n KContainer w ch.
Definition leaf n w := Nd n KLeaf w [].
(** The value of the key is what [KList] gets in a data tree; it is left open here. *)
Definition lst n key w ch := Nd n (KList key "") w (leaf key No :: ch).

Definition tcp_common (f : list sch) : list sch :=
  [ leaf "local-address" (Val FLocalAddr); leaf "local-port" (Val FLocalPort);
    cont "keepalives" (Val FKeepalives)
      [ leaf "idle-time" (Val FKaIdle); leaf "max-probes" (Val FKaProbes); leaf "probe-interval" (Val FKaInterval) ] ] ++ f.

Definition ssh_server : list sch :=
  [ cont "server-identity" No
      [ lst "host-key" "name" (Val FHostKey)
          [ cont "public-key" No
              [ cont "inline-definition" No
                  [ leaf "public-key-format" (Val FHkPubFormat); leaf "public-key" (Val FHkPub);
                    leaf "private-key-format" (Val FHkPrivFormat); leaf "cleartext-private-key" (Val FHkPriv) ];
                leaf "central-keystore-reference" (Val FHkKeystore) ] ] ];
    cont "client-authentication" No
      [ cont "users" No
          [ lst "user" "name" (Val FUser)
              [ cont "public-keys" (Del FUserKeys)
                  [ cont "inline-definition" No
                      [ lst "public-key" "name" (Val FUserKey)
                          [ leaf "public-key-format" (Val FUserKeyFormat); leaf "public-key" (Val FUserKeyData) ] ];
                    leaf "central-truststore-reference" (Val FUserTruststore);
                    cont "use-system-keys" (Val FUserSystemKeys) [] ];
                leaf "password" (Val FPassword);
                leaf "none" (Val FNone);
                cont "keyboard-interactive" No [ cont "use-system-auth" (Val FSystemAuth) [] ] ] ];
        leaf "auth-timeout" (Val FAuthTimeout);
        leaf "endpoint-reference" (Val FReference) ];
    cont "transport-params" No
      [ cont "host-key" No [ leaf "host-key-alg" (Val FHostKeyAlg) ];
        cont "key-exchange" No [ leaf "key-exchange-alg" (Val FKexAlg) ];
        cont "encryption" No [ leaf "encryption-alg" (Val FEncAlg) ];
        cont "mac" No [ leaf "mac-alg" (Val FMacAlg) ] ] ].

Definition tls_server : list sch :=
  [ cont "server-identity" No
      [ cont "certificate" No
          [ cont "inline-definition" No
              [ leaf "public-key-format" (Val FTlsPubFormat); leaf "public-key" (Val FTlsPub);
                leaf "private-key-format" (Val FTlsPrivFormat); leaf "cleartext-private-key" (Val FTlsPriv);
                leaf "cert-data" (Val FTlsCert) ];
            cont "central-keystore-reference" No
              [ leaf "asymmetric-key" (Val FTlsKsKey); leaf "certificate" (Val FTlsKsCert) ] ] ];
    cont "client-authentication" (Del FClientAuth)
      [ cont "ca-certs" (Del FCaCerts)
          [ cont "inline-definition" No
              [ lst "certificate" "name" (Val FCaCert) [ leaf "cert-data" (Val FCaCertData) ] ];
            leaf "central-truststore-reference" (Val FCaTruststore) ];
        cont "ee-certs" (Del FEeCerts)
          [ cont "inline-definition" No
              [ lst "certificate" "name" (Val FEeCert) [ leaf "cert-data" (Val FEeCertData) ] ];
            leaf "central-truststore-reference" (Val FEeTruststore) ];
        leaf "endpoint-reference" (Val FReference) ];
    cont "hello-params" No
      [ cont "tls-versions" No [ leaf "tls-version" (Val FTlsVersion) ];
        cont "cipher-suites" No [ leaf "cipher-suite" (Val FCipherSuite) ] ] ].

(** map-type and name of a mapping are taken over with the entry (and not when they change: C78). *)
Definition mappings : list sch :=
  [ cont "client-identity-mappings" No
      [ lst "cert-to-name" "id" (Val FCtn)
          [ leaf "fingerprint" (Val FCtnFingerprint); leaf "map-type" No; leaf "name" No ] ] ].

Definition endpoint (tcp_params : string) (tcp_more : list sch) : sch :=
  lst "endpoint" "name" (Val FEndpoint)
    [ cont "ssh" (Val FSsh)
        [ cont tcp_params No (tcp_common tcp_more);
          cont "ssh-server-parameters" No ssh_server;
          cont "netconf-server-parameters" No [] ];
      cont "tls" (Val FTls)
        [ cont tcp_params No (tcp_common tcp_more);
          cont "tls-server-parameters" No tls_server;
          cont "netconf-server-parameters" No mappings ] ].

Definition listen_tree : sch :=
  cont "listen" (Val FListen)
    [ leaf "idle-timeout" (Val FListenIdle);
      cont "endpoints" No [ endpoint "tcp-server-parameters" [] ] ].

Definition call_home_tree : sch :=
  cont "call-home" (Val FCallHome)
    [ lst "netconf-client" "name" (Val FClient)
        [ cont "endpoints" No
            [ endpoint "tcp-client-parameters"
                [ leaf "remote-address" (Val FRemoteAddr); leaf "remote-port" (Val FRemotePort) ] ];
          cont "connection-type" No
            [ cont "persistent" (Set_ FPersistent) [];
              cont "periodic" (Set_ FPeriodic)
                [ leaf "period" (Val FPeriod); leaf "anchor-time" (Val FAnchor); leaf "idle-timeout" (Val FClientIdle) ] ];
          cont "reconnect-strategy" (Val FReconnect)
            [ leaf "start-with" (Val FStartWith); leaf "max-wait" (Val FMaxWait); leaf "max-attempts" (Val FMaxAttempts) ] ] ].

Definition keystore_tree : sch :=
  cont "keystore" (Val FKeystore)
    [ cont "asymmetric-keys" (Val FAsymKeys)
        [ lst "asymmetric-key" "name" (Val FAsymKey)
            [ leaf "public-key-format" (Val FAkPubFormat); leaf "public-key" (Val FAkPub);
              leaf "private-key-format" (Val FAkPrivFormat); leaf "cleartext-private-key" (Val FAkPriv);
              cont "certificates" No
                [ lst "certificate" "name" (Val FAkCert) [ leaf "cert-data" (Val FAkCertData) ] ] ] ] ].

Definition truststore_tree : sch :=
  cont "truststore" (Val FTruststore)
    [ cont "certificate-bags" (Val FCertBags)
        [ lst "certificate-bag" "name" (Val FCertBag)
            [ leaf "description" No;
              lst "certificate" "name" (Val FCbCert) [ leaf "cert-data" (Val FCbCertData) ] ] ];
      cont "public-key-bags" (Val FKeyBags)
        [ lst "public-key-bag" "name" (Val FKeyBag)
            [ leaf "description" No;
              lst "public-key" "name" (Val FKbKey)
                [ leaf "public-key-format" (Val FKbKeyFormat); leaf "public-key" (Val FKbKeyData) ] ] ] ].

(** * Nodes of data trees *)

(** A node of the schema in a data tree: an entry of a list with any value of its key. *)
Definition as_elem (n : string) (s : kind) (v : string) : elem :=
  mkE n (match s with KList k _ => KList k v | _ => s end).
Definition with_key (s : kind) (v : string) (ks : list string) : list string :=
  match s with KList _ _ => ks ++ [v] | _ => ks end.

(** [node_of f anc ks p ks' w]: below the node [anc] (with its parents) lies an instance [p] of a node of the trees [f];
    [ks'] are the values of all list keys on the way, outermost first, and [w] is the annotation. *)
Inductive node_of : list sch -> place -> list string -> place -> list string -> what -> Prop :=
| here n s w ch f anc ks v : In (Nd n s w ch) f ->
    node_of f anc ks (as_elem n s v :: anc) (with_key s v ks) w
| below n s w ch f anc ks v p ks' w' : In (Nd n s w ch) f ->
    node_of ch (as_elem n s v :: anc) (with_key s v ks) p ks' w' -> node_of f anc ks p ks' w'.

(** What is to happen with it. *)
Definition meant (a : area) (del : bool) (w : what) (ks : list string) : res :=
  match w with
  | No => Nothing
  | Val f => Stored (mkT a f ks)
  | Set_ f => if del then Nothing else Stored (mkT a f ks)
  | Del f => if del then Stored (mkT a f ks) else Nothing
  end.

(** The same for all nodes at once. *)
Fixpoint all_nodes (P : place -> list string -> what -> Prop) (s : sch) (anc : place) (ks : list string) : Prop :=
  match s with
  | Nd n sh w ch => forall v,
      P (as_elem n sh v :: anc) (with_key sh v ks) w /\
      (fix each (l : list sch) : Prop := match l with [] => True | c :: r =>
         all_nodes P c (as_elem n sh v :: anc) (with_key sh v ks) /\ each r end) ch
  end.

Lemma each_in P anc ks : forall l,
  (fix each (l : list sch) : Prop := match l with [] => True | c :: r => all_nodes P c anc ks /\ each r end) l ->
  forall s, In s l -> all_nodes P s anc ks.
Proof.
  induction l as [|c r IH]; intros H s Hi; [destruct Hi|]. destruct H as [A B].
  destruct Hi as [<-|Hi]; [exact A|exact (IH B s Hi)].
Qed.

Lemma all_node_of P : forall f anc ks p ks' w, node_of f anc ks p ks' w ->
  (forall s, In s f -> all_nodes P s anc ks) -> P p ks' w.
Proof.
  intros f anc ks p ks' w H. induction H as [n s w ch f anc ks v Hi|n s w ch f anc ks v p ks' w' Hi H IH]; intros A.
  - specialize (A _ Hi). cbn in A. apply (A v).
  - apply IH. specialize (A _ Hi). cbn in A. destruct (A v) as [_ B].
    intros s' Hs. eapply each_in; [exact B|exact Hs].
Qed.

(** * C219 *)

Definition right_place (route : bool -> place -> res) (a : area) : place -> list string -> what -> Prop :=
  fun p ks w => forall del, route del p = meant a del w ks.

Definition server_root : place := [mkE "netconf-server" KContainer].

Ltac tree := repeat match goal with
  | |- True => exact Logic.I
  | |- _ /\ _ => split
  | |- forall _ : string, _ => intro
  | |- right_place _ _ _ _ _ => let d := fresh in intros d; destruct d; reflexivity
  end.

Lemma listen_ok : all_nodes (right_place netconf_server AListen) listen_tree server_root [].
Proof. cbv [listen_tree endpoint tcp_common ssh_server tls_server mappings cont leaf lst app]. cbn [all_nodes as_elem with_key app]. tree. Qed.

Lemma call_home_ok : all_nodes (right_place netconf_server ACallHome) call_home_tree server_root [].
Proof. cbv [call_home_tree endpoint tcp_common ssh_server tls_server mappings cont leaf lst app]. cbn [all_nodes as_elem with_key app]. tree. Qed.

Lemma keystore_ok : all_nodes (right_place keystore AKeystore) keystore_tree [] [].
Proof. cbv [keystore_tree cont leaf lst]. cbn [all_nodes as_elem with_key app]. tree. Qed.

Lemma truststore_ok : all_nodes (right_place truststore ATruststore) truststore_tree [] [].
Proof. cbv [truststore_tree cont leaf lst]. cbn [all_nodes as_elem with_key app]. tree. Qed.

(** Every node of a configuration, with whatever values of the keys above it, is taken to its own member of the
    object named by exactly the keys above it; no handler fails for it or reads behind the root of the tree. *)
Theorem c219_listen : forall p ks w del, node_of [listen_tree] server_root [] p ks w ->
  netconf_server del p = meant AListen del w ks.
Proof.
  intros p ks w del H. revert del. apply (all_node_of (right_place netconf_server AListen) _ _ _ _ _ _ H).
  intros s [<-|[]]. exact listen_ok.
Qed.

Theorem c219_call_home : forall p ks w del, node_of [call_home_tree] server_root [] p ks w ->
  netconf_server del p = meant ACallHome del w ks.
Proof.
  intros p ks w del H. revert del. apply (all_node_of (right_place netconf_server ACallHome) _ _ _ _ _ _ H).
  intros s [<-|[]]. exact call_home_ok.
Qed.

Theorem c219_root : forall del, netconf_server del server_root = Nothing.
Proof. intros []; reflexivity. Qed.

(** C220: the same for the keystore and the truststore. *)
Theorem c220_keystore : forall p ks w del, node_of [keystore_tree] [] [] p ks w ->
  keystore del p = meant AKeystore del w ks.
Proof.
  intros p ks w del H. revert del. apply (all_node_of (right_place keystore AKeystore) _ _ _ _ _ _ H).
  intros s [<-|[]]. exact keystore_ok.
Qed.

Theorem c220_truststore : forall p ks w del, node_of [truststore_tree] [] [] p ks w ->
  truststore del p = meant ATruststore del w ks.
Proof.
  intros p ks w del H. revert del. apply (all_node_of (right_place truststore ATruststore) _ _ _ _ _ _ H).
  intros s [<-|[]]. exact truststore_ok.
Qed.

(** A case: the data of a public key of a user of a Call Home endpoint. *)
Definition some_key (c e u k : string) : place :=
  [mkE "public-key" KLeaf; mkE "public-key" (KList "name" k); mkE "inline-definition" KContainer;
   mkE "public-keys" KContainer; mkE "user" (KList "name" u); mkE "users" KContainer;
   mkE "client-authentication" KContainer; mkE "ssh-server-parameters" KContainer; mkE "ssh" KContainer;
   mkE "endpoint" (KList "name" e); mkE "endpoints" KContainer; mkE "netconf-client" (KList "name" c);
   mkE "call-home" KContainer; mkE "netconf-server" KContainer].

Example c219_ex : forall c e u k,
  node_of [call_home_tree] server_root [] (some_key c e u k) [c; e; u; k] (Val FUserKeyData).
Proof.
  intros c e u k.
  eapply (below _ _ _ _ _ _ _ ""). left; reflexivity.
  eapply (below _ _ _ _ _ _ _ c). left; reflexivity.
  eapply (below _ _ _ _ _ _ _ ""). right; left; reflexivity.
  eapply (below _ _ _ _ _ _ _ e). left; reflexivity.
  eapply (below _ _ _ _ _ _ _ ""). right; left; reflexivity.
  eapply (below _ _ _ _ _ _ _ ""). right; left; reflexivity.
  eapply (below _ _ _ _ _ _ _ ""). right; left; reflexivity.
  eapply (below _ _ _ _ _ _ _ ""). left; reflexivity.
  eapply (below _ _ _ _ _ _ _ u). left; reflexivity.
  eapply (below _ _ _ _ _ _ _ ""). right; left; reflexivity.
  eapply (below _ _ _ _ _ _ _ ""). left; reflexivity.
  eapply (below _ _ _ _ _ _ _ k). left; reflexivity.
  refine (here "public-key" KLeaf (Val FUserKeyData) [] _ _ _ "" _). right; right; left; reflexivity.
Qed.

(** * C221: no two nodes share a member *)

(** The place without the values of keys, and these values, outermost first. *)
Definition erase1 (e : elem) : elem := mkE (e_name e) (match e_kind e with KList k _ => KList k "" | s => s end).
Definition erase (p : place) : place := map erase1 p.
Fixpoint vals (p : place) : list string :=
  match p with
  | [] => []
  | e :: r => vals r ++ match e_kind e with KList _ v => [v] | _ => [] end
  end.

Lemma vals_length : forall p q, erase p = erase q -> length (vals p) = length (vals q).
Proof.
  induction p as [|e p IH]; destruct q as [|d q]; intros H; try discriminate; [reflexivity|].
  cbn in H. injection H as _ Hk Hr. cbn [vals]. rewrite !app_length, (IH q Hr).
  destruct (e_kind e), (e_kind d); try discriminate; reflexivity.
Qed.

Lemma place_eq : forall p q, erase p = erase q -> vals p = vals q -> p = q.
Proof.
  induction p as [|e p IH]; destruct q as [|d q]; intros H V; try discriminate; [reflexivity|].
  cbn in H. injection H as Hn Hk Hr. cbn [vals] in V.
  pose proof (vals_length p q Hr) as L.
  apply f_equal2.
  - destruct e as [n s], d as [m t]; cbn in *. subst m.
    destruct s, t; try discriminate; auto. injection Hk as <-.
    apply app_inj_tail in V. destruct V as [_ ->]. reflexivity.
  - apply IH; [exact Hr|].
    destruct (e_kind e), (e_kind d); try discriminate; cbn in V; rewrite ?app_nil_r in V; auto.
    apply app_inj_tail in V. tauto.
Qed.

(** All places of a tree, with their annotations. *)
Fixpoint rows (s : sch) (anc : place) : list (place * what) :=
  match s with
  | Nd n sh w ch =>
      (as_elem n sh "" :: anc, w) ::
      (fix each (l : list sch) : list (place * what) := match l with [] => [] | c :: r =>
         rows c (as_elem n sh "" :: anc) ++ each r end) ch
  end.

Lemma each_rows anc x : forall l s, In s l -> In x (rows s anc) ->
  In x ((fix each (l : list sch) : list (place * what) := match l with [] => [] | c :: r => rows c anc ++ each r end) l).
Proof.
  induction l as [|c r IH]; intros s H Hx; [destruct H|]. apply in_app_iff.
  destruct H as [->|H]; [left; exact Hx|right; eapply IH; eauto].
Qed.

Lemma erase_as_elem n s v : erase1 (as_elem n s v) = as_elem n s "".
Proof. destruct s; reflexivity. Qed.

Lemma node_rows : forall f anc ks p ks' w, node_of f anc ks p ks' w -> ks = vals anc ->
  ks' = vals p /\ exists s, In s f /\ In (erase p, w) (rows s (erase anc)).
Proof.
  intros f anc ks p ks' w H. induction H as [n s w ch f anc ks v Hi|n s w ch f anc ks v p ks' w' Hi H IH]; intros ->.
  - split.
    + destruct s; cbn; rewrite ?app_nil_r; reflexivity.
    + exists (Nd n s w ch). split; [exact Hi|]. cbn [rows erase map]. left. fold (erase anc). now rewrite erase_as_elem.
  - destruct IH as [A (c & Hc & B)].
    + destruct s; cbn; rewrite ?app_nil_r; reflexivity.
    + split; [exact A|]. exists (Nd n s w ch). split; [exact Hi|]. cbn [rows]. right.
      eapply each_rows; [exact Hc|]. cbn [erase map] in B. fold (erase anc) in B. now rewrite erase_as_elem in B.
Qed.

(** Numbers for the members, to compare them. *)
From Coq Require Import NArith.
Definition ix (f : field) : N := (
  match f with
  | FListen => 0 | FCallHome => 1 | FListenIdle => 2 | FClient => 3 | FClientIdle => 4 | FPeriod => 5 | FAnchor => 6 |
  FPersistent => 7 | FPeriodic => 8 | FReconnect => 9 | FStartWith => 10 | FMaxWait => 11 | FMaxAttempts => 12 |
  FEndpoint => 13 | FSsh => 14 | FTls => 15 | FLocalAddr => 16 | FLocalPort => 17 | FRemoteAddr => 18 | FRemotePort =>
  19 | FKeepalives => 20 | FKaIdle => 21 | FKaProbes => 22 | FKaInterval => 23 | FHostKey => 24 | FHkPubFormat => 25 |
  FHkPub => 26 | FHkPrivFormat => 27 | FHkPriv => 28 | FHkKeystore => 29 | FUser => 30 | FUserKeys => 31 | FUserKey =>
  32 | FUserKeyFormat => 33 | FUserKeyData => 34 | FUserTruststore => 35 | FUserSystemKeys => 36 | FPassword => 37 |
  FNone => 38 | FSystemAuth => 39 | FAuthTimeout => 40 | FReference => 41 | FHostKeyAlg => 42 | FKexAlg => 43 | FEncAlg
  => 44 | FMacAlg => 45 | FTlsPubFormat => 46 | FTlsPub => 47 | FTlsPrivFormat => 48 | FTlsPriv => 49 | FTlsCert => 50 |
  FTlsKsKey => 51 | FTlsKsCert => 52 | FClientAuth => 53 | FCaCerts => 54 | FCaCert => 55 | FCaCertData => 56 |
  FCaTruststore => 57 | FEeCerts => 58 | FEeCert => 59 | FEeCertData => 60 | FEeTruststore => 61 | FCtn => 62 |
  FCtnFingerprint => 63 | FTlsVersion => 64 | FCipherSuite => 65 | FKeystore => 66 | FAsymKeys => 67 | FAsymKey => 68 |
  FAkPubFormat => 69 | FAkPub => 70 | FAkPrivFormat => 71 | FAkPriv => 72 | FAkCert => 73 | FAkCertData => 74 |
  FTruststore => 75 | FCertBags => 76 | FCertBag => 77 | FCbCert => 78 | FCbCertData => 79 | FKeyBags => 80 | FKeyBag =>
  81 | FKbKey => 82 | FKbKeyFormat => 83 | FKbKeyData => 84
  end)%N.

Definition field_of (w : what) : option field :=
  match w with No => None | Val f | Set_ f | Del f => Some f end.

Definition same_field (a b : what) : bool :=
  match field_of a, field_of b with Some f, Some g => N.eqb (ix f) (ix g) | _, _ => false end.

(** Which case of the choice "transport" the place lies in. *)
Definition in_ssh (p : place) : bool := existsb (fun e => String.eqb (e_name e) "ssh") p.

Definition elem_eqb (a b : elem) : bool :=
  String.eqb (e_name a) (e_name b) &&
  match e_kind a, e_kind b with
  | KList k v, KList l u => String.eqb k l && String.eqb v u
  | KContainer, KContainer | KLeaf, KLeaf => true
  | _, _ => false
  end.
Fixpoint place_eqb (p q : place) : bool :=
  match p, q with
  | [], [] => true
  | a :: p, b :: q => elem_eqb a b && place_eqb p q
  | _, _ => false
  end.
Lemma place_eqb_eq p : forall q, place_eqb p q = true -> p = q.
Proof.
  induction p as [|[n s] p IH]; destruct q as [|[m t] q]; cbn; intros H; try discriminate; [reflexivity|].
  apply andb_true_iff in H. destruct H as [H1 H2]. apply andb_true_iff in H1. destruct H1 as [H0 H1].
  apply String.eqb_eq in H0. cbn in H0, H1. subst m. f_equal; [|auto]. f_equal.
  destruct s, t; try discriminate; auto. apply andb_true_iff in H1. destruct H1 as [A B].
  apply String.eqb_eq in A, B. now subst.
Qed.

(** Rows of the same member in the same case are the same row. *)
Definition unshared (l : list (place * what)) : bool :=
  forallb (fun a => forallb (fun b =>
    negb (same_field (snd a) (snd b)) || xorb (in_ssh (fst a)) (in_ssh (fst b)) || place_eqb (fst a) (fst b)) l) l.

Lemma in_ssh_erase p : in_ssh (erase p) = in_ssh p.
Proof. unfold in_ssh, erase. induction p as [|e p IH]; cbn; [reflexivity|]. now rewrite IH. Qed.

Lemma meant_stored a del w ks t : meant a del w ks = Stored t -> field_of w = Some (t_field t) /\ ks = t_keys t.
Proof.
  destruct w; cbn; try discriminate; [|destruct del; try discriminate|destruct del; try discriminate];
    intros H; injection H as <-; auto.
Qed.

Lemma unshared_eq : forall s root a p q ks ks' w w' del t,
  unshared (rows s root) = true -> erase root = root -> vals root = [] ->
  node_of [s] root [] p ks w -> node_of [s] root [] q ks' w' ->
  meant a del w ks = Stored t -> meant a del w' ks' = Stored t -> in_ssh p = in_ssh q -> p = q.
Proof.
  intros s root a p q ks ks' w w' del t U E V Hp Hq Mp Mq S.
  destruct (node_rows _ _ _ _ _ _ Hp) as [Vp (s1 & [<-|[]] & Rp)]; [now rewrite V|].
  destruct (node_rows _ _ _ _ _ _ Hq) as [Vq (s2 & [<-|[]] & Rq)]; [now rewrite V|].
  rewrite E in Rp, Rq.
  apply meant_stored in Mp, Mq. destruct Mp as [Fp Kp], Mq as [Fq Kq].
  apply place_eq; [|congruence].
  unfold unshared in U. rewrite forallb_forall in U. specialize (U _ Rp). rewrite forallb_forall in U.
  specialize (U _ Rq). cbn [fst snd] in U. unfold same_field in U. rewrite Fp, Fq, N.eqb_refl in U.
  rewrite !in_ssh_erase, S, xorb_nilpotent in U. cbn in U. now apply place_eqb_eq.
Qed.

Theorem c221_listen : forall p q ks ks' w w' del t,
  node_of [listen_tree] server_root [] p ks w -> node_of [listen_tree] server_root [] q ks' w' ->
  netconf_server del p = Stored t -> netconf_server del q = Stored t -> in_ssh p = in_ssh q -> p = q.
Proof.
  intros p q ks ks' w w' del t Hp Hq Sp Sq S.
  rewrite (c219_listen _ _ _ del Hp) in Sp. rewrite (c219_listen _ _ _ del Hq) in Sq.
  eapply (unshared_eq listen_tree server_root AListen); eauto; reflexivity.
Qed.

Theorem c221_call_home : forall p q ks ks' w w' del t,
  node_of [call_home_tree] server_root [] p ks w -> node_of [call_home_tree] server_root [] q ks' w' ->
  netconf_server del p = Stored t -> netconf_server del q = Stored t -> in_ssh p = in_ssh q -> p = q.
Proof.
  intros p q ks ks' w w' del t Hp Hq Sp Sq S.
  rewrite (c219_call_home _ _ _ del Hp) in Sp. rewrite (c219_call_home _ _ _ del Hq) in Sq.
  eapply (unshared_eq call_home_tree server_root ACallHome); eauto; reflexivity.
Qed.

(** Listening and Call Home never meet. *)
Theorem c221_apart : forall p q ks ks' w w' del t,
  node_of [listen_tree] server_root [] p ks w -> node_of [call_home_tree] server_root [] q ks' w' ->
  netconf_server del p = Stored t -> netconf_server del q <> Stored t.
Proof.
  intros p q ks ks' w w' del t Hp Hq Sp Sq.
  rewrite (c219_listen _ _ _ del Hp) in Sp. rewrite (c219_call_home _ _ _ del Hq) in Sq.
  assert (A : t_area t = AListen).
  { destruct w; cbn in Sp; try discriminate; try (destruct del; try discriminate); injection Sp as <-; reflexivity. }
  assert (B : t_area t = ACallHome).
  { destruct w'; cbn in Sq; try discriminate; try (destruct del; try discriminate); injection Sq as <-; reflexivity. }
  congruence.
Qed.

Theorem c221_keystore : forall p q ks ks' w w' del t,
  node_of [keystore_tree] [] [] p ks w -> node_of [keystore_tree] [] [] q ks' w' ->
  keystore del p = Stored t -> keystore del q = Stored t -> p = q.
Proof.
  intros p q ks ks' w w' del t Hp Hq Sp Sq.
  rewrite (c220_keystore _ _ _ del Hp) in Sp. rewrite (c220_keystore _ _ _ del Hq) in Sq.
  assert (N : forall x kx wx, node_of [keystore_tree] [] [] x kx wx -> in_ssh x = false).
  { intros x kx wx H. destruct (node_rows _ _ _ _ _ _ H eq_refl) as [_ (s & [<-|[]] & R)].
    rewrite <- in_ssh_erase.
    assert (C : forallb (fun r => negb (in_ssh (fst r))) (rows keystore_tree []) = true) by reflexivity.
    rewrite forallb_forall in C. specialize (C _ R). now apply negb_true_iff in C. }
  eapply (unshared_eq keystore_tree [] AKeystore); eauto; try reflexivity.
  now rewrite (N _ _ _ Hp), (N _ _ _ Hq).
Qed.

Theorem c221_truststore : forall p q ks ks' w w' del t,
  node_of [truststore_tree] [] [] p ks w -> node_of [truststore_tree] [] [] q ks' w' ->
  truststore del p = Stored t -> truststore del q = Stored t -> p = q.
Proof.
  intros p q ks ks' w w' del t Hp Hq Sp Sq.
  rewrite (c220_truststore _ _ _ del Hp) in Sp. rewrite (c220_truststore _ _ _ del Hq) in Sq.
  assert (N : forall x kx wx, node_of [truststore_tree] [] [] x kx wx -> in_ssh x = false).
  { intros x kx wx H. destruct (node_rows _ _ _ _ _ _ H eq_refl) as [_ (s & [<-|[]] & R)].
    rewrite <- in_ssh_erase.
    assert (C : forallb (fun r => negb (in_ssh (fst r))) (rows truststore_tree []) = true) by reflexivity.
    rewrite forallb_forall in C. specialize (C _ R). now apply negb_true_iff in C. }
  eapply (unshared_eq truststore_tree [] ATruststore); eauto; try reflexivity.
  now rewrite (N _ _ _ Hp), (N _ _ _ Hq).
Qed.

Example c221_ex : forall c e u k, in_ssh (some_key c e u k) = true /\
  netconf_server false (some_key c e u k) = Stored (mkT ACallHome FUserKeyData [c; e; u; k]).
Proof. intros. split; reflexivity. Qed.

Print Assumptions c219_listen.
Print Assumptions c219_call_home.
Print Assumptions c219_root.
Print Assumptions c220_keystore.
Print Assumptions c220_truststore.
Print Assumptions c221_listen.
Print Assumptions c221_call_home.
Print Assumptions c221_apart.
Print Assumptions c221_keystore.
Print Assumptions c221_truststore.
