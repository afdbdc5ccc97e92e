(** C155-C158: building a configuration with nc_server_config_add_* and nc_server_config_del_*. *)
From Coq Require Import Ascii String NArith Bool Lia List.
From Verif Require Import Bytes CfgBuild.
Import ListNotations.
Local Open Scope string_scope.
Local Open Scope list_scope.

(** * What the functions are for

    The nodes of the YANG modules a call is to set, as its documentation (server_config.h) says, with
    the names of the caller as the keys of list entries. *)
Definition nd (s : string) : step := (bs s, None).
Definition en (s : string) (key : bytes) : step := (bs s, Some key).

Definition server : path := [nd "ietf-netconf-server:netconf-server"].
Definition client (c : bytes) : path := server ++ [nd "call-home"; en "netconf-client" c].
Definition endpoint (l : place) : path :=
  match l with
  | Listen e => server ++ [nd "listen"; nd "endpoints"; en "endpoint" e]
  | CallHome c e => client c ++ [nd "endpoints"; en "endpoint" e]
  end.
Definition key_of (a : bytes) : path :=
  [nd "ietf-keystore:keystore"; nd "asymmetric-keys"; en "asymmetric-key" a].
Definition truststore : path := [nd "ietf-truststore:truststore"].
Definition key_bag (b : bytes) : path := truststore ++ [nd "public-key-bags"; en "public-key-bag" b].
Definition cert_bag (b : bytes) : path := truststore ++ [nd "certificate-bags"; en "certificate-bag" b].
Definition connection (c : bytes) : path := client c ++ [nd "connection-type"].
Definition strategy (c : bytes) : path := client c ++ [nd "reconnect-strategy"].

Definition ssh (l : place) : path := endpoint l ++ [nd "ssh"].
Definition tls (l : place) : path := endpoint l ++ [nd "tls"].
Definition host_keys (l : place) : path := ssh l ++ [nd "ssh-server-parameters"; nd "server-identity"].
Definition host_key (l : place) (h : bytes) : path := host_keys l ++ [en "host-key" h].
Definition host_key_def (l : place) (h : bytes) : path := host_key l h ++ [nd "public-key"].
Definition ssh_auth (l : place) : path := ssh l ++ [nd "ssh-server-parameters"; nd "client-authentication"].
Definition user (l : place) (u : bytes) : path := ssh_auth l ++ [nd "users"; en "user" u].
Definition user_keys (l : place) (u : bytes) : path := user l u ++ [nd "public-keys"].
Definition user_key (l : place) (u k : bytes) : path :=
  user_keys l u ++ [nd "inline-definition"; en "public-key" k].
Definition keyboard (l : place) (u : bytes) : path :=
  user l u ++ [nd "libnetconf2-netconf-server:keyboard-interactive"].
Definition identity (l : place) : path :=
  tls l ++ [nd "tls-server-parameters"; nd "server-identity"; nd "certificate"].
Definition tls_auth (l : place) : path := tls l ++ [nd "tls-server-parameters"; nd "client-authentication"].
Definition certs (l : place) (which : string) : path := tls_auth l ++ [nd which].
Definition cert (l : place) (which : string) (n : bytes) : path :=
  certs l which ++ [nd "inline-definition"; en "certificate" n].
Definition mappings (l : place) : path :=
  tls l ++ [nd "netconf-server-parameters"; nd "client-identity-mappings"].
Definition mapping (l : place) (id : N) : path := mappings l ++ [en "cert-to-name" (dec id)].
Definition reference : step := nd "libnetconf2-netconf-server:endpoint-reference".

(** A call sets leaves (and containers, [None]), instead of the alternatives to them if these are
    configured; or removes a node; or all entries of a list; or is to be refused. *)
Inductive meaning :=
| Sets (nodes : list (path * option bytes)) (alternatives : list path)
| Removes (p : path)
| RemovesAll (list : path)
| Refused.

Definition pair_at (d : path) (format : bytes) (kp : pair) : list (path * option bytes) :=
  let '(priv, fmt, pub) := kp in
  [(d ++ [nd "public-key-format"], Some format); (d ++ [nd "public-key"], Some pub);
   (d ++ [nd "private-key-format"], Some fmt); (d ++ [nd "cleartext-private-key"], Some priv)].

Definition pub_at (d : path) (pub : bytes) : list (path * option bytes) :=
  [(d ++ [nd "public-key-format"], Some ssh_format); (d ++ [nd "public-key"], Some pub)].

Definition opt {A B} (o : option A) (f : A -> B) (d : B) : B := match o with Some a => f a | None => d end.

Definition one_or_all (l : path) (list : string) (name : option bytes) : meaning :=
  match name with
  | Some x => Removes (l ++ [en list x])
  | None => RemovesAll (l ++ [nd list])
  end.

Definition for_ (t : transport) (a b : path) : option path :=
  match t with SSH => Some a | TLS => Some b | OtherTransport => None end.

Definition inline : step := nd "inline-definition".
Definition ksref : step := nd "central-keystore-reference".
Definition tsref : step := nd "central-truststore-reference".
Definition system : step := nd "libnetconf2-netconf-server:use-system-keys".

Definition type_name (mt : maptype) : option bytes :=
  match mt with
  | MSpecified => Some (bs "ietf-x509-cert-to-name:specified")
  | MRfc822 => Some (bs "ietf-x509-cert-to-name:san-rfc822-name")
  | MDns => Some (bs "ietf-x509-cert-to-name:san-dns-name")
  | MIp => Some (bs "ietf-x509-cert-to-name:san-ip-address")
  | MAny => Some (bs "ietf-x509-cert-to-name:san-any")
  | MCommonName => Some (bs "ietf-x509-cert-to-name:common-name")
  | MUnknown => None
  end.

Definition does (x : call) : meaning :=
  match x with
  | AddressPort e t a p =>
      opt (for_ t (ssh (Listen e)) (tls (Listen e)))
        (fun d => Sets [(d ++ [nd "tcp-server-parameters"; nd "local-address"], Some a);
                        (d ++ [nd "tcp-server-parameters"; nd "local-port"], Some (dec p))] []) Refused
  | ChAddressPort c e t a p =>
      opt (for_ t (ssh (CallHome c e)) (tls (CallHome c e)))
        (fun d => Sets [(d ++ [nd "tcp-client-parameters"; nd "remote-address"], Some a);
                        (d ++ [nd "tcp-client-parameters"; nd "remote-port"], Some p)] []) Refused
  | DelEndpt e => one_or_all (server ++ [nd "listen"; nd "endpoints"]) "endpoint" e
  | DelChClient c => one_or_all (server ++ [nd "call-home"]) "netconf-client" c
  | DelChEndpt c e => one_or_all (client c ++ [nd "endpoints"]) "endpoint" e
  | KsKey t a kp =>
      match t with
      | OtherTransport => Refused
      | SSH => opt kp (fun kp => Sets (pair_at (key_of a) ssh_format kp) []) Refused
      | TLS => opt kp (fun kp => Sets (pair_at (key_of a) spki_format kp) []) Refused
      end
  | DelKsKey a => one_or_all [nd "ietf-keystore:keystore"; nd "asymmetric-keys"] "asymmetric-key" a
  | KsCert a n crt =>
      opt crt (fun v => Sets [(key_of a ++ [nd "certificates"; en "certificate" n; nd "cert-data"], Some v)] [])
          Refused
  | DelKsCert a n => one_or_all (key_of a ++ [nd "certificates"]) "certificate" n
  | TsKey b k pub => opt pub (fun v => Sets (pub_at (key_bag b ++ [en "public-key" k]) v) []) Refused
  | DelTsKey b k => one_or_all (key_bag b) "public-key" k
  | TsCert b n crt =>
      opt crt (fun v => Sets [(cert_bag b ++ [en "certificate" n; nd "cert-data"], Some v)] []) Refused
  | DelTsCert b n => one_or_all (cert_bag b) "certificate" n
  | Persistent c => Sets [(connection c ++ [nd "persistent"], None)] [connection c ++ [nd "periodic"]]
  | Period c v =>
      Sets [(connection c ++ [nd "periodic"; nd "period"], Some (dec v))] [connection c ++ [nd "persistent"]]
  | DelPeriod c => Removes (connection c ++ [nd "periodic"; nd "period"])
  | Anchor c v =>
      Sets [(connection c ++ [nd "periodic"; nd "anchor-time"], Some v)] [connection c ++ [nd "persistent"]]
  | DelAnchor c => Removes (connection c ++ [nd "periodic"; nd "anchor-time"])
  | Idle c v =>
      Sets [(connection c ++ [nd "periodic"; nd "idle-timeout"], Some (dec v))]
           [connection c ++ [nd "persistent"]]
  | DelIdle c => Removes (connection c ++ [nd "periodic"; nd "idle-timeout"])
  | Reconnect c sw w a =>
      match sw with
      | OtherStart => Refused
      | _ =>
          Sets ((strategy c ++ [nd "start-with"],
                 Some (bs (match sw with
                           | FirstListed => "first-listed"
                           | LastConnected => "last-connected"
                           | _ => "random-selection"
                           end))) ::
                (if (a =? 0)%N then [] else [(strategy c ++ [nd "max-attempts"], Some (dec a))]) ++
                (if (w =? 0)%N then [] else [(strategy c ++ [nd "max-wait"], Some (dec w))])) []
      end
  | DelReconnect c => Removes (strategy c)
  | HostKey l h kp =>
      opt kp (fun kp => Sets (pair_at (host_key_def l h ++ [inline]) ssh_format kp)
                             [host_key_def l h ++ [ksref]]) Refused
  | DelHostKey l h => one_or_all (host_keys l) "host-key" h
  | HostKeyRef l h r => Sets [(host_key_def l h ++ [ksref], Some r)] [host_key_def l h ++ [inline]]
  | DelHostKeyRef l h => Removes (host_key_def l h ++ [ksref])
  | UserKey l u k pub =>
      opt pub (fun v => Sets (pub_at (user_key l u k) v) [user_keys l u ++ [tsref]; user_keys l u ++ [system]])
          Refused
  | DelUserKey l u k => one_or_all (user_keys l u ++ [inline]) "public-key" k
  | UserSystem l u =>
      Sets [(user_keys l u ++ [system], None)] [user_keys l u ++ [inline]; user_keys l u ++ [tsref]]
  | DelUserSystem l u => Removes (user_keys l u ++ [system])
  | Password l u hash => opt hash (fun v => Sets [(user l u ++ [nd "password"], Some v)] []) Refused
  | DelPassword l u => Removes (user l u ++ [nd "password"])
  | Interactive l u => Sets [(keyboard l u ++ [nd "use-system-auth"], None)] []
  | DelInteractive l u => Removes (keyboard l u)
  | DelUser l u => one_or_all (ssh_auth l ++ [nd "users"]) "user" u
  | SshEndptRef e r => Sets [(ssh_auth (Listen e) ++ [reference], Some r)] []
  | DelSshEndptRef e => Removes (ssh_auth (Listen e) ++ [reference])
  | UserRef l u r =>
      Sets [(user_keys l u ++ [tsref], Some r)] [user_keys l u ++ [inline]; user_keys l u ++ [system]]
  | DelUserRef l u => Removes (user_keys l u ++ [tsref])
  | ServerCert l kp crt =>
      opt kp (fun kp => opt crt (fun v =>
        Sets (pair_at (identity l ++ [inline]) spki_format kp ++
              [(identity l ++ [inline; nd "cert-data"], Some v)]) [identity l ++ [ksref]]) Refused) Refused
  | DelServerCert l => Removes (identity l ++ [inline])
  | ServerCertRef l ar cr =>
      Sets [(identity l ++ [ksref; nd "asymmetric-key"], Some ar);
            (identity l ++ [ksref; nd "certificate"], Some cr)] [identity l ++ [inline]]
  | DelServerCertRef l => Removes (identity l ++ [ksref])
  | EeCert l n crt =>
      opt crt (fun v => Sets [(cert l "ee-certs" n ++ [nd "cert-data"], Some v)]
                             [certs l "ee-certs" ++ [tsref]]) Refused
  | DelEeCert l n => one_or_all (certs l "ee-certs" ++ [inline]) "certificate" n
  | EeRef l r => Sets [(certs l "ee-certs" ++ [tsref], Some r)] [certs l "ee-certs" ++ [inline]]
  | DelEeRef l => Removes (certs l "ee-certs" ++ [tsref])
  | CaCert l n crt =>
      opt crt (fun v => Sets [(cert l "ca-certs" n ++ [nd "cert-data"], Some v)]
                             [certs l "ca-certs" ++ [tsref]]) Refused
  | DelCaCert l n => one_or_all (certs l "ca-certs" ++ [inline]) "certificate" n
  | CaRef l r => Sets [(certs l "ca-certs" ++ [tsref], Some r)] [certs l "ca-certs" ++ [inline]]
  | DelCaRef l => Removes (certs l "ca-certs" ++ [tsref])
  | Ctn l id fp mt name =>
      if (id =? 0)%N then Refused
      else match mt with
           | MUnknown => Refused
           | _ => Sets (opt fp (fun f => [(mapping l id ++ [nd "fingerprint"], Some f)]) [] ++
                        [(mapping l id ++ [nd "map-type"], type_name mt);
                         (mapping l id ++ [nd "name"], Some name)]) []
           end
  | DelCtn l id => one_or_all (mappings l) "cert-to-name" (if (id =? 0)%N then None else Some (dec id))
  | TlsEndptRef e r => Sets [(tls_auth (Listen e) ++ [reference], Some r)] []
  | DelTlsEndptRef e => Removes (tls_auth (Listen e) ++ [reference])
  end.

(** * Trees

    [has st p]: the node exists; [below p q]: [q] is [p] or a descendant; [above q p]: a proper ancestor.
    A tree has the parent of each of its nodes. *)
Definition has (st : store) (p : path) : Prop := exists v, In (p, v) st.
Definition below (p q : path) : Prop := exists r, q = p ++ r.
Definition above (q p : path) : Prop := q <> [] /\ exists r, r <> [] /\ p = q ++ r.
Definition value (st : store) (p : path) : option (option bytes) := lookup p st.

Record tree (st : store) : Prop := {
  tr_parents : forall p q, has st p -> above q p -> has st q;
  tr_once : NoDup (map fst st);
}.

(** A configuration of a server: a tree with the container netconf-server. *)
Definition config (st : store) : Prop := tree st /\ has st server.

Definition names (p : path) : list bytes :=
  flat_map (fun s => match snd s with Some k => [k] | None => [] end) p.

(** A name without apostrophes. *)
Definition plain (n : bytes) : Prop := ~ In "'"%char n.

(** * Elementary facts *)
Lemma beqb_eq a b : beqb a b = true <-> a = b.
Proof.
  revert b. induction a as [|x a IH]; intros [|y b]; cbn; try (split; congruence).
  rewrite andb_true_iff, Ascii.eqb_eq, IH. split; [intros [-> ->]; reflexivity | intros [= -> ->]; auto].
Qed.

Lemma okeyb_eq a b : okeyb a b = true <-> a = b.
Proof.
  destruct a, b; cbn; try (split; congruence). rewrite beqb_eq. split; congruence.
Qed.

Lemma patheqb_eq p q : patheqb p q = true <-> p = q.
Proof.
  revert q. induction p as [|[n k] p IH]; intros [|[m l] q]; cbn; try (split; congruence).
  rewrite !andb_true_iff, beqb_eq, okeyb_eq, IH. split.
  - intros [[-> ->] ->]. reflexivity.
  - intros [= -> -> ->]. auto.
Qed.

Lemma patheqb_refl p : patheqb p p = true.
Proof. now apply patheqb_eq. Qed.

Lemma patheqb_neq p q : p <> q -> patheqb p q = false.
Proof. intros H. destruct (patheqb p q) eqn:E; [|reflexivity]. now apply patheqb_eq in E. Qed.

Lemma path_dec (p q : path) : {p = q} + {p <> q}.
Proof.
  destruct (patheqb p q) eqn:E; [left; now apply patheqb_eq|right; intros ->].
  now rewrite patheqb_refl in E.
Qed.

Lemma underb_spec p q : underb p q = true <-> below p q.
Proof.
  revert q. induction p as [|[n k] p IH]; intros [|[m l] q]; cbn.
  - split; [exists []; reflexivity | reflexivity].
  - split; [intros _; now exists ((m, l) :: q) | reflexivity].
  - split; [discriminate | intros [r E]; discriminate].
  - rewrite !andb_true_iff, beqb_eq, okeyb_eq, IH. split.
    + intros [[-> ->] [r ->]]. now exists r.
    + intros [r [= -> -> ->]]. repeat split. now exists r.
Qed.

Lemma underb_false p q : underb p q = false <-> ~ below p q.
Proof. rewrite <- underb_spec. destruct (underb p q); split; congruence. Qed.

Lemma lookup_in st p v : NoDup (map fst st) -> (lookup p st = Some v <-> In (p, v) st).
Proof.
  induction st as [|[q w] st IH]; intros ND; cbn; [split; [discriminate | tauto]|].
  inversion ND as [|? ? Hn ND']; subst. destruct (patheqb p q) eqn:E.
  - apply patheqb_eq in E. subst q. split; [intros [= ->]; now left|].
    intros [[= ->]|H]; [reflexivity|]. exfalso. apply Hn, in_map_iff. exists (p, v). auto.
  - rewrite (IH ND'). split; [now right|]. intros [[= -> ->]|H]; [|exact H].
    now rewrite patheqb_refl in E.
Qed.

Lemma lookup_has st p : has st p <-> lookup p st <> None.
Proof.
  induction st as [|[q w] st IH]; cbn.
  - split; [intros [v []] | tauto].
  - destruct (patheqb p q) eqn:E.
    + apply patheqb_eq in E. subst q. split; [discriminate | intros _; exists w; now left].
    + rewrite <- IH. split.
      * intros [v [[= -> ->]|H]]; [now rewrite patheqb_refl in E | now exists v].
      * intros [v H]. exists v. now right.
Qed.

Lemma lookup_none st p : ~ has st p <-> lookup p st = None.
Proof.
  rewrite lookup_has. destruct (lookup p st); split; intros H.
  - exfalso. apply H. discriminate.
  - discriminate.
  - reflexivity.
  - intros F. now apply F.
Qed.

Lemma lookup_app p a b :
  lookup p (a ++ b) = match lookup p a with Some v => Some v | None => lookup p b end.
Proof. induction a as [|[q w] a IH]; cbn; [reflexivity|]. destruct (patheqb p q); auto. Qed.

(** Nodes created on the way. *)
Lemma lookup_ensure st p q :
  lookup q (ensure st p) =
  match lookup q st with Some v => Some v | None => if patheqb q p then Some None else None end.
Proof.
  unfold ensure. destruct (lookup p st) eqn:E.
  - destruct (lookup q st) eqn:F; [reflexivity|]. destruct (patheqb q p) eqn:G; [|reflexivity].
    apply patheqb_eq in G. congruence.
  - rewrite lookup_app. cbn. now destruct (lookup q st).
Qed.

Lemma map_setval st p v :
  map fst (setval p v st) = if existsb (patheqb p) (map fst st) then map fst st else map fst st ++ [p].
Proof.
  induction st as [|[q w] st IH]; cbn; [reflexivity|].
  destruct (patheqb p q) eqn:E; cbn; [reflexivity|]. rewrite IH. now destruct (existsb _ _).
Qed.

Lemma lookup_setval st p v q :
  lookup q (setval p v st) = if patheqb q p then Some v else lookup q st.
Proof.
  induction st as [|[a w] st IH]; cbn.
  - reflexivity.
  - destruct (patheqb p a) eqn:E; cbn.
    + apply patheqb_eq in E. subst a. now destruct (patheqb q p).
    + rewrite IH. destruct (patheqb q a) eqn:F; [|reflexivity].
      apply patheqb_eq in F. subst a. destruct (patheqb q p) eqn:G; [|reflexivity].
      apply patheqb_eq in G. subst. now rewrite patheqb_refl in E.
Qed.

Lemma lookup_fold_ensure l st q :
  lookup q (fold_left ensure l st) =
  match lookup q st with
  | Some v => Some v
  | None => if existsb (patheqb q) l then Some None else None
  end.
Proof.
  revert st. induction l as [|p l IH]; intros st; cbn; [now destruct (lookup q st)|].
  rewrite IH, lookup_ensure. destruct (lookup q st); [reflexivity|].
  now destruct (patheqb q p).
Qed.

Lemma inits_spec p q : In q (inits p) <-> q <> [] /\ below q p.
Proof.
  revert q. induction p as [|s p IH]; intros q; cbn.
  - split; [tauto|]. intros [H [r E]]. destruct q; [tauto | discriminate].
  - rewrite in_map_iff. split.
    + intros [<-|[x [<- H]]].
      * split; [discriminate | now exists p].
      * apply IH in H. destruct H as [_ [r ->]]. split; [discriminate | now exists r].
    + intros [H [r E]]. destruct q as [|s' q]; [tauto|]. injection E as -> ->.
      destruct q as [|t q]; [now left|]. right. exists (t :: q). split; [reflexivity|].
      apply IH. split; [discriminate | now exists r].
Qed.

Lemma existsb_inits p q : existsb (patheqb q) (inits p) = true <-> q <> [] /\ below q p.
Proof.
  rewrite existsb_exists, <- inits_spec. split.
  - intros [x [H E]]. apply patheqb_eq in E. now subst.
  - intros H. exists q. split; [exact H | apply patheqb_refl].
Qed.

(** The nodes of [fold_left ensure] are new only once. *)
Lemma nodup_ensure st p : NoDup (map fst st) -> NoDup (map fst (ensure st p)).
Proof.
  intros ND. unfold ensure. destruct (lookup p st) eqn:E; [exact ND|].
  rewrite map_app. cbn.
  assert (Hn : ~ In p (map fst st)).
  { intros H. apply in_map_iff in H. destruct H as [[q w] [F H]]. cbn in F. subst q.
    apply lookup_none in E. apply E. now exists w. }
  clear E. revert ND Hn. generalize (map fst st). intros l. induction l as [|x l IH]; intros ND Hn; cbn.
  - constructor; [tauto | constructor].
  - inversion ND; subst. constructor.
    + rewrite in_app_iff. cbn. intros [H|[H|[]]]; [tauto|]. apply Hn. now left.
    + apply IH; [assumption|]. intros H. apply Hn. now right.
Qed.

Lemma nodup_fold_ensure l st : NoDup (map fst st) -> NoDup (map fst (fold_left ensure l st)).
Proof. revert st. induction l; intros st H; cbn; [exact H|]. now apply IHl, nodup_ensure. Qed.

Lemma nodup_setval p v st : has st p -> NoDup (map fst st) -> NoDup (map fst (setval p v st)).
Proof.
  intros [w H] ND. rewrite map_setval.
  replace (existsb (patheqb p) (map fst st)) with true; [exact ND|].
  symmetry. apply existsb_exists. exists p. split; [|apply patheqb_refl].
  apply in_map_iff. now exists (p, w).
Qed.

Lemma lookup_free st p q :
  lookup q (lyd_free_tree st p) = if underb p q then None else lookup q st.
Proof.
  unfold lyd_free_tree. induction st as [|[a w] st IH]; cbn; [now destruct (underb p q)|].
  destruct (underb p a) eqn:E; cbn; rewrite IH.
  - destruct (underb p q) eqn:F; [reflexivity|]. destruct (patheqb q a) eqn:G; [|reflexivity].
    apply patheqb_eq in G. congruence.
  - destruct (patheqb q a) eqn:G; [|reflexivity]. apply patheqb_eq in G. subst a. now rewrite E.
Qed.

Lemma nodup_free st p : NoDup (map fst st) -> NoDup (map fst (lyd_free_tree st p)).
Proof.
  unfold lyd_free_tree. induction st as [|[a w] st IH]; cbn; [tauto|].
  intros ND. inversion ND as [|? ? Hn ND']; subst. destruct (underb p a); cbn; [now apply IH|].
  constructor; [|now apply IH]. intros H. apply Hn. apply in_map_iff in H.
  destruct H as [[b u] [E H]]. apply filter_In in H. apply in_map_iff. exists (b, u). tauto.
Qed.

(** * Paths as texts

    A path is written as libyang writes it; read back it names the same nodes if no key has an
    apostrophe. *)
Definition key_name (n : bytes) : bytes := if beqb n (bs "cert-to-name") then bs "id" else bs "name".

Fixpoint print (p : path) : bytes :=
  match p with
  | [] => []
  | (n, None) :: r => "/"%char :: n ++ print r
  | (n, Some k) :: r =>
      "/"%char :: n ++ "["%char :: key_name n ++ "="%char :: "'"%char :: k ++ "'"%char :: "]"%char :: print r
  end.

Definition q_of (s : step) : qstep :=
  match s with
  | (n, None) => (n, [])
  | (n, Some k) => (n, [(key_name n, k)])
  end.

Lemma print_app p q : print (p ++ q) = print p ++ print q.
Proof.
  induction p as [|[n [k|]] p IH]; cbn [print app]; [reflexivity| |].
  - rewrite IH. f_equal. rewrite <- app_assoc. f_equal. cbn [app]. f_equal. rewrite <- app_assoc. f_equal.
    cbn [app]. f_equal. f_equal. rewrite <- app_assoc. reflexivity.
  - rewrite IH. f_equal. now rewrite <- app_assoc.
Qed.

Definition wordb (n : bytes) : bool := negb (empty n) && forallb (fun c => negb (special c)) n.

Lemma special_slash c : special c = false -> Ascii.eqb c "/"%char = false.
Proof. unfold special. rewrite !orb_false_iff. tauto. Qed.
Lemma special_open c : special c = false -> Ascii.eqb c "["%char = false.
Proof. unfold special. rewrite !orb_false_iff. tauto. Qed.
Lemma special_eq c : special c = false -> Ascii.eqb c "="%char = false.
Proof. unfold special. rewrite !orb_false_iff. tauto. Qed.

Lemma ploop_name w d acc r :
  forallb (fun c => negb (special c)) w = true ->
  ploop d (PName acc) (w ++ r) = ploop d (PName (acc ++ w)) r.
Proof.
  revert acc. induction w as [|c w IH]; intros acc H; cbn [app]; [now rewrite app_nil_r|].
  cbn [forallb] in H. apply andb_true_iff in H. destruct H as [H1 H2]. apply negb_true_iff in H1.
  cbn [ploop pstep]. rewrite (special_slash _ H1), (special_open _ H1), H1, (IH _ H2), <- app_assoc. reflexivity.
Qed.

Lemma ploop_key w d n ps acc r :
  forallb (fun c => negb (special c)) w = true ->
  ploop d (PKey n ps acc) (w ++ r) = ploop d (PKey n ps (acc ++ w)) r.
Proof.
  revert acc. induction w as [|c w IH]; intros acc H; cbn [app]; [now rewrite app_nil_r|].
  cbn [forallb] in H. apply andb_true_iff in H. destruct H as [H1 H2]. apply negb_true_iff in H1.
  cbn [ploop pstep]. rewrite (special_eq _ H1), H1, (IH _ H2), <- app_assoc. reflexivity.
Qed.

Lemma ploop_val v d n ps k acc r :
  plain v ->
  ploop d (PVal n ps k "'"%char acc) (v ++ r) = ploop d (PVal n ps k "'"%char (acc ++ v)) r.
Proof.
  revert acc. induction v as [|c v IH]; intros acc H; cbn [app]; [now rewrite app_nil_r|].
  cbn [ploop pstep]. destruct (Ascii.eqb c "'"%char) eqn:E.
  - apply Ascii.eqb_eq in E. subst c. exfalso. apply H. now left.
  - rewrite IH, <- app_assoc; [reflexivity|]. intros F. apply H. now right.
Qed.

Lemma word_ne w : wordb w = true -> empty w = false /\ forallb (fun c => negb (special c)) w = true.
Proof. unfold wordb. rewrite andb_true_iff, negb_true_iff. tauto. Qed.

Lemma key_word n : wordb (key_name n) = true.
Proof. unfold key_name. destruct (beqb _ _); reflexivity. Qed.

Lemma pl_open d n s : empty n = false -> ploop d (PName n) ("["%char :: s) = ploop d (PKey n [] []) s.
Proof. intros H. cbn. now rewrite H. Qed.
Lemma pl_eq d n ps k s : empty k = false -> ploop d (PKey n ps k) ("="%char :: s) = ploop d (PQuote n ps k) s.
Proof. intros H. cbn. now rewrite H. Qed.
Lemma pl_quote d n ps k s : ploop d (PQuote n ps k) ("'"%char :: s) = ploop d (PVal n ps k "'"%char []) s.
Proof. reflexivity. Qed.
Lemma pl_end d n ps k v s : ploop d (PVal n ps k "'"%char v) ("'"%char :: s) = ploop d (PEnd n ps k v) s.
Proof. reflexivity. Qed.
Lemma pl_close d n ps k v s : ploop d (PEnd n ps k v) ("]"%char :: s) = ploop d (PNext n (ps ++ [(k, v)])) s.
Proof. reflexivity. Qed.

(** After the step ["/" name ...]: the rest of the path. *)
Lemma ploop_steps p d n ps m :
  forallb (fun s => wordb (fst s)) p = true -> Forall plain (names p) ->
  (m = PNext n ps \/ (m = PName n /\ ps = [] /\ empty n = false)) ->
  ploop d m (print p) = Some (d ++ (n, ps) :: map q_of p).
Proof.
  revert d n ps m. induction p as [|[w o] p IH]; intros d n ps m W K M.
  - cbn. destruct M as [-> | [-> [-> E]]]; [reflexivity|]. now rewrite E.
  - cbn [forallb fst] in W. apply andb_true_iff in W. destruct W as [W1 W2].
    destruct (word_ne _ W1) as [Wn Wf].
    assert (St : forall s, ploop d m ("/"%char :: s) = ploop (d ++ [(n, ps)]) (PName []) s).
    { intros s. destruct M as [-> | [-> [-> E]]]; cbn [ploop pstep]; [reflexivity|]. now rewrite E. }
    destruct o as [k|]; cbn [print].
    + cbn [names flat_map snd app] in K. inversion K as [|? ? K1 K2]; subst.
      destruct (word_ne _ (key_word w)) as [Kn Kf].
      rewrite St, ploop_name by exact Wf. cbn [app]. rewrite pl_open by exact Wn.
      rewrite ploop_key by exact Kf. cbn [app]. rewrite pl_eq by exact Kn. rewrite pl_quote.
      rewrite ploop_val by exact K1. cbn [app]. rewrite pl_end, pl_close. cbn [app].
      rewrite (IH _ w [(key_name w, k)]) by (auto; now left).
      cbn [map q_of]. now rewrite <- app_assoc.
    + rewrite St, ploop_name by exact Wf. cbn [app].
      rewrite (IH _ w []) by (auto). cbn [map q_of]. now rewrite <- app_assoc.
Qed.

Lemma parse_print s p :
  forallb (fun s => wordb (fst s)) (s :: p) = true -> Forall plain (names (s :: p)) ->
  parse (print (s :: p)) = Some (map q_of (s :: p)).
Proof.
  intros W K. destruct s as [w o]. cbn [forallb fst] in W. apply andb_true_iff in W. destruct W as [W1 W2].
  destruct (word_ne _ W1) as [Wn Wf]. unfold parse. destruct o as [k|]; cbn [print].
  - change (Ascii.eqb "/" "/") with true. cbn iota.
    cbn [names flat_map snd app] in K. inversion K as [|? ? K1 K2]; subst.
    destruct (word_ne _ (key_word w)) as [Kn Kf].
    rewrite ploop_name by exact Wf. cbn [app]. rewrite pl_open by exact Wn.
    rewrite ploop_key by exact Kf. cbn [app]. rewrite pl_eq by exact Kn. rewrite pl_quote.
    rewrite ploop_val by exact K1. cbn [app]. rewrite pl_end, pl_close. cbn [app].
    rewrite (ploop_steps p _ w [(key_name w, k)]) by (auto). reflexivity.
  - change (Ascii.eqb "/" "/") with true. cbn iota. rewrite ploop_name by exact Wf. cbn [app].
    rewrite (ploop_steps p _ w []) by auto. reflexivity.
Qed.

(** A path of the schema whose last node is of the given kind. *)
Definition of_schema (p : path) (kd : kind) : Prop :=
  forallb (fun s => wordb (fst s)) p = true /\ resolve schema [] (map q_of p) = Some (p, kd).

Lemma target_print p kd : of_schema p kd -> Forall plain (names p) -> target (print p) = Some (p, kd).
Proof.
  intros [W R] K. destruct p as [|s p]; [discriminate|]. unfold target.
  now rewrite parse_print.
Qed.

(** * The functions as sequences of settings and removals *)
Inductive op := OSet (p : path) (v : option bytes) | OClear (p : path) | ORemove (p : path).

Definition opath (o : op) : path := match o with OSet p _ | OClear p | ORemove p => p end.

Definition setting (nodes : list (path * option bytes)) : list op := map (fun e => OSet (fst e) (snd e)) nodes.

Definition ops (x : call) : list op :=
  match does x with
  | Sets nodes alts =>
      match x with
      | Persistent _ | Period _ _ | Anchor _ _ | Idle _ _ => map OClear alts ++ setting nodes
      | _ => setting nodes ++ map OClear alts
      end
  | Removes p => [ORemove p]
  | RemovesAll p => [ORemove p]
  | Refused => []
  end.

Section Proofs.
Variable canon : path -> bytes -> option bytes.
Variable okkey : bytes -> bool.
Variable implicit : store -> path -> bool.
Variable single : bool.

Local Notation create := (create canon okkey).
Local Notation append := (append canon okkey).
Local Notation delete := (delete okkey implicit single).
Local Notation check_delete := (check_delete okkey implicit single).
Local Notation run := (run canon okkey implicit single).

Definition once (o : op) : prog :=
  match o with
  | OSet p v => create v (print p)
  | OClear p => check_delete (print p)
  | ORemove p => delete (print p)
  end.

Fixpoint exec (l : list op) : prog :=
  match l with
  | [] => fun s => (s, true)
  | [o] => once o
  | o :: r => seq (once o) (exec r)
  end.

Lemma append_print p child q v :
  "/"%char :: bs child = print q -> append (print p) child v = create v (print (p ++ q)).
Proof.
  intros H. unfold CfgBuild.append. f_equal. rewrite print_app, <- H.
  cbn [pf bs list_ascii_of_string Ascii.eqb]. cbn. now rewrite app_nil_r.
Qed.

Lemma seq_skip (f : prog) s : seq f (fun s => (s, true)) s = f s.
Proof. unfold seq. destruct (f s) as [s' []]; reflexivity. Qed.

Definition not_listen_userref (x : call) : Prop :=
  match x with DelUserRef (Listen _) _ => False | _ => True end.

Ltac pname := match goal with |- context [match ?o with Some _ => _ | None => _ end] => destruct o end.

Lemma run_ops_simple x s :
  match x with
  | AddressPort _ _ _ _ | ChAddressPort _ _ _ _ _ | DelEndpt _ | DelChClient _ | DelChEndpt _ _ | KsKey _ _ _
  | DelKsKey _ | KsCert _ _ _ | DelKsCert _ _ | TsKey _ _ _ | DelTsKey _ _ | TsCert _ _ _ | DelTsCert _ _
  | Persistent _ | Period _ _ | DelPeriod _ | Anchor _ _ | DelAnchor _ | Idle _ _ | DelIdle _
  | DelReconnect _ => True | _ => False end ->
  does x <> Refused -> run x s = exec (ops x) s.
Proof.
  destruct x; intros []; intros H; try reflexivity.
  - destruct t; [reflexivity | reflexivity | now elim H].
  - destruct t; [reflexivity | reflexivity | now elim H].
  - destruct e; reflexivity.
  - destruct c; reflexivity.
  - destruct e; reflexivity.
  - destruct kp as [[[priv fmt] pub]|]; [|destruct t; now elim H].
    destruct t; [reflexivity | reflexivity | now elim H].
  - destruct a; reflexivity.
  - destruct crt; [reflexivity | now elim H].
  - destruct n; reflexivity.
  - destruct pub; [reflexivity | now elim H].
  - destruct k; reflexivity.
  - destruct crt; [reflexivity | now elim H].
  - destruct n; reflexivity.
Qed.

Lemma seq_l (f f' g : prog) s : f s = f' s -> seq f g s = seq f' g s.
Proof. intros H. unfold seq. now rewrite H. Qed.
Lemma seq_r (f g g' : prog) s : (forall s, g s = g' s) -> seq f g s = seq f g' s.
Proof. intros H. unfold seq. destruct (f s) as [s' []]; [apply H | reflexivity]. Qed.
Lemma seq_assoc (f g h : prog) s : seq (seq f g) h s = seq f (seq g h) s.
Proof. unfold seq. destruct (f s) as [s' []]; reflexivity. Qed.

Lemma exec_cons o l s : exec (o :: l) s = seq (once o) (exec l) s.
Proof. destruct l; [|reflexivity]. symmetry. apply seq_skip. Qed.

Lemma exec_app a b s : exec (a ++ b) s = seq (exec a) (exec b) s.
Proof.
  revert s. induction a as [|o a IH]; intros s; [reflexivity|].
  cbn [app]. rewrite exec_cons, (seq_r _ _ _ _ IH), <- seq_assoc. apply seq_l. symmetry. apply exec_cons.
Qed.

Lemma h_clear p q child :
  "/"%char :: bs child = print [q] -> print p ++ "/"%char :: bs child = print (p ++ [q]).
Proof. intros H. now rewrite print_app, H. Qed.

Ltac app q := rewrite (append_print _ _ q) by reflexivity.

Lemma h_hostkey path d kp s :
  path = print d ->
  _add_ssh_hostkey canon okkey implicit single path (Some kp) s =
  exec (setting (pair_at (d ++ [inline]) ssh_format kp) ++ [OClear (d ++ [ksref])]) s.
Proof.
  intros ->. destruct kp as [[priv fmt] pub]. unfold _add_ssh_hostkey, given.
  app [inline; nd "public-key-format"]. app [inline; nd "public-key"].
  app [inline; nd "private-key-format"]. app [inline; nd "cleartext-private-key"].
  change (pf (bs "%s/central-keystore-reference") [print d]) with (print d ++ print [ksref]).
  rewrite <- print_app. unfold pair_at, setting. cbn [map fst snd app exec once].
  rewrite <- !app_assoc. reflexivity.
Qed.

Lemma h_userkey path d v s :
  path = print d ->
  _add_ssh_user_pubkey canon okkey path (Some v) s = exec (setting (pub_at d v)) s.
Proof.
  intros ->. unfold _add_ssh_user_pubkey, given.
  app [nd "public-key-format"]. app [nd "public-key"]. reflexivity.
Qed.

Lemma h_password path d v s :
  path = print d ->
  _add_ssh_user_password canon okkey path (Some v) s = exec [OSet (d ++ [nd "password"]) (Some v)] s.
Proof. intros ->. unfold _add_ssh_user_password, given. app [nd "password"]. reflexivity. Qed.

Lemma h_servercert path d kp v s :
  path = print d ->
  _add_tls_server_cert canon okkey implicit single path (Some kp) (Some v) s =
  exec (setting (pair_at (d ++ [inline]) spki_format kp ++ [(d ++ [inline; nd "cert-data"], Some v)]) ++
        [OClear (d ++ [ksref])]) s.
Proof.
  intros ->. destruct kp as [[priv fmt] pub]. unfold _add_tls_server_cert, given.
  app [inline; nd "public-key-format"]. app [inline; nd "public-key"].
  app [inline; nd "private-key-format"]. app [inline; nd "cleartext-private-key"].
  app [inline; nd "cert-data"].
  change (pf (bs "%s/central-keystore-reference") [print d]) with (print d ++ print [ksref]).
  rewrite <- print_app. unfold pair_at, setting. cbn [map fst snd app exec once].
  rewrite <- !app_assoc. reflexivity.
Qed.

Lemma h_certref path d ar cr s :
  path = print d ->
  _add_tls_keystore_ref canon okkey implicit single path ar cr s =
  exec [OSet (d ++ [ksref; nd "asymmetric-key"]) (Some ar); OSet (d ++ [ksref; nd "certificate"]) (Some cr);
        OClear (d ++ [inline])] s.
Proof.
  intros ->. unfold _add_tls_keystore_ref.
  app [ksref; nd "asymmetric-key"]. app [ksref; nd "certificate"].
  change (pf (bs "%s/inline-definition") [print d]) with (print d ++ print [inline]).
  rewrite <- print_app. reflexivity.
Qed.

Lemma h_clientcert path d v s :
  path = print d ->
  _add_tls_client_cert canon okkey path (Some v) s = exec (setting [(d ++ [nd "cert-data"], Some v)]) s.
Proof. intros ->. unfold _add_tls_client_cert, given. app [nd "cert-data"]. reflexivity. Qed.

Lemma h_ctn path d fp mt name s :
  path = print d -> maptype2str mt <> None ->
  _add_tls_ctn canon okkey path fp mt name s =
  exec (setting (opt fp (fun f => [(d ++ [nd "fingerprint"], Some f)]) [] ++
                 [(d ++ [nd "map-type"], maptype2str mt); (d ++ [nd "name"], Some name)])) s.
Proof.
  intros -> M. unfold _add_tls_ctn, given. destruct (maptype2str mt) as [m|] eqn:E; [|now elim M].
  app [nd "map-type"]. app [nd "name"]. destruct fp; [app [nd "fingerprint"]|]; reflexivity.
Qed.

(** The functions do what they are for, if the text of the path is read as it was meant: all but the
    removal of the reference of a user to the truststore. *)
Theorem run_ops x s : not_listen_userref x -> does x <> Refused -> run x s = exec (ops x) s.
Proof.
  intros NL H. destruct x; try (apply run_ops_simple; [exact Logic.I | exact H]);
    try (destruct l; reflexivity); try reflexivity.
  - (* reconnect-strategy *)
    assert (E : forall v s,
      seq (append (print (strategy c)) "start-with" (Some v))
       (seq (if (max_attempts =? 0)%N then fun s => (s, true)
             else append (print (strategy c)) "max-attempts" (Some (dec max_attempts)))
            (if (max_wait =? 0)%N then fun s => (s, true)
             else append (print (strategy c)) "max-wait" (Some (dec max_wait)))) s =
      exec (setting ((strategy c ++ [nd "start-with"], Some v) ::
                (if (max_attempts =? 0)%N then [] else [(strategy c ++ [nd "max-attempts"], Some (dec max_attempts))]) ++
                (if (max_wait =? 0)%N then [] else [(strategy c ++ [nd "max-wait"], Some (dec max_wait))])) ++ []) s).
    { intros v s0. app [nd "start-with"]. app [nd "max-attempts"]. app [nd "max-wait"].
      unfold setting. cbn [map fst snd]. rewrite app_nil_r. rewrite exec_cons. cbn [once].
      apply seq_r. intros s1. destruct (max_attempts =? 0)%N, (max_wait =? 0)%N; cbn [map app fst snd exec once];
        try reflexivity; apply seq_skip. }
    destruct sw; [| | |now elim H]; cbn [ops does]; rewrite <- E; reflexivity.
  - destruct kp as [kp|]; [|now elim H]. destruct l; cbn [ops does opt]; apply h_hostkey; reflexivity.
  - destruct l, h; reflexivity.
  - destruct pub as [v|]; [|now elim H].
    destruct l; cbn [ops does opt]; rewrite exec_app;
      (rewrite <- (seq_l _ _ _ _ (h_userkey _ _ _ _ eq_refl))); reflexivity.
  - destruct l, k; reflexivity.
  - destruct l; cbn [CfgBuild.run]; unfold add_ssh_user_authkey, add_ch_ssh_user_authkey.
    + change (pf _ [e; u]) with (print (user_keys (Listen e) u)) at 1. app [system]. reflexivity.
    + change (pf _ [c; e; u]) with (print (user_keys (CallHome c e) u)) at 1. app [system]. reflexivity.
  - destruct hash as [v|]; [|now elim H]. destruct l; cbn [ops does opt]; apply h_password; reflexivity.
  - destruct l; cbn [CfgBuild.run]; unfold add_ssh_user_interactive, add_ch_ssh_user_interactive.
    + change (pf _ [e; u]) with (print (keyboard (Listen e) u)). app [nd "use-system-auth"]. reflexivity.
    + change (pf _ [c; e; u]) with (print (keyboard (CallHome c e) u)). app [nd "use-system-auth"]. reflexivity.
  - destruct l, u; reflexivity.
  - destruct l; [now elim NL | reflexivity].
  - destruct kp as [kp|]; [|now elim H]. destruct crt as [v|]; [|now elim H].
    destruct l; cbn [ops does opt]; apply h_servercert; reflexivity.
  - destruct l; cbn [ops does opt]; apply h_certref; reflexivity.
  - destruct crt as [v|]; [|now elim H].
    destruct l; cbn [ops does opt]; rewrite exec_app;
      (rewrite <- (seq_l _ _ _ _ (h_clientcert _ _ _ _ eq_refl))); reflexivity.
  - destruct l, n; reflexivity.
  - destruct crt as [v|]; [|now elim H].
    destruct l; cbn [ops does opt]; rewrite exec_app;
      (rewrite <- (seq_l _ _ _ _ (h_clientcert _ _ _ _ eq_refl))); reflexivity.
  - destruct l, n; reflexivity.
  - destruct (id =? 0)%N eqn:E; [cbn [does] in H; rewrite E in H; now elim H|].
    assert (M : maptype2str mt <> None) by (destruct mt; try discriminate; cbn [does] in H; rewrite E in H; now elim H).
    unfold ops. cbn [does]. rewrite E.
    destruct l; cbn [CfgBuild.run]; unfold add_tls_ctn, add_ch_tls_ctn; rewrite E.
    + rewrite (h_ctn _ (mapping (Listen e) id)) by (reflexivity || exact M).
      destruct mt; try (now rewrite app_nil_r); now elim M.
    + rewrite (h_ctn _ (mapping (CallHome c e) id)) by (reflexivity || exact M).
      destruct mt; try (now rewrite app_nil_r); now elim M.
  - destruct (id =? 0)%N eqn:E; unfold ops; cbn [does]; rewrite E;
      destruct l; cbn [CfgBuild.run]; unfold del_tls_ctn, del_ch_tls_ctn; rewrite E; reflexivity.
Qed.

(** ** One setting or removal *)
Definition taken (p : path) (v : option bytes) : Prop :=
  Forall (fun k => okkey k = true) (names p) /\
  match v with Some w => canon p w <> None | None => True end.

Definition op_ok (o : op) : Prop :=
  match o with
  | OSet p (Some _) => of_schema p Leaf
  | OSet p None => of_schema p Cont
  | OClear p | ORemove p => exists kd, of_schema p kd /\ keyless p kd = false
  end /\ ~ below (opath o) server.

Lemma keys_names p : keys p = names p.
Proof. induction p as [|[n [k|]] p IH]; cbn; rewrite ?IH; reflexivity. Qed.

Lemma okkeys p : forallb okkey (keys p) = true <-> Forall (fun k => okkey k = true) (names p).
Proof. rewrite keys_names, forallb_forall, Forall_forall. reflexivity. Qed.

Definition kept (o : option (option bytes)) : option (option bytes) :=
  match o with Some v => Some v | None => Some None end.

Lemma above_below q p : above q p <-> q <> [] /\ below q p /\ q <> p.
Proof.
  split.
  - intros [H [r [R ->]]]. repeat split; [exact H | now exists r|]. intros E.
    apply R. rewrite <- (app_nil_r q) in E at 1. now apply app_inv_head in E.
  - intros [H [[r ->] N]]. split; [exact H|]. exists r. split; [|reflexivity].
    intros ->. apply N. now rewrite app_nil_r.
Qed.

Lemma below_app_r p q r : below (p ++ r) q -> below p q.
Proof. intros [x ->]. exists (r ++ x). now rewrite app_assoc. Qed.

Lemma below_trans p q r : below p q -> below q r -> below p r.
Proof. intros [x ->] [y ->]. exists (x ++ y). now rewrite app_assoc. Qed.

(** What creating a node does to the tree. *)
Definition created (p : path) (w : option bytes) (st st' : store) : Prop :=
  forall q, lookup q st' =
    if patheqb q p then match w with Some x => Some (Some x) | None => kept (lookup q st) end
    else if existsb (patheqb q) (inits p) then kept (lookup q st) else lookup q st.

Lemma created_leaf p w st :
  created p (Some w) st (setval p (Some w) (fold_left ensure (inits p) st)).
Proof.
  intros q. rewrite lookup_setval, lookup_fold_ensure. destruct (patheqb q p); [reflexivity|].
  unfold kept. destruct (lookup q st), (existsb _ _); reflexivity.
Qed.

Lemma created_cont p st : p <> [] -> created p None st (fold_left ensure (inits p) st).
Proof.
  intros Hp q. rewrite lookup_fold_ensure. unfold kept. destruct (patheqb q p) eqn:E.
  - apply patheqb_eq in E. subst q.
    replace (existsb (patheqb p) (inits p)) with true
      by (symmetry; apply existsb_inits; split; [exact Hp | exists []; now rewrite app_nil_r]).
    now destruct (lookup p st).
  - destruct (lookup q st), (existsb _ _); reflexivity.
Qed.

Lemma kept_some o : kept o <> None.
Proof. destruct o; discriminate. Qed.

Lemma created_tree p w st st' :
  p <> [] -> NoDup (map fst st') -> created p w st st' -> tree st -> tree st'.
Proof.
  intros Hp ND C T. split; [|exact ND]. intros a b Ha Hb.
  apply lookup_has. apply lookup_has in Ha. rewrite C in Ha |- *.
  destruct (patheqb b p) eqn:E1; [destruct w; [discriminate | apply kept_some]|].
  destruct (existsb (patheqb b) (inits p)) eqn:E2; [apply kept_some|].
  assert (Hst : lookup a st <> None).
  { destruct (patheqb a p) eqn:E3.
    - apply patheqb_eq in E3. subst a. exfalso. apply above_below in Hb. destruct Hb as [B1 [B2 _]].
      assert (existsb (patheqb b) (inits p) = true) by (apply existsb_inits; tauto). congruence.
    - destruct (existsb (patheqb a) (inits p)) eqn:E4; [|exact Ha].
      apply existsb_inits in E4. destruct E4 as [_ E4]. apply above_below in Hb. destruct Hb as [B1 [B2 _]].
      assert (existsb (patheqb b) (inits p) = true)
        by (apply existsb_inits; split; [exact B1 | exact (below_trans _ _ _ B2 E4)]).
      congruence. }
  apply lookup_has. apply lookup_has in Hst. exact (tr_parents _ T _ _ Hst Hb).
Qed.

Lemma created_has p w st st' q : created p w st st' -> has st q -> has st' q.
Proof.
  intros C H. apply lookup_has. apply lookup_has in H. rewrite C.
  destruct (patheqb q p); [destruct w; [discriminate | apply kept_some]|].
  destruct (existsb _ _); [apply kept_some | exact H].
Qed.

Lemma created_new p w st st' q : created p w st st' -> q <> [] -> below q p -> has st' q.
Proof.
  intros C N B. apply lookup_has. rewrite C.
  destruct (patheqb q p); [destruct w; [discriminate | apply kept_some]|].
  replace (existsb (patheqb q) (inits p)) with true by (symmetry; now apply existsb_inits).
  apply kept_some.
Qed.

Definition of (st : store) (lost : list store) : cstate := {| c_tree := Some st; c_lost := lost |}.

Lemma set_top_server st s : has st server -> set_top st s = (of st (c_lost s), true).
Proof.
  intros H. unfold set_top. apply lookup_has in H. change top with server.
  destruct (lookup server st); [reflexivity | now elim H].
Qed.

Lemma schema_ne p kd : of_schema p kd -> p <> [].
Proof. intros [_ R] ->. discriminate. Qed.

Lemma below_server_ne p : below server p -> p <> [].
Proof. intros [r ->]. discriminate. Qed.

(** nc_server_config_create() of a node of netconf-server. *)
Lemma create_spec p v s :
  op_ok (OSet p v) -> Forall plain (names p) ->
  match c_tree s with
  | Some st => tree st /\ (has st server \/ below server p)
  | None => below server p
  end ->
  (exists st', create v (print p) s = (of st' (c_lost s), true) /\ taken p v /\
    created p (match v with Some w => canon p w | None => None end)
            (match c_tree s with Some st => st | None => [] end) st' /\ config st') \/
  (create v (print p) s = (s, false) /\ ~ taken p v).
Proof.
  intros [OK NS] PL TR. set (st := match c_tree s with Some st => st | None => [] end).
  assert (T : tree st).
  { unfold st. destruct (c_tree s); [exact (proj1 TR)|]. split; [intros p0 q [x []] | constructor]. }
  assert (SV : has st server \/ below server p).
  { unfold st. destruct (c_tree s); [exact (proj2 TR) | now right]. }
  assert (Kd : exists kd, of_schema p kd /\ (kd = Leaf /\ (exists w, v = Some w) \/ kd = Cont /\ v = None)).
  { destruct v as [w|]; [exists Leaf | exists Cont]; split; try exact OK; [left; eauto | right; auto]. }
  destruct Kd as [kd [OS Kd]].
  assert (KL : keyless p kd = false) by (destruct Kd as [[-> _]|[-> _]]; reflexivity).
  unfold CfgBuild.create, lyd_new_path. fold st. rewrite (target_print _ _ OS PL), KL. cbn [orb].
  destruct (forallb okkey (keys p)) eqn:EK; cbn [negb].
  2: { right. split; [reflexivity|]. intros [F _]. apply okkeys in F. congruence. }
  apply okkeys in EK.
  destruct Kd as [[-> [w ->]]|[-> ->]].
  - destruct (canon p w) as [x|] eqn:EC.
    2: { right. split; [reflexivity|]. intros [_ F]. now apply F. }
    left. set (st' := setval p (Some x) (fold_left ensure (inits p) st)).
    assert (C : created p (Some x) st st') by apply created_leaf.
    assert (N0 : NoDup (map fst st')).
    { apply nodup_setval; [|apply nodup_fold_ensure, (tr_once _ T)].
      apply lookup_has. rewrite lookup_fold_ensure.
      replace (existsb (patheqb p) (inits p)) with true
        by (symmetry; apply existsb_inits; split; [exact (schema_ne _ _ OS) | exists []; now rewrite app_nil_r]).
      destruct (lookup p st); discriminate. }
    assert (HS : has st' server) by (destruct SV as [SV|SV]; [exact (created_has _ _ _ _ _ C SV) |
        apply (created_new _ _ _ _ _ C); [discriminate | exact SV]]).
    exists st'. rewrite set_top_server by exact HS. repeat split; auto.
    + rewrite EC. discriminate.
    + exact (tr_parents _ (created_tree _ _ _ _ (schema_ne _ _ OS) N0 C T)).
  - left. set (st' := fold_left ensure (inits p) st).
    assert (C : created p None st st') by apply created_cont, (schema_ne _ _ OS).
    assert (N0 : NoDup (map fst st')) by apply nodup_fold_ensure, (tr_once _ T).
    assert (HS : has st' server) by (destruct SV as [SV|SV]; [exact (created_has _ _ _ _ _ C SV) |
        apply (created_new _ _ _ _ _ C); [discriminate | exact SV]]).
    exists st'. rewrite set_top_server by exact HS. repeat split; auto.
    exact (tr_parents _ (created_tree _ _ _ _ (schema_ne _ _ OS) N0 C T)).
Qed.

Definition freed (p : path) (st st' : store) : Prop :=
  forall q, lookup q st' = if underb p q then None else lookup q st.

Lemma freed_config p st st' :
  ~ below p server -> NoDup (map fst st') -> freed p st st' -> config st -> config st'.
Proof.
  intros NS ND F [T S]. split.
  - split; [|exact ND]. intros a b Ha Hb. apply lookup_has. apply lookup_has in Ha. rewrite F in Ha |- *.
    destruct (underb p a) eqn:E; [now elim Ha|].
    replace (underb p b) with false.
    + apply lookup_has. apply lookup_has in Ha. exact (tr_parents _ T _ _ Ha Hb).
    + symmetry. apply underb_false. apply underb_false in E. intros B. apply E.
      apply above_below in Hb. exact (below_trans _ _ _ B (proj1 (proj2 Hb))).
  - apply lookup_has. rewrite F. apply underb_false in NS. rewrite NS. now apply lookup_has.
Qed.

Lemma free_freed p st : freed p st (lyd_free_tree st p).
Proof. intros q. apply lookup_free. Qed.

(** A node that is not in the tree has no descendants there. *)
Lemma absent_freed p st : p <> [] -> tree st -> ~ has st p -> freed p st st.
Proof.
  intros Hp T N q. destruct (underb p q) eqn:E; [|reflexivity]. apply lookup_none. intros H.
  apply underb_spec in E. destruct (path_dec p q) as [->|D]; [now apply N|].
  apply N, (tr_parents _ T q); [exact H|]. apply above_below. auto.
Qed.

Definition present (st : store) (p : path) : Prop := has st p \/ implicit st p = true.

Lemma find_spec p kd st :
  of_schema p kd -> keyless p kd = false -> Forall plain (names p) ->
  lyd_find_path okkey implicit single st (print p) =
  if negb (forallb okkey (keys p)) then FError
  else match lookup p st with
       | Some _ => FNode p
       | None => if implicit st p then FNode p else FNone
       end.
Proof.
  intros OS KL PL. unfold lyd_find_path. rewrite (target_print _ _ OS PL), KL. reflexivity.
Qed.

(** nc_server_config_check_delete(). *)
Lemma clear_spec p st lost :
  op_ok (OClear p) -> Forall plain (names p) -> config st ->
  (exists st', check_delete (print p) (of st lost) = (of st' lost, true) /\
    Forall (fun k => okkey k = true) (names p) /\ freed p st st' /\ config st') \/
  (check_delete (print p) (of st lost) = (of st lost, false) /\ ~ Forall (fun k => okkey k = true) (names p)).
Proof.
  intros [[kd [OS KL]] NS] PL C. unfold CfgBuild.check_delete. cbn [c_tree of].
  rewrite (find_spec _ _ _ OS KL PL). cbn [opath] in NS.
  destruct (forallb okkey (keys p)) eqn:EK; cbn [negb].
  2: { right. split; [reflexivity|]. intros F. apply okkeys in F. congruence. }
  apply okkeys in EK. left.
  assert (FR : exists st', set_top (lyd_free_tree st p) (of st lost) = (of st' lost, true) /\ freed p st st' /\ config st').
  { exists (lyd_free_tree st p).
    assert (C' : config (lyd_free_tree st p)).
    { apply (freed_config p st); [exact NS | apply nodup_free, (tr_once _ (proj1 C)) | apply free_freed | exact C]. }
    split; [|split; [apply free_freed | exact C']]. now rewrite set_top_server by apply C'. }
  destruct FR as [st' [E [F C']]].
  destruct (lookup p st) eqn:EL; [exists st'; auto|].
  destruct (implicit st p); [exists st'; auto|].
  exists st. repeat split; try exact EK; try apply C.
  apply absent_freed; [exact (schema_ne _ _ OS) | apply C | now apply lookup_none].
Qed.

(** nc_server_config_delete(). *)
Lemma remove_spec p st lost :
  op_ok (ORemove p) -> Forall plain (names p) -> config st ->
  (exists st', delete (print p) (of st lost) = (of st' lost, true) /\
    Forall (fun k => okkey k = true) (names p) /\ present st p /\ freed p st st' /\ config st') \/
  (delete (print p) (of st lost) = (of st lost, false) /\
   ~ (Forall (fun k => okkey k = true) (names p) /\ present st p)).
Proof.
  intros [[kd [OS KL]] NS] PL C. unfold CfgBuild.delete. cbn [c_tree of].
  rewrite (find_spec _ _ _ OS KL PL). cbn [opath] in NS.
  destruct (forallb okkey (keys p)) eqn:EK; cbn [negb].
  2: { right. split; [reflexivity|]. intros [F _]. apply okkeys in F. congruence. }
  apply okkeys in EK.
  assert (FR : exists st', set_top (lyd_free_tree st p) (of st lost) = (of st' lost, true) /\ freed p st st' /\ config st').
  { exists (lyd_free_tree st p).
    assert (C' : config (lyd_free_tree st p)).
    { apply (freed_config p st); [exact NS | apply nodup_free, (tr_once _ (proj1 C)) | apply free_freed | exact C]. }
    split; [|split; [apply free_freed | exact C']]. now rewrite set_top_server by apply C'. }
  destruct FR as [st' [E [F C']]].
  destruct (lookup p st) eqn:EL.
  - left. exists st'. repeat split; auto; try apply C'. left. apply lookup_has. congruence.
  - destruct (implicit st p) eqn:EI.
    + left. exists st'. repeat split; auto; try apply C'. now right.
    + right. split; [reflexivity|]. intros [_ [H|H]]; [|congruence]. apply lookup_has in H. congruence.
Qed.

(** ** Sequences *)
Definition accepted (o : op) : Prop :=
  match o with
  | OSet p v => taken p v
  | OClear p | ORemove p => Forall (fun k => okkey k = true) (names p)
  end.

Definition adding (o : op) : Prop := match o with ORemove _ => False | _ => True end.

Definition untouched (l : list op) (q : path) : Prop :=
  (forall p v, In (OSet p v) l -> ~ (q <> [] /\ below q p)) /\ (forall p, In (OClear p) l -> ~ below p q).

Definition not_cleared (l : list op) (q : path) : Prop := forall p, In (OClear p) l -> ~ below p q.

Record effect (l : list op) (st : store) (ok : bool) (st' : store) : Prop := {
  ef_config : config st';
  ef_rest : forall q, untouched l q -> lookup q st' = lookup q st;
  ef_keep : forall q u, lookup q st = Some u -> not_cleared l q -> (forall v, ~ In (OSet q (Some v)) l) ->
      lookup q st' = Some u;
  ef_has : forall q, has st q -> not_cleared l q -> has st' q;
  ef_set : ok = true -> forall p w, In (OSet p (Some w)) l ->
      (forall w', In (OSet p (Some w')) l -> w' = w) -> not_cleared l p -> lookup p st' = Some (canon p w);
  ef_new : ok = true -> forall p v q, In (OSet p v) l -> q <> [] -> below q p -> not_cleared l q -> has st' q;
  ef_none : forall q, ~ has st q -> (forall p v, In (OSet p v) l -> ~ below q p) -> ~ has st' q;
  ef_cleared : ok = true -> forall a q, In (OClear a) l -> below a q ->
      (forall p v, In (OSet p v) l -> ~ below q p) -> ~ has st' q;
}.

Lemma effect_nil st : config st -> effect [] st true st.
Proof. intros C. split; auto; cbn; tauto. Qed.

Lemma effect_stop o l st : config st -> effect (o :: l) st false st.
Proof. intros C. split; auto; discriminate. Qed.

Lemma not_cleared_cons o l q : not_cleared (o :: l) q -> not_cleared l q.
Proof. intros H p I. apply H. now right. Qed.
Lemma untouched_cons o l q : untouched (o :: l) q -> untouched l q.
Proof. intros [A B]. split; intros; [apply (A p v); now right | apply B; now right]. Qed.

Lemma effect_set p v l st st1 ok st' :
  p <> [] -> taken p v -> created p (match v with Some w => canon p w | None => None end) st st1 ->
  effect l st1 ok st' -> effect (OSet p v :: l) st ok st'.
Proof.
  intros Hp TK C E. set (w0 := match v with Some w => canon p w | None => None end) in *.
  assert (Hself : has st1 p) by (apply (created_new _ _ _ _ _ C Hp); exists []; now rewrite app_nil_r).
  split.
  - apply (ef_config _ _ _ _ E).
  - intros q U. rewrite (ef_rest _ _ _ _ E) by exact (untouched_cons _ _ _ U).
    destruct U as [U _]. specialize (U p v (or_introl eq_refl)). rewrite C.
    destruct (patheqb q p) eqn:E1.
    { exfalso. apply patheqb_eq in E1. subst q. apply U. split; [exact Hp | exists []; now rewrite app_nil_r]. }
    destruct (existsb (patheqb q) (inits p)) eqn:E2; [|reflexivity].
    apply existsb_inits in E2. tauto.
  - intros q u L N V. apply (ef_keep _ _ _ _ E); [|exact (not_cleared_cons _ _ _ N)|].
    2: { intros v' I. apply (V v'). now right. }
    rewrite C. destruct (patheqb q p) eqn:E1.
    { apply patheqb_eq in E1. subst q. destruct v as [w|]; [exfalso; apply (V w); now left|].
      unfold w0. now rewrite L. }
    destruct (existsb _ _); [|exact L]. now rewrite L.
  - intros q H N. apply (ef_has _ _ _ _ E); [exact (created_has _ _ _ _ _ C H) | exact (not_cleared_cons _ _ _ N)].
  - intros -> q w I U N.
    destruct (in_dec (fun a b : path * option bytes => ltac:(decide equality; [decide equality; apply (list_eq_dec ascii_dec) | apply path_dec]))
                (q, Some w) (flat_map (fun o => match o with OSet a b => [(a, b)] | _ => [] end) l)) as [J|J].
    + apply (ef_set _ _ _ _ E eq_refl).
      * apply in_flat_map in J. destruct J as [o [J1 J2]]. destruct o; cbn in J2; try tauto.
        destruct J2 as [[= -> ->]|[]]. exact J1.
      * intros w' I'. apply U. now right.
      * exact (not_cleared_cons _ _ _ N).
    + destruct I as [[= -> ->]|I].
      2: { exfalso. apply J, in_flat_map. exists (OSet q (Some w)). split; [exact I | now left]. }
      assert (L : lookup q st1 = Some (canon q w)).
      { rewrite C, patheqb_refl. unfold w0. destruct TK as [_ TK]. destruct (canon q w); [reflexivity | now elim TK]. }
      apply (ef_keep _ _ _ _ E); [exact L | exact (not_cleared_cons _ _ _ N)|].
      intros v' I'. assert (v' = w) by (apply U; now right). subst v'.
      apply J, in_flat_map. exists (OSet q (Some w)). split; [exact I' | now left].
  - intros -> a b q [[= <- <-]|I] Q B N.
    + apply (ef_has _ _ _ _ E); [|exact (not_cleared_cons _ _ _ N)]. exact (created_new _ _ _ _ _ C Q B).
    + exact (ef_new _ _ _ _ E eq_refl a b q I Q B (not_cleared_cons _ _ _ N)).
  - intros q H U. apply (ef_none _ _ _ _ E); [|intros a b I; apply (U a b); now right].
    specialize (U p v (or_introl eq_refl)). apply lookup_none. apply lookup_none in H. rewrite C.
    destruct (patheqb q p) eqn:E1.
    { exfalso. apply patheqb_eq in E1. subst q. apply U. exists []. now rewrite app_nil_r. }
    destruct (existsb (patheqb q) (inits p)) eqn:E2; [|exact H]. apply existsb_inits in E2. tauto.
  - intros -> a q [I|I] B U; [discriminate|].
    apply (ef_cleared _ _ _ _ E eq_refl a q I B). intros p' v' I'. apply (U p' v'). now right.
Qed.

Lemma effect_clear p l st st1 ok st' :
  freed p st st1 -> effect l st1 ok st' -> effect (OClear p :: l) st ok st'.
Proof.
  intros F E.
  assert (NC : forall q, not_cleared (OClear p :: l) q -> lookup q st1 = lookup q st).
  { intros q N. rewrite F. specialize (N p (or_introl eq_refl)). apply underb_false in N. now rewrite N. }
  split.
  - apply (ef_config _ _ _ _ E).
  - intros q U. rewrite (ef_rest _ _ _ _ E) by exact (untouched_cons _ _ _ U). apply NC. exact (proj2 U).
  - intros q u L N V. apply (ef_keep _ _ _ _ E); [now rewrite NC | exact (not_cleared_cons _ _ _ N)|].
    intros v I. apply (V v). now right.
  - intros q H N. apply (ef_has _ _ _ _ E); [|exact (not_cleared_cons _ _ _ N)].
    apply lookup_has. rewrite NC by exact N. now apply lookup_has.
  - intros -> q w [I|I] U N; [discriminate|]. apply (ef_set _ _ _ _ E eq_refl); [exact I | | exact (not_cleared_cons _ _ _ N)].
    intros w' I'. apply U. now right.
  - intros -> a b q [I|I] Q B N; [discriminate|].
    exact (ef_new _ _ _ _ E eq_refl a b q I Q B (not_cleared_cons _ _ _ N)).
  - intros q H U. apply (ef_none _ _ _ _ E); [|intros a b I; apply (U a b); now right].
    apply lookup_none. apply lookup_none in H. rewrite F. now destruct (underb p q).
  - intros -> a q [[= <-]|I] B U.
    + apply (ef_none _ _ _ _ E); [|intros a' b I; apply (U a' b); now right].
      apply lookup_none. rewrite F. apply underb_spec in B. now rewrite B.
    + apply (ef_cleared _ _ _ _ E eq_refl a q I B). intros p' v' I'. apply (U p' v'). now right.
Qed.

Lemma exec_effect l st lost :
  Forall op_ok l -> Forall adding l -> Forall (fun o => Forall plain (names (opath o))) l -> config st ->
  exists st' ok, exec l (of st lost) = (of st' lost, ok) /\ effect l st ok st' /\
                 (ok = true <-> Forall accepted l).
Proof.
  revert st. induction l as [|o l IH]; intros st OK AD PL C.
  - exists st, true. split; [reflexivity|]. split; [now apply effect_nil|]. split; auto.
  - inversion OK as [|? ? O1 O2]; inversion AD as [|? ? A1 A2]; inversion PL as [|? ? P1 P2]; subst.
    rewrite exec_cons. unfold seq. destruct o as [p v|p|p]; [| |now elim A1]; cbn [once opath] in *.
    + assert (Hp : p <> []).
      { destruct O1 as [O1 _]. destruct v; exact (schema_ne _ _ O1). }
      destruct (create_spec p v (of st lost)) as [[st1 [E [TK [CR C1]]]]|[E NT]]; try assumption.
      * cbn [c_tree of]. split; [apply C | left; apply C].
      * rewrite E. cbn [c_lost of]. destruct (IH st1 O2 A2 P2 C1) as [st' [ok [E' [EF OKI]]]].
        exists st', ok. split; [exact E'|]. split; [exact (effect_set _ _ _ _ _ _ _ Hp TK CR EF)|].
        rewrite OKI. split; [constructor; [exact TK | assumption] | intros F; now inversion F].
      * rewrite E. exists st, false. split; [reflexivity|]. split; [now apply effect_stop|].
        split; [discriminate|]. intros F. inversion F; subst. now elim NT.
    + destruct (clear_spec p st lost) as [[st1 [E [KO [FR C1]]]]|[E NT]]; try assumption.
      * rewrite E. destruct (IH st1 O2 A2 P2 C1) as [st' [ok [E' [EF OKI]]]].
        exists st', ok. split; [exact E'|]. split; [exact (effect_clear _ _ _ _ _ _ FR EF)|].
        rewrite OKI. split; [constructor; [exact KO | assumption] | intros F; now inversion F].
      * rewrite E. exists st, false. split; [reflexivity|]. split; [now apply effect_stop|].
        split; [discriminate|]. intros F. inversion F; subst. now elim NT.
Qed.

(** ** The settings of each call *)
Fixpoint prefixb (a b : list bytes) : bool :=
  match a, b with
  | [], _ => true
  | x :: a, y :: b => beqb x y && prefixb a b
  | _ :: _, [] => false
  end.

(** A path whose names do not begin with those of another is not below it. *)
Lemma names_apart p q : prefixb (map fst p) (map fst q) = false -> ~ below p q.
Proof.
  intros F [r ->]. rewrite map_app in F. induction p as [|[n k] p IH]; cbn in F; [discriminate|].
  rewrite beqb_refl in F. now apply IH.
Qed.

Ltac nobelow := apply names_apart; reflexivity.

Ltac cases :=
  repeat match goal with
  | l : place |- _ => destruct l
  | t : transport |- _ => destruct t
  | sw : start_with |- _ => destruct sw
  | mt : maptype |- _ => destruct mt
  | o : option pair |- _ => destruct o as [[[? ?] ?]|]
  | o : option bytes |- _ => destruct o
  end;
  unfold ops; cbn [does opt for_ one_or_all]; try exact Logic.I;
  repeat match goal with |- context [(?n =? 0)%N] => destruct (n =? 0)%N; cbn [one_or_all]; try exact Logic.I end;
  cbn [setting map app fst snd pair_at pub_at type_name].

Ltac calls x := destruct x; cases.

(** No path of the list is below another one. *)
Fixpoint apartb (l : list path) : bool :=
  match l with
  | [] => true
  | p :: l => forallb (fun q => negb (prefixb (map fst p) (map fst q)) && negb (prefixb (map fst q) (map fst p))) l
              && apartb l
  end.

Lemma ops_ok x :
  match does x with Sets _ _ | Removes _ => Forall op_ok (ops x) | _ => True end.
Proof.
  assert (A1 : forall p v, of_schema p Leaf -> ~ below p server -> op_ok (OSet p (Some v))) by (split; auto).
  assert (A2 : forall p, of_schema p Cont -> ~ below p server -> op_ok (OSet p None)) by (split; auto).
  assert (A3 : forall p kd, of_schema p kd -> keyless p kd = false -> ~ below p server -> op_ok (OClear p)).
  { intros. split; [exists kd|]; auto. }
  assert (A4 : forall p kd, of_schema p kd -> keyless p kd = false -> ~ below p server -> op_ok (ORemove p)).
  { intros. split; [exists kd|]; auto. }
  calls x; repeat match goal with |- Forall _ _ => constructor end;
    match goal with
    | |- op_ok (OSet _ (Some _)) => apply A1; [split; reflexivity | nobelow]
    | |- op_ok (OSet _ None) => apply A2; [split; reflexivity | nobelow]
    | |- op_ok (OClear _) => eapply A3; [split; reflexivity | reflexivity | nobelow]
    | |- op_ok (ORemove _) => eapply A4; [split; reflexivity | reflexivity | nobelow]
    | |- _ => idtac
    end.
Qed.

(** The nodes set by a call are not below one another, nor below the alternatives that it removes; the
    alternatives are in the same list entries. *)
Lemma ops_apart x :
  match does x with
  | Sets nodes alts =>
      apartb (map fst nodes) = true /\
      forallb (fun a => forallb (fun n => negb (prefixb (map fst a) (map fst (fst n)))) nodes) alts = true /\
      Forall (fun a => Exists (fun n => incl (names a) (names (fst n))) nodes) alts
  | _ => True
  end.
Proof.
  calls x; (split; [reflexivity|split; [reflexivity|]]); 
    repeat match goal with
           | |- Forall _ _ => constructor
           | |- Exists _ _ => apply Exists_cons_hd
           end; intros z K; cbn in K |- *; tauto.
Qed.

Lemma apart_nodes l p q : apartb l = true -> In p l -> In q l -> below p q -> p = q.
Proof.
  induction l as [|a l IH]; [intros _ []|]. cbn [apartb In]. intros A P Q B.
  apply andb_true_iff in A. destruct A as [A A']. rewrite forallb_forall in A.
  destruct P as [->|P], Q as [<-|Q]; auto.
  - apply A, andb_true_iff in Q. destruct Q as [Q _]. apply negb_true_iff in Q. now elim (names_apart _ _ Q).
  - apply A, andb_true_iff in P. destruct P as [_ P]. apply negb_true_iff in P. now elim (names_apart _ _ P).
Qed.

Lemma apart_once (l : list (path * option bytes)) p v w :
  apartb (map fst l) = true -> In (p, v) l -> In (p, w) l -> v = w.
Proof.
  induction l as [|a l IH]; [intros _ []|]. cbn [map apartb In]. intros A P Q.
  apply andb_true_iff in A. destruct A as [A A']. rewrite forallb_forall in A.
  assert (N : forall u, ~ In (fst a, u) l).
  { intros u I. assert (I' : In (fst a) (map fst l)) by now apply (in_map fst) in I.
    apply A, andb_true_iff in I'. destruct I' as [I' _]. apply negb_true_iff in I'.
    apply (names_apart _ _ I'). exists []. now rewrite app_nil_r. }
  destruct P as [->|P], Q as [Q|Q]; auto; cbn in N.
  - congruence.
  - now elim (N w).
  - subst a. now elim (N v).
Qed.

Lemma in_setting p v l : In (OSet p v) (setting l) <-> In (p, v) l.
Proof.
  unfold setting. rewrite in_map_iff. split.
  - intros [[q w] [E I]]. cbn in E. inversion E. now subst.
  - intros I. now exists (p, v).
Qed.

Lemma in_ops x nodes alts : does x = Sets nodes alts ->
  forall o, In o (ops x) <-> In o (setting nodes) \/ In o (map OClear alts).
Proof.
  intros D o. unfold ops. rewrite D.
  destruct x; rewrite in_app_iff; tauto.
Qed.

Lemma ops_set x nodes alts p v : does x = Sets nodes alts -> In (OSet p v) (ops x) <-> In (p, v) nodes.
Proof.
  intros D. rewrite (in_ops _ _ _ D), in_setting. split; [|tauto]. intros [H|H]; [exact H|].
  apply in_map_iff in H. destruct H as [a [E _]]. discriminate.
Qed.

Lemma ops_clear x nodes alts a : does x = Sets nodes alts -> In (OClear a) (ops x) <-> In a alts.
Proof.
  intros D. rewrite (in_ops _ _ _ D). split.
  - intros [H|H]; apply in_map_iff in H; destruct H as [b [E H]]; [discriminate|]. now inversion E; subst.
  - intros H. right. now apply in_map.
Qed.

Definition plain_nodes (nodes : list (path * option bytes)) : Prop :=
  forall p v, In (p, v) nodes -> Forall plain (names p).

Lemma alt_below x nodes alts a p v : does x = Sets nodes alts -> In a alts -> In (p, v) nodes -> ~ below a p.
Proof.
  intros D A P. pose proof (ops_apart x) as H. rewrite D in H. destruct H as [_ [H _]].
  rewrite forallb_forall in H. specialize (H a A). rewrite forallb_forall in H. specialize (H _ P).
  apply negb_true_iff in H. now apply names_apart.
Qed.

Lemma alt_names x nodes alts a (P : bytes -> Prop) :
  does x = Sets nodes alts -> In a alts -> (forall p v, In (p, v) nodes -> Forall P (names p)) ->
  Forall P (names a).
Proof.
  intros D A F. pose proof (ops_apart x) as H. rewrite D in H. destruct H as [_ [_ H]].
  rewrite Forall_forall in H. specialize (H a A). apply Exists_exists in H. destruct H as [[p v] [I J]].
  specialize (F p v I). rewrite Forall_forall in F |- *. intros k K. apply F, J, K.
Qed.

Lemma sets_not_userref x nodes alts : does x = Sets nodes alts -> not_listen_userref x.
Proof. destruct x; try exact (fun _ => Logic.I). discriminate. Qed.

Lemma ops_adding x nodes alts : does x = Sets nodes alts -> Forall adding (ops x).
Proof.
  intros D. apply Forall_forall. intros [| |a] I; try exact Logic.I. apply (in_ops _ _ _ D) in I.
  destruct I as [I|I]; apply in_map_iff in I; destruct I as [? [E _]]; discriminate.
Qed.

Lemma ops_plain x nodes alts : does x = Sets nodes alts -> plain_nodes nodes ->
  Forall (fun o => Forall plain (names (opath o))) (ops x).
Proof.
  intros D PL. apply Forall_forall. intros [p v|a|a] I; cbn [opath].
  - apply (ops_set _ _ _ _ _ D) in I. exact (PL _ _ I).
  - apply (ops_clear _ _ _ _ D) in I. exact (alt_names _ _ _ _ _ D I PL).
  - pose proof (ops_adding _ _ _ D) as AD. rewrite Forall_forall in AD. now elim (AD _ I).
Qed.

Lemma ops_accepted x nodes alts : does x = Sets nodes alts ->
  (Forall accepted (ops x) <-> forall p v, In (p, v) nodes -> taken p v).
Proof.
  intros D. split.
  - intros F p v I. rewrite Forall_forall in F. apply (ops_set _ _ _ _ _ D) in I. exact (F _ I).
  - intros T. apply Forall_forall. intros [p v|a|a] I; cbn [accepted].
    + apply T. now apply (ops_set _ _ _ _ _ D).
    + apply (ops_clear _ _ _ _ D) in I. apply (alt_names _ _ _ _ _ D I). intros p v J. exact (proj1 (T p v J)).
    + pose proof (ops_adding _ _ _ D) as AD. rewrite Forall_forall in AD. now elim (AD _ I).
Qed.

(** * C155: adding to a configuration

    [taken p v]: libyang takes the names in [p] and the value [v] for the leaf [p]. *)
Theorem c155_add_partial x nodes alts st lost :
  does x = Sets nodes alts -> plain_nodes nodes -> config st ->
  exists st' ok,
    run x (of st lost) = (of st' lost, ok) /\ config st' /\
    (ok = true <-> forall p v, In (p, v) nodes -> taken p v) /\
    (ok = true ->
       (forall p w, In (p, Some w) nodes -> value st' p = Some (canon p w)) /\
       (forall p v q, In (p, v) nodes -> q <> [] -> below q p -> has st' q) /\
       (forall a q, In a alts -> below a q -> ~ has st' q)) /\
    (forall p v q, In (p, v) nodes -> above q p -> has st q -> value st' q = value st q) /\
    (forall q, (forall p v, In (p, v) nodes -> ~ (q <> [] /\ below q p)) ->
               (forall a, In a alts -> ~ below a q) -> value st' q = value st q).
Proof.
  intros D PL C. pose proof (ops_ok x) as OK. rewrite D in OK.
  pose proof (ops_apart x) as AP. rewrite D in AP. destruct AP as [AP _].
  assert (SE : forall p v, In (OSet p v) (ops x) <-> In (p, v) nodes) by (intros; now apply (ops_set x nodes alts)).
  assert (CL : forall a, In (OClear a) (ops x) <-> In a alts) by (intros; now apply (ops_clear x nodes alts)).
  pose proof (ops_adding _ _ _ D) as AD. pose proof (ops_plain _ _ _ D PL) as PL'.
  destruct (exec_effect (ops x) st lost OK AD PL' C) as [st' [ok [E [EF OKI]]]].
  exists st', ok. split.
  { rewrite run_ops; [exact E | exact (sets_not_userref _ _ _ D) | congruence]. }
  assert (NCl : forall p v q, In (p, v) nodes -> below q p -> not_cleared (ops x) q).
  { intros p v q I B a A Ba. apply CL in A. apply (alt_below _ _ _ _ _ _ D A I). exact (below_trans _ _ _ Ba B). }
  split; [apply EF|]. split; [|split; [|split]].
  - rewrite OKI. exact (ops_accepted _ _ _ D).
  - intros K. split; [|split].
    + intros p w I. apply (ef_set _ _ _ _ EF K); [now apply SE | |].
      * intros w' I'. apply SE in I'. pose proof (apart_once _ _ _ _ AP I I') as X. congruence.
      * apply (NCl _ _ _ I). exists []. now rewrite app_nil_r.
    + intros p v q I N B. apply (ef_new _ _ _ _ EF K p v q); [now apply SE | exact N | exact B | exact (NCl _ _ _ I B)].
    + intros a q A B. apply (ef_cleared _ _ _ _ EF K a q); [now apply CL | exact B|].
      intros p v I B'. apply SE in I. apply (alt_below _ _ _ _ _ _ D A I). exact (below_trans _ _ _ B B').
  - intros p v q I A H. apply above_below in A. destruct A as [N [B NE]]. apply lookup_has in H. unfold value.
    destruct (lookup q st) as [u|] eqn:L; [|now elim H].
    apply (ef_keep _ _ _ _ EF q u L (NCl _ _ _ I B)). intros w J. apply SE in J. apply NE.
    apply (apart_nodes _ _ _ AP); [now apply (in_map fst) in J | now apply (in_map fst) in I | exact B].
  - intros q U V. apply (ef_rest _ _ _ _ EF). split.
    + intros p v I. apply SE in I. exact (U p v I).
    + intros a A. apply CL in A. exact (V a A).
Qed.

(** What is to be refused is refused. *)
Theorem c155_refused x s : does x = Refused -> snd (run x s) = false.
Proof.
  assert (CT : forall l id fp mt name, does (Ctn l id fp mt name) = Refused ->
            snd (run (Ctn l id fp mt name) s) = false).
  { intros l id fp mt name D. cbn [does] in D.
    destruct l; cbn [CfgBuild.run]; unfold add_tls_ctn, add_ch_tls_ctn; destruct (id =? 0)%N; try reflexivity;
      destruct mt; try discriminate D; unfold _add_tls_ctn, seq; cbn [maptype2str given];
      match goal with |- snd (let (_, _) := ?y in _) = _ => destruct y as [s' []] end; reflexivity. }
  destruct x;
    match goal with
    | |- does (Ctn ?l ?id ?fp ?mt ?name) = _ -> _ => exact (CT l id fp mt name)
    | |- _ => clear CT; cases
    end; intros D; try discriminate D; reflexivity.
Qed.

(** * C156: removing from a configuration

    [present st p]: the node exists, also only by default. *)
Theorem c156_del_partial x p st lost :
  does x = Removes p -> not_listen_userref x -> Forall plain (names p) -> config st ->
  exists st' ok,
    run x (of st lost) = (of st' lost, ok) /\ config st' /\
    (ok = true <-> Forall (fun k => okkey k = true) (names p) /\ present st p) /\
    (ok = true -> forall q, below p q -> ~ has st' q) /\
    (forall q, ok = false \/ ~ below p q -> value st' q = value st q).
Proof.
  intros D NL PL C. pose proof (ops_ok x) as OK. rewrite D in OK.
  rewrite run_ops by (assumption || congruence).
  unfold ops in OK |- *. rewrite D in OK |- *. inversion OK as [|? ? O1 _]; subst.
  cbn [exec once]. unfold seq.
  destruct (remove_spec p st lost O1 PL C) as [[st' [E [K [P [F C']]]]]|[E N]]; rewrite E.
  - exists st', true. repeat split; auto; try apply C'.
    + intros _ q B H. apply lookup_has in H. apply H. rewrite (F q). apply underb_spec in B. now rewrite B.
    + intros q [X|NB]; [discriminate|]. unfold value. rewrite (F q). apply underb_false in NB. now rewrite NB.
  - exists st, false. repeat split; auto; try apply C; try discriminate; intros; tauto.
Qed.

(** * C157: no configuration yet *)
Definition from_nothing (x : call) : Prop :=
  match x with
  | Persistent _ | Period _ _ | Anchor _ _ | Idle _ _ => False
  | KsKey _ _ _ | KsCert _ _ _ | TsKey _ _ _ | TsCert _ _ _ => False
  | _ => True
  end.

Lemma first_set x nodes alts : does x = Sets nodes alts -> from_nothing x ->
  exists p v l, ops x = OSet p v :: l /\ below server p.
Proof.
  intros D F. pose proof (ops_ok x) as OK.
  assert (B : forall p, beqb (hd [] (map fst p)) (bs "ietf-netconf-server:netconf-server") = true ->
                        match p with (_, None) :: _ => True | _ => False end -> below server p).
  { intros [|[n [k|]] p] E M; try now elim M. cbn in E. apply beqb_eq in E. subst n. now exists p. }
  clear OK. revert D F. calls x; intros D F; try discriminate D; try (now elim F);
    (eexists; eexists; eexists; split; [reflexivity | apply B; [reflexivity | exact Logic.I]]).
Qed.

(** The functions make the tree if there is none: it has what is set and nothing else. *)
Theorem c157_created_partial x nodes alts lost :
  does x = Sets nodes alts -> from_nothing x -> plain_nodes nodes ->
  exists s' ok,
    run x {| c_tree := None; c_lost := lost |} = (s', ok) /\ c_lost s' = lost /\
    (ok = true <-> forall p v, In (p, v) nodes -> taken p v) /\
    (ok = true -> exists st', c_tree s' = Some st' /\ config st' /\
       (forall q, q <> [] -> (has st' q <-> exists p v, In (p, v) nodes /\ below q p)) /\
       (forall p w, In (p, Some w) nodes -> value st' p = Some (canon p w))).
Proof.
  intros D FN PL. pose proof (ops_ok x) as OK. rewrite D in OK.
  pose proof (ops_apart x) as AP. rewrite D in AP. destruct AP as [AP _].
  pose proof (ops_adding _ _ _ D) as AD. pose proof (ops_plain _ _ _ D PL) as PL'.
  pose proof (ops_accepted _ _ _ D) as AC.
  destruct (first_set _ _ _ D FN) as [p [v [l [EO B]]]].
  rewrite run_ops by (congruence || exact (sets_not_userref _ _ _ D)). rewrite EO in OK, AD, PL', AC |- *.
  inversion OK as [|? ? O1 O2]; inversion AD as [|? ? A1 A2]; inversion PL' as [|? ? P1 P2]; subst.
  rewrite exec_cons. unfold seq. cbn [once opath] in *.
  assert (Hp : p <> []). { destruct O1 as [O1 _]. destruct v; exact (schema_ne _ _ O1). }
  destruct (create_spec p v {| c_tree := None; c_lost := lost |} O1 P1 B) as [[st1 [E [TK [CR C1]]]]|[E NT]]; rewrite E.
  2: { exists {| c_tree := None; c_lost := lost |}, false. split; [reflexivity|]. split; [reflexivity|].
       split; [|discriminate]. split; [discriminate|]. intros T. apply AC in T. inversion T; subst. now elim NT. }
  cbn [c_lost c_tree] in CR |- *.
  destruct (exec_effect l st1 lost O2 A2 P2 C1) as [st' [ok [E' [EF OKI]]]].
  exists (of st' lost), ok. split; [exact E'|]. split; [reflexivity|]. split.
  { rewrite <- AC, OKI. split; [constructor; assumption | intros F; now inversion F]. }
  intros K. exists st'. split; [reflexivity|]. split; [apply EF|].
  pose proof (effect_set _ _ _ _ _ _ _ Hp TK CR EF) as EF'. rewrite <- EO in EF'.
  assert (NCl : forall p v q, In (p, v) nodes -> below q p -> not_cleared (ops x) q).
  { intros p' v' q I Bq a A Ba. apply (ops_clear _ _ _ _ D) in A. apply (alt_below _ _ _ _ _ _ D A I).
    exact (below_trans _ _ _ Ba Bq). }
  split.
  - intros q N. split.
    + intros H. destruct (existsb (fun n => underb q (fst n)) nodes) eqn:X.
      * apply existsb_exists in X. destruct X as [[p' v'] [I U]]. exists p', v'. split; [exact I|]. now apply underb_spec.
      * elim (ef_none _ _ _ _ EF' q); [intros [u []] | | exact H].
        intros p' v' I Bq. apply (ops_set _ _ _ _ _ D) in I. apply underb_spec in Bq.
        assert (X' : existsb (fun n => underb q (fst n)) nodes = true).
        { apply existsb_exists. exists (p', v'). split; [exact I | exact Bq]. }
        congruence.
    + intros [p' [v' [I Bq]]].
      apply (ef_new _ _ _ _ EF' K p' v' q); [now apply (ops_set _ _ _ _ _ D) | exact N | exact Bq | exact (NCl _ _ _ I Bq)].
  - intros p' w I. apply (ef_set _ _ _ _ EF' K); [now apply (ops_set _ _ _ _ _ D) | |].
    + intros w' I'. apply (ops_set _ _ _ _ _ D) in I'. pose proof (apart_once _ _ _ _ AP I I') as X. congruence.
    + apply (NCl _ _ _ I). exists []. now rewrite app_nil_r.
Qed.

(** The intervals of a Call Home client cannot be the first thing configured. *)
Theorem c157_connection_refuted x lost :
  match x with Persistent _ | Period _ _ | Anchor _ _ | Idle _ _ => True | _ => False end ->
  run x {| c_tree := None; c_lost := lost |} = ({| c_tree := None; c_lost := lost |}, false).
Proof. destruct x; intros H; try now elim H; reflexivity. Qed.

(** Nor can the keystore or the truststore: the new tree is lost, whatever is set. *)
Theorem c157_stores_refuted x nodes alts lost :
  does x = Sets nodes alts -> plain_nodes nodes ->
  match x with KsKey _ _ _ | KsCert _ _ _ | TsKey _ _ _ | TsCert _ _ _ => True | _ => False end ->
  exists s', run x {| c_tree := None; c_lost := lost |} = (s', false) /\ c_tree s' = None /\
    ((forall p v, In (p, v) nodes -> taken p v) -> exists st, c_lost s' = st :: lost).
Proof.
  intros D PL M. pose proof (ops_ok x) as OK. rewrite D in OK. pose proof (ops_plain _ _ _ D PL) as PL'.
  assert (X : exists p v l, ops x = OSet p (Some v) :: l /\ ~ below server p).
  { revert D M. clear. calls x; intros D M; try discriminate D; try (now elim M);
      (eexists; eexists; eexists; split; [reflexivity | nobelow]). }
  pose proof (ops_accepted _ _ _ D) as AC.
  destruct X as [p [v [l [EO NB]]]].
  rewrite run_ops by (congruence || exact (sets_not_userref _ _ _ D)). rewrite EO in OK, PL', AC |- *.
  inversion OK as [|? ? O1 _]; inversion PL' as [|? ? P1 _]; subst. cbn [opath] in P1.
  rewrite exec_cons. unfold seq. cbn [once]. destruct O1 as [OS _].
  unfold CfgBuild.create. cbn [c_tree]. unfold lyd_new_path. rewrite (target_print _ _ OS P1).
  change (keyless p Leaf) with false. cbn [orb].
  destruct (forallb okkey (keys p)) eqn:EK; cbn [negb].
  2: { eexists. split; [reflexivity|]. split; [reflexivity|]. intros T. apply AC in T. pose proof (Forall_inv T) as [T1 _].
       apply okkeys in T1. congruence. }
  destruct (canon p v) as [w|] eqn:EC.
  2: { eexists. split; [reflexivity|]. split; [reflexivity|]. intros T. apply AC in T. pose proof (Forall_inv T) as [_ T1].
       now elim T1. }
  unfold set_top. rewrite lookup_setval. destruct (patheqb top p) eqn:EP.
  { apply patheqb_eq in EP. elim NB. subst p. exists []. reflexivity. }
  rewrite lookup_fold_ensure. cbn [lookup].
  destruct (existsb (patheqb top) (inits p)) eqn:EI.
  { apply existsb_inits in EI. elim NB. apply EI. }
  eexists. split; [reflexivity|]. split; [reflexivity|]. intros _. eexists. reflexivity.
Qed.

(** * C156 goes on: all entries of a list *)
Lemma all_schema x p : does x = RemovesAll p -> exists k, of_schema p (Lst k) /\ keyless p (Lst k) = true.
Proof.
  calls x; intros D; try discriminate D; injection D as <-;
    (eexists; split; [split; reflexivity | reflexivity]).
Qed.

(** Without a name the functions are to remove all entries (server_config.h 133, 162, ...): libyang
    refuses the path, so nothing is removed ever. *)
Theorem c156_all_refuted x p st lost :
  single = true -> does x = RemovesAll p -> Forall plain (names p) ->
  run x (of st lost) = (of st lost, false).
Proof.
  intros SG D PL. rewrite run_ops; [|destruct x; try exact Logic.I; discriminate D | congruence].
  unfold ops. rewrite D. cbn [exec once]. unfold seq, CfgBuild.delete. cbn [c_tree of].
  destruct (all_schema _ _ D) as [k [OS KL]].
  unfold lyd_find_path. rewrite (target_print _ _ OS PL), KL, SG.
  now destruct (negb _).
Qed.

(** The path that the function uses: without the node "endpoints". *)
Definition wrong_ref (e u : bytes) : path :=
  server ++ [nd "listen"; en "endpoint" e; nd "ssh"; nd "ssh-server-parameters"; nd "client-authentication";
             nd "users"; en "user" u; nd "public-keys"; tsref].

Lemma user_ref_text e u s : run (DelUserRef (Listen e) u) s = delete (print (wrong_ref e u)) s.
Proof. reflexivity. Qed.

(** The reference of a user to the truststore (endpoints that listen) is never removed. *)
Theorem c156_user_ref_refuted e u st lost :
  plain e -> plain u -> run (DelUserRef (Listen e) u) (of st lost) = (of st lost, false).
Proof.
  intros PE PU. rewrite user_ref_text. unfold CfgBuild.delete. cbn [c_tree of].
  unfold lyd_find_path, target. unfold wrong_ref, server. cbn [app].
  rewrite parse_print; [reflexivity | reflexivity | cbn; repeat constructor; assumption].
Qed.

(** * C158: a call never loses the configuration

    Whatever the names, also if the call fails. *)
Definition safe (f : prog) : Prop :=
  forall st lost, has st server -> exists st' ok, f (of st lost) = (of st' lost, ok) /\ has st' server.

Lemma safe_seq f g : safe f -> safe g -> safe (seq f g).
Proof.
  intros F G st lost H. destruct (F st lost H) as [st1 [ok [E H1]]]. unfold seq. rewrite E.
  destruct ok; [now apply G | now exists st1, false].
Qed.

Lemma safe_fail : safe fail.
Proof. intros st lost H. now exists st, false. Qed.

Lemma safe_skip : safe (fun s => (s, true)).
Proof. intros st lost H. now exists st, true. Qed.

Lemma safe_create v t : safe (create v t).
Proof.
  intros st lost H. unfold CfgBuild.create. cbn [c_tree of].
  destruct (lyd_new_path canon okkey st t v) as [st1|] eqn:E; [|now exists st, false].
  assert (H1 : has st1 server).
  { unfold lyd_new_path in E. destruct (target t) as [[p kd]|]; [|discriminate].
    destruct (_ || _); [discriminate|]. apply lookup_has in H. apply lookup_has.
    assert (F : lookup server (fold_left ensure (inits p) st) <> None).
    { rewrite lookup_fold_ensure. now destruct (lookup server st). }
    destruct kd; try (injection E as <-; exact F).
    destruct (canon p _) as [w|]; [|discriminate]. injection E as <-. rewrite lookup_setval.
    now destruct (patheqb server p). }
  exists st1, true. split; [|exact H1]. now apply set_top_server.
Qed.

Definition deep (t : bytes) : Prop := forall p kd, target t = Some (p, kd) -> 2 <= List.length p.

Lemma safe_find st t p : deep t -> lyd_find_path okkey implicit single st t = FNode p -> 2 <= List.length p.
Proof.
  unfold lyd_find_path. intros DP. destruct (target t) as [[p' kd]|] eqn:T; [|discriminate].
  specialize (DP _ _ T). destruct (negb _); [discriminate|]. destruct (keyless p' kd).
  - destruct single; [discriminate|]. destruct (first_entry p' st) as [q|] eqn:F; [|discriminate].
    intros [= <-]. clear - DP F. induction st as [|[a w] st IH]; cbn in F; [discriminate|].
    destruct (Nat.eqb (List.length a) (List.length p')) eqn:L; cbn [andb] in F; [|auto].
    apply PeanoNat.Nat.eqb_eq in L. destruct (underb _ _); cbn [andb] in F; [|auto].
    destruct (beqb _ _); [|auto]. injection F as <-. lia.
  - destruct (lookup p' st); [|destruct (implicit st p'); [|discriminate]]; intros [= <-]; exact DP.
Qed.

Lemma safe_free st p : 2 <= List.length p -> has st server -> has (lyd_free_tree st p) server.
Proof.
  intros L H. apply lookup_has. apply lookup_has in H. rewrite lookup_free.
  destruct (underb p server) eqn:U; [|exact H]. apply underb_spec in U. destruct U as [r E].
  apply (f_equal (@List.length step)) in E. rewrite app_length in E. cbn in E. lia.
Qed.

Lemma safe_delete t : deep t -> safe (delete t).
Proof.
  intros DP st lost H. unfold CfgBuild.delete. cbn [c_tree of].
  destruct (lyd_find_path okkey implicit single st t) as [p| |] eqn:E; try now exists st, false.
  assert (H1 : has (lyd_free_tree st p) server) by (apply safe_free; [exact (safe_find _ _ _ DP E) | exact H]).
  exists (lyd_free_tree st p), true. split; [now apply set_top_server | exact H1].
Qed.

Lemma safe_check_delete t : deep t -> safe (check_delete t).
Proof.
  intros DP st lost H. unfold CfgBuild.check_delete. cbn [c_tree of].
  destruct (lyd_find_path okkey implicit single st t) as [p| |] eqn:E;
    [|now exists st, true | now exists st, false].
  assert (H1 : has (lyd_free_tree st p) server) by (apply safe_free; [exact (safe_find _ _ _ DP E) | exact H]).
  exists (lyd_free_tree st p), true. split; [now apply set_top_server | exact H1].
Qed.

Lemma ploop_grows s d m l : ploop d m s = Some l -> List.length d < List.length l.
Proof.
  revert d m. induction s as [|c s IH]; intros d m; cbn [ploop].
  - destruct m; try discriminate; [destruct (empty n); [discriminate|]|]; intros [= <-]; rewrite app_length; cbn; lia.
  - destruct (pstep d m c) as [[d' m']|] eqn:E; [|discriminate]. intros H. apply IH in H.
    enough (List.length d <= List.length d') by lia.
    destruct m; cbn [pstep] in E;
      repeat match type of E with (if ?b then _ else _) = _ => destruct b end; try discriminate;
      injection E as <- _; rewrite ?app_length; lia.
Qed.

Lemma resolve_length q kids md p kd : resolve kids md q = Some (p, kd) -> List.length p = List.length q.
Proof.
  revert kids md p kd. induction q as [|[n ps] r IH]; intros kids md p kd; [discriminate|]. cbn [resolve].
  destruct (child kids md n) as [[nm kd0 ks]|]; [|discriminate].
  match goal with |- match ?y with _ => _ end = _ -> _ => destruct y as [s|]; [|discriminate] end.
  destruct r as [|s' r]; [now intros [= <- <-]|].
  destruct (resolve ks (module_of md nm) (s' :: r)) as [[p' kd']|] eqn:E; [|discriminate].
  intros [= <- <-]. cbn [List.length]. f_equal. exact (IH _ _ _ _ E).
Qed.

Lemma deep_print n s r : wordb n = true -> deep (print ((n, None) :: s :: r)).
Proof.
  intros W p kd T. unfold target in T.
  destruct (parse (print ((n, None) :: s :: r))) as [q|] eqn:E; [|discriminate].
  apply resolve_length in T. rewrite T. clear T.
  apply word_ne in W. destruct W as [W1 W2].
  assert (P : exists t, print (s :: r) = "/"%char :: t).
  { destruct s as [n' [k'|]]; eexists; reflexivity. }
  destruct P as [t P]. change (print ((n, None) :: s :: r)) with ("/"%char :: n ++ print (s :: r)) in E.
  unfold parse in E. change (Ascii.eqb "/" "/") with true in E. cbn iota in E.
  rewrite (ploop_name _ _ _ _ W2), P in E. cbn [ploop pstep app] in E.
  change (Ascii.eqb "/" "/") with true in E. cbn iota in E. rewrite W1 in E.
  apply ploop_grows in E. cbn in E. lia.
Qed.

Definition deep_op (o : op) : Prop :=
  match opath o with (n, None) :: _ :: _ => wordb n = true | _ => False end.

Lemma ops_deep x : Forall deep_op (ops x).
Proof.
  calls x; repeat match goal with |- Forall _ _ => constructor end; reflexivity.
Qed.

Lemma safe_once o : deep_op o -> safe (once o).
Proof.
  unfold deep_op. intros H.
  assert (DP : deep (print (opath o))).
  { destruct (opath o) as [|[n [k|]] [|s r]]; try now elim H. now apply deep_print. }
  destruct o; cbn [once opath] in *; [apply safe_create | now apply safe_check_delete | now apply safe_delete].
Qed.

Lemma safe_exec l : Forall deep_op l -> safe (exec l).
Proof.
  induction 1 as [|o l D _ IH]; [apply safe_skip|]. intros st lost H. rewrite exec_cons.
  now apply safe_seq; [apply safe_once | |].
Qed.

Theorem c158_kept x st lost :
  has st server -> exists st' ok, run x (of st lost) = (of st' lost, ok) /\ has st' server.
Proof.
  intros H.
  assert (R : does x <> Refused -> not_listen_userref x -> safe (run x)).
  { intros NR NL st0 lost0 H0. rewrite (run_ops _ _ NL NR). now apply safe_exec; [apply ops_deep|]. }
  assert (CT : forall l id fp mt name, safe (run (Ctn l id fp mt name))).
  { clear R. intros l id fp mt name.
    destruct l; cbn [CfgBuild.run]; unfold add_tls_ctn, add_ch_tls_ctn; destruct (id =? 0)%N; try apply safe_fail;
      unfold _add_tls_ctn; (apply safe_seq; [destruct fp; [apply safe_create | apply safe_skip]|]);
      (destruct (maptype2str mt); cbn [given]; [|apply safe_fail]); apply safe_seq; apply safe_create. }
  enough (SF : safe (run x)) by now apply SF.
  destruct (does x) eqn:D; try (apply R; [congruence|]; destruct x; try exact Logic.I; discriminate D).
  - destruct x; try (apply R; [congruence | exact Logic.I]).
    destruct l; [|apply R; [congruence | exact Logic.I]].
    intros st0 lost0 H0. rewrite user_ref_text. apply safe_delete; [|exact H0]. now apply deep_print.
  - clear R H. revert D. destruct x;
      match goal with
      | |- does (Ctn ?l ?id ?fp ?mt ?name) = _ -> _ => exact (fun _ => CT l id fp mt name)
      | |- _ => clear CT; cases
      end; intros D; try discriminate D; exact safe_fail.
Qed.

End Proofs.

(** * Names with an apostrophe

    Names are written between apostrophes into the path and read back by libyang. *)

(** Nothing can be added with such a name, although libyang takes any string as a name. *)
Theorem c155_apostrophe_refuted canon okkey implicit single a p st lost :
  run canon okkey implicit single (AddressPort (bs "it's") SSH a p) (of st lost) = (of st lost, false).
Proof. reflexivity. Qed.

Definition all_ok (p : path) (v : bytes) : option bytes := Some v.
Definition any (k : bytes) : bool := true.
Definition none (st : store) (p : path) : bool := false.

Local Notation do := (run all_ok any none true).
Definition start : cstate := {| c_tree := None; c_lost := [] |}.
Definition tree_of (s : cstate) : store := match c_tree s with Some st => st | None => [] end.

Fixpoint dos (l : list call) (s : cstate) : cstate * bool :=
  match l with
  | [] => (s, true)
  | x :: l => let (s', ok) := do x s in if ok then dos l s' else (s', false)
  end.

Definition kp : pair := (bs "priv", bs "ietf-crypto-types:rsa-private-key-format", bs "pub").
Definition two_keys : list call :=
  [AddressPort (bs "e") SSH (bs "::1") 830%N; HostKey (Listen (bs "e")) (bs "h") (Some kp);
   HostKey (Listen (bs "e")) (bs "g") (Some kp)].

Definition quoting : bytes := bs "e']/ssh/ssh-server-parameters/server-identity/host-key[name='h".

(** The removal of an endpoint that does not exist removes a host key of another one. *)
Theorem c156_apostrophe_refuted : exists s s',
  dos two_keys start = (s, true) /\ do (DelEndpt (Some quoting)) s = (s', true) /\
  lookup (endpoint (Listen quoting)) (tree_of s) = None /\
  lookup (host_key (Listen (bs "e")) (bs "h")) (tree_of s) = Some None /\
  lookup (host_key (Listen (bs "e")) (bs "h")) (tree_of s') = None /\
  lookup (endpoint (Listen (bs "e"))) (tree_of s') = Some None.
Proof.
  destruct (dos two_keys start) as [s ok] eqn:E. destruct (do (DelEndpt (Some quoting)) s) as [s' ok'] eqn:F.
  exists s, s'. vm_compute in E. injection E as <- <-. vm_compute in F. injection F as <- <-.
  repeat split; vm_compute; reflexivity.
Qed.

(** * C158 needs the container netconf-server

    A tree with a keystore only: the call that adds to it fails, and the tree is lost. *)
Definition keystore_only : store :=
  [([nd "ietf-keystore:keystore"], None); ([nd "ietf-keystore:keystore"; nd "asymmetric-keys"], None)].

Theorem c158_keystore_refuted : tree keystore_only /\
  exists st, do (KsCert (bs "k") (bs "c") (Some (bs "data"))) (of keystore_only []) =
             ({| c_tree := None; c_lost := [st] |}, false).
Proof.
  split.
  - split.
    + intros p q [v H] [N [r [R E]]]. destruct H as [H|[H|[]]]; injection H as <- _.
      * destruct q as [|a [|b q]]; [now elim N | injection E as _ E; now elim R | discriminate].
      * destruct q as [|a [|b [|c q]]]; [now elim N | | injection E as _ _ E; now elim R | discriminate].
        injection E as <- _. exists None. now left.
    + repeat constructor; cbn; intuition discriminate.
  - eexists. vm_compute. reflexivity.
Qed.

(** * Examples *)

(** The hypotheses of C155: a configuration, and a call whose names are plain. *)
Definition base : store := tree_of (fst (dos two_keys start)).

Example base_built : snd (dos two_keys start) = true /\ List.length base = 24.
Proof. vm_compute. split; reflexivity. Qed.

Definition there (st : store) (q : path) : bool := match lookup q st with Some _ => true | None => false end.
Fixpoint onceb (l : list path) : bool :=
  match l with [] => true | p :: l => negb (existsb (patheqb p) l) && onceb l end.

Lemma config_check st :
  forallb (fun e => forallb (there st) (inits (fst e))) st && onceb (map fst st) && there st server = true ->
  config st.
Proof.
  rewrite !andb_true_iff. intros [[P O] S].
  assert (T : forall q, there st q = true -> has st q).
  { intros q H. apply lookup_has. unfold there in H. now destruct (lookup q st). }
  split; [split|now apply T].
  - intros p q [v H] [N [r [_ E]]]. rewrite forallb_forall in P. specialize (P _ H). cbn [fst] in P.
    rewrite forallb_forall in P. apply T, P, inits_spec. split; [exact N|]. now exists r.
  - clear - O. induction (map fst st) as [|p l IH]; [constructor|]. cbn [onceb] in O.
    apply andb_true_iff in O. destruct O as [A B]. constructor; [|now apply IH]. intros I.
    apply negb_true_iff in A. enough (existsb (patheqb p) l = true) by congruence.
    apply existsb_exists. exists p. split; [exact I | apply patheqb_refl].
Qed.

Example base_config : config base.
Proof. apply config_check. vm_compute. reflexivity. Qed.

Definition to_ref : call := HostKeyRef (Listen (bs "e")) (bs "h") (bs "key-in-store").

Example ref_sets : exists nodes alts, does to_ref = Sets nodes alts /\ plain_nodes nodes /\
  nodes <> [] /\ alts <> [].
Proof.
  eexists _, _. split; [reflexivity|]. split; [|split; discriminate].
  intros p v [H|[]]. injection H as <- _. cbn [names to_ref]. change (Forall plain [bs "e"; bs "h"]).
  repeat (constructor; [vm_compute; intuition discriminate|]). constructor.
Qed.

(** Now the key of host key h is the one of the keystore; its four leaves and their container are gone;
    host key g is as before. *)
Example ref_done :
  let (s, ok) := do to_ref (of base []) in
  ok = true /\ List.length (tree_of s) = 20 /\
  value (tree_of s) (host_key_def (Listen (bs "e")) (bs "h") ++ [ksref]) = Some (Some (bs "key-in-store")) /\
  value (tree_of s) (host_key_def (Listen (bs "e")) (bs "h") ++ [inline; nd "public-key"]) = None /\
  value (tree_of s) (host_key_def (Listen (bs "e")) (bs "g") ++ [inline; nd "public-key"]) = Some (Some (bs "pub")).
Proof. vm_compute. repeat split; reflexivity. Qed.

(** A value that libyang does not take. *)
Example port_refused :
  run (fun p v => if beqb v (bs "70000") then None else Some v) any none true
      (AddressPort (bs "e") SSH (bs "::1") 70000%N) (of base []) = (of base [], false).
Proof. vm_compute. reflexivity. Qed.

(** C156. *)
Example del_key :
  let (s, ok) := do (DelHostKey (Listen (bs "e")) (Some (bs "h"))) (of base []) in
  ok = true /\ value (tree_of s) (host_key (Listen (bs "e")) (bs "h")) = None /\
  value (tree_of s) (host_key (Listen (bs "e")) (bs "g")) = Some None.
Proof. vm_compute. repeat split; reflexivity. Qed.

Example del_all_nothing : do (DelHostKey (Listen (bs "e")) None) (of base []) = (of base [], false).
Proof. vm_compute. reflexivity. Qed.

(** Even if libyang took the first entry, one would be left. *)
Example del_all_first :
  let (s, ok) := run all_ok any none false (DelHostKey (Listen (bs "e")) None) (of base []) in
  ok = true /\ value (tree_of s) (host_key (Listen (bs "e")) (bs "g")) = Some None.
Proof. vm_compute. split; reflexivity. Qed.

Example del_user_ref :
  let (s, ok) := dos [UserRef (Listen (bs "e")) (bs "u") (bs "bag")] (of base []) in
  ok = true /\ value (tree_of s) (user_keys (Listen (bs "e")) (bs "u") ++ [tsref]) = Some (Some (bs "bag")) /\
  do (DelUserRef (Listen (bs "e")) (bs "u")) s = (s, false).
Proof. vm_compute. repeat split; reflexivity. Qed.

(** C157: a Call Home client made from nothing; its period after that. *)
Example client_made :
  let (s, ok) := dos [ChAddressPort (bs "c") (bs "e") TLS (bs "::1") (bs "4335"); Period (bs "c") 60%N] start in
  ok = true /\ c_lost s = [] /\
  value (tree_of s) (connection (bs "c") ++ [nd "periodic"; nd "period"]) = Some (Some (bs "60")).
Proof. vm_compute. repeat split; reflexivity. Qed.

(** The other transport of an endpoint is not removed: the endpoint has both cases of the choice. *)
Example both_transports :
  let (s, ok) := dos [AddressPort (bs "e") TLS (bs "::1") 6513%N] (of base []) in
  ok = true /\ lookup (ssh (Listen (bs "e"))) (tree_of s) = Some None /\
  lookup (tls (Listen (bs "e"))) (tree_of s) = Some None.
Proof. vm_compute. repeat split; reflexivity. Qed.

(** What is assumed of libyang's paths: no step and no key has an empty name; the module of a node is the one
    written before its name or else that of its parent. *)
Definition named (q : qstep) : Prop := fst q <> [] /\ Forall (fun kv => fst kv <> []) (snd q).
Definition mode_named (m : pmode) : Prop :=
  match m with
  | PName _ => True
  | PKey n ps _ => n <> [] /\ Forall (fun kv : bytes * bytes => fst kv <> []) ps
  | PNext n ps => n <> [] /\ Forall (fun kv : bytes * bytes => fst kv <> []) ps
  | PQuote n ps k | PVal n ps k _ _ | PEnd n ps k _ => n <> [] /\ k <> [] /\ Forall (fun kv : bytes * bytes => fst kv <> []) ps
  end.
Lemma not_empty b : empty b = false -> b <> [].
Proof. destruct b; discriminate. Qed.
Lemma pstep_named done m c d' m' : Forall named done -> mode_named m -> pstep done m c = Some (d', m') -> Forall named d' /\ mode_named m'.
Proof.
  intros D M. unfold pstep. destruct m as [n|n ps k|n ps k|n ps k q v|n ps k v|n ps]; cbn [mode_named] in M.
  - destruct (Ascii.eqb c "/"); [destruct (empty n) eqn:E; [discriminate|]|
      destruct (Ascii.eqb c "["); [destruct (empty n) eqn:E; [discriminate|]|destruct (special c); [discriminate|]]]; intros [= <- <-].
    + split; [|exact Logic.I]. apply Forall_app. split; [exact D|]. apply Forall_cons; [|apply Forall_nil]. split; [exact (not_empty _ E)|apply Forall_nil].
    + split; [exact D|]. split; [exact (not_empty _ E)|apply Forall_nil].
    + split; [exact D|exact Logic.I].
  - destruct M as [M1 M2]. destruct (Ascii.eqb c "="); [destruct (empty k) eqn:E; [discriminate|]|destruct (special c); [discriminate|]]; intros [= <- <-];
      (split; [exact D|]).
    + split; [exact M1|]. split; [exact (not_empty _ E)|exact M2].
    + split; assumption.
  - destruct (_ || _); [|discriminate]. intros [= <- <-]. split; assumption.
  - destruct (Ascii.eqb c q); intros [= <- <-]; split; assumption.
  - destruct M as (M1 & M2 & M3). destruct (Ascii.eqb c "]"); [|discriminate]. intros [= <- <-]. split; [exact D|]. split; [exact M1|].
    apply Forall_app. split; [exact M3|]. apply Forall_cons; [exact M2|apply Forall_nil].
  - destruct M as [M1 M2]. destruct (Ascii.eqb c "/"); [|destruct (Ascii.eqb c "["); [|discriminate]]; intros [= <- <-].
    + split; [|exact Logic.I]. apply Forall_app. split; [exact D|]. apply Forall_cons; [split; assumption|apply Forall_nil].
    + split; [exact D|]. split; assumption.
Qed.
Lemma ploop_named s : forall done m q, Forall named done -> mode_named m -> ploop done m s = Some q -> Forall named q.
Proof.
  induction s as [|c s IH]; intros done m q D M; cbn [ploop].
  - destruct m as [n| | | | |n ps]; try discriminate; [destruct (empty n) eqn:E; [discriminate|]|]; intros [= <-]; apply Forall_app; (split; [exact D|]);
      (apply Forall_cons; [|apply Forall_nil]).
    + split; [exact (not_empty _ E)|apply Forall_nil].
    + exact M.
  - destruct (pstep done m c) as [[d' m']|] eqn:E; [|discriminate]. destruct (pstep_named _ _ _ _ _ D M E) as [D' M']. exact (IH d' m' q D' M').
Qed.
Lemma module_written md m r : ~ In ":"%char m -> module_of md (m ++ ":"%char :: r) = m.
Proof.
  intros H. unfold module_of. assert (E : before_colon (m ++ ":"%char :: r) = Some m); [|rewrite E; reflexivity].
  induction m as [|c m IH]; [reflexivity|]. cbn [app before_colon].
  destruct (Ascii.eqb_spec c ":"%char) as [->|N]; [exfalso; apply H; left; reflexivity|].
  rewrite IH by (intros I; apply H; right; exact I). reflexivity.
Qed.
Lemma module_inherited md n : ~ In ":"%char n -> module_of md n = md.
Proof.
  intros H. unfold module_of. assert (E : before_colon n = None); [|rewrite E; reflexivity].
  induction n as [|c n IH]; [reflexivity|]. cbn [before_colon].
  destruct (Ascii.eqb_spec c ":"%char) as [->|N]; [exfalso; apply H; left; reflexivity|].
  rewrite IH by (intros I; apply H; right; exact I). reflexivity.
Qed.

Print Assumptions c155_add_partial.
Print Assumptions c155_refused.
Print Assumptions c155_apostrophe_refuted.
Print Assumptions c156_del_partial.
Print Assumptions c156_all_refuted.
Print Assumptions c156_user_ref_refuted.
Print Assumptions c156_apostrophe_refuted.
Print Assumptions c157_created_partial.
Print Assumptions c157_connection_refuted.
Print Assumptions c157_stores_refuted.
Print Assumptions c158_kept.
Print Assumptions c158_keystore_refuted.
