(** Tests, not proofs: the names and addresses that the model and the statements share, spelled out, so that a changed one is noticed.  Also
    the few values that no theorem mentions. *)
From Coq Require Import Ascii String NArith ZArith Bool List Lia.
From Verif Require Import Bytes.
From Verif Require Prompt TransportIo TlsLoad KbdInt ChConf AlgReport CallHome Caps CfgBuild ClientMsgs CtxFill Err GetSchema Hello IoRead IoWrite KeyFiles ModInfo MsgMem PsPoll RpcSend TlsConn TlsNames SshKeys ClientOpts CertExp CertCfg SshAuth Time ClientSsh.
Import ListNotations.
Local Open Scope string_scope.
Local Open Scope list_scope.

Example names_AlgReport : AlgReport.pka_mod = "iana-ssh-public-key-algs" /\
  AlgReport.kex_mod = "iana-ssh-key-exchange-algs" /\
  AlgReport.enc_mod = "iana-ssh-encryption-algs" /\
  AlgReport.macs_mod = "iana-ssh-mac-algs".
Proof. repeat split. Qed.
Example names_Caps : Caps.base10 = bs "urn:ietf:params:netconf:base:1.0" /\
  Caps.base11 = bs "urn:ietf:params:netconf:base:1.1" /\
  Caps.REV16 = bs "2016-06-21" /\
  Caps.REV19 = bs "2019-01-04".
Proof. repeat split. Qed.
Example names_CfgBuild : CfgBuild.ssh_format = bs "ietf-crypto-types:ssh-public-key-format" /\
  CfgBuild.spki_format = bs "ietf-crypto-types:subject-public-key-info-format".
Proof. repeat split. Qed.
Example names_ClientMsgs : ClientMsgs.MESSAGE_ID = bs "message-id".
Proof. repeat split. Qed.
Example names_CtxFill : CtxFill.IETF_NETCONF = bs "ietf-netconf" /\
  CtxFill.IETF_YL = bs "ietf-yang-library" /\
  CtxFill.IETF_DS = bs "ietf-datastores" /\
  CtxFill.IETF_NMDA = bs "ietf-netconf-nmda" /\
  CtxFill.IETF_MON = bs "ietf-netconf-monitoring" /\
  CtxFill.MON_CAP = bs "urn:ietf:params:xml:ns:yang:ietf-netconf-monitoring?" /\
  CtxFill.YL_CAP = bs "urn:ietf:params:netconf:capability:yang-library:" /\
  CtxFill.NOTIF_CAP = bs "urn:ietf:params:netconf:capability:notification:1.0".
Proof. repeat split. Qed.
Example names_GetSchema : GetSchema.BAD_VERSION = bs "The requested version is not supported." /\
  GetSchema.NOT_FOUND = bs "The requested module was not found." /\
  GetSchema.BAD_FORMAT = bs "The requested format is not supported.".
Proof. repeat split. Qed.
Example names_Hello : Hello.NC_NS_BASE = bs "urn:ietf:params:xml:ns:netconf:base:1.0".
Proof. repeat split. Qed.
Example names_IoRead : IoRead.ENDTAG10 = bs "]]>]]>".
Proof. repeat split. Qed.
Example names_IoWrite : IoWrite.NS_BASE = bs "urn:ietf:params:xml:ns:netconf:base:1.0" /\
  IoWrite.NS_NOTIF = bs "urn:ietf:params:xml:ns:netconf:notification:1.0".
Proof. repeat split. Qed.
Example names_KeyFiles : KeyFiles.alphabet = bs "ABCDEFGHIJKLMNOPQRSTUVWXYZabcdefghijklmnopqrstuvwxyz0123456789+/" /\
  KeyFiles.PUBLIC = bs "PUBLIC KEY" /\
  KeyFiles.CERT = bs "CERTIFICATE".
Proof. repeat split. Qed.
Example names_ModInfo : ModInfo.NOTIFICATIONS = bs "notifications" /\
  ModInfo.NC_NOTIFICATIONS = bs "nc-notifications" /\
  ModInfo.REV5277 = bs "2008-07-14".
Proof. repeat split. Qed.
Example names_PsPoll : PsPoll.NS_BASE = bs "urn:ietf:params:xml:ns:netconf:base:1.0".
Proof. repeat split. Qed.
Example names_RpcSend : RpcSend.nc = "ietf-netconf" /\
  RpcSend.ncwd = "ietf-netconf-with-defaults" /\
  RpcSend.ncm = "ietf-netconf-monitoring" /\
  RpcSend.ntf = "notifications" /\
  RpcSend.nmda = "ietf-netconf-nmda" /\
  RpcSend.sn = "ietf-subscribed-notifications" /\
  RpcSend.yp = "ietf-yang-push".
Proof. repeat split. Qed.
Example names_TlsNames : TlsNames.hex_chars = bs "0123456789abcdef".
Proof. repeat split. Qed.

(** session_mbedtls.c 1822-1850: the names made of the suites of TLS 1.3. *)
Example suites13 : map TlsConn.mbed_suite TlsConn.tls13 =
  [bs "AES-256-GCM-SHA384"; bs "AES-128-GCM-SHA256"; bs "CHACHA20-POLY1305-SHA256"; bs "AES-128-CCM-SHA256"; bs "AES-128-CCM-8-SHA256"].
Proof. reflexivity. Qed.

(** See CallHome.session_wait: a session the application does not take ends the thread at once. *)
Lemma not_taken l : CallHome.session_wait false l = CallHome.WEnd 0 false.
Proof. reflexivity. Qed.

(** messages_server.c 476-490: an error without its type has none. *)
Lemma no_type l : Err.find l "error-type" = None -> Err.get_type l = 0%Z.
Proof. unfold Err.get_type. intros ->. reflexivity. Qed.

(** See MsgMem.misread: reading a field that is not there is recorded. *)
Lemma misread_seen m : MsgMem.m_bad (MsgMem.misread m) = true.
Proof. reflexivity. Qed.
(** errno of Linux and the error codes of MbedTLS. *)
Example names_TransportIo : TransportIo.EINTR = 4%Z /\ TransportIo.EAGAIN = 11%Z /\ TransportIo.EWOULDBLOCK = 11%Z /\
  TransportIo.EPIPE = 32%Z /\ TransportIo.ECONNRESET = 104%Z /\ TransportIo.WANT_READ = (-26880)%Z /\
  TransportIo.WANT_WRITE = (-26752)%Z /\ TransportIo.PEER_CLOSE_NOTIFY = (-30848)%Z /\ TransportIo.NET_CONN_RESET = (-80)%Z /\
  TransportIo.NET_SEND_FAILED = (-78)%Z /\ TransportIo.NET_RECV_FAILED = (-76)%Z /\ TransportIo.SSL_CONN_EOF = (-29312)%Z.
Proof. repeat split. Qed.
(** -1 as uint16_t. *)
Lemma num_certs_gone ts r : TlsLoad.ts_ref ts r = TlsLoad.Err -> TlsLoad.num_certs ts (TlsLoad.GTrust r) = TlsLoad.Ok 65535%N.
Proof. intros H. unfold TlsLoad.num_certs. rewrite H. reflexivity. Qed.
(** security/_pam_types.h. *)
Example names_KbdInt : KbdInt.PAM_SUCCESS = 0%Z /\ KbdInt.PAM_NEW_AUTHTOK_REQD = 12%Z /\ KbdInt.PAM_CONV_ERR = 19%Z.
Proof. repeat split. Qed.
(** A new Call Home client: server_config.c 3482-3508. *)
Lemma new_client n : ChConf.c_name (ChConf.new_cl n) = n /\ ChConf.c_thread (ChConf.new_cl n) = false /\ ChConf.c_eps (ChConf.new_cl n) = [] /\
  ChConf.c_period (ChConf.new_cl n) = 0%N /\ ChConf.c_anchor (ChConf.new_cl n) = 0%Z /\ ChConf.c_idle (ChConf.new_cl n) = 0%N /\
  ChConf.c_attempts (ChConf.new_cl n) = 3%N /\ ChConf.c_wait (ChConf.new_cl n) = 0%N.
Proof. repeat split. Qed.

(** A digest of the identities, each ended by a line feed; the numbers below were computed from the files in /repo/modules and
    not from AlgReport.v.  It pins the tables against changes; it says nothing about all inputs. *)
Fixpoint digest (h : N) (s : string) : N :=
  match s with
  | EmptyString => (h * 31 + 10) mod 1000003
  | String c s => digest ((h * 31 + N_of_ascii c) mod 1000003) s
  end%N.
Example names_AlgReport_tables :
  fold_left digest AlgReport.pka_ids 0%N = 482410%N /\ fold_left digest AlgReport.kex_ids 0%N = 33594%N /\
  fold_left digest AlgReport.enc_ids 0%N = 611501%N /\ fold_left digest AlgReport.macs_ids 0%N = 33905%N /\
  fold_left digest (map fst AlgReport.ln2_ids) 0%N = 629721%N.
Proof. vm_compute. repeat split. Qed.
(** session_client_ssh.c 192-201: settings that were never read are put back. *)
Lemma wild_seen w : Prompt.w_wild (Prompt.wild w) = true.
Proof. reflexivity. Qed.
(** session_client_ssh.c 376-398: keys without records in DNS do not match, which differs from an error. *)
Lemma no_such_records d h x : Prompt.nc_client_ssh_do_dnssec_sshfp_check d Prompt.KUnknown h x = Prompt.CRet 1 /\
  Prompt.nc_client_ssh_do_dnssec_sshfp_check d Prompt.KRsa1 h x = Prompt.CRet 1.
Proof. split; reflexivity. Qed.
(** limits.h. *)
Example names_SshKeys_INT_MAX : SshKeys.INT_MAX = (2 ^ 31 - 1)%N.
Proof. reflexivity. Qed.
(** session_client_tls.c 61-81: no memory for the path of the certificate. *)
Lemma no_memory_for_cert d ok2 c k s r s' : ClientOpts.set_cert d false ok2 c k s = Some (r, s') -> r = (-1)%Z.
Proof.
  unfold ClientOpts.set_cert. destruct c as [c|]; [|now intros [= <- _]]. destruct (ClientOpts.free _ s) as [s1|]; [|discriminate].
  destruct (ClientOpts.free _ s1) as [s2|]; [|discriminate]. unfold ClientOpts.strdup. now intros [= <- _].
Qed.
(** session_server.c 3489-3544: a certificate that has expired is in the last interval. *)
Lemma expired_last add fuel ivs s0 l exp now : (s0 <= now)%Z -> (exp < now)%Z ->
  CertExp.first_notif add fuel ivs (s0 :: l) exp now = CertExp.Ok ((List.length ivs - 1)%nat, now).
Proof.
  intros A B. unfold CertExp.first_notif. destruct (Z.ltb_spec 0 (s0 - now)) as [C|_]; [exfalso; apply (Z.lt_irrefl 0), (Z.lt_le_trans _ _ _ C), Z.le_sub_0, A|].
  destruct (Z.ltb_spec (exp - now) 0) as [_|C]; [reflexivity|]. exfalso. apply (Zle_not_lt _ _ (Zle_0_minus_le _ _ C) B).
Qed.
(** strtol() with numbers out of range. *)
Example names_CertCfg_strtol : CertCfg.strtol (bs "9223372036854775808") = (2 ^ 63 - 1)%Z /\ CertCfg.strtol (bs "9223372036854775806") = (2 ^ 63 - 2)%Z.
Proof. split; reflexivity. Qed.
(** server_config.c 4023-4051: an anchor that cannot be read leaves the intervals there were. *)
Lemma bad_anchor a p s old : CertCfg.value2cert_exp_time a = CertCfg.Ret None -> CertCfg.n_cells s = Some old -> CertCfg.n_count s = List.length old ->
  exists c, CertCfg.create_interval true a p s = CertCfg.Ret (1%nat, {| CertCfg.n_cells := Some (old ++ c); CertCfg.n_count := CertCfg.n_count s |}).
Proof.
  intros V C N. unfold CertCfg.create_interval. cbn [negb]. rewrite V, C, N. unfold CertCfg.resize.
  rewrite firstn_app, firstn_all2 by (apply le_S, le_n). eexists. reflexivity.
Qed.
(** session_client.c 1204-1266: nothing is mounted with a shared context. *)
Lemma shared_context w s : CtxFill.schema_mount w true s = (s, true).
Proof. reflexivity. Qed.
(** session_server_ssh.c, where an attempt to authenticate fails: it is counted. *)
Lemma attempt_counted st : SshAuth.s_attempts (SshAuth.add_attempt st) = (SshAuth.s_attempts st + 1)%N.
Proof. reflexivity. Qed.
(** session_server.c 3000-3137: a thread told to stop has no session to lose. *)
Lemma told_to_stop s rs : CallHome.ch_run s (CallHome.REnd :: rs) = ([], inr (CallHome.Returned false)).
Proof. reflexivity. Qed.
(** session_server.c: without certificates the thread sleeps for a year. *)
Lemma sleeps_a_year now : CertExp.wakeup [] now = ((now + 31536000)%Z, None).
Proof. reflexivity. Qed.
(** session_client.c 1327-1354: the library is used only if both modules were loaded, where the second is needed. *)
Lemma both_modules w p ms s c r s1 m1 ok1 : ClientMsgs.strstr c (bs "revision=") = Some r -> ModInfo.strcmp_gt (bs "2019-01-04") (firstn 10 (skipn 9 r)) = false ->
  CtxFill.load_module w p ms s CtxFill.IETF_YL (Some (firstn 10 (skipn 9 r))) None = ClientMsgs.Ret (s1, (ok1, m1)) ->
  forall s', CtxFill.load_yanglib w p ms s (Some c) = ClientMsgs.Ret (s', true) ->
  ok1 = true /\ exists m2, CtxFill.load_module w p ms s1 CtxFill.IETF_DS None None = ClientMsgs.Ret (s', (true, m2)).
Proof.
  intros R G L s'. unfold CtxFill.load_yanglib. rewrite R, L, G. cbn [negb]. destruct (CtxFill.load_module w p ms s1 CtxFill.IETF_DS None None) as [[s2 [ok2 m2]]|]; [|discriminate].
  intros [= -> E]. apply andb_true_iff in E. destruct E as [-> ->]. eauto.
Qed.
(** session.c 55-81: the time is exact for every reading of the clock. *)
Lemma time_exact cur add : (Time.t_sec (Time.time_get cur add) * 1000000000 + Time.t_nsec (Time.time_get cur add) = Time.t_sec cur * 1000000000 + Time.t_nsec cur + add * 1000000)%Z.
Proof.
  unfold Time.time_get. destruct (Z.eqb_spec add 0) as [->|_]; [lia|]. pose proof (Z.div_mod add 1000 ltac:(lia)) as D.
  destruct (_ <=? _)%Z; [cbn [Time.t_sec Time.t_nsec]; lia|]. destruct (_ <? _)%Z; cbn [Time.t_sec Time.t_nsec]; lia.
Qed.
Example names_CertExp_long : CertExp.LONG_MAX = 9223372036854775807%Z.
Proof. reflexivity. Qed.
(** session_client_ssh.c 1873-1933: there is a session exactly if every step succeeds. *)
Lemma channel_session c : fst (ClientSsh.connect_channel c) = true <->
  ClientSsh.c_lock c = true /\ ClientSsh.c_open c = true /\ ClientSsh.c_ctx c = true /\ ClientSsh.c_hello c = true /\ ClientSsh.c_fill c = true.
Proof. destruct c as [[] [] [] [] []]; cbn; intuition congruence. Qed.
(** session_client.c 976-994: every submodule is stored in the first entry. *)
Lemma last_submodule cs n r : ModInfo.yl_submodules true (cs ++ [ModInfo.YSubmodule (Some n) (Some r)]) = Some [(n, Some r)] /\ ModInfo.yl_submodules false cs = None.
Proof. split; [|reflexivity]. unfold ModInfo.yl_submodules. now rewrite fold_left_app. Qed.
(** io.c 485-513: a failed read of a message is an error. *)
Lemma failed_read r : ClientMsgs.rd_of r = Some ClientMsgs.RdErr <-> exists w t, r = IoRead.MFail w t.
Proof. destruct r; cbn; split; try discriminate; try (intros (? & ? & [=])); eauto. Qed.
