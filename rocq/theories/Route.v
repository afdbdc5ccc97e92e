(** Where the nodes of a configuration go: the dispatch by the name of a node and by the names of its parents
    in src/server_config.c, src/server_config_ks.c and src/server_config_ts.c.

    A handler is reduced to what it decides from the node's place in the tree: the object it looks for and the
    member of it that it writes.  Not modelled here: the values, the search for the object among the existing
    ones (the object is named by the list keys the handler reads), the locks, and of the operations only whether
    it is a deletion.  The build has NC_ENABLED_SSH_TLS. *)
From Coq Require Import String Arith List Bool.
Import ListNotations.
Local Open Scope string_scope.
Local Open Scope list_scope.

(** A node of a data tree: its name, and whether it is an entry of a list (with the name of its first key and
    the value of that), a container or a leaf. *)
Inductive kind := KList (key val : string) | KContainer | KLeaf.
Record elem := mkE { e_name : string; e_kind : kind }.

(** A node with its parents, the node first, the root of the tree last. *)
Definition place := list elem.

(** The members written. *)
Inductive field :=
| FListen | FCallHome | FListenIdle
| FClient | FClientIdle | FPeriod | FAnchor | FPersistent | FPeriodic | FReconnect | FStartWith | FMaxWait | FMaxAttempts
| FEndpoint | FSsh | FTls
| FLocalAddr | FLocalPort | FRemoteAddr | FRemotePort | FKeepalives | FKaIdle | FKaProbes | FKaInterval
| FHostKey | FHkPubFormat | FHkPub | FHkPrivFormat | FHkPriv | FHkKeystore
| FUser | FUserKeys | FUserKey | FUserKeyFormat | FUserKeyData | FUserTruststore | FUserSystemKeys
| FPassword | FNone | FSystemAuth
| FAuthTimeout | FReference | FHostKeyAlg | FKexAlg | FEncAlg | FMacAlg
| FTlsPubFormat | FTlsPub | FTlsPrivFormat | FTlsPriv | FTlsCert | FTlsKsKey | FTlsKsCert
| FClientAuth | FCaCerts | FCaCert | FCaCertData | FCaTruststore | FEeCerts | FEeCert | FEeCertData | FEeTruststore
| FCtn | FCtnFingerprint | FTlsVersion | FCipherSuite
(* keystore *)
| FKeystore | FAsymKeys | FAsymKey | FAkPubFormat | FAkPub | FAkPrivFormat | FAkPriv | FAkCert | FAkCertData
(* truststore *)
| FTruststore | FCertBags | FCertBag | FCbCert | FCbCertData
| FKeyBags | FKeyBag | FKbKey | FKbKeyFormat | FKbKeyData.

(** The structure a member belongs to: [server_opts] itself, its listening endpoints, its Call Home clients,
    its keystore or truststore. *)
Inductive area := AListen | ACallHome | AKeystore | ATruststore.

(** A member of the object reached with these keys, outermost first. *)
Record tgt := mkT { t_area : area; t_field : field; t_keys : list string }.

(** Written; nothing done; the handler fails; a read through NULL or behind the root. *)
Inductive res := Stored (t : tgt) | Nothing | Failed | Undef.

(** Lines 38-54 [nc_server_config_get_parent]: the node or a parent of this name. *)
Fixpoint has_parent (p : place) (name : string) : bool :=
  match p with
  | [] => false
  | e :: r => if String.eqb (e_name e) name then true else has_parent r name
  end.

(** Lines 56-100 [nc_server_config_get_parent_list] and [nc_server_config_get_parent_list_key_value]: the key of the
    nearest list of this name, the node included. *)
Fixpoint list_key (p : place) (name key : string) : option string :=
  match p with
  | [] => None
  | e :: r =>
      match e_kind e with
      | KList k v => if String.eqb (e_name e) name then (if String.eqb k key then Some v else None) else list_key r name key
      | _ => list_key r name key
      end
  end.

(** Lines 102-135. *)
Definition is_listen p := has_parent p "listen".
Definition is_ch p := has_parent p "call-home".
Definition is_ssh p := has_parent p "ssh".
Definition is_tls p := has_parent p "tls".

(** Lines 519-536 [equal_parent_name]: the k-th parent; there is no check for the root. *)
Definition parent_is (p : place) (k : nat) (name : string) (yes no : res) : res :=
  match nth_error p k with
  | None => Undef
  | Some e => if String.eqb (e_name e) name then yes else no
  end.

(** Lines 480-516 [nc_server_config_get_ch_client_with_lock]. *)
Definition ch_client (p : place) (k : string -> res) : res :=
  match list_key p "netconf-client" "name" with Some c => k c | None => Failed end.

(** The usual beginning of a handler: is_ch() && nc_server_config_get_ch_client_with_lock(). *)
Definition maybe_client (p : place) (k : option string -> res) : res :=
  if is_ch p then ch_client p (fun c => k (Some c)) else k None.

(** Lines 138-165 [nc_server_config_get_endpt]; an endpoint is its area and its keys. *)
Definition endpt (p : place) (k : area * list string -> res) : res :=
  match list_key p "endpoint" "name" with Some e => k (AListen, [e]) | None => Failed end.

(** Lines 194-222 [nc_server_config_get_ch_endpt]; it is given NULL when the node is not below call-home. *)
Definition ch_endpt (p : place) (c : option string) (k : area * list string -> res) : res :=
  match list_key p "endpoint" "name" with
  | None => Failed
  | Some e => match c with None => Undef | Some c => k (ACallHome, [c; e]) end
  end.

(** Lines 224-247 [nc_server_config_get_ssh_opts] and 342-365 [nc_server_config_get_tls_opts], which differ in the member of
    the union. *)
Definition opts (p : place) (c : option string) (k : area * list string -> res) : res :=
  if is_listen p then endpt p k else ch_endpt p c k.

Definition put (o : area * list string) (f : field) : res := Stored (mkT (fst o) f (snd o)).
Definition put1 (o : area * list string) (k : string) (f : field) : res := Stored (mkT (fst o) f (snd o ++ [k])).

(** Lines 249-279 [nc_server_config_get_hostkey], 281-309 [.._get_auth_client], 367-417 [.._get_cert], 419-459 [.._get_ctn]. *)
Definition entry (p : place) (c : option string) (name key : string) (k : area * list string -> res) : res :=
  opts p c (fun o => match list_key p name key with
                     | Some v => k (fst o, snd o ++ [v])
                     | None => Failed
                     end).
Definition hostkey p c k := entry p c "host-key" "name" k.
Definition auth_client p c k := entry p c "user" "name" k.
Definition ctn p c k := entry p c "cert-to-name" "id" k.

(** Lines 311-340 [nc_server_config_get_pubkey]. *)
Definition pubkey p c k :=
  auth_client p c (fun o => match list_key p "public-key" "name" with
                            | Some v => k (fst o, snd o ++ [v])
                            | None => Failed
                            end).

(** Lines 367-417 [nc_server_config_get_cert]: which certificates depends on the parents, ee-certs first. *)
Definition cert p c (fca fee : field) : res :=
  entry p c "certificate" "name" (fun o =>
    if has_parent p "ee-certs" then put o fee
    else if has_parent p "ca-certs" then put o fca
    else Failed).

(** A handler of a parameter of TCP (lines 1355-1672): depth 1 or 2 below the parameters. *)
Definition tcp (p : place) (depth : nat) (f : field) : res :=
  let ch := if is_ch p
            then parent_is p depth "tcp-client-parameters" (ch_client p (fun c => ch_endpt p (Some c) (fun o => put o f))) Nothing
            else Nothing in
  if is_listen p
  then parent_is p depth "tcp-server-parameters" (endpt p (fun o => put o f)) ch
  else ch.

(** The handlers by the name of the node: lines 3846-3957 [nc_server_config_parse_netconf_server]. *)
Definition client_leaf (p : place) (f : field) : res := ch_client p (fun c => Stored (mkT ACallHome f [c])).
Definition ssh_leaf (p : place) (f : field) : res := maybe_client p (fun c => opts p c (fun o => put o f)).
Definition user_leaf (p : place) (f : field) : res := maybe_client p (fun c => auth_client p c (fun o => put o f)).

Definition h_idle_timeout p : res :=                                            (* 1048-1081 *)
  if is_ch p then client_leaf p FClientIdle else Stored (mkT AListen FListenIdle []).
Definition h_endpoint p : res :=                                                (* 1125-1199 *)
  if is_listen p then endpt p (fun o => put o FEndpoint)
  else if is_ch p then ch_client p (fun c => ch_endpt p (Some c) (fun o => put o FEndpoint))
  else Nothing.
Definition h_transport p f : res :=                                             (* 1226-1352 ssh, tls *)
  if is_listen p then endpt p (fun o => put o f)
  else ch_client p (fun c => ch_endpt p (Some c) (fun o => put o f)).
Definition h_host_key p : res :=                                                (* 1683-1725 *)
  parent_is p 1 "server-identity" (maybe_client p (fun c => hostkey p c (fun o => put o FHostKey))) Nothing.
Definition h_public_key_format p : res :=                                       (* 1728-1795 *)
  maybe_client p (fun c =>
    let tls := if is_tls p then parent_is p 3 "server-identity" (opts p c (fun o => put o FTlsPubFormat)) Nothing else Nothing in
    if is_ssh p
    then parent_is p 4 "server-identity" (hostkey p c (fun o => put o FHkPubFormat))
           (parent_is p 6 "client-authentication" (pubkey p c (fun o => put o FUserKeyFormat)) tls)
    else tls).
Definition h_public_key p : res :=                                              (* 1840-1957 *)
  maybe_client p (fun c =>
    let tls := if is_tls p then parent_is p 3 "server-identity" (opts p c (fun o => put o FTlsPub)) Nothing else Nothing in
    if is_ssh p
    then parent_is p 3 "host-key" (hostkey p c (fun o => put o FHkPub))
           (parent_is p 5 "client-authentication"
              (auth_client p c (fun o => match list_key p "public-key" "name" with
                                         | Some v => put1 o v FUserKey | None => Failed end))
              (parent_is p 6 "client-authentication" (pubkey p c (fun o => put o FUserKeyData)) tls))
    else tls).
Definition h_private_key_format p : res :=                                      (* 1960-2017 *)
  maybe_client p (fun c =>
    if is_ssh p then hostkey p c (fun o => put o FHkPrivFormat)
    else if is_tls p then opts p c (fun o => put o FTlsPrivFormat) else Nothing).
Definition h_cleartext_private_key p : res :=                                   (* 2019-2075 *)
  maybe_client p (fun c =>
    if is_ssh p then hostkey p c (fun o => put o FHkPriv)
    else if is_tls p then opts p c (fun o => put o FTlsPriv) else Nothing).
Definition h_keystore_reference p : res :=                                      (* 2077-2117 *)
  maybe_client p (fun c =>
    if is_ssh p then parent_is p 3 "server-identity" (hostkey p c (fun o => put o FHkKeystore)) Nothing else Nothing).
Definition h_truststore_reference p : res :=                                    (* 2206-2270 *)
  maybe_client p (fun c =>
    let tls := if is_tls p
               then parent_is p 1 "ca-certs" (opts p c (fun o => put o FCaTruststore))
                      (parent_is p 1 "ee-certs" (opts p c (fun o => put o FEeTruststore)) Nothing)
               else Nothing in
    if is_ssh p then parent_is p 1 "public-keys" (auth_client p c (fun o => put o FUserTruststore)) tls else tls).
Definition h_public_keys (del : bool) p : res :=                                         (* 2305-2339 *)
  if del then user_leaf p FUserKeys else Nothing.
Definition h_cert_data p : res :=                                               (* 2882-2932 *)
  maybe_client p (fun c =>
    parent_is p 3 "server-identity" (opts p c (fun o => put o FTlsCert))
      (parent_is p 3 "ca-certs" (cert p c FCaCertData FEeCertData)
         (parent_is p 3 "ee-certs" (cert p c FCaCertData FEeCertData) Nothing))).
Definition h_tls_delete (del : bool) p f : res :=                                        (* 2972-3081: client-authentication, ca-certs, ee-certs *)
  if negb (is_tls p) || negb del then Nothing else ssh_leaf p f.
Definition h_certificate p : res :=                                             (* 3105-3176 *)
  maybe_client p (fun c => opts p c (fun o =>
    parent_is p 1 "central-keystore-reference" (put o FTlsKsCert)
      (parent_is p 2 "ca-certs"
         (match list_key p "certificate" "name" with Some v => put1 o v FCaCert | None => Failed end)
         (parent_is p 2 "ee-certs"
            (match list_key p "certificate" "name" with Some v => put1 o v FEeCert | None => Failed end)
            Nothing)))).
Definition h_ctn p f : res := maybe_client p (fun c => ctn p c (fun o => put o f)).  (* 3266-3345 *)

(** server_opts.binds and ch_endpts with a reference (2799-2880): the name belongs to the endpoint. *)
Definition h_reference p : res := ssh_leaf p FReference.

Definition netconf_server (del : bool) (p : place) : res :=
  match p with
  | [] => Undef
  | e :: _ =>
      let is n := String.eqb (e_name e) n in
      if is "anchor-time" then client_leaf p FAnchor
      else if is "call-home" then Stored (mkT ACallHome FCallHome [])
      else if is "endpoint" then h_endpoint p
      else if is "idle-timeout" then h_idle_timeout p
      else if is "listen" then Stored (mkT AListen FListen [])
      else if is "max-attempts" then client_leaf p FMaxAttempts
      else if is "max-wait" then client_leaf p FMaxWait
      else if is "netconf-client" then client_leaf p FClient
      else if is "period" then client_leaf p FPeriod
      else if is "periodic" then (if del then Nothing else client_leaf p FPeriodic)
      else if is "persistent" then (if del then Nothing else client_leaf p FPersistent)
      else if is "reconnect-strategy" then client_leaf p FReconnect
      else if is "start-with" then client_leaf p FStartWith
      else if is "auth-timeout" then ssh_leaf p FAuthTimeout
      else if is "asymmetric-key" then ssh_leaf p FTlsKsKey
      else if is "ca-certs" then h_tls_delete del p FCaCerts
      else if is "central-keystore-reference" then h_keystore_reference p
      else if is "central-truststore-reference" then h_truststore_reference p
      else if is "cert-data" then h_cert_data p
      else if is "certificate" then h_certificate p
      else if is "cert-to-name" then h_ctn p FCtn
      else if is "cipher-suite" then ssh_leaf p FCipherSuite
      else if is "cleartext-private-key" then h_cleartext_private_key p
      else if is "client-authentication" then h_tls_delete del p FClientAuth
      else if is "ee-certs" then h_tls_delete del p FEeCerts
      else if is "encryption-alg" then ssh_leaf p FEncAlg
      else if is "endpoint-reference" then h_reference p
      else if is "fingerprint" then h_ctn p FCtnFingerprint
      else if is "host-key" then h_host_key p
      else if is "host-key-alg" then ssh_leaf p FHostKeyAlg
      else if is "idle-time" then tcp p 2 FKaIdle
      else if is "keepalives" then tcp p 1 FKeepalives
      else if is "key-exchange-alg" then ssh_leaf p FKexAlg
      else if is "local-address" then tcp p 1 FLocalAddr
      else if is "local-port" then tcp p 1 FLocalPort
      else if is "mac-alg" then ssh_leaf p FMacAlg
      else if is "max-probes" then tcp p 2 FKaProbes
      else if is "none" then user_leaf p FNone
      else if is "password" then user_leaf p FPassword
      else if is "private-key-format" then h_private_key_format p
      else if is "probe-interval" then tcp p 2 FKaInterval
      else if is "public-key" then h_public_key p
      else if is "public-key-format" then h_public_key_format p
      else if is "public-keys" then h_public_keys del p
      else if is "remote-address" then ch_client p (fun c => ch_endpt p (Some c) (fun o => put o FRemoteAddr))
      else if is "remote-port" then ch_client p (fun c => ch_endpt p (Some c) (fun o => put o FRemotePort))
      else if is "ssh" then h_transport p FSsh
      else if is "tls" then h_transport p FTls
      else if is "tls-version" then ssh_leaf p FTlsVersion
      else if is "user" then user_leaf p FUser
      else if is "use-system-auth" then user_leaf p FSystemAuth
      else if is "use-system-keys" then user_leaf p FUserSystemKeys
      else Nothing
  end.

(** server_config_ks.c 49-62, 98-111 and server_config_ts.c 49-62, 98-111, 142-155: the key of the nearest node of this name,
    whose first child is then read. *)
Fixpoint named_key (p : place) (name : string) (k : string -> res) : res :=
  match p with
  | [] => Failed
  | e :: r => if String.eqb (e_name e) name
              then match e_kind e with KList _ v => k v | _ => Undef end
              else named_key r name k
  end.

(** server_config_ts.c 191-200: the leaf public-key is passed over. *)
Fixpoint pubkey_key (p : place) (k : string -> res) : res :=
  match p with
  | [] => Failed
  | e :: r => if String.eqb (e_name e) "public-key"
              then match e_kind e with KList _ v => k v | _ => pubkey_key r k end
              else pubkey_key r k
  end.

(** server_config_ks.c 386-418 [nc_server_config_parse_keystore] with its handlers (185-384). *)
Definition keystore (del : bool) (p : place) : res :=
  match p with
  | [] => Undef
  | e :: _ =>
      let is n := String.eqb (e_name e) n in
      let key f := named_key p "asymmetric-key" (fun a => Stored (mkT AKeystore f [a])) in
      let cert f := named_key p "asymmetric-key" (fun a =>
                      named_key p "certificate" (fun c => Stored (mkT AKeystore f [a; c]))) in
      if is "keystore" then Stored (mkT AKeystore FKeystore [])
      else if is "asymmetric-keys" then Stored (mkT AKeystore FAsymKeys [])
      else if is "asymmetric-key" then key FAsymKey
      else if is "public-key-format" then key FAkPubFormat
      else if is "public-key" then key FAkPub
      else if is "private-key-format" then key FAkPrivFormat
      else if is "cleartext-private-key" then key FAkPriv
      else if is "certificate" then cert FAkCert
      else if is "cert-data" then cert FAkCertData
      else Nothing
  end.

(** server_config_ts.c 541-573 [nc_server_config_parse_truststore] with its handlers (340-539). *)
Definition truststore (del : bool) (p : place) : res :=
  match p with
  | [] => Undef
  | e :: _ =>
      let is n := String.eqb (e_name e) n in
      let cert f := named_key p "certificate-bag" (fun b =>
                      named_key p "certificate" (fun c => Stored (mkT ATruststore f [b; c]))) in
      let key f := named_key p "public-key-bag" (fun b =>
                      pubkey_key p (fun k => Stored (mkT ATruststore f [b; k]))) in
      if is "truststore" then Stored (mkT ATruststore FTruststore [])
      else if is "certificate-bags" then Stored (mkT ATruststore FCertBags [])
      else if is "certificate-bag" then named_key p "certificate-bag" (fun b => Stored (mkT ATruststore FCertBag [b]))
      else if is "certificate" then cert FCbCert
      else if is "cert-data" then cert FCbCertData
      else if is "public-key-bags" then Stored (mkT ATruststore FKeyBags [])
      else if is "public-key-bag" then named_key p "public-key-bag" (fun b => Stored (mkT ATruststore FKeyBag [b]))
      else if is "public-key" then
        named_key p "public-key-bag" (fun b =>
          parent_is p 1 "public-key-bag" (key FKbKey) (key FKbKeyData))
      else if is "public-key-format" then key FKbKeyFormat
      else Nothing
  end.
