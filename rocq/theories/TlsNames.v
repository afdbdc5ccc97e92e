(** TLS server: fingerprints, certificate-to-name mapping and certificate verification.
    session_server_tls.c, session_openssl.c, session_mbedtls.c *)
From Coq Require Import Ascii String NArith ZArith Bool Lia List.
From Verif Require Import Bytes CStr ClientMsgs.
Import ListNotations.
Local Open Scope N_scope.

(* ------------------------------------------------------------------ *)
(** ** Fingerprints *)

(** A block of memory; [None]: not written yet. *)
Definition block := list (option ascii).
Definition new_block (n : N) : block := repeat None (N.to_nat n).

(** Writing a string at an offset; [None]: outside of the block. *)
Definition put (m : block) (off : nat) (s : bytes) : option block :=
  if (Nat.leb (off + length s) (length m))
  then Some (firstn off m ++ map Some s ++ skipn (off + length s) m) else None.

(** The C string in a block; [None]: something not written, or after the end, is read. *)
Fixpoint cstring (m : block) : option bytes :=
  match m with
  | Some c :: m' => if Ascii.eqb c NUL then Some [] else match cstring m' with Some s => Some (c :: s) | None => None end
  | _ => None
  end.

Definition hex_chars : bytes := bs "0123456789abcdef".
Definition hexc (n : N) : ascii := nth (N.to_nat n) hex_chars NUL.
(** sprintf("%02x") of an unsigned char. *)
Definition pct02x (b : ascii) : bytes := [hexc (N_of_ascii b / 16); hexc (N_of_ascii b mod 16)].

(** session_server_tls.c 129-132: the loop and the last sprintf(), from the [i]th byte on. *)
Fixpoint hex_loop (m : block) (i : nat) (d : bytes) : option block :=
  match d with
  | [] => None
  | [b] => put m (i * 3) (pct02x b ++ [NUL])
  | b :: d' => match put m (i * 3) (pct02x b ++ bs ":" ++ [NUL]) with None => None | Some m' => hex_loop m' (S i) d' end
  end.

(** session_server_tls.c 121-136 [nc_server_tls_digest_to_hex]; malloc() is taken to succeed.  [None]: undefined.
    For [digest_len] 0 the bound [digest_len - 1] is UINT_MAX. *)
Definition digest_to_hex (d : bytes) : option bytes :=
  match hex_loop (new_block (lenN d * 3)) 0 d with Some m => cstring m | None => None end.

(** tolower() in the C locale. *)
Definition lower (c : ascii) : ascii :=
  let n := N_of_ascii c in if (65 <=? n) && (n <=? 90) then ascii_of_N (n + 32) else c.
(** strcasecmp() = 0 *)
Definition casecmp (a b : bytes) : bool := beqb (map lower a) (map lower b).

(* ------------------------------------------------------------------ *)
(** ** Certificates *)

(** A subject alternative name as OpenSSL gives it. *)
Inductive san := SanMail (v : bytes) | SanDns (v : bytes) | SanIp (v : bytes) | SanOther | SanError.

(** The parts of a certificate the code looks at.  [ct_subject]: attribute types and values of the subject in order
    ([None]: cannot be printed); [ct_sans = None]: none. *)
Record cert := mkCert { ct_der : bytes; ct_subject : option (list (bytes * bytes)); ct_issuer : bool; ct_sans : option (list san) }.

(** X509_NAME_oneline(), session_openssl.c 392-396.  Escaping of unprintable characters is not represented. *)
Definition oneline (l : list (bytes * bytes)) : bytes := flat_map (fun x => bs "/" ++ fst x ++ bs "=" ++ snd x) l.

Inductive maptype := MtUnknown | MtSpecified | MtMail | MtDns | MtIp | MtAny | MtCn.

(** session_p.h [struct nc_ctn] *)
Record ctn := mkCtn { cn_fp : option bytes; cn_type : maptype; cn_name : option bytes }.

Inductive alg := Md5 | Sha1 | Sha224 | Sha256 | Sha384 | Sha512.

Definition SLASH : ascii := "/"%char.
Definition COMMA : ascii := ","%char.

Inductive nres := NName (u : bytes) | NNone | NFatal | NUb.

(** session_openssl.c 428-487 [nc_tls_get_san_value_type_wrap]: value and type; [inl]: 1 (not cared about), [inr]: -1.
    strdup() of the data takes what is before the first NUL. *)
Definition san_value (s : san) : (bytes * maptype) + bool :=
  match s with
  | SanMail v => inl (cstr v, MtMail)
  | SanDns v => inl (cstr v, MtDns)
  | SanIp v => match v with
               | [a; b; c; d] => inl (dec (N_of_ascii a) ++ bs "." ++ dec (N_of_ascii b) ++ bs "." ++ dec (N_of_ascii c) ++ bs "." ++ dec (N_of_ascii d), MtIp)
               | _ => if lenN v =? 16 then inl (flat_map pct02x v, MtIp) else inr false
               end
  | SanOther => inr false
  | SanError => inr true
  end.

Definition mt_eqb (a b : maptype) : bool :=
  match a, b with
  | MtUnknown, MtUnknown | MtSpecified, MtSpecified | MtMail, MtMail | MtDns, MtDns | MtIp, MtIp | MtAny, MtAny | MtCn, MtCn => true
  | _, _ => false
  end.

(** session_server_tls.c 284-303: the loop over the names. *)
Fixpoint find_san (t : maptype) (l : list san) : nres :=
  match l with
  | [] => NNone
  | s :: l' => match san_value s with
               | inr true => NFatal
               | inr false => find_san t l'
               | inl (v, st) => if mt_eqb t MtAny || mt_eqb t st then NName v else find_san t l'
               end
  end.

(** session_mbedtls.c 85-107 [nc_server_tls_dn2str]: the subject as mbedtls_x509_dn_gets() prints it. *)
Fixpoint dn_gets (l : list (bytes * bytes)) : bytes :=
  match l with
  | [] => []
  | [x] => fst x ++ bs "=" ++ snd x
  | x :: l' => fst x ++ bs "=" ++ snd x ++ bs ", " ++ dn_gets l'
  end.

(** session_server_tls.c 263-276: the common name in the printed subject. *)
Definition common_name (sep : ascii) (subject : bytes) : option bytes :=
  match strstr subject (bs "CN=") with
  | None => None
  | Some r => Some (before sep (skipn 3 r))
  end.

(** session_server_tls.c 240-330 [nc_server_tls_get_username].  [sep] is the separator chosen by lines 248-252
    (the macro tested there is not defined by any build, so it is '/').  strdup() is taken to succeed. *)
Definition get_username (sep : ascii) (c : cert) (e : ctn) : nres :=
  match cn_type e with
  | MtSpecified => match cn_name e with Some n => NName n | None => NUb end
  | MtCn => match ct_subject c with
            | None => NFatal
            | Some l => match common_name sep (oneline l) with None => NNone | Some u => NName u end
            end
  | t => match ct_sans c with None => NNone | Some l => find_san t l end
  end.

Section Tls.
(** X509_digest() *)
Variable digest : alg -> cert -> option bytes.

Definition algs : list (bytes * alg) :=
  [(bs "01", Md5); (bs "02", Sha1); (bs "03", Sha224); (bs "04", Sha256); (bs "05", Sha384); (bs "06", Sha512)].

Inductive fres := FMatch | FNo | FFatal | FUb.

(** session_server_tls.c 361-459: the fingerprint.  [fingerprint + 3] is past the terminator when there are only the
    two digits of the algorithm. *)
Definition fingerprint (fp : option bytes) (c : cert) : fres :=
  match fp with
  | None => FMatch
  | Some f =>
      match find (fun a => strncmp0 f (fst a) 2) algs with
      | None => FNo
      | Some (_, a) =>
          match digest a c with
          | None => FFatal
          | Some d => match digest_to_hex d with
                      | None => FUb
                      | Some h => if lenN f <? 3 then FUb else if casecmp (skipn 3 f) h then FMatch else FNo
                      end
          end
      end
  end.

(** session_server_tls.c 347-474: the loop over the chain. *)
Fixpoint chain_name (e : ctn) (chain : list cert) : nres :=
  match chain with
  | [] => NNone
  | c :: chain' =>
      match fingerprint (cn_fp e) c with
      | FFatal => NFatal
      | FUb => NUb
      | FNo => chain_name e chain'
      | FMatch => match get_username SLASH c e with
                  | NNone => chain_name e chain'
                  | r => r
                  end
      end
  end.

(** session_server_tls.c 332-478 [nc_server_tls_cert_to_name] *)
Definition cert_to_name (e : ctn) (chain : list cert) : nres :=
  match cn_type e, cn_name e with
  | MtUnknown, _ => NNone
  | MtSpecified, None => NNone
  | _, _ => chain_name e chain
  end.

(** Certificates of an endpoint: session_p.h [struct nc_cert_grouping]. *)
Inductive grouping := GLocal (l : list bytes) | GTruststore (r : bytes).
Record tlsopts := mkTls { to_ctn : list ctn; to_ref : option bytes; to_ee : grouping }.

Fixpoint entries_name (l : list ctn) (chain : list cert) : nres :=
  match l with
  | [] => NNone
  | e :: l' => match cert_to_name e chain with NNone => entries_name l' chain | r => r end
  end.

(** nc_server_get_referenced_endpt(), session_server.c 116-129, for endpoints with TLS. *)
Variable endpts : list (bytes * tlsopts).
Definition referenced (n : bytes) : option tlsopts :=
  match find (fun x => streq n (fst x)) endpts with Some x => Some (snd x) | None => None end.

(** session_server_tls.c 480-516 [_nc_server_tls_cert_to_name] *)
Definition opts_name (o : tlsopts) (chain : list cert) : nres :=
  match entries_name (to_ctn o) chain with
  | NNone => match to_ref o with
             | None => NNone
             | Some n => match referenced n with None => NFatal | Some o' => entries_name (to_ctn o') chain end
             end
  | r => r
  end.

(* ------------------------------------------------------------------ *)
(** ** Verification *)

Variable truststore : list (bytes * list bytes).
(** [nc_base64der_to_cert()] *)
Variable import : bytes -> option cert.

Definition group_certs (g : grouping) : option (list bytes) :=
  match g with
  | GLocal l => Some l
  | GTruststore r => match find (fun x => streq r (fst x)) truststore with Some x => Some (snd x) | None => None end
  end.

Inductive vres := VOk | VNo | VFatal | VUb.

(** session_server_tls.c 537-550: the loop; X509_cmp() with NULL is undefined. *)
Fixpoint ee_loop (c : cert) (l : list bytes) : vres :=
  match l with
  | [] => VNo
  | b :: l' => match import b with
               | None => VUb
               | Some c' => if beqb (ct_der c) (ct_der c') then VOk else ee_loop c l'
               end
  end.

(** session_server_tls.c 518-553 [_nc_server_tls_verify_peer_cert] *)
Definition verify_peer1 (c : cert) (g : grouping) : vres :=
  match group_certs g with None => VFatal | Some l => ee_loop c l end.

(** session_server_tls.c 555-579 [nc_server_tls_verify_peer_cert] *)
Definition verify_peer (c : cert) (o : tlsopts) : vres :=
  match verify_peer1 c (to_ee o) with
  | VOk => VOk
  | VUb => VUb
  | _ => match to_ref o with
         | None => VNo
         | Some n => match referenced n with
                     | None => VFatal
                     | Some o' => match verify_peer1 c (to_ee o') with VOk => VOk | VUb => VUb | _ => VNo end
                     end
         end
  end.

(** [server_opts.user_verify_clb] *)
Variable user_clb : option (bytes -> bool).

(** session_server_tls.c 581-647 [nc_server_tls_verify_cert]: the user name of the session before and after. *)
Definition verify_cert (o : tlsopts) (chain : list cert) (c : cert) (depth : N) (trusted : bool) (user : option bytes)
    : vres * option bytes :=
  match user with
  | Some _ => (VOk, user)
  | None =>
      match ct_subject c, ct_issuer c with
      | Some _, true =>
          if depth =? 0 then
            match (if trusted then VOk else verify_peer c o) with
            | VOk =>
                match opts_name o chain with
                | NFatal => (VFatal, None)
                | NUb => (VUb, None)
                | NNone => (VNo, None)
                | NName u => match user_clb with
                             | Some f => if f u then (VOk, Some u) else (VNo, Some u)
                             | None => (VOk, Some u)
                             end
                end
            | r => (r, None)
            end
          else (VOk, None)
      | _, _ => (VFatal, None)
      end
  end.

(** Errors of OpenSSL's verification. *)
Inductive xerr := DepthZeroSelfSigned | UnableToVerifyLeaf | NoIssuer | NoIssuerLocally | SelfSignedInChain | OtherError (n : N).

(** One call of the verification callback: success ([None]) or an error, at a depth, for a certificate. *)
Record event := mkEv { ev_err : option xerr; ev_depth : N; ev_cert : cert }.

(** session_openssl.c 290-375 [nc_server_tls_verify_cb]: result 1 (true) or 0, and the user name.  [leaf] is the
    certificate of the client (X509_STORE_CTX_get0_cert), [chain] the chain at the first call.  Duplicating the
    certificate is taken to succeed. *)
Definition verify_cb (o : tlsopts) (chain : list cert) (leaf : cert) (e : event) (user : option bytes) : option (bool * option bytes) :=
  let d := ev_depth e in
  let '(r, user') :=
    match ev_err e with
    | None => verify_cert o chain (ev_cert e) d true user
    | Some x =>
        match x with
        | DepthZeroSelfSigned | UnableToVerifyLeaf =>
            if d =? 0 then verify_cert o chain (ev_cert e) d false user else (VNo, user)
        | NoIssuer | NoIssuerLocally => verify_cert o chain (ev_cert e) d false user
        | SelfSignedInChain => (match verify_peer leaf o with VOk => VOk | VUb => VUb | _ => VFatal end, user)
        | OtherError _ => (VNo, user)
        end
    end in
  match r with
  | VUb => None
  | VFatal => Some (false, user')
  | VOk => Some (true, user')
  | VNo => Some (0 <? d, user')
  end.

(** The verification as a whole: OpenSSL goes on while the callback returns 1.  [nc_server_tls_accept_check]
    (session_server_tls.c 746-766) only prints the result of SSL_get_verify_result(), so the client is accepted exactly if
    every call returned 1. *)
Fixpoint verify_run (o : tlsopts) (chain : list cert) (leaf : cert) (evs : list event) (user : option bytes)
    : option (bool * option bytes) :=
  match evs with
  | [] => Some (true, user)
  | e :: evs' => match verify_cb o chain leaf e user with
                 | None => None
                 | Some (false, u) => Some (false, u)
                 | Some (true, u) => verify_run o chain leaf evs' u
                 end
  end.

(** mbedTLS: flags of one certificate. *)
Inductive mflags := FlOk | FlNotTrusted | FlMissing | FlOther (n : N).
Record mevent := mkMev { me_flags : mflags; me_depth : N; me_cert : cert }.

(** session_mbedtls.c 508-581 [nc_server_tls_verify_cb]: 0 (true), the flags afterwards and the user name.  The chain
    is collected from the calls, so the client's certificate is last.  Allocations are taken to succeed. *)
Definition mverify_cb (o : tlsopts) (chain : list cert) (e : mevent) (user : option bytes)
    : option (bool * mflags * option bytes) :=
  let d := me_depth e in
  let chain := chain ++ [me_cert e] in
  let clear (r : vres) f := match r with VOk => FlOk | _ => f end in
  let '(r, user', f) :=
    match me_flags e with
    | FlOk => let '(r, u) := verify_cert o chain (me_cert e) d true user in (r, u, FlOk)
    | FlNotTrusted => if d =? 0 then let '(r, u) := verify_cert o chain (me_cert e) d false user in (r, u, clear r FlNotTrusted)
                      else (VNo, user, FlNotTrusted)
    | FlMissing => let '(r, u) := verify_cert o chain (me_cert e) d false user in (r, u, clear r FlMissing)
    | FlOther n => (VNo, user, FlOther n)
    end in
  match r with
  | VUb => None
  | VFatal => Some (false, f, user')
  | VOk => Some (true, f, user')
  | VNo => Some (true, if d =? 0 then match f with FlOk => FlOther 0 | _ => f end else f, user')
  end.

(** mbedtls_x509_crt_verify: the callback is called from the top of the chain down; the client is refused if a call
    fails or any flags remain. *)
Fixpoint mverify_run (o : tlsopts) (chain : list cert) (evs : list mevent) (user : option bytes) (good : bool)
    : option (bool * option bytes) :=
  match evs with
  | [] => Some (good, user)
  | e :: evs' => match mverify_cb o chain e user with
                 | None => None
                 | Some (false, _, u) => Some (false, u)
                 | Some (true, f, u) => mverify_run o (chain ++ [me_cert e]) evs' u (good && match f with FlOk => true | _ => false end)
                 end
  end.
End Tls.
