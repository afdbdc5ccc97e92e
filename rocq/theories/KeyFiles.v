(** Keys and certificates read from files by the helpers that make configurations (server_config_util.c), the
    base64 functions, and the texts in PEM the server makes from a configuration again. *)
From Coq Require Import Ascii String NArith ZArith Bool Lia List.
From Verif Require Import Bytes CStr SshAuth SshKeys.
Import ListNotations.
Local Open Scope N_scope.
Local Open Scope list_scope.

(* ------------------------------------------------------------------ *)
(** ** Base64 (session_openssl.c 864-905) *)

(** EVP_EncodeBlock() and EVP_DecodeBlock() of OpenSSL, of which the code is not in the repository; shifts and
    masks are written as division and remainder.  Their alphabet: *)
Definition alphabet : bytes := bs "ABCDEFGHIJKLMNOPQRSTUVWXYZabcdefghijklmnopqrstuvwxyz0123456789+/".
Definition b64char (n : N) : ascii := nth (N.to_nat n) alphabet NUL.

(** What a character is to EVP_DecodeBlock(): a value (= counts as 0), a blank, an end (line ends and -), or
    nothing. *)
Inductive cls := CVal (n : N) | CWs | CEnd | CBad.
Fixpoint index (c : ascii) (l : bytes) (i : N) : option N :=
  match l with [] => None | x :: l' => if Ascii.eqb x c then Some i else index c l' (i + 1) end.
Definition conv (c : ascii) : cls :=
  if Ascii.eqb c "=" then CVal 0
  else match index c alphabet 0 with
       | Some n => CVal n
       | None => if Ascii.eqb c " " || Ascii.eqb c "009" then CWs
                 else if Ascii.eqb c NL || Ascii.eqb c "013" || Ascii.eqb c "-" then CEnd else CBad
       end.

Fixpoint evp_encode (b : bytes) : bytes :=
  match b with
  | [] => []
  | [x] => let a := N_of_ascii x in [b64char (a / 4); b64char (a mod 4 * 16); "="%char; "="%char]
  | [x; y] => let a := N_of_ascii x in let c := N_of_ascii y in
      [b64char (a / 4); b64char (a mod 4 * 16 + c / 16); b64char (c mod 16 * 4); "="%char]
  | x :: y :: z :: r => let a := N_of_ascii x in let c := N_of_ascii y in let d := N_of_ascii z in
      b64char (a / 4) :: b64char (a mod 4 * 16 + c / 16) :: b64char (c mod 16 * 4 + d / 64) :: b64char (d mod 64)
        :: evp_encode r
  end.

Fixpoint skip_ws (s : bytes) : bytes :=
  match s with c :: r => match conv c with CWs => skip_ws r | _ => s end | [] => [] end.
(** On the text reversed: while more than three characters are left, ends and blanks are dropped. *)
Fixpoint drop_end (s : bytes) : bytes :=
  match s with
  | c :: r => match conv c with
              | CWs | CEnd => if (3 <? lenN s) then drop_end r else s
              | _ => s
              end
  | [] => []
  end.
Fixpoint groups (s : bytes) : option bytes :=
  match s with
  | [] => Some []
  | w :: x :: y :: z :: r =>
      match conv w, conv x, conv y, conv z, groups r with
      | CVal a, CVal b, CVal c, CVal d, Some o =>
          let l := a * 262144 + b * 4096 + c * 64 + d in
          Some (ascii_of_N (l / 65536 mod 256) :: ascii_of_N (l / 256 mod 256) :: ascii_of_N (l mod 256) :: o)
      | _, _, _, _, _ => None
      end
  | _ => None
  end.
Definition evp_decode (s : bytes) : option bytes := groups (rev (drop_end (rev (skip_ws s)))).

(** A buffer got from malloc(): what is put in must fit. *)
Definition into (size : N) (s : bytes) : pres bytes := if lenN s <=? size then POk s else PUb.

(** session_openssl.c 863-880 [nc_base64_decode_wrap]. *)
Definition base64_decode (s : bytes) : pres bytes :=
  match evp_decode s with
  | Some b => into (lenN s / 4 * 3) b
  | None => PErr
  end.

(** session_openssl.c 882-905 [nc_base64_encode_wrap]; EVP_EncodeBlock() also writes the NUL at the end.
    Allocation does not fail here. *)
Definition base64_encode (b : bytes) : pres bytes :=
  let len := lenN b in
  let size := if len mod 3 =? 0 then len / 3 * 4 + 1 else len / 3 * 4 + 4 + 1 in
  match into size (evp_encode b ++ [NUL]) with POk _ => POk (evp_encode b) | PErr => PErr | PUb => PUb end.

(* ------------------------------------------------------------------ *)
(** ** Public keys in the format of SSH (server_config_util.c 221-402) *)

(** BN_bn2bin(), mbedtls_mpi_write_binary(): the bytes of a number, the highest first, none for 0. *)
Fixpoint be_bytes (fuel : nat) (n : N) (acc : bytes) : bytes :=
  match fuel with
  | O => acc
  | S k => if n =? 0 then acc else be_bytes k (n / 256) (ascii_of_N (n mod 256) :: acc)
  end.
Definition bn2bin (n : N) : bytes := be_bytes (N.to_nat (N.size n)) n [].

(** The low [k] bytes of a number, the highest first. *)
Fixpoint low_bytes (k : nat) (n : N) (acc : bytes) : bytes :=
  match k with O => acc | S k' => low_bytes k' (n / 256) (ascii_of_N (n mod 256) :: acc) end.

(** htonl() and memcpy() of four bytes. *)
Definition be4 (n : N) : bytes := low_bytes 4 n [].

(** server_config_util.c 221-253 [nc_server_config_util_rsa_pubkey_param_to_bin] with [nc_tls_mpi2bin_wrap]
    (session_openssl.c 1272-1282, session_mbedtls.c 1533-1554).  The first byte is looked at even if there is
    none. *)
Definition rsa_param_to_bin (bn : N) : pres bytes :=
  match bn2bin bn with
  | [] => PUb
  | x :: r => if 128 <=? N_of_ascii x then POk (NUL :: x :: r) else POk (x :: r)
  end.

(** The TLS library the code is built with. *)
Inductive tlslib := OpenSSL | MbedTLS.

(** A key as a TLS library has it.  For an elliptic curve: the name of the group in that library, the prime
    of its field, how many bytes a number below it takes, and the coordinates of the public point. *)
Inductive pkey :=
| Rsa (e n : N)
| Ec (group : bytes) (prime : N) (flen : nat) (x y : N)
| OtherKey.

(** session_openssl.c 1233-1258 [nc_tls_get_ec_pubkey_params_wrap], [nc_tls_ec_point_to_bin_wrap]: the
    parameter named p of an EC key is asked for, which is the prime of the field (OSSL_PKEY_PARAM_EC_P, manual
    page EVP_PKEY-EC).  session_mbedtls.c 1446-1517: the point in compressed form. *)
Definition ec_point_to_bin (lib : tlslib) (prime : N) (flen : nat) (x y : N) : bytes :=
  match lib with
  | OpenSSL => bn2bin prime
  | MbedTLS => ascii_of_N (2 + y mod 2) :: low_bytes flen x []
  end.

(** server_config_util.c 319-333: names of the algorithm and the curve. *)
Definition curve_of (group : bytes) : option (bytes * bytes) :=
  if streq group (bs "P-256") || streq group (bs "secp256r1") || streq group (bs "prime256v1")
  then Some (bs "ecdsa-sha2-nistp256", bs "nistp256")
  else if streq group (bs "P-384") || streq group (bs "secp384r1") then Some (bs "ecdsa-sha2-nistp384", bs "nistp384")
  else if streq group (bs "P-521") || streq group (bs "secp521r1") then Some (bs "ecdsa-sha2-nistp521", bs "nistp521")
  else None.

(** server_config_util.c 256-402 [nc_server_config_util_pkey_to_ssh_pubkey].  Lengths are [int]; getting the
    parameters of a key does not fail. *)
Definition pkey_to_ssh_pubkey (lib : tlslib) (k : pkey) : pres bytes :=
  match k with
  | Rsa e n =>
      match rsa_param_to_bin e, rsa_param_to_bin n with
      | POk eb, POk nb =>
          let alg := bs "ssh-rsa" in
          match into (4 + lenN alg + 4 + lenN eb + 4 + lenN nb)
                     (be4 (lenN alg) ++ alg ++ be4 (lenN eb) ++ eb ++ be4 (lenN nb) ++ nb) with
          | POk bin => base64_encode bin
          | r => r
          end
      | PUb, _ | _, PUb => PUb
      | _, _ => PErr
      end
  | Ec group prime flen x y =>
      match curve_of group with
      | Some (alg, curve) =>
          let p := ec_point_to_bin lib prime flen x y in
          match into (4 + lenN alg + 4 + lenN curve + 4 + lenN p)
                     (be4 (lenN alg) ++ alg ++ be4 (lenN curve) ++ curve ++ be4 (lenN p) ++ p) with
          | POk bin => base64_encode bin
          | r => r
          end
      | None => PErr
      end
  | OtherKey => PErr
  end.

(* ------------------------------------------------------------------ *)
(** ** Texts in PEM (server_config_util.h 25-68) *)

(** NC_PKCS8_PRIVKEY_HEADER and the others: BEGIN and END lines with a label between. *)
Definition header (label : bytes) : bytes := bs "-----BEGIN " ++ label ++ bs "-----" ++ [NL].
Definition footer (label : bytes) : bytes := [NL] ++ bs "-----END " ++ label ++ bs "-----" ++ [NL].
Definition SSH2_HEADER : bytes := bs "---- BEGIN SSH2 PUBLIC KEY ----" ++ [NL].
Definition PUBLIC : bytes := bs "PUBLIC KEY".
Definition CERT : bytes := bs "CERTIFICATE".

(** NC_PRIVKEY_FORMAT (session_p.h 78-84). *)
Inductive pkfmt := FmtRsa | FmtEc | FmtX509 | FmtOpenssh.
Definition label_of (f : pkfmt) : bytes :=
  match f with
  | FmtX509 => bs "PRIVATE KEY"
  | FmtOpenssh => bs "OPENSSH PRIVATE KEY"
  | FmtRsa => bs "RSA PRIVATE KEY"
  | FmtEc => bs "EC PRIVATE KEY"
  end.

(** [strncmp(s, h, strlen(h)) == 0] *)
Definition starts (s h : bytes) : bool := prefixb h s.

(** [strndup(s + a, strlen(s) - a - b)] for a text of at least [a] characters; [size_t] wraps round. *)
Definition strip (s h f : bytes) : bytes :=
  let n := Z.to_N ((Z.of_N (lenN s) - Z.of_N (lenN h) - Z.of_N (lenN f)) mod 18446744073709551616) in
  takeN n (dropN (lenN h) s).

(** server_config_util.c 405-427 [nc_server_config_util_pkey_to_spki_pubkey]; [export]: the text
    [nc_tls_export_pubkey_pem_wrap] gives. *)
Definition pkey_to_spki_pubkey (export : pkey -> option bytes) (k : pkey) : pres bytes :=
  match export k with Some s => POk (strip s (header PUBLIC) (footer PUBLIC)) | None => PErr end.

(** server_config_util.c 429-458 [nc_server_config_util_read_certificate]; [pem]: the certificate read from
    the file and written as PEM by the TLS library. *)
Definition read_certificate (pem : option bytes) : pres bytes :=
  match pem with Some s => POk (strip s (header CERT) (footer CERT)) | None => PErr end.

(** server_config_util.c 637-660 [nc_server_config_util_get_privkey_format]. *)
Definition get_privkey_format (s : bytes) : option pkfmt :=
  if starts s (header (label_of FmtX509)) then Some FmtX509
  else if starts s (header (label_of FmtOpenssh)) then Some FmtOpenssh
  else if starts s (header (label_of FmtRsa)) then Some FmtRsa
  else if starts s (header (label_of FmtEc)) then Some FmtEc
  else None.

(** server_config_util.c 727-757 [nc_server_config_util_pem_strip_header_footer]. *)
Definition pem_strip (s : bytes) : option bytes :=
  if starts s (header (label_of FmtX509)) then Some (strip s (header (label_of FmtX509)) (footer (label_of FmtX509)))
  else if starts s (header (label_of FmtOpenssh)) then Some (strip s (header (label_of FmtOpenssh)) (footer (label_of FmtOpenssh)))
  else if starts s (header (label_of FmtRsa)) then Some (strip s (header (label_of FmtRsa)) (footer (label_of FmtRsa)))
  else if starts s (header (label_of FmtEc)) then Some (strip s (header (label_of FmtEc)) (footer (label_of FmtEc)))
  else None.

(** The libraries that read and write key files.  Files are given by their contents, [None] if a file cannot
    be opened; each library reads the file again. *)
Record keylibs := mkLibs {
  kl_tls_import : bytes -> option pkey;       (* nc_tls_import_privkey_file_wrap *)
  kl_tls_export : pkey -> option bytes;       (* nc_tls_export_privkey_pem_wrap *)
  kl_ssh_export : bytes -> option bytes;      (* ssh_pki_import_privkey_file and ssh_pki_export_privkey_base64 *)
  kl_tls_parse : bytes -> option pkey;        (* nc_tls_pem_to_privkey_wrap *)
  kl_pub_import : bytes -> option pkey;       (* nc_tls_import_pubkey_file_wrap *)
  kl_pub_export : pkey -> option bytes;       (* nc_tls_export_pubkey_pem_wrap *)
  kl_ssh_pub : bytes -> option (option bytes) (* ssh_pki_import_pubkey_file; then ssh_pki_export_pubkey_base64 *)
}.

(** server_config_util.c 759-837 [nc_server_config_util_get_privkey] with 662-725 [..._libtls] and
    [..._libssh]: the format, the text without its first and last line, and the key. *)
Definition get_privkey (L : keylibs) (file : option bytes) : option (pkfmt * bytes * pkey) :=
  match file with
  | None => None
  | Some f =>
      match getlines [] f with
      | [] => None
      | h :: _ =>
          match get_privkey_format (cstr h) with
          | None => None
          | Some fm =>
              let r := match fm with
                       | FmtRsa | FmtEc | FmtX509 =>
                           match kl_tls_import L f with
                           | None => None
                           | Some k => match kl_tls_export L k with None => None | Some s => Some (s, k) end
                           end
                       | FmtOpenssh =>
                           match kl_ssh_export L f with
                           | None => None
                           | Some s => match kl_tls_parse L s with None => None | Some k => Some (s, k) end
                           end
                       end in
              match r with
              | None => None
              | Some (s, k) =>
                  match get_privkey_format s with
                  | None => None
                  | Some fm' => match pem_strip s with None => None | Some t => Some (fm', t, k) end
                  end
              end
          end
      end
  end.

(** server_config_util.c 460-518 [nc_server_config_util_read_ssh2_pubkey]: the loop over the lines of the file
    and the text collected. *)
Fixpoint ssh2_lines (ls : list bytes) (acc : bytes) : bytes :=
  match ls with
  | [] => acc
  | l :: ls' =>
      if starts (cstr l) (bs "----") then ssh2_lines ls' acc
      else if starts (cstr l) (bs "Comment:") then ssh2_lines ls' acc
      else ssh2_lines ls' (acc ++ (if Ascii.eqb (last l NUL) NL then removelast l else l))
  end.
Definition read_ssh2_pubkey (f : bytes) : option bytes :=
  match ssh2_lines (getlines [] f) [] with [] => None | s => Some (cstr s) end.

(** server_config_util.c 564-610 [nc_server_config_util_get_ssh_pubkey_file] with 520-562
    [..._read_spki_pubkey], [..._read_openssh_pubkey].  [POk None]: 0 is returned and there is no text (557:
    the result of the export is dropped). *)
Definition get_ssh_pubkey_file (lib : tlslib) (L : keylibs) (file : option bytes) : pres (option bytes) :=
  match file with
  | None => PErr
  | Some f =>
      match getlines [] f with
      | [] => PErr
      | h :: _ =>
          if starts (cstr h) (header PUBLIC) then
            match kl_pub_import L f with
            | None => PErr
            | Some k => match pkey_to_ssh_pubkey lib k with POk s => POk (Some s) | PErr => PErr | PUb => PUb end
            end
          else if starts (cstr h) SSH2_HEADER then
            match read_ssh2_pubkey f with None => PErr | Some s => POk (Some s) end
          else match kl_ssh_pub L f with None => PErr | Some r => POk r end
      end
  end.

(** server_config_util.c 612-635 [nc_server_config_util_get_spki_pubkey_file]. *)
Definition get_spki_pubkey_file (L : keylibs) (file : option bytes) : pres (option bytes) :=
  match file with
  | None => PErr
  | Some f => match kl_pub_import L f with
              | None => PErr
              | Some k => match pkey_to_spki_pubkey (kl_pub_export L) k with POk s => POk (Some s) | PErr => PErr | PUb => PUb end
              end
  end.

(** server_config_util.c 839-884 [nc_server_config_util_get_asym_key_pair]; [pubfile]: the outer [None] is no
    path given; [ssh]: the format wanted is NC_PUBKEY_FORMAT_SSH. *)
Definition get_asym_key_pair (lib : tlslib) (L : keylibs) (privfile : option bytes) (pubfile : option (option bytes)) (ssh : bool)
  : pres (bytes * pkfmt * option bytes) :=
  match get_privkey L privfile with
  | None => PErr
  | Some (fm, priv, k) =>
      let r := match pubfile with
               | None => if ssh then match pkey_to_ssh_pubkey lib k with POk s => POk (Some s) | PErr => PErr | PUb => PUb end
                         else match pkey_to_spki_pubkey (kl_pub_export L) k with POk s => POk (Some s) | PErr => PErr | PUb => PUb end
               | Some pf => if ssh then get_ssh_pubkey_file lib L pf else get_spki_pubkey_file L pf
               end in
      match r with POk pub => POk (priv, fm, pub) | PErr => PErr | PUb => PUb end
  end.

(** server_config_util.c 203-219 [nc_server_config_util_privkey_format_to_identityref]: the module and the
    identity. *)
Definition identityref (f : pkfmt) : bytes * bytes :=
  match f with
  | FmtRsa => (bs "ietf-crypto-types", bs "rsa-private-key-format")
  | FmtEc => (bs "ietf-crypto-types", bs "ec-private-key-format")
  | FmtX509 => (bs "libnetconf2-netconf-server", bs "private-key-info-format")
  | FmtOpenssh => (bs "libnetconf2-netconf-server", bs "openssh-private-key-format")
  end.

(** server_config.c 460-475 [nc_server_config_get_private_key_type] of the name of the identity. *)
Definition get_private_key_type (name : bytes) : option pkfmt :=
  if streq name (bs "rsa-private-key-format") then Some FmtRsa
  else if streq name (bs "ec-private-key-format") then Some FmtEc
  else if streq name (bs "private-key-info-format") then Some FmtX509
  else if streq name (bs "openssh-private-key-format") then Some FmtOpenssh
  else None.

(** session.c 159-174 [nc_privkey_format_to_str] *)
Definition format_to_str (f : pkfmt) : bytes :=
  match f with FmtRsa => bs " RSA " | FmtEc => bs " EC " | FmtX509 => bs " " | FmtOpenssh => bs " OPENSSH " end.

(** session_server_tls.c 102-119 [nc_base64der_to_privkey]: the text given to the TLS library. *)
Definition privkey_pem (data : bytes) (f : pkfmt) : bytes :=
  bs "-----BEGIN" ++ format_to_str f ++ bs "PRIVATE KEY-----" ++ [NL] ++ data ++ [NL] ++ bs "-----END" ++ format_to_str f
    ++ bs "PRIVATE KEY-----".
(** session.c 141-157 [nc_base64der_to_cert] *)
Definition cert_pem (data : bytes) : bytes :=
  bs "-----BEGIN CERTIFICATE-----" ++ [NL] ++ data ++ [NL] ++ bs "-----END CERTIFICATE-----".

(* ------------------------------------------------------------------ *)
(** ** Host keys through a temporary file (session_server_ssh.c 58-118, 1806-1850) *)

(** What happens to the file: whether mkstemp(), fdopen(), strdup() and unlink() succeed, how many of the
    bytes each of the fwrite() calls reports, how many bytes are in the file after fclose(), and whether
    libssh accepts the key. *)
Record tmpenv := mkTmp {
  t_mkstemp : bool; t_fdopen : bool; t_written : list N; t_flushed : N; t_strdup : bool;
  t_accept : bytes -> bool; t_unlink : bool }.

(** The parts written, lines 84-104. *)
Definition tmp_parts (data : bytes) (f : pkfmt) : list bytes :=
  [bs "-----BEGIN"; format_to_str f; bs "PRIVATE KEY-----" ++ [NL]; data; [NL] ++ bs "-----END"; format_to_str f; bs "PRIVATE KEY-----"].

Definition sumN (l : list N) : N := fold_right N.add 0 l.

(** What is left in /tmp afterwards, and the result. *)
Record tmpres := mkTmpRes { r_ok : bool; r_left : option bytes; r_seen : option bytes }.

(** 58-118 [nc_server_ssh_privkey_data_to_tmp_file] (the file, and whether its path is returned); [written] is
    an [int], sums stay below 2^31.  112-115: the file is removed if not all was written. *)
Definition to_tmp_file (w : tmpenv) (data : bytes) (f : pkfmt) : option bytes * bool :=
  if negb (t_mkstemp w) then (None, false)
  else if negb (t_fdopen w) then (Some [], false)
  else
    let text := concat (tmp_parts data f) in
    let content := takeN (t_flushed w) text in
    if negb (sumN (t_written w) =? lenN text) then (None, false)
    else (Some content, t_strdup w).

(** 1806-1850 [nc_ssh_bind_add_hostkeys] for one key in the configuration. *)
Definition add_hostkey (w : tmpenv) (data : bytes) (f : pkfmt) : tmpres :=
  match to_tmp_file w data f with
  | (lf, false) => mkTmpRes false lf None
  | (None, true) => mkTmpRes false None None
  | (Some c, true) => mkTmpRes (t_accept w c) (if t_unlink w then None else Some c) (Some c)
  end.
