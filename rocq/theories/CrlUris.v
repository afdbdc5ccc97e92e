(** The URIs of CRL distribution points in certificates: session_mbedtls.c 1556-1820, where the extension is
    parsed in this library, and session_openssl.c 1303-1374, where OpenSSL parses it.

    A buffer is a list of the values of its bytes, a pointer into it an offset; reading outside of it is an
    outcome of its own.  The functions of mbedTLS called (asn1parse.c, x509.c of mbedTLS 3.6) are written out as
    far as they move pointers, that is all but the contents of names which are not URIs. *)
From Coq Require Import String List NArith ZArith Lia Bool.
From Verif Require Import Bytes.
Import ListNotations.
Local Open Scope N_scope.
Local Open Scope list_scope.

(** MBEDTLS_ERR_ASN1_UNEXPECTED_TAG and all other errors; reading outside of the certificate or outside of the
    constant of the OID, freeing memory twice, using a null pointer or a union in the wrong way; [Stuck] stands
    for a loop that does not end. *)
Inductive errc := BadTag | OtherErr.
Inductive ubk := OutOfCert | OutOfOid | DoubleFree | NullDeref | WrongUnion | Stuck.
Inductive der (A : Type) := Val (a : A) | Err (e : errc) | Ub (u : ubk).
Arguments Val {A} a. Arguments Err {A} e. Arguments Ub {A} u.
Definition bind {A B} (x : der A) (f : A -> der B) : der B :=
  match x with Val a => f a | Err e => Err e | Ub u => Ub u end.
Notation "'do' x <- e ; f" := (bind e (fun x => f)) (at level 200, x pattern, e at level 100, f at level 200).

Section CRL.
Variable buf : list N.

(** One byte, several bytes. *)
Definition rd (i : N) : der N := match nth_error buf (N.to_nat i) with Some v => Val v | None => Ub OutOfCert end.
Definition slice (i n : N) : der (list N) :=
  if i + n <=? lenN buf then Val (takeN n (dropN i buf)) else Ub OutOfCert.

(** mbedtls_asn1_get_len(): the digits of a long length. *)
Fixpoint digits (k : nat) (p acc : N) : der (N * N) :=
  match k with
  | O => Val (p, acc)
  | S k' => do v <- rd p; digits k' (p + 1) (acc * 256 + v)
  end.
(** mbedtls_asn1_get_len(): where the contents begin and how long they are. *)
Definition get_len (p fin : N) : der (N * N) :=
  if fin - p <? 1 then Err OtherErr
  else
    do v <- rd p;
    do (p', len) <- (if v <? 128 then Val (p + 1, v)
                     else let n := v mod 128 in
                          if (n =? 0) || (4 <? n) then Err OtherErr
                          else if fin - p <=? n then Err OtherErr
                          else digits (N.to_nat n) (p + 1) 0);
    if fin - p' <? len then Err OtherErr else Val (p', len).
(** mbedtls_asn1_get_tag() *)
Definition get_tag (p fin tag : N) : der (N * N) :=
  if fin - p <? 1 then Err OtherErr
  else do v <- rd p; if v =? tag then get_len (p + 1) fin else Err BadTag.

Definition SEQUENCE : N := 48.   (* MBEDTLS_ASN1_CONSTRUCTED | MBEDTLS_ASN1_SEQUENCE *)
Definition CONTEXT0 : N := 160.  (* MBEDTLS_ASN1_CONTEXT_SPECIFIC | MBEDTLS_ASN1_CONSTRUCTED | 0 *)
Definition CONTEXT1 : N := 161.
Definition OID : N := 6.
Definition BOOLEAN : N := 1.
Definition OCTETS : N := 4.
(** MBEDTLS_OID_CRL_DISTRIBUTION_POINTS, 2.5.29.31 *)
Definition OID_CRLDP : list N := [85; 29; 31].

(** mbedtls_x509_parse_subject_alt_name() of a name that is not a URI: it is malformed, it is of a kind that is
    not supported (and nothing is written), it is some name, or it is a directory name, for which memory is
    allocated if it has more than one attribute. *)
Inductive sanres := RErr | RUnavail | RPlain | RDir (alloc : bool).
Variable alt : N -> list N -> sanres.

(** A name in the certificate: tag, offset, length.  The variable [san] of line 1595, as far as it is used. *)
Record gname := mkName { g_tag : N; g_off : N; g_len : N }.
Inductive san := SanUri (off len : N) | SanPlain | SanDir (alloc freed : bool).

(** The first component: the result is 0 (or MBEDTLS_ERR_X509_FEATURE_UNAVAILABLE, which is ignored). *)
Definition parse_san (g : gname) (s : san) : der san :=
  if N.land (g_tag g) 223 =? 134 then Val (SanUri (g_off g) (g_len g))
  else do c <- slice (g_off g) (g_len g);
       match alt (g_tag g) c with
       | RErr => Err OtherErr
       | RUnavail => Val s
       | RPlain => Val SanPlain
       | RDir a => Val (SanDir a false)
       end.
(** mbedtls_x509_free_subject_alt_name(): the memory of a directory name, whose address is kept. *)
Definition free_san (s : san) : der san :=
  match s with
  | SanDir true true => Ub DoubleFree
  | SanDir true false => Val (SanDir true true)
  | _ => Val s
  end.

(** mbedtls_x509_get_subject_alt_name_ext(): a list of names, appended to [l], the names of the points before
    ([first]: nothing was appended in this call).  It fails if that list has a second entry already. *)
Fixpoint get_names (fuel : nat) (p fin : N) (first : bool) (l : list gname) : der (N * list gname) :=
  match fuel with
  | O => Ub Stuck
  | S k =>
      if p <? fin then
        do tag <- rd p;
        do (q, len) <- get_len (p + 1) fin;
        if negb (N.land tag 192 =? 128) then Err OtherErr
        else
          do _ <- parse_san (mkName tag q len) SanPlain;
          if first && (1 <? lenN l) then Err OtherErr
          else get_names k (q + len) fin false (l ++ [mkName tag q len])
      else Val (p, if first then takeN 1 l else l)
  end.

(** session_mbedtls.c 1640-1670: the loop over the names.  strndup() stops at a NUL. *)
Fixpoint cut (s : list N) : list N := match s with [] => [] | c :: r => if c =? 0 then [] else c :: cut r end.
Fixpoint each_name (l : list gname) (s : san) (uris : list (list N)) : der (san * list (list N)) :=
  match l with
  | [] => Val (s, uris)
  | g :: l' =>
      do s1 <- parse_san g s;
      do uris1 <- (match s1 with SanUri o n => do c <- slice o n; Val (uris ++ [cut c]) | _ => Val uris end);
      do s2 <- free_san s1;
      each_name l' s2 uris1
  end.
(** The list of names always has a first entry, of zeros at first, which is of no supported kind. *)
Definition names_or_zero (l : list gname) (s : san) (uris : list (list N)) : der (san * list (list N)) :=
  match l with [] => do s2 <- (match s with SanUri o n => do c <- slice o n; Val (SanUri o n, uris ++ [cut c]) | _ => Val (s, uris) end);
                     do s3 <- free_san (fst s2); Val (s3, snd s2)
  | _ => each_name l s uris end.

(** session_mbedtls.c 1588-1690 [nc_server_tls_parse_crl_dist_points]: where it stops and the URIs. *)
Fixpoint dist_points (fuel : nat) (p fin : N) (l : list gname) (s : san) (uris : list (list N)) : der (N * list (list N)) :=
  match fuel with
  | O => Ub Stuck
  | S k =>
      if p <? fin then
        do (p1, len) <- get_tag p fin SEQUENCE;
        if len =? 0 then dist_points k p1 fin l s uris
        else
          match get_tag p1 fin CONTEXT0 with
          | Ub u => Ub u
          | Err OtherErr => Err OtherErr
          | Err BadTag => dist_points k p1 fin l s uris
          | Val (p2, _) =>
              match get_tag p2 fin CONTEXT0 with
              | Ub u => Ub u
              | Err OtherErr => Err OtherErr
              | Err BadTag => do _ <- rd p2; Err OtherErr
              | Val (p3, len3) =>
                  do (p4, l4) <- get_names fuel p3 (p3 + len3) true l;
                  do (s', uris') <- names_or_zero l4 s uris;
                  dist_points k p4 fin l4 s' uris'
              end
          end
      else Val (p, uris)
  end.

(** memcmp() with the constant, which has a NUL at its end: bytes are compared up to the first difference. *)
Fixpoint memcmp_oid (a b : list N) : der bool :=
  match a with
  | [] => Val true
  | x :: a' => match b with
               | [] => Ub OutOfOid
               | y :: b' => if x =? y then memcmp_oid a' b' else Val false
               end
  end.

(** mbedtls_asn1_get_bool() *)
Definition get_bool (p fin : N) : der N :=
  do (q, len) <- get_tag p fin BOOLEAN;
  if negb (len =? 1) then Err OtherErr else do _ <- rd q; Val (q + 1).

(** What happens to the loops over extensions and certificates: [Stop] is success at once (lines 1789-1796, where
    [ret] is still 0). *)
Inductive flow (A : Type) := Go (a : A) | Stop (uris : list (list N)).
Arguments Go {A} a. Arguments Stop {A} uris.

(** session_mbedtls.c 1744-1803: the loop over the extensions of a certificate. *)
Fixpoint extensions (fuel : nat) (p fin : N) (uris : list (list N)) : der (flow (list (list N))) :=
  match fuel with
  | O => Ub Stuck
  | S k =>
      if p <? fin then
        do (p1, len) <- get_tag p fin SEQUENCE;
        let fin1 := p1 + len in
        do (p2, olen) <- get_tag p1 fin1 OID;
        do oid <- slice p2 olen;
        do same <- memcmp_oid oid (OID_CRLDP ++ [0]);
        if negb same then extensions k fin1 fin uris
        else
          let p3 := p2 + olen in
          do p4 <- (match get_bool p3 fin1 with Val q => Val q | Err BadTag => Val p3 | Err OtherErr => Err OtherErr | Ub u => Ub u end);
          do (p5, len5) <- get_tag p4 fin1 OCTETS;
          let fin5 := p5 + len5 in
          do (p6, len6) <- get_tag p5 fin5 SEQUENCE;
          if negb (p6 + len6 =? fin5) then Val (Stop uris)
          else if len6 =? 0 then Val (Stop uris)
          else
            do (p7, uris') <- dist_points fuel p6 (p6 + len6) [] SanPlain uris;
            extensions k p7 fin uris'
      else Val (Go uris)
  end.

(** session_mbedtls.c 1720-1742 for one certificate; [buf] are the bytes of [v3_ext]. *)
Definition one_cert (uris : list (list N)) : der (flow (list (list N))) :=
  if lenN buf =? 0 then Val (Go uris)
  else do (p, _) <- get_tag 0 (lenN buf) SEQUENCE;
       extensions (S (length buf)) p (lenN buf) uris.
End CRL.
Arguments Go {A} a. Arguments Stop {A} uris.

(** session_mbedtls.c 1692-1808 [nc_server_tls_get_crl_distpoint_uris_wrap]: the certificate itself (there always
    is one) and those of the store. *)
Fixpoint certs_uris (alt : N -> list N -> sanres) (certs : list (list N)) (uris : list (list N)) : der (list (list N)) :=
  match certs with
  | [] => Val uris
  | c :: r => match one_cert c alt uris with
              | Val (Go u) => certs_uris alt r u
              | Val (Stop u) => Val u
              | Err e => Err e
              | Ub u => Ub u
              end
  end.

(* ------------------------------------------------------------------ *)
(** ** With OpenSSL *)

(** A distribution point as OpenSSL has it: the name may be missing, and is a union of both kinds.  A general name
    is a URI or another one. *)
Inductive oname := OUri (u : list N) | OOther.
Inductive dpname := FullName (l : list oname) | Relative.

(** session_openssl.c 1354-1370: URIs of at most 6 characters are skipped; strdup() stops at a NUL. *)
Fixpoint o_names (l : list oname) : list (list N) :=
  match l with
  | [] => []
  | OUri u :: r => if lenN u <=? 6 then o_names r else cut u :: o_names r
  | OOther :: r => o_names r
  end.
(** 1344-1352: [distpoint->name.fullname] *)
Fixpoint o_points (l : list (option dpname)) : der (list (list N)) :=
  match l with
  | [] => Val []
  | None :: _ => Ub NullDeref
  | Some Relative :: _ => Ub WrongUnion
  | Some (FullName n) :: r => do u <- o_points r; Val (o_names n ++ u)
  end.
(** 1307-1374 [nc_server_tls_get_crl_distpoint_uris_wrap]; an entry is [None] if it is not a certificate (a CRL);
    a certificate is given by its distribution points, none if it has no such extension or OpenSSL cannot parse it. *)
Fixpoint o_certs (certs : list (option (list (option dpname)))) : der (list (list N)) :=
  match certs with
  | [] => Val []
  | None :: r => o_certs r
  | Some dps :: r => do u <- o_points dps; do v <- o_certs r; Val (u ++ v)
  end.
