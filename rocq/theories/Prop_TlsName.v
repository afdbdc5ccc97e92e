(** C36 (certificate-to-name mapping) and C37 (common name). *)
From Coq Require Import Ascii String NArith ZArith Bool Lia List.
From Verif Require Import Bytes CStr ClientMsgs TlsNames Prop_TlsHex.
Import ListNotations.
Local Open Scope N_scope.

(* ------------------------------------------------------------------ *)
(** ** Specification *)

(** The value of the first CN attribute of a subject. *)
Definition cn_value (l : list (bytes * bytes)) (v : bytes) : Prop :=
  exists pre post, l = pre ++ (bs "CN", v) :: post /\ forall w, ~ In (bs "CN", w) pre.

Definition occurs (pat s : bytes) : Prop := exists a b, s = a ++ pat ++ b.

(** Subjects without surprises: no attribute but CN has "CN=" in it, no value of CN has a slash. *)
Definition plain_attr (x : bytes * bytes) : Prop :=
  (fst x = bs "CN" /\ ~ In SLASH (snd x)) \/ (fst x <> bs "CN" /\ ~ occurs (bs "CN=") (fst x ++ bs "=" ++ snd x)).

(** The name in a subject alternative name: text as is; an IPv4 address with dots, an IPv6 address as 32 digits. *)
Inductive hex32 : bytes -> bytes -> Prop :=
| h_nil : hex32 [] []
| h_cons b x y d t : digits b x y -> hex32 d t -> hex32 (b :: d) (x :: y :: t).

Inductive san_name : maptype -> san -> bytes -> Prop :=
| sn_mail v : san_name MtMail (SanMail v) v
| sn_dns v : san_name MtDns (SanDns v) v
| sn_ip4 a b c d : san_name MtIp (SanIp [a; b; c; d])
    (dec (N_of_ascii a) ++ bs "." ++ dec (N_of_ascii b) ++ bs "." ++ dec (N_of_ascii c) ++ bs "." ++ dec (N_of_ascii d))
| sn_ip6 v t : length v = 16%nat -> hex32 v t -> san_name MtIp (SanIp v) t
| sn_any t s u : san_name t s u -> san_name MtAny s u.

(** The map type of an entry yields a name for a certificate. *)
Definition yields (e : ctn) (c : cert) (u : bytes) : Prop :=
  match cn_type e with
  | MtUnknown => False
  | MtSpecified => cn_name e = Some u
  | MtCn => exists l, ct_subject c = Some l /\ cn_value l u
  | t => exists pre s post, ct_sans c = Some (pre ++ s :: post) /\ san_name t s u /\ forall s' u', In s' pre -> ~ san_name t s' u'
  end.

Definition known_algs : list (bytes * alg) :=
  [(bs "01", Md5); (bs "02", Sha1); (bs "03", Sha224); (bs "04", Sha256); (bs "05", Sha384); (bs "06", Sha512)].

(** The fingerprint of an entry is that of a certificate; an entry without one fits all. *)
Definition fp_matches (digest : alg -> cert -> option bytes) (fp : option bytes) (c : cert) : Prop :=
  match fp with
  | None => True
  | Some f => exists code al d t, In (code, al) known_algs /\ digest al c = Some d /\ fp_text d t /\ same_text f (code ++ bs ":" ++ t)
  end.

Definition works digest (e : ctn) (c : cert) (u : bytes) : Prop := fp_matches digest (cn_fp e) c /\ yields e c u.

(** The first entry that works for a certificate of the chain, with the first such certificate. *)
Definition maps digest (l : list ctn) (chain : list cert) (u : bytes) : Prop :=
  exists pre e post c1 c c2,
    l = pre ++ e :: post /\ chain = c1 ++ c :: c2 /\ works digest e c u
    /\ (forall e' c' u', In e' pre -> In c' chain -> ~ works digest e' c' u')
    /\ (forall c' u', In c' c1 -> ~ works digest e c' u').

(** The entries that apply: those of the endpoint, then those of the endpoint it refers to. *)
Definition all_entries (endpts : list (bytes * tlsopts)) (o : tlsopts) (l : list ctn) : Prop :=
  match to_ref o with
  | None => l = to_ctn o
  | Some n => exists pre o' post, endpts = pre ++ (n, o') :: post /\ (forall x, ~ In (n, x) pre) /\ l = to_ctn o ++ to_ctn o'
  end.

(** Fingerprints as they should be: a known algorithm with the digits of a digest, or an unknown algorithm. *)
Definition good_fp (f : bytes) : Prop :=
  (exists code al d t, In (code, al) known_algs /\ fp_text d t /\ same_text f (code ++ bs ":" ++ t))
  \/ forall code al, In (code, al) known_algs -> ~ prefix code f.

(** Certificates without surprises whose parts can be read. *)
Definition good_san (s : san) : Prop :=
  match s with SanMail v | SanDns v => ~ In NUL v | SanError => False | _ => True end.
Definition good_cert (digest : alg -> cert -> option bytes) (c : cert) : Prop :=
  (exists l, ct_subject c = Some l /\ Forall plain_attr l)
  /\ (forall l, ct_sans c = Some l -> Forall good_san l)
  /\ (forall al, exists d, digest al c = Some d /\ d <> []).

(* ------------------------------------------------------------------ *)
(** ** The common name *)

Lemma strstr_skip seg rest : ~ occurs (bs "CN=") seg -> (rest = [] \/ exists r, rest = SLASH :: r) ->
  strstr (seg ++ rest) (bs "CN=") = strstr rest (bs "CN=").
Proof.
  induction seg as [|c seg IH]; intros N R; [reflexivity|].
  assert (P : prefixb (bs "CN=") ((c :: seg) ++ rest) = false).
  { destruct (prefixb (bs "CN=") ((c :: seg) ++ rest)) eqn:E; [|reflexivity]. exfalso. apply prefixb_spec in E. destruct E as [r E].
    cbn [bs list_ascii_of_string app] in E. injection E as -> E.
    destruct seg as [|c1 seg].
    - cbn [app] in E. destruct R as [->|[r' ->]]; discriminate.
    - cbn [app] in E. injection E as -> E. destruct seg as [|c2 seg].
      + cbn [app] in E. destruct R as [->|[r' ->]]; discriminate.
      + cbn [app] in E. injection E as -> E. apply N. exists [], seg. reflexivity. }
  cbn [app strstr]. cbn [app] in P. rewrite P. apply IH; [|exact R].
  intros (a & b & E). apply N. exists (c :: a), b. rewrite E. reflexivity.
Qed.

Lemma oneline_head l : oneline l = [] \/ exists r, oneline l = SLASH :: r.
Proof. destruct l as [|x l]; [left; reflexivity|right; eexists; reflexivity]. Qed.

Lemma slash_not_occurs s : ~ occurs (bs "CN=") s -> ~ occurs (bs "CN=") (SLASH :: s).
Proof.
  intros N (a & b & E). destruct a as [|x a]; [discriminate|]. injection E as _ E. apply N. exists a, b. exact E.
Qed.

Lemma common_name_skip x l : ~ occurs (bs "CN=") (fst x ++ bs "=" ++ snd x) ->
  common_name SLASH (oneline (x :: l)) = common_name SLASH (oneline l).
Proof.
  intros N. unfold common_name.
  change (oneline (x :: l)) with ((SLASH :: fst x ++ bs "=" ++ snd x) ++ oneline l).
  rewrite strstr_skip; [reflexivity|apply slash_not_occurs; exact N|apply oneline_head].
Qed.

Lemma common_name_hit v l : ~ In SLASH v -> common_name SLASH (oneline ((bs "CN", v) :: l)) = Some v.
Proof.
  intros N. unfold common_name. change (oneline ((bs "CN", v) :: l)) with (SLASH :: bs "CN=" ++ v ++ oneline l).
  cbn [strstr bs list_ascii_of_string app prefixb Ascii.eqb SLASH Bool.eqb andb]. cbn [skipn]. f_equal.
  destruct (oneline_head l) as [->|[r ->]]; [rewrite app_nil_r; apply before_id; exact N|apply before_app; exact N].
Qed.

(** C37: when no attribute before the CN contains "CN=" and its value has no slash, the name is its value. *)
Theorem c37_common_name_partial c e l pre v post :
  cn_type e = MtCn -> ct_subject c = Some l -> l = pre ++ (bs "CN", v) :: post ->
  (forall t w, In (t, w) pre -> ~ occurs (bs "CN=") (t ++ bs "=" ++ w)) -> ~ In SLASH v ->
  get_username SLASH c e = NName v.
Proof.
  intros T S -> H N. unfold get_username. rewrite T, S.
  assert (E : common_name SLASH (oneline (pre ++ (bs "CN", v) :: post)) = Some v); [|rewrite E; reflexivity]. clear S.
  induction pre as [|[t w] pre IH]; [apply common_name_hit; exact N|]. cbn [app]. rewrite common_name_skip.
  - apply IH. intros t' w' I. apply H. right; exact I.
  - cbn [fst snd]. apply H. left; reflexivity.
Qed.

(** Without CN (and "CN=" nowhere) there is no name. *)
Theorem c37_no_common_name_partial c e l :
  cn_type e = MtCn -> ct_subject c = Some l ->
  (forall t w, In (t, w) l -> ~ occurs (bs "CN=") (t ++ bs "=" ++ w)) ->
  get_username SLASH c e = NNone.
Proof.
  intros T S H. unfold get_username. rewrite T, S.
  assert (E : common_name SLASH (oneline l) = None); [|rewrite E; reflexivity]. clear S.
  induction l as [|[t w] l IH]; [reflexivity|]. rewrite common_name_skip.
  - apply IH. intros t' w' I. apply H. right; exact I.
  - cbn [fst snd]. apply H. left; reflexivity.
Qed.

Definition cn_entry : ctn := mkCtn None MtCn None.

(** An organisation called "CN=admin" makes its member admin. *)
Theorem c37_injected_refuted :
  exists c l v, ct_subject c = Some l /\ cn_value l v /\ get_username SLASH c cn_entry = NName (bs "admin") /\ v <> bs "admin".
Proof.
  exists (mkCert [] (Some [(bs "O", bs "CN=admin"); (bs "CN", bs "joe")]) true None), [(bs "O", bs "CN=admin"); (bs "CN", bs "joe")], (bs "joe").
  split; [reflexivity|]. split.
  { exists [(bs "O", bs "CN=admin")], []. split; [reflexivity|]. intros w [F|[]]. discriminate. }
  split; [reflexivity|discriminate].
Qed.

(** A name is cut at a slash in it. *)
Theorem c37_slash_refuted :
  exists c l v u, ct_subject c = Some l /\ cn_value l v /\ get_username SLASH c cn_entry = NName u /\ u <> v.
Proof.
  exists (mkCert [] (Some [(bs "CN", bs "admin/joe")]) true None), [(bs "CN", bs "admin/joe")], (bs "admin/joe"), (bs "admin").
  split; [reflexivity|]. split; [exists [], []; split; [reflexivity|intros w []]|]. split; [reflexivity|discriminate].
Qed.

(** With mbedTLS the subject is printed with commas, but the separator stays a slash: the name is the rest of the subject. *)
Theorem c37_mbedtls_refuted :
  exists l v u, cn_value l v /\ common_name SLASH (dn_gets l) = Some u /\ u <> v /\ Forall plain_attr l.
Proof.
  exists [(bs "CN", bs "joe"); (bs "O", bs "org")], (bs "joe"), (bs "joe, O=org").
  split; [exists [], [(bs "O", bs "org")]; split; [reflexivity|intros w []]|]. split; [reflexivity|]. split; [discriminate|].
  constructor; [left; split; [reflexivity|cbn; intuition discriminate]|]. constructor; [|constructor].
  right. split; [discriminate|]. intros (a & b & E). cbn in E.
  do 5 (destruct a as [|? a]; [discriminate|injection E as _ E]). destruct a; discriminate.
Qed.

(* ------------------------------------------------------------------ *)
(** ** The mapping *)

Fixpoint first {A B} (f : A -> option B) (l : list A) : option B :=
  match l with [] => None | x :: l' => match f x with Some b => Some b | None => first f l' end end.

Lemma first_some {A B} (f : A -> option B) l b :
  first f l = Some b <-> exists pre x post, l = pre ++ x :: post /\ f x = Some b /\ forall y, In y pre -> f y = None.
Proof.
  induction l as [|a l IH]; cbn [first].
  - split; [discriminate|]. intros ([|? ?] & x & post & E & _); discriminate.
  - destruct (f a) as [b'|] eqn:E.
    + split.
      * intros [= ->]. exists [], a, l. split; [reflexivity|]. split; [exact E|intros y []].
      * intros ([|p pre] & x & post & H & F & N); injection H as -> H; [congruence|]. rewrite (N p (or_introl eq_refl)) in E. discriminate.
    + rewrite IH. split.
      * intros (pre & x & post & -> & F & N). exists (a :: pre), x, post. split; [reflexivity|]. split; [exact F|].
        intros y [<-|I]; [exact E|apply N; exact I].
      * intros ([|p pre] & x & post & H & F & N); injection H as -> H; [congruence|].
        exists pre, x, post. split; [exact H|]. split; [exact F|]. intros y I. apply N. right; exact I.
Qed.

Lemma first_none {A B} (f : A -> option B) l : first f l = None <-> forall x, In x l -> f x = None.
Proof.
  induction l as [|a l IH]; cbn [first]; [split; [intros _ x []|reflexivity]|].
  destruct (f a) as [b|] eqn:E.
  - split; [discriminate|]. intros H. rewrite (H a (or_introl eq_refl)) in E. discriminate.
  - rewrite IH. split; [intros H x [<-|I]; auto|intros H x I; apply H; right; exact I].
Qed.

Definition name_opt (r : nres) : option bytes := match r with NName u => Some u | _ => None end.
Definition settled (r : nres) : Prop := match r with NName _ | NNone => True | _ => False end.

Lemma cstr_id v : ~ In NUL v -> cstr v = v.
Proof.
  induction v as [|c v IH]; [reflexivity|]. cbn [cstr]. intros N.
  destruct (Ascii.eqb_spec c NUL) as [->|Ne]; [exfalso; apply N; left; reflexivity|]. rewrite IH; [reflexivity|].
  intros I; apply N; right; exact I.
Qed.

Lemma flat_pct v : hex32 v (flat_map pct02x v).
Proof.
  induction v as [|b v IH]; [constructor|]. cbn [flat_map]. destruct (pct_spec b) as (x & y & -> & D & _). cbn [app].
  constructor; assumption.
Qed.

Lemma hex32_fun v t : hex32 v t -> forall t', hex32 v t' -> t = t'.
Proof.
  induction 1 as [|b x y d t D H IH]; intros t' H'; inversion H' as [|b' x' y' d1 t1 D' H1]; subst; [reflexivity|].
  destruct (digits_fun _ _ _ _ _ D D') as [-> ->]. f_equal. f_equal. auto.
Qed.

Definition san_type (t : maptype) : Prop := t = MtMail \/ t = MtDns \/ t = MtIp \/ t = MtAny.

Definition san_opt (t : maptype) (s : san) : option bytes :=
  match san_value s with
  | inl (v, st) => if mt_eqb t MtAny || mt_eqb t st then Some v else None
  | inr _ => None
  end.

Lemma ip_value v : good_san (SanIp v) -> san_value (SanIp v) =
  match v with
  | [a; b; c; d] => inl (dec (N_of_ascii a) ++ bs "." ++ dec (N_of_ascii b) ++ bs "." ++ dec (N_of_ascii c) ++ bs "." ++ dec (N_of_ascii d), MtIp)
  | _ => if lenN v =? 16 then inl (flat_map pct02x v, MtIp) else inr false
  end.
Proof. reflexivity. Qed.

Lemma san_opt_spec t s u : san_type t -> good_san s -> (san_opt t s = Some u <-> san_name t s u).
Proof.
  intros T G.
  assert (B : forall t0, t0 <> MtAny -> (match san_value s with inl (v, st) => if mt_eqb t0 st then Some v else None | inr _ => None end = Some u
              <-> (san_name t0 s u /\ (t0 = MtMail \/ t0 = MtDns \/ t0 = MtIp)))).
  { intros t0 Na. destruct s as [v|v|v| |]; cbn [good_san] in G.
    - cbn [san_value]. rewrite (cstr_id _ G). split.
      + destruct t0; cbn [mt_eqb]; intros H; try discriminate. injection H as ->. split; [constructor|auto].
      + intros [H _]. inversion H; subst; [reflexivity|congruence].
    - cbn [san_value]. rewrite (cstr_id _ G). split.
      + destruct t0; cbn [mt_eqb]; intros H; try discriminate. injection H as ->. split; [constructor|auto].
      + intros [H _]. inversion H; subst; [reflexivity|congruence].
    - assert (V : (exists a b c d, v = [a; b; c; d]) \/ (length v = 16%nat /\ san_value (SanIp v) = inl (flat_map pct02x v, MtIp))
                  \/ (length v <> 4%nat /\ length v <> 16%nat /\ san_value (SanIp v) = inr false)).
      { unfold san_value, lenN. destruct v as [|a [|b [|c [|d [|x v]]]]]; try (right; right; cbn; repeat split; (lia || reflexivity)).
        - left; eauto.
        - right. destruct (N.eqb_spec (N.of_nat (length (a :: b :: c :: d :: x :: v))) 16) as [E|E].
          + left. split; [lia|reflexivity].
          + right. cbn [length] in *. split; [lia|]. split; [lia|reflexivity]. }
      destruct V as [(a & b & c & d & ->) | [[L V] | [L4 [L16 V]]]].
      + cbn [san_value]. split.
        * destruct t0; cbn [mt_eqb]; intros H; try discriminate. injection H as <-. split; [constructor|auto].
        * intros [H _]. inversion H as [| |a' b' c' d'|v' t' Lv Hx|]; subst; [reflexivity|discriminate|congruence].
      + rewrite V. split.
        * destruct t0; cbn [mt_eqb]; intros H; try discriminate. injection H as <-. split; [constructor; [exact L|apply flat_pct]|auto].
        * intros [H _]. inversion H as [| |a' b' c' d'|v' t' Lv Hx|]; subst; [discriminate| |congruence].
          cbn [mt_eqb]. f_equal. eapply hex32_fun; [apply flat_pct|exact Hx].
      + rewrite V. split; [discriminate|]. intros [H _]. inversion H as [| |a' b' c' d'|v' t' Lv Hx|]; subst; cbn in *; congruence.
    - cbn [san_value]. split; [discriminate|]. intros [H _]. inversion H; congruence.
    - destruct G. }
  unfold san_opt. destruct T as [->|[->|[->| ->]]].
  - cbn [mt_eqb orb]. specialize (B MtMail ltac:(discriminate)). rewrite B. tauto.
  - cbn [mt_eqb orb]. specialize (B MtDns ltac:(discriminate)). rewrite B. tauto.
  - cbn [mt_eqb orb]. specialize (B MtIp ltac:(discriminate)). rewrite B. tauto.
  - cbn [mt_eqb orb]. split.
    + destruct (san_value s) as [[v st]|] eqn:V; [|discriminate]. intros [= ->].
      assert (St : st = MtMail \/ st = MtDns \/ st = MtIp).
      { destruct s as [w|w|w| |]; cbn [san_value] in V; try discriminate; try (injection V as _ <-; auto).
        destruct w as [|a [|b [|c [|d [|x w]]]]]; try (destruct (lenN _ =? 16); [injection V as _ <-; auto|discriminate]);
          try (injection V as _ <-; auto); discriminate. }
      assert (Na : st <> MtAny) by (destruct St as [->|[->| ->]]; discriminate).
      apply (sn_any st). apply (B st Na). destruct St as [->|[->| ->]]; reflexivity.
    + intros H. inversion H as [| | | |t0 s0 u0 H0]; subst.
      assert (T0 : exists t1, t1 <> MtAny /\ san_name t1 s u /\ (t1 = MtMail \/ t1 = MtDns \/ t1 = MtIp)).
      { clear -H0. induction H0; eauto; eexists; (split; [|split; [econstructor; eauto|auto]]); discriminate. }
      destruct T0 as (t1 & N1 & H1 & O1). pose proof (proj2 (B t1 N1) (conj H1 O1)) as V.
      destruct (san_value s) as [[v st]|]; [|discriminate]. destruct (mt_eqb t1 st); [exact V|discriminate].
Qed.

Lemma find_san_first t l : Forall good_san l ->
  find_san t l = match first (san_opt t) l with Some u => NName u | None => NNone end.
Proof.
  induction 1 as [|s l G F IH]; [reflexivity|]. cbn [find_san first]. unfold san_opt at 1.
  destruct (san_value s) as [[v st]|[|]] eqn:V; [destruct (_ || _); [reflexivity|exact IH]| |exact IH].
  exfalso. destruct s as [w|w|w| |]; cbn [san_value] in V; try discriminate; [|exact G].
  destruct w as [|a [|b [|c [|d [|x w]]]]]; try (destruct (lenN _ =? 16); discriminate); discriminate.
Qed.

Lemma cn_spec l u : Forall plain_attr l -> (common_name SLASH (oneline l) = Some u <-> cn_value l u).
Proof.
  induction 1 as [|[t w] l P F IH].
  - split; [discriminate|]. intros ([|? ?] & post & E & _); discriminate.
  - destruct P as [[E N] | [E N]]; cbn [fst snd] in *.
    + subst t. rewrite common_name_hit by exact N. split.
      * intros [= <-]. exists [], l. split; [reflexivity|intros x []].
      * intros ([|p pre] & post & H & Q); [injection H as -> _; reflexivity|]. injection H as <- _.
        exfalso. apply (Q w). left; reflexivity.
    + rewrite common_name_skip by exact N. rewrite IH. split.
      * intros (pre & post & -> & Q). exists ((t, w) :: pre), post. split; [reflexivity|].
        intros x [H|I]; [congruence|exact (Q x I)].
      * intros ([|p pre] & post & H & Q); cbn [app] in H; [exfalso; apply E; congruence|]. injection H as <- ->.
        exists pre, post. split; [reflexivity|]. intros x I. apply (Q x). right; exact I.
Qed.

Lemma username_spec digest e c : good_cert digest c -> (cn_type e = MtSpecified -> cn_name e <> None) -> cn_type e <> MtUnknown ->
  settled (get_username SLASH c e) /\ forall u, get_username SLASH c e = NName u <-> yields e c u.
Proof.
  intros ((l & S & Pl) & Gs & _) V Nu. unfold get_username, yields.
  assert (Q : forall t, san_type t ->
     settled (match ct_sans c with None => NNone | Some l => find_san t l end)
     /\ forall u, match ct_sans c with None => NNone | Some l => find_san t l end = NName u <->
        exists pre s post, ct_sans c = Some (pre ++ s :: post) /\ san_name t s u /\ forall s' u', In s' pre -> ~ san_name t s' u').
  { intros t T. destruct (ct_sans c) as [sl|] eqn:Es.
    - specialize (Gs sl eq_refl). rewrite (find_san_first t sl Gs). rewrite Forall_forall in Gs. split; [destruct (first _ _); exact I|].
      intros u. split.
      + destruct (first (san_opt t) sl) as [u0|] eqn:F; [|discriminate]. intros [= ->].
        apply first_some in F. destruct F as (pre & s & post & -> & F & N). exists pre, s, post. split; [reflexivity|].
        split; [apply san_opt_spec; [exact T|apply Gs; apply in_or_app; right; left; reflexivity|exact F]|].
        intros s' u' I H. apply san_opt_spec in H; [|exact T|apply Gs; apply in_or_app; left; exact I]. rewrite (N s' I) in H. discriminate.
      + intros (pre & s & post & E & H & N). injection E as ->.
        assert (F : first (san_opt t) (pre ++ s :: post) = Some u).
        { apply first_some. exists pre, s, post. split; [reflexivity|].
          split; [apply san_opt_spec; [exact T|apply Gs; apply in_or_app; right; left; reflexivity|exact H]|].
          intros s' I. destruct (san_opt t s') as [u'|] eqn:O; [|reflexivity]. exfalso. apply (N s' u' I).
          apply san_opt_spec; [exact T|apply Gs; apply in_or_app; left; exact I|exact O]. }
        rewrite F. reflexivity.
    - split; [exact I|]. intros u. split; [discriminate|]. intros (? & ? & ? & F & _). discriminate. }
  destruct (cn_type e).
  - congruence.
  - destruct (cn_name e) as [n|]; [|exfalso; apply V; reflexivity]. split; [exact I|]. intros u. split; congruence.
  - apply Q. unfold san_type; auto.
  - apply Q. unfold san_type; auto.
  - apply Q. unfold san_type; auto.
  - apply Q. unfold san_type; auto.
  - rewrite S. split; [destruct (common_name _ _); exact I|]. intros u. split.
    + destruct (common_name SLASH (oneline l)) as [u0|] eqn:C; [|discriminate]. intros [= ->]. exists l. split; [reflexivity|].
      apply cn_spec; assumption.
    + intros (l' & [= <-] & H). apply cn_spec in H; [|exact Pl]. rewrite H. reflexivity.
Qed.

Lemma code_prefix code al f : In (code, al) known_algs -> strncmp0 f code 2 = true -> prefix code f.
Proof.
  intros I H. apply prefixb_spec. rewrite <- strncmp0_prefix_r.
  assert (L : length code = 2%nat); [|rewrite L; exact H].
  unfold known_algs in I. cbn [In] in I. decompose [or] I; try tauto;
    match goal with E : (_, _) = _ |- _ => injection E as <- <- end; reflexivity.
Qed.

Lemma app_split {A} (l1 l2 pre : list A) e post : l1 ++ l2 = pre ++ e :: post ->
  (exists post', l1 = pre ++ e :: post' /\ post = post' ++ l2) \/ (exists pre', pre = l1 ++ pre' /\ l2 = pre' ++ e :: post).
Proof.
  revert pre; induction l1 as [|x l1 IH]; intros pre H.
  - right. exists pre. split; [reflexivity|exact H].
  - destruct pre as [|p pre]; injection H as -> H.
    + left. exists l1. split; [reflexivity|congruence].
    + destruct (IH pre H) as [(post' & -> & ->) | (pre' & -> & ->)]; [left|right]; eexists; (split; reflexivity).
Qed.

Lemma fp_spec digest fp c : (forall f, fp = Some f -> good_fp f) -> (forall al, exists d, digest al c = Some d /\ d <> []) ->
  (fingerprint digest fp c = FMatch <-> fp_matches digest fp c) /\ (fingerprint digest fp c = FMatch \/ fingerprint digest fp c = FNo).
Proof.
  intros G R. destruct fp as [f|]; [|split; [split; [exact (fun _ => I)|reflexivity]|left; reflexivity]].
  assert (R' : forall al d, digest al c = Some d -> d <> []).
  { intros al d E. destruct (R al) as (d' & E' & N). congruence. }
  assert (Back : fp_matches digest (Some f) c -> fingerprint digest (Some f) c = FMatch).
  { intros (code & al & d & t & I & E & F & S0). apply (c39_fingerprint digest code al d t f c I F S0 (R' al)). exact E. }
  destruct (G f eq_refl) as [(code & al & d & t & I & F & S0) | U].
  - destruct (R al) as (d' & E' & N').
    destruct (c39_fingerprint digest code al d t f c I F S0 (R' al)) as (A & B & B').
    split.
    + split; [|exact Back]. intros M. exists code, al, d, t. split; [exact I|]. split; [apply A; exact M|]. split; assumption.
    + destruct (fingerprint digest (Some f) c) eqn:Q; auto; exfalso; [|congruence]. rewrite (proj1 B eq_refl) in E'. discriminate.
  - assert (Q : fingerprint digest (Some f) c = FNo).
    { unfold fingerprint. destruct (find (fun a => strncmp0 f (fst a) 2) algs) as [[code al]|] eqn:Fi; [|reflexivity].
      apply find_some in Fi. destruct Fi as [I Fi]. cbn [fst] in Fi. exfalso. apply (U code al I). apply (code_prefix code al); assumption. }
    split; [|right; exact Q]. split; [rewrite Q; discriminate|exact Back].
Qed.

(** An entry for one certificate. *)
Definition work_opt digest (e : ctn) (c : cert) : option bytes :=
  match fingerprint digest (cn_fp e) c with FMatch => name_opt (get_username SLASH c e) | _ => None end.

Definition usable (e : ctn) : Prop := cn_type e <> MtUnknown /\ (cn_type e = MtSpecified -> cn_name e <> None).
Definition good_entry (e : ctn) : Prop := forall f, cn_fp e = Some f -> good_fp f.

Lemma work_spec digest e c u : usable e -> good_entry e -> good_cert digest c -> (work_opt digest e c = Some u <-> works digest e c u).
Proof.
  intros [Un Us] Ge Gc. unfold work_opt, works. destruct (username_spec digest e c Gc Us Un) as [Se Y].
  destruct (fp_spec digest (cn_fp e) c Ge (proj2 (proj2 Gc))) as [F Fo]. split.
  - destruct (fingerprint digest (cn_fp e) c) eqn:Q; try discriminate. intros H. split; [apply F; reflexivity|].
    apply Y. destruct (get_username SLASH c e); try discriminate. injection H as ->. reflexivity.
  - intros [M Yu]. apply F in M. rewrite M. apply Y in Yu. rewrite Yu. reflexivity.
Qed.

Lemma not_usable digest e c u : ~ usable e -> ~ works digest e c u.
Proof.
  intros N [_ Y]. apply N. unfold yields in Y. split.
  - intros E. rewrite E in Y. exact Y.
  - intros E F. rewrite E, F in Y. discriminate.
Qed.

Lemma usable_dec e : usable e \/ (~ usable e /\ forall digest chain, cert_to_name digest e chain = NNone).
Proof.
  unfold usable, cert_to_name. destruct (cn_type e) eqn:T; try (left; split; [discriminate|intros F; discriminate]).
  - right. split; [intros [F _]; congruence|reflexivity].
  - destruct (cn_name e); [left; split; discriminate|right]. split; [intros [_ F]; apply F; reflexivity|reflexivity].
Qed.

Lemma chain_first digest e chain : usable e -> good_entry e -> Forall (good_cert digest) chain ->
  chain_name digest e chain = match first (work_opt digest e) chain with Some u => NName u | None => NNone end.
Proof.
  intros Ue Ge. induction 1 as [|c chain Gc _ IH]; [reflexivity|]. cbn [chain_name first]. unfold work_opt at 1.
  destruct (fp_spec digest (cn_fp e) c Ge (proj2 (proj2 Gc))) as [_ [-> | ->]]; [|exact IH].
  destruct (username_spec digest e c Gc (proj2 Ue) (proj1 Ue)) as [Se _].
  destruct (get_username SLASH c e); cbn [settled name_opt] in *; [reflexivity|exact IH|destruct Se|destruct Se].
Qed.

Lemma cert_to_name_eq digest e chain : usable e -> cert_to_name digest e chain = chain_name digest e chain.
Proof.
  intros [A B]. unfold cert_to_name. destruct (cn_type e) eqn:T; try reflexivity; [congruence|].
  destruct (cn_name e); [reflexivity|exfalso; apply B; reflexivity].
Qed.

Definition entry_opt digest chain (e : ctn) : option bytes := name_opt (cert_to_name digest e chain).

Lemma entry_spec digest e chain : good_entry e -> Forall (good_cert digest) chain ->
  cert_to_name digest e chain = match entry_opt digest chain e with Some u => NName u | None => NNone end
  /\ (forall u, entry_opt digest chain e = Some u <->
        exists c1 c c2, chain = c1 ++ c :: c2 /\ works digest e c u /\ forall c' u', In c' c1 -> ~ works digest e c' u')
  /\ (entry_opt digest chain e = None <-> forall c' u', In c' chain -> ~ works digest e c' u').
Proof.
  intros Ge Gc. unfold entry_opt. destruct (usable_dec e) as [Ue|[Nu Z]].
  - rewrite (cert_to_name_eq digest e chain Ue), (chain_first digest e chain Ue Ge Gc).
    rewrite Forall_forall in Gc.
    split; [destruct (first _ _); reflexivity|].
    assert (W : forall c u, In c chain -> (work_opt digest e c = Some u <-> works digest e c u)).
    { intros c u I. apply work_spec; auto. }
    split.
    + intros u. transitivity (first (work_opt digest e) chain = Some u); [destruct (first _ _); cbn [name_opt]; reflexivity|].
      rewrite first_some. split.
      * intros (c1 & c & c2 & -> & H & N). exists c1, c, c2. split; [reflexivity|]. split; [apply W; [apply in_or_app; right; left; reflexivity|exact H]|].
        intros c' u' I H'. apply W in H'; [|apply in_or_app; left; exact I]. rewrite (N c' I) in H'. discriminate.
      * intros (c1 & c & c2 & -> & H & N). exists c1, c, c2. split; [reflexivity|]. split; [apply W; [apply in_or_app; right; left; reflexivity|exact H]|].
        intros c' I. destruct (work_opt digest e c') as [u'|] eqn:O; [|reflexivity]. exfalso. apply (N c' u' I).
        apply W; [apply in_or_app; left; exact I|exact O].
    + transitivity (first (work_opt digest e) chain = None); [destruct (first _ _); cbn [name_opt]; split; (reflexivity || discriminate)|].
      rewrite first_none. split.
      * intros H c' u' I Wk. apply W in Wk; [|exact I]. rewrite (H c' I) in Wk. discriminate.
      * intros H c' I. destruct (work_opt digest e c') as [u'|] eqn:O; [|reflexivity]. exfalso. apply (H c' u' I). apply W; assumption.
  - rewrite Z. cbn [name_opt]. split; [reflexivity|]. split.
    + intros u. split; [discriminate|]. intros (c1 & c & c2 & _ & Wk & _). exfalso. exact (not_usable _ _ _ _ Nu Wk).
    + split; [intros _ c' u' _; apply not_usable; exact Nu|reflexivity].
Qed.

Lemma entries_spec digest l chain : Forall good_entry l -> Forall (good_cert digest) chain ->
  (entries_name digest l chain = NNone \/ exists u, entries_name digest l chain = NName u)
  /\ (forall u, entries_name digest l chain = NName u <-> maps digest l chain u)
  /\ (entries_name digest l chain = NNone <-> forall e c u, In e l -> In c chain -> ~ works digest e c u).
Proof.
  intros Gl Gc.
  assert (E : entries_name digest l chain = match first (entry_opt digest chain) l with Some u => NName u | None => NNone end).
  { induction Gl as [|e l Ge Gl IH]; [reflexivity|]. cbn [entries_name first].
    destruct (entry_spec digest e chain Ge Gc) as (E & _). rewrite E at 1. destruct (entry_opt digest chain e); [reflexivity|exact IH]. }
  rewrite E. rewrite Forall_forall in Gl.
  assert (W : forall e, In e l -> (forall u, entry_opt digest chain e = Some u <->
        exists c1 c c2, chain = c1 ++ c :: c2 /\ works digest e c u /\ forall c' u', In c' c1 -> ~ works digest e c' u')
     /\ (entry_opt digest chain e = None <-> forall c' u', In c' chain -> ~ works digest e c' u')).
  { intros e I. exact (proj2 (entry_spec digest e chain (Gl e I) Gc)). }
  split; [destruct (first _ _); [right; eauto|left; reflexivity]|]. split.
  - intros u. transitivity (first (entry_opt digest chain) l = Some u); [destruct (first _ _); split; congruence|].
    rewrite first_some. unfold maps. split.
    + intros (pre & e & post & -> & H & N).
      assert (Ie : In e (pre ++ e :: post)) by (apply in_or_app; right; left; reflexivity).
      apply (W e Ie) in H. destruct H as (c1 & c & c2 & Ec & Wk & Nc). exists pre, e, post, c1, c, c2.
      split; [reflexivity|]. split; [exact Ec|]. split; [exact Wk|]. split; [|exact Nc].
      intros e' c' u' Ie' Ic'. assert (Ie2 : In e' (pre ++ e :: post)) by (apply in_or_app; left; exact Ie').
      apply (proj1 (proj2 (W e' Ie2)) (N e' Ie')); exact Ic'.
    + intros (pre & e & post & c1 & c & c2 & -> & Ec & Wk & Np & Nc).
      exists pre, e, post. split; [reflexivity|].
      assert (Ie : In e (pre ++ e :: post)) by (apply in_or_app; right; left; reflexivity).
      split; [apply (W e Ie); eauto 7|]. intros e' Ie'.
      assert (Ie2 : In e' (pre ++ e :: post)) by (apply in_or_app; left; exact Ie').
      apply (proj2 (W e' Ie2)). intros c' u' Ic'. apply Np; assumption.
  - transitivity (first (entry_opt digest chain) l = None); [destruct (first _ _); split; congruence|].
    rewrite first_none. split.
    + intros H e c u Ie Ic. apply (proj1 (proj2 (W e Ie)) (H e Ie)); exact Ic.
    + intros H e Ie. apply (proj2 (W e Ie)). intros c u Ic. apply H; assumption.
Qed.

Lemma maps_app digest l1 l2 chain u : maps digest (l1 ++ l2) chain u <->
  maps digest l1 chain u \/ ((forall e c u', In e l1 -> In c chain -> ~ works digest e c u') /\ maps digest l2 chain u).
Proof.
  unfold maps. split.
  - intros (pre & e & post & c1 & c & c2 & E & Ec & Wk & Np & Nc).
    destruct (app_split l1 l2 pre e post E) as [(post' & -> & _) | (pre' & -> & ->)].
    + left. exists pre, e, post', c1, c, c2. repeat (split; [first [reflexivity | assumption]|]). exact Nc.
    + right. split; [intros e' c' u' I1 I2; apply Np; [apply in_or_app; left; exact I1|exact I2]|].
      exists pre', e, post, c1, c, c2. split; [reflexivity|]. split; [exact Ec|]. split; [exact Wk|]. split; [|exact Nc].
      intros e' c' u' I1 I2. apply Np; [apply in_or_app; right; exact I1|exact I2].
  - intros [(pre & e & post & c1 & c & c2 & -> & Ec & Wk & Np & Nc) | (N1 & pre & e & post & c1 & c & c2 & -> & Ec & Wk & Np & Nc)].
    + exists pre, e, (post ++ l2), c1, c, c2. split; [rewrite <- app_assoc; reflexivity|]. auto.
    + exists (l1 ++ pre), e, post, c1, c, c2. split; [rewrite <- app_assoc; reflexivity|]. split; [exact Ec|]. split; [exact Wk|].
      split; [|exact Nc]. intros e' c' u' I1 I2. apply in_app_or in I1. destruct I1; [apply N1|apply Np]; assumption.
Qed.

Lemma find_named {A} (n : bytes) (l : list (bytes * A)) o :
  (match find (fun x => streq n (fst x)) l with Some x => Some (snd x) | None => None end = Some o)
  <-> exists pre post, l = pre ++ (n, o) :: post /\ forall x, ~ In (n, x) pre.
Proof.
  induction l as [|[m x] l IH]; cbn [find fst].
  - split; [discriminate|]. intros ([|? ?] & ? & E & _); discriminate.
  - destruct (streq n m) eqn:E.
    + apply beqb_spec in E. subst m. cbn [snd]. split.
      * intros [= ->]. exists [], l. split; [reflexivity|intros y []].
      * intros ([|p pre] & post & H & Q); cbn [app] in H; [congruence|]. injection H as <- _. exfalso. apply (Q x). left; reflexivity.
    + assert (Ne : n <> m) by (intros ->; assert (T : streq m m = true) by (apply beqb_spec; reflexivity); congruence).
      rewrite IH. split.
      * intros (pre & post & -> & Q). exists ((m, x) :: pre), post. split; [reflexivity|]. intros y [H|I]; [congruence|exact (Q y I)].
      * intros ([|p pre] & post & H & Q); cbn [app] in H; [congruence|]. injection H as <- ->. exists pre, post. split; [reflexivity|].
        intros y I. apply (Q y). right; exact I.
Qed.

(** C36: the name is that of the first entry which works for a certificate of the chain; without one there is none. *)
Theorem c36_first_partial digest endpts o l chain :
  all_entries endpts o l -> Forall good_entry l -> Forall (good_cert digest) chain ->
  (forall u, opts_name digest endpts o chain = NName u <-> maps digest l chain u)
  /\ (opts_name digest endpts o chain = NNone <-> forall e c u, In e l -> In c chain -> ~ works digest e c u)
  /\ (opts_name digest endpts o chain = NNone \/ exists u, opts_name digest endpts o chain = NName u).
Proof.
  unfold all_entries, opts_name. intros A Gl Gc. destruct (to_ref o) as [n|].
  - destruct A as (pre & o' & post & E & Np & ->). apply Forall_app in Gl. destruct Gl as [G1 G2].
    assert (R : referenced endpts n = Some o') by (apply find_named; eauto).
    destruct (entries_spec digest (to_ctn o) chain G1 Gc) as (O1 & M1 & N1).
    destruct (entries_spec digest (to_ctn o') chain G2 Gc) as (O2 & M2 & N2).
    rewrite R. destruct O1 as [Z|[u1 Z]]; rewrite Z in *.
    + split; [|split; [|exact O2]].
      * intros u. rewrite M2, maps_app. split; [intros H; right; split; [apply N1; reflexivity|exact H]|].
        intros [H|[_ H]]; [|exact H]. exfalso. apply M1 in H. discriminate.
      * rewrite N2. split.
        -- intros H e c u Ie Ic. apply in_app_or in Ie. destruct Ie as [Ie|Ie]; [apply (proj1 N1 eq_refl)|apply H]; assumption.
        -- intros H e c u Ie Ic. apply H; [apply in_or_app; right; exact Ie|exact Ic].
    + split; [|split; [|right; eauto]].
      * intros u. rewrite M1, maps_app. split; [intros H; left; exact H|]. intros [H|[H _]]; [exact H|].
        exfalso. apply N1 in H. discriminate.
      * split; [discriminate|]. intros H. exfalso.
        assert (F : NName u1 = NNone) by (apply N1; intros e c u Ie Ic; apply H; [apply in_or_app; left; exact Ie|exact Ic]). discriminate.
  - subst l. destruct (entries_spec digest (to_ctn o) chain Gl Gc) as (O1 & M1 & N1).
    destruct O1 as [Z|[u1 Z]]; rewrite Z in *; auto.
    split; [exact M1|]. split; [exact N1|right; eauto].
Qed.

(** A subject alternative name with a NUL byte in it is cut there: a certificate issued for "admin\0.example.org" is admin's. *)
Theorem c36_nul_refuted digest :
  exists o c v u, ct_sans c = Some [SanDns v] /\ (exists l, ct_subject c = Some l /\ Forall plain_attr l)
    /\ works digest (mkCtn None MtDns None) c v /\ opts_name digest [] o [c] = NName u /\ u <> v.
Proof.
  set (v := bs "admin" ++ [NUL] ++ bs ".example.org").
  exists (mkTls [mkCtn None MtDns None] None (GLocal [])), (mkCert [] (Some []) true (Some [SanDns v])), v, (bs "admin").
  split; [reflexivity|]. split; [exists []; split; [reflexivity|constructor]|]. split.
  - split; [exact I|]. exists [], (SanDns v), []. split; [reflexivity|]. split; [constructor|intros s' u' []].
  - split; [vm_compute; reflexivity|discriminate].
Qed.

(** Entries of an endpoint that is referred to by the endpoint referred to are not looked at. *)
Theorem c36_one_reference :
  exists endpts o1 o2 o3 (c : cert), In (bs "b", o2) endpts /\ In (bs "c", o3) endpts
    /\ to_ref o1 = Some (bs "b") /\ to_ref o2 = Some (bs "c") /\ to_ctn o3 = [mkCtn None MtSpecified (Some (bs "joe"))]
    /\ forall digest, opts_name digest endpts o1 [c] = NNone.
Proof.
  set (o3 := mkTls [mkCtn None MtSpecified (Some (bs "joe"))] None (GLocal [])). set (o2 := mkTls [] (Some (bs "c")) (GLocal [])).
  exists [(bs "b", o2); (bs "c", o3)], (mkTls [] (Some (bs "b")) (GLocal [])), o2, o3, (mkCert [] (Some []) true None).
  repeat split; cbn; auto.
Qed.

(** C51: the names of a client.  A name taken from a certificate should be taken from the client's (the first of the chain). *)
Definition named_by_client (e : ctn) (leaf : cert) (u : bytes) : Prop := yields e leaf u.

(** It is, when the fingerprints of the entries that take names from certificates are of no other certificate of the chain. *)
Theorem c51_client_name_partial digest endpts o l leaf rest u :
  all_entries endpts o l -> Forall good_entry l -> Forall (good_cert digest) (leaf :: rest) ->
  (forall e c, In e l -> cn_type e <> MtSpecified -> In c rest -> ~ fp_matches digest (cn_fp e) c) ->
  opts_name digest endpts o (leaf :: rest) = NName u ->
  exists e, In e l /\ named_by_client e leaf u.
Proof.
  intros A Gl Gc Only H. apply (c36_first_partial _ _ _ _ _ A Gl Gc) in H.
  destruct H as (pre & e & post & c1 & c & c2 & -> & Ec & [F Y] & _). exists e. split; [apply in_or_app; right; left; reflexivity|].
  unfold named_by_client. destruct c1 as [|x c1].
  - injection Ec as -> _. exact Y.
  - injection Ec as <- ->. assert (S0 : cn_type e = MtSpecified \/ cn_type e <> MtSpecified) by (destruct (cn_type e); (left; reflexivity) || (right; discriminate)).
    destruct S0 as [S0|S0].
    + unfold yields in *. rewrite S0 in *. exact Y.
    + exfalso. apply (Only e c); auto; [apply in_or_app; right; left; reflexivity|apply in_or_app; right; left; reflexivity].
Qed.

(** With the fingerprint of an authority, the name is the authority's, the same for all its clients. *)
Theorem c51_authority_refuted :
  exists digest o ca fp, to_ctn o = [mkCtn (Some fp) MtCn None] /\ good_fp fp /\
    forall client l, ct_subject client = Some l -> ~ fp_matches digest (Some fp) client ->
      opts_name digest [] o [client; ca] = NName (bs "ca").
Proof.
  exists (fun _ c => Some (if beqb (ct_der c) (bs "ca") then bs "x" else bs "y")),
    (mkTls [mkCtn (Some (bs "04:78")) MtCn None] None (GLocal [])), (mkCert (bs "ca") (Some [(bs "CN", bs "ca")]) true None), (bs "04:78").
  assert (T : fp_text (bs "x") (bs "78")).
  { apply ft_one. destruct (pct_spec "x"%char) as (x' & y' & E' & D & _). injection E' as <- <-. exact D. }
  split; [reflexivity|]. split.
  { left. exists (bs "04"), Sha256, (bs "x"), (bs "78"). split; [cbn; tauto|]. split; [exact T|reflexivity]. }
  intros client l S0 Nf.
  destruct (beqb (ct_der client) (bs "ca")) eqn:E.
  - exfalso. apply Nf. exists (bs "04"), Sha256, (bs "x"), (bs "78"). split; [cbn; tauto|]. split; [rewrite E; reflexivity|]. split; [exact T|reflexivity].
  - unfold opts_name. cbn [to_ctn entries_name]. unfold cert_to_name. cbn [cn_type chain_name cn_fp].
    replace (fingerprint _ _ client) with FNo; [vm_compute; reflexivity|].
    unfold fingerprint. replace (find _ algs) with (Some (bs "04", Sha256)) by reflexivity. rewrite E. vm_compute. reflexivity.
Qed.

(* ------------------------------------------------------------------ *)
(** ** Cases *)

Definition ex_digest (al : alg) (c : cert) : option bytes :=
  Some (match al with Sha1 => [ascii_of_N 171] | _ => [ascii_of_N 1; ascii_of_N 2] end ++ ct_der c).
Definition ex_leaf := mkCert (bs "a") (Some [(bs "O", bs "org"); (bs "CN", bs "joe")]) true (Some [SanOther; SanMail (bs "joe@x"); SanIp (map ascii_of_N [10; 0; 0; 7])]).
Definition ex_ca := mkCert (bs "b") (Some [(bs "CN", bs "ca")]) true None.

(** The first entry has the fingerprint of another certificate; the second that of the CA, but it wants an address; the third works
    for the client's certificate; the last one is the referenced endpoint's. *)
Definition ex_opts := mkTls
  [mkCtn (Some (bs "02:ab:63")) MtSpecified (Some (bs "root")); mkCtn (Some (bs "02:AB:62")) MtIp None; mkCtn (Some (bs "04:01:02:61")) MtAny None]
  (Some (bs "other")) (GLocal []).
Definition ex_endpts := [(bs "other", mkTls [mkCtn None MtCn None] None (GLocal []))].

Example ex_name : opts_name ex_digest ex_endpts ex_opts [ex_leaf; ex_ca] = NName (bs "joe@x").
Proof. vm_compute. reflexivity. Qed.
Example ex_ip : get_username SLASH ex_leaf (mkCtn None MtIp None) = NName (bs "10.0.0.7").
Proof. vm_compute. reflexivity. Qed.
Example ex_reference : opts_name ex_digest ex_endpts (mkTls [] (Some (bs "other")) (GLocal [])) [ex_leaf; ex_ca] = NName (bs "joe").
Proof. vm_compute. reflexivity. Qed.
Example ex_refused : opts_name ex_digest ex_endpts (mkTls [mkCtn (Some (bs "02:ab:63")) MtAny None] None (GLocal [])) [ex_leaf; ex_ca] = NNone.
Proof. vm_compute. reflexivity. Qed.

(** The case meets the conditions. *)
Lemma not_occurs_dec pat s : strstr s pat = None -> pat <> [] -> ~ occurs pat s.
Proof.
  intros H N (a & b & ->). revert H. induction a as [|x a IH]; intros H.
  - destruct pat as [|p pat]; [congruence|]. cbn [app strstr] in H.
    assert (P : prefixb (p :: pat) (p :: pat ++ b) = true) by (apply prefixb_spec; exists b; reflexivity). rewrite P in H. discriminate.
  - cbn [app strstr] in H. destruct (prefixb _ _) in H; [discriminate|exact (IH H)].
Qed.

Example ex_good : Forall (good_cert ex_digest) [ex_leaf; ex_ca] /\ Forall good_entry (to_ctn ex_opts ++ [mkCtn None MtCn None])
  /\ all_entries ex_endpts ex_opts (to_ctn ex_opts ++ [mkCtn None MtCn None]).
Proof.
  split; [|split].
  - assert (D : forall c al, exists d, ex_digest al c = Some d /\ d <> []).
    { intros c al. eexists. split; [reflexivity|]. destruct al; discriminate. }
    constructor; [|constructor; [|constructor]].
    + split; [|split; [|apply D]].
      * eexists. split; [reflexivity|]. constructor.
        -- right. split; [discriminate|]. apply not_occurs_dec; [reflexivity|discriminate].
        -- constructor; [|constructor]. left. split; [reflexivity|]. cbn. intuition discriminate.
      * intros l [= <-]. repeat constructor. cbn. intuition discriminate.
    + split; [|split; [|apply D]].
      * eexists. split; [reflexivity|]. constructor; [|constructor]. left. split; [reflexivity|]. cbn. intuition discriminate.
      * intros l F; discriminate.
  - assert (T : forall b x y, pct02x b = [x; y] -> digits b x y).
    { intros b x y E. destruct (pct_spec b) as (x' & y' & E' & D & _). rewrite E' in E. injection E as <- <-. exact D. }
    assert (T2 : forall a b x y z w, pct02x a = [x; y] -> pct02x b = [z; w] -> fp_text [a; b] [x; y; ":"%char; z; w]).
    { intros. apply ft_more; [apply T; assumption|]. apply ft_one. apply T; assumption. }
    constructor; [|constructor; [|constructor; [|constructor; [|constructor]]]].
    + intros f [= <-]. left. exists (bs "02"), Sha1, [ascii_of_N 171; "c"%char], (bs "ab:63"). split; [cbn; tauto|].
      split; [apply T2; reflexivity|vm_compute; reflexivity].
    + intros f [= <-]. left. exists (bs "02"), Sha1, [ascii_of_N 171; "b"%char], (bs "ab:62"). split; [cbn; tauto|].
      split; [apply T2; reflexivity|vm_compute; reflexivity].
    + intros f [= <-]. left. exists (bs "04"), Sha256, [ascii_of_N 1; ascii_of_N 2; "a"%char], (bs "01:02:61"). split; [cbn; tauto|].
      split; [apply ft_more; [apply T; reflexivity|apply T2; reflexivity]|vm_compute; reflexivity].
    + intros f F; discriminate.
  - exists [], (mkTls [mkCtn None MtCn None] None (GLocal [])), []. split; [reflexivity|]. split; [intros x []|reflexivity].
Qed.

(** So the name it gives is the one of the specification. *)
Example ex_maps : maps ex_digest (to_ctn ex_opts ++ [mkCtn None MtCn None]) [ex_leaf; ex_ca] (bs "joe@x").
Proof. destruct ex_good as (A & B & C). apply (c36_first_partial _ _ _ _ _ C B A). exact ex_name. Qed.

Print Assumptions c37_common_name_partial.
Print Assumptions c37_no_common_name_partial.
Print Assumptions c37_injected_refuted.
Print Assumptions c37_slash_refuted.
Print Assumptions c37_mbedtls_refuted.
Print Assumptions c36_first_partial.
Print Assumptions c36_nul_refuted.
Print Assumptions c51_client_name_partial.
Print Assumptions c51_authority_refuted.
