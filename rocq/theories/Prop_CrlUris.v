(** C116, C117: the URIs of CRL distribution points. *)
From Coq Require Import String List NArith ZArith Lia Bool.
From Verif Require Import Bytes CrlUris.
Import ListNotations.
Local Open Scope N_scope.
Local Open Scope list_scope.

(* ------------------------------------------------------------------ *)
(** ** C117: reading certificates with mbedTLS *)

(** [x] has a result with [P], an error, or undefined behaviour of the kinds [U]. *)
Definition good {A} (U : ubk -> Prop) (x : der A) (P : A -> Prop) : Prop :=
  match x with Val a => P a | Err _ => True | Ub u => U u end.

Lemma good_bind {A B} U (x : der A) (f : A -> der B) P Q :
  good U x P -> (forall a, P a -> good U (f a) Q) -> good U (bind x f) Q.
Proof. destruct x; cbn; auto. Qed.
Lemma good_weak {A} U (x : der A) (P Q : A -> Prop) : good U x P -> (forall a, P a -> Q a) -> good U x Q.
Proof. destruct x; cbn; auto. Qed.
Lemma good_kinds {A} (U V : ubk -> Prop) (x : der A) P : good U x P -> (forall u, U u -> V u) -> good V x P.
Proof. destruct x; cbn; auto. Qed.

Section SAFE.
Variable buf : list N.
Variable alt : N -> list N -> sanres.
Variable U : ubk -> Prop.
(** Two kinds of undefined behaviour that are looked at below. *)
Hypothesis Hfree : U DoubleFree \/ forall t c, alt t c <> RDir true.
Hypothesis Hoid : U OutOfOid \/ forall pre post, buf <> pre ++ [85; 29; 31; 0] ++ post.

Lemma rd_good i : i < lenN buf -> good U (rd buf i) (fun _ => True).
Proof.
  intros H. unfold rd. destruct (nth_error buf (N.to_nat i)) eqn:E; [exact I|]. apply nth_error_None in E. unfold lenN in H. lia.
Qed.
Lemma slice_good i n : i + n <= lenN buf -> good U (slice buf i n) (fun s => s = takeN n (dropN i buf)).
Proof. intros H. unfold slice. apply N.leb_le in H. rewrite H. reflexivity. Qed.

Lemma digits_good k : forall p acc, p + N.of_nat k <= lenN buf -> good U (digits buf k p acc) (fun r => fst r = p + N.of_nat k).
Proof.
  induction k as [|k IH]; intros p acc H; [cbn; lia|]. cbn [digits]. eapply good_bind; [apply rd_good; lia|]. intros v _.
  eapply good_weak; [apply IH; lia|]. intros [q a]. cbn. lia.
Qed.

Lemma get_len_good p fin : fin <= lenN buf -> good U (get_len buf p fin) (fun r => p < fst r /\ fst r + snd r <= fin).
Proof.
  intros H. unfold get_len. destruct (N.ltb_spec (fin - p) 1); [exact I|].
  eapply good_bind; [apply rd_good; lia|]. intros v _.
  eapply good_bind with (P := fun r => p < fst r /\ fst r <= fin).
  - destruct (N.ltb_spec v 128); [cbn [good fst]; lia|]. cbv zeta. generalize (v mod 128). intros n. destruct ((n =? 0) || (4 <? n)); [exact I|].
    destruct (N.leb_spec (fin - p) n); [exact I|].
    eapply good_weak; [apply digits_good; rewrite N2Nat.id; lia|]. intros [q a]. cbn [fst]. rewrite N2Nat.id. lia.
  - intros [q len]. cbn. intros [H2 H3]. destruct (N.ltb_spec (fin - q) len); cbn; [exact I|lia].
Qed.

Lemma get_tag_good p fin tag : fin <= lenN buf -> good U (get_tag buf p fin tag) (fun r => p + 1 < fst r /\ fst r + snd r <= fin).
Proof.
  intros H. unfold get_tag. destruct (N.ltb_spec (fin - p) 1); [exact I|].
  eapply good_bind; [apply rd_good; lia|]. intros v _. destruct (v =? tag); [|exact I]. apply get_len_good. exact H.
Qed.
(** A wrong tag is only seen where there is a byte. *)
Lemma get_tag_bad p fin tag : get_tag buf p fin tag = Err BadTag -> p < fin.
Proof. unfold get_tag. destruct (N.ltb_spec (fin - p) 1); [discriminate|]. lia. Qed.

Definition inside (g : gname) : Prop := g_off g + g_len g <= lenN buf.
Definition san_ok (s : san) : Prop :=
  match s with SanUri o n => o + n <= lenN buf | SanPlain => True | SanDir a f => U DoubleFree \/ a = false end.

Lemma parse_san_good g s : inside g -> san_ok s -> good U (parse_san buf alt g s) san_ok.
Proof.
  intros H S. unfold parse_san. destruct (_ =? 134); [exact H|]. eapply good_bind; [apply slice_good, H|]. intros c _.
  destruct (alt (g_tag g) c) eqn:E; cbn; try exact I; [exact S|]. destruct Hfree as [F|F]; [auto|]. destruct alloc; [exfalso; exact (F _ _ E)|auto].
Qed.
Lemma free_san_good s : san_ok s -> good U (free_san s) san_ok.
Proof. destruct s as [o n| |[] []]; cbn; intuition discriminate. Qed.

Lemma get_names_good fuel : forall p fin first l, fin <= lenN buf -> p <= fin -> fin - p < N.of_nat fuel -> Forall inside l ->
  good U (get_names buf alt fuel p fin first l) (fun r => fst r = fin /\ Forall inside (snd r)).
Proof.
  induction fuel as [|k IH]; intros p fin first l H1 H2 H3 F; [lia|]. cbn [get_names].
  destruct (N.ltb_spec p fin).
  - eapply good_bind; [apply rd_good; lia|]. intros tag _. eapply good_bind; [apply get_len_good; lia|]. intros [q len]. cbn [fst snd]. intros [L1 L2].
    destruct (negb _); [exact I|]. eapply good_bind; [apply parse_san_good; [unfold inside; cbn; lia|exact I]|]. intros _ _.
    destruct (first && _); [exact I|]. apply IH; [lia|lia|lia|]. apply Forall_app. split; [exact F|]. constructor; [unfold inside; cbn; lia|constructor].
  - cbn. split; [lia|]. destruct first; [|exact F]. destruct l as [|g l]; [constructor|]. inversion F; subst. destruct l; (constructor; [assumption|constructor]).
Qed.

Lemma uri_good o n uris : o + n <= lenN buf ->
  good U (do c <- slice buf o n; Val (uris ++ [cut c])) (fun _ : list (list N) => True).
Proof. intros H. eapply good_bind; [apply slice_good, H|]. intros; exact I. Qed.

Lemma each_name_good l : forall s uris, Forall inside l -> san_ok s -> good U (each_name buf alt l s uris) (fun r => san_ok (fst r)).
Proof.
  induction l as [|g l IH]; intros s uris F S; [exact S|]. inversion F; subst. cbn [each_name].
  eapply good_bind; [apply parse_san_good; assumption|]. intros s1 S1.
  eapply good_bind with (P := fun _ => True); [destruct s1; try exact I; apply uri_good; exact S1|]. intros u _.
  eapply good_bind; [apply free_san_good, S1|]. intros s2 S2. apply IH; assumption.
Qed.
Lemma names_or_zero_good l s uris : Forall inside l -> san_ok s -> good U (names_or_zero buf alt l s uris) (fun r => san_ok (fst r)).
Proof.
  intros F S. unfold names_or_zero. destruct l as [|g l]; [|apply each_name_good; assumption].
  eapply good_bind with (P := fun r => san_ok (fst r)).
  - destruct s; try exact S. eapply good_bind; [apply slice_good, S|]. intros c _. exact S.
  - intros [s2 u] S2. cbn [fst snd] in *. eapply good_bind; [apply free_san_good, S2|]. intros s3 S3. exact S3.
Qed.

Lemma dist_points_good fuel : forall p fin l s uris, fin <= lenN buf -> p <= fin -> fin - p < N.of_nat fuel -> Forall inside l -> san_ok s ->
  good U (dist_points buf alt fuel p fin l s uris) (fun r => fst r = fin).
Proof.
  induction fuel as [|k IH]; intros p fin l s uris H1 H2 H3 F S; [lia|]. cbn [dist_points].
  destruct (N.ltb_spec p fin); [|cbn; lia].
  eapply good_bind; [apply get_tag_good; lia|]. intros [p1 len]. cbn [fst snd]. intros [L1 L2].
  destruct (len =? 0); [apply IH; try assumption; lia|].
  pose proof (get_tag_good p1 fin CONTEXT0 H1) as G1. destruct (get_tag buf p1 fin CONTEXT0) as [[p2 len2]|[|]|u] eqn:E1; cbn in G1; [|apply IH; try assumption; lia|exact I|exact G1].
  pose proof (get_tag_good p2 fin CONTEXT0 H1) as G2. destruct (get_tag buf p2 fin CONTEXT0) as [[p3 len3]|[|]|u] eqn:E2; cbn in G2; [| |exact I|exact G2].
  - eapply good_bind; [apply get_names_good; [lia|lia|lia|exact F]|]. intros [p4 l4]. cbn [fst snd]. intros [-> F4].
    eapply good_bind; [apply names_or_zero_good; assumption|]. intros [s' u'] S'. cbn [fst] in S'. apply IH; try assumption; lia.
  - eapply good_bind; [apply rd_good; apply get_tag_bad in E2; lia|]. intros _ _. exact I.
Qed.

Lemma take4 i n a b c d (r : list N) : i + n <= lenN buf -> takeN n (dropN i buf) = a :: b :: c :: d :: r -> exists pre post, buf = pre ++ [a; b; c; d] ++ post.
Proof.
  intros H E. exists (takeN i buf), (r ++ dropN n (dropN i buf)). rewrite <- (takeN_dropN i buf) at 1. f_equal.
  rewrite <- (takeN_dropN n (dropN i buf)) at 1. rewrite E. reflexivity.
Qed.

Lemma memcmp_good i n : i + n <= lenN buf -> good U (memcmp_oid (takeN n (dropN i buf)) (OID_CRLDP ++ [0])) (fun _ => True).
Proof.
  intros H. destruct Hoid as [F|F].
  - generalize (OID_CRLDP ++ [0]). induction (takeN n (dropN i buf)) as [|x a IH]; intros b; [exact I|]. cbn. destruct b; [exact F|]. destruct (x =? n0); [apply IH|exact I].
  - destruct (takeN n (dropN i buf)) as [|a [|b [|c [|d r]]]] eqn:E; cbn [memcmp_oid OID_CRLDP app];
      repeat (match goal with |- context [?x =? ?y] => destruct (N.eqb_spec x y); subst end); try exact I.
    exfalso. destruct (take4 _ _ _ _ _ _ _ H E) as (pre & post & X). exact (F _ _ X).
Qed.

Lemma extensions_good fuel : forall p fin uris, fin <= lenN buf -> p <= fin -> fin - p < N.of_nat fuel ->
  good U (extensions buf alt fuel p fin uris) (fun _ => True).
Proof.
  induction fuel as [|k IH]; intros p fin uris H1 H2 H3; [lia|]. cbn [extensions].
  destruct (N.ltb_spec p fin); [|exact I].
  eapply good_bind; [apply get_tag_good; lia|]. intros [p1 len]. cbn [fst snd]. intros [L1 L2]. cbv zeta.
  eapply good_bind; [apply get_tag_good; lia|]. intros [p2 olen]. cbn [fst snd]. intros [L3 L4].
  eapply good_bind; [apply slice_good; lia|]. intros oid ->.
  eapply good_bind; [apply memcmp_good; lia|]. intros same _. destruct (negb same); [apply IH; lia|].
  eapply good_bind with (P := fun q => p2 + olen <= q).
  { assert (GB : good U (get_bool buf (p2 + olen) (p1 + len)) (fun q => p2 + olen <= q)).
    { unfold get_bool. eapply good_bind; [apply get_tag_good; lia|]. intros [q l]. cbn [fst snd]. intros [L5 L6].
      destruct (N.eqb_spec l 1); cbn [negb]; [|exact I]. eapply good_bind; [apply rd_good; lia|]. intros _ _. cbn. lia. }
    destruct (get_bool buf (p2 + olen) (p1 + len)) as [q|[|]|u]; cbn in *; auto; lia. }
  intros p4 L5. eapply good_bind; [apply get_tag_good; lia|]. intros [p5 len5]. cbn [fst snd]. intros [L6 L7].
  eapply good_bind; [apply get_tag_good; lia|]. intros [p6 len6]. cbn [fst snd]. intros [L8 L9].
  destruct (N.eqb_spec (p6 + len6) (p5 + len5)); cbn [negb]; [|exact I]. destruct (N.eqb_spec len6 0); [exact I|].
  eapply good_bind; [apply dist_points_good; [lia|lia|lia|constructor|exact I]|]. intros [p7 u7]. cbn [fst]. intros ->.
  apply IH; lia.
Qed.

Lemma one_cert_good uris : good U (one_cert buf alt uris) (fun _ => True).
Proof.
  unfold one_cert. destruct (lenN buf =? 0); [exact I|]. eapply good_bind; [apply get_tag_good; lia|]. intros [p len]. cbn [fst snd]. intros [L1 L2].
  apply extensions_good; unfold lenN in *; lia.
Qed.
End SAFE.

Lemma certs_good alt U certs : (U DoubleFree \/ forall t c, alt t c <> RDir true) ->
  (U OutOfOid \/ forall c pre post, In c certs -> c <> pre ++ [85; 29; 31; 0] ++ post) -> forall uris, good U (certs_uris alt certs uris) (fun _ => True).
Proof.
  intros HF. induction certs as [|c r IH]; intros HO uris; [exact I|]. cbn [certs_uris].
  assert (G : good U (one_cert c alt uris) (fun _ => True)).
  { apply one_cert_good; [exact HF|]. destruct HO as [HO|HO]; [auto|right; intros pre post; apply HO; left; reflexivity]. }
  destruct (one_cert c alt uris) as [[u|u]|e|u]; cbn in *; auto. apply IH. destruct HO as [HO|HO]; [auto|]. right. intros c' pre post I1. apply HO. right. exact I1.
Qed.

(** Whatever the certificates are: no byte outside of them is read, and the parser ends. *)
Theorem c117_inside alt certs uris : certs_uris alt certs uris <> Ub OutOfCert /\ certs_uris alt certs uris <> Ub Stuck.
Proof.
  assert (G : good (fun u => u = DoubleFree \/ u = OutOfOid) (certs_uris alt certs uris) (fun _ => True)) by (apply certs_good; left; auto).
  split; intros E; rewrite E in G; destruct G; discriminate.
Qed.

(** No undefined behaviour at all, if no directory name needs memory and no certificate has the bytes of the OID
    followed by a zero. *)
Theorem c117_defined_partial alt certs uris : (forall t c, alt t c <> RDir true) ->
  (forall c pre post, In c certs -> c <> pre ++ [85; 29; 31; 0] ++ post) -> forall u, certs_uris alt certs uris <> Ub u.
Proof.
  intros H1 H2 u E. pose proof (certs_good alt (fun _ => False) certs (or_intror H1) (or_intror H2) uris) as G. rewrite E in G. exact G.
Qed.

(* ------------------------------------------------------------------ *)
(** ** C116: which URIs are found *)

(** Encodings of X.690: the octets of a length, and of a value with its tag. *)
Definition number (ds : list N) : N := fold_left (fun a d => a * 256 + d) ds 0.
Definition is_len (n : N) (l : list N) : Prop :=
  (n < 128 /\ l = [n]) \/ exists ds, l = (128 + lenN ds) :: ds /\ 1 <= lenN ds <= 4 /\ number ds = n.
Definition tlv (tag : N) (c s : list N) : Prop := exists l, is_len (lenN c) l /\ s = tag :: l ++ c.

(** RFC 5280, 4.2.1.13: general names, of which URIs (context tag 6) matter; distribution points with a full name
    or without one, and what else is in them; extensions; certificates. *)
Inductive name := Uri (u : list N) | Name (tag : N) (c : list N).
Record point := mkPoint { names : option (list name); rest : list N }.
Inductive ext := Crldp (pts : list point) | OtherExt (oid val : list N).

Section DER.
Variable alt : N -> list N -> sanres.
Definition name_der (n : name) (s : list N) : Prop :=
  match n with
  | Uri u => tlv 134 u s
  | Name tag c => tlv tag c s /\ N.land tag 192 = 128 /\ N.land tag 223 <> 134 /\ alt tag c <> RErr
  end.
Definition all {A} (P : A -> list N -> Prop) (l : list A) (s : list N) : Prop := exists parts, Forall2 P l parts /\ s = concat parts.
Definition point_der (d : point) (s : list N) : Prop := exists f,
  match names d with
  | None => f = []
  | Some ns => exists b a, all name_der ns b /\ tlv 160 b a /\ tlv 160 a f
  end /\ tlv 48 (f ++ rest d) s.
Definition oid_crldp : list N := [85; 29; 31].
(** Two OIDs that differ somewhere in the bytes both have. *)
Definition differs (a b : list N) : Prop := exists i x y, nth_error a i = Some x /\ nth_error b i = Some y /\ x <> y.
Definition ext_der (e : ext) (s : list N) : Prop :=
  match e with
  | Crldp pts => exists o crit d q v, tlv 6 oid_crldp o /\ (crit = [] \/ exists b, tlv 1 [b] crit) /\
      all point_der pts d /\ tlv 48 d q /\ tlv 4 q v /\ tlv 48 (o ++ crit ++ v) s
  | OtherExt oid val => exists o, tlv 6 oid o /\ differs oid oid_crldp /\ tlv 48 (o ++ val) s
  end.
Definition cert_der (es : list ext) (s : list N) : Prop := (es = [] /\ s = []) \/ exists b, all ext_der es b /\ tlv 48 b s.
End DER.

(** The URIs of certificates, in their order. *)
Definition name_uris (n : name) : list (list N) := match n with Uri u => [cut u] | _ => [] end.
(** [cut]: up to the first byte 0. *)
Lemma cut_text u : ~ In 0%N u -> cut u = u.
Proof. induction u as [|c u IH]; intros N; [reflexivity|]. cbn [cut]. destruct (N.eqb_spec c 0) as [->|_]; [destruct N; now left|]. f_equal. apply IH. intros I. apply N. now right. Qed.
Lemma cut_zero u r : ~ In 0%N u -> cut (u ++ 0%N :: r) = u.
Proof. induction u as [|c u IH]; intros N; [reflexivity|]. cbn [cut app]. destruct (N.eqb_spec c 0) as [->|_]; [destruct N; now left|]. f_equal. apply IH. intros I. apply N. now right. Qed.
Definition point_uris (d : point) : list (list N) := match names d with Some ns => flat_map name_uris ns | None => [] end.
Definition ext_uris (e : ext) : list (list N) := match e with Crldp pts => flat_map point_uris pts | _ => [] end.
Definition cert_uris (es : list ext) : list (list N) := flat_map ext_uris es.

(** Full statement: for all [cs] and [bs] with [Forall2 (cert_der alt) cs bs],
    [certs_uris alt bs [] = Val (flat_map cert_uris cs)].  What is proved: if every such extension has one
    distribution point, with nothing but a full name, and only names of kinds that mbedTLS supports. *)
Definition simple_ext (alt : N -> list N -> sanres) (e : ext) : Prop :=
  match e with
  | Crldp pts => exists ns, pts = [mkPoint (Some ns) []] /\ Forall (fun n => match n with Name t c => alt t c <> RUnavail | _ => True end) ns
  | _ => True
  end.

Section FOUND.
Variable buf : list N.
Variable alt : N -> list N -> sanres.

Definition at_ (p : N) (s : list N) : Prop := exists pre post, buf = pre ++ s ++ post /\ lenN pre = p.
Lemma lenN_app2 {A} (a b : list A) : lenN (a ++ b) = lenN a + lenN b.
Proof. unfold lenN. rewrite app_length. lia. Qed.
Lemma lenN_cons2 {A} (x : A) l : lenN (x :: l) = 1 + lenN l.
Proof. unfold lenN. cbn [length]. lia. Qed.
Lemma at_app p a b : at_ p (a ++ b) -> at_ p a /\ at_ (p + lenN a) b.
Proof.
  intros (pre & post & E & <-). split.
  - exists pre, (b ++ post). rewrite E, <- app_assoc. auto.
  - exists (pre ++ a), post. rewrite E, <- !app_assoc. rewrite lenN_app2. auto.
Qed.
Lemma at_len p s : at_ p s -> p + lenN s <= lenN buf.
Proof. intros (pre & post & E & <-). rewrite E, !lenN_app2. lia. Qed.
Lemma at_rd p x r : at_ p (x :: r) -> rd buf p = Val x.
Proof.
  intros (pre & post & E & <-). unfold rd, lenN. rewrite E, Nnat.Nat2N.id. rewrite nth_error_app2 by lia. rewrite PeanoNat.Nat.sub_diag. reflexivity.
Qed.
Lemma at_cons p x r : at_ p (x :: r) -> at_ (p + 1) r.
Proof. intros H. apply (at_app p [x] r) in H. exact (proj2 H). Qed.
Lemma at_slice p s : at_ p s -> slice buf p (lenN s) = Val s.
Proof.
  intros H. pose proof (at_len _ _ H) as L. unfold slice. apply N.leb_le in L. rewrite L. destruct H as (pre & post & E & <-).
  rewrite E, dropN_app_exact, takeN_app_exact. reflexivity.
Qed.
Lemma digits_at ds : forall p acc, at_ p ds -> digits buf (length ds) p acc = Val (p + lenN ds, fold_left (fun a d => a * 256 + d) ds acc).
Proof.
  induction ds as [|d ds IH]; intros p acc H; cbn [digits length fold_left]; [unfold lenN; cbn; rewrite N.add_0_r; reflexivity|].
  rewrite (at_rd _ _ _ H). cbn [bind]. rewrite IH by (apply at_cons in H; exact H). rewrite lenN_cons2, N.add_assoc. reflexivity.
Qed.
Lemma get_len_at p l c fin : is_len (lenN c) l -> at_ p (l ++ c) -> p + lenN l + lenN c <= fin ->
  get_len buf p fin = Val (p + lenN l, lenN c).
Proof.
  intros HL H L. unfold get_len. destruct HL as [[S ->]|(ds & -> & [D1 D2] & E)].
  - destruct (N.ltb_spec (fin - p) 1) as [X|X]; [cbn in L; lia|]. rewrite (at_rd _ _ _ H). cbn [bind].
    apply N.ltb_lt in S. rewrite S. cbn [bind]. destruct (N.ltb_spec (fin - (p + 1)) (lenN c)); [cbn in L; lia|]. reflexivity.
  - rewrite lenN_cons2 in L. destruct (N.ltb_spec (fin - p) 1) as [X|X]; [lia|]. rewrite (at_rd _ _ _ H). cbn [bind].
    destruct (N.ltb_spec (128 + lenN ds) 128); [lia|]. assert (M : (128 + lenN ds) mod 128 = lenN ds).
    { rewrite <- (N.mul_1_l 128) at 1. rewrite N.add_comm, N.mod_add by lia. apply N.mod_small. lia. }
    rewrite M. cbv zeta. destruct (N.eqb_spec (lenN ds) 0); [lia|]. destruct (N.ltb_spec 4 (lenN ds)); [lia|]. cbn [orb].
    destruct (N.leb_spec (fin - p) (lenN ds)); [lia|].
    apply (at_app p (_ :: ds) c) in H. destruct H as [H _]. apply at_cons in H.
    replace (N.to_nat (lenN ds)) with (length ds) by (unfold lenN; rewrite Nnat.Nat2N.id; reflexivity).
    rewrite (digits_at ds _ _ H). cbn [bind]. unfold number in E. rewrite E. rewrite lenN_cons2.
    destruct (N.ltb_spec (fin - (p + 1 + lenN ds)) (lenN c)); [lia|]. rewrite N.add_assoc. reflexivity.
Qed.
Lemma get_tag_at tag c s p fin : tlv tag c s -> at_ p s -> p + lenN s <= fin ->
  exists q, get_tag buf p fin tag = Val (q, lenN c) /\ at_ q c /\ q + lenN c = p + lenN s /\ p < q.
Proof.
  intros (l & HL & ->) H L. rewrite lenN_cons2, lenN_app2 in *. exists (p + 1 + lenN l). unfold get_tag.
  destruct (N.ltb_spec (fin - p) 1); [lia|]. rewrite (at_rd _ _ _ H). cbn [bind]. rewrite N.eqb_refl.
  apply at_cons in H. rewrite (get_len_at (p + 1) l c fin HL H) by lia. apply at_app in H. destruct H as [_ H]. repeat split; [exact H|lia|lia].
Qed.
Lemma tlv_len tag c s : tlv tag c s -> 2 <= lenN s.
Proof. intros (l & HL & ->). rewrite lenN_cons2, lenN_app2. destruct HL as [[_ ->]|(ds & -> & [D1 D2] & _)]; rewrite ?lenN_cons2; [change (@lenN N []) with 0|]; lia. Qed.
Lemma get_tag_not tag x r p fin : x <> tag -> at_ p (x :: r) -> p < fin -> get_tag buf p fin tag = Err BadTag.
Proof.
  intros N1 H L. unfold get_tag. destruct (N.ltb_spec (fin - p) 1); [lia|]. rewrite (at_rd _ _ _ H). cbn [bind]. apply N.eqb_neq in N1. rewrite N1. reflexivity.
Qed.

Definition is_name (n : name) (g : gname) : Prop :=
  match n with
  | Uri u => g_tag g = 134 /\ at_ (g_off g) u /\ g_len g = lenN u
  | Name t c => g_tag g = t /\ at_ (g_off g) c /\ g_len g = lenN c
  end.

Lemma get_names_at ns : forall parts, Forall2 (name_der alt) ns parts -> forall fuel p first l,
  at_ p (concat parts) -> lenN (concat parts) < N.of_nat fuel -> (first = true -> l = []) ->
  exists gs, get_names buf alt fuel p (p + lenN (concat parts)) first l = Val (p + lenN (concat parts), l ++ gs) /\ Forall2 is_name ns gs.
Proof.
  induction ns as [|n ns IH]; intros parts F fuel p first l H L FL; inversion F as [|? part ? parts' HD F']; subst.
  - exists []. split; [|constructor]. cbn [concat]. change (lenN (@nil N)) with 0. rewrite N.add_0_r. destruct fuel; [lia|]. cbn [get_names]. rewrite N.ltb_irrefl.
    rewrite app_nil_r. destruct first; [rewrite FL by reflexivity; reflexivity|reflexivity].
  - cbn [concat] in *. rewrite lenN_app2 in *. apply at_app in H. destruct H as [H1 H2]. destruct fuel as [|k]; [lia|]. cbn [get_names].
    assert (X : exists tag c, tlv tag c part /\ N.land tag 192 = 128 /\
       (forall q s, at_ q c -> exists s', parse_san buf alt (mkName tag q (lenN c)) s = Val s') /\ (forall q, at_ q c -> is_name n (mkName tag q (lenN c)))).
    { destruct n as [u|t c]; cbn [name_der] in HD.
      - exists 134, u. split; [exact HD|]. split; [reflexivity|]. split; [intros q s A; eexists; reflexivity|intros q A; cbn; auto].
      - destruct HD as (T & C & NU & NE). exists t, c. split; [exact T|]. split; [exact C|]. split; [|intros q A; cbn; auto].
        intros q s A. unfold parse_san. cbn [g_tag g_off g_len]. apply N.eqb_neq in NU. rewrite NU. rewrite (at_slice _ _ A). cbn [bind].
        destruct (alt t c); [congruence|eauto ..]. }
    destruct X as (tag & c & T & C & PS & IN). pose proof (tlv_len _ _ _ T) as TL.
    destruct (N.ltb_spec p (p + (lenN part + lenN (concat parts')))); [|lia].
    destruct T as (ll & HL & EP). rewrite EP in H1. rewrite (at_rd _ _ _ H1). cbn [bind]. apply at_cons in H1.
    assert (LP : lenN part = 1 + (lenN ll + lenN c)) by (rewrite EP, lenN_cons2, lenN_app2; reflexivity).
    rewrite (get_len_at (p + 1) ll c) by (assumption || lia). cbn [bind]. rewrite C. cbn [N.eqb Pos.eqb negb].
    pose proof (proj2 (at_app _ _ _ H1)) as HC. destruct (PS (p + 1 + lenN ll) SanPlain HC) as (s' & ->). cbn [bind].
    assert (FF : first && (1 <? lenN l) = false) by (destruct first; [rewrite FL by reflexivity|]; reflexivity). rewrite FF.
    destruct (IH parts' F' k (p + lenN part) false (l ++ [mkName tag (p + 1 + lenN ll) (lenN c)])) as (gs & E & G); [exact H2|lia|discriminate|].
    exists (mkName tag (p + 1 + lenN ll) (lenN c) :: gs). split; [|constructor; [apply IN; exact HC|exact G]].
    replace (p + 1 + lenN ll + lenN c) with (p + lenN part) by lia.
    replace (p + (lenN part + lenN (concat parts'))) with (p + lenN part + lenN (concat parts')) by lia. rewrite E. rewrite <- app_assoc. reflexivity.
Qed.

Lemma each_name_at ns gs : Forall2 is_name ns gs ->
  Forall (fun n => match n with Name t c => N.land t 223 <> 134 /\ alt t c <> RErr /\ alt t c <> RUnavail | _ => True end) ns ->
  forall s uris, exists s', each_name buf alt gs s uris = Val (s', uris ++ flat_map name_uris ns).
Proof.
  induction 1 as [|n g ns gs H F IH]; intros K s uris; [exists s; cbn; rewrite app_nil_r; reflexivity|]. inversion K; subst. cbn [each_name].
  destruct n as [u|t c]; cbn [is_name] in H; destruct H as (T & A & L).
  - unfold parse_san at 1. rewrite T. change (N.land 134 223 =? 134) with true. cbv iota. cbn [bind]. rewrite L, (at_slice _ _ A). cbn [bind free_san].
    destruct (IH ltac:(assumption) (SanUri (g_off g) (lenN u)) (uris ++ [cut u])) as (s' & ->). exists s'. rewrite <- app_assoc. reflexivity.
  - match goal with X : _ /\ _ /\ _ |- _ => destruct X as (N1 & N2 & N3) end.
    unfold parse_san at 1. rewrite T. apply N.eqb_neq in N1. rewrite N1, L, (at_slice _ _ A). cbn [bind].
    destruct (alt t c) as [| | |[]]; try congruence; cbn [bind free_san];
      match goal with |- exists s', each_name _ _ _ ?s0 _ = _ => destruct (IH ltac:(assumption) s0 uris) as (s' & ->); exists s'; reflexivity end.
Qed.

Lemma tlv_first tag c s : tlv tag c s -> exists r, s = tag :: r.
Proof. intros (l & _ & ->). eauto. Qed.

Lemma dist_points_at ns d fuel p uris : Forall (fun n => match n with Name t c => alt t c <> RUnavail | _ => True end) ns ->
  point_der alt (mkPoint (Some ns) []) d -> at_ p d -> lenN d < N.of_nat fuel ->
  dist_points buf alt fuel p (p + lenN d) [] SanPlain uris = Val (p + lenN d, uris ++ flat_map name_uris ns).
Proof.
  intros K (f & (b & a & (parts & F & ->) & T2 & T1) & T0) H L. cbn [rest] in T0. rewrite app_nil_r in T0.
  destruct fuel as [|k]; [lia|]. pose proof (tlv_len _ _ _ T0) as L0. pose proof (tlv_len _ _ _ T1) as L1. cbn [dist_points].
  destruct (N.ltb_spec p (p + lenN d)); [|lia].
  destruct (get_tag_at 48 f d p (p + lenN d) T0 H) as (p1 & G1 & A1 & E1 & Q1); [lia|].
  change SEQUENCE with 48. rewrite G1. cbn [bind]. destruct (N.eqb_spec (lenN f) 0); [lia|].
  destruct (get_tag_at 160 a f p1 (p + lenN d) T1 A1) as (p2 & G2 & A2 & E2 & Q2); [lia|]. change CONTEXT0 with 160. rewrite G2.
  destruct (get_tag_at 160 (concat parts) a p2 (p + lenN d) T2 A2) as (p3 & G3 & A3 & E3 & Q3); [lia|]. rewrite G3.
  destruct (get_names_at ns parts F (S k) p3 true [] A3) as (gs & EN & IN); [lia|auto|]. rewrite EN. cbn [bind app].
  assert (EO : exists s', names_or_zero buf alt gs SanPlain uris = Val (s', uris ++ flat_map name_uris ns)).
  { destruct gs as [|g gs].
    - inversion IN; subst. exists SanPlain. cbn. rewrite app_nil_r. reflexivity.
    - apply each_name_at; [exact IN|]. clear -F K. revert K. induction F as [|n part ns parts HD F IH]; intros K; constructor; inversion K; subst; [|auto].
      destruct n; [exact I|]. cbn in HD. tauto. }
  destruct EO as (s' & EO). rewrite EO. cbn [bind].
  replace (p3 + lenN (concat parts)) with (p + lenN d) by lia. destruct k as [|k]; [lia|]. cbn [dist_points]. rewrite N.ltb_irrefl. reflexivity.
Qed.

Lemma memcmp_differs a b r : differs a b -> memcmp_oid a (b ++ r) = Val false.
Proof.
  intros (i & x & y & Ha & Hb & N1). revert a b Ha Hb. induction i as [|i IH]; intros [|a0 a] [|b0 b] Ha Hb; try discriminate; cbn in *.
  - injection Ha as ->. injection Hb as ->. apply N.eqb_neq in N1. rewrite N1. reflexivity.
  - destruct (a0 =? b0); [|reflexivity]. eapply IH; eassumption.
Qed.

Lemma all_one {A} (P : A -> list N -> Prop) x s : all P [x] s -> P x s.
Proof. intros (parts & F & ->). inversion F as [|? part ? ps HP F']; subst. inversion F'; subst. cbn. rewrite app_nil_r. exact HP. Qed.

Lemma extensions_at es : forall parts, Forall2 (ext_der alt) es parts -> Forall (simple_ext alt) es -> forall fuel p uris,
  at_ p (concat parts) -> lenN (concat parts) < N.of_nat fuel ->
  extensions buf alt fuel p (p + lenN (concat parts)) uris = Val (Go (uris ++ flat_map ext_uris es)).
Proof.
  induction es as [|e es IH]; intros parts F S fuel p uris H L; inversion F as [|? part ? parts' HD F']; subst; (destruct fuel as [|k]; [lia|]).
  - cbn [concat extensions flat_map]. change (lenN (@nil N)) with 0. rewrite N.add_0_r, N.ltb_irrefl, app_nil_r. reflexivity.
  - inversion S as [|? ? S1 S2]; subst. cbn [concat flat_map] in *. rewrite lenN_app2 in *. apply at_app in H. destruct H as [H1 H2].
    cbn [extensions]. set (fin := p + (lenN part + lenN (concat parts'))) in *.
    assert (NX : forall u, extensions buf alt k (p + lenN part) fin u = Val (Go (u ++ flat_map ext_uris es)) ).
    { intros u. unfold fin. rewrite N.add_assoc. destruct e as [pts|oid val]; cbn [ext_der] in HD.
      - destruct HD as (o & crit & d & q & v & _ & _ & _ & _ & _ & T). pose proof (tlv_len _ _ _ T). apply IH; [exact F'|exact S2|exact H2|lia].
      - destruct HD as (o & _ & _ & T). pose proof (tlv_len _ _ _ T). apply IH; [exact F'|exact S2|exact H2|lia]. }
    destruct e as [pts|oid val]; cbn [ext_der simple_ext ext_uris] in *.
    + destruct HD as (o & crit & d & q & v & TO & TC & PD & TQ & TV & T). destruct S1 as (ns & -> & K). apply all_one in PD. cbn [flat_map]. rewrite app_nil_r.
      pose proof (tlv_len _ _ _ T) as LT. destruct (N.ltb_spec p fin); [|unfold fin in *; lia].
      destruct (get_tag_at 48 (o ++ crit ++ v) part p fin T H1) as (p1 & G1 & A1 & E1 & Q1); [unfold fin; lia|]. change SEQUENCE with 48. rewrite G1. cbn [bind]. cbv zeta.
      apply at_app in A1. destruct A1 as [AO A1]. apply at_app in A1. destruct A1 as [AC AV]. rewrite !lenN_app2 in *.
      destruct (get_tag_at 6 oid_crldp o p1 (p1 + (lenN o + (lenN crit + lenN v))) TO AO) as (p2 & G2 & A2 & E2 & Q2); [lia|]. change OID with 6. rewrite G2. cbn [bind].
      rewrite (at_slice _ _ A2). cbn [bind]. change (memcmp_oid oid_crldp (OID_CRLDP ++ [0])) with (Val true). cbn [bind negb]. rewrite E2.
      set (fin1 := p1 + (lenN o + (lenN crit + lenN v))) in *.
      assert (X : match get_bool buf (p1 + lenN o) fin1 with Val q => Val q | Err BadTag => Val (p1 + lenN o) | Err OtherErr => Err OtherErr | Ub u => Ub u end
                  = Val (p1 + lenN o + lenN crit)).
      { unfold get_bool. change BOOLEAN with 1. destruct TC as [->|(b & TC)].
        - change (lenN (@nil N)) with 0 in *. rewrite N.add_0_r. destruct (tlv_first _ _ _ TV) as (r & ->). rewrite N.add_0_r in AV.
          rewrite (get_tag_not 1 4 r) by (try exact AV; unfold fin1; rewrite ?lenN_cons2; lia). reflexivity.
        - destruct (get_tag_at 1 [b] crit (p1 + lenN o) fin1 TC AC) as (pb & G & A & E & Q); [unfold fin1; lia|]. rewrite G. cbn [bind]. change (lenN [b]) with 1 in *. cbn [N.eqb Pos.eqb negb].
          rewrite (at_rd _ _ _ A). cbn [bind]. f_equal. lia. }
      rewrite X. cbn [bind]. destruct (get_tag_at 4 q v (p1 + lenN o + lenN crit) fin1 TV AV) as (p5 & G5 & A5 & E5 & Q5); [unfold fin1; lia|]. change OCTETS with 4. rewrite G5. cbn [bind].
      destruct (get_tag_at 48 d q p5 (p5 + lenN q) TQ A5) as (p6 & G6 & A6 & E6 & Q6); [lia|]. rewrite G6. cbn [bind]. rewrite E6, N.eqb_refl. cbn [negb].
      assert (LD : 2 <= lenN d) by (destruct PD as (f & _ & TD); exact (tlv_len _ _ _ TD)). destruct (N.eqb_spec (lenN d) 0); [lia|].
      rewrite <- E6. rewrite (dist_points_at ns d (Datatypes.S k) p6 uris K PD A6) by (unfold fin1 in *; lia). cbn [bind].
      replace (p6 + lenN d) with (p + lenN part) by (unfold fin1 in *; lia). rewrite NX. cbn [point_uris names]. rewrite <- app_assoc. reflexivity.
    + destruct HD as (o & TO & DF & T). pose proof (tlv_len _ _ _ T) as LT. destruct (N.ltb_spec p fin); [|unfold fin in *; lia].
      destruct (get_tag_at 48 (o ++ val) part p fin T H1) as (p1 & G1 & A1 & E1 & Q1); [unfold fin; lia|]. change SEQUENCE with 48. rewrite G1. cbn [bind]. cbv zeta.
      apply at_app in A1. destruct A1 as [AO A1]. rewrite !lenN_app2 in *.
      destruct (get_tag_at 6 oid o p1 (p1 + (lenN o + lenN val)) TO AO) as (p2 & G2 & A2 & E2 & Q2); [lia|]. change OID with 6. rewrite G2. cbn [bind].
      rewrite (at_slice _ _ A2). cbn [bind]. change OID_CRLDP with oid_crldp. rewrite (memcmp_differs oid oid_crldp [0] DF). cbn [bind negb]. rewrite E1, NX. reflexivity.
Qed.

Lemma one_cert_at es uris : cert_der alt es buf -> Forall (simple_ext alt) es -> one_cert buf alt uris = Val (Go (uris ++ cert_uris es)).
Proof.
  intros [[-> E]|(b & (parts & F & ->) & T)] S; unfold one_cert.
  - rewrite E. cbn. rewrite app_nil_r. reflexivity.
  - pose proof (tlv_len _ _ _ T) as L. destruct (N.eqb_spec (lenN buf) 0); [lia|].
    destruct (get_tag_at 48 (concat parts) buf 0 (lenN buf) T) as (p & G & A & E & Q); [exists [], []; rewrite app_nil_r; auto|lia|].
    change SEQUENCE with 48. rewrite G. cbn [bind]. replace (lenN buf) with (p + lenN (concat parts)) by lia.
    apply extensions_at; [exact F|exact S|exact A|]. unfold lenN in *. lia.
Qed.
End FOUND.

Theorem c116_mbedtls_partial alt cs bs : Forall2 (cert_der alt) cs bs -> Forall (Forall (simple_ext alt)) cs ->
  certs_uris alt bs [] = Val (flat_map cert_uris cs).
Proof.
  intros F S. change (flat_map cert_uris cs) with ([] ++ flat_map cert_uris cs). generalize (@nil (list N)) as u. revert S.
  induction F as [|c b cs bs H F IH]; intros S u; inversion S; subst; [cbn; rewrite app_nil_r; reflexivity|]. cbn [certs_uris flat_map].
  rewrite (one_cert_at b alt c u) by assumption. rewrite IH by assumption. rewrite <- app_assoc. reflexivity.
Qed.

(* ------------------------------------------------------------------ *)
(** ** Cases *)

(** The shortest encoding of short contents. *)
Definition T (tag : N) (c : list N) : list N := tag :: lenN c :: c.
Lemma tlv_T tag c : lenN c < 128 -> tlv tag c (T tag c).
Proof. intros H. exists [lenN c]. split; [left; auto|reflexivity]. Qed.
Lemma all_nil {A} (P : A -> list N -> Prop) : all P [] [].
Proof. exists []. split; [constructor|reflexivity]. Qed.
Lemma all_cons {A} (P : A -> list N -> Prop) x l s r : P x s -> all P l r -> all P (x :: l) (s ++ r).
Proof. intros H (parts & F & ->). exists (s :: parts). split; [constructor; assumption|reflexivity]. Qed.

(** http://a, http://b and http://c *)
Definition u1 : list N := [104; 116; 116; 112; 58; 47; 47; 97].
Definition u2 : list N := [104; 116; 116; 112; 58; 47; 47; 98].
Definition u3 : list N := [104; 116; 116; 112; 58; 47; 47; 99].
Definition enc_name (n : name) : list N := match n with Uri u => T 134 u | Name t c => T t c end.
Definition enc_names (ns : list name) : list N := concat (map enc_name ns).
Definition enc_point (d : point) : list N :=
  T 48 (match names d with None => [] | Some ns => T 160 (T 160 (enc_names ns)) end ++ rest d).
Definition enc_points (pts : list point) : list N := concat (map enc_point pts).
Definition enc_ext (pts : list point) : list N := T 48 (T 6 oid_crldp ++ [] ++ T 4 (T 48 (enc_points pts))).
Definition enc_cert (pts : list point) : list N := T 48 (enc_ext pts ++ []).
(** Directory names need memory, EDI party names (tag 5) are not supported by mbedTLS. *)
Definition demo_alt (t : N) (_ : list N) : sanres := if t =? 164 then RDir true else if t =? 165 then RUnavail else RPlain.

Definition short_names (ns : list name) : Prop :=
  Forall (fun n => match n with Uri u => lenN u < 128 | Name t c => lenN c < 128 /\ N.land t 192 = 128 /\ N.land t 223 <> 134 /\ demo_alt t c <> RErr end) ns /\
  lenN (enc_names ns) < 120.
Lemma T_len tag c : lenN (T tag c) = 2 + lenN c.
Proof. unfold T. rewrite !lenN_cons2. lia. Qed.

Lemma enc_names_der ns : short_names ns -> all (name_der demo_alt) ns (enc_names ns).
Proof.
  intros [F _]. induction F as [|n ns H F IH]; [apply all_nil|]. unfold enc_names. cbn [map concat]. apply all_cons; [|exact IH].
  destruct n; cbn in *; [apply tlv_T, H|]. destruct H as (A & B & C & D). split; [apply tlv_T, A|auto].
Qed.
Lemma enc_point_der d : (forall ns, names d = Some ns -> short_names ns) -> lenN (enc_point d) < 128 -> point_der demo_alt d (enc_point d).
Proof.
  intros H L. unfold enc_point in *. rewrite T_len in L. exists (match names d with None => [] | Some ns => T 160 (T 160 (enc_names ns)) end).
  split; [|apply tlv_T; lia]. destruct (names d) as [ns|] eqn:E; [|reflexivity]. exists (enc_names ns), (T 160 (enc_names ns)).
  rewrite lenN_app2, T_len, T_len in L. specialize (H ns eq_refl). split; [apply enc_names_der, H|]. split; apply tlv_T; [|rewrite T_len]; lia.
Qed.
Lemma enc_cert_der pts : Forall (fun d => (forall ns, names d = Some ns -> short_names ns) /\ lenN (enc_point d) < 128) pts -> lenN (enc_cert pts) < 128 ->
  cert_der demo_alt [Crldp pts] (enc_cert pts).
Proof.
  intros F L. right. exists (enc_ext pts ++ []). unfold enc_cert in *. rewrite T_len in L. split; [|apply tlv_T; lia].
  apply all_cons; [|apply all_nil]. rewrite app_nil_r in L. unfold enc_ext in *. rewrite T_len in L. 
  exists (T 6 oid_crldp), [], (enc_points pts), (T 48 (enc_points pts)), (T 4 (T 48 (enc_points pts))).
  assert (L2 : lenN (enc_points pts) < 120) by (rewrite !lenN_app2, !T_len in L; change (lenN (@nil N)) with 0 in L; change (lenN oid_crldp) with 3 in L; lia).
  split; [apply tlv_T; reflexivity|]. split; [left; reflexivity|]. split; [|split; [apply tlv_T; lia|split; [apply tlv_T; rewrite T_len; lia|apply tlv_T; lia]]].
  clear L L2. induction F as [|d pts [H1 H2] F IH]; [apply all_nil|]. unfold enc_points. cbn [map concat]. apply all_cons; [apply enc_point_der; assumption|exact IH].
Qed.
Ltac cert := apply enc_cert_der;
  [repeat first [apply Forall_nil | apply Forall_cons]; (split; [|vm_compute; reflexivity]);
   intros ns E; injection E as <-; (split; [|vm_compute; reflexivity]);
   repeat first [apply Forall_nil | apply Forall_cons]; try solve [vm_compute; reflexivity];
   repeat split; try discriminate; vm_compute; reflexivity
  |vm_compute; reflexivity].

Definition full (ns : list name) : point := mkPoint (Some ns) [].

Example c116_case : cert_der demo_alt [Crldp [full [Uri u1; Name 164 [48; 0]; Uri u2]]] (enc_cert [full [Uri u1; Name 164 [48; 0]; Uri u2]]) /\
  certs_uris demo_alt [enc_cert [full [Uri u1; Name 164 [48; 0]; Uri u2]]; []; enc_cert [full [Uri u3]]] [] = Val [u1; u2; u3].
Proof. split; [cert|vm_compute; reflexivity]. Qed.

(** mbedTLS, two distribution points: the names of the first one are gone through again with those of the second. *)
Theorem c116_two_refuted : cert_der demo_alt [Crldp [full [Uri u1]; full [Uri u2]]] (enc_cert [full [Uri u1]; full [Uri u2]]) /\
  cert_uris [Crldp [full [Uri u1]; full [Uri u2]]] = [u1; u2] /\
  certs_uris demo_alt [enc_cert [full [Uri u1]; full [Uri u2]]] [] = Val [u1; u1; u2].
Proof. split; [cert|split; vm_compute; reflexivity]. Qed.
(** Three of them: an error. *)
Theorem c116_three_refuted : cert_der demo_alt [Crldp [full [Uri u1]; full [Uri u2]; full [Uri u3]]] (enc_cert [full [Uri u1]; full [Uri u2]; full [Uri u3]]) /\
  certs_uris demo_alt [enc_cert [full [Uri u1]; full [Uri u2]; full [Uri u3]]] [] = Err OtherErr.
Proof. split; [cert|vm_compute; reflexivity]. Qed.
(** One with reasons (context tag 1): an error. *)
Theorem c116_reasons_refuted : cert_der demo_alt [Crldp [mkPoint (Some [Uri u1]) [129; 2; 1; 6]]] (enc_cert [mkPoint (Some [Uri u1]) [129; 2; 1; 6]]) /\
  certs_uris demo_alt [enc_cert [mkPoint (Some [Uri u1]) [129; 2; 1; 6]]] [] = Err BadTag.
Proof. split; [cert|vm_compute; reflexivity]. Qed.
(** A certificate whose extension has a wrong length: success, and all certificates after it are left out. *)
Theorem c116_rest_refuted : certs_uris demo_alt [T 48 (T 48 (T 6 oid_crldp ++ T 4 [48; 0; 0])); enc_cert [full [Uri u1]]] [] = Val [].
Proof. vm_compute. reflexivity. Qed.

(** A directory name before a name that is not supported: memory is freed twice. *)
Theorem c117_free_refuted : cert_der demo_alt [Crldp [full [Name 164 [48; 0]; Name 165 [48; 0]]]] (enc_cert [full [Name 164 [48; 0]; Name 165 [48; 0]]]) /\
  certs_uris demo_alt [enc_cert [full [Name 164 [48; 0]; Name 165 [48; 0]]]] [] = Ub DoubleFree.
Proof. split; [cert|vm_compute; reflexivity]. Qed.
(** An extension with the OID 2.5.29.31.0.1: the constant is read beyond its end. *)
Theorem c117_oid_refuted : certs_uris demo_alt [T 48 (T 48 (T 6 [85; 29; 31; 0; 1] ++ T 4 [5; 0]))] [] = Ub OutOfOid.
Proof. vm_compute. reflexivity. Qed.
Example c117_case : (forall t c, (fun (_ : N) (_ : list N) => RPlain) t c <> RDir true) /\
  certs_uris (fun _ _ => RPlain) [[48; 130; 255; 255; 48; 5]; enc_cert [full [Uri u1]]] [] = Err OtherErr.
Proof. split; [discriminate|vm_compute; reflexivity]. Qed.

(** With OpenSSL: exact if every distribution point has a full name and URIs are longer than 6 characters. *)
Definition o_name (n : name) : oname := match n with Uri u => OUri u | Name _ _ => OOther end.
Definition o_point (d : point) : option dpname := option_map (fun ns => FullName (map o_name ns)) (names d).
Lemma o_names_uris ns : Forall (fun n => match n with Uri u => 6 < lenN u | _ => True end) ns -> o_names (map o_name ns) = flat_map name_uris ns.
Proof.
  induction 1 as [|n ns H F IH]; [reflexivity|]. destruct n as [u|t c]; cbn [map o_name o_names flat_map name_uris app]; [|exact IH].
  destruct (N.leb_spec (lenN u) 6); [lia|]. rewrite IH. reflexivity.
Qed.
Theorem c116_openssl_partial (cs : list (option (list point))) :
  Forall (fun c => forall d, c = Some d -> Forall (fun p => exists ns, names p = Some ns /\
     Forall (fun n => match n with Uri u => 6 < lenN u | _ => True end) ns) d) cs ->
  o_certs (map (option_map (map o_point)) cs) = Val (flat_map (fun c => match c with Some d => flat_map point_uris d | None => [] end) cs).
Proof.
  induction 1 as [|c cs H F IH]; [reflexivity|]. destruct c as [d|]; cbn [map option_map o_certs flat_map app]; [|exact IH].
  assert (E : o_points (map o_point d) = Val (flat_map point_uris d)).
  { specialize (H d eq_refl). clear -H. induction H as [|p d (ns & E & K) H IH]; [reflexivity|]. cbn [map o_points flat_map]. unfold o_point at 1, point_uris at 1. rewrite E. cbn [option_map].
    rewrite IH. cbn [bind]. rewrite o_names_uris by exact K. reflexivity. }
  rewrite E, IH. reflexivity.
Qed.
Example c116_openssl_case : o_certs (map (option_map (map o_point)) [Some [full [Uri u1; Name 164 []]; full [Uri u2]]; None; Some []; Some [full [Uri u3]]]) = Val [u1; u2; u3].
Proof. vm_compute. reflexivity. Qed.
(** A distribution point with nothing but an issuer, or with a name relative to the issuer. *)
Theorem c116_openssl_null_refuted r : o_certs (Some (o_point (mkPoint None r) :: []) :: []) = Ub NullDeref.
Proof. reflexivity. Qed.
Theorem c116_openssl_union_refuted : o_certs [Some [Some Relative]] = Ub WrongUnion.
Proof. reflexivity. Qed.

Print Assumptions c116_mbedtls_partial.
Print Assumptions c116_openssl_partial.
Print Assumptions c117_inside.
Print Assumptions c117_defined_partial.
