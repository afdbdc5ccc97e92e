(** Properties C281-C282: user names from subject alternative names. *)
From Coq Require Import String Ascii NArith Bool List Lia.
From Verif Require Import Bytes CStr TlsNames SanNames.
Import ListNotations.
Local Open Scope list_scope.
Local Open Scope N_scope.

(* ================================================================== *)
(** * Specification *)

(** ietf-x509-cert-to-name: the host part of an address is passed in lower case, the part before the (last) "@" as it is. *)
Fixpoint to_lower (v : bytes) : bytes := match v with [] => [] | c :: v' => lower c :: to_lower v' end.
Definition at_sign : ascii := "@"%char.
Inductive mail_name : bytes -> bytes -> Prop :=
| mail_host l h : ~ In at_sign h -> mail_name (l ++ at_sign :: h) (l ++ at_sign :: to_lower h)
| mail_plain v : ~ In at_sign v -> mail_name v v.

(** A lower-case hexadecimal digit and its value; an octet in decimal. *)
Definition hex_digit (c : ascii) (n : N) : Prop := In (c, n) (combine (bs "0123456789abcdef") [0;1;2;3;4;5;6;7;8;9;10;11;12;13;14;15]).
Inductive hex_name : bytes -> bytes -> Prop :=
| hex_nil : hex_name [] []
| hex_cons c v h l r x y : N_of_ascii c = 16 * x + y -> hex_digit h x -> hex_digit l y -> hex_name v r -> hex_name (c :: v) (h :: l :: r).
(** The octets of an address and its text with dots. *)
Inductive dot_name : bytes -> bytes -> Prop :=
| dots a b c d : dot_name [a; b; c; d] (dec (N_of_ascii a) ++ "."%char :: dec (N_of_ascii b) ++ "."%char :: dec (N_of_ascii c) ++ "."%char :: dec (N_of_ascii d)).

(** [s] is a name of the kind asked for, and [u] is the user name the YANG module gives it. *)
Definition mapped (t : maptype) (s : san) (u : bytes) : Prop :=
  match s with
  | SanMail v => (t = MtMail \/ t = MtAny) /\ mail_name v u
  | SanDns v => (t = MtDns \/ t = MtAny) /\ u = to_lower v
  | SanIp v => (t = MtIp \/ t = MtAny) /\ (dot_name v u \/ (length v = 16%nat /\ hex_name v u))
  | _ => False
  end.
(** The first such name in the certificate. *)
Definition first_mapped (t : maptype) (names : list san) (u : bytes) : Prop :=
  exists a s b, names = a ++ s :: b /\ mapped t s u /\ forall x u', In x a -> ~ mapped t x u'.
(** Names without NUL whose host part is in lower case already; names the library can read. *)
Definition plain (s : san) : Prop :=
  match s with
  | SanMail v => ~ In NUL v /\ mail_name v v
  | SanDns v => ~ In NUL v /\ to_lower v = v
  | SanError => False
  | _ => True
  end.
Definition by_san (t : maptype) : Prop := t = MtMail \/ t = MtDns \/ t = MtIp \/ t = MtAny.
Definition enough (mem : nat -> bool) : Prop := forall i, mem i = true.

(* ================================================================== *)
(** * Proofs *)

Lemma lower_map v : to_lower v = map lower v.
Proof. induction v as [|c v IH]; [reflexivity|]. cbn. now rewrite IH. Qed.
Lemma cstr_id v : ~ In NUL v -> cstr v = v.
Proof.
  induction v as [|c v IH]; [reflexivity|]. cbn [cstr]. intros N.
  destruct (Ascii.eqb_spec c NUL) as [->|Ne]; [exfalso; apply N; left; reflexivity|]. rewrite IH; [reflexivity|].
  intros I; apply N; right; exact I.
Qed.
Lemma hexc_digit n : n < 16 -> hex_digit (hexc n) n.
Proof.
  intros H. unfold hex_digit.
  assert (C : In n [0;1;2;3;4;5;6;7;8;9;10;11;12;13;14;15]).
  { destruct n as [|p]; [left; reflexivity|]. do 4 (destruct p as [p|p|]; try (cbn; tauto); try lia). }
  cbn in C. repeat (destruct C as [C|C]; [subst n; vm_compute; tauto|]). destruct C.
Qed.
Lemma hexes_name v : hex_name v (hexes v).
Proof.
  induction v as [|c v IH]; [constructor|]. cbn [hexes flat_map pct02x app].
  assert (B : N_of_ascii c < 256) by apply N_ascii_bounded.
  apply (hex_cons c v _ _ _ (N_of_ascii c / 16) (N_of_ascii c mod 16)).
  - apply N.div_mod. discriminate.
  - apply hexc_digit. apply N.div_lt_upper_bound; [discriminate|exact B].
  - apply hexc_digit. apply N.mod_lt. discriminate.
  - exact IH.
Qed.
Lemma dotted_name a b c d : dot_name [a; b; c; d] (dotted a b c d).
Proof. exact (dots a b c d). Qed.
Lemma mt_eqb_eq a b : mt_eqb a b = true <-> a = b.
Proof. destruct a, b; split; (reflexivity || discriminate). Qed.
Lemma wanted t st : mt_eqb t MtAny || mt_eqb t st = true <-> t = st \/ t = MtAny.
Proof. rewrite orb_true_iff, !mt_eqb_eq. tauto. Qed.

(** One name, with memory: read by both libraries alike, and as the YANG module says if it is plain. *)
Lemma one l s : plain s -> match san_wrap l s true with
  | Value v st => mapped st s v /\ (forall t, by_san t -> (mapped t s v <-> t = st \/ t = MtAny)) /\ (forall t u, mapped t s u -> t = st \/ t = MtAny)
  | Skip => forall t u, ~ mapped t s u
  | _ => False
  end.
Proof.
  intros P. assert (E : san_wrap l s true = san_wrap OpenSSL s true) by (destruct l; [reflexivity|]; destruct s; reflexivity). rewrite E. clear E.
  change (san_wrap OpenSSL s true) with (openssl_san s true). destruct s as [v|v|v| |].
  - destruct P as [P1 P2]. cbn [openssl_san]. rewrite (cstr_id v P1). cbn [mapped]. split; [auto|]. split; [|tauto]. intros t _. tauto.
  - destruct P as [P1 P2]. cbn [openssl_san]. rewrite (cstr_id v P1). cbn [mapped]. rewrite P2. split; [auto|]. split; [|tauto]. intros t _. tauto.
  - assert (D : forall u, dot_name v u -> length v = 4%nat) by (intros u H; inversion H; reflexivity).
    assert (F4 : length v = 4%nat \/ length v <> 4%nat) by lia. destruct F4 as [L|L].
    + destruct v as [|a [|b [|c [|d [|e v]]]]]; try discriminate. cbn [openssl_san mapped].
      split; [split; [auto|left; apply dotted_name]|]. split; [|tauto]. intros t _. split; [tauto|]. intros H. split; [exact H|left; apply dotted_name].
    + assert (E : openssl_san (SanIp v) true = if lenN v =? 16 then Value (hexes v) MtIp else Skip).
      { destruct v as [|a [|b [|c [|d [|e v]]]]]; try reflexivity. exfalso. apply L. reflexivity. }
      rewrite E. destruct (N.eqb_spec (lenN v) 16) as [S16|S16].
      * assert (L16 : length v = 16%nat) by (unfold lenN in S16; lia). cbn [mapped].
        assert (R : dot_name v (hexes v) \/ length v = 16%nat /\ hex_name v (hexes v)) by (right; split; [exact L16|apply hexes_name]).
        split; [auto|]. split; [|tauto]. intros t _. tauto.
      * intros t u [_ [H|[H _]]]; [exact (L (D u H))|]. apply S16. unfold lenN. rewrite H. reflexivity.
  - cbn. tauto.
  - destruct P.
Qed.

Lemma look_right l t : by_san t -> forall names mem, enough mem -> Forall plain names ->
  match look l t names mem with
  | Name u => first_mapped t names u
  | NoName => forall s u, In s names -> ~ mapped t s u
  | _ => False
  end.
Proof.
  intros T. induction names as [|s r IH]; intros mem M P; [cbn; tauto|].
  inversion P as [|? ? P1 P2]; subst. cbn [look]. rewrite (M 0%nat). pose proof (one l s P1) as O.
  assert (SK : (forall u, ~ mapped t s u) -> match look l t r (fun i => mem (S i)) with
     | Name u => first_mapped t (s :: r) u | NoName => forall s0 u, In s0 (s :: r) -> ~ mapped t s0 u | _ => False end).
  { intros N. specialize (IH (fun i => mem (S i)) (fun i => M (S i)) P2). destruct (look l t r (fun i => mem (S i))) as [u| | |]; try exact IH.
    - destruct IH as [a [x [b [E [X Y]]]]]. exists (s :: a), x, b. split; [now rewrite E|]. split; [exact X|].
      intros x' u' [I|I]; [subst x'; apply N|apply Y; exact I].
    - intros s0 u [I|I]; [subst s0; apply N|apply IH; exact I]. }
  destruct (san_wrap l s true) as [v st|st| |]; [|destruct O| |destruct O].
  - destruct O as [O1 [O2 O3]]. destruct (mt_eqb t MtAny || mt_eqb t st) eqn:W.
    + exists [], s, r. split; [reflexivity|]. split; [apply O2; [exact T|]; apply wanted; exact W|]. intros x u' [].
    + apply SK. intros u H. apply O3 in H. apply wanted in H. congruence.
  - apply SK. exact (O t).
Qed.

(* ================================================================== *)
(** * C281 *)

(** The whole claim: the name of a client is the one that the YANG module gives it, whatever names a certificate has. *)
Definition c281_full : Prop := forall l t names mem u, by_san t -> enough mem -> ~ In SanError names ->
  san_username l t names mem = Name u -> first_mapped t names u.

(** With names that have no NUL and are in lower case where it matters, that is so, with both libraries, and there is no name exactly if the
    certificate has none of the kind. *)
Theorem c281_partial : forall l t names mem, by_san t -> enough mem -> Forall plain names ->
  (forall u, san_username l t names mem = Name u -> first_mapped t names u) /\
  (san_username l t names mem = NoName <-> forall s u, In s names -> ~ mapped t s u) /\
  san_username l t names mem <> NameError /\ san_username l t names mem <> WildName.
Proof.
  intros l t names mem T M P. assert (E : san_username l t names mem = look l t names mem).
  { unfold san_username, sans_of. destruct l, names; reflexivity. }
  rewrite E. pose proof (look_right l t T names mem M P) as H. destruct (look l t names mem) as [u| | |]; try destruct H.
  - destruct H as [s [b [H1 [H2 H3]]]]. split; [intros u' [= <-]; exists x, s, b; auto|]. split; [|split; discriminate].
    split; [discriminate|]. intros N. exfalso. apply (N s u); [|exact H2]. rewrite H1. apply in_or_app. right. left. reflexivity.
  - split; [discriminate|]. split; [tauto|]. split; discriminate.
Qed.

(** Addresses of hosts are right without any condition. *)
Theorem c281_ip : forall l names mem u, enough mem -> ~ In SanError names -> san_username l MtIp names mem = Name u -> first_mapped MtIp names u.
Proof.
  intros l names mem u M NE H. assert (E : san_username l MtIp names mem = look l MtIp names mem).
  { unfold san_username, sans_of. destruct l, names; reflexivity. }
  rewrite E in H. clear E. revert mem M NE H. induction names as [|s r IH]; intros mem M NE H; [discriminate|].
  cbn [look] in H. rewrite (M 0%nat) in H.
  assert (SK : (forall u, ~ mapped MtIp s u) -> look l MtIp r (fun i => mem (S i)) = Name u -> first_mapped MtIp (s :: r) u).
  { intros N L. destruct (IH (fun i => mem (S i)) (fun i => M (S i)) (fun I => NE (or_intror I)) L) as [a [x [b [E [X Y]]]]].
    exists (s :: a), x, b. split; [now rewrite E|]. split; [exact X|]. intros x' u' [I|I]; [subst x'; apply N|apply Y; exact I]. }
  assert (IPC : (exists v, s = SanIp v) \/ s = SanOther \/ (exists v, s = SanMail v \/ s = SanDns v)).
  { destruct s; eauto. exfalso. apply NE. left. reflexivity. }
  destruct IPC as [PI|[PI|[v PI]]].
  - assert (P : plain s) by (destruct PI as [v ->]; exact Logic.I). pose proof (one l s P) as O.
    destruct (san_wrap l s true) as [w st|st| |]; [|destruct O| |destruct O].
    + destruct O as [O1 [O2 O3]]. destruct (mt_eqb MtIp MtAny || mt_eqb MtIp st) eqn:W.
      * injection H as <-. exists [], s, r. split; [reflexivity|]. split; [apply O2; [right; right; left; reflexivity|apply wanted; exact W]|]. intros x u' [].
      * apply SK; [|exact H]. intros u0 Q. apply O3 in Q. apply wanted in Q. congruence.
    + apply SK; [exact (O MtIp)|exact H].
  - subst s. apply SK; [cbn; tauto|]. destruct l; exact H.
  - apply SK; [destruct PI as [PI|PI]; subst s; cbn; intros u0 [[Q|Q] _]; discriminate|]. destruct PI as [PI|PI]; subst s; destruct l; exact H.
Qed.

(** A DNS name with capital letters is passed as it is. *)
Theorem c281_full_refuted : ~ c281_full.
Proof.
  intros H. specialize (H OpenSSL MtDns [SanDns (bs "Host.Example.COM")] (fun _ => true) (bs "Host.Example.COM")).
  destruct H as [a [s [b [E [X _]]]]].
  - right. left. reflexivity.
  - intros i. reflexivity.
  - intros [I|[]]. discriminate.
  - reflexivity.
  - destruct a as [|x a]; [|destruct a; discriminate]. injection E as <- _. destruct X as [_ X]. vm_compute in X. discriminate.
Qed.
(** So is the host part of an address, for which the YANG module has this example. *)
Theorem c281_mail_refuted : exists names u, san_username OpenSSL MtMail names (fun _ => true) = Name u /\ u = bs "FooBar@Example.COM" /\
  first_mapped MtMail names (bs "FooBar@example.com").
Proof.
  exists [SanMail (bs "FooBar@Example.COM")], (bs "FooBar@Example.COM"). split; [reflexivity|]. split; [reflexivity|].
  exists [], (SanMail (bs "FooBar@Example.COM")), []. split; [reflexivity|]. split; [|intros x u' []]. split; [auto|].
  change (bs "FooBar@Example.COM") with (bs "FooBar" ++ at_sign :: bs "Example.COM").
  change (bs "FooBar@example.com") with (bs "FooBar" ++ at_sign :: to_lower (bs "Example.COM")). apply mail_host. vm_compute. intuition discriminate.
Qed.

(* ================================================================== *)
(** * C282 *)

(** The whole claim: whatever memory there is, both libraries give the same. *)
Definition c282_full : Prop := forall t names mem, san_username OpenSSL t names mem = san_username MbedTLS t names mem.

(** With enough memory they do, whatever the names; without, they do if the certificate has no IPv4 address. *)
Definition ipv4 (s : san) : Prop := exists v, s = SanIp v /\ length v = 4%nat.
Lemma same_one s m : m = true \/ ~ ipv4 s -> openssl_san s m = mbedtls_san s m.
Proof.
  intros H. destruct s as [v|v|v| |]; try reflexivity. destruct m; [destruct v as [|a [|b [|c [|d [|e v]]]]]; reflexivity|].
  destruct v as [|a [|b [|c [|d [|e v]]]]]; try reflexivity. exfalso. destruct H as [H|H]; [discriminate|]. apply H. eexists. split; reflexivity.
Qed.
Theorem c282_partial : forall t names mem, enough mem \/ (forall s, In s names -> ~ ipv4 s) ->
  san_username OpenSSL t names mem = san_username MbedTLS t names mem /\ san_username MbedTLS t names mem <> WildName.
Proof.
  intros t names mem H.
  assert (L : forall names mem, enough mem \/ (forall s, In s names -> ~ ipv4 s) ->
    look OpenSSL t names mem = look MbedTLS t names mem /\ look MbedTLS t names mem <> WildName).
  { clear. induction names as [|s r IH]; intros mem H; [split; [reflexivity|discriminate]|]. cbn [look san_wrap].
    assert (E : openssl_san s (mem 0%nat) = mbedtls_san s (mem 0%nat)).
    { apply same_one. destruct H as [H|H]; [left; apply H|right; apply H; left; reflexivity]. }
    assert (K : enough (fun i => mem (S i)) \/ (forall s, In s r -> ~ ipv4 s)).
    { destruct H as [H|H]; [left; intros i; apply H|right; intros x I; apply H; right; exact I]. }
    specialize (IH _ K). rewrite <- E. destruct (openssl_san s (mem 0%nat)) as [v st|st| |] eqn:O; try exact IH.
    - destruct (mt_eqb t MtAny || mt_eqb t st); [split; [reflexivity|discriminate]|exact IH].
    - exfalso. destruct s as [v|v|v| |]; cbn in O; try (destruct (mem 0%nat); discriminate); try discriminate.
      destruct v as [|a [|b [|c [|d [|e v]]]]]; unfold openssl_san in O; repeat match type of O with context [if ?b then _ else _] => destruct b end; discriminate.
    - split; [reflexivity|discriminate]. }
  unfold san_username, sans_of. destruct names as [|s r]; [split; [reflexivity|discriminate]|]. exact (L (s :: r) mem H).
Qed.
(** With mbedTLS a failed allocation for an IPv4 address is not noticed: the name is whatever the pointer happens to be. *)
Theorem c282_full_refuted : ~ c282_full /\ exists names, san_username MbedTLS MtIp names (fun _ => false) = WildName /\
  san_username OpenSSL MtIp names (fun _ => false) = NameError.
Proof.
  assert (W : san_username MbedTLS MtIp [SanIp (bs "abcd")] (fun _ => false) = WildName) by reflexivity.
  assert (O : san_username OpenSSL MtIp [SanIp (bs "abcd")] (fun _ => false) = NameError) by reflexivity.
  split; [|eauto]. intros H. specialize (H MtIp [SanIp (bs "abcd")] (fun _ => false)). rewrite W, O in H. discriminate.
Qed.

(** A certificate with a name nobody knows, a host and an address. *)
Definition ex_names : list san := [SanOther; SanDns (bs "host.example.com"); SanMail (bs "FooBar@example.com"); SanIp (bs "ABCD")].
Example ex_plain : Forall plain ex_names.
Proof.
  apply Forall_cons; [exact Logic.I|]. apply Forall_cons; [split; [vm_compute; intuition discriminate|vm_compute; reflexivity]|].
  apply Forall_cons; [split; [vm_compute; intuition discriminate|]|].
  - assert (N : ~ In at_sign (bs "example.com")) by (vm_compute; intuition discriminate). exact (mail_host (bs "FooBar") (bs "example.com") N).
  - apply Forall_cons; [exact Logic.I|constructor].
Qed.
Example ex_user : san_username MbedTLS MtMail ex_names (fun _ => true) = Name (bs "FooBar@example.com") /\
  san_username OpenSSL MtIp ex_names (fun _ => true) = Name (bs "65.66.67.68") /\ san_username OpenSSL MtAny ex_names (fun _ => true) = Name (bs "host.example.com").
Proof. repeat split; vm_compute; reflexivity. Qed.
(** The same loop as in TlsNames, which has no memory that runs out. *)
Lemma same_loop t : forall names, ~ In SanError names -> look OpenSSL t names (fun _ => true) =
  match find_san t names with NName u => Name u | NNone => NoName | NFatal => NameError | NUb => WildName end.
Proof.
  induction names as [|s r IH]; intros N; [reflexivity|]. cbn [look find_san san_wrap].
  assert (N' : ~ In SanError r) by (intros I; apply N; right; exact I). specialize (IH N').
  destruct s as [v|v|v| |]; cbn [openssl_san san_value]; try exact IH.
  - destruct (mt_eqb t MtAny || mt_eqb t MtMail); [reflexivity|exact IH].
  - destruct (mt_eqb t MtAny || mt_eqb t MtDns); [reflexivity|exact IH].
  - destruct v as [|a [|b [|c [|d [|e v]]]]]; try (destruct (lenN _ =? 16)); try exact IH; try (destruct (mt_eqb t MtAny || mt_eqb t MtIp); [reflexivity|exact IH]).
  - exfalso. apply N. left. reflexivity.
Qed.

Print Assumptions c281_partial.
Print Assumptions c281_ip.
Print Assumptions c281_full_refuted.
Print Assumptions c281_mail_refuted.
Print Assumptions c282_partial.
Print Assumptions c282_full_refuted.
