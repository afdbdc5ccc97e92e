(** C308: a server with OpenSSL uses only configured cipher suites. *)
From Coq Require Import String Ascii NArith Bool List.
From Verif Require Import Bytes Algs Prop_Algs CiphSet.
Import ListNotations.
Local Open Scope list_scope.

(* ---------------- specification ---------------- *)
(** The suites that the configuration [l] names, as OpenSSL calls them ([spelt]: C79); no name has a colon. *)
Definition configured (l ns : list bytes) : Prop := Forall2 (Forall2 spelt) l ns /\ Forall (fun n => ~ In ":"%char n) ns.
(** What the server can use after [l] was configured. *)
Definition can_use (known12 known13 : bytes -> bool) (strict : bool) (dflt : suites) (l : list bytes) (c : suites) : Prop :=
  exists s, cipher_changes (map (fun a => (Create, a)) l) None = Ok s /\ c = server_suites known12 known13 strict dflt s.

(* ---------------- lemmas ---------------- *)
Lemma split_plain a : forall cur r, ~ In ":"%char a -> split cur (a ++ r) = split (cur ++ a) r.
Proof.
  induction a as [|c a IH]; intros cur r H; [now rewrite app_nil_r|]. cbn [app split].
  destruct (Ascii.eqb_spec c ":"%char) as [->|]; [exfalso; apply H; now left|].
  rewrite IH by (intros J; apply H; now right). now rewrite <- app_assoc.
Qed.

Lemma split_joined : forall ns, ns <> [] -> Forall (fun n => ~ In ":"%char n) ns -> split [] (joined ":"%char ns) = ns.
Proof.
  induction ns as [|n ns IH]; intros E F; [contradiction|]. inversion F as [|? ? H G]; subst.
  destruct ns as [|m ns].
  - cbn [joined]. rewrite <- (app_nil_r n) at 1. now rewrite split_plain.
  - rewrite joined_cons by discriminate. rewrite split_plain by exact H. cbn [app split]. change (Ascii.eqb ":" ":") with true. cbn iota.
    rewrite IH; [reflexivity|discriminate|exact G].
Qed.

Lemma used k12 k13 strict dflt l ns c : configured l ns -> l <> [] -> can_use k12 k13 strict dflt l c ->
  s12 c = filter k12 ns /\
  s13 c = if strict && negb (forallb k13 ns) then s13 dflt else match filter k13 ns with [] => s13 dflt | r => r end.
Proof.
  intros [F N] E (s & C & ->). pose proof (eq_trans (eq_sym C) (c79_suites l ns F)) as D. clear C. injection D as ->.
  destruct F as [|a n l ns H F]; [contradiction|]. unfold text, server_suites, set_cipher_suites, set_cipher_list, set_ciphersuites.
  rewrite split_joined by (discriminate || assumption). set (q := n :: ns). cbn [s12 s13].
  destruct (strict && negb (forallb k13 q)); cbn [s12 s13]; [auto|]. destruct (filter k13 q); auto.
Qed.

(* ---------------- theorems ---------------- *)
(** The full claim: if suites are configured, only configured ones can be used. *)
Definition c308_full : Prop := forall k12 k13 strict dflt l ns c, configured l ns -> l <> [] -> can_use k12 k13 strict dflt l c ->
  forall n, In n (s12 c) \/ In n (s13 c) -> In n ns.

(** Up to TLS 1.2 exactly the configured suites that OpenSSL has can be used, in the configured order. *)
Theorem c308_tls12 : forall k12 k13 strict dflt l ns c, configured l ns -> l <> [] -> can_use k12 k13 strict dflt l c -> s12 c = filter k12 ns.
Proof. intros * F E U. now apply (used k12 k13 strict dflt l ns c F E U). Qed.

(** With TLS 1.3 as well, if a suite of TLS 1.3 is configured and OpenSSL skips the names it does not have, or all of them are of TLS 1.3. *)
Theorem c308_partial : forall k12 k13 strict dflt l ns c, configured l ns -> can_use k12 k13 strict dflt l c ->
  (exists n, In n ns /\ k13 n = true) -> (strict = true -> forall n, In n ns -> k13 n = true) ->
  s13 c = filter k13 ns /\ forall n, In n (s12 c) \/ In n (s13 c) -> In n ns.
Proof.
  intros k12 k13 strict dflt l ns c F U (m & I & K) S.
  assert (E : l <> []) by (intros ->; destruct F as [F _]; inversion F; subst; destruct I).
  destruct (used k12 k13 strict dflt l ns c F E U) as [A B].
  assert (J : In m (filter k13 ns)) by now apply filter_In.
  assert (D : s13 c = filter k13 ns).
  { rewrite B. destruct strict; cbn [andb].
    - replace (forallb k13 ns) with true by (symmetry; apply forallb_forall; auto). cbn [negb]. destruct (filter k13 ns); [destruct J|reflexivity].
    - destruct (filter k13 ns); [destruct J|reflexivity]. }
  split; [exact D|]. intros n. rewrite A, D, !filter_In. tauto.
Qed.

(** If no suite of TLS 1.3 is configured, or with older versions another one is, the default ones of TLS 1.3 can be used. *)
Theorem c308_defaults : forall k12 k13 strict dflt l ns c, configured l ns -> l <> [] -> can_use k12 k13 strict dflt l c ->
  (forall n, In n ns -> k13 n = false) \/ (strict = true /\ exists n, In n ns /\ k13 n = false) -> s13 c = s13 dflt.
Proof.
  intros k12 k13 strict dflt l ns c F E U H. destruct (used k12 k13 strict dflt l ns c F E U) as [_ ->]. destruct H as [H|[-> (n & I & K)]].
  - destruct (strict && _); [reflexivity|]. destruct (filter k13 ns) as [|n r] eqn:Q; [reflexivity|].
    assert (I : In n (filter k13 ns)) by (rewrite Q; now left). apply filter_In in I as [I K]. rewrite H in K; [discriminate|exact I].
  - replace (forallb k13 ns) with false; [reflexivity|]. symmetry. apply not_true_is_false. rewrite forallb_forall. intros A. rewrite A in K; [discriminate|exact I].
Qed.

(** Nothing configured: the defaults. *)
Theorem c308_none : forall k12 k13 strict dflt c, can_use k12 k13 strict dflt [] c -> c = dflt.
Proof. intros k12 k13 strict dflt c (s & [= <-] & ->). reflexivity. Qed.

(* ---------------- cases ---------------- *)
Definition old_name (n : bytes) : bool := beqb n (bs "OLD").
Definition new_name (n : bytes) : bool := beqb n (bs "NEW") || beqb n (bs "DFLT").
Definition dflts : suites := {| s12 := [bs "OLD"]; s13 := [bs "DFLT"] |}.
Lemma old_configured : configured [bs "old"] [bs "OLD"].
Proof.
  split; [|repeat constructor; cbn; intuition discriminate]. constructor; [|constructor].
  constructor; [apply (SpeltLetter 14); reflexivity|]. constructor; [apply (SpeltLetter 11); reflexivity|].
  constructor; [apply (SpeltLetter 3); reflexivity|constructor].
Qed.

Theorem c308_refuted : ~ c308_full.
Proof.
  intros H. specialize (H old_name new_name false dflts [bs "old"] [bs "OLD"] {| s12 := [bs "OLD"]; s13 := [bs "DFLT"] |} old_configured).
  assert (I : In (bs "DFLT") [bs "OLD"]); [|destruct I as [I|[]]; discriminate].
  apply H; [discriminate| |right; now left]. exists (Some (bs "OLD")). split; reflexivity.
Qed.

Example c308_case : can_use old_name new_name false dflts [bs "old"; bs "new"] {| s12 := [bs "OLD"]; s13 := [bs "NEW"] |} /\
  can_use old_name new_name true dflts [bs "old"; bs "new"] {| s12 := [bs "OLD"]; s13 := [bs "DFLT"] |} /\
  can_use old_name new_name true dflts [bs "new"] {| s12 := []; s13 := [bs "NEW"] |}.
Proof. split; [|split]; eexists; (split; [reflexivity|]); reflexivity. Qed.

Print Assumptions c308_tls12.
Print Assumptions c308_partial.
Print Assumptions c308_defaults.
Print Assumptions c308_none.
Print Assumptions c308_refuted.
