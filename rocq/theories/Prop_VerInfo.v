(** C307: why the certificate of a peer was refused is logged (mbedTLS). *)
From Coq Require Import String Ascii NArith Bool List Lia.
From Verif Require Import Bytes VerInfo.
Import ListNotations.
Local Open Scope list_scope.

(* ---------------- specification ---------------- *)
(** The reasons that [fl] stands for: the texts of its bits, and one more if it has a bit without a text. *)
Definition named (table : list (N * bytes)) (i : N) : Prop := In i (map fst table).
Definition all_named (table : list (N * bytes)) (fl : N) : Prop := forall i, N.testbit fl i = true -> named table i.
Definition texts (table : list (N * bytes)) (fl : N) : list bytes := map snd (filter (fun x => N.testbit fl (fst x)) table).
Definition reasons (table : list (N * bytes)) (fl : N) (l : list bytes) : Prop :=
  (all_named table fl /\ l = texts table fl) \/ (~ all_named table fl /\ l = texts table fl ++ [UNKNOWN]).
(** They are written in lines. *)
Definition in_lines (l : list bytes) : bytes := concat (map (fun t => t ++ NL) l).
(** A table of a library has no bit twice. *)
Definition proper (table : list (N * bytes)) : Prop := NoDup (map fst table).

(* ---------------- lemmas ---------------- *)
Lemma clear_bit fl i j : N.testbit fl i = true -> N.testbit (N.lxor fl (2 ^ i)) j = if N.eqb i j then false else N.testbit fl j.
Proof.
  intros H. rewrite N.lxor_spec, N.pow2_bits_eqb. destruct (N.eqb_spec i j) as [<-|]; [now rewrite H|]. apply xorb_false_r.
Qed.

Lemma put_none room l : put room l = None <-> (room <= List.length l)%nat.
Proof. unfold put. destruct (PeanoNat.Nat.leb_spec room (List.length l)); split; try discriminate; try reflexivity; lia. Qed.
Lemma put_some room l r : put room l = Some r <-> (List.length l < room)%nat /\ r = (room - List.length l)%nat.
Proof. unfold put. destruct (PeanoNat.Nat.leb_spec room (List.length l)); split; [discriminate|lia|intros [= <-]; lia|intros [_ ->]; reflexivity]. Qed.

Lemma texts_clear table fl i : N.testbit fl i = true -> ~ In i (map fst table) -> texts table (N.lxor fl (2 ^ i)) = texts table fl.
Proof.
  intros B. unfold texts. induction table as [|[j t] table IH]; intros X; [reflexivity|]. cbn [filter fst map] in *.
  rewrite (clear_bit fl i j B). destruct (N.eqb_spec i j) as [E|E]; [exfalso; apply X; now left|].
  destruct (N.testbit fl j); cbn [map snd]; rewrite IH; auto; intros Y; apply X; now right.
Qed.

Lemma named_clear table fl i t : N.testbit fl i = true -> ~ In i (map fst table) ->
  all_named table (N.lxor fl (2 ^ i)) <-> all_named ((i, t) :: table) fl.
Proof.
  intros B X. unfold all_named, named. cbn [map fst In]. split; intros H j.
  - intros T. destruct (N.eqb_spec i j) as [E|E]; [now left|right]. apply H. rewrite clear_bit by exact B.
    destruct (N.eqb_spec i j); [contradiction|exact T].
  - rewrite clear_bit by exact B. destruct (N.eqb_spec i j) as [E|E]; [discriminate|]. intros T. destruct (H j T) as [?|?]; [contradiction|assumption].
Qed.

Lemma named_skip table fl i t : N.testbit fl i = false -> all_named table fl <-> all_named ((i, t) :: table) fl.
Proof.
  intros B. unfold all_named, named. cbn [map fst In]. split; intros H j T; [right; now apply H|].
  destruct (H j T) as [<-|?]; [congruence|assumption].
Qed.

Lemma reasons_clear table fl i t l : N.testbit fl i = true -> ~ In i (map fst table) ->
  reasons table (N.lxor fl (2 ^ i)) l <-> reasons ((i, t) :: table) fl (t :: l).
Proof.
  intros B X. unfold reasons. rewrite (named_clear table fl i t B X), (texts_clear table fl i B X).
  unfold texts at 3 4. cbn [filter fst]. rewrite B. cbn [map snd app]. fold (texts table fl). intuition congruence.
Qed.

Lemma reasons_skip table fl i t l : N.testbit fl i = false -> reasons table fl l <-> reasons ((i, t) :: table) fl l.
Proof.
  intros B. unfold reasons. rewrite (named_skip table fl i t B). unfold texts at 3 4. cbn [filter fst]. rewrite B. reflexivity.
Qed.

Lemma zero_named fl : all_named [] fl <-> fl = 0%N.
Proof.
  unfold all_named, named. cbn [map In]. split.
  - intros H. apply N.bits_inj_0. intros i. destruct (N.testbit fl i) eqn:E; [|reflexivity]. now destruct (H i).
  - intros -> i. now rewrite N.bits_0.
Qed.

Lemma in_lines_cons t l : in_lines (t :: l) = (t ++ NL) ++ in_lines l. Proof. reflexivity. Qed.

(** The text is the reasons in lines, and fails exactly if it does not fit with the NUL. *)
Lemma info_spec : forall table room fl, proper table -> (0 < room)%nat -> exists l, reasons table fl l /\
  verify_info table room fl = if Nat.ltb (List.length (in_lines l)) room then Some (in_lines l) else None.
Proof.
  induction table as [|[i t] table IH]; intros room fl P R.
  - cbn [verify_info]. destruct (N.eqb_spec fl 0) as [->|Z].
    + exists []. split; [left; split; [now apply zero_named|reflexivity]|]. cbn. destruct room; [lia|reflexivity].
    + exists [UNKNOWN]. split; [right; split; [now rewrite zero_named|reflexivity]|].
      change (in_lines [UNKNOWN]) with ((UNKNOWN ++ NL) ++ []). rewrite app_nil_r.
      destruct (put room (UNKNOWN ++ NL)) as [r|] eqn:E.
      * apply put_some in E as [L _]. apply PeanoNat.Nat.ltb_lt in L. now rewrite L.
      * apply put_none in E. destruct (PeanoNat.Nat.ltb_spec (List.length (UNKNOWN ++ NL)) room); [lia|reflexivity].
  - unfold proper in P. cbn [map fst] in P. inversion P as [|? ? X Q]; subst. cbn [verify_info].
    destruct (N.testbit fl i) eqn:B.
    + destruct (put room (t ++ NL)) as [r|] eqn:E.
      * apply put_some in E as [L ->]. destruct (IH (room - List.length (t ++ NL))%nat (N.lxor fl (2 ^ i)) Q ltac:(lia)) as (l & S & V).
        exists (t :: l). split; [now apply reasons_clear|]. rewrite V, in_lines_cons, (app_length (t ++ NL)).
        destruct (PeanoNat.Nat.ltb_spec (List.length (in_lines l)) (room - List.length (t ++ NL))),
          (PeanoNat.Nat.ltb_spec (List.length (t ++ NL) + List.length (in_lines l)) room); try lia; reflexivity.
      * apply put_none in E. destruct (IH 1%nat (N.lxor fl (2 ^ i)) Q ltac:(lia)) as (l & S & _).
        exists (t :: l). split; [now apply reasons_clear|]. rewrite in_lines_cons, (app_length (t ++ NL)).
        destruct (PeanoNat.Nat.ltb_spec (List.length (t ++ NL) + List.length (in_lines l)) room); [lia|reflexivity].
    + destruct (IH room fl Q R) as (l & S & V). exists l. split; [now apply reasons_skip|exact V].
Qed.

Lemma reasons_fun table fl l l' : reasons table fl l -> reasons table fl l' -> l = l'.
Proof. unfold reasons. intuition congruence. Qed.

Lemma reasons_some table fl l : fl <> 0%N -> reasons table fl l -> l <> [].
Proof.
  intros Z [[A ->]|[_ ->]]; [|now destruct (texts table fl)]. intros E. apply Z, N.bits_inj_0. intros i.
  destruct (N.testbit fl i) eqn:B; [|reflexivity]. apply A in B as J. unfold named in J. apply in_map_iff in J as ([j t] & J & K). cbn in J; subst j.
  assert (In t (texts table fl)) as I by (apply in_map_iff; exists (i, t); split; [reflexivity|now apply filter_In]).
  rewrite E in I. destruct I.
Qed.

(* ---------------- theorems ---------------- *)
(** No byte before the buffer is written for errors there are. *)
Theorem c307_inside : forall mem table fl, proper table -> fl <> 0%N -> verify_err_str mem table fl <> Before.
Proof.
  intros mem table fl P Z. unfold verify_err_str. destruct mem; cbn [negb]; [|discriminate].
  destruct (info_spec table 256 fl P ltac:(lia)) as (l & R & V). rewrite V. apply (reasons_some table fl l Z) in R.
  destruct l as [|t l]; [contradiction|]. destruct (Nat.ltb _ 256); [|discriminate].
  rewrite in_lines_cons. destruct t; discriminate.
Qed.

(** The string has all reasons, a line for each, without the last end of line; there is none exactly if it does not fit or there is no memory. *)
Theorem c307_string : forall mem table fl l, proper table -> fl <> 0%N -> reasons table fl l ->
  (forall s, verify_err_str mem table fl = Str s <-> mem = true /\ (List.length (in_lines l) < 256)%nat /\ in_lines l = s ++ NL) /\
  (verify_err_str mem table fl = Null <-> mem = false \/ (256 <= List.length (in_lines l))%nat).
Proof.
  intros mem table fl l P Z R. unfold verify_err_str.
  destruct (info_spec table 256 fl P ltac:(lia)) as (l' & R' & V). rewrite V. apply (reasons_fun table fl l) in R'; [|exact R]. subst l'.
  assert (E : exists s, in_lines l = s ++ NL).
  { assert (N0 : l <> []) by now apply (reasons_some table fl). clear -N0. induction l as [|t l IH]; [contradiction|].
    rewrite in_lines_cons. destruct l as [|u l]; [exists t; cbn; now rewrite app_nil_r|].
    destruct IH as (s & ->); [discriminate|]. exists ((t ++ NL) ++ s). now rewrite <- !app_assoc. }
  destruct E as (s0 & E). destruct mem; cbn [negb].
  - destruct (PeanoNat.Nat.ltb_spec (List.length (in_lines l)) 256) as [L|L].
    + assert (M : match in_lines l with [] => Before | _ :: _ => Str (removelast (in_lines l)) end = Str s0).
      { rewrite E. destruct (s0 ++ NL) as [|c r] eqn:F; [now destruct s0|]. rewrite <- F. unfold NL. now rewrite removelast_last. }
      destruct (in_lines l) as [|c r] eqn:F; [now destruct s0|]. rewrite M. split.
      * intros s. split; [intros [= <-]; auto|]. intros (_ & _ & G). rewrite E in G. now apply app_inv_tail in G as ->.
      * split; [discriminate|]. intros [?|?]; [discriminate|lia].
    + split; [intros s; split; [discriminate|intros (_ & ? & _); lia]|]. split; auto.
  - split; [intros s; split; [discriminate|intros (? & _); discriminate]|]. split; auto.
Qed.

(** The full claim: whatever the errors of a certificate are, logging them is defined. *)
Definition c307_full : Prop := forall table, proper table -> forall mem fl,
  (forall depth, server_log mem table depth fl <> Undef) /\ (forall ok, client_log mem table ok fl <> Undef).

(** It holds with memory if the reasons fit in the buffer; then they are logged. *)
Theorem c307_partial : forall table fl l, proper table -> reasons table fl l -> (List.length (in_lines l) < 256)%nat ->
  (forall depth, server_log true table depth fl = Nothing \/ exists s, server_log true table depth fl = Text s /\ in_lines l = s ++ NL) /\
  (forall ok, if (fl =? 0)%N then client_log true table ok fl = Nothing else exists s, client_log true table ok fl = Text s /\ in_lines l = s ++ NL).
Proof.
  intros table fl l P R L.
  assert (K : fl <> 0%N -> exists s, log_str (verify_err_str true table fl) = Text s /\ in_lines l = s ++ NL).
  { intros Z. pose proof (c307_inside true table fl P Z) as I. destruct (c307_string true table fl l P Z R) as [A B].
    destruct (verify_err_str true table fl) as [s| |] eqn:E.
    - exists s. split; [reflexivity|]. now apply A.
    - destruct (proj1 B eq_refl) as [?|?]; [discriminate|lia].
    - contradiction. }
  split.
  - intros depth. unfold server_log. destruct (N.eqb_spec fl 0) as [|Z]; [now left|].
    destruct ((depth =? 0) && (fl =? NOT_TRUSTED))%N; [now left|]. destruct (fl =? MISSING)%N; [now left|]. right. now apply K.
  - intros ok. unfold client_log. destruct (N.eqb_spec fl 0) as [|Z]; cbn [andb negb]; [now destruct ok|now apply K].
Qed.

(** The server logs the errors of every certificate but those that it may accept. *)
Theorem c307_when : forall mem table depth fl, proper table ->
  server_log mem table depth fl = Nothing <-> fl = 0%N \/ (depth = 0%N /\ fl = 8%N) \/ fl = 64%N.
Proof.
  intros mem table depth fl P. unfold server_log, NOT_TRUSTED, MISSING.
  destruct (N.eqb_spec fl 0); [tauto|]. destruct (N.eqb_spec depth 0), (N.eqb_spec fl 8); cbn [andb]; destruct (N.eqb_spec fl 64);
    try tauto; split; try (intros; exfalso; tauto); try (destruct (verify_err_str mem table fl); discriminate).
Qed.

(** Reasons that do not fit: NULL is logged with %s, at the client always. *)
Theorem c307_too_long : forall mem table fl l, proper table -> reasons table fl l -> fl <> 0%N -> (256 <= List.length (in_lines l))%nat ->
  (forall ok, client_log mem table ok fl = Undef) /\ (forall depth, (0 < depth)%N -> fl <> 64%N -> server_log mem table depth fl = Undef).
Proof.
  intros mem table fl l P R Z L. destruct (c307_string mem table fl l P Z R) as [_ B].
  assert (E : verify_err_str mem table fl = Null) by (apply B; now right). split.
  - intros ok. unfold client_log. destruct (N.eqb_spec fl 0); [contradiction|]. cbn [andb negb]. now rewrite E.
  - intros depth D M. unfold server_log, MISSING. destruct (N.eqb_spec fl 0); [contradiction|]. destruct (N.eqb_spec depth 0); [lia|]. cbn [andb].
    destruct (N.eqb_spec fl 64); [contradiction|]. now rewrite E.
Qed.

(** Five texts are enough. *)
Definition long (n : nat) : bytes := repeat "x"%char n.
Definition five : list (N * bytes) := [(0%N, long 36); (2%N, long 67); (3%N, long 57); (15%N, long 72); (16%N, long 80)].
Theorem c307_refuted : ~ c307_full.
Proof.
  intros H. assert (P : proper five).
  { unfold proper, five. cbn [map fst]. repeat (constructor; [cbn; intuition discriminate|]). constructor. }
  destruct (H five P true 98317%N) as [_ C]. apply (C false). reflexivity.
Qed.

(* ---------------- cases ---------------- *)
Definition few : list (N * bytes) := [(0%N, bs "expired"); (2%N, bs "other name"); (3%N, bs "not trusted")].
Example c307_case : server_log true few 0 9 = Text (bs "expired" ++ NL ++ bs "not trusted") /\ client_log true few false 4 = Text (bs "other name") /\
  client_log true few true 513 = Text (bs "expired" ++ NL ++ UNKNOWN) /\ server_log true few 0 8 = Nothing /\ server_log true few 1 8 = Text (bs "not trusted").
Proof. repeat split; reflexivity. Qed.
(** mbedTLS 3, x509_crt.c: the end of a line and the line for other bits. *)
Lemma c307_values : NL = ["010"%char] /\ verify_info [] 256 1 = Some (bs "Unknown reason (this should not happen)" ++ ["010"%char]).
Proof. split; reflexivity. Qed.
Example c307_case_proper : proper few /\ reasons few 9 [bs "expired"; bs "not trusted"].
Proof.
  split; [unfold proper, few; cbn [map fst]; repeat (constructor; [cbn; intuition discriminate|]); constructor|].
  left. split; [|reflexivity]. intros i H. unfold named, few. cbn [map fst In].
  destruct (N.lt_ge_cases i 4) as [L|L]; [|rewrite N.bits_above_log2 in H; [discriminate|change (N.log2 9) with 3%N; lia]].
  assert (i = 0 \/ i = 1 \/ i = 2 \/ i = 3)%N as [-> | [-> | [-> | ->]]] by lia; auto; discriminate.
Qed.

Print Assumptions c307_inside.
Print Assumptions c307_string.
Print Assumptions c307_partial.
Print Assumptions c307_when.
Print Assumptions c307_too_long.
Print Assumptions c307_refuted.
