(** Byte strings and the C library functions on them used by the model. *)
From Coq Require Import Ascii String NArith ZArith Bool Lia List.
Import ListNotations.

(** A byte is an [ascii] (eight bits); a byte string is a list. *)
Definition bytes := list ascii.

(** Literal helper. *)
Definition bs (s : string) : bytes := list_ascii_of_string s.

Definition NL : ascii := "010"%char.
Definition NUL : ascii := "000"%char.
Definition HASH : ascii := "#"%char.

Definition lenN {A} (l : list A) : N := N.of_nat (length l).

(** [firstn]/[skipn] with a binary count, so that huge counts compute. *)
Fixpoint takeN {A} (n : N) (l : list A) : list A :=
  match l with
  | [] => []
  | x :: r => if (n =? 0)%N then [] else x :: takeN (n - 1) r
  end.

Fixpoint dropN {A} (n : N) (l : list A) : list A :=
  match l with
  | [] => []
  | x :: r => if (n =? 0)%N then l else dropN (n - 1) r
  end.

Fixpoint beqb (a b : bytes) : bool :=
  match a, b with
  | [], [] => true
  | x :: a', y :: b' => Ascii.eqb x y && beqb a' b'
  | _, _ => false
  end.

(** The C string stored in a buffer: the bytes before the first NUL. *)
Fixpoint cstr (l : bytes) : bytes :=
  match l with
  | [] => []
  | x :: r => if Ascii.eqb x NUL then [] else x :: cstr r
  end.

Definition no_nul (l : bytes) : Prop := ~ In NUL l.

Fixpoint no_nulb (l : bytes) : bool :=
  match l with [] => true | x :: r => negb (Ascii.eqb x NUL) && no_nulb r end.

(** [strncmp(a, b, n) == 0] for NUL-terminated [a], [b] given by their contents. *)
Fixpoint strncmp_eq (a b : bytes) (n : nat) {struct n} : bool :=
  match n with
  | O => true
  | S n' => match a, b with
            | [], [] => true
            | x :: a', y :: b' => Ascii.eqb x y && strncmp_eq a' b' n'
            | _, _ => false
            end
  end.

(** Machine-word moduli. *)
Definition w8 : N := 256.
Definition w16 : N := 65536.
Definition w31 : N := 2147483648.
Definition w32 : N := 4294967296.
Definition w64 : N := 18446744073709551616.

Definition is_digit (c : ascii) : bool :=
  let n := N_of_ascii c in (48 <=? n)%N && (n <=? 57)%N.
Definition digit_val (c : ascii) : N := (N_of_ascii c - 48)%N.

(** isspace() in the C locale: space, \t \n \v \f \r. *)
Definition is_space (c : ascii) : bool :=
  let n := N_of_ascii c in (n =? 32)%N || ((9 <=? n)%N && (n <=? 13)%N).

Fixpoint skip_space (l : bytes) : bytes :=
  match l with
  | x :: r => if is_space x then skip_space r else l
  | [] => []
  end.

(** Value of the leading digits; [acc] is the value so far. *)
Fixpoint digits_val (acc : N) (l : bytes) : N :=
  match l with
  | x :: r => if is_digit x then digits_val (acc * 10 + digit_val x)%N r else acc
  | [] => acc
  end.

(** Optional sign: (is '-', rest). *)
Definition split_sign (s : bytes) : bool * bytes :=
  match s with
  | c :: r => if Ascii.eqb c "-" then (true, r) else if Ascii.eqb c "+" then (false, r) else (false, s)
  | [] => (false, [])
  end.

(** strtoul(s, NULL, 10) on an LP64 platform (ISO C 7.22.1.4): white space, an optional
    sign, digits; saturates at ULONG_MAX; a '-' negates modulo 2^64. *)
Definition strtoul (s : bytes) : N :=
  let '(neg, d) := split_sign (skip_space s) in
  let v := digits_val 0 d in
  if (w64 <=? v)%N then (w64 - 1)%N
  else if neg then ((w64 - v) mod w64)%N else v.

(** Decimal printing, as printf("%u"). *)
Fixpoint dec_fuel (f : nat) (n : N) (acc : bytes) : bytes :=
  match f with
  | O => acc
  | S f' =>
      let acc' := ascii_of_N (48 + n mod 10) :: acc in
      if (n / 10 =? 0)%N then acc' else dec_fuel f' (n / 10)%N acc'
  end.
Definition dec (n : N) : bytes := dec_fuel (S (N.to_nat (N.log2 n))) n [].

(* ------------------------------------------------------------------ *)
(** ** Lemmas *)

Lemma takeN_firstn {A} n (l : list A) : takeN n l = firstn (N.to_nat n) l.
Proof.
  revert n; induction l as [|x r IH]; intros n; cbn [takeN].
  - now rewrite firstn_nil.
  - destruct (N.eqb_spec n 0) as [->|H]; [reflexivity|].
    rewrite IH. replace (N.to_nat n) with (S (N.to_nat (n - 1))) by lia. reflexivity.
Qed.

Lemma dropN_skipn {A} n (l : list A) : dropN n l = skipn (N.to_nat n) l.
Proof.
  revert n; induction l as [|x r IH]; intros n; cbn [dropN].
  - now rewrite skipn_nil.
  - destruct (N.eqb_spec n 0) as [->|H]; [reflexivity|].
    rewrite IH. replace (N.to_nat n) with (S (N.to_nat (n - 1))) by lia. reflexivity.
Qed.

Lemma takeN_dropN {A} n (l : list A) : takeN n l ++ dropN n l = l.
Proof. rewrite takeN_firstn, dropN_skipn. apply firstn_skipn. Qed.

Lemma lenN_app {A} (a b : list A) : lenN (a ++ b) = (lenN a + lenN b)%N.
Proof. unfold lenN. rewrite app_length. lia. Qed.

Lemma lenN_nil {A} : lenN (@nil A) = 0%N. Proof. reflexivity. Qed.
Lemma lenN_cons {A} (x : A) l : lenN (x :: l) = (1 + lenN l)%N.
Proof. unfold lenN. cbn [length]. lia. Qed.

Lemma lenN_takeN {A} n (l : list A) : lenN (takeN n l) = N.min n (lenN l).
Proof. rewrite takeN_firstn. unfold lenN. rewrite firstn_length. lia. Qed.

Lemma lenN_dropN {A} n (l : list A) : lenN (dropN n l) = (lenN l - n)%N.
Proof. rewrite dropN_skipn. unfold lenN. rewrite skipn_length. lia. Qed.

Lemma takeN_all {A} n (l : list A) : (lenN l <= n)%N -> takeN n l = l.
Proof. intros H. rewrite takeN_firstn. apply firstn_all2. unfold lenN in H. lia. Qed.

Lemma dropN_all {A} n (l : list A) : (lenN l <= n)%N -> dropN n l = [].
Proof. intros H. rewrite dropN_skipn. apply skipn_all2. unfold lenN in H. lia. Qed.

Lemma takeN_app_exact {A} (a b : list A) : takeN (lenN a) (a ++ b) = a.
Proof.
  rewrite takeN_firstn. unfold lenN. rewrite Nnat.Nat2N.id, firstn_app, firstn_all, Nat.sub_diag.
  cbn. now rewrite app_nil_r.
Qed.

Lemma dropN_app_exact {A} (a b : list A) : dropN (lenN a) (a ++ b) = b.
Proof.
  rewrite dropN_skipn. unfold lenN. rewrite Nnat.Nat2N.id, skipn_app, skipn_all, Nat.sub_diag.
  reflexivity.
Qed.

Lemma beqb_spec a b : beqb a b = true <-> a = b.
Proof.
  revert b; induction a as [|x a IH]; intros [|y b]; cbn; try (split; congruence).
  rewrite andb_true_iff, Ascii.eqb_eq, IH. split; [intros [-> ->]; auto | intros [= -> ->]; auto].
Qed.

Lemma beqb_refl a : beqb a a = true. Proof. now apply beqb_spec. Qed.

Lemma beqb_false a b : beqb a b = false <-> a <> b.
Proof. rewrite <- beqb_spec. destruct (beqb a b); split; congruence. Qed.

Lemma no_nulb_spec l : no_nulb l = true <-> no_nul l.
Proof.
  unfold no_nul; induction l as [|x r IH]; cbn; [split; auto|].
  rewrite andb_true_iff, negb_true_iff, Ascii.eqb_neq, IH. intuition.
Qed.

Lemma cstr_id l : no_nul l -> cstr l = l.
Proof.
  unfold no_nul; induction l as [|x r IH]; cbn; [auto|]. intros H.
  destruct (Ascii.eqb_spec x NUL) as [->|]; [exfalso; apply H; auto|].
  f_equal. apply IH. intros ?; apply H; auto.
Qed.

Lemma strncmp_eq_spec a b n :
  (n <= length a)%nat -> (n <= length b)%nat ->
  strncmp_eq a b n = true <-> firstn n a = firstn n b.
Proof.
  revert a b; induction n as [|n IH]; intros a b Ha Hb; [cbn; split; auto|].
  destruct a as [|x a], b as [|y b]; cbn [strncmp_eq firstn length] in *; try lia.
  rewrite andb_true_iff, Ascii.eqb_eq, IH by lia.
  split; [intros [-> ->]; auto | intros [= -> ->]; auto].
Qed.

Lemma N_ascii_digit n : (n < 10)%N -> is_digit (ascii_of_N (48 + n)) = true /\ digit_val (ascii_of_N (48 + n)) = n.
Proof.
  intros H. unfold is_digit, digit_val. rewrite N_ascii_embedding by lia. split; [|lia].
  apply andb_true_iff; split; apply N.leb_le; lia.
Qed.

Definition all_digits (l : bytes) : Prop := forall c, In c l -> is_digit c = true.

Lemma digits_val_app acc a b :
  all_digits a -> digits_val acc (a ++ b) = digits_val (digits_val acc a) b.
Proof.
  revert acc; induction a as [|x a IH]; intros acc H; [reflexivity|].
  cbn [app digits_val]. rewrite (H x (or_introl eq_refl)). apply IH. intros c Hc; apply H; now right.
Qed.

Lemma dec_fuel_app f n acc : dec_fuel f n acc = dec_fuel f n [] ++ acc.
Proof.
  revert n acc; induction f as [|f IH]; intros n acc; [reflexivity|].
  cbn [dec_fuel]. destruct (n / 10 =? 0)%N; [reflexivity|].
  rewrite IH, (IH _ [_]), <- app_assoc. reflexivity.
Qed.

Lemma dec_fuel_digits f n : all_digits (dec_fuel f n []).
Proof.
  revert n; induction f as [|f IH]; intros n; [intros c []|].
  cbn [dec_fuel]. pose proof (N.mod_lt n 10 ltac:(lia)) as Hm.
  destruct (N_ascii_digit _ Hm) as [Hd _].
  destruct (n / 10 =? 0)%N.
  - intros c [<-|[]]; exact Hd.
  - rewrite dec_fuel_app. intros c Hc. apply in_app_or in Hc. destruct Hc as [Hc|[<-|[]]]; [|exact Hd].
    exact (IH _ _ Hc).
Qed.

Lemma dec_digits n : all_digits (dec n).
Proof. apply dec_fuel_digits. Qed.

Lemma dec_fuel_val f n :
  (n < 2 ^ N.of_nat f)%N -> digits_val 0 (dec_fuel f n []) = n.
Proof.
  revert n; induction f as [|f IH]; intros n Hn.
  - cbn in Hn. cbn. lia.
  - cbn [dec_fuel]. pose proof (N.mod_lt n 10 ltac:(lia)) as Hm.
    destruct (N_ascii_digit _ Hm) as [Hd Hv].
    pose proof (N.div_mod n 10 ltac:(lia)) as Hdm.
    destruct (N.eqb_spec (n / 10) 0) as [E|E].
    + cbn [digits_val]. rewrite Hd, Hv. lia.
    + rewrite dec_fuel_app, digits_val_app by apply dec_fuel_digits.
      rewrite IH; [cbn [digits_val]; rewrite Hd, Hv; lia|].
      rewrite Nnat.Nat2N.inj_succ, N.pow_succ_r' in Hn.
      apply N.div_lt_upper_bound; lia.
Qed.

Lemma dec_val n : digits_val 0 (dec n) = n.
Proof.
  apply dec_fuel_val. rewrite Nnat.Nat2N.inj_succ, Nnat.N2Nat.id.
  destruct (N.eq_dec n 0) as [->|Hn]; [cbn; lia|]. apply N.log2_spec; lia.
Qed.

Lemma dec_nonempty n : dec n <> [].
Proof.
  unfold dec. cbn [dec_fuel]. destruct (n / 10 =? 0)%N; [discriminate|].
  rewrite dec_fuel_app. intros H. apply app_eq_nil in H. now destruct H.
Qed.

Lemma digit_facts c : is_digit c = true ->
  is_space c = false /\ c <> "-"%char /\ c <> "+"%char /\ c <> NL /\ c <> NUL /\ c <> HASH.
Proof.
  intros H. unfold is_digit, is_space in *. apply andb_true_iff in H. destruct H as [H1 H2].
  apply N.leb_le in H1, H2. repeat split; try (intros ->; cbn in *; lia).
  apply orb_false_iff; split; [apply N.eqb_neq; lia|]. apply andb_false_iff; right; apply N.leb_gt; lia.
Qed.

Lemma skip_space_digit l : (forall c, hd_error l = Some c -> is_digit c = true) -> skip_space l = l.
Proof.
  destruct l as [|c l]; [reflexivity|]. intros H. cbn. specialize (H c eq_refl).
  now destruct (digit_facts c H) as [-> _].
Qed.

Lemma strtoul_digits d r :
  d <> [] -> all_digits d -> (forall c, hd_error r = Some c -> is_digit c = false) ->
  strtoul (d ++ r) = N.min (digits_val 0 d) (w64 - 1).
Proof.
  intros Hne Hd Hr. unfold strtoul.
  rewrite skip_space_digit.
  2:{ destruct d; [congruence|]. cbn. intros ? [= <-]. apply Hd; now left. }
  assert (E : split_sign (d ++ r) = (false, d ++ r)).
  { destruct d as [|c d']; [congruence|]. cbn [app split_sign].
    destruct (digit_facts c (Hd c (or_introl eq_refl))) as (_ & H1 & H2 & _).
    apply Ascii.eqb_neq in H1, H2. now rewrite H1, H2. }
  rewrite E. rewrite digits_val_app by exact Hd.
  assert (E2 : digits_val (digits_val 0 d) r = digits_val 0 d).
  { destruct r as [|c r]; [reflexivity|]. cbn. now rewrite (Hr c eq_refl). }
  rewrite E2. destruct (N.leb_spec w64 (digits_val 0 d)); unfold w64 in *; lia.
Qed.

Lemma strtoul_dec n r :
  (n < w64)%N -> (forall c, hd_error r = Some c -> is_digit c = false) -> strtoul (dec n ++ r) = n.
Proof.
  intros Hn Hr. rewrite strtoul_digits; auto using dec_nonempty, dec_digits.
  rewrite dec_val. unfold w64 in *. lia.
Qed.

Lemma dec_no_special n : ~ In NL (dec n) /\ ~ In NUL (dec n) /\ ~ In HASH (dec n).
Proof.
  repeat split; intros H; apply dec_digits in H; destruct (digit_facts _ H); tauto.
Qed.

Lemma skipn_skipn {A} x y (l : list A) : skipn x (skipn y l) = skipn (y + x) l.
Proof.
  revert l; induction y as [|y IH]; intros [|a l]; cbn; auto. now rewrite skipn_nil.
Qed.
