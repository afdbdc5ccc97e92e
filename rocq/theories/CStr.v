(** C string helpers (strings are lists of non-NUL characters, the end of the list is the NUL). *)
From Coq Require Import Ascii String NArith ZArith Bool Lia List.
From Verif Require Import Bytes.
Import ListNotations.
Local Open Scope N_scope.

(** strncmp(a, b, n) == 0 on NUL-terminated strings. *)
Fixpoint strncmp0 (a b : bytes) (n : nat) {struct n} : bool :=
  match n with
  | O => true
  | S n' => match a, b with
            | [], [] => true
            | x :: a', y :: b' => Ascii.eqb x y && strncmp0 a' b' n'
            | _, _ => false
            end
  end.

(** strcmp(a, b) == 0. *)
Definition streq (a b : bytes) : bool := beqb a b.

Definition prefix (p s : bytes) : Prop := exists r, s = p ++ r.

Fixpoint prefixb (p s : bytes) : bool :=
  match p, s with
  | [], _ => true
  | x :: p', y :: s' => Ascii.eqb x y && prefixb p' s'
  | _ :: _, [] => false
  end.

Lemma prefixb_spec p s : prefixb p s = true <-> prefix p s.
Proof.
  revert s; induction p as [|x p IH]; intros s.
  - split; [exists s; reflexivity|reflexivity].
  - destruct s as [|y s]; cbn [prefixb].
    + split; [discriminate|intros [r Hr]; discriminate].
    + rewrite andb_true_iff, Ascii.eqb_eq, IH. split.
      * intros [-> [r ->]]. exists r. reflexivity.
      * intros [r Hr]. injection Hr as <- ->. split; [reflexivity|exists r; reflexivity].
Qed.

(** Comparing as many bytes as the first string (or a part of it) has is a prefix test. *)
Lemma strncmp0_prefix t r u :
  strncmp0 (t ++ r) u (length t) = prefixb t u.
Proof.
  revert u; induction t as [|x t IH]; intros u; [reflexivity|].
  cbn [app length strncmp0 prefixb]. destruct u as [|y u]; [reflexivity|]. now rewrite IH.
Qed.

(** Comparing as many bytes as the second string has: the second is a prefix of the first. *)
Lemma strncmp0_prefix_r a t : strncmp0 a t (length t) = prefixb t a.
Proof.
  revert a; induction t as [|x t IH]; intros a; [reflexivity|].
  cbn [length strncmp0 prefixb]. destruct a as [|y a]; [reflexivity|].
  rewrite IH. destruct (Ascii.eqb_spec x y) as [->|N]; [now rewrite Ascii.eqb_refl|].
  apply Ascii.eqb_neq in N. rewrite Ascii.eqb_sym, N. reflexivity.
Qed.

(** The part of a string before the first [c] (the whole string if none): strchr(). *)
Fixpoint before (c : ascii) (s : bytes) : bytes :=
  match s with
  | [] => []
  | x :: s' => if Ascii.eqb x c then [] else x :: before c s'
  end.

Lemma before_not_in c s : ~ In c (before c s).
Proof.
  induction s as [|x s IH]; cbn; [tauto|]. destruct (Ascii.eqb_spec x c); cbn; [tauto|]. intros [H|H]; auto.
Qed.

Lemma before_split c s : s = before c s \/ exists r, s = before c s ++ c :: r.
Proof.
  induction s as [|x s IH]; cbn; [now left|]. destruct (Ascii.eqb_spec x c) as [->|]; [right; now exists s|].
  destruct IH as [IH|[r IH]]; [left; now f_equal|right; exists r; cbn; now f_equal].
Qed.

Lemma before_id c s : ~ In c s -> before c s = s.
Proof.
  induction s as [|x s IH]; cbn; [reflexivity|]. intros H. destruct (Ascii.eqb_spec x c) as [->|]; [exfalso; auto|].
  f_equal. auto.
Qed.

Lemma before_app c a r : ~ In c a -> before c (a ++ c :: r) = a.
Proof.
  induction a as [|x a IH]; cbn; intros H; [now rewrite Ascii.eqb_refl|].
  destruct (Ascii.eqb_spec x c) as [->|]; [exfalso; auto|]. f_equal. auto.
Qed.

(** Trailing white space removed. *)
Fixpoint rtrim (s : bytes) : bytes :=
  match s with
  | [] => []
  | x :: s' => match rtrim s' with
               | [] => if is_space x then [] else [x]
               | t => x :: t
               end
  end.

Definition trim (s : bytes) : bytes := rtrim (skip_space s).

Lemma rtrim_prefix s : exists r, s = rtrim s ++ r.
Proof.
  induction s as [|x s [r IH]]; [now exists []|]. cbn.
  destruct (rtrim s) as [|y t] eqn:E.
  - destruct (is_space x); [exists (x :: s)|exists s]; reflexivity.
  - exists r. cbn in *. now rewrite IH at 1.
Qed.

(** strtoll(s, &end, 10) with the whole non-empty string consumed; values are exact here, the
    saturation at LLONG_MIN/MAX is outside every range the callers accept. *)
Definition strtoll_full (s : bytes) : option Z :=
  let '(neg, d) := split_sign (skip_space s) in
  match d with
  | [] => None
  | _ => if forallb is_digit d then Some (if neg then - Z.of_N (digits_val 0 d) else Z.of_N (digits_val 0 d))%Z else None
  end.
