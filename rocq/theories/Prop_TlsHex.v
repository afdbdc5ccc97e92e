(** C39: the text of a fingerprint is faithful. *)
From Coq Require Import Ascii String NArith ZArith Bool Lia List.
From Verif Require Import Bytes CStr TlsNames.
Import ListNotations.
Local Open Scope N_scope.

(* ------------------------------------------------------------------ *)
(** ** Specification *)

(** Two lower-case hexadecimal digits whose value is the byte. *)
Definition digit_value (c : ascii) : option N :=
  let n := N_of_ascii c in
  if (48 <=? n) && (n <=? 57) then Some (n - 48)
  else if (97 <=? n) && (n <=? 102) then Some (n - 87)
  else None.
Definition digits (b x y : ascii) : Prop :=
  exists p q, digit_value x = Some p /\ digit_value y = Some q /\ N_of_ascii b = p * 16 + q.

(** The text: two digits for each byte, separated by colons. *)
Inductive fp_text : bytes -> bytes -> Prop :=
| ft_one b x y : digits b x y -> fp_text [b] [x; y]
| ft_more b x y d t : digits b x y -> fp_text d t -> fp_text (b :: d) (x :: y :: ":"%char :: t).

(** Equality of texts without regard to the case of letters. *)
Definition upper (c : ascii) : ascii :=
  let n := N_of_ascii c in if (97 <=? n) && (n <=? 122) then ascii_of_N (n - 32) else c.
Definition same_text (a b : bytes) : Prop := map upper a = map upper b.

(* ------------------------------------------------------------------ *)
(** ** Lemmas *)

Lemma all_ascii (P : ascii -> bool) : forallb P (map (fun n => ascii_of_nat n) (seq 0 256)) = true -> forall c, P c = true.
Proof.
  intros H c. rewrite forallb_forall in H. apply H. rewrite <- (ascii_nat_embedding c). apply in_map.
  apply in_seq. pose proof (nat_ascii_bounded c). lia.
Qed.

Definition digits_ok (b : ascii) : bool :=
  match pct02x b with
  | [x; y] => match digit_value x, digit_value y with
              | Some p, Some q => N_of_ascii b =? p * 16 + q
              | _, _ => false
              end && Ascii.eqb (lower x) x && Ascii.eqb (lower y) y && negb (Ascii.eqb x NUL) && negb (Ascii.eqb y NUL)
  | _ => false
  end.
Lemma digits_ok_all b : digits_ok b = true.
Proof. apply all_ascii. vm_compute. reflexivity. Qed.

Lemma pct_spec b : exists x y, pct02x b = [x; y] /\ digits b x y /\ lower x = x /\ lower y = y /\ x <> NUL /\ y <> NUL.
Proof.
  pose proof (digits_ok_all b) as H. unfold digits_ok in H. destruct (pct02x b) as [|x [|y [|]]] eqn:E; try discriminate.
  repeat rewrite andb_true_iff in H. destruct H as ((((H1 & H2) & H3) & H4) & H5).
  destruct (digit_value x) as [p|] eqn:Dx; [|discriminate]. destruct (digit_value y) as [q|] eqn:Dy; [|discriminate].
  apply N.eqb_eq in H1. apply Ascii.eqb_eq in H2, H3. apply negb_true_iff, Ascii.eqb_neq in H4, H5.
  exists x, y. repeat split; auto. exists p, q. auto.
Qed.

Lemma digits_inj b c x y : digits b x y -> digits c x y -> b = c.
Proof.
  intros (p & q & A & B & C) (p' & q' & A' & B' & C'). assert (p = p' /\ q = q') as [-> ->] by (split; congruence).
  rewrite <- (ascii_N_embedding b), <- (ascii_N_embedding c). congruence.
Qed.

Lemma digits_fun b x y x' y' : digits b x y -> digits b x' y' -> x = x' /\ y = y'.
Proof.
  assert (V : forall c p, digit_value c = Some p -> p < 16 /\ c = hexc p).
  { intros c p. pose proof (all_ascii (fun c => match digit_value c with Some p => (p <? 16) && Ascii.eqb c (hexc p) | None => true end)
      ltac:(vm_compute; reflexivity) c) as H. cbv beta in H. intros E. rewrite E in H.
    apply andb_true_iff in H. destruct H as [H1 H2]. apply N.ltb_lt in H1. apply Ascii.eqb_eq in H2. auto. }
  intros (p & q & A & B & C) (p' & q' & A' & B' & C').
  destruct (V _ _ A) as [L1 ->], (V _ _ B) as [L2 ->], (V _ _ A') as [L3 ->], (V _ _ B') as [L4 ->].
  assert (p = p' /\ q = q') as [-> ->] by (split; lia). auto.
Qed.

Lemma text_len d t : fp_text d t -> length t = (3 * length d - 1)%nat /\ d <> [].
Proof.
  induction 1 as [b x y D|b x y d t D F [IH N]]; cbn [length].
  - split; [lia|discriminate].
  - split; [|discriminate]. destruct d; [congruence|]. cbn [length] in *. lia.
Qed.

Lemma text_inj d t : fp_text d t -> forall d', fp_text d' t -> d = d'.
Proof.
  induction 1 as [b x y D|b x y d t D F IH]; intros d' F'; inversion F' as [b' x' y' D' E1 E2|b' x' y' d1 t1 D' F1 E1 E2]; subst.
  - f_equal. eapply digits_inj; eauto.
  - f_equal; [eapply digits_inj; eauto|auto].
Qed.

Lemma text_fun d t : fp_text d t -> forall t', fp_text d t' -> t = t'.
Proof.
  induction 1 as [b x y D|b x y d t D F IH]; intros t' F'; inversion F' as [b' x' y' D' E1 E2|b' x' y' d1 t1 D' F1 E1 E2]; subst.
  - destruct (digits_fun _ _ _ _ _ D D') as [-> ->]. reflexivity.
  - inversion F1.
  - inversion F.
  - destruct (digits_fun _ _ _ _ _ D D') as [-> ->]. f_equal. f_equal. f_equal. auto.
Qed.

(** Writing: before step [i], the block holds the text so far and is otherwise free. *)
Lemma put_exact (pre : block) (n : nat) s (rest : block) :
  n = length pre -> put (pre ++ rest) n s = if Nat.leb (length s) (length rest) then Some (pre ++ map Some s ++ skipn (length s) rest) else None.
Proof.
  intros ->. unfold put. rewrite app_length.
  destruct (Nat.leb_spec (length pre + length s) (length pre + length rest)) as [L|L];
  destruct (Nat.leb_spec (length s) (length rest)) as [L'|L']; try lia; [|reflexivity].
  f_equal. rewrite firstn_app, Nat.sub_diag, firstn_O, app_nil_r, firstn_all. f_equal. f_equal.
  rewrite skipn_app. replace (length pre + length s - length pre)%nat with (length s) by lia.
  rewrite skipn_all2 by lia. reflexivity.
Qed.

Lemma loop_spec d : d <> [] -> forall i (pre rest : block), length pre = (i * 3)%nat -> length rest = (3 * length d)%nat ->
  exists t, fp_text d t /\ hex_loop (pre ++ rest) i d = Some (pre ++ map Some (t ++ [NUL])) /\ map lower t = t /\ ~ In NUL t.
Proof.
  induction d as [|b d IH]; [congruence|]. intros _ i pre rest Lp Lr.
  destruct (pct_spec b) as (x & y & Ep & D & Lx & Ly & Nx & Ny).
  destruct d as [|c d].
  - exists [x; y]. cbn [hex_loop]. rewrite Ep. cbn [app]. rewrite put_exact by auto. cbn [length] in *.
    destruct rest as [|r1 [|r2 [|r3 [|]]]]; cbn [length] in Lr; try lia. cbn [length Nat.leb skipn].
    split; [constructor; exact D|]. split; [rewrite app_nil_r; reflexivity|]. split; [cbn [map]; rewrite Lx, Ly; reflexivity|].
    cbn [In]. intros [E|[E|[]]]; congruence.
  - cbn [hex_loop]. rewrite Ep. rewrite put_exact by auto. cbn [app bs list_ascii_of_string length].
    cbn [length] in Lr. destruct rest as [|r1 [|r2 [|r3 [|r4 rest]]]]; cbn [length] in Lr; try lia.
    cbn [length Nat.leb skipn].
    replace (pre ++ map Some [x; y; ":"%char; NUL] ++ rest) with ((pre ++ map Some [x; y; ":"%char]) ++ Some NUL :: rest)
      by (rewrite <- app_assoc; reflexivity).
    destruct (IH ltac:(discriminate) (S i) (pre ++ map Some [x; y; ":"%char]) (Some NUL :: rest)) as (t & F & H & L & N).
    { rewrite app_length, Lp. cbn [map length]. lia. }
    { cbn [length]. lia. }
    exists (x :: y :: ":"%char :: t). split; [constructor; assumption|]. split.
    + transitivity (hex_loop ((pre ++ map Some [x; y; ":"%char]) ++ Some NUL :: rest) (S i) (c :: d)); [reflexivity|].
      rewrite H. rewrite <- app_assoc. reflexivity.
    + split; [cbn [map]; rewrite Lx, Ly, L; reflexivity|]. cbn [In]. intros [E|[E|[E|I]]]; [congruence|congruence|discriminate|exact (N I)].
Qed.

Lemma cstring_exact t : ~ In NUL t -> cstring (map Some (t ++ [NUL])) = Some t.
Proof.
  induction t as [|c t IH]; [reflexivity|]. cbn [app map cstring]. intros N.
  destruct (Ascii.eqb_spec c NUL) as [->|Ne]; [exfalso; apply N; left; reflexivity|].
  rewrite IH; [reflexivity|]. intros I; apply N; right; exact I.
Qed.

(* ------------------------------------------------------------------ *)
(** ** C39 *)

(** The buffer is filled exactly: every one of its 3n bytes is written, none outside, and it holds the text. *)
Theorem c39_exact d : d <> [] ->
  exists t, fp_text d t /\ digest_to_hex d = Some t
    /\ hex_loop (new_block (lenN d * 3)) 0 d = Some (map Some (t ++ [NUL])) /\ lenN (t ++ [NUL]) = lenN d * 3.
Proof.
  intros N. destruct (loop_spec d N 0 [] (new_block (lenN d * 3))) as (t & F & H & L & Nn).
  - reflexivity.
  - unfold new_block, lenN. rewrite repeat_length. lia.
  - cbn [app] in H. exists t. split; [exact F|]. split; [unfold digest_to_hex; rewrite H; apply cstring_exact; exact Nn|].
    split; [exact H|]. destruct (text_len _ _ F) as [Lt _]. unfold lenN. rewrite app_length. cbn [length].
    destruct d; [congruence|]. cbn [length] in *. lia.
Qed.

Lemma hex_lower d t : digest_to_hex d = Some t -> fp_text d t /\ map lower t = t.
Proof.
  destruct d as [|b d]; [discriminate|]. intros E.
  destruct (loop_spec (b :: d) ltac:(discriminate) 0 [] (new_block (lenN (b :: d) * 3)) eq_refl) as (t' & F & H & L & Nn).
  - unfold new_block, lenN. rewrite repeat_length. lia.
  - cbn [app] in H. unfold digest_to_hex in E. rewrite H, (cstring_exact _ Nn) in E. injection E as <-. auto.
Qed.

Lemma lower_upper a b : lower a = lower b <-> upper a = upper b.
Proof.
  assert (U : forall c, lower (upper c) = lower c /\ upper (lower c) = upper c).
  { intros c. pose proof (all_ascii (fun c => Ascii.eqb (lower (upper c)) (lower c) && Ascii.eqb (upper (lower c)) (upper c))
      ltac:(vm_compute; reflexivity) c) as H. cbv beta in H. apply andb_true_iff in H. destruct H as [A B].
    apply Ascii.eqb_eq in A, B. auto. }
  split; intros H.
  - rewrite <- (proj2 (U a)), <- (proj2 (U b)), H. reflexivity.
  - rewrite <- (proj1 (U a)), <- (proj1 (U b)), H. reflexivity.
Qed.

Lemma casecmp_same a b : casecmp a b = true <-> same_text a b.
Proof.
  unfold casecmp, same_text. rewrite beqb_spec. revert b; induction a as [|x a IH]; intros [|y b]; cbn [map]; split; try discriminate; auto.
  - intros E. injection E as E1 E2. f_equal; [apply lower_upper; exact E1|apply IH; exact E2].
  - intros E. injection E as E1 E2. f_equal; [apply lower_upper; exact E1|apply IH; exact E2].
Qed.

(** Comparing the texts, also without regard to case, is comparing the digests. *)
Theorem c39_faithful a b x y :
  digest_to_hex a = Some x -> digest_to_hex b = Some y -> (casecmp x y = true <-> a = b).
Proof.
  intros A B. destruct (hex_lower _ _ A) as [Fa La], (hex_lower _ _ B) as [Fb Lb].
  unfold casecmp. rewrite La, Lb, beqb_spec. split.
  - intros ->. eapply text_inj; eauto.
  - intros ->. eapply text_fun; eauto.
Qed.

(** A configured fingerprint: algorithm, colon and the digest in digits of either case.  It matches exactly the
    certificates with that digest. *)
Theorem c39_fingerprint digest code al d t f c :
  In (code, al) [(bs "01", Md5); (bs "02", Sha1); (bs "03", Sha224); (bs "04", Sha256); (bs "05", Sha384); (bs "06", Sha512)] ->
  fp_text d t -> same_text f (code ++ bs ":" ++ t) ->
  (forall d', digest al c = Some d' -> d' <> []) ->
  (fingerprint digest (Some f) c = FMatch <-> digest al c = Some d)
  /\ (fingerprint digest (Some f) c = FFatal <-> digest al c = None)
  /\ fingerprint digest (Some f) c <> FUb.
Proof.
  intros I F S Ne.
  assert (Hf : exists c0 f', f = code ++ c0 :: f' /\ same_text f' t).
  { assert (Hd : forall x, upper x = x -> (48 <=? N_of_ascii x) && (N_of_ascii x <=? 57) = true -> forall y, upper y = upper x -> y = x).
    { intros x _ Hx y Hy.
      pose proof (all_ascii (fun x => if (48 <=? N_of_ascii x) && (N_of_ascii x <=? 57) then
         forallb (fun y => if Ascii.eqb (upper y) (upper x) then Ascii.eqb y x else true) (map (fun n => ascii_of_nat n) (seq 0 256)) else true)
         ltac:(vm_compute; reflexivity) x) as H. cbv beta in H. rewrite Hx in H.
      pose proof (all_ascii _ H y) as H'. cbv beta in H'. rewrite Hy, Ascii.eqb_refl in H'. apply Ascii.eqb_eq. exact H'. }
    unfold same_text in S.
    repeat (destruct I as [I|I]; [injection I as <- <-; cbn [bs list_ascii_of_string app map] in S;
      destruct f as [|f0 [|f1 [|f2 f]]]; try discriminate; cbn [map] in S; injection S as S0 S1 S2 S3;
      exists f2, f; split; [cbn [bs list_ascii_of_string app]; f_equal; [apply Hd; [reflexivity|reflexivity|exact S0]|f_equal; apply Hd; [reflexivity|reflexivity|exact S1]]|exact S3]|]).
    destruct I. }
  destruct Hf as (c0 & f' & -> & S').
  assert (Fa : find (fun a => strncmp0 (code ++ c0 :: f') (fst a) 2) algs = Some (code, al)).
  { repeat (destruct I as [I|I]; [injection I as <- <-; reflexivity|]). destruct I. }
  unfold fingerprint. rewrite Fa.
  assert (Sk : skipn 3 (code ++ c0 :: f') = f').
  { repeat (destruct I as [I|I]; [injection I as <- <-; reflexivity|]). destruct I. }
  assert (Ln : lenN (code ++ c0 :: f') <? 3 = false).
  { repeat (destruct I as [I|I]; [injection I as <- <-; apply N.ltb_ge; unfold lenN; cbn [bs list_ascii_of_string app length]; lia|]). destruct I. }
  rewrite Ln, Sk. destruct (digest al c) as [d'|] eqn:Ed; [|split; [split; discriminate|split; [split; reflexivity|discriminate]]].
  destruct (c39_exact d' (Ne d' eq_refl)) as (t' & F' & H' & _). rewrite H'.
  assert (Q : casecmp f' t' = true <-> d = d').
  { destruct (hex_lower _ _ H') as [_ L']. split.
    - intros E. apply casecmp_same in E. assert (E' : casecmp t t' = true) by (apply casecmp_same; unfold same_text in *; congruence).
      destruct (c39_exact d (proj2 (text_len _ _ F))) as (t2 & F2 & H2 & _). rewrite (text_fun _ _ F _ F2) in E'.
      apply (c39_faithful d d' t2 t' H2 H'). exact E'.
    - intros <-. rewrite <- (text_fun _ _ F _ F'). apply casecmp_same. exact S'. }
  destruct (casecmp f' t') eqn:E.
  - split; [split; [intros _; f_equal; symmetry; apply Q; reflexivity|reflexivity]|]. split; [split; discriminate|discriminate].
  - split; [split; [discriminate|intros [= ->]; discriminate (proj2 Q eq_refl)]|]. split; [split; discriminate|discriminate].
Qed.

(** An empty digest would make the loop run through all memory. *)
Theorem c39_empty_refuted : digest_to_hex [] = None.
Proof. reflexivity. Qed.

(** A fingerprint with the algorithm only, which the YANG type allows, is read past its end. *)
Theorem c39_short_fingerprint_refuted digest c d : digest Sha256 c = Some d -> d <> [] -> fingerprint digest (Some (bs "04")) c = FUb.
Proof.
  intros E N. unfold fingerprint. cbn. rewrite E. destruct (c39_exact d N) as (t & _ & -> & _). reflexivity.
Qed.

Example c39_case : digest_to_hex [ascii_of_N 0; ascii_of_N 171; ascii_of_N 255] = Some (bs "00:ab:ff")
  /\ fp_text [ascii_of_N 0; ascii_of_N 171; ascii_of_N 255] (bs "00:ab:ff")
  /\ fingerprint (fun _ _ => Some [ascii_of_N 0; ascii_of_N 171; ascii_of_N 255]) (Some (bs "04:00:AB:fF")) (mkCert [] None true None) = FMatch.
Proof.
  split; [reflexivity|]. split; [|reflexivity].
  repeat (constructor; [eexists; eexists; repeat split|]). constructor. eexists; eexists; repeat split.
Qed.

Print Assumptions c39_exact.
Print Assumptions c39_faithful.
Print Assumptions c39_fingerprint.
Print Assumptions c39_empty_refuted.
Print Assumptions c39_short_fingerprint_refuted.
