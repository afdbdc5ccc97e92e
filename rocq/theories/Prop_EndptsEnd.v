(** C243: what nc_server_destroy() does with the endpoints; the model is Endpts. *)
From Coq Require Import String Bool Lia List Arith ZArith Permutation.
From Verif Require Import Endpts Prop_Endpts.
Import ListNotations.
Local Open Scope string_scope.
Local Open Scope list_scope.

(* ------------------------------------------------------------------ *)
(** ** Specification *)

(** All that the endpoints own is released, once. *)
Definition released (s s' : st) : Prop :=
  s_count s' = 0 /\ Permutation (s_freed s') (live s ++ s_freed s) /\ Permutation (s_closed s') (socks s ++ s_closed s) /\
  NoDup (s_freed s') /\ NoDup (s_closed s').

(** C243 in full: whatever was done before, nc_server_destroy() releases everything. *)
Definition c243_full : Prop := forall os s r, run st0 os = Ok s r ->
  exists s' r', destroy s = Ok s' r' /\ released s s'.

Definition unixp (e : endpt) : Prop := e_ti e = TUnix /\ e_ref e = None.
Definition either (e : endpt) : Prop := plain e \/ unixp e.
Definition confb (e : endpt) : bool := match e_ti e with TUnix => false | _ => true end.

(** How many of the endpoints are configured, and not of the application. *)
Definition conf (l : list endpt) : nat := length (filter confb l).

(** The order of the endpoints that is needed: with [k] configured ones, the last [k] endpoints are configured ones followed by those
    of the application.  (All those of the application first, or all of them last, is such an order.) *)
Definition in_order (l : list endpt) : Prop :=
  exists f c u, l = f ++ c ++ u /\ Forall plain c /\ Forall unixp u /\ length (c ++ u) = conf l.

(* ------------------------------------------------------------------ *)
(** ** One removal *)

Definition moved {A} (l : list A) (i c : nat) : list A :=
  if Nat.eqb c 0 then [] else if Nat.eqb i c then l else match nth_error l c with Some x => upd l i x | None => l end.

Lemma del_at_flat s i refs e b c : nth_error (s_endpts s) i = Some e -> nth_error (s_binds s) i = Some b -> s_count s = S c ->
  S c <= length (s_endpts s) -> length (s_endpts s) = length (s_binds s) ->
  (forall j x, j <= c -> nth_error (s_endpts s) j = Some x -> e_ref x = None) -> e_ref e = None -> ~ In (e_id e) (s_freed s) ->
  del_at s i refs = Ok (mkS (moved (s_endpts s) i c) (moved (s_binds s) i c) c (e_id e :: s_freed s) (sock_of b ++ s_closed s) (s_next s)) 0.
Proof.
  intros Ee Eb Hc L Lb Hr Pr Nf. unfold del_at. rewrite Ee.
  assert (R : (if refs then del_refs (s_count s) 0 s (e_name e) else Some s) = Some s).
  { destruct refs; [|reflexivity]. apply del_refs_none; [lia|]. intros j x Hj. apply Hr. lia. }
  rewrite R, Ee, Eb, (free_ok _ _ Nf). set (s2 := mkS _ _ _ _ _ _).
  assert (R2 : (if refs then free_ref s2 e else Some s2) = Some s2) by (unfold free_ref; rewrite Pr; destruct refs; reflexivity).
  rewrite R2. destruct (close_same s2 b) as (K2 & K3 & K4 & K5 & K6).
  assert (Kc : s_closed (close s2 b) = sock_of b ++ s_closed s) by (unfold close, sock_of; destruct (b_sock b) as [[fd o]|]; reflexivity).
  cbv zeta. rewrite K2, K3, K4, K5, K6, Kc. cbn [s2 s_endpts s_binds s_count s_freed s_next]. rewrite Hc. replace (S c - 1) with c by lia.
  unfold moved. destruct (Nat.eqb c 0) eqn:C0; [apply Nat.eqb_eq in C0; subst; reflexivity|]. destruct (Nat.eqb i c); [reflexivity|].
  destruct (nth_error (s_endpts s) c) as [el|] eqn:El. 2: { apply nth_error_None in El. lia. }
  destruct (nth_error (s_binds s) c) as [bl|] eqn:Bl. 2: { apply nth_error_None in Bl. lia. }
  reflexivity.
Qed.

Lemma moved_len {A} (l : list A) i c : c <> 0 -> length (moved l i c) = length l.
Proof. intros H. unfold moved. rewrite (proj2 (Nat.eqb_neq c 0) H). destruct (Nat.eqb i c); [reflexivity|]. destruct (nth_error l c); [apply upd_len|reflexivity]. Qed.

Lemma moved_skip {A} (l : list A) i c : c <> 0 -> skipn (S i) (moved l i c) = skipn (S i) l.
Proof. intros H. unfold moved. rewrite (proj2 (Nat.eqb_neq c 0) H). destruct (Nat.eqb i c); [reflexivity|]. destruct (nth_error l c); [apply skipn_upd|reflexivity]. Qed.

Lemma upd_firstn_le {A} (l : list A) x : forall i m, m <= i -> firstn m (upd l i x) = firstn m l.
Proof. induction l as [|y l IH]; intros [|i] [|m] H; try reflexivity; try lia. cbn [upd firstn]. f_equal. apply IH. lia. Qed.

Lemma moved_first {A} (l : list A) i c m : c <> 0 -> m <= i -> firstn m (moved l i c) = firstn m l.
Proof. intros H Hm. unfold moved. rewrite (proj2 (Nat.eqb_neq c 0) H). destruct (Nat.eqb i c); [reflexivity|]. destruct (nth_error l c); [apply upd_firstn_le, Hm|reflexivity]. Qed.

Lemma moved_perm {A} (l : list A) i c x : i <= c -> S c <= length l -> nth_error l i = Some x -> Permutation (firstn (S c) l) (x :: firstn c (moved l i c)).
Proof.
  intros Hi Hc Ex. destruct (nth_error l c) as [y|] eqn:Ey. 2: { apply nth_error_None in Ey. lia. }
  rewrite (swap_remove l c i x y ltac:(lia) Hc Ex Ey). unfold moved. destruct (Nat.eqb_spec c 0) as [->|N]; [reflexivity|]. rewrite Ey. reflexivity.
Qed.

Lemma moved_all {A} (P : A -> Prop) (l : list A) i c n : c < n -> n <= length l -> (forall j x, j < n -> nth_error l j = Some x -> P x) ->
  forall j x, j < n -> nth_error (moved l i c) j = Some x -> P x.
Proof.
  intros Hc Hn H j x Hj E. unfold moved in E. destruct (Nat.eqb c 0); [destruct j; discriminate E|]. destruct (Nat.eqb i c); [exact (H j x Hj E)|].
  destruct (nth_error l c) as [y|] eqn:Ey; [|exact (H j x Hj E)]. rewrite nth_upd in E. destruct (Nat.eqb i j); [|exact (H j x Hj E)].
  destruct (nth_error l i); [|discriminate E]. injection E as <-. exact (H c y Hc Ey).
Qed.

Lemma skipn_add {A} : forall i k (l : list A), skipn (i + k) l = skipn k (skipn i l).
Proof. induction i as [|i IH]; intros k [|x l]; cbn [skipn Nat.add]; try reflexivity; [destruct k; reflexivity|apply IH]. Qed.

Lemma skipn_le {A} (l l' : list A) i j : i <= j -> skipn i l = skipn i l' -> skipn j l = skipn j l'.
Proof. intros Hle H. replace j with (i + (j - i)) by lia. rewrite !skipn_add, H. reflexivity. Qed.

Lemma nth_skip {A} (l : list A) i j : nth_error l (i + j) = nth_error (skipn i l) j.
Proof. revert l. induction i as [|i IH]; intros [|x l]; cbn; try reflexivity; [destruct j; reflexivity|apply IH]. Qed.

Lemma skip_nth_eq {A} (l l' : list A) i j : i <= j -> skipn i l = skipn i l' -> nth_error l j = nth_error l' j.
Proof. intros Hle H. replace j with (i + (j - i)) by lia. rewrite !nth_skip, H. reflexivity. Qed.

Lemma conf_perm l l' : Permutation l l' -> conf l = conf l'.
Proof. unfold conf. induction 1 as [|x l l' P IH|x y l|]; cbn [filter]; try congruence; [destruct (confb x); cbn [length]; lia|destruct (confb x), (confb y); reflexivity]. Qed.
Lemma conf_app l l' : conf (l ++ l') = conf l + conf l'.
Proof. unfold conf. rewrite filter_app, app_length. reflexivity. Qed.
Lemma conf_plain l : Forall plain l -> conf l = length l.
Proof. unfold conf. induction 1 as [|e l [[T|T] R] F IH]; cbn [filter length]; [reflexivity| |]; unfold confb at 1; rewrite T; cbn [length]; lia. Qed.
Lemma conf_unix l : Forall unixp l -> conf l = 0.
Proof. unfold conf. induction 1 as [|e l [T R] F IH]; cbn [filter length]; [reflexivity|]. unfold confb at 1. rewrite T. exact IH. Qed.
Lemma conf_zero l : Forall either l -> conf l = 0 -> Forall unixp l.
Proof.
  unfold conf. induction 1 as [|e l E F IH]; cbn [filter length]; intros H; [constructor|].
  destruct E as [[[T|T] R]|U]; [unfold confb at 1 in H; rewrite T in H; discriminate H..|].
  unfold confb at 1 in H. destruct U as [T R]. rewrite T in H. constructor; [split; assumption|auto].
Qed.
Lemma conf_len l : conf l <= length l.
Proof. unfold conf. induction l as [|e l IH]; cbn [filter length]; [lia|]. destruct (confb e); cbn [length]; lia. Qed.
Lemma conf_in l i e : nth_error l i = Some e -> confb e = true -> 1 <= conf l.
Proof. unfold conf. revert i. induction l as [|x l IH]; intros [|i] H C; try discriminate H; cbn [nth_error filter] in *; [injection H as ->; rewrite C; cbn; lia|]. specialize (IH i H C). destruct (confb x); cbn [length]; lia. Qed.

Lemma either_ref e : either e -> e_ref e = None.
Proof. intros [[_ R]|[_ R]]; exact R. Qed.
Lemma either_blocks e : either e -> blocks e = [e_id e].
Proof. intros H. unfold blocks. rewrite (either_ref e H). reflexivity. Qed.

(* ------------------------------------------------------------------ *)
(** ** The first entries: each removal takes out exactly the entry *)

(** [m] endpoints are of the application; the entries before [m] all lie below the count when they are reached. *)
Lemma first_part n m : forall k i s k2, length (s_endpts s) = length (s_binds s) -> s_count s <= n -> n <= length (s_endpts s) ->
  (forall j x, j < n -> nth_error (s_endpts s) j = Some x -> either x) -> NoDup (live s ++ s_freed s) ->
  i + k <= m -> conf (firstn (s_count s) (s_endpts s)) + m = s_count s ->
  exists s', del_listen_loop (k + k2) i s = del_listen_loop k2 (i + k) s' /\
    length (s_endpts s') = length (s_endpts s) /\ length (s_binds s') = length (s_binds s) /\
    s_count s' + conf (firstn k (skipn i (s_endpts s))) = s_count s /\
    (forall j x, j < n -> nth_error (s_endpts s') j = Some x -> either x) /\
    skipn (i + k) (s_endpts s') = skipn (i + k) (s_endpts s) /\ skipn (i + k) (s_binds s') = skipn (i + k) (s_binds s) /\
    Permutation (live s' ++ s_freed s') (live s ++ s_freed s) /\ Permutation (socks s' ++ s_closed s') (socks s ++ s_closed s) /\
    conf (firstn (s_count s') (s_endpts s')) + m = s_count s'.
Proof.
  induction k as [|k IH]; intros i s k2 Lb Lc Ln He Hn Hk Hm.
  { exists s. rewrite Nat.add_0_r. cbn [firstn Nat.add]. change (conf []) with 0. repeat (split; [first [reflexivity|lia|assumption]|]). exact Hm. }
  destruct (nth_error (s_endpts s) i) as [e|] eqn:Ee. 2: { apply nth_error_None in Ee. lia. }
  destruct (nth_error (s_binds s) i) as [b|] eqn:Eb. 2: { apply nth_error_None in Eb. lia. }
  pose proof (He i e ltac:(lia) Ee) as Hei. cbn [del_listen_loop Nat.add]. rewrite Ee, (skipn_nth _ _ _ Ee), firstn_S.
  destruct (confb e) eqn:Hcf.
  - (* a configured endpoint *)
    assert (C1 : 1 <= conf (firstn (s_count s) (s_endpts s))) by (apply (conf_in _ i e); [rewrite nth_firstn by lia; exact Ee|exact Hcf]).
    destruct (s_count s) as [|c] eqn:Ec; [lia|]. assert (C0 : c <> 0) by lia.
    assert (Pe : Permutation (firstn (S c) (s_endpts s)) (e :: firstn c (moved (s_endpts s) i c))) by (apply moved_perm; [lia|lia|exact Ee]).
    assert (Pb : Permutation (firstn (S c) (s_binds s)) (b :: firstn c (moved (s_binds s) i c))) by (apply moved_perm; [lia|lia|exact Eb]).
    assert (Hl : Permutation (live s) (e_id e :: flat_map blocks (firstn c (moved (s_endpts s) i c)))).
    { unfold live. rewrite Ec, (flat_map_perm blocks _ _ Pe). cbn [flat_map]. rewrite (either_blocks e Hei). reflexivity. }
    assert (Hs : Permutation (socks s) (sock_of b ++ flat_map sock_of (firstn c (moved (s_binds s) i c)))) by (unfold socks; rewrite Ec, (flat_map_perm sock_of _ _ Pb); reflexivity).
    assert (D := fun NF => del_at_flat s i true e b c Ee Eb Ec ltac:(lia) Lb (fun j x Hj E => either_ref x (He j x ltac:(lia) E)) (either_ref e Hei) NF).
    specialize (D ltac:(intros X; rewrite Hl in Hn; inversion Hn as [|? ? N1 N2]; apply N1, in_or_app; right; exact X)).
    set (s1 := mkS _ _ _ _ _ _) in D.
    assert (Q1 : Permutation (live s1 ++ s_freed s1) (live s ++ s_freed s)) by (rewrite Hl; unfold live; cbn [s1 s_endpts s_count s_freed]; symmetry; apply Permutation_middle).
    assert (Q2 : Permutation (socks s1 ++ s_closed s1) (socks s ++ s_closed s)).
    { rewrite Hs. unfold socks. cbn [s1 s_binds s_count s_closed]. rewrite !app_assoc. apply Permutation_app_tail, Permutation_app_comm. }
    pose proof (conf_perm _ _ Pe) as Q3. unfold conf at 2 in Q3. cbn [filter] in Q3. rewrite Hcf in Q3. cbn [length] in Q3. fold (conf (firstn c (moved (s_endpts s) i c))) in Q3.
    destruct (IH (S i) s1 k2) as (s' & R1 & R2 & R3 & R4 & R5 & R6 & R7 & R8 & R9 & R10).
    + cbn [s1 s_endpts s_binds]. rewrite !moved_len by exact C0. exact Lb.
    + cbn [s1 s_count]. lia.
    + cbn [s1 s_endpts]. rewrite moved_len by exact C0. exact Ln.
    + cbn [s1 s_endpts]. apply moved_all; [lia|exact Ln|exact He].
    + exact (Permutation_NoDup (Permutation_sym Q1) Hn).
    + lia.
    + cbn [s1 s_count s_endpts]. lia.
    + exists s'. cbn [s1 s_endpts s_binds s_count] in R2, R3, R4, R6, R7. rewrite moved_len in R2 by exact C0. rewrite moved_len in R3 by exact C0. rewrite moved_skip in R4 by exact C0.
      assert (TI : (match e_ti e with TSsh | TTls => match del_at s i true with Ok s' _ => del_listen_loop (k + k2) (S i) s' | r => r end | TUnix => del_listen_loop (k + k2) (S i) s | TNone => Ok s 1 end) = del_listen_loop (k + k2) (S i) s1).
      { destruct Hei as [[[T|T] _]|[T _]]; rewrite T; [rewrite D; reflexivity..|]. unfold confb in Hcf. rewrite T in Hcf. discriminate Hcf. }
      replace (i + S k) with (S i + k) by lia.
      refine (conj (eq_trans TI R1) (conj R2 (conj R3 (conj _ (conj R5 (conj _ (conj _ (conj (Permutation_trans R8 Q1) (conj (Permutation_trans R9 Q2) R10))))))))).
      * unfold conf. cbn [filter]. rewrite Hcf. cbn [length]. fold (conf (firstn k (skipn (S i) (s_endpts s)))). lia.
      * rewrite R6. apply (skipn_le _ _ (S i)); [lia|]. apply moved_skip, C0.
      * rewrite R7. apply (skipn_le _ _ (S i)); [lia|]. apply moved_skip, C0.
  - (* one of the application *)
    assert (T : e_ti e = TUnix) by (unfold confb in Hcf; destruct (e_ti e); congruence). rewrite T.
    destruct (IH (S i) s k2 Lb Lc Ln He Hn ltac:(lia) Hm) as (s' & R1 & R2 & R3 & R4 & R5 & R6 & R7 & R8 & R9 & R10).
    exists s'. replace (i + S k) with (S i + k) by lia. refine (conj R1 (conj R2 (conj R3 (conj _ (conj R5 (conj R6 (conj R7 (conj R8 (conj R9 R10))))))))).
    unfold conf. cbn [filter]. rewrite Hcf. exact R4.
Qed.

(* ------------------------------------------------------------------ *)
(** ** The configured endpoints after those *)

Lemma second_part n m : forall k i s k2, length (s_endpts s) = length (s_binds s) -> s_count s = m + k -> m <= i -> i + k <= n -> n <= length (s_endpts s) ->
  (forall j x, j < n -> nth_error (s_endpts s) j = Some x -> either x) ->
  Forall plain (firstn k (skipn i (s_endpts s))) -> NoDup (map e_id (firstn k (skipn i (s_endpts s))) ++ s_freed s) -> (m = 0 -> k2 = 0) ->
  exists s', del_listen_loop (k + k2) i s = del_listen_loop k2 (i + k) s' /\ s_count s' = m /\
    (m <> 0 -> length (s_endpts s') = length (s_endpts s) /\ length (s_binds s') = length (s_binds s) /\
      firstn m (s_endpts s') = firstn m (s_endpts s) /\ firstn m (s_binds s') = firstn m (s_binds s) /\ skipn (i + k) (s_endpts s') = skipn (i + k) (s_endpts s)) /\
    s_freed s' = rev (map e_id (firstn k (skipn i (s_endpts s)))) ++ s_freed s /\
    s_closed s' = flat_map sock_of (rev (firstn k (skipn i (s_binds s)))) ++ s_closed s.
Proof.
  induction k as [|k IH]; intros i s k2 Lb Hc Hi Hk Ln He Hp Hn H0.
  { exists s. rewrite Nat.add_0_r. cbn [firstn map rev flat_map app Nat.add]. repeat (split; [first [reflexivity|lia|assumption|intros _; repeat split]|]). reflexivity. }
  destruct (nth_error (s_endpts s) i) as [e|] eqn:Ee. 2: { apply nth_error_None in Ee. lia. }
  destruct (nth_error (s_binds s) i) as [b|] eqn:Eb. 2: { apply nth_error_None in Eb. lia. }
  cbn [del_listen_loop Nat.add]. rewrite Ee. rewrite (skipn_nth _ _ _ Ee), (skipn_nth _ _ _ Eb), !firstn_S. rewrite (skipn_nth _ _ _ Ee), firstn_S in Hn, Hp. cbn [map app] in Hn.
  inversion Hn as [|? ? N1 N2]; subst. inversion Hp as [|? ? P1 P2]; subst.
  assert (D := fun NF => del_at_flat s i true e b (m + k) Ee Eb ltac:(lia) ltac:(lia) Lb (fun j x Hj E => either_ref x (He j x ltac:(lia) E)) (proj2 P1) NF).
  specialize (D ltac:(intros X; apply N1, in_or_app; right; exact X)). set (s1 := mkS _ _ _ _ _ _) in D.
  assert (TI : (match e_ti e with TSsh | TTls => match del_at s i true with Ok s' _ => del_listen_loop (k + k2) (S i) s' | r => r end | TUnix => del_listen_loop (k + k2) (S i) s | TNone => Ok s 1 end) = del_listen_loop (k + k2) (S i) s1).
  { destruct P1 as [[T|T] _]; rewrite T, D; reflexivity. }
  rewrite TI. replace (i + S k) with (S i + k) by lia. cbn [map rev]. rewrite flat_map_app, <- !app_assoc. cbn [flat_map app]. rewrite app_nil_r.
  destruct (Nat.eq_dec (m + k) 0) as [Z|Z].
  - assert (m = 0) by lia. assert (k = 0) by lia. subst m k. rewrite (H0 eq_refl). exists s1. cbn [Nat.add del_listen_loop firstn map rev flat_map app]. repeat (split; [first [reflexivity|congruence]|]). reflexivity.
  - destruct (IH (S i) s1 k2) as (s' & R1 & R2 & R3 & R4 & R5).
    + cbn [s1 s_endpts s_binds]. rewrite !moved_len by exact Z. exact Lb.
    + reflexivity.
    + lia.
    + lia.
    + cbn [s1 s_endpts]. rewrite moved_len by exact Z. exact Ln.
    + cbn [s1 s_endpts]. apply moved_all; [lia|exact Ln|exact He].
    + cbn [s1 s_endpts]. rewrite moved_skip by exact Z. exact P2.
    + cbn [s1 s_endpts s_freed]. rewrite moved_skip by exact Z. apply (Permutation_NoDup (Permutation_middle _ _ _)). constructor; assumption.
    + exact H0.
    + exists s'. cbn [s1 s_endpts s_binds s_freed s_closed] in R3, R4, R5. rewrite moved_skip in R4 by exact Z. rewrite moved_skip in R5 by exact Z.
      refine (conj R1 (conj R2 (conj _ (conj R4 R5)))). intros Hm. destruct (R3 Hm) as (A1 & A2 & A3 & A4 & A5). rewrite moved_len in A1 by exact Z. rewrite moved_len in A2 by exact Z. rewrite moved_first in A3 by lia. rewrite moved_first in A4 by lia.
      refine (conj A1 (conj A2 (conj A3 (conj A4 _)))). rewrite A5. apply (skipn_le _ _ (S i)); [lia|]. apply moved_skip, Z.
Qed.

Lemma third_part : forall k i s, Forall unixp (firstn k (skipn i (s_endpts s))) -> i + k <= length (s_endpts s) -> del_listen_loop k i s = Ok s 0.
Proof.
  induction k as [|k IH]; intros i s H L; cbn [del_listen_loop]; [reflexivity|].
  destruct (nth_error (s_endpts s) i) as [e|] eqn:Ee. 2: { apply nth_error_None in Ee. lia. }
  rewrite (skipn_nth _ _ _ Ee), firstn_S in H. inversion H as [|? ? [P1 _] P2]; subst. rewrite P1. apply IH; [exact P2|lia].
Qed.

(* ------------------------------------------------------------------ *)
(** ** The endpoints of the application *)

Lemma unix_part : forall k i s, length (s_endpts s) = length (s_binds s) -> s_count s = k -> i + k <= length (s_endpts s) ->
  (forall j x, j < i + k -> nth_error (s_endpts s) j = Some x -> unixp x) -> NoDup (map e_id (firstn k (skipn i (s_endpts s))) ++ s_freed s) ->
  exists s', del_unix_loop k i s = Ok s' 0 /\ s_count s' = 0 /\
    s_freed s' = rev (map e_id (firstn k (skipn i (s_endpts s)))) ++ s_freed s /\
    s_closed s' = flat_map sock_of (rev (firstn k (skipn i (s_binds s)))) ++ s_closed s.
Proof.
  induction k as [|k IH]; intros i s Lb Hc Hk He Hn.
  { exists s. cbn [del_unix_loop firstn map rev flat_map app]. auto. }
  destruct (nth_error (s_endpts s) i) as [e|] eqn:Ee. 2: { apply nth_error_None in Ee. lia. }
  destruct (nth_error (s_binds s) i) as [b|] eqn:Eb. 2: { apply nth_error_None in Eb. lia. }
  cbn [del_unix_loop]. rewrite Ee. rewrite (skipn_nth _ _ _ Ee), (skipn_nth _ _ _ Eb), !firstn_S. rewrite (skipn_nth _ _ _ Ee), firstn_S in Hn. cbn [map app] in Hn.
  inversion Hn as [|? ? N1 N2]; subst. pose proof (He i e ltac:(lia) Ee) as P1.
  assert (D := fun NF => del_at_flat s i false e b k Ee Eb Hc ltac:(lia) Lb (fun j x Hj E => proj2 (He j x ltac:(lia) E)) (proj2 P1) NF).
  specialize (D ltac:(intros X; apply N1, in_or_app; right; exact X)). set (s1 := mkS _ _ _ _ _ _) in D. rewrite (proj1 P1), D.
  cbn [map rev]. rewrite flat_map_app, <- !app_assoc. cbn [flat_map app]. rewrite app_nil_r.
  destruct (Nat.eq_dec k 0) as [->|Z]; [exists s1; cbn [del_unix_loop firstn map rev flat_map app]; auto|].
  destruct (IH (S i) s1) as (s' & R1 & R2 & R3 & R4).
  - cbn [s1 s_endpts s_binds]. rewrite !moved_len by exact Z. exact Lb.
  - reflexivity.
  - cbn [s1 s_endpts]. rewrite moved_len by exact Z. lia.
  - replace (S i + k) with (i + S k) by lia. cbn [s1 s_endpts]. apply moved_all; [lia|lia|exact He].
  - cbn [s1 s_endpts s_freed]. rewrite moved_skip by exact Z. apply (Permutation_NoDup (Permutation_middle _ _ _)). constructor; assumption.
  - exists s'. cbn [s1 s_endpts s_binds s_freed s_closed] in R3, R4. rewrite moved_skip in R3 by exact Z. rewrite moved_skip in R4 by exact Z. auto.
Qed.

(* ------------------------------------------------------------------ *)
(** ** C243 *)

Lemma blocks_flat l : Forall either l -> flat_map blocks l = map e_id l.
Proof. induction 1 as [|e l E F IH]; cbn [flat_map map]; [reflexivity|]. rewrite IH, (either_blocks e E). reflexivity. Qed.

Lemma firstn_add {A} : forall a b (l : list A), firstn (a + b) l = firstn a l ++ firstn b (skipn a l).
Proof. induction a as [|a IH]; intros b [|x l]; cbn [firstn skipn Nat.add app]; try reflexivity; [destruct b; reflexivity|]. f_equal. apply IH. Qed.

(** C243: with no references among the endpoints and in such an order, nc_server_destroy() frees every endpoint once and closes every socket once. *)
Theorem c243_partial s : safe s -> Forall either (firstn (s_count s) (s_endpts s)) -> in_order (firstn (s_count s) (s_endpts s)) ->
  exists s', destroy s = Ok s' 0 /\ released s s'.
Proof.
  intros (Lb & Lc & U1 & U2) He (f & c & u & Hl & Hpc & Hpu & Hk).
  set (n := s_count s) in *. set (m := length f).
  assert (Ll : length (firstn n (s_endpts s)) = n) by (apply firstn_length_le, Lc).
  assert (Hnm : n = m + (length c + length u)) by (rewrite <- Ll, Hl, !app_length; reflexivity).
  rewrite Hl, !conf_app, (conf_plain c Hpc), (conf_unix u Hpu), app_length in Hk. assert (Hf : conf f = length u) by lia.
  assert (HE : s_endpts s = f ++ c ++ u ++ skipn n (s_endpts s)) by (rewrite <- (firstn_skipn n (s_endpts s)) at 1; rewrite Hl, <- !app_assoc; reflexivity).
  assert (Fm : firstn m (s_endpts s) = f) by (rewrite HE; unfold m; rewrite firstn_app, firstn_all, Nat.sub_diag; apply app_nil_r).
  assert (Sm : skipn m (s_endpts s) = c ++ u ++ skipn n (s_endpts s)) by (rewrite HE at 1; unfold m; rewrite skipn_app, skipn_all, Nat.sub_diag; reflexivity).
  assert (He' : forall j x, j < n -> nth_error (s_endpts s) j = Some x -> either x).
  { intros j x Hj Hx. rewrite Forall_forall in He. apply He, (nth_error_In _ j). rewrite nth_firstn by exact Hj. exact Hx. }
  destruct (first_part n m m 0 s (length c + length u) Lb (Nat.le_refl _) Lc He' (proj1 U1) (Nat.le_refl _)) as (s1 & A1 & A2 & A3 & A4 & A5 & A6 & A7 & A8 & A9 & A10).
  { fold n. rewrite Hl, !conf_app, (conf_plain c Hpc), (conf_unix u Hpu). lia. }
  cbn [skipn Nat.add] in A1, A4, A6, A7. rewrite Fm, Hf in A4. fold n in A4.
  assert (C1 : s_count s1 = m + length c) by lia. rewrite Sm in A6.
  assert (Fc : firstn (length c) (skipn m (s_endpts s1)) = c) by (rewrite A6, firstn_app, firstn_all, Nat.sub_diag; apply app_nil_r).
  assert (F1 : firstn (s_count s1) (s_endpts s1) = firstn m (s_endpts s1) ++ c) by (rewrite C1, firstn_add, Fc; reflexivity).
  assert (Hu1 : Forall unixp (firstn m (s_endpts s1))).
  { apply conf_zero; [|rewrite F1, conf_app, (conf_plain c Hpc) in A10; lia]. rewrite Forall_forall. intros x Hx. apply In_nth_error in Hx. destruct Hx as [j Hx].
    assert (Hj : j < m) by (apply (Nat.lt_le_trans _ (length (firstn m (s_endpts s1)))); [apply nth_error_Some; congruence|apply firstn_le_length]).
    rewrite nth_firstn in Hx by exact Hj. apply (A5 j x); [lia|exact Hx]. }
  assert (L1 : live s1 = map e_id (firstn m (s_endpts s1)) ++ map e_id c).
  { unfold live. rewrite F1, flat_map_app, !blocks_flat; [reflexivity| |]; eapply Forall_impl; [|exact Hpc| |exact Hu1]; intros x Hx; [left|right]; exact Hx. }
  assert (S1 : socks s1 = flat_map sock_of (firstn m (s_binds s1)) ++ flat_map sock_of (firstn (length c) (skipn m (s_binds s1)))) by (unfold socks; rewrite C1, firstn_add, flat_map_app; reflexivity).
  pose proof (Permutation_NoDup (Permutation_sym A8) (proj1 U1)) as N1. rewrite L1, <- app_assoc in N1.
  assert (M0 : m = 0 -> length u = 0) by (intros Z; rewrite <- Hf; destruct f; [reflexivity|discriminate Z]).
  destruct (second_part n m (length c) m s1 (length u)) as (s2 & B1 & B2 & B3 & B4 & B5); try assumption; try lia.
  { rewrite Fc. exact Hpc. }
  { rewrite Fc. clear - N1. induction (map e_id (firstn m (s_endpts s1))) as [|x l IH]; [exact N1|]. inversion N1. auto. }
  rewrite Fc in B4.
  assert (DL : del_listen s = Ok s2 0).
  { unfold del_listen. fold n. rewrite Hnm, A1, B1. destruct (Nat.eq_dec m 0) as [Z|Z]; [rewrite (M0 Z); reflexivity|].
    destruct (B3 Z) as (E1 & E2 & E3 & E4 & E5). apply third_part; [|lia].
    rewrite E5, skipn_add, A6, skipn_app, skipn_all, Nat.sub_diag. cbn [app skipn]. rewrite firstn_app, firstn_all, Nat.sub_diag, app_nil_r. exact Hpu. }
  assert (K : exists s', del_unix_loop m 0 s2 = Ok s' 0 /\ s_count s' = 0 /\ Permutation (s_freed s') (live s1 ++ s_freed s1) /\ Permutation (s_closed s') (socks s1 ++ s_closed s1)).
  { rewrite L1, S1. destruct (Nat.eq_dec m 0) as [Z|Z].
    - exists s2. rewrite Z at 1. cbn [del_unix_loop]. split; [reflexivity|]. split; [congruence|]. rewrite B4, B5. rewrite Z. cbn [firstn map app flat_map skipn].
      split; [apply Permutation_app_tail; symmetry; apply Permutation_rev|apply Permutation_app_tail, flat_map_perm; symmetry; apply Permutation_rev].
    - destruct (B3 Z) as (E1 & E2 & E3 & E4 & E5).
      destruct (unix_part m 0 s2) as (s' & D1 & D2 & D3 & D4).
      + lia.
      + exact B2.
      + lia.
      + intros j x Hj Hx. rewrite Forall_forall in Hu1. apply Hu1. rewrite <- E3. apply (nth_error_In _ j). rewrite nth_firstn by lia. exact Hx.
      + cbn [skipn]. rewrite E3, B4. apply (Permutation_NoDup (l := map e_id (firstn m (s_endpts s1)) ++ map e_id c ++ s_freed s1)); [|exact N1].
        apply Permutation_app_head, Permutation_app_tail, Permutation_rev.
      + exists s'. split; [exact D1|]. split; [exact D2|]. cbn [skipn] in D3, D4. rewrite E3, B4 in D3. rewrite E4, B5 in D4. rewrite D3, D4, <- !app_assoc. split.
        * apply Permutation_app; [symmetry; apply Permutation_rev|]. apply Permutation_app_tail. symmetry; apply Permutation_rev.
        * apply Permutation_app; [apply flat_map_perm; symmetry; apply Permutation_rev|]. apply Permutation_app_tail, flat_map_perm. symmetry; apply Permutation_rev. }
  destruct K as (s' & K1 & K2 & K3 & K4). exists s'. unfold destroy. rewrite DL, B2. split; [exact K1|].
  pose proof (Permutation_trans K3 A8) as Q1. pose proof (Permutation_trans K4 A9) as Q2.
  refine (conj K2 (conj Q1 (conj Q2 (conj _ _)))); [exact (Permutation_NoDup (Permutation_sym Q1) (proj1 U1))|exact (Permutation_NoDup (Permutation_sym Q2) (proj1 U2))].
Qed.

(** So after any operations on the endpoints (but the removal of [listen], C54) that leave no references and such an order. *)
Theorem c243_reached os s r : ~ In DelListen os -> run st0 os = Ok s r ->
  Forall either (firstn (s_count s) (s_endpts s)) -> in_order (firstn (s_count s) (s_endpts s)) ->
  exists s', destroy s = Ok s' 0 /\ released s s'.
Proof.
  intros H R He Ho. destruct (run_safe os st0 safe0 H) as [(s1 & r1 & A & Sf)|A]; [|congruence].
  assert (s1 = s) by congruence. subst s1. exact (c243_partial s Sf He Ho).
Qed.

(** Endpoints of the application on one side of the configured ones: such an order. *)
Lemma in_order_last c u : Forall plain c -> Forall unixp u -> in_order (c ++ u).
Proof.
  intros Pc Pu. destruct (le_lt_dec (length c) (length u)) as [L|L].
  - exists (c ++ firstn (length u - length c) u), [], (skipn (length u - length c) u). cbn [app].
    rewrite <- app_assoc, firstn_skipn. refine (conj eq_refl (conj (Forall_nil _) (conj _ _))).
    + rewrite <- (firstn_skipn (length u - length c) u) in Pu. apply Forall_app in Pu. exact (proj2 Pu).
    + rewrite conf_app, (conf_plain c Pc), (conf_unix u Pu), skipn_length. lia.
  - exists (firstn (length u) c), (skipn (length u) c), u. rewrite app_assoc, firstn_skipn. refine (conj eq_refl (conj _ (conj Pu _))).
    + rewrite <- (firstn_skipn (length u) c) in Pc. apply Forall_app in Pc. exact (proj2 Pc).
    + rewrite conf_app, (conf_plain c Pc), (conf_unix u Pu), app_length, skipn_length. lia.
Qed.
Lemma in_order_first u c : Forall plain c -> Forall unixp u -> in_order (u ++ c).
Proof. intros Pc Pu. exists u, c, []. rewrite !app_nil_r. refine (conj eq_refl (conj Pc (conj (Forall_nil _) _))). rewrite conf_app, (conf_plain c Pc), (conf_unix u Pu). reflexivity. Qed.

(** In another order it does not: an endpoint of the application between two configured ones is not freed and its socket not closed; the array
    keeps an endpoint that is freed. *)
Definition mixed : list op := [Create "a"; SetTi "a" TSsh; AddUnix "u" "/run/n.sock" true; Create "b"; SetTi "b" TSsh; SetAddr "b" "::" false; SetPort "b" 830 true]%string.
Theorem c243_full_refuted : ~ c243_full.
Proof.
  intros F. assert (exists s, run st0 mixed = Ok s 0) as [s R] by (eexists (mkS _ _ _ _ _ _); vm_compute; reflexivity).
  destruct (F _ _ _ R) as (s' & r' & D & C & _). vm_compute in R. injection R as <-. vm_compute in D. injection D as <- <-. discriminate C.
Qed.
Theorem c243_lost : exists s s' id fd, run st0 mixed = Ok s 0 /\ destroy s = Ok s' 0 /\ In id (live s) /\ ~ In id (s_freed s') /\ In fd (socks s) /\ ~ In fd (s_closed s').
Proof.
  eexists (mkS _ _ _ _ _ _), (mkS _ _ _ _ _ _), 1, 2. split; [vm_compute; reflexivity|]. split; [vm_compute; reflexivity|]. vm_compute. intuition congruence.
Qed.

(** Three configured endpoints and two of the application, one before and one after them. *)
Example c243_case : exists s, ~ In DelListen [AddUnix "u" "/run/n.sock" true; Create "a"; SetTi "a" TSsh; Create "b"; SetTi "b" TTls; SetAddr "b" "::" false; SetPort "b" 830 true; Create "c"; SetTi "c" TSsh; AddUnix "v" "/run/v.sock" true]%string /\
  run st0 [AddUnix "u" "/run/n.sock" true; Create "a"; SetTi "a" TSsh; Create "b"; SetTi "b" TTls; SetAddr "b" "::" false; SetPort "b" 830 true; Create "c"; SetTi "c" TSsh; AddUnix "v" "/run/v.sock" true]%string = Ok s 0 /\
  Forall either (firstn (s_count s) (s_endpts s)) /\ in_order (firstn (s_count s) (s_endpts s)) /\ length (live s) = 5 /\ length (socks s) = 3.
Proof.
  eexists (mkS _ _ _ _ _ _). split; [cbn; intuition congruence|]. split; [vm_compute; reflexivity|]. cbn [s_count s_endpts firstn].
  split; [repeat (apply Forall_cons; [unfold either, plain, unixp; cbn; auto|]); apply Forall_nil|]. split; [|vm_compute; auto].
  eexists [_; _], [_; _], [_]. split; [reflexivity|]. split; [repeat (apply Forall_cons; [unfold plain; cbn; auto|]); apply Forall_nil|]. split; [repeat (apply Forall_cons; [unfold unixp; cbn; auto|]); apply Forall_nil|reflexivity].
Qed.

Print Assumptions c243_partial.
Print Assumptions c243_reached.
Print Assumptions c243_full_refuted.
Print Assumptions c243_lost.
