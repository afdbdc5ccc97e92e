(** C290-C291: buffers that grow until the output of MbedTLS fits. *)
From Coq Require Import NArith ZArith Bool Lia List String.
From Verif Require Import Bytes GrowBuf.
Import ListNotations.
Local Open Scope N_scope.

(* ------------------------------------------------------------------ *)
(** ** Specification *)

(** Blocks in use were given out before. *)
Definition sound (m : mem) : Prop := forall e, In e (m_live m) -> (fst e < m_next m)%nat.

(** No block is larger than what a signed size can express. *)
Definition limited (al : nat -> N -> bool) : Prop := forall i n, 2 ^ 63 <= n -> al i n = false.

(** There is memory whenever less than that is asked for. *)
Definition plenty (al : nat -> N -> bool) : Prop := forall i n, n < 2 ^ 63 -> al i n = true.

(** A library that needs [need] bytes for [text] and otherwise says so. *)
Definition needs (lib : library) (small : Z) (need : N) (text : bytes) : Prop :=
  forall n, if n <? need then fst (lib n) = small else lib n = (0%Z, text).

(** Memory is as before but for the block [b] of [size] bytes. *)
Definition one_more (m m' : mem) (b : nat) (size : N) : Prop :=
  m_live m' = (b, size) :: m_live m /\ m_bad m' = m_bad m /\ (forall e, In e (m_live m) -> fst e <> b).

Definition as_before (m m' : mem) : Prop := m_live m' = m_live m /\ m_bad m' = m_bad m.

(** What may be said of a function given what it did. *)
Definition tidy (good : Z -> Prop) (lib : library) (m : mem) (r : mem * ended) : Prop :=
  match r with
  | (m', Got b text) => exists size rc, one_more m m' b size /\ lib size = (rc, text) /\ good rc
  | (m', Failed) => as_before m m'
  | (_, OutOfFuel) => False
  end.

(** What a function gives if the library needs [need] bytes; [first]: the size it starts with. *)
Definition exact (first need : N) (text : bytes) (m : mem) (r : mem * ended) : Prop :=
  match r with
  | (m', Got b t) => t = text /\ exists size, one_more m m' b size /\ need <= size /\ (size = first \/ size < 2 * need)
  | _ => False
  end.

(* ------------------------------------------------------------------ *)
(** ** Blocks *)

Lemma filter_out b (l : list (nat * N)) : (forall e, In e l -> fst e <> b) -> filter (fun e => negb (Nat.eqb (fst e) b)) l = l.
Proof.
  induction l as [|e l IH]; intros H; [reflexivity|]. cbn [filter].
  destruct (Nat.eqb_spec (fst e) b) as [E|E]; [exfalso; apply (H e); [now left|exact E]|]. cbn [negb]. f_equal. apply IH. intros x I. apply H. now right.
Qed.

Lemma free_top m m' b size : one_more m m' b size -> as_before m (free b m').
Proof.
  intros (L & B & D). unfold as_before, free. rewrite L. cbn [m_live m_bad filter existsb fst].
  rewrite Nat.eqb_refl. cbn [negb orb]. rewrite orb_false_r. split; [now apply filter_out|exact B].
Qed.

Lemma malloc_ok al n m : sound m ->
  match malloc al n m with
  | (m', Some b) => one_more m m' b n /\ sound m' /\ al (m_next m) n = true
  | (m', None) => as_before m m' /\ sound m' /\ al (m_next m) n = false
  end.
Proof.
  intros W. unfold malloc. destruct (al (m_next m) n) eqn:A.
  - split; [|split; [|reflexivity]].
    + unfold one_more. cbn [m_live m_bad]. split; [reflexivity|]. split; [reflexivity|]. intros e I E. specialize (W e I). lia.
    + intros e [<-|I]; cbn [m_next fst]; [lia|]. specialize (W e I). lia.
  - split; [split; reflexivity|]. split; [|reflexivity]. intros e I. cbn [m_live m_next] in *. specialize (W e I). lia.
Qed.

Lemma realloc_ok al m m1 b size n : one_more m m1 b size -> sound m1 -> n <> 0 ->
  match nc_realloc al b n m1 with
  | (m', Some c) => one_more m m' c n /\ sound m' /\ exists i, al i n = true
  | (m', None) => as_before m m' /\ exists i, al i n = false
  end.
Proof.
  intros O W N. unfold nc_realloc, realloc. destruct (N.eqb_spec n 0) as [Z|_]; [contradiction|].
  pose proof (malloc_ok al n m1 W) as M. destruct (malloc al n m1) as [m2 [c|]].
  - destruct M as ((L2 & B2 & D2) & W2 & A). split; [|split; [|eauto]].
    + destruct O as (L & B & D). unfold one_more, free. rewrite L2, L. cbn [m_live m_bad filter existsb fst].
      assert (C : Nat.eqb c b = false).
      { apply Nat.eqb_neq. intros E. apply (D2 (b, size)); [rewrite L; now left|now rewrite E]. }
      rewrite C, Nat.eqb_refl. cbn [negb orb]. rewrite orb_false_r, (filter_out b (m_live m) D). split; [reflexivity|].
      split; [congruence|]. intros e I. apply D2. rewrite L. now right.
    + intros e I. unfold free in I. cbn [m_live] in I. apply filter_In in I. destruct I as [I _]. exact (W2 e I).
  - destruct M as ((L2 & B2) & W2 & A). split; [|eauto]. apply (free_top m m2 b size).
    destruct O as (L & B & D). unfold one_more. rewrite L2, L, B2, B. auto.
Qed.

(* ------------------------------------------------------------------ *)
(** ** The loop *)

Lemma double k : (k < 63)%nat -> (2 ^ N.of_nat k * 2) mod two64 = 2 ^ N.of_nat (S k).
Proof.
  intros K. replace (2 ^ N.of_nat (S k)) with (2 ^ N.of_nat k * 2) by (rewrite Nat2N.inj_succ, N.pow_succ_r'; lia).
  apply N.mod_small. change two64 with (2 ^ 64). replace (2 ^ N.of_nat k * 2) with (2 ^ N.of_nat (S k)) by (rewrite Nat2N.inj_succ, N.pow_succ_r'; lia).
  apply N.pow_lt_mono_r; lia.
Qed.

Lemma grow_tidy al lib small bad : limited al -> forall d k fuel m m1 b,
  (k + d = 63)%nat -> (d <= fuel)%nat -> (0 < d)%nat -> one_more m m1 b (2 ^ N.of_nat k) -> sound m1 ->
  tidy (fun rc => rc <> small /\ bad rc = false) lib m (grow fuel al lib small bad b (2 ^ N.of_nat k) m1).
Proof.
  intros A. induction d as [|d IH]; intros k fuel m m1 b K F D O W; [lia|]. destruct fuel as [|fuel]; [lia|]. cbn [grow].
  destruct (lib (2 ^ N.of_nat k)) as [rc text] eqn:E. destruct (Z.eqb_spec rc small) as [Q|Q].
  - rewrite (double k) by lia. cbv zeta.
    assert (NZ : 2 ^ N.of_nat (S k) <> 0) by (apply N.pow_nonzero; lia).
    pose proof (realloc_ok al m m1 b (2 ^ N.of_nat k) (2 ^ N.of_nat (S k)) O W NZ) as R.
    destruct (nc_realloc al b (2 ^ N.of_nat (S k)) m1) as [m2 [c|]].
    + destruct R as (O2 & W2 & i & G). destruct d as [|d].
      * exfalso. rewrite A in G; [discriminate|]. replace (S k) with 63%nat by lia. reflexivity.
      * apply IH; try lia; assumption.
    + exact (proj1 R).
  - destruct (bad rc) eqn:B.
    + exact (free_top m m1 b _ O).
    + exists (2 ^ N.of_nat k), rc. auto.
Qed.

Lemma grow_exact al lib small bad need text : plenty al -> needs lib small need text -> bad 0%Z = false -> small <> 0%Z -> need <= 2 ^ 62 ->
  forall d k k0 fuel m m1 b,
  (k + d = 63)%nat -> (d <= fuel)%nat -> (0 < d)%nat -> one_more m m1 b (2 ^ N.of_nat k) -> sound m1 ->
  (k = k0 \/ 2 ^ N.of_nat k < 2 * need) ->
  exact (2 ^ N.of_nat k0) need text m (grow fuel al lib small bad b (2 ^ N.of_nat k) m1).
Proof.
  intros A L B0 S0 NB. induction d as [|d IH]; intros k k0 fuel m m1 b K F D O W T; [lia|]. destruct fuel as [|fuel]; [lia|]. cbn [grow].
  specialize (L (2 ^ N.of_nat k)) as Lk. destruct (N.ltb_spec (2 ^ N.of_nat k) need) as [Q|Q].
  - destruct (lib (2 ^ N.of_nat k)) as [rc t] eqn:E. cbn [fst] in Lk. subst rc. rewrite Z.eqb_refl.
    rewrite (double k) by lia. cbv zeta.
    assert (NZ : 2 ^ N.of_nat (S k) <> 0) by (apply N.pow_nonzero; lia).
    assert (K62 : (k < 62)%nat).
    { destruct (Nat.lt_ge_cases k 62) as [X|X]; [exact X|]. exfalso. assert (2 ^ 62 <= 2 ^ N.of_nat k) by (apply N.pow_le_mono_r; lia). lia. }
    pose proof (realloc_ok al m m1 b (2 ^ N.of_nat k) (2 ^ N.of_nat (S k)) O W NZ) as R.
    destruct (nc_realloc al b (2 ^ N.of_nat (S k)) m1) as [m2 [c|]].
    + destruct R as (O2 & W2 & _). apply IH; try lia; try assumption. right. rewrite Nat2N.inj_succ, N.pow_succ_r'. lia.
    + destruct R as (_ & i & G). rewrite A in G; [discriminate|]. apply N.pow_lt_mono_r; lia.
  - rewrite Lk. replace (0 =? small)%Z with false by (symmetry; apply Z.eqb_neq; congruence). rewrite B0. cbn.
    split; [reflexivity|]. exists (2 ^ N.of_nat k). split; [exact O|]. split; [exact Q|]. destruct T as [->|T]; auto.
Qed.

Lemma start_tidy al lib small bad k fuel m : limited al -> sound m -> (k < 63)%nat -> (63 <= fuel)%nat ->
  tidy (fun rc => rc <> small /\ bad rc = false) lib m (start fuel al lib small bad (2 ^ N.of_nat k) m).
Proof.
  intros A W K F. unfold start. pose proof (malloc_ok al (2 ^ N.of_nat k) m W) as M.
  destruct (malloc al (2 ^ N.of_nat k) m) as [m1 [b|]]; [|exact (proj1 M)].
  destruct M as (O & W1 & _). apply (grow_tidy al lib small bad A (63 - k) k); try lia; assumption.
Qed.

Lemma start_exact al lib small bad need text k fuel m : plenty al -> needs lib small need text -> bad 0%Z = false -> small <> 0%Z ->
  need <= 2 ^ 62 -> sound m -> (k < 63)%nat -> (63 <= fuel)%nat ->
  exact (2 ^ N.of_nat k) need text m (start fuel al lib small bad (2 ^ N.of_nat k) m).
Proof.
  intros A L B S0 NB W K F. unfold start. pose proof (malloc_ok al (2 ^ N.of_nat k) m W) as M.
  destruct (malloc al (2 ^ N.of_nat k) m) as [m1 [b|]].
  - destruct M as (O & W1 & _). apply (grow_exact al lib small bad need text A L B S0 NB (63 - k) k); try lia; auto.
  - destruct M as (_ & _ & G). rewrite A in G; [discriminate|]. apply N.pow_lt_mono_r; lia.
Qed.

(* ------------------------------------------------------------------ *)
(** ** C290 *)

(** Whatever MbedTLS answers and whenever memory runs out, each of the three functions ends within 63 enlargements;
    if it fails, nothing is kept, and if not, exactly one new block is kept and it is what MbedTLS
    last wrote to with a code that is no error; no block is freed twice. *)
Theorem c290_tidy al lib m fuel : limited al -> sound m -> (63 <= fuel)%nat ->
  tidy (fun rc => (0 <= rc)%Z) lib m (export_privkey_pem fuel al lib m) /\
  tidy (fun rc => (0 <= rc)%Z) lib m (export_pubkey_pem fuel al lib m) /\
  tidy (fun rc => rc = 0%Z) lib m (ec_point_to_bin fuel al lib m).
Proof.
  intros A W F.
  pose proof (start_tidy al lib BASE64_BUFFER_TOO_SMALL (fun rc => (rc <? 0)%Z) 7 fuel m A W ltac:(lia) F) as P.
  pose proof (start_tidy al lib ECP_BUFFER_TOO_SMALL (fun rc => negb (rc =? 0)%Z) 5 fuel m A W ltac:(lia) F) as E.
  change (2 ^ N.of_nat 7) with 128 in P. change (2 ^ N.of_nat 5) with 32 in E.
  assert (P' : tidy (fun rc => (0 <= rc)%Z) lib m (start fuel al lib BASE64_BUFFER_TOO_SMALL (fun rc => (rc <? 0)%Z) 128 m)).
  { unfold tidy in *. destruct (start _ _ _ _ _ _ _) as [m' [b t| |]]; try exact P. destruct P as (s & rc & O & L & _ & G).
    exists s, rc. split; [exact O|]. split; [exact L|]. apply Z.ltb_ge in G. exact G. }
  split; [exact P'|]. split; [exact P'|]. clear P P'. unfold ec_point_to_bin, tidy in *. revert E.
  destruct (start _ _ _ _ _ _ _) as [m' [b t| |]]; intros E; try exact E. destruct E as (s & rc & O & L & _ & G).
  exists s, rc. split; [exact O|]. split; [exact L|]. cbn beta in G. destruct (Z.eqb_spec rc 0) as [Q|Q]; [exact Q|discriminate].
Qed.

(* ------------------------------------------------------------------ *)
(** ** C291 *)

(** With memory, a text for which MbedTLS needs [need] bytes is always returned, whatever its size, in a buffer that is large
    enough and, if larger than the first one, less than twice as large as needed. *)
Theorem c291_exact al lib need text m fuel : plenty al -> sound m -> need <= 2 ^ 62 -> (63 <= fuel)%nat ->
  (needs lib (-42) need text -> exact 128 need text m (export_privkey_pem fuel al lib m) /\ exact 128 need text m (export_pubkey_pem fuel al lib m)) /\
  (needs lib (-20224) need text -> exact 32 need text m (ec_point_to_bin fuel al lib m)).
Proof.
  intros A W NB F. split; intros L.
  - pose proof (start_exact al lib BASE64_BUFFER_TOO_SMALL (fun rc => (rc <? 0)%Z) need text 7 fuel m A L eq_refl ltac:(discriminate) NB W ltac:(lia) F) as P.
    change (2 ^ N.of_nat 7) with 128 in P. split; exact P.
  - pose proof (start_exact al lib ECP_BUFFER_TOO_SMALL (fun rc => negb (rc =? 0)%Z) need text 5 fuel m A L eq_refl ltac:(discriminate) NB W ltac:(lia) F) as P.
    change (2 ^ N.of_nat 5) with 32 in P. exact P.
Qed.

(* ------------------------------------------------------------------ *)
(** ** Examples *)

(** A key of 1700 bytes: the buffer ends with 2048. *)
Definition lib1700 : library := fun n => if n <? 1700 then ((-42)%Z, []) else (0%Z, bs "PEM").
Definition m0 : mem := {| m_live := [(0%nat, 10)]; m_next := 1; m_bad := false |}.
Definition all_of_it : nat -> N -> bool := fun _ n => n <? 2 ^ 63.

Example c291_key : sound m0 /\ needs lib1700 (-42) 1700 (bs "PEM") /\ plenty all_of_it /\ limited all_of_it /\
  export_privkey_pem 63 all_of_it lib1700 m0 = ({| m_live := [(5%nat, 2048); (0%nat, 10)]; m_next := 6; m_bad := false |}, Got 5 (bs "PEM")).
Proof.
  split; [intros e [<-|[]]; cbn; lia|]. split; [intros n; unfold lib1700; destruct (n <? 1700); reflexivity|].
  split; [intros i n H; apply N.ltb_lt; exact H|]. split; [intros i n H; apply N.ltb_ge; exact H|]. reflexivity.
Qed.

(** A library that is never content is given up when memory runs out. *)
Example c290_endless : ec_point_to_bin 63 all_of_it (fun _ => ((-20224)%Z, [])) m0 =
  ({| m_live := [(0%nat, 10)]; m_next := 60; m_bad := false |}, Failed).
Proof. vm_compute. reflexivity. Qed.

(** An error of MbedTLS. *)
Example c290_error : export_pubkey_pem 63 all_of_it (fun _ => ((-14)%Z, [])) m0 = ({| m_live := [(0%nat, 10)]; m_next := 2; m_bad := false |}, Failed).
Proof. reflexivity. Qed.

Print Assumptions c290_tidy.
Print Assumptions c291_exact.
