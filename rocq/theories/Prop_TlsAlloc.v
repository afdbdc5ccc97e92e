(** C285: an mbedTLS wrapper that runs out of memory.  C286: the text of queued OpenSSL errors. *)
From Coq Require Import String List Arith Lia Bool.
From Verif Require Import Bytes TlsAlloc.
Import ListNotations.
Local Open Scope list_scope.
Local Arguments Nat.eqb : simpl never.

(** ** C285 *)

(** The statement for one function: whatever fails, the call is defined; when it reports a failure, no memory is
    left allocated by it; when it succeeds, exactly the objects it returns (the list [objs r]) are added, made;
    and no object is thrown away with memory it still owns. *)
Definition clean {A} (objs : A -> list nat) (f : mem -> out (option A)) : Prop :=
  forall m, exists m' r, f m = Some (m', r) /\ m_lost m' = m_lost m /\
    m_live m' = match r with None => [] | Some a => map (fun b => (b, Made)) (objs a) end ++ m_live m.

Definition the_two (p : option nat * option nat) : list nat :=
  match p with (Some a, Some b) => [a; b] | _ => [] end.
(** The order in which the blocks are allocated. *)
Definition the_two_rev (p : option nat * option nat) : list nat := rev (the_two p).
Definition the_one (b : nat) : list nat := [b].

(** The English claim. *)
Definition c285_full : Prop :=
  (forall al seed, clean the_two (rng_new al seed)) /\
  (forall al seed parse, clean the_one (pem_to_privkey al seed parse)) /\
  (forall al seed parse, clean the_one (import_privkey_file al seed parse)) /\
  (forall al export, clean the_two_rev (rsa_pubkey_params al export)) /\
  (forall al export, clean the_two (ec_pubkey_params al export)).

Section Facts.
Variable n : nat.
Lemma q10 : Nat.eqb (S n) n = false. Proof. apply Nat.eqb_neq; lia. Qed.
Lemma q01 : Nat.eqb n (S n) = false. Proof. apply Nat.eqb_neq; lia. Qed.
Lemma q20 : Nat.eqb (S (S n)) n = false. Proof. apply Nat.eqb_neq; lia. Qed.
Lemma q02 : Nat.eqb n (S (S n)) = false. Proof. apply Nat.eqb_neq; lia. Qed.
Lemma q21 : Nat.eqb (S (S n)) (S n) = false. Proof. apply Nat.eqb_neq; lia. Qed.
Lemma q12 : Nat.eqb (S n) (S (S n)) = false. Proof. apply Nat.eqb_neq; lia. Qed.
End Facts.

Ltac go0 := repeat (cbn; rewrite ?Nat.eqb_refl, ?q10, ?q01, ?q20, ?q02, ?q21, ?q12).
Ltac go := go0; repeat (match goal with H : _ = true |- _ => rewrite H | H : _ = false |- _ => rewrite H end; go0).

(** The generator of random numbers: undefined exactly when its entropy is allocated and it is not. *)
Theorem c285_rng : forall al seed m,
  (rng_new al seed m = None <-> al (m_next m) = true /\ al (S (m_next m)) = false).
Proof.
  intros al seed [l n k]; unfold rng_new, rng_destroy, destroy, malloc, init, wipe, free, bind; go.
  destruct (al n) eqn:A; go; [destruct (al (S n)) eqn:B|]; go; [destruct seed; go| |];
  split; intros H; try discriminate; try (destruct H; discriminate); auto.
Qed.

(** A private key, from PEM data or from a file: undefined exactly then as well. *)
Theorem c285_key : forall al seed parse m,
  (pem_to_privkey al seed parse m = None <-> al (m_next m) = true /\ al (S (m_next m)) = false) /\
  (import_privkey_file al seed parse m = None <-> al (m_next m) = true /\ al (S (m_next m)) = false).
Proof.
  intros al seed parse [l n k];
  unfold pem_to_privkey, import_privkey_file, pkey_new, rng_new, rng_destroy, destroy, malloc, init, wipe, free, bind; go.
  destruct (al n) eqn:A; go; [destruct (al (S n)) eqn:B|]; go; [destruct seed; go| |];
  try (destruct (al (S (S n))) eqn:C; go); try (destruct parse; go);
  repeat split; try discriminate; try (intros [? ?]; discriminate); auto.
Qed.

(** The numbers of an RSA key: undefined exactly when one of the two is allocated and the other is not. *)
Theorem c285_rsa : forall al export m,
  (rsa_pubkey_params al export m = None <-> al (m_next m) <> al (S (m_next m))).
Proof.
  intros al export [l n k]; unfold rsa_pubkey_params, malloc, init, wipe, free, bind; go.
  destruct (al n) eqn:A, (al (S n)) eqn:B; go; try (destruct export; go);
  split; intros H; try discriminate; try congruence; auto.
Qed.

(** The point and group of an EC key: undefined exactly when some of the three are allocated and some are not. *)
Theorem c285_ec : forall al export m,
  let n := m_next m in
  (ec_pubkey_params al export m = None <-> ~ (al n = al (S n) /\ al (S n) = al (S (S n)))).
Proof.
  intros al export [l n k]; unfold ec_pubkey_params, destroy, malloc, init, wipe, free, bind; go.
  destruct (al n) eqn:A, (al (S n)) eqn:B, (al (S (S n))) eqn:C; go; try (destruct export; go);
  split; intros H; try discriminate; try (intros [? ?]; discriminate); try (exfalso; apply H; auto; fail); auto.
Qed.

(** Otherwise the claim holds: of calls that are defined. *)
Definition clean_if {A} (objs : A -> list nat) (f : mem -> out (option A)) : Prop :=
  forall m m' r, f m = Some (m', r) -> m_lost m' = m_lost m /\
    m_live m' = match r with None => [] | Some a => map (fun b => (b, Made)) (objs a) end ++ m_live m.

Ltac done_ := intros H; try discriminate; injection H as <- <-; go; auto.

Theorem c285_partial :
  (forall al seed, clean_if the_two (rng_new al seed)) /\
  (forall al seed parse, clean_if the_one (pem_to_privkey al seed parse)) /\
  (forall al seed parse, clean_if the_one (import_privkey_file al seed parse)) /\
  (forall al export, clean_if the_two_rev (rsa_pubkey_params al export)) /\
  (forall al export, clean_if the_two (ec_pubkey_params al export)).
Proof.
  split; [|split; [|split; [|split]]].
  - intros al seed [l n k] m' r; unfold rng_new, rng_destroy, destroy, malloc, init, wipe, free, bind; go.
    destruct (al n) eqn:A; go; [destruct (al (S n)) eqn:B|]; go; [destruct seed; go| |]; done_.
  - intros al seed parse [l n k] m' r;
    unfold pem_to_privkey, pkey_new, rng_new, rng_destroy, destroy, malloc, init, wipe, free, bind; go.
    destruct (al n) eqn:A; go; [destruct (al (S n)) eqn:B|]; go; [destruct seed; go| |];
    try (destruct (al (S (S n))) eqn:C; go); try (destruct parse; go); done_.
  - intros al seed parse [l n k] m' r;
    unfold import_privkey_file, pkey_new, rng_new, rng_destroy, destroy, malloc, init, wipe, free, bind; go.
    destruct (al n) eqn:A; go; [destruct (al (S n)) eqn:B|]; go; [destruct seed; go| |];
    try (destruct (al (S (S n))) eqn:C; go); try (destruct parse; go); done_.
  - intros al export [l n k] m' r; unfold rsa_pubkey_params, malloc, init, wipe, free, bind; go.
    destruct (al n) eqn:A, (al (S n)) eqn:B; go; try (destruct export; go); done_.
  - intros al export [l n k] m' r; unfold ec_pubkey_params, destroy, malloc, init, wipe, free, bind; go.
    destruct (al n) eqn:A, (al (S n)) eqn:B, (al (S (S n))) eqn:C; go; try (destruct export; go); done_.
Qed.

(** They succeed when everything they ask for is given, and only then. *)
Theorem c285_success : forall al m m' a b n,
  n = m_next m ->
  (rng_new al a m = Some (m', None) -> al n = false \/ a = false) /\
  (pem_to_privkey al a b m = Some (m', None) -> al n = false \/ a = false \/ al (2 + n) = false \/ b = false) /\
  (import_privkey_file al a b m = Some (m', None) -> al n = false \/ a = false \/ al (2 + n) = false \/ b = false) /\
  (rsa_pubkey_params al a m = Some (m', None) -> al n = false \/ a = false) /\
  (ec_pubkey_params al a m = Some (m', None) -> al n = false \/ a = false) /\
  (forall r, rng_new al a m = Some (m', Some r) -> al n = true /\ al (1 + n) = true /\ a = true) /\
  (forall r, pem_to_privkey al a b m = Some (m', Some r) -> a = true /\ b = true) /\
  (forall r, import_privkey_file al a b m = Some (m', Some r) -> a = true /\ b = true) /\
  (forall r, rsa_pubkey_params al a m = Some (m', Some r) -> al n = true /\ a = true) /\
  (forall r, ec_pubkey_params al a m = Some (m', Some r) -> al n = true /\ a = true).
Proof.
  intros al [l n k] m' a b ? ->. cbn [m_next].
  refine (conj _ (conj _ (conj _ (conj _ (conj _ (conj _ (conj _ (conj _ (conj _ _)))))))));
  intros *; unfold pem_to_privkey, import_privkey_file, rsa_pubkey_params, ec_pubkey_params, pkey_new, rng_new,
    rng_destroy, destroy, malloc, init, wipe, free, bind; go;
  destruct (al n) eqn:A, (al (S n)) eqn:B; go; try (destruct (al (S (S n))) eqn:C; go); destruct a; go;
  try (destruct b; go); intros H; try discriminate; auto.
Qed.

(** What a successful [rng_new] made is released whole by [rng_destroy]. *)
Theorem c285_rng_round : forall al seed m m1 ctr ent,
  rng_new al seed m = Some (m1, Some (ctr, ent)) ->
  exists m2, rng_destroy ctr ent m1 = Some (m2, tt) /\ m_live m2 = m_live m /\ m_lost m2 = m_lost m.
Proof.
  intros al seed [l n k] m1 ctr ent; unfold rng_new, rng_destroy, destroy, malloc, init, wipe, free, bind; go.
  destruct (al n); go; [destruct (al (S n))|]; go; [destruct seed; go| |]; intros H; try discriminate.
  injection H as <- <- <-; go; eexists; split; [reflexivity|]; split; reflexivity.
Qed.

(** Against the full statement: memory runs out at the second allocation. *)
Definition m0 : mem := mkM [] 0 0.
Definition only_first : nat -> bool := fun n => Nat.eqb n 0.

Theorem c285_full_refuted : ~ c285_full.
Proof.
  intros [H _]. destruct (H only_first true m0) as (m' & r & E & _). discriminate E.
Qed.

Theorem c285_others_refuted :
  pem_to_privkey only_first true true m0 = None /\ import_privkey_file only_first true true m0 = None /\
  rsa_pubkey_params only_first true m0 = None /\ ec_pubkey_params only_first true m0 = None /\
  ~ clean the_two_rev (rsa_pubkey_params only_first true).
Proof.
  repeat split. intros H. destruct (H m0) as (m' & r & E & _). discriminate E.
Qed.

Definition all_ok : nat -> bool := fun _ => true.
Example c285_example :
  rng_new all_ok true m0 = Some (mkM [(1, Made); (0, Made)] 2 0, Some (Some 1, Some 0)) /\
  rng_new all_ok false m0 = Some (mkM [] 2 0, None) /\
  pem_to_privkey all_ok true true (mkM [(7, Made)] 8 0) = Some (mkM [(10, Made); (7, Made)] 11 0, Some 10) /\
  pem_to_privkey (fun n => n <? 2) true true m0 = Some (mkM [] 3 0, None) /\
  import_privkey_file all_ok true false m0 = Some (mkM [] 3 0, None) /\
  rsa_pubkey_params all_ok true m0 = Some (mkM [(1, Made); (0, Made)] 2 0, Some (Some 0, Some 1)) /\
  ec_pubkey_params all_ok true m0 = Some (mkM [(2, Made); (0, Made)] 3 0, Some (Some 2, Some 0)) /\
  ec_pubkey_params all_ok false m0 = Some (mkM [] 3 0, None).
Proof. repeat split. Qed.

(** ** C286 *)

(** The reasons with "; " between them. *)
Fixpoint joined (l : list bytes) : bytes :=
  match l with [] => [] | [r] => r | r :: rest => r ++ bs "; " ++ joined rest end.

(** The English claim: of every queue of errors. *)
Definition c286_full : Prop := forall errs : list (option bytes), errs <> [] ->
  exists s, get_err_reasons (fun _ => true) errs = TStr s /\
    (forall rs, errs = map Some rs -> s = joined rs).

Lemma cons_some : forall r rs, joined (r :: rs) = r ++ match rs with [] => [] | _ => bs "; " ++ joined rs end.
Proof. intros r [|x y]; cbn [joined]; [rewrite app_nil_r|]; reflexivity. Qed.

Lemma loop_text : forall rs al n txt, Forall (fun r => r <> []) rs -> txt <> [] -> (forall k, al k = true) ->
  reasons_loop al n (length txt + 1) true txt (map Some rs) =
  TStr (txt ++ match rs with [] => [] | _ => bs "; " ++ joined rs end).
Proof.
  induction rs as [|r rs IH]; intros al n txt F T AL.
  - cbn. rewrite app_nil_r. reflexivity.
  - inversion F as [|? ? R F']; subst.
    cbn [map reasons_loop]. destruct txt as [|c t]; [congruence|]. set (txt := c :: t) in *.
    rewrite AL. unfold sprint at 1.
    replace (length txt + length (bs "; ") + 1 <=? length txt + 1 + 2) with true
      by (symmetry; apply Nat.leb_le; change (length (bs "; ")) with 2; lia).
    rewrite AL. unfold sprint.
    replace (length (txt ++ bs "; ") + length r + 1 <=? length txt + 1 + 2 + length r) with true
      by (symmetry; apply Nat.leb_le; rewrite app_length; change (length (bs "; ")) with 2; lia).
    replace (length txt + 1 + 2 + length r) with (length ((txt ++ bs "; ") ++ r) + 1)
      by (rewrite !app_length; change (length (bs "; ")) with 2; lia).
    rewrite IH; auto.
    + rewrite cons_some, !app_assoc. reflexivity.
    + subst txt. discriminate.
Qed.

(** Proved: of queues in which every error has a reason. *)
Theorem c286_partial : forall rs : list bytes, rs <> [] -> Forall (fun r => r <> []) rs ->
  get_err_reasons (fun _ => true) (map Some rs) = TStr (joined rs).
Proof.
  intros [|r rs] N F; [congruence|]. inversion F; subst.
  unfold get_err_reasons. cbn [map reasons_loop]. unfold sprint.
  replace (length (@nil Ascii.ascii) + length r + 1 <=? 1 + length r) with true
    by (symmetry; apply Nat.leb_le; cbn; lia).
  cbn [app]. replace (1 + length r) with (length r + 1) by lia.
  rewrite loop_text; auto. rewrite cons_some. reflexivity.
Qed.

(** Whatever allocations fail and whatever the reasons are (empty ones too), nothing is written past the end of
    the buffer: if every error has a reason, nothing undefined happens, and a returned text holds every reason. *)
Definition occurs (s t : bytes) : Prop := exists a b, t = a ++ s ++ b.

Lemma loop_safe : forall errs al n txt buf, Forall (fun e => e <> None) errs ->
  match reasons_loop al n (length txt + 1) buf txt errs with
  | TUndef => False
  | TNull => True
  | TStr s => (exists b, s = txt ++ b) /\ forall r, In (Some r) errs -> occurs r s
  end.
Proof.
  induction errs as [|e errs IH]; intros al n txt buf F.
  - cbn. destruct buf; auto. split; [exists []; rewrite app_nil_r; reflexivity|intros r []].
  - inversion F as [|? ? E F']; subst. destruct e as [r|]; [|congruence].
    assert (K : forall n size txt', size = length txt' + 1 ->
      (exists b, txt' = txt ++ b) ->
      match (if al n then
               match sprint (size + length r) txt' r with
               | None => TUndef
               | Some t => reasons_loop al (S n) (size + length r) true t errs
               end else TNull) with
      | TUndef => False
      | TNull => True
      | TStr s => (exists b, s = txt ++ b) /\ forall x, In (Some x) (Some r :: errs) -> occurs x s
      end).
    { intros n' size txt' -> [b ->]. destruct (al n'); auto. unfold sprint.
      replace (length (txt ++ b) + length r + 1 <=? length (txt ++ b) + 1 + length r) with true
        by (symmetry; apply Nat.leb_le; lia).
      replace (length (txt ++ b) + 1 + length r) with (length ((txt ++ b) ++ r) + 1)
        by (rewrite (app_length (txt ++ b) r); lia).
      specialize (IH al (S n') ((txt ++ b) ++ r) true F').
      destruct (reasons_loop al (S n') (length ((txt ++ b) ++ r) + 1) true ((txt ++ b) ++ r) errs) as [| |s]; auto.
      destruct IH as [[z ->] I]. split.
      - exists (b ++ r ++ z). rewrite !app_assoc. reflexivity.
      - intros x [X|X].
        + injection X as <-. exists (txt ++ b), z. rewrite !app_assoc. reflexivity.
        + apply I; exact X. }
    cbn [reasons_loop]. destruct txt as [|c t].
    + apply K; [reflexivity|exists []; reflexivity].
    + destruct (al n); auto. unfold sprint at 1.
      replace (length (c :: t) + length (bs "; ") + 1 <=? length (c :: t) + 1 + 2) with true
        by (symmetry; apply Nat.leb_le; change (length (bs "; ")) with 2; lia).
      apply K.
      * rewrite app_length. change (length (bs "; ")) with 2. lia.
      * exists (bs "; "). reflexivity.
Qed.

Theorem c286_safe : forall al errs, Forall (fun e => e <> None) errs ->
  get_err_reasons al errs <> TUndef /\
  forall s, get_err_reasons al errs = TStr s -> forall r, In (Some r) errs -> occurs r s.
Proof.
  intros al errs F. pose proof (loop_safe errs al 0 [] false F) as H.
  unfold get_err_reasons. change (length (@nil Ascii.ascii) + 1) with 1 in H.
  destruct (reasons_loop al 0 1 false [] errs) as [| |s]; [contradiction| |].
  - split; [discriminate|]. intros s E; discriminate E.
  - split; [discriminate|]. intros s' E. injection E as <-. exact (proj2 H).
Qed.

(** Against the full statement: an error without a reason string, which is what OpenSSL 3 returns for a system
    error. *)
Theorem c286_full_refuted : ~ c286_full.
Proof.
  intros H. destruct (H [Some (bs "unexpected eof while reading"); None]) as (s & E & _); [discriminate|].
  revert E. vm_compute. discriminate.
Qed.

Example c286_example :
  get_err_reasons (fun _ => true) [Some (bs "bad record"); Some (bs "eof"); Some (bs "no key")] =
    TStr (bs "bad record; eof; no key") /\
  get_err_reasons (fun n => n <? 2) [Some (bs "bad record"); Some (bs "eof")] = TNull /\
  get_err_reasons (fun _ => true) [] = TNull.
Proof. repeat split. Qed.

Print Assumptions c285_rng.
Print Assumptions c285_key.
Print Assumptions c285_rsa.
Print Assumptions c285_ec.
Print Assumptions c285_partial.
Print Assumptions c285_success.
Print Assumptions c285_rng_round.
Print Assumptions c285_full_refuted.
Print Assumptions c285_others_refuted.
Print Assumptions c286_partial.
Print Assumptions c286_safe.
Print Assumptions c286_full_refuted.
