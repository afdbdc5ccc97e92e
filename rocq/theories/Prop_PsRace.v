(** C268-C271: several threads on one pollsession structure; the model is PsRace. *)
From Coq Require Import Bool Arith Lia List Permutation.
From Verif Require Import PsRace.
Import ListNotations.

(** ** Specification *)

(** A way of using the library: what may be done, given what was done and returned before. *)
Definition rule := st -> ev -> Prop.
Fixpoint follows (r : rule) (x : st) (l : list ev) : Prop :=
  match l with
  | [] => True
  | v :: l' => r x v /\ match step x v with Go y => follows r y l' | _ => True end
  end.

Definition added (x : st) (s : sid) : Prop := In (NAdd s) (log x).
Definition freed (x : st) (s : sid) : Prop := In (NFree s) (log x).
Definition told (x : st) (s : sid) : Prop := exists t, In (NTerm t s) (log x).

(** The documented way: a session is added once, a session is removed by the thread that nc_ps_poll() told that it has terminated, and freed once
    after that; any number of threads poll; sessions are killed as long as they are not freed. *)
Definition by_term : rule := fun x v =>
  match v with
  | EStop s => s < known x /\ ~ freed x s
  | EAdd _ s => s < known x /\ ~ added x s /\ ~ freed x s
  | EDel t s => In (NTerm t s) (log x)
  | EFree t s | EFreeLate t s => s < known x /\ ~ freed x s /\ (In (NDel t s) (log x) \/ ~ added x s)
  | EClear _ | EClearOne _ _ | EClearFree _ _ | EClearEnd _ => False
  | _ => True
  end.

(** A freer way: a session may be removed by any thread at any time; nc_ps_clear() removes and frees those that have terminated. *)
Definition by_anyone (late : bool) : rule := fun x v =>
  match v with
  | EStop s => s < known x /\ ~ freed x s
  | EAdd _ s => s < known x /\ ~ added x s /\ ~ freed x s
  | EFree t s => s < known x /\ ~ freed x s /\ (In (NDel t s) (log x) \/ ~ added x s)
  | EFreeLate t s => late = true /\ s < known x /\ ~ freed x s /\ (In (NDel t s) (log x) \/ ~ added x s)
  | EClearFree _ l => l = true -> late = true
  | _ => True
  end.

(** The thread that is handling an RPC of a session. *)
Definition serves (x : st) (t : tid) (s : sid) : Prop := exists e, pcs x t = Serving e s.

(** Full claim of C268: no way of using the library makes it use freed memory. *)
Definition c268_full : Prop := forall l, follows (by_anyone false) init l -> forall b, run init l <> Wild b.

(** ** Maps *)
Lemma upd_same {A} (f : nat -> A) k v : upd f k v k = v.
Proof. unfold upd. now rewrite Nat.eqb_refl. Qed.
Lemma upd_other {A} (f : nat -> A) k v j : j <> k -> upd f k v j = f j.
Proof. unfold upd. intros N1. destruct (Nat.eqb_spec j k); [contradiction|reflexivity]. Qed.
Ltac U := repeat match goal with
  | H : context [upd ?f ?k ?v ?j] |- _ => destruct (Nat.eq_dec j k) as [?E|?N]; [subst; rewrite upd_same in H|rewrite (upd_other f k v j) in H by assumption]
  | |- context [upd ?f ?k ?v ?j] => destruct (Nat.eq_dec j k) as [?E|?N]; [subst; rewrite upd_same|rewrite (upd_other f k v j) by assumption]
  end.

(** ** Removing an entry *)
Lemma replace_in l : forall i z y, In y (replace l i z) -> y = z \/ In y l.
Proof.
  induction l as [|a l IH]; intros [|i] z y H; cbn [replace In] in *; try tauto; destruct H as [<-|H]; auto.
  destruct (IH _ _ _ H); auto.
Qed.
Lemma replace_perm l : forall i z e, nth_error l i = Some e -> Permutation (e :: replace l i z) (z :: l).
Proof.
  induction l as [|a l IH]; intros [|i] z e H; try discriminate H; cbn [nth_error replace] in *.
  - injection H as <-. apply perm_swap.
  - transitivity (a :: e :: replace l i z); [apply perm_swap|]. transitivity (a :: z :: l); [apply perm_skip, IH, H|apply perm_swap].
Qed.
Lemma remove_perm l i e : nth_error l i = Some e -> Permutation l (e :: remove_at l i).
Proof.
  intros H. unfold remove_at. destruct (rev l) as [|z r] eqn:R.
  - assert (l = []) as -> by (rewrite <- (rev_involutive l), R; reflexivity). destruct i; discriminate H.
  - assert (L : l = rev r ++ [z]) by (rewrite <- (rev_involutive l), R; reflexivity).
    assert (P : Permutation l (z :: rev r)) by (rewrite L; apply Permutation_sym, Permutation_cons_append).
    destruct (Nat.lt_ge_cases i (length (rev r))) as [I|I].
    + rewrite L, nth_error_app1 in H by exact I. rewrite P. symmetry. apply replace_perm, H.
    + rewrite L, nth_error_app2 in H by exact I. destruct (i - length (rev r)) as [|k] eqn:K; [|destruct k; discriminate H]. injection H as <-.
      assert (Q : forall l i z, length l <= i -> replace l i z = l).
      { clear. induction l as [|a l IH]; intros [|i] z H; try reflexivity; cbn in *; [lia|]. f_equal. apply IH. lia. }
      rewrite Q by exact I. exact P.
Qed.
Lemma remove_in l i e : NoDup l -> nth_error l i = Some e -> forall y, In y (remove_at l i) <-> In y l /\ y <> e.
Proof.
  intros ND H y. pose proof (remove_perm l i e H) as P. assert (ND2 : NoDup (e :: remove_at l i)) by (eapply Permutation_NoDup; eassumption).
  apply NoDup_cons_iff in ND2. destruct ND2 as [N1 _]. split.
  - intros I. split; [apply (Permutation_in _ (Permutation_sym P)); now right|intros ->; contradiction].
  - intros [I N2]. apply (Permutation_in _ P) in I. destruct I as [<-|I]; [congruence|exact I].
Qed.
Lemma remove_nodup l i e : NoDup l -> nth_error l i = Some e -> NoDup (remove_at l i).
Proof. intros ND H. pose proof (Permutation_NoDup (remove_perm l i e H) ND) as P. apply NoDup_cons_iff in P. tauto. Qed.
Lemma find_some h l s : forall i k, find h l s i = Some (Some k) -> exists e v, nth_error l (k - i) = Some e /\ h e = Some v /\ en_sid v = s /\ i <= k.
Proof.
  induction l as [|a l IH]; intros i k; cbn [find]; [discriminate|]. destruct (h a) as [v|] eqn:H; [|discriminate].
  destruct (Nat.eqb_spec (en_sid v) s) as [E|E].
  - intros [= <-]. exists a, v. rewrite Nat.sub_diag. auto.
  - intros F. destruct (IH _ _ F) as (e & v' & A & B & C & D). exists e, v'. replace (k - i) with (S (k - S i)) by lia. repeat split; auto. lia.
Qed.
Lemma find_alive h l s : forall i, (forall e, In e l -> h e <> None) -> find h l s i <> None.
Proof.
  induction l as [|a l IH]; intros i H; cbn [find]; [discriminate|]. destruct (h a) as [v|] eqn:E; [|exfalso; exact (H a (or_introl eq_refl) E)].
  destruct (Nat.eqb (en_sid v) s); [discriminate|]. apply IH. intros e I. apply H. now right.
Qed.

(** ** The invariant *)
Definition subj (p : pc) : option sid := match p with Found _ s | Serving _ s | Freeing s _ | Leaving (Some s) => Some s | _ => None end.
Definition busyb (p : pc) : bool := match p with Found _ _ | Serving _ _ | Freeing _ _ => true | _ => false end.
Definition inps (p : pc) : bool := match p with Looking | Leaving _ | Found _ _ => true | _ => false end.
Definition st_of (p : pc) : state := match p with Found _ _ | Serving _ _ => SBusy | Freeing _ false => SNone | _ => SInvalid end.
Definition at_entry (p : pc) (e : eid) : Prop := match p with Found e' _ | Serving e' _ => e' = e | _ => True end.
Definition clearing (p : pc) : bool := match p with Clearing | ClearWait _ => true | _ => false end.

Record Inv (x : st) : Prop := {
  i_nodup : NoDup (ents x);
  i_ent : forall e, In e (ents x) -> e < fresh x /\ exists v w, heap x e = Some v /\ sess x (en_sid v) = Some w /\ added x (en_sid v);
  i_one : forall e1 e2 v1 v2, In e1 (ents x) -> In e2 (ents x) -> heap x e1 = Some v1 -> heap x e2 = Some v2 -> en_sid v1 = en_sid v2 -> e1 = e2;
  i_about : forall t s, subj (pcs x t) = Some s -> ~ told x s /\ exists e w, In e (ents x) /\ heap x e = Some (mkE s (st_of (pcs x t))) /\
    sess x s = Some w /\ se_rpc w = (if busyb (pcs x t) then Some t else None) /\ at_entry (pcs x t) e;
  i_lock : forall t, inps (pcs x t) = true <-> lock x = Some t;
  i_rpc : forall s w t, sess x s = Some w -> se_rpc w = Some t -> subj (pcs x t) = Some s /\ busyb (pcs x t) = true;
  i_told : forall s e v, told x s -> In e (ents x) -> heap x e = Some v -> en_sid v = s -> en_state v = SInvalid;
  i_del : forall t s e v, In (NDel t s) (log x) -> In e (ents x) -> heap x e = Some v -> en_sid v <> s;
  i_alive : forall s, s < known x -> ~ freed x s -> sess x s <> None;
  i_known : forall s, known x <= s -> ~ added x s /\ ~ freed x s;
  i_tadd : forall s, told x s \/ (exists t, In (NDel t s) (log x)) -> added x s;
  i_clear : forall t, clearing (pcs x t) = false }.

Lemma inv_init : Inv init.
Proof.
  constructor.
  - constructor.
  - intros e [].
  - intros e1 e2 v1 v2 [].
  - intros t s H. discriminate H.
  - intros t. cbn. split; discriminate.
  - intros s w t H. discriminate H.
  - intros s e v _ [].
  - intros t s e v [].
  - intros s H. cbn in H. lia.
  - intros s _. split; intros [].
  - intros s H. destruct H as [H|H]; destruct H as [t H]; destruct H.
  - reflexivity.
Qed.

(** Another thread with the same subject. *)
Lemma alone x t t' s : Inv x -> subj (pcs x t) = Some s -> subj (pcs x t') = Some s -> t = t'.
Proof.
  intros I A B. destruct (i_about _ I _ _ A) as (_ & e & w & _ & _ & S1 & R1 & _). destruct (i_about _ I _ _ B) as (_ & e' & w' & _ & _ & S2 & R2 & _).
  rewrite S1 in S2. injection S2 as <-. rewrite R1 in R2.
  destruct (busyb (pcs x t)) eqn:B1, (busyb (pcs x t')) eqn:B2; try congruence.
  assert (L : inps (pcs x t) = true) by (destruct (pcs x t); try discriminate B1; try discriminate A; reflexivity).
  assert (L' : inps (pcs x t') = true) by (destruct (pcs x t'); try discriminate B2; try discriminate B; reflexivity).
  apply (i_lock _ I) in L, L'. congruence.
Qed.

Lemma inv_status x s w w' : Inv x -> sess x s = Some w -> se_rpc w' = se_rpc w -> Inv (set_ses x s (Some w')).
Proof.
  intros I S1 R. destruct I. constructor; cbn; auto.
  - intros e He. destruct (i_ent0 e He) as (F & v & u & A & B & C). split; [exact F|]. exists v. U; eauto.
  - intros t s0 H. destruct (i_about0 t s0 H) as (N1 & e & u & A & B & C & D & E). split; [exact N1|]. exists e. U; [|eauto 10].
    exists w'. assert (u = w) by congruence. subst u. rewrite R. auto 10.
  - intros s0 u t. U; [intros [= <-] X|eauto]. rewrite R in X. eauto.
  - intros s0 K F. U; [discriminate|auto].
Qed.

(** A thread moves without a session. *)
Lemma inv_quiet x t p l : Inv x -> subj (pcs x t) = None -> subj p = None -> clearing p = false ->
  (forall t', (if Nat.eqb t' t then inps p else inps (pcs x t')) = true <-> l = Some t') ->
  Inv (set_pc (set_lock x l) t p).
Proof.
  intros I A B C L. destruct I. constructor; cbn; auto.
  - intros t' s. U; [congruence|]. intros H. destruct (i_about0 t' s H) as (N1 & e & u & X). split; [exact N1|]. exists e, u. exact X.
  - intros t'. specialize (L t'). destruct (Nat.eqb_spec t' t); U; try contradiction; exact L.
  - intros s w t' S1 R. destruct (i_rpc0 s w t' S1 R) as [X Y]. U; [congruence|auto].
  - intros t'. U; auto.
Qed.
Lemma inv_move x t p : Inv x -> subj (pcs x t) = None -> subj p = None -> clearing p = false -> inps p = inps (pcs x t) -> Inv (set_pc x t p).
Proof.
  intros I A B C L. replace x with (set_lock x (lock x)) by (destruct x; reflexivity). apply inv_quiet; auto. cbn.
  intros t'. destruct (Nat.eqb_spec t' t) as [->|N1]; [rewrite L|]; apply (i_lock _ I).
Qed.
Lemma free_nobody x : Inv x -> lock x = None -> forall t, inps (pcs x t) = false.
Proof. intros I L t. destruct (inps (pcs x t)) eqn:E; [|reflexivity]. apply (i_lock _ I) in E. congruence. Qed.
Lemma one_in x t : Inv x -> inps (pcs x t) = true -> forall t', t' <> t -> inps (pcs x t') = false.
Proof. intros I L t' N1. destruct (inps (pcs x t')) eqn:E; [|reflexivity]. apply (i_lock _ I) in E, L. congruence. Qed.

Lemma told_app x n s : told (add_log x n) s <-> told x s \/ exists t, n = NTerm t s.
Proof.
  unfold told. cbn. split.
  - intros [t H]. apply in_app_or in H. destruct H as [H|[H|[]]]; [left|right]; eauto.
  - intros [[t H]|[t ->]]; exists t; apply in_or_app; [now left|right; now left].
Qed.

(** Notes that say nothing about termination, removal and freeing. *)
Lemma inv_note x t s : Inv x -> Inv (add_log x (NServed t s)).
Proof.
  intros I. destruct I.
  assert (A : forall n, In n (log x ++ [NServed t s]) <-> In n (log x) \/ n = NServed t s).
  { intros n. rewrite in_app_iff. cbn. intuition congruence. }
  constructor; cbn; auto; unfold added, freed, told in *; cbn in *.
  - intros e He. destruct (i_ent0 e He) as (F & v & w & H & S1 & D). split; [exact F|]. exists v, w. rewrite A. auto.
  - intros t' s' H. destruct (i_about0 t' s' H) as (N1 & X). split; [|exact X]. intros [t0 Y]. apply A in Y. destruct Y as [Y|Y]; [eauto|discriminate Y].
  - intros s' e v [t0 Y]. apply A in Y. destruct Y as [Y|Y]; [eauto|discriminate Y].
  - intros t' s' e v Y. apply A in Y. destruct Y as [Y|Y]; [eauto|discriminate Y].
  - intros s' K N1. apply i_alive0; [exact K|]. intros Y. apply N1, A. now left.
  - intros s' K. destruct (i_known0 s' K) as [N1 N2]. rewrite !A. split; intros [Y|Y]; try discriminate Y; auto.
  - intros s' H. rewrite A. left. apply i_tadd0. destruct H as [[t0 Y]|[t0 Y]]; apply A in Y; destruct Y as [Y|Y]; try discriminate Y; [left|right]; eauto.
Qed.

Lemma inv_look x t e v w v' w' p : Inv x -> pcs x t = Looking -> In e (ents x) -> heap x e = Some v -> sess x (en_sid v) = Some w -> se_rpc w = None ->
  en_sid v' = en_sid v -> inps p = true -> clearing p = false -> (en_state v = SInvalid -> en_state v' = SInvalid) ->
  (subj p = None /\ se_rpc w' = None) \/
  (subj p = Some (en_sid v) /\ v' = mkE (en_sid v) (st_of p) /\ at_entry p e /\ en_state v <> SInvalid /\ se_rpc w' = if busyb p then Some t else None) ->
  Inv (set_pc (set_ses (set_ent x e (Some v')) (en_sid v) (Some w')) t p).
Proof.
  intros I T He Hv Hw R SV L C IV P. pose proof (alone x) as AL.
  assert (LK : lock x = Some t) by (apply (i_lock _ I); now rewrite T).
  assert (OT : forall t', t' <> t -> subj (pcs x t') <> Some (en_sid v)).
  { intros t' N1 S1. destruct (i_about _ I _ _ S1) as (_ & e1 & w1 & _ & _ & S2 & R2 & _). rewrite Hw in S2. injection S2 as <-. rewrite R in R2.
    destruct (busyb (pcs x t')) eqn:B; [discriminate|].
    assert (X : inps (pcs x t') = true) by (destruct (pcs x t'); try discriminate B; try discriminate S1; reflexivity).
    apply (i_lock _ I) in X. congruence. }
  destruct I. constructor; cbn; auto.
  - intros e0 H0. destruct (i_ent0 e0 H0) as (F & v0 & w0 & A & B & D). split; [exact F|]. destruct (Nat.eq_dec e0 e) as [->|N1].
    + exists v', w'. rewrite !upd_same, SV, upd_same. split; [reflexivity|]. split; [reflexivity|]. rewrite Hv in A. injection A as <-. exact D.
    + rewrite upd_other by exact N1. exists v0. destruct (Nat.eq_dec (en_sid v0) (en_sid v)) as [E|E]; [rewrite E, upd_same|rewrite upd_other by exact E]; eauto.
      exists w'. rewrite <- E. auto.
  - intros e1 e2 v1 v2 H1 H2 A1 A2 E. assert (G : forall e0 v0, upd (heap x) e (Some v') e0 = Some v0 -> exists u, heap x e0 = Some u /\ en_sid u = en_sid v0).
    { clear -Hv SV. intros e0 v0. U; [intros [= <-]; exists v; auto|eauto]. }
    destruct (G _ _ A1) as (u1 & B1 & E1), (G _ _ A2) as (u2 & B2 & E2). apply (i_one0 e1 e2 u1 u2); auto. congruence.
  - intros t' s. destruct (Nat.eq_dec t' t) as [->|N1].
    + rewrite upd_same. destruct P as [[P _]|(P & Q1 & Q2 & Q3 & Q4)]; [congruence|]. rewrite P. intros [= <-]. split.
      * intros TO. apply Q3. apply (i_told0 (en_sid v) e v TO He Hv eq_refl).
      * exists e, w'. rewrite !upd_same. subst v'. auto.
    + rewrite upd_other by exact N1. intros S1. destruct (i_about0 t' s S1) as (TO & e1 & w1 & A & B & D & E1 & E2). split; [exact TO|].
      assert (Ns : s <> en_sid v) by (intros ->; exact (OT t' N1 S1)). exists e1, w1. rewrite (upd_other _ _ _ s) by exact Ns.
      assert (Ne : e1 <> e) by (intros ->; rewrite B in Hv; injection Hv as <-; apply Ns; reflexivity). rewrite upd_other by exact Ne. auto.
  - intros t'. U; [rewrite L; split; intros _; [exact LK|reflexivity]|apply i_lock0].
  - intros s w0 t'. destruct (Nat.eq_dec s (en_sid v)) as [->|Ns].
    + rewrite upd_same. intros [= <-] R0. destruct P as [[_ P]|(P & _ & _ & _ & Q4)]; [congruence|]. rewrite Q4 in R0. destruct (busyb p) eqn:B; [|discriminate].
      injection R0 as <-. rewrite upd_same. auto.
    + rewrite upd_other by exact Ns. intros S1 R1. destruct (i_rpc0 _ _ _ S1 R1) as [A B]. U; [rewrite T in A; discriminate|auto].
  - intros s e0 v0 TO H0 A E. destruct (Nat.eq_dec e0 e) as [->|N1].
    + rewrite upd_same in A. injection A as <-. apply IV. apply (i_told0 s e v TO He Hv). congruence.
    + rewrite upd_other in A by exact N1. eauto.
  - intros t0 s e0 v0 D H0 A. destruct (Nat.eq_dec e0 e) as [->|N1].
    + rewrite upd_same in A. injection A as <-. rewrite SV. eauto.
    + rewrite upd_other in A by exact N1. eauto.
  - intros s K F. U; [discriminate|auto].
  - intros t'. U; auto.
Qed.

(** NC_PSPOLL_SESSION_TERM is returned: the thread forgets the session, gives back what it has and [l] is the lock. *)
Lemma inv_term x t s w l : Inv x -> subj (pcs x t) = Some s -> st_of (pcs x t) = SInvalid -> sess x s = Some w ->
  l = (if inps (pcs x t) then None else lock x) -> forall w', se_rpc w' = None ->
  Inv (add_log (set_pc (set_ses (set_lock x l) s (Some w')) t Idle) (NTerm t s)).
Proof.
  intros I T ST Hw LL w' R. pose proof (fun t' => alone x t t' s I T) as AL. pose proof (one_in x t I) as OI.
  destruct (i_about _ I _ _ T) as (NT & e & w0 & He & Hv & Hw0 & R0 & AE). rewrite ST in Hv.
  destruct I.
  assert (A : forall n, In n (log x ++ [NTerm t s]) <-> In n (log x) \/ n = NTerm t s).
  { intros n. rewrite in_app_iff. cbn. intuition congruence. }
  constructor; cbn; auto; unfold added, freed, told in *; cbn in *.
  - intros e0 H0. destruct (i_ent0 e0 H0) as (F & v & u & H & S1 & D). split; [exact F|]. exists v. destruct (Nat.eq_dec (en_sid v) s) as [E|E]; [rewrite E, upd_same; exists w'|rewrite upd_other by exact E; exists u]; (split; [exact H|]; split; [auto|apply A; left; congruence]).
  - intros t' s'. destruct (Nat.eq_dec t' t) as [->|N]; [rewrite upd_same; discriminate|rewrite (upd_other (pcs x)) by exact N]. intros H. destruct (i_about0 t' s' H) as (N1 & e1 & w1 & B1 & B2 & B3 & B4 & B5).
    assert (Ns : s' <> s) by (intros ->; apply N; symmetry; apply AL; exact H).
    split; [intros [t0 Y]; apply A in Y; destruct Y as [Y|Y]; [eauto|congruence]|]. exists e1, w1. rewrite (upd_other _ _ _ s') by exact Ns. auto.
  - intros t'. destruct (Nat.eq_dec t' t) as [->|N1].
    + rewrite upd_same. cbn [inps]. split; [discriminate|]. intros X. rewrite LL in X. destruct (inps (pcs x t)) eqn:Q; [discriminate|]. apply i_lock0 in X. congruence.
    + rewrite upd_other by exact N1. rewrite LL. destruct (inps (pcs x t)) eqn:Q; [|apply i_lock0]. rewrite (OI eq_refl t' N1). split; discriminate.
  - intros s0 u t'. destruct (Nat.eq_dec s0 s) as [->|Ns]; [rewrite upd_same; intros [= <-] X; congruence|rewrite upd_other by exact Ns].
    intros S1 R1. destruct (i_rpc0 _ _ _ S1 R1) as [B1 B2]. U; [congruence|auto].
  - intros s' e0 v [t0 Y] H0 Hv0 E. apply A in Y. destruct Y as [Y|Y]; [eauto|]. injection Y as <- ->.
    assert (e0 = e) as -> by (apply (i_one0 e0 e v (mkE s SInvalid)); auto). rewrite Hv in Hv0. injection Hv0 as <-. reflexivity.
  - intros t0 s' e0 v Y. apply A in Y. destruct Y as [Y|Y]; [eauto|discriminate Y].
  - intros s' K N1. U; [discriminate|]. apply i_alive0; [exact K|]. intros Y. apply N1, A. now left.
  - intros s' K. destruct (i_known0 s' K) as [N1 N2]. rewrite !A. split; intros [Y|Y]; try discriminate Y; auto.
  - intros s' H. rewrite A. left. destruct H as [[t0 Y]|[t0 Y]]; apply A in Y; destruct Y as [Y|Y]; try discriminate Y.
    + apply i_tadd0. left. eauto.
    + injection Y as <- ->. destruct (i_ent0 e He) as (_ & v & u & B1 & _ & B2). rewrite Hv in B1. injection B1 as <-. exact B2.
    + apply i_tadd0. right. eauto.
  - intros t'. U; auto.
Qed.

Lemma inv_serve x t e s : Inv x -> pcs x t = Found e s -> Inv (set_pc (set_lock x None) t (Serving e s)).
Proof.
  intros I T. pose proof (one_in x t I) as OI. rewrite T in OI. specialize (OI eq_refl). destruct I. constructor; cbn; auto.
  - intros t' s'. destruct (Nat.eq_dec t' t) as [->|N1].
    + rewrite upd_same. specialize (i_about0 t s'). rewrite T in i_about0. exact i_about0.
    + rewrite upd_other by exact N1. apply i_about0.
  - intros t'. U; [split; discriminate|]. rewrite (OI t') by assumption. split; discriminate.
  - intros s0 w t' S1 R1. destruct (i_rpc0 _ _ _ S1 R1) as [A B]. U; [|auto]. rewrite T in A. auto.
  - intros t'. U; auto.
Qed.

Lemma inv_state x t e s v b : Inv x -> pcs x t = Serving e s -> heap x e = Some v ->
  Inv (set_pc (set_ent x e (Some (mkE (en_sid v) (if b : bool then SNone else SInvalid)))) t (Freeing s (negb b))).
Proof.
  intros I T Hv. pose proof (fun t' => alone x t t' s I) as AL. rewrite T in AL. specialize (fun t' => AL t' eq_refl).
  destruct (i_about _ I t s) as (NT & e1 & w & He & Hv1 & Hw & R & AE); [now rewrite T|]. rewrite T in Hv1, R, AE. cbn in AE. subst e1.
  rewrite Hv in Hv1. injection Hv1 as ->. cbn [en_sid st_of]. 
  destruct I. constructor; cbn; auto.
  - intros e0 H0. destruct (i_ent0 e0 H0) as (F & v0 & w0 & A & B & D). split; [exact F|]. destruct (Nat.eq_dec e0 e) as [->|N1].
    + rewrite upd_same. eexists. exists w. split; [reflexivity|]. cbn. split; [exact Hw|]. rewrite Hv in A. injection A as <-. exact D.
    + rewrite upd_other by exact N1. eauto.
  - intros e1 e2 v1 v2 H1 H2 A1 A2 E. assert (G : forall e0 v0, upd (heap x) e (Some (mkE s (if b then SNone else SInvalid))) e0 = Some v0 -> exists u, heap x e0 = Some u /\ en_sid u = en_sid v0).
    { clear -Hv. intros e0 v0. U; [intros [= <-]; eexists; split; [exact Hv|reflexivity]|eauto]. }
    destruct (G _ _ A1) as (u1 & B1 & E1), (G _ _ A2) as (u2 & B2 & E2). apply (i_one0 e1 e2 u1 u2); auto. congruence.
  - intros t' s'. destruct (Nat.eq_dec t' t) as [->|N1].
    + rewrite upd_same. cbn. intros [= <-]. split; [exact NT|]. exists e, w. rewrite upd_same. split; [exact He|]. split; [destruct b; reflexivity|]. auto.
    + rewrite upd_other by exact N1. intros S1. destruct (i_about0 t' s' S1) as (TO & e1 & w1 & A & B & D & E1 & E2). split; [exact TO|].
      assert (Ns : s' <> s) by (intros ->; apply N1; symmetry; apply AL; exact S1). exists e1, w1.
      assert (Ne : e1 <> e) by (intros ->; rewrite B in Hv; injection Hv as -> _; apply Ns; reflexivity). rewrite upd_other by exact Ne. auto.
  - intros t'. U; [|apply i_lock0]. rewrite <- (i_lock0 t), T. reflexivity.
  - intros s0 w0 t' S1 R1. destruct (i_rpc0 _ _ _ S1 R1) as [A B]. U; [|auto]. rewrite T in A. auto.
  - intros s0 e0 v0 TO H0 A E. destruct (Nat.eq_dec e0 e) as [->|N1].
    + rewrite upd_same in A. injection A as <-. cbn in E. subst s0. contradiction.
    + rewrite upd_other in A by exact N1. eauto.
  - intros t0 s0 e0 v0 D H0 A. destruct (Nat.eq_dec e0 e) as [->|N1].
    + rewrite upd_same in A. injection A as <-. exact (i_del0 t0 s0 e _ D He Hv).
    + rewrite upd_other in A by exact N1. eauto.
  - intros t'. U; auto.
Qed.

(** The RPC lock is given back, the session goes on. *)
Lemma inv_done x t s w w' : Inv x -> pcs x t = Freeing s false -> sess x s = Some w -> se_rpc w' = None -> Inv (set_pc (set_ses x s (Some w')) t Idle).
Proof.
  intros I T Hw R. pose proof (fun t' => alone x t t' s I) as AL. rewrite T in AL. specialize (fun t' => AL t' eq_refl).
  destruct I. constructor; cbn; auto.
  - intros e0 H0. destruct (i_ent0 e0 H0) as (F & v & u & H & S1 & D). split; [exact F|]. exists v.
    destruct (Nat.eq_dec (en_sid v) s) as [E|E]; [rewrite E, upd_same; exists w'|rewrite upd_other by exact E; exists u]; (split; [exact H|]; split; [auto|unfold added in *; cbn in *; congruence]).
  - intros t' s'. destruct (Nat.eq_dec t' t) as [->|N]; [rewrite upd_same; discriminate|rewrite (upd_other (pcs x)) by exact N]. intros H.
    destruct (i_about0 t' s' H) as (N1 & e1 & w1 & B1 & B2 & B3 & B4 & B5).
    assert (Ns : s' <> s) by (intros ->; apply N; symmetry; apply AL; exact H).
    split; [exact N1|]. exists e1, w1. rewrite (upd_other _ _ _ s') by exact Ns. auto.
  - intros t'. U; [|apply i_lock0]. rewrite <- (i_lock0 t), T. reflexivity.
  - intros s0 u t'. destruct (Nat.eq_dec s0 s) as [->|Ns]; [rewrite upd_same; intros [= <-] X; congruence|rewrite upd_other by exact Ns].
    intros S1 R1. destruct (i_rpc0 _ _ _ S1 R1) as [B1 B2]. U; [|auto]. rewrite T in B1. cbn in B1. congruence.
  - intros s' K N1. U; [discriminate|auto].
  - intros t'. U; auto.
Qed.

Lemma inv_new x : Inv x ->
  Inv (mkSt (ents x) (heap x) (upd (sess x) (known x) (Some (mkS true None))) (lock x) (fresh x) (S (known x)) (pcs x) (log x)).
Proof.
  intros I. destruct I.
  assert (K : forall s, added x s -> s <> known x) by (intros s A ->; destruct (i_known0 (known x) (le_n _)); auto).
  constructor; cbn; auto; unfold added, freed, told in *; cbn in *.
  - intros e H. destruct (i_ent0 e H) as (F & v & w & A & B & C). split; [exact F|]. exists v, w. rewrite upd_other by (apply K, C). auto.
  - intros t s H. destruct (i_about0 t s H) as (N1 & e & w & A & B & C & D & E). split; [exact N1|]. exists e, w.
    destruct (i_ent0 e A) as (_ & v & u & X & _ & Y). rewrite B in X. injection X as <-. rewrite upd_other by (apply K, Y). auto.
  - intros s w t. U; [intros [= <-] X; discriminate X|eauto].
  - intros s L N1. U; [discriminate|]. apply i_alive0; [lia|exact N1].
  - intros s L. apply i_known0. lia.
Qed.

Lemma inv_add x s : Inv x -> s < known x -> ~ added x s -> ~ freed x s ->
  Inv (add_log (mkSt (ents x ++ [fresh x]) (upd (heap x) (fresh x) (Some (mkE s SNone))) (sess x) (lock x) (S (fresh x)) (known x) (pcs x) (log x)) (NAdd s)).
Proof.
  intros I K NA NF. destruct I.
  assert (A : forall n, In n (log x ++ [NAdd s]) <-> In n (log x) \/ n = NAdd s).
  { intros n. rewrite in_app_iff. cbn. intuition congruence. }
  assert (FR : forall e, In e (ents x) -> e <> fresh x) by (intros e H ->; destruct (i_ent0 _ H); lia).
  assert (HS : forall e v, In e (ents x) -> heap x e = Some v -> en_sid v <> s).
  { intros e v H Hv E. destruct (i_ent0 e H) as (_ & v0 & w & B & _ & C). rewrite Hv in B. injection B as <-. rewrite E in C. contradiction. }
  constructor; cbn; auto; unfold added, freed, told in *; cbn in *.
  - apply (Permutation_NoDup (Permutation_cons_append _ _)). constructor; [|exact i_nodup0]. intros H. exact (FR _ H eq_refl).
  - intros e H. apply in_app_or in H. destruct H as [H|[<-|[]]].
    + destruct (i_ent0 e H) as (F & v & w & B & C & D). split; [lia|]. rewrite upd_other by (apply FR, H). exists v, w. rewrite A. auto.
    + split; [lia|]. rewrite upd_same. exists (mkE s SNone). cbn. destruct (sess x s) as [w|] eqn:E; [|exfalso; exact (i_alive0 s K NF E)].
      exists w. rewrite A. auto.
  - intros e1 e2 v1 v2 H1 H2. apply in_app_or in H1, H2. destruct H1 as [H1|[<-|[]]], H2 as [H2|[<-|[]]]; rewrite ?upd_same; try reflexivity.
    + rewrite !upd_other by (apply FR; assumption). eauto.
    + rewrite upd_other by (apply FR; assumption). intros X [= <-] E. exfalso. exact (HS _ _ H1 X E).
    + rewrite upd_other by (apply FR; assumption). intros [= <-] X E. exfalso. exact (HS _ _ H2 X (eq_sym E)).
  - intros t s0 H. destruct (i_about0 t s0 H) as (N1 & e & w & B & C & D & E & F). split.
    + intros [t0 Y]. apply A in Y. destruct Y as [Y|Y]; [eauto|discriminate Y].
    + exists e, w. rewrite upd_other by (apply FR, B). rewrite in_app_iff. auto 10.
  - intros s0 e v [t0 Y] H Hv E. apply A in Y. destruct Y as [Y|Y]; [|discriminate Y]. apply in_app_or in H. destruct H as [H|[<-|[]]].
    + rewrite upd_other in Hv by (apply FR, H). eapply i_told0; eauto.
    + rewrite upd_same in Hv. injection Hv as <-. cbn in E. subst s0. exfalso. apply NA. apply i_tadd0. left. eauto.
  - intros t0 s0 e v Y H Hv. apply A in Y. destruct Y as [Y|Y]; [|discriminate Y]. apply in_app_or in H. destruct H as [H|[<-|[]]].
    + rewrite upd_other in Hv by (apply FR, H). eauto.
    + rewrite upd_same in Hv. injection Hv as <-. cbn. intros <-. apply NA. apply i_tadd0. right. eauto.
  - intros s0 L N1. apply i_alive0; [exact L|]. intros Y. apply N1, A. now left.
  - intros s0 L. destruct (i_known0 s0 L) as [N1 N2]. rewrite !A. split; intros [Y|Y]; try discriminate Y; auto. injection Y as ->. lia.
  - intros s0 H. rewrite A. left. destruct H as [[t0 Y]|[t0 Y]]; apply A in Y; destruct Y as [Y|Y]; try discriminate Y; apply i_tadd0; eauto.
Qed.

Lemma inv_del x t s i e v : Inv x -> told x s -> nth_error (ents x) i = Some e -> heap x e = Some v -> en_sid v = s ->
  Inv (add_log (set_ents (set_ent x e None) (remove_at (ents x) i)) (NDel t s)).
Proof.
  intros I T N1 Hv E. pose proof (i_nodup _ I) as ND. pose proof (remove_in _ _ _ ND N1) as RI. destruct I.
  assert (A : forall n, In n (log x ++ [NDel t s]) <-> In n (log x) \/ n = NDel t s).
  { intros n. rewrite in_app_iff. cbn. intuition congruence. }
  assert (He : In e (ents x)) by (eapply nth_error_In; exact N1).
  constructor; cbn; auto; unfold added, freed, told in *; cbn in *.
  - eapply remove_nodup; eassumption.
  - intros e0 H. apply RI in H. destruct H as [H Ne]. destruct (i_ent0 e0 H) as (F & v0 & w & B & C & D). split; [exact F|].
    rewrite upd_other by exact Ne. exists v0, w. rewrite A. auto.
  - intros e1 e2 v1 v2 H1 H2. apply RI in H1, H2. destruct H1 as [H1 Ne1], H2 as [H2 Ne2]. rewrite !upd_other by assumption. eauto.
  - intros t' s' H. destruct (i_about0 t' s' H) as (TO & e1 & w & B & C & D & F & G). split.
    + intros [t0 Y]. apply A in Y. destruct Y as [Y|Y]; [eauto|discriminate Y].
    + assert (Ne : e1 <> e). { intros ->. rewrite C in Hv. injection Hv as <-. cbn in E. subst s'. exact (TO T). }
      exists e1, w. rewrite upd_other by exact Ne. rewrite RI. auto 10.
  - intros s0 e0 v0 [t0 Y] H. apply A in Y. destruct Y as [Y|Y]; [|discriminate Y]. apply RI in H. destruct H as [H Ne]. rewrite upd_other by exact Ne. eauto.
  - intros t0 s0 e0 v0 Y H. apply RI in H. destruct H as [H Ne]. rewrite upd_other by exact Ne. apply A in Y. destruct Y as [Y|Y]; [eauto|].
    injection Y as -> ->. intros Hv0 E0. apply Ne. apply (i_one0 e0 e v0 v); auto. congruence.
  - intros s0 L N2. apply i_alive0; [exact L|]. intros Y. apply N2, A. now left.
  - intros s0 L. destruct (i_known0 s0 L) as [N2 N3]. rewrite !A. split; intros [Y|Y]; try discriminate Y; auto.
  - intros s0 H. rewrite A. left. destruct H as [[t0 Y]|[t0 Y]]; apply A in Y; destruct Y as [Y|Y]; try discriminate Y; try solve [apply i_tadd0; eauto].
    injection Y as _ ->. apply i_tadd0. left. exact T.
Qed.

Lemma inv_free x t s : Inv x -> s < known x -> In (NDel t s) (log x) \/ ~ added x s -> Inv (add_log (set_ses x s None) (NFree s)).
Proof.
  intros I K O. destruct I.
  assert (A : forall n, In n (log x ++ [NFree s]) <-> In n (log x) \/ n = NFree s).
  { intros n. rewrite in_app_iff. cbn. intuition congruence. }
  assert (HS : forall e v, In e (ents x) -> heap x e = Some v -> en_sid v <> s).
  { intros e v H Hv. destruct O as [O|O]; [eauto|]. intros E. destruct (i_ent0 e H) as (_ & v0 & w & B & _ & C). rewrite Hv in B. injection B as <-. rewrite E in C. contradiction. }
  constructor; cbn; auto; unfold added, freed, told in *; cbn in *.
  - intros e H. destruct (i_ent0 e H) as (F & v & w & B & C & D). split; [exact F|]. exists v, w. rewrite upd_other by (eapply HS; eassumption). rewrite A. auto.
  - intros t' s' H. destruct (i_about0 t' s' H) as (TO & e1 & w & B & C & D & F & G). split.
    + intros [t0 Y]. apply A in Y. destruct Y as [Y|Y]; [eauto|discriminate Y].
    + exists e1, w. rewrite upd_other by (apply (HS e1 _ B C)). auto.
  - intros s0 w t'. U; [discriminate|eauto].
  - intros s0 e0 v0 [t0 Y]. apply A in Y. destruct Y as [Y|Y]; [eauto|discriminate Y].
  - intros t0 s0 e0 v0 Y. apply A in Y. destruct Y as [Y|Y]; [eauto|discriminate Y].
  - intros s0 L N1. rewrite A in N1. U; [tauto|]. apply i_alive0; tauto.
  - intros s0 L. destruct (i_known0 s0 L) as [N2 N3]. rewrite !A. split; intros [Y|Y]; try discriminate Y; auto. injection Y as ->. lia.
  - intros s0 H. rewrite A. left. destruct H as [[t0 Y]|[t0 Y]]; apply A in Y; destruct Y as [Y|Y]; try discriminate Y; apply i_tadd0; eauto.
Qed.

Lemma inv_ext a b f g l n k p q : Inv (mkSt a b f l n k p q) -> (forall s, g s = f s) -> Inv (mkSt a b g l n k p q).
Proof.
  intros I E. destruct I. cbn in *. constructor; cbn; auto; unfold added, freed, told in *; cbn in *.
  - intros e H. destruct (i_ent0 e H) as (F & v & w & A). split; [exact F|]. exists v, w. rewrite E. exact A.
  - intros t s H. destruct (i_about0 t s H) as (N1 & e & w & A). split; [exact N1|]. exists e, w. rewrite E. exact A.
  - intros s w t. rewrite E. apply i_rpc0.
  - intros s. rewrite E. apply i_alive0.
Qed.

(** ** All steps *)
Lemma step_inv x v : Inv x -> by_term x v -> match step x v with Wild _ => False | Not => True | Go y => Inv y end.
Proof.
  intros I R. destruct v; cbn [step by_term] in *; try contradiction; unfold at_idle, when_free.
  - apply inv_new, I.
  - destruct R as [K F]. destruct (sess x s) as [w|] eqn:S1; [|exact (i_alive _ I s K F S1)]. eapply inv_status; eauto.
  - destruct (pcs x t); auto. destruct (lock x) eqn:L; [exact Logic.I|]. destruct R as (K & A & F). rewrite <- L. apply inv_add; auto.
  - destruct (pcs x t) eqn:P; auto. destruct (lock x) eqn:L; [exact Logic.I|]. destruct (ents x); [exact I|].
    apply inv_quiet; auto; [now rewrite P|]. intros t'. pose proof (free_nobody x I L t'). destruct (Nat.eqb_spec t' t) as [->|N1]; [split; reflexivity|].
    rewrite H. split; congruence.
  - destruct (pcs x t) eqn:P; auto. unfold look_at. destruct (nth_error (ents x) i) as [e|] eqn:N1; [|exact Logic.I].
    assert (He : In e (ents x)) by (eapply nth_error_In; exact N1).
    destruct (i_ent _ I e He) as (_ & v & w & Hv & Hw & _). rewrite Hv, Hw.
    destruct r; [destruct (se_rpc w) eqn:RW; [exact I|]|exact I|apply inv_move; auto; now rewrite P].
    destruct v as [s state]. cbn [en_sid] in *. unfold poll_sess. cbn [en_sid en_state].
    destruct state; [destruct (se_run w); [destruct o|]|..];
    (match goal with |- Inv (set_pc (set_ses (set_ent x e (Some ?v')) s (Some ?w')) t ?p) => apply (inv_look x t e (mkE _ _) w v' w' p I P He Hv Hw RW) end);
    try reflexivity; try discriminate; cbn [en_state en_sid]; auto;
    first [left; split; reflexivity | right; repeat split; discriminate].
  - destruct (pcs x t) eqn:P; auto. apply inv_move; auto; now rewrite P.
  - destruct (pcs x t) eqn:P; auto.
    + destruct term as [s|].
      * destruct (i_about _ I t s) as (_ & e & w & _ & _ & Hw & RW & _); [now rewrite P|]. rewrite P in RW. cbn in RW.
        assert (X : Inv (add_log (set_pc (set_ses (set_lock x None) s (Some w)) t Idle) (NTerm t s))).
        { apply (inv_term x t s w None I); rewrite ?P; auto. }
        unfold add_log, set_pc, set_ses, set_lock in *. cbn in *. refine (inv_ext _ _ _ _ _ _ _ _ _ X _). intros s0. U; auto.
      * apply inv_quiet; auto; [now rewrite P|]. pose proof (one_in x t I) as OI. rewrite P in OI. intros t'.
        destruct (Nat.eqb_spec t' t) as [->|N1]; [split; discriminate|]. rewrite (OI eq_refl t' N1). split; discriminate.
    + apply inv_serve; auto.
  - destruct (pcs x t) eqn:P; auto. destruct (i_about _ I t s) as (_ & e1 & w & _ & _ & Hw & _); [now rewrite P|]. rewrite Hw. eapply inv_status; eauto.
  - destruct (pcs x t) eqn:P; auto. destruct (i_about _ I t s) as (_ & e1 & w & _ & Hv & Hw & _ & AE); [now rewrite P|]. rewrite P in AE, Hv. cbn in AE. subst e1.
    rewrite Hw, Hv. refine (inv_state x t e s _ (se_run w) I P Hv).
  - destruct (pcs x t) eqn:P; auto. destruct (i_about _ I t s) as (_ & e1 & w & _ & _ & Hw & _); [now rewrite P|]. rewrite Hw. destruct term.
    + pose proof (inv_term x t s w (lock x) I) as T. rewrite P in T. specialize (T eq_refl eq_refl Hw eq_refl (mkS (se_run w) None) eq_refl).
      destruct x. exact T.
    + apply inv_note. apply (inv_done x t s w); auto.
  - destruct (pcs x t); auto. destruct (lock x) eqn:L; [exact Logic.I|].
    destruct (find (heap x) (ents x) s 0) as [[i|]|] eqn:F; [|exact I|].
    + destruct (find_some _ _ _ _ _ F) as (e & v & N1 & Hv & E & _). rewrite Nat.sub_0_r in N1. rewrite N1. eapply inv_del; eauto. exists t. exact R.
    + exfalso. refine (find_alive _ _ _ _ _ F). intros e He Z. destruct (i_ent _ I e He) as (_ & v & w & Hv & _). congruence.
  - destruct (pcs x t); auto. destruct R as (K & F & O). destruct (sess x s) as [w|] eqn:S1; [|exact (i_alive _ I s K F S1)].
    destruct (se_rpc w); [exact Logic.I|]. eapply inv_free; eauto.
  - destruct (pcs x t); auto. destruct R as (K & F & O). destruct (sess x s) as [w|] eqn:S1; [|exact (i_alive _ I s K F S1)].
    destruct (se_rpc w); [|exact Logic.I]. eapply inv_free; eauto.
Qed.

Lemma run_inv l : forall x, Inv x -> follows by_term x l -> match run x l with Wild _ => False | Not => True | Go y => Inv y end.
Proof.
  induction l as [|v l IH]; intros x I F; [exact I|]. destruct F as [R F]. cbn [run]. pose proof (step_inv x v I R) as S1.
  destruct (step x v) as [b| |y]; [destruct S1|exact Logic.I|]. exact (IH y S1 F).
Qed.

(** ** C268: the documented way *)
Theorem c268_partial l : follows by_term init l -> forall b, run init l <> Wild b.
Proof. intros F b E. pose proof (run_inv l init inv_init F) as H. rewrite E in H. exact H. Qed.

(** The session that a thread is told about is alive until that thread frees it. *)
Theorem c268_told_alive l x t s : follows by_term init l -> run init l = Go x -> In (NTerm t s) (log x) -> ~ freed x s -> exists w, sess x s = Some w.
Proof.
  intros F E T NF. pose proof (run_inv l init inv_init F) as I. rewrite E in I.
  assert (K : s < known x).
  { destruct (Nat.lt_ge_cases s (known x)) as [K|K]; [exact K|]. destruct (i_known _ I s K) as [N1 _]. exfalso. apply N1. apply (i_tadd _ I). left. exists t. exact T. }
  destruct (sess x s) as [w|] eqn:S1; [eauto|]. exfalso. exact (i_alive _ I s K NF S1).
Qed.

(** ** C270: told once *)
Definition tells (s : sid) (n : note) : bool := match n with NTerm _ s' => Nat.eqb s' s | _ => false end.
Definition times (s : sid) (l : list note) : nat := length (filter (tells s) l).

Lemma times_none s l : ~ (exists t, In (NTerm t s) l) -> times s l = 0.
Proof.
  unfold times. induction l as [|n l IH]; intros H; [reflexivity|]. cbn [filter]. destruct (tells s n) eqn:T.
  - exfalso. destruct n; try discriminate T. cbn in T. apply Nat.eqb_eq in T. subst. apply H. eexists. left. reflexivity.
  - apply IH. intros [t X]. apply H. exists t. now right.
Qed.
Lemma times_app s l n : times s (l ++ [n]) = times s l + (if tells s n then 1 else 0).
Proof. unfold times. rewrite filter_app, app_length. cbn. destruct (tells s n); reflexivity. Qed.

Lemma step_once x v y : Inv x -> by_term x v -> step x v = Go y -> (forall s, times s (log x) <= 1) -> forall s, times s (log y) <= 1.
Proof.
  intros I R E H s. assert (G : log y = log x \/ (exists n, log y = log x ++ [n] /\ (forall s, tells s n = true -> ~ told x s))).
  { clear H s. destruct v; cbn [step by_term] in *; unfold at_idle, when_free, look_at in E;
    repeat match type of E with
           | match ?z with _ => _ end = Go _ => destruct z eqn:?; try discriminate E
           | (let '(_, _) := ?z in _) = Go _ => destruct z as [[? ?] ?]
           end; try contradiction; injection E as <-; cbn; auto;
    try (right; eexists; split; [reflexivity|]; intros sx T; try discriminate T).
    all: match type of T with context [if ?b then _ else _] => destruct b; [|discriminate T] | _ => idtac end.
    all: cbn in T; apply Nat.eqb_eq in T; subst; match goal with I : Inv ?z, H : pcs ?z ?u = _ |- _ => apply (i_about _ I u); now rewrite H end. }
  destruct G as [->|(n & -> & U)]; [apply H|]. rewrite times_app. destruct (tells s n) eqn:T; [|specialize (H s); lia].
  rewrite (times_none s (log x)); [lia|]. exact (U s T).
Qed.

Lemma run_once l : forall x y, Inv x -> follows by_term x l -> run x l = Go y -> (forall s, times s (log x) <= 1) -> forall s, times s (log y) <= 1.
Proof.
  induction l as [|v l IH]; intros x y I F E H; [injection E as <-; exact H|]. destruct F as [R F]. cbn [run] in E. pose proof (step_inv x v I R) as S1.
  destruct (step x v) as [b| |z] eqn:Z; try discriminate E. apply (IH z y S1 F E). apply (step_once x v z); auto.
Qed.

(** NC_PSPOLL_SESSION_TERM is returned at most once for a session, to one of the threads. *)
Theorem c270_once l x s : follows by_term init l -> run init l = Go x -> times s (log x) <= 1.
Proof. intros F E. apply (run_once l init x inv_init F E). intros s0. cbn. lia. Qed.
Theorem c270_one_thread l x s t1 t2 : follows by_term init l -> run init l = Go x -> In (NTerm t1 s) (log x) -> In (NTerm t2 s) (log x) -> t1 = t2.
Proof.
  intros F E A B. pose proof (c270_once l x s F E) as O. unfold times in O.
  assert (X : forall t, In (NTerm t s) (log x) -> In (NTerm t s) (filter (tells s) (log x))).
  { intros t H. apply filter_In. split; [exact H|]. cbn. apply Nat.eqb_refl. }
  apply X in A, B. destruct (filter (tells s) (log x)) as [|n [|m r]]; [destruct A|destruct A as [->|[]], B as [B|[]]; congruence|cbn in O; lia].
Qed.

(** Nobody handles an RPC of a session that it was said to have terminated, nor of a freed one. *)
Theorem c270_quiet l x s t : follows by_term init l -> run init l = Go x -> serves x t s -> ~ told x s /\ ~ (sess x s = None).
Proof.
  intros F E [e P]. pose proof (run_inv l init inv_init F) as I. rewrite E in I.
  destruct (i_about _ I t s) as (N1 & e1 & w & _ & _ & Hw & _); [now rewrite P|]. split; [exact N1|congruence].
Qed.

(** ** C269: one thread per session, whatever the application does *)
Definition busy (x : st) (t : tid) (s : sid) : Prop := subj (pcs x t) = Some s /\ busyb (pcs x t) = true.
Record Mut (x : st) : Prop := {
  m_known : forall s w, sess x s = Some w -> s < known x;
  m_busy : forall t s, busy x t s -> s < known x /\ forall w, sess x s = Some w -> se_rpc w = Some t;
  m_one : forall t1 t2 s, busy x t1 s -> busy x t2 s -> t1 = t2 }.

Lemma mut_init : Mut init.
Proof. constructor; cbn; intros; try discriminate; destruct H; discriminate. Qed.

(** Steps that leave the threads at work as they are, and sessions with their RPC locks or freed. *)
Lemma mut_same x y : Mut x -> (forall t s, busy y t s -> busy x t s) -> known y = known x ->
  (forall s w, sess y s = Some w -> exists w0, sess x s = Some w0 /\ se_rpc w0 = se_rpc w) -> Mut y.
Proof.
  intros M B K H. destruct M. constructor.
  - intros s w S1. rewrite K. destruct (H s w S1) as (w0 & S2 & _). eauto.
  - intros t s T. destruct (m_busy0 t s (B _ _ T)) as [L R]. rewrite K. split; [exact L|]. intros w S1. destruct (H s w S1) as (w0 & S2 & E). rewrite <- E. auto.
  - intros t1 t2 s T1 T2. eapply m_one0; eauto.
Qed.
Lemma busy_upd x t p t' s l : busy (set_pc (set_lock x l) t p) t' s -> (subj p = Some s -> busyb p = true -> busy x t s) -> busy x t' s.
Proof.
  unfold busy. cbn. destruct (Nat.eq_dec t' t) as [->|N1]; [rewrite upd_same|rewrite upd_other by exact N1; auto]. intros [A B] H. apply H; auto.
Qed.
Lemma busy_pc x t p t' s : busy (set_pc x t p) t' s -> (subj p = Some s -> busyb p = true -> busy x t s) -> busy x t' s.
Proof.
  unfold busy. cbn. destruct (Nat.eq_dec t' t) as [->|N1]; [rewrite upd_same|rewrite upd_other by exact N1; auto]. intros [A B] H. apply H; auto.
Qed.
Lemma mut_pc x t p : Mut x -> (forall s, subj p = Some s -> busyb p = true -> busy x t s) -> Mut (set_pc x t p).
Proof. intros M H. apply (mut_same x); auto; cbn; eauto. intros t' s B. eapply busy_pc; eauto. Qed.
Lemma mut_frame x y : Mut x -> pcs y = pcs x -> sess y = sess x -> known y = known x -> Mut y.
Proof.
  intros M P S1 K. apply (mut_same x); auto.
  - intros t s. unfold busy. now rewrite P.
  - intros s w. rewrite S1. eauto.
Qed.
Lemma mut_ses x s w w' : Mut x -> sess x s = Some w -> se_rpc w' = se_rpc w -> Mut (set_ses x s (Some w')).
Proof. intros M S1 R. apply (mut_same x); auto. cbn. intros s0 u. U; [intros [= <-]; eauto|eauto]. Qed.
Lemma mut_gone x s : Mut x -> Mut (set_ses x s None).
Proof. intros M. apply (mut_same x); auto. cbn. intros s0 u. U; [discriminate|eauto]. Qed.

(** The lock is taken by one thread when nobody has it. *)
Lemma mut_take x t s w w' p : Mut x -> sess x s = Some w -> se_rpc w = None -> se_rpc w' = Some t -> subj p = Some s -> busyb p = true ->
  (forall s', ~ busy x t s') -> Mut (set_pc (set_ses x s (Some w')) t p).
Proof.
  intros M S1 R R' P B Q.
  assert (F : forall t', ~ busy x t' s) by (intros t' X; destruct (m_busy _ M _ _ X) as [_ Y]; rewrite (Y w S1) in R; discriminate).
  assert (G : forall t' s', busy (set_pc (set_ses x s (Some w')) t p) t' s' -> (t' = t /\ s' = s) \/ (t' <> t /\ s' <> s /\ busy x t' s')).
  { intros t' s'. unfold busy. cbn. destruct (Nat.eq_dec t' t) as [->|N1].
    - rewrite upd_same, P. intros [[= <-] _]. auto.
    - rewrite upd_other by exact N1. intros X. right. split; [exact N1|]. split; [|exact X]. intros ->. exact (F t' X). }
  destruct M. constructor; cbn.
  - intros s0 w0. U; eauto.
  - intros t' s' X. destruct (G t' s' X) as [[-> ->]|(N1 & N2 & Y)].
    + split; [eauto|]. rewrite upd_same. intros w0 [= <-]. exact R'.
    + destruct (m_busy0 _ _ Y) as [L Z]. split; [exact L|]. rewrite upd_other by exact N2. exact Z.
  - intros t1 t2 s0 X Y. destruct (G _ _ X) as [[-> ->]|(N1 & N2 & X')], (G _ _ Y) as [[-> E]|(N3 & N4 & Y')]; try congruence. eauto.
Qed.
(** The lock is given back. *)
Lemma mut_give x t s w w' p : Mut x -> busy x t s -> sess x s = Some w -> busyb p = false -> Mut (set_pc (set_ses x s (Some w')) t p).
Proof.
  intros M T S1 P. assert (G : forall t' s', busy (set_pc (set_ses x s (Some w')) t p) t' s' -> t' <> t /\ s' <> s /\ busy x t' s').
  { intros t' s'. unfold busy. cbn. destruct (Nat.eq_dec t' t) as [->|N1].
    - rewrite upd_same, P. intros [_ X]. discriminate X.
    - rewrite upd_other by exact N1. intros X. split; [exact N1|]. split; [|exact X]. intros ->. apply N1. exact (m_one _ M t' t s X T). }
  destruct M. constructor; cbn.
  - intros s0 w0. U; eauto.
  - intros t' s' X. destruct (G t' s' X) as (N1 & N2 & Y). destruct (m_busy0 _ _ Y) as [L Z]. split; [exact L|]. rewrite upd_other by exact N2. exact Z.
  - intros t1 t2 s0 X Y. destruct (G _ _ X) as (_ & _ & X'), (G _ _ Y) as (_ & _ & Y'). eauto.
Qed.

Lemma step_mut x v y : Mut x -> step x v = Go y -> Mut y.
Proof.
  intros M E. destruct v; cbn [step] in E; unfold at_idle, when_free in E.
  - injection E as <-. destruct M. constructor; cbn.
    + intros s w. U; [lia|]. intros S1. specialize (m_known0 _ _ S1). lia.
    + intros t s T. destruct (m_busy0 t s T) as [L R]. split; [lia|]. intros w. U; [lia|auto].
    + exact m_one0.
  - destruct (sess x s) as [w|] eqn:S1; [|discriminate]. injection E as <-. eapply mut_ses; eauto.
  - destruct (pcs x t); try discriminate. destruct (lock x); [discriminate|]. injection E as <-. eapply mut_frame; eauto.
  - destruct (pcs x t); try discriminate. destruct (lock x); [discriminate|]. destruct (ents x); injection E as <-; [exact M|]. apply mut_pc; [|discriminate].
    eapply mut_frame; eauto.
  - destruct (pcs x t) eqn:P; try discriminate. unfold look_at in E. destruct (nth_error _ _) as [e|]; [|discriminate]. destruct (heap x e) as [v|]; [|discriminate].
    destruct (sess x (en_sid v)) as [w|] eqn:S1; [|discriminate].
    destruct r; [destruct (se_rpc w) eqn:RW; [injection E as <-; exact M|]|injection E as <-; exact M|injection E as <-; apply mut_pc; [exact M|discriminate]].
    assert (M' : forall v', Mut (set_ent x e v')) by (intros v'; eapply mut_frame; eauto).
    unfold poll_sess in E. destruct (en_state v); [destruct (se_run w); [destruct o|]|..]; injection E as <-;
    try (apply mut_pc; [|discriminate]; eapply mut_ses; [apply M'|exact S1|symmetry; exact RW]).
    eapply mut_take; try reflexivity; [apply M'|exact S1|exact RW|]. intros s'. unfold busy. cbn. rewrite P. intros [X _]. discriminate X.
  - destruct (pcs x t); try discriminate. injection E as <-. apply mut_pc; [exact M|discriminate].
  - destruct (pcs x t) eqn:P; try discriminate.
    + assert (G : Mut (set_pc (set_lock x None) t Idle)) by (apply mut_pc; [eapply mut_frame; eauto|discriminate]).
      destruct term; injection E as <-; [eapply mut_frame; [exact G|reflexivity..]|exact G].
    + injection E as <-. apply mut_pc; [eapply mut_frame; eauto|]. intros s0 [= <-] _. unfold busy. cbn. rewrite P. auto.
  - destruct (pcs x t); try discriminate. destruct (sess x s) as [w|] eqn:S1; [|discriminate]. injection E as <-. eapply mut_ses; eauto.
  - destruct (pcs x t) eqn:P; try discriminate. destruct (sess x s) as [w|]; [|discriminate]. destruct (heap x e) as [v|]; [|discriminate]. injection E as <-.
    apply mut_pc; [eapply mut_frame; eauto|]. intros s0 [= <-] _. unfold busy. cbn. rewrite P. auto.
  - destruct (pcs x t) eqn:P; try discriminate. destruct (sess x s) as [w|] eqn:S1; [|discriminate]. injection E as <-.
    eapply (mut_frame (set_pc (set_ses x s (Some (mkS (se_run w) None))) t Idle)); [|reflexivity..]. eapply mut_give; eauto. unfold busy. rewrite P. auto.
  - destruct (pcs x t); try discriminate. destruct (lock x); [discriminate|]. destruct (find _ _ _ _) as [[i|]|]; [|injection E as <-; exact M|discriminate].
    destruct (nth_error _ _); [|discriminate]. injection E as <-. eapply mut_frame; eauto.
  - destruct (pcs x t); try discriminate. destruct (sess x s) as [w|]; [|discriminate]. destruct (se_rpc w); [discriminate|]. injection E as <-.
    eapply (mut_frame (set_ses x s None)); [|reflexivity..]. apply mut_gone, M.
  - destruct (pcs x t); try discriminate. destruct (sess x s) as [w|]; [|discriminate]. destruct (se_rpc w); [|discriminate]. injection E as <-.
    eapply (mut_frame (set_ses x s None)); [|reflexivity..]. apply mut_gone, M.
  - destruct (pcs x t); try discriminate. destruct (lock x); [discriminate|]. injection E as <-. apply mut_pc; [|discriminate]. eapply mut_frame; eauto.
  - destruct (pcs x t); try discriminate. destruct (nth_error _ _) as [e|]; [|discriminate]. destruct (heap x e) as [v|]; [|discriminate].
    destruct (sess x _) as [w|]; [|discriminate]. destruct (se_run w); [discriminate|]. injection E as <-. apply mut_pc; [|discriminate]. eapply mut_frame; eauto.
  - destruct (pcs x t); try discriminate. destruct (sess x s) as [w|]; [|discriminate].
    assert (G : Mut (add_log (set_pc (set_ses x s None) t Clearing) (NFree s))).
    { eapply (mut_frame (set_pc (set_ses x s None) t Clearing)); [|reflexivity..]. apply mut_pc; [|discriminate]. apply mut_gone, M. }
    destruct (se_rpc w), late; try discriminate E; injection E as <-; exact G.
  - destruct (pcs x t); try discriminate. injection E as <-. apply mut_pc; [|discriminate]. eapply mut_frame; eauto.
Qed.

Theorem c269_one_thread l x t1 t2 s : run init l = Go x -> serves x t1 s -> serves x t2 s -> t1 = t2.
Proof.
  intros E [e1 A] [e2 B]. assert (M : Mut x).
  { revert E. generalize mut_init. generalize init. induction l as [|v l IH]; intros y M; cbn [run]; [intros [= <-]; exact M|].
    destruct (step y v) as [b| |z] eqn:S1; try discriminate. apply IH. eapply step_mut; eauto. }
  apply (m_one _ M t1 t2 s); unfold busy; rewrite ?A, ?B; auto.
Qed.

(** ** C271: a freed session is not used, if the lock for RPCs is got in time *)
Definition inps2 (p : pc) : bool := match p with Looking | Leaving _ | Found _ _ | Clearing | ClearWait _ => true | _ => false end.
Definition deleted (x : st) (s : sid) : Prop := exists t, In (NDel t s) (log x).
Definition listed (x : st) (e : eid) (s : sid) : Prop := In e (ents x) /\ exists v, heap x e = Some v /\ en_sid v = s.
Record Saf (x : st) : Prop := {
  s_fresh : forall e, In e (ents x) -> e < fresh x;
  s_ent : forall e s, listed x e s -> sess x s <> None /\ added x s;
  s_one : forall e1 e2 s, listed x e1 s -> listed x e2 s -> e1 = e2;
  s_busy : forall t s, busy x t s -> exists w, sess x s = Some w /\ se_rpc w = Some t;
  s_lock : forall t, inps2 (pcs x t) = true -> lock x = Some t;
  s_wait : forall t s, pcs x t = ClearWait s -> sess x s <> None /\ added x s /\ ~ deleted x s /\ forall e, ~ listed x e s;
  s_del : forall s e, deleted x s -> ~ listed x e s;
  s_alive : forall s, s < known x -> ~ freed x s -> sess x s <> None;
  s_known : forall s, added x s \/ freed x s \/ sess x s <> None -> s < known x;
  s_deladd : forall s, deleted x s -> added x s }.
Lemma saf_init : Saf init.
Proof.
  constructor; cbn; try contradiction; try discriminate; try lia.
  - intros e s [[] _].
  - intros e1 e2 s [[] _].
  - intros t s [H _]. discriminate H.
  - intros s e _ [[] _].
  - intros s [[]|[[]|H]]; now elim H.
  - intros s [t []].
Qed.
Lemma saf_mod x y : Saf x -> (forall e s, listed y e s -> listed x e s) -> (forall e, In e (ents y) -> In e (ents x)) -> fresh y = fresh x -> known y = known x ->
  (forall s, added y s <-> added x s) -> (forall s, freed y s <-> freed x s) -> (forall s, deleted y s <-> deleted x s) ->
  (forall s, sess y s = None <-> sess x s = None) -> (forall t s, busy y t s -> exists w, sess y s = Some w /\ se_rpc w = Some t) ->
  (forall t s, pcs y t = ClearWait s -> pcs x t = ClearWait s) -> (forall t, inps2 (pcs y t) = true -> lock y = Some t) -> Saf y.
Proof.
  intros X L0 I F K A Fr D Se B W Lk. destruct X. constructor; auto.
  - intros e H. rewrite F. auto.
  - intros e s H. destruct (s_ent0 e s (L0 _ _ H)). rewrite Se, A. auto.
  - intros e1 e2 s H1 H2. eapply s_one0; eauto.
  - intros t s H. destruct (s_wait0 t s (W _ _ H)) as (P & Q & R & S1). rewrite Se, A, D. split; [exact P|]. split; [exact Q|]. split; [exact R|]. intros e Z. apply (S1 e). auto.
  - intros s e H Z. rewrite D in H. apply (s_del0 s e H). auto.
  - intros s H. rewrite K in H. rewrite Fr, Se. auto.
  - intros s. rewrite K, A, Fr, Se. auto.
  - intros s. rewrite D, A. auto.
Qed.
(** Only the place of a thread changes. *)
Lemma saf_pc x y t p : Saf x -> y = set_pc x t p -> busyb p = false -> (forall s, p <> ClearWait s) -> (inps2 p = true -> lock x = Some t) -> Saf y.
Proof.
  intros X -> B W L. apply (saf_mod x); auto; try (intros; reflexivity).
  - intros t' s [P Q]. cbn in *. destruct (Nat.eq_dec t' t) as [->|N1]; [rewrite upd_same in Q; congruence|rewrite upd_other in * by exact N1]. apply (s_busy x X). now split.
  - intros t' s. cbn. destruct (Nat.eq_dec t' t) as [->|N1]; [rewrite upd_same; intros E; elim (W _ E)|rewrite upd_other by exact N1; auto].
  - intros t'. cbn. destruct (Nat.eq_dec t' t) as [->|N1]; [rewrite upd_same; exact L|rewrite upd_other by exact N1; apply (s_lock x X)].
Qed.
(** A thread that does not use the structure takes its lock, and one that does gives it back. *)
Lemma saf_take x t p : Saf x -> lock x = None -> busyb p = false -> (forall s, p <> ClearWait s) -> Saf (set_pc (set_lock x (Some t)) t p).
Proof.
  intros X L B W. assert (N0 : forall t', inps2 (pcs x t') = true -> False) by (intros t' H; rewrite (s_lock x X t' H) in L; discriminate).
  apply (saf_mod x); auto; try (intros; reflexivity).
  - intros t' s [P Q]. cbn in *. destruct (Nat.eq_dec t' t) as [->|N1]; [rewrite upd_same in Q; congruence|rewrite upd_other in * by exact N1]. apply (s_busy x X). now split.
  - intros t' s. cbn. destruct (Nat.eq_dec t' t) as [->|N1]; [rewrite upd_same; intros E; elim (W _ E)|rewrite upd_other by exact N1; auto].
  - intros t'. cbn. destruct (Nat.eq_dec t' t) as [->|N1]; [auto|rewrite upd_other by exact N1; intros H; elim (N0 _ H)].
Qed.
Lemma saf_leave x t p : Saf x -> inps2 (pcs x t) = true -> inps2 p = false -> (forall s, subj p = Some s -> busyb p = true -> busy x t s) -> Saf (set_pc (set_lock x None) t p).
Proof.
  intros X L N0 B. apply (saf_mod x); auto; try (intros; reflexivity).
  - intros t' s H. cbn [set_pc set_lock sess]. apply (s_busy x X). eapply busy_upd; eauto.
  - intros t' s. cbn. destruct (Nat.eq_dec t' t) as [->|N1]; [rewrite upd_same; intros ->; discriminate N0|rewrite upd_other by exact N1; auto].
  - intros t'. cbn. destruct (Nat.eq_dec t' t) as [->|N1]; [rewrite upd_same; congruence|rewrite upd_other by exact N1]. intros H.
    pose proof (s_lock x X t' H). pose proof (s_lock x X t L). congruence.
Qed.
Lemma saf_note x n : Saf x -> (forall s, n <> NAdd s /\ n <> NFree s /\ forall t, n <> NDel t s) -> Saf (add_log x n).
Proof.
  intros X H. assert (Q : forall m, m <> n -> In m (log (add_log x n)) <-> In m (log x)).
  { intros m Q. cbn. rewrite in_app_iff. cbn. split; [intros [P|[P|[]]]; congruence|auto]. }
  apply (saf_mod x); auto; try (intros; reflexivity).
  - intros s. apply Q. destruct (H s) as (A & B & C). congruence.
  - intros s. apply Q. destruct (H s) as (A & B & C). congruence.
  - intros s. destruct (H s) as (A & B & C). split; intros [t Z]; exists t; apply (Q (NDel t s)) in Z || apply (Q (NDel t s)); auto; intros <-; now apply (C t).
  - apply (s_busy x X).
  - apply (s_lock x X).
Qed.
(** An entry keeps its session, and a session stays with its lock. *)
Lemma saf_entry x e v v' : Saf x -> heap x e = Some v -> en_sid v' = en_sid v -> Saf (set_ent x e (Some v')).
Proof.
  intros X H E. apply (saf_mod x); auto; try (intros; reflexivity).
  - intros e0 s [I (u & P & Q)]. split; [exact I|]. cbn in P. destruct (Nat.eq_dec e0 e) as [->|N1]; [rewrite upd_same in P; injection P as <-; exists v; split; congruence|].
    rewrite upd_other in P by exact N1. eauto.
  - apply (s_busy x X).
  - apply (s_lock x X).
Qed.
Lemma saf_ses x s w w' : Saf x -> sess x s = Some w -> se_rpc w' = se_rpc w -> Saf (set_ses x s (Some w')).
Proof.
  intros X H E. apply (saf_mod x); auto; try (intros; reflexivity).
  - intros s0. cbn. destruct (Nat.eq_dec s0 s) as [->|N1]; [rewrite upd_same, H; split; discriminate|rewrite upd_other by exact N1; reflexivity].
  - intros t s0 B. destruct (s_busy x X t s0 B) as (u & P & Q). cbn. destruct (Nat.eq_dec s0 s) as [->|N1]; [rewrite upd_same; exists w'; split; congruence|rewrite upd_other by exact N1; eauto].
  - apply (s_lock x X).
Qed.
(** The lock for RPCs is taken, or given back by the one that has it. *)
Lemma saf_rpc x t s w w' p : Saf x -> sess x s = Some w -> (forall t', t' <> t -> ~ busy x t' s) ->
  (subj p = Some s /\ busyb p = true /\ se_rpc w' = Some t \/ busyb p = false) -> (forall s', p <> ClearWait s') ->
  (inps2 p = true -> inps2 (pcs x t) = true) -> Saf (set_pc (set_ses x s (Some w')) t p).
Proof.
  intros X H N0 P W L. apply (saf_mod x); auto; try (intros; reflexivity).
  - intros s0. cbn. destruct (Nat.eq_dec s0 s) as [->|N1]; [rewrite upd_same, H; split; discriminate|rewrite upd_other by exact N1; reflexivity].
  - intros t' s0 [A B]. cbn in *. destruct (Nat.eq_dec t' t) as [->|N1].
    + rewrite upd_same in A, B. destruct P as [(P1 & P2 & P3)|P]; [|congruence]. assert (s0 = s) as -> by congruence. rewrite upd_same. eauto.
    + rewrite upd_other in A, B by exact N1. destruct (s_busy x X t' s0 (conj A B)) as (u & P1 & P2).
      destruct (Nat.eq_dec s0 s) as [->|N2]; [elim (N0 t' N1); split; assumption|rewrite upd_other by exact N2; eauto].
  - intros t' s0. cbn. destruct (Nat.eq_dec t' t) as [->|N1]; [rewrite upd_same; intros E; elim (W _ E)|rewrite upd_other by exact N1; auto].
  - intros t'. cbn. destruct (Nat.eq_dec t' t) as [->|N1]; [rewrite upd_same; intros Z; apply (s_lock x X); auto|rewrite upd_other by exact N1; apply (s_lock x X)].
Qed.
(** A session that nobody can reach is freed. *)
Lemma saf_free x s : Saf x -> (forall e, ~ listed x e s) -> (forall t, ~ busy x t s) -> (forall t, pcs x t <> ClearWait s) -> s < known x ->
  Saf (add_log (set_ses x s None) (NFree s)).
Proof.
  intros X L B W K. assert (Q : forall m, m <> NFree s -> In m (log x ++ [NFree s]) -> In m (log x)).
  { intros m Q Z. rewrite in_app_iff in Z. destruct Z as [Z|[Z|[]]]; congruence. }
  assert (D : forall s', deleted (add_log (set_ses x s None) (NFree s)) s' -> deleted x s') by (intros s' [t Z]; exists t; apply (Q (NDel t s')); [discriminate|exact Z]).
  assert (A : forall s', added x s' -> added (add_log (set_ses x s None) (NFree s)) s') by (intros s' Z; unfold added; cbn; rewrite in_app_iff; auto).
  destruct X. constructor; auto.
  - intros e s0 H. destruct (s_ent0 e s0 H) as [P R]. split; [|auto]. cbn. destruct (Nat.eq_dec s0 s) as [->|N1]; [elim (L e H)|rewrite upd_other by exact N1; exact P].
  - intros t s0 H. destruct (s_busy0 t s0 H) as (w & P & R). cbn. destruct (Nat.eq_dec s0 s) as [->|N1]; [elim (B t H)|rewrite upd_other by exact N1; eauto].
  - intros t s0 H. destruct (s_wait0 t s0 H) as (P & R & T & V). split; [|split; [auto|split; [intros Z; apply T; auto|exact V]]].
    cbn. destruct (Nat.eq_dec s0 s) as [->|N1]; [elim (W t H)|rewrite upd_other by exact N1; exact P].
  - intros s0 e H. apply s_del0. auto.
  - intros s0 H F. cbn. destruct (Nat.eq_dec s0 s) as [->|N1]; [elim F; unfold freed; cbn; rewrite in_app_iff; cbn; auto|rewrite upd_other by exact N1].
    apply s_alive0; [exact H|]. intros Z. apply F. unfold freed. cbn. rewrite in_app_iff. auto.
  - intros s0 H. cbn. destruct (Nat.eq_dec s0 s) as [->|N1]; [exact K|]. apply s_known0. destruct H as [H|[H|H]].
    + left. apply (Q (NAdd s0)); [discriminate|exact H].
    + right. left. apply (Q (NFree s0)); [congruence|exact H].
    + right. right. cbn in H. rewrite upd_other in H by exact N1. exact H.
Qed.
(** An entry is removed and freed. *)
Lemma removed_listed x e i s0 e0 : nth_error (ents x) i = Some e -> listed (set_ents (set_ent x e None) (remove_at (ents x) i)) e0 s0 -> listed x e0 s0 /\ e0 <> e.
Proof.
  intros H [I (v & P & Q)]. cbn in *. destruct (Nat.eq_dec e0 e) as [->|N1]; [rewrite upd_same in P; discriminate|]. rewrite upd_other in P by exact N1.
  split; [|exact N1]. split; [|eauto]. apply (Permutation_in _ (Permutation_sym (remove_perm _ _ _ H))). now right.
Qed.
Lemma saf_remove x e i : Saf x -> nth_error (ents x) i = Some e -> Saf (set_ents (set_ent x e None) (remove_at (ents x) i)).
Proof.
  intros X H. apply (saf_mod x); auto; try (intros; reflexivity).
  - intros e0 s0 Z. eapply removed_listed; eauto.
  - intros e0 Z. cbn in Z. apply (Permutation_in _ (Permutation_sym (remove_perm _ _ _ H))). now right.
  - apply (s_busy x X).
  - apply (s_lock x X).
Qed.
Definition is_ses (o : out) : Prop := match o with Wild BSes => True | _ => False end.
Lemma step_saf x v : Saf x -> by_anyone false x v -> match step x v with Wild BSes => False | Go y => Saf y | _ => True end.
Proof.
  intros X R. destruct v; cbn [step by_anyone] in *; unfold at_idle, when_free.
  - destruct X. constructor; auto; cbn.
    + intros e s H. destruct (s_ent0 e s H) as [P Q]. split; [|exact Q]. U; [discriminate|exact P].
    + intros t s H. destruct (s_busy0 t s H) as (w & P & Q). assert (s < known x) by (apply s_known0; right; right; congruence). U; [lia|eauto].
    + intros t s H. destruct (s_wait0 t s H) as (P & Q). split; [|exact Q]. U; [discriminate|exact P].
    + intros s H F. U; [discriminate|]. apply s_alive0; [lia|exact F].
    + intros s H. destruct (Nat.eq_dec s (known x)) as [->|N1]; [lia|]. rewrite upd_other in H by exact N1. specialize (s_known0 s H). lia.
  - destruct R as [K F]. destruct (sess x s) as [w|] eqn:S1; [|exact (s_alive x X s K F S1)]. eapply saf_ses; eauto.
  - destruct (pcs x t); auto. destruct (lock x) eqn:LK; [exact Logic.I|]. destruct R as (K & A & F).
    set (y := add_log _ _).
    assert (G : forall e s0, listed y e s0 -> (e = fresh x /\ s0 = s) \/ (e <> fresh x /\ s0 <> s /\ listed x e s0)).
    { intros e s0 [I (v & P & Q)]. cbn in I, P. destruct (Nat.eq_dec e (fresh x)) as [->|N1]; [rewrite upd_same in P; injection P as <-; left; split; [reflexivity|symmetry; exact Q]|].
      rewrite upd_other in P by exact N1. right. split; [exact N1|]. rewrite in_app_iff in I. destruct I as [I|[I|[]]]; [|congruence].
      assert (Z : listed x e s0) by (split; eauto). split; [|exact Z]. intros ->. destruct (s_ent x X e s Z). contradiction. }
    assert (Q : forall m, m <> NAdd s -> In m (log x ++ [NAdd s]) -> In m (log x)).
    { intros m Q Z. rewrite in_app_iff in Z. destruct Z as [Z|[Z|[]]]; congruence. }
    assert (D : forall s', deleted y s' -> deleted x s') by (intros s' [t' Z]; exists t'; apply (Q (NDel t' s')); [discriminate|exact Z]).
    assert (A2 : forall s', added x s' -> added y s') by (intros s' Z; unfold added; cbn; rewrite in_app_iff; auto).
    assert (A3 : added y s) by (unfold added; cbn; rewrite in_app_iff; cbn; auto).
    destruct X. constructor; auto.
    + intros e I. cbn in *. rewrite in_app_iff in I. destruct I as [I|[I|[]]]; [specialize (s_fresh0 e I)|]; lia.
    + intros e s0 H. destruct (G _ _ H) as [[-> ->]|(N1 & N2 & Z)]; [split; [apply s_alive0; auto|exact A3]|]. destruct (s_ent0 _ _ Z). split; auto.
    + intros e1 e2 s0 H1 H2. destruct (G _ _ H1) as [[-> ->]|(N1 & N2 & Z)], (G _ _ H2) as [[-> E]|(N3 & N4 & Z')]; try congruence. eauto.
    + intros t' H. cbn in *. rewrite <- (s_lock0 t' H). symmetry. exact LK.
    + intros t' s0 H. destruct (s_wait0 t' s0 H) as (P & Z & T & V). split; [exact P|]. split; [auto|]. split; [auto|]. intros e L.
      destruct (G _ _ L) as [[-> ->]|(N1 & N2 & Z')]; [contradiction|exact (V e Z')].
    + intros s0 e H L. destruct (G _ _ L) as [[-> ->]|(N1 & N2 & Z')]; [apply A; auto|exact (s_del0 s0 e (D _ H) Z')].
    + intros s0 H F0. apply s_alive0; [exact H|]. intros Z. apply F0. unfold freed. cbn. rewrite in_app_iff. auto.
    + intros s0 [H|[H|H]]; cbn.
      * destruct (Nat.eq_dec s0 s) as [->|N1]; [exact K|]. apply s_known0. left. apply (Q (NAdd s0)); [congruence|exact H].
      * apply s_known0. right. left. apply (Q (NFree s0)); [congruence|exact H].
      * apply s_known0. auto.
  - destruct (pcs x t); auto. destruct (lock x) eqn:L; [exact Logic.I|]. destruct (ents x) eqn:E; [exact X|]. apply saf_take; auto. discriminate.
  - destruct (pcs x t) eqn:P; auto. unfold look_at. destruct (nth_error _ _) as [e|] eqn:NE; [|exact Logic.I]. destruct (heap x e) as [v|] eqn:HE; [|exact Logic.I].
    assert (L : listed x e (en_sid v)) by (split; [eapply nth_error_In; eauto|eauto]).
    destruct (sess x (en_sid v)) as [w|] eqn:S1; [|destruct (s_ent x X _ _ L); contradiction].
    assert (LK : lock x = Some t) by (apply (s_lock x X); now rewrite P).
    destruct r; [destruct (se_rpc w) eqn:RW; [exact X|]|exact X|eapply saf_pc; eauto; discriminate].
    assert (B : forall t', ~ busy x t' (en_sid v)) by (intros t' B; destruct (s_busy x X _ _ B) as (u & U1 & U2); congruence).
    unfold poll_sess. destruct (en_state v); [destruct (se_run w); [destruct o|]|..];
      (eapply saf_rpc; [eapply saf_entry; [exact X|exact HE|reflexivity]|exact S1|intros t' _; exact (B t')| |discriminate|cbn; now rewrite P]);
      try (right; reflexivity); left; repeat split; reflexivity.
  - destruct (pcs x t) eqn:P; auto. eapply saf_pc; eauto; try discriminate. intros _. apply (s_lock x X). now rewrite P.
  - destruct (pcs x t) eqn:P; auto.
    + assert (G : Saf (set_pc (set_lock x None) t Idle)) by (apply saf_leave; auto; [now rewrite P|discriminate]).
      destruct term; [apply saf_note; [exact G|intros s'; repeat split; discriminate]|exact G].
    + apply saf_leave; auto; [now rewrite P|]. intros s0 [= <-] _. unfold busy. rewrite P. auto.
  - destruct (pcs x t) eqn:P; auto. destruct (s_busy x X t s) as (w & S1 & S2); [unfold busy; rewrite P; auto|]. rewrite S1. eapply saf_ses; eauto.
  - destruct (pcs x t) eqn:P; auto. assert (BT : busy x t s) by (unfold busy; rewrite P; auto). destruct (s_busy x X t s BT) as (w & S1 & S2). rewrite S1.
    destruct (heap x e) as [v|] eqn:HE; [|exact Logic.I].
    assert (G : Saf (set_ent x e (Some (mkE (en_sid v) (if se_run w then SNone else SInvalid))))) by (eapply saf_entry; eauto).
    apply (saf_mod _ _ G); auto; try (intros; reflexivity).
    + intros t' s0 H. cbn [set_pc sess]. apply (s_busy _ G). eapply busy_pc; [exact H|]. intros [= <-] _. exact BT.
    + intros t' s0. cbn. destruct (Nat.eq_dec t' t) as [->|N1]; [rewrite upd_same; discriminate|rewrite upd_other by exact N1; auto].
    + intros t'. cbn. destruct (Nat.eq_dec t' t) as [->|N1]; [rewrite upd_same; discriminate|rewrite upd_other by exact N1; apply (s_lock x X)].
  - destruct (pcs x t) eqn:P; auto. assert (BT : busy x t s) by (unfold busy; rewrite P; auto). destruct (s_busy x X t s BT) as (w & S1 & S2). rewrite S1.
    apply saf_note; [|intros s'; destruct term; repeat split; discriminate].
    eapply saf_rpc; [exact X|exact S1| |right; reflexivity|discriminate|discriminate].
    intros t' N1 B. destruct (s_busy x X _ _ B) as (u & U1 & U2). congruence.
  - destruct (pcs x t); auto. destruct (lock x) eqn:L; [exact Logic.I|]. destruct (find _ _ _ _) as [[i|]|] eqn:F; [|exact X|exact Logic.I].
    destruct (find_some _ _ _ _ _ F) as (e & v & NE & HE & ES & _). rewrite Nat.sub_0_r in NE. rewrite NE.
    assert (LI : listed x e s) by (split; [eapply nth_error_In; eauto|eauto]). pose proof (saf_remove x e i X NE) as G.
    set (z := set_ents _ _) in *.
    assert (Q : forall m, m <> NDel t s -> In m (log x ++ [NDel t s]) -> In m (log x)).
    { intros m Q Z. rewrite in_app_iff in Z. destruct Z as [Z|[Z|[]]]; congruence. }
    assert (D : forall s', deleted (add_log z (NDel t s)) s' -> s' = s \/ deleted z s').
    { intros s' [t' Z]. cbn in Z. rewrite in_app_iff in Z. destruct Z as [Z|[Z|[]]]; [right; exists t'; exact Z|left; congruence]. }
    assert (A : forall s', added z s' -> added (add_log z (NDel t s)) s') by (intros s' Z; unfold added; cbn; rewrite in_app_iff; auto).
    assert (NL : forall e0, ~ listed z e0 s) by (intros e0 Z; destruct (removed_listed _ _ _ _ _ NE Z) as [Z1 Z2]; apply Z2; exact (s_one x X _ _ _ Z1 LI)).
    assert (NW : forall t' s', pcs x t' <> ClearWait s') by (intros t' s' Z; assert (H : lock x = Some t') by (apply (s_lock x X); now rewrite Z); congruence).
    destruct G. constructor; auto.
    + intros e0 s0 H. destruct (s_ent0 e0 s0 H). auto.
    + intros t' s0 H. elim (NW _ _ H).
    + intros s0 e0 H. destruct (D _ H) as [->|H0]; [apply NL|apply s_del0, H0].
    + intros s0 K F0. apply s_alive0; [exact K|]. intros Z. apply F0. unfold freed. cbn. rewrite in_app_iff. auto.
    + intros s0 [H|[H|H]]; apply s_known0; [left; apply (Q (NAdd s0)); [discriminate|exact H]|right; left; apply (Q (NFree s0)); [discriminate|exact H]|auto].
    + intros s0 H. destruct (D _ H) as [->|H0]; [apply A; exact (proj2 (s_ent x X _ _ LI))|apply A, s_deladd0, H0].
  - destruct (pcs x t); auto. destruct R as (K & F & R). destruct (sess x s) as [w|] eqn:S1; [|exact (s_alive x X s K F S1)]. destruct (se_rpc w) eqn:RW; [exact Logic.I|].
    assert (DR : deleted x s \/ ~ added x s) by (destruct R; [left; exists t; assumption|auto]).
    apply saf_free; auto.
    + intros e L. destruct DR as [D|D]; [exact (s_del x X s e D L)|exact (D (proj2 (s_ent x X e s L)))].
    + intros t' B. destruct (s_busy x X _ _ B) as (u & U1 & U2). congruence.
    + intros t' W. destruct (s_wait x X _ _ W) as (_ & W1 & W2 & _). tauto.
  - destruct R as [R _]. discriminate R.
  - destruct (pcs x t); auto. destruct (lock x) eqn:L; [exact Logic.I|]. apply saf_take; auto. discriminate.
  - destruct (pcs x t) eqn:P; auto. destruct (nth_error _ _) as [e|] eqn:NE; [|exact Logic.I]. destruct (heap x e) as [v|] eqn:HE; [|exact Logic.I].
    assert (LI : listed x e (en_sid v)) by (split; [eapply nth_error_In; eauto|eauto]).
    destruct (s_ent x X _ _ LI) as [SA AD]. destruct (sess x (en_sid v)) as [w|] eqn:S1; [|congruence]. destruct (se_run w); [exact Logic.I|].
    pose proof (saf_remove x e i X NE) as G.
    assert (ND : ~ deleted x (en_sid v)) by (intros D; exact (s_del x X _ _ D LI)).
    assert (NL : forall e0, ~ listed (set_ents (set_ent x e None) (remove_at (ents x) i)) e0 (en_sid v))
      by (intros e0 Z; destruct (removed_listed _ _ _ _ _ NE Z) as [Z1 Z2]; apply Z2; exact (s_one x X _ _ _ Z1 LI)).
    set (z := set_ents _ _) in *.
    assert (BZ : forall t' s0, busy (set_pc z t (ClearWait (en_sid v))) t' s0 -> busy z t' s0) by (intros t' s0 H; eapply busy_pc; [exact H|discriminate]).
    assert (LT : lock x = Some t) by (apply (s_lock x X); now rewrite P).
    destruct G. constructor; auto.
    + intros t' s0 H. cbn [set_pc sess]. auto.
    + intros t'. cbn. destruct (Nat.eq_dec t' t) as [->|N1]; [auto|rewrite upd_other by exact N1; apply (s_lock x X)].
    + intros t' s0. cbn [set_pc pcs sess]. destruct (Nat.eq_dec t' t) as [->|N1]; [rewrite upd_same; intros [= <-]|rewrite upd_other by exact N1; apply s_wait0].
      split; [cbn; congruence|]. split; [exact AD|]. split; [exact ND|exact NL].
  - destruct (pcs x t) eqn:P; auto. destruct (s_wait x X _ _ P) as (SA & AD & ND & NL). destruct (sess x s) as [w|] eqn:S1; [|congruence].
    destruct (se_rpc w) eqn:RW; destruct late; auto; [discriminate (R eq_refl)|].
    assert (LT : lock x = Some t) by (apply (s_lock x X); now rewrite P).
    assert (G : Saf (add_log (set_ses (set_pc x t Clearing) s None) (NFree s))).
    { apply saf_free; auto.
      - eapply saf_pc; eauto; discriminate.
      - intros t' B. assert (B' : busy x t' s) by (eapply busy_pc; [exact B|discriminate]). destruct (s_busy x X _ _ B') as (u & U1 & U2). congruence.
      - intros t'. cbn. destruct (Nat.eq_dec t' t) as [->|N1]; [rewrite upd_same; discriminate|rewrite upd_other by exact N1]. intros W.
        assert (H : lock x = Some t') by (apply (s_lock x X); now rewrite W). congruence.
      - apply (s_known x X). auto. }
    exact G.
  - destruct (pcs x t) eqn:P; auto. apply saf_leave; auto; [now rewrite P|discriminate].
Qed.
Lemma run_saf l : forall x, Saf x -> follows (by_anyone false) x l -> run x l <> Wild BSes.
Proof.
  induction l as [|v l IH]; intros x X F; cbn [run follows] in *; [discriminate|]. destruct F as [R F]. pose proof (step_saf x v X R) as H.
  destruct (step x v) as [[]| |y]; try discriminate; [contradiction|]. apply IH; assumption.
Qed.

Definition c271_full : Prop := forall l, follows (by_anyone true) init l -> run init l <> Wild BSes.
Theorem c271_partial l : follows (by_anyone false) init l -> run init l <> Wild BSes.
Proof. apply run_saf, saf_init. Qed.

(** ** Ways that go wrong *)
Definition note_dec (a b : note) : {a = b} + {a <> b}.
Proof. decide equality; apply Nat.eq_dec. Defined.
Definition inb (n : note) (l : list note) : bool := if in_dec note_dec n l then true else false.
Lemma inb_true n l : inb n l = true <-> In n l.
Proof. unfold inb. destruct (in_dec note_dec n l); split; auto; discriminate. Qed.
Lemma inb_false n l : negb (inb n l) = true <-> ~ In n l.
Proof. rewrite negb_true_iff, <- not_true_iff_false, inb_true. reflexivity. Qed.
Definition stopb (x : st) (s : sid) := Nat.ltb s (known x) && negb (inb (NFree s) (log x)).
Definition addb (x : st) (s : sid) := stopb x s && negb (inb (NAdd s) (log x)).
Definition freeb (x : st) (t : tid) (s : sid) := stopb x s && (inb (NDel t s) (log x) || negb (inb (NAdd s) (log x))).
Lemma stopb_ok x s : stopb x s = true -> s < known x /\ ~ freed x s.
Proof. unfold stopb, freed. now rewrite andb_true_iff, Nat.ltb_lt, inb_false. Qed.
Lemma addb_ok x s : addb x s = true -> s < known x /\ ~ added x s /\ ~ freed x s.
Proof. unfold addb, added. rewrite andb_true_iff, inb_false. intros [A B]. apply stopb_ok in A. tauto. Qed.
Lemma freeb_ok x t s : freeb x t s = true -> s < known x /\ ~ freed x s /\ (In (NDel t s) (log x) \/ ~ added x s).
Proof. unfold freeb, added. rewrite andb_true_iff, orb_true_iff, inb_true, inb_false. intros [A B]. apply stopb_ok in A. tauto. Qed.
Definition termb (x : st) (v : ev) : bool :=
  match v with
  | EStop s => stopb x s
  | EAdd _ s => addb x s
  | EDel t s => inb (NTerm t s) (log x)
  | EFree t s | EFreeLate t s => freeb x t s
  | EClear _ | EClearOne _ _ | EClearFree _ _ | EClearEnd _ => false
  | _ => true
  end.
Definition anyb (late : bool) (x : st) (v : ev) : bool :=
  match v with
  | EStop s => stopb x s
  | EAdd _ s => addb x s
  | EFree t s => freeb x t s
  | EFreeLate t s => late && freeb x t s
  | EClearFree _ l => negb l || late
  | _ => true
  end.
Fixpoint followsb (r : st -> ev -> bool) (x : st) (l : list ev) : bool :=
  match l with [] => true | v :: l' => r x v && match step x v with Go y => followsb r y l' | _ => true end end.
Lemma followsb_ok (r : st -> ev -> bool) (q : rule) : (forall x v, r x v = true -> q x v) -> forall l x, followsb r x l = true -> follows q x l.
Proof.
  intros H. induction l as [|v l IH]; intros x; cbn [followsb follows]; [auto|]. rewrite andb_true_iff. intros [A B]. split; [auto|]. destruct (step x v); auto.
Qed.
Lemma termb_ok x v : termb x v = true -> by_term x v.
Proof. destruct v; cbn [termb by_term]; auto using stopb_ok, addb_ok, freeb_ok; try discriminate. apply inb_true. Qed.
Lemma anyb_ok late x v : anyb late x v = true -> by_anyone late x v.
Proof.
  destruct v; cbn [anyb by_anyone]; auto using stopb_ok, addb_ok, freeb_ok.
  - rewrite andb_true_iff. intros [A B]. split; [exact A|apply freeb_ok, B].
  - destruct late0; [auto|discriminate].
Qed.
(** While thread 1 is handling an RPC, thread 2 removes the session: the entry is written by thread 1 after it was freed. *)
Definition removed_early : list ev := [ENew; EAdd 1 0; EPoll 1; ELook 1 0 LkTry ORpc; EUnlock 1; EDel 2 0; EWork 1 false; EState 1].
(** The handler of thread 1 ends the session, and thread 2 clears the structure. *)
Definition cleared_early : list ev := [ENew; EAdd 1 0; EPoll 1; ELook 1 0 LkTry ORpc; EUnlock 1; EWork 1 true; EClear 2; EClearOne 2 0; EState 1].
Lemma removed_early_follows : follows (by_anyone false) init removed_early.
Proof. apply (followsb_ok _ _ (anyb_ok false)). reflexivity. Qed.
Lemma cleared_early_follows : follows (by_anyone false) init cleared_early.
Proof. apply (followsb_ok _ _ (anyb_ok false)). reflexivity. Qed.
Theorem c268_full_refuted : ~ c268_full.
Proof. intros H. apply (H _ removed_early_follows BEnt). reflexivity. Qed.
Theorem c268_clear_refuted : follows (by_anyone false) init cleared_early /\ run init cleared_early = Wild BEnt.
Proof. split; [exact cleared_early_follows|reflexivity]. Qed.
(** Thread 1 is handling an RPC for longer than nc_session_free() of thread 2 waits. *)
Definition freed_early : list ev := [ENew; EAdd 1 0; EPoll 1; ELook 1 0 LkTry ORpc; EUnlock 1; EDel 2 0; EFreeLate 2 0; EWork 1 false].
Theorem c271_full_refuted : ~ c271_full.
Proof. intros H. apply (H freed_early); [apply (followsb_ok _ _ (anyb_ok true)); reflexivity|reflexivity]. Qed.

(** ** Cases *)
Definition went (o : out) (f : st -> bool) : bool := match o with Go x => f x | _ => false end.
(** Two threads handle RPCs of two sessions at once; a third is told of a killed session, removes and frees it. *)
Definition three : list ev :=
  [ENew; ENew; ENew; EAdd 1 0; EAdd 1 1; EAdd 1 2; EPoll 1; ELook 1 0 LkTry ORpc; EUnlock 1; EPoll 2; ELook 2 0 LkTry ORpc; ELook 2 1 LkTry ORpc; EUnlock 2;
   EStop 2; EPoll 3; ELook 3 1 LkTry OTimeout; ELook 3 2 LkTry OTimeout; EUnlock 3; EWork 1 false; EDel 3 2; EFree 3 2; EState 1; EWork 2 true; ERpcUnlock 1].
Example case_c268 : follows by_term init three /\
  went (run init three) (fun x => Nat.eqb (length (ents x)) 2 && match pcs x 2 with Serving _ 1 => true | _ => false end
    && match sess x 2 with None => true | _ => false end) = true.
Proof. split; [apply (followsb_ok _ _ termb_ok); lazy; reflexivity|lazy; reflexivity]. Qed.
(** The second thread goes on: it is told that its session has ended; nobody is told of it again. *)
Definition three' : list ev := three ++ [EState 2; ERpcUnlock 2; EPoll 1; ELook 1 1 LkTry OTimeout; ELook 1 0 LkTry OTimeout; EGiveUp 1; EUnlock 1].
Example case_c270 : follows by_term init three' /\
  went (run init three') (fun x => Nat.eqb (length (filter (fun n => match n with NTerm _ 1 => true | _ => false end) (log x))) 1
    && Nat.eqb (length (filter (fun n => match n with NTerm _ 2 => true | _ => false end) (log x))) 1) = true.
Proof. split; [apply (followsb_ok _ _ termb_ok); lazy; reflexivity|lazy; reflexivity]. Qed.
Example case_c269 : went (run init (firstn 13 three)) (fun x => match pcs x 1, pcs x 2 with Serving _ 0, Serving _ 1 => true | _, _ => false end) = true.
Proof. lazy. reflexivity. Qed.
(** A session removed while its RPC is being handled is freed only when that thread has given back its lock. *)
Example case_c271 : follows (by_anyone false) init [ENew; ENew; EAdd 1 0; EAdd 1 1; EPoll 1; ELook 1 0 LkTry ORpc; EUnlock 1; EWork 1 true; EState 1; EClear 2; EClearOne 2 0; ERpcUnlock 1;
    EClearFree 2 false; EClearEnd 2; EDel 2 1; EFree 2 1] /\
  went (run init [ENew; ENew; EAdd 1 0; EAdd 1 1; EPoll 1; ELook 1 0 LkTry ORpc; EUnlock 1; EWork 1 true; EState 1; EClear 2; EClearOne 2 0; ERpcUnlock 1;
    EClearFree 2 false; EClearEnd 2; EDel 2 1; EFree 2 1]) (fun x => match ents x, sess x 0, sess x 1 with [], None, None => true | _, _, _ => false end) = true.
Proof. split; [apply (followsb_ok _ _ (anyb_ok false)); lazy; reflexivity|lazy; reflexivity]. Qed.

Print Assumptions c268_partial.
Print Assumptions c268_told_alive.
Print Assumptions c268_full_refuted.
Print Assumptions c268_clear_refuted.
Print Assumptions c269_one_thread.
Print Assumptions c270_once.
Print Assumptions c270_one_thread.
Print Assumptions c270_quiet.
Print Assumptions c271_partial.
Print Assumptions c271_full_refuted.
