(** Property C19: the RPC lock of a session. *)
From Coq Require Import ZArith Bool List Lia Arith.
From Verif Require Import RpcLock.
Import ListNotations.

(* ================================================================== *)
(** * Specification *)

(** Thread [t] has the lock, by what was seen (latest first): its lock call returned 1 and it did not call unlock since (or
    that call returned an error). *)
Fixpoint holds (l : list (tid * obs)) (t : tid) : Prop :=
  match l with
  | [] => False
  | (u, o) :: r =>
      if Nat.eqb u t then
        match o with
        | OLockRet 1%Z => True
        | OUnlockCall => False
        | OUnlockRet (-1)%Z => True
        | OUnlockRet _ => False
        | _ => holds r t
        end
      else holds r t
  end.
(** Only threads that have the lock unlock it. *)
Fixpoint fair_use (l : list (tid * obs)) : Prop :=
  match l with
  | [] => True
  | (u, OUnlockCall) :: r => holds r u /\ fair_use r
  | _ :: r => fair_use r
  end.

(** A thread inside a lock call, with the states before and after each step it made in it. *)
Inductive during (t : tid) : st -> list (st * st) -> Prop :=
| DCall s s' l : run l s -> step s t OLockCall s' -> during t s' [(s, s')]
| DOther s s' u o d : during t s d -> u <> t -> step s u o s' -> during t s' d
| DOwn s s' d : during t s d -> step s t OTau s' -> during t s' ((s, s') :: d).
(** A step that leaves the lock and the other threads alone. *)
Definition harmless (t : tid) (x : st * st) : Prop :=
  inuse (fst x) = inuse (snd x) /\ forall u, u <> t -> pcs (fst x) u = pcs (snd x) u.

(** No unlock call went on without the mutex. *)
Definition no_unlocked_clear (s : st) : Prop := forall t h, pcs s t <> U2 h false.

(* ================================================================== *)
(** * Proofs *)

Definition has_mtx (p : pc) : bool :=
  match p with L2 _ | LGo _ | LX _ | L3 | L4 => true | U2 _ x | U3 x | U4 x => x | _ => false end.
Definition owner (p : pc) : bool := match p with L4 | In | U1 _ _ | U2 _ _ => true | _ => false end.

Record inv (s : st) (l : list (tid * obs)) : Prop := mkInv {
  i_mtx : forall t, has_mtx (pcs s t) = true <-> mtx s = Some t;
  i_one : forall t u, owner (pcs s t) = true -> owner (pcs s u) = true -> t = u;
  i_use : inuse s = true <-> exists t, owner (pcs s t) = true;
  i_l3 : forall t, pcs s t = L3 -> inuse s = false;
  i_holds : forall t, holds l t <-> pcs s t = In;
  i_h : forall t m x, pcs s t <> U1 false m /\ pcs s t <> U2 false x;
  i_r : forall t r, pcs s t = LX r \/ pcs s t = LT r -> r = 0%Z \/ r = (-1)%Z
}.

Lemma at_same s t p : at_pc s t p t = p. Proof. unfold at_pc. now rewrite Nat.eqb_refl. Qed.
Lemma at_other s t p u : u <> t -> at_pc s t p u = pcs s u. Proof. intros H. unfold at_pc. now apply Nat.eqb_neq in H as ->. Qed.

(** Steps in which only the thread that steps changes its place and [inuse] stays. *)
Lemma inv_local s l t o p m : inv s l ->
  (forall u, has_mtx (at_pc s t p u) = true <-> m = Some u) ->
  owner p = owner (pcs s t) -> (p = L3 -> inuse s = false) ->
  (holds ((t, o) :: l) t <-> p = In) ->
  (forall m x, p <> U1 false m /\ p <> U2 false x) ->
  (forall r, p = LX r \/ p = LT r -> r = 0%Z \/ r = (-1)%Z) ->
  inv (mkSt m (inuse s) (at_pc s t p)) ((t, o) :: l).
Proof.
  intros [I1 I2 I3 I4 I5 I6 I7] Hm Ho H3 Hh H6 H7.
  assert (HO : forall u, owner (at_pc s t p u) = owner (pcs s u)).
  { intros u. destruct (Nat.eq_dec u t) as [->|Hn]; [now rewrite at_same|now rewrite at_other]. }
  split; cbn [mtx inuse pcs]; auto.
  - intros a b. rewrite !HO. apply I2.
  - rewrite I3. split; intros [u Hu]; exists u; [now rewrite HO|now rewrite HO in Hu].
  - intros u Hu. destruct (Nat.eq_dec u t) as [->|Hn]; [rewrite at_same in Hu; auto|rewrite at_other in Hu by assumption; eauto].
  - intros u. destruct (Nat.eq_dec u t) as [->|Hn]; [rewrite at_same; exact Hh|].
    rewrite at_other by assumption. cbn [holds]. destruct (Nat.eqb_spec t u); [congruence|apply I5].
  - intros u. destruct (Nat.eq_dec u t) as [->|Hn]; [rewrite at_same; auto|rewrite at_other by assumption; apply I6].
  - intros u r. destruct (Nat.eq_dec u t) as [->|Hn]; [rewrite at_same; auto|rewrite at_other by assumption; apply I7].
Qed.

Lemma inv_step s l t o s' : inv s l -> fair_use ((t, o) :: l) -> step s t o s' -> inv s' ((t, o) :: l).
Proof.
  intros HI HF HS. pose proof HI as [I1 I2 I3 I4 I5 I6 I7].
  assert (Hm0 : forall p, has_mtx p = has_mtx (pcs s t) -> forall u, has_mtx (at_pc s t p u) = true <-> mtx s = Some u).
  { intros p Hp u. destruct (Nat.eq_dec u t) as [->|Hn]; [rewrite at_same, Hp; apply I1|rewrite at_other by assumption; apply I1]. }
  assert (Hm1 : forall p, mtx s = None -> has_mtx p = true -> forall u, has_mtx (at_pc s t p u) = true <-> Some t = Some u).
  { intros p Hn Hp u. destruct (Nat.eq_dec u t) as [->|Hne]; [rewrite at_same; tauto|]. rewrite at_other by assumption. split; [|congruence].
    intros H. apply I1 in H. congruence. }
  assert (Hm2 : forall p, has_mtx (pcs s t) = true -> has_mtx p = false -> forall u, has_mtx (at_pc s t p u) = true <-> None = Some u).
  { intros p Hn Hp u. apply I1 in Hn. destruct (Nat.eq_dec u t) as [->|Hne]; [rewrite at_same; split; congruence|]. rewrite at_other by assumption. split; [|congruence].
    intros H. apply I1 in H. congruence. }
  assert (Hh0 : forall p, pcs s t <> In -> p <> In -> forall o,
     (o = OTau \/ o = OLockCall \/ o = OLockRet 0 \/ o = OLockRet (-1) \/ o = OUnlockRet 1) -> (holds ((t, o) :: l) t <-> p = In)).
  { intros p Hp Hp' o' Ho. assert (Hl : ~ holds l t) by (rewrite I5; exact Hp). cbn [holds]. rewrite Nat.eqb_refl.
    destruct Ho as [->|[->|[->|[->| ->]]]]; tauto. }
  assert (Habort : forall u, inv s ((u, OAbort) :: l)).
  { intros u. split; auto. intros v. cbn [holds]. destruct (Nat.eqb u v); apply I5. }
  Ltac fin Hm0 Hm2 Hh0 H := first [ reflexivity | discriminate | assumption
     | (rewrite H; reflexivity) | (apply Hm0; rewrite H; reflexivity) | (apply Hm2; rewrite ?H; reflexivity)
     | (split; discriminate) | (apply Hh0; [congruence|discriminate|tauto]) | (intros ? [?|?]; discriminate)
     | (intros ? [E|E]; try discriminate; injection E as <-; tauto) | idtac ].
  destruct HS; try exact (Habort _);
    try (match goal with Hn : mtx s = None |- _ => first [
          apply (inv_local s l t); auto; fin Hm0 Hm2 Hh0 H; fail ] end);
    try (match goal with |- inv (mkSt (mtx s) (inuse s) (at_pc s t ?p)) _ => apply (inv_local s l t); auto; fin Hm0 Hm2 Hh0 H; fail end).
  - apply (inv_local s l t); auto; fin Hm0 Hm2 Hh0 H.
  - apply (inv_local s l t); auto; fin Hm0 Hm2 Hh0 H. intros r0 [E|E]; [|discriminate]. injection E as <-. apply (I7 t). now right.
  - destruct (I7 t r (or_introl H)) as [->| ->]; apply (inv_local s l t); auto; fin Hm0 Hm2 Hh0 H.
  - (* SSet *)
    assert (HN : forall u, owner (pcs s u) = false).
    { intros u. destruct (owner (pcs s u)) eqn:E; [|reflexivity]. assert (inuse s = true) by (apply I3; eauto). congruence. }
    split; cbn [mtx inuse pcs].
    + apply Hm0. now rewrite H.
    + intros a b Ha Hb. destruct (Nat.eq_dec a t) as [->|Hna]; [|rewrite at_other in Ha by assumption; congruence].
      destruct (Nat.eq_dec b t) as [->|Hnb]; [reflexivity|]. rewrite at_other in Hb by assumption. congruence.
    + split; [|reflexivity]. intros _. exists t. now rewrite at_same.
    + intros u Hu. exfalso. destruct (Nat.eq_dec u t) as [->|Hn]; [rewrite at_same in Hu; discriminate|]. rewrite at_other in Hu by assumption.
      assert (mtx s = Some t) by (apply I1; now rewrite H). assert (mtx s = Some u) by (apply I1; now rewrite Hu). congruence.
    + intros u. destruct (Nat.eq_dec u t) as [->|Hn]; [rewrite at_same; apply Hh0; [congruence|discriminate|tauto]|].
      rewrite at_other by assumption. cbn [holds]. destruct (Nat.eqb_spec t u); [congruence|apply I5].
    + intros u. destruct (Nat.eq_dec u t) as [->|Hn]; [rewrite at_same; split; discriminate|rewrite at_other by assumption; apply I6].
    + intros u r. destruct (Nat.eq_dec u t) as [->|Hn]; [rewrite at_same; intros [?|?]; discriminate|rewrite at_other by assumption; apply I7].
  - apply (inv_local s l t); auto; fin Hm0 Hm2 Hh0 H. cbn [holds]. rewrite Nat.eqb_refl. tauto.
  - cbn [fair_use] in HF. destruct HF as [HF _]. apply I5 in HF. destruct h; [|congruence].
    apply (inv_local s l t); auto; fin Hm0 Hm2 Hh0 H. cbn [holds]. rewrite Nat.eqb_refl. split; [contradiction|discriminate].
  - destruct h; [|exfalso; exact (proj1 (I6 t m true) H)]. apply (inv_local s l t); auto; fin Hm0 Hm2 Hh0 H.
  - destruct h; [|exfalso; exact (proj1 (I6 t m true) H)]. apply (inv_local s l t); auto; fin Hm0 Hm2 Hh0 H.
  - destruct h; [|exfalso; exact (proj1 (I6 t m true) H)]. apply (inv_local s l t); auto; fin Hm0 Hm2 Hh0 H. cbn [holds]. rewrite Nat.eqb_refl. tauto.
  - (* SClear *)
    assert (HN : forall u, u <> t -> owner (pcs s u) = false).
    { intros u Hu. destruct (owner (pcs s u)) eqn:E; [|reflexivity]. exfalso. apply Hu. apply I2; [exact E|now rewrite H]. }
    split; cbn [mtx inuse pcs].
    + apply Hm0. now rewrite H.
    + intros a b Ha Hb. destruct (Nat.eq_dec a t) as [->|Hna]; [rewrite at_same in Ha; discriminate|rewrite at_other in Ha by assumption; rewrite HN in Ha by assumption; discriminate].
    + split; [discriminate|]. intros [u Hu]. exfalso. destruct (Nat.eq_dec u t) as [->|Hn]; [rewrite at_same in Hu; discriminate|].
      rewrite at_other in Hu by assumption. rewrite HN in Hu by assumption. discriminate.
    + reflexivity.
    + intros u. destruct (Nat.eq_dec u t) as [->|Hn]; [rewrite at_same; apply Hh0; [congruence|discriminate|tauto]|].
      rewrite at_other by assumption. cbn [holds]. destruct (Nat.eqb_spec t u); [congruence|apply I5].
    + intros u. destruct (Nat.eq_dec u t) as [->|Hn]; [rewrite at_same; split; discriminate|rewrite at_other by assumption; apply I6].
    + intros u r. destruct (Nat.eq_dec u t) as [->|Hn]; [rewrite at_same; intros [?|?]; discriminate|rewrite at_other by assumption; apply I7].
  - (* SSignal *)
    assert (HJ : inv (mkSt (mtx s) (inuse s) (at_pc s t (U4 x))) ((t, OTau) :: l)) by (apply (inv_local s l t); auto; fin Hm0 Hm2 Hh0 H).
    destruct HJ as [J1 J2 J3 J4 J5 J6 J7]. cbn [mtx inuse pcs] in *.
    set (f := fun v : tid => if v =? u then LW m true else at_pc s t (U4 x) v).
    assert (HU : at_pc s t (U4 x) u = LW m false) by (rewrite at_other by assumption; exact H0).
    assert (F : forall v, f v = at_pc s t (U4 x) v \/ (v = u /\ f v = LW m true)) by (intros v; unfold f; destruct (Nat.eqb_spec v u); auto).
    split; cbn [mtx inuse pcs]; fold f.
    + intros v. destruct (F v) as [->|[-> ->]]; [apply J1|]. rewrite <- J1, HU. reflexivity.
    + intros a b. destruct (F a) as [->|[-> ->]]; [|discriminate]. destruct (F b) as [->|[-> ->]]; [apply J2|discriminate].
    + rewrite J3. split; intros [v Hv]; exists v; destruct (F v) as [Ef|[-> Ef]]; try (rewrite Ef in *; assumption); [rewrite HU in Hv; discriminate|rewrite Ef in Hv; discriminate].
    + intros v. destruct (F v) as [->|[-> ->]]; [apply J4|discriminate].
    + intros v. destruct (F v) as [->|[-> ->]]; [apply J5|]. rewrite J5, HU. split; discriminate.
    + intros v m0 x0. destruct (F v) as [->|[-> ->]]; [apply J6|split; discriminate].
    + intros v r0. destruct (F v) as [->|[-> ->]]; [apply J7|intros [?|?]; discriminate].
  - destruct x; apply (inv_local s l t); auto; fin Hm0 Hm2 Hh0 H.
Qed.

Lemma inv_run : forall l s, run l s -> fair_use l -> inv s l.
Proof.
  intros l s HR. induction HR as [|l s t o s' HR IH HS]; intros HF.
  - split; cbn.
    + intros t; split; discriminate.
    + discriminate.
    + split; [discriminate|intros [? ?]; discriminate].
    + discriminate.
    + intros t; split; [contradiction|discriminate].
    + split; discriminate.
    + intros t r [?|?]; discriminate.
  - apply (inv_step s l t o); auto. apply IH. destruct o; cbn [fair_use] in HF; tauto.
Qed.

(* ================================================================== *)
(** * Theorems *)

(** At most one thread has the lock, in all runs in which only threads that have it unlock it; and while one has it, rpc_inuse is set. *)
Theorem c19_mutex_partial : forall l s, run l s -> fair_use l ->
  (forall t u, holds l t -> holds l u -> t = u) /\ (forall t, holds l t -> inuse s = true).
Proof.
  intros l s HR HF. destruct (inv_run l s HR HF) as [I1 I2 I3 I4 I5 I6 I7]. split.
  - intros t u Ht Hu. apply I5 in Ht, Hu. apply I2; [now rewrite Ht|now rewrite Hu].
  - intros t Ht. apply I5 in Ht. apply I3. exists t. now rewrite Ht.
Qed.

(** Neither assertion fails then. *)
Theorem c19_no_abort_partial : forall l s t s', run l s -> fair_use l -> step s t OAbort s' -> pcs s t = Out.
Proof.
  intros l s t s' HR HF HS. destruct (inv_run l s HR HF) as [I1 I2 I3 I4 I5 I6 I7]. inversion HS; subst.
  - rewrite (I4 t) in H0 by assumption. discriminate.
  - destruct H as [H|H]; [|exact H]. assert (inuse s' = true) by (apply I3; exists t; now rewrite H). congruence.
Qed.

(** A lock call that fails (timeout or error) changed nothing, in any run: no step of it set or cleared rpc_inuse or touched
    another thread, and the thread does not keep the mutex. *)
Lemma during_run t s d : during t s d -> exists l, run l s.
Proof. intros H. induction H as [s s' l HR HS|s s' u o d _ [l HR] Hn HS|s s' d _ [l HR] HS]; eexists; eapply RStep; eassumption. Qed.

Definition lockish (p : pc) : bool := match p with L1 _ | L2 _ | LGo _ | LW _ _ | LT _ | LX _ | L3 => true | _ => false end.

Lemma step_others s t o s' u : step s t o s' -> u <> t -> pcs s' u = pcs s u \/ exists m, pcs s u = LW m false /\ pcs s' u = LW m true.
Proof.
  intros HS Hn. destruct HS; cbn [pcs]; try (left; apply at_other; assumption); try (left; reflexivity).
  destruct (Nat.eqb_spec u u0) as [->|Hu]; [right; eauto|left]. now apply at_other.
Qed.

Lemma during_shape t s d : during t s d ->
  (lockish (pcs s t) = true /\ Forall (harmless t) d) \/ pcs s t = L4.
Proof.
  intros H. induction H as [s s' l HR HS|s s' u o d HD IH Hn HS|s s' d HD IH HS].
  - left. inversion HS; subst. cbn [pcs]. rewrite at_same. split; [reflexivity|]. constructor; [|constructor]. split; [reflexivity|]. intros v Hv. cbn [fst snd pcs]. now rewrite at_other.
  - assert (HP : pcs s' t = pcs s t \/ exists m, pcs s t = LW m false /\ pcs s' t = LW m true) by (apply (step_others s u o s'); congruence).
    destruct HP as [HP|(m & E1 & E2)]; [rewrite HP; exact IH|]. left. rewrite E2. split; [reflexivity|]. destruct IH as [[_ IH]|IH]; [exact IH|congruence].
  - destruct IH as [[IL IF]|IL].
    + assert (HX : forall m0 b p, s' = mkSt m0 b (at_pc s t p) -> b = inuse s -> harmless t (s, s')).
      { intros m0 b p -> ->. split; [reflexivity|]. intros v Hv. cbn [fst snd pcs]. now rewrite at_other. }
      inversion HS; subst; cbn [pcs]; rewrite ?at_same;
        try (left; split; [reflexivity|]; constructor; [eapply HX; reflexivity|exact IF]);
        try (exfalso; rewrite H in IL; discriminate).
      right. reflexivity.
    + exfalso. inversion HS; subst; congruence.
Qed.

Lemma mtx_run : forall l s, run l s -> forall t, has_mtx (pcs s t) = true <-> mtx s = Some t.
Proof.
  intros l s HR. induction HR as [|l s t o s' HR I1 HS]; [intros t; cbn; split; discriminate|].
  assert (Hm0 : forall p, has_mtx p = has_mtx (pcs s t) -> forall u, has_mtx (at_pc s t p u) = true <-> mtx s = Some u).
  { intros p Hp u. destruct (Nat.eq_dec u t) as [->|Hn]; [rewrite at_same, Hp; apply I1|rewrite at_other by assumption; apply I1]. }
  assert (Hm1 : forall p, mtx s = None -> has_mtx p = true -> forall u, has_mtx (at_pc s t p u) = true <-> Some t = Some u).
  { intros p Hn Hp u. destruct (Nat.eq_dec u t) as [->|Hne]; [rewrite at_same; tauto|]. rewrite at_other by assumption. split; [|congruence].
    intros H. apply I1 in H. congruence. }
  assert (Hm2 : forall p, has_mtx (pcs s t) = true -> has_mtx p = false -> forall u, has_mtx (at_pc s t p u) = true <-> None = Some u).
  { intros p Hn Hp u. apply I1 in Hn. destruct (Nat.eq_dec u t) as [->|Hne]; [rewrite at_same; split; congruence|]. rewrite at_other by assumption. split; [|congruence].
    intros H. apply I1 in H. congruence. }
  destruct HS; cbn [mtx pcs]; try exact I1; try (apply Hm0; rewrite H; reflexivity); try (apply Hm1; [assumption|reflexivity]);
    try (apply Hm2; rewrite ?H; reflexivity).
  - apply Hm0. rewrite H. destruct h; reflexivity.
  - apply Hm0. rewrite H. destruct h; reflexivity.
  - intros v. destruct (Nat.eqb_spec v u) as [->|Hv]; [|apply Hm0; now rewrite H]. rewrite <- I1, H0. reflexivity.
  - destruct x; [apply Hm2; rewrite ?H; reflexivity|apply Hm0; now rewrite H].
Qed.

Theorem c19_timeout : forall t s d r s', during t s d -> step s t (OLockRet r) s' -> r <> 1%Z ->
  Forall (harmless t) ((s, s') :: d) /\ pcs s' t = Out /\ mtx s' <> Some t /\ (mtx s <> Some t -> mtx s' = mtx s).
Proof.
  intros t s d r s' HD HS Hr. destruct (during_shape t s d HD) as [[HL HF]|HL].
  2:{ inversion HS; subst; congruence. }
  destruct (during_run t s d HD) as [l HR]. pose proof (mtx_run l s HR t) as HM.
  assert (HX : forall m0 p, s' = mkSt m0 (inuse s) (at_pc s t p) -> harmless t (s, s')).
  { intros m0 p ->. split; [reflexivity|]. intros v Hv. cbn [fst snd pcs]. now rewrite at_other. }
  inversion HS; subst; try (exfalso; apply Hr; reflexivity); cbn [pcs mtx]; rewrite ?at_same; (split; [constructor; [eapply HX; reflexivity|exact HF]|]); (split; [reflexivity|]); split;
    try congruence; intros Hn; match goal with E : pcs s t = _ |- _ => rewrite E in HM end; destruct HM as [HM1 HM2]; cbn [has_mtx] in *;
    first [apply HM2 in Hn; discriminate | exfalso; apply Hn, HM1; reflexivity].
Qed.

(** No wake-up is lost: if a thread waits and the lock is free, another thread was woken or is about to take the lock or to
    signal; as long as every unlock call gets the mutex. *)
Definition waits (s : st) (t : tid) : Prop := exists m, pcs s t = LW m false.
Definition coming (s : st) (t : tid) : Prop := (exists m, pcs s t = LW m true) \/ (exists m, pcs s t = L2 m) \/ pcs s t = L3 \/ (exists x, pcs s t = U3 x).
Inductive orun : st -> Prop :=
| ONil : orun init
| OStep s t o s' : orun s -> step s t o s' -> no_unlocked_clear s' -> orun s'.

Lemma orun_run s : orun s -> exists l, run l s.
Proof. intros H. induction H as [|s t o s' _ [l HR] HS _]; [exists []; constructor|]. eexists. eapply RStep; eassumption. Qed.

Lemma orun_inv s : orun s -> (forall t m, pcs s t = LGo m -> inuse s = true) /\ (forall t, waits s t -> inuse s = false -> exists u, coming s u).
Proof.
  intros HO. induction HO as [|s t o s' HO [IG IW] HS HN].
  { split; [discriminate|]. intros t [m H]. discriminate. }
  assert (HNs : no_unlocked_clear s).
  { clear -HO. destruct HO; [intros ? ? ?; discriminate|assumption]. }
  destruct (orun_run s HO) as [l HR]. pose proof (mtx_run l s HR) as HM.
  assert (HMs : forall u m, pcs s u = LGo m -> mtx s = Some u) by (intros u m Hu; apply HM; now rewrite Hu).
  split.
  - intros u m Hu. destruct (Nat.eq_dec u t) as [->|Hne].
    + destruct HS; cbn [pcs inuse] in *; rewrite ?at_same in Hu; try congruence; eauto.
      * destruct h; discriminate.
      * destruct (Nat.eqb_spec t u); congruence.
    + assert (Hs : pcs s u = LGo m) by (destruct (step_others s t o s' u HS Hne) as [E|(m0 & _ & E)]; congruence).
      pose proof (IG u m Hs) as Hi. destruct HS; cbn [inuse]; try exact Hi; try reflexivity.
      destruct x; [|exfalso; exact (HNs t h H)]. assert (mtx s = Some t) by (apply HM; now rewrite H). specialize (HMs u m Hs). congruence.
  - intros w [mw Hw] Hi.
    assert (HC : forall v, coming s v -> v <> t -> coming s' v).
    { intros v Hv Hn. destruct (step_others s t o s' v HS Hn) as [E|(m0 & _ & E)]; unfold coming in *; rewrite E; [exact Hv|left; eauto]. }
    assert (HWs : w <> t -> waits s w).
    { intros Hn. destruct (step_others s t o s' w HS Hn) as [E|(m0 & _ & E)]; [exists mw; congruence|congruence]. }
    assert (GEN : inuse s = false -> w <> t -> (coming s t -> coming s' t) -> exists u, coming s' u).
    { intros Hf Hn Ht. destruct (IW w (HWs Hn) Hf) as [v Hv]. destruct (Nat.eq_dec v t) as [->|Hvt]; [exists t; auto|exists v; auto]. }
    destruct HS; cbn [inuse pcs] in *; try discriminate;
      try (apply GEN; [assumption|intros ->; rewrite at_same in Hw; congruence|unfold coming; cbn [pcs]; rewrite H, at_same; intros [[? ?]|[[? ?]|[?|[? ?]]]]; discriminate]);
      try congruence.
    + exists t. right. right. left. cbn [pcs]. apply at_same.
    + (* SWait: the lock is in use *) rewrite (IG t m H) in Hi. discriminate.
    + exists t. right. left. exists m. cbn [pcs]. apply at_same.
    + apply (IW w); [now exists mw|exact Hi].
    + apply GEN; [assumption|intros ->; rewrite at_same in Hw; destruct h; discriminate|]. unfold coming; cbn [pcs]; rewrite H; intros [[? ?]|[[? ?]|[?|[? ?]]]]; discriminate.
    + exists t. right. right. right. exists x. cbn [pcs]. apply at_same.
    + exists u. left. exists m. cbn [pcs]. now rewrite Nat.eqb_refl.
    + exfalso. destruct (Nat.eq_dec w t) as [->|Hn]; [rewrite at_same in Hw; discriminate|]. rewrite at_other in Hw by assumption. exact (H0 w mw Hw).
Qed.

Theorem c19_no_lost_wakeup_partial : forall s t, orun s -> waits s t -> inuse s = false -> exists u, u <> t /\ coming s u.
Proof.
  intros s t HO HW Hi. destruct (proj2 (orun_inv s HO) t HW Hi) as [u Hu]. exists u. split; [|exact Hu]. intros ->. destruct HW as [m Hm].
  unfold coming in Hu. rewrite Hm in Hu. destruct Hu as [[? ?]|[[? ?]|[?|[? ?]]]]; discriminate.
Qed.

(* ---- witness runs ---- *)
Tactic Notation "nx" uconstr(c) := match goal with R : run _ _ |- _ => let R2 := fresh "R" in
  eassert (R2 : run _ _); [eapply RStep; [exact R|eapply c; first [reflexivity|discriminate|(intros [|[|[|?]]] ?; discriminate)]]|clear R; rename R2 into R; cbn [mtx inuse] in R] end.
Ltac seen_at R := eexists; split; [exact R|].

(** The full statement is false: unlocking by a thread that does not have the lock (2) is not refused but succeeds, and two threads (1 and
    3) have the lock. *)
Theorem c19_foreign_unlock_refuted : exists l s, run l s /\ List.In (2, OUnlockRet 1) l /\ ~ holds l 2 /\ holds l 1 /\ holds l 3.
Proof.
  pose proof RNil as R. eexists.
  nx (SLock _ 1 Try). nx (SGot _ 1 Try). nx (SFree _ 1 Try). nx (SSet _ 1). nx (SLocked _ 1).
  nx (SUnlock _ 2 false Timed). nx (SUGot _ 2 false Timed). nx (SClear _ 2 false true).
  nx (SSignalNone _ 2 true). nx (SUDone _ 2 true).
  nx (SLock _ 3 Try). nx (SGot _ 3 Try). nx (SFree _ 3 Try). nx (SSet _ 3). nx (SLocked _ 3).
  seen_at R. cbn. repeat split; auto 10.
Qed.

(** Unlocking a lock that nobody has ends the process. *)
Theorem c19_unused_unlock_refuted : exists s, run [(1, OAbort)] s.
Proof. eexists. exact (RStep _ _ _ _ _ RNil (SUnlockAbort init 1 (or_intror eq_refl) eq_refl)). Qed.

(** An unlock call that does not get the mutex in time (500 ms) goes on without it and its signal can be lost: thread 2 waits for ever for
    a lock that is free, with everyone else gone. *)
Theorem c19_lost_wakeup_refuted : exists l s, run l s /\ fair_use l /\ inuse s = false /\ pcs s 2 = LW Inf false /\ forall u, u <> 2 -> pcs s u = Out.
Proof.
  pose proof RNil as R. eexists.
  nx (SLock _ 1 Try). nx (SGot _ 1 Try). nx (SFree _ 1 Try). nx (SSet _ 1). nx (SLocked _ 1).
  nx (SLock _ 2 Inf). nx (SGot _ 2 Inf). nx (SUsed _ 2 Inf).
  nx (SUnlock _ 1 true Timed).
  nx (SUBusy _ 1 true Timed). nx (SClear _ 1 true false).
  nx (SSignalNone _ 1 false). nx (SUDone _ 1 false). nx (SWait _ 2 Inf).
  seen_at R. cbn. repeat split; auto 10. intros [|[|[|u]]] H; try reflexivity. congruence.
Qed.

(** A non-trivial case: thread 2 waits while thread 1 processes an RPC, is woken by its unlock and has the lock. *)
Example c19_case : exists l s, run l s /\ fair_use l /\ holds l 2 /\ ~ holds l 1 /\ List.In (1, OUnlockRet 1) l.
Proof.
  pose proof RNil as R. eexists.
  nx (SLock _ 1 Try). nx (SGot _ 1 Try). nx (SFree _ 1 Try). nx (SSet _ 1). nx (SLocked _ 1).
  nx (SLock _ 2 Timed). nx (SGot _ 2 Timed). nx (SUsed _ 2 Timed).
  nx (SWait _ 2 Timed).
  nx (SUnlock _ 1 true Timed). nx (SUGot _ 1 true Timed). nx (SClear _ 1 true true).
 nx (SSignal _ 1 2 Timed true). nx (SUDone _ 1 true).
  nx (SReacq _ 2 Timed). nx (SFree _ 2 Timed). nx (SSet _ 2). nx (SLocked _ 2).
  seen_at R. cbn. repeat split; auto 10.
Qed.
(** And a call that times out. *)
Example c19_timeout_case : exists s d s', during 2 s d /\ step s 2 (OLockRet 0) s' /\ length d = 3.
Proof.
  pose proof RNil as R.
  nx (SLock _ 1 Try). nx (SGot _ 1 Try). nx (SFree _ 1 Try). nx (SSet _ 1). nx (SLocked _ 1).
  eassert (D : during 2 _ _); [eapply DCall; [exact R|eapply (SLock _ 2 Try); reflexivity]|]. cbn [mtx inuse] in D.
  eassert (D1 : during 2 _ _); [eapply DOwn; [exact D|eapply (SGot _ 2 Try); reflexivity]|]. cbn [mtx inuse] in D1.
  eassert (D2 : during 2 _ _); [eapply DOwn; [exact D1|eapply (STryUsed _ 2); reflexivity]|]. cbn [mtx inuse] in D2.
  do 3 eexists. split; [exact D2|]. split; [eapply (SFail _ 2 0); reflexivity|reflexivity].
Qed.

Print Assumptions c19_mutex_partial.
Print Assumptions c19_no_abort_partial.
Print Assumptions c19_timeout.
Print Assumptions c19_no_lost_wakeup_partial.
Print Assumptions c19_foreign_unlock_refuted.
Print Assumptions c19_unused_unlock_refuted.
Print Assumptions c19_lost_wakeup_refuted.
