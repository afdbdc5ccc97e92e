(** Property C46: the subscription status. *)
From Coq Require Import NArith ZArith List Lia Arith Bool.
From Verif Require Import Notif.
Import ListNotations.

(** Specification: numbers of increments and of effective decrements (those at a moment when more increments than effective
    decrements had happened). *)
Definition incs (l : list ncall) : nat := length (filter (fun c => match c with NInc => true | NDec => false end) l).
Definition decs (l : list ncall) : nat := length (filter (fun c => match c with NInc => false | NDec => true end) l).
Inductive effective : list ncall -> nat -> Prop :=
| EffNil : effective [] 0
| EffInc l e : effective l e -> effective (l ++ [NInc]) e
| EffDec l e : effective l e -> incs l > e -> effective (l ++ [NDec]) (S e)
| EffZero l e : effective l e -> incs l <= e -> effective (l ++ [NDec]) e.

Lemma incs_app a b : incs (a ++ b) = incs a + incs b.
Proof. unfold incs. now rewrite filter_app, app_length. Qed.
Lemma decs_app a b : decs (a ++ b) = decs a + decs b.
Proof. unfold decs. now rewrite filter_app, app_length. Qed.
Lemma run_snoc l c : notif_run (l ++ [c]) = notif_step (notif_run l) c.
Proof. unfold notif_run. now rewrite fold_left_app. Qed.

Lemma counter l e : effective l e -> (N.of_nat (incs l) < 4294967296)%N -> e <= incs l /\ notif_run l = N.of_nat (incs l - e).
Proof.
  intros H. induction H as [|l e H IH|l e H IH Hgt|l e H IH Hle]; intros Hb.
  - split; [lia|reflexivity].
  - rewrite incs_app in *. change (incs [NInc]) with 1 in *. destruct IH as [Hl IH]; [lia|]. split; [lia|].
    rewrite run_snoc, IH. cbn [notif_step]. rewrite N.mod_small by lia. lia.
  - rewrite incs_app in *. change (incs [NDec]) with 0 in *. destruct IH as [Hl IH]; [lia|]. split; [lia|].
    rewrite run_snoc, IH. cbn [notif_step]. destruct (N.eqb_spec (N.of_nat (incs l - e)) 0); lia.
  - rewrite incs_app in *. change (incs [NDec]) with 0 in *. destruct IH as [Hl IH]; [lia|]. split; [lia|].
    rewrite run_snoc, IH. cbn [notif_step]. destruct (N.eqb_spec (N.of_nat (incs l - e)) 0); lia.
Qed.

Lemma effective_total : forall l, exists e, effective l e.
Proof.
  induction l as [|c l [e He]] using rev_ind; [exists 0; constructor|]. destruct c; [exists e; now constructor|].
  destruct (le_lt_dec (incs l) e); [exists e; now constructor|exists (S e); now constructor].
Qed.

(** With fewer than 2^32 increments, the status is on exactly when more increments than effective decrements happened. *)
Theorem c46_status_partial : forall l e, (N.of_nat (incs l) < 4294967296)%N -> effective l e ->
  (notif_on l = true <-> incs l > e).
Proof.
  intros l e Hb He. destruct (counter l e He Hb) as [Hl E]. unfold notif_on. rewrite E. destruct (N.eqb_spec (N.of_nat (incs l - e)) 0); cbn; split; try discriminate; lia.
Qed.

(** The same without counting effective decrements: on exactly when in some stretch of calls up to now there are more
    increments than decrements. *)
Theorem c46_suffix_partial : forall l, (N.of_nat (incs l) < 4294967296)%N ->
  (notif_on l = true <-> exists l1 l2, l = l1 ++ l2 /\ incs l2 > decs l2).
Proof.
  assert (HC : forall l, (N.of_nat (incs l) < 4294967296)%N ->
     (forall l1 l2, l = l1 ++ l2 -> (Z.of_nat (incs l2) - Z.of_nat (decs l2) <= Z.of_N (notif_run l))%Z) /\
     exists l1 l2, l = l1 ++ l2 /\ (Z.of_nat (incs l2) - Z.of_nat (decs l2) = Z.of_N (notif_run l))%Z).
  { induction l as [|c l IH] using rev_ind; intros Hb.
    - split; [|exists [], []; split; reflexivity]. intros l1 l2 E. symmetry in E. apply app_eq_nil in E as [_ ->]. cbn. lia.
    - rewrite incs_app in Hb. destruct IH as [IU (m1 & m2 & E & IE)]; [lia|].
      assert (HX : (notif_run l <= N.of_nat (incs l))%N) by (destruct (effective_total l) as [e He]; destruct (counter l e He) as [_ ->]; lia).
      assert (HS : forall l1 l2, l ++ [c] = l1 ++ l2 -> l2 = [] \/ exists l2', l2 = l2' ++ [c] /\ l = l1 ++ l2').
      { intros l1 l2 EQ. destruct l2 as [|x l2 _] using rev_ind; [now left|right]. rewrite app_assoc in EQ. apply app_inj_tail in EQ as [-> ->]. eauto. }
      rewrite run_snoc. destruct c; cbn [notif_step].
      + change (incs [NInc]) with 1 in Hb. rewrite N.mod_small by lia. split.
        * intros l1 l2 EQ. destruct (HS _ _ EQ) as [->|(l2' & -> & EL)]; [cbn; lia|]. specialize (IU _ _ EL). rewrite incs_app, decs_app.
          change (incs [NInc]) with 1. change (decs [NInc]) with 0. lia.
        * exists m1, (m2 ++ [NInc]). split; [rewrite E; now rewrite app_assoc|]. rewrite incs_app, decs_app. change (incs [NInc]) with 1. change (decs [NInc]) with 0. lia.
      + destruct (N.eqb_spec (notif_run l) 0) as [E0|E0].
        * split; [|exists (l ++ [NDec]), []; split; [now rewrite app_nil_r|rewrite E0; reflexivity]].
          intros l1 l2 EQ. destruct (HS _ _ EQ) as [->|(l2' & -> & EL)]; [cbn; lia|]. specialize (IU _ _ EL). rewrite incs_app, decs_app.
          change (incs [NDec]) with 0. change (decs [NDec]) with 1. lia.
        * split.
          -- intros l1 l2 EQ. destruct (HS _ _ EQ) as [->|(l2' & -> & EL)]; [cbn; lia|]. specialize (IU _ _ EL). rewrite incs_app, decs_app.
             change (incs [NDec]) with 0. change (decs [NDec]) with 1. lia.
          -- exists m1, (m2 ++ [NDec]). split; [rewrite E; now rewrite app_assoc|]. rewrite incs_app, decs_app. change (incs [NDec]) with 0. change (decs [NDec]) with 1. lia. }
  intros l Hb. destruct (HC l Hb) as [HU (l1 & l2 & E & HE)]. unfold notif_on. split.
  - intros H. exists l1, l2. split; [exact E|]. destruct (N.eqb_spec (notif_run l) 0); [discriminate|lia].
  - intros (m1 & m2 & EM & HM). specialize (HU _ _ EM). destruct (N.eqb_spec (notif_run l) 0); [lia|reflexivity].
Qed.

(** A decrement at zero leaves it at zero. *)
Theorem c46_zero : forall l, notif_on l = false -> notif_on (l ++ [NDec]) = false.
Proof.
  intros l. unfold notif_on. rewrite run_snoc. cbn [notif_step]. destruct (N.eqb_spec (notif_run l) 0) as [->|]; [reflexivity|discriminate].
Qed.

Lemma rep_S k : repeat NInc (S k) = repeat NInc k ++ [NInc].
Proof. cbn [repeat]. apply repeat_cons. Qed.
Lemma incs_repeat k : incs (repeat NInc k) = k /\ effective (repeat NInc k) 0.
Proof.
  induction k as [|k [IH1 IH2]]; [split; [reflexivity|constructor]|]. rewrite rep_S. split.
  - rewrite incs_app, IH1. cbn. lia.
  - now constructor.
Qed.

(** Without the bound it is false: 2^32 increments, no decrement, status off. *)
Theorem c46_wrap_refuted : exists l, decs l = 0 /\ incs l > 0 /\ notif_on l = false.
Proof.
  exists (repeat NInc (S (N.to_nat 4294967295))). destruct (incs_repeat (N.to_nat 4294967295)) as [H1 H2].
  destruct (counter _ _ H2) as [_ HC]; [rewrite H1, N2Nat.id; lia|]. rewrite rep_S. rewrite decs_app, incs_app, H1.
  assert (HD : forall k, decs (repeat NInc k) = 0) by (induction k; [reflexivity|assumption]). rewrite HD. change (decs [NInc]) with 0. change (incs [NInc]) with 1.
  split; [reflexivity|]. split; [lia|]. unfold notif_on. rewrite run_snoc, HC, H1. rewrite Nat.sub_0_r, N2Nat.id. reflexivity.
Qed.

(** A non-trivial case: one decrement too many in the middle. *)
Example c46_case : effective [NInc; NDec; NDec; NInc] 1 /\ notif_on [NInc; NDec; NDec; NInc] = true.
Proof.
  split; [|reflexivity]. apply (EffInc [NInc; NDec; NDec]). apply (EffZero [NInc; NDec]); [|cbn; lia]. apply (EffDec [NInc]); [|cbn; lia].
  apply (EffInc []). constructor.
Qed.

Print Assumptions c46_status_partial.
Print Assumptions c46_suffix_partial.
Print Assumptions c46_zero.
Print Assumptions c46_wrap_refuted.
