(** Property C27: removing Call Home binds.  Specification, theorems, examples. *)
From Coq Require Import Ascii String NArith ZArith Bool Lia List Permutation.
From Verif Require Import Bytes CStr ClientMsgs ModInfo.
Import ListNotations.
Local Open Scope N_scope.

(* ================================================================== *)
(** * Specification *)

(** The binds a call asks to remove: the address, port and transport given (a NULL or 0 means any). *)
Definition asked (address : option bytes) (port ti : N) (b : chbind) : Prop :=
  (forall a, address = Some a -> cb_address b = a) /\ (port <> 0 -> cb_port b = port) /\ (ti <> 0 -> cb_ti b = ti).

(* ================================================================== *)
(** * Lemmas *)

Lemma asked_match address port ti b : ch_match address port ti b = true <-> asked address port ti b.
Proof.
  unfold ch_match, asked, streq. rewrite !andb_true_iff, !orb_true_iff, !N.eqb_eq. split.
  - intros [[Ha Hp] Ht]. repeat split; try tauto. intros a ->. now apply beqb_spec.
  - intros (Ha & Hp & Ht). repeat split.
    + destruct address as [a|]; [|reflexivity]. apply beqb_spec. now apply Ha.
    + destruct (N.eq_dec port 0); [left; assumption|right; auto].
    + destruct (N.eq_dec ti 0); [left; assumption|right; auto].
Qed.

Lemma loop_spec m : forall fuel ret passed rest r l, (length rest <= fuel)%nat ->
  ch_del_loop fuel m ret passed rest = (r, l) ->
  exists kept gone, l = passed ++ kept /\ Permutation rest (kept ++ gone) /\ Forall (fun b => m b = true) gone /\
    (r = ret /\ gone = [] /\ Forall (fun b => m b = false) kept /\ kept = rest \/ r = 0%Z /\ gone <> []).
Proof.
  induction fuel as [|f IH]; intros ret passed rest r l Hf H; cbn [ch_del_loop] in H.
  - destruct rest; [|cbn in Hf; lia]. injection H as <- <-. exists [], []. repeat split; auto. 
  - destruct rest as [|x tl].
    { injection H as <- <-. exists [], []. repeat split; rewrite ?app_nil_r; auto. }
    destruct (m x) eqn:Ex.
    + destruct tl as [|y tl'] eqn:Etl.
      { injection H as <- <-. exists [], [x]. rewrite app_nil_r. repeat split; auto. right; split; [reflexivity|discriminate]. }
      rewrite <- Etl in *. assert (Hne : tl <> []) by (rewrite Etl; discriminate).
      pose proof (app_removelast_last y Hne) as Hl.
      apply IH in H.
      2:{ assert (length tl = S (length (removelast tl))) by (rewrite Hl at 1; rewrite app_length; cbn; lia). cbn [length] in Hf. lia. }
      destruct H as (kept & gone & -> & Hp & Hg & Hr).
      exists (last tl y :: kept), (x :: gone). repeat split.
      * rewrite <- app_assoc. reflexivity.
      * rewrite Hl at 1. cbn [app]. etransitivity; [apply perm_skip; symmetry; apply Permutation_cons_append|].
        etransitivity; [apply perm_swap|]. apply perm_skip. etransitivity; [apply perm_skip; exact Hp|].
        apply Permutation_middle.
      * constructor; assumption.
      * right. split; [destruct Hr as [[-> _]|[-> _]]; reflexivity|discriminate].
    + apply IH in H; [|cbn [length] in Hf; lia]. destruct H as (kept & gone & -> & Hp & Hg & Hr).
      exists (x :: kept), gone. rewrite <- app_assoc. repeat split; auto.
      * cbn [app]. apply perm_skip. exact Hp.
      * destruct Hr as [(-> & -> & Hk & ->)|(-> & Hne)]; [left; repeat split; auto|right; auto].
Qed.

Lemma del_spec address port ti l r l' : ch_del_bind address port ti l = (r, l') ->
  exists gone, Permutation l (l' ++ gone) /\ Forall (fun b => ch_match address port ti b = true) gone /\
    (r = (-1)%Z /\ l' = l /\ gone = [] /\ Forall (fun b => ch_match address port ti b = false) l \/ r = 0%Z /\ gone <> []).
Proof.
  intros H.
  assert (G : (address = None /\ port = 0 /\ ti = 0 /\ r = (if (length l =? 0)%nat then -1 else 0)%Z /\ l' = []) \/
              ch_del_loop (length l) (ch_match address port ti) (-1)%Z [] l = (r, l')).
  { unfold ch_del_bind in H. destruct address; [right; exact H|].
    destruct (N.eqb_spec port 0); [|right; exact H]. destruct (N.eqb_spec ti 0); [|right; exact H].
    injection H as <- <-. left; auto. }
  destruct G as [(-> & -> & -> & -> & ->)|G].
  - exists l. split; [reflexivity|]. split.
    + apply Forall_forall. intros b _. reflexivity.
    + destruct l; [left; auto|right; split; [reflexivity|discriminate]].
  - apply loop_spec in G; [|lia]. destruct G as (kept & gone & -> & Hp & Hg & Hr). cbn [app].
    exists gone. split; [exact Hp|split; [exact Hg|]].
    destruct Hr as [(-> & -> & Hk & ->)|(-> & Hne)]; [left; auto|right; auto].
Qed.

(* ================================================================== *)
(** * Theorems *)

(** For every bind table and request: nothing else than binds asked for is removed (the order of the rest
    may change); the call fails exactly when nothing asked for is there, and then changes nothing. *)
Theorem c27_others_kept : forall address port ti l r l',
  ch_del_bind address port ti l = (r, l') ->
  exists gone, Permutation l (l' ++ gone) /\ Forall (asked address port ti) gone /\
    (r = 0%Z \/ r = (-1)%Z) /\ (r = (-1)%Z <-> Forall (fun b => ~ asked address port ti b) l) /\
    (r = (-1)%Z -> l' = l).
Proof.
  intros address port ti l r l' H. destruct (del_spec _ _ _ _ _ _ H) as (gone & Hp & Hg & Hr).
  exists gone. split; [exact Hp|]. split; [eapply Forall_impl; [|exact Hg]; intros b; apply asked_match|].
  destruct Hr as [(-> & -> & -> & Hf)|(-> & Hne)].
  - split; [auto|]. split; [|auto]. split; [intros _|reflexivity].
    eapply Forall_impl; [|exact Hf]. cbv beta. intros b Hb Ha. apply asked_match in Ha. congruence.
  - split; [auto|]. split; [|discriminate]. split; [discriminate|]. intros Hf. exfalso.
    destruct gone as [|g gone]; [contradiction|]. inversion Hg; subst.
    assert (Hin : In g l).
    { eapply Permutation_in; [symmetry; exact Hp|]. apply in_or_app; right; left; reflexivity. }
    rewrite Forall_forall in Hf. apply (Hf g Hin). now apply asked_match.
Qed.

(** No bind asked for is left when at most one was there, or when everything is asked for. *)
Theorem c27_none_left_partial : forall address port ti l r l',
  ch_del_bind address port ti l = (r, l') ->
  (exists a x b, l = a ++ x :: b /\ Forall (fun y => ~ asked address port ti y) (a ++ b)) \/
  Forall (fun y => ~ asked address port ti y) l \/ (address = None /\ port = 0 /\ ti = 0) ->
  Forall (fun b => ~ asked address port ti b) l'.
Proof.
  intros address port ti l r l' H Hc.
  destruct Hc as [(a & x & b & -> & Hf)|[Hf|(-> & -> & ->)]].
  3:{ cbn in H. injection H as <- <-. constructor. }
  2:{ destruct (del_spec _ _ _ _ _ _ H) as (gone & Hp & _). rewrite Forall_forall in *. intros y Hy. apply Hf.
      eapply Permutation_in; [symmetry; exact Hp|]. apply in_or_app; auto. }
  destruct (del_spec _ _ _ _ _ _ H) as (gone & Hp & Hg & Hr). destruct Hr as [(_ & -> & _ & Hn)|(_ & Hne)].
  { eapply Forall_impl; [|exact Hn]. cbv beta. intros y Hy Ha. apply asked_match in Ha. congruence. }
  destruct gone as [|g gone]; [contradiction|]. inversion Hg; subst.
  assert (Hp1 : Permutation (x :: a ++ b) (g :: l' ++ gone)).
  { etransitivity; [apply Permutation_middle|]. etransitivity; [exact Hp|]. symmetry. apply Permutation_middle. }
  assert (Hgx : g = x).
  { assert (Hin : In g (x :: a ++ b)) by (eapply Permutation_in; [symmetry; exact Hp1|left; reflexivity]).
    destruct Hin as [<-|Hin]; [reflexivity|]. rewrite Forall_forall in Hf. exfalso. apply (Hf g Hin). now apply asked_match. }
  subst g. apply Permutation_cons_inv in Hp1. rewrite Forall_forall in *. intros y Hy. apply Hf.
  eapply Permutation_in; [symmetry; exact Hp1|]. apply in_or_app; auto.
Qed.

(** Repeating the call until it fails removes exactly the binds asked for. *)
Fixpoint del_repeat (n : nat) (address : option bytes) (port ti : N) (l : list chbind) : Z * list chbind :=
  match n with
  | O => ch_del_bind address port ti l
  | S n' => match ch_del_bind address port ti l with
            | (0%Z, l') => del_repeat n' address port ti l'
            | r => r
            end
  end.
Theorem c27_repeated : forall address port ti l, exists n l' gone,
  del_repeat n address port ti l = ((-1)%Z, l') /\ Permutation l (l' ++ gone) /\
  Forall (asked address port ti) gone /\ Forall (fun b => ~ asked address port ti b) l'.
Proof.
  intros address port ti l. remember (length l) as k eqn:Hk. revert l Hk.
  induction k as [k IH] using lt_wf_ind. intros l ->.
  destruct (ch_del_bind address port ti l) as [r l1] eqn:E.
  destruct (c27_others_kept _ _ _ _ _ _ E) as (gone & Hp & Hg & Hr & Hiff & Heq).
  destruct Hr as [-> | ->].
  - assert (Hl : (length l1 < length l)%nat).
    { destruct (del_spec _ _ _ _ _ _ E) as (g2 & Hp2 & _ & [(Hx & _)|(_ & Hne)]); [discriminate|].
      rewrite (Permutation_length Hp2), app_length. destruct g2; [contradiction|cbn; lia]. }
    destruct (IH _ Hl l1 eq_refl) as (n & l' & g1 & Hn & Hp1 & Hg1 & Hf).
    exists (S n), l', (g1 ++ gone). cbn [del_repeat]. rewrite E. split; [exact Hn|]. split.
    + rewrite app_assoc. etransitivity; [exact Hp|]. apply Permutation_app_tail. exact Hp1.
    + split; [apply Forall_app; auto|exact Hf].
  - exists 0%nat, l1, []. cbn [del_repeat]. rewrite app_nil_r. rewrite (Heq eq_refl) in *.
    split; [exact E|]. split; [reflexivity|]. split; [constructor|]. now apply Hiff.
Qed.

(** The claim as stated is false: with two binds of the same address, removing by address leaves the second. *)
Theorem c27_left_over_refuted : exists address l l',
  ch_del_bind (Some address) 0 0 l = (0%Z, l') /\ exists b, In b l' /\ asked (Some address) 0 0 b.
Proof.
  exists (bs "::"), [mkCB (bs "::") 4334 1 3; mkCB (bs "::") 4335 2 4], [mkCB (bs "::") 4335 2 4].
  split; [reflexivity|]. eexists. split; [left; reflexivity|].
  split; [intros a [= <-]; reflexivity|split; intros H; exfalso; apply H; reflexivity].
Qed.

(** One of three binds is removed by address and port. *)
Example c27_example :
  ch_del_bind (Some (bs "::")) 4334 0
    [mkCB (bs "::") 4334 1 3; mkCB (bs "::") 4335 2 4; mkCB (bs "127.0.0.1") 4334 1 5]
  = (0%Z, [mkCB (bs "127.0.0.1") 4334 1 5; mkCB (bs "::") 4335 2 4]).
Proof. reflexivity. Qed.

Print Assumptions c27_others_kept.
Print Assumptions c27_none_left_partial.
Print Assumptions c27_repeated.
Print Assumptions c27_left_over_refuted.
