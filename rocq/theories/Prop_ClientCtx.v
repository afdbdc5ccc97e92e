(** Properties of the contexts of client threads: C150, C151. *)
From Coq Require Import List Arith Bool NArith Lia.
From Verif Require NotifThr Prop_NotifThr.
From Verif Require Import ClientCtx.
Import ListNotations.

(* ------------------------------------------------------------------ *)
(** ** Specification *)

Fixpoint along (P : st -> event -> Prop) (s : st) (tr : list event) : Prop :=
  match tr with [] => True | e :: r => P s e /\ along P (step s e) r end.
(** A thread has a context. *)
Definition uses (s : st) (c : nat) : Prop := exists h, In h (thrs s) /\ h_cur h = Some c.
(** How the library is to be used: a context that is set is one a thread still has (or that of the main thread). *)
Definition contract (s : st) (e : event) : Prop := match e with ESet _ c => c = 0 \/ uses s c | _ => True end.
(** No thread changes its context or ends while another does. *)
Definition apart (s : st) (e : event) : Prop :=
  match e with ESet _ _ | EEnd _ => forall h, In h (thrs s) -> h_pc h = Idle | _ => True end.
(** There are never 2^32 threads. *)
Definition few (s : st) (e : event) : Prop := (N.of_nat (S (length (thrs s))) < 4294967296)%N.
Definition alive (s : st) (c : nat) : Prop := exists x, nth_error (ctxs s) c = Some x /\ c_alive x = true.

(* ------------------------------------------------------------------ *)
Notation num := Prop_NotifThr.num. Notation b2n := Prop_NotifThr.b2n.
Definition has (c : nat) (h : thr) : bool := match h_cur h with Some d => Nat.eqb d c | None => false end.
Definition mid (h : thr) : bool := match h_pc h with Idle => false | _ => true end.
Definition users (s : st) (c : nat) : nat := num (has c) (thrs s).

Lemma upd_num f (l : list thr) i x y : nth_error l i = Some x -> num f (upd l i y) + b2n (f x) = num f l + b2n (f y).
Proof. exact (Prop_NotifThr.set_num f l i x y). Qed.
Lemma upd_in {A} (l : list A) i y z : In z (upd l i y) -> z = y \/ In z l.
Proof. exact (Prop_NotifThr.set_in l i y z). Qed.
Lemma nth_upd {A} (l : list A) i j x y : nth_error l i = Some x -> nth_error (upd l i y) j = if Nat.eqb i j then Some y else nth_error l j.
Proof. exact (Prop_NotifThr.nth_set l i j x y). Qed.
Lemma upd_length {A} (l : list A) i x y : nth_error l i = Some x -> length (upd l i y) = length l.
Proof.
  intros H. apply nth_error_split in H as (a & b & -> & <-). unfold upd. rewrite firstn_app, firstn_all, Nat.sub_diag. cbn [firstn]. rewrite app_nil_r.
  rewrite skipn_app, skipn_all2 by lia. replace (S (length a) - length a) with 1 by lia. cbn. now rewrite !app_length.
Qed.
Lemma users_pos s c : users s c > 0 <-> uses s c.
Proof.
  unfold users, uses. rewrite Prop_NotifThr.num_pos. unfold has. split; intros (h & I & H); exists h; split; auto.
  - destruct (h_cur h) as [d|]; [|discriminate]. apply Nat.eqb_eq in H. congruence.
  - rewrite H. apply Nat.eqb_refl.
Qed.
Lemma users_le s c : users s c <= length (thrs s).
Proof. unfold users, Prop_NotifThr.num. induction (thrs s) as [|h l IH]; cbn; [lia|]. destruct (has c h); cbn; lia. Qed.

Definition target (s : st) (n : nat) : Prop := n = 0 \/ users s n > 0.
Definition pc_ok (s : st) (h : thr) : Prop :=
  match h_pc h with
  | Idle => True
  | Dec c n => h_cur h = Some c /\ match n with Some m => m <> c /\ target s m | None => True end
  | Dec2 c r n => h_cur h = Some c /\ match n with Some m => m <> c /\ target s m | None => True end /\ (c <> 0 -> r = N.of_nat (users s c))
  | Inc n => h_cur h = None /\ target s n
  | Inc2 n r => h_cur h = None /\ target s n /\ (n <> 0 -> r = N.of_nat (users s n))
  end.
Record inv (s : st) : Prop := mkInv {
  i_main : exists x, nth_error (ctxs s) 0 = Some x /\ c_alive x = true;
  i_ctx : forall c x, c <> 0 -> nth_error (ctxs s) c = Some x -> (c_alive x = true <-> users s c > 0) /\ (c_alive x = true -> c_ref x = N.of_nat (users s c));
  i_cur : forall h c, In h (thrs s) -> h_cur h = Some c -> c < length (ctxs s);
  i_mid : num mid (thrs s) <= 1;
  i_pc : forall h, In h (thrs s) -> pc_ok s h;
  i_ended : forall h, In h (thrs s) -> h_ended h = true -> h_cur h = None /\ h_pc h = Idle;
  i_bad : bad s = false }.

Lemma inv_alive s c x : inv s -> target s c -> nth_error (ctxs s) c = Some x -> c_alive x = true.
Proof.
  intros I T E. destruct (Nat.eq_dec c 0) as [->|N].
  - destruct (i_main s I) as (y & E2 & A). congruence.
  - destruct T as [T|T]; [contradiction|]. now apply (i_ctx s I c x N E).
Qed.
Lemma inv_some s c : inv s -> target s c -> exists x, nth_error (ctxs s) c = Some x /\ c_alive x = true.
Proof.
  intros I T. assert (c < length (ctxs s)) as L.
  { destruct T as [->|T]; [destruct (i_main s I) as (x & E & _); apply nth_error_Some; congruence|]. apply users_pos in T as (h & H & C). exact (i_cur s I h c H C). }
  destruct (nth_error (ctxs s) c) as [x|] eqn:E; [|apply nth_error_None in E; lia]. exists x. split; [reflexivity|]. now apply (inv_alive s c x).
Qed.
Lemma pc_ext s s' h : (forall c, target s c -> target s' c) -> (forall c, c <> 0 -> target s c -> users s' c = users s c) ->
  (h_cur h <> None -> forall c, h_cur h = Some c -> c <> 0 -> users s' c = users s c) -> pc_ok s h -> pc_ok s' h.
Proof.
  unfold pc_ok. intros T U C. destruct (h_pc h) as [|c [m|]|c r [m|]|n|n r]; auto.
  - intros (E & N & TT). auto.
  - intros (E & (N & TT) & R). repeat split; auto. intros X. rewrite (C ltac:(congruence) c E X). auto.
  - intros (E & _ & R). repeat split; auto. intros X. rewrite (C ltac:(congruence) c E X). auto.
  - intros (E & TT). auto.
  - intros (E & TT & R). repeat split; auto. intros X. rewrite (U n X TT). auto.
Qed.

Lemma inv_init : inv init.
Proof.
  constructor; cbn.
  - eauto.
  - intros [|[|c]] x N E; [contradiction|discriminate|discriminate].
  - intros h c [<-|[]]; discriminate.
  - unfold Prop_NotifThr.num. cbn. lia.
  - intros h [<-|[]]. exact Logic.I.
  - intros h [<-|[]]; discriminate.
  - reflexivity.
Qed.

(** A thread that is idle, or in the middle with all others idle, changes: the parts of the invariant that only depend on it. *)
Lemma others_idle s t h : inv s -> nth_error (thrs s) t = Some h -> mid h = true -> forall h' y, In h' (upd (thrs s) t y) -> h' = y \/ (In h' (thrs s) /\ mid h' = false).
Proof.
  intros I E M h' y H. pose proof (upd_num mid (thrs s) t h (mkH None Idle false) E) as U. cbn [mid h_pc Prop_NotifThr.b2n] in U. rewrite M in U.
  cbn [Prop_NotifThr.b2n] in U. pose proof (i_mid s I) as L.
  unfold upd in *. apply in_app_or in H. assert (In h' (firstn t (thrs s)) \/ In h' (skipn (S t) (thrs s)) -> mid h' = false) as K.
  { assert (num mid (firstn t (thrs s) ++ mkH None Idle false :: skipn (S t) (thrs s)) = 0) as Z by lia.
    intros D. apply (proj1 (Prop_NotifThr.num_zero _ _) Z). apply in_or_app. destruct D; [now left|right; now right]. }
  destruct H as [H|[H|H]]; auto.
  - right. split; auto. rewrite <- (firstn_skipn t (thrs s)). apply in_or_app. now left.
  - right. split; auto. rewrite <- (firstn_skipn (S t) (thrs s)). apply in_or_app. now right.
Qed.

Lemma inv_new s : inv s -> inv (step s ENew).
Proof.
  intros I. cbn. destruct I as [Im Ic Icur Imid Ipc Ie Ib].
  assert (forall c, users (mkS (ctxs s) (thrs s ++ [mkH None Idle false]) (bad s)) c = users s c) as U.
  { intros c. unfold users. cbn. rewrite Prop_NotifThr.num_app. unfold Prop_NotifThr.num at 2. cbn. lia. }
  constructor; cbn; auto.
  - intros c x N E. rewrite U. auto.
  - intros h c H. apply in_app_or in H as [H|[<-|[]]]; [now apply Icur|discriminate].
  - rewrite Prop_NotifThr.num_app. unfold Prop_NotifThr.num at 2. cbn. lia.
  - intros h H. apply in_app_or in H as [H|[<-|[]]]; [|exact Logic.I]. apply (pc_ext s); auto; unfold target; intros; rewrite U; auto.
  - intros h H. apply in_app_or in H as [H|[<-|[]]]; [now apply Ie|discriminate].
Qed.
(** nc_client_context_location() keeps the invariant, and gives the context of the thread. *)
Lemma inv_loc s t h : inv s -> nth_error (thrs s) t = Some h -> h_pc h = Idle -> h_ended h = false ->
  let '(s1, c) := location s t h in
  inv s1 /\ nth_error (thrs s1) t = Some (mkH (Some c) Idle false) /\ length (thrs s1) = length (thrs s) /\ target s1 c /\
  (forall n, target s n -> target s1 n) /\ (forall h', In h' (thrs s1) -> h' = mkH (Some c) Idle false \/ In h' (thrs s)).
Proof.
  intros I E P EN. unfold location. destruct (h_cur h) as [c|] eqn:C.
  - assert (h = mkH (Some c) Idle false) as <- by (destruct h as [a b d]; cbn in *; congruence). split; [exact I|]. split; [exact E|]. split; [reflexivity|].
    split; [right; apply users_pos; exists h; split; [eapply nth_error_In; eauto|exact C]|]. auto.
  - rewrite P, EN. destruct I as [Im Ic Icur Imid Ipc Ie Ib].
    assert (forall d, b2n (has d h) = 0) as H0 by (intros d; unfold has; now rewrite C).
    destruct (Nat.eqb_spec t 0) as [->|T].
    + set (y := mkH (Some 0) Idle false). assert (forall c, c <> 0 -> users (set_thr s 0 y) c = users s c) as U.
      { intros c N. pose proof (upd_num (has c) (thrs s) 0 h y E) as X. rewrite H0 in X. unfold users, set_thr. cbn [thrs]. change (has c y) with (Nat.eqb 0 c) in X.
        destruct c; [contradiction|]. cbn [Prop_NotifThr.b2n Nat.eqb] in X. lia. }
      assert (forall n, target s n -> target (set_thr s 0 y) n) as TG.
      { intros n [->|X]; [now left|]. destruct (Nat.eq_dec n 0); [now left|right; now rewrite U]. }
      split; [|split; [cbn [set_thr thrs]; rewrite (nth_upd _ _ _ _ _ E); reflexivity|split; [cbn [set_thr thrs]; eapply upd_length; eauto|split; [now left|split; [exact TG|]]]]].
      2:{ intros h' X. apply upd_in in X as [->|X]; auto. }
      constructor; cbn [set_thr ctxs thrs bad]; auto.
      * intros c x N X. fold (set_thr s 0 y). rewrite (U c N). auto.
      * intros h' c X. apply upd_in in X as [->|X]; [|now apply Icur]. intros [= <-]. destruct Im as (x & X & _). apply nth_error_Some. congruence.
      * pose proof (upd_num mid (thrs s) 0 h y E) as X. change (mid y) with false in X. cbn [Prop_NotifThr.b2n Nat.eqb] in X. lia.
      * intros h' X. apply upd_in in X as [->|X]; [exact Logic.I|]. apply (pc_ext s); auto.
      * intros h' X. apply upd_in in X as [->|X]; [discriminate|now apply Ie].
    + set (n := length (ctxs s)). set (y := mkH (Some n) Idle false). set (s1 := mkS _ _ _).
      assert (users s n = 0) as Z.
      { destruct (users s n) eqn:Q; [reflexivity|]. assert (uses s n) as (h' & X & Y) by (apply users_pos; lia). apply Icur in Y; auto. unfold n in Y. lia. }
      assert (forall c, users s1 c = users s c + b2n (Nat.eqb n c)) as U.
      { intros c. pose proof (upd_num (has c) (thrs s) t h y E) as X. rewrite H0 in X. unfold users, s1. cbn [thrs]. change (has c y) with (Nat.eqb n c) in X. lia. }
      assert (n <> 0) as N0. { unfold n. destruct Im as (x & X & _). destruct (ctxs s); [discriminate|cbn; lia]. }
      assert (forall m, target s m -> target s1 m) as TG. { intros m [->|X]; [now left|right]. rewrite U. lia. }
      assert (forall c, c <> 0 -> target s c -> users s1 c = users s c) as UT.
      { intros c X [Y|Y]; [contradiction|]. rewrite U. destruct (Nat.eqb_spec n c) as [<-|]; [lia|cbn; lia]. }
      split; [|split; [cbn [s1 thrs]; rewrite (nth_upd _ _ _ _ _ E), Nat.eqb_refl; reflexivity|split; [cbn [s1 thrs]; eapply upd_length; eauto|split; [|split; [exact TG|]]]]].
      2:{ right. rewrite U, Nat.eqb_refl. cbn. lia. }
      2:{ intros h' X. apply upd_in in X as [->|X]; auto. }
      constructor; cbn [s1 ctxs thrs bad]; auto.
      * destruct Im as (x & X & A). exists x. split; auto. rewrite nth_error_app1; auto. apply nth_error_Some. congruence.
      * intros c x N X. rewrite U. destruct (Nat.eqb_spec n c) as [<-|NE].
        -- rewrite Z. unfold n in X. rewrite nth_error_app2, Nat.sub_diag in X by lia. injection X as <-. cbn. split; [split; [lia|reflexivity]|reflexivity].
        -- cbn [Prop_NotifThr.b2n]. rewrite Nat.add_0_r. apply Ic; auto. destruct (Nat.lt_ge_cases c n) as [L|L].
           ++ now rewrite nth_error_app1 in X by exact L.
           ++ rewrite nth_error_app2 in X by exact L. unfold n in NE. destruct (c - length (ctxs s)) as [|k] eqn:Q; [fold n in Q; lia|destruct k; discriminate].
      * intros h' c X. rewrite app_length. cbn. apply upd_in in X as [->|X]; [intros [= <-]; unfold n; lia|]. intros Y. specialize (Icur _ _ X Y). lia.
      * pose proof (upd_num mid (thrs s) t h y E) as X. change (mid y) with false in X. cbn [Prop_NotifThr.b2n Nat.eqb] in X. lia.
      * intros h' X. apply upd_in in X as [->|X]; [exact Logic.I|]. apply (pc_ext s); auto. intros _ c Y NZ. apply UT; auto. right. apply users_pos. exists h'. auto.
      * intros h' X. apply upd_in in X as [->|X]; [discriminate|now apply Ie].
Qed.
(** A thread that is idle while all are begins to change its context or to end. *)
Lemma inv_begin s t c n : inv s -> nth_error (thrs s) t = Some (mkH (Some c) Idle false) -> (forall h, In h (thrs s) -> h_pc h = Idle) ->
  match n with Some m => m <> c /\ target s m | None => True end -> inv (set_thr s t (mkH (Some c) (Dec c n) false)).
Proof.
  intros I E A T. destruct I as [Im Ic Icur Imid Ipc Ie Ib]. set (y := mkH (Some c) (Dec c n) false).
  assert (forall d, users (set_thr s t y) d = users s d) as U.
  { intros d. pose proof (upd_num (has d) (thrs s) t _ y E) as X. change (has d y) with (Nat.eqb c d) in X. change (has d (mkH (Some c) Idle false)) with (Nat.eqb c d) in X. unfold users, set_thr. cbn [thrs]. lia. }
  constructor; cbn [set_thr ctxs thrs bad]; auto.
  - intros d x N X. fold (set_thr s t y). rewrite U. auto.
  - intros h d X. apply upd_in in X as [->|X]; [|now apply Icur]. intros [= <-]. apply (Icur (mkH (Some c) Idle false)); [eapply nth_error_In; eauto|reflexivity].
  - pose proof (upd_num mid (thrs s) t _ y E) as X. change (mid y) with true in X. change (mid (mkH (Some c) Idle false)) with false in X. cbn [Prop_NotifThr.b2n] in X.
    assert (num mid (thrs s) = 0) as Z; [|lia]. apply Prop_NotifThr.num_zero. intros h H. unfold mid. now rewrite (A h H).
  - intros h X. fold (set_thr s t y). apply upd_in in X as [->|X].
    + cbn. split; [reflexivity|]. destruct n; auto. destruct T as [T1 T2]. split; auto. unfold target. rewrite U. exact T2.
    + unfold pc_ok. now rewrite (A h X).
  - intros h X. apply upd_in in X as [->|X]; [discriminate|now apply Ie].
Qed.
(** The middle of a change. *)
Lemma inv_go s t h : inv s -> few s (EStep t) -> nth_error (thrs s) t = Some h -> inv (go s t h).
Proof.
  intros I F E. unfold go. destruct (h_pc h) as [|c n|c r n|n|n r] eqn:P; [exact I| | | | ];
    assert (mid h = true) as M by (unfold mid; now rewrite P);
    pose proof (i_pc s I h (nth_error_In _ _ E)) as PC; unfold pc_ok in PC; rewrite P in PC;
    assert (h_ended h = false) as EN by (destruct (h_ended h) eqn:Q; [destruct (i_ended s I h (nth_error_In _ _ E) Q); congruence|reflexivity]);
    pose proof (others_idle s t h I E M) as O; pose proof (fun y => upd_num mid (thrs s) t h y E) as NM; rewrite M in NM; pose proof (i_mid s I) as IM.
  - destruct PC as (C & T). assert (users s c > 0) as UC by (apply users_pos; exists h; split; [eapply nth_error_In; eauto|exact C]).
    destruct (inv_some s c I (or_intror UC)) as (x & X & A). rewrite X, A. set (y := mkH (h_cur h) (Dec2 c (c_ref x) n) (h_ended h)).
    assert (forall d, users (set_thr s t y) d = users s d) as U.
    { intros d. pose proof (upd_num (has d) (thrs s) t h y E) as Q. change (has d y) with (has d h) in Q. unfold users, set_thr. cbn [thrs]. lia. }
    pose proof I as [Im Ic Icur Imid Ipc Ie Ib]. constructor; cbn [set_thr ctxs thrs bad]; auto; fold (set_thr s t y).
    + intros d z N Z. rewrite U. auto.
    + intros h' d H. apply upd_in in H as [->|H]; [|now apply Icur]. cbn. apply Icur. eapply nth_error_In; eauto.
    + specialize (NM y). change (mid y) with true in NM. cbn [Prop_NotifThr.b2n] in NM. lia.
    + intros h' H. apply O in H as [->|[H HM]].
      * cbn. split; [exact C|]. split; [destruct n; auto; destruct T; split; auto; unfold target; now rewrite U|]. intros N. rewrite U. now apply (Ic c x N X).
      * unfold pc_ok. unfold mid in HM. now destruct (h_pc h').
    + intros h' H. apply upd_in in H as [->|H]; [cbn; congruence|now apply Ie].
  - destruct PC as (C & T & R). assert (users s c > 0) as UC by (apply users_pos; exists h; split; [eapply nth_error_In; eauto|exact C]).
    destruct (inv_some s c I (or_intror UC)) as (x & X & A). rewrite X, A. cbv zeta. set (r1 := ((r + M32 - 1) mod M32)%N).
    set (y := match n with Some c2 => mkH None (Inc c2) (h_ended h) | None => mkH None Idle true end). set (x1 := mkC r1 _ _).
    set (s1 := set_thr (set_ctx s c x1) t y).
    assert (forall d, users s1 d = users s d - b2n (Nat.eqb c d)) as U.
    { intros d. pose proof (upd_num (has d) (thrs s) t h y E) as Q. assert (has d y = false) as Q2 by (unfold y; now destruct n). rewrite Q2 in Q.
      assert (has d h = Nat.eqb c d) as Q3 by (unfold has; now rewrite C). rewrite Q3 in Q. unfold users, s1. cbn [set_thr set_ctx thrs]. cbn [Prop_NotifThr.b2n] in Q. lia. }
    assert (c <> 0 -> r1 = N.of_nat (users s c - 1)) as R1.
    { intros N. specialize (R N). unfold r1. rewrite R. unfold few in F. pose proof (users_le s c) as L. unfold M32.
      replace (N.of_nat (users s c) + 4294967296 - 1)%N with (N.of_nat (users s c - 1) + 1 * 4294967296)%N by lia. rewrite N.mod_add by lia. apply N.mod_small. lia. }
    assert (forall d z, d <> c -> nth_error (ctxs s1) d = Some z -> nth_error (ctxs s) d = Some z) as CD.
    { intros d z N. unfold s1. cbn [set_thr set_ctx ctxs]. rewrite (nth_upd _ _ _ _ _ X). destruct (Nat.eqb_spec c d); [congruence|auto]. }
    pose proof I as [Im Ic Icur Imid Ipc Ie Ib]. constructor; unfold s1 at 1; cbn [set_thr set_ctx ctxs thrs bad]; auto.
    + rewrite (nth_upd _ _ _ _ _ X). destruct (Nat.eqb_spec c 0) as [->|N]; [|exact Im]. exists x1. split; [reflexivity|]. unfold x1. cbn. now destruct (r1 =? 0)%N.
    + intros d z N Z. destruct (Nat.eq_dec d c) as [->|NE].
      * rewrite (nth_upd _ _ _ _ _ X), Nat.eqb_refl in Z. injection Z as <-. specialize (R1 N). cbn [x1 c_alive c_ref]. rewrite U, Nat.eqb_refl. cbn [Prop_NotifThr.b2n]. rewrite R1.
        destruct (N.eqb_spec (N.of_nat (users s c - 1)) 0) as [Z|Z].
        -- destruct (Nat.eqb_spec c 0); [contradiction|]. split; [split; [discriminate|lia]|discriminate].
        -- split; [split; [lia|reflexivity]|reflexivity].
      * rewrite U. destruct (Nat.eqb_spec c d); [congruence|]. cbn [Prop_NotifThr.b2n]. rewrite Nat.sub_0_r. apply Ic; [exact N|]. now apply CD.
    + intros h' d H. cbn [s1 set_thr set_ctx ctxs]. rewrite (upd_length _ _ _ _ X). apply upd_in in H as [->|H]; [|now apply Icur]. unfold y. destruct n; discriminate.
    + specialize (NM y). cbn [Prop_NotifThr.b2n] in NM. unfold Prop_NotifThr.b2n in NM. destruct (mid y); lia.
    + intros h' H. apply O in H as [->|[H HM]].
      * unfold y. destruct n as [m|]; [|exact Logic.I]. cbn. split; [reflexivity|]. destruct T as [T1 T2]. unfold target in *. rewrite U. destruct (Nat.eqb_spec c m); [congruence|].
        cbn [Prop_NotifThr.b2n]. rewrite Nat.sub_0_r. exact T2.
      * unfold pc_ok. unfold mid in HM. now destruct (h_pc h').
    + intros h' H. apply upd_in in H as [->|H]; [|now apply Ie]. unfold y. destruct n; cbn; [congruence|auto].
  - destruct PC as (C & T). destruct (inv_some s n I T) as (x & X & A). rewrite X, A. set (y := mkH (h_cur h) (Inc2 n (c_ref x)) (h_ended h)).
    assert (forall d, users (set_thr s t y) d = users s d) as U.
    { intros d. pose proof (upd_num (has d) (thrs s) t h y E) as Q. change (has d y) with (has d h) in Q. unfold users, set_thr. cbn [thrs]. lia. }
    pose proof I as [Im Ic Icur Imid Ipc Ie Ib]. constructor; cbn [set_thr ctxs thrs bad]; auto; fold (set_thr s t y).
    + intros d z N Z. rewrite U. auto.
    + intros h' d H. apply upd_in in H as [->|H]; [|now apply Icur]. cbn. apply Icur. eapply nth_error_In; eauto.
    + specialize (NM y). change (mid y) with true in NM. cbn [Prop_NotifThr.b2n] in NM. lia.
    + intros h' H. apply O in H as [->|[H HM]].
      * cbn. split; [exact C|]. split; [unfold target; now rewrite U|]. intros N. rewrite U. now apply (Ic n x N X).
      * unfold pc_ok. unfold mid in HM. now destruct (h_pc h').
    + intros h' H. apply upd_in in H as [->|H]; [cbn; congruence|now apply Ie].
  - destruct PC as (C & T & R). destruct (inv_some s n I T) as (x & X & A). rewrite X, A. set (y := mkH (Some n) Idle (h_ended h)). set (x1 := mkC _ _ _).
    set (s1 := set_thr (set_ctx s n x1) t y).
    assert (forall d, users s1 d = users s d + b2n (Nat.eqb n d)) as U.
    { intros d. pose proof (upd_num (has d) (thrs s) t h y E) as Q. change (has d y) with (Nat.eqb n d) in Q. assert (has d h = false) as Q3 by (unfold has; now rewrite C).
      rewrite Q3 in Q. unfold users, s1. cbn [set_thr set_ctx thrs]. cbn [Prop_NotifThr.b2n] in Q. lia. }
    assert (n <> 0 -> ((r + 1) mod M32)%N = N.of_nat (users s n + 1)) as R1.
    { intros N. rewrite (R N). unfold few in F. pose proof (users_le s n) as L. unfold M32. rewrite N.mod_small; lia. }
    pose proof I as [Im Ic Icur Imid Ipc Ie Ib]. constructor; unfold s1 at 1; cbn [set_thr set_ctx ctxs thrs bad]; auto.
    + rewrite (nth_upd _ _ _ _ _ X). destruct (Nat.eqb_spec n 0) as [->|N]; [|exact Im]. exists x1. split; reflexivity.
    + intros d z N Z. rewrite (nth_upd _ _ _ _ _ X) in Z. rewrite U. destruct (Nat.eqb_spec n d) as [->|NE].
      * injection Z as <-. cbn [x1 c_alive c_ref Prop_NotifThr.b2n]. split; [split; [lia|reflexivity]|]. auto.
      * cbn [Prop_NotifThr.b2n]. rewrite Nat.add_0_r. now apply Ic.
    + intros h' d H. cbn [s1 set_thr set_ctx ctxs]. rewrite (upd_length _ _ _ _ X). apply upd_in in H as [->|H]; [|now apply Icur]. intros [= <-]. apply nth_error_Some. congruence.
    + specialize (NM y). change (mid y) with false in NM. cbn [Prop_NotifThr.b2n] in NM. lia.
    + intros h' H. apply O in H as [->|[H HM]]; [exact Logic.I|]. unfold pc_ok. unfold mid in HM. now destruct (h_pc h').
    + intros h' H. apply upd_in in H as [->|H]; [cbn; congruence|now apply Ie].
Qed.

Lemma inv_step s e : inv s -> contract s e -> apart s e -> few s e -> inv (step s e).
Proof.
  intros I C A F. destruct e as [|t|t n|t v|t|t]; cbn [step].
  - now apply inv_new.
  - unfold call. destruct (nth_error (thrs s) t) as [h|] eqn:E; [|exact I]. destruct (h_pc h) eqn:P; try exact I. destruct (h_ended h) eqn:EN; [exact I|].
    pose proof (inv_loc s t h I E P EN) as L. destruct (location s t h) as [s1 c]. apply L.
  - unfold call. destruct (nth_error (thrs s) t) as [h|] eqn:E; [|exact I]. destruct (h_pc h) eqn:P; try exact I. destruct (h_ended h) eqn:EN; [exact I|].
    pose proof (inv_loc s t h I E P EN) as L. destruct (location s t h) as [s1 c]. destruct L as (I1 & E1 & _ & T & TG & IN). destruct (Nat.eqb_spec c n) as [->|N]; [exact I1|].
    apply inv_begin; auto.
    + intros h' H. destruct (IN h' H) as [->|H']; [reflexivity|]. now apply A.
    + split; [congruence|]. apply TG. destruct C as [C|C]; [now left|right; now apply users_pos].
  - unfold call. destruct (nth_error (thrs s) t) as [h|] eqn:E; [|exact I]. destruct (h_pc h) eqn:P; try exact I. destruct (h_ended h) eqn:EN; [exact I|].
    pose proof (inv_loc s t h I E P EN) as L. destruct (location s t h) as [s1 c]. destruct L as (I1 & _ & _ & T & _). destruct (inv_some s1 c I1 T) as (x & X & AL). rewrite X, AL.
    pose proof I1 as [Im Ic Icur Imid Ipc Ie Ib]. constructor; cbn [set_ctx ctxs thrs bad]; auto.
    + rewrite (nth_upd _ _ _ _ _ X). destruct (Nat.eqb_spec c 0) as [->|N]; [|exact Im]. eexists. split; reflexivity.
    + intros d z N Z. rewrite (nth_upd _ _ _ _ _ X) in Z. change (users (set_ctx s1 c (mkC (c_ref x) true (mkV (v_ka (c_val x)) (v_pref (c_val x)) (v_mode (c_val x)) v))) d) with (users s1 d).
      destruct (Nat.eqb_spec c d) as [->|NE]; [injection Z as <-; cbn; destruct (Ic d x N X) as [H1 H2]; split; [split; [intros _; now apply H1|auto]|auto]|now apply Ic].
    + rewrite (upd_length _ _ _ _ X). exact Icur.
  - unfold call. destruct (nth_error (thrs s) t) as [h|] eqn:E; [|exact I]. destruct (h_pc h) eqn:P; try exact I. destruct (h_ended h) eqn:EN; [exact I|].
    destruct (h_cur h) as [c|] eqn:Q.
    + apply inv_begin; auto. rewrite E. destruct h as [a b d]; cbn in *; congruence.
    + set (y := mkH None Idle true). assert (forall d, users (set_thr s t y) d = users s d) as U.
      { intros d. pose proof (upd_num (has d) (thrs s) t h y E) as X. change (has d y) with false in X. assert (has d h = false) as X2 by (unfold has; now rewrite Q).
        rewrite X2 in X. unfold users, set_thr. cbn [thrs]. lia. }
      pose proof I as [Im Ic Icur Imid Ipc Ie Ib]. constructor; cbn [set_thr ctxs thrs bad]; auto; fold (set_thr s t y).
      * intros d z N Z. rewrite U. auto.
      * intros h' d H. apply upd_in in H as [->|H]; [discriminate|now apply Icur].
      * pose proof (upd_num mid (thrs s) t h y E) as X. change (mid y) with false in X. cbn [Prop_NotifThr.b2n] in X. lia.
      * intros h' H. apply upd_in in H as [->|H]; [exact Logic.I|]. unfold pc_ok. now rewrite (A h' H).
      * intros h' H. apply upd_in in H as [->|H]; [auto|now apply Ie].
  - destruct (nth_error (thrs s) t) as [h|] eqn:E; [|exact I]. now apply inv_go.
Qed.
Lemma inv_run tr : forall s, inv s -> along contract s tr -> along apart s tr -> along few s tr -> inv (run s tr).
Proof.
  induction tr as [|e r IH]; intros s I C A F; [exact I|]. destruct C, A, F. change (run s (e :: r)) with (run (step s e) r). apply IH; auto. now apply inv_step.
Qed.

(* ------------------------------------------------------------------ *)
(** ** C150: contexts live as long as they are used *)

(** Freed contexts are not used, and a context is freed exactly when the last thread that has it leaves it; that of the main
    thread never is. *)
Theorem c150_lifetime_partial tr : along contract init tr -> along apart init tr -> along few init tr ->
  bad (run init tr) = false /\ alive (run init tr) 0 /\
  forall c, 0 < c < length (ctxs (run init tr)) -> alive (run init tr) c <-> uses (run init tr) c.
Proof.
  intros C A F. pose proof (inv_run tr init inv_init C A F) as I. split; [apply I|]. split; [apply I|]. intros c [L1 L2].
  rewrite <- users_pos. unfold alive. split.
  - intros (x & X & AL). apply (i_ctx _ I c x) in X; [|lia]. now apply X.
  - intros U. destruct (inv_some _ c I (or_intror U)) as (x & X & AL). eauto.
Qed.
(** Two threads that have the same context end at the same time: it is never freed.  And one that sets it while another ends: it is
    freed while it is used. *)
Definition share2 : list event := [ENew; ENew; ELoc 1; ESet 2 1; EStep 2; EStep 2; EStep 2; EStep 2].
Definition two_end : list event := share2 ++ [EEnd 1; EEnd 2; EStep 1; EStep 2; EStep 1; EStep 2].
Definition set_and_end : list event :=
  share2 ++ [ENew; EEnd 1; EStep 1;                               (* the thread 1 has read 2 *)
             ESet 3 1; EStep 3; EStep 3; EStep 3; EStep 3;        (* the thread 3 makes it 3 *)
             EStep 1; EEnd 2; EStep 2; EStep 2; EWrite 3 5].      (* the thread 1 makes it 1, the thread 2 makes it 0 and frees it *)
Definition usesb (s : st) (c : nat) : bool := existsb (has c) (thrs s).
Lemma usesb_spec s c : usesb s c = true <-> uses s c.
Proof. unfold usesb. rewrite existsb_exists, <- users_pos. unfold users. now rewrite Prop_NotifThr.num_pos. Qed.
Definition contractb (s : st) (e : event) : bool := match e with ESet _ c => Nat.eqb c 0 || usesb s c | _ => true end.
Definition apartb (s : st) (e : event) : bool := match e with ESet _ _ | EEnd _ => forallb (fun h => negb (mid h)) (thrs s) | _ => true end.
Definition fewb (s : st) (e : event) : bool := (N.of_nat (S (length (thrs s))) <? 4294967296)%N.
Fixpoint alongb (P : st -> event -> bool) (s : st) (tr : list event) : bool := match tr with [] => true | e :: r => P s e && alongb P (step s e) r end.
Lemma along_of (P : st -> event -> Prop) (Q : st -> event -> bool) : (forall s e, Q s e = true -> P s e) -> forall tr s, alongb Q s tr = true -> along P s tr.
Proof. intros H. induction tr as [|e r IH]; intros s A; cbn in *; [exact Logic.I|]. apply andb_prop in A as [A1 A2]. split; auto. Qed.
Lemma contract_of s e : contractb s e = true -> contract s e.
Proof. destruct e; cbn; auto. rewrite orb_true_iff, Nat.eqb_eq, usesb_spec. auto. Qed.
Lemma apart_of s e : apartb s e = true -> apart s e.
Proof. destruct e; cbn; auto; rewrite forallb_forall; intros H h I; specialize (H h I); unfold mid in H; now destruct (h_pc h). Qed.
Lemma few_of s e : fewb s e = true -> few s e.
Proof. unfold few, fewb. intros H. apply N.ltb_lt. exact H. Qed.
Theorem c150_lifetime_refuted :
  ~ (forall tr, along contract init tr -> along few init tr -> bad (run init tr) = false) /\
  ~ (forall tr c, along contract init tr -> along few init tr -> 0 < c < length (ctxs (run init tr)) -> alive (run init tr) c -> uses (run init tr) c).
Proof.
  split.
  - intros H. specialize (H set_and_end). assert (bad (run init set_and_end) = true) as B by (vm_compute; reflexivity). rewrite H in B; [discriminate| |].
    + apply (along_of _ _ contract_of). vm_compute. reflexivity.
    + apply (along_of _ _ few_of). vm_compute. reflexivity.
  - intros H. specialize (H two_end 1). assert (usesb (run init two_end) 1 = false) as B by (vm_compute; reflexivity).
    assert (usesb (run init two_end) 1 = true); [|congruence]. apply usesb_spec, H.
    + apply (along_of _ _ contract_of). vm_compute. reflexivity.
    + apply (along_of _ _ few_of). vm_compute. reflexivity.
    + vm_compute. lia.
    + eexists. split; vm_compute; reflexivity.
Qed.
Definition good_run : list event := share2 ++ [EEnd 1; EStep 1; EStep 1; EWrite 2 5; EEnd 2; EStep 2; EStep 2].
Example c150_case : along contract init good_run /\ along apart init good_run /\ along few init good_run /\
  map c_alive (ctxs (run init (removelast good_run))) = [true; true; false] /\ map c_alive (ctxs (run init good_run)) = [true; false; false].
Proof.
  split; [apply (along_of _ _ contract_of); vm_compute; reflexivity|]. split; [apply (along_of _ _ apart_of); vm_compute; reflexivity|].
  split; [apply (along_of _ _ few_of); vm_compute; reflexivity|]. split; vm_compute; reflexivity.
Qed.

(* ------------------------------------------------------------------ *)
(** ** C151: settings of threads *)

(** A setting changed in a thread is seen by exactly the threads that share its context. *)
Definition ctx_of (s : st) (t : nat) : option nat :=
  match nth_error (thrs s) t with
  | Some h => match h_cur h, t with None, 0 => Some 0 | c, _ => c end      (* the main thread has the first one from the start *)
  | None => None
  end.
Definition shares (s : st) (t u : nat) : Prop := t = u \/ exists c, ctx_of s t = Some c /\ ctx_of s u = Some c.
(** The thread can call functions. *)
Definition free_thread (s : st) (t : nat) : Prop := exists h, nth_error (thrs s) t = Some h /\ h_pc h = Idle /\ h_ended h = false.
Theorem c151_settings_partial tr t u v : along contract init tr -> along apart init tr -> along few init tr ->
  let s := run init tr in let s1 := step s (EWrite t v) in
  free_thread s t -> free_thread s u ->
  exists a b, seen s u = Some a /\ seen s1 u = Some b /\
    (shares s t u -> b = mkV (v_ka a) (v_pref a) (v_mode a) v) /\ (~ shares s t u -> b = a).
Proof.
  intros C A F s s1 (h & E & P & EN) (k & EK & PK & EKN). pose proof (inv_run tr init inv_init C A F) as I. fold s in I.
  subst s1. cbn [step]. unfold call. rewrite E, P, EN. pose proof (inv_loc s t h I E P EN) as L.
  destruct (location s t h) as [s1 c] eqn:LO. destruct L as (I1 & E1 & _ & T & _). destruct (inv_some s1 c I1 T) as (x & X & AL). rewrite X, AL.
  set (x1 := mkC _ _ _). unfold seen. cbn [set_ctx thrs]. rewrite EK.
  assert (u <> t -> nth_error (thrs s1) u = Some k) as SK.
  { intros N. unfold location in LO. destruct (h_cur h); [now injection LO as <- _|]. destruct (Nat.eqb t 0); injection LO as <- _; cbn [set_thr thrs]; rewrite (nth_upd _ _ _ _ _ E);
      destruct (Nat.eqb_spec t u); congruence. }
  assert (forall d y, nth_error (ctxs s) d = Some y -> nth_error (ctxs s1) d = Some y) as SC.
  { intros d y Y. unfold location in LO. destruct (h_cur h); [now injection LO as <- _|]. destruct (Nat.eqb t 0); injection LO as <- _; auto.
    cbn [ctxs]. rewrite nth_error_app1; auto. apply nth_error_Some. congruence. }
  assert (c < length (ctxs s) -> ctx_of s t = Some c) as CT.
  { unfold ctx_of. rewrite E. unfold location in LO. destruct (h_cur h) as [e|]; [now injection LO as _ ->|].
    destruct (Nat.eqb_spec t 0) as [->|]; [now injection LO as _ <-|]. injection LO as _ <-. lia. }
  assert (forall d, ctx_of s t = Some d -> d = c) as CT2.
  { unfold ctx_of. rewrite E. unfold location in LO. destruct (h_cur h) as [e|]; [injection LO as _ ->; congruence|].
    destruct (Nat.eqb_spec t 0) as [->|]; [injection LO as _ <-; congruence|]. destruct t; [contradiction|discriminate]. }
  destruct (i_main s I) as (x0 & X0 & _).
  destruct (Nat.eq_dec u t) as [->|N].
  - rewrite E1. cbn [h_cur set_ctx ctxs]. rewrite (nth_upd _ _ _ _ _ X), Nat.eqb_refl. cbn [option_map x1 c_val].
    assert (k = h) as -> by congruence. destruct (h_cur h) as [d|] eqn:Q.
    + unfold location in LO. rewrite Q in LO. injection LO as <- <-. rewrite X. cbn [option_map].
      eexists _, _. split; [reflexivity|]. split; [reflexivity|]. split; [auto|]. intros NS. exfalso. apply NS. now left.
    + unfold location in LO. rewrite Q in LO. destruct (Nat.eqb_spec t 0) as [->|NT]; injection LO as <- <-.
      * cbn [set_thr ctxs] in X. rewrite X. eexists _, _. split; [reflexivity|]. split; [reflexivity|]. split; [auto|]. intros NS. exfalso. apply NS. now left.
      * cbn [ctxs] in X. rewrite nth_error_app2, Nat.sub_diag in X by lia. injection X as <-. cbn [c_val].
        eexists _, _. split; [reflexivity|]. split; [reflexivity|]. split; [auto|]. intros NS. exfalso. apply NS. now left.
  - rewrite (SK N). assert (forall d, ctx_of s u = Some d -> d < length (ctxs s)) as LD.
    { intros d. unfold ctx_of. rewrite EK. destruct (h_cur k) as [e|] eqn:Q.
      - intros [= ->]. apply (i_cur s I k d); [eapply nth_error_In; eauto|exact Q].
      - destruct u; [|discriminate]. intros [= <-]. apply nth_error_Some. congruence. }
    assert (forall d, ctx_of s u = Some d -> exists y, nth_error (ctxs s) d = Some y /\
      exists a b, Some (c_val y) = Some a /\ option_map c_val (nth_error (upd (ctxs s1) c x1) d) = Some b /\
      (shares s t u -> b = mkV (v_ka a) (v_pref a) (v_mode a) v) /\ (~ shares s t u -> b = a)) as KEY.
    { intros d CU. pose proof (LD d CU) as L. destruct (nth_error (ctxs s) d) as [y|] eqn:Y; [|apply nth_error_None in Y; lia]. exists y. split; [reflexivity|].
      rewrite (nth_upd _ _ _ _ _ X). destruct (Nat.eqb_spec c d) as [->|NE].
      - assert (y = x) as -> by (apply SC in Y; congruence). cbn [option_map x1 c_val]. eexists _, _. split; [reflexivity|]. split; [reflexivity|]. split; [auto|].
        intros NS. exfalso. apply NS. right. exists d. auto.
      - rewrite (SC d y Y). cbn [option_map]. eexists _, _. split; [reflexivity|]. split; [reflexivity|]. split; [|auto].
        intros [ES|(e & H1 & H2)]; [congruence|]. exfalso. apply NE. rewrite <- (CT2 e H1). congruence. }
    unfold ctx_of in KEY at 1. rewrite EK in KEY. cbn [set_ctx ctxs]. destruct (h_cur k) as [d|] eqn:Q.
    + destruct (KEY d eq_refl) as (y & Y & K). rewrite Y. exact K.
    + destruct u as [|u].
      * cbn [Nat.eqb]. destruct (KEY 0 eq_refl) as (y & Y & a & b & K1 & K2 & K3). rewrite Y. exists a, b. split; [exact K1|]. split; [|exact K3].
        destruct (nth_error (upd (ctxs s1) c x1) 0); [exact K2|discriminate].
      * cbn [Nat.eqb]. eexists _, _. split; [reflexivity|]. split; [reflexivity|]. split; [|auto].
        intros [ES|(e & H1 & H2)]; [congruence|]. unfold ctx_of in H2. rewrite EK, Q in H2. discriminate.
Qed.
(** Without settings made, the SSH preferences and the mode of known hosts are the same in all threads... *)
Definition no_write (e : event) : Prop := match e with EWrite _ _ => False | _ => True end.
Definition defs (s : st) : Prop := forall x, In x (ctxs s) -> c_val x = main_default \/ c_val x = thread_default.
Lemma upd_ctx s c x y : nth_error (ctxs s) c = Some x -> c_val y = c_val x -> defs s -> defs (set_ctx s c y).
Proof. intros X V D z Z. apply upd_in in Z as [->|Z]; [rewrite V; apply D; eapply nth_error_In; eauto|now apply D]. Qed.
Lemma defs_loc s t h : defs s -> defs (fst (location s t h)).
Proof.
  intros D. unfold location. destruct (h_cur h); [exact D|]. destruct (Nat.eqb t 0); [exact D|]. intros x H. cbn in H. apply in_app_or in H as [H|[<-|[]]]; [now apply D|now right].
Qed.
Lemma defs_step s e : no_write e -> defs s -> defs (step s e).
Proof.
  intros W D. destruct e as [|t|t n|t v|t|t]; cbn [step]; [exact D| | |contradiction| |]; unfold call; destruct (nth_error (thrs s) t) as [h|]; try exact D.
  - destruct (h_pc h); try exact D. destruct (h_ended h); [exact D|now apply defs_loc].
  - destruct (h_pc h); try exact D. destruct (h_ended h); [exact D|]. pose proof (defs_loc s t h D) as L. destruct (location s t h) as [s1 c]. now destruct (Nat.eqb c n).
  - destruct (h_pc h); try exact D. destruct (h_ended h); [exact D|]. now destruct (h_cur h).
  - unfold go. destruct (h_pc h) as [|c n|c r n|n|n r]; try exact D; match goal with |- context [nth_error (ctxs s) ?c] => destruct (nth_error (ctxs s) c) as [x|] eqn:X; [|exact D] end;
      destruct (c_alive x); try exact D; cbv zeta; change (defs (set_thr ?a _ _)) with (defs a); eapply (upd_ctx _ _ _ _ X); auto.
Qed.
Theorem c151_defaults_partial tr t a : (forall e, In e tr -> no_write e) -> seen (run init tr) t = Some a ->
  v_pref a = v_pref main_default /\ v_mode a = v_mode main_default /\ v_app a = v_app main_default.
Proof.
  intros W S0. assert (defs (run init tr)) as D.
  { assert (defs init) as D0 by (intros x [<-|[]]; now left). clear S0. revert W D0. generalize init. induction tr as [|e r IH]; intros s W D0; [exact D0|].
    change (run s (e :: r)) with (run (step s e) r). apply IH; [intros e' H; apply W; now right|]. apply defs_step; auto. apply W. now left. }
  assert (a = main_default \/ a = thread_default) as [->| ->].
  { unfold seen in S0. destruct (nth_error (thrs (run init tr)) t) as [h|]; [|discriminate]. destruct (h_cur h) as [c|].
    - destruct (nth_error (ctxs (run init tr)) c) as [x|] eqn:X; [|discriminate]. injection S0 as <-. apply D. eapply nth_error_In; eauto.
    - destruct (Nat.eqb t 0); [|right; congruence]. destruct (nth_error (ctxs (run init tr)) 0) as [x|] eqn:X; [|left; congruence]. injection S0 as <-. apply D. eapply nth_error_In; eauto. }
  all: repeat split.
Qed.
(** ... but keepalives are on only in the main thread. *)
Theorem c151_defaults_refuted : exists tr, along contract init tr /\ along apart init tr /\ along few init tr /\
  (forall e, In e tr -> match e with EWrite _ _ | ESet _ _ => False | _ => True end) /\ seen (run init tr) 0 <> seen (run init tr) 1.
Proof.
  exists [ENew; ELoc 0; ELoc 1]. split; [apply (along_of _ _ contract_of); vm_compute; reflexivity|]. split; [apply (along_of _ _ apart_of); vm_compute; reflexivity|].
  split; [apply (along_of _ _ few_of); vm_compute; reflexivity|]. split; [intros e [<-|[<-|[<-|[]]]]; exact Logic.I|]. vm_compute. discriminate.
Qed.
Example c151_case : seen (run init (share2 ++ [EWrite 1 5])) 2 = Some (mkV (false, 0, 0, 0)%N [1; 2; 3]%N 0%N 5%N) /\ seen (run init (share2 ++ [EWrite 1 5])) 0 = Some main_default.
Proof. split; vm_compute; reflexivity. Qed.

Print Assumptions c150_lifetime_partial.
Print Assumptions c150_lifetime_refuted.
Print Assumptions c151_settings_partial.
Print Assumptions c151_defaults_partial.
Print Assumptions c151_defaults_refuted.
