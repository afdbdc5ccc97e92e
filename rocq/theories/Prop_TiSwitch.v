(** C298: the transport of a listening endpoint is changed. *)
From Coq Require Import Ascii String Arith ZArith NArith Bool Lia List.
From Verif Require Import Bytes TiSwitch.
Import ListNotations.

(* ------------------------------------------------------------------ *)
(** ** Specification *)

(** An endpoint that was just created, in a process with these descriptors. *)
Definition fresh (open : list nat) : st :=
  {| s_ti := None; s_opts := ONull; s_addr := ANull; s_port := 0; s_fd := None; s_open := open; s_blocks := 0 |}.

(** Changes of the address and the port, and the rest of the process. *)
Definition ordinary (x : call) : Prop := match x with Address _ _ _ | Port _ _ | Other _ => True | _ => False end.

Definition other (t : ti) : ti := match t with Ssh => Tls | Tls => Ssh end.

(** The descriptors other parts of the process have after these calls: what they had and what they opened. *)
Definition theirs (open : list nat) (l : list call) (n : nat) : Prop := In n open \/ In (Other n) l.

(** Full statement: the transport can be changed, in either order of the new and the old container. *)
Definition c298_full : Prop := forall open t before after,
  NoDup open -> Forall ordinary before -> Forall ordinary after ->
  (exists c s, run (Create t :: before ++ [Delete t; Create (other t)] ++ after ++ [Remove]) (fresh open) = Ret c s) /\
  (exists c s, run (Create t :: before ++ [Create (other t)] ++ after ++ [Delete t; Remove]) (fresh open) = Ret c s).

(* ------------------------------------------------------------------ *)
(** ** Lemmas *)

Lemma opened n l : existsb (Nat.eqb n) l = true <-> In n l.
Proof. rewrite existsb_exists. split; [intros (x & I & E); apply Nat.eqb_eq in E; now subst|intros I; exists n; split; [exact I|apply Nat.eqb_refl]]. Qed.

Lemma not_opened n l : existsb (Nat.eqb n) l = false <-> ~ In n l.
Proof. rewrite <- opened. destruct (existsb _ l); split; congruence. Qed.

Lemma run_app l1 : forall l2 s, run (l1 ++ l2) s = match run l1 s with Ub u => Ub u | Ret _ s => run l2 s end.
Proof. induction l1 as [|x l1 IH]; intros l2 s; cbn [app run]; [reflexivity|]. destruct (exec x s); [reflexivity|apply IH]. Qed.

(** The endpoint while its transport is [t] and other parts of the process have [P]. *)
Definition inv (t : ti) (P : nat -> Prop) (s : st) : Prop :=
  s_ti s = Some t /\ s_opts s = OOpts t /\ s_addr s <> AFreed /\ NoDup (s_open s) /\
  (forall n, s_fd s = Some n -> In n (s_open s)) /\
  (forall n, In n (s_open s) -> s_fd s = Some n \/ P n) /\ (forall n, P n -> In n (s_open s)) /\
  s_blocks s = match s_addr s with AText _ => 2 | _ => 1 end%Z.

(** [mine]: the socket of the endpoint belongs to nobody else. *)
Definition mine (P : nat -> Prop) (s : st) : Prop := forall n, s_fd s = Some n -> ~ P n.

Lemma in_remove_iff n m l : In n (remove Nat.eq_dec m l) <-> In n l /\ n <> m.
Proof. split; [apply in_remove|intros [A B]; now apply in_in_remove]. Qed.

Lemma nodup_remove m l : NoDup l -> NoDup (remove Nat.eq_dec m l).
Proof.
  induction 1 as [|x l N D IH]; cbn [remove]; [constructor|]. destruct (Nat.eq_dec m x); [exact IH|]. constructor; [|exact IH]. rewrite in_remove_iff. tauto.
Qed.

Lemma relisten_inv t P listen s : inv t P s -> mine P s -> exists c s', relisten listen s = Ret c s' /\ inv t P s' /\ mine P s' /\ s_addr s' = s_addr s /\ s_port s' = s_port s.
Proof.
  intros I M. pose proof I as (I1 & I2 & I3 & I4 & I5 & I6 & I7 & I8). unfold relisten. destruct listen as [n|]; [|exists 1%Z, s; auto].
  destruct (existsb (Nat.eqb n) (s_open s)) eqn:E; [exists 1%Z, s; auto|]. apply not_opened in E.
  assert (C : exists open, close (s_fd s) (s_open s) = Some open /\ NoDup open /\ (forall k, In k open <-> In k (s_open s) /\ s_fd s <> Some k)).
  { unfold close. destruct (s_fd s) as [m|] eqn:F.
    - rewrite (proj2 (opened m (s_open s)) (I5 m eq_refl)). eexists. split; [reflexivity|]. split; [now apply nodup_remove|].
      intros k. rewrite in_remove_iff. split; intros [A B]; split; auto; congruence.
    - exists (s_open s). split; [reflexivity|]. split; [exact I4|]. intros k. split; [intros H; split; [exact H|discriminate]|tauto]. }
  destruct C as (open & -> & D & O). rewrite I1. do 2 eexists. split; [reflexivity|]. split; [|split; [|split; reflexivity]].
  - split; [reflexivity|]. cbn [s_ti s_opts s_addr s_fd s_open s_blocks]. repeat split; auto.
    + constructor; [|exact D]. rewrite O. tauto.
    + intros k [= <-]. now left.
    + intros k [<-|H]; [now left|]. right. apply O in H. destruct H as [H H']. destruct (I6 k H); [contradiction|assumption].
    + intros k H. right. apply O. split; [now apply I7|]. intros F. now apply (M k F).
  - intros k [= <-] H. apply E. now apply I7.
Qed.

Lemma ordinary_inv t P x s : ordinary x -> inv t P s -> mine P s ->
  (forall n, x = Other n -> s_fd s <> Some n) ->
  exists c s', exec x s = Ret c s' /\ inv t (fun n => P n \/ x = Other n) s' /\ mine (fun n => P n \/ x = Other n) s'.
Proof.
  intros O I M D. pose proof I as (I1 & I2 & I3 & I4 & I5 & I6 & I7 & I8).
  assert (W : forall s', inv t P s' -> mine P s' -> (forall n, x <> Other n) -> inv t (fun n => P n \/ x = Other n) s' /\ mine (fun n => P n \/ x = Other n) s').
  { intros s' (J1 & J2 & J3 & J4 & J5 & J6 & J7 & J8) M' N. split.
    - repeat split; auto; [intros n H; destruct (J6 n H); auto|intros n [H|H]; [auto|now apply N in H]].
    - intros n F [H|H]; [now apply (M' n)|now apply N in H]. }
  destruct x as [| |dup a listen|p listen| |fd]; try contradiction; cbn [exec].
  - destruct (s_addr s) as [|old|] eqn:A; [| |congruence].
    + destruct dup.
      * set (s1 := {| s_ti := s_ti s; s_opts := s_opts s; s_addr := AText a; s_port := s_port s; s_fd := s_fd s; s_open := s_open s; s_blocks := s_blocks s - 0 + 1 |}).
        assert (J : inv t P s1) by (repeat split; auto; cbn; try discriminate; lia). assert (M1 : mine P s1) by exact M.
        destruct (s_port s =? 0)%N; [do 2 eexists; split; [reflexivity|]; apply W; auto; discriminate|].
        destruct (relisten_inv t P listen s1 J M1) as (c & s' & -> & J' & M' & _). exists c, s'. split; [reflexivity|]. apply W; auto; discriminate.
      * do 2 eexists. split; [reflexivity|]. apply W; [|exact M|discriminate]. repeat split; auto; cbn; try discriminate. lia.
    + destruct dup.
      * set (s1 := {| s_ti := s_ti s; s_opts := s_opts s; s_addr := AText a; s_port := s_port s; s_fd := s_fd s; s_open := s_open s; s_blocks := s_blocks s - 1 + 1 |}).
        assert (J : inv t P s1) by (repeat split; auto; cbn; try discriminate; lia). assert (M1 : mine P s1) by exact M.
        destruct (s_port s =? 0)%N; [do 2 eexists; split; [reflexivity|]; apply W; auto; discriminate|].
        destruct (relisten_inv t P listen s1 J M1) as (c & s' & -> & J' & M' & _). exists c, s'. split; [reflexivity|]. apply W; auto; discriminate.
      * do 2 eexists. split; [reflexivity|]. apply W; [|exact M|discriminate]. repeat split; auto; cbn; try discriminate. lia.
  - set (s1 := {| s_ti := s_ti s; s_opts := s_opts s; s_addr := s_addr s; s_port := p; s_fd := s_fd s; s_open := s_open s; s_blocks := s_blocks s |}).
    assert (J : inv t P s1) by (repeat split; auto). assert (M1 : mine P s1) by exact M.
    assert (B : exists c s', Ret 0 s1 = Ret c s' /\ inv t (fun n => P n \/ Port p listen = Other n) s' /\ mine (fun n => P n \/ Port p listen = Other n) s')
      by (do 2 eexists; split; [reflexivity|]; apply W; auto; discriminate).
    destruct (s_addr s) eqn:A; [exact B| |congruence]. destruct (p =? 0)%N; [exact B|].
    destruct (relisten_inv t P listen s1 J M1) as (c & s' & -> & J' & M' & _). exists c, s'. split; [reflexivity|]. apply W; auto; discriminate.
  - do 2 eexists. split; [reflexivity|]. specialize (D fd eq_refl). split.
    + repeat split; auto; cbn [s_open s_fd].
      * destruct (existsb _ _) eqn:E; [exact I4|]. constructor; [now apply not_opened|exact I4].
      * intros n F. destruct (existsb _ _); [now apply I5|right; now apply I5].
      * intros n H. destruct (existsb (Nat.eqb fd) (s_open s)) eqn:E; [destruct (I6 n H); auto|]. destruct H as [<-|H]; [auto|destruct (I6 n H); auto].
      * intros n [H|H]; [destruct (existsb _ _); [now apply I7|right; now apply I7]|]. injection H as <-.
        destruct (existsb (Nat.eqb fd) (s_open s)) eqn:E; [now apply opened|now left].
    + intros n F [H|H]; [now apply (M n F)|]. injection H as <-. now apply D.
Qed.

(* ------------------------------------------------------------------ *)
(** ** C298 *)

Lemma inv_ext t P Q s : (forall n, P n <-> Q n) -> inv t P s -> mine P s -> inv t Q s /\ mine Q s.
Proof.
  intros E (J1 & J2 & J3 & J4 & J5 & J6 & J7 & J8) M. split.
  - repeat split; auto; [intros n H; destruct (J6 n H); [auto|right; now apply E]|intros n H; apply J7; now apply E].
  - intros n F H. apply (M n F). now apply E.
Qed.

(** Other parts of the process cannot be given the descriptor the endpoint has: the kernel gives what is not open. *)
Fixpoint kernel (l : list call) (s : st) : Prop :=
  match l with
  | [] => True
  | x :: l => (forall n, x = Other n -> ~ In n (s_open s)) /\ match exec x s with Ret _ s => kernel l s | Ub _ => True end
  end.

Lemma ordinary_run t : forall l P s, Forall ordinary l -> inv t P s -> mine P s -> kernel l s ->
  exists c s', run l s = Ret c s' /\ inv t (fun n => P n \/ In (Other n) l) s' /\ mine (fun n => P n \/ In (Other n) l) s'.
Proof.
  induction l as [|x l IH]; intros P s F I M K; cbn [run].
  - exists 0%Z, s. split; [reflexivity|]. apply (inv_ext t P); auto. intros n. cbn. tauto.
  - inversion F as [|? ? O F']; subst. cbn [kernel] in K. destruct K as [K1 K2].
    destruct (ordinary_inv t P x s O I M) as (c & s1 & E & I1 & M1).
    { intros n -> E. apply (K1 n eq_refl). destruct I as (_ & _ & _ & _ & I5 & _). now apply I5. }
    rewrite E in *. destruct (IH _ s1 F' I1 M1 K2) as (c' & s' & R & I' & M'). exists c', s'. split; [exact R|].
    apply (inv_ext t (fun n => (P n \/ x = Other n) \/ In (Other n) l)); auto. intros n. cbn [In]. tauto.
Qed.

(** As long as the transport stays, nothing goes wrong: at the end what is open is what others opened, and no block is left. *)
Theorem c298_partial open t l : NoDup open -> Forall ordinary l -> kernel (Create t :: l) (fresh open) ->
  exists c s, run (Create t :: l ++ [Remove]) (fresh open) = Ret c s /\ s_blocks s = 0%Z /\ forall n, In n (s_open s) <-> theirs open l n.
Proof.
  intros N F K. cbn [run exec]. cbn [kernel exec] in K. destruct K as [_ K]. rewrite run_app.
  set (s0 := {| s_ti := Some t; s_opts := OOpts t; s_addr := _; s_port := _; s_fd := _; s_open := _; s_blocks := _ |}) in *.
  assert (I : inv t (fun n => In n open) s0) by (repeat split; auto; cbn; discriminate). assert (M : mine (fun n => In n open) s0) by (intros n; discriminate).
  destruct (ordinary_run t l _ s0 F I M K) as (c & s & -> & (J1 & J2 & J3 & J4 & J5 & J6 & J7 & J8) & M').
  cbn [run exec]. rewrite J1. unfold del_opts. rewrite J2.
  assert (T : ti_eqb t t = true) by now destruct t. rewrite T.
  assert (C : exists open', close (s_fd s) (s_open s) = Some open' /\ (forall k, In k open' <-> In k (s_open s) /\ s_fd s <> Some k)).
  { unfold close. destruct (s_fd s) as [m|] eqn:E.
    - rewrite (proj2 (opened m (s_open s)) (J5 m eq_refl)). eexists. split; [reflexivity|]. intros k. rewrite in_remove_iff. split; intros [A B]; split; auto; congruence.
    - exists (s_open s). split; [reflexivity|]. intros k. split; [intros H; split; [exact H|discriminate]|tauto]. }
  destruct C as (open' & -> & O).
  assert (Q : forall n, In n open' <-> theirs open l n).
  { intros n. rewrite O. unfold theirs. split.
    - intros [A B]. destruct (J6 n A); [contradiction|assumption].
    - intros A. split; [now apply J7|]. intros E. now apply (M' n E). }
  destruct (s_addr s); [| |congruence]; (do 2 eexists; split; [reflexivity|]; split; [cbn [s_blocks]; rewrite J8; reflexivity|exact Q]).
Qed.

(** Where the address is a text, which it is as soon as it was configured (the leaf is mandatory), the change of the transport fails in
    either order.  The old container first: its address is freed once more by the new one, or read. *)
Definition no_address (x : call) : Prop := match x with Create _ | Other _ | Port 0 _ => True | _ => False end.

Lemma stale : forall l s, Forall no_address l -> s_addr s = AFreed -> exists c s', run l s = Ret c s' /\ s_addr s' = AFreed.
Proof.
  induction l as [|x l IH]; intros s F A; cbn [run]; [eauto|]. inversion F as [|? ? O F']; subst.
  destruct x as [t|t|d a li|p li| |fd]; try contradiction; cbn [exec]; [apply IH; auto| |apply IH; auto].
  destruct p; [|contradiction]. rewrite A. apply IH; auto.
Qed.

Theorem c298_old_first t P s a mid x rest : inv t P s -> mine P s -> s_addr s = AText a -> Forall no_address mid ->
  (match x with Address _ _ _ | Delete _ => True | Port p _ => p <> 0%N | _ => False end) ->
  exists u, run (Delete t :: mid ++ x :: rest) s = Ub u.
Proof.
  intros (J1 & J2 & J3 & J4 & J5 & J6 & J7 & J8) M A F X. cbn [run exec]. unfold del_opts. rewrite A, J2.
  assert (T : ti_eqb t t = true) by now destruct t. rewrite T.
  assert (C : exists open', close (s_fd s) (s_open s) = Some open').
  { unfold close. destruct (s_fd s) as [m|] eqn:E; [|eauto]. rewrite (proj2 (opened m (s_open s)) (J5 m eq_refl)). eauto. }
  destruct C as (open' & ->). set (s1 := {| s_ti := _; s_opts := _; s_addr := _; s_port := _; s_fd := _; s_open := _; s_blocks := _ |}).
  rewrite run_app. destruct (stale mid s1 F eq_refl) as (c & s' & -> & A'). cbn [run].
  destruct x as [t'|t'|d a' li|p li| |fd]; try contradiction; cbn [exec]; unfold del_opts; rewrite A'; eauto.
  apply N.eqb_neq in X. rewrite X. eauto.
Qed.

Lemma inv_create t t' P s : inv t P s -> mine P s -> exists s', exec (Create t') s = Ret 0 s' /\ s_opts s' = OOpts t' /\ s_addr s' = s_addr s /\
  inv t' P {| s_ti := s_ti s'; s_opts := s_opts s'; s_addr := s_addr s'; s_port := s_port s'; s_fd := s_fd s'; s_open := s_open s'; s_blocks := s_blocks s' - 1 |}.
Proof.
  intros (J1 & J2 & J3 & J4 & J5 & J6 & J7 & J8) M. eexists. split; [reflexivity|]. split; [reflexivity|]. split; [reflexivity|].
  repeat split; auto. cbn. rewrite J8. lia.
Qed.

(** The new container first: the old one is deleted from the options of the new one. *)
Theorem c298_new_first t P s rest : inv t P s -> mine P s -> exists u, run (Create (other t) :: Delete t :: rest) s = Ub u.
Proof.
  intros (J1 & J2 & J3 & J4 & J5 & J6 & J7 & J8) M. cbn [run exec]. unfold del_opts. cbn [s_addr s_fd s_open s_opts].
  assert (C : exists open', close (s_fd s) (s_open s) = Some open').
  { unfold close. destruct (s_fd s) as [m|] eqn:E; [|eauto]. rewrite (proj2 (opened m (s_open s)) (J5 m eq_refl)). eauto. }
  destruct C as (open' & ->). destruct (s_addr s); [| |congruence]; destruct t; cbn [other ti_eqb]; eauto.
Qed.

(** From the beginning: no endpoint with an address can be given the other transport, in whichever order. *)
Theorem c298_never open t before c s a d b li : NoDup open -> Forall ordinary before -> kernel (Create t :: before) (fresh open) ->
  run (Create t :: before) (fresh open) = Ret c s -> s_addr s = AText a ->
  (exists u, run (Create t :: before ++ [Delete t; Create (other t); Address d b li]) (fresh open) = Ub u) /\
  (exists u, run (Create t :: before ++ [Create (other t); Delete t]) (fresh open) = Ub u).
Proof.
  intros N F K R A. cbn [run exec] in R |- *. cbn [kernel exec] in K. destruct K as [_ K].
  set (s0 := {| s_ti := Some t; s_opts := OOpts t; s_addr := _; s_port := _; s_fd := _; s_open := _; s_blocks := _ |}) in *.
  assert (I : inv t (fun n => In n open) s0) by (repeat split; auto; cbn; discriminate). assert (M : mine (fun n => In n open) s0) by (intros n; discriminate).
  destruct (ordinary_run t before _ s0 F I M K) as (c' & s' & R' & I' & M'). rewrite R in R'. injection R' as <- <-.
  rewrite !run_app, R. split.
  - apply (c298_old_first t _ s a [Create (other t)] (Address d b li) [] I' M' A); repeat constructor.
  - apply (c298_new_first t _ s [] I' M').
Qed.

Theorem c298_refuted : ~ c298_full.
Proof.
  intros F. destruct (F [] Ssh [Address true (bs "::") None] [Address true (bs "::1") None] (NoDup_nil _)) as [(c & s & E) _];
    [repeat constructor|repeat constructor|]. vm_compute in E. discriminate.
Qed.

(** An endpoint that listens, gets another address, and is removed, while something else opens a descriptor. *)
Example c298_case :
  let l := [Address true (bs "::") None; Port 830 (Some 5); Other 6; Address true (bs "::1") (Some 7); Other 5] in
  kernel (Create Tls :: l) (fresh [0; 1; 2]) /\ Forall ordinary l /\
  match run (Create Tls :: l) (fresh [0; 1; 2]) with
  | Ret c s => s_fd s = Some 7 /\ s_addr s = AText (bs "::1") /\ s_open s = [5; 7; 6; 0; 1; 2] /\
               run [Delete Tls; Create Ssh; Address true (bs "::1") (Some 8)] s = Ub FreeTwice
  | Ub _ => False
  end.
Proof.
  cbv zeta. split; [|split; [repeat constructor|]].
  - vm_compute. repeat split; intros n E; try discriminate E; injection E as <-; lia.
  - vm_compute. repeat split; reflexivity.
Qed.

Print Assumptions c298_partial.
Print Assumptions c298_old_first.
Print Assumptions c298_new_first.
Print Assumptions c298_never.
Print Assumptions c298_refuted.
