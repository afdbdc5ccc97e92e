(** C254, C255: the idle timeout in force, and what whole data leave of the old configuration; the model is WholeData. *)
From Coq Require Import Ascii String ZArith NArith Bool Lia List Permutation.
From Verif Require Import Bytes CStr CertExp CertCfg Prop_CertCfg WholeData.
Import ListNotations.

(* ------------------------------------------------------------------ *)
(** ** Specification *)

(** The idle-timeout configured after a change: a leaf set, removed, removed with the container listen, or the leaf of whole data. *)
Definition conf_idle (o : WholeData.op) (c : option N) : option N :=
  match o with
  | SetIdle n => Some n
  | DelIdle | DelListen => None
  | Data d => match d_listen d with Some x => x | None => None end
  | Diff _ => c
  end.
(** The timeout of the schema if none is configured. *)
Definition in_force (c : option N) : N := match c with Some n => n | None => 180 end.
Definition c254_full : Prop := forall l s, run l srv0 = Ret s -> w_idle s = in_force (fold_left (fun c o => conf_idle o c) l None).

(** The intervals of whole data are some keys, each once. *)
Definition whole (d : data) (ks : list key) : Prop := Forall is_key ks /\ NoDup ks /\ d_intervals d = map (fun k => (written (fst k), written (snd k))) ks.
(** After any changes of single intervals, whole data make the intervals used those of the data. *)
Definition c255_full : Prop := forall h conf d ks, changes h conf -> enough h -> whole d ks ->
  exists s, run [Diff (map call h); Data d] srv0 = Ret s /\ uses (w_notif s) ks.

(* ------------------------------------------------------------------ *)

(** Without removals of the container listen, and with the leaf in all whole data. *)
Definition told (o : WholeData.op) : Prop := match o with DelListen => False | Data d => exists n, d_listen d = Some (Some n) | _ => True end.
Theorem c254_partial l s : Forall told l -> run l srv0 = Ret s -> w_idle s = in_force (fold_left (fun c o => conf_idle o c) l None).
Proof.
  assert (G : forall l s0 s c, w_idle s0 = in_force c -> Forall told l -> run l s0 = Ret s -> w_idle s = in_force (fold_left (fun c o => conf_idle o c) l c)).
  { clear. induction l as [|o l IH]; intros s0 s c E F H; cbn [run fold_left] in *; [injection H as <-; exact E|].
    inversion F as [|? ? F1 F2]; subst. destruct (step o s0) as [s1|] eqn:S; [|discriminate]. refine (IH s1 s _ _ F2 H). clear IH H.
    destruct o as [n| | |d|ops]; cbn [step told conf_idle] in *; try (injection S as <-); try reflexivity.
    - destruct F1.
    - destruct F1 as [n F1]. rewrite F1 in *. destruct (apply_ops _ _) as [[r x]|]; [|discriminate]. injection S as <-. reflexivity.
    - destruct (apply_ops _ _) as [[r x]|]; [|discriminate]. injection S as <-. exact E. }
  apply G. reflexivity.
Qed.
Definition bare : data := {| d_listen := None; d_intervals := [] |}.
Theorem c254_full_refuted : ~ c254_full /\
  (exists s, run [SetIdle 60; DelListen] srv0 = Ret s /\ w_idle s = 60%N) /\ (exists s, run [SetIdle 60; Data bare] srv0 = Ret s /\ w_idle s = 60%N).
Proof.
  split; [|split; eexists; split; reflexivity]. intros F. specialize (F [SetIdle 60; DelListen] _ eq_refl). discriminate F.
Qed.
(** In general: removing the container or data without the leaf leave the timeout that was in force. *)
Theorem c254_stays o s s' : o = DelListen \/ (exists d, o = Data d /\ forall n, d_listen d <> Some (Some n)) -> step o s = Ret s' -> w_idle s' = w_idle s.
Proof.
  intros [E|(d & E & N)] H; subst o; cbn [step] in H; [injection H as <-; reflexivity|]. destruct (apply_ops _ _) as [[r x]|]; [|discriminate]. injection H as <-. cbn.
  destruct (d_listen d) as [[n|]|]; auto. destruct (N n eq_refl).
Qed.

(** The calls of valid changes all succeed, so that stopping at a failure makes no difference. *)
Lemma ops_app a : forall b s, apply_ops (a ++ b) s = match apply_ops a s with Ret (O, s') => apply_ops b s' | r => r end.
Proof.
  induction a as [|o a IH]; intros b s; [reflexivity|]. cbn [app apply_ops]. destruct (apply_op o s) as [[[|n] s']|]; auto.
Qed.
Lemma diff_holds h conf : changes h conf -> enough h -> exists s, apply_ops (map call h) notif0 = Ret (O, s) /\ holds s conf.
Proof.
  intros C E. assert (R : forall a b, enough (a ++ b) -> enough a) by (intros a b X k I; apply (X k); apply in_or_app; auto).
  induction C as [|h conf k C IH K N|h conf k C IH K N|h c1 c2 k C IH|h conf C IH].
  - exists notif0. split; [reflexivity|]. repeat split; constructor.
  - destruct (IH (R _ _ E)) as (s & A & B). destruct (step_add _ _ _ B K N) as (s' & S & H). exists s'. split; [|exact H].
    rewrite map_app, ops_app, A. cbn [map apply_ops]. rewrite S. reflexivity.
  - exfalso. apply (E k). apply in_or_app. right. left. reflexivity.
  - destruct (IH (R _ _ E)) as (s & A & B). destruct (step_remove _ _ _ _ B) as (s' & S & H). exists s'. split; [|exact H].
    rewrite map_app, ops_app, A. cbn [map apply_ops]. rewrite S. reflexivity.
  - destruct (IH (R _ _ E)) as (s & A & B). exists notif0. split; [rewrite map_app, ops_app, A; reflexivity|]. repeat split; constructor.
Qed.
Lemma data_holds ks : forall s conf, holds s conf -> Forall is_key ks -> NoDup ks -> (forall k, In k ks -> ~ In k conf) ->
  exists s', apply_ops (map (fun k => Create true (fst k) (snd k)) (map (fun k => (written (fst k), written (snd k))) ks)) s = Ret (O, s') /\ holds s' (rev ks ++ conf).
Proof.
  induction ks as [|k ks IH]; intros s conf H F D N; [exists s; auto|]. inversion F as [|? ? F1 F2]; subst. inversion D as [|? ? D1 D2]; subst. cbn [map apply_ops fst snd rev].
  destruct (step_add _ _ _ H F1 (N k (or_introl eq_refl))) as (s1 & S & H1). cbn [call] in S. rewrite S.
  destruct (IH s1 (k :: conf) H1 F2 D2) as (s2 & S2 & H2).
  - intros x I [E|E]; [subst x; contradiction|]. exact (N x (or_intror I) E).
  - exists s2. split; [exact S2|]. rewrite <- app_assoc. exact H2.
Qed.
(** What the data do: they add to the intervals there were. *)
Theorem c255_adds h conf d ks : changes h conf -> enough h -> whole d ks -> (forall k, In k ks -> ~ In k conf) ->
  exists s, run [Diff (map call h); Data d] srv0 = Ret s /\ uses (w_notif s) (rev ks ++ conf).
Proof.
  intros C E (F & D & W) N. destruct (diff_holds h conf C E) as (s & A & B). destruct (data_holds ks s conf B F D N) as (s' & A' & B').
  cbn [run step]. cbn [w_notif srv0]. rewrite A. cbn [w_notif]. rewrite W, A'. eexists. split; [reflexivity|]. apply holds_uses. exact B'.
Qed.
(** So they replace them only if there were none. *)
Theorem c255_partial h d ks : changes h [] -> enough h -> whole d ks ->
  exists s, run [Diff (map call h); Data d] srv0 = Ret s /\ uses (w_notif s) ks.
Proof.
  intros C E W. destruct (c255_adds h [] d ks C E W) as (s & A & B); [intros k _ []|]. exists s. split; [exact A|].
  rewrite app_nil_r in B. destruct B as (l & X & Y). exists l. split; [exact X|].
  destruct ks as [|k ks]; [exact Y|]. destruct (rev (k :: ks)) as [|y ys] eqn:R; [apply (f_equal (@rev key)) in R; rewrite rev_involutive in R; discriminate R|].
  rewrite Y, <- R. apply Permutation_map. apply Permutation_sym, Permutation_rev.
Qed.

Definition month : key := ((3, Months), (1, Months))%Z.
Definition week : key := ((2, Weeks), (1, Days))%Z.
Lemma keys_ok : is_key month /\ is_key week.
Proof. unfold is_key, is_time, month, week. cbn. lia. Qed.
Definition weekly : data := {| d_listen := Some (Some 300%N); d_intervals := [(written (fst week), written (snd week))] |}.
Lemma weekly_whole : whole weekly [week].
Proof. split; [apply Forall_cons; [apply keys_ok|apply Forall_nil]|]. split; [repeat constructor; intros []|reflexivity]. Qed.
Lemma month_added : changes [Add true month] [month] /\ enough [Add true month].
Proof. split; [apply (ch_add [] [] month ch_none (proj1 keys_ok)); intros []|]. intros k [E|[]]. discriminate E. Qed.
(** The interval of the old configuration stays in use; the same data given twice make their interval count twice. *)
Theorem c255_full_refuted : ~ c255_full /\
  (exists s l, run [Data weekly; Data weekly] srv0 = Ret s /\ intervals_get (w_notif s) = Ret l /\ length l = 2%nat).
Proof.
  split; [|eexists; eexists; split; [vm_compute; reflexivity|]; split; vm_compute; reflexivity].
  intros F. destruct month_added as [A B]. destruct (F _ _ _ _ A B weekly_whole) as (s & R & (l & X & Y)).
  destruct (c255_adds _ _ _ _ A B weekly_whole) as (s' & R' & (l' & X' & Y')).
  - intros k [<-|[]] [E|[]]. discriminate E.
  - rewrite R in R'. injection R' as <-. rewrite X in X'. injection X' as <-. apply Permutation_length in Y, Y'. rewrite Y in Y'. discriminate Y'.
Qed.
Example c255_case : exists s, run [Diff (map call [Add true month; RemoveAll]); Data weekly] srv0 = Ret s /\ uses (w_notif s) [week] /\ w_idle s = 300%N.
Proof.
  destruct month_added as [A _]. destruct (c255_partial [Add true month; RemoveAll] weekly [week]) as (s & R & U).
  - exact (ch_all _ _ A).
  - intros k [E|[E|[]]]; discriminate E.
  - exact weekly_whole.
  - exists s. split; [exact R|]. split; [exact U|]. cbn [run step] in R. destruct (apply_ops _ _) as [[r x]|] in R; [|discriminate R]. destruct (apply_ops _ _) as [[r' x']|] in R; [|discriminate R]. injection R as <-. reflexivity.
Qed.

Print Assumptions c254_partial.
Print Assumptions c254_full_refuted.
Print Assumptions c254_stays.
Print Assumptions c255_partial.
Print Assumptions c255_adds.
Print Assumptions c255_full_refuted.
