(** C244: who killed a session; the model is PsPoll, the histories are those of Prop_PsTerm. *)
From Coq Require Import Bool List NArith ZArith Lia.
From Verif Require Import Bytes PsSess PsPoll Prop_PsFair Prop_PsTerm.
Import ListNotations.
Local Open Scope N_scope.

(** "killed-by" (RFC 6470) is for sessions ended by being killed: a session that has a killer has that reason. *)
Definition right_killer (s : sess) : Prop := s_killed_by s <> 0 -> s_term s = TKilled.

(** C244 in full: whatever the application and nc_ps_poll() do. *)
Definition c244_full : Prop := forall o p0 l p, hist o p0 l p -> (q_last p0 < length (q_ents p0))%nat ->
  (forall s, s_killed_by (q_heap p0 s) = 0) -> forall s, right_killer (q_heap p s).

Lemma eff_killer h e s : (forall x, right_killer (h x)) -> right_killer (apply_eff h e s).
Proof.
  intros H. destruct e as [i t|i n|i st|i|i]; cbn [apply_eff].
  - destruct t; cbn [is_none]; try exact (H s); unfold hset; (destruct (N.eqb_spec s i) as [->|_]; [|exact (H s)]); pose proof (H i) as Hi; unfold right_killer in *; destruct (s_term (h i)) eqn:T; cbn [is_killed negb andb with_term set_killed_by s_killed_by s_term]; intros K; try reflexivity; try (exfalso; apply K; reflexivity); specialize (Hi K); discriminate Hi.
  - destruct (s_term (h i)) eqn:T; cbn [is_killed negb orb]; try exact (H s). destruct (N.eqb_spec n 0); [exact (H s)|]. unfold hset. destruct (N.eqb_spec s i) as [->|_]; [|exact (H s)]. intros _. exact T.
  - destruct (status_eqb st StStarting); [exact (H s)|]. unfold hset. destruct (N.eqb_spec s i) as [->|_]; [|exact (H s)]. exact (H i).
  - unfold hset. destruct (N.eqb_spec s i) as [->|_]; [|exact (H s)]. exact (H i).
  - unfold hset. destruct (N.eqb_spec s i) as [->|_]; [|exact (H s)]. exact (H i).
Qed.

(** Of all that the application can do. *)
Theorem c244_partial : forall es h, (forall x, s_killed_by (h x) = 0) -> forall s, right_killer (fold_left apply_eff es h s).
Proof.
  intros es h H. assert (H' : forall x, right_killer (h x)) by (intros x K; rewrite H in K; congruence). clear H. revert h H'.
  induction es as [|e es IH]; intros h H s; cbn [fold_left]; [exact (H s)|]. apply IH. intros x. apply eff_killer, H.
Qed.

(** The killer of a killed session can be told, of no other; 0 is no session; another reason takes it away. *)
Theorem c244_set h i n : s_killed_by (apply_eff h (XKilledBy i n) i) = (if N.eqb n 0 then s_killed_by (h i) else match s_term (h i) with TKilled => n | _ => s_killed_by (h i) end).
Proof. cbn [apply_eff]. destruct (s_term (h i)) eqn:T; cbn [is_killed negb orb]; destruct (n =? 0); try reflexivity. unfold hset. rewrite N.eqb_refl. reflexivity. Qed.

Theorem c244_reason h i t : t <> TNone -> s_term (apply_eff h (XTerm i t) i) = t /\
  (s_killed_by (apply_eff h (XTerm i t) i) = s_killed_by (h i) \/ (s_term (h i) = TKilled /\ t <> TKilled /\ s_killed_by (apply_eff h (XTerm i t) i) = 0)).
Proof.
  intros N. cbn [apply_eff]. destruct t; try congruence; cbn [is_none]; unfold hset; rewrite N.eqb_refl; (split; [reflexivity|]);
  destruct (s_term (h i)) eqn:T; cbn [is_killed negb andb with_term set_killed_by s_killed_by]; try (left; reflexivity); right; repeat split; discriminate.
Qed.
Theorem c244_no_reason h i s : apply_eff h (XTerm i TNone) s = h s.
Proof. reflexivity. Qed.

(** When nc_ps_poll() finds the session silent for too long, it gets that reason and keeps its killer. *)
Theorem c244_full_refuted : ~ c244_full.
Proof.
  intros F. set (p0 := mkP (fun _ => unix_sess) [(100, PsNone)] 0).
  set (p1 := mkP (apply_eff (q_heap p0) (XTerm 100 TKilled)) (q_ents p0) (q_last p0)).
  set (p2 := mkP (apply_eff (q_heap p1) (XKilledBy 100 5)) (q_ents p1) (q_last p1)).
  assert (H2 : hist (mkO 20 false) p0 (([] ++ [HApp (XTerm 100 TKilled)]) ++ [HApp (XKilledBy 100 5)]) p2) by (apply hist_app, hist_app, hist_nil).
  assert (exists p3, ps_poll (mkO 20 false) p2 next_call = Some (p3, TERM_ERR, Some 100, []) /\ s_term (q_heap p3 100) = TTimeout /\ s_killed_by (q_heap p3 100) = 5) as (p3 & E & T & K)
    by (eexists; split; [vm_compute; reflexivity|split; vm_compute; reflexivity]).
  pose proof (F _ _ _ _ (hist_poll _ _ _ _ _ _ _ _ _ H2 E) ltac:(cbn; lia) ltac:(reflexivity) 100) as R. unfold right_killer in R. rewrite T, K in R. discriminate (R ltac:(discriminate)).
Qed.

(** A session killed by another, then found to be closed. *)
Example c244_case : let h := fun _ : sid => unix_sess in
  s_killed_by (fold_left apply_eff [XTerm 7 TKilled; XKilledBy 7 3] h 7) = 3 /\ s_killed_by (fold_left apply_eff [XTerm 7 TKilled; XKilledBy 7 3; XTerm 7 TClosed; XKilledBy 7 4] h 7) = 0.
Proof. split; reflexivity. Qed.

Print Assumptions c244_partial.
Print Assumptions c244_set.
Print Assumptions c244_reason.
Print Assumptions c244_no_reason.
Print Assumptions c244_full_refuted.
