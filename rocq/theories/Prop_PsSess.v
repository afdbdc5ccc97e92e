(** Property C14: the collection of sessions in a pollsession structure. *)
From Coq Require Import NArith ZArith Bool Lia List Permutation.
From Verif Require Import PsSess.
Import ListNotations.
Local Open Scope N_scope.

(* ================================================================== *)
(** * Specification: the sessions that should be held after a history of calls and results *)

Fixpoint drop_one (s : sid) (l : list sid) : list sid :=
  match l with [] => [] | x :: r => if x =? s then r else x :: drop_one s r end.
Definition spec_step (l : list sid) (x : call * bool) : list sid :=
  if negb (snd x) then l
  else match fst x with
       | CAdd s _ => s :: l
       | CDel s => drop_one s l
       | CClear true _ => []
       | CClear false run => filter run l
       end.
Definition held (h : list (call * bool)) : list sid := fold_left spec_step h [].

(** The caller never adds a session that is held. *)
Definition no_double_add (h : list (call * bool)) : Prop :=
  forall h1 s al h2, h = h1 ++ (CAdd s al, true) :: h2 -> ~ In s (held h1).
(** The allocation of the array never failed. *)
Definition array_allocated (h : list (call * bool)) : Prop := forall s ok, ~ In (CAdd s AReallocFail, ok) h.

(* ================================================================== *)
(** * Proofs *)

Definition is_ent (x : slot) (s : sid) : Prop := exists st, x = SEnt s st.
Definition wf (p : ps) (l : list sid) : Prop :=
  exists es rest, (p_arr p = Some (es ++ rest) \/ (p_arr p = None /\ es = [])) /\ Forall2 is_ent es l
                  /\ p_count p = N.of_nat (length l) /\ p_count p < 65536.

Lemma f2_len {A B} (R : A -> B -> Prop) l l' : Forall2 R l l' -> length l = length l'.
Proof. induction 1; cbn; congruence. Qed.

Lemma set_nth_mid u x v y : set_nth (u ++ x :: v) (length u) y = u ++ y :: v.
Proof. induction u as [|a u IH]; cbn; [reflexivity|]. now rewrite IH. Qed.
Lemma nth_mid (u : list slot) x v : nth_error (u ++ x :: v) (length u) = Some x.
Proof. rewrite nth_error_app2 by lia. now rewrite Nat.sub_diag. Qed.

Lemma resize_app es rest : exists r, resize (Some (es ++ rest)) (S (length es)) = es ++ [r].
Proof.
  unfold resize. rewrite firstn_app. rewrite firstn_all2 by lia.
  replace (S (length es) - length es)%nat with 1%nat by lia. destruct rest as [|r rest].
  - exists SGarbage. rewrite app_nil_r. cbn [firstn]. rewrite app_nil_r. replace (S (length es) - length es)%nat with 1%nat by lia. reflexivity.
  - exists r. rewrite app_length. cbn [length firstn]. replace (S (length es) - (length es + S (length rest)))%nat with 0%nat by lia.
    cbn [repeat]. now rewrite app_nil_r.
Qed.

Lemma wf_slot p a x b : wf p (a ++ x :: b) -> exists st, slot_at (p_arr p) (N.of_nat (length a)) = Some (SEnt x st).
Proof.
  intros (es & rest & HA & HF & _ & _). apply Forall2_app_inv_r in HF. destruct HF as (ea & eb & Ha & Hb & ->).
  inversion Hb as [|sx ? eb' ? [st ->] Hb']. subst. exists st.
  destruct HA as [E|[_ E]]; [|now destruct ea].
  rewrite E. unfold slot_at. rewrite Nat2N.id, <- (f2_len _ _ _ Ha). rewrite <- app_assoc. cbn [app]. apply nth_mid.
Qed.

Lemma wf_del p a x b : wf p (a ++ x :: b) ->
  exists p' b', del_at p (N.of_nat (length a)) = Val p' /\ wf p' (a ++ b') /\ Permutation b b' /\ p_last p' = 0.
Proof.
  intros (es & rest & HA & HF & HC & HL). apply Forall2_app_inv_r in HF. destruct HF as (ea & eb & Ha & Hb & ->).
  inversion Hb as [|sx ? eb' ? [st ->] Hb']. subst. clear Hb.
  destruct HA as [E|[_ E]]; [|now destruct ea].
  assert (La : length ea = length a) by exact (f2_len _ _ _ Ha).
  assert (EC : (p_count p + 65535) mod 65536 = N.of_nat (length a + length b)).
  { rewrite HC in *. rewrite app_length in *. cbn [length] in *.
    replace (N.of_nat (length a + S (length b)) + 65535) with (N.of_nat (length a + length b) + 1 * 65536) by lia.
    rewrite N.mod_add by lia. apply N.mod_small. lia. }
  unfold del_at. rewrite EC, E. destruct (N.leb_spec (N.of_nat (length a)) (N.of_nat (length a + length b))) as [_|]; [|lia].
  unfold slot_at, set_at. rewrite !Nat2N.id. rewrite <- app_assoc. cbn [app]. rewrite <- La. rewrite nth_mid.
  destruct b as [|b0 b1].
  - inversion Hb'. subst eb'. cbn [length app]. rewrite Nat.add_0_r. rewrite nth_mid, N.eqb_refl.
    rewrite set_nth_mid.
    eexists _, []. split; [reflexivity|]. split; [|split; [constructor|reflexivity]].
    rewrite app_nil_r. exists ea, (SGarbage :: rest). cbn [p_arr p_count]. rewrite HC in HL. rewrite app_length in HL. cbn [length] in HL.
    repeat split; try assumption; try lia. destruct (N.eqb_spec (N.of_nat (length ea)) 0) as [E0|E0]; [right|now left].
    split; [reflexivity|]. destruct ea; [reflexivity|cbn [length] in E0; lia].
  - destruct (exists_last (l := b0 :: b1)) as [c [z Eb]]; [discriminate|]. rewrite Eb in *.
    apply Forall2_app_inv_r in Hb'. destruct Hb' as (ec & ez & Hc & Hz & ->).
    inversion Hz as [|sz ? ? ? [stz ->] Hn]. subst. inversion Hn. subst. clear Hz Hn.
    assert (Lc : length ec = length c) by exact (f2_len _ _ _ Hc).
    rewrite app_length. cbn [length].
    replace (length ea + (length c + 1))%nat with (length (ea ++ SEnt x st :: ec)) by (rewrite app_length; cbn [length]; lia).
    replace (ea ++ SEnt x st :: (ec ++ [SEnt z stz]) ++ rest) with ((ea ++ SEnt x st :: ec) ++ SEnt z stz :: rest)
      by (rewrite <- !app_assoc; reflexivity).
    rewrite nth_mid. destruct (N.eqb_spec (N.of_nat (length ea)) (N.of_nat (length (ea ++ SEnt x st :: ec)))) as [E0|E0].
    { rewrite app_length in E0. cbn [length] in E0. lia. }
    rewrite <- app_assoc. cbn [app]. rewrite set_nth_mid.
    destruct (N.eqb_spec (N.of_nat (length (ea ++ SEnt x st :: ec))) 0) as [E1|E1].
    { rewrite app_length in E1. cbn [length] in E1. lia. }
    eexists _, (z :: c). split; [reflexivity|]. split; [|split; [|reflexivity]].
    + exists (ea ++ SEnt z stz :: ec), (SEnt z stz :: rest). cbn [p_arr p_count].
      split; [left; rewrite <- app_assoc; reflexivity|]. split.
      { apply Forall2_app; [assumption|]. constructor; [now exists stz|assumption]. }
      rewrite !app_length. cbn [length]. rewrite HC in HL. rewrite app_length in HL. cbn [length] in HL. rewrite app_length in HL. cbn [length] in HL. lia.
    + symmetry. apply Permutation_cons_append.
Qed.

Lemma wf_add p l s al : wf p l -> N.of_nat (S (length l)) < 65536 -> al <> AReallocFail ->
  exists p' ok, call_step p (CAdd s al) true = Val (p', ok) /\ (ok = true <-> al = AOk) /\ wf p' (if ok then l ++ [s] else l).
Proof.
  intros (es & rest & HA & HF & HC & HL) HN Hal. unfold call_step, ps_add. cbn [negb].
  assert (EC : (p_count p + 1) mod 65536 = N.of_nat (S (length l))) by (rewrite HC, N.mod_small by lia; lia).
  assert (Le : length es = length l) by exact (f2_len _ _ _ HF).
  rewrite EC. destruct (N.eqb_spec (N.of_nat (S (length l))) 0) as [E0|_]; [lia|].
  assert (HR : exists r, resize (p_arr p) (S (length l)) = es ++ [r]).
  { destruct HA as [-> |[-> ->]]; [rewrite <- Le; apply resize_app|]. destruct l; [|discriminate]. exists SGarbage. reflexivity. }
  destruct HR as [r HR]. rewrite Nat2N.id, HR. unfold set_at.
  replace (N.to_nat (N.of_nat (S (length l)) - 1)) with (length es) by lia. rewrite !set_nth_mid.
  destruct al; [|contradiction|].
  - eexists _, true. split; [reflexivity|]. split; [tauto|]. exists (es ++ [SEnt s PsNone]), []. cbn [p_arr p_count].
    rewrite app_nil_r. repeat split; [now left| |rewrite app_length; cbn [length]; lia|lia].
    apply Forall2_app; [assumption|]. constructor; [now exists PsNone|constructor].
  - eexists _, false. split; [reflexivity|]. split; [split; discriminate|]. exists es, [SNull]. cbn [p_arr p_count].
    repeat split; [now left|assumption|lia|lia].
Qed.

Lemma wf_find p l s : wf p l -> forall b a, l = a ++ b -> ~ In s a ->
  (exists b1 b2, b = b1 ++ s :: b2 /\ ~ In s b1 /\ del_find p s (N.of_nat (length a)) (length b) = Val (Some (N.of_nat (length (a ++ b1)))))
  \/ (~ In s b /\ del_find p s (N.of_nat (length a)) (length b) = Val None).
Proof.
  intros W. induction b as [|x b IH]; intros a -> Ha; [right; split; [now intros []|reflexivity]|].
  cbn [length del_find]. destruct (wf_slot _ _ _ _ W) as [st ->].
  destruct (N.eqb_spec x s) as [->|Hne].
  - left. exists [], b. rewrite app_nil_r. repeat split; auto.
  - specialize (IH (a ++ [x])). rewrite <- app_assoc in IH. cbn [app] in IH. specialize (IH eq_refl).
    rewrite app_length in IH. cbn [length] in IH. replace (N.of_nat (length a) + 1) with (N.of_nat (length a + 1)) by lia.
    destruct IH as [(b1 & b2 & -> & H1 & H2)|[H1 H2]].
    + rewrite in_app_iff. cbn. intuition.
    + left. exists (x :: b1), b2. rewrite <- app_assoc in H2. cbn in *. intuition.
    + right. split; [cbn; intuition|exact H2].
Qed.

Lemma drop_one_mid s a b : ~ In s a -> drop_one s (a ++ s :: b) = a ++ b.
Proof.
  induction a as [|x a IH]; cbn; intros H; [now rewrite N.eqb_refl|]. destruct (N.eqb_spec x s) as [->|]; [tauto|]. rewrite IH; tauto.
Qed.
Lemma drop_one_in s l : In s l -> Permutation l (s :: drop_one s l).
Proof.
  induction l as [|x l IH]; cbn; [tauto|]. intros H. destruct (N.eqb_spec x s) as [->|Hne]; [reflexivity|].
  rewrite perm_swap. apply perm_skip. apply IH. intuition.
Qed.
Lemma drop_one_perm s l l' : Permutation l l' -> In s l -> Permutation (drop_one s l) (drop_one s l').
Proof.
  intros HP Hin. apply (Permutation_cons_inv (a := s)). rewrite <- drop_one_in by exact Hin.
  rewrite <- drop_one_in; [exact HP|]. eapply Permutation_in; eassumption.
Qed.
Lemma filter_perm (f : sid -> bool) l l' : Permutation l l' -> Permutation (filter f l) (filter f l').
Proof.
  induction 1 as [|x l l' H IH|x y l|]; cbn.
  - constructor.
  - destruct (f x); [now constructor|assumption].
  - destruct (f x), (f y); try reflexivity. apply perm_swap.
  - etransitivity; eassumption.
Qed.

Lemma wf_del_call p l s : wf p l ->
  exists p' l' ok, call_step p (CDel s) true = Val (p', ok) /\ (ok = true <-> In s l) /\ wf p' l'
                   /\ Permutation l' (if ok then drop_one s l else l).
Proof.
  intros W. unfold call_step, ps_del. cbn [negb]. assert (EC : N.to_nat (p_count p) = length l).
  { destruct W as (? & ? & _ & _ & -> & _). lia. }
  rewrite EC. destruct (wf_find p l s W l [] eq_refl ltac:(now intros [])) as [(b1 & b2 & -> & Hn & E)|[Hn E]]; cbn [length N.of_nat app] in E; rewrite E.
  - destruct (wf_del _ _ _ _ W) as (p' & b' & -> & W' & HP & _). exists p', (b1 ++ b'), true. rewrite Z.eqb_refl.
    repeat split; auto. { intros _. apply in_elt. } rewrite drop_one_mid by exact Hn. now rewrite HP.
  - exists p, l, false. repeat split; auto; discriminate || tauto.
Qed.

Lemma wf_clear_all p l : wf p l -> forall b a, l = a ++ b -> clear_all p (N.of_nat (length a)) (length b) = Val tt.
Proof.
  intros W. induction b as [|x b IH]; intros a ->; [reflexivity|]. cbn [length clear_all]. destruct (wf_slot _ _ _ _ W) as [st ->].
  specialize (IH (a ++ [x])). rewrite <- app_assoc in IH. specialize (IH eq_refl). rewrite app_length in IH. cbn [length] in IH.
  replace (N.of_nat (length a) + 1) with (N.of_nat (length a + 1)) by lia. exact IH.
Qed.

Lemma wf_count p l : wf p l -> p_count p = N.of_nat (length l).
Proof. now intros (? & ? & _ & _ & -> & _). Qed.

Lemma wf_clear_dead run : forall n p a b, length b = n -> wf p (a ++ b) ->
  exists p' b', clear_dead p run (N.of_nat (length a)) n = Val p' /\ wf p' (a ++ b') /\ Permutation b' (filter run b).
Proof.
  induction n as [|n IH]; intros p a b Hb W.
  - destruct b; [|discriminate]. cbn [clear_dead]. rewrite (wf_count _ _ W), app_nil_r, N.ltb_irrefl. cbn [negb].
    exists p, []. rewrite app_nil_r in *. repeat split; auto.
  - destruct b as [|x b]; [discriminate|]. cbn [clear_dead]. rewrite (wf_count _ _ W).
    destruct (N.ltb_spec (N.of_nat (length a)) (N.of_nat (length (a ++ x :: b)))) as [_|Hc]; [|rewrite app_length in Hc; cbn [length] in Hc; lia].
    cbn [negb]. destruct (wf_slot _ _ _ _ W) as [st ->]. cbn [filter]. cbn in Hb. destruct (run x).
    + destruct (IH p (a ++ [x]) b) as (p' & b' & E & W' & HP); [lia|now rewrite <- app_assoc|].
      rewrite app_length in E. cbn [length] in E. exists p', (x :: b').
      replace (N.of_nat (length a) + 1) with (N.of_nat (length a + 1)) by lia. rewrite <- app_assoc in W'. auto.
    + destruct (wf_del _ _ _ _ W) as (p1 & b1 & -> & W1 & HP1 & _).
      destruct (IH p1 a b1) as (p' & b' & E & W' & HP); [rewrite <- (Permutation_length HP1); lia|exact W1|].
      exists p', b'. repeat split; auto. rewrite HP. apply filter_perm. now symmetry.
Qed.

Lemma held_app h x : held (h ++ [x]) = spec_step (held h) x.
Proof. unfold held. now rewrite fold_left_app. Qed.

(** One call from a structure that matches. *)
Lemma step_wf p l c lk : wf p l -> (forall s, c <> CAdd s AReallocFail) ->
  ((exists s al, c = CAdd s al) -> lk = true -> N.of_nat (S (length l)) < 65536) ->
  exists p' l' ok, call_step p c lk = Val (p', ok) /\ wf p' l' /\ Permutation l' (spec_step l (c, ok)).
Proof.
  intros W HR HL. destruct lk.
  - destruct c as [s al|s|all run].
    + assert (HN : N.of_nat (S (length l)) < 65536) by (apply HL; eauto).
      destruct (wf_add p l s al W HN) as (p' & ok & E & _ & W'); [intros ->; now apply (HR s)|].
      exists p', (if ok then l ++ [s] else l), ok. repeat split; auto. destruct ok; cbn [spec_step fst snd negb]; [|reflexivity].
      symmetry. apply Permutation_cons_append.
    + destruct (wf_del_call p l s W) as (p' & l' & ok & E & _ & W' & HP). exists p', l', ok. destruct ok; repeat split; auto.
    + unfold call_step, ps_clear. cbn [negb]. rewrite (wf_count _ _ W), Nat2N.id. destruct all.
      * pose proof (wf_clear_all p l W l [] eq_refl) as E. cbn [length N.of_nat] in E. rewrite E.
        exists (mkPs None 0 0), [], true. repeat split; [exists [], []; cbn; repeat split; auto; lia|constructor].
      * destruct (wf_clear_dead run (length l) p [] l eq_refl W) as (p' & b' & E & W' & HP). cbn [length N.of_nat app] in *. rewrite E.
        exists p', b', true. repeat split; auto.
  - exists p, l, false. destruct c; cbn [call_step]; unfold ps_add, ps_del, ps_clear; cbn [negb spec_step fst snd]; (split; [reflexivity|split; [exact W|apply Permutation_refl]]).
Qed.

Lemma array_app h x : array_allocated (h ++ [x]) -> array_allocated h.
Proof. intros H s ok Hin. apply (H s ok). apply in_or_app. now left. Qed.

Lemma del_ok_in p l s lk p' : wf p l -> call_step p (CDel s) lk = Val (p', true) -> In s l.
Proof.
  intros W E. destruct lk; [|discriminate]. destruct (wf_del_call p l s W) as (? & ? & ok & E' & Hok & _). rewrite E in E'.
  injection E' as <- <-. now apply Hok.
Qed.

Lemma spec_perm l l' c ok : Permutation l l' -> (forall s, c = CDel s -> ok = true -> In s l) ->
  Permutation (spec_step l (c, ok)) (spec_step l' (c, ok)).
Proof.
  intros HP Hd. destruct ok; cbn [spec_step fst snd negb]; [|exact HP]. destruct c as [s al|s|[|] run].
  - now apply perm_skip.
  - apply drop_one_perm; [exact HP|]. now apply Hd.
  - constructor.
  - now apply filter_perm.
Qed.

Lemma history_wf h p : history h p -> array_allocated h -> exists l, wf p l /\ Permutation l (held h).
Proof.
  induction 1 as [|h p c lk p' ok H IH E]; intros HA.
  - exists []. split; [exists [], []; cbn; repeat split; auto; lia|constructor].
  - destruct (IH (array_app _ _ HA)) as (l & W & HP). rewrite held_app.
    assert (HR : forall s, c <> CAdd s AReallocFail).
    { intros s ->. apply (HA s ok). apply in_or_app. right. now left. }
    assert (HN : (exists s al, c = CAdd s al) -> lk = true -> N.of_nat (S (length l)) < 65536).
    { intros (s & al & ->) ->. pose proof W as (_ & _ & _ & _ & HC & HL). destruct (N.eq_dec (p_count p) 65535) as [E5|]; [|lia].
      exfalso. revert E. unfold call_step, ps_add. cbn [negb]. rewrite E5. discriminate. }
    destruct (step_wf p l c lk W HR HN) as (p1 & l' & ok1 & E1 & W' & HP'). rewrite E in E1. injection E1 as <- <-.
    exists l'. split; [exact W'|]. rewrite HP'. apply spec_perm; [exact HP|]. intros s -> ->. eapply del_ok_in; eassumption.
Qed.

Lemma wf_nth p l i : wf p l -> ps_get true p i = Val (nth_error l (N.to_nat i)).
Proof.
  intros W. unfold ps_get. cbn [negb]. rewrite (wf_count _ _ W). destruct (N.ltb_spec i (N.of_nat (length l))) as [Hi|Hi].
  - destruct (nth_error l (N.to_nat i)) as [x|] eqn:E; [|apply nth_error_None in E; lia].
    destruct (nth_error_split _ _ E) as (a & b & -> & La). destruct (wf_slot _ _ _ _ W) as [st Es].
    replace i with (N.of_nat (length a)) by lia. now rewrite Es.
  - f_equal. symmetry. apply nth_error_None. lia.
Qed.

Lemma wf_findf p l f : wf p l -> forall b a, l = a ++ b -> find_loop p f (N.of_nat (length a)) (length b) = Val (find f b).
Proof.
  intros W. induction b as [|x b IH]; intros a ->; [reflexivity|]. cbn [length find_loop find].
  destruct (wf_slot _ _ _ _ W) as [st ->]. destruct (f x); [reflexivity|].
  specialize (IH (a ++ [x])). rewrite <- app_assoc in IH. specialize (IH eq_refl). rewrite app_length in IH. cbn [length] in IH.
  replace (N.of_nat (length a) + 1) with (N.of_nat (length a + 1)) by lia. exact IH.
Qed.

(* ================================================================== *)
(** * C14 *)

(** After every history of calls in which the array could always be allocated, the structure holds exactly the
    sessions added and not removed since: the count is their number, reading it index by index gives each of them as many
    times as it was added and NULL beyond, and a search returns one that matches if there is one. *)
Theorem c14_holds_partial : forall h p, history h p -> array_allocated h ->
  exists l, Permutation l (held h) /\ ps_count true p = N.of_nat (length (held h))
    /\ (forall i, ps_get true p i = Val (nth_error l (N.to_nat i)))
    /\ (forall f, exists r, ps_find true p f = Val r /\
          match r with Some s => In s (held h) /\ f s = true | None => forall s, In s (held h) -> f s = false end).
Proof.
  intros h p H HA. destruct (history_wf h p H HA) as (l & W & HP). exists l. split; [exact HP|]. split; [|split].
  - unfold ps_count. cbn [negb]. rewrite (wf_count _ _ W). now rewrite (Permutation_length HP).
  - intros i. now apply wf_nth.
  - intros f. exists (find f l). split.
    + unfold ps_find. cbn [negb]. rewrite (wf_count _ _ W), Nat2N.id. apply (wf_findf p l f W l [] eq_refl).
    + destruct (find f l) as [s|] eqn:E.
      * apply find_some in E. split; [|tauto]. eapply Permutation_in; [exact HP|tauto].
      * intros s Hs. apply (find_none _ _ E). eapply Permutation_in; [symmetry; exact HP|exact Hs].
Qed.

(** Each session is held once if the caller adds none that is held. *)
Lemma held_nodup h p : history h p -> array_allocated h -> no_double_add h -> NoDup (held h).
Proof.
  intros H HA. induction H as [|h p c lk p' ok H IH E]; intros HD; [constructor|].
  assert (HD' : no_double_add h).
  { intros h1 s al h2 ->. apply (HD h1 s al (h2 ++ [(c, ok)])). now rewrite <- app_assoc. }
  specialize (IH (array_app _ _ HA) HD'). rewrite held_app. destruct ok; cbn [spec_step fst snd negb]; [|exact IH]. destruct c as [s al|s|[|] run].
  - constructor; [|exact IH]. apply (HD h s al []). reflexivity.
  - destruct (history_wf h p H (array_app _ _ HA)) as (l & W & HP). pose proof (del_ok_in _ _ _ _ _ W E) as Hin.
    apply (Permutation_NoDup (drop_one_in s (held h) (Permutation_in _ HP Hin))) in IH. now inversion IH.
  - constructor.
  - now apply NoDup_filter.
Qed.
Theorem c14_each_once_partial : forall h p, history h p -> array_allocated h -> no_double_add h ->
  forall i j s, ps_get true p i = Val (Some s) -> ps_get true p j = Val (Some s) -> i = j.
Proof.
  intros h p H HA HD i j s Hi Hj. destruct (history_wf h p H HA) as (l & W & HP).
  pose proof (held_nodup h p H HA HD) as ND. apply (Permutation_NoDup (Permutation_sym HP)) in ND.
  rewrite (wf_nth _ _ i W) in Hi. rewrite (wf_nth _ _ j W) in Hj. injection Hi as Hi. injection Hj as Hj.
  assert (N.to_nat i = N.to_nat j); [|lia]. apply (proj1 (NoDup_nth_error l) ND); [|congruence].
  apply nth_error_Some. congruence.
Qed.

(** Adding succeeds unless memory runs out, deleting succeeds exactly for a session that is held, and no call
    touches memory it must not, as long as fewer than 65535 sessions are held. *)
Theorem c14_results_partial : forall h p, history h p -> array_allocated h ->
  (forall s, N.of_nat (length (held h)) < 65535 -> exists p', ps_add true p s AOk = Val (p', 0%Z))
  /\ (forall s, exists p' r, ps_del true p s = Val (p', r) /\ (r = 0%Z <-> In s (held h)) /\ (r = 0%Z \/ r = (-1)%Z))
  /\ (forall all run, exists p', ps_clear true p all run = Val p').
Proof.
  intros h p H HA. destruct (history_wf h p H HA) as (l & W & HP). pose proof (Permutation_length HP) as HL. split; [|split].
  - intros s Hn. destruct (wf_add p l s AOk W) as (p' & ok & E & Hok & _); [lia|discriminate|]. exists p'.
    unfold call_step in E. destruct (ps_add true p s AOk) as [[p1 r]|] eqn:E1; [|discriminate]. injection E as <- <-.
    destruct (Z.eqb_spec r 0) as [->|]; [reflexivity|]. assert (false = true) by now apply Hok. discriminate.
  - intros s. destruct (wf_del_call p l s W) as (p' & l' & ok & E & Hok & _). exists p'.
    unfold call_step in E. destruct (ps_del true p s) as [[p1 r]|] eqn:E1; [|discriminate]. injection E as <- <-. exists r.
    split; [reflexivity|]. assert (HI : In s l <-> In s (held h)).
    { split; apply Permutation_in; [exact HP|now symmetry]. }
    split; [rewrite <- HI, <- Hok; destruct (Z.eqb_spec r 0); intuition congruence|].
    revert E1. unfold ps_del. cbn [negb]. destruct (del_find p s 0 (N.to_nat (p_count p))) as [[i|]|]; [|intros [= _ <-]; now right|discriminate].
    destruct (del_at p i); intros [= _ <-]. now left.
  - intros all run. destruct (step_wf p l (CClear all run) true W) as (p' & l' & ok & E & _); [discriminate|now intros (? & ? & [=])|].
    exists p'. unfold call_step in E. destruct (ps_clear true p all run); [now injection E as <- _|discriminate].
Qed.

(** The full statement is false when the array cannot be enlarged: the call reports failure, but the structure then
    claims a session it has no memory for; reading it is undefined. *)
Theorem c14_refuted : exists h p, history h p /\ h = [(CAdd 7 AReallocFail, false)] /\ held h = []
  /\ ps_count true p = 1 /\ ps_get true p 0 = UB /\ (forall s, ps_del true p s = UB).
Proof.
  exists [(CAdd 7 AReallocFail, false)], (mkPs None 1 0). split; [|repeat split].
  change [(CAdd 7 AReallocFail, false)] with ([] ++ [(CAdd 7 AReallocFail, false)]). eapply (h_step _ _ _ true); [constructor|reflexivity].
Qed.

(** Nor can more than 65535 sessions be held: adding one more frees the array twice. *)
Lemma many_adds n : N.of_nat n <= 65535 -> exists h p, history h p /\ array_allocated h /\ length (held h) = n /\ held h = repeat 1 n.
Proof.
  induction n as [|n IH]; intros Hn.
  - exists [], ps_new. repeat split; [constructor|intros ? ? []].
  - destruct IH as (h & p & H & HA & HL & HR); [lia|]. destruct (c14_results_partial h p H HA) as (Hadd & _).
    destruct (Hadd 1 ltac:(lia)) as [p' E]. exists (h ++ [(CAdd 1 AOk, true)]), p'. split; [|split; [|split]].
    + eapply (h_step _ _ _ true); [exact H|]. unfold call_step. rewrite E. reflexivity.
    + intros s ok Hin. apply in_app_iff in Hin. destruct Hin as [Hin|[[= ? ?]|[]]]. now apply (HA s ok).
    + rewrite held_app. cbn [spec_step fst snd negb length]. now rewrite HL.
    + rewrite held_app. cbn [spec_step fst snd negb repeat]. now rewrite HR.
Qed.
Theorem c14_limit_refuted : exists h p, history h p /\ array_allocated h /\ length (held h) = N.to_nat 65535
  /\ forall s, ps_add true p s AOk = UB.
Proof.
  destruct (many_adds (N.to_nat 65535)) as (h & p & H & HA & HL & _); [rewrite N2Nat.id; apply N.le_refl|]. exists h, p. repeat split; auto.
  intros s. unfold ps_add. cbn [negb]. destruct (c14_holds_partial h p H HA) as (l & _ & HC & _). unfold ps_count in HC. cbn [negb] in HC.
  rewrite HC, HL, N2Nat.id. reflexivity.
Qed.

Fixpoint replay (p : ps) (l : list (call * bool)) : option ps :=
  match l with
  | [] => Some p
  | (c, ok) :: r => match call_step p c true with
                    | Val (p', ok') => if Bool.eqb ok' ok then replay p' r else None
                    | UB => None
                    end
  end.
Lemma replay_history l : forall h p p', history h p -> replay p l = Some p' -> history (h ++ l) p'.
Proof.
  induction l as [|[c ok] r IH]; intros h p p' H E; cbn [replay] in E.
  - injection E as <-. now rewrite app_nil_r.
  - destruct (call_step p c true) as [[p1 ok']|] eqn:E1; [|discriminate]. destruct (Bool.eqb_spec ok' ok) as [->|]; [|discriminate].
    change ((c, ok) :: r) with ([(c, ok)] ++ r). rewrite app_assoc. eapply IH; [|exact E]. eapply h_step; eassumption.
Qed.

(** A non-trivial case: four sessions are added, one fails for lack of memory, one is removed (the last takes its
    place), two that stopped running are cleared, one of which is the session that took a freed place. *)
Example c14_case : exists p, history
  [(CAdd 11 AOk, true); (CAdd 12 AOk, true); (CAdd 13 ACallocFail, false); (CAdd 14 AOk, true); (CAdd 15 AOk, true);
   (CDel 12, true); (CDel 99, false); (CClear false (fun s => negb ((s =? 15) || (s =? 14))), true); (CAdd 16 AOk, true)] p
  /\ ps_count true p = 2 /\ ps_get true p 0 = Val (Some 11) /\ ps_get true p 1 = Val (Some 16) /\ ps_get true p 2 = Val None.
Proof.
  eexists. split; [apply (replay_history _ [] ps_new); [constructor|vm_compute; reflexivity]|]. vm_compute. repeat split.
Qed.

(** The documented return values of nc_ps_add_session() and nc_ps_del_session(), and what they do when the
    pollsession cannot be locked: nothing. *)
Theorem c14_codes lk p s al p' r :
  (ps_add lk p s al = Val (p', r) -> (r = 0 \/ r = -1)%Z /\ (lk = false -> p' = p /\ r = (-1)%Z)) /\
  (ps_del lk p s = Val (p', r) -> (r = 0 \/ r = -1)%Z /\ (lk = false -> p' = p /\ r = (-1)%Z)) /\
  (lk = false -> ps_count lk p = 0 /\ forall i, ps_get lk p i = Val None).
Proof.
  split; [|split; [|intros ->; split; reflexivity]]; destruct lk; unfold ps_add, ps_del; cbn [negb].
  - destruct (_ =? 0); [discriminate|]. destruct al; intros H; injection H as _ <-; (split; [auto|discriminate]).
  - intros H; injection H as <- <-. auto.
  - destruct (del_find p s 0 (N.to_nat (p_count p))) as [[i|]|]; [destruct (del_at p i)| |]; intros H; try discriminate;
    injection H as _ <-; (split; [auto|discriminate]).
  - intros H; injection H as <- <-. auto.
Qed.

Print Assumptions c14_holds_partial.
Print Assumptions c14_each_once_partial.
Print Assumptions c14_results_partial.
Print Assumptions c14_refuted.
Print Assumptions c14_limit_refuted.
Print Assumptions c14_codes.
