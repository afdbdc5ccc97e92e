(** C40 (rotation of endpoints), C41 (anchored periods) and C52 (idle sessions) of Call Home. *)
From Coq Require Import Ascii String NArith ZArith Bool Lia List.
From Verif Require Import Bytes CStr CallHome.
Import ListNotations.
Local Open Scope Z_scope.

(* ------------------------------------------------------------------ *)
(** ** Specification *)

Definition first_of (l : list bytes) (n : bytes) : Prop := exists t, l = n :: t.

(** [n] comes after [m] in the configured order, cyclically. *)
Definition next_after (l : list bytes) (m n : bytes) : Prop :=
  exists pre post, l = pre ++ m :: post /\ ~ In m pre /\ ((exists t, post = n :: t) \/ (post = [] /\ first_of l n)).

(** A history: the endpoint tried and what happened, last first.  The number of failures in a row at its end on an endpoint: *)
Fixpoint streak (n : bytes) (h : list (bytes * round)) : Z :=
  match h with
  | (m, RFail _ _) :: h' => if streq m n then 1 + streak n h' else 0
  | _ => 0
  end.

(** The endpoint to start with after a session was lost. *)
Definition policy (c : chcfg) (last n : bytes) : Prop :=
  match ch_start c with
  | FirstListed => first_of (ch_eps c) n
  | LastConnected => (In last (ch_eps c) -> n = last) /\ (~ In last (ch_eps c) -> first_of (ch_eps c) n)
  | RandomOne => In n (ch_eps c)
  end.

(** The endpoint to try after a history, with [M] attempts per endpoint. *)
Definition should_try (M : Z) (c0 : chcfg) (h : list (bytes * round)) (n : bytes) : Prop :=
  match h with
  | [] => first_of (ch_eps c0) n
  | (m, RFail _ (Some c)) :: _ =>
      (In m (ch_eps c) -> streak m h mod M <> 0 -> n = m)
      /\ (In m (ch_eps c) -> streak m h mod M = 0 -> next_after (ch_eps c) m n)
      /\ (~ In m (ch_eps c) -> first_of (ch_eps c) n)
  | (m, RConn _ _ _ (Some c) _ _ c2 _) :: _ =>
      if ch_periodic c then match c2 with Some c2 => policy c2 m n | None => False end else policy c m n
  | _ => False
  end.

Fixpoint all_tries (M : Z) (c0 : chcfg) (h : list (bytes * round)) : Prop :=
  match h with [] => True | (n, r) :: h' => should_try M c0 h' n /\ all_tries M c0 h' end.

(** Every connection succeeded at the first attempt on its endpoint. *)
Fixpoint first_attempts (M : Z) (h : list (bytes * round)) : Prop :=
  match h with
  | [] => True
  | (n, RConn _ _ _ _ _ _ _ _) :: h' => streak n h' mod M = 0 /\ first_attempts M h'
  | _ :: h' => first_attempts M h'
  end.

Definition cfgs (r : round) : list chcfg :=
  match r with
  | REnd => []
  | RFail _ c => match c with Some c => [c] | None => [] end
  | RConn _ _ _ c _ _ c2 _ => match c with Some c => [c] | None => [] end ++ match c2 with Some c => [c] | None => [] end
  end.
Definition attempts_are (M : Z) (rs : list round) : Prop := forall r c, In r rs -> In c (cfgs r) -> ch_max c = M.

(** C41: the next time at or after [now] that is a whole number of periods (seconds) from the anchor. *)
Definition next_anchored (anchor period now t : Z) : Prop :=
  (exists k, t = anchor + k * period) /\ now <= t /\ forall k, now <= anchor + k * period -> t <= anchor + k * period.

(* ------------------------------------------------------------------ *)
(** ** Rotation *)

Lemma index_some n l i : index n l = Some i -> exists pre post, l = pre ++ n :: post /\ ~ In n pre /\ length pre = i.
Proof.
  revert i; induction l as [|x l IH]; intros i; cbn [index]; [discriminate|]. destruct (streq x n) eqn:E.
  - apply beqb_spec in E. subst. intros [= <-]. exists [], l. auto.
  - destruct (index n l) as [j|]; [|discriminate]. intros [= <-]. destruct (IH j eq_refl) as (pre & post & -> & N & L).
    exists (x :: pre), post. split; [reflexivity|]. split; [|cbn; lia].
    intros [->|I]; [|exact (N I)]. assert (T : streq n n = true) by (apply beqb_spec; reflexivity). congruence.
Qed.

Lemma index_none n l : index n l = None -> ~ In n l.
Proof.
  induction l as [|x l IH]; cbn [index]; [auto|]. destruct (streq x n) eqn:E; [discriminate|].
  destruct (index n l); [discriminate|]. intros _ [->|I]; [|exact (IH eq_refl I)].
  assert (T : streq n n = true) by (apply beqb_spec; reflexivity). congruence.
Qed.

Lemma goto_spec c i att s : goto c i att = inl s -> st_cfg s = c /\ st_att s = att /\ nth_error (ch_eps c) i = Some (st_name s).
Proof. unfold goto. destruct (nth_error _ i) as [n|] eqn:E; [|discriminate]. intros [= <-]. auto. Qed.

Lemma nth0 (l : list bytes) n : nth_error l 0 = Some n -> first_of l n.
Proof. destruct l as [|x l]; [discriminate|]. intros [= ->]. exists l. reflexivity. Qed.

Lemma start_spec c m rnd n : nth_error (ch_eps c) (start_index c m rnd) = Some n -> policy c m n.
Proof.
  unfold start_index, policy. destruct (ch_start c).
  - apply nth0.
  - destruct (index m (ch_eps c)) as [i|] eqn:E.
    + apply index_some in E. destruct E as (pre & post & El & _ & L). intros H. split.
      * intros _. rewrite El, nth_error_app2 in H by lia. rewrite L, Nat.sub_diag in H. cbn in H. congruence.
      * intros N. exfalso. apply N. rewrite El. apply in_or_app. right; left; reflexivity.
    + intros H. apply index_none in E. split; [intros I; contradiction|intros _; apply nth0; exact H].
  - intros H. eapply nth_error_In. exact H.
Qed.

Lemma after_fail_spec c m att i att' n M :
  ch_max c = M -> 1 <= M <= 255 -> 0 <= att < M ->
  after_fail c m att = (i, att') -> nth_error (ch_eps c) i = Some n ->
  (In m (ch_eps c) -> att + 1 <> M -> n = m /\ att' = att + 1)
  /\ (In m (ch_eps c) -> att + 1 = M -> next_after (ch_eps c) m n /\ att' = 0)
  /\ (~ In m (ch_eps c) -> first_of (ch_eps c) n /\ att' = 0).
Proof.
  intros HM R Ra H Hn. unfold after_fail in H. rewrite HM in H.
  rewrite Z.mod_small in H by lia.
  destruct (index m (ch_eps c)) as [j|] eqn:E.
  - apply index_some in E. destruct E as (pre & post & El & Np & L).
    assert (Im : In m (ch_eps c)) by (rewrite El; apply in_or_app; right; left; reflexivity).
    destruct (Z.eqb_spec (att + 1) M) as [Q|Q].
    + split; [intros _ F; contradiction|]. split; [|intros F; contradiction]. intros _ _.
      injection H as <- <-. split; [|reflexivity]. exists pre, post. split; [exact El|]. split; [exact Np|].
      destruct (Nat.ltb_spec j (length (ch_eps c) - 1)) as [Lt|Ge].
      * left. rewrite El, nth_error_app2 in Hn by lia. rewrite L in Hn. replace (S j - j)%nat with 1%nat in Hn by lia. cbn in Hn.
        destruct post as [|p post]; [discriminate|]. injection Hn as ->. exists post. reflexivity.
      * right. split; [|apply nth0; exact Hn]. rewrite El, app_length in Ge. cbn [length] in Ge. destruct post; [reflexivity|cbn [length] in Ge; lia].
    + split; [|split; [intros _ F; contradiction|intros F; contradiction]]. intros _ _. injection H as <- <-.
      rewrite El, nth_error_app2 in Hn by lia. rewrite L, Nat.sub_diag in Hn. cbn in Hn. split; congruence.
  - apply index_none in E. injection H as <- <-. split; [intros F; contradiction|]. split; [intros F; contradiction|].
    intros _. split; [apply nth0; exact Hn|reflexivity].
Qed.

(** The counter is the number of failures in a row modulo the number of attempts. *)
Lemma streak_pos n h : 0 <= streak n h.
Proof. induction h as [|[m r] h IH]; cbn [streak]; [lia|]. destruct r; try lia. destruct (streq m n); lia. Qed.

Lemma streak_other n m r h : streq m n = false -> streak n ((m, r) :: h) = 0.
Proof. intros E. cbn [streak]. destruct r; try reflexivity. rewrite E. reflexivity. Qed.

Lemma streak_self n go c h : streak n ((n, RFail go c) :: h) = 1 + streak n h.
Proof. cbn [streak]. assert (T : streq n n = true) by (apply beqb_spec; reflexivity). rewrite T. reflexivity. Qed.

Lemma streq_neq m n : m <> n -> streq m n = false.
Proof. intros N. destruct (streq m n) eqn:E; [|reflexivity]. apply beqb_spec in E. contradiction. Qed.

Lemma next_inv l m n : next_after l m n -> n = m \/ n <> m.
Proof. intros _. destruct (streq n m) eqn:E; [left; apply beqb_spec; exact E|right]. intros ->. assert (T : streq m m = true) by (apply beqb_spec; reflexivity). congruence. Qed.

Lemma run_conforms M c0 rs : 1 <= M <= 255 -> attempts_are M rs -> forall s h l e,
  should_try M c0 h (st_name s) -> all_tries M c0 h ->
  st_att s = streak (st_name s) h mod M ->
  ch_run s rs = (l, e) -> first_attempts M (rev l ++ h) ->
  all_tries M c0 (rev l ++ h).
Proof.
  intros HM. induction rs as [|r rs IH]; intros A s h l e St At Cn H F.
  { injection H as <- <-. exact At. }
  assert (A' : attempts_are M rs) by (intros r' c I; apply A; right; exact I).
  assert (Hr : r = REnd \/ r <> REnd) by (destruct r; ((left; reflexivity) || (right; discriminate))).
  destruct Hr as [-> | Hr]; [injection H as <- <-; exact At|].
  assert (H' : match ch_round s r with inl s' => let '(l, e) := ch_run s' rs in ((st_name s, r) :: l, e) | inr f => ([(st_name s, r)], inr f) end = (l, e))
    by (destruct r; [congruence|exact H|exact H]). clear H.
  destruct (ch_round s r) as [s'|f] eqn:R.
  2:{ injection H' as <- <-. cbn [rev app all_tries]. split; assumption. }
  destruct (ch_run s' rs) as [l' e'] eqn:Run. injection H' as <- <-.
  cbn [rev] in *. rewrite <- app_assoc in *. cbn [app] in *.
  assert (Fh : first_attempts M ((st_name s, r) :: h)).
  { revert F. generalize (rev l') as p. induction p as [|[n r0] p IHp]; [auto|]. cbn [app]. intros F. apply IHp. destruct r0; cbn in F; tauto. }
  assert (Step : should_try M c0 ((st_name s, r) :: h) (st_name s') /\ st_att s' = streak (st_name s') ((st_name s, r) :: h) mod M).
  { destruct r as [|go c|run1 w run2 c now go c2 rnd]; [congruence| |].
    - cbn [ch_round] in R. destruct go; [|discriminate]. destruct c as [c|]; [|discriminate].
      destruct (after_fail c (st_name s) (st_att s)) as [i att] eqn:Af.
      destruct (goto_spec _ _ _ _ R) as (_ & Ea & En).
      assert (Mc : ch_max c = M) by (apply (A (RFail true (Some c))); [left; reflexivity|left; reflexivity]).
      assert (Ra : 0 <= st_att s < M) by (rewrite Cn; apply Z.mod_pos_bound; lia).
      destruct (after_fail_spec _ _ _ _ _ _ _ Mc HM Ra Af En) as (S1 & S2 & S3).
      set (k := streak (st_name s) ((st_name s, RFail true (Some c)) :: h)).
      assert (K : k mod M = (st_att s + 1) mod M).
      { unfold k. rewrite streak_self, Cn. rewrite Zplus_mod_idemp_l. f_equal. lia. }
      assert (D : In (st_name s) (ch_eps c) \/ ~ In (st_name s) (ch_eps c)).
      { destruct (index (st_name s) (ch_eps c)) eqn:E.
        - left. apply index_some in E. destruct E as (p & q & -> & _). apply in_or_app. right; left; reflexivity.
        - right. apply index_none. exact E. }
      assert (Z0 : forall n, (n = st_name s -> k mod M = 0) -> 0 = streak n ((st_name s, RFail true (Some c)) :: h) mod M).
      { intros n Hn. destruct (streq (st_name s) n) eqn:E.
        - apply beqb_spec in E. subst n. symmetry. apply Hn. reflexivity.
        - rewrite streak_other by exact E. rewrite Z.mod_0_l by lia. reflexivity. }
      cbn [should_try]. fold k.
      destruct D as [D|D].
      + destruct (Z.eq_dec (st_att s + 1) M) as [Q|Q].
        * destruct (S2 D Q) as [Nx Na]. assert (K0 : k mod M = 0) by (rewrite K, Q; apply Z.mod_same; lia).
          split; [split; [intros _ F0; contradiction|split; [intros _ _; exact Nx|intros F0; contradiction]]|].
          rewrite Ea, Na. apply Z0. intros _; exact K0.
        * destruct (S1 D Q) as [Nx Na]. assert (K1 : k mod M = st_att s + 1) by (rewrite K; apply Z.mod_small; lia).
          split; [split; [intros _ _; exact Nx|split; [intros _ F0; lia|intros F0; contradiction]]|].
          rewrite Ea, Na, Nx. fold k. lia.
      + destruct (S3 D) as [Nx Na]. split; [split; [intros F0; contradiction|split; [intros F0; contradiction|intros _; exact Nx]]|].
        rewrite Ea, Na. apply Z0. intros E. exfalso. destruct Nx as [t Et]. apply D. rewrite Et, E. left; reflexivity.
    - destruct Fh as [Fs Fh].
      assert (S0 : streak (st_name s') ((st_name s, RConn run1 w run2 c now go c2 rnd) :: h) = 0) by reflexivity.
      rewrite S0, Z.mod_0_l by lia. cbn [ch_round] in R.
      destruct run1; [|discriminate]. destruct (w =? 0); [|discriminate]. destruct run2; [|discriminate]. cbn [negb] in R.
      destruct c as [c|]; [|discriminate]. cbn [should_try]. destruct (ch_periodic c).
      + destruct (reconnect_in c now); [|discriminate]. destruct go; [|discriminate]. destruct c2 as [c2|]; [|discriminate].
        destruct (goto_spec _ _ _ _ R) as (_ & Ea & En). split; [eapply start_spec; exact En|]. rewrite Ea, Cn. exact Fs.
      + destruct (goto_spec _ _ _ _ R) as (_ & Ea & En). split; [eapply start_spec; exact En|]. rewrite Ea, Cn. exact Fs. }
  destruct Step as [St1 St2]. eapply (IH A' s' ((st_name s, r) :: h)); try eassumption. cbn [all_tries]. split; assumption.
Qed.

(** C40: for all reconfigurations of endpoints and all histories in which connections succeed at the first attempt on an endpoint, every
    endpoint tried is the one that should be. *)
Theorem c40_rotation_partial M c0 s rs l e :
  1 <= M <= 255 -> attempts_are M rs -> ch_begin c0 = inl s -> ch_run s rs = (l, e) -> first_attempts M (rev l) ->
  all_tries M c0 (rev l).
Proof.
  intros HM A B H F. destruct (goto_spec _ _ _ _ B) as (_ & Ea & En).
  rewrite <- (app_nil_r (rev l)). apply (run_conforms M c0 rs HM A s [] l e); auto.
  - apply nth0. exact En.
  - exact I.
  - rewrite app_nil_r. exact F.
Qed.

(** With a fixed configuration and only failures: the attempt number [j] is on the endpoint number [j / M], cyclically. *)
Theorem c40_fixed c s rs l e j n :
  1 <= ch_max c <= 255 -> NoDup (ch_eps c) -> ch_begin c = inl s ->
  (forall r, In r rs -> r = RFail true (Some c)) -> ch_run s rs = (l, e) ->
  length l = length rs /\
  (nth_error (map fst l) j = Some n -> nth_error (ch_eps c) ((j / Z.to_nat (ch_max c)) mod length (ch_eps c)) = Some n).
Proof.
  intros HM ND B A H.
  set (m := Z.to_nat (ch_max c)). set (k := length (ch_eps c)).
  destruct (goto_spec _ _ _ _ B) as (_ & Ea & En).
  assert (G : forall rs s l e j n p a, (forall r, In r rs -> r = RFail true (Some c)) -> st_att s = Z.of_nat a -> (a < m)%nat ->
     nth_error (ch_eps c) p = Some (st_name s) -> (p < k)%nat -> ch_run s rs = (l, e) -> length l = length rs /\
     (nth_error (map fst l) j = Some n -> nth_error (ch_eps c) ((p + (a + j) / m) mod k) = Some n)).
  { clear - HM ND. assert (Hm : (1 <= m <= 255)%nat) by (unfold m; lia).
    induction rs as [|r rs IH]; intros s l e j n p a A Ha La Hp Lp H.
    { injection H as <- <-. split; [reflexivity|]. destruct j; discriminate. }
    assert (r = RFail true (Some c)) as -> by (apply A; left; reflexivity). cbn [ch_run ch_round] in H.
    assert (Hi : index (st_name s) (ch_eps c) = Some p).
    { destruct (index (st_name s) (ch_eps c)) as [q|] eqn:E.
      - apply index_some in E. destruct E as (pre & post & El & _ & Lq).
        f_equal. apply (NoDup_nth_error (ch_eps c)); auto; [rewrite El, app_length; cbn; lia|].
        rewrite Hp. rewrite El, nth_error_app2 by lia. rewrite Lq, Nat.sub_diag. reflexivity.
      - apply index_none in E. exfalso. apply E. eapply nth_error_In; exact Hp. }
    unfold after_fail in H. rewrite Hi in H. rewrite Ha, Z.mod_small in H by lia.
    destruct (Z.eqb_spec (Z.of_nat a + 1) (ch_max c)) as [Q|Q].
    - set (p' := if Nat.ltb p (length (ch_eps c) - 1) then S p else O) in *.
      assert (Lp' : (p' < k)%nat) by (unfold p'; fold k; destruct (Nat.ltb_spec p (k - 1)); lia).
      assert (Mp : (p' mod k = (p + 1) mod k)%nat).
      { unfold p'. fold k. destruct (Nat.ltb_spec p (k - 1)); [f_equal; lia|]. replace (p + 1)%nat with (1 * k)%nat by lia.
        rewrite Nat.mod_mul by lia. apply Nat.mod_0_l. lia. }
      unfold goto in H. destruct (nth_error (ch_eps c) p') as [n'|] eqn:Ep; [|apply nth_error_None in Ep; fold k in Ep; lia].
      destruct (ch_run _ rs) as [l' e'] eqn:Run. injection H as <- <-.
      assert (A' : forall r, In r rs -> r = RFail true (Some c)) by (intros; apply A; right; assumption).
      destruct (IH (mkSt c p' n' 0) l' e' (j - 1)%nat n p' 0%nat A' eq_refl ltac:(lia) Ep Lp' Run) as [L1 L2].
      split; [cbn; lia|]. destruct j as [|j]; cbn [map nth_error fst].
      + intros [= <-]. rewrite Nat.add_0_r, (Nat.div_small a m La), Nat.add_0_r, Nat.mod_small by exact Lp. exact Hp.
      + replace (S j - 1)%nat with j in L2 by lia. intros Hj. specialize (L2 Hj). cbn [Nat.add] in L2.
        replace ((p + (a + S j) / m) mod k)%nat with ((p' + j / m) mod k)%nat; [exact L2|].
        replace (a + S j)%nat with (j + 1 * m)%nat by (unfold m in *; lia). rewrite Nat.div_add by lia.
        rewrite <- (Nat.add_mod_idemp_l p') by lia. rewrite Mp. rewrite Nat.add_mod_idemp_l by lia. f_equal. lia.
    - unfold goto in H. rewrite Hp in H.
      destruct (ch_run _ rs) as [l' e'] eqn:Run. injection H as <- <-.
      assert (A' : forall r, In r rs -> r = RFail true (Some c)) by (intros; apply A; right; assumption).
      destruct (IH (mkSt c p (st_name s) (Z.of_nat a + 1)) l' e' (j - 1)%nat n p (S a) A' ltac:(cbn [st_att]; lia) ltac:(unfold m in *; lia) Hp Lp Run) as [L1 L2].
      split; [cbn; lia|]. destruct j as [|j]; cbn [map nth_error fst].
      + intros [= <-]. rewrite Nat.add_0_r, (Nat.div_small a m La), Nat.add_0_r, Nat.mod_small by exact Lp. exact Hp.
      + replace (S j - 1)%nat with j in L2 by lia. intros Hj. specialize (L2 Hj).
        replace (a + S j)%nat with (S a + j)%nat by lia. exact L2. }
  assert (Lk : (0 < k)%nat) by (unfold k; destruct (ch_eps c); [discriminate|cbn; lia]).
  destruct (G rs s l e j n 0%nat 0%nat A Ea ltac:(unfold m; lia) En Lk H) as [L1 L2]. split; [exact L1|exact L2].
Qed.

(** The thread fails only when the client is gone after a wait, or a period of 0 is anchored; in particular the endpoint is always one of
    the configured ones, when there are any. *)
Theorem c40_in_bounds s r : (forall c, In c (cfgs r) -> ch_eps c <> []) -> ch_round s r = inr Crashed ->
  r = RFail true None
  \/ exists c now go c2 rnd, r = RConn true 0 true (Some c) now go c2 rnd /\ ch_periodic c = true
     /\ ((go = true /\ c2 = None) \/ (ch_anchor c <> 0 /\ ch_period c = 0)).
Proof.
  assert (G : forall c i att, (i < length (ch_eps c))%nat -> goto c i att <> inr Crashed).
  { intros c i att L. unfold goto. destruct (nth_error (ch_eps c) i) eqn:E; [discriminate|]. apply nth_error_None in E. lia. }
  assert (Li : forall n l i, index n l = Some i -> (i < length l)%nat).
  { intros n l i E. apply index_some in E. destruct E as (p & q & -> & _ & <-). rewrite app_length. cbn. lia. }
  assert (Ls : forall c n rnd, ch_eps c <> [] -> (start_index c n rnd < length (ch_eps c))%nat).
  { intros c n rnd N. assert (0 < length (ch_eps c))%nat by (destruct (ch_eps c); [congruence|cbn; lia]).
    unfold start_index. destruct (ch_start c); [lia| |apply Nat.mod_upper_bound; lia].
    destruct (index n (ch_eps c)) eqn:E; [eapply Li; exact E|lia]. }
  intros N. destruct r as [|go c|run1 w run2 c now go c2 rnd]; cbn [ch_round]; [discriminate| |].
  - destruct go; [|discriminate]. destruct c as [c|]; [|intros _; left; reflexivity].
    destruct (after_fail c (st_name s) (st_att s)) as [i att] eqn:Af. intros H. exfalso. revert H. apply G.
    assert (0 < length (ch_eps c))%nat by (specialize (N c (or_introl eq_refl)); destruct (ch_eps c); [congruence|cbn; lia]).
    unfold after_fail in Af. destruct (index (st_name s) (ch_eps c)) as [j|] eqn:E; [|injection Af as <- <-; lia].
    apply Li in E. destruct (_ =? ch_max c).
    + injection Af as <- <-. destruct (Nat.ltb_spec j (length (ch_eps c) - 1)); lia.
    + injection Af as <- <-. exact E.
  - destruct run1; [|discriminate]. destruct (Z.eqb_spec w 0) as [->|]; [|discriminate]. destruct run2; [|discriminate]. cbn [negb].
    destruct c as [c|]; [|discriminate]. destruct (ch_periodic c) eqn:P.
    + destruct (reconnect_in c now) eqn:R.
      * destruct go; [|discriminate]. destruct c2 as [c2|].
        -- intros H. exfalso. revert H. apply G. apply Ls. apply N. cbn. auto.
        -- intros _. right. exists c, now, true, None, rnd. split; [reflexivity|]. split; [exact P|]. left. auto.
      * intros _. right. exists c, now, go, c2, rnd. split; [reflexivity|]. split; [exact P|]. right.
        unfold reconnect_in in R. destruct (Z.eqb_spec (ch_anchor c) 0); [discriminate|]. destruct (Z.eqb_spec (ch_period c * 60) 0); [|discriminate].
        split; [assumption|lia].
    + intros H. exfalso. revert H. apply G. apply Ls. apply N. cbn. auto.
Qed.

Definition ex_cfg (eps : list bytes) (M : Z) (st : startw) : chcfg := mkCh eps false 0 0 0 st M 1.
Definition lost (c : chcfg) : round := RConn true 0 true (Some c) 0 true None 3.

(** The counter is not reset by a connection: after two failures, a session, and its loss, an endpoint that has three attempts gets one. *)
Theorem c40_carried_refuted :
  exists c rs l e s, ch_begin c = inl s /\ attempts_are 3 rs /\ ch_max c = 3 /\ (forall r x, In r rs -> In x (cfgs r) -> x = c)
    /\ ch_run s rs = (l, e) /\ ~ all_tries 3 c (rev l)
    /\ map fst l = [bs "a"; bs "a"; bs "a"; bs "a"; bs "b"].
Proof.
  set (c := ex_cfg [bs "a"; bs "b"] 3 LastConnected). set (f := RFail true (Some c)).
  exists c, [f; f; lost c; f; f], [(bs "a", f); (bs "a", f); (bs "a", lost c); (bs "a", f); (bs "b", f)], (inl (mkSt c 1 (bs "b") 1)), (mkSt c 0 (bs "a") 0).
  split; [reflexivity|]. split; [intros r x I; cbn in I; intuition; subst; cbn in *; intuition; subst; reflexivity|].
  split; [reflexivity|]. split; [intros r x I; cbn in I; intuition; subst; cbn in *; intuition; subst; reflexivity|].
  split; [vm_compute; reflexivity|]. split; [|reflexivity].
  intros (N & _). cbn in N. destruct N as (N & _). specialize (N (or_introl eq_refl) ltac:(discriminate)). discriminate.
Qed.

(** Lowering the number of attempts below the count makes the thread miss it: 256 attempts instead of 2. *)
Theorem c40_lowered_refuted :
  exists c c' s, ch_begin c = inl s /\ ch_max c = 4 /\ ch_max c' = 2 /\ ch_eps c = ch_eps c' /\ ch_eps c = [bs "a"; bs "b"]
    /\ forall n, (n <= 250)%nat ->
       map fst (fst (ch_run s (repeat (RFail true (Some c)) 2 ++ repeat (RFail true (Some c')) n))) = repeat (bs "a") (n + 2).
Proof.
  exists (ex_cfg [bs "a"; bs "b"] 4 FirstListed), (ex_cfg [bs "a"; bs "b"] 2 FirstListed), (mkSt (ex_cfg [bs "a"; bs "b"] 4 FirstListed) 0 (bs "a") 0).
  do 5 (split; [reflexivity|]). intros n Hn.
  assert (B : forallb (fun n => match list_eq_dec (list_eq_dec ascii_dec) (map fst (fst (ch_run (mkSt (ex_cfg [bs "a"; bs "b"] 4 FirstListed) 0 (bs "a") 0)
       (repeat (RFail true (Some (ex_cfg [bs "a"; bs "b"] 4 FirstListed))) 2 ++ repeat (RFail true (Some (ex_cfg [bs "a"; bs "b"] 2 FirstListed))) n))))
       (repeat (bs "a") (n + 2)) with left _ => true | right _ => false end) (seq 0 251) = true) by (vm_compute; reflexivity).
  rewrite forallb_forall in B. specialize (B n ltac:(apply in_seq; lia)).
  destruct (list_eq_dec _ _ _) as [E|]; [exact E|discriminate].
Qed.

(** A session of a thread told to stop is neither given to the user nor freed. *)
Theorem c40_session_lost_refuted s w run2 c now go c2 rnd :
  ch_round s (RConn false w run2 c now go c2 rnd) = inr (Returned true).
Proof. reflexivity. Qed.

(** A history meeting the conditions: [a] fails twice (of 2), [b] once, is removed, [a] is back, connects, is lost, [c] is added. *)
Example ex_history :
  let c1 := ex_cfg [bs "a"; bs "b"] 2 FirstListed in let c2 := ex_cfg [bs "c"; bs "a"] 2 LastConnected in
  let rs := [RFail true (Some c1); RFail true (Some c1); RFail true (Some c2); RFail true (Some c2); RFail true (Some c2); lost c2; RFail true (Some c2)] in
  exists s l e, ch_begin c1 = inl s /\ attempts_are 2 rs /\ ch_run s rs = (l, e) /\ first_attempts 2 (rev l)
    /\ map fst l = [bs "a"; bs "a"; bs "b"; bs "c"; bs "c"; bs "a"; bs "a"].
Proof.
  cbv zeta. eexists _, _, _. split; [reflexivity|]. split; [intros r x I; cbn in I; intuition; subst; cbn in *; intuition; subst; reflexivity|].
  split; [vm_compute; reflexivity|]. split; [vm_compute; intuition|reflexivity].
Qed.

(* ------------------------------------------------------------------ *)
(** ** Periods *)

(** The connection is made after the wait. *)
Definition connects_at (c : chcfg) (now t : Z) : Prop := exists w, reconnect_in c now = Some w /\ t = now + wait_ms w / 1000.

Definition plain_cfg (c : chcfg) : Prop := 0 <= ch_period c < 65536.

Lemma wait_small w : 0 <= w < 4294967 -> wait_ms w / 1000 = w.
Proof. intros H. unfold wait_ms. rewrite Z.mod_small by (change (2 ^ 32) with 4294967296; lia). apply Z.div_mul. lia. Qed.

(** Without an anchor: one period later. *)
Theorem c41_no_anchor c now t : plain_cfg c -> ch_anchor c = 0 -> (connects_at c now t <-> t = now + ch_period c * 60).
Proof.
  intros P A. unfold connects_at, reconnect_in, plain_cfg in *. rewrite A. cbn [Z.eqb].
  rewrite Z.mod_small by (change (2 ^ 32) with 4294967296; lia). split.
  - intros (w & [= <-] & ->). rewrite wait_small by lia. reflexivity.
  - intros ->. eexists. split; [reflexivity|]. rewrite wait_small by lia. reflexivity.
Qed.

Lemma next_anchored_spec anchor period now t : 0 < period ->
  (next_anchored anchor period now t <-> t = now + (anchor - now) mod period).
Proof.
  intros P. set (m := (anchor - now) mod period). pose proof (Z.mod_pos_bound (anchor - now) period P) as Bm. fold m in Bm.
  pose proof (Z.div_mod (anchor - now) period ltac:(lia)) as D. fold m in D. set (q := (anchor - now) / period) in D.
  assert (E : now + m = anchor + (- q) * period) by lia.
  split.
  - intros ((k & ->) & L & Min). specialize (Min (- q)). rewrite <- E in Min. specialize (Min ltac:(lia)).
    assert (k * period + q * period < period /\ k * period + q * period > - period) by lia.
    assert (- period < (k + q) * period < period) by lia. assert (k + q = 0) by nia. assert (k = - q) by lia. subst k. lia.
  - intros ->. split; [exists (- q); exact E|]. split; [lia|]. intros k Hk.
    rewrite E in *. assert (- period < (k + q) * period) by lia. assert (0 <= k + q) by nia. nia.
Qed.

(** C41, with an anchor in the past: the connection is made at the right time exactly if twice the time since the last aligned moment is
    a whole number of periods, that is, at an aligned moment or half way between two. *)
Theorem c41_anchor_partial c now t :
  plain_cfg c -> 0 < ch_period c -> ch_anchor c <> 0 -> ch_anchor c <= now -> connects_at c now t ->
  (next_anchored (ch_anchor c) (ch_period c * 60) now t <-> (2 * (now - ch_anchor c)) mod (ch_period c * 60) = 0).
Proof.
  intros P Pp A Le (w & W & ->). unfold plain_cfg, reconnect_in in *. set (p := ch_period c * 60) in *. set (a := ch_anchor c) in *.
  destruct (Z.eqb_spec a 0); [contradiction|]. destruct (Z.eqb_spec p 0); [lia|]. injection W as <-.
  rewrite Z.rem_mod_nonneg by lia. set (r := (now - a) mod p).
  assert (Br : 0 <= r < p) by (apply Z.mod_pos_bound; lia).
  rewrite (Z.mod_small r) by (change (2 ^ 32) with 4294967296; lia). rewrite wait_small by lia.
  rewrite next_anchored_spec by lia.
  pose proof (Z.div_mod (now - a) p ltac:(lia)) as D. fold r in D. set (q := (now - a) / p) in D.
  assert (N : (a - now) mod p = if r =? 0 then 0 else p - r).
  { destruct (Z.eqb_spec r 0).
    - replace (a - now) with ((- q) * p) by lia. apply Z.mod_mul. lia.
    - symmetry. apply (Z.mod_unique_pos _ _ (- q - 1)); lia. }
  assert (T : (2 * (now - a)) mod p = (2 * r) mod p).
  { rewrite D. replace (2 * (p * q + r)) with (2 * r + (2 * q) * p) by lia. apply Z.mod_add. lia. }
  rewrite N, T. destruct (Z.eqb_spec r 0) as [E|E].
  - rewrite E. split; [intros _; apply Z.mod_0_l; lia|lia].
  - split.
    + intros H. replace (2 * r) with (1 * p) by lia. apply Z.mod_mul. lia.
    + intros H. apply Z.mod_divide in H; [|lia]. destruct H as [z H]. assert (z = 1) by nia. subst z. lia.
Qed.

(** One minute after the anchor, with a period of an hour, the server connects after one minute more. *)
Theorem c41_anchor_refuted : exists c now t,
  plain_cfg c /\ 0 < ch_period c /\ ch_anchor c <> 0 /\ ch_anchor c <= now /\ connects_at c now t
  /\ t = ch_anchor c + 120 /\ ~ next_anchored (ch_anchor c) (ch_period c * 60) now t.
Proof.
  exists (mkCh [bs "a"] true 60 1700000000 0 FirstListed 3 1), 1700000060, 1700000120.
  split; [unfold plain_cfg; cbn; lia|]. split; [cbn; lia|]. split; [cbn; lia|]. split; [cbn; lia|].
  split; [exists 60; split; reflexivity|]. split; [reflexivity|].
  intros N. apply next_anchored_spec in N; [|cbn; lia]. vm_compute in N. discriminate.
Qed.

(** With an anchor in the future the number wraps: for the anchor in 10 seconds and a period of a minute it is almost 50 days. *)
Theorem c41_future_refuted : exists c now w, ch_period c = 1 /\ ch_anchor c = now + 10
  /\ reconnect_in c now = Some w /\ wait_ms w / 1000 = 4294957.
Proof. exists (mkCh [bs "a"] true 1 1700000010 0 FirstListed 3 1), 1700000000, 4294967286. repeat split. Qed.

(** With a period of 0 the server divides by zero. *)
Theorem c41_zero_refuted s now go c2 rnd c :
  ch_periodic c = true -> ch_period c = 0 -> ch_anchor c <> 0 -> ch_round s (RConn true 0 true (Some c) now go c2 rnd) = inr Crashed.
Proof.
  intros P Z0 A. cbn [ch_round negb Z.eqb]. rewrite P. unfold reconnect_in. rewrite Z0. destruct (Z.eqb_spec (ch_anchor c) 0); [contradiction|]. reflexivity.
Qed.

Example ex_half : exists c now t, connects_at c now t /\ next_anchored (ch_anchor c) (ch_period c * 60) now t /\ now < t.
Proof.
  exists (mkCh [bs "a"] true 60 1700000000 0 FirstListed 3 1), 1700001800, 1700003600. split; [exists 1800; split; reflexivity|].
  split; [apply next_anchored_spec; [cbn; lia|reflexivity]|lia].
Qed.

(* ------------------------------------------------------------------ *)
(** ** Idle sessions *)

(** C52: a session is idle when it has no subscription and its last RPC is at least the configured timeout ago; persistent connections
    and a timeout of 0 know no idleness. *)
Definition idle (t : turn) : Prop :=
  exists c, tn_client t = Some c /\ ch_periodic c = true /\ ch_idle c <> 0 /\ tn_subs t = false /\ tn_last t + ch_idle c <= tn_now t.

(** What ends the wait otherwise. *)
Definition ends (t : turn) (rc : Z) : Prop :=
  (tn_res t = WError /\ rc = -1)
  \/ (tn_res t = WSignal /\ tn_running t = false /\ rc = 0)
  \/ (tn_res t <> WError /\ (tn_res t = WSignal -> tn_running t = true) /\ tn_client t = None /\ rc = 1)
  \/ (tn_res t <> WError /\ (tn_res t = WSignal -> tn_running t = true) /\ tn_client t <> None /\ ~ idle t /\ tn_still t = false /\ rc = 0).

Lemma turn_spec t :
  (idle_turn t = WEnd 0 true <-> tn_res t <> WError /\ (tn_res t = WSignal -> tn_running t = true) /\ idle t)
  /\ (forall rc, idle_turn t = WEnd rc true -> rc = 0)
  /\ (forall rc, idle_turn t = WEnd rc false <-> ends t rc)
  /\ (idle_turn t = WMore -> ~ idle t /\ tn_still t = true).
Proof.
  unfold idle_turn, ends, idle.
  destruct (tn_res t) eqn:R.
  3:{ split; [split; [discriminate|intros (F & _); congruence]|]. split; [discriminate|]. split; [|discriminate].
      intros rc. split; [intros [= <-]; left; auto|]. intros [[_ ->]|[(F & _)|[(F & _)|(F & _)]]]; (reflexivity || congruence). }
  - destruct (tn_running t) eqn:Rn; cbn [negb].
    2:{ split; [split; [discriminate|intros (_ & F & _); discriminate (F eq_refl)]|]. split; [discriminate|]. split; [|discriminate].
        intros rc. split; [intros [= <-]; right; left; auto|]. intros [[F _]|[(_ & _ & ->)|[(_ & F & _)|(_ & F & _)]]]; try discriminate; try reflexivity; discriminate (F eq_refl). }
    destruct (tn_client t) as [c|].
    + destruct (negb (tn_subs t) && negb ((if ch_periodic c then ch_idle c else 0) =? 0) && (tn_last t + (if ch_periodic c then ch_idle c else 0) <=? tn_now t)) eqn:E.
      * assert (Id : exists c0, Some c = Some c0 /\ ch_periodic c0 = true /\ ch_idle c0 <> 0 /\ tn_subs t = false /\ tn_last t + ch_idle c0 <= tn_now t).
        { exists c. destruct (ch_periodic c); [|rewrite andb_false_r in E; discriminate]. destruct (tn_subs t); [discriminate|]. cbn [negb andb] in E.
          apply andb_true_iff in E. destruct E as [E1 E2]. destruct (Z.eqb_spec (ch_idle c) 0); [discriminate|]. apply Z.leb_le in E2. auto. }
        split; [split; [intros _; split; [discriminate|auto]|reflexivity]|]. split; [congruence|]. split; [|discriminate].
        intros rc. split; [discriminate|]. intros [[F _]|[(_ & F & _)|[(_ & _ & F & _)|(_ & _ & _ & F & _)]]]; try discriminate. contradiction.
      * assert (Ni : ~ exists c0, Some c = Some c0 /\ ch_periodic c0 = true /\ ch_idle c0 <> 0 /\ tn_subs t = false /\ tn_last t + ch_idle c0 <= tn_now t).
        { intros (c0 & [= <-] & P & N & Sb & L). rewrite P, Sb in E. cbn [negb andb] in E. destruct (Z.eqb_spec (ch_idle c) 0); [contradiction|].
          cbn [negb andb] in E. apply Z.leb_gt in E. lia. }
        destruct (tn_still t) eqn:Ts.
        -- split; [split; [discriminate|intros (_ & _ & F); contradiction]|]. split; [discriminate|]. split; [|auto].
           intros rc. split; [discriminate|]. intros [[F _]|[(_ & F & _)|[(_ & _ & F & _)|(_ & _ & _ & _ & F & _)]]]; discriminate.
        -- split; [split; [discriminate|intros (_ & _ & F); contradiction]|]. split; [discriminate|]. split; [|discriminate].
           intros rc. split.
           ++ intros [= <-]. right; right; right. split; [discriminate|]. split; [auto|]. split; [discriminate|]. auto.
           ++ intros [[F _]|[(_ & F & _)|[(_ & _ & F & _)|(_ & _ & _ & _ & _ & ->)]]]; try discriminate. reflexivity.
    + split; [split; [discriminate|intros (_ & _ & c & F & _); discriminate]|]. split; [discriminate|]. split; [|discriminate].
      intros rc. split; [intros [= <-]; right; right; left; split; [discriminate|auto]|].
      intros [[F _]|[(_ & F & _)|[(_ & _ & _ & ->)|(_ & _ & F & _)]]]; try discriminate; [reflexivity|congruence].
  - destruct (tn_client t) as [c|].
    + destruct (negb (tn_subs t) && negb ((if ch_periodic c then ch_idle c else 0) =? 0) && (tn_last t + (if ch_periodic c then ch_idle c else 0) <=? tn_now t)) eqn:E.
      * assert (Id : exists c0, Some c = Some c0 /\ ch_periodic c0 = true /\ ch_idle c0 <> 0 /\ tn_subs t = false /\ tn_last t + ch_idle c0 <= tn_now t).
        { exists c. destruct (ch_periodic c); [|rewrite andb_false_r in E; discriminate]. destruct (tn_subs t); [discriminate|]. cbn [negb andb] in E.
          apply andb_true_iff in E. destruct E as [E1 E2]. destruct (Z.eqb_spec (ch_idle c) 0); [discriminate|]. apply Z.leb_le in E2. auto. }
        split; [split; [intros _; split; [discriminate|split; [discriminate|exact Id]]|reflexivity]|]. split; [congruence|]. split; [|discriminate].
        intros rc. split; [discriminate|]. intros [[F _]|[(F & _)|[(_ & _ & F & _)|(_ & _ & _ & F & _)]]]; try discriminate. contradiction.
      * assert (Ni : ~ exists c0, Some c = Some c0 /\ ch_periodic c0 = true /\ ch_idle c0 <> 0 /\ tn_subs t = false /\ tn_last t + ch_idle c0 <= tn_now t).
        { intros (c0 & [= <-] & P & N & Sb & L). rewrite P, Sb in E. cbn [negb andb] in E. destruct (Z.eqb_spec (ch_idle c) 0); [contradiction|].
          cbn [negb andb] in E. apply Z.leb_gt in E. lia. }
        destruct (tn_still t) eqn:Ts.
        -- split; [split; [discriminate|intros (_ & _ & F); contradiction]|]. split; [discriminate|]. split; [|auto].
           intros rc. split; [discriminate|]. intros [[F _]|[(F & _)|[(_ & _ & F & _)|(_ & _ & _ & _ & F & _)]]]; discriminate.
        -- split; [split; [discriminate|intros (_ & _ & F); contradiction]|]. split; [discriminate|]. split; [|discriminate].
           intros rc. split.
           ++ intros [= <-]. right; right; right. split; [discriminate|]. split; [discriminate|]. split; [discriminate|]. auto.
           ++ intros [[F _]|[(F & _)|[(_ & _ & F & _)|(_ & _ & _ & _ & _ & ->)]]]; try discriminate. reflexivity.
    + split; [split; [discriminate|intros (_ & _ & c & F & _); discriminate]|]. split; [discriminate|]. split; [|discriminate].
      intros rc. split; [intros [= <-]; right; right; left; split; [discriminate|split; [discriminate|auto]]|].
      intros [[F _]|[(F & _)|[(_ & _ & _ & ->)|(_ & _ & F & _)]]]; try discriminate; [reflexivity|congruence].
Qed.

Definition quiet (t : turn) : Prop :=
  tn_res t <> WError /\ (tn_res t = WSignal -> tn_running t = true) /\ tn_client t <> None /\ ~ idle t /\ tn_still t = true.

Lemma quiet_spec t : idle_turn t = WMore <-> quiet t.
Proof.
  destruct (turn_spec t) as (A & B & C & D). split.
  - intros E. destruct (D E) as [N St]. unfold quiet. unfold idle_turn in E. destruct (tn_res t) eqn:R; [| |discriminate].
    + destruct (tn_running t); [|discriminate]. cbn [negb] in E. destruct (tn_client t) eqn:Cl; [|discriminate].
      split; [discriminate|]. split; [reflexivity|]. split; [discriminate|]. split; assumption.
    + destruct (tn_client t) eqn:Cl; [|discriminate]. split; [discriminate|]. split; [discriminate|]. split; [discriminate|]. split; assumption.
  - intros (Q1 & Q2 & Q3 & Q4 & Q5). destruct (idle_turn t) as [rc [|]|] eqn:E; [| |reflexivity]; exfalso.
    + pose proof (B rc eq_refl). subst rc. apply Q4. apply (proj1 A eq_refl).
    + destruct (proj1 (C rc) eq_refl) as [(F & _)|[(F & G & _)|[(_ & _ & F & _)|(_ & _ & _ & _ & F & _)]]]; try contradiction; try congruence.
      specialize (Q2 F). congruence.
Qed.

Lemma idle_general l :
  (session_wait true l = WEnd 0 true <-> exists pre t post, l = pre ++ t :: post
     /\ (forall x, In x pre -> idle_turn x = WMore) /\ tn_res t <> WError /\ (tn_res t = WSignal -> tn_running t = true) /\ idle t)
  /\ (forall rc, session_wait true l = WEnd rc false <-> exists pre t post, l = pre ++ t :: post
     /\ (forall x, In x pre -> idle_turn x = WMore) /\ ends t rc)
  /\ (session_wait true l = WMore <-> forall x, In x l -> idle_turn x = WMore)
  /\ (forall x, In x l -> idle_turn x = WMore -> ~ idle x /\ tn_still x = true).
Proof.
  unfold session_wait. split; [|split; [|split]].
  - induction l as [|t l IH]; cbn [idle_loop]; [split; [discriminate|intros ([|? ?] & ? & ? & F & _); discriminate]|].
    destruct (idle_turn t) as [rc i|] eqn:E.
    + split.
      * intros [= -> ->]. exists [], t, l. split; [reflexivity|]. split; [intros x []|]. apply turn_spec. exact E.
      * intros ([|p pre] & t' & post & H & N & Id); injection H as -> H; [apply turn_spec in Id; congruence|].
        rewrite (N p (or_introl eq_refl)) in E. discriminate.
    + rewrite IH. split.
      * intros (pre & t' & post & -> & N & Id). exists (t :: pre), t', post. split; [reflexivity|]. split; [|exact Id]. intros x [<-|I]; auto.
      * intros ([|p pre] & t' & post & H & N & Id); injection H as -> H; [apply turn_spec in Id; congruence|].
        exists pre, t', post. split; [exact H|]. split; [|exact Id]. intros x I. apply N. right; exact I.
  - intros rc. induction l as [|t l IH]; cbn [idle_loop]; [split; [discriminate|intros ([|? ?] & ? & ? & F & _); discriminate]|].
    destruct (idle_turn t) as [rc' i|] eqn:E.
    + split.
      * intros [= -> ->]. exists [], t, l. split; [reflexivity|]. split; [intros x []|]. apply (proj1 (proj2 (proj2 (turn_spec t)))). exact E.
      * intros ([|p pre] & t' & post & H & N & Id); injection H as -> H; [apply (proj1 (proj2 (proj2 (turn_spec t')))) in Id; congruence|].
        rewrite (N p (or_introl eq_refl)) in E. discriminate.
    + rewrite IH. split.
      * intros (pre & t' & post & -> & N & Id). exists (t :: pre), t', post. split; [reflexivity|]. split; [|exact Id]. intros x [<-|I]; auto.
      * intros ([|p pre] & t' & post & H & N & Id); injection H as -> H; [apply (proj1 (proj2 (proj2 (turn_spec t')))) in Id; congruence|].
        exists pre, t', post. split; [exact H|]. split; [|exact Id]. intros x I. apply N. right; exact I.
  - induction l as [|t l IH]; cbn [idle_loop]; [split; [intros _ x []|reflexivity]|]. destruct (idle_turn t) eqn:E.
    + split; [discriminate|]. intros H. rewrite (H t (or_introl eq_refl)) in E. discriminate.
    + rewrite IH. split; [intros H x [<-|I]; auto|intros H x I; apply H; right; exact I].
  - intros x _ E. apply (turn_spec x). exact E.
Qed.

(** C52: a session given to the user is terminated by the thread only when idle, at the first check that finds it so; and the thread
    leaves it otherwise only when it is not running any more, the client was removed or waiting failed. *)
Theorem c52_idle l :
  (session_wait true l = WEnd 0 true <-> exists pre t post, l = pre ++ t :: post
     /\ Forall quiet pre /\ tn_res t <> WError /\ (tn_res t = WSignal -> tn_running t = true) /\ idle t)
  /\ (forall rc, session_wait true l = WEnd rc false <-> exists pre t post, l = pre ++ t :: post /\ Forall quiet pre /\ ends t rc)
  /\ (session_wait true l = WMore <-> Forall quiet l).
Proof.
  assert (Q : forall l, Forall quiet l <-> forall x, In x l -> idle_turn x = WMore).
  { intros l'. rewrite Forall_forall. split; intros H x I; apply quiet_spec; auto. }
  destruct (idle_general l) as (A & B & C & _). split; [|split].
  - rewrite A. split; intros (pre & t & post & E & N & R); exists pre, t, post; (split; [exact E|]); (split; [apply Q; exact N|exact R]).
  - intros rc. rewrite B. split; intros (pre & t & post & E & N & R); exists pre, t, post; (split; [exact E|]); (split; [apply Q; exact N|exact R]).
  - rewrite C. symmetry. apply Q.
Qed.

Example ex_idle :
  let c := mkCh [bs "a"] true 60 0 30 FirstListed 3 1 in
  session_wait true [mkTurn WTimeout true (Some c) false 100 80 true; mkTurn WTimeout true (Some c) true 110 80 true;
                     mkTurn WSignal true (Some c) false 110 80 true] = WEnd 0 true.
Proof. reflexivity. Qed.

Print Assumptions c40_rotation_partial.
Print Assumptions c40_fixed.
Print Assumptions c40_in_bounds.
Print Assumptions c40_carried_refuted.
Print Assumptions c40_lowered_refuted.
Print Assumptions c40_session_lost_refuted.
Print Assumptions c41_no_anchor.
Print Assumptions c41_anchor_partial.
Print Assumptions c41_anchor_refuted.
Print Assumptions c41_future_refuted.
Print Assumptions c41_zero_refuted.
Print Assumptions c52_idle.
