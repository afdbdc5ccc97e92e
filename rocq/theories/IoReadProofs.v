(** Facts about the reader. *)
From Coq Require Import Ascii String NArith ZArith Bool Lia List.
From Verif Require Import Bytes IoRead.
Import ListNotations.
Local Open Scope N_scope.

(** Bytes that arrive before anything goes wrong, and what happens then. *)
Fixpoint avail (t : list tev) : bytes :=
  match t with
  | TData f :: t' => f ++ avail t'
  | TAgain false :: t' => avail t'
  | TIntr false :: t' => avail t'
  | _ => []
  end.

Fixpoint tail_of (t : list tev) : list tev :=
  match t with
  | TData f :: t' => tail_of t'
  | TAgain false :: t' => tail_of t'
  | TIntr false :: t' => tail_of t'
  | _ => t
  end.

Lemma avail_push f t : avail (push f t) = f ++ avail t.
Proof. now destruct f. Qed.
Lemma tail_push f t : tail_of (push f t) = tail_of t.
Proof. now destruct f. Qed.
Lemma tbytes_push f t : tbytes (push f t) = (length f + tbytes t)%nat.
Proof. now destruct f. Qed.

Lemma avail_le_tbytes t : (length (avail t) <= tbytes t)%nat.
Proof.
  induction t as [|[f|[]|[]| |] t IH]; cbn; try lia. rewrite app_length. lia.
Qed.

Definition read_spec (t : list tev) (n : N) (r : rres bytes) : Prop :=
  match r with
  | ROk b t' => b = takeN n (avail t) /\ lenN b = n /\ avail t' = dropN n (avail t)
                /\ tail_of t' = tail_of t /\ (tbytes t' + N.to_nat n = tbytes t)%nat
  | RFail w _ => lenN (avail t) < n
  | RWait => lenN (avail t) < n
  | RFuel => False
  | RUb _ => False
  end.

Lemma takeN_app {A} n (a b : list A) : takeN n (a ++ b) = takeN n a ++ takeN (n - lenN a) b.
Proof.
  rewrite !takeN_firstn, firstn_app. f_equal. f_equal. unfold lenN. lia.
Qed.
Lemma dropN_app {A} n (a b : list A) : dropN n (a ++ b) = dropN n a ++ dropN (n - lenN a) b.
Proof.
  rewrite !dropN_skipn, skipn_app. f_equal. f_equal. unfold lenN. lia.
Qed.
Lemma takeN_0 {A} (l : list A) : takeN 0 l = []. Proof. now destruct l. Qed.
Lemma dropN_0 {A} (l : list A) : dropN 0 l = l. Proof. now destruct l. Qed.

Lemma nc_read_loop_spec t cap readd count :
  count < cap -> readd < count ->
  read_spec t (count - readd) (nc_read_loop t cap readd count).
Proof.
  revert readd. induction t as [|ev t IH]; intros readd Hc Hr; cbn [nc_read_loop].
  - cbn. unfold lenN; cbn; lia.
  - destruct ev as [f|e|e| |]; try (cbn; unfold lenN; cbn; lia).
    2:{ destruct e; [cbn; unfold lenN; cbn; lia|]. specialize (IH _ Hc Hr).
        destruct (nc_read_loop t cap readd count); exact IH. }
    2:{ destruct e; [cbn; unfold lenN; cbn; lia|]. specialize (IH _ Hc Hr).
        destruct (nc_read_loop t cap readd count); exact IH. }
    pose proof (lenN_takeN (count - readd) f) as Hl.
    destruct (N.ltb_spec cap (readd + lenN (takeN (count - readd) f))); [lia|].
    destruct (N.ltb_spec (readd + lenN (takeN (count - readd) f)) count) as [Hlt|Hge].
    + assert (Hf : lenN f < count - readd) by lia.
      assert (Htk : takeN (count - readd) f = f) by (apply takeN_all; lia).
      rewrite Htk in *.
      specialize (IH (readd + lenN f) Hc Hlt).
      destruct (nc_read_loop t cap (readd + lenN f) count) as [b t'|w t'| | |u]; cbn [read_spec] in *.
      * destruct IH as (Hb & Hlb & Ha & Ht & Htb). cbn [avail tail_of tbytes].
        rewrite takeN_app, dropN_app, Htk, (dropN_all _ f) by lia.
        replace (count - readd - lenN f) with (count - (readd + lenN f)) by lia.
        repeat split; auto.
        -- now rewrite Hb.
        -- rewrite lenN_app. lia.
        -- unfold lenN in *. lia.
      * cbn [avail]. rewrite lenN_app. lia.
      * cbn [avail]. rewrite lenN_app. lia.
      * exact IH.
      * exact IH.
    + destruct (N.leb_spec cap count); [lia|]. cbn [read_spec avail tail_of].
      assert (count - readd <= lenN f) by lia.
      assert (Hz : count - readd - lenN f = 0) by lia.
      rewrite takeN_app, dropN_app, Hz, takeN_0, dropN_0, app_nil_r, avail_push, tail_push, tbytes_push.
      split; [reflexivity|]. split; [lia|]. split; [reflexivity|]. split; [reflexivity|].
      cbn [tbytes]. rewrite dropN_skipn, skipn_length. unfold lenN in *. lia.
Qed.

Lemma nc_read_spec t cap count : count < cap -> read_spec t count (nc_read t cap count).
Proof.
  intros H. unfold nc_read. destruct (N.eqb_spec count 0) as [->|Hn].
  - cbn. rewrite takeN_0, dropN_0. repeat split; auto; lia.
  - replace count with (count - 0) at 1 by lia. apply nc_read_loop_spec; lia.
Qed.

(* ------------------------------------------------------------------ *)
(** ** nc_read_until *)

Section Alloc.
Variable alloc : N -> bool.

Lemma match_tail_bound tag content i m :
  (m + i <= length tag)%nat -> (match_tail tag content i m <= length tag)%nat.
Proof.
  revert m; induction i as [|i IH]; intros m H; cbn [match_tail]; [lia|].
  destruct (strncmp_eq _ _ _); [lia|]. apply IH. lia.
Qed.

(** Outcome classification of the loop: no undefined behaviour, no fuel exhaustion; a success means
    the content consumed is a prefix of the available bytes. *)
Definition until_spec (t : list tev) (content : bytes) (r : rres bytes) : Prop :=
  match r with
  | ROk c t' => exists b, c = content ++ b /\ b ++ avail t' = avail t /\ tail_of t' = tail_of t
                          /\ b <> [] /\ (tbytes t' + length b = tbytes t)%nat
  | RFail _ _ | RWait => True
  | RFuel => False
  | RUb _ => False
  end.

Lemma nc_read_until_loop_spec fuel t tag content size m :
  (length tag <= 500)%nat -> (m < length tag)%nat -> lenN content < size -> (tbytes t < fuel)%nat ->
  until_spec t content (nc_read_until_loop alloc fuel t tag content size m).
Proof.
  revert t content size m. induction fuel as [|fuel IH]; intros t content size m Htag Hm Hs Hf; [lia|].
  cbn [nc_read_until_loop]. cbv zeta.
  set (n := (length tag - m)%nat).
  set (size' := if size <=? lenN content + N.of_nat n then size + BUFFERSIZE else size).
  destruct (_ && _); [exact I|].
  assert (Hs' : lenN content + N.of_nat n < size').
  { unfold size', BUFFERSIZE. destruct (N.leb_spec size (lenN content + N.of_nat n)); lia. }
  assert (Hcap : N.of_nat n < size' + 1 - lenN content) by lia.
  pose proof (nc_read_spec t _ _ Hcap) as HR.
  destruct (nc_read t (size' + 1 - lenN content) (N.of_nat n)) as [b t'|w t'| | |u]; cbn [read_spec] in HR; try exact I; try contradiction.
  destruct HR as (Hb & Hlb & Ha & Ht & Htb).
  assert (Hbl : length b = n) by (unfold lenN in Hlb; lia).
  assert (Hbne : b <> []) by (destruct b; [cbn in Hbl; lia|discriminate]).
  assert (Hav : b ++ avail t' = avail t) by (rewrite Hb, Ha; apply takeN_dropN).
  destruct (Nat.eqb_spec (match_tail tag (content ++ b) n m) (length tag)) as [E|E].
  - cbn [until_spec]. exists b. repeat split; auto; lia.
  - specialize (IH t' (content ++ b) size' (match_tail tag (content ++ b) n m)).
    pose proof (match_tail_bound tag (content ++ b) n m ltac:(lia)) as Hbd.
    specialize (IH Htag ltac:(lia) ltac:(rewrite lenN_app; lia) ltac:(lia)).
    destruct (nc_read_until_loop _ _ _ _ _ _ _) as [c t''|w t''| | |u]; cbn [until_spec] in *; try exact IH.
    destruct IH as (b' & -> & Hb' & Ht' & Hne & Htb'). exists (b ++ b').
    rewrite <- !app_assoc. repeat split.
    + now rewrite Hb', Hav.
    + congruence.
    + destruct b; [congruence|discriminate].
    + rewrite app_length. lia.
Qed.

Lemma nc_read_until_spec t tag :
  (0 < length tag)%nat -> (length tag <= 500)%nat -> until_spec t [] (nc_read_until alloc t tag).
Proof.
  intros H0 H1. unfold nc_read_until. destruct (alloc _); cbn [negb]; [|exact I].
  apply nc_read_until_loop_spec; unfold BUFFERSIZE, lenN; cbn [length]; lia.
Qed.

(** *** The content returned ends with the tag, and the automaton on flat streams *)

Lemma lastn_app {A} (a b : list A) : skipn (length (a ++ b) - length b) (a ++ b) = b.
Proof.
  rewrite app_length. replace (length a + length b - length b)%nat with (length a) by lia.
  rewrite skipn_app, skipn_all, Nat.sub_diag. reflexivity.
Qed.

(** [ends c s]: [s] is a suffix of [c]. *)
Definition ends {A} (c s : list A) : Prop := exists p, c = p ++ s.

Lemma ends_skipn {A} (c s : list A) : ends c s -> skipn (length c - length s) c = s.
Proof. intros [p ->]. apply lastn_app. Qed.

Lemma ends_iff {A} (c s : list A) :
  (length s <= length c)%nat -> ends c s <-> skipn (length c - length s) c = s.
Proof.
  intros H. split; [apply ends_skipn|]. intros E. exists (firstn (length c - length s) c).
  rewrite <- E at 2. now rewrite firstn_skipn.
Qed.

(** What [match_tail] computes when it starts with the first [m] tag bytes matched at the end of
    the old content: either the whole tag, or the longest tag prefix that is a suffix of the content
    and strictly shorter than the block just read (or equal to it if [m] = 0). *)
Lemma match_tail_0 tag content i :
  (i <= length tag)%nat -> (i <= length content)%nat ->
  let r := match_tail tag content i 0 in
  (r <= i)%nat /\ ends content (firstn r tag) /\
  forall j, (r < j <= i)%nat -> ~ ends content (firstn j tag).
Proof.
  induction i as [|i IH]; intros Ht Hc; cbn [match_tail]; cbv zeta.
  - split; [lia|]. split; [exists content; now rewrite app_nil_r|]. intros j Hj; lia.
  - rewrite skipn_O.
    assert (Hlen : length (skipn (length content - S i) content) = S i) by (rewrite skipn_length; lia).
    destruct (strncmp_eq tag (skipn (length content - S i) content) (S i)) eqn:E.
    + apply strncmp_eq_spec in E; [|lia|lia].
      rewrite (firstn_all2 (skipn _ _)) in E by lia.
      split; [lia|]. split; [|intros j Hj; lia].
      replace (0 + S i)%nat with (S i) by lia. rewrite E. eexists. symmetry. apply firstn_skipn.
    + specialize (IH ltac:(lia) ltac:(lia)). cbv zeta in IH. destruct IH as (H1 & H2 & H3).
      split; [lia|]. split; [exact H2|]. intros j Hj Hend.
      destruct (Nat.eq_dec j (S i)) as [->|]; [|apply (H3 j); [lia|exact Hend]].
      apply ends_skipn in Hend.
      assert (Hl : length (firstn (S i) tag) = S i) by (rewrite firstn_length; lia).
      rewrite Hl in Hend.
      enough (strncmp_eq tag (skipn (length content - S i) content) (S i) = true) by congruence.
      apply strncmp_eq_spec; [lia|lia|]. rewrite Hend, firstn_firstn. f_equal. lia.
Qed.

Lemma match_tail_pos tag content m :
  let n := (length tag - m)%nat in
  (0 < m)%nat -> (m < length tag)%nat -> (length tag <= length content)%nat ->
  ends (firstn (length content - n) content) (firstn m tag) ->
  let r := match_tail tag content n m in
  (ends content tag /\ r = length tag) \/
  (~ ends content tag /\ (r < n)%nat /\ ends content (firstn r tag) /\
   forall j, (r < j < n)%nat -> ~ ends content (firstn j tag)).
Proof.
  intros n Hm0 Hm Hc Hend. cbv zeta.
  assert (Hn : n = S (n - 1)) by lia. rewrite Hn. cbn [match_tail]. rewrite <- Hn.
  assert (Hlen : length (skipn (length content - n) content) = n) by (rewrite skipn_length; lia).
  assert (Hlt : length (skipn m tag) = n) by (rewrite skipn_length; lia).
  assert (Heq : firstn m tag ++ skipn m tag = tag) by apply firstn_skipn.
  destruct Hend as [p Hp].
  assert (Hcont : content = p ++ firstn m tag ++ skipn (length content - n) content).
  { rewrite app_assoc, <- Hp. now rewrite firstn_skipn. }
  destruct (strncmp_eq (skipn m tag) (skipn (length content - n) content) n) eqn:E.
  - left. apply strncmp_eq_spec in E; [|lia|lia].
    rewrite !firstn_all2 in E by lia. split; [|lia].
    exists p. rewrite Hcont at 1. now rewrite <- E, Heq.
  - right. assert (Hno : ~ ends content tag).
    { intros He. apply ends_skipn in He.
      enough (strncmp_eq (skipn m tag) (skipn (length content - n) content) n = true) by congruence.
      apply strncmp_eq_spec; [lia|lia|]. f_equal. rewrite <- He.
      rewrite skipn_skipn. f_equal. lia. }
    split; [exact Hno|].
    destruct (match_tail_0 tag content (n - 1) ltac:(lia) ltac:(lia)) as (H1 & H2 & H3).
    split; [lia|]. split; [exact H2|]. intros j Hj. apply H3. lia.
Qed.

(** *** Exactness of [nc_read_until] *)

Lemma ends_app_prefix {A} (p k r : list A) :
  ends (p ++ k) r -> (length k <= length r)%nat -> exists r1, r = r1 ++ k /\ ends p r1.
Proof.
  intros [q Hq] Hl.
  assert (E : firstn (length r - length k) r ++ skipn (length r - length k) r = r) by apply firstn_skipn.
  set (r1 := firstn (length r - length k) r) in *. set (r2 := skipn (length r - length k) r) in *.
  assert (Hr2 : length r2 = length k) by (unfold r2; rewrite skipn_length; lia).
  assert (Hl2 : length (p ++ k) = length (q ++ r)) by now rewrite Hq.
  rewrite !app_length in Hl2. rewrite <- E, app_assoc in Hq.
  assert (Hr1 : length r1 = (length r - length k)%nat) by (unfold r1; rewrite firstn_length; lia).
  assert (Hpk : p = q ++ r1 /\ k = r2).
  { apply app_eq_app in Hq. destruct Hq as [z [[H1 H2]|[H1 H2]]].
    - assert (z = []) by (apply length_zero_iff_nil; rewrite H1 in Hl2; rewrite !app_length in Hl2; rewrite H2 in Hr2; rewrite app_length in Hr2; lia).
      subst z. cbn in H2. rewrite app_nil_r in H1. auto.
    - assert (z = []) by (apply length_zero_iff_nil; rewrite H2 in *; rewrite !app_length in *; lia).
      subst z. cbn in H2. rewrite app_nil_r in H1. auto. }
  destruct Hpk as [Hp Hk]. exists r1. split; [rewrite Hk; now symmetry|]. exists q. exact Hp.
Qed.

(** The tag occurs in [p ++ tag] only at its end, and no proper tag prefix is a suffix of [p]. *)
Definition tag_clean (p tag : bytes) : Prop :=
  (forall q r, p ++ tag = q ++ tag ++ r -> r = []) /\
  (forall j, (0 < j < length tag)%nat -> ~ ends p (firstn j tag)).

Lemma app_inv_prefix {A} (c s p q : list A) :
  c ++ s = p ++ q -> (length c <= length p)%nat -> exists z, p = c ++ z /\ s = z ++ q.
Proof.
  intros H Hl. apply app_eq_app in H. destruct H as [z [[H1 H2]|[H1 H2]]].
  - exists []. subst c. rewrite app_length in Hl. assert (z = []) by (apply length_zero_iff_nil; lia).
    subst z. rewrite !app_nil_r. auto.
  - exists z. auto.
Qed.

Lemma app_inv_suffix {A} (c s p q : list A) :
  c ++ s = p ++ q -> (length p <= length c)%nat -> exists z, c = p ++ z /\ q = z ++ s.
Proof. intros H Hl. symmetry in H. exact (app_inv_prefix _ _ _ _ H Hl). Qed.

Lemma nc_read_until_loop_exact fuel t tag p rest content s size m :
  tag_clean p tag -> (0 < length tag <= 500)%nat ->
  (forall k, k <= lenN p + lenN tag + 513 -> alloc k = true) ->
  (tbytes t < fuel)%nat -> avail t = s ++ rest -> content ++ s = p ++ tag -> s <> [] ->
  lenN content < size -> size <= lenN p + lenN tag + 512 ->
  (m < length tag)%nat -> ends content (firstn m tag) ->
  ((length p < length content)%nat -> m = (length content - length p)%nat) ->
  exists t', nc_read_until_loop alloc fuel t tag content size m = ROk (p ++ tag) t'
             /\ avail t' = rest /\ tail_of t' = tail_of t.
Proof.
  intros [HC1 HC2] Htag Hal. revert t content s size m.
  induction fuel as [|fuel IH]; intros t content s size m Hf Hav Hcs Hs Hsz Hsz2 Hm Hend Hover; [lia|].
  assert (Hlen : (length content + length s = length p + length tag)%nat)
    by (rewrite <- !app_length; now rewrite Hcs).
  assert (Hsl : (0 < length s)%nat) by (destruct s; [congruence|cbn; lia]).
  (* matched is 0 when exactly at the end of p *)
  assert (Hp0 : length content = length p -> m = O).
  { intros Hl. destruct (app_inv_prefix _ _ _ _ Hcs ltac:(lia)) as (z & Hz & _).
    assert (z = []) by (apply length_zero_iff_nil; apply (f_equal (@length _)) in Hz; rewrite app_length in Hz; lia).
    subst z. rewrite app_nil_r in Hz. subst content.
    destruct m as [|m]; [reflexivity|]. exfalso. apply (HC2 (S m)); [lia|exact Hend]. }
  set (n := (length tag - m)%nat).
  assert (Hn : (0 < n <= length s)%nat).
  { unfold n. destruct (le_lt_dec (length content) (length p)); [lia|]. specialize (Hover ltac:(lia)). lia. }
  cbn [nc_read_until_loop]. cbv zeta. fold n.
  set (size' := if size <=? lenN content + N.of_nat n then size + BUFFERSIZE else size).
  assert (Hs' : lenN content + N.of_nat n < size' /\ size' <= lenN p + lenN tag + 512).
  { unfold size', BUFFERSIZE, lenN in *. destruct (N.leb_spec size (N.of_nat (length content) + N.of_nat n)); lia. }
  replace (alloc (size' + 1)) with true by (symmetry; apply Hal; lia).
  rewrite andb_false_r.
  assert (Hcap : N.of_nat n < size' + 1 - lenN content) by lia.
  pose proof (nc_read_spec t _ _ Hcap) as HR.
  destruct (nc_read t (size' + 1 - lenN content) (N.of_nat n)) as [b t'|w t'| | |u]; cbn [read_spec] in HR;
    try (exfalso; rewrite Hav, lenN_app in HR; unfold lenN in HR; lia); try contradiction.
  destruct HR as (Hb & Hlb & Ha & Ht & Htb).
  set (s2 := skipn n s).
  assert (Hb2 : b = firstn n s).
  { rewrite Hb, Hav, takeN_firstn, Nnat.Nat2N.id, firstn_app.
    replace (n - length s)%nat with O by lia. cbn. now rewrite app_nil_r. }
  assert (Ha2 : avail t' = s2 ++ rest).
  { rewrite Ha, Hav, dropN_skipn, Nnat.Nat2N.id, skipn_app.
    replace (n - length s)%nat with O by lia. reflexivity. }
  assert (Hbs : b ++ s2 = s) by (rewrite Hb2; apply firstn_skipn).
  assert (Hbl : length b = n) by (rewrite Hb2, firstn_length; lia).
  set (content' := content ++ b).
  assert (Hcs' : content' ++ s2 = p ++ tag) by (unfold content'; rewrite <- app_assoc, Hbs; exact Hcs).
  assert (Hcl' : length content' = (length content + n)%nat) by (unfold content'; rewrite app_length; lia).
  assert (Hls2 : length s2 = (length s - n)%nat) by (unfold s2; rewrite skipn_length; lia).
  (* the tag is recognised exactly at its end *)
  assert (Hfin : ends content' tag <-> s2 = []).
  { split.
    - intros [q Hq]. rewrite Hq, <- app_assoc in Hcs'. symmetry in Hcs'. now apply HC1 in Hcs'.
    - intros E. rewrite E, app_nil_r in Hcs'. rewrite Hcs'. now exists p. }
  assert (Hsuf : (length p < length content')%nat -> ends content' (firstn (length content' - length p) tag)
                   /\ content' = p ++ firstn (length content' - length p) tag).
  { intros Hl. destruct (app_inv_suffix _ _ _ _ Hcs' ltac:(lia)) as (z & Hz & Hz2).
    assert (Hzl : length z = (length content' - length p)%nat).
    { apply (f_equal (@length _)) in Hz. rewrite app_length in Hz. lia. }
    assert (Hz3 : firstn (length content' - length p) tag = z).
    { rewrite <- Hzl. rewrite Hz2. rewrite firstn_app, firstn_all, Nat.sub_diag. cbn. now rewrite app_nil_r. }
    rewrite Hz3. split; [now exists p|exact Hz]. }
  set (r := match_tail tag content' n m).
  (* a longer match than the true one would be a proper tag prefix ending p *)
  assert (Hmax : (length p < length content')%nat -> ends content' (firstn r tag) -> (r < length tag)%nat ->
                 (length content' - length p <= r)%nat -> r = (length content' - length p)%nat).
  { intros Hl He Hr Hk. destruct (Hsuf Hl) as [_ Hsuf2].
    set (k := (length content' - length p)%nat) in *.
    rewrite Hsuf2 in He.
    assert (Hkl : length (firstn k tag) = k) by (rewrite firstn_length; lia).
    assert (Hrl : length (firstn r tag) = r) by (rewrite firstn_length; lia).
    destruct (ends_app_prefix _ _ _ He ltac:(lia)) as (r1 & Hr1 & He1).
    destruct (Nat.eq_dec r k) as [|Hne]; [assumption|]. exfalso.
    assert (Hr1l : length r1 = (r - k)%nat) by (apply (f_equal (@length _)) in Hr1; rewrite app_length in Hr1; lia).
    apply (HC2 (r - k)%nat); [lia|].
    replace (firstn (r - k) tag) with r1; [exact He1|].
    transitivity (firstn (r - k) (firstn r tag)); [|rewrite firstn_firstn; f_equal; lia].
    rewrite Hr1, <- Hr1l, firstn_app, firstn_all, Nat.sub_diag. cbn. now rewrite app_nil_r. }
  assert (Hr : (s2 = [] /\ r = length tag) \/
               (s2 <> [] /\ (r < length tag)%nat /\ ends content' (firstn r tag) /\
                ((length p < length content')%nat -> r = (length content' - length p)%nat))).
  { destruct (Nat.eq_dec m 0) as [Em|Em].
    - unfold r in *. rewrite Em in *. assert (En : n = length tag) by lia. rewrite En in *.
      destruct (match_tail_0 tag content' (length tag) ltac:(lia) ltac:(lia)) as (H1 & H2 & H3).
      destruct (Nat.eq_dec (match_tail tag content' (length tag) 0) (length tag)) as [E|E].
      + left. split; [|exact E]. apply Hfin. rewrite E, firstn_all in H2. exact H2.
      + right. assert (Hne : s2 <> []).
        { intros Hz. apply Hfin in Hz. apply (H3 (length tag)); [lia|]. rewrite firstn_all. exact Hz. }
        repeat split; auto; [lia|]. intros Hl. apply Hmax; auto; [lia|].
        destruct (Hsuf Hl) as [Hs1 _].
        destruct (le_lt_dec (length content' - length p) (match_tail tag content' (length tag) 0)); [assumption|].
        exfalso. apply (H3 (length content' - length p)%nat); [lia|exact Hs1].
    - destruct (match_tail_pos tag content' m ltac:(lia) ltac:(lia)) as [[H1 H2]|(H1 & H2 & H3 & H4)].
      + destruct Hend as [q Hq]. rewrite Hcl'. apply (f_equal (@length _)) in Hq.
        rewrite app_length, firstn_length in Hq. lia.
      + fold n. rewrite Hcl'. replace (length content + n - n)%nat with (length content) by lia.
        unfold content'. rewrite firstn_app, firstn_all, Nat.sub_diag. cbn. rewrite app_nil_r. exact Hend.
      + left. split; [now apply Hfin|exact H2].
      + right. fold n in H2, H3, H4. fold r in H2, H3, H4.
        assert (Hne : s2 <> []) by (intros Hz; apply H1, Hfin, Hz).
        repeat split; auto; [lia|]. intros Hl. apply Hmax; auto; [lia|].
        destruct (Hsuf Hl) as [Hs1 _].
        destruct (le_lt_dec (length content' - length p) r); [assumption|]. exfalso.
        apply (H4 (length content' - length p)%nat); [|exact Hs1].
        destruct (le_lt_dec (length content) (length p)).
        * destruct (Nat.eq_dec (length content) (length p)) as [Ee|]; [specialize (Hp0 Ee); lia|lia].
        * specialize (Hover ltac:(lia)). exfalso. apply Hne. apply length_zero_iff_nil. lia. }
  destruct Hr as [[Es Er]|(Hne & Hr1 & Hr2 & Hr3)].
  - rewrite Er, Nat.eqb_refl. exists t'. rewrite Es in *. rewrite app_nil_r in Hcs'. rewrite Hcs'. auto.
  - destruct (Nat.eqb_spec r (length tag)); [lia|].
    destruct (IH t' content' s2 size' r) as (t'' & H1 & H2 & H3); auto.
    + lia.
    + unfold lenN in *. lia.
    + lia.
    + exists t''. repeat split; auto. congruence.
Qed.

Lemma nc_read_until_exact t tag p rest :
  tag_clean p tag -> (0 < length tag <= 500)%nat ->
  (forall k, k <= lenN p + lenN tag + 513 -> alloc k = true) ->
  avail t = p ++ tag ++ rest ->
  exists t', nc_read_until alloc t tag = ROk (p ++ tag) t' /\ avail t' = rest /\ tail_of t' = tail_of t.
Proof.
  intros HC Ht Hal Hav. unfold nc_read_until. rewrite Hal by (unfold BUFFERSIZE; lia). cbn [negb].
  apply (nc_read_until_loop_exact (S (tbytes t)) t tag p rest [] (p ++ tag) BUFFERSIZE 0); auto.
  - now rewrite Hav, <- app_assoc.
  - destruct tag; [cbn in Ht; lia|]. intros E. apply app_eq_nil in E. destruct E; discriminate.
  - unfold BUFFERSIZE, lenN; cbn [length]; lia.
  - unfold BUFFERSIZE; lia.
  - lia.
  - exists []. reflexivity.
Qed.

End Alloc.

(** [infix tag p]: the tag occurs in [p]. *)
Definition infix (tag p : bytes) : Prop := exists q r, p = q ++ tag ++ r.

Lemma tag_clean_intro p tag :
  ~ infix tag p -> (forall j, (0 < j < length tag)%nat -> ~ ends p (firstn j tag)) -> tag_clean p tag.
Proof.
  intros H1 H2. split; [|exact H2]. intros q r E.
  destruct r as [|x r]; [reflexivity|]. exfalso.
  assert (Hl : (length p + length tag = length q + length tag + S (length r))%nat).
  { apply (f_equal (@length _)) in E. rewrite !app_length in E. cbn in E. lia. }
  destruct (le_lt_dec (length q + length tag) (length p)) as [Hle|Hgt].
  - apply H1. rewrite app_assoc in E. symmetry in E.
    destruct (app_inv_prefix _ _ _ _ E ltac:(rewrite app_length; lia)) as (z & Hz & _).
    exists q, z. now rewrite Hz, <- app_assoc.
  - symmetry in E. destruct (app_inv_prefix _ _ _ _ E ltac:(lia)) as (z & Hz & Hz2).
    assert (Hzl : (length p = length q + length z)%nat) by (rewrite Hz, app_length; lia).
    symmetry in Hz2. destruct (app_inv_prefix _ _ _ _ Hz2 ltac:(lia)) as (y & Hy & _).
    apply (H2 (length z)); [lia|]. exists q. rewrite Hz. f_equal.
    rewrite Hy, firstn_app, firstn_all, Nat.sub_diag. cbn. now rewrite app_nil_r.
Qed.

Lemma tag_clean_nl p : ~ In NL p -> tag_clean p [NL].
Proof.
  intros H. apply tag_clean_intro.
  - intros (q & r & ->). apply H. apply in_or_app; right. now left.
  - cbn. lia.
Qed.

Lemma tag_clean_nil tag : tag <> [] -> tag_clean [] tag.
Proof.
  intros Hne. apply tag_clean_intro.
  - intros (q & r & E). symmetry in E. apply app_eq_nil in E as [_ E]. now apply app_eq_nil in E as [-> _].
  - intros j Hj [q E]. symmetry in E. apply app_eq_nil in E as [_ E].
    apply (f_equal (@length _)) in E. rewrite firstn_length in E. cbn in E. lia.
Qed.

Lemma tag_clean_endtag10 p :
  ~ infix ENDTAG10 p -> ~ ends p (bs "]") -> ~ ends p (bs "]]>") -> tag_clean p ENDTAG10.
Proof.
  intros H1 H2 H3. apply tag_clean_intro; [exact H1|].
  intros j Hj. change (length ENDTAG10) with 6%nat in Hj.
  assert (Hsuf : forall a, ends p (a ++ bs "]") -> False).
  { intros a [q E]. apply H2. exists (q ++ a). now rewrite <- app_assoc. }
  destruct j as [|[|[|[|[|[|j]]]]]]; try lia; cbn.
  - exact (Hsuf []).
  - exact (Hsuf (bs "]")).
  - exact H3.
  - exact (Hsuf (bs "]]>")).
  - exact (Hsuf (bs "]]>]")).
Qed.
