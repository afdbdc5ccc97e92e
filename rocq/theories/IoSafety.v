(** Safety and soundness of the reader on arbitrary streams. *)
From Coq Require Import Ascii String NArith ZArith Bool Lia List.
From Verif Require Import Bytes IoRead IoReadProofs IoWrite IoWriteProofs IoRoundTrip.
Import ListNotations.
Local Open Scope N_scope.

Section S.
Variable alloc : N -> bool.

(** *** What [nc_read_until] returns ends with the tag *)

Lemma match_tail_ends tag old b m :
  (m < length tag)%nat -> length b = (length tag - m)%nat -> ends old (firstn m tag) ->
  ends (old ++ b) (firstn (match_tail tag (old ++ b) (length tag - m) m) tag).
Proof.
  intros Hm Hb He. destruct (Nat.eq_dec m 0) as [->|Hm0].
  - destruct (match_tail_0 tag (old ++ b) (length tag - 0)) as (_ & H & _); [lia| |exact H].
    rewrite app_length. lia.
  - assert (Hlo : (m <= length old)%nat).
    { destruct He as [p ->]. rewrite app_length, firstn_length. lia. }
    destruct (match_tail_pos tag (old ++ b) m) as [[H1 H2]|(_ & _ & H & _)]; try lia.
    + rewrite app_length. lia.
    + rewrite app_length. replace (length old + length b - (length tag - m))%nat with (length old) by lia.
      rewrite firstn_app, firstn_all, Nat.sub_diag. cbn [firstn]. now rewrite app_nil_r.
    + rewrite H2, firstn_all. exact H1.
    + exact H.
Qed.

Lemma until_loop_ends fuel t tag content size m c t' :
  (length tag <= 500)%nat -> (m < length tag)%nat -> lenN content < size -> ends content (firstn m tag) ->
  nc_read_until_loop alloc fuel t tag content size m = ROk c t' -> ends c tag.
Proof.
  revert t content size m. induction fuel as [|fuel IH]; intros t content size m Htag Hm Hs He; [discriminate|].
  cbn [nc_read_until_loop]. cbv zeta.
  set (n := (length tag - m)%nat).
  set (size' := if size <=? lenN content + N.of_nat n then size + BUFFERSIZE else size).
  destruct (_ && _); [discriminate|].
  assert (Hs' : lenN content + N.of_nat n < size').
  { unfold size', BUFFERSIZE. destruct (N.leb_spec size (lenN content + N.of_nat n)); lia. }
  assert (Hcap : N.of_nat n < size' + 1 - lenN content) by lia.
  pose proof (nc_read_spec t _ _ Hcap) as HR.
  destruct (nc_read t (size' + 1 - lenN content) (N.of_nat n)) as [b t1|w t1| | |u]; cbn [read_spec] in HR; try discriminate.
  destruct HR as (Hb & Hlb & Ha & Ht & Htb).
  assert (Hbl : length b = n) by (unfold lenN in Hlb; lia).
  pose proof (match_tail_ends tag content b m Hm Hbl He) as Hend. fold n in Hend.
  pose proof (match_tail_bound tag (content ++ b) n m ltac:(lia)) as Hbd.
  destruct (Nat.eqb_spec (match_tail tag (content ++ b) n m) (length tag)) as [E|E].
  - intros [= <- <-]. rewrite E, firstn_all in Hend. exact Hend.
  - apply IH; auto; [lia|]. rewrite lenN_app. lia.
Qed.

Lemma until_sound t tag c t' :
  (0 < length tag <= 500)%nat -> nc_read_until alloc t tag = ROk c t' ->
  ends c tag /\ c ++ avail t' = avail t /\ tail_of t' = tail_of t /\ (tbytes t' + length c = tbytes t)%nat /\ c <> [].
Proof.
  intros Ht H. split.
  - unfold nc_read_until in H. destruct (alloc _); cbn [negb] in H; [|discriminate].
    apply until_loop_ends in H; auto; try lia; [reflexivity|]. exists []. reflexivity.
  - pose proof (nc_read_until_spec alloc t tag ltac:(lia) ltac:(lia)) as Hs. rewrite H in Hs.
    destruct Hs as (b & -> & H2 & H3 & H4 & H5). cbn [app]. auto.
Qed.

(** *** Chunk reading *)

Lemma read_chunk_cases t len :
  len <> 0 -> len + 1 < w64 -> len < w32 ->
  match nc_read_chunk alloc t len with
  | ROk c t' => lenN c = len /\ c ++ avail t' = avail t /\ tail_of t' = tail_of t
                /\ (tbytes t' + length c = tbytes t)%nat /\ alloc (len + 1) = true
  | RFail _ _ | RWait => True
  | _ => False
  end.
Proof.
  intros H0 H1 H2. unfold nc_read_chunk. destruct (N.eqb_spec len 0); [congruence|]. cbv zeta.
  rewrite (N.mod_small (len + 1)) by lia. rewrite (N.mod_small len) by lia.
  destruct (alloc (len + 1)) eqn:Ea; cbn [negb]; [|exact I].
  pose proof (nc_read_spec t (len + 1) len ltac:(lia)) as HR.
  destruct (nc_read t (len + 1) len) as [b t'|w t'| | |u]; cbn [read_spec] in HR; try exact I; try contradiction.
  destruct HR as (Hb & Hl & Ha & Htl & Htb). destruct b as [|x b]; [exact I|].
  repeat split; auto.
  - rewrite Hb, Ha. apply takeN_dropN.
  - unfold lenN in *. lia.
Qed.

(** Whatever its size argument, when it succeeds the bytes come from the stream. *)
Lemma read_chunk_ok t len c t' :
  nc_read_chunk alloc t len = ROk c t' -> len <> 0 ->
  c <> [] /\ c ++ avail t' = avail t /\ tail_of t' = tail_of t /\ lenN c <= len
  /\ (tbytes t' + length c = tbytes t)%nat.
Proof.
  unfold nc_read_chunk. intros H H0. destruct (N.eqb_spec len 0); [congruence|]. cbv zeta in H.
  destruct (negb _); [discriminate|].
  unfold nc_read in H. destruct (N.eqb_spec (len mod w32) 0); [discriminate|].
  destruct (N.ltb_spec (len mod w32) ((len + 1) mod w64)) as [Hlt|Hge].
  - pose proof (nc_read_spec t _ _ Hlt) as HR. unfold nc_read in HR.
    destruct (N.eqb_spec (len mod w32) 0); [congruence|].
    destruct (nc_read_loop t ((len + 1) mod w64) 0 (len mod w32)) as [b t1|w t1| | |u]; try discriminate.
    destruct b as [|x b]; [discriminate|]. injection H as <- <-. cbn [read_spec] in HR.
    destruct HR as (Hb & Hl & Ha & Htl & Htb). repeat split; auto; try discriminate.
    + rewrite Hb, Ha. apply takeN_dropN.
    + rewrite Hl. apply N.mod_le. discriminate.
    + unfold lenN in *. lia.
  - (* the store is out of bounds: never ROk *)
    exfalso.
    assert (Hloop : forall tt cap r cnt b t1, r < cnt -> cap <= cnt -> nc_read_loop tt cap r cnt <> ROk b t1).
    { clear. induction tt as [|e tt IH]; intros cap r cnt b t1 Hr Hc; [discriminate|].
      destruct e as [f|[]|[]| |]; try discriminate; cbn [nc_read_loop]; auto.
      destruct (cap <? _); [discriminate|].
      match goal with |- context [?a <? cnt] => destruct (N.ltb_spec a cnt) as [Hl|Hl] end.
      - match goal with |- context [nc_read_loop tt cap ?a cnt] => specialize (IH cap a cnt) end.
        destruct (nc_read_loop tt cap _ cnt) as [b' t'|w t'| | |u] eqn:E; try discriminate.
        exfalso. apply (IH b' t'); auto.
      - destruct (N.leb_spec cap cnt); [discriminate|lia]. }
    destruct (nc_read_loop t ((len + 1) mod w64) 0 (len mod w32)) as [b t1|w t1| | |u] eqn:E; try discriminate.
    apply (Hloop _ _ _ _ _ _ (proj1 (N.neq_0_lt_0 _) n0) Hge E).
Qed.

(** *** Soundness: everything delivered is in the stream *)

(** One accepted chunk: bytes skipped up to and including the start tag, the size line, the data. *)
Definition seg_ok (s : bytes * bytes * bytes) : Prop :=
  let '(j, l, c) := s in
  ends j [NL; HASH] /\ ends l [NL] /\ c <> [] /\ strtoul (cstr l) = lenN c.
Definition seg_bytes (s : bytes * bytes * bytes) : bytes := let '(j, l, c) := s in j ++ l ++ c.

Lemma msg11_loop_sound fuel t data m t' :
  nc_read_msg11_loop alloc fuel t data = MMsg m t' ->
  exists segs j, Forall seg_ok segs /\ ends j [NL; HASH] /\
    (segs <> [] \/ data <> None) /\
    (exists l, ends l [NL] /\ cstr l = [HASH; NL] /\
      avail t = concat (map seg_bytes segs) ++ j ++ l ++ avail t') /\
    m = cstr (stored data ++ concat (map snd segs)) /\ tail_of t' = tail_of t.
Proof.
  revert t data. induction fuel as [|fuel IH]; intros t data H; [discriminate|].
  cbn [nc_read_msg11_loop] in H.
  destruct (nc_read_until alloc t CHUNK_TAG) as [j t1|w t1| | |u] eqn:E1; cbn [lift_fail] in H; try discriminate.
  apply until_sound in E1; [|cbn; lia]. destruct E1 as (Hj & A1 & T1 & B1 & _).
  destruct (nc_read_until alloc t1 [NL]) as [l t2|w t2| | |u] eqn:E2; cbn [lift_fail] in H; try discriminate.
  apply until_sound in E2; [|cbn; lia]. destruct E2 as (Hl & A2 & T2 & B2 & _).
  destruct (beqb (cstr l) (bs "#" ++ [NL])) eqn:Eb.
  - apply beqb_spec in Eb. destruct data as [d|]; [|discriminate]. injection H as <- <-.
    exists [], j. split; [constructor|]. split; [exact Hj|]. split; [right; discriminate|].
    split.
    + exists l. split; [exact Hl|]. split; [exact Eb|]. cbn [map concat app]. now rewrite A2, A1.
    + cbn [stored map concat]. rewrite app_nil_r. split; [reflexivity|congruence].
  - cbv zeta in H. destruct (N.eqb_spec (strtoul (cstr l)) 0) as [|Hnz]; [discriminate|].
    destruct (nc_read_chunk alloc t2 (strtoul (cstr l))) as [c t3|w t3| | |u] eqn:E3; cbn [lift_fail] in H; try discriminate.
    apply read_chunk_ok in E3; [|exact Hnz]. destruct E3 as (Hc & A3 & T3 & L3 & B3).
    destruct (lenN c =? w32 - 1); [discriminate|].
    destruct (negb _); [discriminate|].
    destruct (N.ltb_spec (lenN c) (strtoul (cstr l))) as [|Hge]; [discriminate|].
    destruct (_ <=? _); [discriminate|].
    apply IH in H. destruct H as (segs & j' & Hs & Hj' & _ & (l' & Hl' & El' & Ha) & Hm & Ht).
    exists ((j, l, c) :: segs), j'. split; [|split; [exact Hj'|split; [left; discriminate|split]]].
    + constructor; [|exact Hs]. cbn. repeat split; auto. lia.
    + exists l'. split; [exact Hl'|]. split; [exact El'|]. cbn [map concat seg_bytes].
      rewrite <- A1, <- A2, <- A3, Ha, <- !app_assoc. reflexivity.
    + cbn [map concat snd stored] in *. rewrite Hm, app_assoc. split; [reflexivity|congruence].
Qed.

(** *** Memory safety *)

(** (A) on a system whose allocator refuses empty and huge blocks. *)
Definition alloc_bounded (B : N) : Prop := alloc 0 = false /\ forall n, B <= n -> alloc n = false.

Lemma strtoul_bound s : strtoul s < w64.
Proof.
  unfold strtoul. destruct (split_sign _) as [neg d].
  destruct (N.leb_spec w64 (digits_val 0 d)); [unfold w64; lia|]. destruct neg; [|assumption].
  apply N.mod_lt. unfold w64; lia.
Qed.

Definition mno_ub (r : msgres) : Prop := match r with MUb _ | MFuel => False | _ => True end.

Lemma safe_A fuel t data :
  alloc_bounded w32 -> (tbytes t < fuel)%nat -> lenN (stored data) < w32 ->
  mno_ub (nc_read_msg11_loop alloc fuel t data).
Proof.
  intros [HA0 HA]. revert t data. induction fuel as [|fuel IH]; intros t data Hf Hd; [lia|].
  cbn [nc_read_msg11_loop].
  pose proof (nc_read_until_spec alloc t CHUNK_TAG ltac:(cbn; lia) ltac:(cbn; lia)) as S1.
  destruct (nc_read_until alloc t CHUNK_TAG) as [j t1|w t1| | |u]; cbn [lift_fail until_spec] in *; try exact I; try contradiction.
  destruct S1 as (j' & _ & A1 & T1 & N1 & B1).
  pose proof (nc_read_until_spec alloc t1 [NL] ltac:(cbn; lia) ltac:(cbn; lia)) as S2.
  destruct (nc_read_until alloc t1 [NL]) as [l t2|w t2| | |u]; cbn [lift_fail until_spec] in *; try exact I; try contradiction.
  destruct S2 as (l' & _ & A2 & T2 & N2 & B2).
  destruct (beqb _ _); [destruct data; exact I|]. cbv zeta.
  set (len := strtoul (cstr l)). destruct (N.eqb_spec len 0) as [|Hnz]; [exact I|].
  pose proof (strtoul_bound (cstr l)) as Hlen. fold len in Hlen.
  destruct (N.ltb_spec (len + 1) w32) as [Hsm|Hbig].
  - pose proof (read_chunk_cases t2 len Hnz ltac:(unfold w64, w32 in *; lia) ltac:(lia)) as S3.
    destruct (nc_read_chunk alloc t2 len) as [c t3|w t3| | |u]; cbn [lift_fail] in *; try exact I; try contradiction.
    destruct S3 as (L3 & A3 & T3 & B3 & _). rewrite L3.
    destruct (len =? w32 - 1); [exact I|].
    rewrite (N.mod_small (lenN (stored data) + len + 1)) by (unfold w64, w32 in *; lia).
    destruct (alloc (lenN (stored data) + len + 1)) eqn:Ea; cbn [negb]; [|exact I].
    destruct (N.ltb_spec len len); [lia|].
    destruct (N.leb_spec (lenN (stored data) + len + 1) (lenN (stored data) + len)); [lia|].
    apply IH; [destruct j'; [congruence|]; cbn [length] in *; lia|].
    cbn [stored]. rewrite lenN_app, L3.
    destruct (N.ltb_spec (lenN (stored data) + len) w32); [assumption|]. rewrite HA in Ea by lia. discriminate.
  - unfold nc_read_chunk. destruct (N.eqb_spec len 0); [congruence|]. cbv zeta.
    assert (E : alloc ((len + 1) mod w64) = false).
    { destruct (N.eq_dec (len + 1) w64) as [E|E].
      - rewrite E, N.mod_same by (unfold w64; lia). exact HA0.
      - rewrite N.mod_small by lia. apply HA. exact Hbig. }
    rewrite E. exact I.
Qed.

Lemma safe10 t :
  (alloc_bounded w31 \/ N.of_nat (tbytes t) < w31) -> mno_ub (nc_read_msg10 alloc t).
Proof.
  intros H. unfold nc_read_msg10.
  pose proof (nc_read_until_spec alloc t ENDTAG10 ltac:(cbn; lia) ltac:(cbn; lia)) as S1.
  destruct (nc_read_until alloc t ENDTAG10) as [c t1|w t1| | |u] eqn:E; cbn [lift_fail until_spec] in *; try exact I; try contradiction.
  destruct S1 as (b & -> & A1 & T1 & N1 & B1). cbn [app]. cbv zeta.
  destruct (N.ltb_spec (lenN b) w31) as [Hl|Hl].
  - rewrite N.mod_small by (unfold w31, w32 in *; lia).
    destruct (_ =? _); [exact I|]. destruct (N.leb_spec w31 (lenN b)); [lia|exact I].
  - exfalso. destruct H as [[HA0 HA]|H].
    + (* the buffer holding the bytes was allocated *)
      assert (G : forall fuel tt content size m c t', lenN content < size -> (m < length ENDTAG10)%nat ->
        alloc (size + 1) = true -> nc_read_until_loop alloc fuel tt ENDTAG10 content size m = ROk c t' ->
        lenN c < w31).
      { clear - HA. induction fuel as [|fuel IH]; intros tt content size m c t' Hs Hm Hsz; [discriminate|].
        cbn [nc_read_until_loop]. cbv zeta. set (n := (length ENDTAG10 - m)%nat).
        set (size' := if size <=? lenN content + N.of_nat n then size + BUFFERSIZE else size).
        destruct ((size <=? lenN content + N.of_nat n) && negb (alloc (size' + 1))) eqn:Ea; [discriminate|].
        assert (Hn : (n <= 6)%nat) by (unfold n; change (length ENDTAG10) with 6%nat; lia).
        assert (Hs' : lenN content + N.of_nat n < size').
        { unfold size', BUFFERSIZE. destruct (N.leb_spec size (lenN content + N.of_nat n)); lia. }
        assert (Ha' : alloc (size' + 1) = true).
        { apply andb_false_iff in Ea. destruct Ea as [Ea|Ea]; [|now apply negb_false_iff in Ea].
          unfold size'. now rewrite Ea. }
        assert (Hw : size' + 1 < w31).
        { destruct (N.ltb_spec (size' + 1) w31); [assumption|]. rewrite HA in Ha' by assumption. discriminate. }
        assert (Hcap : N.of_nat n < size' + 1 - lenN content) by lia.
        pose proof (nc_read_spec tt _ _ Hcap) as HR.
        destruct (nc_read tt (size' + 1 - lenN content) (N.of_nat n)) as [b t1|w t1| | |u]; cbn [read_spec] in HR; try discriminate.
        destruct HR as (_ & Hlb & _).
        pose proof (match_tail_bound ENDTAG10 (content ++ b) n m ltac:(lia)) as Hbd.
        destruct (Nat.eqb_spec (match_tail ENDTAG10 (content ++ b) n m) (length ENDTAG10)).
        - intros [= <- <-]. rewrite lenN_app. lia.
        - apply IH; auto; [rewrite lenN_app; lia|lia]. }
      unfold nc_read_until in E. destruct (alloc (BUFFERSIZE + 1)) eqn:Ea; cbn [negb] in E; [|discriminate].
      apply G in E; [apply N.lt_nge in E; now apply E|reflexivity|cbn; lia|exact Ea].
    + unfold lenN in *. lia.
Qed.

(** (B) with any allocator, on streams without '-' and without ten digits in a row. *)
Definition tame (s : bytes) : Prop :=
  ~ In "-"%char s /\ forall p d q, s = p ++ d ++ q -> all_digits d -> (length d < 10)%nat.

Lemma tame_suffix a b : tame (a ++ b) -> tame b.
Proof.
  intros [H1 H2]. split; [intros H; apply H1, in_or_app; now right|].
  intros p d q -> Hd. apply (H2 (a ++ p) d q); [now rewrite <- app_assoc|exact Hd].
Qed.
Lemma tame_prefix a b : tame (a ++ b) -> tame a.
Proof.
  intros [H1 H2]. split; [intros H; apply H1, in_or_app; now left|].
  intros p d q -> Hd. apply (H2 p d (q ++ b)); [now rewrite <- !app_assoc|exact Hd].
Qed.

Lemma digit_val_9 c : is_digit c = true -> digit_val c <= 9.
Proof. unfold is_digit, digit_val. intros H. apply andb_true_iff in H. rewrite !N.leb_le in H. lia. Qed.

Lemma digits_val_bound l : forall acc k,
  (forall d q, l = d ++ q -> all_digits d -> (length d <= k)%nat) ->
  digits_val acc l < (acc + 1) * 10 ^ N.of_nat k.
Proof.
  induction l as [|c l IH]; intros acc k H; cbn [digits_val].
  - pose proof (N.pow_nonzero 10 (N.of_nat k)). nia.
  - destruct (is_digit c) eqn:Ed.
    + assert (Hk : (1 <= k)%nat).
      { apply (H [c] l); [reflexivity|]. intros x [<-|[]]; exact Ed. }
      destruct k as [|k]; [lia|].
      assert (HH : digits_val (acc * 10 + digit_val c) l < (acc * 10 + digit_val c + 1) * 10 ^ N.of_nat k).
      { apply IH. intros d q -> Hd. enough (S (length d) <= S k)%nat by lia.
        apply (H (c :: d) q); [reflexivity|]. intros x [<-|Hx]; auto. }
      pose proof (digit_val_9 c Ed). rewrite Nnat.Nat2N.inj_succ, N.pow_succ_r'. nia.
    + pose proof (N.pow_nonzero 10 (N.of_nat k)). nia.
Qed.

Lemma skip_space_suffix l : exists p, l = p ++ skip_space l.
Proof.
  induction l as [|c l [p IH]]; [now exists []|]. cbn. destruct (is_space c); [|now exists []].
  exists (c :: p). cbn. now rewrite IH at 1.
Qed.

Lemma tame_strtoul s : tame s -> strtoul s < 1000000000.
Proof.
  intros Ht. unfold strtoul. destruct (skip_space_suffix s) as [p Hp]. rewrite Hp in Ht. apply tame_suffix in Ht.
  set (s' := skip_space s) in *.
  assert (G : forall d, tame d -> digits_val 0 d < 1000000000).
  { intros d [_ Hd]. pose proof (digits_val_bound d 0 9) as HB.
    change ((0 + 1) * 10 ^ N.of_nat 9) with 1000000000 in HB. apply HB.
    intros d' q E Hd'. specialize (Hd [] d' q E Hd'). lia. }
  destruct s' as [|c r]; [cbn; lia|]. cbn [split_sign].
  destruct (Ascii.eqb_spec c "-") as [->|].
  { destruct Ht as [Hm _]. exfalso. apply Hm. now left. }
  assert (Hr : tame r) by (apply (tame_suffix [c]); exact Ht).
  destruct (Ascii.eqb c "+").
  - destruct (N.leb_spec w64 (digits_val 0 r)); [|now apply G]. specialize (G r Hr). unfold w64 in *. lia.
  - destruct (N.leb_spec w64 (digits_val 0 (c :: r))); [|now apply G]. specialize (G _ Ht). unfold w64 in *. lia.
Qed.

Lemma cstr_prefix l : exists q, l = cstr l ++ q.
Proof.
  induction l as [|c l [q IH]]; [now exists []|]. cbn. destruct (Ascii.eqb c NUL); [now exists (c :: l)|].
  exists q. cbn. now rewrite <- IH.
Qed.

Lemma safe_B fuel t data :
  tame (avail t) -> (tbytes t < fuel)%nat -> lenN (stored data) + N.of_nat (tbytes t) + 1 < w64 ->
  mno_ub (nc_read_msg11_loop alloc fuel t data).
Proof.
  revert t data. induction fuel as [|fuel IH]; intros t data HT Hf Hd; [lia|].
  cbn [nc_read_msg11_loop].
  pose proof (nc_read_until_spec alloc t CHUNK_TAG ltac:(cbn; lia) ltac:(cbn; lia)) as S1.
  destruct (nc_read_until alloc t CHUNK_TAG) as [j t1|w t1| | |u]; cbn [lift_fail until_spec] in *; try exact I; try contradiction.
  destruct S1 as (j' & _ & A1 & T1 & N1 & B1).
  pose proof (nc_read_until_spec alloc t1 [NL] ltac:(cbn; lia) ltac:(cbn; lia)) as S2.
  destruct (nc_read_until alloc t1 [NL]) as [l t2|w t2| | |u]; cbn [lift_fail until_spec] in *; try exact I; try contradiction.
  destruct S2 as (l' & -> & A2 & T2 & N2 & B2). cbn [app].
  destruct (beqb _ _); [destruct data; exact I|]. cbv zeta.
  set (len := strtoul (cstr l')). destruct (N.eqb_spec len 0) as [|Hnz]; [exact I|].
  assert (HT1 : tame (avail t1)) by (rewrite <- A1 in HT; now apply tame_suffix in HT).
  assert (HT2 : tame (avail t2)) by (rewrite <- A2 in HT1; now apply tame_suffix in HT1).
  assert (Hlen : len < 1000000000).
  { apply tame_strtoul. rewrite <- A2 in HT1. apply tame_prefix in HT1.
    destruct (cstr_prefix l') as [q Hq]. rewrite Hq in HT1. now apply tame_prefix in HT1. }
  pose proof (read_chunk_cases t2 len Hnz ltac:(unfold w64, w32 in *; lia) ltac:(unfold w32; lia)) as S3.
  destruct (nc_read_chunk alloc t2 len) as [c t3|w t3| | |u]; cbn [lift_fail] in *; try exact I; try contradiction.
  destruct S3 as (L3 & A3 & T3 & B3 & _). rewrite L3.
  destruct (len =? w32 - 1); [exact I|].
  assert (Hlc : N.of_nat (length c) = len) by exact L3.
  assert (0 < length j')%nat by (destruct j'; [congruence|cbn; lia]).
  assert (0 < length l')%nat by (destruct l'; [congruence|cbn; lia]).
  rewrite (N.mod_small (lenN (stored data) + len + 1)) by lia.
  destruct (alloc (lenN (stored data) + len + 1)) eqn:Ea; cbn [negb]; [|exact I].
  destruct (N.ltb_spec len len); [lia|].
  destruct (N.leb_spec (lenN (stored data) + len + 1) (lenN (stored data) + len)); [lia|].
  apply IH; [rewrite <- A3 in HT2; now apply tame_suffix in HT2|lia|].
  cbn [stored]. rewrite lenN_app, L3. lia.
Qed.

(** *** A chunk of 2^32 - 1 bytes, allowed by RFC 6242, is refused *)
Lemma max_chunk t c rest :
  lenN c = w32 - 1 -> alloc_upto alloc w32 ->
  avail t = [NL; HASH] ++ dec (w32 - 1) ++ [NL] ++ c ++ rest ->
  exists t', nc_read_msg_io alloc V11 t = MFail FSign t'.
Proof.
  intros Hc Ha Hav. unfold nc_read_msg_io, nc_read_msg11. cbn [nc_read_msg11_loop].
  destruct (until_exact alloc t CHUNK_TAG [] (dec (w32 - 1) ++ [NL] ++ c ++ rest)) as (t1 & H1 & A1 & T1 & B1).
  { apply tag_clean_nil. discriminate. } { cbn; lia. } { intros k Hk. apply Ha. change (0 + 2 + 513) with 515 in Hk. unfold w32. cbn in Hk. lia. } { exact Hav. }
  rewrite H1. cbn [lift_fail].
  destruct (until_exact alloc t1 [NL] (dec (w32 - 1)) (c ++ rest)) as (t2 & H2 & A2 & T2 & B2).
  { apply tag_clean_nl. apply dec_no_special. } { cbn; lia. }
  { intros k Hk. apply Ha. pose proof (dec_len (w32 - 1) ltac:(unfold w32 in *; lia)). change (lenN [NL]) with 1 in Hk. unfold w32 in *. lia. } { exact A1. }
  rewrite H2. cbn [lift_fail]. rewrite header_not_end. cbv zeta. rewrite header_value by reflexivity.
  change (w32 - 1 =? 0) with false. cbn [negb].
  pose proof (nc_read_spec t2 w32 (w32 - 1) ltac:(unfold w32; lia)) as HR.
  unfold nc_read_chunk. change (w32 - 1 =? 0) with false. cbv zeta.
  change ((w32 - 1 + 1) mod w64) with w32. change ((w32 - 1) mod w32) with (w32 - 1).
  rewrite Ha by lia. cbn [negb].
  destruct (nc_read t2 w32 (w32 - 1)) as [b t'|w t'| | |u]; cbn [read_spec] in HR;
    try (rewrite A2, lenN_app in HR; lia); try contradiction.
  destruct HR as (_ & Hl & _). destruct b as [|x b]; [discriminate|]. cbn [lift_fail].
  rewrite Hl, N.eqb_refl. now exists t'.
Qed.

End S.

(** *** Canonical decimal numbers *)
Lemma dec_step n : 10 <= n -> dec n = dec (n / 10) ++ [ascii_of_N (48 + n mod 10)].
Proof.
  intros Hn.
  assert (G : forall f n, n < 2 ^ N.of_nat f -> forall g, n < 2 ^ N.of_nat g -> (0 < f)%nat -> (0 < g)%nat -> dec_fuel f n [] = dec_fuel g n []).
  { clear. induction f as [|f IH]; intros n Hf g Hg H0 H1; [lia|]. destruct g as [|g]; [lia|].
    cbn [dec_fuel]. destruct (N.eqb_spec (n / 10) 0); [reflexivity|].
    rewrite dec_fuel_app, (dec_fuel_app g). f_equal.
    rewrite Nnat.Nat2N.inj_succ, N.pow_succ_r' in Hf, Hg.
    assert (n / 10 < 2 ^ N.of_nat f) by (apply N.div_lt_upper_bound; lia).
    assert (n / 10 < 2 ^ N.of_nat g) by (apply N.div_lt_upper_bound; lia).
    apply IH; auto; [destruct f; [|lia]|destruct g; [|lia]]; exfalso; apply n0; apply N.lt_1_r; assumption. }
  assert (Hb : n < 2 ^ N.of_nat (S (N.to_nat (N.log2 n)))).
  { rewrite Nnat.Nat2N.inj_succ, Nnat.N2Nat.id. apply N.log2_spec; lia. }
  unfold dec at 1. cbn [dec_fuel]. destruct (N.eqb_spec (n / 10) 0) as [E|E].
  { apply N.div_small_iff in E; lia. }
  rewrite dec_fuel_app. f_equal. unfold dec.
  assert (Hp : 0 < n / 10) by (apply N.neq_0_lt_0; exact E).
  assert (N.to_nat (N.log2 n) <> 0)%nat.
  { intros Hz. assert (N.log2 n = 0) by lia. apply N.log2_null in H. lia. }
  apply G; try lia.
  - rewrite Nnat.Nat2N.inj_succ, N.pow_succ_r' in Hb. apply N.div_lt_upper_bound; lia.
  - rewrite Nnat.Nat2N.inj_succ, Nnat.N2Nat.id. apply N.log2_spec; lia.
Qed.

Lemma dec_small n : n < 10 -> dec n = [ascii_of_N (48 + n)].
Proof.
  intros H. unfold dec. cbn [dec_fuel]. rewrite N.div_small by lia. rewrite N.mod_small by lia. reflexivity.
Qed.

Lemma digit_char c : is_digit c = true -> ascii_of_N (48 + digit_val c) = c.
Proof.
  unfold is_digit, digit_val. intros H. apply andb_true_iff in H. rewrite !N.leb_le in H.
  replace (48 + (N_of_ascii c - 48)) with (N_of_ascii c) by lia. apply ascii_N_embedding.
Qed.

Lemma canonical_dec ds :
  ds <> [] -> all_digits ds -> hd_error ds <> Some "0"%char -> dec (digits_val 0 ds) = ds /\ 0 < digits_val 0 ds.
Proof.
  induction ds as [|c ds IH] using rev_ind; [congruence|]. intros _ Hd Hz.
  assert (Hc : is_digit c = true) by (apply Hd, in_or_app; right; now left).
  pose proof (digit_val_9 c Hc) as H9. pose proof (digit_char c Hc) as Hcc.
  destruct ds as [|x ds].
  - cbn [app digits_val]. rewrite Hc. rewrite N.mul_0_l, N.add_0_l. rewrite dec_small by lia. rewrite Hcc. split; [reflexivity|].
    destruct (N.eq_dec (digit_val c) 0) as [E|]; [|lia]. rewrite E in Hcc. exfalso. apply Hz. cbn. rewrite <- Hcc. reflexivity.
  - assert (Hd' : all_digits (x :: ds)) by (intros y Hy; apply Hd, in_or_app; now left).
    destruct (IH ltac:(discriminate) Hd' Hz) as [E Hp].
    rewrite digits_val_app by exact Hd'. set (v := digits_val 0 (x :: ds)) in *. cbn [digits_val]. rewrite Hc.
    split; [|lia]. rewrite dec_step by lia.
    replace ((v * 10 + digit_val c) / 10) with v by (apply N.div_unique with (r := digit_val c); lia).
    replace ((v * 10 + digit_val c) mod 10) with (digit_val c) by (apply N.mod_unique with (q := v); lia).
    now rewrite E, Hcc.
Qed.
