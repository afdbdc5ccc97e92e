(** Reading back what was written. *)
From Coq Require Import Ascii String NArith ZArith Bool Lia List.
From Verif Require Import Bytes IoRead IoReadProofs IoWrite IoWriteProofs.
Import ListNotations.
Local Open Scope N_scope.

Definition alloc_upto (alloc : N -> bool) (B : N) : Prop := forall n, n <= B -> alloc n = true.

Lemma dec_fuel_len f n : (length (dec_fuel f n []) <= f)%nat.
Proof.
  revert n; induction f as [|f IH]; intros n; cbn [dec_fuel]; [cbn; lia|].
  destruct (n / 10 =? 0); [cbn; lia|]. rewrite dec_fuel_app, app_length. specialize (IH (n / 10)). cbn. lia.
Qed.

Lemma dec_len n : n < w32 -> lenN (dec n) <= 33.
Proof.
  intros H. unfold dec, lenN. pose proof (dec_fuel_len (S (N.to_nat (N.log2 n))) n).
  assert (N.log2 n <= 32).
  { destruct (N.eq_dec n 0) as [->|]; [cbn; lia|].
    apply N.log2_le_mono with (b := w32) in H || idtac.
    assert (N.log2 n <= N.log2 w32) by (apply N.log2_le_mono; lia). cbn in *. lia. }
  lia.
Qed.

Section RT.
Variable alloc : N -> bool.

(** [nc_read_until] on a clean prefix, with the progress measure. *)
Lemma until_exact t tag p rest :
  tag_clean p tag -> (0 < length tag <= 500)%nat -> alloc_upto alloc (lenN p + lenN tag + 513) ->
  avail t = p ++ tag ++ rest ->
  exists t', nc_read_until alloc t tag = ROk (p ++ tag) t' /\ avail t' = rest /\ tail_of t' = tail_of t
             /\ (tbytes t' < tbytes t)%nat.
Proof.
  intros Hc Ht Ha Hav. destruct (nc_read_until_exact alloc t tag p rest Hc Ht Ha Hav) as (t' & H1 & H2 & H3).
  exists t'. repeat split; auto. pose proof (nc_read_until_spec alloc t tag ltac:(lia) ltac:(lia)) as Hs.
  rewrite H1 in Hs. cbn [until_spec] in Hs. destruct Hs as (b & _ & _ & _ & Hb & Htb).
  destruct b; [congruence|]. cbn in Htb. lia.
Qed.

Lemma read_chunk_exact t c rest :
  chunk_ok c -> alloc (lenN c + 1) = true -> avail t = c ++ rest ->
  exists t', nc_read_chunk alloc t (lenN c) = ROk c t' /\ avail t' = rest /\ tail_of t' = tail_of t
             /\ (tbytes t' <= tbytes t)%nat.
Proof.
  intros [Hne Hl] Ha Hav. unfold nc_read_chunk.
  assert (Hpos : lenN c <> 0) by (destruct c; [congruence|rewrite lenN_cons; lia]).
  destruct (N.eqb_spec (lenN c) 0); [congruence|]. cbv zeta.
  rewrite (N.mod_small (lenN c + 1)) by (unfold w64, w32 in *; lia).
  rewrite (N.mod_small (lenN c)) by (unfold w32 in *; lia). rewrite Ha. cbn [negb].
  pose proof (nc_read_spec t (lenN c + 1) (lenN c) ltac:(lia)) as HR.
  destruct (nc_read t (lenN c + 1) (lenN c)) as [b t'|w t'| | |u]; cbn [read_spec] in HR;
    try (rewrite Hav, lenN_app in HR; lia); try contradiction.
  destruct HR as (Hb & _ & Hr & Ht & Htb). rewrite Hav, takeN_app_exact in Hb. rewrite Hav, dropN_app_exact in Hr.
  subst b. destruct c as [|x c]; [congruence|]. exists t'. repeat split; auto; lia.
Qed.

Lemma header_not_end n : beqb (cstr (dec n ++ [NL])) (bs "#" ++ [NL]) = false.
Proof.
  destruct (dec_no_special n) as (_ & Hz & Hh).
  rewrite cstr_id.
  - apply beqb_false. intros E. destruct (dec n) as [|c d] eqn:Ed; [now apply (dec_nonempty n)|].
    cbn in E. injection E as E1 _. apply Hh. left. now rewrite E1.
  - intros H. apply in_app_or in H. destruct H as [H|[H|[]]]; [now apply Hz|discriminate].
Qed.

Lemma header_value n : n < w64 -> strtoul (cstr (dec n ++ [NL])) = n.
Proof.
  intros H. destruct (dec_no_special n) as (_ & Hz & _). rewrite cstr_id.
  - apply strtoul_dec; [exact H|]. intros c [= <-]. reflexivity.
  - intros Hi. apply in_app_or in Hi. destruct Hi as [Hi|[Hi|[]]]; [now apply Hz|discriminate].
Qed.

Lemma CHUNK_TAG_len : length CHUNK_TAG = 2%nat. Proof. reflexivity. Qed.

Lemma read11_loop fuel t cs data rest :
  (tbytes t < fuel)%nat -> Forall chunk_ok cs -> (cs <> [] \/ data <> None) ->
  let old := stored data in
  lenN old + lenN (concat cs) + 1024 < w64 -> alloc_upto alloc (lenN old + lenN (concat cs) + 1024) ->
  avail t = frames V11 cs ++ frame_end V11 ++ rest ->
  exists t', nc_read_msg11_loop alloc fuel t data = MMsg (cstr (old ++ concat cs)) t'
             /\ avail t' = rest /\ tail_of t' = tail_of t.
Proof.
  revert t cs data. induction fuel as [|fuel IH]; intros t cs data Hf Hcs Hne; cbv zeta; intros Hw Ha Hav; [lia|].
  cbn [nc_read_msg11_loop].
  remember (stored data) as old eqn:Eold.
  assert (Hsmall : forall p tag : bytes, lenN p + lenN tag + 513 <= 1024 -> alloc_upto alloc (lenN p + lenN tag + 513)).
  { intros p tag Hp k Hk. apply Ha. lia. }
  destruct cs as [|c cs].
  - (* end of message *)
    destruct Hne as [|Hd]; [congruence|]. destruct data as [d|]; [|congruence]. cbn [frames map concat app] in *.
    destruct (until_exact t CHUNK_TAG [] ([HASH; NL] ++ rest)) as (t1 & H1 & A1 & T1 & B1).
    { apply tag_clean_nil. discriminate. } { cbn; lia. } { apply Hsmall. cbn; lia. } { rewrite Hav. reflexivity. }
    rewrite H1. cbn [lift_fail].
    destruct (until_exact t1 [NL] [HASH] rest) as (t2 & H2 & A2 & T2 & B2).
    { apply tag_clean_nl. intros [H|[]]; discriminate. } { cbn; lia. } { apply Hsmall. cbn; lia. } { rewrite A1. reflexivity. }
    rewrite H2. cbn [lift_fail].
    replace (beqb (cstr ([HASH] ++ [NL])) (bs "#" ++ [NL])) with true by reflexivity.
    exists t2. subst old. cbn [stored]. rewrite app_nil_r. repeat split; auto. congruence.
  - inversion_clear Hcs as [|? ? Hc Hcs']. destruct Hc as [Hcne Hcl].
    set (rest1 := frames V11 cs ++ frame_end V11 ++ rest).
    assert (Hav' : avail t = CHUNK_TAG ++ dec (lenN c) ++ [NL] ++ c ++ rest1).
    { rewrite Hav. unfold frames, rest1. cbn [map concat frame_chunk]. unfold CHUNK_TAG. now rewrite <- !app_assoc. }
    destruct (until_exact t CHUNK_TAG [] (dec (lenN c) ++ [NL] ++ c ++ rest1)) as (t1 & H1 & A1 & T1 & B1).
    { apply tag_clean_nil. discriminate. } { cbn; lia. } { apply Hsmall. cbn; lia. } { rewrite Hav'. reflexivity. }
    rewrite H1. cbn [lift_fail].
    destruct (until_exact t1 [NL] (dec (lenN c)) (c ++ rest1)) as (t2 & H2 & A2 & T2 & B2).
    { apply tag_clean_nl. apply dec_no_special. } { cbn; lia. }
    { apply Hsmall. pose proof (dec_len (lenN c) ltac:(unfold w32 in *; lia)). change (lenN [NL]) with 1. lia. } { exact A1. }
    rewrite H2. cbn [lift_fail]. rewrite header_not_end. cbv zeta.
    rewrite header_value by (unfold w64, w32 in *; lia).
    assert (Hpos : lenN c <> 0) by (destruct c; [congruence|rewrite lenN_cons; lia]).
    destruct (N.eqb_spec (lenN c) 0); [congruence|].
    assert (Hcat : lenN (concat (c :: cs)) = lenN c + lenN (concat cs)) by (cbn [concat]; apply lenN_app).
    destruct (read_chunk_exact t2 c rest1) as (t3 & H3 & A3 & T3 & B3).
    { split; assumption. } { apply Ha. lia. } { exact A2. }
    rewrite H3. cbn [lift_fail].
    destruct (N.eqb_spec (lenN c) (w32 - 1)); [lia|].
    cbv zeta.
    rewrite (N.mod_small (lenN old + lenN c + 1)) by lia.
    rewrite Ha by lia. cbn [negb].
    destruct (N.ltb_spec (lenN c) (lenN c)); [lia|].
    destruct (N.leb_spec (lenN old + lenN c + 1) (lenN old + lenN c)); [lia|].
    destruct (IH t3 cs (Some (old ++ c))) as (t' & H4 & A4 & T4).
    { lia. } { exact Hcs'. } { right; discriminate. }
    { cbn [stored]. rewrite lenN_app. lia. } { cbn [stored]. intros k Hk. apply Ha. rewrite lenN_app in Hk. lia. } { exact A3. }
    exists t'. rewrite H4. cbn [concat stored]. rewrite <- app_assoc. repeat split; auto. congruence.
Qed.

Lemma read11_exact t cs rest :
  Forall chunk_ok cs -> cs <> [] -> lenN (concat cs) + 1024 < w64 -> alloc_upto alloc (lenN (concat cs) + 1024) ->
  avail t = frames V11 cs ++ frame_end V11 ++ rest ->
  exists t', nc_read_msg_io alloc V11 t = MMsg (cstr (concat cs)) t' /\ avail t' = rest /\ tail_of t' = tail_of t.
Proof.
  intros H1 H2 H3 H4 H5. unfold nc_read_msg_io, nc_read_msg11.
  apply (read11_loop (S (tbytes t)) t cs None rest); auto.
Qed.

Lemma read10_exact t p rest :
  tag_clean p ENDTAG10 -> lenN p + 6 < w31 -> alloc_upto alloc (lenN p + 1024) ->
  avail t = p ++ ENDTAG10 ++ rest ->
  exists t', nc_read_msg_io alloc V10 t = MMsg (cstr p) t' /\ avail t' = rest /\ tail_of t' = tail_of t.
Proof.
  intros Hc Hl Ha Hav. unfold nc_read_msg_io, nc_read_msg10.
  destruct (until_exact t ENDTAG10 p rest) as (t' & H1 & A1 & T1 & B1); auto.
  { cbn; lia. } { intros k Hk. apply Ha. change (lenN ENDTAG10) with 6 in Hk. lia. }
  rewrite H1. cbn [lift_fail]. cbv zeta.
  assert (E : lenN (p ++ ENDTAG10) = lenN p + 6) by (rewrite lenN_app; reflexivity).
  rewrite E. rewrite N.mod_small by (unfold w31, w32 in *; lia).
  destruct (N.eqb_spec (lenN p + 6) (w32 - 1)); [unfold w31, w32 in *; lia|].
  destruct (N.leb_spec w31 (lenN p + 6)); [lia|].
  replace (lenN p + 6 - 6) with (lenN p) by lia. rewrite takeN_app_exact.
  exists t'. auto.
Qed.

End RT.

(** The writer on a transport without failures that does not block delivers the whole frame. *)
Lemma write_ok v st ps st' :
  ws_ok st = true -> no_err (ws_ev st) -> Forall part_small ps ->
  nc_write_msg_io v st ps = (MsgSent, st') ->
  ws_wire st' = ws_wire st ++ frames v (msg_chunks ps) ++ frame_end v /\ ws_ok st' = true /\ no_err (ws_ev st').
Proof.
  intros H1 H2 H3 H4. pose proof (write_msg_spec v st ps H1 H2 H3) as H. rewrite H4 in H.
  destruct H as (s & r & Hf & Hw & _ & He & Hs & _). destruct (Hs eq_refl) as [-> Hk].
  rewrite app_nil_r in Hf. rewrite Hf. auto.
Qed.

Lemma frames10 cs : frames V10 cs = concat cs.
Proof. unfold frames. f_equal. apply map_id. Qed.

(* ------------------------------------------------------------------ *)
(** ** Histories of messages *)

(** Sending a list of messages one after another; [None] when one is not reported as sent. *)
Fixpoint send_all (v : version) (st : wst) (msgs : list (list part)) : option wst :=
  match msgs with
  | [] => Some st
  | m :: ms => match nc_write_msg_io v st m with
               | (MsgSent, st') => send_all v st' ms
               | _ => None
               end
  end.

(** Receiving [n] messages; [None] when one read fails. *)
Fixpoint recv_n (alloc : N -> bool) (v : version) (t : list tev) (n : nat) : option (list bytes * list tev) :=
  match n with
  | O => Some ([], t)
  | S n' => match nc_read_msg_io alloc v t with
            | MMsg m t' => match recv_n alloc v t' n' with
                           | Some (ms, t'') => Some (m :: ms, t'')
                           | None => None
                           end
            | _ => None
            end
  end.

Lemma send_all_wire v st msgs st' :
  ws_ok st = true -> no_err (ws_ev st) -> Forall (Forall part_small) msgs ->
  send_all v st msgs = Some st' ->
  ws_wire st' = ws_wire st ++ flat_map (fun ps => frames v (msg_chunks ps) ++ frame_end v) msgs.
Proof.
  revert st; induction msgs as [|m msgs IH]; intros st Hok He Hall Hs; cbn [send_all flat_map] in *.
  - injection Hs as <-. now rewrite app_nil_r.
  - inversion Hall as [|? ? Hm Hms]; subst.
    destruct (nc_write_msg_io v st m) as [o st1] eqn:Ew. destruct o; try discriminate.
    destruct (write_ok v st m st1 Hok He Hm Ew) as (Hw & Hk & He1).
    rewrite (IH st1 Hk He1 Hms Hs), Hw, <- !app_assoc. reflexivity.
Qed.

Lemma msg_chunks_ne ps : Forall part_small ps -> msg_text ps <> [] -> msg_chunks ps <> [].
Proof. intros H Hne E. destruct (msg_chunks_content ps H) as [_ Hc]. rewrite E in Hc. now apply Hne. Qed.

Lemma recv_all alloc msgs t rest B :
  Forall (Forall part_small) msgs -> Forall (fun ps => msg_text ps <> []) msgs ->
  Forall (fun ps => no_nul (msg_text ps)) msgs ->
  Forall (fun ps => lenN (msg_text ps) + 1024 <= B) msgs -> B < w64 -> alloc_upto alloc B ->
  avail t = flat_map (fun ps => frames V11 (msg_chunks ps) ++ frame_end V11) msgs ++ rest ->
  exists t', recv_n alloc V11 t (length msgs) = Some (map msg_text msgs, t') /\ avail t' = rest /\ tail_of t' = tail_of t.
Proof.
  intros H1 H2 H3 H4 HB Ha. revert t. induction msgs as [|m msgs IH]; intros t Hav.
  - cbn in *. exists t. auto.
  - inversion_clear H1. inversion_clear H2. inversion_clear H3. inversion_clear H4.
    cbn [length recv_n map flat_map] in *.
    destruct (msg_chunks_content m ltac:(assumption)) as [Hc1 Hc2].
    destruct (read11_exact alloc t (msg_chunks m) (flat_map (fun ps => frames V11 (msg_chunks ps) ++ frame_end V11) msgs ++ rest))
      as (t1 & R1 & A1 & T1); auto using msg_chunks_ne.
    + rewrite Hc2. lia.
    + rewrite Hc2. intros k Hk. apply Ha. lia.
    + rewrite Hav, <- !app_assoc. reflexivity.
    + rewrite R1. rewrite Hc2, cstr_id by assumption.
      destruct (IH ltac:(assumption) ltac:(assumption) ltac:(assumption) ltac:(assumption) t1 A1) as (t2 & R2 & A2 & T2).
      rewrite R2. exists t2. repeat split; auto. congruence.
Qed.
