(** Property C283: messages on a connection that ends at any time. *)
From Coq Require Import Ascii String NArith ZArith Bool Lia List.
From Verif Require Import Bytes IoRead IoReadProofs IoWrite IoWriteProofs IoSafety IoRoundTrip Prop_Io Prop_Messages.
Import ListNotations.
Local Open Scope list_scope.
Local Open Scope N_scope.

(* ================================================================== *)
(** * Specification *)

(** Calls one after another, each with its result; the last may still be waiting for the transport. *)
Inductive calls (v : version) : wst -> list (message * bool) -> wst -> Prop :=
| calls_nil st : calls v st [] st
| calls_sent st m st1 l st2 : nc_write_msg_io v st (parts_of m) = (MsgSent, st1) -> calls v st1 l st2 -> calls v st ((m, true) :: l) st2
| calls_error st m st1 l st2 : nc_write_msg_io v st (parts_of m) = (MsgError, st1) -> calls v st1 l st2 -> calls v st ((m, false) :: l) st2
| calls_waiting st m st1 : nc_write_msg_io v st (parts_of m) = (MsgBlocked, st1) -> calls v st [(m, false)] st1.
(** The messages whose calls reported success. *)
Definition reported (l : list (message * bool)) : list message := map fst (filter snd l).
(** No further message can be read. *)
Definition no_more (alloc : N -> bool) (v : version) (t : list tev) : Prop := forall m t', nc_read_msg_io alloc v t <> MMsg m t'.
(** Messages that can be sent, and read with this memory. *)
Definition ordinary (alloc : N -> bool) (v : version) (m : message) : Prop :=
  fine v m /\ lenN (text m) < 2147483000 /\ grants alloc (lenN (text m) + 1024).

(* ================================================================== *)
(** * The sender *)

(** A write that does not succeed leaves something out. *)
Lemma loop_cut evs : forall wire rem, rem <> [] -> fst (nc_write_loop evs wire rem) <> WSent ->
  exists s r, rem = s ++ r /\ r <> [] /\ ws_wire (snd (nc_write_loop evs wire rem)) = wire ++ s.
Proof.
  induction evs as [|e evs IH]; intros wire rem N H; cbn [nc_write_loop] in *.
  - exists [], rem. cbn. rewrite app_nil_r. auto.
  - destruct e as [k| | | |].
    + pose proof (takeN_dropN k rem) as TD. destruct (dropN k rem) as [|x r] eqn:E; [cbn in H; congruence|].
      destruct (IH (wire ++ takeN k rem) (x :: r) ltac:(discriminate) H) as (s & q & E1 & E2 & E3).
      exists (takeN k rem ++ s), q. split; [rewrite <- app_assoc, <- E1; symmetry; exact TD|]. split; [exact E2|]. rewrite E3, <- app_assoc. reflexivity.
    + destruct rem as [|x rem]; [congruence|]. apply IH; assumption.
    + destruct rem as [|x rem]; [congruence|]. apply IH; assumption.
    + exists [], rem. cbn. rewrite app_nil_r. auto.
    + exists [], rem. cbn. rewrite app_nil_r. auto.
Qed.
Lemma end_cut v st : fst (nc_write_endtag v st) <> WSent ->
  exists s r, frame_end v = s ++ r /\ r <> [] /\ ws_wire (snd (nc_write_endtag v st)) = ws_wire st ++ s.
Proof.
  intros H. unfold nc_write_endtag, nc_write in *. change (match v with V10 => ENDTAG10 | V11 => [NL; HASH; HASH; NL] end) with (frame_end v) in *.
  destruct (ws_ok st).
  - apply loop_cut; [destruct v; discriminate|exact H].
  - exists [], (frame_end v). cbn. rewrite app_nil_r. split; [reflexivity|]. split; [destruct v; discriminate|reflexivity].
Qed.

Lemma cut v st ps : ws_ok st = true -> no_err (ws_ev st) -> Forall part_small ps -> fst (nc_write_msg_io v st ps) <> MsgSent ->
  exists s r, frames v (msg_chunks ps) ++ frame_end v = s ++ r /\ ws_wire (snd (nc_write_msg_io v st ps)) = ws_wire st ++ s /\ r <> [].
Proof.
  intros Ok He Hps H. unfold nc_write_msg_io in *. rewrite Ok in *. cbn [negb] in *.
  pose proof (parts_spec v st [] ps ltac:(cbn; unfold WRITE_BUFSIZE; lia) Hps He) as HP.
  unfold msg_chunks. destruct (iparts [] ps) as [cs ib]. cbn [fst snd].
  destruct (run_parts v st [] ps) as [[o b] st1]. unfold partspec in HP. cbn [fst snd] in HP.
  destruct HP as (H1 & H2 & H3 & H4). rewrite Ok in H4. destruct H4 as (s1 & r1 & Hf & Hw & Hm).
  assert (NE : forall x : bytes, x ++ frame_end v <> []) by (intros x E; apply app_eq_nil in E; destruct E as [_ E]; destruct v; discriminate).
  assert (EARLY : exists s r, frames v (cs ++ iflush ib) ++ frame_end v = s ++ r /\ ws_wire st1 = ws_wire st ++ s /\ r <> []).
  { exists s1, (r1 ++ frames v (iflush ib) ++ frame_end v). rewrite frames_app, Hf, <- !app_assoc. split; [reflexivity|]. split; [exact Hw|].
    rewrite app_assoc. apply NE. }
  destruct o as [[|]|o].
  - unfold nc_write_clb_end in *. pose proof (flush_spec v st1 b H3) as (F1 & F2 & F3).
    destruct (nc_write_clb_flush v st1 b) as [of stf]. cbn [fst snd] in F1, F2, F3.
    destruct (ws_ok st1) eqn:Ok1.
    + destruct (Hm eq_refl) as (_ & -> & ->). destruct F3 as (s2 & r2 & Hf2 & Hw2 & Hm2). rewrite app_nil_r in Hf.
      assert (FL : of <> WSent -> exists s r, frames v (cs ++ iflush ib) ++ frame_end v = s ++ r /\ ws_wire stf = ws_wire st ++ s /\ r <> []).
      { intros _. exists (s1 ++ s2), (r2 ++ frame_end v). rewrite frames_app, Hf, Hf2, Hw2, Hw, <- !app_assoc. split; [reflexivity|]. split; [reflexivity|apply NE]. }
      destruct of; cbn [andthen] in *.
      * destruct Hm2 as [-> Okf]. rewrite app_nil_r in Hf2. pose proof (end_cut v stf) as EC.
        pose proof (nc_write_spec stf (frame_end v) F2) as (W1 & _ & W3). rewrite Okf in W3.
        change (nc_write stf (frame_end v)) with (nc_write_endtag v stf) in W1, W3.
        destruct (nc_write_endtag v stf) as [oe ste]. cbn [fst snd] in EC, W1, W3. destruct W3 as (se & re & _ & _ & Oke).
        assert (D : oe <> WSent -> exists s r, frames v (cs ++ iflush ib) ++ frame_end v = s ++ r /\ ws_wire ste = ws_wire st ++ s /\ r <> []).
        { intros N. destruct (EC N) as (s & r & E1 & E2 & E3). exists (s1 ++ s2 ++ s), r. rewrite frames_app, Hf, Hf2, E1, E3, Hw2, Hw, <- !app_assoc. auto. }
        destruct oe.
        -- destruct Oke as [_ Oke]. rewrite Oke in H. cbn in H. congruence.
        -- rewrite Oke. apply D. discriminate.
        -- apply D. discriminate.
        -- congruence.
      * rewrite Hm2. apply FL. discriminate.
      * apply FL. discriminate.
      * congruence.
    + destruct F3 as [-> F3]. assert (EE : nc_write_endtag v st1 = (WFailed, st1)) by (unfold nc_write_endtag, nc_write; rewrite Ok1; reflexivity).
      destruct F3 as [-> | ->]; cbn [andthen]; [|rewrite EE]; rewrite Ok1; exact EARLY.
  - exact EARLY.
  - destruct o; cbn [snd]; try exact EARLY.
Qed.

(* ================================================================== *)
(** * The receiver *)

Lemma cut11 alloc : alloc_upto alloc 1024 -> forall fuel cs t data missing, Forall chunk_ok cs -> missing <> [] ->
  avail t ++ missing = frames V11 cs ++ frame_end V11 -> forall m t', nc_read_msg11_loop alloc fuel t data <> MMsg m t'.
Proof.
  intros Al. induction fuel as [|fuel IH]; intros cs t data mi Hcs Hm Hav m t' H; [discriminate|]. cbn [nc_read_msg11_loop] in H.
  assert (Hsmall : forall p tag : bytes, lenN p + lenN tag + 513 <= 1024 -> alloc_upto alloc (lenN p + lenN tag + 513)).
  { intros p tag Hp k Hk. apply Al. lia. }
  destruct (nc_read_until alloc t CHUNK_TAG) as [j t1|w t1| | |u] eqn:E1; cbn [lift_fail] in H; try discriminate.
  pose proof (until_sound alloc t CHUNK_TAG j t1 ltac:(cbn; lia) E1) as (J & A1 & _).
  (* the rest of the frame after LF HASH *)
  assert (SPLIT : forall tl, frames V11 cs ++ frame_end V11 = CHUNK_TAG ++ tl -> avail t1 ++ mi = tl).
  { intros tl E. assert (L : exists x, avail t = CHUNK_TAG ++ x).
    { rewrite E in Hav. destruct (app_eq_split _ _ _ _ Hav) as [(x & X1 & X2)|(x & X1 & X2)]; [exists x; exact X1|].
      exists []. rewrite app_nil_r. destruct J as [p ->]. rewrite <- A1 in X1. apply (f_equal (@length ascii)) in X1. rewrite !app_length in X1. cbn in X1.
      destruct x; [|cbn in X1; lia]. destruct p; [|cbn in X1; lia]. destruct (avail t1) eqn:Z; [|cbn in X1; lia]. rewrite <- A1. reflexivity. }
    destruct L as [x L]. destruct (until_exact alloc t CHUNK_TAG [] x) as (t1' & U1 & U2 & _).
    { apply tag_clean_nil. discriminate. } { cbn; lia. } { apply Hsmall. cbn; lia. } { rewrite L. reflexivity. }
    rewrite U1 in E1. injection E1 as _ <-. rewrite U2. rewrite L, E, <- app_assoc in Hav. apply app_inv_head in Hav. exact Hav. }
  destruct (nc_read_until alloc t1 [NL]) as [l t2|w t2| | |u] eqn:E2; cbn [lift_fail] in H; try discriminate.
  pose proof (until_sound alloc t1 [NL] l t2 ltac:(cbn; lia) E2) as (L & A2 & _).
  (* the line is there *)
  assert (LINE : forall p tl, ~ In NL p -> lenN p <= 500 -> avail t1 ++ mi = p ++ [NL] ++ tl -> l = p ++ [NL] /\ avail t2 ++ mi = tl).
  { intros p tl N PL E. assert (X : exists x, avail t1 = (p ++ [NL]) ++ x).
    { rewrite app_assoc in E. destruct (app_eq_split _ _ _ _ E) as [(x & X1 & X2)|(x & X1 & X2)]; [exists x; exact X1|].
      destruct x as [|y x]; [exists []; rewrite app_nil_r in *; symmetry; exact X1|]. exfalso.
      assert (Y : exists z, p = avail t1 ++ z).
      { assert (Q : exists x' y', y :: x = x' ++ [y']) by (destruct (exists_last (l := y :: x) ltac:(discriminate)) as (a & b & Q); eauto).
        destruct Q as (x' & y' & Q). rewrite Q, app_assoc in X1. apply app_inj_tail in X1. destruct X1 as [X1 _]. exists x'. exact X1. }
      destruct Y as [z Y]. rewrite <- A2 in Y. destruct L as [q ->]. apply N. rewrite Y, <- !app_assoc. apply in_or_app. right. left. reflexivity. }
    destruct X as [x X]. destruct (until_exact alloc t1 [NL] p x) as (t2' & U1 & U2 & _).
    { apply tag_clean_nl. exact N. } { cbn; lia. } { apply Hsmall. change (lenN [NL]) with 1. lia. } { rewrite X, <- app_assoc. reflexivity. }
    rewrite U1 in E2. injection E2 as <- <-. split; [reflexivity|]. rewrite U2. rewrite X, <- !app_assoc in E. apply app_inv_head in E. apply app_inv_head in E. exact E. }
  destruct cs as [|c cs].
  - cbn [frames map concat app] in Hav, SPLIT. destruct (LINE [HASH] [] ltac:(intros [Q|[]]; discriminate) ltac:(cbn; lia)) as [_ Q].
    + apply SPLIT. reflexivity.
    + apply app_eq_nil in Q. destruct Q as [_ Q]. congruence.
  - inversion Hcs as [|? ? Hc Hcs']; subst. destruct Hc as [Hcne Hcl].
    destruct (LINE (dec (lenN c)) (c ++ frames V11 cs ++ frame_end V11)) as [-> Q].
    + apply dec_no_special.
    + pose proof (dec_len (lenN c) ltac:(unfold w32 in *; lia)). lia.
    + apply SPLIT. unfold frames. cbn [map concat frame_chunk]. unfold CHUNK_TAG. now rewrite <- !app_assoc.
    + rewrite header_not_end in H. cbv zeta in H. rewrite header_value in H by (unfold w64, w32 in *; lia).
      assert (Hpos : lenN c <> 0) by (destruct c; [congruence|rewrite lenN_cons; lia]).
      destruct (N.eqb_spec (lenN c) 0); [congruence|].
      pose proof (read_chunk_cases alloc t2 (lenN c) Hpos ltac:(unfold w64, w32 in *; lia) ltac:(unfold w32 in *; lia)) as RC.
      destruct (nc_read_chunk alloc t2 (lenN c)) as [c' t3|w t3| | |u]; cbn [lift_fail] in H; try discriminate.
      destruct RC as (RL & RA & _). rewrite <- RA, <- app_assoc in Q.
      assert (LC : length c' = length c) by (unfold lenN in RL; lia).
      destruct (app_eq_split _ _ _ _ Q) as [(x & X1 & X2)|(x & X1 & X2)];
        (assert (x = []) by (apply (f_equal (@length ascii)) in X1; rewrite app_length in X1; destruct x; [reflexivity|cbn in X1; lia]); subst x;
         rewrite app_nil_r in X1; cbn [app] in X2).
      * destruct (lenN c' =? w32 - 1); [discriminate|]. destruct (negb _); [discriminate|]. destruct (lenN c' <? lenN c); [discriminate|].
        destruct (_ <=? _); [discriminate|]. exact (IH cs t3 _ mi Hcs' Hm (eq_sym X2) m t' H).
      * destruct (lenN c' =? w32 - 1); [discriminate|]. destruct (negb _); [discriminate|]. destruct (lenN c' <? lenN c); [discriminate|].
        destruct (_ <=? _); [discriminate|]. exact (IH cs t3 _ mi Hcs' Hm X2 m t' H).
Qed.

Lemma cut10 alloc p t missing : tag_clean p ENDTAG10 -> missing <> [] -> avail t ++ missing = p ++ ENDTAG10 ->
  forall m t', nc_read_msg10 alloc t <> MMsg m t'.
Proof.
  intros [C _] N A m t' H. unfold nc_read_msg10 in H.
  destruct (nc_read_until alloc t ENDTAG10) as [d t1|w t1| | |u] eqn:E; cbn [lift_fail] in H; try discriminate. clear H.
  apply until_sound in E; [|cbn; lia]. destruct E as ([q ->] & E & _).
  rewrite <- E, <- !app_assoc in A. specialize (C _ _ (eq_sym A)). apply app_eq_nil in C. destruct C. congruence.
Qed.

(* ================================================================== *)
(** * C283 *)

(** The whole claim: whatever the transport does, the peer reads exactly the messages reported as sent, in order, and no other. *)
Definition c283_full : Prop := forall l v st st' alloc t,
  ws_ok st = true -> grants alloc 1024 -> Forall (ordinary alloc v) (map fst l) -> calls v st l st' -> ws_wire st' = ws_wire st ++ incoming t ->
  exists t', receives alloc v t (map text (reported l)) t' /\ no_more alloc v t'.

Lemma small m : lenN (text m) < 2147483000 -> Forall part_small (parts_of m).
Proof. intros L. apply reasonable_small. apply all_reasonable; [rewrite parts_text; lia|apply parts_ok]. Qed.
Lemma dead v st l st' : ws_ok st = false -> calls v st l st' -> st' = st /\ Forall (fun x => snd x = false) l.
Proof.
  intros D C. assert (W : forall ps, nc_write_msg_io v st ps = (MsgError, st)) by (intros ps; unfold nc_write_msg_io; rewrite D; reflexivity).
  induction C as [st|st m st1 l st2 E C IH|st m st1 l st2 E C IH|st m st1 E]; [auto|rewrite W in E; discriminate| |rewrite W in E; discriminate].
  rewrite W in E. injection E as <-. destruct (IH D W) as [E F]. split; [exact E|]. constructor; [reflexivity|exact F].
Qed.
Lemma none_reported l : Forall (fun x : message * bool => snd x = false) l -> reported l = [].
Proof. unfold reported. induction 1 as [|[m b] l H F IH]; [reflexivity|]. cbn in *. subst b. exact IH. Qed.
Lemma grow v l : forall st st', usable st -> Forall (fun m => lenN (text m) < 2147483000) (map fst l) -> calls v st l st' -> exists s, ws_wire st' = ws_wire st ++ s.
Proof.
  intros st st' U F C. revert U F. induction C as [st|st m st1 l st2 E C IH|st m st1 l st2 E C IH|st m st1 E]; intros U F.
  - exists []. rewrite app_nil_r. reflexivity.
  - inversion F as [|? ? L F']; subst. destruct (sent_usable _ _ _ _ U L E) as [U1 (s & W)]. destruct (IH U1 F') as [s2 W2].
    exists (s ++ s2). rewrite W2, W, app_assoc. reflexivity.
  - inversion F as [|? ? L F']; subst. destruct U as [Ok Ev]. pose proof (write_msg_spec v st _ Ok Ev (small m L)) as W. rewrite E in W.
    destruct W as (s & r & _ & W & _ & _ & _ & D). specialize (D eq_refl). destruct (dead _ _ _ _ D C) as [-> _]. exists s. exact W.
  - inversion F as [|? ? L F']; subst. destruct U as [Ok Ev]. pose proof (write_msg_spec v st _ Ok Ev (small m L)) as W. rewrite E in W.
    destruct W as (s & r & _ & W & _). exists s. exact W.
Qed.
Lemma clean10 m : fine V10 m -> tag_clean (text m) ENDTAG10.
Proof.
  intros F. destruct (ends m V10 F) as (a & c & C & T). apply tag_clean_endtag10; [apply no_marker; exact F| |]; intros [b E]; rewrite T in E.
  - change [c; ">"%char] with ([c] ++ [">"%char]) in E. rewrite app_assoc in E. apply app_inj_tail in E. destruct E as [_ E]. discriminate E.
  - change (b ++ bs "]]>") with (b ++ [("]"%char)] ++ ["]"%char; ">"%char]) in E. rewrite app_assoc in E. apply two_last in E. destruct E. contradiction.
Qed.
(** Less than a message is not read as one. *)
Lemma cut_unread alloc v m t missing : grants alloc 1024 -> fine v m -> lenN (text m) < 2147483000 -> missing <> [] ->
  frames v (msg_chunks (parts_of m)) ++ frame_end v = incoming t ++ missing -> no_more alloc v t.
Proof.
  intros G F L N E x t' H. rewrite incoming_avail in E. destruct (msg_chunks_content _ (small m L)) as [K1 K2]. destruct v.
  - rewrite frames10, K2, <- payload_text, parts_text in E. exact (cut10 alloc (text m) t missing (clean10 m F) N (eq_sym E) x t' H).
  - exact (cut11 alloc G _ _ t None missing K1 N (eq_sym E) x t' H).
Qed.
Lemma nothing_unread alloc v t : grants alloc 1024 -> incoming t = [] -> no_more alloc v t.
Proof.
  intros G E x t' H. rewrite incoming_avail in E. destruct v.
  - refine (cut10 alloc [] t ENDTAG10 _ _ _ x t' H); [apply tag_clean_nil; discriminate|discriminate|rewrite E; reflexivity].
  - refine (cut11 alloc G _ [] t None (frame_end V11) _ _ _ x t' H); [constructor|discriminate|rewrite E; reflexivity].
Qed.

(** A transport that may end at any time, or take no more, but reports no other error: the peer reads exactly the messages reported as sent,
    in order, and no other; they are the first ones, after an error no message is reported as sent. *)
Theorem c283_partial : forall l v st st' alloc t,
  usable st -> grants alloc 1024 -> Forall (ordinary alloc v) (map fst l) -> calls v st l st' -> ws_wire st' = ws_wire st ++ incoming t ->
  (exists t', receives alloc v t (map text (reported l)) t' /\ no_more alloc v t' /\ failure t' = failure t) /\
  (exists a b, l = map (fun m => (m, true)) a ++ map (fun m => (m, false)) b).
Proof.
  intros l v st st' alloc t U G F C. revert t U F.
  assert (SM : forall l : list (message * bool), Forall (ordinary alloc v) (map fst l) -> Forall (fun m => lenN (text m) < 2147483000) (map fst l)).
  { intros l0 H. eapply Forall_impl; [|exact H]. intros m (_ & L & _). exact L. }
  assert (ALL : forall l : list (message * bool), Forall (fun x => snd x = false) l -> exists b, l = map (fun m => (m, false)) b).
  { intros l0. induction 1 as [|[m b] l0 H0 _ [r ->]]; [exists []; reflexivity|]. cbn in H0. subst b. exists (m :: r). reflexivity. }
  induction C as [st|st m st1 l st2 E C IH|st m st1 l st2 E C IH|st m st1 E]; intros t U F W.
  - rewrite <- (app_nil_r (ws_wire st)) in W at 1. apply app_inv_head in W. split; [|exists [], []; reflexivity].
    exists t. split; [constructor|]. split; [apply nothing_unread; auto|reflexivity].
  - inversion F as [|? ? (F1 & F2 & F3) F']; subst. destruct (sent_usable _ _ _ _ U F2 E) as [U1 (s & W1)].
    destruct (grow v l st1 st2 U1 (SM l F') C) as [s2 W2]. rewrite W2, W1, <- app_assoc in W. apply app_inv_head in W.
    destruct (c81_arrives _ _ _ _ _ _ _ _ U F1 F2 F3 E W1 (eq_sym W)) as (t1 & R1 & I1 & X1).
    rewrite <- I1 in W2. destruct (IH t1 U1 F' W2) as [(t2 & R2 & N2 & X2) (a & b & ->)]. split.
    + exists t2. split; [econstructor; eassumption|]. split; [exact N2|congruence].
    + exists (m :: a), b. reflexivity.
  - inversion F as [|? ? (F1 & F2 & F3) F']; subst. destruct U as [Ok Ev].
    pose proof (write_msg_spec v st _ Ok Ev (small m F2)) as S1. rewrite E in S1. destruct S1 as (_ & _ & _ & _ & _ & _ & _ & D). specialize (D eq_refl).
    destruct (dead _ _ _ _ D C) as [-> K].
    destruct (cut v st (parts_of m) Ok Ev (small m F2)) as (s & r & X1 & X2 & X3); [rewrite E; discriminate|].
    rewrite E in X2. cbn [snd] in X2. rewrite W in X2. apply app_inv_head in X2. split.
    + exists t. replace (reported ((m, false) :: l)) with (reported l) by reflexivity. rewrite (none_reported l K). split; [constructor|]. split; [|reflexivity].
      apply (cut_unread alloc v m t r G F1 F2 X3). rewrite X2. exact X1.
    + destruct (ALL l K) as [b ->]. exists [], (m :: b). reflexivity.
  - inversion F as [|? ? (F1 & F2 & F3) F']; subst. destruct U as [Ok Ev].
    destruct (cut v st (parts_of m) Ok Ev (small m F2)) as (s & r & X1 & X2 & X3); [rewrite E; discriminate|].
    rewrite E in X2. cbn [snd] in X2. rewrite W in X2. apply app_inv_head in X2. split; [|exists [], [m]; reflexivity].
    exists t. split; [constructor|]. split; [|reflexivity]. apply (cut_unread alloc v m t r G F1 F2 X3). rewrite X2. exact X1.
Qed.

(** After an error of a system call the session stays usable, the message counts as sent, and its beginning becomes part of the next one: the
    peer reads what nobody sent. *)
Definition ex_first : message := RpcReply [bs "<rpc-reply><a/></rpc-reply>"].
Definition ex_second : message := RpcReply [bs "<rpc-reply><b/></rpc-reply>"].
Lemma ex_ordinary m : m = ex_first \/ m = ex_second -> ordinary (fun _ => true) V10 m.
Proof.
  intros H. assert (C : forall d, ~ In "]"%char d -> ~ In NUL d -> clean V10 d) by (intros d A B; split; [exact B|]; intros _; apply contains_none; exact A).
  assert (X : fine V10 m /\ lenN (text m) < 2147483000).
  { destruct H; subst m; (split; [|vm_compute; reflexivity]); (split; [apply C; vm_compute; intuition discriminate|]).
    - exists (bs "<rpc-reply><a/></"). left. reflexivity.
    - exists (bs "<rpc-reply><b/></"). left. reflexivity. }
  destruct X. split; [assumption|]. split; [assumption|]. intros n _. reflexivity.
Qed.
Theorem c283_mixed_refuted : exists st st' alloc t m t',
  ws_ok st = true /\ grants alloc 1024 /\ Forall (ordinary alloc V10) [ex_first; ex_second] /\ calls V10 st [(ex_first, true); (ex_second, true)] st' /\
  ws_wire st' = ws_wire st ++ incoming t /\ nc_read_msg_io alloc V10 t = MMsg m t' /\ m <> text ex_first /\ m <> text ex_second /\ incoming t' = [].
Proof.
  exists (mkW true [] [WAcc 5; WErr; WAcc 1000; WAcc 1000]). eexists. exists (fun _ => true), [TData (bs "<rpc-<rpc-reply><b/></rpc-reply>]]>]]>")]. do 2 eexists.
  split; [reflexivity|]. split; [intros n _; reflexivity|].
  split; [constructor; [apply ex_ordinary; auto|constructor; [apply ex_ordinary; auto|constructor]]|].
  split; [eapply calls_sent; [lazy; reflexivity|]; eapply calls_sent; [lazy; reflexivity|]; apply calls_nil|].
  split; [reflexivity|]. split; [lazy; reflexivity|]. split; [discriminate|]. split; [discriminate|]. reflexivity.
Qed.
Theorem c283_full_refuted : ~ c283_full.
Proof.
  intros H. destruct c283_mixed_refuted as (st & st' & alloc & t & m & t1 & Ok & G & F & C & W & R & N & _).
  destruct (H [(ex_first, true); (ex_second, true)] V10 st st' alloc t Ok G F C W) as (t' & X & _). cbn [reported filter snd map fst] in X. inversion X as [|? ? ? ? ? R1 X1]; subst. rewrite R in R1. injection R1 as E _. exact (N E).
Qed.

(** A connection that ends in the middle of the second of three messages. *)
Example ex_broken : exists st st', usable st /\ calls V10 st [(ex_first, true); (ex_second, false); (ex_first, false)] st' /\
  ws_wire st' = text ex_first ++ bs "]]>]]>" ++ bs "<rpc-r".
Proof.
  exists (mkW true [] [WAcc 1000; WAcc 1000; WAcc 6; WClosed]). eexists. split; [split; [reflexivity|cbn; intuition discriminate]|].
  split; [eapply calls_sent; [lazy; reflexivity|]; eapply calls_error; [lazy; reflexivity|]; eapply calls_error; [lazy; reflexivity|]; apply calls_nil|].
  reflexivity.
Qed.

Print Assumptions c283_partial.
Print Assumptions c283_mixed_refuted.
Print Assumptions c283_full_refuted.
