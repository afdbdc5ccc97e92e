(** Facts about the writer. *)
From Coq Require Import Ascii String NArith ZArith Bool Lia List.
From Verif Require Import Bytes IoRead IoReadProofs IoWrite.
Import ListNotations.
Local Open Scope N_scope.

Definition frame_chunk (v : version) (c : bytes) : bytes :=
  match v with V11 => [NL; HASH] ++ dec (lenN c) ++ [NL] ++ c | V10 => c end.
Definition frame_end (v : version) : bytes :=
  match v with V11 => [NL; HASH; HASH; NL] | V10 => ENDTAG10 end.
Definition frames (v : version) (cs : list bytes) : bytes := concat (map (frame_chunk v) cs).

Lemma frames_app v a b : frames v (a ++ b) = frames v a ++ frames v b.
Proof. unfold frames. now rewrite map_app, concat_app. Qed.

(** The text that reaches the peer for one write. *)
Definition text_of (data : bytes) (xml : bool) : bytes := if xml then flat_map esc1 data else data.

Definition no_err (e : list wev) : Prop := ~ In WErr e.

Definition wspec (st : wst) (F : bytes) (o : wout) (st' : wst) : Prop :=
  o <> WUb /\ no_err (ws_ev st') /\
  if ws_ok st then
    exists sent rest, F = sent ++ rest /\ ws_wire st' = ws_wire st ++ sent /\
      match o with WSent => rest = [] /\ ws_ok st' = true | WFailed => ws_ok st' = false | _ => True end
  else st' = st /\ (o = WFailed \/ o = WSent).

Lemma wspec_nil st : no_err (ws_ev st) -> wspec st [] WSent st.
Proof.
  intros H. split; [discriminate|]. split; [exact H|]. destruct (ws_ok st) eqn:E; [|auto].
  exists [], []. rewrite !app_nil_r. auto.
Qed.

Lemma wspec_seq st F1 st1 F2 o st2 :
  wspec st F1 WSent st1 -> wspec st1 F2 o st2 -> wspec st (F1 ++ F2) o st2.
Proof.
  intros (_ & _ & H1) (Hu & He & H2). split; [exact Hu|]. split; [exact He|].
  destruct (ws_ok st) eqn:E.
  - destruct H1 as (s1 & r1 & -> & Hw1 & -> & Hok). rewrite Hok in H2.
    destruct H2 as (s2 & r2 & -> & Hw2 & Ho). exists (s1 ++ s2), r2.
    rewrite app_nil_r, <- app_assoc, Hw2, Hw1, <- app_assoc. auto.
  - destruct H1 as [-> _]. rewrite E in H2. exact H2.
Qed.

Lemma wspec_stop st F1 o st1 F2 : o <> WSent -> wspec st F1 o st1 -> wspec st (F1 ++ F2) o st1.
Proof.
  intros Ho (Hu & He & H). split; [exact Hu|]. split; [exact He|].
  destruct (ws_ok st) eqn:E; [|exact H].
  destruct H as (s & r & -> & Hw & Hm). exists s, (r ++ F2). rewrite <- app_assoc.
  repeat split; auto. destruct o; congruence.
Qed.

Lemma nc_write_loop_spec evs wire rem :
  no_err evs -> wspec (mkW true wire evs) rem (fst (nc_write_loop evs wire rem)) (snd (nc_write_loop evs wire rem)).
Proof.
  revert wire rem. induction evs as [|ev evs IH]; intros wire rem Hne; cbn [nc_write_loop].
  - split; [discriminate|]. split; [intros []|]. cbn. exists [], rem. now rewrite app_nil_r.
  - assert (Hne' : no_err evs) by (intros H; apply Hne; now right).
    destruct ev as [k| | | |].
    + pose proof (takeN_dropN k rem) as Htd. destruct (dropN k rem) as [|x rem'] eqn:Ed.
      * split; [discriminate|]. split; [exact Hne'|]. cbn. exists rem, [].
        rewrite !app_nil_r in *. rewrite Htd. auto.
      * specialize (IH (wire ++ takeN k rem) (x :: rem') Hne').
        destruct (nc_write_loop evs (wire ++ takeN k rem) (x :: rem')) as [o st']. cbn [fst snd] in *.
        destruct IH as (Hu & He & H). split; [exact Hu|]. split; [exact He|]. cbn [ws_ok ws_wire] in *.
        destruct H as (s & r & Hs & Hw & Hm). exists (takeN k rem ++ s), r.
        rewrite <- app_assoc, <- Hs, Htd, Hw, <- app_assoc. auto.
    + destruct rem as [|x rem].
      * split; [discriminate|]. split; [exact Hne'|]. cbn. exists [], []. rewrite !app_nil_r. auto.
      * apply IH; exact Hne'.
    + destruct rem as [|x rem].
      * split; [discriminate|]. split; [exact Hne'|]. cbn. exists [], []. rewrite !app_nil_r. auto.
      * apply IH; exact Hne'.
    + exfalso. apply Hne. now left.
    + split; [discriminate|]. split; [exact Hne'|]. cbn. exists [], rem. rewrite app_nil_r. auto.
Qed.

Lemma nc_write_spec st buf :
  no_err (ws_ev st) -> wspec st buf (fst (nc_write st buf)) (snd (nc_write st buf)).
Proof.
  intros H. unfold nc_write. destruct st as [ok wire ev]. cbn [ws_ok ws_ev ws_wire] in *.
  destruct ok; [now apply nc_write_loop_spec|].
  split; [discriminate|]. split; [exact H|]. cbn. auto.
Qed.

Lemma andthen_spec st F1 F2 r k :
  wspec st F1 (fst r) (snd r) ->
  (forall st1, no_err (ws_ev st1) -> wspec st1 F2 (fst (k st1)) (snd (k st1))) ->
  wspec st (F1 ++ F2) (fst (andthen r k)) (snd (andthen r k)).
Proof.
  intros H1 H2. destruct r as [o st1]. cbn [fst snd] in *.
  destruct o; cbn [andthen].
  - eapply wspec_seq; [exact H1|]. apply H2. destruct H1 as (_ & He & _). exact He.
  - apply wspec_stop; [discriminate|exact H1].
  - apply wspec_stop; [discriminate|exact H1].
  - apply wspec_stop; [discriminate|exact H1].
Qed.

Lemma starttag_spec v st buf :
  no_err (ws_ev st) ->
  wspec st (frame_chunk v buf) (fst (nc_write_starttag_and_msg v st buf)) (snd (nc_write_starttag_and_msg v st buf)).
Proof.
  intros H. destruct v; cbn [nc_write_starttag_and_msg frame_chunk]; [now apply nc_write_spec|].
  replace ([NL; HASH] ++ dec (lenN buf) ++ [NL] ++ buf) with (([NL; HASH] ++ dec (lenN buf) ++ [NL]) ++ buf)
    by now rewrite <- !app_assoc.
  apply andthen_spec; [now apply nc_write_spec|]. intros; now apply nc_write_spec.
Qed.

(** Chunks a flush produces. *)
Definition iflush (b : bytes) : list bytes := match b with [] => [] | _ => [b] end.

Lemma flush_spec v st b :
  no_err (ws_ev st) ->
  wspec st (frames v (iflush b)) (fst (nc_write_clb_flush v st b)) (snd (nc_write_clb_flush v st b)).
Proof.
  intros H. destruct b as [|x b]; cbn [nc_write_clb_flush iflush].
  - now apply wspec_nil.
  - unfold frames. cbn [map concat]. rewrite app_nil_r. now apply starttag_spec.
Qed.

(** The chunks and the final buffer in the absence of failures. *)
Fixpoint ixml (b : bytes) (data : bytes) : list bytes * bytes :=
  match data with
  | [] => ([], b)
  | c :: data' =>
      let '(cs, b1) := if WRITE_BUFSIZE <=? lenN b + 5 then (iflush b, []) else ([], b) in
      let '(cs', b') := ixml (b1 ++ esc1 c) data' in (cs ++ cs', b')
  end.

Definition isecond (b1 data : bytes) (xml : bool) : list bytes * bytes :=
  if negb xml && (WRITE_BUFSIZE <? lenN data) then ([data], b1)
  else if xml then ixml b1 data else ([], b1 ++ data).

Definition iclb (b data : bytes) (xml : bool) : list bytes * bytes :=
  let '(cs, b1) := if negb (lenN b =? 0) && (WRITE_BUFSIZE <? (lenN b + lenN data) mod w32) then (iflush b, []) else ([], b) in
  (cs ++ fst (isecond b1 data xml), snd (isecond b1 data xml)).

Lemma esc1_len c : 1 <= lenN (esc1 c) <= 5.
Proof. unfold esc1. repeat (destruct (Ascii.eqb c _)); cbn; lia. Qed.

(** Bounds: the buffer is never overrun; the store lengths are exact. *)
Definition clbspec (v : version) (st : wst) (r : wout * bytes * wst) (id : list bytes * bytes) : Prop :=
  let '(o, b', st') := r in
  lenN b' <= WRITE_BUFSIZE /\ wspec st (frames v (fst id)) o st' /\
  (ws_ok st = true -> o = WSent -> b' = snd id).

Lemma xml_loop_spec v st b data :
  lenN b <= WRITE_BUFSIZE -> no_err (ws_ev st) ->
  clbspec v st (nc_write_xml_loop v st b data) (ixml b data).
Proof.
  revert st b. induction data as [|c data IH]; intros st b Hb He; cbn [nc_write_xml_loop ixml].
  - cbn. split; [exact Hb|]. split; [|auto]. now apply wspec_nil.
  - pose proof (esc1_len c) as Hesc.
    destruct (N.leb_spec WRITE_BUFSIZE (lenN b + 5)) as [Hfull|Hroom].
    + pose proof (flush_spec v st b He) as Hfl.
      destruct (nc_write_clb_flush v st b) as [o st1] eqn:Efl. cbn [fst snd] in Hfl.
      destruct (ixml ([] ++ esc1 c) data) as [cs' b'] eqn:Eix.
      destruct o.
      2-4: split; [unfold WRITE_BUFSIZE; cbn; lia|]; split; [|discriminate];
           cbn [fst]; rewrite frames_app; apply wspec_stop; [discriminate|exact Hfl].
      unfold put. destruct (N.ltb_spec WRITE_BUFSIZE (lenN (@nil ascii) + lenN (esc1 c))) as [Hx|Hx].
      { unfold WRITE_BUFSIZE in Hx. rewrite lenN_nil in Hx. lia. }
      assert (He1 : no_err (ws_ev st1)) by (destruct Hfl as (_ & H & _); exact H).
      specialize (IH st1 ([] ++ esc1 c) ltac:(cbn [app]; unfold WRITE_BUFSIZE; lia) He1).
      rewrite Eix in IH. unfold clbspec in *.
      destruct (nc_write_xml_loop v st1 ([] ++ esc1 c) data) as [[o b2] st2].
      destruct IH as (H1 & H2 & H3). cbn [fst snd] in *. split; [exact H1|]. split.
      * rewrite frames_app. eapply wspec_seq; eassumption.
      * intros Hok Ho. apply H3; auto. destruct Hfl as (_ & _ & Hfl). rewrite Hok in Hfl.
        destruct Hfl as (? & ? & _ & _ & _ & Hk). exact Hk.
    + unfold put. destruct (N.ltb_spec WRITE_BUFSIZE (lenN b + lenN (esc1 c))) as [Hx|Hx]; [lia|].
      specialize (IH st (b ++ esc1 c) ltac:(rewrite lenN_app; lia) He).
      destruct (ixml (b ++ esc1 c) data) as [cs' b'].
      unfold clbspec in *. destruct (nc_write_xml_loop v st (b ++ esc1 c) data) as [[o b2] st2].
      exact IH.
Qed.

Lemma clb_spec v st b data xml :
  lenN b <= WRITE_BUFSIZE -> lenN data + WRITE_BUFSIZE < w32 -> no_err (ws_ev st) ->
  clbspec v st (nc_write_clb v st b data xml) (iclb b data xml).
Proof.
  intros Hb Hd He. unfold nc_write_clb, iclb.
  assert (Hmod : (lenN b + lenN data) mod w32 = lenN b + lenN data) by (apply N.mod_small; lia).
  rewrite Hmod.
  (* second half, common to both cases *)
  assert (Hsecond : forall st1 b1, lenN b1 <= WRITE_BUFSIZE -> no_err (ws_ev st1) ->
    (xml = false -> lenN data <= WRITE_BUFSIZE -> lenN b1 + lenN data <= WRITE_BUFSIZE) ->
    clbspec v st1
      (if negb xml && (WRITE_BUFSIZE <? lenN data)
       then let '(o, st2) := nc_write_starttag_and_msg v st1 data in (o, b1, st2)
       else if xml then nc_write_xml_loop v st1 b1 data
       else match put b1 data with None => (WUb, b1, st1) | Some b2 => (WSent, b2, st1) end)
      (isecond b1 data xml)).
  { intros st1 b1 Hb1 He1 Hfit. unfold isecond. destruct (negb xml && (WRITE_BUFSIZE <? lenN data)) eqn:Ebig.
    - pose proof (starttag_spec v st1 data He1) as Hs.
      destruct (nc_write_starttag_and_msg v st1 data) as [o st2]. cbn [fst snd] in Hs.
      unfold clbspec. split; [exact Hb1|]. split; [|auto].
      unfold frames; cbn [fst map concat]. rewrite app_nil_r. exact Hs.
    - destruct xml; [now apply xml_loop_spec|]. cbn [negb andb] in Ebig.
      apply N.ltb_ge in Ebig. specialize (Hfit eq_refl Ebig).
      unfold put. destruct (N.ltb_spec WRITE_BUFSIZE (lenN b1 + lenN data)); [lia|].
      unfold clbspec. split; [rewrite lenN_app; lia|]. split; [|auto]. now apply wspec_nil. }
  destruct (negb (lenN b =? 0) && (WRITE_BUFSIZE <? lenN b + lenN data)) eqn:Efl.
  - pose proof (flush_spec v st b He) as Hfl.
    destruct (nc_write_clb_flush v st b) as [o st1]. cbn [fst snd] in Hfl.
    assert (He1 : no_err (ws_ev st1)) by (destruct Hfl as (_ & H & _); exact H).
    specialize (Hsecond st1 [] ltac:(cbn; unfold WRITE_BUFSIZE; lia) He1
                  ltac:(intros; rewrite lenN_nil; lia)).
    destruct (isecond [] data xml) as [cs' b'].
    destruct o.
    + match type of Hsecond with clbspec _ _ ?x _ => destruct x as [[o2 b2] st2] end.
      unfold clbspec in *.
      destruct Hsecond as (H1 & H2 & H3).
      cbn [fst snd] in *. split; [exact H1|]. split.
      * rewrite frames_app. eapply wspec_seq; eassumption.
      * intros Hok Ho. apply H3; auto. destruct Hfl as (_ & _ & Hfl). rewrite Hok in Hfl.
        destruct Hfl as (? & ? & _ & _ & _ & Hk). exact Hk.
    + unfold clbspec. cbn [fst]. split; [unfold WRITE_BUFSIZE; cbn; lia|]. split; [|discriminate].
      rewrite frames_app. apply wspec_stop; [discriminate|exact Hfl].
    + unfold clbspec. cbn [fst]. split; [unfold WRITE_BUFSIZE; cbn; lia|]. split; [|discriminate].
      rewrite frames_app. apply wspec_stop; [discriminate|exact Hfl].
    + destruct Hfl as [Hu _]. congruence.
  - specialize (Hsecond st b Hb He).
    assert (Hfit : xml = false -> lenN data <= WRITE_BUFSIZE -> lenN b + lenN data <= WRITE_BUFSIZE).
    { intros _ Hle. apply andb_false_iff in Efl. destruct Efl as [E|E].
      - apply negb_false_iff, N.eqb_eq in E. lia.
      - apply N.ltb_ge in E. exact E. }
    specialize (Hsecond Hfit).
    destruct (isecond b data xml) as [cs' b']. exact Hsecond.
Qed.

(** Content of the ideal chunks. *)
Definition chunk_ok (c : bytes) : Prop := c <> [] /\ lenN c < w32 - 1.

Lemma iflush_ok b : lenN b <= WRITE_BUFSIZE -> Forall chunk_ok (iflush b) /\ concat (iflush b) = b.
Proof.
  intros H. destruct b as [|x b]; cbn [iflush]; [split; [constructor|reflexivity]|].
  split; [|cbn; now rewrite app_nil_r]. constructor; [|constructor].
  split; [discriminate|]. unfold WRITE_BUFSIZE, w32 in *. lia.
Qed.

Lemma ixml_content b data :
  lenN b <= WRITE_BUFSIZE ->
  Forall chunk_ok (fst (ixml b data)) /\ concat (fst (ixml b data)) ++ snd (ixml b data) = b ++ flat_map esc1 data
  /\ lenN (snd (ixml b data)) <= WRITE_BUFSIZE.
Proof.
  revert b; induction data as [|c data IH]; intros b Hb; cbn [ixml flat_map].
  - cbn. rewrite app_nil_r. auto.
  - pose proof (esc1_len c) as Hesc.
    destruct (N.leb_spec WRITE_BUFSIZE (lenN b + 5)) as [Hfull|Hroom].
    + destruct (iflush_ok b Hb) as [Hf1 Hf2].
      specialize (IH ([] ++ esc1 c) ltac:(cbn [app]; unfold WRITE_BUFSIZE; lia)).
      destruct (ixml ([] ++ esc1 c) data) as [cs' b']. cbn [fst snd] in *. destruct IH as (H1 & H2 & H3).
      split; [now apply Forall_app|]. split; [|exact H3].
      rewrite concat_app, Hf2, <- app_assoc, H2. reflexivity.
    + specialize (IH (b ++ esc1 c) ltac:(rewrite lenN_app; lia)).
      destruct (ixml (b ++ esc1 c) data) as [cs' b']. cbn [fst snd] in *. destruct IH as (H1 & H2 & H3).
      split; [exact H1|]. split; [|exact H3]. cbn [app]. now rewrite H2, <- app_assoc.
Qed.

Lemma iclb_content b data xml :
  lenN b <= WRITE_BUFSIZE -> lenN data + WRITE_BUFSIZE < w32 ->
  let id := iclb b data xml in
  Forall chunk_ok (fst id) /\ concat (fst id) ++ snd id = b ++ text_of data xml /\ lenN (snd id) <= WRITE_BUFSIZE.
Proof.
  intros Hb Hd. cbv zeta. unfold iclb.
  assert (Hmod : (lenN b + lenN data) mod w32 = lenN b + lenN data) by (apply N.mod_small; lia).
  rewrite Hmod. destruct (iflush_ok b Hb) as [Hf1 Hf2].
  assert (Hsec : forall cs b1, Forall chunk_ok cs -> concat cs ++ b1 = b -> lenN b1 <= WRITE_BUFSIZE ->
    (xml = false -> lenN data <= WRITE_BUFSIZE -> lenN b1 + lenN data <= WRITE_BUFSIZE) ->
    (b1 = [] \/ lenN data <= WRITE_BUFSIZE \/ xml = true) ->
    Forall chunk_ok (cs ++ fst (isecond b1 data xml)) /\
    concat (cs ++ fst (isecond b1 data xml)) ++ snd (isecond b1 data xml) = b ++ text_of data xml /\
    lenN (snd (isecond b1 data xml)) <= WRITE_BUFSIZE).
  { intros cs b1 Hcs Hcb Hb1 Hfit Hbig. unfold isecond. destruct (negb xml && (WRITE_BUFSIZE <? lenN data)) eqn:E.
    - apply andb_true_iff in E as [E1 E2]. apply negb_true_iff in E1. subst xml. apply N.ltb_lt in E2.
      destruct Hbig as [->|[?|?]]; [|lia|discriminate]. cbn [fst snd text_of].
      rewrite app_nil_r in *. split.
      + apply Forall_app; split; [exact Hcs|]. constructor; [|constructor].
        split; [intros ->; unfold WRITE_BUFSIZE in E2; cbn in E2; lia|]. unfold WRITE_BUFSIZE, w32 in *. lia.
      + split; [|cbn; unfold WRITE_BUFSIZE; lia]. rewrite concat_app, Hcb. cbn. now rewrite app_nil_r.
    - destruct xml.
      + pose proof (ixml_content b1 data Hb1) as Hx. destruct (ixml b1 data) as [cs' b']. cbn [fst snd] in *.
        destruct Hx as (H1 & H2 & H3). split; [now apply Forall_app|]. split; [|exact H3].
        cbn [text_of]. rewrite concat_app, <- app_assoc, H2, app_assoc, Hcb. reflexivity.
      + cbn [negb andb] in E. apply N.ltb_ge in E. cbn [fst snd text_of]. rewrite app_nil_r. split; [exact Hcs|].
        split; [now rewrite app_assoc, Hcb|]. rewrite lenN_app. now apply Hfit. }
  destruct (negb (lenN b =? 0) && (WRITE_BUFSIZE <? lenN b + lenN data)) eqn:Efl; cbn [fst snd].
  - apply Hsec; auto; try (now rewrite app_nil_r); try (cbn; unfold WRITE_BUFSIZE; lia).
  - apply (Hsec [] b); auto.
    + intros _ Hle. apply andb_false_iff in Efl. destruct Efl as [E|E].
      * apply negb_false_iff, N.eqb_eq in E. lia.
      * apply N.ltb_ge in E. exact E.
    + apply andb_false_iff in Efl. destruct Efl as [E|E].
      * apply negb_false_iff, N.eqb_eq in E. left. destruct b; [reflexivity|]. rewrite lenN_cons in E. lia.
      * apply N.ltb_ge in E. right; left. lia.
Qed.

(* ------------------------------------------------------------------ *)
(** ** Whole messages *)

Definition part_small (p : part) : Prop :=
  match p with
  | PRaw d _ => lenN d + WRITE_BUFSIZE < w32
  | PPrint ds ok => ok = true /\ Forall (fun d => lenN d + WRITE_BUFSIZE < w32) ds
  end.

Definition part_text (p : part) : bytes :=
  match p with PRaw d xml => text_of d xml | PPrint ds _ => concat ds end.

(** The message text: what the application asked to send. *)
Definition msg_text (ps : list part) : bytes := flat_map part_text ps.

Fixpoint ipieces (b : bytes) (ds : list bytes) : list bytes * bytes :=
  match ds with
  | [] => ([], b)
  | d :: ds' => let '(cs, b1) := iclb b d false in let '(cs', b') := ipieces b1 ds' in (cs ++ cs', b')
  end.

Fixpoint iparts (b : bytes) (ps : list part) : list bytes * bytes :=
  match ps with
  | [] => ([], b)
  | p :: ps' =>
      let '(cs, b1) := match p with PRaw d xml => iclb b d xml | PPrint ds _ => ipieces b ds end in
      let '(cs', b') := iparts b1 ps' in (cs ++ cs', b')
  end.

Lemma ipieces_content b ds :
  lenN b <= WRITE_BUFSIZE -> Forall (fun d => lenN d + WRITE_BUFSIZE < w32) ds ->
  let id := ipieces b ds in
  Forall chunk_ok (fst id) /\ concat (fst id) ++ snd id = b ++ concat ds /\ lenN (snd id) <= WRITE_BUFSIZE.
Proof.
  revert b; induction ds as [|d ds IH]; intros b Hb Hall; cbn [ipieces]; cbv zeta.
  - cbn. rewrite app_nil_r. auto.
  - inversion Hall as [|? ? Hd Hds]; subst. pose proof (iclb_content b d false Hb Hd) as H. cbv zeta in H.
    destruct (iclb b d false) as [cs b1]. cbn [fst snd] in H. destruct H as (H1 & H2 & H3).
    specialize (IH b1 H3 Hds). cbv zeta in IH. destruct (ipieces b1 ds) as [cs' b']. cbn [fst snd] in *.
    destruct IH as (G1 & G2 & G3). split; [now apply Forall_app|]. split; [|exact G3].
    rewrite concat_app, <- app_assoc, G2, app_assoc, H2. cbn [text_of concat]. now rewrite <- app_assoc.
Qed.

Lemma iparts_content b ps :
  lenN b <= WRITE_BUFSIZE -> Forall part_small ps ->
  let id := iparts b ps in
  Forall chunk_ok (fst id) /\ concat (fst id) ++ snd id = b ++ msg_text ps /\ lenN (snd id) <= WRITE_BUFSIZE.
Proof.
  revert b; induction ps as [|p ps IH]; intros b Hb Hall; cbn [iparts]; cbv zeta.
  - cbn. rewrite app_nil_r. auto.
  - inversion Hall as [|? ? Hp Hps]; subst.
    set (one := match p with PRaw d xml => iclb b d xml | PPrint ds _ => ipieces b ds end).
    assert (H : Forall chunk_ok (fst one) /\ concat (fst one) ++ snd one = b ++ part_text p /\ lenN (snd one) <= WRITE_BUFSIZE).
    { unfold one. destruct p as [d xml|ds ok]; cbn [part_text part_small] in *.
      - now apply iclb_content.
      - destruct Hp. now apply ipieces_content. }
    destruct one as [cs b1]. cbn [fst snd] in H. destruct H as (H1 & H2 & H3).
    specialize (IH b1 H3 Hps). cbv zeta in IH. destruct (iparts b1 ps) as [cs' b']. cbn [fst snd] in *.
    destruct IH as (G1 & G2 & G3). split; [now apply Forall_app|]. split; [|exact G3].
    rewrite concat_app, <- app_assoc, G2, app_assoc, H2. unfold msg_text. cbn [flat_map].
    now rewrite <- app_assoc.
Qed.

Lemma pieces_spec v st b ds :
  lenN b <= WRITE_BUFSIZE -> Forall (fun d => lenN d + WRITE_BUFSIZE < w32) ds -> no_err (ws_ev st) ->
  clbspec v st (run_pieces v st b ds) (ipieces b ds).
Proof.
  revert st b; induction ds as [|d ds IH]; intros st b Hb Hall He; cbn [run_pieces ipieces].
  - cbn. split; [exact Hb|]. split; [now apply wspec_nil|auto].
  - inversion Hall as [|? ? Hd Hds]; subst. unfold nc_write_xmlclb.
    assert (Et : takeN (lenN d mod w32) d = d).
    { rewrite N.mod_small by (unfold WRITE_BUFSIZE in Hd; lia). apply takeN_all. lia. }
    rewrite Et. pose proof (clb_spec v st b d false Hb Hd He) as H.
    pose proof (iclb_content b d false Hb Hd) as Hc. cbv zeta in Hc.
    destruct (iclb b d false) as [cs b1]. destruct (nc_write_clb v st b d false) as [[o b1'] st1].
    unfold clbspec in H. cbn [fst snd] in *. destruct H as (H1 & H2 & H3).
    destruct o.
    + assert (He1 : no_err (ws_ev st1)) by (destruct H2 as (_ & G & _); exact G).
      destruct (ipieces b1 ds) as [cs' b'] eqn:Ei.
      specialize (IH st1 b1' H1 Hds He1).
      unfold clbspec in *. destruct (run_pieces v st1 b1' ds) as [[o2 b2] st2].
      destruct (ws_ok st) eqn:Ok.
      * specialize (H3 eq_refl eq_refl). subst b1'. rewrite Ei in IH. cbn [fst snd] in *.
        destruct IH as (G1 & G2 & G3). split; [exact G1|]. split.
        -- rewrite frames_app. eapply wspec_seq; eassumption.
        -- intros _ Ho. apply G3; auto. destruct H2 as (_ & _ & H2). rewrite Ok in H2.
           destruct H2 as (? & ? & _ & _ & _ & Hk). exact Hk.
      * destruct IH as (G1 & G2 & _). split; [exact G1|]. split; [|discriminate].
        destruct H2 as (_ & _ & H2). rewrite Ok in H2. destruct H2 as [-> _].
        destruct G2 as (K1 & K2 & K3). rewrite Ok in K3. split; [exact K1|]. split; [exact K2|].
        rewrite Ok. exact K3.
    + destruct (ipieces b1 ds) as [cs' b']. split; [exact H1|]. split; [|discriminate].
      cbn [fst]. rewrite frames_app. apply wspec_stop; [discriminate|exact H2].
    + destruct (ipieces b1 ds) as [cs' b']. split; [exact H1|]. split; [|discriminate].
      cbn [fst]. rewrite frames_app. apply wspec_stop; [discriminate|exact H2].
    + destruct H2 as [Hu _]. congruence.
Qed.

Definition partspec (v : version) (st : wst) (r : (bool + wout) * bytes * wst) (id : list bytes * bytes) : Prop :=
  let '(o, b', st') := r in
  lenN b' <= WRITE_BUFSIZE /\ o <> inr WUb /\ no_err (ws_ev st') /\
  if ws_ok st then
    exists sent rest, frames v (fst id) = sent ++ rest /\ ws_wire st' = ws_wire st ++ sent /\
      match o with
      | inl x => ws_ok st' = true -> x = true /\ rest = [] /\ b' = snd id
      | inr _ => True
      end
  else st' = st /\ exists x, o = inl x.

Lemma wspec_dead st F o st' : ws_ok st = false -> wspec st F o st' -> st' = st /\ (o = WFailed \/ o = WSent).
Proof. intros E (_ & _ & H). now rewrite E in H. Qed.

Lemma parts_spec v st b ps :
  lenN b <= WRITE_BUFSIZE -> Forall part_small ps -> no_err (ws_ev st) ->
  partspec v st (run_parts v st b ps) (iparts b ps).
Proof.
  revert st b; induction ps as [|p ps IH]; intros st b Hb Hall He.
  - cbn [run_parts iparts partspec]. split; [exact Hb|]. split; [discriminate|]. split; [exact He|].
    destruct (ws_ok st); [|eauto]. exists [], []. rewrite !app_nil_r. auto.
  - inversion Hall as [|? ? Hp Hps]; subst.
    set (one := match p with PRaw d xml => iclb b d xml | PPrint ds _ => ipieces b ds end).
    set (run := match p with PRaw d xml => nc_write_clb v st b d xml | PPrint ds _ => run_pieces v st b ds end).
    assert (H : clbspec v st run one).
    { unfold run, one. destruct p as [d xml|ds ok]; cbn [part_small] in Hp.
      - now apply clb_spec.
      - destruct Hp. now apply pieces_spec. }
    assert (Ei : iparts b (p :: ps) = (fst one ++ fst (iparts (snd one) ps), snd (iparts (snd one) ps))).
    { cbn [iparts]. fold one. destruct one as [cs b1]. cbn [fst snd]. now destruct (iparts b1 ps). }
    rewrite Ei.
    (* continue after this part, ignoring its result *)
    assert (Hcont : forall o b1 st1, run = (o, b1, st1) -> (o = WSent \/ o = WFailed) ->
              partspec v st (run_parts v st1 b1 ps) (fst one ++ fst (iparts (snd one) ps), snd (iparts (snd one) ps))).
    { intros o b1 st1 Er Ho. rewrite Er in H. unfold clbspec in H. destruct H as (H1 & H2 & H3).
      assert (He1 : no_err (ws_ev st1)) by (destruct H2 as (_ & G & _); exact G).
      specialize (IH st1 b1 H1 Hps He1).
      unfold partspec in *. destruct (run_parts v st1 b1 ps) as [[o2 b2] st2].
      destruct IH as (G1 & G2 & G3 & G4). split; [exact G1|]. split; [exact G2|]. split; [exact G3|].
      destruct (ws_ok st) eqn:Ok.
      - destruct H2 as (_ & _ & H2). rewrite Ok in H2. destruct H2 as (s1 & r1 & Hf1 & Hw1 & Hm1).
        cbn [fst snd]. rewrite frames_app, Hf1.
        destruct Ho as [-> | ->].
        + destruct Hm1 as [-> Hok1]. rewrite Hok1 in G4. specialize (H3 eq_refl eq_refl). subst b1.
          destruct G4 as (s2 & r2 & Hf2 & Hw2 & Hm2). exists (s1 ++ s2), r2.
          rewrite app_nil_r, Hf2, <- app_assoc, Hw2, Hw1, <- app_assoc. auto.
        + rewrite Hm1 in G4. destruct G4 as [-> [x ->]]. exists s1, (r1 ++ frames v (fst (iparts (snd one) ps))).
          rewrite <- app_assoc. repeat split; auto; congruence.
      - destruct (wspec_dead _ _ _ _ Ok H2) as [-> _]. rewrite Ok in G4. exact G4. }
    (* stop after this part with a blocked result *)
    assert (Hstop : forall o b1 st1, run = (o, b1, st1) -> o = WBlocked ->
              partspec v st (inr o, b1, st1) (fst one ++ fst (iparts (snd one) ps), snd (iparts (snd one) ps))).
    { intros o b1 st1 Er ->. rewrite Er in H. unfold clbspec in H. destruct H as (H1 & H2 & H3).
      unfold partspec. split; [exact H1|]. split; [discriminate|].
      destruct H2 as (_ & G & H2). split; [exact G|]. destruct (ws_ok st).
      - destruct H2 as (s1 & r1 & Hf1 & Hw1 & _). cbn [fst]. exists s1, (r1 ++ frames v (fst (iparts (snd one) ps))).
        rewrite frames_app, Hf1, <- app_assoc. auto.
      - destruct H2 as [_ [?|?]]; discriminate. }
    assert (Hub : forall b1 st1, run <> (WUb, b1, st1)).
    { intros b1 st1 Er. rewrite Er in H. unfold clbspec in H. destruct H as (_ & (Hu & _) & _). congruence. }
    cbn [run_parts]. destruct p as [d xml|ds ok].
    + fold run. destruct run as [[o b1] st1] eqn:Er. destruct o.
      * eapply Hcont; eauto.
      * eapply Hcont; eauto.
      * eapply Hstop; eauto.
      * exfalso. eapply Hub; reflexivity.
    + cbn [part_small] in Hp. destruct Hp as [-> _]. fold run. destruct run as [[o b1] st1] eqn:Er. destruct o.
      * eapply Hcont; eauto.
      * unfold clbspec in H. destruct H as (H1 & H2 & H3). unfold partspec.
        split; [exact H1|]. split; [discriminate|]. destruct H2 as (_ & G & H2). split; [exact G|].
        destruct (ws_ok st) eqn:Ok.
        -- destruct H2 as (s1 & r1 & Hf1 & Hw1 & Hd). cbn [fst].
           exists s1, (r1 ++ frames v (fst (iparts (snd one) ps))).
           rewrite frames_app, Hf1, <- app_assoc. repeat split; auto; congruence.
        -- destruct H2 as [-> _]. eauto.
      * eapply Hstop; eauto.
      * exfalso. eapply Hub; reflexivity.
Qed.

(** The chunks of a whole message. *)
Definition msg_chunks (ps : list part) : list bytes :=
  let id := iparts [] ps in fst id ++ iflush (snd id).

Lemma msg_chunks_content ps :
  Forall part_small ps -> Forall chunk_ok (msg_chunks ps) /\ concat (msg_chunks ps) = msg_text ps.
Proof.
  intros H. unfold msg_chunks.
  pose proof (iparts_content [] ps ltac:(cbn; unfold WRITE_BUFSIZE; lia) H) as Hc. cbv zeta in *.
  destruct (iparts [] ps) as [cs b]. cbn [fst snd] in *. destruct Hc as (H1 & H2 & H3).
  destruct (iflush_ok b H3) as [F1 F2]. split; [now apply Forall_app|].
  rewrite concat_app, F2. exact H2.
Qed.

Ltac fin := repeat match goal with |- _ /\ _ => split end; intros; repeat match goal with |- _ /\ _ => split end;
  auto; try discriminate; try congruence.

Lemma write_msg_spec v st ps :
  ws_ok st = true -> no_err (ws_ev st) -> Forall part_small ps ->
  let '(o, st') := nc_write_msg_io v st ps in
  exists sent rest, frames v (msg_chunks ps) ++ frame_end v = sent ++ rest /\ ws_wire st' = ws_wire st ++ sent /\
    o <> MsgUb /\ no_err (ws_ev st') /\ (o = MsgSent -> rest = [] /\ ws_ok st' = true) /\ (o = MsgError -> ws_ok st' = false).
Proof.
  intros Hok He Hps. unfold nc_write_msg_io. rewrite Hok. cbn [negb].
  pose proof (parts_spec v st [] ps ltac:(cbn; unfold WRITE_BUFSIZE; lia) Hps He) as HP.
  unfold msg_chunks. destruct (iparts [] ps) as [cs ib]. cbn [fst snd].
  destruct (run_parts v st [] ps) as [[o b] st1]. unfold partspec in HP. cbn [fst snd] in HP.
  destruct HP as (H1 & H2 & H3 & H4). rewrite Hok in H4. destruct H4 as (s1 & r1 & Hf & Hw & Hm).
  rewrite frames_app, Hf. destruct o as [x|o].
  - destruct x.
    + unfold nc_write_clb_end.
      assert (Hend : wspec st1 (frames v (iflush b) ++ frame_end v)
                (fst (andthen (nc_write_clb_flush v st1 b) (fun st' => nc_write_endtag v st')))
                (snd (andthen (nc_write_clb_flush v st1 b) (fun st' => nc_write_endtag v st')))).
      { apply andthen_spec; [now apply flush_spec|]. intros. unfold nc_write_endtag.
        change (match v with V10 => ENDTAG10 | V11 => [NL; HASH; HASH; NL] end) with (frame_end v).
        now apply nc_write_spec. }
      destruct (andthen (nc_write_clb_flush v st1 b) (fun st' => nc_write_endtag v st')) as [o2 st2].
      cbn [fst snd] in Hend. destruct Hend as (Hu & He2 & Hend).
      destruct (ws_ok st1) eqn:Ok1.
      * destruct (Hm eq_refl) as (_ & -> & ->). destruct Hend as (s2 & r2 & Hf2 & Hw2 & Hm2).
        assert (Hres : (s1 ++ frames v (iflush ib)) ++ frame_end v = (s1 ++ s2) ++ r2).
        { rewrite <- app_assoc, Hf2. now rewrite <- app_assoc. }
        destruct o2; try congruence; rewrite app_nil_r.
        -- destruct Hm2 as [-> Hk]. rewrite Hk. exists (s1 ++ s2), []. rewrite Hres, Hw2, Hw, <- !app_assoc.
           fin.
        -- rewrite Hm2. exists (s1 ++ s2), r2. rewrite Hres, Hw2, Hw, <- !app_assoc.
           fin.
        -- exists (s1 ++ s2), r2. rewrite Hres, Hw2, Hw, <- !app_assoc. fin.
      * destruct Hend as [-> [-> | ->]]; rewrite Ok1; exists s1, (r1 ++ frames v (iflush ib) ++ frame_end v);
          rewrite <- !app_assoc; fin.
    + assert (Hd : ws_ok st1 = false).
      { destruct (ws_ok st1); [|reflexivity]. destruct (Hm eq_refl) as [? _]. discriminate. }
      exists s1, (r1 ++ frames v (iflush ib) ++ frame_end v). rewrite <- !app_assoc. fin.
  - destruct o; try congruence;
      (exists s1, (r1 ++ frames v (iflush ib) ++ frame_end v); rewrite <- !app_assoc; fin).
Qed.
