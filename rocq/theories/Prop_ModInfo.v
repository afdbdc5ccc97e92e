(** Properties C28 and C47: the modules of the server as the client sees them.  Specification, theorems,
    examples. *)
From Coq Require Import Ascii String NArith ZArith Bool Lia List.
From Verif Require Import Bytes CStr Caps ClientMsgs ModInfo Prop_ClientRecv.
Import ListNotations.
Local Open Scope N_scope.

(* ================================================================== *)
(** * Specification *)

(** ** Capabilities of modules (RFC 6020, section 5.6.4)
    Words (names, revisions) have none of the characters '=', '&' and ','. *)
Definition word (w : bytes) : Prop := ~ In "="%char w /\ ~ In "&"%char w /\ ~ In ","%char w.

Fixpoint join (l : list bytes) : bytes :=
  match l with [] => [] | [x] => x | x :: l' => x ++ bs "," ++ join l' end.

(** A module as announced: its namespace, name, revision, features, deviations. *)
Record announced := mkAnn { an_ns : bytes; an_name : bytes; an_rev : option bytes;
                            an_feats : list bytes; an_devs : list bytes }.
Definition param (key : bytes) (v : bytes) : bytes := bs "&" ++ key ++ bs "=" ++ v.
Definition announcement (a : announced) : bytes :=
  an_ns a ++ bs "?module=" ++ an_name a ++
  (match an_rev a with Some r => param (bs "revision") r | None => [] end) ++
  (match an_feats a with [] => [] | l => param (bs "features") (join l) end) ++
  (match an_devs a with [] => [] | l => param (bs "deviations") (join l) end).
Definition proper (a : announced) : Prop :=
  ~ In "="%char (an_ns a) /\ word (an_name a) /\ (forall r, an_rev a = Some r -> word r) /\
  Forall word (an_feats a) /\ Forall word (an_devs a).

(** A list of capabilities: announcements of modules, and others. *)
Inductive cap := CapModule (a : announced) | CapOther (c : bytes).
Definition cap_ok (c : cap) : Prop :=
  match c with CapModule a => proper a | CapOther c => ~ contains (bs "module=") c end.
Definition cap_text (c : cap) : bytes := match c with CapModule a => announcement a | CapOther c => c end.
Definition modules_announced (l : list cap) : list announced :=
  flat_map (fun c => match c with CapModule a => [a] | CapOther _ => [] end) l.

(** What the client should know about an announced module. *)
Definition known (a : announced) (m : minfo) : Prop :=
  mi_name m = an_name a /\ mi_rev m = an_rev a /\
  mi_feats m = (match an_feats a with [] => None | l => Some l end) /\ mi_impl m = true.

(** ** Order of revisions: dates YYYY-MM-DD compare as strings. *)
Inductive older : bytes -> bytes -> Prop :=
| older_nil x b : older [] (x :: b)
| older_lt x y a b : N_of_ascii x < N_of_ascii y -> older (x :: a) (y :: b)
| older_eq x a b : older a b -> older (x :: a) (x :: b).

(* ================================================================== *)
(** * Lemmas: strstr() with a key ending in '=' *)

Definition EQ : ascii := "="%char.

Lemma prefix_key k t s : ~ In EQ k -> ~ In EQ t -> prefixb (k ++ [EQ]) (t ++ EQ :: s) = true -> t = k.
Proof.
  revert t; induction k as [|x k IH]; intros t Hk Ht H.
  - destruct t as [|y t]; [reflexivity|]. cbn [app prefixb] in H. apply andb_true_iff in H. destruct H as [H _].
    apply Ascii.eqb_eq in H. exfalso. apply Ht. left; auto.
  - destruct t as [|y t]; cbn [app prefixb] in H; apply andb_true_iff in H; destruct H as [H1 H2]; apply Ascii.eqb_eq in H1.
    + exfalso. apply Hk. left; auto.
    + subst y. f_equal. apply IH; [intros Hx; apply Hk; right; exact Hx|intros Hx; apply Ht; right; exact Hx|exact H2].
Qed.

Lemma strstr_found w k s : ~ In EQ w -> ~ In EQ k ->
  strstr (w ++ k ++ EQ :: s) (k ++ [EQ]) = Some (k ++ EQ :: s).
Proof.
  intros Hw Hk. induction w as [|x w IH].
  - cbn [app]. apply strstr_hit. apply prefixb_spec. exists s. rewrite <- app_assoc. reflexivity.
  - assert (Hw' : ~ In EQ w) by (intros H; apply Hw; right; exact H).
    cbn [app]. rewrite strstr_miss; [now apply IH|].
    destruct (prefixb (k ++ [EQ]) (x :: w ++ k ++ EQ :: s)) eqn:E; [|reflexivity]. exfalso.
    replace (x :: w ++ k ++ EQ :: s) with (((x :: w) ++ k) ++ EQ :: s) in E by (cbn [app]; now rewrite <- app_assoc).
    apply prefix_key in E; [|exact Hk|rewrite in_app_iff; tauto].
    apply (f_equal (@length ascii)) in E. cbn [app length] in E. rewrite app_length in E. lia.
Qed.

Lemma strstr_skip w k s : ~ In EQ w -> ~ In EQ k -> prefixb (rev k) (rev w) = false ->
  strstr (w ++ EQ :: s) (k ++ [EQ]) = strstr s (k ++ [EQ]).
Proof.
  intros Hw Hk Hs. induction w as [|x w IH].
  - cbn [app]. rewrite strstr_miss; [reflexivity|].
    destruct (prefixb (k ++ [EQ]) (EQ :: s)) eqn:E; [|reflexivity]. exfalso.
    change (EQ :: s) with ([] ++ EQ :: s) in E. apply prefix_key in E; [|exact Hk|intros []]. subst k. discriminate Hs.
  - assert (Hw' : ~ In EQ w) by (intros H; apply Hw; right; exact H).
    cbn [app]. rewrite strstr_miss.
    + apply IH; [exact Hw'|]. destruct (prefixb (rev k) (rev w)) eqn:E; [|reflexivity].
      apply prefixb_spec in E. destruct E as [r Hr]. cbn [rev] in Hs. rewrite Hr in Hs.
      assert (T : prefixb (rev k) ((rev k ++ r) ++ [x]) = true) by (apply prefixb_spec; exists (r ++ [x]); now rewrite <- app_assoc).
      congruence.
    + destruct (prefixb (k ++ [EQ]) (x :: w ++ EQ :: s)) eqn:E; [|reflexivity]. exfalso.
      change (x :: w ++ EQ :: s) with ((x :: w) ++ EQ :: s) in E. apply prefix_key in E; [|exact Hk|exact Hw].
      subst k. assert (T : prefixb (rev (x :: w)) (rev (x :: w)) = true) by (apply prefixb_spec; exists []; now rewrite app_nil_r).
      congruence.
Qed.

Lemma strstr_none s k : ~ In EQ s -> strstr s (k ++ [EQ]) = None.
Proof.
  induction s as [|x s IH]; intros Hs; cbn [strstr].
  - destruct k; reflexivity.
  - destruct (prefixb (k ++ [EQ]) (x :: s)) eqn:E.
    + apply prefixb_spec in E. destruct E as [r Hr]. exfalso. apply Hs. rewrite Hr, in_app_iff, in_app_iff. left; right; left; reflexivity.
    + apply IH. intros H. apply Hs. right; exact H.
Qed.

Lemma before_word w s : ~ In AMP w -> before AMP (w ++ AMP :: s) = w.
Proof.
  induction w as [|x w IH]; intros H; cbn [app before].
  - reflexivity.
  - destruct (Ascii.eqb_spec x AMP) as [->|N]; [exfalso; apply H; left; reflexivity|].
    f_equal. apply IH. intros Hx. apply H. right; exact Hx.
Qed.
Lemma before_all w : ~ In AMP w -> before AMP w = w.
Proof.
  induction w as [|x w IH]; intros H; cbn [before]; [reflexivity|].
  destruct (Ascii.eqb_spec x AMP) as [->|N]; [exfalso; apply H; left; reflexivity|].
  f_equal. apply IH. intros Hx. apply H. right; exact Hx.
Qed.

(** [tail s]: nothing, or another parameter. *)
Definition tail (s : bytes) : Prop := s = [] \/ exists s', s = AMP :: s'.

Lemma before_tail w s : ~ In AMP w -> tail s -> before AMP (w ++ s) = w.
Proof. intros Hw [->|[s' ->]]; [rewrite app_nil_r; now apply before_all|now apply before_word]. Qed.

Lemma split_word w : word w -> forall cur s, split_features cur (w ++ s) = split_features (cur ++ w) s.
Proof.
  intros (_ & H1 & H2). induction w as [|x w IH]; intros cur s; [now rewrite app_nil_r|].
  cbn [app split_features].
  destruct (Ascii.eqb_spec x AMP) as [->|N1]; [exfalso; apply H1; left; reflexivity|].
  destruct (Ascii.eqb_spec x COMMA) as [->|N2]; [exfalso; apply H2; left; reflexivity|].
  rewrite IH; [now rewrite <- app_assoc|intros Hx; apply H1; right; exact Hx|intros Hx; apply H2; right; exact Hx].
Qed.

Lemma split_join l s : l <> [] -> Forall word l -> tail s -> split_features [] (join l ++ s) = l.
Proof.
  intros Hne Hl Hs. induction l as [|x l IH]; [contradiction|]. inversion Hl as [|? ? Hx Hl']; subst.
  destruct l as [|y l].
  - cbn [join]. rewrite split_word by exact Hx. destruct Hs as [->|[s' ->]]; reflexivity.
  - change (join (x :: y :: l)) with (x ++ bs "," ++ join (y :: l)). rewrite <- app_assoc, split_word by exact Hx.
    change (bs "," ++ join (y :: l)) with (COMMA :: join (y :: l)).
    cbn [app split_features]. change (Ascii.eqb COMMA AMP) with false. change (Ascii.eqb COMMA COMMA) with true. cbv iota.
    f_equal. apply IH; [discriminate|exact Hl'].
Qed.

Lemma join_no c l : c <> ","%char -> Forall (fun w => ~ In c w) l -> ~ In c (join l).
Proof.
  intros Hc Hl. induction l as [|x l IH]; [intros []|]. inversion Hl; subst. destruct l as [|y l]; [assumption|].
  change (join (x :: y :: l)) with (x ++ bs "," ++ join (y :: l)). rewrite !in_app_iff. intros [H|[[H|[]]|H]]; auto.
  apply IH; assumption.
Qed.

Lemma words_no_eq l : Forall word l -> Forall (fun w => ~ In EQ w) l.
Proof. apply Forall_impl. intros w (H & _). exact H. Qed.
Lemma words_no_amp l : Forall word l -> Forall (fun w => ~ In AMP w) l.
Proof. apply Forall_impl. intros w (_ & H & _). exact H. Qed.

Ltac no_eq := rewrite ?in_app_iff; cbn [In bs list_ascii_of_string];
  intros Hneq; repeat match goal with H : _ \/ _ |- _ => destruct H as [H|H] end;
  first [discriminate | contradiction | tauto | idtac].

(** The announcement from "module=" on. *)
Definition params (a : announced) : bytes :=
  (match an_feats a with [] => [] | l => param (bs "features") (join l) end) ++
  (match an_devs a with [] => [] | l => param (bs "deviations") (join l) end).

Lemma tail_devs a : tail (match an_devs a with [] => [] | l => param (bs "deviations") (join l) end).
Proof. destruct (an_devs a); [left; reflexivity|right; eexists; reflexivity]. Qed.
Lemma tail_params a : tail (params a).
Proof.
  unfold params. destruct (an_feats a); [cbn [app]; apply tail_devs|right; eexists; reflexivity].
Qed.

Lemma devs_skip k a pre : ~ In EQ pre -> ~ In EQ k -> Forall word (an_devs a) ->
  prefixb (rev k) (rev (bs "&deviations")) = false -> (length k <= 11)%nat ->
  strstr (pre ++ match an_devs a with [] => [] | l => param (bs "deviations") (join l) end) (k ++ [EQ]) = None.
Proof.
  intros Hpre Hk Hd Hx Hlen. destruct (an_devs a) as [|d ds] eqn:E.
  - rewrite app_nil_r. now apply strstr_none.
  - replace (pre ++ param (bs "deviations") (join (d :: ds))) with ((pre ++ bs "&deviations") ++ EQ :: join (d :: ds))
      by (unfold param; rewrite <- !app_assoc; reflexivity).
    rewrite strstr_skip.
    + apply strstr_none. apply join_no; [discriminate|]. now apply words_no_eq.
    + rewrite in_app_iff. intros [H|H]; [contradiction|]. cbn [In bs list_ascii_of_string] in H. intuition discriminate.
    + exact Hk.
    + rewrite rev_app_distr. destruct (prefixb (rev k) (rev (bs "&deviations") ++ rev pre)) eqn:E1; [|reflexivity].
      apply prefixb_spec in E1. destruct E1 as [r Hr]. exfalso.
      assert (P : prefixb (rev k) (rev (bs "&deviations")) = true); [|congruence].
      apply prefixb_spec. exists (firstn (11 - length k) r).
      apply (f_equal (firstn 11)) in Hr. rewrite firstn_app in Hr.
      replace (11 - length (rev (bs "&deviations")))%nat with 0%nat in Hr by reflexivity.
      rewrite firstn_O, app_nil_r in Hr. rewrite (firstn_all2 (rev (bs "&deviations"))) in Hr by (cbn; lia).
      rewrite Hr, firstn_app, rev_length. rewrite firstn_all2 by (rewrite rev_length; exact Hlen). reflexivity.
Qed.

Lemma find_features a pre : ~ In EQ pre -> Forall word (an_feats a) -> Forall word (an_devs a) ->
  match strstr (pre ++ params a) (bs "features=") with
  | Some f => Some (split_features [] (skipn 9 f))
  | None => None
  end = match an_feats a with [] => None | l => Some l end.
Proof.
  intros Hpre Hf Hd. change (bs "features=") with (bs "features" ++ [EQ]). unfold params.
  destruct (an_feats a) as [|f fs] eqn:E.
  - cbn [app]. rewrite devs_skip; [reflexivity|exact Hpre| |exact Hd|reflexivity|cbn; lia].
    cbn [In bs list_ascii_of_string]. intuition discriminate.
  - set (dv := match an_devs a with [] => [] | l => param (bs "deviations") (join l) end).
    replace (pre ++ param (bs "features") (join (f :: fs)) ++ dv) with ((pre ++ bs "&") ++ bs "features" ++ EQ :: (join (f :: fs) ++ dv))
      by (unfold param; rewrite <- !app_assoc; reflexivity).
    rewrite strstr_found.
    + f_equal. change (skipn 9 (bs "features" ++ EQ :: (join (f :: fs) ++ dv))) with (join (f :: fs) ++ dv).
      apply split_join; [discriminate|exact Hf|apply tail_devs].
    + rewrite in_app_iff. intros [H|[H|[]]]; [contradiction|discriminate].
    + cbn [In bs list_ascii_of_string]. intuition discriminate.
Qed.

Lemma no_revision a pre : ~ In EQ pre -> Forall word (an_feats a) -> Forall word (an_devs a) ->
  strstr (pre ++ params a) (bs "revision" ++ [EQ]) = None.
Proof.
  intros Hpre Hf Hd. unfold params.
  assert (Hk : ~ In EQ (bs "revision")) by (cbn [In bs list_ascii_of_string]; intuition discriminate).
  destruct (an_feats a) as [|f fs] eqn:E.
  - cbn [app]. apply devs_skip; [exact Hpre|exact Hk|exact Hd|reflexivity|cbn; lia].
  - set (dv := match an_devs a with [] => [] | l => param (bs "deviations") (join l) end).
    replace (pre ++ param (bs "features") (join (f :: fs)) ++ dv) with ((pre ++ bs "&features") ++ EQ :: (join (f :: fs) ++ dv))
      by (unfold param; rewrite <- !app_assoc; reflexivity).
    rewrite strstr_skip; [|rewrite in_app_iff; intros [H|H]; [contradiction|cbn [In bs list_ascii_of_string] in H; intuition discriminate]|exact Hk|].
    + apply devs_skip; [apply join_no; [discriminate|now apply words_no_eq]|exact Hk|exact Hd|reflexivity|cbn; lia].
    + rewrite rev_app_distr. reflexivity.
Qed.

Lemma module_of_announcement a : proper a ->
  module_of_cpblt (announcement a) =
    Some (mkMI (an_name a) (an_rev a) None (match an_feats a with [] => None | l => Some l end) true).
Proof.
  intros (Hns & Hn & Hr & Hf & Hd). unfold module_of_cpblt, announcement.
  set (rest := (match an_rev a with Some r => param (bs "revision") r | None => [] end) ++ params a).
  fold (params a). change (bs "module=") with (bs "module" ++ [EQ]).
  assert (Hkm : ~ In EQ (bs "module")) by (cbn [In bs list_ascii_of_string]; intuition discriminate).
  assert (Hkr : ~ In EQ (bs "revision")) by (cbn [In bs list_ascii_of_string]; intuition discriminate).
  replace (an_ns a ++ bs "?module=" ++ an_name a ++ (match an_rev a with Some r => param (bs "revision") r | None => [] end) ++ params a)
    with ((an_ns a ++ bs "?") ++ bs "module" ++ EQ :: (an_name a ++ rest)) by (rewrite <- !app_assoc; reflexivity).
  rewrite strstr_found; [|rewrite in_app_iff; intros [H|[H|[]]]; [contradiction|discriminate]|exact Hkm].
  assert (Ht : tail rest).
  { unfold rest. destruct (an_rev a); [right; eexists; reflexivity|cbn [app]; apply tail_params]. }
  change (skipn 7 (bs "module" ++ EQ :: (an_name a ++ rest))) with (an_name a ++ rest).
  destruct Hn as (Hn1 & Hn2 & Hn3). rewrite before_tail by assumption.
  assert (Hskip : forall k s, ~ In EQ k -> prefixb (rev k) (rev (bs "module")) = false ->
    strstr (bs "module" ++ EQ :: s) (k ++ [EQ]) = strstr s (k ++ [EQ])).
  { intros k s H1 H2. now apply strstr_skip. }
  do 2 f_equal.
  - unfold value_at. change (bs "revision=") with (bs "revision" ++ [EQ]).
    rewrite (Hskip (bs "revision")) by (exact Hkr || reflexivity). unfold rest.
    destruct (an_rev a) as [r|].
    + replace (an_name a ++ param (bs "revision") r ++ params a) with ((an_name a ++ bs "&") ++ bs "revision" ++ EQ :: (r ++ params a))
        by (unfold param; rewrite <- !app_assoc; reflexivity).
      rewrite strstr_found; [|rewrite in_app_iff; intros [H|[H|[]]]; [contradiction|discriminate]|exact Hkr].
      change (skipn (length (bs "revision" ++ [EQ])) (bs "revision" ++ EQ :: (r ++ params a))) with (r ++ params a).
      destruct (Hr r eq_refl) as (_ & Hr2 & _). now rewrite before_tail by (exact Hr2 || apply tail_params).
    + cbn [app]. rewrite no_revision by assumption. reflexivity.
  - change (bs "features=") with (bs "features" ++ [EQ]).
    rewrite (Hskip (bs "features")); [|cbn [In bs list_ascii_of_string]; intuition discriminate|reflexivity].
    change (bs "features" ++ [EQ]) with (bs "features=").
    unfold rest. destruct (an_rev a) as [r|].
    + destruct (Hr r eq_refl) as (Hr1 & _).
      replace (an_name a ++ param (bs "revision") r ++ params a) with ((an_name a ++ bs "&revision") ++ EQ :: (r ++ params a))
        by (unfold param; rewrite <- !app_assoc; reflexivity).
      change (bs "features=") with (bs "features" ++ [EQ]).
      rewrite strstr_skip.
      * now apply find_features.
      * rewrite in_app_iff. intros [H|H]; [contradiction|cbn [In bs list_ascii_of_string] in H; intuition discriminate].
      * cbn [In bs list_ascii_of_string]. intuition discriminate.
      * rewrite rev_app_distr. reflexivity.
    + cbn [app]. now apply find_features.
Qed.

Lemma other_none c : ~ contains (bs "module=") c -> module_of_cpblt c = None.
Proof.
  intros H. unfold module_of_cpblt.
  assert (G : strstr c (bs "module=") = None); [|now rewrite G].
  induction c as [|x c IH]; [reflexivity|].
  cbn [strstr]. destruct (prefixb (bs "module=") (x :: c)) eqn:E.
  - exfalso. apply H. apply prefixb_spec in E. destruct E as [r Hr]. exists [], r. exact Hr.
  - apply IH. intros (p & q & Hpq). apply H. exists (x :: p), q. cbn [app]. now rewrite <- Hpq.
Qed.

(* ================================================================== *)
(** * C47: theorems *)

(** For every list of capabilities in which modules are announced with the parameters module, revision,
    features, deviations in this order (as this library's server does) and no other capability has "module="
    in it: the client knows exactly the modules announced, in order, with their revisions and features.
    Why partial: RFC 6020 allows the parameters in any order (see the refutation). *)
Theorem c47_modules_partial : forall l, Forall cap_ok l ->
  Forall2 known (modules_announced l) (build_module_info_cpblts (map cap_text l)).
Proof.
  induction l as [|c l IH]; intros Hl; [constructor|]. inversion Hl as [|? ? Hc Hl']; subst.
  cbn [map build_module_info_cpblts]. destruct c as [a|c]; cbn [cap_text cap_ok] in *.
  - rewrite (module_of_announcement a Hc). constructor; [repeat split; reflexivity|now apply IH].
  - rewrite (other_none c Hc). now apply IH.
Qed.

(** Parameters in another order: the revision is lost. *)
Theorem c47_order_refuted : exists c m,
  c = bs "urn:m?revision=2020-01-01&module=m" /\ build_module_info_cpblts [c] = [m] /\ mi_rev m = None.
Proof. eexists _, _. split; [reflexivity|]. split; reflexivity. Qed.

(** A capability announcing no module that has the characters "module=" in another parameter or in
    the URI is taken for a module. *)
Theorem c47_invented_refuted : exists c m,
  c = bs "urn:ietf:params:netconf:capability:x:1.0?submodule=a" /\ build_module_info_cpblts [c] = [m].
Proof. eexists _, _. split; [reflexivity|reflexivity]. Qed.

(** ** Server to client *)
Lemma cat_some b s r : cat b s = Some r -> r = b ++ s.
Proof. unfold cat. destruct (_ <? _); [intros [= <-]; reflexivity|discriminate]. Qed.

Definition enabled (fs : list (bytes * bool)) : list bytes := map fst (filter snd fs).

Fixpoint join1 (l : list bytes) : bytes := match l with [] => [] | x :: l' => bs "," ++ x ++ join1 l' end.
Lemma join_join1 x l : join (x :: l) = x ++ join1 l.
Proof.
  revert x; induction l as [|y l IH]; intros x; [cbn [join join1]; now rewrite app_nil_r|].
  change (join (x :: y :: l)) with (x ++ bs "," ++ join (y :: l)). now rewrite IH.
Qed.

Lemma cat_feats_true fs : forall b r, cat_feats b true fs = Some r ->
  lenN (b ++ join1 (enabled fs)) + 1 < BUF_LEN -> r = b ++ join1 (enabled fs).
Proof.
  induction fs as [|[f e] fs IH]; intros b r H Hl; [injection H as <-; cbn; now rewrite app_nil_r|].
  unfold enabled in *. cbn [cat_feats filter snd map] in *. destruct e; [|now apply IH].
  cbn [map fst join1] in *.
  assert (L : BUF_LEN <=? lenN b + 1 + lenN f = false).
  { apply N.leb_gt. unfold lenN in *. rewrite !app_length in Hl. cbn [length bs list_ascii_of_string] in Hl. lia. }
  rewrite L in H. destruct (cat b (bs "," ++ f)) as [b2|] eqn:E; [|discriminate].
  apply cat_some in E. subst b2. apply IH in H; rewrite <- !app_assoc in *; assumption.
Qed.

Definition feats_text (l : list bytes) : bytes := match l with [] => [] | _ => param (bs "features") (join l) end.
Definition devs_text (l : list bytes) : bytes := match l with [] => [] | _ => param (bs "deviations") (join l) end.

Lemma cat_feats_false fs : forall b r, cat_feats b false fs = Some r ->
  lenN (b ++ feats_text (enabled fs)) + 1 < BUF_LEN -> r = b ++ feats_text (enabled fs).
Proof.
  induction fs as [|[f e] fs IH]; intros b r H Hl; [injection H as <-; cbn; now rewrite app_nil_r|].
  unfold enabled in *. cbn [cat_feats filter snd map] in *. destruct e; [|now apply IH].
  cbn [map fst feats_text] in *. rewrite join_join1 in *.
  destruct (cat b (bs "&features=")) as [b1|] eqn:E1; [|discriminate]. apply cat_some in E1. subst b1.
  unfold param in *. change (bs "&" ++ bs "features" ++ bs "=" ++ f ++ join1 (map fst (filter snd fs)))
    with (bs "&features=" ++ f ++ join1 (map fst (filter snd fs))) in *.
  assert (L : BUF_LEN <=? lenN (b ++ bs "&features=") + 1 + lenN f = false).
  { apply N.leb_gt. unfold lenN in *. rewrite !app_length in *. lia. }
  rewrite L in H. destruct (cat (b ++ bs "&features=") f) as [b2|] eqn:E; [|discriminate]. apply cat_some in E. subst b2.
  apply cat_feats_true in H; rewrite <- !app_assoc in *; assumption.
Qed.

Lemma cat_devs_true ds : forall b r, cat_devs b true ds = Some r ->
  lenN (b ++ join1 ds) + 1 < BUF_LEN -> r = b ++ join1 ds.
Proof.
  induction ds as [|d ds IH]; intros b r H Hl; [injection H as <-; cbn; now rewrite app_nil_r|].
  cbn [cat_devs join1] in *.
  assert (L : BUF_LEN <=? lenN b + 1 + lenN d = false).
  { apply N.leb_gt. unfold lenN in *. rewrite !app_length in Hl. cbn [length bs list_ascii_of_string] in Hl. lia. }
  rewrite L in H. destruct (cat b (bs "," ++ d)) as [b2|] eqn:E; [|discriminate].
  apply cat_some in E. subst b2. apply IH in H; rewrite <- !app_assoc in *; assumption.
Qed.

Lemma cat_devs_false d ds b r : cat_devs b false (d :: ds) = Some r ->
  lenN (b ++ join (d :: ds)) + 1 < BUF_LEN -> r = b ++ join (d :: ds).
Proof.
  intros H Hl. rewrite join_join1 in *. cbn [cat_devs] in H.
  assert (L : BUF_LEN <=? lenN b + 1 + lenN d = false).
  { apply N.leb_gt. unfold lenN in *. rewrite !app_length in Hl. lia. }
  rewrite L in H. destruct (cat b d) as [b2|] eqn:E; [|discriminate].
  apply cat_some in E. subst b2. apply cat_devs_true in H; rewrite <- !app_assoc in *; assumption.
Qed.

Definition of_module (m : modl) : announced :=
  mkAnn (m_ns m) (m_name m) (m_rev m) (enabled (m_feats m)) (match m_devs m with Some l => l | None => [] end).

Lemma mod_str_announcement m s : mod_str m = Some s -> m_devs m <> Some [] ->
  lenN (announcement (of_module m)) + 1 < BUF_LEN -> s = announcement (of_module m).
Proof.
  intros H Hd Hl. unfold mod_str in H.
  set (rv := match m_rev m with None => [] | Some r => bs "&revision=" ++ r end) in H.
  assert (A : announcement (of_module m) =
    ((m_ns m ++ bs "?module=" ++ m_name m ++ rv) ++ feats_text (enabled (m_feats m))) ++ devs_text (an_devs (of_module m))).
  { unfold announcement, of_module, feats_text, devs_text, rv. cbn [an_ns an_name an_rev an_feats an_devs].
    rewrite <- !app_assoc. destruct (m_rev m); destruct (enabled (m_feats m)); destruct (m_devs m) as [[|? ?]|]; reflexivity. }
  rewrite A in *. destruct (cat [] _) as [b|] eqn:E1; [|discriminate]. apply cat_some in E1. cbn [app] in E1. subst b.
  destruct (cat_feats _ false (m_feats m)) as [b1|] eqn:E2; [|discriminate].
  apply cat_feats_false in E2.
  2:{ unfold lenN in *. rewrite !app_length in *. lia. }
  subst b1. unfold of_module in *. cbn [an_devs] in *. destruct (m_devs m) as [[|d ds]|]; [contradiction| |].
  - destruct (cat _ (bs "&deviations=")) as [b2|] eqn:E3; [|discriminate]. apply cat_some in E3. subst b2.
    unfold devs_text, param in *.
    change (bs "&" ++ bs "deviations" ++ bs "=" ++ join (d :: ds)) with (bs "&deviations=" ++ join (d :: ds)) in *.
    rewrite (app_assoc _ (bs "&deviations=")) in *. now apply cat_devs_false in H.
  - injection H as <-. cbn [devs_text]. now rewrite app_nil_r.
Qed.

(** What this library's server announces for a module (Caps.v, session_server.c 1214-1262) is what its client
    knows about the module: name, revision and enabled features, for every module whose announcement has less
    than 4095 bytes. *)
Theorem c47_server_to_client_partial : forall m s,
  mod_str m = Some s -> m_devs m <> Some [] -> lenN (announcement (of_module m)) < 4095 -> proper (of_module m) ->
  exists i, build_module_info_cpblts [s] = [i] /\ mi_name i = m_name m /\ mi_rev i = m_rev m /\
    mi_feats i = match map fst (filter snd (m_feats m)) with [] => None | l => Some l end.
Proof.
  intros m s H Hd Hl Hp. rewrite (mod_str_announcement m s H Hd) by (unfold BUF_LEN; lia).
  cbn [build_module_info_cpblts]. rewrite (module_of_announcement _ Hp). eexists. repeat split; reflexivity.
Qed.

Ltac is_word := split; [|split]; intros Hw; cbn [In bs list_ascii_of_string] in Hw; intuition discriminate.

(** A module with everything, between two other capabilities. *)
Example c47_example :
  let a := mkAnn (bs "urn:m") (bs "m") (Some (bs "2020-01-01")) [bs "f1"; bs "f2"] [bs "d"] in
  Forall cap_ok [CapOther (bs "urn:x?y=z"); CapModule a; CapOther (bs "urn:y")] /\
  announcement a = bs "urn:m?module=m&revision=2020-01-01&features=f1,f2&deviations=d" /\
  build_module_info_cpblts [bs "urn:x?y=z"; announcement a; bs "urn:y"]
    = [mkMI (bs "m") (Some (bs "2020-01-01")) None (Some [bs "f1"; bs "f2"]) true].
Proof.
  cbv zeta. split; [|split; reflexivity].
  assert (NC : forall c, strstr c (bs "module=") = None -> ~ contains (bs "module=") c).
  { intros c Hc (p & q & ->). revert Hc. induction p as [|x p IH]; cbn [app strstr].
    - rewrite strstr_hit; [discriminate|]. apply prefixb_spec. now exists q.
    - destruct (prefixb _ _); [discriminate|exact IH]. }
  constructor; [apply NC; reflexivity|]. constructor; [|constructor; [apply NC; reflexivity|constructor]].
  clear NC. unfold cap_ok, proper. cbn [an_ns an_name an_rev an_feats an_devs]. split; [|split; [|split; [|split]]].
  - intros Hw. cbn [In bs list_ascii_of_string] in Hw. intuition discriminate.
  - is_word.
  - intros r [= <-]. is_word.
  - constructor; [is_word|constructor; [is_word|constructor]].
  - constructor; [is_word|constructor].
Qed.

(* ================================================================== *)
(** * C28: revision retrieved *)

Lemma strcmp_older a b : strcmp_gt a b = true <-> older b a.
Proof.
  revert b; induction a as [|x a IH]; intros b; cbn [strcmp_gt].
  - split; [discriminate|intros H; inversion H].
  - destruct b as [|y b]; [split; [intros _; constructor|reflexivity]|].
    destruct (N.eqb_spec (N_of_ascii x) (N_of_ascii y)) as [E|N].
    + assert (x = y) by (rewrite <- (ascii_N_embedding x), <- (ascii_N_embedding y), E; reflexivity). subst y.
      rewrite IH. split; [intros H; now constructor|]. intros H. inversion H; subst; [lia|assumption].
    + rewrite N.ltb_lt. split; [intros H; now constructor|]. intros H. inversion H; subst; [assumption|congruence].
Qed.

(** The revisions announced for a module. *)
Definition revisions (name : bytes) (ms : list minfo) : list (option bytes) :=
  map mi_rev (filter (fun m => beqb name (mi_name m)) ms).

Lemma newest_same name r : forall ms u match_ rev,
  (forall x, In x (revisions name ms) -> x = Some r) -> match_ = O \/ rev = Some r ->
  exists k rev', newest name ms u match_ rev = Ret (k, rev') /\
    (match_ <> O \/ revisions name ms <> [] -> k <> O /\ rev' = Some r).
Proof.
  induction ms as [|m ms IH]; intros u match_ rev Hr Hm; cbn [newest].
  - exists match_, rev. split; [reflexivity|]. intros [H|H]; [|contradiction]. destruct Hm; [contradiction|auto].
  - unfold revisions, streq in *. cbn [filter] in *. destruct (beqb name (mi_name m)) eqn:E; cbn [negb].
    + assert (Hx : mi_rev m = Some r) by (apply Hr; left; reflexivity).
      assert (Hrest : forall x, In x (map mi_rev (filter (fun m => beqb name (mi_name m)) ms)) -> x = Some r)
        by (intros x Hx'; apply Hr; right; exact Hx').
      destruct match_ as [|k].
      * destruct (IH (S u) (S u) (mi_rev m) Hrest (or_intror Hx)) as (k & rev' & -> & Hk).
        exists k, rev'. split; [reflexivity|]. intros _. apply Hk. left; discriminate.
      * destruct Hm as [Hm|Hm]; [discriminate|]. rewrite Hm, Hx.
        assert (T : (if strcmp_gt r r then Some r else Some r) = Some r) by (destruct (strcmp_gt r r); reflexivity).
        rewrite T. destruct (IH (S u) (S u) (Some r) Hrest (or_intror eq_refl)) as (k' & rev' & -> & Hk).
        exists k', rev'. split; [reflexivity|]. intros _. apply Hk. left; discriminate.
    + now apply IH.
Qed.

(** When all entries announced for the module have the same revision (in particular when there is one
    entry), that is the revision asked for, of the local files first. *)
Theorem c28_single_revision_partial : forall ms name r,
  revisions name ms <> [] -> (forall x, In x (revisions name ms) -> x = Some r) ->
  retrieve_imp ms name None None = Ret (Want name (Some r) true).
Proof.
  intros ms name r Hne Hr. unfold retrieve_imp.
  destruct (newest_same name r ms 0 0 None Hr (or_introl eq_refl)) as (k & rev' & -> & Hk).
  destruct (Hk (or_intror Hne)) as [Hk0 ->]. destruct k; [contradiction|reflexivity].
Qed.

(** What the code does with several: it asks for one that is announced and than which none is older. *)
Theorem c28_oldest_partial : forall ms name,
  revisions name ms <> [] -> (forall x, In x (revisions name ms) -> x <> None) ->
  exists r, retrieve_imp ms name None None = Ret (Want name (Some r) true) /\
    In (Some r) (revisions name ms) /\ forall r', In (Some r') (revisions name ms) -> ~ older r' r.
Proof.
  assert (older_trans : forall a b c, older a b -> older b c -> older a c).
  { intros a b c H; revert c; induction H; intros c H2; inversion H2; subst; constructor; auto; lia. }
  assert (older_irr : forall a, ~ older a a) by (intros a; induction a; intros H; inversion H; subst; [lia|auto]).
  assert (G : forall name ms u match_ rev,
    (forall x, In x (revisions name ms) -> x <> None) -> (match_ <> O -> rev <> None) ->
    match_ <> O \/ revisions name ms <> [] ->
    exists k r, newest name ms u match_ rev = Ret (S k, Some r) /\
      (In (Some r) (revisions name ms) \/ match_ <> O /\ rev = Some r) /\
      (forall r', In (Some r') (revisions name ms) \/ match_ <> O /\ rev = Some r' -> ~ older r' r)).
  { intros name. induction ms as [|m ms IH]; intros u match_ rev Hx Hm Hne; cbn [newest].
    - destruct Hne as [Hne|Hne]; [|contradiction]. destruct match_ as [|k]; [contradiction|].
      destruct rev as [r|]; [|exfalso; apply Hm; auto]. exists k, r. split; [reflexivity|]. split; [auto|].
      intros r' [[]|[_ Hr']]. injection Hr' as <-. apply older_irr.
    - unfold revisions, streq in *. cbn [filter] in *. destruct (beqb name (mi_name m)) eqn:E; cbn [negb map] in *.
      + assert (Hrest : forall x, In x (map mi_rev (filter (fun m => beqb name (mi_name m)) ms)) -> x <> None)
          by (intros x Hx'; apply Hx; right; exact Hx').
        assert (Hmr : mi_rev m <> None) by (apply Hx; left; reflexivity).
        destruct match_ as [|k].
        * destruct (IH (S u) (S u) (mi_rev m) Hrest (fun _ => Hmr) (or_introl (Nat.neq_succ_0 u))) as (k & r & -> & Hin & Hmin).
          exists k, r. split; [reflexivity|]. split.
          -- destruct Hin as [Hin|[_ Hin]]; [left; right; exact Hin|left; left; exact Hin].
          -- intros r' [[Hr'|Hr']|[Hr' _]]; [apply Hmin; right; split; [discriminate|exact Hr']|apply Hmin; left; exact Hr'|contradiction].
        * destruct rev as [a|]; [|exfalso; apply Hm; auto]. destruct (mi_rev m) as [b|] eqn:Eb; [|contradiction].
          set (c := if strcmp_gt a b then Some b else Some a).
          assert (Hc : c <> None) by (unfold c; destruct (strcmp_gt a b); discriminate).
          destruct (IH (S u) (S u) c Hrest (fun _ => Hc) (or_introl (Nat.neq_succ_0 u))) as (k' & r & -> & Hin & Hmin).
          exists k', r. split; [reflexivity|]. split.
          -- destruct Hin as [Hin|[_ Hin]]; [left; right; exact Hin|]. unfold c in Hin.
             destruct (strcmp_gt a b); [left; left; exact Hin|right; split; [discriminate|exact Hin]].
          -- assert (Hcmin : forall z, c = Some z -> ~ older z r) by (intros z Hz; apply Hmin; right; split; [discriminate|exact Hz]).
             intros r' [[Hr'|Hr']|[_ Hr']]; [|apply Hmin; left; exact Hr'|]; injection Hr' as <-; unfold c in Hcmin;
               destruct (strcmp_gt a b) eqn:Eg.
             ++ apply Hcmin; reflexivity.
             ++ intros Ho. (* b older than r: a is not newer than b *)
                destruct (strcmp_gt r b) eqn:Erb.
                ** assert (Hab : ~ older b a) by (intros Hx2; apply strcmp_older in Hx2; congruence).
                   specialize (Hcmin a eq_refl).
                   (* older is total: a <= b < r gives a < r *)
                   assert (Tot : forall p q, older p q \/ p = q \/ older q p).
                   { clear. induction p as [|x p IHp]; intros [|y q]; [auto|left; constructor|right; right; constructor|].
                     destruct (N.lt_trichotomy (N_of_ascii x) (N_of_ascii y)) as [L|[L|L]]; [left; now constructor| |right; right; now constructor].
                     assert (x = y) by (rewrite <- (ascii_N_embedding x), <- (ascii_N_embedding y), L; reflexivity). subst y.
                     destruct (IHp q) as [H|[->|H]]; [left; now constructor|auto|right; right; now constructor]. }
                   destruct (Tot a b) as [H1|[->|H1]]; [|contradiction|contradiction].
                   apply Hcmin. eapply older_trans; eassumption.
                ** apply strcmp_older in Ho. congruence.
             ++ intros Ho. apply strcmp_older in Eg. apply (Hcmin b eq_refl). eapply older_trans; eassumption.
             ++ apply Hcmin; reflexivity.
      + apply IH; assumption. }
  intros ms name Hne Hx. unfold retrieve_imp.
  destruct (G name ms 0%nat 0%nat None Hx (fun H => False_ind _ (H eq_refl)) (or_intror Hne)) as (k & r & -> & Hin & Hmin).
  exists r. split; [reflexivity|]. split.
  - destruct Hin as [Hin|[Hin _]]; [exact Hin|contradiction].
  - intros r' Hr'. apply Hmin. left; exact Hr'.
Qed.

(** The claim is false: with two revisions announced the older is asked for, in whichever order they are. *)
Theorem c28_newest_refuted : forall a b,
  let m r := mkMI (bs "m") (Some r) None None false in
  (a = bs "2010-01-01" /\ b = bs "2020-01-01" \/ a = bs "2020-01-01" /\ b = bs "2010-01-01") ->
  retrieve_imp [m a; m b] (bs "m") None None = Ret (Want (bs "m") (Some (bs "2010-01-01")) true) /\
  older (bs "2010-01-01") (bs "2020-01-01").
Proof.
  intros a b m H. split; [destruct H as [[-> ->]|[-> ->]]; vm_compute; reflexivity|].
  apply older_eq, older_eq, older_lt. reflexivity.
Qed.

(** Two entries of the module without a revision: strcmp() is called with NULL. *)
Theorem c28_no_revision_refuted :
  let m := mkMI (bs "m") None None None true in retrieve_imp [m; m] (bs "m") None None = Crash.
Proof. reflexivity. Qed.

(** Two modules, one revision each. *)
Example c28_example :
  let m1 := mkMI (bs "a") (Some (bs "2010-01-01")) None None true in
  let m2 := mkMI (bs "b") (Some (bs "2020-01-01")) None None true in
  retrieve_imp [m1; m2] (bs "b") None None = Ret (Want (bs "b") (Some (bs "2020-01-01")) true) /\
  revisions (bs "b") [m1; m2] = [Some (bs "2020-01-01")].
Proof. split; reflexivity. Qed.

(* ================================================================== *)
(** * The list built from the yang-library *)

(** If the server has the notification capability and announces neither "notifications" nor
    "nc-notifications", the list the client builds has no terminator: using it reads memory never
    written.  Otherwise it holds exactly one entry per module of the yang-library. *)
Theorem c50_yl_terminated_partial : forall counted cap mods,
  cap = false \/ (exists m, In m (map (yl_module counted) mods) /\ (mi_name m = NOTIFICATIONS \/ mi_name m = NC_NOTIFICATIONS)) ->
  entries (build_module_info_yl counted cap mods) = Some (map (yl_module counted) mods).
Proof.
  intros counted cap mods H. unfold build_module_info_yl.
  set (l := map (yl_module counted) mods) in *.
  assert (F : cap && negb (existsb (fun m => streq (mi_name m) NOTIFICATIONS || streq (mi_name m) NC_NOTIFICATIONS) l) = false).
  { destruct H as [->|(m & Hm & Hn)]; [reflexivity|]. rewrite andb_false_iff, negb_false_iff. right. apply existsb_exists.
    exists m. split; [exact Hm|]. unfold streq. destruct Hn as [-> | ->]; rewrite beqb_refl, ?orb_true_r; reflexivity. }
  rewrite F. clear. induction l as [|m l IH]; [reflexivity|]. cbn [map app entries]. now rewrite IH.
Qed.

Theorem c50_yl_terminated_refuted : forall counted mods,
  (forall m, In m (map (yl_module counted) mods) -> mi_name m <> NOTIFICATIONS /\ mi_name m <> NC_NOTIFICATIONS) ->
  entries (build_module_info_yl counted true mods) = None.
Proof.
  intros counted mods H. unfold build_module_info_yl. set (l := map (yl_module counted) mods) in *.
  assert (F : existsb (fun m => streq (mi_name m) NOTIFICATIONS || streq (mi_name m) NC_NOTIFICATIONS) l = false).
  { apply not_true_iff_false. intros E. apply existsb_exists in E. destruct E as (m & Hm & E).
    destruct (H m Hm) as [N1 N2]. unfold streq in E. apply orb_true_iff in E. destruct E as [E|E]; apply beqb_spec in E; contradiction. }
  rewrite F. clear. cbn [negb andb]. induction l as [|m l IH]; [reflexivity|]. cbn [map app entries]. now rewrite IH.
Qed.

Example c50_example :
  let ietf := [YName (bs "ietf-netconf"); YRevision (bs "2013-09-29"); YFeature (bs "writable-running");
               YFeature (bs "startup"); YConf (bs "implement"); YOther] in
  entries (build_module_info_yl false false [ietf]) =
    Some [mkMI (bs "ietf-netconf") (Some (bs "2013-09-29")) None (Some [bs "writable-running"; bs "startup"]) true] /\
  entries (build_module_info_yl false true [ietf]) = None.
Proof. split; reflexivity. Qed.

Print Assumptions c28_single_revision_partial.
Print Assumptions c28_oldest_partial.
Print Assumptions c28_newest_refuted.
Print Assumptions c28_no_revision_refuted.
Print Assumptions c47_modules_partial.
Print Assumptions c47_server_to_client_partial.
Print Assumptions c47_order_refuted.
Print Assumptions c47_invented_refuted.
Print Assumptions c50_yl_terminated_partial.
Print Assumptions c50_yl_terminated_refuted.
