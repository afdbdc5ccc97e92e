(** Messages the library prints: C229, C230. *)
From Coq Require Import String Ascii ZArith NArith Bool List Lia.
From Verif Require Import Bytes LogMsg.
From Verif Require Prop_Io.
Import ListNotations.
Local Open Scope list_scope.
Local Open Scope Z_scope.

(* ------------------------------------------------------------------ *)
(** ** What is to be printed *)

Definition tag (l : msg_level) : bytes :=
  match l with LErr => bs "[ERR]" | LWrn => bs "[WRN]" | LVrb => bs "[INF]" | LDbg => bs "[DBG]" | LDbl => bs "[DBL]" end.
Definition newline : ascii := ascii_of_nat 10.

(** The whole text [t] reached its place, once: the callback if there is one, otherwise a line on stderr that names the session if it has an
    id. *)
Definition delivered (clb : bool) (sess : option N) (l : msg_level) (t : bytes) (o : list out) : Prop :=
  match clb, sess with
  | true, _ => o = [Callback sess (code l) t]
  | false, Some (Npos p) => exists ds, Prop_Io.rfc_size ds (Npos p)
      /\ o = [Stderr (bs "Session " ++ ds ++ bs " " ++ tag l ++ bs ": " ++ t ++ [newline])]
  | false, _ => o = [Stderr (tag l ++ bs ": " ++ t ++ [newline])]
  end.

(** The prints of a history: [v] is the level last set, [clb] whether a callback is set.  A message above the level is not printed; errors always
    are.  One that is to be printed reaches its place whole, or, if the memory runs out or the text cannot be formatted, not at all. *)
Inductive expected : Z -> bool -> list event -> list out -> Prop :=
| ENil v c : expected v c [] []
| EVerb v c v' l o : expected v' c l o -> expected v c (Verbosity v' :: l) o
| EClb v c b l o : expected v b l o -> expected v c (SetClb b :: l) o
| EQuiet v c lv sess f m1 m2 l o : lv <> LErr -> v < code lv -> expected v c l o -> expected v c (Msg lv sess f m1 m2 :: l) o
| EPrint v c lv sess t m1 m2 l o o' : lv = LErr \/ code lv <= v -> delivered c sess lv t o -> expected v c l o' ->
    expected v c (Msg lv sess (Text t) m1 m2 :: l) (o ++ o')
| ELost v c lv sess f m1 m2 l o : lv = LErr \/ code lv <= v -> f = Bad \/ m1 = false \/ m2 = false -> expected v c l o ->
    expected v c (Msg lv sess f m1 m2 :: l) o.

(** Every text is shorter than the greatest [int]. *)
Definition short (e : event) : Prop := match e with Msg _ _ (Text t) _ _ => Z.of_nat (length t) < 2147483647 | _ => True end.

(** The blocks: one at a time is owned, realloc() and free() are of the one owned. *)
Inductive memory_ok : list mem -> Prop :=
| MNil : memory_ok []
| MBlock n rs l : (forall e, In e rs -> exists k, e = Realloc k) -> memory_ok l -> memory_ok (Malloc n :: rs ++ Free :: l).

(* ------------------------------------------------------------------ *)
(** ** Lemmas *)

Lemma label_code l : label (code l) = Some (tag l).
Proof. now destruct l. Qed.

Lemma print_delivered clb sess l t : exists o, print clb sess (code l) t = Some o /\ delivered clb sess l t o.
Proof.
  unfold print. rewrite label_code. destruct clb; [eexists; split; reflexivity|].
  destruct sess as [[|p]|]; cbn [N.eqb]; eexists; (split; [reflexivity|]); try reflexivity.
  exists (dec (Npos p)). split; [apply Prop_Io.rfc_size_of; lia|reflexivity].
Qed.

Lemma vsn_all cap limit t : Z.of_nat (length t) <= INT_MAX -> Z.of_nat (length t) < limit -> limit <= cap ->
  vsnprintf cap limit (Text t) = Wrote t (Z.of_nat (length t)).
Proof.
  intros H1 H2 H3. unfold vsnprintf. cbv zeta. rewrite Z.gtb_ltb. replace (INT_MAX <? Z.of_nat (length t)) with false by (symmetry; apply Z.ltb_ge; lia).
  replace (limit <=? 0) with false by (symmetry; apply Z.leb_gt; lia).
  rewrite Z.min_l, Z.max_r by lia. rewrite Z.gtb_ltb. replace (cap <? Z.of_nat (length t) + 1) with false by (symmetry; apply Z.ltb_ge; lia).
  now rewrite Nat2Z.id, firstn_all.
Qed.

Lemma vsn_cut cap limit t : Z.of_nat (length t) <= INT_MAX -> 0 < limit <= cap ->
  exists b, vsnprintf cap limit (Text t) = Wrote b (Z.of_nat (length t)).
Proof.
  intros H1 H2. unfold vsnprintf. cbv zeta. rewrite Z.gtb_ltb. replace (INT_MAX <? Z.of_nat (length t)) with false by (symmetry; apply Z.ltb_ge; lia).
  replace (limit <=? 0) with false by (symmetry; apply Z.leb_gt; lia).
  rewrite Z.gtb_ltb. replace (cap <? Z.max 0 (Z.min (Z.of_nat (length t)) (limit - 1)) + 1) with false by (symmetry; apply Z.ltb_ge; lia).
  eexists; reflexivity.
Qed.

(** One message. *)
Lemma one m1 m2 clb sess l f : (forall t, f = Text t -> Z.of_nat (length t) < INT_MAX) ->
  exists o m, prv_vprintf m1 m2 clb sess (code l) f = Done o m /\ (forall k, memory_ok k -> memory_ok (m ++ k))
    /\ ((exists t, f = Text t /\ delivered clb sess l t o) \/ (o = [] /\ (f = Bad \/ m1 = false \/ m2 = false))).
Proof.
  intros Hs. unfold prv_vprintf. destruct m1; cbn [negb]; [|exists [], []; cbn; auto 10].
  cbn [fresh existsb negb]. cbv zeta.
  assert (Hfree : forall k, memory_ok k -> memory_ok ([Malloc INIT_SIZE] ++ [Free] ++ k)).
  { intros k Hk. exact (MBlock INIT_SIZE [] k (fun e (H : In e []) => match H with end) Hk). }
  destruct f as [t|]; cycle 1.
  { cbn [vsnprintf]. exists [], [Malloc INIT_SIZE; Free]. split; [reflexivity|]. split; [exact Hfree|]. right. auto. }
  specialize (Hs t eq_refl).
  destruct (vsn_cut INIT_SIZE (INIT_SIZE - 1) t) as [b Eb]; [lia|unfold INIT_SIZE; lia|].
  destruct (Z.leb_spec (INIT_SIZE - 1) (Z.of_nat (length t))) as [Hlong|Hshort].
  - rewrite Eb. rewrite Z.geb_leb. replace (INIT_SIZE - 1 <=? Z.of_nat (length t)) with true by (symmetry; apply Z.leb_le; lia).
    rewrite Z.gtb_ltb. replace (INT_MAX <? Z.of_nat (length t) + 1) with false by (symmetry; apply Z.ltb_ge; lia).
    destruct m2; cbn [negb].
    2:{ exists [], [Malloc INIT_SIZE; Free]. split; [reflexivity|]. split; [exact Hfree|]. right. auto. }
    rewrite vsn_all by lia. destruct (print_delivered clb sess l t) as (o & Eo & Hd). rewrite Eo.
    exists o. eexists. split; [reflexivity|]. split; [|left; eauto].
    intros k Hk. rewrite <- !app_assoc. cbn [app].
    apply (MBlock INIT_SIZE [Realloc (Z.of_nat (length t) + 1)] k); [intros e [<-|[]]; eauto|exact Hk].
  - rewrite vsn_all by (try lia; unfold INIT_SIZE in *; lia).
    rewrite Z.geb_leb. replace (INIT_SIZE - 1 <=? Z.of_nat (length t)) with false by (symmetry; apply Z.leb_gt; lia).
    destruct (print_delivered clb sess l t) as (o & Eo & Hd). rewrite Eo.
    exists o, ([Malloc INIT_SIZE] ++ [Free]). split; [reflexivity|]. split; [|left; eauto].
    intros k Hk. rewrite <- app_assoc. now apply Hfree.
Qed.

Lemma history l : forall s, Forall short l -> exists o m, run s l = Done o m /\ expected (verbose s) (has_clb s) l o /\ memory_ok m.
Proof.
  induction l as [|e l IH]; intros s Hl.
  - exists [], []. repeat split; constructor.
  - apply Forall_cons_iff in Hl as [He Hl]. cbn [run]. destruct e as [v|b|lv sess f m1 m2]; cbn [step].
    + destruct (IH {| verbose := v; has_clb := has_clb s |} Hl) as (o & m & E & Ho & Hm). rewrite E. exists o, m. repeat split; auto. now constructor.
    + destruct (IH {| verbose := verbose s; has_clb := b |} Hl) as (o & m & E & Ho & Hm). rewrite E. exists o, m. repeat split; auto. now constructor.
    + destruct (IH s Hl) as (o' & m' & E & Ho & Hm). 
      assert (Hf : forall t, f = Text t -> Z.of_nat (length t) < INT_MAX) by (intros t ->; exact He).
      destruct (one m1 m2 (has_clb s) sess lv f Hf) as (o & m & E1 & Hm1 & Hd).
      assert (Hc : (lv = LErr \/ code lv <= verbose s) \/ (lv <> LErr /\ verbose s < code lv)).
      { destruct lv; [left; now left|..]; (destruct (Z.le_gt_cases (code LWrn) (verbose s)) || idtac);
        match goal with |- context [code ?x <= _] => destruct (Z.le_gt_cases (code x) (verbose s)); [left; now right|right; split; [discriminate|lia]] end. }
      assert (Es : match lv with LErr => prv_vprintf m1 m2 (has_clb s) sess (code lv) f
                   | _ => if verbose s >=? code lv then prv_vprintf m1 m2 (has_clb s) sess (code lv) f else Done [] [] end
                 = if match lv with LErr => true | _ => code lv <=? verbose s end then Done o m else Done [] []).
      { rewrite E1. rewrite Z.geb_leb. now destruct lv. }
      rewrite Es. destruct Hc as [Hc|[Hc Hlt]].
      * replace (match lv with LErr => true | _ => code lv <=? verbose s end) with true
          by (destruct Hc as [->|Hc]; [reflexivity|apply Z.leb_le in Hc; now destruct lv]).
        rewrite E. exists (o ++ o'), (m ++ m'). split; [reflexivity|]. split; [|now apply Hm1].
        destruct Hd as [(t & -> & Hd)|[-> Hd]]; [now apply EPrint|now apply ELost].
      * replace (match lv with LErr => true | _ => code lv <=? verbose s end) with false
          by (apply Z.leb_gt in Hlt; destruct lv; [now destruct Hc|congruence..]).
        rewrite E. exists o', m'. split; [reflexivity|]. split; [now apply EQuiet|exact Hm].
Qed.

(* ------------------------------------------------------------------ *)
(** ** C229: what is printed, over any history of settings and messages *)

Theorem c229_printed : forall l, Forall short l -> exists o m, run initial l = Done o m /\ expected 0 false l o.
Proof. intros l Hl. destruct (history l initial Hl) as (o & m & E & Ho & _). eauto. Qed.

(** The memory of the messages: each block is released, whatever happens. *)
Theorem c229_memory : forall l o m, Forall short l -> run initial l = Done o m -> memory_ok m.
Proof. intros l o m Hl E. destruct (history l initial Hl) as (o' & m' & E' & _ & Hm). congruence. Qed.

(** A text of any length below that of an [int] is printed whole once there is memory. *)
Theorem c229_whole : forall clb sess l t, Z.of_nat (length t) < 2147483647 ->
  exists o m, prv_vprintf true true clb sess (code l) (Text t) = Done o m /\ delivered clb sess l t o.
Proof.
  intros clb sess l t Ht. destruct (one true true clb sess l (Text t)) as (o & m & E & _ & Hd).
  { intros t' [= <-]. exact Ht. }
  exists o, m. split; [exact E|]. destruct Hd as [(t' & [= <-] & Hd)|[_ [H|[H|H]]]]; [exact Hd|discriminate..].
Qed.

(** ** C230: the same of texts of any length; not so *)

Definition c230_full : Prop := forall l, exists o m, run initial l = Done o m.

Theorem c230_partial : forall l, Forall short l -> exists o m, run initial l = Done o m.
Proof. intros l Hl. destruct (c229_printed l Hl) as (o & m & E & _). eauto. Qed.

(** A text of exactly 2^31 - 1 bytes: its length plus one is no [int]. *)
Theorem c230_full_refuted : ~ c230_full.
Proof.
  intros H. set (t := repeat "a"%char (Z.to_nat INT_MAX)).
  assert (Hl : Z.of_nat (length t) = INT_MAX) by (unfold t; rewrite repeat_length, Z2Nat.id; [reflexivity|unfold INT_MAX; lia]).
  clearbody t. destruct (H [Msg LErr None (Text t) true true]) as (o & m & E). revert E. cbn [run step]. unfold prv_vprintf. cbn [negb fresh existsb]. cbv zeta.
  destruct (vsn_cut INIT_SIZE (INIT_SIZE - 1) t) as [b Eb]; [lia|unfold INIT_SIZE; lia|].
  rewrite Eb, Hl. discriminate.
Qed.

(* ------------------------------------------------------------------ *)
(** ** Examples *)

Example ex_history : run initial [Msg LWrn None (Text (bs "no")) true true; Verbosity 1; Msg LWrn (Some 7%N) (Text (bs "yes")) true true; Msg LErr None Bad true true]
  = Done [Stderr (bs "Session 7 [WRN]: yes" ++ [newline])] [Malloc 256; Free; Malloc 256; Free].
Proof. reflexivity. Qed.
Definition long := repeat "x"%char 300.
Example ex_long : prv_vprintf true true true None 0 (Text long) = Done [Callback None 0 long] [Malloc 256; Realloc 301; Free].
Proof. reflexivity. Qed.
Example ex_refused : prv_vprintf true false true None 0 (Text long) = Done [] [Malloc 256; Free].
Proof. reflexivity. Qed.
Example ex_short : Forall short [Msg LErr None (Text long) true true].
Proof. constructor; [cbn; lia|constructor]. Qed.

Print Assumptions c229_printed.
Print Assumptions c229_memory.
Print Assumptions c229_whole.
Print Assumptions c230_partial.
Print Assumptions c230_full_refuted.
