(** C299-C300: what the server reads from the complaints of libyang. *)
From Coq Require Import Ascii String Arith NArith Bool Lia List.
From Verif Require Import Bytes PsPoll ErrPath.
Import ListNotations.

(* ------------------------------------------------------------------ *)
(** ** Specification *)

(** A text and its parts between quotation marks. *)
Fixpoint joined (l : list bytes) : bytes :=
  match l with [] => [] | [s] => s | s :: l => s ++ DQUOTE :: joined l end.
Definition parts (msg : bytes) (l : list bytes) : Prop := l <> [] /\ Forall (fun s : bytes => ~ In DQUOTE s) l /\ msg = joined l.

(** C299, full statement (the comment of the function): the text quoted as the [index]th, from 0, or nothing if there are fewer. *)
Definition c299_full : Prop := forall msg l index, parts msg l -> (lenN msg < 4294967296)%N -> (index < 2147483647)%N ->
  get_quoted_string msg index = if (2 * index + 2 <? N.of_nat (length l))%N then nth_error l (N.to_nat (2 * index + 1)) else None.

(** C300, full statement: no path makes the server read through NULL (which node is asked for is in c300_partial). *)
Definition c300_full : Prop := forall dup path, find_lysc_node dup (Some path) <> NullRead /\ attr_of path <> None.

(* ------------------------------------------------------------------ *)
(** ** Lemmas *)

Lemma joined_cons s s' l : joined (s :: s' :: l) = s ++ DQUOTE :: joined (s' :: l).
Proof. reflexivity. Qed.

Lemma joined_len : forall l, length l <= S (length (joined l)).
Proof.
  induction l as [|s [|s' l] IH]; [cbn; lia|cbn; lia|]. rewrite joined_cons, app_length. cbn [length] in *. lia.
Qed.

Lemma quotes_skip last r : forall s i start en cnt, ~ In DQUOTE s -> quotes last i (s ++ r) start en cnt = quotes last (i + length s) r start en cnt.
Proof.
  induction s as [|c s IH]; intros i start en cnt N; cbn [app length quotes]; [now rewrite Nat.add_0_r|].
  destruct (Ascii.eqb_spec c DQUOTE) as [->|D]; [exfalso; apply N; now left|]. cbn [negb]. rewrite IH by (intros I; apply N; now right). f_equal. lia.
Qed.

(** The part at the [m]th quotation mark from here, which ends the part before it. *)
Definition at_mark (l : list bytes) (have : bool) (m : nat) : option bytes :=
  match m with 0 => None | 1 => if have then nth_error l 0 else None | S m' => nth_error l m' end.

Definition text (msg : bytes) (p : option nat * option nat) : option bytes :=
  match p with (Some a, Some b) => Some (firstn (b - (a + 1)) (skipn (a + 1) msg)) | _ => None end.

Lemma cut pre s r : firstn (length pre + 1 + length s - (length pre + 1)) (skipn (length pre + 1) (pre ++ DQUOTE :: s ++ r)) = s.
Proof.
  replace (pre ++ DQUOTE :: s ++ r) with ((pre ++ [DQUOTE]) ++ s ++ r) by (rewrite <- app_assoc; reflexivity).
  replace (length pre + 1) with (length (pre ++ [DQUOTE])) by (rewrite app_length; reflexivity).
  rewrite skipn_app, skipn_all, Nat.sub_diag. cbn [app skipn].
  replace (length (pre ++ [DQUOTE]) + length s - length (pre ++ [DQUOTE])) with (length s) by lia.
  rewrite firstn_app, firstn_all, Nat.sub_diag. cbn [firstn]. apply app_nil_r.
Qed.

(** [pre]: what was read; if [have], its last mark is just before the part being read. *)
Lemma quotes_parts (msg : bytes) last : forall (l : list bytes) (pre : bytes) cnt start en,
  l <> [] -> Forall (fun s : bytes => ~ In DQUOTE s) l -> msg = pre ++ joined l ->
  (match en with None => start = None | Some e => S e = length pre /\ exists p0, pre = p0 ++ [DQUOTE] end) ->
  (N.of_nat cnt < last)%N -> (N.of_nat (cnt + length l) <= 4294967296)%N ->
  text msg (quotes last (length pre) (joined l) start en (N.of_nat cnt)) =
  match Nat.min (length l - 1) (N.to_nat last - cnt) with
  | 0 => text msg (start, en)
  | m => at_mark l (match en with Some _ => true | None => false end) m
  end.
Proof.
  induction l as [|s l IH]; intros pre cnt start en NE F M E C B; [congruence|]. clear NE. inversion F as [|? ? N F']; subst x l0.
  destruct l as [|s' l].
  - cbn [joined length Nat.sub Nat.min]. rewrite <- (app_nil_r s), quotes_skip by exact N. reflexivity.
  - rewrite joined_cons in *. rewrite quotes_skip by exact N. cbn [quotes]. rewrite Ascii.eqb_refl. cbn [negb].
    assert (U : u32 (N.of_nat cnt + 1) = N.of_nat (S cnt)).
    { unfold u32. rewrite N.mod_small; [lia|]. cbn [length] in B. lia. }
    rewrite U.
    assert (T : text msg (en, Some (length pre + length s)) = match en with Some _ => Some s | None => None end).
    { destruct en as [e|]; [|reflexivity]. cbn [text]. f_equal. destruct E as (E1 & p0 & E2). rewrite M, E2, <- app_assoc. cbn [app].
      assert (e = length p0) by (rewrite E2, app_length in E1; cbn in E1; lia). subst e. rewrite app_length. cbn [length]. apply cut. }
    set (q := length (s' :: l)) in *. cbn [length] in B. replace (length (s :: s' :: l) - 1) with q by (unfold q; cbn; lia).
    assert (Q : q >= 1) by (unfold q; cbn; lia).
    destruct (N.eqb_spec (N.of_nat (S cnt)) last) as [L|L].
    + replace (Nat.min q (N.to_nat last - cnt)) with 1 by lia. rewrite T. cbn [at_mark]. destruct en; reflexivity.
    + assert (P : msg = (pre ++ s ++ [DQUOTE]) ++ joined (s' :: l)) by (rewrite M, <- !app_assoc; reflexivity).
      replace (S (length pre + length s)) with (length (pre ++ s ++ [DQUOTE])) by (rewrite !app_length; cbn; lia).
      etransitivity; [apply (IH (pre ++ s ++ [DQUOTE]) (S cnt) en (Some (length pre + length s))); [discriminate|exact F'|exact P| |lia|unfold q in B; cbn [length] in *; lia]|].
      2: { fold q. replace (Nat.min q (N.to_nat last - cnt)) with (S (Nat.min (q - 1) (N.to_nat last - S cnt))) by lia.
        destruct (Nat.min (q - 1) (N.to_nat last - S cnt)) as [|m] eqn:Mn.
        -- rewrite T. cbn [at_mark]. destruct en; reflexivity.
        -- cbn [at_mark nth_error]. destruct m; reflexivity. }
      split; [rewrite !app_length; cbn; lia|]. exists (pre ++ s). now rewrite app_assoc.
Qed.

(* ------------------------------------------------------------------ *)
(** ** C299 *)

(** What it gives for every text: the part asked for or, with too few marks, that between the last two. *)
Theorem c299_given msg l index : parts msg l -> (lenN msg < 4294967295)%N -> (index < 2147483647)%N ->
  get_quoted_string msg index =
  let m := Nat.min (length l - 1) (N.to_nat (2 * index + 2)) in if m <=? 1 then None else nth_error l (m - 1).
Proof.
  intros (NE & F & M) L I. unfold get_quoted_string.
  assert (U : u32 (u32 (index + 1) * 2) = (2 * index + 2)%N) by (unfold u32; rewrite (N.mod_small (index + 1)) by lia; rewrite N.mod_small by lia; lia).
  rewrite U. pose proof (joined_len l) as JL. rewrite <- M in JL. unfold lenN in L.
  pose proof (quotes_parts msg (2 * index + 2) l [] 0 None None NE F M eq_refl ltac:(lia) ltac:(cbn [Nat.add]; lia)) as H.
  rewrite <- M in H. cbn [length] in H. unfold text in H. change (N.of_nat 0) with 0%N in H. rewrite H. cbv zeta. rewrite Nat.sub_0_r.
  destruct (Nat.min (length l - 1) (N.to_nat (2 * index + 2))) as [|[|m]]; [reflexivity|reflexivity|].
  cbn [Nat.leb Nat.sub]. reflexivity.
Qed.

Theorem c299_partial msg l index : parts msg l -> (lenN msg < 4294967295)%N -> (2 * index + 2 < N.of_nat (length l))%N ->
  get_quoted_string msg index = nth_error l (N.to_nat (2 * index + 1)).
Proof.
  intros P L I. pose proof P as (_ & _ & M). pose proof (joined_len l) as JL. rewrite <- M in JL. unfold lenN in L.
  rewrite (c299_given msg l index P) by (unfold lenN; lia). cbv zeta.
  replace (Nat.min (length l - 1) (N.to_nat (2 * index + 2))) with (S (N.to_nat (2 * index + 1))) by lia.
  replace (S (N.to_nat (2 * index + 1)) <=? 1) with false; [|symmetry; apply Nat.leb_gt; lia]. f_equal. lia.
Qed.

(** One text is quoted, but it is given as the second as well. *)
Theorem c299_refuted : ~ c299_full.
Proof.
  intros F. specialize (F (bs "a""b""c") [bs "a"; bs "b"; bs "c"] 1%N). vm_compute in F.
  assert (P : parts (bs "a""b""c") [bs "a"; bs "b"; bs "c"]).
  { split; [discriminate|]. split; [|reflexivity]. repeat constructor; intros [E|[]]; discriminate. }
  specialize (F P eq_refl eq_refl). discriminate.
Qed.

(** Every text has parts. *)
Lemma has_parts : forall msg, exists l, parts msg l.
Proof.
  induction msg as [|c msg (l & NE & F & E)].
  - exists [[]]. split; [discriminate|]. split; [|reflexivity]. constructor; [intros []|constructor].
  - destruct (Ascii.eqb_spec c DQUOTE) as [->|D].
    + exists ([] :: l). split; [discriminate|]. split; [constructor; [intros []|exact F]|]. destruct l; [congruence|]. rewrite joined_cons, E. reflexivity.
    + destruct l as [|s l]; [congruence|]. exists ((c :: s) :: l). split; [discriminate|]. split.
      * inversion F; subst. constructor; [|assumption]. intros [H|H]; [congruence|contradiction].
      * destruct l; cbn [joined] in *; now rewrite E.
Qed.

(** The model of the replies (C241) uses the same text. *)
Lemma loop_skip r n found : forall s cur, ~ In QUOTE s ->
  quoted_loop (s ++ r) n cur found = quoted_loop r n (match cur with None => None | Some t => Some (t ++ s) end) found.
Proof.
  induction s as [|c s IH]; intros cur N; cbn [app quoted_loop].
  - destruct cur; [now rewrite app_nil_r|reflexivity].
  - destruct (Ascii.eqb_spec c QUOTE) as [->|D]; [exfalso; apply N; now left|]. rewrite IH by (intros I; apply N; now right).
    destruct cur; [|reflexivity]. now rewrite <- app_assoc.
Qed.

Lemma loop_parts : forall (l : list bytes) n (have : bool) found, l <> [] -> Forall (fun s : bytes => ~ In DQUOTE s) l -> n >= 1 ->
  quoted_loop (joined l) n (if have then Some [] else None) found =
  match Nat.min (length l - 1) n with 0 => found | m => at_mark l have m end.
Proof.
  induction l as [|s l IH]; intros n have fd NE F G; [congruence|]. clear NE. inversion F as [|? ? N F']; subst x l0. destruct l as [|s' l].
  - cbn [joined length Nat.sub Nat.min]. rewrite <- (app_nil_r s), loop_skip by exact N. reflexivity.
  - rewrite joined_cons, loop_skip by exact N. cbn [quoted_loop]. change (Ascii.eqb DQUOTE QUOTE) with true. cbv iota.
    destruct n as [|n]; [lia|]. replace (length (s :: s' :: l) - 1) with (S (length (s' :: l) - 1)) by (cbn; lia).
    destruct n as [|n].
    + replace (Nat.min (S (length (s' :: l) - 1)) 1) with 1 by lia. cbn [at_mark]. destruct have; reflexivity.
    + pose proof (IH (S n) true (if have then Some s else None) ltac:(discriminate) F' ltac:(lia)) as H. cbv iota in H.
      transitivity (quoted_loop (joined (s' :: l)) (S n) (Some []) (if have then Some s else None)); [destruct have; reflexivity|]. rewrite H.
      cbn [Nat.min]. destruct (Nat.min (length (s' :: l) - 1) (S n)) as [|m].
      * cbn [at_mark]. destruct have; reflexivity.
      * cbn [at_mark nth_error]. destruct m; reflexivity.
Qed.

Theorem c299_same msg : (lenN msg < 4294967295)%N -> get_quoted_string msg 1 = quoted_string1 msg.
Proof.
  intros L. destruct (has_parts msg) as (l & P). rewrite (c299_given msg l 1 P L) by reflexivity. destruct P as (NE & F & M). cbv zeta.
  unfold quoted_string1. rewrite M at 1. rewrite (loop_parts l 4 false None NE F) by lia. change (N.to_nat (2 * 1 + 2)) with 4.
  destruct (Nat.min (length l - 1) 4) as [|[|m]]; [reflexivity|reflexivity|]. cbn [Nat.leb Nat.sub at_mark]. reflexivity.
Qed.

(* ------------------------------------------------------------------ *)
(** ** C300 *)

Lemma strrchr_spec c : forall s i, match strrchr c i s with
  | None => ~ In c s
  | Some k => exists a b, s = a ++ c :: b /\ ~ In c b /\ k = i + length a
  end.
Proof.
  induction s as [|x s IH]; intros i; cbn [strrchr]; [intros []|]. specialize (IH (S i)). destruct (strrchr c (S i) s) as [k|].
  - destruct IH as (a & b & -> & N & ->). exists (x :: a), b. split; [reflexivity|]. split; [exact N|]. cbn [length]. lia.
  - destruct (Ascii.eqb_spec x c) as [->|D].
    + exists [], s. split; [reflexivity|]. split; [exact IH|]. cbn. lia.
    + intros [H|H]; [congruence|contradiction].
Qed.

Lemma strchr_iff c s : strchr c s = true <-> In c s.
Proof.
  unfold strchr. rewrite existsb_exists. split; [intros (x & I & E); apply Ascii.eqb_eq in E; now subst|intros I; exists c; split; [exact I|apply Ascii.eqb_refl]].
Qed.

(** A path of libyang: with a last step. *)
Theorem c300_partial a b : ~ In "/"%char b ->
  (~ In "@"%char b -> find_lysc_node true (Some (a ++ "/"%char :: b)) = Asks (a ++ "/"%char :: b)) /\
  (In "@"%char b -> find_lysc_node true (Some (a ++ "/"%char :: b)) = Asks a).
Proof.
  intros N. unfold find_lysc_node. cbn [negb]. pose proof (strrchr_spec "/"%char (a ++ "/"%char :: b) 0) as S0.
  assert (E : strrchr "/"%char 0 (a ++ "/"%char :: b) = Some (length a)).
  { destruct (strrchr _ _ _) as [k|]; [|exfalso; apply S0, in_or_app; right; now left]. destruct S0 as (a' & b' & E & N' & ->). f_equal. cbn [Nat.add].
    assert (G : forall (x y : bytes) u v, x ++ "/"%char :: u = y ++ "/"%char :: v -> ~ In "/"%char u -> ~ In "/"%char v -> length x = length y).
    { induction x as [|h x IHx]; intros [|h' y] u v Q U V; cbn in Q; [reflexivity| | |]; injection Q as Q1 Q2.
      - subst. exfalso. apply U. apply in_or_app. right. now left.
      - subst. exfalso. apply V. apply in_or_app. right. now left.
      - cbn. f_equal. eapply IHx; eassumption. }
    symmetry. eapply G; eassumption. }
  rewrite E, skipn_app, skipn_all, Nat.sub_diag. cbn [app skipn].
  rewrite firstn_app, firstn_all, Nat.sub_diag. cbn [firstn]. rewrite app_nil_r.
  split; intros A.
  - assert (H : strchr "@"%char ("/"%char :: b) = false).
    { destruct (strchr _ _) eqn:Q; [|reflexivity]. apply strchr_iff in Q. destruct Q as [Q|Q]; [discriminate|contradiction]. }
    now rewrite H.
  - assert (H : strchr "@"%char ("/"%char :: b) = true) by (apply strchr_iff; now right). now rewrite H.
Qed.

(** The attribute is what follows the last colon. *)
Theorem c300_attr a b : ~ In ":"%char b -> attr_of (a ++ ":"%char :: b) = Some b.
Proof.
  intros N. unfold attr_of. pose proof (strrchr_spec ":"%char (a ++ ":"%char :: b) 0) as S0.
  destruct (strrchr _ _ _) as [k|]; [|exfalso; apply S0, in_or_app; right; now left]. destruct S0 as (a' & b' & E & N' & ->). rewrite E. f_equal.
  cbn [Nat.add]. rewrite skipn_app. rewrite skipn_all2 by lia. replace (length a' + 1 - length a') with 1 by lia. cbn [app skipn].
  revert a' E. induction a as [|h a IH]; intros [|h' a'] E; cbn in E.
  - now injection E as ->.
  - injection E as _ E2. subst. exfalso. apply N. apply in_or_app. right. now left.
  - injection E as _ E2. subst. exfalso. apply N'. apply in_or_app. right. now left.
  - injection E as _ E2. eapply IH. exact E2.
Qed.

(** A path without a slash, or the name of an attribute without a prefix. *)
Theorem c300_unsafe path : (find_lysc_node true (Some path) = NullRead <-> ~ In "/"%char path) /\ (attr_of path = None <-> ~ In ":"%char path).
Proof.
  split.
  - unfold find_lysc_node. cbn [negb]. pose proof (strrchr_spec "/"%char path 0) as S0. destruct (strrchr _ _ _) as [k|].
    + destruct S0 as (a & b & -> & _). split; [destruct (strchr _ _); discriminate|]. intros N. exfalso. apply N. apply in_or_app. right. now left.
    + split; auto.
  - unfold attr_of. pose proof (strrchr_spec ":"%char path 0) as S0. destruct (strrchr _ _ _) as [k|].
    + destruct S0 as (a & b & -> & _). split; [discriminate|]. intros N. exfalso. apply N. apply in_or_app. right. now left.
    + split; auto.
Qed.

Theorem c300_refuted : ~ c300_full.
Proof. intros F. destruct (F true (bs "x")) as [A _]. apply A. reflexivity. Qed.

Example c299_case :
  parts (bs "Unknown XML prefix ""p"" at attribute ""a"".") [bs "Unknown XML prefix "; bs "p"; bs " at attribute "; bs "a"; bs "."] /\
  get_quoted_string (bs "Unknown XML prefix ""p"" at attribute ""a"".") 1 = Some (bs "a") /\
  find_lysc_node true (Some (bs "/ietf-netconf:get/@ncs:flag")) = Asks (bs "/ietf-netconf:get") /\ attr_of (bs "/ietf-netconf:get/@ncs:flag") = Some (bs "flag").
Proof.
  split; [|vm_compute; repeat split; reflexivity]. split; [discriminate|]. split; [|reflexivity].
  repeat constructor; cbn; intros H; repeat (destruct H as [H|H]; [discriminate|]); exact H.
Qed.

Print Assumptions c299_given.
Print Assumptions c299_partial.
Print Assumptions c299_refuted.
Print Assumptions c299_same.
Print Assumptions c300_partial.
Print Assumptions c300_attr.
Print Assumptions c300_unsafe.
Print Assumptions c300_refuted.
