(** Facts about the hello exchange and the capability list. *)
From Coq Require Import Ascii String NArith ZArith Bool Lia List.
From Verif Require Import Bytes CStr Caps Hello IoRead.
Import ListNotations.
Local Open Scope N_scope.

(** *** Versions *)
Definition tidy_cap (c : bytes) : Prop := prefix c base10 \/ prefix c base11 -> c = base10 \/ c = base11.

Lemma strncmp0_self c u : strncmp0 c u (length c) = prefixb c u.
Proof. rewrite <- (app_nil_r c) at 1. apply strncmp0_prefix. Qed.

Lemma not_prefix_10_11 : prefixb base10 base11 = false /\ prefixb base11 base10 = false.
Proof. split; reflexivity. Qed.

Definition rule (ver : option N) (caps : list bytes) : option N :=
  if existsb (beqb base11) caps then Some 1
  else match ver with
       | Some v => Some v
       | None => if existsb (beqb base10) caps then Some 0 else None
       end.

Lemma see_version_tidy ver c :
  tidy_cap c -> (ver = None \/ ver = Some 0 \/ ver = Some 1) ->
  see_version ver c = rule ver [c].
Proof.
  intros Ht Hv. unfold see_version, rule. cbn [existsb]. rewrite !orb_false_r, !strncmp0_self.
  destruct (beqb base11 c) eqn:E1.
  - apply beqb_spec in E1. subst c. change (prefixb base11 base10) with false. change (prefixb base11 base11) with true.
    destruct Hv as [-> | [-> | ->]]; reflexivity.
  - destruct (beqb base10 c) eqn:E2.
    + apply beqb_spec in E2. subst c. change (prefixb base10 base10) with true. change (prefixb base10 base11) with false.
      destruct Hv as [-> | [-> | ->]]; reflexivity.
    + assert (H0 : prefixb c base10 = false).
      { destruct (prefixb c base10) eqn:E; [|reflexivity]. apply prefixb_spec in E.
        destruct (Ht (or_introl E)); subst c; rewrite ?beqb_refl in *; discriminate. }
      assert (H1 : prefixb c base11 = false).
      { destruct (prefixb c base11) eqn:E; [|reflexivity]. apply prefixb_spec in E.
        destruct (Ht (or_intror E)); subst c; rewrite ?beqb_refl in *; discriminate. }
      rewrite H0, H1. destruct Hv as [-> | [-> | ->]]; reflexivity.
Qed.

Local Opaque base10 base11.
Lemma rule_values ver caps : (ver = None \/ ver = Some 0 \/ ver = Some 1) ->
  rule ver caps = None \/ rule ver caps = Some 0 \/ rule ver caps = Some 1.
Proof.
  unfold rule. intros H. destruct (existsb (beqb base11) caps); [right; right; reflexivity|].
  destruct ver as [v|]; [exact H|]. destruct (existsb (beqb base10) caps); [right; left; reflexivity|left; reflexivity].
Qed.

Lemma rule_app ver a b : (ver = None \/ ver = Some 0 \/ ver = Some 1) -> rule (rule ver a) b = rule ver (a ++ b).
Proof.
  intros H. unfold rule. rewrite !existsb_app.
  destruct (existsb (beqb base11) a), (existsb (beqb base11) b), (existsb (beqb base10) a), (existsb (beqb base10) b);
    destruct H as [-> | [-> | ->]]; reflexivity.
Qed.

Fixpoint see_all (ver : option N) (caps : list bytes) : option N :=
  match caps with [] => ver | c :: caps' => see_all (see_version ver c) caps' end.

Lemma see_all_tidy caps : forall ver, (ver = None \/ ver = Some 0 \/ ver = Some 1) ->
  Forall tidy_cap caps -> see_all ver caps = rule ver caps.
Proof.
  induction caps as [|c caps IH]; intros ver Hv Ht.
  - unfold rule. cbn. destruct Hv as [-> | [-> | ->]]; reflexivity.
  - inversion_clear Ht. cbn [see_all]. rewrite see_version_tidy by assumption.
    rewrite IH by (auto using rule_values). apply (rule_app ver [c] caps Hv).
Qed.

Lemma see_all_11 caps : see_all (Some 1) caps = Some 1.
Proof. induction caps as [|c caps IH]; [reflexivity|exact IH]. Qed.

Lemma see_all_values caps : forall ver, (ver = None \/ ver = Some 0 \/ ver = Some 1) ->
  see_all ver caps = None \/ see_all ver caps = Some 0 \/ see_all ver caps = Some 1.
Proof.
  induction caps as [|c caps IH]; intros ver Hv; [exact Hv|]. cbn [see_all]. apply IH.
  unfold see_version. destruct Hv as [-> | [-> | ->]]; repeat destruct (strncmp0 _ _ _); auto.
Qed.

Local Transparent base10 base11.

(** The texts of the children of a capabilities element; [None] if one is not a proper capability. *)
Fixpoint cap_list (ns : list xnode) : option (list bytes) :=
  match ns with
  | [] => Some []
  | XOpaq (Some n) name value _ :: ns' =>
      if beqb n NC_NS_BASE && beqb name (bs "capability") then
        match trim value, cap_list ns' with
        | [], _ => None
        | c, Some l => Some (c :: l)
        | _, None => None
        end
      else None
  | _ => None
  end.

Lemma parse_loop_ok ns : forall ver acc v l,
  parse_cpblts_loop ns ver acc = PcOk v l <->
  exists caps, cap_list ns = Some caps /\ l = acc ++ caps /\ see_all ver caps = Some v.
Proof.
  induction ns as [|[mns name value ch|ch] ns IH]; intros ver acc v l; cbn [parse_cpblts_loop cap_list].
  - destruct ver as [v'|]; split.
    + intros [= -> <-]. exists []. rewrite app_nil_r. auto.
    + intros (caps & [= <-] & -> & [= ->]). now rewrite app_nil_r.
    + discriminate.
    + intros (caps & [= <-] & _ & H). discriminate.
  - unfold is_base. destruct mns as [n|].
    + destruct (beqb name (bs "capability")), (beqb n NC_NS_BASE); cbn [negb orb andb];
        try (split; [discriminate|intros (? & H & _); discriminate]).
      destruct (trim value) as [|x t].
      * split; [discriminate|]. intros (caps & H & _). discriminate.
      * rewrite IH. split.
        -- intros (caps & H1 & -> & H3). rewrite H1. exists ((x :: t) :: caps). rewrite <- app_assoc. auto.
        -- intros (caps & H1 & -> & H3). destruct (cap_list ns) as [l'|]; [|discriminate]. injection H1 as <-.
           exists l'. rewrite <- app_assoc. auto.
    + rewrite orb_true_r. split; [discriminate|intros (? & H & _); discriminate].
  - split; [discriminate|intros (? & H & _); discriminate].
Qed.

Lemma parse_ok x v l :
  parse_cpblts x = PcOk v l <-> cap_list (children_of x) = Some l /\ see_all None l = Some v.
Proof.
  unfold parse_cpblts. rewrite parse_loop_ok. split.
  - intros (caps & H1 & -> & H3). auto.
  - intros [H1 H2]. exists l. auto.
Qed.

(** *** Which elements a hello contains *)
Definition base_el (name : bytes) (x : xnode) : bool :=
  match x with XOpaq mns n _ _ => is_base mns && beqb n name | XData _ => false end.
Definition el_value (x : xnode) : bytes := match x with XOpaq _ _ v _ => v | XData _ => [] end.

Definition caps_els (ns : list xnode) : list xnode := filter (base_el (bs "capabilities")) ns.
Definition sid_els (ns : list xnode) : list xnode := filter (base_el (bs "session-id")) ns.

Lemma name_cases name :
  beqb name (bs "session-id") = true -> beqb name (bs "capabilities") = false.
Proof. intros H. apply beqb_spec in H. subst. reflexivity. Qed.

Lemma caps_not_sid name :
  beqb name (bs "capabilities") = true -> beqb name (bs "session-id") = false.
Proof. intros H. apply beqb_spec in H. subst. reflexivity. Qed.

Ltac els := cbn [filter base_el is_base]; rewrite ?beqb_refl; cbn [andb].

(** Server: acceptance, exactly. *)
Lemma server_loop_ok ns : forall flag s s',
  server_hello_loop ns flag s = HRes T_HELLO s' ->
  h_id s' = h_id s /\ h_cpblts s' = h_cpblts s /\ sid_els ns = [] /\
  (forall x, In x ns -> exists mns n v c, x = XOpaq mns n v c) /\
  match caps_els ns with
  | [] => h_ver s' = h_ver s
  | [x] => flag = false /\ exists caps, cap_list (children_of x) = Some caps /\ see_all None caps = Some (h_ver s')
  | _ => False
  end.
Proof.
  induction ns as [|[mns name value ch|ch] ns IH]; intros flag s s' H; cbn [server_hello_loop] in H.
  - injection H as <-. cbn. intuition.
  - unfold caps_els, sid_els in *. cbn [filter base_el].
    destruct (is_base mns) eqn:Eb; cbn [negb andb] in *.
    + destruct (beqb name (bs "capabilities")) eqn:Ec; cbn [negb] in H; [|discriminate].
      rewrite (caps_not_sid _ Ec). destruct flag; [discriminate|].
      destruct (parse_cpblts (XOpaq mns name value ch)) as [v l| |] eqn:Ep; try discriminate.
      apply IH in H. destruct H as (H1 & H2 & H3 & H4 & H5). cbn [h_id h_ver h_cpblts] in *.
      split; [exact H1|]. split; [exact H2|]. split; [exact H3|]. split.
      * intros x [<-|Hx]; [now exists mns, name, value, ch|auto].
      * destruct (filter (base_el (bs "capabilities")) ns) as [|y [|z r]]; [|destruct H5; discriminate|contradiction].
        split; [reflexivity|]. apply parse_ok in Ep. exists l. rewrite H5. exact Ep.
    + apply IH in H. destruct H as (H1 & H2 & H3 & H4 & H5).
      split; [exact H1|]. split; [exact H2|]. split; [exact H3|]. split; [|exact H5].
      intros x [<-|Hx]; [now exists mns, name, value, ch|auto].
  - discriminate.
Qed.

Definition id_of (v : bytes) (id : N) : Prop := exists z, strtoll_full v = Some z /\ (1 <= z <= 4294967295)%Z /\ id = Z.to_N z.

Lemma client_loop_ok ns : forall flag s s',
  client_hello_loop ns flag s = HRes T_HELLO s' ->
  h_id s' <> 0 /\
  (match rev (sid_els ns) with
   | [] => h_id s' = h_id s
   | x :: _ => id_of (el_value x) (h_id s')
   end) /\
  (forall x, In x (sid_els ns) -> exists id, id_of (el_value x) id) /\
  (forall x, In x ns -> exists mns n v c, x = XOpaq mns n v c) /\
  match caps_els ns with
  | [] => h_ver s' = h_ver s /\ h_cpblts s' = h_cpblts s
  | [x] => flag = false /\ exists caps, cap_list (children_of x) = Some caps /\ see_all None caps = Some (h_ver s') /\ h_cpblts s' = Some caps
  | _ => False
  end.
Proof.
  induction ns as [|[mns name value ch|ch] ns IH]; intros flag s s' H; cbn [client_hello_loop] in H.
  - destruct (N.eqb_spec (h_id s) 0); [discriminate|]. injection H as <-. cbn. intuition.
  - unfold caps_els, sid_els in *. cbn [filter base_el].
    destruct (is_base mns) eqn:Eb; cbn [negb andb] in *.
    + destruct (beqb name (bs "session-id")) eqn:Es.
      * rewrite (name_cases _ Es). destruct (strtoll_full value) as [z|] eqn:Ez; [|discriminate].
        destruct ((z <? 1)%Z || (4294967295 <? z)%Z) eqn:Er; [discriminate|].
        apply orb_false_iff in Er. rewrite !Z.ltb_ge in Er.
        apply IH in H. destruct H as (H1 & H2 & H3 & H4 & H5). cbn [h_id h_ver h_cpblts] in *.
        assert (Hid : id_of value (Z.to_N z)) by (exists z; repeat split; auto; lia).
        split; [exact H1|]. split.
        { cbn [rev]. destruct (rev (filter (base_el (bs "session-id")) ns)) as [|y r]; cbn [app el_value].
          - now rewrite H2.
          - exact H2. }
        split; [intros x [<-|Hx]; [exists (Z.to_N z); exact Hid|auto]|].
        split; [|exact H5]. intros x [<-|Hx]; [now exists mns, name, value, ch|auto].
      * destruct (beqb name (bs "capabilities")) eqn:Ec; cbn [negb] in H; [|discriminate].
        destruct flag; [discriminate|].
        destruct (parse_cpblts (XOpaq mns name value ch)) as [v l| |] eqn:Ep; try discriminate.
        apply IH in H. destruct H as (H1 & H2 & H3 & H4 & H5). cbn [h_id h_ver h_cpblts] in *.
        split; [exact H1|]. split; [exact H2|]. split; [exact H3|]. split.
        { intros x [<-|Hx]; [now exists mns, name, value, ch|auto]. }
        destruct (filter (base_el (bs "capabilities")) ns) as [|y [|z r]]; [|destruct H5; discriminate|contradiction].
        split; [reflexivity|]. apply parse_ok in Ep. destruct H5 as [H5 H6]. exists l. rewrite H5, H6. intuition.
    + apply IH in H. destruct H as (H1 & H2 & H3 & H4 & H5).
      split; [exact H1|]. split; [exact H2|]. split; [exact H3|]. split; [|exact H5].
      intros x [<-|Hx]; [now exists mns, name, value, ch|auto].
  - discriminate.
Qed.

(** *** The capability list *)

Lemma same_cpblt_spec capab have :
  same_cpblt (length (uri capab)) capab have = true <-> uri have = uri capab.
Proof.
  unfold same_cpblt. rewrite andb_true_iff.
  pose proof (before_not_in QMARK capab) as Hn.
  assert (Hc : exists r, capab = uri capab ++ r).
  { destruct (before_split QMARK capab) as [E|[r E]]; [exists []; unfold uri; rewrite app_nil_r; exact E|now exists (QMARK :: r)]. }
  destruct Hc as [r Hc]. set (u := uri capab) in *. fold u in Hn.
  assert (Hs : strncmp0 have capab (length u) = prefixb u have).
  { rewrite Hc. clear. revert have. induction u as [|x u IH]; intros have; [reflexivity|].
    cbn [app length strncmp0 prefixb]. destruct have as [|y have]; [reflexivity|]. rewrite IH.
    f_equal. apply Ascii.eqb_sym. }
  rewrite Hs, prefixb_spec. split.
  - intros [[q ->] Hq]. unfold uri. rewrite nth_error_app2, Nat.sub_diag in Hq by lia.
    destruct q as [|c q]; [rewrite app_nil_r; apply before_id; exact Hn|].
    cbn in Hq. apply Ascii.eqb_eq in Hq. subst c. now apply before_app.
  - intros E. assert (Hh : have = u \/ exists q, have = u ++ QMARK :: q).
    { rewrite <- E. apply before_split. }
    destruct Hh as [-> | [q ->]].
    + split; [exists []; now rewrite app_nil_r|]. assert (nth_error u (length u) = None) as -> by (apply nth_error_None; lia). reflexivity.
    + split; [now eexists|]. rewrite nth_error_app2, Nat.sub_diag by lia. reflexivity.
Qed.

Lemma existsb_same capab l :
  existsb (same_cpblt (length (uri capab)) capab) l = true <-> In (uri capab) (map uri l).
Proof.
  rewrite existsb_exists, in_map_iff. split; intros (x & H1 & H2).
  - exists x. apply same_cpblt_spec in H2. auto.
  - exists x. split; [assumption|]. now apply same_cpblt_spec.
Qed.

(** [ext l l']: [l'] is [l] with some capabilities appended, identifiers kept distinct. *)
Definition ext (l l' : list bytes) : Prop := (exists r, l' = l ++ r) /\ (NoDup (map uri l) -> NoDup (map uri l')).

Lemma ext_refl l : ext l l.
Proof. split; [exists []; now rewrite app_nil_r|auto]. Qed.
Lemma ext_trans a b c : ext a b -> ext b c -> ext a c.
Proof. intros [[r1 ->] H1] [[r2 ->] H2]. split; [exists (r1 ++ r2); now rewrite app_assoc|auto]. Qed.

Lemma add_ext c l : ext l (add_cpblt c l) /\ In (uri c) (map uri (add_cpblt c l))
  /\ (~ In (uri c) (map uri l) -> In c (add_cpblt c l)).
Proof.
  unfold add_cpblt. destruct (existsb _ l) eqn:E.
  - apply existsb_same in E. split; [apply ext_refl|]. split; [exact E|tauto].
  - assert (~ In (uri c) (map uri l)) by (intros H; apply existsb_same in H; congruence).
    split; [|split].
    + split; [now eexists|]. intros Hnd. rewrite map_app. cbn.
      apply (proj2 (NoDup_Add (a := uri c) (l := map uri l) (l' := map uri l ++ [uri c])
                     ltac:(pose proof (Add_app (uri c) (map uri l) []) as A; rewrite app_nil_r in A; exact A))).
      split; assumption.
    + rewrite map_app, in_app_iff. right. now left.
    + intros _. rewrite in_app_iff. right. now left.
Qed.

Lemma add_in_cases x c l : In x (add_cpblt c l) -> In x l \/ x = c.
Proof. unfold add_cpblt. destruct (existsb _ l); [auto|]. rewrite in_app_iff. cbn. intuition. Qed.

Lemma ext_in l l' x : ext l l' -> In x l -> In x l'.
Proof. intros [[r ->] _] H. apply in_or_app. now left. Qed.

Lemma ext_uri l l' x : ext l l' -> In x (map uri l) -> In x (map uri l').
Proof. intros [[r ->] _] H. rewrite map_app. apply in_or_app. now left. Qed.

Lemma add_if_ext b c l : ext l (add_if b c l).
Proof. unfold add_if. destruct b; [apply add_ext|apply ext_refl]. Qed.

Lemma netconf_ext fs l : ext l (netconf_cpblts fs l).
Proof.
  unfold netconf_cpblts. cbv zeta.
  repeat match goal with |- ext _ (add_if _ _ _) => eapply ext_trans; [|apply add_if_ext] end.
  destruct (has "candidate" fs); [|apply add_if_ext].
  eapply ext_trans; [|apply add_if_ext]. eapply ext_trans; [|apply add_ext]. apply add_if_ext.
Qed.

Lemma withdef_ext o l : ext l (withdef_cpblts o l).
Proof. unfold withdef_cpblts. destruct (_ =? 0); [apply ext_refl|]. destruct (_ =? 0); [apply ext_refl|]. apply add_ext. Qed.

Lemma fold_ext caps : forall l, ext l (fold_left (fun l c => add_cpblt c l) caps l).
Proof.
  induction caps as [|c caps IH]; intros l; [apply ext_refl|]. cbn. eapply ext_trans; [apply add_ext|apply IH].
Qed.

Lemma fold_uri caps : forall l c, In c caps -> In (uri c) (map uri (fold_left (fun l c => add_cpblt c l) caps l)).
Proof.
  induction caps as [|x caps IH]; intros l c H; [destruct H|]. destruct H as [<-|H]; cbn.
  - eapply ext_uri; [apply fold_ext|]. apply add_ext.
  - now apply IH.
Qed.

Lemma mods_ext o ch v ms : forall l l', mods_cpblts o ch v ms l = CapOk l' -> ext l l'.
Proof.
  induction ms as [|m ms IH]; intros l l' H; cbn [mods_cpblts] in H; [injection H as <-; apply ext_refl|].
  destruct (beqb (m_name m) _).
  - destruct (m_rev m) as [r|]; [|discriminate]. destruct (_ && _); [discriminate|].
    destruct (match s_cid o with None => _ | Some x => x end); [|discriminate].
    destruct (cat _ _); [|discriminate]. apply IH in H. eapply ext_trans; [|exact H]. apply add_ext.
  - destruct (_ && _); [auto|]. destruct (_ && _); [auto|]. destruct (mod_str m); [|discriminate].
    apply IH in H. eapply ext_trans; [|exact H]. apply add_ext.
Qed.

Lemma cpblts_start o c v l : get_cpblts o c v = CapOk l -> ext [base10; base11] l.
Proof.
  unfold get_cpblts. intros H. apply mods_ext in H. eapply ext_trans; [|exact H].
  eapply ext_trans; [|apply fold_ext]. destruct (c_withdef c); [eapply ext_trans; [|apply withdef_ext]|];
    (destruct (c_netconf c); [apply netconf_ext|apply ext_refl]).
Qed.

(** *** White space and numbers *)
Definition hard_ends (c : bytes) : Prop :=
  exists x, hd_error c = Some x /\ is_space x = false /\ exists c' y, c = c' ++ [y] /\ is_space y = false.

Lemma skip_space_app ws s : forallb is_space ws = true -> skip_space (ws ++ s) = skip_space s.
Proof. induction ws as [|x ws IH]; [reflexivity|]. cbn. intros H. apply andb_true_iff in H. destruct H as [-> H]. auto. Qed.

Lemma rtrim_space ws : forallb is_space ws = true -> rtrim ws = [].
Proof. induction ws as [|x ws IH]; [reflexivity|]. cbn. intros H. apply andb_true_iff in H. destruct H as [H1 H2]. now rewrite IH, H1. Qed.

Lemma rtrim_app c y ws : is_space y = false -> forallb is_space ws = true -> rtrim ((c ++ [y]) ++ ws) = c ++ [y].
Proof.
  intros Hy Hw. induction c as [|x c IH]; cbn.
  - now rewrite rtrim_space, Hy.
  - cbn in IH. rewrite IH. destruct (c ++ [y]) eqn:E; [now destruct c|reflexivity].
Qed.

Lemma trim_pad ws c ws' : forallb is_space ws = true -> forallb is_space ws' = true -> hard_ends c ->
  trim (ws ++ c ++ ws') = c.
Proof.
  intros H1 H2 (x & Hx & Hsx & c' & y & -> & Hy). unfold trim. rewrite skip_space_app by exact H1.
  assert (E : skip_space ((c' ++ [y]) ++ ws') = (c' ++ [y]) ++ ws').
  { destruct (c' ++ [y]) as [|z r]; [discriminate|]. injection Hx as ->. cbn. now rewrite Hsx. }
  rewrite E. now apply rtrim_app.
Qed.

Lemma strtoll_full_dec n : strtoll_full (dec n) = Some (Z.of_N n).
Proof.
  unfold strtoll_full. pose proof (dec_nonempty n) as Hne. pose proof (dec_digits n) as Hd. pose proof (dec_val n) as Hv.
  destruct (dec n) as [|c d]; [congruence|].
  destruct (digit_facts c (Hd c (or_introl eq_refl))) as (H0 & H1 & H2 & _).
  apply Ascii.eqb_neq in H1, H2. cbn [skip_space]. rewrite H0. cbn [split_sign]. rewrite H1, H2.
  assert (E : forallb is_digit (c :: d) = true) by (apply forallb_forall; exact Hd). rewrite E, Hv. reflexivity.
Qed.

Lemma digits_val_fold d : forall acc, forallb is_digit d = true ->
  digits_val acc d = fold_left (fun a c => 10 * a + (N_of_ascii c - 48)) d acc.
Proof.
  induction d as [|c d IH]; intros acc H; [reflexivity|]. cbn [forallb] in H. apply andb_true_iff in H. destruct H as [Hc H].
  cbn [digits_val fold_left]. rewrite Hc, IH by exact H. unfold digit_val. now rewrite (N.mul_comm acc 10).
Qed.

Lemma skip_space_split s : exists ws, s = ws ++ skip_space s /\ forallb is_space ws = true.
Proof.
  induction s as [|x s (ws & E & H)]; [now exists []|]. cbn. destruct (is_space x) eqn:Ex.
  - exists (x :: ws). cbn. now rewrite <- E, Ex.
  - now exists [].
Qed.

Lemma id_of_shape v id : id_of v id ->
  exists ws sign ds, v = ws ++ sign ++ ds /\ forallb is_space ws = true /\ (sign = [] \/ sign = bs "+")
    /\ ds <> [] /\ forallb is_digit ds = true /\ fold_left (fun a c => 10 * a + (N_of_ascii c - 48)) ds 0 = id
    /\ 1 <= id <= 4294967295.
Proof.
  intros (z & H & Hz & ->). unfold strtoll_full in H. destruct (skip_space_split v) as (ws & Ev & Hw).
  destruct (skip_space v) as [|c r]; [discriminate|]. cbn [split_sign] in H.
  assert (Hpos : forall d, d <> [] -> forallb is_digit d = true -> Some (Z.of_N (digits_val 0 d)) = Some z ->
            fold_left (fun a c => 10 * a + (N_of_ascii c - 48)) d 0 = Z.to_N z /\ 1 <= Z.to_N z <= 4294967295).
  { intros d _ Hd E. rewrite <- digits_val_fold by exact Hd. injection E as E. lia. }
  destruct (Ascii.eqb_spec c "-").
  - destruct r as [|y r']; [discriminate|]. destruct (forallb is_digit (y :: r')); [|discriminate].
    exfalso. assert (z <= 0)%Z by (remember (digits_val 0 (y :: r')) as q; injection H as <-; lia). lia.
  - destruct (Ascii.eqb_spec c "+") as [->|Hp].
    + destruct r as [|y r']; [discriminate|]. destruct (forallb is_digit (y :: r')) eqn:Ed; [|discriminate].
      exists ws, (bs "+"), (y :: r'). repeat split; auto; try discriminate; apply (Hpos (y :: r')); auto; discriminate.
    + destruct (forallb is_digit (c :: r)) eqn:Ed; [|discriminate].
      exists ws, [], (c :: r). repeat split; auto; try discriminate; apply (Hpos (c :: r)); auto; discriminate.
Qed.

(** *** Session ids over a history *)
Definition acc_call := (bool * attempt)%type.
Definition run_call (cm ctr : N) (k : acc_call) : accres :=
  if fst k then ssh_channel_accept cm ctr (snd k) else server_accept cm ctr (snd k).

(** Ids handed out by a history of calls starting at counter [ctr]; it stops at undefined behaviour. *)
Fixpoint ids_from (cm ctr : N) (h : list acc_call) : list N :=
  match h with
  | [] => []
  | k :: h' => match run_call cm ctr k with
               | AccRes _ s ctr' => (match s with Some x => [se_id x] | None => [] end) ++ ids_from cm ctr' h'
               | AccUb => []
               end
  end.

Lemma handshake_server_id sent r s s' : handshake false sent r s = HRes T_HELLO s' -> h_id s' = h_id s.
Proof.
  unfold handshake, server_recv_hello. destruct sent; try discriminate.
  destruct r as [[[x|]|]| |]; intros H; try discriminate; now apply server_loop_ok in H.
Qed.

Lemma run_call_ctr cm ctr k rc s ctr' : run_call cm ctr k = AccRes rc s ctr' ->
  (ctr' = ctr /\ s = None) \/
  (ctr' = (ctr + 1) mod cm /\ forall x, s = Some x -> se_id x = next_id ctr).
Proof.
  unfold run_call, server_accept, ssh_channel_accept. intros H.
  assert (G : forall sent r, match handshake false sent r (mkH (next_id ctr) 0 None) with
        | HUb => AccUb
        | HRes T_HELLO s => AccRes T_HELLO (Some (mkSess (h_id s) ST_RUNNING (h_ver s) (h_cpblts s))) ((ctr + 1) mod cm)
        | HRes rc _ => AccRes rc None ((ctr + 1) mod cm) end = AccRes rc s ctr' ->
        ctr' = (ctr + 1) mod cm /\ forall x, s = Some x -> se_id x = next_id ctr).
  { intros sent r. destruct (handshake _ sent r _) as [[] t|] eqn:E; try discriminate.
    - intros E2. inversion_clear E2. split; [reflexivity|]. intros x [= <-]. cbn. now apply handshake_server_id in E.
    - intros E2. inversion_clear E2. split; [reflexivity|discriminate].
    - intros E2. inversion_clear E2. split; [reflexivity|discriminate].
    - intros E2. inversion_clear E2. split; [reflexivity|discriminate]. }
  destruct (fst k).
  - destruct (a_tp (snd k)); [right; eapply G; exact H| |]; left; inversion_clear H; auto.
  - destruct (ctr =? 0); [left; inversion_clear H; auto|].
    destruct (a_tp (snd k)); [right; eapply G; exact H| |]; left; inversion_clear H; auto.
Qed.

Lemma ids_range cm h : forall ctr, w32 <= cm -> 1 <= ctr -> ctr + N.of_nat (length h) <= w32 ->
  (forall i, In i (ids_from cm ctr h) -> ctr <= i < w32) /\ NoDup (ids_from cm ctr h).
Proof.
  induction h as [|k h IH]; intros ctr Hcm H1 H2; [split; [intros i []|constructor]|].
  cbn [ids_from length] in *. rewrite Nat2N.inj_succ in H2.
  destruct (run_call cm ctr k) as [rc s ctr'|] eqn:E; [|split; [intros i []|constructor]].
  apply run_call_ctr in E. destruct E as [[-> ->]|[Ec Hs]].
  - cbn [app]. apply IH; lia.
  - destruct (N.lt_ge_cases (ctr + 1) w32) as [Hlt|Hge].
    + rewrite N.mod_small in Ec by lia. subst ctr'.
      destruct (IH (ctr + 1)) as [Hr Hn]; [lia|lia|lia|].
      destruct s as [x|]; cbn [app].
      * rewrite (Hs x eq_refl). unfold next_id. rewrite N.mod_small by lia. split.
        -- intros i [<-|Hi]; [lia|]. apply Hr in Hi. lia.
        -- constructor; [|exact Hn]. intros Hi. apply Hr in Hi. lia.
      * split; [|exact Hn]. intros i Hi. apply Hr in Hi. lia.
    + assert (h = []) by (destruct h; [reflexivity|cbn [length] in H2; lia]). subst h. cbn [ids_from].
      destruct s as [x|]; cbn [app]; [|split; [intros i []|constructor]].
      rewrite (Hs x eq_refl). unfold next_id. rewrite N.mod_small by lia. split.
      * intros i [<-|[]]. lia.
      * constructor; [intros []|constructor].
Qed.

(** *** Where members of the capability list come from *)
Lemma fold_in caps : forall l x, In x (fold_left (fun l c => add_cpblt c l) caps l) -> In x l \/ In x caps.
Proof.
  induction caps as [|c caps IH]; intros l x H; [now left|]. cbn in H. apply IH in H. destruct H as [H|H].
  - apply add_in_cases in H. destruct H as [H| ->]; [now left|right; now left].
  - right. now right.
Qed.

Definition nc_feature_cap (x : bytes) : Prop :=
  In x (map capa ["writable-running:1.0"; "candidate:1.0"; "confirmed-commit:1.1"; "rollback-on-error:1.0";
                  "validate:1.1"; "startup:1.0"; "xpath:1.0"])%string.

Lemma add_if_in b c l x : In x (add_if b c l) -> In x l \/ x = c.
Proof. unfold add_if. destruct b; [apply add_in_cases|now left]. Qed.

Local Opaque capa.
Lemma netconf_in fs l x : In x (netconf_cpblts fs l) -> In x l \/ nc_feature_cap x.
Proof.
  unfold netconf_cpblts, nc_feature_cap. cbv zeta. cbn [map In]. intros H.
  repeat (apply add_if_in in H; destruct H as [H| ->]; [|right; tauto]).
  destruct (has "candidate" fs).
  - apply add_if_in in H; destruct H as [H| ->]; [|right; tauto].
    apply add_in_cases in H; destruct H as [H| ->]; [|right; tauto].
    apply add_if_in in H; destruct H as [H| ->]; [now left|right; tauto].
  - apply add_if_in in H; destruct H as [H| ->]; [now left|right; tauto].
Qed.
Local Transparent capa.

Lemma cat_prefix b s r : cat b s = Some r -> prefix b r.
Proof. unfold cat. destruct (_ <? _); [|discriminate]. intros [= <-]. now exists s. Qed.

Lemma prefix_trans (a b c : bytes) : prefix a b -> prefix b c -> prefix a c.
Proof. intros [r ->] [q ->]. exists (r ++ q). now rewrite app_assoc. Qed.

Lemma prefix_refl (a : bytes) : prefix a a.
Proof. exists []. now rewrite app_nil_r. Qed.

Lemma feats_prefix fs : forall b n r, cat_feats b n fs = Some r -> prefix b r.
Proof.
  induction fs as [|[f []] fs IH]; intros b n r H; cbn [cat_feats] in H; [injection H as <-; apply prefix_refl| |eauto].
  destruct (if n then Some b else cat b _) as [b1|] eqn:E; [|discriminate].
  assert (prefix b b1) by (destruct n; [injection E as <-; apply prefix_refl|eapply cat_prefix; exact E]).
  destruct (_ <=? _); [injection H as <-; assumption|].
  destruct (cat b1 _) as [b2|] eqn:E2; [|discriminate]. apply cat_prefix in E2. apply IH in H. eauto using prefix_trans.
Qed.

Lemma devs_prefix ds : forall b n r, cat_devs b n ds = Some r -> prefix b r.
Proof.
  induction ds as [|d ds IH]; intros b n r H; cbn [cat_devs] in H; [injection H as <-; apply prefix_refl|].
  destruct (_ <=? _); [injection H as <-; apply prefix_refl|].
  destruct (cat b _) as [b2|] eqn:E2; [|discriminate]. apply cat_prefix in E2. apply IH in H. eauto using prefix_trans.
Qed.

Lemma mod_str_prefix m s : mod_str m = Some s -> prefix (m_ns m ++ bs "?module=" ++ m_name m) s.
Proof.
  unfold mod_str. set (t := match m_rev m with None => _ | Some r => _ end). clearbody t. intros H.
  destruct (cat [] _) as [b|] eqn:E; [|discriminate]. unfold cat in E. destruct (_ <? _); [|discriminate].
  injection E as <-. destruct (cat_feats _ _ _) as [b1|] eqn:E1; [|discriminate]. apply feats_prefix in E1.
  apply prefix_trans with b1.
  - eapply prefix_trans; [|exact E1]. exists t. cbn [app]. now rewrite <- !app_assoc.
  - destruct (m_devs m); [|injection H as <-; apply prefix_refl].
    destruct (cat b1 _) as [b2|] eqn:E2; [|discriminate]. apply cat_prefix in E2. apply devs_prefix in H. eauto using prefix_trans.
Qed.

(** The revisions of ietf-yang-library give two forms. *)
Definition yanglib_cap (x : bytes) : Prop :=
  prefix (capa "yang-library:1.0?revision=") x \/ prefix (capa "yang-library:1.1?revision=") x.

Lemma mods_in o ch v ms : forall l l' x, mods_cpblts o ch v ms l = CapOk l' -> In x l' ->
  In x l \/ yanglib_cap x \/ exists m, In m ms /\ prefix (m_ns m ++ bs "?module=" ++ m_name m) x.
Proof.
  induction ms as [|m ms IH]; intros l l' x H Hx; cbn [mods_cpblts] in H; [injection H as <-; now left|].
  assert (W : forall l0, mods_cpblts o ch v ms l0 = CapOk l' ->
    In x l0 \/ yanglib_cap x \/ exists m0, In m0 (m :: ms) /\ prefix (m_ns m0 ++ bs "?module=" ++ m_name m0) x).
  { intros l0 H0. destruct (IH _ _ _ H0 Hx) as [?|[?|(m0 & ? & ?)]]; auto. right. right. exists m0. split; [now right|assumption]. }
  destruct (beqb (m_name m) _).
  - destruct (m_rev m) as [r|]; [|discriminate]. destruct (_ && _); [discriminate|].
    destruct (match s_cid o with None => _ | Some x => x end) as [cid|]; [|discriminate].
    destruct (cat _ _) as [s|] eqn:E; [|discriminate]. destruct (W _ H) as [Hi|Ho]; [|now right].
    apply add_in_cases in Hi. destruct Hi as [Hi| ->]; [now left|]. right. left.
    unfold cat in E. destruct (_ <? _); [|discriminate]. injection E as <-. cbn [app]. unfold yanglib_cap.
    destruct (beqb r REV19); [right|left]; now eexists.
  - destruct (_ && _); [auto|]. destruct (_ && _); [auto|]. destruct (mod_str m) as [s|] eqn:E; [|discriminate].
    destruct (W _ H) as [Hi|Ho]; [|now right].
    apply add_in_cases in Hi. destruct Hi as [Hi| ->]; [now left|]. right. right. exists m. split; [now left|].
    now apply mod_str_prefix.
Qed.

Lemma cpblts_in o c v l x : get_cpblts o c v = CapOk l -> In x l ->
  x = base10 \/ x = base11 \/ nc_feature_cap x
  \/ (c_withdef c = true /\ s_basic o <> 0 /\ s_also o <> 0 /\
      x = capa "with-defaults:1.0" ++ wd_basic_str (s_basic o) ++ wd_also_str (s_also o))
  \/ In x (s_caps o) \/ yanglib_cap x
  \/ exists m, In m (c_mods c) /\ prefix (m_ns m ++ bs "?module=" ++ m_name m) x.
Proof.
  unfold get_cpblts. intros H Hx. destruct (mods_in _ _ _ _ _ _ _ H Hx) as [Hi|[Hi|Hi]]; [|tauto|tauto].
  apply fold_in in Hi. destruct Hi as [Hi|Hi]; [|tauto].
  assert (G : forall l0, In x l0 -> l0 = match c_netconf c with Some fs => netconf_cpblts fs [base10; base11] | None => [base10; base11] end ->
      x = base10 \/ x = base11 \/ nc_feature_cap x).
  { intros l0 Hl ->. destruct (c_netconf c).
    - apply netconf_in in Hl. destruct Hl as [[<-|[<-|[]]]|Hl]; tauto.
    - destruct Hl as [<-|[<-|[]]]; tauto. }
  destruct (c_withdef c); [|specialize (G _ Hi eq_refl); tauto].
  unfold withdef_cpblts in Hi. destruct (N.eqb_spec (s_basic o) 0); [specialize (G _ Hi eq_refl); tauto|].
  destruct (N.eqb_spec (s_also o) 0); [specialize (G _ Hi eq_refl); tauto|].
  apply add_in_cases in Hi. destruct Hi as [Hi|Hi]; [specialize (G _ Hi eq_refl); tauto|]. right. right. right. left. auto.
Qed.

Lemma fold_first pre c post : forall l, ~ In (uri c) (map uri l) -> ~ In (uri c) (map uri pre) ->
  In c (fold_left (fun l c => add_cpblt c l) (pre ++ c :: post) l).
Proof.
  induction pre as [|x pre IH]; intros l Hl Hp; cbn [app fold_left].
  - eapply ext_in; [apply fold_ext|]. now apply add_ext.
  - apply IH.
    + intros H. apply in_map_iff in H. destruct H as (y & E & Hy). apply add_in_cases in Hy. destruct Hy as [Hy| ->].
      * apply Hl. rewrite <- E. now apply in_map.
      * apply Hp. left. exact E.
    + intros H. apply Hp. now right.
Qed.
