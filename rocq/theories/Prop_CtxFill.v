(** C124-C129: the context of a client session. *)
From Coq Require Import Ascii String NArith ZArith Bool Lia List.
From Verif Require Import Bytes CStr ClientMsgs ModInfo CtxFill.
From Verif Require Prop_YlModule.
Import ListNotations.
Local Open Scope list_scope.

(* ------------------------------------------------------------------ *)
(** ** C125, C129: the settings of the context are restored *)

Lemma settings_restored w disabled hasucb shared cs s s' r :
  check_and_fill w disabled hasucb shared cs s = Ret (s', r) ->
  clb s = CbUser ->
  clb s' = CbUser /\
  (dis s = false -> expl s = false -> dis s' = false /\ expl s' = false).
Proof.
  intros H C. unfold check_and_fill in H.
  assert (F : forall p sh yl ms t, finish w p sh yl ms t = Ret (s', r) -> clb s' = CbUser /\ dis s' = false /\ expl s' = false).
  { intros p sh yl ms t. unfold finish. destruct (fill w p ms ms _) as [[s1 []]|]; try discriminate.
    - destruct (w_compile w (log s1)); [|intros [= <- <-]; auto]. destruct yl; [|intros [= <- <-]; auto].
      destruct (schema_mount _ _ _) as [s3 b]. intros [= <- <-]. auto.
    - intros [= <- <-]. auto. }
  assert (G : disabled = false -> clb s' = CbUser /\ dis s' = false /\ expl s' = false).
  { intros ->. destruct (if isSome (last_cap MON_CAP cs) then _ else _) as [s1 g].
    destruct (fill_ietf_netconf _ _ _ _) as [[s2 []]|]; try discriminate; [|injection H as <- <-; auto].
    destruct (load_yanglib _ _ _ _ _) as [[s3 []]|]; try discriminate; [|exact (F _ _ _ _ _ H)].
    destruct (module_info_yl _ _ _) as [[s4 [sm|]]|]; try discriminate; [|exact (F _ _ _ _ _ H)].
    destruct (existsb _ sm); [|exact (F _ _ _ _ _ H)].
    destruct (load_module _ _ _ _ _ _ _) as [[s5 x]|]; try discriminate. exact (F _ _ _ _ _ H). }
  destruct disabled; [injection H as <- <-; auto|]. destruct (G eq_refl) as (A & B & D). auto.
Qed.

Theorem c125_callback_restored w disabled hasucb shared cs s s' r :
  check_and_fill w disabled hasucb shared cs s = Ret (s', r) -> clb s = CbUser -> clb s' = CbUser.
Proof. intros H C. now destruct (settings_restored _ _ _ _ _ _ _ _ H C). Qed.
Theorem c129_options_restored_partial w disabled hasucb shared cs s s' r :
  check_and_fill w disabled hasucb shared cs s = Ret (s', r) -> clb s = CbUser ->
  dis s = false -> expl s = false ->
  dis s' = dis s /\ expl s' = expl s.
Proof. intros H C D E. destruct (settings_restored _ _ _ _ _ _ _ _ H C) as [_ G]. rewrite D, E. auto. Qed.

(* ------------------------------------------------------------------ *)
(** ** C126: where modules come from *)

Section Sources.
Variable w : world.

(** What may precede an event, and that a local file for a revision is one that has a revision in its name; the part of the log before it is given newest first. *)
Definition no_revision (r : option bytes) : Prop := r = None \/ r = Some [].
Definition justified (announced user : Prop) (e : ev) (before : hist) : Prop :=
  match e with
  | EGet n r _ => announced /\
      ((exists h, before = ELocal n r false :: h) \/
       (exists mn mr sub h, before = EImport mn mr sub :: h /\ no_revision mr))
  | EUser n r _ => user /\
      exists h, before = EGet n r false :: ELocal n r false :: h \/
                before = ELocal n r false :: EGet n r false :: h \/
                (before = ELocal n r false :: h /\ ~ announced)
  | ELocal n (Some r) true => exists f d, w_local w before n (Some r) = Some (f, Some d) /\ In "@"%char f
  | _ => True
  end.
Fixpoint okl (a u : Prop) (l : hist) : Prop :=
  match l with [] => True | e :: h => justified a u e h /\ okl a u h end.
Lemma okl_at a u l : okl a u l -> forall h2 e h1, l = h2 ++ e :: h1 -> justified a u e h1.
Proof.
  induction l as [|x l IH]; intros H h2 e h1 E; [destruct h2; discriminate|]. destruct H as [J H].
  destruct h2 as [|y h2]; cbn in E; injection E as -> ->; [exact J|]. exact (IH H h2 e h1 eq_refl).
Qed.

Variable p : params.
Notation U := (ucb p = true).
Notation A := (gs p = true).

Lemma local_ok a u s n r s' d : okl a u (log s) -> localfile w s n r = (s', d) ->
  okl a u (log s') /\ log s' = ELocal n r (isSome d) :: log s.
Proof.
  unfold localfile. intros H [= <- <-]. split; [split; [|exact H]|reflexivity]. cbn [justified].
  destruct r as [r|]; [|exact Logic.I]. cbn [isSome andb].
  destruct (w_local w (log s) n (Some r)) as [[f d]|]; [|exact Logic.I].
  destruct (has_at f) eqn:E; cbn [negb]; [|exact Logic.I]. destruct d as [d|]; [|exact Logic.I]. cbn [isSome].
  exists f, d. split; [reflexivity|]. unfold has_at in E. apply existsb_exists in E as (c & I & E).
  apply Ascii.eqb_eq in E as ->. exact I.
Qed.
Lemma get_log s n r s' d : getschema w s n r = (s', d) -> log s' = EGet n r (isSome d) :: log s.
Proof.
  unfold getschema. destruct (running s); [|intros [= <- <-]; reflexivity]. destruct (w_get w (log s) n r) as [x y].
  intros [= <- <-]. reflexivity.
Qed.
Lemma user_log h s n r s' d : usercb w h s n r = (s', d) -> log s' = log s \/ (h = true /\ log s' = EUser n r (isSome d) :: log s).
Proof. unfold usercb. destruct h; intros [= <- <-]; auto. Qed.

(** Local file first. *)
Lemma retrieve_ok s n r : okl A U (log s) -> okl A U (log (fst (retrieve w p s n r))).
Proof.
  intros H. unfold retrieve, server. destruct (localfile w s n r) as [s1 d1] eqn:E1. destruct (local_ok _ _ _ _ _ _ _ H E1) as [H1 L1].
  destruct d1 as [d1|]; cbn [orelse fst]; [exact H1|]. cbn [isSome] in L1.
  destruct (gs p) eqn:G.
  - destruct (getschema w s1 n r) as [s2 d2] eqn:E2. assert (L2 := get_log _ _ _ _ _ E2).
    assert (H2 : okl (true = true) U (log s2)). { rewrite L2. split; [|exact H1]. split; [reflexivity|]. left. eauto. }
    destruct d2 as [d2|]; cbn [orelse fst]; [exact H2|]. cbn [isSome] in L2.
    destruct (usercb w (ucb p) s2 n r) as [s3 d3] eqn:E3. destruct (user_log _ _ _ _ _ _ E3) as [L3|[UT L3]]; cbn [fst]; rewrite L3; [exact H2|].
    split; [|exact H2]. split; [exact UT|]. exists (log s). left. now rewrite L2, L1.
  - cbn [orelse]. destruct (usercb w (ucb p) s1 n r) as [s3 d3] eqn:E3. destruct (user_log _ _ _ _ _ _ E3) as [L3|[UT L3]]; cbn [fst]; rewrite L3; [exact H1|].
    split; [|exact H1]. split; [exact UT|]. exists (log s). right. right. split; [exact L1|discriminate].
Qed.
(** Server first. *)
Lemma server_first_ok s n r mn mr sub h : okl A U (log s) -> log s = EImport mn mr sub :: h -> no_revision mr ->
  okl A U (log (fst (orelse (orelse (server w p s n r) (fun s => localfile w s n r)) (fun s => usercb w (ucb p) s n r)))).
Proof.
  intros H LH NR. unfold server. destruct (gs p) eqn:G.
  - destruct (getschema w s n r) as [s1 d1] eqn:E1. assert (L1 := get_log _ _ _ _ _ E1).
    assert (H1 : okl (true = true) U (log s1)). { rewrite L1. split; [|exact H]. split; [reflexivity|]. right. exists mn, mr, sub, h. auto. }
    destruct d1 as [d1|]; cbn [orelse fst]; [exact H1|]. cbn [isSome] in L1.
    destruct (localfile w s1 n r) as [s2 d2] eqn:E2. destruct (local_ok _ _ _ _ _ _ _ H1 E2) as [H2 L2].
    destruct d2 as [d2|]; cbn [orelse fst]; [exact H2|]. cbn [isSome] in L2.
    destruct (usercb w (ucb p) s2 n r) as [s3 d3] eqn:E3. destruct (user_log _ _ _ _ _ _ E3) as [L3|[UT L3]]; cbn [fst]; rewrite L3; [exact H2|].
    split; [|exact H2]. split; [exact UT|]. exists (log s). right. left. now rewrite L2, L1.
  - cbn [orelse]. destruct (localfile w s n r) as [s2 d2] eqn:E2. destruct (local_ok _ _ _ _ _ _ _ H E2) as [H2 L2].
    destruct d2 as [d2|]; cbn [orelse fst]; [exact H2|]. cbn [isSome] in L2.
    destruct (usercb w (ucb p) s2 n r) as [s3 d3] eqn:E3. destruct (user_log _ _ _ _ _ _ E3) as [L3|[UT L3]]; cbn [fst]; rewrite L3; [exact H2|].
    split; [|exact H2]. split; [exact UT|]. exists (log s). right. right. split; [exact L2|discriminate].
Qed.
(** libyang's requests for imports: the server is asked first only without a revision. *)
Lemma want_false ms mn mr sub n r : retrieve_imp ms mn mr sub = Ret (Want n r false) -> no_revision mr.
Proof.
  unfold retrieve_imp, no_revision. destruct mr as [[|c t]|]; auto. intros H. exfalso.
  destruct sub as [[sb [sr|]]|]; try discriminate. destruct (match nth_error ms 0 with Some m => mi_subs m | None => None end) as [l|]; [|discriminate].
  destruct (sub_rev_of sb l); discriminate.
Qed.
Lemma import_ok ms s q s' : okl A U (log s) -> retrieve_import w p ms s q = Ret s' -> okl A U (log s').
Proof.
  destruct q as [[mn mr] sub]. intros H. unfold retrieve_import. destruct (retrieve_imp ms mn mr sub) as [[n r []|]|] eqn:E; try discriminate; intros [= <-].
  - apply (retrieve_ok (put (EImport mn mr sub) s)). split; [exact Logic.I|exact H].
  - apply (server_first_ok (put (EImport mn mr sub) s) n r mn mr sub (log s)); [split; [exact Logic.I|exact H]|reflexivity|exact (want_false _ _ _ _ _ _ E)].
  - split; [exact Logic.I|exact H].
Qed.
Lemma imports_ok ms l : forall s s', okl A U (log s) -> imports w p ms s l = Ret s' -> okl A U (log s').
Proof.
  induction l as [|q l IH]; intros s s' H; cbn [imports]; [intros [= <-]; exact H|].
  destruct (retrieve_import w p ms s q) as [s1|] eqn:E; [|discriminate]. apply IH. exact (import_ok _ _ _ _ H E).
Qed.
Lemma impl_ok s m f s' b : okl A U (log s) -> set_implemented w s m f = (s', b) -> okl A U (log s').
Proof. intros H. unfold set_implemented. destruct (w_impl w (log s) m f); intros [= <- <-]; (split; [exact Logic.I|exact H]). Qed.
Lemma load_ok ms s n r f s' x : okl A U (log s) -> load_module w p ms s n r f = Ret (s', x) -> okl A U (log s').
Proof.
  intros H. unfold load_module.
  destruct (match get_implemented (mods s) n with Some m => Some m | None => if isSome r then get_module (mods s) n r else get_latest (mods s) n end) as [m|].
  - destruct (set_implemented w s m f) as [s1 b] eqn:E. intros [= <- <-]. exact (impl_ok _ _ _ _ _ H E).
  - assert (R := retrieve_ok s n r H). destruct (retrieve w p s n r) as [s1 [d|]]; cbn [fst] in R; [|intros [= <- <-]; exact R].
    destruct (imports w p ms (set_clb CbOurs s1) _) as [s2|] eqn:E; [|discriminate].
    assert (R2 : okl A U (log s2)) by exact (imports_ok ms _ (set_clb CbOurs s1) s2 R E).
    destruct (w_parse w (log s2) n d) as [[m xs]|]; intros [= <- <-]; (split; [exact Logic.I|exact R2]).
Qed.
Lemma fill_ok all ms : forall s s' b, okl A U (log s) -> fill w p all ms s = Ret (s', b) -> okl A U (log s').
Proof.
  induction ms as [|m ms IH]; intros s s' b H; cbn [fill]; [intros [= <- <-]; exact H|].
  destruct (mi_impl m); [|apply IH; exact H].
  destruct (load_module _ _ _ _ _ _ _) as [[s1 [y [z|]]]|] eqn:E; [| |discriminate]; assert (H1 := load_ok _ _ _ _ _ _ _ H E).
  - apply IH. exact H1.
  - destruct (running s1); [apply IH; exact H1|]. intros [= <- <-]. exact H1.
Qed.
Lemma builtin_ok s n f s' b : okl A U (log s) -> builtin w s n f = (s', b) -> okl A U (log s').
Proof. intros H. unfold builtin. destruct (w_builtin w (log s) n); intros [= <- <-]; (split; [exact Logic.I|exact H]). Qed.
Lemma nc_ok ms s s' b : okl A U (log s) -> fill_ietf_netconf w p ms s = Ret (s', b) -> okl A U (log s').
Proof.
  intros H. unfold fill_ietf_netconf. destruct (find _ ms) as [mi|]; [|intros [= <- <-]; exact H].
  destruct (get_implemented (mods s) IETF_NETCONF) as [m|].
  - destruct (set_implemented w s m (mi_feats mi)) as [s1 c] eqn:E. intros [= <- <-]. exact (impl_ok _ _ _ _ _ H E).
  - destruct (load_module _ _ _ _ _ _ _) as [[s1 [y [z|]]]|] eqn:E; [| |discriminate]; assert (H1 := load_ok _ _ _ _ _ _ _ H E).
    + intros [= <- <-]. exact H1.
    + destruct (builtin w s1 IETF_NETCONF (mi_feats mi)) as [s2 b2] eqn:E2. intros [= <- <-]. exact (builtin_ok _ _ _ _ _ H1 E2).
Qed.
Lemma oper_log {B} s (f : hist -> option B * bool) : log (fst (fst (oper s f))) = EOper (isSome (snd (fst (oper s f)))) :: log s.
Proof. unfold oper. destruct (running s); [destruct (f (log s)) as [d al]|]; reflexivity. Qed.
Lemma yl_ok s nt s' x : okl A U (log s) -> module_info_yl w s nt = Ret (s', x) -> okl A U (log s') /\ In (EOper (isSome (snd (fst (oper s (w_yl w)))))) (log s').
Proof.
  intros H. unfold module_info_yl. assert (L := oper_log s (w_yl w)). destruct (oper s (w_yl w)) as [[s1 d] al]. cbn [fst snd] in *.
  assert (G : okl A U (log s1) /\ In (EOper (isSome d)) (log s1)). { rewrite L. split; [split; [exact Logic.I|exact H]|now left]. }
  destruct d as [l|]; [destruct al|]; [destruct (entries _); [|discriminate]| |]; intros [= <- <-]; exact G.
Qed.
Lemma mount_ok sh s s' b : okl A U (log s) -> schema_mount w sh s = (s', b) -> okl A U (log s').
Proof.
  intros H. unfold schema_mount. destruct sh; [intros [= <- <-]; exact H|]. destruct (get_implemented _ _); [|intros [= <- <-]; exact H].
  assert (L := oper_log s (w_mounts w)). destruct (oper s (w_mounts w)) as [[s1 d] al]. cbn [fst snd] in L.
  assert (G : okl A U (log s1)) by (rewrite L; split; [exact Logic.I|exact H]).
  destruct d as [[]|], al; intros [= <- <-]; exact G.
Qed.
Lemma finish_ok sh yl ms s s' b : okl A U (log s) -> finish w p sh yl ms s = Ret (s', b) -> okl A U (log s').
Proof.
  intros H. unfold finish. destruct (fill w p ms ms _) as [[s1 []]|] eqn:E; try discriminate;
    assert (H1 : okl A U (log s1)) by (eapply fill_ok; [|exact E]; exact H).
  - assert (H2 : okl A U (log (put (ECompile (w_compile w (log s1))) s1))) by (split; [exact Logic.I|exact H1]).
    destruct (w_compile w (log s1)); [|intros [= <- <-]; exact H2]. destruct yl; [|intros [= <- <-]; exact H2].
    destruct (schema_mount w sh _) as [s3 r] eqn:E3. intros [= <- <-]. exact (mount_ok _ _ _ _ H2 E3).
  - intros [= <- <-]. exact H1.
Qed.
Lemma yanglib_ok ms s c s' b : okl A U (log s) -> load_yanglib w p ms s c = Ret (s', b) -> okl A U (log s').
Proof.
  intros H. unfold load_yanglib. destruct c as [c|]; [|intros [= <- <-]; exact H]. destruct (strstr c _) as [r|]; [|intros [= <- <-]; exact H].
  destruct (load_module w p ms s _ _ _) as [[s1 [k x]]|] eqn:E; [|discriminate]. assert (H1 := load_ok _ _ _ _ _ _ _ H E).
  destruct (negb _); [|intros [= <- <-]; exact H1].
  destruct (load_module w p ms s1 _ _ _) as [[s2 [k2 x2]]|] eqn:E2; [|discriminate]. intros [= <- <-]. exact (load_ok _ _ _ _ _ _ _ H1 E2).
Qed.
End Sources.

(** Properties of the log that adding an event keeps; [oke]: the events. *)
Section Logs.
Variable w : world.
Variable p : params.
Variable Q : hist -> Prop.
Variable oke : ev -> Prop.
Hypothesis QE : forall e h, oke e -> Q h -> Q (e :: h).
Hypothesis OKE : forall e, (forall b, e <> EOper b) -> oke e.
Ltac ad := apply QE; [apply OKE; discriminate|].
Lemma q_orelse a f : Q (log (fst a)) -> (forall s, Q (log s) -> Q (log (fst (f s)))) -> Q (log (fst (orelse a f))).
Proof. destruct a as [s [d|]]; cbn; auto. Qed.
Lemma q_local s n r : Q (log s) -> Q (log (fst (localfile w s n r))).
Proof. intros H. cbn. ad. exact H. Qed.
Lemma q_server s n r : Q (log s) -> Q (log (fst (server w p s n r))).
Proof.
  intros H. unfold server, getschema. destruct (gs p); [|exact H]. destruct (running s); [destruct (w_get w (log s) n r)|]; cbn; ad; exact H.
Qed.
Lemma q_user h s n r : Q (log s) -> Q (log (fst (usercb w h s n r))).
Proof. intros H. unfold usercb. destruct h; [|exact H]. cbn. ad. exact H. Qed.
Lemma q_retrieve s n r : Q (log s) -> Q (log (fst (retrieve w p s n r))).
Proof. intros H. unfold retrieve. apply q_orelse; [apply q_orelse|]; intros; auto using q_local, q_server, q_user. Qed.
Lemma q_import ms s q : Q (log s) -> match retrieve_import w p ms s q with Ret s1 => Q (log s1) | Crash => True end.
Proof.
  destruct q as [[mn mr] sub]. intros H. unfold retrieve_import.
  assert (H0 : Q (log (put (EImport mn mr sub) s))) by (ad; exact H).
  destruct (retrieve_imp ms mn mr sub) as [[n r []|]|]; auto.
  - apply q_retrieve. exact H0.
  - apply q_orelse; [apply q_orelse|]; [apply q_server; exact H0| |]; intros; auto using q_local, q_user.
Qed.
Lemma q_imports ms l : forall s s', Q (log s) -> imports w p ms s l = Ret s' -> Q (log s').
Proof.
  induction l as [|q l IH]; intros s s' H; cbn [imports]; [intros [= <-]; exact H|].
  assert (G := q_import ms s q H). destruct (retrieve_import w p ms s q) as [s1|]; [|discriminate]. apply IH. exact G.
Qed.
Lemma q_impl s m f : Q (log s) -> Q (log (fst (set_implemented w s m f))).
Proof. intros H. unfold set_implemented. destruct (w_impl w (log s) m f); cbn; ad; exact H. Qed.
Lemma q_load ms s n r f s' x : Q (log s) -> load_module w p ms s n r f = Ret (s', x) -> Q (log s').
Proof.
  intros H. unfold load_module.
  destruct (match get_implemented (mods s) n with Some m => Some m | None => if isSome r then get_module (mods s) n r else get_latest (mods s) n end) as [m|].
  - assert (G := q_impl s m f H). destruct (set_implemented w s m f) as [s1 b]. intros [= <- <-]. exact G.
  - assert (R := q_retrieve s n r H). destruct (retrieve w p s n r) as [s1 [d|]]; cbn [fst] in R; [|intros [= <- <-]; exact R].
    destruct (imports w p ms (set_clb CbOurs s1) _) as [s2|] eqn:E; [|discriminate].
    assert (R2 : Q (log s2)) by exact (q_imports ms _ (set_clb CbOurs s1) s2 R E).
    destruct (w_parse w (log s2) n d) as [[m xs]|]; intros [= <- <-]; cbn; ad; exact R2.
Qed.
Lemma q_fill all ms : forall s s' b, Q (log s) -> fill w p all ms s = Ret (s', b) -> Q (log s').
Proof.
  induction ms as [|m ms IH]; intros s s' b H; cbn [fill]; [intros [= <- <-]; exact H|].
  destruct (mi_impl m); [|apply IH; exact H].
  destruct (load_module _ _ _ _ _ _ _) as [[s1 [y [z|]]]|] eqn:E; [| |discriminate]; assert (H1 := q_load _ _ _ _ _ _ _ H E).
  - apply IH. exact H1.
  - destruct (running s1); [apply IH; exact H1|]. intros [= <- <-]. exact H1.
Qed.
Lemma q_builtin s n f : Q (log s) -> Q (log (fst (builtin w s n f))).
Proof. intros H. unfold builtin. destruct (w_builtin w (log s) n); cbn; ad; exact H. Qed.
Lemma q_nc ms s s' b : Q (log s) -> fill_ietf_netconf w p ms s = Ret (s', b) -> Q (log s').
Proof.
  intros H. unfold fill_ietf_netconf. destruct (find _ ms) as [mi|]; [|intros [= <- <-]; exact H].
  destruct (get_implemented (mods s) IETF_NETCONF) as [m|].
  - intros [= <- <-]. apply q_impl. exact H.
  - destruct (load_module _ _ _ _ _ _ _) as [[s1 [y [z|]]]|] eqn:E; [| |discriminate]; assert (H1 := q_load _ _ _ _ _ _ _ H E).
    + intros [= <- <-]. exact H1.
    + assert (G := q_builtin s1 IETF_NETCONF (mi_feats mi) H1). destruct (builtin w s1 IETF_NETCONF (mi_feats mi)) as [s2 b2]. intros [= <- <-]. exact G.
Qed.
Lemma q_yanglib ms s c s' b : Q (log s) -> load_yanglib w p ms s c = Ret (s', b) -> Q (log s').
Proof.
  intros H. unfold load_yanglib. destruct c as [c|]; [|intros [= <- <-]; exact H]. destruct (strstr c _) as [r|]; [|intros [= <- <-]; exact H].
  destruct (load_module w p ms s _ _ _) as [[s1 [k x]]|] eqn:E; [|discriminate]. assert (H1 := q_load _ _ _ _ _ _ _ H E).
  destruct (negb _); [|intros [= <- <-]; exact H1].
  destruct (load_module w p ms s1 _ _ _) as [[s2 [k2 x2]]|] eqn:E2; [|discriminate]. intros [= <- <-]. exact (q_load _ _ _ _ _ _ _ H1 E2).
Qed.
(** Without the yang-library there is no request for operational data. *)
Lemma q_finish_false sh ms s s' b : Q (log s) -> finish w p sh false ms s = Ret (s', b) -> Q (log s').
Proof.
  intros H. unfold finish. destruct (fill w p ms ms _) as [[s1 []]|] eqn:E; try discriminate;
    assert (H1 : Q (log s1)) by (eapply q_fill; [|exact E]; exact H).
  - destruct (w_compile w (log s1)); intros [= <- <-]; cbn; ad; exact H1.
  - intros [= <- <-]. exact H1.
Qed.
Hypothesis OPE : forall b, oke (EOper b).
Lemma q_oper {B} s (f : hist -> option B * bool) : Q (log s) -> Q (log (fst (fst (oper s f)))).
Proof. intros H. rewrite oper_log. apply QE; [apply OPE|exact H]. Qed.
Lemma q_yl s nt s' x : Q (log s) -> module_info_yl w s nt = Ret (s', x) -> Q (log s').
Proof.
  intros H. unfold module_info_yl. assert (L := q_oper s (w_yl w) H). destruct (oper s (w_yl w)) as [[s1 d] al]. cbn [fst snd] in *.
  destruct d as [l|]; [destruct al|]; [destruct (entries _); [|discriminate]| |]; intros [= <- <-]; exact L.
Qed.
Lemma q_mount sh s : Q (log s) -> Q (log (fst (schema_mount w sh s))).
Proof.
  intros H. unfold schema_mount. destruct sh; [exact H|]. destruct (get_implemented _ _); [|exact H].
  assert (L := q_oper s (w_mounts w) H). destruct (oper s (w_mounts w)) as [[s1 d] al]. cbn [fst] in L.
  destruct d as [[]|], al; exact L.
Qed.
Lemma q_finish sh yl ms s s' b : Q (log s) -> finish w p sh yl ms s = Ret (s', b) -> Q (log s').
Proof.
  intros H. destruct yl; [|apply q_finish_false; exact H]. unfold finish. destruct (fill w p ms ms _) as [[s1 []]|] eqn:E; try discriminate;
    assert (H1 : Q (log s1)) by (eapply q_fill; [|exact E]; exact H).
  - assert (H2 : Q (log (put (ECompile (w_compile w (log s1))) s1))) by (cbn; ad; exact H1).
    destruct (w_compile w (log s1)); [|intros [= <- <-]; exact H2].
    assert (G := q_mount sh _ H2). destruct (schema_mount w sh _) as [s3 r]. intros [= <- <-]. exact G.
  - intros [= <- <-]. exact H1.
Qed.
End Logs.

Definition announces (pre : bytes) (cs : list bytes) : Prop := exists c, In c cs /\ prefix pre c.
Lemma last_cap_in pre cs : isSome (last_cap pre cs) = true -> announces pre cs.
Proof.
  unfold last_cap, announces. assert (G : forall l a, (forall c, a = Some c -> exists c, In c cs /\ prefix pre c) -> incl l cs ->
    isSome (fold_left (fun a c => if strncmp0 c pre (length pre) then Some c else a) l a) = true -> exists c, In c cs /\ prefix pre c).
  { induction l as [|x l IH]; intros a Ha I; cbn [fold_left].
    - destruct a as [c|]; [|discriminate]. intros _. exact (Ha c eq_refl).
    - apply IH; [|intros y Hy; apply I; now right]. intros c. destruct (strncmp0 x pre (length pre)) eqn:E; [|apply Ha].
      intros _. exists x. split; [apply I; now left|]. rewrite strncmp0_prefix_r in E. now apply prefixb_spec. }
  apply G; [discriminate|now intros y].
Qed.

Lemma last_cap_none pre cs : isSome (last_cap pre cs) = false -> ~ announces pre cs.
Proof.
  unfold last_cap. assert (G : forall l (a : option bytes), isSome (fold_left (fun a c => if strncmp0 c pre (length pre) then Some c else a) l a) = false ->
    isSome a = false /\ forall c, In c l -> ~ prefix pre c).
  { induction l as [|x l IH]; intros a; cbn [fold_left]; [intros ->; split; [reflexivity|contradiction]|].
    intros H. destruct (IH _ H) as [E F]. destruct (strncmp0 x pre (length pre)) eqn:X; [discriminate|]. split; [exact E|].
    intros c [<-|I]; [|auto]. intros P. apply prefixb_spec in P. rewrite strncmp0_prefix_r in X. congruence. }
  intros H (c & I & P). destruct (G _ _ H) as [_ F]. exact (F c I P).
Qed.
Lemma last_cap_dec pre cs : announces pre cs \/ ~ announces pre cs.
Proof. destruct (isSome (last_cap pre cs)) eqn:E; [left; now apply last_cap_in|right; now apply last_cap_none]. Qed.

(** For every server, every set of local files, every callback: a module is asked for at the server only if
    the server announced ietf-netconf-monitoring, and only after no local file was found, unless libyang
    asks for an import without a revision; the callback is only called when both gave nothing; a local file taken for
    a revision has a revision in its name. *)
Theorem c126_sources w disabled hasucb shared cs s s' r h2 e h1 :
  log s = [] ->
  check_and_fill w disabled hasucb shared cs s = Ret (s', r) ->
  log s' = h2 ++ e :: h1 ->
  match e with
  | EGet n rv _ =>
      announces MON_CAP cs /\
      ((exists h, h1 = ELocal n rv false :: h) \/
       (exists mn mr sub h, h1 = EImport mn mr sub :: h /\ no_revision mr))
  | EUser n rv _ =>
      hasucb = true /\
      ((exists h, h1 = EGet n rv false :: ELocal n rv false :: h) \/
       (exists h, h1 = ELocal n rv false :: EGet n rv false :: h) \/
       ((exists h, h1 = ELocal n rv false :: h) /\ (~ announces MON_CAP cs \/ In (EParse IETF_MON false) (log s'))))
  | ELocal n (Some rv) true => exists f d, w_local w h1 n (Some rv) = Some (f, Some d) /\ In "@"%char f
  | _ => True
  end.
Proof.
  intros L0 H E. destruct disabled.
  { cbn in H. injection H as <- <-. rewrite L0 in E. destruct h2; discriminate. }
  unfold check_and_fill in H. cbn [negb] in H.
  destruct (if isSome (last_cap MON_CAP cs) then builtin w (set_clb CbNone (set_opts true (expl s) s)) IETF_MON None
            else (set_clb CbNone (set_opts true (expl s) s), false)) as [s1 g] eqn:EB.
  set (pp := {| gs := g; ucb := hasucb |}) in H.
  assert (AG : g = true -> announces MON_CAP cs).
  { intros ->. apply last_cap_in. destruct (isSome (last_cap MON_CAP cs)); [reflexivity|discriminate]. }
  assert (FG : g = false -> announces MON_CAP cs -> log s1 = [EParse IETF_MON false]).
  { intros -> AN. destruct (isSome (last_cap MON_CAP cs)) eqn:LC.
    - unfold builtin in EB. destruct (w_builtin _ _ _); [discriminate|]. injection EB as <-. cbn. now rewrite L0.
    - exfalso. exact (last_cap_none _ _ LC AN). }
  assert (LS : log s1 = [] \/ exists b, log s1 = [EParse IETF_MON b]).
  { destruct (isSome (last_cap MON_CAP cs)); [|injection EB as <- <-; now left].
    unfold builtin in EB. destruct (w_builtin _ _ _); injection EB as <- EG; right; eexists; cbn; rewrite L0; reflexivity. }
  assert (O1 : okl w (gs pp = true) (ucb pp = true) (log s1)).
  { destruct LS as [-> | [b ->]]; cbn; auto. }
  assert (FIN : okl w (gs pp = true) (ucb pp = true) (log s') /\ (forall b, log s1 = [EParse IETF_MON b] -> In (EParse IETF_MON b) (log s'))).
  { set (Q := fun h : hist => forall b, log s1 = [EParse IETF_MON b] -> In (EParse IETF_MON b) h).
    assert (QE : forall e h, True -> Q h -> Q (e :: h)) by (intros ? ? _ G b Hb; right; exact (G b Hb)).
    assert (OKE : forall e, (forall b, e <> EOper b) -> True) by auto. assert (OPE : forall b : bool, True) by auto.
    assert (Q1 : Q (log s1)) by (intros b Hb; rewrite Hb; now left).
    assert (FF : forall yl ms t, okl w (gs pp = true) (ucb pp = true) (log t) -> Q (log t) -> finish w pp shared yl ms t = Ret (s', r) ->
                 okl w (gs pp = true) (ucb pp = true) (log s') /\ Q (log s')).
    { intros yl ms t Ht Qt Hf. split; [exact (finish_ok w pp _ _ _ _ _ _ Ht Hf)|exact (q_finish w pp Q (fun _ => True) QE OKE OPE _ _ _ _ _ _ Qt Hf)]. }
    destruct (fill_ietf_netconf w pp _ s1) as [[s2 b2]|] eqn:E2; [|discriminate].
    assert (O2 := nc_ok w pp _ _ _ _ O1 E2). assert (Q2 := q_nc w pp Q (fun _ => True) QE OKE _ _ _ _ Q1 E2).
    destruct b2; [|injection H as <- <-; split; [exact O2|exact Q2]].
    destruct (load_yanglib w pp _ s2 _) as [[s3 b3]|] eqn:E3; [|discriminate].
    assert (O3 := yanglib_ok w pp _ _ _ _ _ O2 E3). assert (Q3 := q_yanglib w pp Q (fun _ => True) QE OKE _ _ _ _ _ Q2 E3).
    destruct b3; [|exact (FF _ _ _ O3 Q3 H)].
    destruct (module_info_yl w s3 _) as [[s4 sm]|] eqn:E4; [|discriminate].
    assert (O4 := proj1 (yl_ok w pp _ _ _ _ O3 E4)). assert (Q4 := q_yl w Q (fun _ => True) QE OPE _ _ _ _ Q3 E4).
    destruct sm as [sm|]; [|exact (FF _ _ _ O4 Q4 H)].
    destruct (existsb _ sm); [|exact (FF _ _ _ O4 Q4 H)].
    destruct (load_module w pp sm s4 _ _ _) as [[s5 x]|] eqn:E5; [|discriminate].
    exact (FF _ _ _ (load_ok w pp _ _ _ _ _ _ _ O4 E5) (q_load w pp Q (fun _ => True) QE OKE _ _ _ _ _ _ _ Q4 E5) H). }
  destruct FIN as [O Q]. assert (J := okl_at _ _ _ _ O _ _ _ E). destruct e; try exact Logic.I; cbn in J; try exact J.
  - destruct J as [J1 J2]. split; [exact (AG J1)|exact J2].
  - destruct J as [J1 (h & J)]. split; [exact J1|]. destruct J as [J|[J|[J NG]]]; [left; eauto|right; left; eauto|]. right. right.
    split; [eauto|]. destruct g; [congruence|]. destruct (last_cap_dec MON_CAP cs) as [AN|AN]; [right|left; exact AN].
    apply Q. apply FG; [reflexivity|exact AN].
Qed.

(* ------------------------------------------------------------------ *)
(** ** C127: the session is usable when the fill succeeds *)

Lemma oper_alive {B} s (f : hist -> option B * bool) s1 d : oper s f = (s1, d, true) -> running s1 = true.
Proof. unfold oper. destruct (running s); [destruct (f (log s)) as [x al]|]; intros [= <- <- ->]; reflexivity. Qed.
Lemma mount_running w s s' : schema_mount w false s = (s', true) -> running s' = true.
Proof.
  unfold schema_mount. destruct (get_implemented _ _); [|discriminate]. destruct (oper s (w_mounts w)) as [[s1 d] al] eqn:E.
  destruct d as [[]|], al; intros [= <-]; exact (oper_alive _ _ _ _ E).
Qed.
Lemma finish_running w p ms s s' : finish w p false true ms s = Ret (s', true) -> running s' = true.
Proof.
  unfold finish. destruct (fill w p ms ms _) as [[s1 []]|]; try discriminate. destruct (w_compile _ _); [|discriminate].
  destruct (schema_mount w false _) as [s3 r] eqn:E. intros [= <- ->]. exact (mount_running _ _ _ E).
Qed.
(** If operational data were asked for (the server has a usable yang-library) and the context is the
    session's own, the session is still running. *)
Theorem c127_running_partial w disabled hasucb cs s s' b :
  log s = [] ->
  check_and_fill w disabled hasucb false cs s = Ret (s', true) ->
  In (EOper b) (log s') ->
  running s' = true.
Proof.
  intros L0 H I. destruct disabled; [injection H as <-; rewrite L0 in I; contradiction|].
  set (Q := fun h : hist => ~ In (EOper b) h). set (ok := fun e => e <> EOper b).
  assert (QE : forall e h, ok e -> Q h -> Q (e :: h)) by (intros e h N G [E|E]; [exact (N E)|exact (G E)]).
  assert (OKE : forall e, (forall b, e <> EOper b) -> ok e) by (intros e N; apply N).
  unfold check_and_fill in H.
  destruct (if isSome (last_cap MON_CAP cs) then _ else _) as [s1 g] eqn:EB.
  assert (Q1 : Q (log s1)).
  { destruct (isSome (last_cap MON_CAP cs)); [|injection EB as <- <-; cbn; rewrite L0; now intros []].
    assert (G := q_builtin w Q ok QE OKE (set_clb CbNone (set_opts true (expl s) s)) IETF_MON None). rewrite EB in G. apply G. cbn. rewrite L0. now intros []. }
  set (pp := {| gs := g; ucb := hasucb |}) in H.
  destruct (fill_ietf_netconf w pp _ s1) as [[s2 b2]|] eqn:E2; [|discriminate].
  assert (Q2 := q_nc w pp Q ok QE OKE _ _ _ _ Q1 E2). destruct b2; [|discriminate].
  destruct (load_yanglib w pp _ s2 _) as [[s3 b3]|] eqn:E3; [|discriminate].
  assert (Q3 := q_yanglib w pp Q ok QE OKE _ _ _ _ _ Q2 E3).
  destruct b3; [|exfalso; exact (q_finish_false w pp Q ok QE OKE _ _ _ _ _ Q3 H I)].
  destruct (module_info_yl w s3 _) as [[s4 [sm|]]|]; [| |discriminate]; [|exact (finish_running _ _ _ _ _ H)].
  destruct (existsb _ sm); [|exact (finish_running _ _ _ _ _ H)].
  destruct (load_module w pp sm s4 _ _ _) as [[s5 x]|]; [|discriminate]. exact (finish_running _ _ _ _ _ H).
Qed.

(* ------------------------------------------------------------------ *)
(** ** C124: the modules of the server are in the context *)

Definition honest (w : world) : Prop := forall h n d m xs, w_parse w h n d = Some (m, xs) -> lm_name m = n.
Definition willing (w : world) : Prop := forall h m f, w_impl w h m f = true.
(** The context implements a module, with given features if there are some. *)
Definition implements (c : list lmod) (name : bytes) (fo : option (list bytes)) : Prop :=
  exists m, In m c /\ lm_name m = name /\ lm_impl m = true /\ (forall f, fo = Some f -> lm_feats m = f).

(** What the functions that retrieve data leave alone. *)
Definition same (s s' : ses) : Prop := mods s' = mods s /\ lax s' = lax s.
Lemma same_refl s : same s s. Proof. split; reflexivity. Qed.
Lemma same_trans a b c : same a b -> same b c -> same a c.
Proof. intros [A B] [C D]. split; congruence. Qed.
Section Same.
Variable w : world.
Variable p : params.
Lemma s_local s n r : same s (fst (localfile w s n r)). Proof. split; reflexivity. Qed.
Lemma s_server s n r : same s (fst (server w p s n r)).
Proof. unfold server, getschema. destruct (gs p); [|apply same_refl]. destruct (running s); [destruct (w_get w (log s) n r)|]; split; reflexivity. Qed.
Lemma s_user h s n r : same s (fst (usercb w h s n r)).
Proof. unfold usercb. destruct h; split; reflexivity. Qed.
Lemma s_orelse s a f : same s (fst a) -> (forall t, same t (fst (f t))) -> same s (fst (orelse a f)).
Proof. destruct a as [t [d|]]; cbn; auto. intros A F. exact (same_trans _ _ _ A (F t)). Qed.
Lemma s_retrieve s n r : same s (fst (retrieve w p s n r)).
Proof. unfold retrieve. apply s_orelse; [apply s_orelse|]; intros; auto using s_local, s_server, s_user. Qed.
Lemma s_import ms s q : match retrieve_import w p ms s q with Ret s1 => same s s1 | Crash => True end.
Proof.
  destruct q as [[mn mr] sub]. unfold retrieve_import.
  assert (H0 : same s (put (EImport mn mr sub) s)) by (split; reflexivity).
  destruct (retrieve_imp ms mn mr sub) as [[n r []|]|]; auto.
  - exact (same_trans _ _ _ H0 (s_retrieve _ n r)).
  - apply (same_trans _ _ _ H0). apply s_orelse; [apply s_orelse|]; intros; auto using s_local, s_server, s_user.
Qed.
Lemma s_imports ms l : forall s s', imports w p ms s l = Ret s' -> same s s'.
Proof.
  induction l as [|q l IH]; intros s s'; cbn [imports]; [intros [= <-]; apply same_refl|].
  assert (G := s_import ms s q). destruct (retrieve_import w p ms s q) as [s1|]; [|discriminate]. intros H. exact (same_trans _ _ _ G (IH _ _ H)).
Qed.

Lemma oeqb_refl a : oeqb a a = true. Proof. destruct a; cbn; [apply beqb_refl|reflexivity]. Qed.
Lemma get_latest_in c name m : get_latest c name = Some m -> In m c /\ lm_name m = name.
Proof.
  unfold get_latest. assert (G : forall l a, (forall x, a = Some x -> In x c /\ lm_name x = name) -> incl l c ->
    fold_left (fun a m => if beqb (lm_name m) name then match a with Some x => if newer (lm_rev m) (lm_rev x) then Some m else a | None => Some m end else a) l a = Some m ->
    In m c /\ lm_name m = name).
  { induction l as [|y l IH]; intros a Ha I; cbn [fold_left]; [apply Ha|]. apply IH; [|intros z Hz; apply I; now right].
    destruct (beqb (lm_name y) name) eqn:E; [|exact Ha]. apply beqb_spec in E. assert (In y c) by (apply I; now left).
    destruct a as [x|]; [destruct (newer _ _); [|exact Ha]|]; intros z [= <-]; auto. }
  apply G; [discriminate|now intros z].
Qed.
Lemma found_in c name rev m :
  (match get_implemented c name with Some m => Some m | None => if isSome rev then get_module c name rev else get_latest c name end) = Some m ->
  In m c /\ lm_name m = name.
Proof.
  unfold get_implemented, get_module. destruct (find _ c) as [x|] eqn:E.
  - intros [= <-]. apply find_some in E. destruct E as [I E]. apply andb_prop in E. destruct E as [E _]. apply beqb_spec in E. auto.
  - destruct (isSome rev); [|apply get_latest_in]. intros F. apply find_some in F. destruct F as [I F]. apply andb_prop in F. destruct F as [F _].
    apply beqb_spec in F. auto.
Qed.
Lemma implement_has c m f : In m c -> implements (implement c (lm_name m) (lm_rev m) f) (lm_name m) f.
Proof.
  intros I. exists (mkLM (lm_name m) (lm_rev m) true (match f with Some f => f | None => lm_feats m end)). split.
  - unfold implement. apply in_map_iff. exists m. rewrite beqb_refl, oeqb_refl. auto.
  - cbn. repeat split; auto. intros g ->. reflexivity.
Qed.
Lemma implement_other c name rev f n fo : n <> name -> implements c n fo -> implements (implement c name rev f) n fo.
Proof.
  intros N (m & I & E & J & F). exists m. split; [|auto]. unfold implement. apply in_map_iff. exists m. split; [|exact I].
  destruct (beqb (lm_name m) name) eqn:B; [apply beqb_spec in B; congruence|reflexivity].
Qed.
Lemma implement_mono c name rev f n : implements c n None -> implements (implement c name rev f) n None.
Proof.
  intros (m & I & E & J & F). unfold implement.
  exists (if beqb (lm_name m) name && oeqb (lm_rev m) rev then mkLM (lm_name m) (lm_rev m) true (match f with Some f => f | None => lm_feats m end) else m).
  split; [apply in_map_iff; exists m; auto|]. destruct (_ && _); cbn; repeat split; auto; discriminate.
Qed.
Lemma implements_app c d n fo : implements c n fo -> implements (c ++ d) n fo.
Proof. intros (m & I & R). exists m. split; [apply in_or_app; now left|exact R]. Qed.
Lemma implements_none c n fo : implements c n fo -> implements c n None.
Proof. intros (m & I & E & J & _). exists m. repeat split; auto. discriminate. Qed.

Lemma load_spec ms s name rev f s' b mo : load_module w p ms s name rev f = Ret (s', (b, mo)) ->
  lax s' = lax s /\
  (forall n fo, n <> name -> implements (mods s) n fo -> implements (mods s') n fo) /\
  (forall n, implements (mods s) n None -> implements (mods s') n None) /\
  (honest w -> willing w -> mo <> None -> implements (mods s') name f).
Proof.
  unfold load_module. destruct (match get_implemented (mods s) name with Some m => Some m | None => if isSome rev then get_module (mods s) name rev else get_latest (mods s) name end) as [m|] eqn:FO.
  - apply found_in in FO. destruct FO as [I E]. unfold set_implemented. destruct (w_impl w (log s) m f) eqn:WI; intros [= <- <- <-].
    + subst name. cbn [put set_mods lax mods]. split; [reflexivity|]. split; [intros n fo N; now apply implement_other|]. split; [intros n; apply implement_mono|].
      intros _ _ _. now apply implement_has.
    + cbn [put lax mods]. split; [reflexivity|]. split; [auto|]. split; [auto|]. intros _ W _. rewrite W in WI. discriminate.
  - assert (R := s_retrieve s name rev). destruct (retrieve w p s name rev) as [s1 [d|]]; cbn [fst] in R; destruct R as [R1 R2].
    + destruct (imports w p ms (set_clb CbOurs s1) _) as [s2|] eqn:EI; [|discriminate]. apply s_imports in EI. destruct EI as [I1 I2]. cbn [set_clb mods lax] in I1, I2.
      destruct (w_parse w (log s2) name d) as [[m xs]|] eqn:EP; intros [= <- <- <-]; cbn [set_clb set_mods put mods lax].
      * rewrite I1, R1. split; [congruence|]. split; [intros n fo _; apply implements_app|]. split; [intros n; apply implements_app|].
        intros HO _ _. exists (parsed_mod m f). split; [apply in_or_app; right; now left|]. cbn. split; [exact (HO _ _ _ _ _ EP)|]. split; [reflexivity|].
        intros g ->. reflexivity.
      * rewrite I1, R1. split; [congruence|]. split; [auto|]. split; [auto|]. congruence.
    + intros [= <- <- <-]. rewrite R1. split; [exact R2|]. split; [auto|]. split; [auto|]. congruence.
Qed.

Definition inames (ms : list minfo) : list bytes := map mi_name (filter mi_impl ms).
Lemma fill_spec all ms : forall s s', honest w -> willing w -> fill w p all ms s = Ret (s', true) ->
  (lax s = true -> lax s' = true) /\
  (forall n fo, ~ In n (inames ms) -> implements (mods s) n fo -> implements (mods s') n fo) /\
  (forall n, implements (mods s) n None -> implements (mods s') n None) /\
  (forall m, In m ms -> mi_impl m = true -> lax s' = true \/
     (implements (mods s') (mi_name m) None /\ (NoDup (inames ms) -> implements (mods s') (mi_name m) (mi_feats m)))).
Proof.
  induction ms as [|m ms IH]; intros s s' HO WI; cbn [fill].
  - intros [= <-]. repeat split; auto; contradiction.
  - destruct (mi_impl m) eqn:MI.
    + assert (IN : inames (m :: ms) = mi_name m :: inames ms) by (unfold inames; cbn [filter]; rewrite MI; reflexivity).
      destruct (load_module w p all s (mi_name m) (mi_rev m) (mi_feats m)) as [[s1 [b mo]]|] eqn:EL; [|discriminate].
      destruct (load_spec _ _ _ _ _ _ _ _ EL) as (LX & OT & MO & SU).
      assert (REST : forall t, mods t = mods s1 -> (lax s1 = true -> lax t = true) -> (mo <> None \/ lax t = true) -> fill w p all ms t = Ret (s', true) ->
        (lax s = true -> lax s' = true) /\
        (forall n fo, ~ In n (inames (m :: ms)) -> implements (mods s) n fo -> implements (mods s') n fo) /\
        (forall n, implements (mods s) n None -> implements (mods s') n None) /\
        (forall m0, In m0 (m :: ms) -> mi_impl m0 = true -> lax s' = true \/
           (implements (mods s') (mi_name m0) None /\ (NoDup (inames (m :: ms)) -> implements (mods s') (mi_name m0) (mi_feats m0))))).
      { intros t TM TL TO F. destruct (IH t s' HO WI F) as (I1 & I2 & I3 & I4). rewrite TM in I2, I3. rewrite IN.
        split; [intros L; apply I1, TL; congruence|]. split; [|split].
        - intros n fo NI H. apply I2; [intros X; apply NI; now right|]. apply OT; [intros ->; apply NI; now left|exact H].
        - intros n H. apply I3, MO, H.
        - intros m0 [<-|I] M0.
          + destruct TO as [TO|TO]; [right|left; exact (I1 TO)]. assert (G := SU HO WI TO).
            split; [apply I3; exact (implements_none _ _ _ G)|]. intros ND. inversion ND; subst. now apply I2.
          + destruct (I4 m0 I M0) as [L|[A B]]; [now left|right]. split; [exact A|]. intros ND. inversion ND; subst. auto. }
      destruct mo as [mo|].
      * intros F. apply (REST s1); auto. left. discriminate.
      * destruct (running s1); [|discriminate]. intros F. apply (REST (set_lax s1)); auto.
    + assert (IN : inames (m :: ms) = inames ms) by (unfold inames; cbn [filter]; rewrite MI; reflexivity).
      intros F. destruct (IH s s' HO WI F) as (I1 & I2 & I3 & I4). rewrite IN. split; [exact I1|]. split; [exact I2|]. split; [exact I3|].
      intros m0 [<-|I] M0; [congruence|]. exact (I4 m0 I M0).
Qed.

Lemma finish_mods sh yl ms s s' : finish w p sh yl ms s = Ret (s', true) ->
  exists s1, fill w p ms ms (set_opts (dis s) true s) = Ret (s1, true) /\ mods s' = mods s1 /\ lax s' = lax s1.
Proof.
  unfold finish. destruct (fill w p ms ms _) as [[s1 []]|]; try discriminate. destruct (w_compile w (log s1)); [|discriminate].
  intros H. exists s1. split; [reflexivity|]. destruct yl; [|injection H as <-; split; reflexivity].
  destruct (schema_mount w sh _) as [s3 r] eqn:E. injection H as <- ->. cbn. revert E. unfold schema_mount.
  destruct sh; [intros [= <-]; split; reflexivity|]. destruct (get_implemented _ _); [|discriminate].
  unfold oper. destruct (running _); [|discriminate]. destruct (w_mounts w _) as [[[]|] []]; intros [= <-]; split; reflexivity.
Qed.
End Same.

(** The modules the server has: from its capabilities, or from its yang-library, one for each module listed there (C246); a server
    that has the notification capability then lists one of the modules of notifications. *)
Definition modules_of (w : world) (cs : list bytes) (ms : list minfo) : Prop :=
  ms = ModInfo.build_module_info_cpblts cs \/
  exists h l, w_yl w h = (Some l, true) /\ Forall2 (fun c m => Prop_YlModule.agrees c m /\ mi_subs m = None) l ms /\
    ((exists c, In c cs /\ exists r, c = bs "urn:ietf:params:netconf:capability:notification:1.0" ++ r) ->
     exists m, In m ms /\ (mi_name m = bs "notifications" \/ mi_name m = bs "nc-notifications")).

Lemma yl_of cs l ms : entries (build_module_info_yl false (has_cpblt NOTIF_CAP cs) l) = Some ms ->
  Forall2 (fun c m => Prop_YlModule.agrees c m /\ mi_subs m = None) l ms /\
  ((exists c, In c cs /\ exists r, c = bs "urn:ietf:params:netconf:capability:notification:1.0" ++ r) ->
   exists m, In m ms /\ (mi_name m = bs "notifications" \/ mi_name m = bs "nc-notifications")).
Proof.
  unfold build_module_info_yl. set (f := existsb _ _). set (n := has_cpblt NOTIF_CAP cs). intros E.
  assert (A : n && negb f = false /\ ms = map (yl_module false) l).
  { clearbody f n. destruct (n && negb f).
    - exfalso. revert ms E. induction (map (yl_module false) l) as [|m r IH]; intros ms; cbn [map app entries]; [discriminate|].
      destruct (entries _) as [z|]; [|discriminate]. intros _. exact (IH z eq_refl).
    - split; [reflexivity|]. revert ms E. induction (map (yl_module false) l) as [|m r IH]; intros ms; cbn [map app entries]; [intros [= <-]; reflexivity|].
      destruct (entries _) as [z|]; [|discriminate]. intros [= <-]. now rewrite (IH z eq_refl). }
  destruct A as [A ->]. split.
  - clear. induction l as [|c l IH]; constructor; auto. split; [apply Prop_YlModule.c246_module|reflexivity].
  - intros (c & I & r & ->). assert (N1 : n = true).
    { apply existsb_exists. eexists. split; [exact I|]. rewrite strncmp0_prefix_r. apply prefixb_spec. exists r. reflexivity. }
    rewrite N1 in A. destruct f eqn:F; [|discriminate]. apply existsb_exists in F. destruct F as (m & I2 & F). exists m. split; [exact I2|].
    apply orb_true_iff in F. destruct F as [F|F]; apply Prop_YlModule.streq_iff in F; auto.
Qed.

Lemma check_split w hasucb shared cs s s' : check_and_fill w false hasucb shared cs s = Ret (s', true) ->
  exists p ms yl s1 s2 s3, modules_of w cs ms /\
    fill_ietf_netconf w p (ModInfo.build_module_info_cpblts cs) s1 = Ret (s2, true) /\
    (forall n, implements (mods s2) n None -> implements (mods s3) n None) /\
    finish w p shared yl ms s3 = Ret (s', true).
Proof.
  unfold check_and_fill. destruct (if isSome (last_cap MON_CAP cs) then _ else _) as [s1 g].
  set (pp := {| gs := g; ucb := hasucb |}).
  destruct (fill_ietf_netconf w pp _ s1) as [[s2 b2]|] eqn:E2; [|discriminate]. destruct b2; [|discriminate].
  destruct (load_yanglib w pp _ s2 _) as [[s3 b3]|] eqn:E3; [|discriminate].
  assert (M3 : forall n, implements (mods s2) n None -> implements (mods s3) n None).
  { intros n H. revert E3. unfold load_yanglib. destruct (last_cap YL_CAP cs) as [c|]; [|intros [= <- <-]; exact H].
    destruct (strstr c _) as [r|]; [|intros [= <- <-]; exact H].
    destruct (load_module w pp _ s2 _ _ _) as [[t1 [k x]]|] eqn:L1; [|discriminate]. destruct (load_spec _ _ _ _ _ _ _ _ _ _ L1) as (_ & _ & MO & _).
    destruct (negb _); [|intros [= <- <-]; auto].
    destruct (load_module w pp _ t1 _ _ _) as [[t2 [k2 x2]]|] eqn:L2; [|discriminate]. destruct (load_spec _ _ _ _ _ _ _ _ _ _ L2) as (_ & _ & MO2 & _).
    intros [= <- <-]. auto. }
  destruct b3; [|intros F; exists pp, (ModInfo.build_module_info_cpblts cs), false, s1, s2, s3; split; [now left|auto]].
  destruct (module_info_yl w s3 _) as [[s4 sm]|] eqn:E4; [|discriminate].
  assert (M4 : mods s4 = mods s3 /\ (forall l, sm = Some l -> modules_of w cs l)).
  { revert E4. unfold module_info_yl, oper. destruct (running s3).
    - destruct (w_yl w (log s3)) as [d al] eqn:WY. destruct d as [l|]; [destruct al|].
      + destruct (entries _) as [ms|] eqn:EN; [|discriminate]. intros [= <- <-]. split; [reflexivity|]. intros l0 [= <-]. right. exists (log s3), l. split; [exact WY|]. exact (yl_of _ _ _ EN).
      + intros [= <- <-]. split; [reflexivity|discriminate].
      + intros [= <- <-]. split; [reflexivity|discriminate].
    - intros [= <- <-]. split; [reflexivity|discriminate]. }
  destruct M4 as [M4 MS]. destruct sm as [sm|].
  - destruct (existsb _ sm).
    + destruct (load_module w pp sm s4 _ _ _) as [[s5 [k x]]|] eqn:L; [|discriminate]. destruct (load_spec _ _ _ _ _ _ _ _ _ _ L) as (_ & _ & MO & _).
      intros F. exists pp, sm, true, s1, s2, s5. split; [auto|]. split; [exact E2|]. split; [|exact F]. intros n H. apply MO. rewrite M4. auto.
    + intros F. exists pp, sm, true, s1, s2, s4. split; [auto|]. split; [exact E2|]. split; [|exact F]. intros n H. rewrite M4. auto.
  - intros F. exists pp, (ModInfo.build_module_info_cpblts cs), true, s1, s2, s4. split; [now left|]. split; [exact E2|]. split; [|exact F].
    intros n H. rewrite M4. auto.
Qed.

Theorem c124_modules_loaded_partial w hasucb shared cs s s' :
  honest w -> willing w ->
  check_and_fill w false hasucb shared cs s = Ret (s', true) ->
  exists ms, modules_of w cs ms /\
    forall m, In m ms -> mi_impl m = true ->
      lax s' = true \/
      (implements (mods s') (mi_name m) None /\
       (NoDup (map mi_name (filter mi_impl ms)) -> implements (mods s') (mi_name m) (mi_feats m))).
Proof.
  intros HO WI H. apply check_split in H. destruct H as (p & ms & yl & s1 & s2 & s3 & MS & _ & _ & F). exists ms. split; [exact MS|].
  apply finish_mods in F. destruct F as (t & F & M & L). destruct (fill_spec w p ms ms _ _ HO WI F) as (_ & _ & _ & G).
  intros m I MI. rewrite M, L. exact (G m I MI).
Qed.

(* ------------------------------------------------------------------ *)
(** ** C128: the base module *)

Lemma get_implemented_in c n m : get_implemented c n = Some m -> implements c n None /\ In m c /\ lm_name m = n.
Proof.
  unfold get_implemented. intros E. apply find_some in E. destruct E as [I E]. apply andb_prop in E. destruct E as [E J]. apply beqb_spec in E.
  split; [exists m; repeat split; auto; discriminate|auto].
Qed.
Lemma nc_implements w p ms s s' : honest w -> willing w -> fill_ietf_netconf w p ms s = Ret (s', true) -> implements (mods s') IETF_NETCONF None.
Proof.
  intros HO WI. unfold fill_ietf_netconf. destruct (find _ ms) as [mi|]; [|discriminate].
  destruct (get_implemented (mods s) IETF_NETCONF) as [m|] eqn:G.
  - apply get_implemented_in in G. destruct G as (G & I & _). unfold set_implemented. rewrite WI. intros [= <-]. cbn. now apply implement_mono.
  - destruct (load_module w p ms s _ _ _) as [[s1 [b [x|]]]|] eqn:L; [| |discriminate]; destruct (load_spec _ _ _ _ _ _ _ _ _ _ L) as (_ & _ & _ & SU).
    + intros [= <-]. eapply implements_none, SU; auto. discriminate.
    + unfold builtin. destruct (w_builtin w (log s1) IETF_NETCONF); [|discriminate]. intros [= <-]. cbn.
      eexists. split; [apply in_or_app; right; now left|]. repeat split; auto. discriminate.
Qed.
(** After a successful fill the base module is implemented. *)
Theorem c128_base_module_partial w hasucb shared cs s s' :
  honest w -> willing w ->
  check_and_fill w false hasucb shared cs s = Ret (s', true) ->
  implements (mods s') IETF_NETCONF None.
Proof.
  intros HO WI H. apply check_split in H. destruct H as (p & ms & yl & s1 & s2 & s3 & MS & NC & M & F).
  apply nc_implements in NC; auto. apply M in NC. apply finish_mods in F. destruct F as (t & F & E & _).
  destruct (fill_spec w p ms ms _ _ HO WI F) as (_ & _ & G & _). rewrite E. apply G. exact NC.
Qed.
(** A server that does not list ietf-netconf as a module in its capabilities is refused whatever else it and
    the context have, even though the module is compiled into the library. *)
Theorem c128_base_only_refuted w hasucb shared s :
  exists s', check_and_fill w false hasucb shared [bs "urn:ietf:params:netconf:base:1.0"; bs "urn:ietf:params:netconf:base:1.1"] s = Ret (s', false).
Proof. eexists. reflexivity. Qed.
Theorem c128_not_listed_refuted w hasucb shared cs s :
  (forall m, In m (ModInfo.build_module_info_cpblts cs) -> mi_name m <> IETF_NETCONF) ->
  exists s', check_and_fill w false hasucb shared cs s = Ret (s', false).
Proof.
  intros N. unfold check_and_fill. destruct (if isSome (last_cap MON_CAP cs) then _ else _) as [s1 g]. unfold fill_ietf_netconf.
  destruct (find _ (ModInfo.build_module_info_cpblts cs)) as [m|] eqn:F; [|eexists; reflexivity].
  apply find_some in F. destruct F as [I E]. apply beqb_spec in E. destruct (N m I E).
Qed.

(* ------------------------------------------------------------------ *)
(** ** Worlds for the examples and refutations *)

(** No local files; the server has module "x"; parsing gives what was asked for. *)
Definition W (get : hist -> bytes -> option bytes -> option bytes * bool) (user : option bytes) (pname : bytes -> bytes) (impl : lmod -> bool) : world :=
  {| w_local := fun _ _ _ => None;
     w_get := get;
     w_user := fun _ _ _ => user;
     w_imports := fun _ _ => [(bs "ietf-inet-types", None, None)];
     w_parse := fun _ n _ => Some (mkLM (pname n) None true [], []);
     w_impl := fun _ m _ => impl m;
     w_yl := fun _ => (None, true);
     w_mounts := fun _ => (None, true);
     w_builtin := fun _ _ => true;
     w_compile := fun _ => true |}.
Definition caps : list bytes :=
  [bs "urn:ietf:params:xml:ns:netconf:base:1.0?module=ietf-netconf&revision=2011-06-01&features=candidate,xpath";
   bs "urn:ietf:params:xml:ns:yang:ietf-netconf-monitoring?module=ietf-netconf-monitoring&revision=2010-10-04";
   bs "urn:x?module=x&revision=2020-01-01&features=a,b"].
Definition fresh : ses := mkS [] CbUser false false true false false [].

Definition W_good := W (fun _ n _ => (if beqb n (bs "x") then Some (bs "module x {}") else None, true)) None (fun n => n) (fun _ => true).
Lemma W_good_honest : honest W_good.
Proof. intros h n d m xs [= <- <-]. reflexivity. Qed.
Lemma W_good_willing : willing W_good.
Proof. intros h m f. reflexivity. Qed.
Example x_good : exists s', check_and_fill W_good false false false caps fresh = Ret (s', true) /\ lax s' = false /\ running s' = true /\
  map (fun m => (lm_name m, lm_feats m)) (mods s') =
    [(IETF_MON, []); (IETF_NETCONF, [bs "candidate"; bs "xpath"]); (bs "x", [bs "a"; bs "b"])] /\
  In (EGet (bs "x") (Some (bs "2020-01-01")) true) (log s').
Proof. eexists. split; [vm_compute; reflexivity|]. vm_compute. repeat split. tauto. Qed.
Example x_good_nodup : NoDup (map mi_name (filter mi_impl (ModInfo.build_module_info_cpblts caps))).
Proof. vm_compute. repeat constructor; cbn; intros H; repeat (destruct H as [H|H]; [discriminate|]); exact H. Qed.
(** A server with a yang-library: operational data are asked for. *)
Definition W_yl : world :=
  {| w_local := fun _ n r => Some (n ++ bs "@2019-01-04.yang", Some (bs "module")); w_get := fun _ _ _ => (None, true); w_user := fun _ _ _ => None;
     w_imports := fun _ _ => []; w_parse := fun _ n _ => Some (mkLM n None true [], []); w_impl := fun _ _ _ => true;
     w_yl := fun _ => (Some [[YName (bs "y"); YRevision (bs "2021-01-01"); YConf (bs "implement"); YFeature (bs "f")]; [YName (bs "z"); YConf (bs "import")]], true);
     w_mounts := fun _ => (Some true, true); w_builtin := fun _ _ => true; w_compile := fun _ => true |}.
Definition caps_yl := caps ++ [bs "urn:ietf:params:netconf:capability:yang-library:1.1?revision=2019-01-04&content-id=1"].
Example x_yl : exists s', check_and_fill W_yl false false false caps_yl fresh = Ret (s', true) /\ In (EOper true) (log s') /\ running s' = true /\ mounts s' = true /\
  map lm_name (mods s') = [IETF_MON; IETF_NETCONF; IETF_YL; IETF_DS; bs "y"].
Proof. eexists. split; [vm_compute; reflexivity|]. vm_compute. repeat split. tauto. Qed.

(** A module that cannot be made implemented: success, and no sign of it. *)
Definition W_impl := W (fun _ _ _ => (None, true)) None (fun n => n) (fun m => negb (beqb (lm_name m) (bs "x"))).
Definition with_x : ses := mkS [mkLM (bs "x") (Some (bs "2020-01-01")) false []] CbUser false false true false false [].
Theorem c124_not_implemented_refuted : exists s', honest W_impl /\ check_and_fill W_impl false false false caps with_x = Ret (s', true) /\
  lax s' = false /\ ~ implements (mods s') (bs "x") None.
Proof.
  eexists. split; [intros h n d m xs [= <- <-]; reflexivity|]. split; [vm_compute; reflexivity|]. split; [reflexivity|].
  vm_compute. intros (m & I & N & J & _). repeat (destruct I as [<-|I]; [discriminate|]). contradiction.
Qed.
(** A source that gives another module than asked for: success, and no sign of it. *)
Definition W_other := W (fun _ n _ => (if beqb n (bs "x") then Some (bs "module y {}") else None, true)) None (fun n => if beqb n (bs "x") then bs "y" else n) (fun _ => true).
Theorem c124_other_module_refuted : exists s', willing W_other /\ check_and_fill W_other false false false caps fresh = Ret (s', true) /\
  lax s' = false /\ ~ implements (mods s') (bs "x") None.
Proof.
  eexists. split; [intros h m f; reflexivity|]. split; [vm_compute; reflexivity|]. split; [reflexivity|].
  vm_compute. intros (m & I & N & J & _). repeat (destruct I as [<-|I]; [discriminate|]). contradiction.
Qed.
(** Two revisions of a module in the library: strcmp() of NULL or the notification modules missing are C28 and C50. *)

(** The session broke while a module was asked for, but the callback had the module: success. *)
Definition W_dead := W (fun _ _ _ => (None, false)) (Some (bs "module")) (fun n => n) (fun _ => true).
Theorem c127_dead_session_refuted : exists s', check_and_fill W_dead false true false caps fresh = Ret (s', true) /\ running s' = false /\ lax s' = false.
Proof. eexists. split; [vm_compute; reflexivity|]. split; reflexivity. Qed.

(** The options of a context given by the user are lost. *)
Definition with_opts : ses := mkS [] CbUser true true true false false [].
Theorem c129_options_refuted : exists s', check_and_fill W_good false false true caps with_opts = Ret (s', true) /\
  dis with_opts = true /\ expl with_opts = true /\ dis s' = false /\ expl s' = false.
Proof. eexists. split; [vm_compute; reflexivity|]. repeat split. Qed.

Print Assumptions c124_modules_loaded_partial.
Print Assumptions c125_callback_restored.
Print Assumptions c129_options_restored_partial.
Print Assumptions c126_sources.
Print Assumptions c127_running_partial.
Print Assumptions c128_base_module_partial.
Print Assumptions c128_not_listed_refuted.
