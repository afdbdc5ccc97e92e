(** Properties C213-C218 on the life of a server (ServerLife.v): the YANG contexts it prepares, the user data
    of its callbacks, and what it initialises. *)
From Coq Require Import String Arith List Bool Lia.
From Verif Require Import ServerLife.
Import ListNotations.
Local Open Scope string_scope.
Local Open Scope list_scope.

(** * C213, C214: contexts *)

Section CTX.
Variable ctx : Type.
Variable implemented : ctx -> string -> bool.
Variable enabled : ctx -> string -> string -> bool.
Variable load : ctx -> string -> list string -> bool * ctx.

(** What is assumed of ly_ctx_load_module: when it succeeds, the module is implemented with (at least) the
    features asked for, and the other implemented modules and their features are still there. *)
Definition loads_well : Prop := forall c m fs c', load c m fs = (true, c') ->
  implemented c' m = true /\ (forall f, In f fs -> enabled c' m f = true) /\
  (forall m', m' <> m -> implemented c m' = true ->
     implemented c' m' = true /\ (forall f, enabled c m' f = true -> enabled c' m' f = true)).

(** A module with its features, as in the schema. *)
Definition supports (c : ctx) (m : string) (fs : list string) : Prop :=
  implemented c m = true /\ (forall f, In f fs -> enabled c m f = true).

(** RFC 6241: the optional capabilities a server of this library claims to know. *)
Definition rfc6241_features : list string :=
  ["candidate"; "confirmed-commit"; "rollback-on-error"; "startup"; "url"; "validate"; "writable-running"; "xpath"].

(** What is kept of a context: every implemented module not among [ms] with its features. *)
Definition keeps (ms : list string) (c c' : ctx) : Prop := forall m, ~ In m ms -> implemented c m = true ->
  implemented c' m = true /\ (forall f, enabled c m f = true -> enabled c' m f = true).

Lemma keeps_refl ms c : keeps ms c c.
Proof. intros m _ H. auto. Qed.
Lemma keeps_trans ms c1 c2 c3 : keeps ms c1 c2 -> keeps ms c2 c3 -> keeps ms c1 c3.
Proof.
  intros A B m N I. destruct (A m N I) as [I2 F2]. destruct (B m N I2) as [I3 F3]. auto.
Qed.
Lemma load_keeps ms c m fs c' : loads_well -> In m ms -> load c m fs = (true, c') -> keeps ms c c'.
Proof.
  intros W Hi L m' N I. destruct (W _ _ _ _ L) as (_ & _ & K). apply K; auto. intros ->. contradiction.
Qed.
Lemma load_supports c m fs c' : loads_well -> load c m fs = (true, c') -> supports c' m fs.
Proof. intros W L. destruct (W _ _ _ _ L) as (A & B & _). split; auto. Qed.
Lemma load_supports_other c m fs c' m2 fs2 : loads_well -> m2 <> m -> supports c m2 fs2 ->
  load c m fs = (true, c') -> supports c' m2 fs2.
Proof.
  intros W N [I F] L. destruct (W _ _ _ _ L) as (_ & _ & K). destruct (K m2 N I) as [I' F'].
  split; auto.
Qed.

Lemma none_disabled c fs : some_disabled ctx enabled c fs = false ->
  forall f, In f fs -> enabled c "ietf-netconf" f = true.
Proof.
  induction fs as [|g r IH]; intros H f [].
  - subst. cbn in H. destruct (enabled c "ietf-netconf" f); [reflexivity|discriminate].
  - cbn in H. destruct (enabled c "ietf-netconf" g); [auto|discriminate].
Qed.

Lemma same_features f : In f rfc6241_features -> In f netconf_features.
Proof. cbn. tauto. Qed.

Lemma supports_rfc c : supports c "ietf-netconf" netconf_features -> supports c "ietf-netconf" rfc6241_features.
Proof. intros [A B]. split; auto. intros f H. apply B, same_features, H. Qed.

(** C213.  When [nc_server_init_ctx] succeeds, [*ctx] is a context with ietf-netconf, all its features enabled,
    and ietf-netconf-monitoring, and if the caller gave a context, its other modules are still there and the
    context was not destroyed. *)
Theorem c213_success : loads_well -> forall fresh arg,
  o_ret (init_ctx ctx implemented enabled load fresh arg) = 0 ->
  exists c, o_ctx (init_ctx ctx implemented enabled load fresh arg) = Some c /\
    o_destroyed (init_ctx ctx implemented enabled load fresh arg) = [] /\
    supports c "ietf-netconf" rfc6241_features /\ supports c "ietf-netconf-monitoring" [] /\
    (forall c0, arg = Some (Some c0) -> keeps ["ietf-netconf"; "ietf-netconf-monitoring"] c0 c).
Proof.
  intros W fresh [[c0|]|]; cbn [init_ctx].
  - set (r := if implemented c0 "ietf-netconf" then _ else _).
    destruct r as [ok1 c1] eqn:Er. destruct ok1; cbn [negb]; [|discriminate].
    assert (Hs : supports c1 "ietf-netconf" netconf_features /\
                 keeps ["ietf-netconf"; "ietf-netconf-monitoring"] c0 c1).
    { subst r. destruct (implemented c0 "ietf-netconf") eqn:Ei.
      - destruct (some_disabled ctx enabled c0 netconf_features) eqn:Ed.
        + split; [eapply load_supports; eauto|eapply load_keeps; eauto; cbn; auto].
        + injection Er as <-. split; [|apply keeps_refl]. split; auto. now apply none_disabled.
      - split; [eapply load_supports; eauto|eapply load_keeps; eauto; cbn; auto]. }
    destruct Hs as [Hs Hk].
    destruct (implemented c1 "ietf-netconf-monitoring") eqn:Em.
    + intros _. exists c1. cbn [ctx_cleanup andb o_ctx o_destroyed Nat.eqb negb].
      split; [reflexivity|]. split; [reflexivity|]. split; [|split].
      * now apply supports_rfc.
      * split; [exact Em|intros f []].
      * intros c Hc. injection Hc as <-. exact Hk.
    + destruct (load c1 _ monitoring_features) as [ok2 c2] eqn:E2. destruct ok2; cbn [negb]; [|discriminate].
      intros _. exists c2. cbn [ctx_cleanup andb o_ctx o_destroyed Nat.eqb negb].
      split; [reflexivity|]. split; [reflexivity|]. split; [|split].
      * apply supports_rfc. eapply load_supports_other; eauto. discriminate.
      * eapply load_supports; eauto.
      * intros c Hc. injection Hc as <-. eapply keeps_trans; eauto. eapply load_keeps; eauto. cbn; auto.
  - destruct fresh as [c0|]; [|discriminate].
    destruct (load c0 _ _) as [ok1 c1] eqn:E1. destruct ok1; cbn [negb]; [|discriminate].
    destruct (load c1 _ _) as [ok2 c2] eqn:E2. destruct ok2; cbn [negb]; [|discriminate].
    intros _. exists c2. cbn [ctx_cleanup andb o_ctx o_destroyed Nat.eqb negb].
    split; [reflexivity|]. split; [reflexivity|]. split; [|split].
    + apply supports_rfc. eapply load_supports_other; eauto; [discriminate|]. eapply load_supports; eauto.
    + eapply load_supports; eauto.
    + intros c Hc. discriminate.
  - discriminate.
Qed.

(** When it fails, a context given by the caller is neither destroyed nor lost, and one it created itself is
    destroyed and [*ctx] is NULL; either way nothing is left that only the library knows. *)
Theorem c213_failure : forall fresh arg,
  o_ret (init_ctx ctx implemented enabled load fresh arg) <> 0 ->
  match arg with
  | Some (Some _) => o_ctx (init_ctx ctx implemented enabled load fresh arg) <> None /\
                     o_destroyed (init_ctx ctx implemented enabled load fresh arg) = []
  | Some None => o_ctx (init_ctx ctx implemented enabled load fresh arg) = None /\
                 (fresh = None <-> o_destroyed (init_ctx ctx implemented enabled load fresh arg) = []) /\
                 length (o_destroyed (init_ctx ctx implemented enabled load fresh arg)) <= 1
  | None => o_destroyed (init_ctx ctx implemented enabled load fresh arg) = []
  end.
Proof.
  intros fresh [[c0|]|]; cbn [init_ctx].
  - destruct (if implemented c0 "ietf-netconf" then _ else _) as [[|] c1]; cbn [negb].
    + destruct (implemented c1 _); [intros H; now elim H|].
      destruct (load c1 _ _) as [[|] c2]; cbn [negb]; intros H; [now elim H|]. split; [discriminate|reflexivity].
    + intros _. split; [discriminate|reflexivity].
  - destruct fresh as [c0|].
    + destruct (load c0 _ _) as [[|] c1]; cbn [negb].
      * destruct (load c1 _ _) as [[|] c2]; cbn [negb]; intros H; [now elim H|].
        cbn. repeat split; auto; discriminate.
      * intros _. cbn. repeat split; auto; discriminate.
    + intros _. cbn. repeat split; auto.
  - reflexivity.
Qed.

(** A context that already has everything is left as it is: nothing is loaded again. *)
Theorem c213_untouched : forall fresh c,
  supports c "ietf-netconf" rfc6241_features -> implemented c "ietf-netconf-monitoring" = true ->
  init_ctx ctx implemented enabled load fresh (Some (Some c)) = mkOut 0 (Some c) [].
Proof.
  intros fresh c [I F] M. cbn [init_ctx]. rewrite I.
  replace (some_disabled ctx enabled c netconf_features) with false.
  - cbn [negb]. rewrite M. reflexivity.
  - symmetry. unfold netconf_features. cbn [some_disabled].
    rewrite !F by (cbn; tauto). reflexivity.
Qed.

(** The modules of a server configuration with the features this library supports: everything but what its
    documentation names as unsupported. *)
Definition config_modules : list (string * list string) :=
  [ ("ietf-netconf-server", ["ssh-listen"; "tls-listen"; "ssh-call-home"; "tls-call-home"; "central-netconf-server-supported"]);
    ("ietf-keystore", ["central-keystore-supported"; "inline-definitions-supported"; "asymmetric-keys"]);
    ("ietf-truststore", ["central-truststore-supported"; "inline-definitions-supported"; "certificates"; "public-keys"]);
    ("libnetconf2-netconf-server", []);
    ("ietf-crypto-types", ["cleartext-passwords"; "cleartext-private-keys"]);
    ("ietf-x509-cert-to-name", []);
    ("iana-crypt-hash", ["crypt-hash-md5"; "crypt-hash-sha-256"; "crypt-hash-sha-512"]);
    ("ietf-tcp-common", ["keepalives-supported"]);
    ("ietf-tcp-server", ["tcp-server-keepalives"]);
    ("ietf-tcp-client", ["local-binding-supported"; "tcp-client-keepalives"]);
    ("ietf-ssh-common", ["transport-params"]);
    ("ietf-ssh-server", ["local-users-supported"; "local-user-auth-publickey"; "local-user-auth-password"; "local-user-auth-none"]);
    ("iana-ssh-encryption-algs", []); ("iana-ssh-key-exchange-algs", []);
    ("iana-ssh-mac-algs", []); ("iana-ssh-public-key-algs", []);
    ("ietf-tls-common", ["tls10"; "tls11"; "tls12"; "tls13"; "hello-params"]);
    ("ietf-tls-server", ["server-ident-x509-cert"; "client-auth-supported"; "client-auth-x509-cert"]);
    ("iana-tls-cipher-suite-algs", []) ].

Lemma load_all_ok : loads_well -> forall names i c r c', NoDup names ->
  load_all ctx load names i c = Some (r, c') -> r = true ->
  (forall k n, nth_error names k = Some n ->
     exists fs, nth_error module_features (i + k) = Some fs /\ supports c' n fs) /\
  (forall m fs, ~ In m names -> supports c m fs -> supports c' m fs).
Proof.
  intros W names. induction names as [|n rest IH]; intros i c r c' ND L Hr; cbn [load_all] in L.
  - injection L as <- <-. split; [|auto]. intros [|k] n0 H; discriminate.
  - destruct (nth_error module_features i) as [fs|] eqn:Ef; [|discriminate].
    destruct (load c n fs) as [ok c1] eqn:El. destruct ok; cbn [negb] in L.
    + inversion ND as [|? ? Hn ND']; subst.
      destruct (IH (S i) c1 true c' ND' L eq_refl) as [A B]. split.
      * intros [|k] n0 H; cbn in H.
        -- injection H as <-. exists fs. rewrite Nat.add_0_r. split; [exact Ef|].
           apply B; [exact Hn|]. eapply load_supports; eauto.
        -- destruct (A k n0 H) as (fs0 & H1 & H2). exists fs0.
           replace (i + S k) with (S i + k) by lia. auto.
      * intros m fs0 Hm Hs. apply B; [intros Hi; apply Hm; right; exact Hi|].
        eapply load_supports_other; [exact W| |exact Hs|exact El]. intros ->. apply Hm. left. reflexivity.
    + injection L as <- <-. discriminate.
Qed.

Lemma load_all_total names i c : i + length names <= length module_features ->
  load_all ctx load names i c <> None.
Proof.
  revert i c. induction names as [|n r IH]; intros i c H; cbn [load_all]; [discriminate|].
  cbn [length] in H. destruct (nth_error module_features i) as [fs|] eqn:E.
  - destruct (load c n fs) as [[|] c1]; cbn [negb]; [|discriminate]. apply IH. lia.
  - apply nth_error_None in E. lia.
Qed.

Lemma names_nodup : NoDup module_names.
Proof.
  unfold module_names. repeat (constructor; [cbn; intuition discriminate|]). constructor.
Qed.

Lemma config_modules_paired : forall m fs, In (m, fs) config_modules ->
  exists k, nth_error module_names k = Some m /\ nth_error module_features k = Some fs.
Proof.
  assert (H : forallb (fun p => existsb (fun k =>
     match nth_error module_names k, nth_error module_features k with
     | Some m, Some fs => String.eqb m (fst p) && (if list_eq_dec string_dec fs (snd p) then true else false)
     | _, _ => false end) (seq 0 19)) config_modules = true) by reflexivity.
  intros m fs Hi. rewrite forallb_forall in H. specialize (H _ Hi). apply existsb_exists in H.
  destruct H as (k & _ & H). exists k.
  destruct (nth_error module_names k) as [m'|], (nth_error module_features k) as [fs'|]; try discriminate.
  apply andb_true_iff in H. destruct H as [H1 H2]. apply String.eqb_eq in H1. cbn in H1, H2. subst.
  destruct (list_eq_dec string_dec fs' fs); [subst; auto|discriminate].
Qed.

Lemma names_configured : forall m, ~ In m (map fst config_modules) -> ~ In m module_names.
Proof.
  intros m H Hi. apply H.
  assert (E : forallb (fun n => existsb (String.eqb n) (map fst config_modules)) module_names = true) by reflexivity.
  rewrite forallb_forall in E. specialize (E m Hi). apply existsb_exists in E.
  destruct E as (x & Hx & E). apply String.eqb_eq in E. now subst.
Qed.

(** C214.  [nc_server_config_load_modules] with a pointer reads its tables within bounds, and when it succeeds
    [*ctx] is a context in which every module of the configuration is implemented with its own features, and
    what else the caller's context supported is still supported. *)
Theorem c214_success : loads_well -> forall fresh c0,
  exists o, load_modules ctx load fresh (Some c0) = Some o /\
    (o_ret o = 0 -> o_destroyed o = [] /\ exists c, o_ctx o = Some c /\
       (forall m fs, In (m, fs) config_modules -> supports c m fs) /\
       (forall given m fs, c0 = Some given -> ~ In m (map fst config_modules) ->
          supports given m fs -> supports c m fs)).
Proof.
  intros W fresh c0.
  assert (T : forall c, load_all ctx load module_names 0 c <> None).
  { intros c. apply load_all_total. cbn. lia. }
  assert (G : forall c c', load_all ctx load module_names 0 c = Some (true, c') ->
     (forall m fs, In (m, fs) config_modules -> supports c' m fs) /\
     (forall m fs, ~ In m (map fst config_modules) -> supports c m fs -> supports c' m fs)).
  { intros c c' L. destruct (load_all_ok W _ _ _ _ _ names_nodup L eq_refl) as [A B]. split.
    - intros m fs Hi. destruct (config_modules_paired m fs Hi) as (k & Hk1 & Hk2).
      destruct (A k m Hk1) as (fs' & Hf & Hs). cbn [Nat.add] in Hf. rewrite Hk2 in Hf.
      injection Hf as <-. exact Hs.
    - intros m fs Hn. apply B, names_configured, Hn. }
  destruct c0 as [c|]; cbn [load_modules].
  - destruct (load_all ctx load module_names 0 c) as [[[|] c']|] eqn:E; [| |now elim (T c)].
    + eexists. split; [reflexivity|]. intros _. split; [reflexivity|]. exists c'. split; [reflexivity|].
      destruct (G c c' E) as [A B]. split; [exact A|]. intros g m fs Hg. injection Hg as <-. apply B.
    + eexists. split; [reflexivity|]. discriminate.
  - destruct fresh as [c|].
    + destruct (load_all ctx load module_names 0 c) as [[[|] c']|] eqn:E; [| |now elim (T c)].
      * eexists. split; [reflexivity|]. intros _. split; [reflexivity|]. exists c'. split; [reflexivity|].
        destruct (G c c' E) as [A _]. split; [exact A|]. discriminate.
      * eexists. split; [reflexivity|]. discriminate.
    + eexists. split; [reflexivity|]. discriminate.
Qed.

(** When it fails, a context of the caller survives and one it created is destroyed. *)
Theorem c214_failure : forall fresh c0 o, load_modules ctx load fresh (Some c0) = Some o -> o_ret o <> 0 ->
  match c0 with
  | Some _ => o_ctx o <> None /\ o_destroyed o = []
  | None => o_ctx o = None /\ (fresh = None <-> o_destroyed o = []) /\ length (o_destroyed o) <= 1
  end.
Proof.
  intros fresh [c|] o; cbn [load_modules].
  - destruct (load_all _ _ _ _ _) as [[[|] c']|]; intros H; try discriminate; injection H as <-; cbn;
      intros N; [now elim N|]. split; [discriminate|reflexivity].
  - destruct fresh as [c|].
    + destruct (load_all _ _ _ _ _) as [[[|] c']|]; intros H; try discriminate; injection H as <-; cbn;
        intros N; [now elim N|]. repeat split; auto; discriminate.
    + intros H. injection H as <-. cbn. repeat split; auto.
Qed.

End CTX.

(** A libyang of lists: contexts are lists of modules with their features, and some modules do not exist. *)
Definition lctx := list (string * list string).
Definition limp (c : lctx) (m : string) : bool := existsb (fun p => String.eqb (fst p) m) c.
Definition lena (c : lctx) (m f : string) : bool :=
  existsb (fun p => String.eqb (fst p) m && existsb (String.eqb f) (snd p)) c.
Definition lload (exist : string -> bool) (c : lctx) (m : string) (fs : list string) : bool * lctx :=
  if exist m then (true, (m, fs) :: c) else (false, c).

Lemma lload_well exist : loads_well lctx limp lena (lload exist).
Proof.
  intros c m fs c' L. unfold lload in L. destruct (exist m); [|discriminate]. injection L as <-.
  split; [cbn; now rewrite String.eqb_refl|]. split.
  - intros f Hf. cbn. rewrite String.eqb_refl. cbn.
    replace (existsb (String.eqb f) fs) with true; [reflexivity|].
    symmetry. apply existsb_exists. exists f. split; [exact Hf|apply String.eqb_refl].
  - intros m' _ I. cbn. unfold limp in I. rewrite I. split; [apply orb_true_r|].
    intros f E. unfold lena in E. rewrite E. apply orb_true_r.
Qed.

Example c213_ex :
  (* a context with ietf-netconf lacking features *)
  o_ret (init_ctx lctx limp lena (lload (fun _ => true)) None (Some (Some [("ietf-netconf", ["xpath"])]))) = 0 /\
  (* a new context, the second module missing *)
  o_ctx (init_ctx lctx limp lena (lload (String.eqb "ietf-netconf")) (Some []) (Some None)) = None /\
  o_destroyed (init_ctx lctx limp lena (lload (String.eqb "ietf-netconf")) (Some []) (Some None))
    = [[("ietf-netconf", netconf_features)]].
Proof. repeat split. Qed.

Example c214_ex :
  (exists c, load_modules lctx (lload (fun _ => true)) (Some []) (Some None) = Some (mkOut 0 (Some c) []) /\
             lena c "ietf-truststore" "public-keys" = true) /\
  load_modules lctx (lload (fun _ => false)) (Some []) (Some (Some [("mine", [])]))
    = Some (mkOut 1 (Some [("mine", [])]) []).
Proof. split; [eexists; split; reflexivity|reflexivity]. Qed.

(** * C215, C216: user data of callbacks *)

(** No datum is freed twice or given to a callback after it was freed; [fr] holds the data freed so far. *)
Fixpoint sound (fr : list nat) (t : list eff) : Prop :=
  match t with
  | [] => True
  | FreeData d :: r => ~ In d fr /\ sound (d :: fr) r
  | CallContentId (Some d) :: r => ~ In d fr /\ sound fr r
  | CallInteractive (Some d) :: r => ~ In d fr /\ sound fr r
  | _ :: r => sound fr r
  end.

(** The data an application gives. *)
Definition given1 (e : ev) : list nat :=
  match e with
  | ESetContentId _ (Some d) _ | ESetInteractive _ (Some d) _ => [d]
  | _ => []
  end.
Definition given (es : list ev) : list nat := flat_map given1 es.

Definition c215_full : Prop := forall es, NoDup (given es) -> sound [] (snd (run st0 es)).

Definition fine : ev := EInit (fun _ => false) false.

(** The datum of the content-id callback is freed by every [nc_server_destroy]. *)
Theorem c215_refuted : ~ c215_full.
Proof.
  intros H. specialize (H [fine; ESetContentId true (Some 7) true; EDestroy; fine; EDestroy]).
  cbn in H. destruct H as [_ [H _]]; [repeat constructor; cbn; tauto|]. apply H. left. reflexivity.
Qed.

(** And the callback is called with it once the server was initialised anew. *)
Theorem c215_refuted_use :
  let es := [fine; ESetContentId true (Some 7) true; EDestroy; fine; EHello] in
  NoDup (given es) /\ ~ sound [] (snd (run st0 es)).
Proof.
  cbn. split; [repeat constructor; cbn; tauto|]. intros [_ [H _]]. apply H. left. reflexivity.
Qed.

(** What an application has to do: while the datum of the content-id callback is freed, it neither destroys the
    server nor has sessions greeted.  [k] says whether that datum is live, freed or there is none to be freed. *)
Inductive cid := CNone | CLive | CFreed.
Fixpoint renews (k : cid) (es : list ev) : Prop :=
  match es with
  | [] => True
  | ESetContentId _ (Some _) true :: r => renews CLive r
  | ESetContentId _ _ _ :: r => renews CNone r
  | EDestroy :: r => k <> CFreed /\ renews (match k with CLive => CFreed | _ => k end) r
  | EHello :: r => k <> CFreed /\ renews k r
  | _ :: r => renews k r
  end.

Definition opt {A} (o : option A) : list A := match o with Some a => [a] | None => [] end.

(** The invariant of a run. *)
Record inv (s : st) (k : cid) (fr : list nat) (es : list ev) : Prop := mkInv {
  i_ia : forall d, ia_data s = Some d -> ~ In d fr;
  i_cid : k <> CFreed -> forall d, cid_data s = Some d -> ~ In d fr;
  i_new : forall d, In d (given es) -> ~ In d fr;
  i_nodup : NoDup (opt (ia_data s) ++ opt (cid_data s) ++ given es);
  i_none : k = CNone -> cid_data s <> None -> cid_free s = false;
  i_live : k = CLive -> cid_free s = true /\ cid_data s <> None
}.

Lemma sound_skip_init fr f k r : sound fr (snd (server_init f k) ++ r) <-> sound fr r.
Proof.
  unfold server_init, andthen, init_error.
  repeat match goal with |- context [if ?b then _ else _] => destruct b end; cbn; tauto.
Qed.

Lemma nodup_drop2 {A} (a b c : list A) : NoDup (a ++ b ++ c) -> NoDup (a ++ c).
Proof.
  revert b c. induction a as [|x a IH]; intros b c H; cbn in *.
  - induction b as [|y b IHb]; [exact H|]. inversion H; auto.
  - inversion H as [|? ? N H']; subst. constructor; [|eapply IH, H'].
    intros Hi. apply N. rewrite !in_app_iff in *. tauto.
Qed.
Lemma nodup_drop1 {A} (a b : list A) : NoDup (a ++ b) -> NoDup b.
Proof. induction a as [|x a IH]; cbn; intros H; auto. inversion H; auto. Qed.
Lemma nodup_swap2 {A} (x y : A) (c : list A) : NoDup (x :: y :: c) -> NoDup (y :: x :: c).
Proof.
  intros H. inversion H as [|? ? N1 H1]; subst. inversion H1 as [|? ? N2 H2]; subst.
  constructor.
  - intros [->|Hi]; [apply N1; left; reflexivity|contradiction].
  - constructor; [intros Hi; apply N1; right; exact Hi|exact H2].
Qed.

Lemma run_sound : forall es s k fr, inv s k fr es -> renews k es -> sound fr (snd (run s es)).
Proof.
  induction es as [|e r IH]; intros s k fr I R; [exact Logic.I|].
  cbn [run]. destruct (step s e) as [s1 f1] eqn:Es. destruct (run s1 r) as [s2 f2] eqn:Er. cbn [snd].
  assert (Hr : forall k' fr', inv s1 k' fr' r -> renews k' r -> sound fr' f2).
  { intros k' fr' I' R'. specialize (IH s1 k' fr' I' R'). now rewrite Er in IH. }
  destruct I as [Iia Icid Inew Ind Inone Ilive].
  destruct e as [f sk| |c d f|c d f| | |]; cbn [step] in Es.
  - injection Es as <- <-. apply sound_skip_init. apply (Hr k fr); [|exact R]. now constructor.
  - (* destroy *)
    cbn [renews] in R. destruct R as [Rk R]. cbn [given flat_map given1] in *.
    unfold server_destroy in Es. injection Es as <- <-.
    set (k' := match k with CLive => CFreed | _ => k end) in *.
    destruct k; [| |now elim Rk].
    + (* nothing to free for content id *)
      specialize (Inone eq_refl). specialize (Icid ltac:(discriminate)).
      assert (E : match cid_data s with Some d => if cid_free s then [FreeData d] else [] | None => [] end = []).
      { destruct (cid_data s); [|reflexivity]. now rewrite Inone. }
      rewrite E. cbn [app]. cbn [sound].
      destruct (ia_data s) as [a|] eqn:Ea.
      * destruct (ia_free s) eqn:Ef; cbn [app sound].
        -- split; [now apply Iia|]. apply (Hr CNone (a :: fr)); [|exact R].
           cbn [opt app] in Ind. inversion Ind as [|? ? N Ind']; subst.
           constructor; cbn [ia_data cid_data cid_free].
           ++ discriminate.
           ++ intros _ d Hd [->|Hi]; [|now apply (Icid d Hd)]. apply N. rewrite Hd. left. reflexivity.
           ++ intros d Hd [->|Hi]; [|now apply (Inew d Hd)]. apply N, in_app_iff. right. exact Hd.
           ++ exact Ind'.
           ++ intros _. exact Inone.
           ++ discriminate.
        -- apply (Hr CNone fr); [|exact R]. cbn [opt app] in Ind. inversion Ind; subst.
           constructor; cbn [ia_data cid_data cid_free]; auto; try discriminate.
      * cbn [app sound]. apply (Hr CNone fr); [|exact R].
        constructor; cbn [ia_data cid_data cid_free]; auto; try discriminate.
    + destruct (Ilive eq_refl) as [Ef En]. specialize (Icid ltac:(discriminate)).
      destruct (cid_data s) as [c|] eqn:Ec; [|now elim En]. rewrite Ef. cbn [app sound].
      split; [now apply Icid|].
      destruct (ia_data s) as [a|] eqn:Ea.
      * cbn [opt app] in Ind. inversion Ind as [|? ? N Ind']; subst. inversion Ind' as [|? ? N2 Ind2]; subst.
        destruct (ia_free s); cbn [app sound].
        -- split.
           ++ intros [->|Hi]; [apply N; left; reflexivity|]. now apply (Iia a eq_refl).
           ++ apply (Hr CFreed (a :: c :: fr)); [|exact R].
              constructor; cbn [ia_data cid_data cid_free]; try discriminate.
              ** intros F. now elim F.
              ** intros d Hd [->|[->|Hi]]; [apply N; right; exact Hd|contradiction|now apply (Inew d Hd)].
              ** cbn [opt app]. exact Ind'.
        -- apply (Hr CFreed (c :: fr)); [|exact R].
           constructor; cbn [ia_data cid_data cid_free]; try discriminate.
           ++ intros F. now elim F.
           ++ intros d Hd [->|Hi]; [contradiction|now apply (Inew d Hd)].
           ++ cbn [opt app]. exact Ind'.
      * cbn [app sound opt] in *. inversion Ind as [|? ? N Ind']; subst.
        apply (Hr CFreed (c :: fr)); [|exact R].
        constructor; cbn [ia_data cid_data cid_free]; try discriminate.
        -- intros F. now elim F.
        -- intros d Hd [->|Hi]; [contradiction|now apply (Inew d Hd)].
        -- exact Ind.
  - (* content id *)
    injection Es as <- <-. cbn [app].
    cbn [given flat_map] in Ind, Inew.
    assert (Ind2 : NoDup (opt (ia_data s) ++ given1 (ESetContentId c d f) ++ given r)).
    { eapply nodup_drop2 in Ind. exact Ind. }
    assert (Hk : renews (match d with Some _ => if f then CLive else CNone | None => CNone end) r).
    { cbn [renews] in R. destruct d; [destruct f|]; exact R. }
    eapply Hr; [|exact Hk].
    constructor; cbn [ia_data cid_data cid_free].
    + exact Iia.
    + intros _ d0 Hd. apply Inew. rewrite Hd. cbn [given1]. left. reflexivity.
    + intros d0 Hd. apply Inew, in_app_iff. right. exact Hd.
    + destruct d; exact Ind2.
    + destruct d; [destruct f; [discriminate|auto]|]. intros _ F. now elim F.
    + destruct d; [destruct f|]; try discriminate. intros _. split; [reflexivity|discriminate].
  - (* interactive *)
    injection Es as <- <-. cbn [app].
    cbn [given flat_map] in Ind, Inew. cbn [renews] in R.
    assert (Ind2 : NoDup (opt (cid_data s) ++ given1 (ESetInteractive c d f) ++ given r)).
    { eapply nodup_drop1. exact Ind. }
    eapply Hr; [|exact R].
    constructor; cbn [ia_data cid_data cid_free]; auto.
    + intros d0 Hd. apply Inew. rewrite Hd. cbn [given1]. left. reflexivity.
    + intros d0 Hd. apply Inew, in_app_iff. right. exact Hd.
    + destruct d as [d|]; cbn [opt given1 app] in *; [|exact Ind2].
      destruct (cid_data s); cbn [opt app] in *; [apply nodup_swap2|]; exact Ind2.
  - injection Es as <- <-. cbn [app]. apply (Hr k fr); [|exact R]. now constructor.
  - injection Es as <- <-. cbn [renews] in R. destruct R as [Rk R].
    destruct (cid_clb s); cbn [app sound].
    + destruct (cid_data s) as [d|] eqn:Ed.
      * split; [now apply Icid|]. apply (Hr k fr); [|exact R]. constructor; try rewrite Ed; auto.
      * apply (Hr k fr); [|exact R]. constructor; try rewrite Ed; auto.
    + apply (Hr k fr); [|exact R]. now constructor.
  - injection Es as <- <-. destruct (ia_clb s); cbn [app sound].
    + destruct (ia_data s) as [d|] eqn:Ed.
      * split; [now apply Iia|]. apply (Hr k fr); [|exact R]. constructor; try rewrite Ed; auto.
      * apply (Hr k fr); [|exact R]. constructor; try rewrite Ed; auto.
    + apply (Hr k fr); [|exact R]. now constructor.
Qed.

(** C215.  Whatever the order of initialisations, destructions, callbacks set, sessions greeted and clients
    authenticated: as long as the application gives every datum once and renews a freed content-id datum in
    time, no datum is freed twice or used after it was freed.  Nothing is asked for the data of the interactive
    authentication. *)
Theorem c215_partial : forall es, NoDup (given es) -> renews CNone es -> sound [] (snd (run st0 es)).
Proof.
  intros es N R. eapply run_sound; [|exact R].
  constructor; cbn; auto; discriminate.
Qed.

(** In particular without a content-id callback. *)
Definition no_content_id (es : list ev) : Prop := forall e, In e es -> match e with ESetContentId _ _ _ => False | _ => True end.
Theorem c215_interactive : forall es, NoDup (given es) -> no_content_id es -> sound [] (snd (run st0 es)).
Proof.
  intros es N H. apply c215_partial; [exact N|]. clear N. induction es as [|e r IH]; [exact Logic.I|].
  assert (Hr : renews CNone r) by (apply IH; intros x Hx; apply H; now right).
  specialize (H e (or_introl eq_refl)).
  destruct e; cbn [renews]; try exact Hr; try (split; [discriminate|exact Hr]). contradiction.
Qed.

Example c215_ex :
  let es := [fine; ESetContentId true (Some 1) true; ESetInteractive true (Some 2) true; EHello; EInteractive;
             EDestroy; fine; ESetContentId true (Some 3) true; EHello; EInteractive; EDestroy] in
  NoDup (given es) /\ renews CNone es /\
  filter (fun e => match e with Init _ | Fini _ => false | _ => true end) (snd (run st0 es)) =
    [CallContentId (Some 1); CallInteractive (Some 2); FreeData 1; FreeData 2;
     CallContentId (Some 3); CallInteractive None; FreeData 3].
Proof.
  cbn. split; [|split; [repeat split; discriminate|reflexivity]].
  repeat constructor; cbn; intuition discriminate.
Qed.

(** C216.  The data the server holds when it is destroyed are freed. *)
Definition gives_freed (d : nat) (e : ev) : Prop :=
  (exists c, e = ESetContentId c (Some d) true) \/ (exists c, e = ESetInteractive c (Some d) true).

Definition c216_full : Prop := forall es d e, In e es -> gives_freed d e ->
  In (FreeData d) (snd (run st0 (es ++ [EDestroy]))).

(** Setting a callback again forgets the datum of the one before. *)
Theorem c216_refuted : ~ c216_full.
Proof.
  intros H.
  specialize (H [fine; ESetInteractive true (Some 1) true; ESetInteractive true (Some 2) true] 1
                (ESetInteractive true (Some 1) true)).
  cbn in H. destruct H as [H|H]; try discriminate; [tauto|right; eexists; reflexivity|].
  repeat (destruct H as [H|H]; [discriminate|]). exact H.
Qed.

Lemma run_app : forall a s b, run s (a ++ b) =
  (fst (run (fst (run s a)) b), snd (run s a) ++ snd (run (fst (run s a)) b)).
Proof.
  induction a as [|e a IH]; intros s b; cbn [app run].
  - cbn [fst snd app]. now destruct (run s b).
  - destruct (step s e) as [s1 f1]. rewrite IH. destruct (run s1 a) as [s2 f2]. cbn [fst snd].
    now rewrite app_assoc.
Qed.

(** The same kind of callback is not set in [b] and the server is not destroyed in it. *)
Definition quiet (e : ev) (b : list ev) : Prop := forall x, In x b ->
  match x, e with
  | ESetContentId _ _ _, ESetContentId _ _ _ => False
  | ESetInteractive _ _ _, ESetInteractive _ _ _ => False
  | EDestroy, _ => False
  | _, _ => True
  end.

Definition holds (d : nat) (e : ev) (s : st) : Prop :=
  match e with
  | ESetContentId _ _ _ => cid_data s = Some d /\ cid_free s = true
  | ESetInteractive _ _ _ => ia_data s = Some d /\ ia_free s = true
  | _ => False
  end.

Lemma quiet_holds d e : forall b s, quiet e b -> holds d e s -> holds d e (fst (run s b)).
Proof.
  induction b as [|x b IH]; intros s Q H; cbn [run]; [exact H|].
  destruct (step s x) as [s1 f1] eqn:Es.
  assert (H1 : holds d e s1).
  { specialize (Q x (or_introl eq_refl)).
    destruct x, e; cbn [step] in Es; try injection Es as <- <-; cbn in *; try contradiction; exact H. }
  assert (Hb : quiet e b) by (intros y Hy; apply Q; now right).
  specialize (IH s1 Hb H1). now destruct (run s1 b).
Qed.

(** A datum given with a freeing callback and not replaced since is freed exactly when the server is destroyed:
    the call of [nc_server_destroy] frees it once, and it was not freed between. *)
Theorem c216_partial : forall a e b d, gives_freed d e -> quiet e b ->
  (forall x, In x (given (a ++ b)) -> x <> d) ->
  count_occ Nat.eq_dec
    (flat_map (fun f => match f with FreeData x => [x] | _ => [] end)
              (snd (step (fst (run st0 (a ++ e :: b))) EDestroy))) d = 1.
Proof.
  intros a e b d G Q F.
  assert (R : holds d e (fst (run st0 (a ++ e :: b)))).
  { rewrite run_app. cbn [fst run].
    destruct (step (fst (run st0 a)) e) as [s1 f1] eqn:Es.
    assert (H1 : holds d e s1).
    { destruct G as [(c & ->)|(c & ->)]; cbn in Es; injection Es as <- <-; cbn; auto. }
    pose proof (quiet_holds d e b s1 Q H1) as H2. destruct (run s1 b). exact H2. }
  (* the other datum differs *)
  assert (O : forall es s, (forall x, In x (given es) -> x <> d) ->
     (cid_data s <> Some d -> cid_data (fst (run s es)) <> Some d) /\
     (ia_data s <> Some d -> ia_data (fst (run s es)) <> Some d)).
  { induction es as [|x es IH]; intros s Hd; [auto|]. cbn [run].
    destruct (step s x) as [s1 f1] eqn:Es.
    assert (Hes : forall y, In y (given es) -> y <> d).
    { intros y Hy. apply Hd. cbn [given flat_map]. apply in_app_iff. now right. }
    destruct (IH s1 Hes) as [A B]. destruct (run s1 es) as [s2 f2]. cbn [fst] in *.
    assert (C : (cid_data s <> Some d -> cid_data s1 <> Some d) /\ (ia_data s <> Some d -> ia_data s1 <> Some d)).
    { destruct x as [ff sk| |c0 [d0|] f0|c0 [d0|] f0| | |]; cbn [step] in Es; try injection Es as <- <-; cbn; auto;
        try (split; [auto|]; discriminate); try (split; [|auto]; discriminate).
      - split; auto. intros _ E. injection E as ->. apply (Hd d); [left; reflexivity|reflexivity].
      - split; auto. intros _ E. injection E as ->. apply (Hd d); [left; reflexivity|reflexivity]. }
    tauto. }
  destruct (O a st0) as [A1 A2]; [intros x Hx; apply F; unfold given; rewrite flat_map_app; apply in_app_iff; now left|].
  specialize (A1 ltac:(discriminate)). specialize (A2 ltac:(discriminate)).
  assert (Fb : forall x, In x (given b) -> x <> d).
  { intros x Hx; apply F; unfold given; rewrite flat_map_app; apply in_app_iff; now right. }
  assert (N : match e with ESetContentId _ _ _ => ia_data (fst (run st0 (a ++ e :: b))) <> Some d
                         | _ => cid_data (fst (run st0 (a ++ e :: b))) <> Some d end).
  { rewrite run_app. cbn [fst]. set (s := fst (run st0 a)) in *.
    destruct G as [(c & ->)|(c & ->)]; cbn [run step].
    - destruct (O b (mkSt c (Some d) true (ia_clb s) (ia_data s) (ia_free s) (caps s)) Fb) as [_ B].
      destruct (run _ b). apply B. exact A2.
    - destruct (O b (mkSt (cid_clb s) (cid_data s) (cid_free s) c (Some d) true (caps s)) Fb) as [B _].
      destruct (run _ b). apply B. exact A1. }
  set (s := fst (run st0 (a ++ e :: b))) in *.
  destruct G as [(c & ->)|(c & ->)]; cbn [holds] in R; destruct R as [R1 R2];
    cbn [step server_destroy snd]; rewrite R1, R2; cbn [app].
  - destruct (ia_data s) as [x|]; [destruct (ia_free s)|]; cbn.
    + destruct (Nat.eq_dec d d); [|congruence]. destruct (Nat.eq_dec x d); [subst; congruence|reflexivity].
    + destruct (Nat.eq_dec d d); [reflexivity|congruence].
    + destruct (Nat.eq_dec d d); [reflexivity|congruence].
  - destruct (cid_data s) as [x|]; [destruct (cid_free s)|]; cbn.
    + destruct (Nat.eq_dec x d); [subst; congruence|]. destruct (Nat.eq_dec d d); [reflexivity|congruence].
    + destruct (Nat.eq_dec d d); [reflexivity|congruence].
    + destruct (Nat.eq_dec d d); [reflexivity|congruence].
Qed.

Example c216_ex :
  let a := [fine; ESetContentId true (Some 3) true] in
  let b := [EHello; ESetCapability; ESetContentId true None false] in
  gives_freed 5 (ESetInteractive true (Some 5) true) /\ quiet (ESetInteractive true (Some 5) true) b /\
  (forall x, In x (given (a ++ b)) -> x <> 5).
Proof.
  cbn. split; [right; eexists; reflexivity|]. split.
  - intros x [<-|[<-|[<-|[]]]]; exact Logic.I.
  - intros x [<-|[]]. discriminate.
Qed.

(** * C217, C218: what is initialised *)

Definition item_eq (a b : item) : bool :=
  match a, b with
  | Attr, Attr | ConfigLock, ConfigLock | ChClientLock, ChClientLock | Curl, Curl | LibSsh, LibSsh
  | BindLock, BindLock | NotifLock, NotifLock | NotifCond, NotifCond => true
  | _, _ => false
  end.

(** Walking along a trace: [i] is never destroyed while not set up nor set up while it is; the result says
    whether it is set up at the end. *)
Fixpoint walk (i : item) (up : bool) (t : list eff) : option bool :=
  match t with
  | [] => Some up
  | Init j :: r => if item_eq i j then (if up then None else walk i true r) else walk i up r
  | Fini j :: r => if item_eq i j then (if up then walk i false r else None) else walk i up r
  | _ :: r => walk i up r
  end.

(** C217.  What [nc_server_init] sets up. *)
Definition c217_full : Prop := forall fails k,
  let '(ok, t) := server_init fails k in
  (* the attribute is destroyed once it was set up, and only then *)
  walk Attr false t = Some false /\
  (* and a failure leaves nothing set up *)
  (forall i, i <> Attr -> walk i false t = Some ok).

(** When libcurl, libssh or a later lock cannot be set up, the attribute is destroyed a second time. *)
Theorem c217_refuted_attr : forall fails,
  fails Attr = false -> fails ConfigLock = false -> fails ChClientLock = false -> fails Curl = true ->
  walk Attr false (snd (server_init fails false)) = None.
Proof. intros f A B C D. unfold server_init. rewrite A, B, C, D. reflexivity. Qed.

Theorem c217_refuted : ~ c217_full.
Proof.
  intros H. specialize (H (fun i => match i with Curl => true | _ => false end) false).
  cbn in H. destruct H as [H _]. discriminate.
Qed.

(** What holds: a success sets up everything and disposes of the attribute; before the locks of the
    configuration are there a failure disposes of the attribute too; and never is anything but the attribute
    destroyed or set up twice. *)
Theorem c217_partial : forall fails k,
  let '(ok, t) := server_init fails k in
  (ok = true -> walk Attr false t = Some false /\ forall i, i <> Attr -> walk i false t = Some true) /\
  (ok = true <-> k = false /\ forall i, fails i = false) /\
  (k = true \/ fails Attr = true \/ fails ConfigLock = true \/ fails ChClientLock = true ->
     ok = false /\ walk Attr false t = Some false) /\
  (forall i, i <> Attr -> walk i false t <> None).
Proof.
  intros f k. destruct (server_init f k) as [ok t] eqn:E. unfold server_init in E.
  assert (All : forall P : bool -> Prop, (P (f Attr)) -> P (f ConfigLock) -> P (f ChClientLock) -> P (f Curl) ->
     P (f LibSsh) -> P (f BindLock) -> P (f NotifLock) -> P (f NotifCond) -> forall i, P (f i)).
  { intros P ? ? ? ? ? ? ? ? []; assumption. }
  specialize (All (fun b => b = false)). cbn beta in All.
  destruct (f Attr) eqn:E1; [|destruct k; [|destruct (f ConfigLock) eqn:E2; [|destruct (f ChClientLock) eqn:E3;
    [|destruct (f Curl) eqn:E4; [|destruct (f LibSsh) eqn:E5; [|destruct (f BindLock) eqn:E6;
    [|destruct (f NotifLock) eqn:E7; [|destruct (f NotifCond) eqn:E8]]]]]]]];
  unfold andthen, init_error in E; cbn [fst snd app] in E; injection E as <- <-;
  (split; [first [discriminate|intros _; split; [reflexivity|intros [] N; try reflexivity; now elim N]]|]);
  (split; [split; [first [discriminate|intros _; auto 12]|intros [K H]; try discriminate K; try reflexivity; exfalso;
     match goal with E : f _ = true |- _ => rewrite H in E; discriminate E end]|]);
  (split; [intros H; first [split; reflexivity|exfalso; destruct H as [H|[H|[H|H]]]; congruence]|]);
  intros [] N; first [now elim N|discriminate].
Qed.

(** C218.  A server initialised and destroyed in turns: what happens between is anything but that. *)
Fixpoint turns (up : bool) (es : list ev) : Prop :=
  match es with
  | [] => True
  | EInit f k :: r => up = false /\ k = false /\ (forall i, f i = false) /\ turns true r
  | EDestroy :: r => up = true /\ turns false r
  | _ :: r => turns up r
  end.

(** Nothing is set up or destroyed twice in a row. *)
Definition c218_full : Prop := forall es, turns false es -> forall i, walk i false (snd (run st0 es)) <> None.

(** The locks of the configuration and of the notification thread are never destroyed. *)
Theorem c218_refuted : forall i, In i [ConfigLock; ChClientLock; NotifLock; NotifCond] ->
  turns false [fine; EDestroy; fine] /\ walk i false (snd (run st0 [fine; EDestroy; fine])) = None.
Proof.
  intros i H. split; [cbn; auto 12|].
  repeat (destruct H as [<-|H]; [reflexivity|]). destruct H.
Qed.

Theorem c218_full_refuted : ~ c218_full.
Proof.
  intros H. destruct (c218_refuted ConfigLock) as [A B]; [left; reflexivity|].
  exact (H _ A ConfigLock B).
Qed.

Lemma walk_app i : forall a up b, walk i up (a ++ b) = match walk i up a with Some u => walk i u b | None => None end.
Proof.
  induction a as [|e a IH]; intros up b; [reflexivity|]. destruct e; cbn [app walk]; try apply IH.
  - destruct (item_eq i i0); [destruct up; [reflexivity|apply IH]|apply IH].
  - destruct (item_eq i i0); [destruct up; [apply IH|reflexivity]|apply IH].
Qed.

(** Whether the server is initialised at the end of a run in turns. *)
Fixpoint up_after (up : bool) (es : list ev) : bool :=
  match es with
  | [] => up
  | EInit _ _ :: r => up_after true r
  | EDestroy :: r => up_after false r
  | _ :: r => up_after up r
  end.

Lemma turns_walk i : In i [Curl; LibSsh; BindLock] -> forall es s up, turns up es ->
  walk i up (snd (run s es)) = Some (up_after up es).
Proof.
  intros Hi. induction es as [|e r IH]; intros s up T; [reflexivity|].
  cbn [run]. destruct (step s e) as [s1 f1] eqn:Es. specialize (IH s1).
  destruct (run s1 r) as [s2 f2]. cbn [snd] in *. rewrite walk_app.
  destruct e; cbn [turns up_after step] in *; try (injection Es as <- <-; apply IH, T).
  - destruct T as (-> & -> & F & T). injection Es as <- <-. unfold server_init. rewrite !F. cbn [andthen fst snd app].
    specialize (IH true T). destruct Hi as [<-|[<-|[<-|[]]]]; exact IH.
  - destruct T as [-> T]. specialize (IH false T). unfold server_destroy in Es. injection Es as <- <-.
    rewrite !walk_app.
    assert (Q : forall (o : option nat) (b : bool) u,
      walk i u (match o with Some d => if b then [FreeData d] else [] | None => [] end) = Some u).
    { intros [d|] [|] u; reflexivity. }
    rewrite !Q. destruct Hi as [<-|[<-|[<-|[]]]]; cbn [walk item_eq]; rewrite !walk_app, ?Q; cbn [walk item_eq]; exact IH.
  - injection Es as <- <-. destruct (cid_clb s); cbn [walk]; apply IH, T.
  - injection Es as <- <-. destruct (ia_clb s); cbn [walk]; apply IH, T.
Qed.

(** The libraries and the lock of the listening sockets are set up exactly while the server is initialised. *)
Theorem c218_partial : forall es i, turns false es -> In i [Curl; LibSsh; BindLock] ->
  walk i false (snd (run st0 es)) = Some (up_after false es).
Proof. intros es i T H. now apply turns_walk. Qed.

Example c218_ex :
  turns false [fine; ESetCapability; EHello; EDestroy; fine; EHello] /\
  up_after false [fine; ESetCapability; EHello; EDestroy; fine; EHello] = true.
Proof. cbn. auto 12. Qed.

Print Assumptions c213_success.
Print Assumptions c213_failure.
Print Assumptions c213_untouched.
Print Assumptions c214_success.
Print Assumptions c214_failure.
Print Assumptions c215_partial.
Print Assumptions c215_interactive.
Print Assumptions c215_refuted.
Print Assumptions c216_partial.
Print Assumptions c216_refuted.
Print Assumptions c217_partial.
Print Assumptions c217_refuted.
Print Assumptions c218_partial.
Print Assumptions c218_full_refuted.
