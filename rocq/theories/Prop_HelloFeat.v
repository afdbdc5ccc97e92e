(** C247, C248: the capabilities of a server that stand for features of ietf-netconf, for the modules and for the yang-library; the model is Caps. *)
From Coq Require Import Ascii String NArith ZArith Bool Lia List.
From Verif Require Import Bytes CStr Caps Hello HelloProofs Prop_Hello.
Import ListNotations.
Local Open Scope N_scope.

(* ------------------------------------------------------------------ *)
(** ** Specification: RFC 6241, section 8, and the features of ietf-netconf that enable each capability *)

Definition std (x : string) : bytes := bs "urn:ietf:params:netconf:capability:" ++ bs x.
Definition table : list (bytes * list bytes) :=
  [(std "writable-running:1.0", [bs "writable-running"]); (std "candidate:1.0", [bs "candidate"]);
   (std "confirmed-commit:1.1", [bs "candidate"; bs "confirmed-commit"]); (std "rollback-on-error:1.0", [bs "rollback-on-error"]);
   (std "validate:1.1", [bs "validate"]); (std "startup:1.0", [bs "startup"]); (std "xpath:1.0", [bs "xpath"])]%string.
Definition enabled (c : lyctx) (req : list bytes) : Prop := exists fs, c_netconf c = Some fs /\ forall f, In f req -> In f fs.

(* ------------------------------------------------------------------ *)

Lemma has_in f fs : has f fs = true <-> In (bs f) fs.
Proof.
  unfold has. rewrite existsb_exists. split.
  - intros (x & I & E). apply beqb_spec in E. subst x. exact I.
  - intros I. exists (bs f). split; [exact I|apply beqb_refl].
Qed.

(** What the features add, for each of them on or off. *)
Definition by_flags (a b c d e f g : bool) (l : list bytes) : list bytes :=
  let l := add_if a (capa "writable-running:1.0") l in
  let l := if b then let l := add_cpblt (capa "candidate:1.0") l in add_if c (capa "confirmed-commit:1.1") l else l in
  let l := add_if d (capa "rollback-on-error:1.0") l in
  let l := add_if e (capa "validate:1.1") l in
  let l := add_if f (capa "startup:1.0") l in
  add_if g (capa "xpath:1.0") l.
Lemma by_flags_is a b c d e f g : by_flags a b c d e f g [base10; base11] =
  [base10; base11] ++ (if a then [std "writable-running:1.0"%string] else []) ++ (if b then [std "candidate:1.0"%string] else []) ++ (if b && c then [std "confirmed-commit:1.1"%string] else []) ++
  (if d then [std "rollback-on-error:1.0"%string] else []) ++ (if e then [std "validate:1.1"%string] else []) ++ (if f then [std "startup:1.0"%string] else []) ++ (if g then [std "xpath:1.0"%string] else []).
Proof. destruct a, b, c, d, e, f, g; vm_compute; reflexivity. Qed.

Lemma netconf_flags fs l : netconf_cpblts fs l = by_flags (has "writable-running" fs) (has "candidate" fs) (has "confirmed-commit" fs) (has "rollback-on-error" fs) (has "validate" fs) (has "startup" fs) (has "xpath" fs) l.
Proof. reflexivity. Qed.

(** The list after the features. *)
Definition base_list (c : lyctx) : list bytes := match c_netconf c with Some fs => netconf_cpblts fs [base10; base11] | None => [base10; base11] end.

Lemma ite_in {A} (b : bool) (x y : A) : In x (if b then [y] else []) <-> b = true /\ x = y.
Proof. destruct b; cbn; intuition congruence. Qed.

Lemma base_in c x req : In (x, req) table -> (In x (base_list c) <-> enabled c req).
Proof.
  intros T. unfold base_list, enabled. destruct (c_netconf c) as [fs|].
  - rewrite netconf_flags, by_flags_is, !in_app_iff, !ite_in, andb_true_iff, !has_in.
    assert (G : forall P : Prop, (P <-> forall f, In f req -> In f fs) -> (P <-> exists fs0, Some fs = Some fs0 /\ forall f, In f req -> In f fs0)).
    { intros P ->. split; [intros H; exists fs; auto|]. intros (fs0 & E & H). injection E as <-. exact H. }
    apply G. clear G.
    repeat (destruct T as [T|T]; [injection T as <- <-; cbn [In map]; split;
      [intros H f Hf; cbn [In] in Hf; repeat match goal with H : _ \/ _ |- _ => destruct H end; subst; try tauto; exfalso; repeat match goal with H : _ /\ _ |- _ => destruct H end; try contradiction; match goal with H : _ = _ |- _ => vm_compute in H; discriminate H end
      |intros H; first [pose proof (H _ (or_introl eq_refl)); pose proof (H _ (or_intror (or_introl eq_refl))); tauto|pose proof (H _ (or_introl eq_refl)); tauto]]|]).
    destruct T.
  - split; [|intros (fs & E & _); discriminate E]. intros H. exfalso.
    repeat (destruct T as [T|T]; [injection T as <- <-; cbn [In] in H; repeat (destruct H as [H|H]; [vm_compute in H; discriminate H|]); destruct H|]). destruct T.
Qed.

Lemma std_plain x req : In (x, req) table -> ~ In QMARK x /\ x <> base10 /\ x <> base11 /\ forall r, x <> capa "with-defaults:1.0" ++ r.
Proof.
  intros T. repeat (destruct T as [T|T]; [injection T as <- <-; split; [vm_compute; intuition discriminate|]; split; [vm_compute; discriminate|]; split; [vm_compute; discriminate|]; intros r; vm_compute; discriminate|]). destruct T.
Qed.

(** C247: exactly the capabilities whose features are enabled, but for those the application adds itself. *)
Theorem c247_announced o c v l x req : get_cpblts o c v = CapOk l -> In (x, req) table -> enabled c req -> In x l.
Proof.
  intros H T E. apply (base_in c x req T) in E. unfold get_cpblts in H. apply mods_ext in H. apply (ext_in _ _ _ H). eapply ext_in; [apply fold_ext|].
  fold (base_list c). destruct (c_withdef c); [eapply ext_in; [apply withdef_ext|]|]; exact E.
Qed.
Theorem c247_only o c v l x req : get_cpblts o c v = CapOk l -> In (x, req) table -> In x l -> enabled c req \/ In x (s_caps o).
Proof.
  intros H T I. destruct (std_plain x req T) as (Q & B0 & B1 & W). unfold get_cpblts in H.
  destruct (mods_in _ _ _ _ _ _ _ H I) as [I1|[I1|(m & _ & p & I1)]].
  - apply fold_in in I1. destruct I1 as [I1|I1]; [|right; exact I1]. left. apply (base_in c x req T). fold (base_list c) in I1.
    destruct (c_withdef c); [|exact I1]. unfold withdef_cpblts in I1. destruct (s_basic o =? 0); [exact I1|]. destruct (s_also o =? 0); [exact I1|].
    apply add_in_cases in I1. destruct I1 as [I1|I1]; [exact I1|]. exfalso. exact (W _ I1).
  - exfalso. apply Q. destruct I1 as [(cid & ->)|(cid & ->)]; vm_compute; tauto.
  - exfalso. apply Q. rewrite I1. rewrite <- !app_assoc. apply in_or_app. right. left. reflexivity.
Qed.

(* ------------------------------------------------------------------ *)
(** ** C248: the modules *)

(** A module is for the YANG version asked for: 1 means YANG 1.0 only, 2 means YANG 1.1 only, anything else all. *)
Definition fits (v : N) (m : modl) : Prop := (v = 1 -> m_version m <= 1) /\ (v = 2 -> m_version m = 2).
(** How the capability of a module starts. *)
Definition head_text (m : modl) : bytes :=
  m_ns m ++ bs "?module=" ++ m_name m ++ match m_rev m with None => [] | Some r => bs "&revision=" ++ r end.
(** The capability of ietf-yang-library: RFC 8526 for the revision of 2019, RFC 7950 for that of 2016. *)
Definition yl_text (r cid : bytes) : bytes :=
  if beqb r (bs "2019-01-04") then std "yang-library:1.1" ++ bs "?revision=" ++ r ++ bs "&content-id=" ++ cid
  else std "yang-library:1.0" ++ bs "?revision=" ++ r ++ bs "&module-set-id=" ++ cid.
(** What the application gives as the identifier of the content, or the change count of the context. *)
Definition content_id (o : sopts) (c : lyctx) : option bytes := match s_cid o with None => Some (dec (c_change c mod w32)) | Some x => x end.

Lemma head_str m s : mod_str m = Some s -> exists r, s = head_text m ++ r.
Proof.
  unfold mod_str. fold (head_text m). intros H.
  destruct (cat [] _) as [b|] eqn:E; [|discriminate]. unfold cat in E. destruct (_ <? _); [|discriminate].
  injection E as <-. destruct (cat_feats _ _ _) as [b1|] eqn:E1; [|discriminate]. apply feats_prefix in E1.
  destruct (m_devs m); [|injection H as <-; exact E1].
  destruct (cat b1 _) as [b2|] eqn:E2; [|discriminate]. apply cat_prefix in E2. apply devs_prefix in H. exact (prefix_trans _ _ _ (prefix_trans _ _ _ E1 E2) H).
Qed.

(** The capability a module stands for in the list. *)
Inductive stands (o : sopts) (ch v : N) (m : modl) : bytes -> Prop :=
| st_yl r cid : m_name m = bs "ietf-yang-library" -> m_rev m = Some r -> r = bs "2016-06-21" \/ r = bs "2019-01-04" ->
    (match s_cid o with None => Some (dec (ch mod w32)) | Some x => x end) = Some cid -> stands o ch v m (yl_text r cid)
| st_mod s : m_name m <> bs "ietf-yang-library" -> fits v m -> mod_str m = Some s -> stands o ch v m s.

Lemma beqb_false a b : beqb a b = false -> a <> b.
Proof. intros H ->. rewrite beqb_refl in H. discriminate. Qed.

Lemma step_mods o ch v m ms l l' : mods_cpblts o ch v (m :: ms) l = CapOk l' ->
  (exists s, stands o ch v m s /\ mods_cpblts o ch v ms (add_cpblt s l) = CapOk l')
  \/ (m_name m <> bs "ietf-yang-library" /\ ~ fits v m /\ mods_cpblts o ch v ms l = CapOk l').
Proof.
  cbn [mods_cpblts]. destruct (beqb (m_name m) (bs "ietf-yang-library")) eqn:B.
  - apply beqb_spec in B. destruct (m_rev m) as [r|] eqn:R; [|discriminate].
    destruct (negb (beqb r REV16) && negb (beqb r REV19)) eqn:V; [discriminate|].
    destruct (match s_cid o with None => _ | Some x => x end) as [cid|] eqn:C; [|discriminate].
    destruct (cat [] _) as [s|] eqn:E; [|discriminate]. intros H. left. exists s. split; [|exact H].
    unfold cat in E. destruct (_ <? _); [|discriminate]. injection E as <-. cbn [app].
    apply andb_false_iff in V. rewrite !negb_false_iff, !beqb_spec in V.
    replace (if beqb r REV19 then _ else _) with (yl_text r cid); [econstructor; eauto|].
    unfold yl_text, REV19. destruct (beqb r (bs "2019-01-04")); reflexivity.
  - apply beqb_false in B. destruct (_ && _) eqn:V1; [|destruct ((v =? 2) && _) eqn:V2].
    + intros H. right. refine (conj B (conj _ H)). intros [F _]. apply andb_true_iff in V1. destruct V1 as [X Y]. apply N.eqb_eq in X. apply N.ltb_lt in Y. specialize (F X). lia.
    + intros H. right. refine (conj B (conj _ H)). intros [_ F]. apply andb_true_iff in V2. destruct V2 as [X Y]. apply N.eqb_eq in X. apply negb_true_iff, N.eqb_neq in Y. specialize (F X). lia.
    + destruct (mod_str m) as [s|] eqn:E; [|discriminate]. intros H. left. exists s. split; [|exact H]. apply st_mod; [exact B| |exact E]. split; intros X.
      * apply andb_false_iff in V1. rewrite N.eqb_neq, N.ltb_ge in V1. destruct V1; [contradiction|lia].
      * apply andb_false_iff in V2. rewrite N.eqb_neq, negb_false_iff, N.eqb_eq in V2. destruct V2; [contradiction|lia].
Qed.

Lemma mods_stand o ch v ms : forall l l' x, mods_cpblts o ch v ms l = CapOk l' -> In x l' -> In x l \/ exists m, In m ms /\ stands o ch v m x.
Proof.
  induction ms as [|m ms IH]; intros l l' x H I; [cbn in H; injection H as <-; auto|].
  apply step_mods in H. destruct H as [(s & Sm & H)|(_ & _ & H)].
  - destruct (IH _ _ _ H I) as [J|(m0 & J & K)]; [|right; exists m0; split; [now right|exact K]].
    apply add_in_cases in J. destruct J as [J|J]; [auto|subst x]. right. exists m. split; [now left|exact Sm].
  - destruct (IH _ _ _ H I) as [J|(m0 & J & K)]; [auto|right; exists m0; split; [now right|exact K]].
Qed.
Lemma stands_inj o ch v m s t : stands o ch v m s -> stands o ch v m t -> s = t.
Proof. intros [r cid A B C D|s0 A B C]; intros [r' cid' A' B' C' D'|s0' A' B' C']; try congruence. Qed.

Lemma mods_there o ch v ms : forall l l' m, mods_cpblts o ch v ms l = CapOk l' -> In m ms -> (m_name m = bs "ietf-yang-library" \/ fits v m) ->
  exists s y, stands o ch v m s /\ In y l' /\ ident y = ident s.
Proof.
  induction ms as [|m0 ms IH]; intros l l' m H I F; [destruct I|]. apply step_mods in H. destruct I as [I|I].
  - subst m0. destruct H as [(s & Sm & H)|(A & B & H)]; [|destruct F; contradiction]. exists s.
    apply mods_ext in H. destruct (add_ext s l) as (_ & U & _). apply (ext_uri _ _ _ H) in U. apply in_map_iff in U. destruct U as (y & E & J). exists y. auto.
  - destruct H as [(s & Sm & H)|(A & B & H)]; exact (IH _ _ _ H I F).
Qed.

Lemma base_ident c o x : In x (if c_withdef c then withdef_cpblts o (base_list c) else base_list c) -> exists r, ident x = bs "urn:ietf:params:netconf:" ++ r.
Proof.
  intros I. assert (J : In x (base_list c) \/ x = capa "with-defaults:1.0" ++ wd_basic_str (s_basic o) ++ wd_also_str (s_also o)).
  { destruct (c_withdef c); [|auto]. unfold withdef_cpblts in I. destruct (s_basic o =? 0); [auto|]. destruct (s_also o =? 0); [auto|]. apply add_in_cases in I. exact I. }
  clear I. destruct J as [J|J]; [|subst x; eexists; unfold ident, capa, wd_basic_str; cbn; reflexivity].
  assert (K : In x [base10; base11] \/ nc_feature_cap x) by (unfold base_list in J; destruct (c_netconf c); [apply netconf_in in J; tauto|auto]).
  clear J. unfold nc_feature_cap in K. cbn [In map] in K.
  repeat match goal with H : _ \/ _ |- _ => destruct H end; subst; try contradiction; eexists; cbn; reflexivity.
Qed.

(** Every module of the version has an entry with its namespace, ietf-yang-library one with its capability. *)
Theorem c248_module o c v l m : get_cpblts o c v = CapOk l -> In m (c_mods c) -> m_name m <> bs "ietf-yang-library" -> fits v m -> ~ In QMARK (m_ns m) ->
  exists y, In y l /\ ident y = m_ns m.
Proof.
  intros H I N F Q. unfold get_cpblts in H. destruct (mods_there _ _ _ _ _ _ m H I (or_intror F)) as (s & y & Sm & J & E). exists y. split; [exact J|]. rewrite E.
  destruct Sm as [r cid A B C D|s A B C]; [contradiction|]. apply head_str in C. destruct C as (r & ->). unfold head_text. rewrite <- !app_assoc. apply before_app. exact Q.
Qed.
(** The entry is that of the module if nothing else uses the namespace. *)
Theorem c248_text o c v l m y : get_cpblts o c v = CapOk l -> In m (c_mods c) -> ~ In QMARK (m_ns m) ->
  In y l -> ident y = m_ns m ->
  (forall r, m_ns m <> bs "urn:ietf:params:netconf:" ++ r) -> (forall x, In x (s_caps o) -> ident x <> m_ns m) ->
  (forall m', In m' (c_mods c) -> ident (m_ns m') = m_ns m -> m' = m) ->
  m_name m <> bs "ietf-yang-library" /\ fits v m /\ exists r, y = head_text m ++ r.
Proof.
  intros H I Q J E U A M. unfold get_cpblts in H. fold (base_list c) in H. destruct (mods_stand _ _ _ _ _ _ _ H J) as [K|(m' & K & Sm)].
  - apply fold_in in K. destruct K as [K|K]; [|destruct (A _ K E)]. apply base_ident in K. destruct K as (r & K). rewrite E in K. destruct (U _ K).
  - destruct Sm as [r cid B C D F|s B C D].
    + exfalso. unfold yl_text in E. destruct (beqb r _); symmetry in E; [apply (U (bs "capability:yang-library:1.1"))|apply (U (bs "capability:yang-library:1.0"))]; rewrite E; reflexivity.
    + apply head_str in D. destruct D as (r & D). assert (X : m' = m).
      { apply M; [exact K|]. rewrite <- E, D. unfold head_text. rewrite <- !app_assoc. unfold ident.
        destruct (before_split QMARK (m_ns m')) as [Z|(r0 & Z)].
        - rewrite Z at 2. symmetry. cbn [bs list_ascii_of_string app]. change "?"%char with QMARK. rewrite before_app; [reflexivity|apply before_not_in].
        - change "?"%char with QMARK. rewrite Z at 2. rewrite <- app_assoc. cbn [app]. symmetry. apply before_app. apply before_not_in. }
      subst m'. refine (conj B (conj C _)). exists r. exact D.
Qed.
(** ietf-yang-library: the server does not announce anything unless the revision is one of the two. *)
Theorem c248_yanglib o c v l m : get_cpblts o c v = CapOk l -> In m (c_mods c) -> m_name m = bs "ietf-yang-library" ->
  exists r cid y, m_rev m = Some r /\ (r = bs "2016-06-21" \/ r = bs "2019-01-04") /\ content_id o c = Some cid /\ In y l /\ ident y = ident (yl_text r cid) /\
    ((forall x, In x (s_caps o) -> ident x <> ident (yl_text r cid)) -> (forall m', In m' (c_mods c) -> m' = m \/ (m_name m' <> bs "ietf-yang-library" /\ ident (m_ns m') <> ident (yl_text r cid))) ->
     y = yl_text r cid).
Proof.
  intros H I N. unfold get_cpblts in H. fold (base_list c) in H. destruct (mods_there _ _ _ _ _ _ m H I (or_introl N)) as (s & y & Sm & J & E).
  destruct Sm as [r cid A B C D|s A B C]; [|contradiction]. exists r, cid, y. refine (conj B (conj C (conj D (conj J (conj E _))))). intros P M.
  destruct (mods_stand _ _ _ _ _ _ _ H J) as [K|(m' & K & Sm)].
  - exfalso. apply fold_in in K. destruct K as [K|K]; [|destruct (P _ K E)].
    assert (W : In y (base_list c) \/ y = capa "with-defaults:1.0" ++ wd_basic_str (s_basic o) ++ wd_also_str (s_also o)).
    { destruct (c_withdef c); [|auto]. unfold withdef_cpblts in K. destruct (s_basic o =? 0); [auto|]. destruct (s_also o =? 0); [auto|]. apply add_in_cases in K. exact K. }
    assert (Y : ident (yl_text r cid) = std "yang-library:1.1" \/ ident (yl_text r cid) = std "yang-library:1.0").
    { unfold yl_text. destruct (beqb r _); [left|right]; reflexivity. }
    rewrite <- E in Y. clear - W Y. destruct W as [W|W]; [|subst y; unfold ident, capa, wd_basic_str in Y; destruct Y as [Y|Y]; vm_compute in Y; discriminate Y].
    assert (X : In y [base10; base11] \/ nc_feature_cap y) by (unfold base_list in W; destruct (c_netconf c); [apply netconf_in in W; tauto|auto]).
    clear W. unfold nc_feature_cap in X. cbn [In map] in X.
    repeat match goal with H : _ \/ _ |- _ => destruct H end; subst; try contradiction; match goal with H : _ = _ |- _ => vm_compute in H; discriminate H end.
  - destruct (M _ K) as [X|[X Y]].
    + subst m'. destruct Sm as [r' cid' A' B' C' D'|s A' B' C']; [|contradiction]. congruence.
    + exfalso. apply Y. destruct Sm as [r' cid' A' B' C' D'|s A' B' C']; [contradiction|]. apply head_str in C'. destruct C' as (q & C'). rewrite <- E, C'. unfold head_text. rewrite <- !app_assoc. unfold ident.
      destruct (before_split QMARK (m_ns m')) as [Z|(r0 & Z)]; change "?"%char with QMARK; rewrite Z at 2.
      * symmetry. cbn [bs list_ascii_of_string app]. change "?"%char with QMARK. apply before_app. apply before_not_in.
      * rewrite <- app_assoc. cbn [app]. symmetry. apply before_app. apply before_not_in.
Qed.

(** A server with a candidate and a startup, but confirmed-commit only half enabled elsewhere; one module of each YANG version. *)
Example c248_case :
  let ms := [mkMod (bs "ietf-yang-library") (bs "urn:ietf:params:xml:ns:yang:ietf-yang-library") (Some (bs "2019-01-04")) 1 [] None;
             mkMod (bs "a") (bs "urn:a") None 1 [] None; mkMod (bs "b") (bs "urn:b") (Some (bs "2024-01-01")) 2 [] None] in
  let c := mkCtx (Some [bs "confirmed-commit"; bs "startup"]) false ms 7 in
  get_cpblts (mkS 0 0 [bs "urn:my"] None) c 1
  = CapOk [v10; v11; std "startup:1.0"; bs "urn:my"; std "yang-library:1.1?revision=2019-01-04&content-id=7"; bs "urn:a?module=a"]
  /\ get_cpblts (mkS 0 0 [bs "urn:my"] None) c 0
  = CapOk [v10; v11; std "startup:1.0"; bs "urn:my"; std "yang-library:1.1?revision=2019-01-04&content-id=7"; bs "urn:a?module=a"; bs "urn:b?module=b&revision=2024-01-01"]
  /\ enabled c [bs "startup"] /\ ~ enabled c [bs "candidate"; bs "confirmed-commit"] /\ fits 1 (mkMod (bs "a") (bs "urn:a") None 1 [] None).
Proof.
  split; [reflexivity|]. split; [reflexivity|]. split; [|split].
  - exists [bs "confirmed-commit"; bs "startup"]. split; [reflexivity|]. cbn. intuition.
  - intros (fs & E & H). injection E as <-. specialize (H _ (or_introl eq_refl)). vm_compute in H. intuition discriminate.
  - split; [cbn; lia|discriminate].
Qed.

Print Assumptions c247_announced.
Print Assumptions c247_only.
Print Assumptions c248_module.
Print Assumptions c248_text.
Print Assumptions c248_yanglib.
