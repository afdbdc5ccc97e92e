(** C180-C183: what a client gets for <get-schema>. *)
From Coq Require Import Ascii String NArith Bool Lia List.
From Verif Require Import Bytes GetSchema.
From Verif Require CStr Caps ModInfo Prop_ModInfo.
Import ListNotations.
Local Open Scope list_scope.

(* ------------------------------------------------------------------ *)
(** ** What is said *)

Definition name_of (s : schema) : bytes := match s with SMod m => g_name m | SSub b => b_name b end.
Definition rev_of (s : schema) : option bytes := match s with SMod m => g_rev m | SSub b => b_rev b end.
(** The schemas the server has: modules and their submodules. *)
Definition has (c : list smod) (s : schema) : Prop :=
  match s with SMod m => In m c | SSub b => exists m, In m c /\ In b (g_subs m) end.
(** A schema that is meant by a name and, if there is one, a version. *)
Definition meant (c : list smod) (n : bytes) (v : option bytes) (s : schema) : Prop :=
  has c s /\ name_of s = n /\ (forall r, v = Some r -> rev_of s = Some r).

(** The request as a set of parameters, in any order.  An empty version is none. *)
Definition fmt_name (f : format) : bytes :=
  match f with Yang => bs "ietf-netconf-monitoring:yang" | Yin => bs "ietf-netconf-monitoring:yin" end.
Definition asks (rpc : list (bytes * bytes)) (n : bytes) (v : option bytes) (f : option format) : Prop :=
  NoDup (map fst rpc) /\ In (bs "identifier", n) rpc /\
  match v with
  | Some r => In (bs "version", r) rpc /\ r <> []
  | None => forall r, In (bs "version", r) rpc -> r = []
  end /\
  match f with
  | Some f => In (bs "format", fmt_name f) rpc
  | None => forall x, ~ In (bs "format", x) rpc
  end.
(** YANG is the default (RFC 6022). *)
Definition wanted (f : option format) : format := match f with Some f => f | None => Yang end.

(** Contexts of libyang: revisions are dates, and of each name there is a schema marked as the latest. *)
Definition context (c : list smod) : Prop :=
  (forall s r, has c s -> rev_of s = Some r -> length r = 10%nat) /\
  (forall m, In m c -> exists m', In m' c /\ g_name m' = g_name m /\ g_latest m' = true) /\
  (forall m b, In m c -> In b (g_subs m) ->
     exists m' b', In m' c /\ In b' (g_subs m') /\ b_name b' = b_name b /\ b_latest b' = true).

(* ------------------------------------------------------------------ *)
(** ** The request is understood *)

Lemma param_none name l d : (forall x, ~ In (name, x) l) -> param name l d = d.
Proof.
  revert d. induction l as [|[n v] l IH]; intros d H; [reflexivity|]. cbn [param].
  destruct (beqb n name) eqn:E.
  - apply beqb_spec in E. subst. destruct (H v (or_introl eq_refl)).
  - apply IH. intros x Hx. exact (H x (or_intror Hx)).
Qed.
Lemma param_some name l d x : NoDup (map fst l) -> In (name, x) l -> param name l d = Some x.
Proof.
  revert d. induction l as [|[n v] l IH]; intros d N H; [destruct H|]. cbn [map fst] in N. inversion N as [|? ? N1 N2]. subst.
  cbn [param]. destruct H as [H|H].
  - injection H as -> ->. rewrite beqb_refl. apply param_none. intros y Hy. apply N1.
    change name with (fst (name, y)). now apply in_map.
  - now apply IH.
Qed.
Lemma param_in name l d x : param name l d = Some x -> d = Some x \/ In (name, x) l.
Proof.
  revert d. induction l as [|[n v] l IH]; intros d; cbn [param]; [now left|]. intros H.
  destruct (IH _ H) as [E|E]; [|right; now right].
  destruct (beqb n name) eqn:B; [|now left]. apply beqb_spec in B. injection E as ->. right. left. now subst.
Qed.

Lemma asks_id rpc n v f : asks rpc n v f -> identifier_of rpc = Some n.
Proof. intros (N & I & _). now apply param_some. Qed.
Lemma asks_version rpc n v f : asks rpc n v f -> version_of rpc = v.
Proof.
  intros (N & _ & V & _). unfold version_of. destruct v as [r|].
  - destruct V as [I E]. rewrite (param_some _ _ _ _ N I). now destruct r.
  - destruct (param (bs "version") rpc None) as [r|] eqn:E; [|reflexivity].
    destruct (param_in _ _ _ _ E) as [D|I]; [discriminate|]. now rewrite (V r I).
Qed.
Lemma asks_format rpc n v f : asks rpc n v f -> outformat (format_of rpc) = Some (wanted f).
Proof.
  intros (N & _ & _ & F). unfold format_of. destruct f as [f|].
  - rewrite (param_some _ _ _ _ N F). destruct f; reflexivity.
  - rewrite param_none by exact F. reflexivity.
Qed.

(* ------------------------------------------------------------------ *)
(** ** What is found *)

Lemma subs_has c b : In b (flat_map g_subs c) <-> has c (SSub b).
Proof. rewrite in_flat_map. reflexivity. Qed.
Lemma orev_true a r : orev a r = true <-> a = Some r.
Proof.
  destruct a as [a|]; cbn [orev]; [|split; discriminate]. rewrite beqb_spec. split; [now intros ->|]. now intros [= ->].
Qed.

Lemma lookup_meant c n v s : lookup c (Some n) v = Some s -> meant c n v s.
Proof.
  unfold lookup, meant. intros H.
  assert (G : forall m, In m c -> g_name m = n -> (forall r, v = Some r -> g_rev m = Some r) -> s = SMod m ->
            has c s /\ name_of s = n /\ (forall r, v = Some r -> rev_of s = Some r)).
  { intros m A B D ->. cbn. auto. }
  assert (K : forall b, In b (flat_map g_subs c) -> b_name b = n -> (forall r, v = Some r -> b_rev b = Some r) -> s = SSub b ->
            has c s /\ name_of s = n /\ (forall r, v = Some r -> rev_of s = Some r)).
  { intros b A B D ->. split; [now apply subs_has|]. cbn [name_of rev_of]. auto. }
  destruct v as [r|].
  - destruct (get_module c n r) as [m|] eqn:E; [|destruct (get_submodule c n r) as [b|] eqn:E2; [|discriminate]].
    + injection H as H. apply find_some in E. destruct E as [I E]. apply andb_true_iff in E. destruct E as [E1 E2].
      apply beqb_spec in E1. apply orev_true in E2. apply (G m); auto. intros r' [= <-]. exact E2.
    + injection H as H. apply find_some in E2. destruct E2 as [I E2]. apply andb_true_iff in E2. destruct E2 as [E1 E2].
      apply beqb_spec in E1. apply orev_true in E2. apply (K b); auto. intros r' [= <-]. exact E2.
  - destruct (get_implemented c n) as [m|] eqn:E; [|destruct (get_latest c n) as [m|] eqn:E2;
      [|destruct (get_submodule_latest c n) as [b|] eqn:E3; [|discriminate]]].
    + injection H as H. apply find_some in E. destruct E as [I E]. apply andb_true_iff in E. destruct E as [E1 _].
      apply beqb_spec in E1. apply (G m); auto. discriminate.
    + injection H as H. apply find_some in E2. destruct E2 as [I E2]. apply andb_true_iff in E2. destruct E2 as [E1 _].
      apply beqb_spec in E1. apply (G m); auto. discriminate.
    + injection H as H. apply find_some in E3. destruct E3 as [I E3]. apply andb_true_iff in E3. destruct E3 as [E1 _].
      apply beqb_spec in E1. apply (K b); auto. discriminate.
Qed.

Lemma find_is {A} (p : A -> bool) l x : In x l -> p x = true -> find p l <> None.
Proof. intros I P H. pose proof (find_none p l H x I) as F. congruence. Qed.

Lemma lookup_found c n v s : context c -> meant c n v s -> lookup c (Some n) v <> None.
Proof.
  intros (_ & L & LS) (H & N & V) E. unfold lookup in E. destruct v as [r|].
  - specialize (V r eq_refl). destruct s as [m|b]; cbn [has name_of rev_of] in *.
    + destruct (get_module c n r) eqn:G; [discriminate|]. apply (find_is _ _ m) in G; [exact G|exact H|].
      rewrite N, beqb_refl. cbn. now apply orev_true.
    + destruct (get_module c n r); [discriminate|]. destruct (get_submodule c n r) eqn:G; [discriminate|].
      apply (find_is _ _ b) in G; [exact G|now apply subs_has|]. rewrite N, beqb_refl. cbn. now apply orev_true.
  - destruct (get_implemented c n); [discriminate|]. destruct (get_latest c n) eqn:G; [discriminate|].
    destruct s as [m|b]; cbn [has name_of] in *.
    + destruct (L m H) as (m' & I & E1 & E2). apply (find_is _ _ m') in G; [exact G|exact I|].
      now rewrite E1, N, beqb_refl, E2.
    + destruct (get_submodule_latest c n) eqn:G2; [discriminate|]. destruct H as (m & I & J).
      destruct (LS m b I J) as (m' & b' & I' & J' & E1 & E2).
      apply (find_is _ _ b') in G2; [exact G2|apply subs_has; now exists m'|]. now rewrite E1, N, beqb_refl, E2.
Qed.

Definition refused_version (v : option bytes) : bool :=
  match v with Some r => negb (Nat.eqb (length r) 10) && negb (beqb r (bs "1.0")) | None => false end.
Lemma asked y c rpc n v f : asks rpc n v f ->
  get_schema y c rpc =
    if refused_version v then RError BAD_VERSION
    else match lookup c (Some n) v with
         | None => RError NOT_FOUND
         | Some s => match snd (p_print y s (wanted f)) with
                     | None => RNull
                     | Some t => if p_envelope y then RData t else RNull
                     end
         end.
Proof.
  intros A. unfold get_schema. rewrite (asks_id _ _ _ _ A), (asks_version _ _ _ _ A), (asks_format _ _ _ _ A).
  unfold refused_version. destruct (match v with Some r => _ | None => false end); [reflexivity|].
  destruct (lookup c (Some n) v) as [s|]; [|reflexivity]. now destruct (p_print y s (wanted f)) as [rc [t|]].
Qed.

(* ------------------------------------------------------------------ *)
(** ** C180: the answer is what was asked for *)

(** Data are what libyang prints of a schema of the server with the name and the version asked for, in the format asked for. *)
Theorem c180_answer y c rpc n v f t : asks rpc n v f -> get_schema y c rpc = RData t ->
  exists s, meant c n v s /\ snd (p_print y s (wanted f)) = Some t.
Proof.
  intros A H. rewrite (asked _ _ _ _ _ _ A) in H. destruct (refused_version v); [discriminate|].
  destruct (lookup c (Some n) v) as [s|] eqn:L; [|discriminate]. exists s. split; [now apply lookup_meant|].
  destruct (snd (p_print y s (wanted f))) as [x|]; [|discriminate]. destruct (p_envelope y); [|discriminate]. now injection H as ->.
Qed.

(** If there is such a schema, there are data, unless libyang has nothing to say. *)
Theorem c180_found y c rpc n v f s : context c -> asks rpc n v f -> meant c n v s ->
  p_envelope y = true -> (forall s' f', snd (p_print y s' f') <> None) ->
  exists t, get_schema y c rpc = RData t.
Proof.
  intros C A M P Q. rewrite (asked _ _ _ _ _ _ A).
  assert (R : refused_version v = false).
  { destruct v as [r|]; [|reflexivity]. destruct M as (H & _ & V). cbn [refused_version].
    rewrite (proj1 C s r H (V r eq_refl)). reflexivity. }
  rewrite R. destruct (lookup c (Some n) v) as [s'|] eqn:L; [|now destruct (lookup_found c n v s C M L)].
  specialize (Q s' (wanted f)). destruct (snd (p_print y s' (wanted f))) as [t|]; [|congruence]. rewrite P. now exists t.
Qed.

(** If there is none, the answer is an error. *)
Theorem c180_none y c rpc n v f : asks rpc n v f -> (forall s, ~ meant c n v s) -> exists m, get_schema y c rpc = RError m.
Proof.
  intros A N. rewrite (asked _ _ _ _ _ _ A). destruct (refused_version v); [eauto|].
  destruct (lookup c (Some n) v) as [s|] eqn:L; [destruct (N s); now apply lookup_meant|eauto].
Qed.

(* ------------------------------------------------------------------ *)
(** ** C181: the answer is a whole schema *)

Definition c181_full : Prop := forall y c rpc n v f t, asks rpc n v f -> get_schema y c rpc = RData t ->
  exists s, meant c n v s /\ p_print y s (wanted f) = (true, Some t).

(** Missing: printers that fail when a part is already in the memory. *)
Theorem c181_whole_partial y c rpc n v f t : (forall s g, fst (p_print y s g) = false -> snd (p_print y s g) = None) ->
  asks rpc n v f -> get_schema y c rpc = RData t -> exists s, meant c n v s /\ p_print y s (wanted f) = (true, Some t).
Proof.
  intros P A H. destruct (c180_answer _ _ _ _ _ _ _ A H) as (s & M & E). exists s. split; [exact M|].
  specialize (P s (wanted f)). destruct (p_print y s (wanted f)) as [[|] x]; cbn [fst snd] in *; [now rewrite E|].
  rewrite (P eq_refl) in E. discriminate.
Qed.

Definition m_a : smod := mkSmod (bs "a") (Some (bs "2020-01-01")) true false [].
Definition m_a2 : smod := mkSmod (bs "a") (Some (bs "2021-01-01")) false true [].
Definition m_b : smod := mkSmod (bs "b") (Some (bs "2019-05-06")) false true [mkSub (bs "b-sub") (Some (bs "2019-05-06")) true].
Definition rpc_a : list (bytes * bytes) := [(bs "identifier", bs "a")].
Lemma asks_a : asks rpc_a (bs "a") None None.
Proof.
  split; [repeat constructor; intros []|]. split; [now left|]. split.
  - intros r [[=]|[]].
  - intros x [[=]|[]].
Qed.

Theorem c181_cut_refuted : ~ c181_full.
Proof.
  intros F. specialize (F {| p_print := fun _ _ => (false, Some (bs "module a {")); p_envelope := true |} [m_a] rpc_a
                         (bs "a") None None (bs "module a {") asks_a eq_refl).
  destruct F as (s & _ & E). discriminate.
Qed.

(* ------------------------------------------------------------------ *)
(** ** C182: requests that mean several schemas *)

(** RFC 6022: if more than one schema is meant, the answer is an error. *)
Definition c182_full : Prop := forall y c rpc n v f s s', asks rpc n v f -> meant c n v s -> meant c n v s' -> s <> s' ->
  exists m, get_schema y c rpc = RError m.

(** Missing: the error.  If one schema alone is meant, it is answered. *)
Theorem c182_unique_partial y c rpc n v f s t : asks rpc n v f -> meant c n v s -> (forall s', meant c n v s' -> s' = s) ->
  get_schema y c rpc = RData t -> snd (p_print y s (wanted f)) = Some t.
Proof. intros A M U H. destruct (c180_answer _ _ _ _ _ _ _ A H) as (s' & M' & E). now rewrite (U s' M') in E. Qed.

(** What is answered otherwise: the module that is implemented, if there is one. *)
Theorem c182_implemented_partial y c rpc n f m t : asks rpc n None f -> In m c -> g_name m = n -> g_impl m = true ->
  (forall m', In m' c -> g_name m' = n -> g_impl m' = true -> m' = m) ->
  get_schema y c rpc = RData t -> snd (p_print y (SMod m) (wanted f)) = Some t.
Proof.
  intros A I N P U H. rewrite (asked _ _ _ _ _ _ A) in H. cbn [refused_version lookup] in H.
  destruct (get_implemented c n) as [m'|] eqn:E.
  - apply find_some in E. destruct E as [I' E]. apply andb_true_iff in E. destruct E as [E1 E2]. apply beqb_spec in E1.
    rewrite (U m' I' E1 E2) in H. destruct (snd (p_print y (SMod m) (wanted f))); [|discriminate].
    destruct (p_envelope y); [|discriminate]. now injection H as ->.
  - apply (find_is _ _ m) in E; [destruct E|exact I|]. now rewrite N, beqb_refl, P.
Qed.

Definition text_of (s : schema) : bytes := name_of s ++ match rev_of s with Some r => bs "@" ++ r | None => [] end.
Definition y0 : lib := {| p_print := fun s _ => (true, Some (text_of s)); p_envelope := true |}.
Theorem c182_several_refuted : ~ c182_full.
Proof.
  intros F. destruct (F y0 [m_a; m_a2] rpc_a (bs "a") None None (SMod m_a) (SMod m_a2) asks_a) as (m & E).
  - split; [now left|]. split; [reflexivity|discriminate].
  - split; [right; now left|]. split; [reflexivity|discriminate].
  - discriminate.
  - discriminate.
Qed.

(* ------------------------------------------------------------------ *)
(** ** C183: whatever is announced can be had *)

(** The request of the client for a module it knows (src/session_client.c 450, RpcSend). *)
Definition request (i : ModInfo.minfo) : list (bytes * bytes) :=
  (bs "identifier", ModInfo.mi_name i) ::
  match ModInfo.mi_rev i with Some r => [(bs "version", r)] | None => [] end ++ [(bs "format", fmt_name Yang)].

(** The same module in the capabilities of the server. *)
Definition announces (m : smod) (l : Caps.modl) : Prop :=
  Caps.m_name l = g_name m /\ Caps.m_rev l = g_rev m.
(** Names of YANG, namespaces without '=', and a capability that fits the buffer of the server. *)
Definition enabled (l : Caps.modl) : list bytes := map fst (filter snd (Caps.m_feats l)).
Definition devs (l : Caps.modl) : list bytes := match Caps.m_devs l with Some d => d | None => [] end.
Definition ann (l : Caps.modl) : Prop_ModInfo.announced :=
  Prop_ModInfo.mkAnn (Caps.m_ns l) (Caps.m_name l) (Caps.m_rev l) (enabled l) (devs l).
Definition plain (l : Caps.modl) : Prop :=
  Prop_ModInfo.proper (ann l) /\ Caps.m_devs l <> Some [] /\ (lenN (Prop_ModInfo.announcement (ann l)) + 1 < 4096)%N.

Definition commas (l : list bytes) : bytes := concat (map (fun f => bs "," ++ f) l).
Lemma join_commas f l : Prop_ModInfo.join (f :: l) = f ++ commas l.
Proof.
  revert f. induction l as [|g l IH]; intros f; [cbn; now rewrite app_nil_r|].
  change (Prop_ModInfo.join (f :: g :: l)) with (f ++ bs "," ++ Prop_ModInfo.join (g :: l)). rewrite IH.
  unfold commas. cbn [map concat]. now rewrite <- !app_assoc.
Qed.

Lemma lenN_app (a b : bytes) : lenN (a ++ b) = (lenN a + lenN b)%N.
Proof. unfold lenN. rewrite app_length. lia. Qed.
Lemma lenN_comma (f : bytes) : lenN (bs "," ++ f) = (1 + lenN f)%N.
Proof. rewrite lenN_app. reflexivity. Qed.
Lemma cat_fits b s : (lenN b + lenN s < 4096)%N -> Caps.cat b s = Some (b ++ s).
Proof. intros H. unfold Caps.cat, Caps.BUF_LEN. now rewrite (proj2 (N.ltb_lt _ _) H). Qed.

Lemma feats_true fs : forall b, (lenN b + lenN (commas (map fst (filter snd fs))) < 4096)%N ->
  Caps.cat_feats b true fs = Some (b ++ commas (map fst (filter snd fs))).
Proof.
  induction fs as [|[f [|]] fs IH]; intros b H; cbn [Caps.cat_feats filter map fst snd] in *.
  - unfold commas. cbn. now rewrite app_nil_r.
  - unfold commas in *. cbn [map concat] in *. rewrite lenN_app, lenN_comma in H.
    replace (Caps.BUF_LEN <=? lenN b + 1 + lenN f)%N with false by (symmetry; apply N.leb_gt; unfold Caps.BUF_LEN; lia).
    rewrite cat_fits by (rewrite lenN_comma; lia). rewrite IH by (rewrite lenN_app, lenN_comma; lia). now rewrite <- !app_assoc.
  - now apply IH.
Qed.
Lemma feats_false fs : forall b,
  let t := match map fst (filter snd fs) with [] => [] | l => Prop_ModInfo.param (bs "features") (Prop_ModInfo.join l) end in
  (lenN b + lenN t + 1 < 4096)%N -> Caps.cat_feats b false fs = Some (b ++ t).
Proof.
  induction fs as [|[f [|]] fs IH]; intros b t H; subst t; cbn [Caps.cat_feats filter map fst snd] in *.
  - now rewrite app_nil_r.
  - rewrite join_commas in *. unfold Prop_ModInfo.param in *.
    change (bs "&" ++ bs "features" ++ bs "=" ++ f ++ commas (map fst (filter snd fs)))
      with (bs "&features=" ++ f ++ commas (map fst (filter snd fs))) in *.
    rewrite !lenN_app in H. rewrite cat_fits by lia.
    replace (Caps.BUF_LEN <=? lenN (b ++ bs "&features=") + 1 + lenN f)%N with false
      by (symmetry; apply N.leb_gt; unfold Caps.BUF_LEN; rewrite lenN_app; lia).
    rewrite cat_fits by (rewrite lenN_app; lia). rewrite feats_true by (rewrite !lenN_app; lia). now rewrite <- !app_assoc.
  - now apply IH.
Qed.
Lemma devs_true ds : forall b, (lenN b + lenN (commas ds) < 4096)%N -> Caps.cat_devs b true ds = Some (b ++ commas ds).
Proof.
  induction ds as [|d ds IH]; intros b H; cbn [Caps.cat_devs]; [unfold commas; cbn; now rewrite app_nil_r|].
  unfold commas in *. cbn [map concat] in *. rewrite lenN_app, lenN_comma in H.
  replace (Caps.BUF_LEN <=? lenN b + 1 + lenN d)%N with false by (symmetry; apply N.leb_gt; unfold Caps.BUF_LEN; lia).
  rewrite cat_fits by (rewrite lenN_comma; lia). rewrite IH by (rewrite lenN_app, lenN_comma; lia). now rewrite <- !app_assoc.
Qed.

(** The capability the server makes is the announcement. *)
Lemma mod_str_ann l : plain l -> Caps.mod_str l = Some (Prop_ModInfo.announcement (ann l)).
Proof.
  intros (_ & D & L). unfold Caps.mod_str, Prop_ModInfo.announcement in *. cbn [ann Prop_ModInfo.an_ns Prop_ModInfo.an_name
    Prop_ModInfo.an_rev Prop_ModInfo.an_feats Prop_ModInfo.an_devs] in *.
  set (ft := match enabled l with [] => [] | x => Prop_ModInfo.param (bs "features") (Prop_ModInfo.join x) end) in *.
  match goal with |- _ = Some (_ ++ _ ++ _ ++ ?x ++ ft ++ _) => set (r := x) in * end.
  replace (match Caps.m_rev l with None => [] | Some r => bs "&revision=" ++ r end) with r
    by (subst r; destruct (Caps.m_rev l); reflexivity). clearbody r.
  set (h := Caps.m_ns l ++ bs "?module=" ++ Caps.m_name l ++ r).
  assert (E : forall x, Caps.m_ns l ++ bs "?module=" ++ Caps.m_name l ++ r ++ ft ++ x = h ++ ft ++ x)
    by (intros x; subst h; now rewrite <- !app_assoc).
  rewrite E in L. rewrite E. clear E. clearbody h. rewrite !lenN_app in L.
  rewrite cat_fits by (change (lenN []) with 0%N; lia). cbn [app].
  rewrite (feats_false (Caps.m_feats l) h) by (change (lenN h + lenN ft + 1 < 4096)%N; lia).
  change (match map fst (filter snd (Caps.m_feats l)) with [] => [] | x => Prop_ModInfo.param (bs "features") (Prop_ModInfo.join x) end) with ft.
  unfold devs in *. destruct (Caps.m_devs l) as [[|d ds]|]; [congruence| |now rewrite app_nil_r].
  rewrite join_commas in *. unfold Prop_ModInfo.param in *.
  change (bs "&" ++ bs "deviations" ++ bs "=" ++ d ++ commas ds) with (bs "&deviations=" ++ d ++ commas ds) in *.
  rewrite !lenN_app in L. assert (K : lenN (bs "&deviations=") = 12%N) by reflexivity.
  rewrite cat_fits by (rewrite !lenN_app; lia). cbn [Caps.cat_devs].
  replace (Caps.BUF_LEN <=? lenN ((h ++ ft) ++ bs "&deviations=") + 1 + lenN d)%N with false.
  2: { symmetry. apply N.leb_gt. unfold Caps.BUF_LEN. rewrite !lenN_app. lia. }
  rewrite cat_fits by (rewrite !lenN_app; lia). rewrite devs_true by (rewrite !lenN_app; lia). now rewrite <- !app_assoc.
Qed.

(** The module announced is the one printed. *)
Definition c183_full : Prop := forall y c m l cpb i, context c -> In m c -> announces m l -> plain l ->
  (forall m', In m' c -> g_name m' = g_name m -> g_rev m' = g_rev m -> m' = m) ->
  (forall m', In m' c -> g_name m' = g_name m -> g_impl m' = true -> g_impl m = true -> m' = m) ->
  Caps.mod_str l = Some cpb -> ModInfo.module_of_cpblt cpb = Some i -> (forall s f, snd (p_print y s f) <> None) -> p_envelope y = true ->
  exists t, get_schema y c (request i) = RData t /\ snd (p_print y (SMod m) Yang) = Some t.

Lemma request_asks i : ModInfo.mi_rev i <> Some [] -> asks (request i) (ModInfo.mi_name i) (ModInfo.mi_rev i) (Some Yang).
Proof.
  intros R. unfold asks, request. destruct (ModInfo.mi_rev i) as [r|]; cbn [map fst app].
  - split.
    + repeat constructor; cbn [In]; intros H; repeat (destruct H as [H|H]; [discriminate H|]); exact H.
    + split; [now left|]. split; [split; [right; now left|]|right; right; now left]. intros E. now rewrite E in R.
  - split.
    + repeat constructor; cbn [In]; intros H; repeat (destruct H as [H|H]; [discriminate H|]); exact H.
    + split; [now left|]. split.
      * intros r [[=]|[[=]|[]]].
      * right. now left.
Qed.

(** Missing: modules that have no revision and are not implemented. *)
Theorem c183_announced_partial y c m l cpb i : context c -> In m c -> announces m l -> plain l ->
  (forall m', In m' c -> g_name m' = g_name m -> g_rev m' = g_rev m -> m' = m) ->
  (forall m', In m' c -> g_name m' = g_name m -> g_impl m' = true -> g_impl m = true -> m' = m) ->
  Caps.mod_str l = Some cpb -> ModInfo.module_of_cpblt cpb = Some i -> (forall s f, snd (p_print y s f) <> None) -> p_envelope y = true ->
  g_rev m <> None \/ g_impl m = true ->
  exists t, get_schema y c (request i) = RData t /\ snd (p_print y (SMod m) Yang) = Some t.
Proof.
  intros C I (AN & AR) PL U1 U2 S MI P Q R. rewrite (mod_str_ann _ PL) in S. injection S as <-.
  rewrite (Prop_ModInfo.module_of_announcement _ (proj1 PL)) in MI. injection MI as <-.
  set (i := ModInfo.mkMI _ _ _ _ _). assert (EN : ModInfo.mi_name i = g_name m) by exact AN.
  assert (ER : ModInfo.mi_rev i = g_rev m) by exact AR. clearbody i.
  assert (NR : g_rev m <> Some []). { intros E. pose proof (proj1 C (SMod m) [] I E). discriminate. }
  assert (A : asks (request i) (g_name m) (g_rev m) (Some Yang)).
  { rewrite <- EN, <- ER. apply request_asks. now rewrite ER. }
  rewrite (asked y c _ _ _ _ A). cbn [wanted].
  assert (RV : refused_version (g_rev m) = false).
  { destruct (g_rev m) as [r|] eqn:E; [|reflexivity]. cbn [refused_version]. rewrite (proj1 C (SMod m) r I E). reflexivity. }
  rewrite RV. assert (L : lookup c (Some (g_name m)) (g_rev m) = Some (SMod m)).
  { unfold lookup. destruct (g_rev m) as [r|] eqn:E.
    - destruct (get_module c (g_name m) r) as [m'|] eqn:G.
      + apply find_some in G. destruct G as [I' G]. apply andb_true_iff in G. destruct G as [G1 G2]. apply beqb_spec in G1.
        apply orev_true in G2. now rewrite (U1 m' I' G1 G2).
      + apply (find_is _ _ m) in G; [destruct G|exact I|]. rewrite beqb_refl. cbn. now apply orev_true.
    - destruct R as [R|R]; [congruence|]. destruct (get_implemented c (g_name m)) as [m'|] eqn:G.
      + apply find_some in G. destruct G as [I' G]. apply andb_true_iff in G. destruct G as [G1 G2]. apply beqb_spec in G1.
        now rewrite (U2 m' I' G1 G2 R).
      + apply (find_is _ _ m) in G; [destruct G|exact I|]. now rewrite beqb_refl, R. }
  rewrite L. specialize (P (SMod m) Yang). destruct (snd (p_print y (SMod m) Yang)) as [t|]; [|congruence]. rewrite Q. now exists t.
Qed.

(** A module that is only imported and has no revision, and an implemented one with the same name: the second is had for both. *)
Definition m_n : smod := mkSmod (bs "a") None false false [].
Definition m_i : smod := mkSmod (bs "a") (Some (bs "2020-01-01")) true true [].
Definition l_n : Caps.modl := Caps.mkMod (bs "a") (bs "urn:a") None 1 [] None.
Lemma context_n : context [m_n; m_i].
Proof.
  split; [|split].
  - intros [m|b] r H R.
    + destruct H as [<-|[<-|[]]]; cbn in R; [discriminate|]. now injection R as <-.
    + destruct H as (m & [<-|[<-|[]]] & []).
  - intros m [<-|[<-|[]]]; exists m_i; (split; [right; now left|]); split; reflexivity.
  - intros m b [<-|[<-|[]]] [].
Qed.
Lemma plain_n : plain l_n.
Proof.
  split; [|split; [discriminate|reflexivity]]. unfold Prop_ModInfo.proper, ann. cbn.
  repeat split; try (repeat constructor); try (intros H; repeat (destruct H as [H|H]; [discriminate H|]); exact H); discriminate.
Qed.
Theorem c183_import_only_refuted : ~ c183_full.
Proof.
  intros F.
  assert (M : Caps.mod_str l_n = Some (bs "urn:a?module=a")) by (vm_compute; reflexivity).
  assert (K : ModInfo.module_of_cpblt (bs "urn:a?module=a") = Some (ModInfo.mkMI (bs "a") None None None true)) by (vm_compute; reflexivity).
  pose proof (fun U1 U2 => F y0 [m_n; m_i] m_n l_n _ _ context_n (or_introl eq_refl) (conj eq_refl eq_refl) plain_n U1 U2 M K) as G.
  destruct G as (t & E1 & E2).
  - intros m' [<-|[<-|[]]] A B; [reflexivity|discriminate B].
  - intros m' _ _ _ A. discriminate A.
  - intros s f. discriminate.
  - reflexivity.
  - vm_compute in E1, E2. injection E2 as <-. discriminate E1.
Qed.

(* ------------------------------------------------------------------ *)
(** ** Examples *)

Definition c0 : list smod := [m_a; m_a2; m_b].
Lemma context_c0 : context c0.
Proof.
  split; [|split].
  - intros [m|b] r H R.
    + destruct H as [<-|[<-|[<-|[]]]]; cbn in R; injection R as <-; reflexivity.
    + destruct H as (m & [<-|[<-|[<-|[]]]] & H); [destruct H|destruct H|]. destruct H as [<-|[]]. cbn in R. now injection R as <-.
  - intros m [<-|[<-|[<-|[]]]].
    + exists m_a2. split; [right; now left|]. split; reflexivity.
    + exists m_a2. split; [right; now left|]. split; reflexivity.
    + exists m_b. split; [right; right; now left|]. split; reflexivity.
  - intros m b [<-|[<-|[<-|[]]]]; [intros []|intros []|]. intros [<-|[]].
    exists m_b, (mkSub (bs "b-sub") (Some (bs "2019-05-06")) true). split; [right; right; now left|]. split; [now left|]. split; reflexivity.
Qed.

(** The implemented module, a certain revision, a submodule in YIN, what there is not. *)
Example ex_impl : get_schema y0 c0 rpc_a = RData (bs "a@2020-01-01").
Proof. vm_compute. reflexivity. Qed.
Example ex_rev : get_schema y0 c0 [(bs "version", bs "2021-01-01"); (bs "identifier", bs "a")] = RData (bs "a@2021-01-01").
Proof. vm_compute. reflexivity. Qed.
Example ex_sub : get_schema y0 c0 [(bs "identifier", bs "b-sub"); (bs "version", []); (bs "format", fmt_name Yin)] = RData (bs "b-sub@2019-05-06").
Proof. vm_compute. reflexivity. Qed.
Example ex_none : get_schema y0 c0 [(bs "identifier", bs "b"); (bs "version", bs "2019-05-07")] = RError NOT_FOUND.
Proof. vm_compute. reflexivity. Qed.
Example ex_format : get_schema y0 c0 [(bs "identifier", bs "a"); (bs "format", bs "ietf-netconf-monitoring:xsd")] = RError BAD_FORMAT.
Proof. vm_compute. reflexivity. Qed.

(** The hypotheses of the theorems are met. *)
Example ex_found : exists t, get_schema y0 c0 rpc_a = RData t.
Proof.
  apply (c180_found y0 c0 rpc_a (bs "a") None None (SMod m_a2) context_c0 asks_a).
  - split; [right; now left|]. split; [reflexivity|discriminate].
  - reflexivity.
  - intros s f. discriminate.
Qed.
Definition l_b : Caps.modl :=
  Caps.mkMod (bs "b") (bs "urn:b") (Some (bs "2019-05-06")) 1 [(bs "x", true); (bs "y", false); (bs "z", true)] (Some [bs "d"]).
Lemma plain_b : plain l_b.
Proof.
  split; [|split; [discriminate|reflexivity]]. unfold Prop_ModInfo.proper, ann.
  cbn [Prop_ModInfo.an_ns Prop_ModInfo.an_name Prop_ModInfo.an_rev Prop_ModInfo.an_feats Prop_ModInfo.an_devs].
  assert (W : forall w : bytes, (forall c, In c w -> c <> "="%char /\ c <> "&"%char /\ c <> ","%char) -> Prop_ModInfo.word w).
  { intros w H. repeat split; intros K; apply H in K; tauto. }
  split; [intros H; repeat (destruct H as [H|H]; [discriminate H|]); exact H|].
  split; [apply W; intros c H; repeat (destruct H as [<-|H]; [repeat split; discriminate|]); destruct H|].
  split; [intros r [= <-]; apply W; intros c H; repeat (destruct H as [<-|H]; [repeat split; discriminate|]); destruct H|].
  split; repeat (apply Forall_cons || apply Forall_nil); apply W; intros c H; repeat (destruct H as [<-|H]; [repeat split; discriminate|]); destruct H.
Qed.
Example ex_announced : exists t, get_schema y0 c0 (request (ModInfo.mkMI (bs "b") (Some (bs "2019-05-06")) None (Some [bs "x"; bs "z"]) true)) = RData t
  /\ snd (p_print y0 (SMod m_b) Yang) = Some t.
Proof.
  eapply (c183_announced_partial y0 c0 m_b l_b _ _ context_c0); [right; right; now left|split; reflexivity|exact plain_b| | |
    apply mod_str_ann; exact plain_b| | |reflexivity|now left].
  - intros m' [<-|[<-|[<-|[]]]] A B; [discriminate A|discriminate A|reflexivity].
  - intros m' _ _ _ A. discriminate A.
  - vm_compute. reflexivity.
  - intros s f. discriminate.
Qed.

Print Assumptions c180_answer.
Print Assumptions c180_found.
Print Assumptions c180_none.
Print Assumptions c181_whole_partial.
Print Assumptions c181_cut_refuted.
Print Assumptions c182_unique_partial.
Print Assumptions c182_implemented_partial.
Print Assumptions c182_several_refuted.
Print Assumptions c183_announced_partial.
Print Assumptions c183_import_only_refuted.
