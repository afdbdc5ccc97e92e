(** C45 and C57 for Err.v: the rpc-errors of a server. *)
From Coq Require Import String Bool List Arith ZArith Lia.
From Verif Require Import Bytes Err.
Import ListNotations.
Local Open Scope string_scope.
Local Open Scope list_scope.
Local Open Scope Z_scope.

(* ------------------------------------------------------------------ *)
(** ** Specification *)

(** RFC 6241, appendix A: every error-tag with the error-types it may have and the contents of its error-info; before it the enumerator (messages_server.h 42-63). *)
Inductive info := INone | IAttr | IElem | INs | ISid.
Definition appendix_a : list (Z * (string * list string * info)) :=
  [ (1, ("in-use", ["protocol"; "application"], INone));
    (2, ("invalid-value", ["protocol"; "application"], INone));
    (3, ("too-big", ["transport"; "rpc"; "protocol"; "application"], INone));
    (4, ("missing-attribute", ["rpc"; "protocol"; "application"], IAttr));
    (5, ("bad-attribute", ["rpc"; "protocol"; "application"], IAttr));
    (6, ("unknown-attribute", ["rpc"; "protocol"; "application"], IAttr));
    (7, ("missing-element", ["protocol"; "application"], IElem));
    (8, ("bad-element", ["protocol"; "application"], IElem));
    (9, ("unknown-element", ["protocol"; "application"], IElem));
    (10, ("unknown-namespace", ["protocol"; "application"], INs));
    (11, ("access-denied", ["protocol"; "application"], INone));
    (12, ("lock-denied", ["protocol"], ISid));
    (13, ("resource-denied", ["transport"; "rpc"; "protocol"; "application"], INone));
    (14, ("rollback-failed", ["protocol"; "application"], INone));
    (15, ("data-exists", ["application"], INone));
    (16, ("data-missing", ["application"], INone));
    (17, ("operation-not-supported", ["protocol"; "application"], INone));
    (18, ("operation-failed", ["rpc"; "protocol"; "application"], INone));
    (19, ("malformed-message", ["rpc"], INone)) ].

Definition type_names : list (Z * string) := [(1, "transport"); (2, "rpc"); (3, "protocol"); (4, "application")].

(** The value of the only child with this name. *)
Definition only (l : list elem) (n v : string) : Prop := exists a e b, l = a ++ e :: b /\ n_name e = n /\ n_val e = v /\ (forall x, In x (a ++ b) -> n_name x <> n).

Definition info_kids (l : list elem) : list (string * string) := match find l "error-info" with Some e => n_kids e | None => [] end.

(* ------------------------------------------------------------------ *)
(** ** C45 *)

(** The types an application may pass are four, and the tags nineteen. *)
Definition valid_type (ty : Z) : Prop := ty = 1 \/ ty = 2 \/ ty = 3 \/ ty = 4.

Lemma tag_range tag ty t : err_type tag ty = Some t -> tag <> 0 -> exists row, In (tag, row) appendix_a.
Proof.
  intros H N. destruct (Z_lt_ge_dec tag 1); [|destruct (Z_lt_ge_dec 19 tag)].
  - exfalso. revert H. unfold err_type, IN_USE, INVALID_VALUE, ACCESS_DENIED, ROLLBACK_FAILED, OP_NOT_SUPPORTED, TOO_BIG, RES_DENIED, MISSING_ATTR, BAD_ATTR, UNKNOWN_ATTR, MISSING_ELEM, BAD_ELEM, UNKNOWN_ELEM, UNKNOWN_NS, LOCK_DENIED, DATA_EXISTS, DATA_MISSING, OP_FAILED, MALFORMED_MSG.
    repeat match goal with |- context [tag =? ?c] => destruct (Z.eqb_spec tag c); [lia|] end. discriminate.
  - exfalso. revert H. unfold err_type, IN_USE, INVALID_VALUE, ACCESS_DENIED, ROLLBACK_FAILED, OP_NOT_SUPPORTED, TOO_BIG, RES_DENIED, MISSING_ATTR, BAD_ATTR, UNKNOWN_ATTR, MISSING_ELEM, BAD_ELEM, UNKNOWN_ELEM, UNKNOWN_NS, LOCK_DENIED, DATA_EXISTS, DATA_MISSING, OP_FAILED, MALFORMED_MSG.
    repeat match goal with |- context [tag =? ?c] => destruct (Z.eqb_spec tag c); [lia|] end. discriminate.
  - assert (D : tag = 1 \/ tag = 2 \/ tag = 3 \/ tag = 4 \/ tag = 5 \/ tag = 6 \/ tag = 7 \/ tag = 8 \/ tag = 9 \/ tag = 10 \/ tag = 11 \/ tag = 12 \/ tag = 13 \/ tag = 14 \/ tag = 15 \/ tag = 16 \/ tag = 17 \/ tag = 18 \/ tag = 19) by lia.
    repeat (destruct D as [-> | D]; [eexists; cbn [appendix_a In]; eauto 25|]). subst. eexists. cbn [appendix_a In]. eauto 25.
Qed.

Ltac rows H := unfold appendix_a in H; cbn [In] in H;
  repeat (destruct H as [H|H]; [injection H as <- <- <- <- |]); [..|destruct H].

Lemma nc_err_shape tag ty a1 a2 sid l name types inf : nc_err tag ty a1 a2 sid = Some l -> In (tag, (name, types, inf)) appendix_a -> exists t,
  err_type tag ty = Some t /\ exists rest, l = [mkE "error-type" (match type2str t with Some s => s | None => "" end) None []; mkE "error-tag" name None []; mkE "error-severity" "error" None []; mkE "error-message" (err_msg tag) (Some "en") []] ++ rest /\
    rest = match match inf with
                 | INone => []
                 | IAttr => match a1 with Some x => [("bad-attribute", x)] | None => [] end ++ match a2 with Some x => [("bad-element", x)] | None => [] end
                 | IElem => match a1 with Some x => [("bad-element", x)] | None => [] end
                 | INs => match a1 with Some x => [("bad-element", x)] | None => [] end ++ match a2 with Some x => [("bad-namespace", x)] | None => [] end
                 | ISid => [("session-id", string_of_list_ascii (dec sid))]
                 end with [] => [] | k => [mkE "error-info" "" None k] end.
Proof.
  unfold nc_err. destruct (tag =? 0); [discriminate|]. destruct (err_type tag ty) as [t|]; [|discriminate]. intros H R. exists t. split; [reflexivity|]. eexists. split; [|reflexivity].
  injection H as <-. rows R; destruct a1, a2; reflexivity.
Qed.

(** C45: every error built for one of the four types has its tag's name, a type appendix A permits for it, and the severity "error", each once. *)
Theorem c45_permitted_partial tag ty a1 a2 sid l : valid_type ty -> nc_err tag ty a1 a2 sid = Some l ->
  exists name types inf type, In (tag, (name, types, inf)) appendix_a /\ In type types /\ only l "error-tag" name /\ only l "error-type" type /\ only l "error-severity" "error".
Proof.
  intros V H. assert (N : tag <> 0) by (intros ->; discriminate).
  assert (X : exists t, err_type tag ty = Some t) by (unfold nc_err in H; destruct (tag =? 0); [discriminate|]; destruct (err_type tag ty); [eauto|discriminate]). destruct X as [t T].
  destruct (tag_range _ _ _ T N) as [[[name types] inf] R]. destruct (nc_err_shape _ _ _ _ _ _ _ _ _ H R) as (t' & T' & rest & -> & Hr). assert (t' = t) by congruence. subst t'.
  assert (F : forall x, In x rest -> n_name x = "error-info").
  { intros x Hx. rewrite Hr in Hx. destruct (match inf with INone => _ | IAttr => _ | IElem => _ | INs => _ | ISid => _ end); [destruct Hx|]. destruct Hx as [<-|[]]. reflexivity. }
  set (ts := match type2str t with Some s => s | None => "" end). exists name, types, inf, ts. split; [exact R|]. split.
  - clear - V T R. subst ts. rows R; destruct V as [V|[V|[V|V]]]; subst ty; cbn in T; try discriminate; injection T as <-; cbn; auto 10.
  - assert (O : forall a e b v n, [mkE "error-type" ts None []; mkE "error-tag" name None []; mkE "error-severity" "error" None []; mkE "error-message" (err_msg tag) (Some "en") []] = a ++ e :: b -> n_name e = n -> n_val e = v ->
                (forall x, In x (a ++ b) -> n_name x <> n) -> n <> "error-info" -> only ([mkE "error-type" ts None []; mkE "error-tag" name None []; mkE "error-severity" "error" None []; mkE "error-message" (err_msg tag) (Some "en") []] ++ rest) n v).
    { intros a e b v n E En Ev Ex Ni. exists a, e, (b ++ rest). split; [rewrite E, <- app_assoc; reflexivity|]. split; [exact En|]. split; [exact Ev|]. intros x Hx. rewrite app_assoc in Hx. apply in_app_or in Hx. destruct Hx as [Hx|Hx]; [apply Ex, Hx|]. rewrite (F x Hx). congruence. }
    split; [apply (O [mkE "error-type" ts None []] _ [mkE "error-severity" "error" None []; mkE "error-message" (err_msg tag) (Some "en") []] name "error-tag" eq_refl)|split; [apply (O [] _ [mkE "error-tag" name None []; mkE "error-severity" "error" None []; mkE "error-message" (err_msg tag) (Some "en") []] ts "error-type" eq_refl)|apply (O [mkE "error-type" ts None []; mkE "error-tag" name None []] _ [mkE "error-message" (err_msg tag) (Some "en") []] "error" "error-severity" eq_refl)]]; try reflexivity; try discriminate; cbn; intros x Hx; repeat (destruct Hx as [<-|Hx]; [discriminate|]); destruct Hx.
Qed.

(** C45: an error can be built for every tag with every type permitted for it, and that is the type it gets; with a type that is not permitted nothing is built, unless the tag leaves no choice. *)
Theorem c45_complete tag name types inf ty tname a1 a2 sid : In (tag, (name, types, inf)) appendix_a -> In (ty, tname) type_names ->
  (In tname types -> exists l, nc_err tag ty a1 a2 sid = Some l /\ get_tag l = tag /\ get_type l = ty) /\
  (~ In tname types -> nc_err tag ty a1 a2 sid = None \/ (exists one, types = [one])).
Proof.
  intros R T. split.
  - intros I. unfold type_names in T. cbn [In] in T. rows R; cbn [In] in I; (destruct T as [T|[T|[T|[T|[]]]]]; injection T as <- <-); try (exfalso; intuition discriminate);
      (eexists; split; [reflexivity|]); destruct a1, a2; split; reflexivity.
  - intros I. unfold type_names in T. cbn [In] in T. rows R; cbn [In] in I; (destruct T as [T|[T|[T|[T|[]]]]]; injection T as <- <-); try (left; reflexivity); try (right; eexists; reflexivity); exfalso; apply I; auto 10.
Qed.

(** C45, reading back: the tag always, the type if the application chose it. *)
Theorem c45_readback tag ty a1 a2 sid l : valid_type ty -> nc_err tag ty a1 a2 sid = Some l -> get_tag l = tag /\ exists t, get_type l = t /\ valid_type t /\ (t = ty \/ exists name one inf, In (tag, (name, [one], inf)) appendix_a).
Proof.
  intros V H. assert (N : tag <> 0) by (intros ->; discriminate).
  assert (X : exists t, err_type tag ty = Some t) by (unfold nc_err in H; destruct (tag =? 0); [discriminate|]; destruct (err_type tag ty); [eauto|discriminate]). destruct X as [t T].
  destruct (tag_range _ _ _ T N) as [[[name types] inf] R]. destruct (nc_err_shape _ _ _ _ _ _ _ _ _ H R) as (t' & T' & rest & -> & _). assert (t' = t) by congruence. subst t'.
  split; [clear - R; rows R; reflexivity|]. exists t. unfold get_type. cbn [app find n_name n_val]. rewrite String.eqb_refl. cbn [n_val].
  assert (Vt : valid_type t) by (clear - V T R; unfold valid_type in *; rows R; destruct V as [V|[V|[V|V]]]; subst ty; cbn in T; try discriminate; injection T as <-; auto).
  split; [destruct Vt as [-> |[-> |[-> | ->]]]; reflexivity|]. split; [exact Vt|].
  clear - V T R. rows R; destruct V as [V|[V|[V|V]]]; subst ty; cbn in T; try discriminate; injection T as <-; try (left; reflexivity); right; eexists _, _, _; unfold appendix_a; cbn [In]; eauto 25.
Qed.

(** C45, error-info: the elements appendix A demands for the tag with the given values, and no others. *)
Theorem c45_info tag name types inf ty a1 a2 sid l : In (tag, (name, types, inf)) appendix_a -> nc_err tag ty (Some a1) (Some a2) sid = Some l ->
  info_kids l = match inf with
                | INone => []
                | IAttr => [("bad-attribute", a1); ("bad-element", a2)]
                | IElem => [("bad-element", a1)]
                | INs => [("bad-element", a1); ("bad-namespace", a2)]
                | ISid => [("session-id", string_of_list_ascii (dec sid))]
                end.
Proof. intros R H. destruct (nc_err_shape _ _ _ _ _ _ _ _ _ H R) as (t & _ & rest & -> & ->). unfold info_kids. destruct inf; reflexivity. Qed.

(** A value that is none of the four types is accepted for seven tags; the error then has an empty error-type, which no client can read. *)
Theorem c45_type_refuted : exists l, nc_err TOO_BIG 0 None None 0 = Some l /\ get_val l "error-type" = Some "" /\ get_type l = 0.
Proof. eexists. split; [reflexivity|]. split; reflexivity. Qed.

(* ------------------------------------------------------------------ *)
(** ** C57: the parts set later *)

Definition cnt (l : list elem) (n : string) : nat := length (filter (fun e => String.eqb (n_name e) n) l).
Definition once (l : list elem) : Prop := forall n, (cnt l n <= 1)%nat.

Lemma cnt_app a b n : cnt (a ++ b) n = (cnt a n + cnt b n)%nat.
Proof. unfold cnt. rewrite filter_app, app_length. reflexivity. Qed.
Lemma cnt_cons e l n : cnt (e :: l) n = ((if String.eqb (n_name e) n then 1 else 0) + cnt l n)%nat.
Proof. unfold cnt. cbn. destruct (String.eqb (n_name e) n); reflexivity. Qed.

Lemma find_cnt l n : find l n = None <-> cnt l n = 0%nat.
Proof. induction l as [|e l IH]; [split; reflexivity|]. rewrite cnt_cons. cbn [find]. destruct (String.eqb (n_name e) n); [split; [discriminate|lia]|]. exact IH. Qed.

Lemma find_new l n v g m : find (new l n v g) m = match find l m with Some e => Some e | None => if String.eqb n m then Some (mkE n (match v with Some x => x | None => "" end) g []) else None end.
Proof. unfold new. induction l as [|e l IH]; cbn [app find n_name]; [reflexivity|]. destruct (String.eqb (n_name e) m); [reflexivity|exact IH]. Qed.

Lemma find_drop l n m : n <> m -> find (drop_first l n) m = find l m.
Proof.
  intros N. induction l as [|e l IH]; [reflexivity|]. cbn [drop_first find]. destruct (String.eqb_spec (n_name e) n) as [E|E].
  - destruct (String.eqb_spec (n_name e) m); [congruence|reflexivity].
  - cbn [find]. destruct (String.eqb (n_name e) m); [reflexivity|exact IH].
Qed.

Lemma cnt_drop l n m : cnt (drop_first l n) m = if String.eqb n m then (cnt l m - 1)%nat else cnt l m.
Proof.
  induction l as [|e l IH]; cbn [drop_first]; [destruct (String.eqb n m); reflexivity|]. rewrite cnt_cons. destruct (String.eqb_spec (n_name e) n) as [E|E].
  - rewrite E. destruct (String.eqb_spec n m); lia.
  - rewrite cnt_cons, IH. destruct (String.eqb_spec n m) as [->|]; [destruct (String.eqb_spec (n_name e) m); [congruence|lia]|reflexivity].
Qed.

Lemma cnt_new l n v g m : cnt (new l n v g) m = (cnt l m + if String.eqb n m then 1 else 0)%nat.
Proof. unfold new. rewrite cnt_app, cnt_cons. cbn [n_name]. unfold cnt at 2. cbn. lia. Qed.

Lemma find_change l n f m : (forall e, n_name (f e) = n_name e) -> find (change l n f) m = if String.eqb n m then option_map f (find l m) else find l m.
Proof.
  intros F. induction l as [|e l IH]; cbn [change find]; [destruct (String.eqb n m); reflexivity|]. destruct (String.eqb_spec (n_name e) n) as [E|E]; cbn [find].
  - rewrite F, E. destruct (String.eqb_spec n m); reflexivity.
  - rewrite IH. destruct (String.eqb_spec n m) as [->|]; [destruct (String.eqb_spec (n_name e) m); [congruence|reflexivity]|reflexivity].
Qed.

Lemma names_change l n f : (forall e, n_name (f e) = n_name e) -> map n_name (change l n f) = map n_name l.
Proof. intros F. induction l as [|e l IH]; cbn [change]; [reflexivity|]. destruct (String.eqb (n_name e) n); cbn [map]; [rewrite F; reflexivity|rewrite IH; reflexivity]. Qed.

Lemma cnt_names a b : map n_name a = map n_name b -> forall n, cnt a n = cnt b n.
Proof. revert b. induction a as [|x a IH]; intros [|y b] H n; cbn in H; try discriminate; [reflexivity|]. injection H as H1 H2. rewrite !cnt_cons, H1, (IH b H2). reflexivity. Qed.

Lemma find_with_info l m : find (with_info l) m = match find l m with Some e => Some e | None => if String.eqb "error-info" m then Some (mkE "error-info" "" None []) else None end.
Proof.
  unfold with_info. destruct (find l "error-info") as [e|] eqn:E; [|apply find_new]. destruct (find l m) eqn:M; [reflexivity|]. destruct (String.eqb_spec "error-info" m); [congruence|reflexivity].
Qed.

Lemma find_in_info l f m : find (in_info l f) m = if String.eqb "error-info" m then Some (mkE "error-info" (match find l m with Some e => n_val e | None => "" end) (match find l m with Some e => n_lang e | None => None end) (f (info_kids l))) else find l m.
Proof.
  unfold in_info. rewrite find_change by reflexivity. rewrite find_with_info. destruct (String.eqb_spec "error-info" m) as [<-|N].
  - unfold info_kids. destruct (find l "error-info") as [e|] eqn:E; [|reflexivity]. cbn [option_map]. assert (X : n_name e = "error-info"); [|rewrite X; reflexivity].
    clear - E. induction l as [|x l IH]; [discriminate|]. cbn [find] in E. destruct (String.eqb_spec (n_name x) "error-info") as [Ex|]; [injection E as <-; exact Ex|exact (IH E)].
  - destruct (find l m); reflexivity.
Qed.

Lemma once_with_info l : once l -> once (with_info l).
Proof. intros O n. unfold with_info. destruct (find l "error-info") eqn:E; [apply O|]. rewrite cnt_new. apply find_cnt in E. destruct (String.eqb_spec "error-info" n) as [<-|]; [lia|specialize (O n); lia]. Qed.
Lemma once_in_info l f : once l -> once (in_info l f).
Proof. intros O n. unfold in_info. rewrite (cnt_names _ (with_info l)) by (apply names_change; reflexivity). apply once_with_info, O. Qed.

Lemma once_step l o : once l -> once (eapply l o).
Proof.
  intros O. destruct o; cbn [eapply]; try (apply once_in_info, O).
  - intros n. unfold set_app_tag. rewrite cnt_new, cnt_drop. specialize (O n). destruct (String.eqb "error-app-tag" n); lia.
  - intros n. unfold set_path. rewrite cnt_new, cnt_drop. specialize (O n). destruct (String.eqb "error-path" n); lia.
  - intros n. unfold set_msg. destruct (find l "error-message") eqn:E.
    + rewrite (cnt_names _ l) by (apply names_change; reflexivity). apply O.
    + rewrite cnt_new. apply find_cnt in E. destruct (String.eqb_spec "error-message" n) as [<-|]; [lia|specialize (O n); lia].
Qed.

(** The value of the last operation of a kind, [d] if there is none. *)
Definition last_of {A} (f : eop -> option A) (ops : list eop) (d : option A) : option A := fold_left (fun a o => match f o with Some v => Some v | None => a end) ops d.

Definition app_tag_of (o : eop) := match o with SetAppTag v => Some v | _ => None end.
Definition path_of (o : eop) := match o with SetPath v => Some v | _ => None end.
Definition msg_of (o : eop) := match o with SetMsg v _ => Some v | _ => None end.
Definition sid_of (o : eop) := match o with SetSid n => Some n | _ => None end.
Definition added_of (o : eop) := match o with AddAttr v => [("bad-attribute", v)] | AddElem v => [("bad-element", v)] | AddNs v => [("bad-namespace", v)] | AddOther n v => [(n, v)] | _ => [] end.

Lemma step_values l o : once l ->
  get_val (eapply l o) "error-app-tag" = match app_tag_of o with Some v => Some v | None => get_val l "error-app-tag" end /\
  get_val (eapply l o) "error-path" = match path_of o with Some v => Some v | None => get_val l "error-path" end /\
  get_val (eapply l o) "error-message" = match msg_of o with Some v => Some v | None => get_val l "error-message" end /\
  (forall n, In n ["error-type"; "error-tag"; "error-severity"] -> get_val (eapply l o) n = get_val l n).
Proof.
  intros O. unfold get_val.
  assert (I : forall f m, m <> "error-info" -> find (in_info l f) m = find l m) by (intros f m N; rewrite find_in_info; destruct (String.eqb_spec "error-info" m); [congruence|reflexivity]).
  destruct o; cbn [eapply app_tag_of path_of msg_of add_kid]; try (unfold set_sid; rewrite !I by discriminate; repeat split; intros n' Hn; rewrite I; [reflexivity|]; intros ->; repeat destruct Hn as [Hn|Hn]; discriminate || destruct Hn).
  - unfold set_app_tag. assert (N : find (drop_first l "error-app-tag") "error-app-tag" = None) by (apply find_cnt; rewrite cnt_drop, String.eqb_refl; specialize (O "error-app-tag"); lia).
    rewrite !find_new, N, !find_drop by discriminate. cbn [String.eqb Ascii.eqb Bool.eqb option_map n_val]. repeat split; try (destruct (find l _); reflexivity).
    intros n Hn. rewrite find_new. destruct Hn as [<-|[<-|[<-|[]]]]; rewrite find_drop by discriminate; destruct (find l _); reflexivity.
  - unfold set_path. assert (N : find (drop_first l "error-path") "error-path" = None) by (apply find_cnt; rewrite cnt_drop, String.eqb_refl; specialize (O "error-path"); lia).
    rewrite !find_new, N, !find_drop by discriminate. cbn [String.eqb Ascii.eqb Bool.eqb option_map n_val]. repeat split; try (destruct (find l _); reflexivity).
    intros n Hn. rewrite find_new. destruct Hn as [<-|[<-|[<-|[]]]]; rewrite find_drop by discriminate; destruct (find l _); reflexivity.
  - unfold set_msg. destruct (find l "error-message") as [e|] eqn:E.
    + rewrite !find_change by reflexivity. rewrite E. cbn [String.eqb Ascii.eqb Bool.eqb option_map n_val]. repeat split. intros n Hn. rewrite find_change by reflexivity. destruct Hn as [<-|[<-|[<-|[]]]]; reflexivity.
    + rewrite !find_new, E. clear E. cbn [String.eqb Ascii.eqb Bool.eqb option_map n_val]. repeat split; try (destruct (find l "error-app-tag"); reflexivity); try (destruct (find l "error-path"); reflexivity); try (destruct (find l _); reflexivity). intros n Hn. rewrite find_new. destruct Hn as [<-|[<-|[<-|[]]]]; destruct (find l _); reflexivity.
Qed.

Lemma nc_err_once tag ty a1 a2 sid l : nc_err tag ty a1 a2 sid = Some l -> once l.
Proof.
  unfold nc_err. destruct (tag =? 0); [discriminate|]. destruct (err_type tag ty); [|discriminate]. intros H. injection H as <-.
  set (l0 := set_msg _ _ _). assert (O : once l0).
  { intros n. unfold l0, set_msg. cbn [new app find n_name String.eqb Ascii.eqb Bool.eqb]. rewrite !cnt_cons. unfold cnt. cbn [filter length n_name].
    destruct (String.eqb_spec "error-type" n) as [<-|]; [cbn; lia|]. destruct (String.eqb_spec "error-tag" n) as [<-|]; [cbn; lia|]. destruct (String.eqb_spec "error-severity" n) as [<-|]; [cbn; lia|]. destruct (String.eqb "error-message" n); lia. }
  assert (K : forall l n v, once l -> once (add_kid l n v)) by (intros l n v X; destruct v; cbn; [apply once_in_info, X|exact X]).
  repeat match goal with |- once (if ?c then _ else _) => destruct c end; auto. apply once_in_info, O.
Qed.

(** C57: after any settings the getters give what was set last (the message: otherwise the default one of the tag), type, tag and severity are as built, and no element occurs twice. *)
Theorem c57_values tag ty a1 a2 sid l ops : nc_err tag ty a1 a2 sid = Some l -> let l' := fold_left eapply ops l in
  get_val l' "error-app-tag" = last_of app_tag_of ops None /\ get_val l' "error-path" = last_of path_of ops None /\ get_val l' "error-message" = last_of msg_of ops (Some (err_msg tag)) /\
  get_type l' = get_type l /\ get_tag l' = get_tag l /\ get_val l' "error-severity" = Some "error" /\ (forall n, (cnt l' n <= 1)%nat).
Proof.
  intros H. pose proof (nc_err_once _ _ _ _ _ _ H) as O. assert (N : tag <> 0) by (intros ->; discriminate).
  assert (X : exists t, err_type tag ty = Some t) by (unfold nc_err in H; destruct (tag =? 0); [discriminate|]; destruct (err_type tag ty); [eauto|discriminate]). destruct X as [t T].
  destruct (tag_range _ _ _ T N) as [[[name types] inf] R]. destruct (nc_err_shape _ _ _ _ _ _ _ _ _ H R) as (t' & _ & rest & E & Hr).
  assert (I : get_val l "error-app-tag" = None /\ get_val l "error-path" = None /\ get_val l "error-message" = Some (err_msg tag) /\ get_val l "error-severity" = Some "error").
  { rewrite E, Hr. clear. unfold get_val. destruct (match inf with INone => _ | IAttr => _ | IElem => _ | INs => _ | ISid => _ end); repeat split; reflexivity. }
  destruct I as (I1 & I2 & I3 & I4).
  assert (G : let l' := fold_left eapply ops l in
    get_val l' "error-app-tag" = last_of app_tag_of ops (get_val l "error-app-tag") /\ get_val l' "error-path" = last_of path_of ops (get_val l "error-path") /\ get_val l' "error-message" = last_of msg_of ops (get_val l "error-message") /\
    get_type l' = get_type l /\ get_tag l' = get_tag l /\ get_val l' "error-severity" = get_val l "error-severity" /\ (forall n, (cnt l' n <= 1)%nat)); [|rewrite I1, I2, I3, I4 in G; exact G].
  clear - O. revert l O.
  induction ops as [|o ops IH]; intros l O; cbn [fold_left last_of]; [repeat split; apply O|].
  destruct (step_values l o O) as (A & B & C & D). specialize (IH (eapply l o) (once_step l o O)). cbv zeta in IH. destruct IH as (J1 & J2 & J3 & J4 & J5 & J6 & J7).
  unfold last_of in *. cbn [fold_left]. rewrite J1, J2, J3, J4, J5, J6, A, B, C. split; [reflexivity|]. split; [reflexivity|]. split; [reflexivity|].
  assert (Dt : forall n, In n ["error-type"; "error-tag"; "error-severity"] -> option_map n_val (find (eapply l o) n) = option_map n_val (find l n)) by exact D.
  split; [|split; [|split; [apply D; cbn; auto|exact J7]]].
  - unfold get_type. specialize (Dt "error-type" ltac:(cbn; auto)). destruct (find (eapply l o) "error-type"), (find l "error-type"); cbn in Dt; congruence.
  - unfold get_tag. specialize (Dt "error-tag" ltac:(cbn; auto)). destruct (find (eapply l o) "error-tag"), (find l "error-tag"); cbn in Dt; congruence.
Qed.

(** error-info *)
Definition is_sid (k : string * string) : bool := String.eqb (fst k) "session-id".
Definition sid_kids (o : option N) : list (string * string) := match o with Some n => [("session-id", string_of_list_ascii (dec n))] | None => [] end.

Lemma drop_kid_filter l n : filter (fun k => negb (String.eqb (fst k) n)) (drop_kid l n) = filter (fun k => negb (String.eqb (fst k) n)) l.
Proof. induction l as [|[m v] l IH]; [reflexivity|]. cbn [drop_kid filter fst]. destruct (String.eqb m n) eqn:E; cbn [negb]; [reflexivity|]. cbn [filter fst]. rewrite E. cbn [negb]. rewrite IH. reflexivity. Qed.
Lemma drop_kid_sid l : (length (filter is_sid l) <= 1)%nat -> filter is_sid (drop_kid l "session-id") = [].
Proof.
  induction l as [|[m v] l IH]; intros H; [reflexivity|]. cbn [drop_kid filter is_sid fst] in *. unfold is_sid at 1 in H. cbn [fst] in H. destruct (String.eqb m "session-id") eqn:E.
  - cbn [length] in H. destruct (filter is_sid l); [reflexivity|cbn in H; lia].
  - cbn [filter]. unfold is_sid at 1. cbn [fst]. rewrite E. apply IH, H.
Qed.

Lemma info_other l o : once l -> match o with SetAppTag _ | SetPath _ | SetMsg _ _ => info_kids (eapply l o) = info_kids l | _ => True end.
Proof.
  intros O. destruct o; auto; cbn [eapply]; unfold info_kids.
  - unfold set_app_tag. rewrite find_new, find_drop by discriminate. destruct (find l "error-info"); reflexivity.
  - unfold set_path. rewrite find_new, find_drop by discriminate. destruct (find l "error-info"); reflexivity.
  - unfold set_msg. destruct (find l "error-message"); [rewrite find_change by reflexivity; reflexivity|rewrite find_new; destruct (find l "error-info"); reflexivity].
Qed.

(** C57: error-info has what was put in when the error was built, followed by what was added, in that order, and one session-id, the last one set. *)
Theorem c57_info tag ty a1 a2 sid l ops : nc_err tag ty a1 a2 sid = Some l -> (forall n v, In (AddOther n v) ops -> n <> "session-id") ->
  let l' := fold_left eapply ops l in
  filter (fun k => negb (is_sid k)) (info_kids l') = filter (fun k => negb (is_sid k)) (info_kids l) ++ flat_map added_of ops /\
  filter is_sid (info_kids l') = match last_of sid_of ops None with Some n => sid_kids (Some n) | None => filter is_sid (info_kids l) end /\
  (length (filter is_sid (info_kids l')) <= 1)%nat.
Proof.
  intros H Ho. pose proof (nc_err_once _ _ _ _ _ _ H) as O.
  assert (L1 : (length (filter is_sid (info_kids l)) <= 1)%nat).
  { assert (N : tag <> 0) by (intros ->; discriminate).
    assert (X : exists t, err_type tag ty = Some t) by (unfold nc_err in H; destruct (tag =? 0); [discriminate|]; destruct (err_type tag ty); [eauto|discriminate]). destruct X as [t T].
    destruct (tag_range _ _ _ T N) as [[[name types] inf] R]. destruct (nc_err_shape _ _ _ _ _ _ _ _ _ H R) as (t' & _ & rest & -> & ->). clear. unfold info_kids. destruct inf, a1, a2; cbn; lia. }
  clear H tag ty a1 a2 sid. cbv zeta. unfold last_of.
  assert (G : forall ops l d, once l -> (length (filter is_sid (info_kids l)) <= 1)%nat -> (forall n v, In (AddOther n v) ops -> n <> "session-id") ->
     filter (fun k => negb (is_sid k)) (info_kids (fold_left eapply ops l)) = filter (fun k => negb (is_sid k)) (info_kids l) ++ flat_map added_of ops /\
     (filter is_sid (info_kids l) = d ->
     filter is_sid (info_kids (fold_left eapply ops l)) = match fold_left (fun a o => match sid_of o with Some v => Some v | None => a end) ops None with Some n => sid_kids (Some n) | None => d end) /\
     (length (filter is_sid (info_kids (fold_left eapply ops l))) <= 1)%nat).
  { clear. induction ops as [|o ops IH]; intros l d O L Ho; cbn [fold_left flat_map]; [rewrite app_nil_r; auto|].
    assert (Ho' : forall n v, In (AddOther n v) ops -> n <> "session-id") by (intros n v X; apply (Ho n v); right; exact X).
    assert (Fn : forall ops (x : option N), fold_left (fun a o => match sid_of o with Some v => Some v | None => a end) ops x = match fold_left (fun a o => match sid_of o with Some v => Some v | None => a end) ops None with Some v => Some v | None => x end).
    { clear. induction ops as [|o ops IH]; intros x; cbn [fold_left]; [reflexivity|]. destruct (sid_of o); [rewrite (IH (Some n)); destruct (fold_left _ ops None); reflexivity|apply IH]. }
    assert (Kid : forall n v, n <> "session-id" -> info_kids (add_kid l n (Some v)) = info_kids l ++ [(n, v)]) by (intros; unfold add_kid, info_kids at 1; rewrite find_in_info; reflexivity).
    assert (Nsid : forall n v, n <> "session-id" -> is_sid (n, v) = false) by (intros n v N; unfold is_sid; cbn; apply String.eqb_neq; exact N).
    assert (Ga : forall n v, n <> "session-id" -> eapply l o = add_kid l n (Some v) -> added_of o = [(n, v)] -> sid_of o = None ->
      filter (fun k => negb (is_sid k)) (info_kids (fold_left eapply ops (eapply l o))) = filter (fun k => negb (is_sid k)) (info_kids l) ++ added_of o ++ flat_map added_of ops /\
      (filter is_sid (info_kids l) = d -> filter is_sid (info_kids (fold_left eapply ops (eapply l o))) = match fold_left (fun a o => match sid_of o with Some v => Some v | None => a end) ops (match sid_of o with Some v => Some v | None => None end) with Some n => sid_kids (Some n) | None => d end) /\
      (length (filter is_sid (info_kids (fold_left eapply ops (eapply l o)))) <= 1)%nat).
    { intros n v N E1 E2 E3. destruct (IH (eapply l o) d (once_step l o O)) as (A & B & C); auto.
      - rewrite E1, (Kid n v N), filter_app. cbn [filter]. rewrite (Nsid n v N), app_nil_r. exact L.
      - assert (E4 : info_kids (eapply l o) = info_kids l ++ [(n, v)]) by (rewrite E1; exact (Kid n v N)).
        rewrite E4, filter_app in A, B. cbn [filter] in A, B. rewrite (Nsid n v N) in A, B. cbn [negb] in A. rewrite app_nil_r in B.
        split; [rewrite A, E2, <- app_assoc; reflexivity|]. split; [intros D; rewrite E3; exact (B D)|exact C]. }
    assert (Gs : info_kids (eapply l o) = info_kids l -> added_of o = [] -> sid_of o = None ->
      filter (fun k => negb (is_sid k)) (info_kids (fold_left eapply ops (eapply l o))) = filter (fun k => negb (is_sid k)) (info_kids l) ++ added_of o ++ flat_map added_of ops /\
      (filter is_sid (info_kids l) = d -> filter is_sid (info_kids (fold_left eapply ops (eapply l o))) = match fold_left (fun a o => match sid_of o with Some v => Some v | None => a end) ops (match sid_of o with Some v => Some v | None => None end) with Some n => sid_kids (Some n) | None => d end) /\
      (length (filter is_sid (info_kids (fold_left eapply ops (eapply l o)))) <= 1)%nat).
    { intros E1 E2 E3. destruct (IH (eapply l o) d (once_step l o O)) as (A & B & C); auto; [rewrite E1; exact L|]. rewrite E1 in A, B. rewrite E2, E3. auto. }
    pose proof (info_other l o O) as Io.
    destruct o; try (apply Gs; auto; fail); try (eapply Ga; [|reflexivity|reflexivity|reflexivity]; discriminate).
    - assert (E1 : info_kids (eapply l (SetSid n)) = drop_kid (info_kids l) "session-id" ++ [("session-id", string_of_list_ascii (dec n))]) by (cbn [eapply]; unfold set_sid, info_kids at 1; rewrite find_in_info; reflexivity).
      assert (E2 : filter is_sid (info_kids (eapply l (SetSid n))) = sid_kids (Some n)) by (rewrite E1, filter_app, (drop_kid_sid _ L); reflexivity).
      destruct (IH (eapply l (SetSid n)) (sid_kids (Some n)) (once_step l _ O)) as (A & B & C); auto; [rewrite E2; cbn; lia|]. split; [|split; [|exact C]].
      + rewrite A, E1, filter_app. unfold is_sid at 1. rewrite (drop_kid_filter (info_kids l) "session-id"). cbn. rewrite app_nil_r. reflexivity.
      + intros _. rewrite (B E2). cbn [sid_of]. rewrite (Fn ops (Some n)). destruct (fold_left _ ops None); reflexivity.
    - apply (Ga n v); auto. apply (Ho n v). left. reflexivity. }
  destruct (G ops l (filter is_sid (info_kids l)) O L1 Ho) as (A & B & C). split; [exact A|]. split; [apply B; reflexivity|exact C].
Qed.

(** RFC 6241, appendix B (the XML schema): the sequence of the children of rpc-error. *)
Definition appendix_b : list string := ["error-type"; "error-tag"; "error-severity"; "error-app-tag"; "error-path"; "error-message"; "error-info"].
Fixpoint subsequence (a b : list string) : bool :=
  match a, b with
  | [], _ => true
  | _, [] => false
  | x :: a', y :: b' => if String.eqb x y then subsequence a' b' else subsequence a b'
  end.

(** C58, the order, for errors without application tag and path. *)
Theorem c58_order_partial tag ty a1 a2 sid l ops : nc_err tag ty a1 a2 sid = Some l -> (forall o, In o ops -> app_tag_of o = None /\ path_of o = None) ->
  subsequence (map n_name (fold_left eapply ops l)) appendix_b = true.
Proof.
  intros H Ho. set (base := ["error-type"; "error-tag"; "error-severity"; "error-message"]).
  assert (N : tag <> 0) by (intros ->; discriminate).
  assert (X : exists t, err_type tag ty = Some t) by (unfold nc_err in H; destruct (tag =? 0); [discriminate|]; destruct (err_type tag ty); [eauto|discriminate]). destruct X as [t T].
  destruct (tag_range _ _ _ T N) as [[[name types] inf] R]. destruct (nc_err_shape _ _ _ _ _ _ _ _ _ H R) as (t' & _ & rest & E & Hr).
  assert (B : map n_name l = base \/ map n_name l = base ++ ["error-info"]).
  { rewrite E, Hr. clear. destruct (match inf with INone => _ | IAttr => _ | IElem => _ | INs => _ | ISid => _ end); [left|right]; reflexivity. }
  assert (In_info : forall l n, find l n = None -> ~ In n (map n_name l)).
  { clear. induction l as [|e l IH]; intros n H; [intros []|]. cbn [find] in H. destruct (String.eqb_spec (n_name e) n); [discriminate|]. intros [Q|Q]; [congruence|exact (IH n H Q)]. }
  assert (S : map n_name (fold_left eapply ops l) = base \/ map n_name (fold_left eapply ops l) = base ++ ["error-info"]).
  { clear - B Ho In_info. revert l B. induction ops as [|o ops IH]; intros l B; [exact B|]. cbn [fold_left]. apply IH; [intros o' X; apply Ho; right; exact X|].
    assert (I : forall f, map n_name (in_info l f) = base \/ map n_name (in_info l f) = base ++ ["error-info"]).
    { intros f. unfold in_info. rewrite names_change by reflexivity. unfold with_info. destruct (find l "error-info") eqn:F; [exact B|]. unfold new. rewrite map_app. cbn [map n_name].
      destruct B as [-> | B]; [right; reflexivity|]. exfalso. apply (In_info _ _ F). rewrite B. apply in_or_app. right. left. reflexivity. }
    destruct (Ho o (or_introl eq_refl)) as [A1 A2]. destruct o; cbn [eapply add_kid]; try discriminate; try apply I.
    unfold set_msg. destruct (find l "error-message") eqn:F; [rewrite names_change by reflexivity; exact B|]. exfalso. apply (In_info _ _ F). destruct B as [-> | ->]; cbn; auto. }
  destruct S as [-> | ->]; reflexivity.
Qed.

(** With an application tag (or a path) it comes after the message, where the schema does not allow it. *)
Theorem c58_order_refuted : exists l, nc_err IN_USE PROT None None 0 = Some l /\
  map n_name (eapply l (SetAppTag "x")) = ["error-type"; "error-tag"; "error-severity"; "error-message"; "error-app-tag"] /\ subsequence (map n_name (eapply l (SetAppTag "x"))) appendix_b = false.
Proof. eexists. split; [reflexivity|]. split; reflexivity. Qed.

(** A message set in another language keeps the language of the default message. *)
Theorem c58_language_refuted : exists l e, nc_err IN_USE PROT None None 0 = Some l /\ find (eapply l (SetMsg "Zdroj je obsazen." (Some "cs"))) "error-message" = Some e /\ n_val e = "Zdroj je obsazen." /\ n_lang e = Some "en".
Proof. eexists _, _. split; [reflexivity|]. split; [reflexivity|]. split; reflexivity. Qed.

(* ------------------------------------------------------------------ *)
(** ** Cases *)

Example ex_lock : option_map (map n_name) (nc_err LOCK_DENIED 0 None None 5) = Some ["error-type"; "error-tag"; "error-severity"; "error-message"; "error-info"] /\
  option_map info_kids (nc_err LOCK_DENIED 0 None None 5) = Some [("session-id", "5")].
Proof. split; vm_compute; reflexivity. Qed.
Example ex_ops : exists l, nc_err BAD_ATTR RPC (Some "message-id") (Some "rpc") 0 = Some l /\
  let l' := fold_left eapply [SetMsg "m" None; SetSid 7; AddNs "urn:x"; SetSid 8; SetPath "/a"; SetPath "/b"] l in
  info_kids l' = [("bad-attribute", "message-id"); ("bad-element", "rpc"); ("bad-namespace", "urn:x"); ("session-id", "8")] /\ get_val l' "error-path" = Some "/b" /\ get_val l' "error-message" = Some "m".
Proof. eexists. split; [reflexivity|]. vm_compute. auto. Qed.
Example ex_reject : nc_err IN_USE RPC None None 0 = None /\ nc_err 20 RPC None None 0 = None /\ nc_err OP_FAILED TRAN None None 0 = None.
Proof. repeat split. Qed.

(** The message of every tag of RFC 6241 appendix A, as the documentation of the RFC words them. *)
Definition tag_messages : list (string * string) := [
  ("in-use", "The request requires a resource that already is in use.");
  ("invalid-value", "The request specifies an unacceptable value for one or more parameters.");
  ("too-big", "The request or response (that would be generated) is too large for the implementation to handle.");
  ("missing-attribute", "An expected attribute is missing.");
  ("bad-attribute", "An attribute value is not correct.");
  ("unknown-attribute", "An unexpected attribute is present.");
  ("missing-element", "An expected element is missing.");
  ("bad-element", "An element value is not correct.");
  ("unknown-element", "An unexpected element is present.");
  ("unknown-namespace", "An unexpected namespace is present.");
  ("access-denied", "Access to the requested protocol operation or data model is denied because authorization failed.");
  ("lock-denied", "Access to the requested lock is denied because the lock is currently held by another entity.");
  ("resource-denied", "Request could not be completed because of insufficient resources.");
  ("rollback-failed", "Request to roll back some configuration change was not completed for some reason.");
  ("data-exists", "Request could not be completed because the relevant data model content already exists.");
  ("data-missing", "Request could not be completed because the relevant data model content does not exist.");
  ("operation-not-supported", "Request could not be completed because the requested operation is not supported by this implementation.");
  ("operation-failed", "Request could not be completed because the requested operation failed for a non-specific reason.");
  ("malformed-message", "A message could not be handled because it failed to be parsed correctly.")].
(** A new error carries the message of its tag. *)
Theorem c45_message name text : In (name, text) tag_messages -> forall ty a1 a2 sid l,
  nc_err (str2tag name) ty a1 a2 sid = Some l -> get_val l "error-message" = Some text.
Proof.
  intros I ty a1 a2 sid l H.
  pose proof (c57_values (str2tag name) ty a1 a2 sid l [] H) as V. cbn [fold_left] in V.
  destruct V as (_ & _ & M & _). rewrite M. unfold last_of. cbn. f_equal.
  clear - I. cbn in I. repeat (destruct I as [I|I]; [injection I as <- <-; reflexivity|]). destruct I.
Qed.

Print Assumptions c45_permitted_partial.
Print Assumptions c45_complete.
Print Assumptions c45_readback.
Print Assumptions c45_info.
Print Assumptions c45_type_refuted.
Print Assumptions c57_values.
Print Assumptions c57_info.
Print Assumptions c58_order_partial.
Print Assumptions c58_order_refuted.
Print Assumptions c58_language_refuted.
Print Assumptions c45_message.
