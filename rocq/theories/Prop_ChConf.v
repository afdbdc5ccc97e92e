(** C119-C121: the Call Home configuration. *)
From Coq Require Import String List NArith ZArith Lia Bool Permutation.
From Verif Require Import Bytes ChConf.
Import ListNotations.
Local Open Scope N_scope.
Local Open Scope list_scope.

(* ------------------------------------------------------------------ *)
(** ** The configuration that the diffs describe *)

(** What a diff says about a leaf: nothing, that it was removed (its default
    holds), or its value. *)
Record val := { v_str : bytes; v_num : N; v_sec : Z }.
Inductive lv := Unsaid | Removed | Given (v : val).
Inductive eleaf := LSrc | LSport | LDst | LDport | LIdle | LProbes | LIntv.
Inductive cleaf := LPeriod | LAnchor | LIdleTo | LStart | LWait | LAttempts.
Inductive trk := Ssh | Tls.
(** The transport of an endpoint: not configured so far, configured, removed. *)
Inductive tr := TrNever | TrIs (k : trk) | TrGone.
Record sep := { se_tr : tr; se_ka : bool; se_leaf : eleaf -> lv }.
(** A configured client: whether it has a thread, its endpoints in the order of
    their creation, whether it is periodic, the leafs. *)
Record scl := { sc_thr : bool; sc_eps : list (bytes * sep); sc_conn : option bool; sc_leaf : cleaf -> lv }.
Definition conf := bytes -> option scl.

(** What one node of a diff means. *)
Inductive edit :=
| ENothing | EBad
| EAllDel
| ECliNew (c : bytes) | ECliDel (c : bytes)
| EEpNew (c e : bytes) | EEpDel (c e : bytes) | EEpMove (c e : bytes)
| ETrNew (c e : bytes) (k : trk) | ETrDel (c e : bytes) (k : trk)
| EKa (c e : bytes) (on : bool)
| ELeafE (c e : bytes) (l : eleaf) (v : lv)
| EConnNew (c : bytes) (periodic : bool) | EConnDel (c : bytes) (periodic : bool)
| ERec (c : bytes)
| ELeafC (c : bytes) (l : cleaf) (v : lv).

Definition eleaf_dec (a b : eleaf) : {a = b} + {a <> b}. Proof. decide equality. Defined.
Definition cleaf_dec (a b : cleaf) : {a = b} + {a <> b}. Proof. decide equality. Defined.
Definition trk_dec (a b : trk) : {a = b} + {a <> b}. Proof. decide equality. Defined.

Definition put_e (l : eleaf) (v : lv) (f : eleaf -> lv) : eleaf -> lv :=
  fun l' => if eleaf_dec l l' then v else f l'.
Definition put_c (l : cleaf) (v : lv) (f : cleaf -> lv) : cleaf -> lv :=
  fun l' => if cleaf_dec l l' then v else f l'.
Definition at_cl (s : conf) (c : bytes) (f : scl -> option scl) : conf :=
  fun n => if beqb c n then match s n with Some x => f x | None => None end else s n.
Definition at_ep (s : conf) (c e : bytes) (f : sep -> sep) : conf :=
  at_cl s c (fun x => Some {| sc_thr := sc_thr x;
    sc_eps := map (fun p => if beqb (fst p) e then (fst p, f (snd p)) else p) (sc_eps x);
    sc_conn := sc_conn x; sc_leaf := sc_leaf x |}).
Definition fresh_ep : sep := {| se_tr := TrNever; se_ka := false; se_leaf := fun _ => Unsaid |}.
Definition fresh_cl (thr : bool) : scl :=
  {| sc_thr := thr; sc_eps := []; sc_conn := None; sc_leaf := fun _ => Unsaid |}.
Definition with_eps (x : scl) es := {| sc_thr := sc_thr x; sc_eps := es; sc_conn := sc_conn x; sc_leaf := sc_leaf x |}.

(** The configuration after an edit (the position among the endpoints that a
    diff may ask for is not part of it); [thr] says whether a new client gets a
    thread at once. *)
Definition do_edit (thr : bool) (s : conf) (e : edit) : conf :=
  match e with
  | ENothing | EBad | EEpMove _ _ => s
  | EAllDel => fun _ => None
  | ECliNew c => fun n => if beqb c n then Some (fresh_cl thr) else s n
  | ECliDel c => fun n => if beqb c n then None else s n
  | EEpNew c e => at_cl s c (fun x => Some (with_eps x (sc_eps x ++ [(e, fresh_ep)])))
  | EEpDel c e => at_cl s c (fun x => Some (with_eps x (filter (fun p => negb (beqb (fst p) e)) (sc_eps x))))
  | ETrNew c e k => at_ep s c e (fun y => {| se_tr := TrIs k; se_ka := se_ka y; se_leaf := se_leaf y |})
  | ETrDel c e k => at_ep s c e (fun y =>
      {| se_tr := match se_tr y with
                  | TrIs k' => if trk_dec k k' then TrGone else TrIs k'
                  | t => t
                  end; se_ka := se_ka y; se_leaf := se_leaf y |})
  | EKa c e on => at_ep s c e (fun y => {| se_tr := se_tr y; se_ka := on;
      se_leaf := put_e LIdle Unsaid (put_e LProbes Unsaid (put_e LIntv Unsaid (se_leaf y))) |})
  | ELeafE c e l v => at_ep s c e (fun y => {| se_tr := se_tr y; se_ka := se_ka y;
      se_leaf := put_e l v (se_leaf y) |})
  | EConnNew c p => at_cl s c (fun x => Some {| sc_thr := sc_thr x; sc_eps := sc_eps x; sc_conn := Some p;
      sc_leaf := let v := if p then Removed else Unsaid in
                 put_c LPeriod v (put_c LAnchor v (put_c LIdleTo v (sc_leaf x))) |})
  | EConnDel c p => at_cl s c (fun x => Some {| sc_thr := sc_thr x; sc_eps := sc_eps x;
      sc_conn := match sc_conn x with
                 | Some q => if Bool.eqb p q then None else Some q
                 | None => None
                 end; sc_leaf := sc_leaf x |})
  | ERec c => at_cl s c (fun x => Some {| sc_thr := sc_thr x; sc_eps := sc_eps x; sc_conn := sc_conn x;
      sc_leaf := put_c LStart Removed (put_c LWait Removed (put_c LAttempts Removed (sc_leaf x))) |})
  | ELeafC c l v => at_cl s c (fun x => Some {| sc_thr := sc_thr x; sc_eps := sc_eps x; sc_conn := sc_conn x;
      sc_leaf := put_c l v (sc_leaf x) |})
  end.

(** Edits that a valid diff contains: keys are unique, only what exists is
    changed or removed, and start-with has one of its values. *)
Definition has_ep (s : conf) (c e : bytes) : Prop :=
  exists x, s c = Some x /\ In e (map fst (sc_eps x)).
Definition yang_ok (s : conf) (e : edit) : Prop :=
  match e with
  | ENothing | EAllDel => True
  | EBad => False
  | ECliNew c => s c = None
  | ECliDel c => s c <> None
  | EEpNew c e => exists x, s c = Some x /\ ~ In e (map fst (sc_eps x))
  | EEpDel c e | EEpMove c e | ETrNew c e _ | ETrDel c e _ | EKa c e _ | ELeafE c e _ _ => has_ep s c e
  | EConnNew c _ | EConnDel c _ | ERec c => s c <> None
  | ELeafC c l v => s c <> None /\
      (l = LStart -> forall x, v = Given x ->
       In (v_str x) [bs "first-listed"; bs "last-connected"; bs "random-selection"])
  end.
(** The cases in which the library goes wrong are excluded: a client is removed
    only with its thread dispatched, only the last endpoint is removed, and a
    transport is removed only while it is the transport of the endpoint. *)
Definition destroyable (x : scl) : Prop :=
  sc_thr x = true /\ Forall (fun p => se_tr (snd p) <> TrGone) (sc_eps x).
Definition safe (s : conf) (e : edit) : Prop :=
  match e with
  | ECliDel c => forall x, s c = Some x -> destroyable x
  | EAllDel => forall c x, s c = Some x -> destroyable x
  | EEpDel c e => forall x, s c = Some x -> exists l y, sc_eps x = l ++ [(e, y)] /\ se_tr y <> TrGone
  | ETrDel c e k => forall x y, s c = Some x -> In (e, y) (sc_eps x) -> se_tr y = TrIs k
  | _ => True
  end.
Fixpoint all_ok (thr : bool) (s : conf) (es : list edit) : Prop :=
  match es with
  | [] => True
  | e :: r => yang_ok s e /\ safe s e /\ all_ok thr (do_edit thr s e) r
  end.
Fixpoint all_yang (thr : bool) (s : conf) (es : list edit) : Prop :=
  match es with
  | [] => True
  | e :: r => yang_ok s e /\ all_yang thr (do_edit thr s e) r
  end.

(** ** Reading a diff *)

(** The key of the nearest list [name] that a node (first in [p]) is in. *)
Fixpoint owner (name : string) (p : list dnode) : option bytes :=
  match p with
  | [] => None
  | DN n true _ _ _ _ kids :: r =>
      if beqb n (bs name)
      then match kids with
           | DN kn _ _ ks _ _ _ :: _ => if beqb kn (bs "name") then Some ks else None
           | [] => None
           end
      else owner name r
  | DN n false _ _ _ _ _ :: r => owner name r
  end.
Definition cleaf_names : list (string * cleaf) :=
  [("period", LPeriod); ("anchor-time", LAnchor); ("idle-timeout", LIdleTo);
   ("start-with", LStart); ("max-wait", LWait); ("max-attempts", LAttempts)]%string.
(** Name, number of the ancestor that has to be tcp-client-parameters (0: any), leaf. *)
Definition eleaf_names : list (string * nat * eleaf) :=
  [("remote-address", 0%nat, LDst); ("remote-port", 0%nat, LDport);
   ("local-address", 1%nat, LSrc); ("local-port", 1%nat, LSport);
   ("idle-time", 2%nat, LIdle); ("max-probes", 2%nat, LProbes); ("probe-interval", 2%nat, LIntv)]%string.
Definition under_tcp (p : list dnode) (n : nat) : bool :=
  match n with
  | 0%nat => true
  | _ => match nth_error p n with Some a => beqb (d_name a) (bs "tcp-client-parameters") | None => false end
  end.
Definition leaf_val (d : dnode) (o : op) : lv :=
  match o with
  | OCreate | OReplace => Given {| v_str := d_str d; v_num := d_num d; v_sec := d_sec d |}
  | _ => Removed
  end.
Definition on_cl (p : list dnode) (f : bytes -> edit) : edit :=
  match owner "netconf-client" p with Some c => f c | None => EBad end.
Definition on_ep (p : list dnode) (f : bytes -> bytes -> edit) : edit :=
  on_cl p (fun c => match owner "endpoint" p with Some e => f c e | None => EBad end).
Definition cont (o : op) (new del : edit) : edit :=
  match o with OCreate => new | ODelete => del | _ => EBad end.
Definition edit_of (p : list dnode) (o : op) : edit :=
  match p with
  | [] => ENothing
  | d :: _ =>
    let is s := beqb (d_name d) (bs s) in
    match find (fun x => is (fst x)) cleaf_names with
    | Some (_, l) => on_cl p (fun c => ELeafC c l (leaf_val d o))
    | None =>
    match find (fun x => is (fst (fst x))) eleaf_names with
    | Some (_, n, l) => if under_tcp p n then on_ep p (fun c e => ELeafE c e l (leaf_val d o)) else ENothing
    | None =>
    if is "call-home"%string then cont o ENothing EAllDel
    else if is "netconf-client"%string then
      (if d_list d then on_cl p (fun c => cont o (ECliNew c) (ECliDel c)) else EBad)
    else if is "endpoint"%string then
      (if d_list d then on_ep p (fun c e => match o with OReplace => EEpMove c e | _ => cont o (EEpNew c e) (EEpDel c e) end)
       else EBad)
    else if is "ssh"%string then on_ep p (fun c e => cont o (ETrNew c e Ssh) (ETrDel c e Ssh))
    else if is "tls"%string then on_ep p (fun c e => cont o (ETrNew c e Tls) (ETrDel c e Tls))
    else if is "keepalives"%string then
      (if under_tcp p 1 then on_ep p (fun c e => cont o (EKa c e true) (EKa c e false)) else ENothing)
    else if is "persistent"%string then on_cl p (fun c => cont o (EConnNew c false) (EConnDel c false))
    else if is "periodic"%string then on_cl p (fun c => cont o (EConnNew c true) (EConnDel c true))
    else if is "reconnect-strategy"%string then on_cl p (fun c => cont o (ERec c) (ERec c))
    else ENothing
    end end
  end.

(** The operation of a node is its own or its parent's; nothing is said about
    the descendants of a deleted node, and a node without operation is wrong. *)
Definition own_op (m : option bytes) (parent : option op) : option op :=
  match m with
  | None => parent
  | Some v =>
      match find (fun x => beqb v (bs (fst x)))
              [("create", OCreate); ("delete", ODelete); ("replace", OReplace); ("none", ONone)]%string with
      | Some (_, o) => Some o
      | None => parent
      end
  end.
Fixpoint edits (d : dnode) (anc : list dnode) (parent : option op) : list edit :=
  match d with
  | DN _ _ m _ _ _ kids =>
      match own_op m parent with
      | None => [EBad]
      | Some ONone => flat_map (fun k => edits k (d :: anc) (Some ONone)) kids
      | Some ODelete => [edit_of (d :: anc) ODelete]
      | Some o => edit_of (d :: anc) o :: flat_map (fun k => edits k (d :: anc) (Some o)) kids
      end
  end.

(* ------------------------------------------------------------------ *)
(** ** The server's options are those of a configuration *)

Definition leaf_is {A} (v : lv) (dflt : A) (rd : val -> A) (x : A) : Prop :=
  match v with Unsaid => True | Removed => x = dflt | Given g => x = rd g end.
Definition start_of (v : val) : startw :=
  if beqb (v_str v) (bs "first-listed") then SFirst
  else if beqb (v_str v) (bs "last-connected") then SLast else SRandom.
Definition tr_is (t : tr) (e : endpt) : Prop :=
  match t with
  | TrNever => e_ti e = TNone
  | TrIs Ssh => e_ti e = TSsh /\ e_opts e = Some OSsh
  | TrIs Tls => e_ti e = TTls /\ e_opts e = Some OTls
  | TrGone => True
  end.
Definition ep_is (x : bytes * sep) (e : endpt) : Prop :=
  let s := se_leaf (snd x) in
  e_name e = fst x /\ e_freed e = false /\ tr_is (se_tr (snd x)) e /\ e_ka e = se_ka (snd x) /\
  leaf_is (s LDst) None (fun v => Some (v_str v)) (e_dst e) /\
  leaf_is (s LDport) 0 v_num (e_dport e) /\
  leaf_is (s LSrc) None (fun v => Some (v_str v)) (e_src e) /\
  leaf_is (s LSport) 0 v_num (e_sport e) /\
  leaf_is (s LIdle) 7200 v_num (e_idle e) /\
  leaf_is (s LProbes) 9 v_num (e_probes e) /\
  leaf_is (s LIntv) 75 v_num (e_intv e).
Definition cl_is (x : scl) (c : client) : Prop :=
  let s := sc_leaf x in
  c_thread c = sc_thr x /\
  Forall2 ep_is (sc_eps x) (c_eps c) /\
  match sc_conn x with Some true => c_conn c = CPeriod | Some false => c_conn c = CPersist | None => True end /\
  leaf_is (s LPeriod) 60 v_num (c_period c) /\
  leaf_is (s LAnchor) 0%Z v_sec (c_anchor c) /\
  leaf_is (s LIdleTo) 180 v_num (c_idle c) /\
  leaf_is (s LStart) SFirst start_of (c_start c) /\
  leaf_is (s LWait) 5 v_num (c_wait c) /\
  leaf_is (s LAttempts) 3 v_num (c_attempts c).
(** Every client of the server is configured so, there is one for every
    configured client, and no two have the same name. *)
Definition getc (n : bytes) (l : list client) : option client := find (fun c => beqb (c_name c) n) l.
Definition opts_are (s : conf) (l : list client) : Prop :=
  NoDup (map c_name l) /\
  forall n, match s n, getc n l with
            | Some x, Some c => NoDup (map fst (sc_eps x)) /\ cl_is x c
            | None, None => True
            | _, _ => False
            end.

(* ------------------------------------------------------------------ *)
(** ** Lemmas *)
Lemma owner_key nm p : list_key p (bs nm) (bs "name") = owner nm p.
Proof.
  unfold list_key. induction p as [|[n l m s u t k] p IH]; cbn [get_parent_list owner]; [reflexivity|].
  cbn [d_list d_name]. destruct l; cbn [andb]; [|exact IH].
  destruct (beqb n (bs nm)); [|exact IH].
  destruct k as [|[kn ? ? ks ? ? ?] ?]; reflexivity.
Qed.

Lemma beqb_refl a : beqb a a = true.
Proof. now apply beqb_spec. Qed.
Lemma beqb_neq a b : a <> b -> beqb a b = false.
Proof. intros H. destruct (beqb a b) eqn:E; [|reflexivity]. now apply beqb_spec in E. Qed.

Lemma find_cl_get l n :
  match find_cl l n with
  | Some i => exists c, nth_error l i = Some c /\ c_name c = n /\ getc n l = Some c
  | None => getc n l = None
  end.
Proof.
  unfold getc. induction l as [|c l IH]; cbn [find_cl find]; [reflexivity|].
  destruct (beqb (c_name c) n) eqn:E.
  - exists c. apply beqb_spec in E. auto.
  - destruct (find_cl l n); cbn [option_map]; exact IH.
Qed.
Lemma getc_in n l c : NoDup (map c_name l) -> (getc n l = Some c <-> In c l /\ c_name c = n).
Proof.
  unfold getc. induction l as [|x l IH]; cbn [find map In]; intros ND; [split; [discriminate|tauto]|].
  inversion ND as [|? ? H1 H2]; subst. specialize (IH H2).
  destruct (beqb (c_name x) n) eqn:E.
  - apply beqb_spec in E. split.
    + intros [= ->]. auto.
    + intros [[-> | H] Hn]; [reflexivity|]. exfalso. apply H1. rewrite E, <- Hn. now apply in_map.
  - rewrite IH. split; [tauto|]. intros [[-> | H] Hn]; [|tauto].
    subst n. rewrite beqb_refl in E. discriminate.
Qed.
Lemma getc_perm l l' : NoDup (map c_name l) -> Permutation l l' -> forall n, getc n l = getc n l'.
Proof.
  intros ND P n. assert (ND' : NoDup (map c_name l')) by (eapply Permutation_NoDup; [apply Permutation_map; exact P|exact ND]).
  destruct (getc n l') as [c|] eqn:E.
  - apply getc_in in E; [|exact ND']. apply getc_in; [exact ND|]. destruct E as [H1 H2]. split; [|exact H2].
    eapply Permutation_in; [apply Permutation_sym; exact P|exact H1].
  - destruct (getc n l) as [c|] eqn:F; [|reflexivity]. apply getc_in in F; [|exact ND].
    assert (getc n l' = Some c) as G; [|congruence]. apply getc_in; [exact ND'|]. destruct F as [H1 H2]. split; [|exact H2].
    eapply Permutation_in; [exact P|exact H1].
Qed.

Lemma upd_split {A} (l : list A) i x f : nth_error l i = Some x ->
  exists a b, l = a ++ x :: b /\ length a = i /\ upd l i f = a ++ f x :: b.
Proof.
  revert i. induction l as [|y l IH]; intros [|i]; cbn; try discriminate.
  - intros [= ->]. exists [], l. auto.
  - intros H. destruct (IH i H) as (a & b & -> & E & ->). exists (y :: a), b. cbn. auto.
Qed.
Lemma names_upd l i f : (forall c, c_name (f c) = c_name c) -> map c_name (upd l i f) = map c_name l.
Proof. intros H. revert i. induction l as [|x l IH]; intros [|i]; cbn; rewrite ?H, ?IH; reflexivity. Qed.
Lemma getc_upd l i n c f : NoDup (map c_name l) -> nth_error l i = Some c -> c_name c = n ->
  (forall c, c_name (f c) = c_name c) ->
  forall m, getc m (upd l i f) = if beqb n m then Some (f c) else getc m l.
Proof.
  intros ND H Hn Hf m. destruct (upd_split l i c f H) as (a & b & -> & _ & ->). clear H i.
  unfold getc. induction a as [|x a IH]; cbn [app find map] in *.
  - rewrite Hf, Hn. destruct (beqb n m); reflexivity.
  - inversion ND as [|? ? N1 N2]; subst. destruct (beqb (c_name x) m) eqn:E.
    + rewrite beqb_neq; [reflexivity|]. intros G. apply beqb_spec in E. apply N1. rewrite E, <- G.
      rewrite map_app. apply in_or_app. right. now left.
    + apply IH. exact N2.
Qed.
Lemma drop_perm l i c : nth_error l i = Some c -> Permutation l (c :: drop_cl l i).
Proof.
  intros H. unfold drop_cl. destruct (rev l) as [|z r] eqn:E.
  { destruct l; [destruct i; discriminate|]. cbn in E. destruct (rev l); discriminate. }
  assert (L : l = rev r ++ [z]) by (rewrite <- (rev_involutive l), E; reflexivity).
  destruct (upd_split l i c (fun _ => z) H) as (a & b & E1 & E2 & ->).
  destruct b as [|y b] using rev_ind.
  - rewrite removelast_last. rewrite E1. apply Permutation_sym, Permutation_cons_append.
  - clear IHb. assert (y = z) as ->.
    { rewrite L in E1. rewrite app_comm_cons, app_assoc in E1. now apply app_inj_tail in E1. }
    rewrite app_comm_cons, app_assoc, removelast_last. rewrite E1.
    rewrite Permutation_app_comm. cbn [app]. constructor.
    rewrite (Permutation_app_comm a). apply Permutation_app; [|reflexivity]. apply Permutation_sym, Permutation_cons_append.
Qed.

Lemma find_ep_at sl el n : Forall2 ep_is sl el -> In n (map fst sl) ->
  exists i y e, find_ep el n = FAt i /\ nth_error el i = Some e /\ nth_error sl i = Some (n, y) /\ ep_is (n, y) e.
Proof.
  induction 1 as [|[m y] e sl el H F IH]; cbn [map In fst]; [tauto|]. intros HI. cbn [find_ep].
  assert (K := H). destruct K as (K1 & K2 & _). cbn [fst] in K1. rewrite K2, K1.
  destruct (beqb m n) eqn:E.
  - apply beqb_spec in E. subst n. exists 0%nat, y, e. split; [reflexivity|]. split; [reflexivity|]. split; [reflexivity|]. exact H.
  - destruct HI as [-> | HI]; [rewrite beqb_refl in E; discriminate|].
    destruct (IH HI) as (i & y' & e' & -> & G). exists (Datatypes.S i), y', e'. auto.
Qed.
Lemma eps_upd sl el i n y e (g : sep -> sep) f :
  NoDup (map fst sl) -> Forall2 ep_is sl el -> nth_error sl i = Some (n, y) -> nth_error el i = Some e ->
  (ep_is (n, y) e -> ep_is (n, g y) (f e)) ->
  Forall2 ep_is (map (fun p => if beqb (fst p) n then (fst p, g (snd p)) else p) sl) (upd el i f).
Proof.
  intros ND F. revert i. induction F as [|[m x] e' sl el H F IH]; intros [|i]; cbn [nth_error]; try discriminate; intros H1 H2 HG.
  - injection H1 as -> ->. injection H2 as ->. cbn [map upd fst snd]. rewrite beqb_refl. constructor; [exact (HG H)|].
    cbn [map fst] in ND. inversion ND as [|? ? N1 N2]; subst. clear -F N1.
    induction F as [|[m x] e'' sl el H F IH]; cbn [map]; constructor; cbn [map fst In] in *.
    + rewrite beqb_neq; [exact H|]. intros ->. tauto.
    + tauto.
  - cbn [map fst] in ND. inversion ND as [|? ? N1 N2]; subst. cbn [map upd fst snd]. constructor.
    + rewrite beqb_neq; [exact H|]. intros ->. apply N1. apply nth_error_In in H1. now apply (in_map fst) in H1.
    + exact (IH N2 i H1 H2 HG).
Qed.
Lemma names_at_ep n g (sl : list (bytes * sep)) :
  map fst (map (fun p => if beqb (fst p) n then (fst p, g (snd p)) else p) sl) = map fst sl.
Proof. rewrite map_map. apply map_ext. intros [m y]. cbn. destruct (beqb m n); reflexivity. Qed.

Lemma got s l c x : opts_are s l -> s c = Some x ->
  exists i cc, find_cl l c = Some i /\ nth_error l i = Some cc /\ c_name cc = c /\
               NoDup (map fst (sc_eps x)) /\ cl_is x cc.
Proof.
  intros [_ H] E. specialize (H c). rewrite E in H. assert (F := find_cl_get l c).
  destruct (find_cl l c) as [i|].
  - destruct F as (cc & F1 & F2 & F3). rewrite F3 in H. exists i, cc. tauto.
  - rewrite F in H. tauto.
Qed.
Lemma upd_are s s' l i c cc x' f : opts_are s l -> nth_error l i = Some cc -> c_name cc = c ->
  (forall c, c_name (f c) = c_name c) -> NoDup (map fst (sc_eps x')) -> cl_is x' (f cc) ->
  (forall n, s' n = if beqb c n then Some x' else s n) -> opts_are s' (upd l i f).
Proof.
  intros [ND H] H1 H2 Hf N' R' Hs. split; [rewrite names_upd; assumption|].
  intros n. rewrite Hs, (getc_upd l i c cc f ND H1 H2 Hf n).
  destruct (beqb c n); [auto|]. exact (H n).
Qed.
Lemma at_cl_is s c x f x' n : s c = Some x -> f x = Some x' -> at_cl s c f n = if beqb c n then Some x' else s n.
Proof.
  intros H1 H2. unfold at_cl. destruct (beqb c n) eqn:E; [|reflexivity].
  apply beqb_spec in E. subst n. now rewrite H1.
Qed.

(** The handlers that change one member of the client or of the endpoint. *)
Lemma h_cl_are s l p c f g : owner "netconf-client" p = Some c -> opts_are s l -> s c <> None ->
  (forall c, c_name (f c) = c_name c) ->
  (forall x cc, cl_is x cc -> exists x', g x = Some x' /\ map fst (sc_eps x') = map fst (sc_eps x) /\ cl_is x' (f cc)) ->
  exists l', h_cl f p l = ROk l' /\ opts_are (at_cl s c g) l'.
Proof.
  intros HO R HC Hf HG. destruct (s c) as [x|] eqn:E; [|congruence].
  destruct (got s l c x R E) as (i & cc & F1 & F2 & F3 & F4 & F5).
  destruct (HG x cc F5) as (x' & G1 & G2 & G3).
  exists (upd l i f). unfold h_cl, with_cl, mod_cl. rewrite owner_key, HO, F1, F2. split; [reflexivity|].
  apply (upd_are s _ l i c cc x' f R F2 F3 Hf); [rewrite G2; exact F4|exact G3|].
  intros n. now apply (at_cl_is s c x).
Qed.
Lemma with_ep_are s l p c e (k : nat -> client -> nat -> endpt -> res) :
  owner "netconf-client" p = Some c -> owner "endpoint" p = Some e -> opts_are s l -> has_ep s c e ->
  exists i cc j y ep x, s c = Some x /\ find_cl l c = Some i /\ nth_error l i = Some cc /\ c_name cc = c /\
    NoDup (map fst (sc_eps x)) /\ cl_is x cc /\
    find_ep (c_eps cc) e = FAt j /\ nth_error (c_eps cc) j = Some ep /\ nth_error (sc_eps x) j = Some (e, y) /\ ep_is (e, y) ep /\
    with_ep p l k = k i cc j ep.
Proof.
  intros HC HE R (x & HX & HI). destruct (got s l c x R HX) as (i & cc & F1 & F2 & F3 & F4 & F5).
  destruct (find_ep_at (sc_eps x) (c_eps cc) e) as (j & y & ep & G1 & G2 & G3 & G4); [apply F5|exact HI|].
  exists i, cc, j, y, ep, x. do 10 (split; [assumption|]).
  unfold with_ep, with_cl. rewrite !owner_key, HC, HE, F1, F2, G1, G2. reflexivity.
Qed.
Lemma mod_ep_are s l c e i cc j y ep x f g : opts_are s l -> s c = Some x -> nth_error l i = Some cc -> c_name cc = c ->
  NoDup (map fst (sc_eps x)) -> cl_is x cc -> nth_error (c_eps cc) j = Some ep -> nth_error (sc_eps x) j = Some (e, y) ->
  (ep_is (e, y) ep -> ep_is (e, g y) (f ep)) ->
  exists l', mod_ep l i j f = ROk l' /\ opts_are (at_ep s c e g) l'.
Proof.
  intros R HX F2 F3 F4 F5 G1 G2 HG. eexists. split; [reflexivity|].
  eapply (upd_are s _ l i c cc _ _ R F2 F3); [reflexivity| | |].
  3: { intros n. unfold at_ep. apply (at_cl_is s c x); [exact HX|reflexivity]. }
  - cbn [sc_eps]. rewrite names_at_ep. exact F4.
  - destruct F5 as (A1 & A2 & A3). unfold cl_is in *.
    split; [exact A1|]. split; [|exact A3]. cbn [sc_eps c_eps set_eps]. exact (eps_upd _ _ j e y ep g f F4 A2 G2 G1 HG).
Qed.
Lemma h_ep_are s l p c e f g : owner "netconf-client" p = Some c -> owner "endpoint" p = Some e ->
  opts_are s l -> has_ep s c e -> (forall y ep, ep_is (e, y) ep -> ep_is (e, g y) (f ep)) ->
  exists l', h_ep f p l = ROk l' /\ opts_are (at_ep s c e g) l'.
Proof.
  intros HC HE R HP HG.
  destruct (with_ep_are s l p c e (fun i _ j _ => mod_ep l i j f) HC HE R HP) as (i & cc & j & y & ep & x & A1 & A2 & A3 & A4 & A5 & A6 & A7 & A8 & A9 & A10 & A11).
  unfold h_ep. rewrite A11. exact (mod_ep_are s l c e i cc j y ep x f g R A1 A3 A4 A5 A6 A8 A9 (HG y ep)).
Qed.

Lemma free_ep_ok x e : ep_is x e -> se_tr (snd x) <> TrGone -> free_ep e = None.
Proof.
  intros (_ & F & T & _) N. unfold free_ep. rewrite F. unfold tr_is in T.
  destruct (se_tr (snd x)) as [|[|]|]; [now rewrite T| | |congruence].
  - destruct T as [-> ->]. reflexivity.
  - destruct T as [-> ->]. reflexivity.
Qed.
Lemma destroy_ok x c : cl_is x c -> destroyable x -> destroy_cl c = None.
Proof.
  intros (T & F & _) [D1 D2]. unfold destroy_cl. rewrite T, D1. clear T D1. revert D2.
  induction F as [|a e sl el H F IH]; intros D; [reflexivity|]. inversion D as [|? ? D1 D2]; subst.
  cbn [free_eps]. rewrite (free_ep_ok a e H D1). exact (IH D2).
Qed.
Lemma opts_names s l : opts_are s l -> NoDup (map c_name l).
Proof. now intros []. Qed.
Lemma opts_ext s s' l : (forall n, s n = s' n) -> opts_are s l -> opts_are s' l.
Proof. intros E [ND H]. split; [exact ND|]. intros n. rewrite <- E. exact (H n). Qed.
Lemma getc_app n l c : getc n (l ++ [c]) = match getc n l with Some x => Some x | None => if beqb (c_name c) n then Some c else None end.
Proof.
  unfold getc. induction l as [|x l IH]; cbn [app find]; [reflexivity|].
  destruct (beqb (c_name x) n); [reflexivity|exact IH].
Qed.
Lemma getc_none l c : getc c l = None -> ~ In c (map c_name l).
Proof.
  unfold getc. intros H HI. apply in_map_iff in HI. destruct HI as (x & <- & HI).
  apply find_none with (x := x) in H; [|exact HI]. rewrite beqb_refl in H. discriminate.
Qed.
Lemma add_are s l c : opts_are s l -> s c = None ->
  opts_are (fun n => if beqb c n then Some (fresh_cl false) else s n) (l ++ [new_cl c]).
Proof.
  intros [ND H] HC. assert (G : getc c l = None).
  { specialize (H c). rewrite HC in H. destruct (getc c l); tauto. }
  split.
  - rewrite map_app. cbn [map c_name new_cl]. eapply Permutation_NoDup; [apply Permutation_cons_append|].
    constructor; [apply getc_none; exact G|exact ND].
  - intros n. rewrite getc_app. cbn [c_name new_cl]. destruct (beqb c n) eqn:E.
    + apply beqb_spec in E. subst n. rewrite G. split; [constructor|].
      unfold cl_is. cbn. repeat split; constructor.
    + specialize (H n). destruct (s n), (getc n l); tauto.
Qed.
Lemma drop_are s l i c cc : opts_are s l -> nth_error l i = Some cc -> c_name cc = c ->
  opts_are (fun n => if beqb c n then None else s n) (drop_cl l i).
Proof.
  intros [ND H] H1 H2. assert (P := drop_perm l i cc H1).
  assert (ND' : NoDup (map c_name (cc :: drop_cl l i))) by (eapply Permutation_NoDup; [apply Permutation_map; exact P|exact ND]).
  cbn [map] in ND'. assert (K := ND'). inversion K as [|? ? N1 N2]; subst. split; [exact N2|].
  intros n. specialize (H n). rewrite (getc_perm l _ ND P n) in H. unfold getc in H. cbn [find] in H. fold (getc n (drop_cl l i)) in H.
  destruct (beqb (c_name cc) n) eqn:E; [|exact H]. apply beqb_spec in E. subst n.
  destruct (getc (c_name cc) (drop_cl l i)) eqn:G; [|exact Logic.I].
  apply getc_in in G; [|exact N2]. destruct G as [G1 G2]. apply N1. rewrite <- G2. now apply in_map.
Qed.
Lemma destroy_all_ok l : (forall c, In c l -> destroy_cl c = None) -> destroy_all l = ROk [].
Proof.
  induction l as [|c l IH]; intros H; [reflexivity|]. cbn [destroy_all]. rewrite (H c (or_introl eq_refl)).
  apply IH. intros x HI. apply H. now right.
Qed.
Lemma all_gone s l : opts_are s l -> (forall c x, s c = Some x -> destroyable x) -> destroy_all l = ROk [].
Proof.
  intros [ND H] D. apply destroy_all_ok. intros c HI. specialize (H (c_name c)).
  assert (G : getc (c_name c) l = Some c) by (apply getc_in; auto). rewrite G in H.
  destruct (s (c_name c)) as [x|] eqn:E; [|tauto]. apply (destroy_ok x); [tauto|exact (D _ _ E)].
Qed.
Lemma empty_are s : (forall n, s n = None) -> opts_are s [].
Proof. intros H. split; [constructor|]. intros n. rewrite H. exact Logic.I. Qed.

Section SYNC.
Variable disp : bool.
Variable spawn : bytes -> bool.
Variable other : list dnode -> op -> bool.
Hypothesis Hspawn : forall n, spawn n = true.
Hypothesis Hother : forall p o, other p o = true.

Lemma client_ok s l d anc o : d_list d = true -> d_name d = bs "netconf-client" ->
  forall c, owner "netconf-client" (d :: anc) = Some c -> o <> ONone ->
  opts_are s l -> let e := cont o (ECliNew c) (ECliDel c) in yang_ok s e -> safe s e ->
  exists l', h_client disp spawn (d :: anc) o l = ROk l' /\ opts_are (do_edit disp s e) l'.
Proof.
  intros HL HN c HO Ho R e Y S. assert (K : exists kn ki km n t kk r, d_kids d = DN kn ki km c n t kk :: r).
  { destruct d as [nm il m st nu se kids]. cbn [d_list d_name d_kids] in *. subst il nm.
    cbn [owner] in HO. rewrite beqb_refl in HO. destruct kids as [|[kn ki km ks kn' kt kk] r]; [discriminate|].
    destruct (beqb kn (bs "name")); [|discriminate]. injection HO as ->. now repeat eexists. }
  destruct K as (kn & ki & km & n & t & kk & r & K).
  destruct o; cbn [cont] in e; subst e; cbn [yang_ok safe do_edit] in *; [congruence| | |tauto].
  - cbn [h_client]. rewrite K. cbn [d_str]. assert (A := add_are s l c R Y). destruct disp; [|eexists; split; [reflexivity|exact A]].
    unfold dispatch. set (s1 := fun n => _) in A. assert (E : s1 c = Some (fresh_cl false)) by (unfold s1; now rewrite beqb_refl).
    destruct (got s1 _ c _ A E) as (i & cc & F1 & F2 & F3 & F4 & F5). rewrite F1, Hspawn.
    eexists; split; [reflexivity|]. apply (upd_are s1 _ _ i c cc (fresh_cl true) _ A F2 F3); [reflexivity|constructor| |].
    + unfold cl_is in *. cbn in *. intuition.
    + intros m. unfold s1. destruct (beqb c m); reflexivity.
  - cbn [h_client]. unfold del_client. rewrite owner_key, HO. destruct (s c) as [x|] eqn:E; [|congruence].
    destruct (got s l c x R E) as (i & cc & F1 & F2 & F3 & F4 & F5). rewrite F1, F2, (destroy_ok x cc F5 (S x eq_refl)).
    eexists; split; [reflexivity|]. exact (drop_are s l i c cc R F2 F3).
Qed.
Lemma filter_last n (l : list (bytes * sep)) y : NoDup (map fst (l ++ [(n, y)])) ->
  filter (fun p => negb (beqb (fst p) n)) (l ++ [(n, y)]) = l.
Proof.
  rewrite map_app. cbn [map fst]. intros ND. rewrite filter_app. cbn [filter fst]. rewrite beqb_refl. cbn [negb]. rewrite app_nil_r.
  apply NoDup_remove_2 in ND. rewrite app_nil_r in ND. induction l as [|[m z] l IH]; [reflexivity|].
  cbn [map fst In filter] in *. rewrite beqb_neq by tauto. cbn [negb]. f_equal. apply IH. tauto.
Qed.
Lemma Forall2_last {A B} (P : A -> B -> Prop) l a m : Forall2 P (l ++ [a]) m ->
  exists m' b, m = m' ++ [b] /\ Forall2 P l m' /\ P a b.
Proof.
  intros H. apply Forall2_app_inv_l in H. destruct H as (m' & t & H1 & H2 & ->).
  inversion H2 as [|? b ? t' H3 H4]; subst. inversion H4; subst. eauto.
Qed.
Lemma Forall2_len {A B} (P : A -> B -> Prop) l m : Forall2 P l m -> length l = length m.
Proof. induction 1; cbn; congruence. Qed.
Lemma upd_last {A} (l : list A) x f : upd (l ++ [x]) (length l) f = l ++ [f x].
Proof. induction l as [|y l IH]; cbn; [reflexivity|now rewrite IH]. Qed.

Lemma endpoint_ok s l d anc o : d_list d = true -> d_name d = bs "endpoint" ->
  forall c e, owner "netconf-client" (d :: anc) = Some c -> owner "endpoint" (d :: anc) = Some e -> o <> ONone ->
  opts_are s l -> let ed := match o with OReplace => EEpMove c e | _ => cont o (EEpNew c e) (EEpDel c e) end in
  yang_ok s ed -> safe s ed ->
  exists l', h_endpoint (d :: anc) o l = ROk l' /\ opts_are (do_edit disp s ed) l'.
Proof.
  intros HL HN c e HC HE Ho R ed Y SF. assert (K : exists kn ki km n t kk r, d_kids d = DN kn ki km e n t kk :: r).
  { clear HC. destruct d as [nm il m st nu se kids]. cbn [d_list d_name d_kids] in *. subst il nm.
    cbn [owner] in HE. rewrite beqb_refl in HE. destruct kids as [|[kn ki km ks kn' kt kk] r]; [discriminate|].
    destruct (beqb kn (bs "name")); [|discriminate]. injection HE as ->. now repeat eexists. }
  destruct K as (kn & ki & km & n & t & kk & r & K).
  destruct o; cbn [cont] in ed; subst ed; cbn [yang_ok safe do_edit] in *; [congruence| | |].
  - destruct Y as (x & E & NI). destruct (got s l c x R E) as (i & cc & F1 & F2 & F3 & F4 & F5).
    unfold h_endpoint, with_cl, mod_cl. rewrite owner_key, HC, F1, F2, K. cbn [d_str].
    eexists; split; [reflexivity|].
    eapply (upd_are s _ l i c cc _ _ R F2 F3); [reflexivity| | |].
    3: { intros m. apply (at_cl_is s c x); [exact E|reflexivity]. }
    + cbn [with_eps sc_eps]. rewrite map_app. cbn [map fst]. eapply Permutation_NoDup; [apply Permutation_cons_append|]. now constructor.
    + destruct F5 as (A1 & A2 & A3). split; [exact A1|]. split; [|exact A3].
      cbn [with_eps sc_eps set_eps c_eps]. apply Forall2_app; [exact A2|]. constructor; [|constructor].
      unfold ep_is. cbn. repeat split; constructor.
  - pose (k := fun (i : nat) (c : client) (j : nat) (_ : endpt) =>
          match del_ep (c_eps c) j with inl u => RUb u | inr es => mod_cl l i (set_eps es) end).
    destruct (with_ep_are s l _ c e k HC HE R Y)
      as (i & cc & j & y & ep & x & A1 & A2 & A3 & A4 & A5 & A6 & A7 & A8 & A9 & A10 & A11).
    unfold h_endpoint. unfold with_cl at 1. rewrite owner_key, HC, A2, A3.
    change (with_ep (d :: anc) l _) with (with_ep (d :: anc) l k). rewrite A11. unfold k. clear A11.
    destruct (SF x A1) as (sl & z & E1 & E2). assert (A6' := A6). destruct A6 as (B1 & B2 & B3). rewrite E1 in B2, A5, A9.
    destruct (Forall2_last _ _ _ _ B2) as (el & ez & E3 & E4 & E5).
    assert (J : j = length sl /\ y = z).
    { assert (LT : (j < length (sl ++ [(e, z)]))%nat) by (apply nth_error_Some; rewrite A9; discriminate).
      rewrite app_length in LT. cbn [length] in LT. destruct (Nat.eq_dec j (length sl)) as [-> | NE].
      - rewrite nth_error_app2 in A9 by lia. rewrite Nat.sub_diag in A9. cbn in A9. injection A9 as ->. auto.
      - exfalso. rewrite nth_error_app1 in A9 by lia. apply nth_error_In in A9. apply (in_map fst) in A9. cbn [fst] in A9.
        rewrite map_app in A5. cbn [map fst] in A5. apply NoDup_remove_2 in A5. rewrite app_nil_r in A5. exact (A5 A9). }
    destruct J as [-> ->]. rewrite (Forall2_len _ _ _ E4) in *. unfold del_ep. rewrite A8, (free_ep_ok _ _ A10 E2), E3, upd_last, removelast_last.
    eexists; split; [reflexivity|].
    eapply (upd_are s _ l i c cc _ _ R A3 A4); [reflexivity| | |].
    3: { intros m. apply (at_cl_is s c x); [exact A1|reflexivity]. }
    + cbn [with_eps sc_eps]. rewrite E1, filter_last by exact A5. rewrite map_app in A5. apply NoDup_remove_1 in A5. now rewrite app_nil_r in A5.
    + split; [exact B1|]. split; [|exact B3]. cbn [with_eps sc_eps set_eps c_eps]. rewrite E1, filter_last by exact A5. exact E4.
  - destruct Y as (x & E & _). destruct (got s l c x R E) as (i & cc & F1 & F2 & F3 & F4 & F5).
    unfold h_endpoint, with_cl. rewrite owner_key, HC, F1, F2. eexists; split; [reflexivity|exact R].
Qed.

Lemma transport_ok s l p k t kk o c e : owner "netconf-client" p = Some c -> owner "endpoint" p = Some e -> o <> ONone ->
  (t, kk) = match k with Ssh => (TSsh, OSsh) | Tls => (TTls, OTls) end ->
  opts_are s l -> let ed := cont o (ETrNew c e k) (ETrDel c e k) in yang_ok s ed -> safe s ed ->
  exists l', h_transport t kk p o l = ROk l' /\ opts_are (do_edit disp s ed) l'.
Proof.
  intros HC HE Ho HK R ed Y SF.
  destruct o; cbn [cont] in ed; subst ed; cbn [yang_ok safe do_edit] in *; [congruence| | |tauto].
  - apply (h_ep_are s l p c e _ _ HC HE R Y). intros y ep (B1 & B2 & B3 & B4). unfold ep_is in *. cbn [fst snd se_tr se_ka se_leaf set_ti e_name e_freed e_ka e_dst e_dport e_src e_sport e_idle e_probes e_intv] in *.
    split; [exact B1|]. split; [exact B2|]. split; [|exact B4]. destruct k; injection HK as -> ->; split; reflexivity.
  - pose (kf := fun (i : nat) (c : client) (j : nat) (ep : endpt) =>
          match del_opts kk (e_opts ep) with Some u => RUb u | None => mod_ep l i j (set_ti (e_ti ep) (Some OFreed)) end).
    destruct (with_ep_are s l _ c e kf HC HE R Y)
      as (i & cc & j & y & ep & x & A1 & A2 & A3 & A4 & A5 & A6 & A7 & A8 & A9 & A10 & A11).
    unfold h_transport. change (with_ep p l _) with (with_ep p l kf). rewrite A11. unfold kf.
    assert (T : se_tr y = TrIs k) by (apply (SF x y A1); now apply nth_error_In with j).
    assert (B := A10). destruct B as (_ & _ & B & _). cbn [snd] in B. rewrite T in B.
    replace (del_opts kk (e_opts ep)) with (@None ubk)
      by (destruct k; injection HK as -> ->; destruct B as [_ ->]; reflexivity).
    apply (mod_ep_are s l c e i cc j y ep x _ _ R A1 A3 A4 A5 A6 A8 A9).
    intros (C1 & C2 & C3 & C4). unfold ep_is. cbn [fst snd se_tr se_ka se_leaf set_ti e_name e_freed e_ka e_dst e_dport e_src e_sport e_idle e_probes e_intv] in *.
    split; [exact C1|]. split; [exact C2|]. split; [|exact C4]. rewrite T. destruct (trk_dec k k); [exact Logic.I|congruence].
Qed.
Lemma leafc_ok s l p c lf v f :
  owner "netconf-client" p = Some c -> opts_are s l -> s c <> None ->
  (forall c, c_name (f c) = c_name c) ->
  (forall x cc, cl_is x cc -> cl_is {| sc_thr := sc_thr x; sc_eps := sc_eps x; sc_conn := sc_conn x;
      sc_leaf := put_c lf v (sc_leaf x) |} (f cc)) ->
  exists l', h_cl f p l = ROk l' /\ opts_are (do_edit disp s (ELeafC c lf v)) l'.
Proof.
  intros HO R HC Hf HG. apply (h_cl_are s l p c f _ HO R HC Hf). intros x cc H.
  eexists; split; [reflexivity|]. split; [reflexivity|]. exact (HG x cc H).
Qed.
Lemma leafe_ok s l p c e lf v f :
  owner "netconf-client" p = Some c -> owner "endpoint" p = Some e -> opts_are s l -> has_ep s c e ->
  (forall y ep, ep_is (e, y) ep -> ep_is (e, {| se_tr := se_tr y; se_ka := se_ka y; se_leaf := put_e lf v (se_leaf y) |}) (f ep)) ->
  exists l', h_ep f p l = ROk l' /\ opts_are (do_edit disp s (ELeafE c e lf v)) l'.
Proof. intros HC HE R HP HG. exact (h_ep_are s l p c e f _ HC HE R HP HG). Qed.

Lemma conn_del_are s l c b : opts_are s l -> s c <> None -> opts_are (do_edit disp s (EConnDel c b)) l.
Proof.
  intros [ND H] _. split; [exact ND|]. intros n. specialize (H n). cbn [do_edit]. unfold at_cl.
  destruct (beqb c n); [|exact H]. destruct (s n) as [x|], (getc n l) as [cc|]; try exact H.
  destruct H as [H1 H2]. split; [exact H1|]. unfold cl_is in *. cbn in *.
  destruct (sc_conn x) as [[|]|]; destruct b; cbn; tauto.
Qed.
Lemma handle_ok s l p o : o <> ONone -> opts_are s l -> yang_ok s (edit_of p o) -> safe s (edit_of p o) ->
  exists l', handle disp spawn other p o l = ROk l' /\ opts_are (do_edit disp s (edit_of p o)) l'.
Proof.
  intros Ho R. destruct p as [|d anc]; [intros _ _; eexists; split; [reflexivity|exact R]|].
  destruct d as [nm il m st nu se kids]. set (d := DN nm il m st nu se kids).
  assert (DL : d_list d = il) by reflexivity. assert (DNm : d_name d = nm) by reflexivity.
  destruct (beqb nm (bs "period")) eqn:E_period; [apply beqb_spec in E_period; revert d DL DNm; subst nm; intros d DL DNm|].
  { change (edit_of (d :: anc) o) with (on_cl (d :: anc) (fun c => ELeafC c LPeriod (leaf_val d o))).
    change (handle disp spawn other (d :: anc) o l) with (h_period d o (d :: anc) l).
    unfold on_ep, on_cl; destruct (owner "netconf-client" (d :: anc)) as [c|] eqn:HC; [|cbn; tauto].
    intros [Y _] _; apply leafc_ok; [exact HC|exact R|exact Y|reflexivity|].
    intros x cc H; destruct o; try congruence; unfold cl_is in *; cbn in *; intuition. }
  destruct (beqb nm (bs "anchor-time")) eqn:E_anchor_time; [apply beqb_spec in E_anchor_time; revert d DL DNm; subst nm; intros d DL DNm|].
  { change (edit_of (d :: anc) o) with (on_cl (d :: anc) (fun c => ELeafC c LAnchor (leaf_val d o))).
    change (handle disp spawn other (d :: anc) o l) with (h_anchor d o (d :: anc) l).
    unfold on_ep, on_cl; destruct (owner "netconf-client" (d :: anc)) as [c|] eqn:HC; [|cbn; tauto].
    intros [Y _] _; apply leafc_ok; [exact HC|exact R|exact Y|reflexivity|].
    intros x cc H; destruct o; try congruence; unfold cl_is in *; cbn in *; intuition. }
  destruct (beqb nm (bs "idle-timeout")) eqn:E_idle_timeout; [apply beqb_spec in E_idle_timeout; revert d DL DNm; subst nm; intros d DL DNm|].
  { change (edit_of (d :: anc) o) with (on_cl (d :: anc) (fun c => ELeafC c LIdleTo (leaf_val d o))).
    change (handle disp spawn other (d :: anc) o l) with (h_idleto d o (d :: anc) l).
    unfold on_ep, on_cl; destruct (owner "netconf-client" (d :: anc)) as [c|] eqn:HC; [|cbn; tauto].
    intros [Y _] _; apply leafc_ok; [exact HC|exact R|exact Y|reflexivity|].
    intros x cc H; destruct o; try congruence; unfold cl_is in *; cbn in *; intuition. }
  destruct (beqb nm (bs "max-wait")) eqn:E_max_wait; [apply beqb_spec in E_max_wait; revert d DL DNm; subst nm; intros d DL DNm|].
  { change (edit_of (d :: anc) o) with (on_cl (d :: anc) (fun c => ELeafC c LWait (leaf_val d o))).
    change (handle disp spawn other (d :: anc) o l) with (h_wait d o (d :: anc) l).
    unfold on_ep, on_cl; destruct (owner "netconf-client" (d :: anc)) as [c|] eqn:HC; [|cbn; tauto].
    intros [Y _] _; apply leafc_ok; [exact HC|exact R|exact Y|reflexivity|].
    intros x cc H; destruct o; try congruence; unfold cl_is in *; cbn in *; intuition. }
  destruct (beqb nm (bs "max-attempts")) eqn:E_max_attempts; [apply beqb_spec in E_max_attempts; revert d DL DNm; subst nm; intros d DL DNm|].
  { change (edit_of (d :: anc) o) with (on_cl (d :: anc) (fun c => ELeafC c LAttempts (leaf_val d o))).
    change (handle disp spawn other (d :: anc) o l) with (h_attempts d o (d :: anc) l).
    unfold on_ep, on_cl; destruct (owner "netconf-client" (d :: anc)) as [c|] eqn:HC; [|cbn; tauto].
    intros [Y _] _; apply leafc_ok; [exact HC|exact R|exact Y|reflexivity|].
    intros x cc H; destruct o; try congruence; unfold cl_is in *; cbn in *; intuition. }
  destruct (beqb nm (bs "start-with")) eqn:E_start_with; [apply beqb_spec in E_start_with; revert d DL DNm; subst nm; intros d DL DNm|].
  { change (edit_of (d :: anc) o) with (on_cl (d :: anc) (fun c => ELeafC c LStart (leaf_val d o))).
    change (handle disp spawn other (d :: anc) o l) with (h_startwith d o (d :: anc) l).
    unfold on_ep, on_cl; destruct (owner "netconf-client" (d :: anc)) as [c|] eqn:HC; [|cbn; tauto].
    intros [Y V] _. unfold h_startwith.
    destruct o; [congruence| | |].
    all: try (specialize (V eq_refl _ eq_refl); cbn [v_str] in V).
    2: { apply leafc_ok; [exact HC|exact R|exact Y|reflexivity|]. intros x cc H. unfold cl_is in *; cbn in *; intuition. }
    all: change (d_str d) with st in *; destruct V as [V|[V|[V|[]]]].
    all: match type of V with ?b = _ => pose (w := b) end; replace st with w by exact V.
    all: apply leafc_ok; [exact HC|exact R|exact Y|reflexivity|]; intros x cc H.
    all: assert (ST : start_of {| v_str := st; v_num := nu; v_sec := se |} = start_of {| v_str := w; v_num := nu; v_sec := se |})
      by (unfold w; rewrite V; reflexivity).
    all: unfold cl_is in *; cbn in *; rewrite ?ST; intuition. }
  destruct (beqb nm (bs "remote-address")) eqn:E_remote_address; [apply beqb_spec in E_remote_address; revert d DL DNm; subst nm; intros d DL DNm|].
  { change (edit_of (d :: anc) o) with (on_ep (d :: anc) (fun c e => ELeafE c e LDst (leaf_val d o))).
    change (handle disp spawn other (d :: anc) o l) with (h_raddr d o (d :: anc) l).
    unfold on_ep, on_cl; destruct (owner "netconf-client" (d :: anc)) as [c|] eqn:HC; [|cbn; tauto].
    destruct (owner "endpoint" (d :: anc)) as [e|] eqn:HE; [|cbn; tauto].
    intros Y _; apply leafe_ok; [exact HC|exact HE|exact R|exact Y|].
    intros y ep H; destruct o; try congruence; unfold ep_is in *; cbn in *; intuition. }
  destruct (beqb nm (bs "remote-port")) eqn:E_remote_port; [apply beqb_spec in E_remote_port; revert d DL DNm; subst nm; intros d DL DNm|].
  { change (edit_of (d :: anc) o) with (on_ep (d :: anc) (fun c e => ELeafE c e LDport (leaf_val d o))).
    change (handle disp spawn other (d :: anc) o l) with (h_rport d o (d :: anc) l).
    unfold on_ep, on_cl; destruct (owner "netconf-client" (d :: anc)) as [c|] eqn:HC; [|cbn; tauto].
    destruct (owner "endpoint" (d :: anc)) as [e|] eqn:HE; [|cbn; tauto].
    intros Y _; apply leafe_ok; [exact HC|exact HE|exact R|exact Y|].
    intros y ep H; destruct o; try congruence; unfold ep_is in *; cbn in *; intuition. }
  destruct (beqb nm (bs "local-address")) eqn:E_local_address; [apply beqb_spec in E_local_address; revert d DL DNm; subst nm; intros d DL DNm|].
  { change (edit_of (d :: anc) o) with (if under_tcp (d :: anc) 1 then on_ep (d :: anc) (fun c e => ELeafE c e LSrc (leaf_val d o)) else ENothing).
    change (handle disp spawn other (d :: anc) o l) with (if equal_parent_name (d :: anc) 1 (bs "tcp-client-parameters") then h_laddr d o (d :: anc) l else ROk l).
    change (under_tcp (d :: anc) 1) with (equal_parent_name (d :: anc) 1 (bs "tcp-client-parameters")).
    destruct (equal_parent_name (d :: anc) 1 (bs "tcp-client-parameters")); [|intros _ _; eexists; split; [reflexivity|exact R]].
    unfold on_ep, on_cl; destruct (owner "netconf-client" (d :: anc)) as [c|] eqn:HC; [|cbn; tauto].
    destruct (owner "endpoint" (d :: anc)) as [e|] eqn:HE; [|cbn; tauto].
    intros Y _; apply leafe_ok; [exact HC|exact HE|exact R|exact Y|].
    intros y ep H; destruct o; try congruence; unfold ep_is in *; cbn in *; intuition. }
  destruct (beqb nm (bs "local-port")) eqn:E_local_port; [apply beqb_spec in E_local_port; revert d DL DNm; subst nm; intros d DL DNm|].
  { change (edit_of (d :: anc) o) with (if under_tcp (d :: anc) 1 then on_ep (d :: anc) (fun c e => ELeafE c e LSport (leaf_val d o)) else ENothing).
    change (handle disp spawn other (d :: anc) o l) with (if equal_parent_name (d :: anc) 1 (bs "tcp-client-parameters") then h_lport d o (d :: anc) l else ROk l).
    change (under_tcp (d :: anc) 1) with (equal_parent_name (d :: anc) 1 (bs "tcp-client-parameters")).
    destruct (equal_parent_name (d :: anc) 1 (bs "tcp-client-parameters")); [|intros _ _; eexists; split; [reflexivity|exact R]].
    unfold on_ep, on_cl; destruct (owner "netconf-client" (d :: anc)) as [c|] eqn:HC; [|cbn; tauto].
    destruct (owner "endpoint" (d :: anc)) as [e|] eqn:HE; [|cbn; tauto].
    intros Y _; apply leafe_ok; [exact HC|exact HE|exact R|exact Y|].
    intros y ep H; destruct o; try congruence; unfold ep_is in *; cbn in *; intuition. }
  destruct (beqb nm (bs "idle-time")) eqn:E_idle_time; [apply beqb_spec in E_idle_time; revert d DL DNm; subst nm; intros d DL DNm|].
  { change (edit_of (d :: anc) o) with (if under_tcp (d :: anc) 2 then on_ep (d :: anc) (fun c e => ELeafE c e LIdle (leaf_val d o)) else ENothing).
    change (handle disp spawn other (d :: anc) o l) with (if equal_parent_name (d :: anc) 2 (bs "tcp-client-parameters") then h_idletime d o (d :: anc) l else ROk l).
    change (under_tcp (d :: anc) 2) with (equal_parent_name (d :: anc) 2 (bs "tcp-client-parameters")).
    destruct (equal_parent_name (d :: anc) 2 (bs "tcp-client-parameters")); [|intros _ _; eexists; split; [reflexivity|exact R]].
    unfold on_ep, on_cl; destruct (owner "netconf-client" (d :: anc)) as [c|] eqn:HC; [|cbn; tauto].
    destruct (owner "endpoint" (d :: anc)) as [e|] eqn:HE; [|cbn; tauto].
    intros Y _; apply leafe_ok; [exact HC|exact HE|exact R|exact Y|].
    intros y ep H; destruct o; try congruence; unfold ep_is in *; cbn in *; intuition. }
  destruct (beqb nm (bs "max-probes")) eqn:E_max_probes; [apply beqb_spec in E_max_probes; revert d DL DNm; subst nm; intros d DL DNm|].
  { change (edit_of (d :: anc) o) with (if under_tcp (d :: anc) 2 then on_ep (d :: anc) (fun c e => ELeafE c e LProbes (leaf_val d o)) else ENothing).
    change (handle disp spawn other (d :: anc) o l) with (if equal_parent_name (d :: anc) 2 (bs "tcp-client-parameters") then h_probes d o (d :: anc) l else ROk l).
    change (under_tcp (d :: anc) 2) with (equal_parent_name (d :: anc) 2 (bs "tcp-client-parameters")).
    destruct (equal_parent_name (d :: anc) 2 (bs "tcp-client-parameters")); [|intros _ _; eexists; split; [reflexivity|exact R]].
    unfold on_ep, on_cl; destruct (owner "netconf-client" (d :: anc)) as [c|] eqn:HC; [|cbn; tauto].
    destruct (owner "endpoint" (d :: anc)) as [e|] eqn:HE; [|cbn; tauto].
    intros Y _; apply leafe_ok; [exact HC|exact HE|exact R|exact Y|].
    intros y ep H; destruct o; try congruence; unfold ep_is in *; cbn in *; intuition. }
  destruct (beqb nm (bs "probe-interval")) eqn:E_probe_interval; [apply beqb_spec in E_probe_interval; revert d DL DNm; subst nm; intros d DL DNm|].
  { change (edit_of (d :: anc) o) with (if under_tcp (d :: anc) 2 then on_ep (d :: anc) (fun c e => ELeafE c e LIntv (leaf_val d o)) else ENothing).
    change (handle disp spawn other (d :: anc) o l) with (if equal_parent_name (d :: anc) 2 (bs "tcp-client-parameters") then h_intv d o (d :: anc) l else ROk l).
    change (under_tcp (d :: anc) 2) with (equal_parent_name (d :: anc) 2 (bs "tcp-client-parameters")).
    destruct (equal_parent_name (d :: anc) 2 (bs "tcp-client-parameters")); [|intros _ _; eexists; split; [reflexivity|exact R]].
    unfold on_ep, on_cl; destruct (owner "netconf-client" (d :: anc)) as [c|] eqn:HC; [|cbn; tauto].
    destruct (owner "endpoint" (d :: anc)) as [e|] eqn:HE; [|cbn; tauto].
    intros Y _; apply leafe_ok; [exact HC|exact HE|exact R|exact Y|].
    intros y ep H; destruct o; try congruence; unfold ep_is in *; cbn in *; intuition. }
  destruct (beqb nm (bs "call-home")) eqn:E_call_home; [apply beqb_spec in E_call_home; revert d DL DNm; subst nm; intros d DL DNm|].
  { change (edit_of (d :: anc) o) with (cont o ENothing EAllDel).
    change (handle disp spawn other (d :: anc) o l) with (h_ch o l).
    destruct o; cbn [cont h_ch yang_ok safe do_edit]; [congruence| | |tauto].
    - intros _ _. eexists; split; [reflexivity|exact R].
    - intros _ D. exists []. split; [exact (all_gone s l R D)|]. now apply empty_are. }
  destruct (beqb nm (bs "netconf-client")) eqn:E_netconf_client; [apply beqb_spec in E_netconf_client; revert d DL DNm; subst nm; intros d DL DNm|].
  { change (edit_of (d :: anc) o) with (if il then on_cl (d :: anc) (fun c => cont o (ECliNew c) (ECliDel c)) else EBad).
    change (handle disp spawn other (d :: anc) o l) with (h_client disp spawn (d :: anc) o l).
    destruct il; [|cbn; tauto].
    unfold on_ep, on_cl; destruct (owner "netconf-client" (d :: anc)) as [c|] eqn:HC; [|cbn; tauto].
    now apply client_ok. }
  destruct (beqb nm (bs "endpoint")) eqn:E_endpoint; [apply beqb_spec in E_endpoint; revert d DL DNm; subst nm; intros d DL DNm|].
  { change (edit_of (d :: anc) o) with (if il then on_ep (d :: anc) (fun c e => match o with OReplace => EEpMove c e | _ => cont o (EEpNew c e) (EEpDel c e) end) else EBad).
    change (handle disp spawn other (d :: anc) o l) with (h_endpoint (d :: anc) o l).
    destruct il; [|cbn; tauto].
    unfold on_ep, on_cl; destruct (owner "netconf-client" (d :: anc)) as [c|] eqn:HC; [|cbn; tauto].
    destruct (owner "endpoint" (d :: anc)) as [e|] eqn:HE; [|cbn; tauto].
    now apply endpoint_ok. }
  destruct (beqb nm (bs "ssh")) eqn:E_ssh; [apply beqb_spec in E_ssh; revert d DL DNm; subst nm; intros d DL DNm|].
  { change (edit_of (d :: anc) o) with (on_ep (d :: anc) (fun c e => cont o (ETrNew c e Ssh) (ETrDel c e Ssh))).
    change (handle disp spawn other (d :: anc) o l) with (h_transport TSsh OSsh (d :: anc) o l).
    unfold on_ep, on_cl; destruct (owner "netconf-client" (d :: anc)) as [c|] eqn:HC; [|cbn; tauto].
    destruct (owner "endpoint" (d :: anc)) as [e|] eqn:HE; [|cbn; tauto].
    now apply transport_ok. }
  destruct (beqb nm (bs "tls")) eqn:E_tls; [apply beqb_spec in E_tls; revert d DL DNm; subst nm; intros d DL DNm|].
  { change (edit_of (d :: anc) o) with (on_ep (d :: anc) (fun c e => cont o (ETrNew c e Tls) (ETrDel c e Tls))).
    change (handle disp spawn other (d :: anc) o l) with (h_transport TTls OTls (d :: anc) o l).
    unfold on_ep, on_cl; destruct (owner "netconf-client" (d :: anc)) as [c|] eqn:HC; [|cbn; tauto].
    destruct (owner "endpoint" (d :: anc)) as [e|] eqn:HE; [|cbn; tauto].
    now apply transport_ok. }
  destruct (beqb nm (bs "keepalives")) eqn:E_keepalives; [apply beqb_spec in E_keepalives; revert d DL DNm; subst nm; intros d DL DNm|].
  { change (edit_of (d :: anc) o) with (if under_tcp (d :: anc) 1 then on_ep (d :: anc) (fun c e => cont o (EKa c e true) (EKa c e false)) else ENothing).
    change (handle disp spawn other (d :: anc) o l) with (if equal_parent_name (d :: anc) 1 (bs "tcp-client-parameters") then h_ka o (d :: anc) l else ROk l).
    change (under_tcp (d :: anc) 1) with (equal_parent_name (d :: anc) 1 (bs "tcp-client-parameters")).
    destruct (equal_parent_name (d :: anc) 1 (bs "tcp-client-parameters")); [|intros _ _; eexists; split; [reflexivity|exact R]].
    unfold on_ep, on_cl; destruct (owner "netconf-client" (d :: anc)) as [c|] eqn:HC; [|cbn; tauto].
    destruct (owner "endpoint" (d :: anc)) as [e|] eqn:HE; [|cbn; tauto].
    destruct o; cbn [cont]; [congruence| | |cbn; tauto].
    all: intros Y _; apply (h_ep_are s l _ c e _ _ HC HE R Y); intros y ep H; unfold ep_is in *; cbn in *; intuition. }
  destruct (beqb nm (bs "persistent")) eqn:E_persistent; [apply beqb_spec in E_persistent; revert d DL DNm; subst nm; intros d DL DNm|].
  { change (edit_of (d :: anc) o) with (on_cl (d :: anc) (fun c => cont o (EConnNew c false) (EConnDel c false))).
    change (handle disp spawn other (d :: anc) o l) with (h_persistent o (d :: anc) l).
    unfold on_ep, on_cl; destruct (owner "netconf-client" (d :: anc)) as [c|] eqn:HC; [|cbn; tauto].
    destruct o; cbn [cont]; [congruence| | |cbn; tauto]; intros Y _.
    - apply (h_cl_are s l _ c _ _ HC R Y); [reflexivity|]. intros x cc H. eexists; split; [reflexivity|]. split; [reflexivity|].
      unfold cl_is in *; cbn in *; intuition.
    - eexists; split; [reflexivity|]. apply conn_del_are; assumption. }
  destruct (beqb nm (bs "periodic")) eqn:E_periodic; [apply beqb_spec in E_periodic; revert d DL DNm; subst nm; intros d DL DNm|].
  { change (edit_of (d :: anc) o) with (on_cl (d :: anc) (fun c => cont o (EConnNew c true) (EConnDel c true))).
    change (handle disp spawn other (d :: anc) o l) with (h_periodic o (d :: anc) l).
    unfold on_ep, on_cl; destruct (owner "netconf-client" (d :: anc)) as [c|] eqn:HC; [|cbn; tauto].
    destruct o; cbn [cont]; [congruence| | |cbn; tauto]; intros Y _.
    - apply (h_cl_are s l _ c _ _ HC R Y); [reflexivity|]. intros x cc H. eexists; split; [reflexivity|]. split; [reflexivity|].
      unfold cl_is in *; cbn in *; intuition.
    - eexists; split; [reflexivity|]. apply conn_del_are; assumption. }
  destruct (beqb nm (bs "reconnect-strategy")) eqn:E_reconnect_strategy; [apply beqb_spec in E_reconnect_strategy; revert d DL DNm; subst nm; intros d DL DNm|].
  { change (edit_of (d :: anc) o) with (on_cl (d :: anc) (fun c => cont o (ERec c) (ERec c))).
    change (handle disp spawn other (d :: anc) o l) with (h_reconnect (d :: anc) l).
    unfold on_ep, on_cl; destruct (owner "netconf-client" (d :: anc)) as [c|] eqn:HC; [|cbn; tauto].
    destruct o; cbn [cont]; [congruence| | |cbn; tauto]; intros Y _.
    all: apply (h_cl_are s l _ c _ _ HC R Y); [reflexivity|]; intros x cc H; eexists; split; [reflexivity|]; split; [reflexivity|];
      unfold cl_is in *; cbn in *; intuition. }
  assert (EE : edit_of (d :: anc) o = ENothing).
  { unfold edit_of, cleaf_names, eleaf_names. cbn [find fst]. rewrite DNm. rewrite ?E_anchor_time, ?E_call_home, ?E_endpoint, ?E_idle_timeout, ?E_max_attempts, ?E_max_wait, ?E_netconf_client, ?E_period, ?E_periodic, ?E_persistent, ?E_reconnect_strategy, ?E_start_with, ?E_idle_time, ?E_keepalives, ?E_local_address, ?E_local_port, ?E_max_probes, ?E_probe_interval, ?E_remote_address, ?E_remote_port, ?E_ssh, ?E_tls. reflexivity. }
  assert (EH : handle disp spawn other (d :: anc) o l = ROk l).
  { unfold handle. rewrite DNm. rewrite ?E_anchor_time, ?E_call_home, ?E_endpoint, ?E_idle_timeout, ?E_max_attempts, ?E_max_wait, ?E_netconf_client, ?E_period, ?E_periodic, ?E_persistent, ?E_reconnect_strategy, ?E_start_with, ?E_idle_time, ?E_keepalives, ?E_local_address, ?E_local_port, ?E_max_probes, ?E_probe_interval, ?E_remote_address, ?E_remote_port, ?E_ssh, ?E_tls. rewrite Hother. reflexivity. }
  rewrite EE, EH. intros _ _. eexists; split; [reflexivity|exact R].
Qed.
Lemma own_cur n il m st nu se kids parent : cur_op (DN n il m st nu se kids) parent = own_op m parent.
Proof.
  unfold cur_op, own_op, meta_op. cbn [d_meta find fst]. destruct m as [v|]; [|reflexivity].
  destruct (beqb v (bs "create")); [reflexivity|]. destruct (beqb v (bs "delete")); [reflexivity|].
  destruct (beqb v (bs "replace")); [reflexivity|]. destruct (beqb v (bs "none")); reflexivity.
Qed.
Lemma all_ok_app s a b : all_ok disp s (a ++ b) <-> all_ok disp s a /\ all_ok disp (fold_left (do_edit disp) a s) b.
Proof. revert s. induction a as [|x a IH]; intros s; cbn [app all_ok fold_left]; [tauto|]. rewrite IH. tauto. Qed.

Section DIND.
Variable P : dnode -> Prop.
Hypothesis HP : forall n il m st nu se kids, Forall P kids -> P (DN n il m st nu se kids).
Fixpoint dnode_ind2 (d : dnode) : P d :=
  match d with
  | DN n il m st nu se kids =>
      HP n il m st nu se kids
        ((fix go (ks : list dnode) : Forall P ks :=
            match ks with [] => Forall_nil P | k :: r => Forall_cons k (dnode_ind2 k) (go r) end) kids)
  end.
End DIND.

Theorem tree_ok d : forall anc parent s l, opts_are s l -> all_ok disp s (edits d anc parent) ->
  exists l', parse_tree disp spawn other d anc parent l = ROk l' /\
             opts_are (fold_left (do_edit disp) (edits d anc parent) s) l'.
Proof.
  induction d as [n il m st nu se kids IH] using dnode_ind2. intros anc parent s l R.
  cbn [edits parse_tree]. rewrite own_cur. set (d := DN n il m st nu se kids).
  destruct (own_op m parent) as [o|]; [|cbn; tauto].
  assert (KIDS : forall ks o s l, Forall (fun d => forall anc parent s l, opts_are s l -> all_ok disp s (edits d anc parent) ->
      exists l', parse_tree disp spawn other d anc parent l = ROk l' /\
             opts_are (fold_left (do_edit disp) (edits d anc parent) s) l') ks ->
      opts_are s l -> all_ok disp s (flat_map (fun k => edits k (d :: anc) (Some o)) ks) ->
      exists l', (fix go (ks : list dnode) (l : list client) : res :=
                      match ks with
                      | [] => ROk l
                      | k :: r => match parse_tree disp spawn other k (d :: anc) (Some o) l with
                                  | ROk l2 => go r l2
                                  | x => x
                                  end
                      end) ks l = ROk l' /\
        opts_are (fold_left (do_edit disp) (flat_map (fun k => edits k (d :: anc) (Some o)) ks) s) l').
  { clear. intros ks o. induction ks as [|k ks IHk]; intros s l F R A; [eexists; split; [reflexivity|exact R]|].
    inversion F as [|? ? F1 F2]; subst. cbn [flat_map] in A |- *. apply all_ok_app in A. destruct A as [A1 A2].
    destruct (F1 (d :: anc) (Some o) s l R A1) as (l1 & E1 & R1). rewrite E1.
    destruct (IHk _ l1 F2 R1 A2) as (l2 & E2 & R2). exists l2. split; [exact E2|]. rewrite fold_left_app. exact R2. }
  destruct o.
  - cbn [act]. intros A. exact (KIDS kids ONone s l IH R A).
  - intros (Y & SF & A). unfold act. destruct (handle_ok s l (d :: anc) OCreate ltac:(discriminate) R Y SF) as (l1 & E1 & R1).
    rewrite E1. cbn [fold_left]. exact (KIDS kids OCreate _ l1 IH R1 A).
  - intros (Y & SF & _). unfold act. destruct (handle_ok s l (d :: anc) ODelete ltac:(discriminate) R Y SF) as (l1 & E1 & R1).
    rewrite E1. exists l1. split; [reflexivity|exact R1].
  - intros (Y & SF & A). unfold act. destruct (handle_ok s l (d :: anc) OReplace ltac:(discriminate) R Y SF) as (l1 & E1 & R1).
    rewrite E1. cbn [fold_left]. exact (KIDS kids OReplace _ l1 IH R1 A).
Qed.

(** A history: diffs, whole data, and calls of nc_connect_ch_client_dispatch. *)
Inductive event := HDiff (d : dnode) | HData (d : dnode) | HDispatch (n : bytes).
Definition spec_event (s : conf) (h : event) : conf :=
  match h with
  | HDiff d => fold_left (do_edit disp) (edits d [] None) s
  | HData d => fold_left (do_edit disp) (edits d [] (Some OCreate)) (fun _ => None)
  | HDispatch n => at_cl s n (fun x => Some {| sc_thr := true; sc_eps := sc_eps x; sc_conn := sc_conn x; sc_leaf := sc_leaf x |})
  end.
(** Data in which no node, at any depth, says an operation. *)
Inductive node_of (x : dnode) : dnode -> Prop :=
| no_here : node_of x x
| no_below k n il m st nu se kids : In k kids -> node_of x k -> node_of x (DN n il m st nu se kids).
Definition plain (d : dnode) : Prop := forall x, node_of x d -> d_meta x = None.
Lemma no_meta_plain d : no_meta d = true <-> plain d.
Proof.
  induction d as [n il m st nu se kids IH] using dnode_ind2. rewrite Forall_forall in IH. cbn [no_meta]. rewrite andb_true_iff, forallb_forall. split.
  - intros [A B] x X. inversion X as [|k ? ? ? ? ? ? ? K Y]; subst; [cbn; destruct m; [discriminate|reflexivity]|]. exact (proj1 (IH k K) (B k K) x Y).
  - intros Q. split; [specialize (Q _ (no_here _)); cbn in Q; subst m; reflexivity|]. intros k K. apply (IH k K). intros x X. apply Q. eapply no_below; eauto.
Qed.
Definition event_ok (s : conf) (h : event) : Prop :=
  match h with
  | HDiff d => all_ok disp s (edits d [] None)
  | HData d => plain d /\ (forall c x, s c = Some x -> destroyable x) /\
               all_ok disp (fun _ => None) (edits d [] (Some OCreate))
  | HDispatch n => s n <> None
  end.
Fixpoint history_ok (s : conf) (hs : list event) : Prop :=
  match hs with [] => True | h :: r => event_ok s h /\ history_ok (spec_event s h) r end.
(** What the server does. *)
Definition do_event (h : event) (l : list client) : res :=
  match h with
  | HDiff d => setup_diff disp spawn other d l
  | HData d => setup_data disp spawn other d l
  | HDispatch n => dispatch spawn n l
  end.
Fixpoint do_history (hs : list event) (l : list client) : res :=
  match hs with
  | [] => ROk l
  | h :: r => match do_event h l with ROk l1 => do_history r l1 | x => x end
  end.

Lemma event_are s l h : opts_are s l -> event_ok s h ->
  exists l', do_event h l = ROk l' /\ opts_are (spec_event s h) l'.
Proof.
  intros R. destruct h as [d|d|n]; cbn [event_ok do_event spec_event].
  - apply tree_ok. exact R.
  - intros (M & D & A). unfold setup_data. rewrite (proj2 (no_meta_plain _) M). cbn [h_ch]. rewrite (all_gone s l R D).
    apply tree_ok; [now apply empty_are|exact A].
  - intros H. destruct (s n) as [x|] eqn:E; [|congruence]. destruct (got s l n x R E) as (i & cc & F1 & F2 & F3 & F4 & F5).
    unfold dispatch. rewrite F1, Hspawn. eexists; split; [reflexivity|].
    eapply (upd_are s _ l i n cc _ _ R F2 F3); [reflexivity| | |].
    3: { intros m. apply (at_cl_is s n x); [exact E|reflexivity]. }
    + exact F4.
    + unfold cl_is in *. cbn in *. intuition.
Qed.
Theorem c119_options_follow_configuration_partial hs s l : opts_are s l -> history_ok s hs ->
  exists l', do_history hs l = ROk l' /\ opts_are (fold_left spec_event hs s) l'.
Proof.
  revert s l. induction hs as [|h hs IH]; intros s l R; cbn [history_ok do_history fold_left]; [intros _; eauto|].
  intros [A B]. destruct (event_are s l h R A) as (l1 & -> & R1). exact (IH _ l1 R1 B).
Qed.
End SYNC.

(** Starting from the server without Call Home clients. *)
Theorem c119_from_start_partial disp spawn other hs :
  (forall n, spawn n = true) -> (forall p o, other p o = true) -> history_ok disp (fun _ => None) hs ->
  exists l', do_history disp spawn other hs [] = ROk l' /\
             opts_are (fold_left (spec_event disp) hs (fun _ => None)) l'.
Proof. intros. apply c119_options_follow_configuration_partial; auto. now apply empty_are. Qed.

(* ------------------------------------------------------------------ *)
(** ** C120: order and failures *)

(** The nodes of a diff or of data in document order with the operation that
    holds for them; descendants of deleted nodes and nodes that are only on the
    way to others ("none") are left out; no operation is [None]. *)
Fixpoint visits (d : dnode) (anc : list dnode) (parent : option op) : list (list dnode * option op) :=
  match d with
  | DN _ _ m _ _ _ kids =>
      match own_op m parent with
      | None => [(d :: anc, None)]
      | Some ONone => flat_map (fun k => visits k (d :: anc) (Some ONone)) kids
      | Some ODelete => [(d :: anc, Some ODelete)]
      | Some o => (d :: anc, Some o) :: flat_map (fun k => visits k (d :: anc) (Some o)) kids
      end
  end.
Section ORDER.
Variable disp : bool.
Variable spawn : bytes -> bool.
Variable other : list dnode -> op -> bool.
Definition visit (v : list dnode * option op) (l : list client) : res :=
  match v with (p, Some o) => handle disp spawn other p o l | (_, None) => RFail l end.
Fixpoint run (vs : list (list dnode * option op)) (l : list client) : res :=
  match vs with
  | [] => ROk l
  | v :: r => match visit v l with ROk l1 => run r l1 | x => x end
  end.
Lemma run_app a b l : run (a ++ b) l = match run a l with ROk l1 => run b l1 | x => x end.
Proof. revert l. induction a as [|v a IH]; intros l; cbn [app run]; [reflexivity|]. destruct (visit v l); auto. Qed.

Lemma tree_run d : forall anc parent l, parse_tree disp spawn other d anc parent l = run (visits d anc parent) l.
Proof.
  induction d as [n il m st nu se kids IH] using dnode_ind2. intros anc parent l.
  cbn [visits parse_tree]. rewrite own_cur. set (d := DN n il m st nu se kids).
  destruct (own_op m parent) as [o|]; [|reflexivity].
  assert (KIDS : forall ks o l, Forall (fun d => forall anc parent l, parse_tree disp spawn other d anc parent l = run (visits d anc parent) l) ks -> (fix go (ks : list dnode) (l : list client) : res :=
                      match ks with
                      | [] => ROk l
                      | k :: r => match parse_tree disp spawn other k (d :: anc) (Some o) l with
                                  | ROk l2 => go r l2
                                  | x => x
                                  end
                      end) ks l = run (flat_map (fun k => visits k (d :: anc) (Some o)) ks) l).
  { clear. intros ks o. induction ks as [|k ks IHk]; intros l F; [reflexivity|]. inversion F as [|? ? F1 F2]; subst. cbn [flat_map].
    rewrite run_app, <- F1. destruct (parse_tree disp spawn other k (d :: anc) (Some o) l); auto. }
  destruct o; cbn [run visit act].
  - apply KIDS, IH.
  - destruct (handle disp spawn other (d :: anc) OCreate l); [apply KIDS, IH|reflexivity|reflexivity].
  - destruct (handle disp spawn other (d :: anc) ODelete l); reflexivity.
  - destruct (handle disp spawn other (d :: anc) OReplace l); [apply KIDS, IH|reflexivity|reflexivity].
Qed.

Lemma fail_same p o l l' : handle disp spawn other p o l = RFail l' ->
  l' = l \/ (exists d, hd_error p = Some d /\ d_name d = bs "netconf-client" /\ disp = true /\
             exists c, spawn c = false /\ l' = l ++ [new_cl c]).
Proof.
  destruct p as [|d anc]; [discriminate|]. unfold handle.
  assert (CL : forall q k, (forall i c, k i c = RFail l' -> l' = l) -> with_cl q l k = RFail l' -> l' = l).
  { intros q k HK. unfold with_cl. destruct (list_key q _ _); [|congruence]. destruct (find_cl l _) as [i|]; [|congruence].
    destruct (nth_error l i); [apply HK|congruence]. }
  assert (EP : forall q k, (forall i c j e, k i c j e = RFail l' -> l' = l) -> with_ep q l k = RFail l' -> l' = l).
  { intros q k HK. apply CL. intros i c. destruct (list_key q _ _); [|congruence]. destruct (find_ep _ _) as [j| |]; try congruence.
    destruct (nth_error _ j); [apply HK|congruence]. }
  assert (HC : forall f q, h_cl f q l = RFail l' -> l' = l) by (intros; eapply CL; [|eassumption]; discriminate).
  assert (HE : forall f q, h_ep f q l = RFail l' -> l' = l) by (intros; eapply EP; [|eassumption]; discriminate).
  destruct (beqb (d_name d) (bs "anchor-time")); [intros H; left; now apply HC in H|].
  destruct (beqb (d_name d) (bs "call-home")).
  { intros H. exfalso. destruct o; cbn [h_ch] in H; try discriminate. revert H. induction l as [|x l0 IH]; cbn [destroy_all]; [discriminate|].
    destruct (destroy_cl x); [discriminate|]. clear -l0. intros H. induction l0 as [|y l0 IH]; cbn [destroy_all] in H; [discriminate|].
    destruct (destroy_cl y); [discriminate|]. exact (IH H). }
  destruct (beqb (d_name d) (bs "endpoint")).
  { intros H. left. revert H. apply CL. intros i c. destruct o; try discriminate.
    - destruct (d_kids d); discriminate.
    - apply EP. intros i' c' j e. destruct (del_ep (c_eps c') j); discriminate. }
  destruct (beqb (d_name d) (bs "idle-timeout")); [intros H; left; now apply HC in H|].
  destruct (beqb (d_name d) (bs "max-attempts")); [intros H; left; now apply HC in H|].
  destruct (beqb (d_name d) (bs "max-wait")); [intros H; left; now apply HC in H|].
  destruct (beqb (d_name d) (bs "netconf-client")) eqn:EN.
  { intros H. destruct o; cbn [h_client] in H; try discriminate.
    - destruct (d_kids d) as [|k r]; [discriminate|]. destruct disp eqn:ED; [|discriminate].
      unfold dispatch in H. right. exists d. apply beqb_spec in EN. do 3 (split; [auto|]). exists (d_str k).
      assert (F := find_cl_get (l ++ [new_cl (d_str k)]) (d_str k)).
      destruct (find_cl _ _).
      + destruct (spawn (d_str k)); [discriminate|]. split; [reflexivity|congruence].
      + rewrite getc_app in F. destruct (getc (d_str k) l); [discriminate|]. cbn [c_name new_cl] in F. rewrite beqb_refl in F. discriminate.
    - unfold del_client in H. left. destruct (list_key _ _ _); [|discriminate]. destruct (find_cl l _) as [i|]; [|discriminate].
      destruct (nth_error l i) as [c|]; [|discriminate]. destruct (destroy_cl c); discriminate. }
  destruct (beqb (d_name d) (bs "period")); [intros H; left; now apply HC in H|].
  destruct (beqb (d_name d) (bs "periodic")); [intros H; left; destruct o; try discriminate; now apply HC in H|].
  destruct (beqb (d_name d) (bs "persistent")); [intros H; left; destruct o; try discriminate; now apply HC in H|].
  destruct (beqb (d_name d) (bs "reconnect-strategy")); [intros H; left; now apply HC in H|].
  destruct (beqb (d_name d) (bs "start-with")).
  { intros H. left. unfold h_startwith in H.
    destruct o; repeat (match type of H with context [if ?b then _ else _] => destruct b end); try (now apply HC in H); congruence. }
  destruct (beqb (d_name d) (bs "idle-time")); [intros H; left; destruct (equal_parent_name _ _ _); [now apply HE in H|discriminate]|].
  destruct (beqb (d_name d) (bs "keepalives")); [intros H; left; destruct (equal_parent_name _ _ _); [now apply HE in H|discriminate]|].
  destruct (beqb (d_name d) (bs "local-address")); [intros H; left; destruct (equal_parent_name _ _ _); [now apply HE in H|discriminate]|].
  destruct (beqb (d_name d) (bs "local-port")); [intros H; left; destruct (equal_parent_name _ _ _); [now apply HE in H|discriminate]|].
  destruct (beqb (d_name d) (bs "max-probes")); [intros H; left; destruct (equal_parent_name _ _ _); [now apply HE in H|discriminate]|].
  destruct (beqb (d_name d) (bs "probe-interval")); [intros H; left; destruct (equal_parent_name _ _ _); [now apply HE in H|discriminate]|].
  destruct (beqb (d_name d) (bs "remote-address")); [intros H; left; now apply HE in H|].
  destruct (beqb (d_name d) (bs "remote-port")); [intros H; left; now apply HE in H|].
  destruct (beqb (d_name d) (bs "ssh")).
  { intros H. left. revert H. apply EP. intros i c j e. destruct o; try discriminate. destruct (del_opts _ _); discriminate. }
  destruct (beqb (d_name d) (bs "tls")).
  { intros H. left. revert H. apply EP. intros i c j e. destruct o; try discriminate. destruct (del_opts _ _); discriminate. }
  destruct (other (d :: anc) o); [discriminate|]. intros [= ->]. now left.
Qed.

(** A diff or data are applied node by node; if that fails there is a first
    failing node, all the nodes before it were applied and none after it, and the
    failing node changed nothing – only a new client stays whose thread could not
    be created. *)
Theorem c120_applied_in_order d anc parent l :
  match parse_tree disp spawn other d anc parent l with
  | ROk l' => run (visits d anc parent) l = ROk l'
  | RFail l' => exists pre v post l1, visits d anc parent = pre ++ v :: post /\ run pre l = ROk l1 /\
      visit v l1 = RFail l' /\
      (l' = l1 \/ (disp = true /\ exists c, spawn c = false /\ l' = l1 ++ [new_cl c]))
  | RUb u => exists pre v post l1, visits d anc parent = pre ++ v :: post /\ run pre l = ROk l1 /\ visit v l1 = RUb u
  end.
Proof.
  rewrite tree_run. generalize (visits d anc parent). intros vs. revert l. induction vs as [|v vs IH]; intros l; cbn [run]; [reflexivity|].
  destruct (visit v l) as [l1|l1|u] eqn:E.
  - specialize (IH l1). destruct (run vs l1) as [l2|l2|u]; [reflexivity| |].
    + destruct IH as (pre & w & post & l3 & -> & H1 & H2). exists (v :: pre), w, post, l3. cbn [app run]. rewrite E. auto.
    + destruct IH as (pre & w & post & l3 & -> & H1 & H2). exists (v :: pre), w, post, l3. cbn [app run]. rewrite E. auto.
  - exists [], v, vs, l. repeat (split; [auto; fail|]). destruct v as [p [o|]]; cbn [visit] in E.
    + destruct (fail_same p o l l1 E) as [H|(d' & _ & _ & H)]; [now left|right; exact H].
    + left. congruence.
  - exists [], v, vs, l. auto.
Qed.

(** ** C121: whole data replace what was configured *)
Theorem c121_data_replace_everything d l1 l2 a b :
  setup_data disp spawn other d l1 = ROk a -> setup_data disp spawn other d l2 = ROk b -> a = b.
Proof.
  assert (A : forall l, h_ch ODelete l = ROk [] \/ exists u, h_ch ODelete l = RUb u).
  { intros l. cbn [h_ch]. induction l as [|c l IH]; cbn [destroy_all]; [now left|]. destruct (destroy_cl c); [right; eauto|exact IH]. }
  unfold setup_data. destruct (no_meta d); [|discriminate].
  destruct (A l1) as [-> |[u ->]]; [|discriminate]. destruct (A l2) as [-> |[u ->]]; [|discriminate]. congruence.
Qed.
(** Data in which a node says an operation are refused, and the clients stay as they are. *)
Theorem c121_operations_refused d l : (exists x, node_of x d /\ d_meta x <> None) -> setup_data disp spawn other d l = RFail l.
Proof.
  intros (x & X & N). unfold setup_data. destruct (no_meta d) eqn:M; [|reflexivity]. destruct N. apply (proj1 (no_meta_plain d) M x X).
Qed.
(** Data that fail for anything else: what is left does not depend on what was configured before. *)
Theorem c258_lost d l1 l2 a b : plain d -> setup_data disp spawn other d l1 = RFail a -> setup_data disp spawn other d l2 = RFail b -> a = b.
Proof.
  assert (A : forall l, h_ch ODelete l = ROk [] \/ exists u, h_ch ODelete l = RUb u).
  { intros l. cbn [h_ch]. induction l as [|c l IH]; cbn [destroy_all]; [now left|]. destruct (destroy_cl c); [right; eauto|exact IH]. }
  intros P. unfold setup_data. rewrite (proj2 (no_meta_plain d) P).
  destruct (A l1) as [-> |[u ->]]; [|discriminate]. destruct (A l2) as [-> |[u ->]]; [|discriminate]. congruence.
Qed.
(** The statement one would like: data that are refused change nothing. *)
Definition c258_full : Prop := forall d l l', setup_data disp spawn other d l = RFail l' -> l' = l.
End ORDER.

(* ------------------------------------------------------------------ *)
(** ** Histories of valid diffs that go wrong *)

Fixpoint history_yang (disp : bool) (s : conf) (hs : list event) : Prop :=
  match hs with
  | [] => True
  | h :: r => match h with
              | HDiff d => all_yang disp s (edits d [] None)
              | HData d => plain d /\ all_yang disp (fun _ => None) (edits d [] (Some OCreate))
              | HDispatch n => s n <> None
              end /\ history_yang disp (spec_event disp s h) r
  end.

Definition leaf nm v n := DN (bs nm) false None (bs v) n 0%Z [].
Definition cont_ nm op kids := DN (bs nm) false op [] 0 0%Z kids.
Definition list_ nm op key kids := DN (bs nm) true op [] 0 0%Z (leaf "name" key 0 :: kids).
Definition opm (s : string) := Some (bs s).
(** call-home / netconf-client "c" / endpoints / … *)
Definition in_client op kids := cont_ "call-home" (opm "none") [list_ "netconf-client" op "c" kids].
Definition in_eps kids := in_client None [cont_ "endpoints" None kids].
Definition tcp op kids := cont_ "ssh" op [cont_ "tcp-client-parameters" None kids].
Definition ep_new key addr port := list_ "endpoint" None key [tcp None [leaf "remote-address" addr 0; leaf "remote-port" "" port]].
Definition two : dnode :=
  in_client (opm "create")
    [cont_ "endpoints" None [ep_new "a" "10.0.0.1" 4334; ep_new "b" "10.0.0.2" 4335];
     cont_ "connection-type" None [cont_ "periodic" None [leaf "period" "30" 30]];
     cont_ "reconnect-strategy" None [leaf "start-with" "random-selection" 0; leaf "max-wait" "7" 7]].
Definition yes {A} (_ : A) := true.
Definition yes2 {A B} (_ : A) (_ : B) := true.

(** Deciding whether edits are valid, for the examples. *)
Definition inb (e : bytes) (x : scl) : bool := existsb (fun p => beqb (fst p) e) (sc_eps x).
Definition yang_okb (s : conf) (e : edit) : bool :=
  match e with
  | ENothing | EAllDel => true
  | EBad => false
  | ECliNew c => match s c with None => true | _ => false end
  | ECliDel c | EConnNew c _ | EConnDel c _ | ERec c => match s c with None => false | _ => true end
  | EEpNew c e => match s c with None => false | Some x => negb (inb e x) end
  | EEpDel c e | EEpMove c e | ETrNew c e _ | ETrDel c e _ | EKa c e _ | ELeafE c e _ _ =>
      match s c with None => false | Some x => inb e x end
  | ELeafC c l v => match s c with None => false | Some _ => true end &&
      match l, v with
      | LStart, Given x => existsb (beqb (v_str x)) [bs "first-listed"; bs "last-connected"; bs "random-selection"]
      | _, _ => true
      end
  end.
Definition goneb (t : tr) : bool := match t with TrGone => true | _ => false end.
Definition destroyableb (x : scl) : bool := sc_thr x && forallb (fun p => negb (goneb (se_tr (snd p)))) (sc_eps x).
Definition safeb (s : conf) (e : edit) : bool :=
  match e with
  | ECliDel c => match s c with Some x => destroyableb x | None => true end
  | EAllDel => false
  | EEpDel c e => match s c with
                  | Some x => match rev (sc_eps x) with
                              | (n, y) :: _ => beqb n e && negb (goneb (se_tr y))
                              | [] => false
                              end
                  | None => true
                  end
  | ETrDel c e k => match s c with
                    | Some x => forallb (fun p => negb (beqb (fst p) e) ||
                        match se_tr (snd p) with TrIs k' => if trk_dec k' k then true else false | _ => false end) (sc_eps x)
                    | None => true
                    end
  | _ => true
  end.
Lemma inb_ok e x : inb e x = true <-> In e (map fst (sc_eps x)).
Proof.
  unfold inb. rewrite existsb_exists, in_map_iff. split.
  - intros (p & H1 & H2). exists p. apply beqb_spec in H2. auto.
  - intros (p & H1 & H2). exists p. split; [exact H2|]. now apply beqb_spec.
Qed.
Lemma yang_okb_ok s e : yang_okb s e = true -> yang_ok s e.
Proof.
  destruct e; cbn [yang_okb yang_ok]; unfold has_ep; try tauto; try discriminate.
  all: try (destruct (s c) as [x|] eqn:E; [|discriminate]); try congruence; try (intros; congruence).
  all: try (intros H; exists x; split; [reflexivity|]; apply inb_ok; exact H).
  - destruct (s c); [discriminate|reflexivity].
  - intros H. exists x. split; [reflexivity|]. intros HI. apply inb_ok in HI. rewrite HI in H. discriminate.
  - cbn [andb]. intros H. split; [congruence|]. intros -> y ->. apply existsb_exists in H. destruct H as (z & H1 & H2).
    apply beqb_spec in H2. now rewrite H2.
Qed.
Lemma gone_not t : negb (goneb t) = true -> t <> TrGone.
Proof. now destruct t. Qed.
Lemma safeb_ok s e : safeb s e = true -> safe s e.
Proof.
  destruct e; cbn [safeb safe]; try tauto; try discriminate.
  - intros H x E. rewrite E in H. apply andb_prop in H. destruct H as [H1 H2]. split; [exact H1|].
    apply Forall_forall. intros p HI. apply gone_not. rewrite forallb_forall in H2. now apply H2.
  - intros H x E. rewrite E in H. destruct (rev (sc_eps x)) as [|[n y] r] eqn:R; [discriminate|].
    apply andb_prop in H. destruct H as [H1 H2]. apply beqb_spec in H1. subst n. exists (rev r), y.
    split; [|now apply gone_not]. rewrite <- (rev_involutive (sc_eps x)), R. reflexivity.
  - intros H x y E HI. rewrite E in H. rewrite forallb_forall in H. specialize (H _ HI). cbn [fst snd] in H.
    rewrite beqb_refl in H. cbn [negb orb] in H. destruct (se_tr y) as [|k'|]; try discriminate. destruct (trk_dec k' k); [congruence|discriminate].
Qed.
Fixpoint all_okb (thr : bool) (s : conf) (es : list edit) : bool :=
  match es with
  | [] => true
  | e :: r => yang_okb s e && safeb s e && all_okb thr (do_edit thr s e) r
  end.
Fixpoint all_yangb (thr : bool) (s : conf) (es : list edit) : bool :=
  match es with
  | [] => true
  | e :: r => yang_okb s e && all_yangb thr (do_edit thr s e) r
  end.
Lemma all_okb_ok thr s es : all_okb thr s es = true -> all_ok thr s es.
Proof.
  revert s. induction es as [|e es IH]; intros s; cbn [all_okb all_ok]; [auto|]. intros H.
  apply andb_prop in H. destruct H as [H H3]. apply andb_prop in H. destruct H as [H1 H2].
  split; [now apply yang_okb_ok|]. split; [now apply safeb_ok|auto].
Qed.
Lemma all_yangb_ok thr s es : all_yangb thr s es = true -> all_yang thr s es.
Proof.
  revert s. induction es as [|e es IH]; intros s; cbn [all_yangb all_yang]; [auto|]. intros H.
  apply andb_prop in H. destruct H as [H1 H2]. split; [now apply yang_okb_ok|auto].
Qed.
Ltac yang := cbn [history_yang spec_event]; repeat (match goal with
  | |- True => exact Logic.I
  | |- _ /\ _ => split
  | |- all_yang _ _ _ => apply all_yangb_ok; vm_compute; reflexivity
  end).

(** An endpoint that is not the last one is removed: the entry whose memory was
    released stays and the other one is lost. *)
Definition del_a : dnode := in_eps [list_ "endpoint" (opm "delete") "a" []].
Definition port_b : dnode :=
  in_eps [list_ "endpoint" None "b" [tcp (opm "none") [DN (bs "remote-port") false (opm "replace") (bs "9") 9 0%Z []]]].
Theorem c119_endpoint_removal_refuted :
  history_yang true (fun _ => None) [HDiff two; HDiff del_a; HDiff port_b] /\
  (exists c, do_history true yes yes2 [HDiff two; HDiff del_a] [] = ROk [c] /\
             map e_name (c_eps c) = [bs "a"] /\ map e_freed (c_eps c) = [true]) /\
  do_history true yes yes2 [HDiff two; HDiff del_a; HDiff port_b] [] = RUb UseFreed.
Proof.
  split; [|split].
  - yang.
  - eexists. split; [vm_compute; reflexivity|]. split; reflexivity.
  - vm_compute. reflexivity.
Qed.
(** Removing a client that has no thread dereferences NULL. *)
Definition del_c : dnode := in_client (opm "delete") [].
Theorem c119_no_thread_refuted :
  history_yang false (fun _ => None) [HDiff two; HDiff del_c] /\
  do_history false yes yes2 [HDiff two; HDiff del_c] [] = RUb NullDeref /\
  do_history false yes yes2 [HDiff two; HData (cont_ "call-home" None [])] [] = RUb NullDeref.
Proof. split; [yang|]. split; vm_compute; reflexivity. Qed.
(** The transport changes from TLS to SSH; the nodes of a diff are in the order
    of the schema. *)
Definition tls_ep : dnode := in_client (opm "create") [cont_ "endpoints" None [list_ "endpoint" None "a" [cont_ "tls" None []]]].
Definition tls_to_ssh : dnode :=
  in_eps [list_ "endpoint" (opm "none") "a" [cont_ "ssh" (opm "create") []; cont_ "tls" (opm "delete") []]].
Theorem c119_transport_change_refuted :
  history_yang true (fun _ => None) [HDiff tls_ep; HDiff tls_to_ssh] /\
  do_history true yes yes2 [HDiff tls_ep; HDiff tls_to_ssh] [] = RUb WrongType.
Proof. split; [yang|]. vm_compute; reflexivity. Qed.
(** max-wait is 0 and not its default 5 if a diff that creates a client does not
    mention reconnect-strategy, and so are the keepalive parameters. *)
Theorem c119_defaults_refuted :
  history_yang true (fun _ => None) [HDiff tls_ep] /\
  exists c e, do_history true yes yes2 [HDiff tls_ep] [] = ROk [c] /\ c_wait c = 0 /\ c_eps c = [e] /\ e_idle e = 0.
Proof. split; [yang|]. do 2 eexists. split; [vm_compute; reflexivity|]. repeat split; reflexivity. Qed.

(** ** The hypotheses are met by *)
Definition del_b : dnode := in_eps [list_ "endpoint" (opm "delete") "b" []].
Definition persist : dnode :=
  in_client None [cont_ "connection-type" None [cont_ "persistent" (opm "create") []; cont_ "periodic" (opm "delete") []];
    cont_ "reconnect-strategy" None [DN (bs "max-wait") false (opm "delete") (bs "7") 7 0%Z []; DN (bs "max-attempts") false (opm "create") (bs "4") 4 0%Z []]].
Definition two_data : dnode :=
  cont_ "call-home" None [list_ "netconf-client" None "c"
    [cont_ "endpoints" None [ep_new "a" "10.0.0.1" 4334; ep_new "b" "10.0.0.2" 4335];
     cont_ "connection-type" None [cont_ "periodic" None [leaf "period" "30" 30]];
     cont_ "reconnect-strategy" None [leaf "start-with" "random-selection" 0; leaf "max-wait" "7" 7]]].
Example ex_history : history_ok true (fun _ => None) [HData two_data; HDiff persist; HDiff del_b; HDiff del_c; HDiff two].
Proof.
  cbn [history_ok event_ok spec_event].
  split; [split; [apply no_meta_plain; reflexivity|split; [discriminate|apply all_okb_ok; vm_compute; reflexivity]]|].
  repeat (split; [apply all_okb_ok; vm_compute; reflexivity|]). exact Logic.I.
Qed.
Example ex_dispatch : history_ok false (fun _ => None) [HDiff two; HDispatch (bs "c")].
Proof.
  cbn [history_ok event_ok spec_event]. split; [apply all_okb_ok; vm_compute; reflexivity|]. split; [|exact Logic.I].
  assert (E : match fold_left (do_edit false) (edits two [] None) (fun _ => None) (bs "c") with None => false | _ => true end = true)
    by (vm_compute; reflexivity).
  intros H. rewrite H in E. discriminate E.
Qed.
Example ex_two : exists c, do_history true yes yes2 [HDiff two; HDiff persist; HDiff del_b] [] = ROk [c] /\
  map (fun e => (e_name e, e_dst e, e_dport e, e_ti e)) (c_eps c) = [(bs "a", Some (bs "10.0.0.1"), 4334, TSsh)] /\
  c_conn c = CPersist /\ c_start c = SRandom /\ c_wait c = 5 /\ c_attempts c = 4.
Proof. eexists. split; [vm_compute; reflexivity|]. repeat split; reflexivity. Qed.
(** A node after the failing one is not applied. *)
Example ex_fail : exists c, parse_tree true yes (fun _ _ => false)
    (in_client (opm "create") [cont_ "connection-type" None [cont_ "persistent" None []]; leaf "max-wait" "9" 9]) [] None [] = RFail [c] /\
  c_conn c = CUnset /\ c_wait c = 0.
Proof. eexists. split; [vm_compute; reflexivity|]. split; reflexivity. Qed.
Example ex_data : setup_data true yes yes2 (cont_ "call-home" None []) [set_thread true (new_cl (bs "c"))] = ROk [] /\
                  setup_data true yes yes2 (cont_ "call-home" None []) [] = ROk [].
Proof. split; reflexivity. Qed.
(** Data with a node whose content cannot be used: the client there was is gone. *)
Definition bad_data : dnode := cont_ "call-home" None [list_ "netconf-client" None "c" [cont_ "connection-type" None [cont_ "persistent" None []]; leaf "max-wait" "9" 9]].
Lemma bad_plain : plain bad_data.
Proof. apply no_meta_plain. reflexivity. Qed.
Theorem c258_full_refuted : ~ c258_full true yes (fun _ _ => false) /\
  match setup_data true yes (fun _ _ => false) bad_data [set_thread true (new_cl (bs "old"))] with RFail l => map c_name l = [bs "c"] | _ => False end.
Proof.
  assert (E : match setup_data true yes (fun _ _ => false) bad_data [set_thread true (new_cl (bs "old"))] with RFail l => map c_name l = [bs "c"] | _ => False end)
    by (vm_compute; reflexivity).
  split; [|exact E]. intros F. unfold c258_full in F. destruct (setup_data _ _ _ bad_data _) as [l|l|u] eqn:X in E; try contradiction.
  apply F in X. subst l. discriminate E.
Qed.

(** Options are released without undefined behaviour exactly as what they are. *)
Theorem c119_options want o : want <> OFreed -> (del_opts want o = None <-> o = Some want).
Proof. intros W. destruct o as [[| |]|], want; cbn; split; intros H; congruence. Qed.

(** Removing a client is defined exactly when releasing each of its endpoints is. *)
Theorem c119_each_endpt l : free_eps l = None <-> forall e, In e l -> free_ep e = None.
Proof.
  induction l as [|e l IH]; cbn [free_eps In]; [tauto|]. destruct (free_ep e) as [u|] eqn:F.
  - split; [discriminate|]. intros H. rewrite <- F. apply H. auto.
  - rewrite IH. split.
    + intros H x [<-|I]; auto.
    + intros H x I. apply H. auto.
Qed.

Print Assumptions c119_options_follow_configuration_partial.
Print Assumptions c119_from_start_partial.
Print Assumptions c120_applied_in_order.
Print Assumptions c121_data_replace_everything.
Print Assumptions c121_operations_refused.
Print Assumptions c258_lost.
Print Assumptions c258_full_refuted.
Print Assumptions c119_endpoint_removal_refuted.
Print Assumptions c119_no_thread_refuted.
Print Assumptions c119_transport_change_refuted.
Print Assumptions c119_defaults_refuted.
Print Assumptions c119_options.
Print Assumptions c119_each_endpt.
