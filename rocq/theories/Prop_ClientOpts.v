(** Properties of the options of a client (C194-C198). *)
From Coq Require Import Ascii String ZArith List Bool Lia.
From Verif Require Import Bytes ClientOpts.
From Verif Require ClientSsh Prop_ClientSsh.
Local Notation tried := Prop_ClientSsh.tried.
Local Notation anyhost := Prop_ClientSsh.anyhost.
Local Notation c86_order := Prop_ClientSsh.c86_order.
Import ListNotations.

(* ------------------------------------------------------------------ *)
(** ** Specification: the options without any memory *)

(** Every option has a value or none; every side has a list of pairs. *)
Record opts := mkOpts { o_str : fld -> option bytes; o_keys : side -> list ClientSsh.keypair }.
Definition fresh_opts : opts := mkOpts (fun _ => None) (fun _ => []).
Definition put (o : opts) f x : opts := mkOpts (fun g => if fld_eqb g f then x else o_str o g) (o_keys o).
Definition putk (o : opts) d l : opts := mkOpts (o_str o) (fun e => if side_eqb e d then l else o_keys o e).
Definition kint (r : ClientSsh.kres) : res := RInt (match r with ClientSsh.KOk => 0 | _ => -1 end)%Z.

(** What a call gives and what it leaves; a value that cannot be stored is lost, together with the one before. *)
Definition spec (c : call) (o : opts) : res * opts :=
  let one e f (ok : bool) x :=
    match x with
    | None => (RInt 0, put o f None)
    | Some _ => if ok then (RInt 0, put o f x) else (RInt e, put o f None)
    end in
  match c with
  | Search ok x => one 1%Z FSearch ok x
  | Known d ok x => one 1%Z (FKnown d) ok x
  | User d ok x => one (-1)%Z (FUser d) ok x
  | Cert d _ ok2 c k =>
    match c with
    | None => (RInt (-1), o)
    | Some _ =>
      match k with
      | None => (RInt 0, put (put o (FCert d) c) (FKey d) None)
      | Some _ => if ok2 then (RInt 0, put (put o (FCert d) c) (FKey d) k) else (RInt (-1), put (put o (FCert d) c) (FKey d) None)
      end
    end
  | Ca d _ ok2 c k =>
    match c, k with
    | None, None => (RInt (-1), o)
    | _, None => (RInt 0, put (put o (FCaFile d) c) (FCaDir d) None)
    | _, Some _ => if ok2 then (RInt 0, put (put o (FCaFile d) c) (FCaDir d) k) else (RInt (-1), put (put o (FCaFile d) c) (FCaDir d) None)
    end
  | AddKey d _ real file pu pr =>
    match pu, pr with
    | Some pu, Some pr => let '(r, l) := ClientSsh.add_pair real file (o_keys o d) pu pr in (kint r, putk o d l)
    | _, _ => (RInt (-1), o)
    end
  | DelKey d _ idx => let '(r, l) := ClientSsh.del_pair (o_keys o d) idx in (kint r, putk o d l)
  | Get f => (RStr (o_str o f), o)
  | GetKey d idx => (RKeys (snd (ClientSsh.get_pair (o_keys o d) idx)), o)
  | Count d => (RInt (Z.of_nat (length (o_keys o d))), o)
  | Destroy => (RVoid, fresh_opts)
  end.
Fixpoint specs (cs : list call) (o : opts) : list res * opts :=
  match cs with
  | [] => ([], o)
  | c :: cs => let '(r, o) := spec c o in let '(rs, o) := specs cs o in (r :: rs, o)
  end.

(** The calls below: no index is negative, and there is memory for the first string of two and for the table of pairs. *)
Definition harmless (c : call) : Prop :=
  match c with
  | Cert _ ok1 _ _ _ => ok1 = true
  | Ca _ ok1 _ c _ => ok1 = true \/ c = None
  | AddKey _ ok _ _ _ _ => ok = true
  | DelKey _ ok idx => ok = true /\ (0 <= idx)%Z
  | GetKey _ idx => (0 <= idx)%Z
  | _ => True
  end.

(* ------------------------------------------------------------------ *)
(** ** Who owns what *)

Inductive owner := OF (f : fld) | OT (d : side) | OPub (d : side) (i : nat) | OPriv (d : side) (i : nat).
Definition owner_dec (a b : owner) : {a = b} + {a <> b}.
Proof. repeat decide equality. Defined.

Definition owns := owner -> option (nat * block).
Record Own (w : owns) (s : st) : Prop := {
  o_live : forall o a b, w o = Some (a, b) -> heap s a = Some b;
  o_inj : forall o o' a b b', w o = Some (a, b) -> w o' = Some (a, b') -> o = o';
  o_all : forall a b, heap s a = Some b -> exists o, w o = Some (a, b);
  o_new : forall a b, heap s a = Some b -> a < nxt s }.
Definition wset (w : owns) o v : owns := fun x => if owner_dec x o then v else w x.
Local Arguments wset : simpl never.

Lemma wset_eq w o v : wset w o v o = v.
Proof. unfold wset. now destruct (owner_dec o o). Qed.
Lemma wset_ne w o v x : x <> o -> wset w o v x = w x.
Proof. unfold wset. now destruct (owner_dec x o). Qed.
Lemma upd_eq {A} (h : nat -> A) a v : upd h a v a = v.
Proof. unfold upd. now rewrite PeanoNat.Nat.eqb_refl. Qed.
Lemma upd_ne {A} (h : nat -> A) a v x : x <> a -> upd h a v x = h x.
Proof. unfold upd. intros N. destruct (PeanoNat.Nat.eqb_spec x a); congruence. Qed.

Lemma own_same w s s' : Own w s -> heap s' = heap s -> nxt s' = nxt s -> Own w s'.
Proof. intros [a b c d] H N. split; rewrite ?H, ?N; eauto. Qed.

(** free(): the owner of a block, or NULL, can be released. *)
Lemma own_free w s o : Own w s -> exists s', free (option_map fst (w o)) s = Some s' /\ Own (wset w o None) s' /\
  nxt s' = nxt s /\ strs s' = strs s /\ keys s' = keys s /\ kcnt s' = kcnt s.
Proof.
  intros W. destruct (w o) as [[a b]|] eqn:E; cbn.
  - rewrite (o_live _ _ W _ _ _ E). eexists. split; [reflexivity|]. split; [|cbn; auto]. destruct W as [L I A N]. split; cbn.
    + intros o' a' b' H. unfold wset in H. destruct (owner_dec o' o) as [|Ne]; [discriminate|].
      rewrite upd_ne; [eauto|]. intros Z. subst a'. apply Ne. eapply I; eauto.
    + intros o1 o2 a' b1 b2 H1 H2. unfold wset in *. destruct (owner_dec o1 o); [discriminate|]. destruct (owner_dec o2 o); [discriminate|]. eauto.
    + intros a' b' H. unfold upd in H. destruct (PeanoNat.Nat.eqb_spec a' a) as [|Ne]; [discriminate|].
      destruct (A _ _ H) as [o' H']. exists o'. rewrite wset_ne; [assumption|]. intros Z. subst o'. rewrite E in H'. congruence.
    + intros a' b' H. unfold upd in H. destruct (PeanoNat.Nat.eqb_spec a' a); [discriminate|]. eauto.
  - exists s. split; [reflexivity|]. split; [|auto]. destruct W as [L I A N].
    assert (Q : forall x, wset w o None x = w x) by (intros x; unfold wset; destruct (owner_dec x o); [subst; now rewrite E|reflexivity]).
    split; intros *; rewrite ?Q; eauto. intros H. destruct (A _ _ H) as [o' H']. exists o'. now rewrite Q.
Qed.

Lemma own_alloc w s o b : Own w s -> w o = None -> Own (wset w o (Some (nxt s, b))) (snd (alloc b s)).
Proof.
  intros [L I A N] E. split; cbn.
  - intros o' a' b' H. unfold wset in H. destruct (owner_dec o' o).
    + injection H as <- <-. apply upd_eq.
    + rewrite upd_ne; [eauto|]. intros Z. subst a'. apply L in H. apply N in H. lia.
  - intros o1 o2 a' b1 b2 H1 H2. unfold wset in *. destruct (owner_dec o1 o), (owner_dec o2 o); subst; eauto.
    + injection H1 as <- <-. apply L in H2. apply N in H2. lia.
    + injection H2 as <- <-. apply L in H1. apply N in H1. lia.
  - intros a' b' H. unfold upd in H. destruct (PeanoNat.Nat.eqb_spec a' (nxt s)).
    + injection H as <-. subst. exists o. now rewrite wset_eq.
    + destruct (A _ _ H) as [o' H']. exists o'. rewrite wset_ne; [assumption|]. congruence.
  - intros a' b' H. unfold upd in H. destruct (PeanoNat.Nat.eqb_spec a' (nxt s)); [lia|]. apply N in H. lia.
Qed.

(** Writing into a block. *)
Lemma own_write w s o a b b' : Own w s -> w o = Some (a, b) -> Own (wset w o (Some (a, b'))) (set_heap s (upd (heap s) a (Some b'))).
Proof.
  intros [L I A N] E. split; cbn.
  - intros o' a' c H. unfold wset in H. destruct (owner_dec o' o) as [|Ne].
    + injection H as <- <-. apply upd_eq.
    + rewrite upd_ne; [eauto|]. intros Z. subst a'. apply Ne. eauto.
  - intros o1 o2 a' b1 b2 H1 H2. unfold wset in *. destruct (owner_dec o1 o), (owner_dec o2 o); subst; eauto.
    + injection H1 as <- <-. eauto.
    + injection H2 as <- <-. eauto.
  - intros a' c H. unfold upd in H. destruct (PeanoNat.Nat.eqb_spec a' a).
    + injection H as <-. subst. exists o. now rewrite wset_eq.
    + destruct (A _ _ H) as [o' H']. exists o'. rewrite wset_ne; [assumption|]. congruence.
  - intros a' c H. unfold upd in H. destruct (PeanoNat.Nat.eqb_spec a' a); [subst; eauto|eauto].
Qed.

(** A block changes its owner. *)
Lemma own_move w s o p : Own w s -> o <> p -> w p = None -> Own (wset (wset w p (w o)) o None) s.
Proof.
  intros [L I A N] D E. split.
  - intros x a b H. unfold wset in H. destruct (owner_dec x o); [discriminate|]. destruct (owner_dec x p); eauto.
  - intros x y a b b' H1 H2. unfold wset in *.
    destruct (owner_dec x o); [discriminate|]. destruct (owner_dec y o); [discriminate|].
    destruct (owner_dec x p), (owner_dec y p); subst; eauto.
    + exfalso. apply n0. eauto.
    + exfalso. apply n. eauto.
  - intros a b H. destruct (A _ _ H) as [x X]. destruct (owner_dec x o).
    + subst. exists p. rewrite wset_ne by congruence. now rewrite wset_eq.
    + exists x. rewrite wset_ne by assumption. rewrite wset_ne; [assumption|]. congruence.
  - eauto.
Qed.

Lemma own_eq w w' s : Own w s -> (forall o, w' o = w o) -> Own w' s.
Proof.
  intros [L I A N] Q. split.
  - intros o a b. rewrite Q. eauto.
  - intros o o' a b b'. rewrite !Q. eauto.
  - intros a b H. destruct (A _ _ H) as [o O]. exists o. now rewrite Q.
  - eauto.
Qed.

(** What the fields of the options say. *)
Definition fld_ok (w : owns) (s : st) (o : opts) (f : fld) : Prop :=
  strs s f = option_map fst (w (OF f)) /\ option_map snd (w (OF f)) = option_map BStr (o_str o f).
Definition side_ok (w : owns) (s : st) (L : list ClientSsh.keypair) (d : side) : Prop :=
  kcnt s d = length L /\ keys s d = option_map fst (w (OT d)) /\
  match w (OT d) with
  | None => L = []
  | Some (_, b) => exists l, b = BKeys l /\ forall i k, nth_error L i = Some k ->
      exists x y, nth_error l i = Some (Some (mkKey (Some x) (Some y) (ClientSsh.crypt k))) /\
                  w (OPub d i) = Some (x, BStr (ClientSsh.pub k)) /\ w (OPriv d i) = Some (y, BStr (ClientSsh.priv k))
  end /\
  forall i, length L <= i -> w (OPub d i) = None /\ w (OPriv d i) = None.
Record Rep (w : owns) (s : st) (o : opts) : Prop := {
  r_own : Own w s;
  r_str : forall f, fld_ok w s o f;
  r_key : forall d, side_ok w s (o_keys o d) d }.

Lemma fld_eqb_spec a b : fld_eqb a b = true <-> a = b.
Proof. destruct a as [|[]|[]|[]|[]|[]|[]], b as [|[]|[]|[]|[]|[]|[]]; cbn; split; congruence. Qed.
Lemma fld_eqb_refl a : fld_eqb a a = true.
Proof. now apply fld_eqb_spec. Qed.
Lemma fld_eqb_ne a b : a <> b -> fld_eqb a b = false.
Proof. intros N. destruct (fld_eqb a b) eqn:E; [|reflexivity]. apply fld_eqb_spec in E. contradiction. Qed.
Lemma side_eqb_refl a : side_eqb a a = true.
Proof. now destruct a. Qed.
Lemma side_eqb_spec a b : side_eqb a b = true <-> a = b.
Proof. destruct a, b; cbn; split; congruence. Qed.
Lemma side_eqb_ne a b : a <> b -> side_eqb a b = false.
Proof. destruct a, b; cbn; congruence. Qed.

Lemma rep_init : Rep (fun _ => None) init fresh_opts.
Proof.
  split.
  - split; cbn; congruence.
  - intros f. split; reflexivity.
  - intros d. repeat split; reflexivity.
Qed.

(* ------------------------------------------------------------------ *)
(** ** Strings *)

(** Some fields, [X], point to what was released. *)
Record RepX (X : list fld) (w : owns) (s : st) (o : opts) : Prop := {
  x_own : Own w s;
  x_str : forall f, ~ In f X -> fld_ok w s o f;
  x_hole : forall f, In f X -> w (OF f) = None;
  x_key : forall d, side_ok w s (o_keys o d) d }.

Lemma repx_nil w s o : Rep w s o <-> RepX [] w s o.
Proof. split; intros [A B C]; split; auto. contradiction. Qed.

Lemma repx_swap a b X w s o : RepX (a :: b :: X) w s o -> RepX (b :: a :: X) w s o.
Proof.
  intros [A B C D]. split; auto.
  - intros f H. apply B. cbn in *. tauto.
  - intros f H. apply C. cbn in *. tauto.
Qed.

Lemma side_keep w s L d s' w' : side_ok w s L d -> kcnt s' = kcnt s -> keys s' = keys s ->
  (forall o, (forall f, o <> OF f) -> w' o = w o) -> side_ok w' s' L d.
Proof.
  intros (C & K & M & N) HC HK HW. unfold side_ok. rewrite HC, HK, (HW (OT d)) by discriminate. repeat split; auto.
  - destruct (w (OT d)) as [[a b]|]; [|assumption]. destruct M as (l & E & M). exists l. split; [assumption|]. intros i k H.
    destruct (M i k H) as (x & y & A & B & D). exists x, y. rewrite !HW by discriminate. auto.
  - rewrite HW by discriminate. now apply N.
  - rewrite HW by discriminate. now apply N.
Qed.

Lemma hole X w s o f : RepX X w s o -> ~ In f X ->
  exists s' w', free (strs s f) s = Some s' /\ RepX (f :: X) w' s' o /\ strs s' = strs s.
Proof.
  intros [A B C D] N. destruct (B f N) as [P _]. rewrite P. destruct (own_free w s (OF f) A) as (s' & F & W & E1 & E2 & E3 & E4).
  exists s', (wset w (OF f) None). split; [assumption|]. split; [|assumption]. split.
  - assumption.
  - intros g Hg. cbn in Hg. unfold fld_ok. rewrite E2, wset_ne by (intros Z; injection Z as ->; tauto). apply B. tauto.
  - intros g [Hg|Hg]; [subst; apply wset_eq|]. unfold wset. destruct (owner_dec (OF g) (OF f)); [reflexivity|auto].
  - intros d. eapply side_keep; eauto. intros x Hx. apply wset_ne. apply Hx.
Qed.

Lemma fill X w s o f ok x : RepX (f :: X) w s o -> ~ In f X ->
  exists w', let '(p, s') := strdup ok x s in
    p = (if ok then Some (nxt s) else None) /\ RepX X w' (set_str s' f p) (put o f (if ok then Some x else None)) /\
    (forall g, g <> f -> strs (set_str s' f p) g = strs s g).
Proof.
  intros [A B C D] N. unfold strdup. destruct ok; cbn.
  - pose proof (own_alloc w s (OF f) (BStr x) A (C f (or_introl eq_refl))) as W.
    exists (wset w (OF f) (Some (nxt s, BStr x))). split; [reflexivity|]. split; [split|].
    + eapply own_same; [exact W|reflexivity|reflexivity].
    + intros g Hg. unfold fld_ok. cbn. destruct (fld_eqb g f) eqn:E.
      * apply fld_eqb_spec in E. subst. rewrite wset_eq. auto.
      * assert (g <> f) by (intros ->; now rewrite fld_eqb_refl in E). rewrite wset_ne by congruence. apply B. cbn. intros [|]; [congruence|auto].
    + intros g Hg. rewrite wset_ne by (intros Z; injection Z as ->; tauto). apply C. now right.
    + intros d. eapply side_keep; [apply D|reflexivity|reflexivity|]. intros y Hy. apply wset_ne. apply Hy.
    + intros g Hg. now rewrite fld_eqb_ne.
  - exists w. split; [reflexivity|]. split; [split|].
    + eapply own_same; [exact A|reflexivity|reflexivity].
    + intros g Hg. unfold fld_ok. cbn. destruct (fld_eqb g f) eqn:E.
      * apply fld_eqb_spec in E. subst. rewrite C by now left. auto.
      * apply B. cbn. intros [H|H]; [|tauto]. subst. now rewrite fld_eqb_refl in E.
    + intros g Hg. apply C. now right.
    + intros d. eapply side_keep; [apply D|reflexivity|reflexivity|reflexivity].
    + intros g Hg. now rewrite fld_eqb_ne.
Qed.

Lemma fill0 X w s o f : RepX (f :: X) w s o -> ~ In f X -> RepX X w (set_str s f None) (put o f None) /\
  (forall g, g <> f -> strs (set_str s f None) g = strs s g).
Proof.
  intros [A B C D] N. split; [split|].
  - eapply own_same; [exact A|reflexivity|reflexivity].
  - intros g Hg. unfold fld_ok. cbn. destruct (fld_eqb g f) eqn:E.
    + apply fld_eqb_spec in E. subst. rewrite C by now left. auto.
    + apply B. cbn. intros [H|H]; [|tauto]. subst. now rewrite fld_eqb_refl in E.
  - intros g Hg. apply C. now right.
  - intros d. eapply side_keep; [apply D|reflexivity|reflexivity|reflexivity].
  - intros g Hg. cbn. now rewrite fld_eqb_ne.
Qed.

Lemma set_one_ok e f ok x w s o : Rep w s o ->
  exists r s' w', set_one e f ok x s = Some (r, s') /\
    r = (match x with Some _ => if ok then 0 else e | None => 0 end)%Z /\
    Rep w' s' (put o f (match x with Some _ => if ok then x else None | None => None end)).
Proof.
  intros R. rewrite repx_nil in R. destruct (hole _ _ _ _ f R (fun z => z)) as (s1 & w1 & F & R1 & _). unfold set_one. rewrite F.
  destruct x as [x|].
  - destruct (fill [] w1 s1 o f ok x R1 (fun z => z)) as [w2 R2]. destruct (strdup ok x s1) as [p s2]. destruct R2 as (P & R2 & _).
    rewrite <- repx_nil in R2. do 3 eexists. split; [reflexivity|]. split; [subst p; now destruct ok|]. destruct ok; exact R2.
  - destruct (fill0 _ _ _ _ _ R1 (fun z => z)) as [R2 _]. rewrite <- repx_nil in R2. do 3 eexists. split; [reflexivity|]. split; [reflexivity|exact R2].
Qed.

Lemma set_cert_ok d ok2 c k w s o : Rep w s o ->
  exists r s' w', set_cert d true ok2 c k s = Some (r, s') /\ spec (Cert d true ok2 c k) o = (RInt r, snd (spec (Cert d true ok2 c k) o)) /\
    Rep w' s' (snd (spec (Cert d true ok2 c k) o)).
Proof.
  intros R. unfold set_cert, spec. destruct c as [c|]; [|do 3 eexists; split; [reflexivity|]; split; [reflexivity|exact R]].
  rewrite repx_nil in R. destruct (hole _ _ _ _ (FCert d) R (fun z => z)) as (s1 & w1 & F & R1 & E1). rewrite F.
  assert (N1 : ~ In (FKey d) [FCert d]) by (intros [H|[]]; discriminate).
  destruct (hole _ _ _ _ (FKey d) R1 N1) as (s2 & w2 & F2 & R2 & E2). rewrite F2. apply repx_swap in R2.
  assert (N2 : ~ In (FCert d) [FKey d]) by (intros [H|[]]; discriminate).
  destruct (fill _ w2 s2 o (FCert d) true c R2 N2) as [w3 R3]. destruct (strdup true c s2) as [p s3]. destruct R3 as (P & R3 & _). subst p.
  destruct k as [k|].
  - destruct (fill [] w3 _ _ (FKey d) ok2 k R3 (fun z => z)) as [w4 R4].
    match type of R4 with let '(_, _) := ?t in _ => destruct t as [q s4] end. destruct R4 as (Q & R4 & _). rewrite <- repx_nil in R4.
    do 3 eexists. split; [reflexivity|]. subst q. destruct ok2; split; [reflexivity|exact R4|reflexivity|exact R4].
  - destruct (fill0 _ _ _ _ _ R3 (fun z => z)) as [R4 _]. rewrite <- repx_nil in R4. do 3 eexists. split; [reflexivity|]. split; [reflexivity|exact R4].
Qed.

Lemma set_ca_ok d ok1 ok2 c k w s o : ok1 = true \/ c = None -> Rep w s o ->
  exists r s' w', set_ca d ok1 ok2 c k s = Some (r, s') /\ spec (Ca d ok1 ok2 c k) o = (RInt r, snd (spec (Ca d ok1 ok2 c k) o)) /\
    Rep w' s' (snd (spec (Ca d ok1 ok2 c k) o)).
Proof.
  intros OK R. destruct c as [c|], k as [k|]; [| | |do 3 eexists; split; [reflexivity|]; split; [reflexivity|exact R]];
  unfold set_ca, spec;
  (rewrite repx_nil in R; destruct (hole _ _ _ _ (FCaFile d) R (fun z => z)) as (s1 & w1 & F & R1 & E1); rewrite F;
   assert (N1 : ~ In (FCaDir d) [FCaFile d]) by (intros [H|[]]; discriminate);
   destruct (hole _ _ _ _ (FCaDir d) R1 N1) as (s2 & w2 & F2 & R2 & E2); rewrite F2; apply repx_swap in R2;
   assert (N2 : ~ In (FCaFile d) [FCaDir d]) by (intros [H|[]]; discriminate)).
  1, 2: assert (ok1 = true) as -> by (destruct OK; [assumption|discriminate]);
    destruct (fill _ w2 s2 o (FCaFile d) true c R2 N2) as [w3 R3]; destruct (strdup true c s2) as [p s3]; destruct R3 as (P & R3 & _); subst p.
  3: destruct (fill0 _ _ _ _ _ R2 N2) as [R3 _].
  1, 3: match type of R3 with RepX _ ?w3 ?s3 ?o3 => destruct (fill [] w3 s3 o3 (FCaDir d) ok2 k R3 (fun z => z)) as [w4 R4] end;
    match type of R4 with let '(_, _) := ?t in _ => destruct t as [q s4] end; destruct R4 as (Q & R4 & _); rewrite <- repx_nil in R4;
    do 3 eexists; (split; [reflexivity|]); subst q; destruct ok2; (split; [reflexivity|exact R4]).
  destruct (fill0 _ _ _ _ _ R3 (fun z => z)) as [R4 _]. rewrite <- repx_nil in R4. do 3 eexists. split; [reflexivity|]. split; [reflexivity|exact R4].
Qed.

(* ------------------------------------------------------------------ *)
(** ** Key pairs *)

Lemma key_at_ok w s L d i k : Own w s -> side_ok w s L d -> nth_error L i = Some k ->
  exists x y, key_at d i s = Some (mkKey (Some x) (Some y) (ClientSsh.crypt k)) /\
    w (OPub d i) = Some (x, BStr (ClientSsh.pub k)) /\ w (OPriv d i) = Some (y, BStr (ClientSsh.priv k)).
Proof.
  intros W (C & K & M & _) H. unfold key_at. rewrite K. destruct (w (OT d)) as [[a b]|] eqn:E; [|subst L; now destruct i].
  destruct M as (l & -> & M). cbn. rewrite (o_live _ _ W _ _ _ E). destruct (M i k H) as (x & y & A & B & D). exists x, y. now rewrite A.
Qed.

Lemma str_at_ok w s o a x : Own w s -> w o = Some (a, BStr x) -> str_at (Some a) s = Some x.
Proof. intros W H. cbn. now rewrite (o_live _ _ W _ _ _ H). Qed.

Lemma search_ok w s L d pu pr : Own w s -> side_ok w s L d -> forall n i, i + n = length L ->
  search d pu pr i n s = Some (existsb (fun k => beqb (ClientSsh.pub k) pu && beqb (ClientSsh.priv k) pr) (skipn i L)).
Proof.
  intros W S. induction n as [|n IH]; intros i H; cbn.
  - rewrite skipn_all2 by lia. reflexivity.
  - destruct (nth_error L i) as [k|] eqn:E; [|apply nth_error_None in E; lia].
    destruct (key_at_ok _ _ _ _ _ _ W S E) as (x & y & A & B & D). rewrite A. cbn [k_pub k_priv].
    rewrite (str_at_ok _ _ _ _ _ W B), (str_at_ok _ _ _ _ _ W D).
    assert (Q : skipn i L = k :: skipn (Datatypes.S i) L).
    { clear - E. revert i E. induction L as [|c L IH]; intros [|i] E; try discriminate; cbn in *; [congruence|]. now rewrite (IH i E). }
    rewrite Q. cbn [existsb]. destruct (_ && _); [reflexivity|]. apply IH. lia.
Qed.

Lemma nth_error_firstn_pad {A} (l : list A) n m x i : i < n -> i < length l -> nth_error (firstn n (l ++ repeat x m)) i = nth_error l i.
Proof.
  intros Hn Hl. revert n Hn. revert i Hl. induction l as [|c l IH]; intros i Hl n Hn; cbn in *; [lia|].
  destruct n as [|n]; [lia|]. destruct i as [|i]; [reflexivity|]. cbn. apply IH; lia.
Qed.
Lemma nth_error_firstn_lt {A} (l : list A) n i : i < n -> nth_error (firstn n l) i = nth_error l i.
Proof. revert n i. induction l as [|c l IH]; intros [|n] [|i] H; try lia; cbn; auto. apply IH. lia. Qed.
Lemma nth_error_lt {A} (l : list A) i x : nth_error l i = Some x -> i < length l.
Proof. intros H. apply nth_error_Some. congruence. Qed.

Lemma realloc_ok w s o d n : Rep w s o -> length (o_keys o d) <= n ->
  exists s' w', realloc_keys true d n s = Some s' /\ Rep w' s' o /\ kcnt s' = kcnt s /\
    exists a l, w' (OT d) = Some (a, BKeys l) /\ length l = n.
Proof.
  intros [W F K] Hn. pose proof (K d) as (C & P & M & N). unfold realloc_keys. rewrite P.
  destruct (own_free w s (OT d) W) as (s1 & F1 & W1 & E1 & E2 & E3 & E4). rewrite F1. cbn.
  set (l := match option_map fst (w (OT d)) with Some a => match heap s a with Some (BKeys l) => l | _ => [] end | None => [] end).
  pose proof (own_alloc _ s1 (OT d) (BKeys (firstn n (l ++ repeat None n))) W1 (wset_eq _ _ _)) as W2.
  do 2 eexists. split; [reflexivity|]. split; [split|split].
  - eapply own_same; [exact W2|reflexivity|reflexivity].
  - intros f. unfold fld_ok. cbn. rewrite !wset_ne by discriminate. rewrite E2. apply F.
  - intros e. unfold side_ok. cbn. rewrite E3, E4. destruct (side_eqb e d) eqn:Q.
    + apply side_eqb_spec in Q. subst e. rewrite wset_eq. cbn. split; [assumption|]. split; [reflexivity|]. split.
      * eexists. split; [reflexivity|]. intros i k H. subst l. destruct (w (OT d)) as [[a b]|] eqn:E; [|rewrite M in H; now destruct i].
        destruct M as (l & -> & M). cbn. rewrite (o_live _ _ W _ _ _ E). destruct (M i k H) as (x & y & A & B & D).
        exists x, y. rewrite !wset_ne by discriminate. rewrite nth_error_firstn_pad; [auto| |eapply nth_error_lt; eauto].
        apply nth_error_lt in H. lia.
      * intros i Hi. rewrite !wset_ne by discriminate. auto.
    + assert (Ne : e <> d) by (intros ->; now rewrite side_eqb_refl in Q).
      pose proof (K e) as (C' & P' & M' & N'). rewrite !wset_ne by congruence. split; [assumption|]. split; [assumption|]. split.
      * destruct (w (OT e)) as [[a b]|]; [|assumption]. destruct M' as (l' & -> & M'). exists l'. split; [reflexivity|]. intros i k H.
        destruct (M' i k H) as (x & y & A). exists x, y. now rewrite !wset_ne by discriminate.
      * intros i Hi. rewrite !wset_ne by discriminate. auto.
  - assumption.
  - do 2 eexists. cbn. rewrite wset_eq. split; [reflexivity|]. rewrite firstn_length, app_length, repeat_length. lia.
Qed.

Lemma rep_keys_same w s o d : Rep w s o -> Rep w s (putk o d (o_keys o d)).
Proof.
  intros [W F K]. split; [assumption|exact F|]. intros e. cbn. destruct (side_eqb e d) eqn:Q; [|apply K].
  apply side_eqb_spec in Q. subst. apply K.
Qed.

Lemma add_ok d real file pu pr w s o : Rep w s o ->
  exists r s' w', add_keypair d true real file pu pr s = Some (r, s') /\
    fst (spec (AddKey d true real file pu pr) o) = RInt r /\ Rep w' s' (snd (spec (AddKey d true real file pu pr) o)).
Proof.
  intros R. unfold spec, add_keypair. destruct pu as [pu|], pr as [pr|];
    try (do 3 eexists; split; [reflexivity|]; split; [reflexivity|exact R]).
  pose proof R as [W F K]. pose proof (K d) as KD. assert (C : kcnt s d = length (o_keys o d)) by apply KD.
  rewrite (search_ok _ _ _ _ pu pr W KD) by lia. cbn [skipn]. unfold ClientSsh.add_pair.
  replace (existsb (fun k => CStr.streq (ClientSsh.pub k) pu && CStr.streq (ClientSsh.priv k) pr) (o_keys o d))
    with (existsb (fun k => beqb (ClientSsh.pub k) pu && beqb (ClientSsh.priv k) pr) (o_keys o d)) by reflexivity.
  destruct (existsb _ (o_keys o d)).
  { do 3 eexists. split; [reflexivity|]. split; [reflexivity|]. apply rep_keys_same. exact R. }
  destruct (realloc_ok w s o d (S (kcnt s d)) R ltac:(lia)) as (s1 & w1 & A1 & R1 & C1 & a & l & T1 & L1). rewrite A1. cbn [negb].
  destruct (real pu) as [pu'|].
  2: { do 3 eexists. split; [reflexivity|]. split; [reflexivity|]. apply rep_keys_same. exact R1. }
  pose proof R1 as [W1 F1 K1]. pose proof (K1 d) as (C2 & P2 & M2 & N2).
  destruct (N2 (length (o_keys o d)) (le_n _)) as [U1 U2]. set (n := length (o_keys o d)) in *.
  pose proof (own_alloc w1 s1 (OPub d n) (BStr pu') W1 U1) as W2.
  destruct (alloc (BStr pu') s1) as [ap s2] eqn:A2. cbn [snd] in W2.
  assert (E2 : ap = nxt s1 /\ strs s2 = strs s1 /\ keys s2 = keys s1 /\ kcnt s2 = kcnt s1) by (injection A2 as <- <-; auto).
  destruct E2 as (-> & E2s & E2k & E2c).
  destruct (real pr) as [pr'|].
  - (* both paths are there *)
    set (w2 := wset w1 (OPub d n) (Some (nxt s1, BStr pu'))) in *.
    assert (U2' : w2 (OPriv d n) = None) by (subst w2; now rewrite wset_ne by discriminate).
    pose proof (own_alloc w2 s2 (OPriv d n) (BStr pr') W2 U2') as W3.
    destruct (alloc (BStr pr') s2) as [bp s3] eqn:A3. cbn [snd] in W3.
    assert (E3 : bp = nxt s2 /\ strs s3 = strs s2 /\ keys s3 = keys s2 /\ kcnt s3 = kcnt s2) by (injection A3 as <- <-; auto).
    destruct E3 as (-> & E3s & E3k & E3c). set (w3 := wset w2 (OPriv d n) (Some (nxt s2, BStr pr'))) in *.
    assert (T3 : w3 (OT d) = Some (a, BKeys l)) by (subst w3 w2; now rewrite !wset_ne by discriminate).
    assert (Cn : kcnt s3 d = n) by (rewrite E3c, E2c, C1; exact C).
    assert (Ln : length l = S n) by (rewrite L1; f_equal; exact C).
    assert (Q : forall c, exists s', set_key d (kcnt s3 d) (mkKey (Some (nxt s1)) (Some (nxt s2)) c) s3 = Some s' /\
        exists w', Rep w' (set_cnt s' d (S (kcnt s' d))) (putk o d (o_keys o d ++ [{| ClientSsh.pub := pu'; ClientSsh.priv := pr'; ClientSsh.crypt := c |}]))).
    { intros c. set (L' := o_keys o d ++ _). unfold set_key. rewrite E3k, E2k, P2, T1. cbn [option_map fst].
      rewrite (o_live _ _ W3 _ _ _ T3), Cn, Ln. replace (Nat.ltb n (S n)) with true by (symmetry; apply PeanoNat.Nat.ltb_lt; lia).
      eexists. split; [reflexivity|].
      match goal with |- exists _, Rep _ (set_cnt (set_heap _ (upd _ _ (Some ?b))) _ _) _ => pose proof (own_write w3 s3 (OT d) a _ b W3 T3) as W4 end.
      eexists. split.
      - eapply own_same; [exact W4|reflexivity|reflexivity].
      - intros f. unfold fld_ok. cbn. subst w3 w2. rewrite !wset_ne by discriminate. rewrite E3s, E2s. apply F1.
      - intros e. unfold side_ok. cbn. destruct (side_eqb e d) eqn:SE.
        + apply side_eqb_spec in SE. subst e. rewrite wset_eq. cbn. split; [|split; [|split]].
          * rewrite Cn. subst L'. rewrite app_length. cbn. subst n. lia.
          * rewrite E3k, E2k, P2, T1. reflexivity.
          * eexists. split; [reflexivity|]. intros i k H. rewrite !(wset_ne _ (OT d)) by discriminate.
            destruct (PeanoNat.Nat.eq_dec i n) as [->|Ne].
            { subst L'. rewrite nth_error_app2 in H by (subst n; lia). replace (n - length (o_keys o d)) with 0 in H by (subst n; lia).
              cbn in H. injection H as <-. exists (nxt s1), (nxt s2). cbn. split; [|subst w3 w2; rewrite wset_eq, wset_ne by discriminate; now rewrite wset_eq].
              rewrite nth_error_app2 by (rewrite firstn_length; lia). rewrite firstn_length. replace (n - Nat.min n (length l)) with 0 by lia. reflexivity. }
            assert (Hi : i < n). { apply nth_error_lt in H. subst L'. rewrite app_length in H. cbn in H. subst n. lia. }
            subst L'. rewrite nth_error_app1 in H by (subst n; lia). rewrite T1 in M2. destruct M2 as (l0 & Q0 & M2). injection Q0 as <-.
            destruct (M2 i k H) as (x & y & B1 & B2 & B3). exists x, y. split.
            { rewrite nth_error_app1 by (rewrite firstn_length; lia). rewrite nth_error_firstn_lt by exact Hi. exact B1. }
            subst w3 w2. rewrite !wset_ne by congruence. auto.
          * intros i Hi. subst L'. rewrite app_length in Hi. cbn in Hi. subst w3 w2. assert (Hn : i <> n) by (subst n; lia). rewrite !wset_ne by congruence. apply N2. subst n. lia.
        + assert (Ne : e <> d) by (intros ->; now rewrite side_eqb_refl in SE).
          pose proof (K1 e) as (C' & P' & M' & N'). subst w3 w2. rewrite !wset_ne by congruence. rewrite E3c, E2c, E3k, E2k.
          split; [assumption|]. split; [assumption|]. split.
          * destruct (w1 (OT e)) as [[a' b]|]; [|assumption]. destruct M' as (l' & -> & M'). exists l'. split; [reflexivity|]. intros i k H.
            destruct (M' i k H) as (x & y & A). exists x, y. now rewrite !wset_ne by congruence.
          * intros i Hi. rewrite !wset_ne by congruence. auto. }
    destruct (file pr') as [content|]; [destruct (ClientSsh.encrypted content) as [c|]|];
      match goal with |- context [mkKey _ _ ?c] => destruct (Q c) as (s' & Z & w' & R') end; rewrite Z;
      do 3 eexists; (split; [reflexivity|]); (split; [reflexivity|]); exact R'.
  - (* the first is given back *)
    cbn [free option_map]. destruct (own_free _ s2 (OPub d n) W2) as (s3 & F3 & W3 & E1 & E2 & E3 & E4). rewrite wset_eq in F3. cbn [option_map fst] in F3.
    match goal with |- exists r s' w', match ?t with _ => _ end = _ /\ _ => replace t with (Some s3) by (symmetry; exact F3) end.
    do 3 eexists. split; [reflexivity|]. split; [reflexivity|]. apply rep_keys_same.
    assert (Q : forall x, wset (wset w1 (OPub d n) (Some (nxt s1, BStr pu'))) (OPub d n) None x = w1 x).
    { intros x. unfold wset. destruct (owner_dec x (OPub d n)); [subst; now rewrite U1|reflexivity]. }
    split.
    + eapply own_eq; [exact W3|]. intros x. symmetry. apply Q.
    + intros f. unfold fld_ok. rewrite E2, E2s. apply F1.
    + intros e. unfold side_ok. rewrite E3, E4, E2k, E2c. apply K1.
Qed.

Lemma del_pair_nth L idx : (0 <= idx < Z.of_nat (length L))%Z -> exists L', ClientSsh.del_pair L idx = (ClientSsh.KOk, L') /\
  length L' = pred (length L) /\
  forall j k, nth_error L' j = Some k -> nth_error L (if Nat.eqb j (Z.to_nat idx) then pred (length L) else j) = Some k.
Proof.
  intros H. unfold ClientSsh.del_pair. replace (Z.of_nat (length L) <=? idx)%Z with false by (symmetry; apply Z.leb_gt; lia).
  replace (idx <? 0)%Z with false by (symmetry; apply Z.ltb_ge; lia). cbv zeta. eexists. split; [reflexivity|].
  set (i := Z.to_nat idx). assert (Hi : i < length L) by lia.
  destruct (rev L) as [|l before] eqn:E; [apply (f_equal (@length _)) in E; rewrite rev_length in E; cbn in E; lia|].
  assert (EL : L = rev before ++ [l]) by (rewrite <- (rev_involutive L), E; reflexivity).
  set (B := rev before) in *. assert (LB : length before = length B) by (subst B; now rewrite rev_length).
  assert (LL : length L = S (length B)) by (rewrite EL, app_length; cbn; lia). rewrite LB, LL. cbn [pred].
  destruct (PeanoNat.Nat.eqb_spec i (length B)) as [Q|Q].
  - split; [reflexivity|]. intros j k Hk. pose proof (nth_error_lt _ _ _ Hk).
    destruct (PeanoNat.Nat.eqb_spec j i); [lia|]. rewrite EL, nth_error_app1 by assumption. exact Hk.
  - split. { rewrite app_length, firstn_length. cbn [length]. rewrite skipn_length. lia. }
    intros j k Hk. assert (LF : length (firstn i B) = i) by (rewrite firstn_length; lia).
    destruct (PeanoNat.Nat.eqb_spec j i) as [J|J].
    + subst j. rewrite nth_error_app2 in Hk by lia. rewrite LF, PeanoNat.Nat.sub_diag in Hk. cbn in Hk.
      rewrite EL, nth_error_app2, PeanoNat.Nat.sub_diag by lia. exact Hk.
    + destruct (PeanoNat.Nat.lt_ge_cases j i) as [J'|J'].
      * rewrite nth_error_app1, nth_error_firstn_lt in Hk by lia. rewrite EL, nth_error_app1 by lia. exact Hk.
      * rewrite nth_error_app2 in Hk by lia. rewrite LF in Hk. destruct (j - i) as [|m] eqn:Z; [lia|]. cbn [nth_error] in Hk.
        assert (Hk' : nth_error B j = Some k).
        { rewrite <- Hk. replace j with (S i + m) by lia. clear. generalize (S i). intros a. revert a. induction B as [|c B IH]; intros [|a]; cbn; auto. now destruct m. }
        rewrite EL, nth_error_app1 by (eapply nth_error_lt; eauto). exact Hk'.
Qed.

Lemma own_free_at w s o a b : Own w s -> w o = Some (a, b) -> exists s', free (Some a) s = Some s' /\ Own (wset w o None) s' /\
  strs s' = strs s /\ keys s' = keys s /\ kcnt s' = kcnt s.
Proof. intros W H. destruct (own_free w s o W) as (s' & F & R & _ & R'). rewrite H in F. exists s'. auto. Qed.

(** The table of a side with some strings taken out. *)
Lemma key_at_raw w s d a l i k : Own w s -> keys s d = Some a -> w (OT d) = Some (a, BKeys l) -> nth_error l i = Some (Some k) -> key_at d i s = Some k.
Proof. intros W K T H. unfold key_at. now rewrite K, (o_live _ _ W _ _ _ T), H. Qed.

Lemma set_nth_eq {A} (l : list A) i x : i < length l -> nth_error (firstn i l ++ x :: skipn (S i) l) i = Some x.
Proof. intros H. rewrite nth_error_app2 by (rewrite firstn_length; lia). rewrite firstn_length. now replace (i - Nat.min i (length l)) with 0 by lia. Qed.
Lemma set_nth_ne {A} (l : list A) i x j : i < length l -> j <> i -> nth_error (firstn i l ++ x :: skipn (S i) l) j = nth_error l j.
Proof.
  revert i j. induction l as [|c l IH]; intros i j H N; cbn in H; [lia|]. destruct i as [|i], j as [|j]; try lia; cbn [firstn skipn app nth_error]; auto.
  apply (IH i j); lia.
Qed.

Lemma spec_del o d ok idx : spec (DelKey d ok idx) o =
  (kint (fst (ClientSsh.del_pair (o_keys o d) idx)), putk o d (snd (ClientSsh.del_pair (o_keys o d) idx))).
Proof. unfold spec. now destruct (ClientSsh.del_pair (o_keys o d) idx). Qed.

Lemma del_ok d idx w s o : (0 <= idx)%Z -> Rep w s o ->
  exists r s' w', del_keypair d true idx s = Some (r, s') /\
    fst (spec (DelKey d true idx) o) = RInt r /\ Rep w' s' (snd (spec (DelKey d true idx) o)).
Proof.
  intros Hz R. rewrite spec_del. cbn [fst snd]. unfold del_keypair. pose proof R as [W F K]. pose proof (K d) as KD.
  pose proof KD as (C & P & M & N). rewrite C. destruct (Z.leb_spec (Z.of_nat (length (o_keys o d))) idx) as [G|G].
  { do 3 eexists. split; [reflexivity|]. unfold ClientSsh.del_pair.
    replace (Z.of_nat (length (o_keys o d)) <=? idx)%Z with true by (symmetry; apply Z.leb_le; lia). cbn [fst snd]. split; [reflexivity|].
    apply rep_keys_same. exact R. }
  replace (idx <? 0)%Z with false by (symmetry; apply Z.ltb_ge; lia).
  destruct (del_pair_nth (o_keys o d) idx ltac:(lia)) as (L' & D & LL & DN). rewrite D. cbn [fst snd kint].
  set (i := Z.to_nat idx) in *. set (L := o_keys o d) in *. assert (Hi : i < length L) by lia.
  destruct (nth_error L i) as [k|] eqn:Ek; [|apply nth_error_None in Ek; lia].
  destruct (w (OT d)) as [[a b]|] eqn:T; [|rewrite M in Hi; cbn in Hi; lia]. destruct M as (l & -> & M). cbn in P.
  destruct (M i k Ek) as (x & y & B1 & B2 & B3). rewrite (key_at_raw _ _ _ _ _ _ _ W P T B1). cbn [k_pub k_priv].
  destruct (own_free_at _ _ _ _ _ W B2) as (s1 & F1 & W1 & S1 & K1 & C1). rewrite F1.
  assert (B3' : wset w (OPub d i) None (OPriv d i) = Some (y, BStr (ClientSsh.priv k))) by (rewrite wset_ne by discriminate; exact B3).
  destruct (own_free_at _ _ _ _ _ W1 B3') as (s2 & F2 & W2 & S2 & K2 & C2). rewrite F2. rewrite C2, C1, C. set (n := pred (length L)) in *.
  set (w2 := wset (wset w (OPub d i) None) (OPriv d i) None) in *.
  assert (T2 : w2 (OT d) = Some (a, BKeys l)) by (subst w2; now rewrite !wset_ne by discriminate).
  (* the state with the pair taken out *)
  assert (Q : exists s3 w3, (if Nat.ltb i n then match key_at d n (set_cnt s2 d n) with None => None | Some l => set_key d i l (set_cnt s2 d n) end
                            else Some (set_cnt s2 d n)) = Some s3 /\ Rep w3 s3 (putk o d L') /\ (exists l3, w3 (OT d) = Some (a, BKeys l3))).
  { assert (P3 : keys (set_cnt s2 d n) d = Some a) by (cbn; rewrite K2, K1; exact P).
    assert (W2' : Own w2 (set_cnt s2 d n)) by (eapply own_same; [exact W2|reflexivity|reflexivity]).
    assert (OTH : forall w3 s3, strs s3 = strs s2 -> keys s3 = keys s2 -> (forall e, e <> d -> kcnt s3 e = kcnt s2 e) ->
              (forall x, x <> OT d -> (forall j, x <> OPub d j /\ x <> OPriv d j) -> w3 x = w x) ->
              (forall f, fld_ok w3 s3 (putk o d L') f) /\ (forall e, e <> d -> side_ok w3 s3 (o_keys (putk o d L') e) e)).
    { intros w3 s3 Z1 Z2 Z3 Z4. split.
      - intros f. unfold fld_ok. cbn. rewrite Z1, S2, S1, Z4; [apply F|discriminate|split; discriminate].
      - intros e Ne. cbn. rewrite side_eqb_ne by assumption. pose proof (K e) as (C' & P' & M' & N'). unfold side_ok.
        rewrite Z3, Z2, K2, K1, C2, C1 by assumption. rewrite (Z4 (OT e)) by (congruence || (intros; split; discriminate)).
        split; [assumption|]. split; [assumption|]. split.
        + destruct (w (OT e)) as [[a' b']|]; [|assumption]. destruct M' as (l' & -> & M'). exists l'. split; [reflexivity|]. intros j q H.
          destruct (M' j q H) as (x' & y' & A1 & A2 & A3). exists x', y'. rewrite !Z4 by (discriminate || (intros; split; congruence)). auto.
        + intros j Hj. rewrite !Z4 by (discriminate || (intros; split; congruence)). auto. }
    destruct (PeanoNat.Nat.ltb_spec i n) as [In|In].
    - (* the last pair takes its place *)
      destruct (nth_error L n) as [q|] eqn:En; [|apply nth_error_None in En; lia].
      destruct (M n q En) as (u & v & D1 & D2 & D3). rewrite (key_at_raw _ _ _ _ _ _ _ W2' P3 T2 D1).
      unfold set_key. rewrite P3, (o_live _ _ W2' _ _ _ T2).
      pose proof (nth_error_lt _ _ _ B1) as Hil. replace (Nat.ltb i (length l)) with true by (symmetry; apply PeanoNat.Nat.ltb_lt; exact Hil).
      match goal with |- context [BKeys (firstn i l ++ ?z)] => set (l3 := firstn i l ++ z) in * end.
      pose proof (own_write w2 _ (OT d) a _ (BKeys l3) W2' T2) as W3. set (w3 := wset w2 (OT d) (Some (a, BKeys l3))) in *.
      assert (Ni : OPub d n <> OPub d i) by (intros Z; injection Z; lia).
      assert (U1 : w3 (OPub d i) = None) by (subst w3 w2; rewrite !wset_ne by discriminate; apply wset_eq).
      pose proof (own_move _ _ _ _ W3 Ni U1) as W4. set (w4 := wset (wset w3 (OPub d i) (w3 (OPub d n))) (OPub d n) None) in *.
      assert (Ni2 : OPriv d n <> OPriv d i) by (intros Z; injection Z; lia).
      assert (U2 : w4 (OPriv d i) = None) by (subst w4 w3 w2; rewrite !(wset_ne) by discriminate; apply wset_eq).
      pose proof (own_move _ _ _ _ W4 Ni2 U2) as W5. set (w5 := wset (wset w4 (OPriv d i) (w4 (OPriv d n))) (OPriv d n) None) in *.
      assert (V1 : w3 (OPub d n) = Some (u, BStr (ClientSsh.pub q))) by (subst w3 w2; rewrite !wset_ne by congruence; exact D2).
      assert (V2 : w4 (OPriv d n) = Some (v, BStr (ClientSsh.priv q))) by (subst w4 w3 w2; rewrite !wset_ne by congruence; exact D3).
      eexists. exists w5. split; [reflexivity|]. split.
      + match goal with |- Rep w5 ?s3 _ => destruct (OTH w5 s3 eq_refl eq_refl) as [G1 G2] end.
        { intros e Ne. cbn. now rewrite side_eqb_ne. }
        { intros z Z1 Z2. subst w5 w4 w3 w2. rewrite !wset_ne by (apply Z2 || assumption). reflexivity. }
        split; [exact W5|exact G1|]. intros e. destruct (side_eqb e d) eqn:SE.
        2: { apply G2. intros ->. now rewrite side_eqb_refl in SE. }
        apply side_eqb_spec in SE. subst e. cbn [o_keys putk]. rewrite side_eqb_refl. unfold side_ok.
        assert (TT : w5 (OT d) = Some (a, BKeys l3)) by (subst w5 w4 w3; rewrite !wset_ne by discriminate; apply wset_eq).
        rewrite TT. cbn. rewrite side_eqb_refl. split; [symmetry; exact LL|]. split; [rewrite K2, K1; exact P|]. split.
        * exists l3. split; [reflexivity|]. intros j r Hj. specialize (DN j r Hj). pose proof (nth_error_lt _ _ _ Hj) as Lj. rewrite LL in Lj.
          destruct (PeanoNat.Nat.eqb_spec j i) as [J|J].
          -- subst j. assert (q = r) by congruence. subst r. exists u, v. split; [|split].
             ++ subst l3. now apply set_nth_eq.
             ++ subst w5 w4. rewrite !(wset_ne _ _ _ (OPub d i)) by congruence. now rewrite wset_eq.
             ++ subst w5. rewrite (wset_ne _ _ _ (OPriv d i)) by congruence. now rewrite wset_eq.
          -- destruct (M j r DN) as (x' & y' & A1 & A2 & A3). exists x', y'. split; [subst l3; rewrite set_nth_ne by assumption; exact A1|].
             assert (j <> n) by lia. subst w5 w4 w3 w2. rewrite !wset_ne by congruence. auto.
        * intros j Hj. rewrite LL in Hj. destruct (PeanoNat.Nat.eq_dec j n) as [->|J].
          -- subst w5. split; [rewrite !wset_ne by discriminate; subst w4; apply wset_eq|apply wset_eq].
          -- assert (j <> i) by lia. subst w5 w4 w3 w2. rewrite !wset_ne by congruence. apply N. lia.
      + exists l3. subst w5 w4 w3. rewrite !wset_ne by discriminate. apply wset_eq.
    - (* it was the last one *)
      assert (En : n = i) by lia. eexists. exists w2. split; [reflexivity|]. split; [|exists l; exact T2].
      match goal with |- Rep w2 ?s3 _ => destruct (OTH w2 s3 eq_refl eq_refl) as [G1 G2] end.
      { intros e Ne. cbn. now rewrite side_eqb_ne. }
      { intros z Z1 Z2. subst w2. rewrite !wset_ne by apply Z2. reflexivity. }
      split; [exact W2'|exact G1|]. intros e. destruct (side_eqb e d) eqn:SE.
      2: { apply G2. intros ->. now rewrite side_eqb_refl in SE. }
      apply side_eqb_spec in SE. subst e. cbn [o_keys putk]. rewrite side_eqb_refl. unfold side_ok. rewrite T2. cbn. rewrite side_eqb_refl.
      split; [symmetry; exact LL|]. split; [rewrite K2, K1; exact P|]. split.
      + exists l. split; [reflexivity|]. intros j r Hj. specialize (DN j r Hj). pose proof (nth_error_lt _ _ _ Hj) as Lj. rewrite LL in Lj.
        destruct (PeanoNat.Nat.eqb_spec j i) as [J|J]; [lia|]. destruct (M j r DN) as (x' & y' & A1 & A2 & A3). exists x', y'.
        subst w2. rewrite !wset_ne by congruence. auto.
      + intros j Hj. rewrite LL in Hj. destruct (PeanoNat.Nat.eq_dec j i) as [->|J].
        * subst w2. split; [rewrite wset_ne by discriminate; apply wset_eq|apply wset_eq].
        * subst w2. rewrite !wset_ne by congruence. apply N. lia. }
  destruct Q as (s3 & w3 & Q & R3 & l3 & T3). rewrite Q. destruct n as [|n'] eqn:En.
  - (* the last one is gone *)
    pose proof R3 as [W3 F3 K3]. pose proof (K3 d) as (C3 & P3 & M3 & N3). rewrite T3 in P3. cbn in P3. rewrite P3.
    destruct (own_free_at _ _ _ _ _ W3 T3) as (s4 & F4 & W4 & S4 & K4 & C4). rewrite F4.
    do 3 eexists. split; [reflexivity|]. split; [reflexivity|]. split.
    + eapply own_same; [exact W4|reflexivity|reflexivity].
    + intros f. unfold fld_ok. cbn. rewrite S4, !wset_ne by discriminate. apply F3.
    + intros e. destruct (side_eqb e d) eqn:SE.
      * apply side_eqb_spec in SE. subst e. cbn [o_keys putk]. rewrite side_eqb_refl. unfold side_ok. cbn. rewrite side_eqb_refl, C4, wset_eq.
        cbn in C3. rewrite side_eqb_refl in C3. assert (L' = []) as -> by (destruct L'; [reflexivity|cbn in LL; lia]).
        repeat split; auto; rewrite wset_ne by discriminate; apply N3; cbn; rewrite side_eqb_refl; cbn; lia.
      * assert (Ne : e <> d) by (intros ->; now rewrite side_eqb_refl in SE). pose proof (K3 e) as (C' & P' & M' & N').
        unfold side_ok. cbn in *. rewrite SE, C4, K4 in *. rewrite !wset_ne by congruence. split; [assumption|]. split; [assumption|]. split.
        -- destruct (w3 (OT e)) as [[a' b']|]; [|assumption]. destruct M' as (l' & -> & M'). exists l'. split; [reflexivity|]. intros j r H.
           destruct (M' j r H) as (x' & y' & A). exists x', y'. now rewrite !wset_ne by discriminate.
        -- intros j Hj. rewrite !wset_ne by discriminate. auto.
  - destruct (realloc_ok w3 s3 (putk o d L') d (S n') R3) as (s4 & w4 & A4 & R4 & _).
    { cbn [o_keys putk]. rewrite side_eqb_refl. lia. }
    rewrite A4. do 3 eexists. split; [reflexivity|]. split; [reflexivity|]. exact R4.
Qed.

(* ------------------------------------------------------------------ *)
(** ** The end *)

Lemma clear_ok f w s o : Rep w s o -> exists s' w', clear f s = Some s' /\ Rep w' s' (put o f None).
Proof.
  intros R. rewrite repx_nil in R. destruct (hole _ _ _ _ f R (fun z => z)) as (s1 & w1 & F & R1 & _). unfold clear. rewrite F.
  destruct (fill0 _ _ _ _ _ R1 (fun z => z)) as [R2 _]. rewrite <- repx_nil in R2. do 2 eexists. split; [reflexivity|exact R2].
Qed.

Lemma free_pairs_ok d a l L : forall n i w s, Own w s -> keys s d = Some a -> w (OT d) = Some (a, BKeys l) -> i + n = length L ->
  (forall j k, i <= j -> nth_error L j = Some k ->
     exists x y, nth_error l j = Some (Some (mkKey (Some x) (Some y) (ClientSsh.crypt k))) /\
                 w (OPub d j) = Some (x, BStr (ClientSsh.pub k)) /\ w (OPriv d j) = Some (y, BStr (ClientSsh.priv k))) ->
  (forall j, length L <= j -> w (OPub d j) = None /\ w (OPriv d j) = None) ->
  exists s' w', free_pairs d i n s = Some s' /\ Own w' s' /\ strs s' = strs s /\ keys s' = keys s /\ kcnt s' = kcnt s /\
    (forall x, (forall j, x <> OPub d j /\ x <> OPriv d j) -> w' x = w x) /\
    (forall j, i <= j -> w' (OPub d j) = None /\ w' (OPriv d j) = None) /\
    (forall j, j < i -> w' (OPub d j) = w (OPub d j) /\ w' (OPriv d j) = w (OPriv d j)).
Proof.
  induction n as [|n IH]; intros i w s W K T H M N; cbn [free_pairs].
  - exists s, w. do 5 (split; [auto|]). split; [auto|]. split; [|auto]. intros j Hj. apply N. lia.
  - destruct (nth_error L i) as [k|] eqn:E; [|apply nth_error_None in E; lia]. destruct (M i k (le_n _) E) as (x & y & B1 & B2 & B3).
    rewrite (key_at_raw _ _ _ _ _ _ _ W K T B1). cbn [k_pub k_priv].
    destruct (own_free_at _ _ _ _ _ W B2) as (s1 & F1 & W1 & S1 & K1 & C1). rewrite F1.
    assert (B3' : wset w (OPub d i) None (OPriv d i) = Some (y, BStr (ClientSsh.priv k))) by (rewrite wset_ne by discriminate; exact B3).
    destruct (own_free_at _ _ _ _ _ W1 B3') as (s2 & F2 & W2 & S2 & K2 & C2). rewrite F2.
    destruct (IH (S i) _ _ W2) as (s' & w' & A1 & A2 & A3 & A4 & A5 & A6 & A7 & A8).
    + now rewrite K2, K1.
    + now rewrite !wset_ne by discriminate.
    + lia.
    + intros j q Hj Q. destruct (M j q ltac:(lia) Q) as (x' & y' & D). exists x', y'. assert (j <> i) by lia. rewrite !wset_ne by congruence. exact D.
    + intros j Hj. assert (j <> i) by lia. rewrite !wset_ne by congruence. now apply N.
    + exists s', w'. split; [exact A1|]. split; [exact A2|]. split; [congruence|]. split; [congruence|]. split; [congruence|]. split; [|split].
      * intros z Hz. rewrite A6 by exact Hz. rewrite !wset_ne by apply Hz. reflexivity.
      * intros j Hj. destruct (PeanoNat.Nat.eq_dec j i) as [->|J]; [|apply A7; lia].
        destruct (A8 i (le_n _)) as [Q1 Q2]. rewrite Q1, Q2. rewrite wset_eq, wset_ne by discriminate. now rewrite wset_eq.
      * intros j Hj. assert (j <> i) by lia. destruct (A8 j) as [Q1 Q2]; [lia|]. rewrite Q1, Q2, !wset_ne by congruence. auto.
Qed.

Lemma pairs_gone d w s o : Rep w s o -> exists s1 s2 w', free_pairs d 0 (kcnt s d) s = Some s1 /\ free (keys s1 d) s1 = Some s2 /\
  Rep w' (set_keys (set_cnt s2 d 0) d None) (putk o d []).
Proof.
  intros [W F K]. pose proof (K d) as (C & P & M & N).
  assert (Q : exists s1 w1, free_pairs d 0 (kcnt s d) s = Some s1 /\ Own w1 s1 /\ strs s1 = strs s /\ keys s1 = keys s /\ kcnt s1 = kcnt s /\
    (forall x, (forall j, x <> OPub d j /\ x <> OPriv d j) -> w1 x = w x) /\ (forall j, w1 (OPub d j) = None /\ w1 (OPriv d j) = None)).
  { destruct (w (OT d)) as [[a b]|] eqn:T.
    - destruct M as (l & -> & M). rewrite C.
      destruct (free_pairs_ok d a l (o_keys o d) (length (o_keys o d)) 0 w s W P T eq_refl (fun j k _ => M j k) N) as (s1 & w1 & A1 & A2 & A3 & A4 & A5 & A6 & A7 & _).
      exists s1, w1. do 6 (split; [assumption|]). intros j. apply A7. lia.
    - exists s, w. rewrite C. rewrite M in *. cbn. do 5 (split; [auto|]). split; [auto|]. intros j. apply N. cbn. lia. }
  destruct Q as (s1 & w1 & A1 & A2 & A3 & A4 & A5 & A6 & A7).
  assert (TW : w1 (OT d) = w (OT d)) by (apply A6; split; discriminate).
  destruct (own_free w1 s1 (OT d) A2) as (s2 & F2 & W2 & _ & S2 & K2 & C2).
  exists s1, s2, (wset w1 (OT d) None). split; [exact A1|]. split; [rewrite A4, P, <- TW; exact F2|]. split.
  - eapply own_same; [exact W2|reflexivity|reflexivity].
  - intros f. unfold fld_ok. cbn. rewrite S2, A3, wset_ne, A6 by (discriminate || (intros; split; discriminate)). apply F.
  - intros e. destruct (side_eqb e d) eqn:SE.
    + apply side_eqb_spec in SE. subst e. cbn [o_keys putk]. rewrite side_eqb_refl. unfold side_ok. cbn. rewrite side_eqb_refl, wset_eq.
      repeat split; rewrite wset_ne by discriminate; apply A7.
    + assert (Ne : e <> d) by (intros ->; now rewrite side_eqb_refl in SE). pose proof (K e) as (C' & P' & M' & N').
      unfold side_ok. cbn. rewrite SE, C2, A5, K2, A4. rewrite wset_ne, A6 by (congruence || (intros; split; discriminate)).
      split; [assumption|]. split; [assumption|]. split.
      * destruct (w (OT e)) as [[a' b']|]; [|assumption]. destruct M' as (l' & -> & M'). exists l'. split; [reflexivity|]. intros j r H.
        destruct (M' j r H) as (x' & y' & A). exists x', y'. rewrite !wset_ne by discriminate. rewrite !A6 by (intros; split; congruence). exact A.
      * intros j Hj. rewrite !wset_ne by discriminate. rewrite !A6 by (intros; split; congruence). auto.
Qed.

Lemma ssh_destroy_ok d w s o : Rep w s o -> exists s' w', ssh_destroy d s = Some s' /\ Rep w' s' (put (put (putk o d []) (FUser d) None) (FKnown d) None).
Proof.
  intros R. destruct (pairs_gone d w s o R) as (s1 & s2 & w2 & A & B & R2). unfold ssh_destroy. rewrite A. cbn [bind]. rewrite B. cbn [bind].
  destruct (clear_ok (FUser d) _ _ _ R2) as (s3 & w3 & E3 & R3). rewrite E3. cbn [bind]. exact (clear_ok (FKnown d) _ _ _ R3).
Qed.
Lemma tls_destroy_ok d w s o : Rep w s o ->
  exists s' w', tls_destroy d s = Some s' /\ Rep w' s' (put (put (put (put o (FCert d) None) (FKey d) None) (FCaFile d) None) (FCaDir d) None).
Proof.
  intros R. unfold tls_destroy. destruct (clear_ok (FCert d) _ _ _ R) as (s1 & w1 & E1 & R1). rewrite E1. cbn [bind].
  destruct (clear_ok (FKey d) _ _ _ R1) as (s2 & w2 & E2 & R2). rewrite E2. cbn [bind].
  destruct (clear_ok (FCaFile d) _ _ _ R2) as (s3 & w3 & E3 & R3). rewrite E3. cbn [bind]. exact (clear_ok (FCaDir d) _ _ _ R3).
Qed.
Lemma rep_ext w s o o' : Rep w s o -> (forall f, o_str o' f = o_str o f) -> (forall d, o_keys o' d = o_keys o d) -> Rep w s o'.
Proof.
  intros [W F K] A B. split; [assumption| |].
  - intros f. unfold fld_ok. rewrite A. apply F.
  - intros d. rewrite B. apply K.
Qed.
Lemma destroy_ok w s o : Rep w s o -> exists s' w', destroy s = Some s' /\ Rep w' s' fresh_opts.
Proof.
  intros R. unfold destroy. destruct (clear_ok FSearch _ _ _ R) as (s1 & w1 & E1 & R1). rewrite E1. cbn [bind].
  destruct (ssh_destroy_ok Plain _ _ _ R1) as (s2 & w2 & E2 & R2). rewrite E2. cbn [bind].
  destruct (ssh_destroy_ok Ch _ _ _ R2) as (s3 & w3 & E3 & R3). rewrite E3. cbn [bind].
  destruct (tls_destroy_ok Plain _ _ _ R3) as (s4 & w4 & E4 & R4). rewrite E4. cbn [bind].
  destruct (tls_destroy_ok Ch _ _ _ R4) as (s5 & w5 & E5 & R5). exists s5, w5. split; [exact E5|]. eapply rep_ext; [exact R5| |].
  - intros [|[]|[]|[]|[]|[]|[]]; reflexivity.
  - intros []; reflexivity.
Qed.

Lemma get_one_ok f w s o : Rep w s o -> get_one f s = Some (o_str o f).
Proof.
  intros [W F _]. destruct (F f) as [P Q]. unfold get_one. rewrite P. destruct (w (OF f)) as [[a b]|] eqn:E; cbn in *.
  - destruct (o_str o f) as [x|]; [|discriminate]. cbn in Q. injection Q as ->. now rewrite (o_live _ _ W _ _ _ E).
  - now destruct (o_str o f).
Qed.
Lemma get_keypair_ok d idx w s o : (0 <= idx)%Z -> Rep w s o -> get_keypair d idx s = Some (snd (ClientSsh.get_pair (o_keys o d) idx)).
Proof.
  intros Hz [W F K]. pose proof (K d) as KD. pose proof KD as (C & _). unfold get_keypair, ClientSsh.get_pair. rewrite C.
  destruct (Z.leb_spec (Z.of_nat (length (o_keys o d))) idx); [reflexivity|].
  replace (idx <? 0)%Z with false by (symmetry; apply Z.ltb_ge; lia).
  destruct (nth_error (o_keys o d) (Z.to_nat idx)) as [k|] eqn:E; [|apply nth_error_None in E; lia].
  destruct (key_at_ok _ _ _ _ _ _ W KD E) as (x & y & A & B & D). rewrite A. cbn [k_pub k_priv].
  now rewrite (str_at_ok _ _ _ _ _ W B), (str_at_ok _ _ _ _ _ W D).
Qed.

(* ------------------------------------------------------------------ *)
(** ** All calls *)

Lemma step_ok c w s o : Rep w s o -> harmless c -> exists s' w', step c s = Some (fst (spec c o), s') /\ Rep w' s' (snd (spec c o)).
Proof.
  intros R H. destruct c; cbn [step].
  - destruct (set_one_ok 1 FSearch ok x w s o R) as (r & s' & w' & A & B & D). rewrite A. cbn [ret]. subst r. exists s', w'.
    destruct x; [destruct ok|]; auto.
  - destruct (set_one_ok 1 (FKnown d) ok x w s o R) as (r & s' & w' & A & B & D). rewrite A. cbn [ret]. subst r. exists s', w'.
    destruct x; [destruct ok|]; auto.
  - destruct (set_one_ok (-1) (FUser d) ok x w s o R) as (r & s' & w' & A & B & D). rewrite A. cbn [ret]. subst r. exists s', w'.
    destruct x; [destruct ok|]; auto.
  - cbn in H. subst ok1. destruct (set_cert_ok d ok2 c k w s o R) as (r & s' & w' & A & B & D). rewrite A. cbn [ret]. exists s', w'.
    split; [|exact D]. now rewrite B.
  - destruct (set_ca_ok d ok1 ok2 c k w s o H R) as (r & s' & w' & A & B & D). rewrite A. cbn [ret]. exists s', w'. split; [|exact D]. now rewrite B.
  - cbn in H. subst ok. destruct (add_ok d real file pu pr w s o R) as (r & s' & w' & A & B & D). rewrite A. cbn [ret]. exists s', w'.
    split; [|exact D]. now rewrite B.
  - destruct H as [-> H]. destruct (del_ok d idx w s o H R) as (r & s' & w' & A & B & D). rewrite A. cbn [ret]. exists s', w'.
    split; [|exact D]. now rewrite B.
  - rewrite (get_one_ok _ _ _ _ R). exists s, w. auto.
  - rewrite (get_keypair_ok _ _ _ _ _ H R). exists s, w. auto.
  - exists s, w. destruct (r_key _ _ _ R d) as [C _]. rewrite C. auto.
  - destruct (destroy_ok _ _ _ R) as (s' & w' & A & B). rewrite A. exists s', w'. auto.
Qed.

Lemma run_ok cs : forall w s o, Rep w s o -> Forall harmless cs -> exists s' w', run cs s = Some (fst (specs cs o), s') /\ Rep w' s' (snd (specs cs o)).
Proof.
  induction cs as [|c cs IH]; intros w s o R H; cbn [run specs].
  - exists s, w. auto.
  - inversion H as [|? ? H1 H2]; subst. destruct (step_ok c w s o R H1) as (s1 & w1 & A & B). rewrite A.
    destruct (spec c o) as [r o1]. cbn [fst snd] in *. destruct (IH w1 s1 o1 B H2) as (s2 & w2 & D & E). rewrite D.
    destruct (specs cs o1) as [rs o2]. exists s2, w2. auto.
Qed.

(* ------------------------------------------------------------------ *)
(** ** C194: options keep what they were given *)

(** Whatever is called, every call gives what the specification says. *)
Definition c194_full : Prop := forall cs, exists s, run cs init = Some (fst (specs cs fresh_opts), s).
Theorem c194_kept_partial : forall cs, Forall harmless cs -> exists s, run cs init = Some (fst (specs cs fresh_opts), s).
Proof. intros cs H. destruct (run_ok cs _ _ _ rep_init H) as (s & w & A & _). now exists s. Qed.

Definition sets (f : fld) (x : bytes) (c : call) : Prop :=
  match c with
  | Search ok y => f = FSearch /\ ok = true /\ y = Some x
  | Known d ok y => f = FKnown d /\ ok = true /\ y = Some x
  | User d ok y => f = FUser d /\ ok = true /\ y = Some x
  | Cert d ok1 ok2 c k => ok1 = true /\ ok2 = true /\ (f = FCert d /\ c = Some x \/ f = FKey d /\ k = Some x /\ c <> None)
  | Ca d ok1 ok2 c k => ok1 = true /\ ok2 = true /\ (f = FCaFile d /\ c = Some x \/ f = FCaDir d /\ k = Some x)
  | _ => False
  end.
(** Could [c] change the option [f]? *)
Definition touches (f : fld) (c : call) : Prop :=
  match c with
  | Search _ _ => f = FSearch
  | Known d _ _ => f = FKnown d
  | User d _ _ => f = FUser d
  | Cert d _ _ _ _ => f = FCert d \/ f = FKey d
  | Ca d _ _ _ _ => f = FCaFile d \/ f = FCaDir d
  | Destroy => True
  | _ => False
  end.

Lemma put_eq o f x : o_str (put o f x) f = x.
Proof. cbn. now rewrite fld_eqb_refl. Qed.
Lemma put_ne o f x g : g <> f -> o_str (put o f x) g = o_str o g.
Proof. intros N. cbn. now rewrite fld_eqb_ne. Qed.

Lemma spec_sets f x c o : sets f x c -> o_str (snd (spec c o)) f = Some x.
Proof.
  destruct c; cbn [sets]; try tauto.
  - intros (-> & -> & ->). apply put_eq.
  - intros (-> & -> & ->). apply put_eq.
  - intros (-> & -> & ->). apply put_eq.
  - intros (-> & -> & [(-> & ->)|(-> & -> & N)]).
    + unfold spec. destruct k; cbn [snd]; rewrite put_ne by discriminate; apply put_eq.
    + unfold spec. destruct c; [|congruence]. apply put_eq.
  - intros (-> & -> & [(-> & ->)|(-> & ->)]).
    + unfold spec. destruct k; cbn [snd]; rewrite put_ne by discriminate; apply put_eq.
    + unfold spec. destruct c; apply put_eq.
Qed.
Lemma spec_other f c o : ~ touches f c -> o_str (snd (spec c o)) f = o_str o f.
Proof.
  destruct c; cbn [touches]; intros N; unfold spec.
  - destruct x; [destruct ok|]; apply put_ne; tauto.
  - destruct x; [destruct ok|]; apply put_ne; tauto.
  - destruct x; [destruct ok|]; apply put_ne; tauto.
  - destruct c; [|reflexivity]. destruct k; [destruct ok2|]; cbn [snd]; rewrite !put_ne by tauto; reflexivity.
  - destruct c, k; try destruct ok2; cbn [snd]; rewrite ?put_ne by tauto; reflexivity.
  - destruct pu, pr; try reflexivity. now destruct (ClientSsh.add_pair _ _ _ _ _).
  - now destruct (ClientSsh.del_pair _ _).
  - reflexivity.
  - reflexivity.
  - reflexivity.
  - tauto.
Qed.
Lemma specs_app a b o : specs (a ++ b) o = let '(r, o1) := specs a o in let '(r2, o2) := specs b o1 in (r ++ r2, o2).
Proof.
  revert o. induction a as [|c a IH]; intros o; cbn [specs app].
  - now destruct (specs b o).
  - destruct (spec c o) as [r o1]. rewrite IH. destruct (specs a o1) as [ra o2]. now destruct (specs b o2).
Qed.

(** A value is read back unless it was changed meanwhile; whatever was called before. *)
Theorem c194_read_back_partial : forall before c f x between, Forall harmless (before ++ c :: between) ->
  sets f x c -> Forall (fun c => ~ touches f c) between ->
  exists rs s, run (before ++ c :: between ++ [Get f]) init = Some (rs ++ [RStr (Some x)], s).
Proof.
  intros before c f x between H S B.
  assert (H' : Forall harmless (before ++ c :: between ++ [Get f])).
  { rewrite app_comm_cons, app_assoc. apply Forall_app. split; [exact H|]. constructor; [exact Logic.I|constructor]. }
  destruct (c194_kept_partial _ H') as [s R]. rewrite R.
  replace (before ++ c :: between ++ [Get f]) with ((before ++ [c]) ++ between ++ [Get f]) by now rewrite <- app_assoc.
  rewrite specs_app, specs_app. destruct (specs before fresh_opts) as [r1 o1]. cbn [specs].
  pose proof (spec_sets f x c o1 S) as E. destruct (spec c o1) as [r2 o2]. cbn [snd] in E. rewrite specs_app.
  assert (Q : o_str (snd (specs between o2)) f = Some x).
  { clear - B E. revert o2 E. induction between as [|b l IH]; intros o2 E; cbn [specs]; [exact E|]. inversion B as [|? ? B1 B2]; subst.
    pose proof (spec_other f b o2 B1) as O. destruct (spec b o2) as [r o3]. cbn [snd] in O. specialize (IH B2 o3 ltac:(congruence)).
    destruct (specs l o3) as [rs o4]. exact IH. }
  destruct (specs between o2) as [r3 o3]. cbn [snd] in Q. cbn [specs spec]. rewrite Q. cbn [fst].
  exists ((r1 ++ [r2]) ++ r3), s. now rewrite !app_assoc.
Qed.

Definition c194_calls : list call :=
  [User Plain true (Some (bs "joe")); Cert Ch true true (Some (bs "c.pem")) (Some (bs "k.pem")); Known Plain true (Some (bs "hosts"));
   Cert Ch true false (Some (bs "d.pem")) (Some (bs "l.pem")); Get (FKey Ch); Get (FUser Plain)].
Example c194_example : Forall harmless c194_calls /\ option_map fst (run c194_calls init) =
  Some [RInt 0; RInt 0; RInt 0; RInt (-1); RStr None; RStr (Some (bs "joe"))].
Proof. split; [repeat constructor|vm_compute; reflexivity]. Qed.

(* ------------------------------------------------------------------ *)
(** ** C195: no string of the options is used or released after it was released *)

Definition c195_full : Prop := forall cs, run cs init <> None.
Theorem c195_safe_partial : forall cs, Forall harmless cs -> run cs init <> None.
Proof. intros cs H. destruct (c194_kept_partial cs H) as [s R]. congruence. Qed.

(** The certificate cannot be stored: key_path stays what it was, although released; nc_client_destroy() releases it again. *)
Theorem c195_cert_refuted : exists c k c' k', run [Cert Plain true true (Some c) (Some k); Cert Plain false true (Some c') (Some k'); Destroy] init = None.
Proof. exists (bs "c.pem"), (bs "k.pem"), (bs "d.pem"), (bs "l.pem"). vm_compute. reflexivity. Qed.
(** The same with the directory of certificates. *)
Theorem c195_ca_refuted : exists c k c' k', run [Ca Plain true true (Some c) (Some k); Ca Plain false true (Some c') (Some k'); Get (FCaDir Plain)] init = None.
Proof. exists (bs "ca.pem"), (bs "/ca"), (bs "cb.pem"), (bs "/cb"). vm_compute. reflexivity. Qed.
(** The table of pairs cannot grow: it is gone, but not the count; the next access is through NULL. *)
Theorem c195_table_refuted : exists real file a b, 
  run [AddKey Plain true real file (Some a) (Some a); AddKey Plain false real file (Some b) (Some b); Destroy] init = None.
Proof. exists (fun x => Some x), (fun _ => None), (bs "/a"), (bs "/b"). vm_compute. reflexivity. Qed.
(** An index below 0 is not refused. *)
Theorem c195_index_refuted : exists real file a, run [AddKey Plain true real file (Some a) (Some a); DelKey Plain true (-1)] init = None.
Proof. exists (fun x => Some x), (fun _ => None), (bs "/a"). vm_compute. reflexivity. Qed.
Theorem c195_full_refuted : ~ c195_full.
Proof. intros H. destruct c195_cert_refuted as (c & k & c' & k' & E). now apply H in E. Qed.
Theorem c194_full_refuted : ~ c194_full.
Proof. intros H. destruct c195_cert_refuted as (c & k & c' & k' & E). specialize (H [Cert Plain true true (Some c) (Some k); Cert Plain false true (Some c') (Some k'); Destroy]). destruct H as [s X]. rewrite E in X. discriminate X. Qed.

(* ------------------------------------------------------------------ *)
(** ** C196: nothing is left at the end *)

(** Blocks allocated and not released. *)
Definition left_over (s : st) (a : nat) : Prop := heap s a <> None.
Definition c196_full : Prop := forall cs, exists rs s, run (cs ++ [Destroy]) init = Some (rs, s) /\ forall a, ~ left_over s a.

(** The table of pairs is gone as well. *)
Lemma destroy_keys w s o s' : Rep w s o -> destroy s = Some s' -> forall d, keys s' d = None.
Proof.
  intros R D d. unfold destroy in D. destruct (clear_ok FSearch _ _ _ R) as (s1 & w1 & E1 & R1). rewrite E1 in D. cbn [bind] in D.
  assert (SD : forall d w s o s', Rep w s o -> ssh_destroy d s = Some s' -> keys s' d = None /\ forall e, e <> d -> keys s' e = keys s e).
  { clear. intros d w s o s' R D. destruct (pairs_gone d w s o R) as (t1 & t2 & w2 & A & B & R2). unfold ssh_destroy in D. rewrite A in D. cbn [bind] in D.
    rewrite B in D. cbn [bind] in D.
    assert (CK : forall f s s', clear f s = Some s' -> keys s' = keys s).
    { clear. intros f s s' C. unfold clear in C. destruct (free (strs s f) s) as [t|] eqn:F; [|discriminate]. injection C as <-. cbn.
      unfold free in F. destruct (strs s f) as [a|]; [destruct (heap s a); [|discriminate]|]; injection F as <-; reflexivity. }
    destruct (clear (FUser d) _) as [t3|] eqn:E3; [|discriminate]. cbn [bind] in D. rewrite (CK _ _ _ D), (CK _ _ _ E3). cbn. rewrite side_eqb_refl.
    split; [reflexivity|]. intros e Ne. rewrite side_eqb_ne by assumption.
    assert (K2 : keys t2 = keys t1). { unfold free in B. destruct (keys t1 d) as [a|]; [destruct (heap t1 a); [|discriminate]|]; injection B as <-; reflexivity. }
    assert (K1 : forall n i s s', free_pairs d i n s = Some s' -> keys s' = keys s).
    { clear. assert (FK : forall p s s', free p s = Some s' -> keys s' = keys s).
      { intros p s s' F. unfold free in F. destruct p as [a|]; [destruct (heap s a); [|discriminate]|]; injection F as <-; reflexivity. }
      induction n as [|n IH]; intros i s s' H; cbn [free_pairs] in H; [congruence|]. destruct (key_at d i s) as [k|]; [|discriminate].
      destruct (free (k_pub k) s) as [s1|] eqn:F1; [|discriminate]. destruct (free (k_priv k) s1) as [s2|] eqn:F2; [|discriminate].
      rewrite (IH _ _ _ H), (FK _ _ _ F2), (FK _ _ _ F1). reflexivity. }
    rewrite K2, (K1 _ _ _ _ A). reflexivity. }
  assert (TD : forall d s s', tls_destroy d s = Some s' -> keys s' = keys s).
  { clear. intros d s s' D.
    assert (CK : forall f s s', clear f s = Some s' -> keys s' = keys s).
    { clear. intros f s s' C. unfold clear in C. destruct (free (strs s f) s) as [t|] eqn:F; [|discriminate]. injection C as <-. cbn.
      unfold free in F. destruct (strs s f) as [a|]; [destruct (heap s a); [|discriminate]|]; injection F as <-; reflexivity. }
    unfold tls_destroy in D. destruct (clear (FCert d) s) as [s1|] eqn:E1; [|discriminate]. cbn [bind] in D.
    destruct (clear (FKey d) s1) as [s2|] eqn:E2; [|discriminate]. cbn [bind] in D.
    destruct (clear (FCaFile d) s2) as [s3|] eqn:E3; [|discriminate]. cbn [bind] in D.
    rewrite (CK _ _ _ D), (CK _ _ _ E3), (CK _ _ _ E2), (CK _ _ _ E1). reflexivity. }
  destruct (ssh_destroy_ok Plain _ _ _ R1) as (s2 & w2 & E2 & R2). rewrite E2 in D. cbn [bind] in D.
  destruct (ssh_destroy_ok Ch _ _ _ R2) as (s3 & w3 & E3 & R3). rewrite E3 in D. cbn [bind] in D.
  destruct (tls_destroy_ok Plain _ _ _ R3) as (s4 & w4 & E4 & R4). rewrite E4 in D. cbn [bind] in D.
  rewrite (TD _ _ _ D), (TD _ _ _ E4). destruct (SD _ _ _ _ _ R1 E2) as [A1 A2]. destruct (SD _ _ _ _ _ R2 E3) as [B1 B2].
  destruct d; [rewrite B2 by discriminate; exact A1|exact B1].
Qed.

Theorem c196_nothing_left_partial : forall cs, Forall harmless cs -> exists rs s, run (cs ++ [Destroy]) init = Some (rs, s) /\ forall a, ~ left_over s a.
Proof.
  intros cs H. destruct (run_ok cs _ _ _ rep_init H) as (s & w & A & R). destruct (destroy_ok _ _ _ R) as (s' & w' & D & R').
  exists (fst (specs cs fresh_opts) ++ [RVoid]), s'. split.
  - clear - A D. revert A. generalize init as i, (fst (specs cs fresh_opts)) as rs. induction cs as [|c cs IH]; intros i rs A; cbn [run app] in *.
    + injection A as <- <-. cbn [step]. rewrite D. reflexivity.
    + destruct (step c i) as [[r i']|]; [|discriminate]. destruct (run cs i') as [[rs' s'']|] eqn:E; [|discriminate]. injection A as <- <-.
      rewrite (IH i' rs' E). reflexivity.
  - intros a L. destruct (heap s' a) as [b|] eqn:E; [|now apply L]. destruct (o_all _ _ (r_own _ _ _ R') _ _ E) as [o O]. destruct o as [f|d|d i|d i].
    + destruct (r_str _ _ _ R' f) as [_ Q]. rewrite O in Q. cbn in Q. discriminate.
    + destruct (r_key _ _ _ R' d) as (_ & Q & _). rewrite O, (destroy_keys _ _ _ _ R D) in Q. discriminate.
    + destruct (r_key _ _ _ R' d) as (_ & _ & _ & Q). destruct (Q i) as [Q1 _]; [cbn; lia|]. congruence.
    + destruct (r_key _ _ _ R' d) as (_ & _ & _ & Q). destruct (Q i) as [_ Q1]; [cbn; lia|]. congruence.
Qed.
(** The paths of the pairs are lost with the table. *)
Theorem c196_table_refuted : exists real file a b rs s, 
  run [AddKey Plain true real file (Some a) (Some a); AddKey Plain false real file (Some b) (Some b)] init = Some (rs, s) /\
  exists x, left_over s x /\ keys s Plain = None /\ forall f, strs s f <> Some x.
Proof.
  exists (fun x => Some x), (fun _ => None), (bs "/a"), (bs "/b"). do 2 eexists. split; [vm_compute; reflexivity|].
  exists 1. split; [vm_compute; discriminate|]. split; [reflexivity|]. intros f. vm_compute. discriminate.
Qed.
Definition c196_calls : list call :=
  let real := fun x => if beqb x (bs "no") then None else Some x in let file := fun _ => @None bytes in
  [User Ch true (Some (bs "joe")); AddKey Ch true real file (Some (bs "a.pub")) (Some (bs "a")); AddKey Ch true real file (Some (bs "b.pub")) (Some (bs "b"));
   AddKey Ch true real file (Some (bs "c.pub")) (Some (bs "no")); AddKey Ch true real file (Some (bs "d.pub")) (Some (bs "d")); DelKey Ch true 0;
   GetKey Ch 0; Count Ch; Ca Plain true true None (Some (bs "/ca")); Destroy; Count Ch].
Example c196_example : Forall harmless c196_calls /\ option_map fst (run c196_calls init) =
  Some [RInt 0; RInt 0; RInt 0; RInt (-1); RInt 0; RInt 0; RKeys (Some (bs "d.pub", bs "d")); RInt 2; RInt 0; RVoid; RInt 0].
Proof. split; [repeat constructor; cbn; auto; discriminate|vm_compute; reflexivity]. Qed.

(* ------------------------------------------------------------------ *)
(** ** C197: Call Home has its own options *)

(** The calls a user of side [d] makes; the search path and the end are common. *)
Definition of_side (d : side) (c : call) : bool :=
  match c with
  | Search _ _ | Get FSearch | Destroy => true
  | Known e _ _ | User e _ _ | Cert e _ _ _ _ | Ca e _ _ _ _ | AddKey e _ _ _ _ _ | DelKey e _ _ | GetKey e _ | Count e => side_eqb e d
  | Get (FCert e) | Get (FKey e) | Get (FCaFile e) | Get (FCaDir e) | Get (FUser e) | Get (FKnown e) => side_eqb e d
  end.
Fixpoint results_of (d : side) (cs : list call) (rs : list res) : list res :=
  match cs, rs with
  | c :: cs, r :: rs => if of_side d c then r :: results_of d cs rs else results_of d cs rs
  | _, _ => []
  end.
Definition fside (d : side) (f : fld) : bool :=
  match f with FSearch => true | FCert e | FKey e | FCaFile e | FCaDir e | FUser e | FKnown e => side_eqb e d end.
Definition agree (d : side) (o o' : opts) : Prop := (forall f, fside d f = true -> o_str o f = o_str o' f) /\ o_keys o d = o_keys o' d.

Lemma agree_put d o o' f x : agree d o o' -> agree d (put o f x) (put o' f x).
Proof. intros [A B]. split; [|exact B]. intros g Hg. cbn. destruct (fld_eqb g f); auto. Qed.
Lemma agree_put_l d o o' f x : fside d f = false -> agree d o o' -> agree d (put o f x) o'.
Proof. intros N [A B]. split; [|exact B]. intros g Hg. cbn. rewrite fld_eqb_ne by congruence. auto. Qed.
Lemma agree_putk d o o' l : agree d o o' -> agree d (putk o d l) (putk o' d l).
Proof. intros [A B]. split; [exact A|]. cbn. now rewrite side_eqb_refl. Qed.
Lemma agree_putk_l d o o' e l : side_eqb e d = false -> agree d o o' -> agree d (putk o e l) o'.
Proof. intros N [A B]. split; [exact A|]. cbn. rewrite side_eqb_ne; [exact B|]. intros ->. now rewrite side_eqb_refl in N. Qed.

Lemma spec_agree d c o o' : agree d o o' -> of_side d c = true -> fst (spec c o) = fst (spec c o') /\ agree d (snd (spec c o)) (snd (spec c o')).
Proof.
  intros A H. unfold spec. destruct c; cbn [of_side] in H;
    repeat match goal with
           | H : side_eqb ?e d = true |- _ => apply side_eqb_spec in H; subst e
           | |- context [match ?x with Some _ => _ | None => _ end] => destruct x
           | |- context [if ?x then _ else _] => destruct x
           end; cbn [fst snd]; auto using agree_put.
  - rewrite (proj2 A). destruct (ClientSsh.add_pair _ _ _ _ _). cbn. auto using agree_putk.
  - rewrite (proj2 A). destruct (ClientSsh.del_pair _ _). cbn. auto using agree_putk.
  - split; [|exact A]. f_equal. apply A. destruct f; assumption.
  - now rewrite (proj2 A).
  - now rewrite (proj2 A).
  - split; [reflexivity|]. now split.
Qed.
Lemma spec_apart d c o o' : agree d o o' -> of_side d c = false -> agree d (snd (spec c o)) o'.
Proof.
  intros A H. unfold spec. destruct c; cbn [of_side] in H; try discriminate;
    repeat match goal with
           | |- context [match ?x with Some _ => _ | None => _ end] => destruct x
           | |- context [if ?x then _ else _] => destruct x
           end; cbn [fst snd]; auto using agree_put_l.
  - destruct (ClientSsh.add_pair _ _ _ _ _). cbn. auto using agree_putk_l.
  - destruct (ClientSsh.del_pair _ _). cbn. auto using agree_putk_l.
Qed.

(** What one side sees is what it would see if the other did nothing. *)
Theorem c197_separate_partial : forall d cs rs s rs' s', Forall harmless cs ->
  run cs init = Some (rs, s) -> run (filter (of_side d) cs) init = Some (rs', s') -> results_of d cs rs = rs'.
Proof.
  intros d cs rs s rs' s' H R R'.
  destruct (c194_kept_partial cs H) as [t T]. rewrite T in R. injection R as <- _.
  assert (H' : Forall harmless (filter (of_side d) cs)).
  { clear - H. induction H; cbn; [constructor|]. destruct (of_side d x); [constructor|]; assumption. }
  destruct (c194_kept_partial _ H') as [t' T']. rewrite T' in R'. injection R' as <- _. clear.
  enough (G : forall o o', agree d o o' -> results_of d cs (fst (specs cs o)) = fst (specs (filter (of_side d) cs) o')) by (apply G; now split).
  induction cs as [|c cs IH]; intros o o' A; cbn [specs filter].
  - reflexivity.
  - destruct (of_side d c) eqn:E.
    + destruct (spec_agree d c o o' A E) as [F G]. cbn [specs]. destruct (spec c o) as [r o1], (spec c o') as [r' o1']. cbn [fst snd] in *.
      specialize (IH o1 o1' G). destruct (specs cs o1) as [x y], (specs (filter (of_side d) cs) o1') as [x' y']. cbn [fst results_of] in *. rewrite E. congruence.
    + pose proof (spec_apart d c o o' A E) as G. destruct (spec c o) as [r o1]. cbn [snd] in G. specialize (IH o1 o' G).
      destruct (specs cs o1) as [x y]. cbn [fst results_of] in *. now rewrite E.
Qed.
(** Without the conditions: calls of the other side can end in undefined behaviour, which is seen on both. *)
Definition c197_full : Prop := forall d cs rs' s', run (filter (of_side d) cs) init = Some (rs', s') ->
  exists rs s, run cs init = Some (rs, s) /\ results_of d cs rs = rs'.
Theorem c197_full_refuted : ~ c197_full.
Proof.
  intros F. specialize (F Ch [Cert Plain true true (Some (bs "c")) (Some (bs "k")); Cert Plain false true (Some (bs "d")) (Some (bs "l")); Get (FKey Plain)]).
  destruct (F _ _ eq_refl) as (rs & s & R & _). vm_compute in R. discriminate R.
Qed.
Example c197_example :
  let cs := [User Ch true (Some (bs "a")); User Plain true (Some (bs "b")); Get (FUser Ch)] in
  filter (of_side Ch) cs = [User Ch true (Some (bs "a")); Get (FUser Ch)] /\
  option_map fst (run (filter (of_side Ch) cs) init) = Some [RInt 0; RStr (Some (bs "a"))].
Proof. vm_compute. auto. Qed.

(* ------------------------------------------------------------------ *)
(** ** C198: the order of methods if nothing was set *)

(** session_client.h 325-328. *)
Definition documented (m : ClientSsh.meth) : Z := match m with ClientSsh.Interactive => 3 | ClientSsh.Password => 2 | ClientSsh.PublicKey => 1 end%Z.
(** A method is tried only after those offered that come before it. *)
Definition follows (before : ClientSsh.meth -> ClientSsh.meth -> Prop) : Prop := forall rm pre m post x,
  tried (snd (ClientSsh.connect default_pref rm)) = pre ++ m :: post -> ClientSsh.r_offers rm x = true -> before x m -> In x pre.
Definition c198_full : Prop := follows (fun x m => (documented m < documented x)%Z).
(** The order is the opposite: a public key, a password, interactively. *)
Theorem c198_fixed_order_partial : follows (fun x m => (documented x < documented m)%Z).
Proof.
  intros rm pre m post x E O L. destruct (c86_order default_pref rm) as (_ & _ & H). apply (H pre m post x E O). destruct m, x; cbn in *; lia.
Qed.
Definition c198_remote : ClientSsh.remote :=
  {| ClientSsh.r_conn := ClientSsh.COk; ClientSsh.r_mode := ClientSsh.Strict; ClientSsh.r_host := anyhost; ClientSsh.r_none := ClientSsh.ADenied;
     ClientSsh.r_offers := fun m => negb (ClientSsh.meth_eqb m ClientSsh.Password); ClientSsh.r_password := None;
     ClientSsh.r_kbd := [ClientSsh.KAns ClientSsh.ASuccess]; ClientSsh.r_keys := [] |}.
Theorem c198_documented_refuted : ~ c198_full.
Proof.
  intros H. specialize (H c198_remote [] ClientSsh.PublicKey [ClientSsh.Interactive] ClientSsh.Interactive).
  apply H; [vm_compute; reflexivity|reflexivity|reflexivity].
Qed.
Example c198_example : tried (snd (ClientSsh.connect default_pref c198_remote)) = [ClientSsh.PublicKey; ClientSsh.Interactive].
Proof. vm_compute. reflexivity. Qed.

Print Assumptions c194_kept_partial.
Print Assumptions c194_read_back_partial.
Print Assumptions c195_safe_partial.
Print Assumptions c195_cert_refuted.
Print Assumptions c195_ca_refuted.
Print Assumptions c195_table_refuted.
Print Assumptions c195_index_refuted.
Print Assumptions c195_full_refuted.
Print Assumptions c194_full_refuted.
Print Assumptions c197_full_refuted.
Print Assumptions c196_nothing_left_partial.
Print Assumptions c196_table_refuted.
Print Assumptions c197_separate_partial.
Print Assumptions c198_fixed_order_partial.
Print Assumptions c198_documented_refuted.
