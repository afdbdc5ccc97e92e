(** Properties of the configuration of the keystore and the truststore: C137-C139. *)
From Coq Require Import String List Arith Bool NArith ZArith Lia Permutation.
From Verif Require Import Bytes ChConf KsTs Prop_ChConf.
Import ListNotations.
Local Open Scope list_scope.

(* ------------------------------------------------------------------ *)
(** ** Specification *)

(** The configuration: lists of keys and bags, each with its leafs and a list of certificates or public keys with
    their leafs. *)
(** A leaf was never said, was removed ([v] was its value), or is given. *)
Inductive lv := Unsaid | Removed (v : bytes) | Given (v : bytes).
Definition given (v : lv) : Prop := match v with Given _ => True | _ => False end.
Definition leafs := string -> lv.
Definition entry := (bytes * leafs)%type.
Definition bag := (bytes * (leafs * list entry))%type.
Definition conf := kind -> list bag.
Definition empty : conf := fun _ => [].

Inductive edit :=
| EAdd (k : kind) (n : bytes) | EDel (k : kind) (n : bytes) | EClear (k : kind) | EClearTs
| ELeaf (n : bytes) (l : string) (v : lv)
| EIAdd (k : kind) (n m : bytes) | EIDel (k : kind) (n m : bytes) | EILeaf (k : kind) (n m : bytes) (l : string) (v : lv)
| ENothing | EBad.

Definition kind_dec (a b : kind) : {a = b} + {a <> b}. Proof. decide equality. Defined.
Definition at_kind (c : conf) (k : kind) (f : list bag -> list bag) : conf := fun x => if kind_dec x k then f (c x) else c x.
Definition at_name {B} (n : bytes) (f : B -> B) (l : list (bytes * B)) : list (bytes * B) :=
  map (fun x => if beqb (fst x) n then (fst x, f (snd x)) else x) l.
Definition without {B} (n : bytes) (l : list (bytes * B)) : list (bytes * B) := filter (fun x => negb (beqb (fst x) n)) l.
Definition put_leaf (l : string) (v : lv) (f : leafs) : leafs := fun x => if String.eqb x l then v else f x.
Definition nothing : leafs := fun _ => Unsaid.

Definition do_edit (c : conf) (e : edit) : conf :=
  match e with
  | EAdd k n => at_kind c k (fun l => l ++ [(n, (nothing, []))])
  | EDel k n => at_kind c k (without n)
  | EClear k => at_kind c k (fun _ => [])
  | EClearTs => at_kind (at_kind c CertBags (fun _ => [])) KeyBags (fun _ => [])
  | ELeaf n l v => at_kind c Keys (at_name n (fun x => (put_leaf l v (fst x), snd x)))
  | EIAdd k n m => at_kind c k (at_name n (fun x => (fst x, snd x ++ [(m, nothing)])))
  | EIDel k n m => at_kind c k (at_name n (fun x => (fst x, without m (snd x))))
  | EILeaf k n m l v => at_kind c k (at_name n (fun x => (fst x, at_name m (put_leaf l v) (snd x))))
  | ENothing | EBad => c
  end.

(** Edits that keep the data valid: names of a list are different, only what is there is changed or deleted, leafs
    that are mandatory are not deleted alone. *)
Definition has {B} (n : bytes) (l : list (bytes * B)) : Prop := In n (map fst l).
Definition has_inner (c : conf) (k : kind) (n m : bytes) : Prop := exists x, In x (c k) /\ fst x = n /\ has m (snd (snd x)).
Definition yang_ok (c : conf) (e : edit) : Prop :=
  match e with
  | EAdd k n => ~ has n (c k)
  | EDel k n => has n (c k)
  | ELeaf n _ _ => has n (c Keys)
  | EIAdd k n m => has n (c k) /\ ~ has_inner c k n m
  | EIDel k n m => has_inner c k n m
  | EILeaf k n m _ v => has_inner c k n m /\ given v
  | EBad => False
  | _ => True
  end.
(** What the server is able to follow: the public key of a key of the keystore is not removed alone, the formats are known, and there are no more than 65535 entries in a list. *)
Definition pub_known (v : lv) : Prop :=
  match v with Given x => x = bs "ssh-public-key-format" \/ x = bs "subject-public-key-info-format" | _ => True end.
Definition priv_known (v : bytes) : Prop :=
  In v [bs "rsa-private-key-format"; bs "ec-private-key-format"; bs "private-key-info-format"; bs "openssh-private-key-format"].
Definition small {B} (l : list B) : Prop := (N.of_nat (length l) < 65535)%N.
Definition safe (c : conf) (e : edit) : Prop :=
  match e with
  | EAdd k _ => small (c k)
  | EIAdd k n _ => forall x, In x (c k) -> fst x = n -> small (snd (snd x))
  | ELeaf _ l v =>
      (l = "public-key" -> given v)%string /\ (l = "public-key-format" -> pub_known v)%string /\
      (l = "private-key-format" -> match v with Given x | Removed x => priv_known x | Unsaid => True end)%string
  | EILeaf _ _ _ l v => (l = "public-key-format")%string -> pub_known v
  | _ => True
  end.
Fixpoint all_ok (c : conf) (es : list edit) : Prop :=
  match es with [] => True | e :: r => yang_ok c e /\ safe c e /\ all_ok (do_edit c e) r end.
Fixpoint all_yang (c : conf) (es : list edit) : Prop :=
  match es with [] => True | e :: r => yang_ok c e /\ all_yang (do_edit c e) r end.

(** *** Reading a diff: [owner] (Prop_ChConf) is the key of the nearest list of that name. *)
Definition leaf_val (d : dnode) (o : op) : lv := match o with OCreate | OReplace => Given (d_str d) | _ => Removed (d_str d) end.
Definition olist (k : kind) : string :=
  match k with Keys => "asymmetric-key" | CertBags => "certificate-bag" | KeyBags => "public-key-bag" end.
Definition ilist (k : kind) : string := match k with KeyBags => "public-key" | _ => "certificate" end.
Definition on_bag (k : kind) (p : list dnode) (f : bytes -> edit) : edit :=
  match owner (olist k) p with Some n => f n | None => EBad end.
Definition on_entry (k : kind) (p : list dnode) (f : bytes -> bytes -> edit) : edit :=
  on_bag k p (fun n => match owner (ilist k) p with Some m => f n m | None => EBad end).
Definition cont (o : op) (new del : edit) : edit := match o with OCreate => new | ODelete => del | _ => EBad end.
Definition edit_ks (p : list dnode) (o : op) : edit :=
  match p with
  | [] => ENothing
  | d :: _ =>
    let is n := beqb (d_name d) (bs n) in
    if is "keystore" || is "asymmetric-keys" then cont o ENothing (EClear Keys)
    else if is "asymmetric-key" then (if d_list d then on_bag Keys p (fun n => cont o (EAdd Keys n) (EDel Keys n)) else EBad)
    else if is "certificate" then (if d_list d then on_entry Keys p (fun n m => cont o (EIAdd Keys n m) (EIDel Keys n m)) else EBad)
    else match find is ["public-key-format"; "public-key"; "private-key-format"; "cleartext-private-key"] with
         | Some l => on_bag Keys p (fun n => ELeaf n l (leaf_val d o))
         | None => if is "cert-data" then on_entry Keys p (fun n m => EILeaf Keys n m "cert-data" (leaf_val d o)) else ENothing
         end
  end%string.
Definition edit_ts (p : list dnode) (o : op) : edit :=
  match p with
  | [] => ENothing
  | d :: _ =>
    let is n := beqb (d_name d) (bs n) in
    if is "truststore" then cont o ENothing EClearTs
    else if is "certificate-bags" then cont o ENothing (EClear CertBags)
    else if is "public-key-bags" then cont o ENothing (EClear KeyBags)
    else if is "certificate-bag" then (if d_list d then on_bag CertBags p (fun n => cont o (EAdd CertBags n) (EDel CertBags n)) else EBad)
    else if is "public-key-bag" then (if d_list d then on_bag KeyBags p (fun n => cont o (EAdd KeyBags n) (EDel KeyBags n)) else EBad)
    else if is "certificate" then (if d_list d then on_entry CertBags p (fun n m => cont o (EIAdd CertBags n m) (EIDel CertBags n m)) else EBad)
    else if is "cert-data" then on_entry CertBags p (fun n m => EILeaf CertBags n m "cert-data" (leaf_val d o))
    else if is "public-key" && d_list d then on_entry KeyBags p (fun n m => cont o (EIAdd KeyBags n m) (EIDel KeyBags n m))
    else match find is ["public-key"; "public-key-format"] with
         | Some l => on_entry KeyBags p (fun n m => EILeaf KeyBags n m l (leaf_val d o))
         | None => ENothing
         end
  end%string.
(** The edits of a tree, in order. *)
Fixpoint tree_edits (f : list dnode -> op -> edit) (d : dnode) (anc : list dnode) (parent : option op) : list edit :=
  match d with
  | DN _ _ m _ _ _ kids =>
      match own_op m parent with
      | None => [EBad]
      | Some ONone => flat_map (fun k => tree_edits f k (d :: anc) (Some ONone)) kids
      | Some ODelete => [f (d :: anc) ODelete]
      | Some o => f (d :: anc) o :: flat_map (fun k => tree_edits f k (d :: anc) (Some o)) kids
      end
  end.
Definition opt_edits (f : list dnode -> op -> edit) (d : option dnode) (parent : option op) : list edit :=
  match d with Some d => tree_edits f d [] parent | None => [] end.
(** What the schemas say of a tree: nodes named as one of the lists are the lists, with their key first; the list
    public-key is in public-key-bag, the leaf is in the list and has no children. *)
Definition shape (p : list dnode) : bool :=
  match p with
  | [] => true
  | d :: anc =>
    let is n := beqb (d_name d) (bs n) in
    let keyed := match d_kids d with k :: _ => beqb (d_name k) (bs "name") | [] => false end in
    if is "asymmetric-key" || is "certificate-bag" || is "public-key-bag" || is "certificate" then d_list d && keyed
    else if is "public-key" then
      (if d_list d then keyed && match anc with a :: _ => beqb (d_name a) (bs "public-key-bag") | [] => false end
       else match d_kids d with [] => true | _ => false end &&
            match anc with a :: _ => negb (beqb (d_name a) (bs "public-key-bag")) | [] => false end)
    else true
  end%string.
Fixpoint shaped (d : dnode) (anc : list dnode) : bool :=
  match d with DN _ _ _ _ _ _ kids => shape (d :: anc) && forallb (fun k => shaped k (d :: anc)) kids end.

(** *** The server has a configuration. *)
Definition data_is (v : lv) (d : option bytes) : Prop := match v with Given x => d = Some x | _ => d = None end.
Definition pubfmt_is (v : lv) (t : nat) : Prop :=
  match v with
  | Given x => (x = bs "ssh-public-key-format" /\ t = 1) \/ (x = bs "subject-public-key-info-format" /\ t = 2)
  | _ => True
  end.
Definition privfmt_is (v : lv) (t : nat) : Prop :=
  match v with
  | Given x => In (x, t) [(bs "rsa-private-key-format", 1); (bs "ec-private-key-format", 2);
                          (bs "private-key-info-format", 3); (bs "openssh-private-key-format", 4)]
  | _ => True
  end.
Definition inner_is (k : kind) (x : entry) (y : inner) : Prop :=
  i_name y = fst x /\
  match k with
  | KeyBags => data_is (snd x "public-key"%string) (i_data y) /\ pubfmt_is (snd x "public-key-format"%string) (i_type y)
  | _ => data_is (snd x "cert-data"%string) (i_data y)
  end.
(** The same entries, in any order. *)
Definition rel {A B} (R : B -> A -> Prop) (c : list B) (l : list A) : Prop := exists l', Permutation l' l /\ Forall2 R c l'.
Definition outer_is (k : kind) (x : bag) (y : outer) : Prop :=
  o_name y = fst x /\
  (k = Keys -> data_is (fst (snd x) "public-key"%string) (o_pub y) /\
               data_is (fst (snd x) "cleartext-private-key"%string) (o_priv y) /\
               pubfmt_is (fst (snd x) "public-key-format"%string) (o_ptype y) /\
               privfmt_is (fst (snd x) "private-key-format"%string) (o_vtype y)) /\
  rel (inner_is k) (snd (snd x)) (live (o_items y)).
Definition stores_are (c : conf) (s : st) : Prop := forall k, rel (outer_is k) (c k) (live (sel k s)).

(** Memory: every entry made is in use or was freed, once. *)
Definition oids (x : outer) : list nat := o_id x :: map i_id (live (o_items x)).
Definition in_use (s : st) : list nat := flat_map oids (live (keys s)) ++ flat_map oids (live (cbags s)) ++ flat_map oids (live (kbags s)).
Definition accounted (s : st) : Prop := Permutation (freed s ++ in_use s) (seq 0 (made s)).

(* ------------------------------------------------------------------ *)
(** ** Lists of entries with names *)

Section Gen.
Context {A B : Type} (nm : A -> bytes) (R : (bytes * B) -> A -> Prop).
Hypothesis R_nm : forall b a, R b a -> nm a = fst b.

Lemma find_at_some l n i x : find_at nm l n = Some (i, x) -> nth_error l i = Some x /\ nm x = n.
Proof.
  revert i x. induction l as [|y r IH]; intros i x; [discriminate|]. cbn. destruct (beqb (nm y) n) eqn:E.
  - intros [= <- <-]. split; [reflexivity|now apply beqb_spec].
  - destruct (find_at nm r n) as [[j z]|]; [|discriminate]. intros [= <- <-]. cbn. now apply IH.
Qed.
Lemma find_at_in l n : In n (map nm l) -> exists i x, find_at nm l n = Some (i, x).
Proof.
  induction l as [|y r IH]; [intros []|]. cbn. destruct (beqb (nm y) n) eqn:E; [eauto|].
  intros [H|H]; [subst; now rewrite beqb_refl in E|]. destruct (IH H) as (i & x & ->). cbn. eauto.
Qed.

Lemma f2_names c l : Forall2 R c l -> map nm l = map fst c.
Proof. induction 1; cbn; [reflexivity|]. f_equal; auto. Qed.
Lemma rel_names c l : rel R c l -> Permutation (map nm l) (map fst c).
Proof. intros (l' & P & F). rewrite <- (f2_names _ _ F). symmetry. now apply Permutation_map. Qed.
Lemma rel_length c l : rel R c l -> length l = length c.
Proof. intros H. apply rel_names in H. apply Permutation_length in H. now rewrite !map_length in H. Qed.
Lemma rel_nodup c l : rel R c l -> NoDup (map fst c) -> NoDup (map nm l).
Proof. intros H. apply Permutation_NoDup. symmetry. now apply rel_names. Qed.
Lemma rel_find c l n : rel R c l -> has n c -> exists i x, find_at nm l n = Some (i, x) /\ nth_error l i = Some x /\ nm x = n.
Proof.
  intros H I. destruct (find_at_in l n) as (i & x & E).
  - apply (Permutation_in n (Permutation_sym (rel_names _ _ H))), I.
  - exists i, x. split; [exact E|]. exact (find_at_some _ _ _ _ E).
Qed.
Lemma f2_in c l a : Forall2 R c l -> In a l -> exists b, In b c /\ R b a.
Proof.
  induction 1 as [|b a' c l H F IH]; [intros []|]. intros [<-|I]; [exists b; split; [now left|exact H]|].
  destruct (IH I) as (b' & I' & H'). exists b'. split; [now right|exact H'].
Qed.
Lemma rel_in c l a : rel R c l -> In a l -> exists b, In b c /\ R b a.
Proof. intros (l' & P & F) I. apply (f2_in _ _ _ F), (Permutation_in _ (Permutation_sym P)), I. Qed.

Lemma rel_add c l b a : rel R c l -> R b a -> rel R (c ++ [b]) (l ++ [a]).
Proof. intros (l' & P & F) H. exists (l' ++ [a]). split; [now apply Permutation_app_tail|]. apply Forall2_app; auto. Qed.

Lemma nth_unique l i x z : NoDup (map nm l) -> nth_error l i = Some x -> In z l -> nm z = nm x -> z = x.
Proof.
  revert i. induction l as [|y r IH]; intros i D E I N; [destruct i; discriminate|]. inversion D as [|? ? D1 D2]; subst.
  destruct i as [|i]; cbn in E.
  - injection E as ->. destruct I as [->|I]; [reflexivity|]. exfalso. apply D1. rewrite <- N. now apply in_map.
  - destruct I as [->|I]; [|now apply (IH i)]. exfalso. apply D1. rewrite N. apply in_map. now apply nth_error_In in E.
Qed.
Lemma set_at_map l i x y : NoDup (map nm l) -> nth_error l i = Some x ->
  set_at l i y = map (fun z => if beqb (nm z) (nm x) then y else z) l.
Proof.
  revert i. unfold set_at. induction l as [|z r IH]; intros i D E; [destruct i; discriminate|]. inversion D as [|? ? D1 D2]; subst.
  destruct i as [|i]; cbn in *.
  - injection E as ->. rewrite beqb_refl. f_equal. rewrite <- (map_id r) at 1. apply map_ext_in. intros w W.
    destruct (beqb (nm w) (nm x)) eqn:Q; [|reflexivity]. apply beqb_spec in Q. exfalso. apply D1. rewrite <- Q. now apply in_map.
  - destruct (beqb (nm z) (nm x)) eqn:Q.
    + apply beqb_spec in Q. exfalso. apply D1. rewrite Q. apply in_map. now apply nth_error_In in E.
    + f_equal. now apply IH.
Qed.

(** Changing one entry. *)
Lemma rel_upd c l i x y f :
  rel R c l -> NoDup (map fst c) -> nth_error l i = Some x ->
  (forall b, In b c -> fst b = nm x -> R b x -> R (fst b, f (snd b)) y) ->
  rel R (at_name (nm x) f c) (set_at l i y).
Proof.
  intros H D E G. pose proof (rel_nodup _ _ H D) as D'. rewrite (set_at_map l i x y D' E).
  destruct H as (l' & P & F). exists (map (fun z => if beqb (nm z) (nm x) then y else z) l'). split; [now apply Permutation_map|].
  assert (forall z, In z l' -> nm z = nm x -> z = x) as U.
  { intros z I N. apply (nth_unique l i x z D' E); [exact (Permutation_in _ P I)|exact N]. }
  clear P D D' E H || clear P D D' E. unfold at_name. induction F as [|b a c l' H F IH]; cbn; [constructor|]. constructor.
  - rewrite (R_nm _ _ H). destruct (beqb (fst b) (nm x)) eqn:Q; [|exact H]. apply beqb_spec in Q.
    apply G; [now left|exact Q|]. rewrite <- (U a); [exact H|now left|]. now rewrite (R_nm _ _ H).
  - apply IH; [intros b' I; apply G; now right|intros z I; apply U; now right].
Qed.
(** Removing one entry. *)
Lemma rel_without c l l1 x :
  rel R c l -> NoDup (map fst c) -> Permutation (x :: l1) l -> rel R (without (nm x) c) l1.
Proof.
  intros H D Q. pose proof (rel_nodup _ _ H D) as D'.
  assert (Permutation (filter (fun z => negb (beqb (nm z) (nm x))) l) l1) as PF.
  { assert (NoDup (nm x :: map nm l1)) as D1 by exact (Permutation_NoDup (Permutation_map nm (Permutation_sym Q)) D').
    assert (forall u v, Permutation u v -> Permutation (filter (fun z => negb (beqb (nm z) (nm x))) u) (filter (fun z => negb (beqb (nm z) (nm x))) v)) as FP.
    { induction 1 as [|w u v P' IH|w1 w2 u|u v w P1 IH1 P2 IH2]; cbn; auto.
      - destruct (negb _); auto.
      - destruct (negb (beqb (nm w1) (nm x))), (negb (beqb (nm w2) (nm x))); auto. constructor.
      - now rewrite IH1. }
    rewrite <- (FP _ _ Q). cbn. rewrite beqb_refl. cbn.
    assert (forall u, ~ In (nm x) (map nm u) -> filter (fun z => negb (beqb (nm z) (nm x))) u = u) as FI.
    { induction u as [|w u IH]; intros N; [reflexivity|]. cbn. destruct (beqb (nm w) (nm x)) eqn:E.
      - apply beqb_spec in E. exfalso. apply N. now left.
      - cbn. f_equal. apply IH. intros I. apply N. now right. }
    rewrite FI; [reflexivity|]. now inversion D1. }
  destruct H as (l' & P & F). exists (filter (fun z => negb (beqb (nm z) (nm x))) l'). split.
  - rewrite <- PF. clear - P. induction P as [|w u v P' IH|w1 w2 u|u v w P1 IH1 P2 IH2]; cbn; auto.
    + destruct (negb _); auto.
    + destruct (negb (beqb (nm w1) (nm x))), (negb (beqb (nm w2) (nm x))); auto. constructor.
    + now rewrite IH1.
  - clear P PF Q D D'. unfold without. induction F as [|b a c l' H F IH]; cbn; [constructor|].
    rewrite (R_nm _ _ H). destruct (negb _); auto.
Qed.
End Gen.

Lemma names_at_name {B} n (f : B -> B) l : map fst (at_name n f l) = map fst l.
Proof. unfold at_name. rewrite map_map. apply map_ext. intros [x y]. cbn. now destruct (beqb x n). Qed.
Lemma nodup_without {B} n (l : list (bytes * B)) : NoDup (map fst l) -> NoDup (map fst (without n l)).
Proof.
  induction l as [|[x y] r IH]; [auto|]. cbn. intros D. inversion D as [|? ? D1 D2]; subst. destruct (negb (beqb x n)); [|auto].
  cbn. constructor; [|auto]. intros I. apply D1. apply in_map_iff in I as (z & <- & I). apply in_map. now apply filter_In in I.
Qed.

(* ------------------------------------------------------------------ *)
(** ** Arrays in memory *)

Definition arr_ok {A} (a : arr A) : Prop := cnt a <= length (slots a).
Lemma live_len {A} (a : arr A) : arr_ok a -> length (live a) = cnt a.
Proof. unfold arr_ok, live. intros H. rewrite firstn_length. lia. Qed.
Lemma live_nth {A} (a : arr A) i x : nth_error (live a) i = Some x -> nth_error (slots a) i = Some x /\ i < cnt a.
Proof.
  unfold live. revert i. generalize (cnt a). generalize (slots a). intros l c. revert l. induction c as [|c IH]; intros l i H; [destruct i; discriminate|].
  destruct l as [|y l]; [destruct i; discriminate|]. destruct i as [|i]; cbn in *; [split; [exact H|lia]|].
  apply IH in H as [H1 H2]. split; [exact H1|lia].
Qed.
Lemma nth_live {A} (a : arr A) i : i < cnt a -> nth_error (live a) i = nth_error (slots a) i.
Proof.
  unfold live. revert i. generalize (cnt a). generalize (slots a). intros l c. revert l. induction c as [|c IH]; intros l i H; [lia|].
  destruct l as [|y l]; [now destruct i|]. destruct i as [|i]; cbn; [reflexivity|]. apply IH. lia.
Qed.
Lemma live_set_at {A} (l : list A) c i y : live (mkA (set_at l i y) c) = set_at (live (mkA l c)) i y.
Proof.
  unfold live, set_at. cbn. revert c i. induction l as [|x r IH]; intros c i; destruct c, i; cbn; auto. now rewrite IH.
Qed.
Lemma len_set_at {A} (l : list A) i y : length (set_at l i y) = length l.
Proof. unfold set_at. revert i. induction l as [|x r IH]; intros [|i]; cbn; auto. Qed.
Lemma nth_set_at {A} (l : list A) i j y : i <> j -> nth_error (set_at l i y) j = nth_error l j.
Proof. unfold set_at. revert i j. induction l as [|x r IH]; intros [|i] [|j] N; cbn; auto; lia. Qed.
Lemma nth_set_same {A} (l : list A) i y : i < length l -> nth_error (set_at l i y) i = Some y.
Proof. unfold set_at. revert i. induction l as [|x r IH]; intros [|i] N; cbn in *; auto; try lia. apply IH. lia. Qed.

Lemma perm_swap_del {A} (l : list A) c i x y :
  i < c -> nth_error l i = Some x -> nth_error l c = Some y ->
  Permutation (x :: firstn c (set_at l i y)) (firstn (S c) l).
Proof.
  unfold set_at. revert c i. induction l as [|z r IH]; intros c i L E1 E2; [destruct i; discriminate|].
  destruct c as [|c]; [lia|]. destruct i as [|i]; cbn [nth_error] in *.
  - injection E1 as ->. cbn [upd firstn]. constructor.
    clear IH L. revert c E2. induction r as [|w r IH]; intros c E2; [destruct c; discriminate|]. destruct c as [|c]; cbn in *.
    + injection E2 as ->. reflexivity.
    + rewrite perm_swap. constructor. now apply IH.
  - cbn [upd firstn]. rewrite perm_swap. constructor. apply (IH c i); auto. lia.
Qed.
Lemma firstn_last {A} (l : list A) c x : nth_error l c = Some x -> firstn (S c) l = firstn c l ++ [x].
Proof.
  revert c. induction l as [|y r IH]; intros c E; [destruct c; discriminate|]. destruct c as [|c]; cbn in *.
  - now injection E as ->.
  - f_equal. now apply IH.
Qed.

Lemma nodup_app_r {A} (l m : list A) : NoDup (l ++ m) -> NoDup m.
Proof. induction l as [|x r IH]; [auto|]. cbn. intros D. inversion D; auto. Qed.
Lemma nodup_app_l {A} (l m : list A) : NoDup (l ++ m) -> NoDup l.
Proof. intros D. apply (nodup_app_r m), (Permutation_NoDup (Permutation_app_comm l m)), D. Qed.

Section Del.
Context {A : Type} (fr : A -> list nat -> option (list nat)) (own : A -> list nat) (good : A -> Prop).
(** Freeing one entry frees what it owns. *)
Hypothesis FR : forall x f, good x -> NoDup (own x ++ f) -> exists f1, fr x f = Some f1 /\ Permutation f1 (own x ++ f).

Lemma del_at_ok a i x f :
  arr_ok a -> nth_error (live a) i = Some x -> good x -> NoDup (own x ++ f) ->
  exists a1 f1, del_at fr a i f = Some (a1, f1) /\ Permutation f1 (own x ++ f) /\ Permutation (x :: live a1) (live a) /\ arr_ok a1.
Proof.
  intros OK E G D. apply live_nth in E as [E L]. unfold del_at. rewrite E. destruct (FR x f G D) as (f1 & -> & P).
  destruct (Nat.eqb_spec (cnt a - 1) 0) as [Z|Z].
  - exists null, f1. repeat split; auto; [|unfold arr_ok; cbn; lia]. assert (cnt a = 1) as C by lia. assert (i = 0) as -> by lia.
    unfold live. rewrite C. destruct (slots a) as [|y r]; [discriminate|]. injection E as ->. reflexivity.
  - assert (S (cnt a - 1) = cnt a) as SC by lia.
    destruct (Nat.eqb_spec i (cnt a - 1)) as [I|I].
    + exists (mkA (slots a) (cnt a - 1)), f1. repeat split; auto; [|unfold arr_ok in *; cbn; lia].
      unfold live. cbn [slots cnt]. rewrite <- SC at 2. subst i. rewrite (firstn_last _ _ _ E). apply Permutation_cons_append.
    + destruct (nth_error (slots a) (cnt a - 1)) as [y|] eqn:EY.
      * exists (mkA (set_at (slots a) i y) (cnt a - 1)), f1. repeat split; auto.
        -- unfold live. cbn [slots cnt]. rewrite <- SC at 2. apply perm_swap_del; auto. lia.
        -- unfold arr_ok in *. cbn [slots cnt]. rewrite len_set_at. lia.
      * exfalso. apply nth_error_None in EY. unfold arr_ok in OK. lia.
Qed.

(** The loop deletes every entry once although the array changes in it. *)
Lemma del_loop_ok m : forall a i f rest,
  cnt a = m -> i + m <= length (slots a) \/ m = 0 -> rest = firstn m (skipn i (slots a)) ->
  Forall good rest -> NoDup (flat_map own rest ++ f) ->
  exists a1 f1, del_loop fr a i m f = Some (a1, f1) /\ Permutation f1 (flat_map own rest ++ f) /\ (m <> 0 -> a1 = null) /\ (m = 0 -> a1 = a).
Proof.
  induction m as [|m IH]; intros a i f rest C L E G D.
  - subst rest. cbn. exists a, f. repeat split; auto. congruence.
  - destruct L as [L|L]; [|lia]. cbn [del_loop].
    destruct (nth_error (slots a) i) as [x|] eqn:X; [|apply nth_error_None in X; lia].
    assert (skipn i (slots a) = x :: skipn (S i) (slots a)) as SK.
    { clear - X. revert i X. generalize (slots a). induction l as [|y r IH]; intros i X; [destruct i; discriminate|].
      destruct i; cbn in *; [now injection X as ->|]. rewrite (IH _ X). reflexivity. }
    rewrite SK in E. cbn [firstn] in E. subst rest. inversion G as [|? ? G1 G2]; subst. cbn [flat_map] in D. rewrite <- app_assoc in D.
    assert (NoDup (own x ++ f)) as D1.
    { revert D. rewrite (app_assoc _ _ f). rewrite (Permutation_app_comm (own x)). rewrite <- app_assoc. intros D.
      exact (nodup_app_r _ _ D). }
    assert (forall f1, Permutation f1 (own x ++ f) -> NoDup (flat_map own (firstn m (skipn (S i) (slots a))) ++ f1)) as D2.
    { intros f1 P. apply (Permutation_NoDup (l := own x ++ flat_map own (firstn m (skipn (S i) (slots a))) ++ f)); [|exact D].
      rewrite P, !app_assoc. apply Permutation_app_tail, Permutation_app_comm. }
    unfold del_at. rewrite X. destruct (FR x f G1 D1) as (f1 & -> & P). rewrite C. replace (S m - 1) with m by lia.
    assert (forall f2, Permutation f2 (flat_map own (firstn m (skipn (S i) (slots a))) ++ f1) ->
              Permutation f2 (flat_map own (x :: firstn m (skipn (S i) (slots a))) ++ f)) as PP.
    { intros f2 Q. rewrite Q, P. cbn [flat_map]. rewrite !app_assoc. apply Permutation_app_tail, Permutation_app_comm. }
    destruct (Nat.eqb_spec m 0) as [->|M].
    + cbn [del_loop]. exists null, f1. repeat split; auto; try lia.
    + destruct (Nat.eqb_spec i m) as [I|I].
      * destruct (IH (mkA (slots a) m) (S i) f1 (firstn m (skipn (S i) (slots a)))) as (a1 & f2 & E2 & P2 & N & _); auto.
        { left. cbn [slots]. lia. }
        exists a1, f2. repeat split; auto. congruence.
      * destruct (nth_error (slots a) m) as [y|] eqn:Y; [|apply nth_error_None in Y; lia].
        assert (forall j, i < j -> skipn j (set_at (slots a) i y) = skipn j (slots a)) as SA.
        { clear. unfold set_at. generalize (slots a). induction l as [|z r IH] in i |- *; intros j J; [reflexivity|].
          destruct i as [|i], j as [|j]; cbn; try lia; auto. apply IH. lia. }
        destruct (IH (mkA (set_at (slots a) i y) m) (S i) f1 (firstn m (skipn (S i) (slots a)))) as (a1 & f2 & E2 & P2 & N & _); auto.
        { left. cbn [slots]. rewrite len_set_at. lia. }
        { cbn [slots]. rewrite SA by lia. reflexivity. }
        exists a1, f2. repeat split; auto. congruence.
Qed.
Lemma del_all_ok a f : arr_ok a -> Forall good (live a) -> NoDup (flat_map own (live a) ++ f) ->
  exists a1 f1, del_loop fr a 0 (cnt a) f = Some (a1, f1) /\ Permutation f1 (flat_map own (live a) ++ f) /\ live a1 = [] /\ arr_ok a1.
Proof.
  intros OK G D. destruct (del_loop_ok (cnt a) a 0 f (live a)) as (a1 & f1 & E & P & N1 & N2); auto.
  exists a1, f1. split; [exact E|]. split; [exact P|]. destruct (Nat.eq_dec (cnt a) 0) as [Z|Z].
  - rewrite (N2 Z). split; [unfold live; now rewrite Z|exact OK].
  - rewrite (N1 Z). split; [reflexivity|unfold arr_ok; cbn; lia].
Qed.
End Del.

Lemma free_id_ok i f : ~ In i f -> free_id i f = Some (i :: f).
Proof.
  intros N. unfold free_id. destruct (existsb (Nat.eqb i) f) eqn:E; [|reflexivity].
  apply existsb_exists in E as (j & J & E). apply Nat.eqb_eq in E as <-. contradiction.
Qed.
Lemma free_inner_ok x f : True -> NoDup ([i_id x] ++ f) -> exists f1, free_inner x f = Some f1 /\ Permutation f1 ([i_id x] ++ f).
Proof. intros _ D. inversion D; subst. exists (i_id x :: f). split; [now apply free_id_ok|reflexivity]. Qed.
Definition good_outer (x : outer) : Prop := arr_ok (o_items x).
Lemma flat_single {A} (g : A -> nat) l : flat_map (fun x => [g x]) l = map g l.
Proof. induction l as [|x r IH]; cbn; [reflexivity|]. now rewrite IH. Qed.
Lemma free_outer_ok x f : good_outer x -> NoDup (oids x ++ f) -> exists f1, free_outer x f = Some f1 /\ Permutation f1 (oids x ++ f).
Proof.
  intros G D. unfold free_outer, oids in *. cbn [app] in D. inversion D as [|? ? N D1]; subst.
  rewrite free_id_ok by (intros I; apply N, in_or_app; now right).
  destruct (del_all_ok free_inner (fun y => [i_id y]) (fun _ => True) free_inner_ok (o_items x) (o_id x :: f) G) as (a1 & f1 & E & P & _).
  - apply Forall_forall. auto.
  - rewrite flat_single. apply (Permutation_NoDup (l := o_id x :: map i_id (live (o_items x)) ++ f)); [apply Permutation_middle|exact D].
  - rewrite E. exists f1. split; [reflexivity|]. rewrite P, flat_single. cbn [app]. symmetry. apply Permutation_middle.
Qed.

(* ------------------------------------------------------------------ *)
(** ** Memory of the stores, whatever the trees *)

Definition others (k : kind) (s : st) : list nat :=
  match k with
  | Keys => flat_map oids (live (cbags s)) ++ flat_map oids (live (kbags s))
  | CertBags => flat_map oids (live (keys s)) ++ flat_map oids (live (kbags s))
  | KeyBags => flat_map oids (live (keys s)) ++ flat_map oids (live (cbags s))
  end.
Lemma in_use_split k s : Permutation (in_use s) (flat_map oids (live (sel k s)) ++ others k s).
Proof.
  unfold in_use, others. destruct k; cbn [sel]; [reflexivity| |].
  - rewrite !app_assoc. apply Permutation_app_tail, Permutation_app_comm.
  - rewrite app_assoc. apply Permutation_app_comm.
Qed.
Definition memwf (s : st) : Prop := (forall k, arr_ok (sel k s) /\ Forall good_outer (live (sel k s))) /\ accounted s.
Definition full (s : st) : Prop :=
  exists k, (65535 <= N.of_nat (length (live (sel k s))))%N \/
            exists x, In x (live (sel k s)) /\ (65535 <= N.of_nat (length (live (o_items x))))%N.

Lemma sel_put k a f m s : sel k (put k a f m s) = a. Proof. now destruct k. Qed.
Lemma sel_put_other k k' a f m s : k' <> k -> sel k' (put k a f m s) = sel k' s. Proof. destruct k, k'; easy. Qed.
Lemma others_put k a f m s : others k (put k a f m s) = others k s. Proof. now destruct k. Qed.
Lemma freed_put k a f m s : freed (put k a f m s) = f. Proof. now destruct k. Qed.
Lemma made_put k a f m s : made (put k a f m s) = m. Proof. now destruct k. Qed.

Lemma memwf_put k a f m s :
  memwf s -> arr_ok a -> Forall good_outer (live a) -> made s <= m ->
  Permutation (f ++ flat_map oids (live a)) (seq (made s) (m - made s) ++ freed s ++ flat_map oids (live (sel k s))) ->
  memwf (put k a f m s).
Proof.
  intros [W AC] OK G L P. split.
  - intros k'. destruct (kind_dec k' k) as [->|N]; [now rewrite sel_put|]. rewrite sel_put_other by exact N. apply W.
  - unfold accounted in *. rewrite freed_put, made_put, (in_use_split k), sel_put, others_put, app_assoc, P.
    replace m with (made s + (m - made s)) at 2 by lia. rewrite seq_app. cbn [plus]. rewrite <- !app_assoc.
    rewrite <- (in_use_split k), AC. apply Permutation_app_comm.
Qed.
Lemma made_wr k s i x f m : made (wr_outer k s i x f m) = m. Proof. apply made_put. Qed.

Lemma set_at_perm {A} (l : list A) i x : nth_error l i = Some x ->
  exists rest, Permutation l (x :: rest) /\ forall y, Permutation (set_at l i y) (y :: rest).
Proof.
  unfold set_at. revert i. induction l as [|z r IH]; intros i E; [destruct i; discriminate|]. destruct i as [|i]; cbn in *.
  - injection E as ->. exists r. split; intros; reflexivity.
  - destruct (IH _ E) as (rest & P1 & P2). exists (z :: rest). split; [rewrite P1; apply perm_swap|].
    intros y. rewrite P2. apply perm_swap.
Qed.
Lemma forall_set_at {A} (P : A -> Prop) l i y : Forall P l -> P y -> Forall P (set_at l i y).
Proof. unfold set_at. intros F Y. revert i. induction F as [|x r H F IH]; intros [|i]; cbn; constructor; auto. Qed.

Lemma live_eta {A} (a : arr A) c : live (mkA (slots a) c) = firstn c (slots a). Proof. reflexivity. Qed.
Lemma live_mk {A} (a : arr A) : live (mkA (slots a) (cnt a)) = live a. Proof. reflexivity. Qed.

Lemma memwf_wr k s i x y f m :
  memwf s -> nth_error (live (sel k s)) i = Some x -> good_outer y -> made s <= m ->
  Permutation (f ++ oids y) (seq (made s) (m - made s) ++ freed s ++ oids x) ->
  memwf (wr_outer k s i y f m).
Proof.
  intros W E G L P. unfold wr_outer. destruct (proj1 W k) as [OK GG]. apply memwf_put; auto.
  - unfold arr_ok in *. cbn. now rewrite len_set_at.
  - rewrite live_set_at, live_mk. now apply forall_set_at.
  - rewrite live_set_at, live_mk. destruct (set_at_perm _ _ _ E) as (rest & P1 & P2).
    rewrite (Permutation_flat_map oids (P2 y)), (Permutation_flat_map oids P1). cbn [flat_map].
    rewrite !app_assoc. apply Permutation_app_tail. rewrite P. now rewrite app_assoc.
Qed.

Lemma nodup_all s k : memwf s -> NoDup (flat_map oids (live (sel k s)) ++ freed s).
Proof.
  intros [_ AC]. unfold accounted in AC. apply (nodup_app_l _ (others k s)). refine (Permutation_NoDup (l := seq 0 (made s)) _ (seq_NoDup _ _)).
  rewrite <- AC, (in_use_split k), app_assoc. apply Permutation_app_tail, Permutation_app_comm.
Qed.
Lemma nodup_one s k i x : memwf s -> nth_error (live (sel k s)) i = Some x -> NoDup (oids x ++ freed s).
Proof.
  intros W E. pose proof (nodup_all s k W) as D. destruct (set_at_perm _ _ _ E) as (rest & P & _).
  apply (nodup_app_r (flat_map oids rest)). refine (Permutation_NoDup _ D).
  rewrite (Permutation_flat_map oids P). cbn [flat_map]. rewrite app_assoc. apply Permutation_app_tail, Permutation_app_comm.
Qed.
Lemma good_at s k i x : memwf s -> nth_error (live (sel k s)) i = Some x -> good_outer x.
Proof. intros [W _] E. destruct (W k) as [_ G]. rewrite Forall_forall in G. apply G. now apply nth_error_In in E. Qed.

(** What each of the changes leaves. *)
Lemma all_mem k s : memwf s -> exists a f, del_loop free_outer (sel k s) 0 (cnt (sel k s)) (freed s) = Some (a, f) /\
  live a = [] /\ memwf (put k a f (made s) s).
Proof.
  intros W. destruct (del_all_ok free_outer oids good_outer free_outer_ok (sel k s) (freed s)) as (a & f & E & P & LV & OK).
  - apply W. - apply W. - now apply nodup_all.
  - exists a, f. repeat split; auto; apply memwf_put; auto; rewrite LV; auto; rewrite Nat.sub_diag; cbn [seq app flat_map];
      rewrite app_nil_r, P; apply Permutation_app_comm.
Qed.
Lemma del_mem k s i x : memwf s -> nth_error (live (sel k s)) i = Some x ->
  exists a f, del_at free_outer (sel k s) i (freed s) = Some (a, f) /\ Permutation (x :: live a) (live (sel k s)) /\ memwf (put k a f (made s) s).
Proof.
  intros W E. destruct (del_at_ok free_outer oids good_outer free_outer_ok (sel k s) i x (freed s)) as (a & f & D & P & PL & OK).
  - apply W. - exact E. - exact (good_at _ _ _ _ W E). - exact (nodup_one _ _ _ _ W E).
  - exists a, f. split; [exact D|]. split; [exact PL|]. apply memwf_put; auto.
    + destruct (proj1 W k) as [_ G]. rewrite <- PL in G. now inversion G.
    + rewrite Nat.sub_diag. cbn [seq app]. rewrite P, <- (Permutation_flat_map oids PL). cbn [flat_map].
      rewrite !app_assoc. apply Permutation_app_tail, Permutation_app_comm.
Qed.
Lemma idel_mem k s i x j y : memwf s -> nth_error (live (sel k s)) i = Some x -> nth_error (live (o_items x)) j = Some y ->
  exists a f, del_at free_inner (o_items x) j (freed s) = Some (a, f) /\ Permutation (y :: live a) (live (o_items x)) /\
              memwf (wr_outer k s i (set_items x a) f (made s)).
Proof.
  intros W E E2. destruct (del_at_ok free_inner (fun z => [i_id z]) (fun _ => True) free_inner_ok (o_items x) j y (freed s)) as (a & f & D & P & PL & OK); auto.
  - exact (good_at _ _ _ _ W E).
  - pose proof (nodup_one _ _ _ _ W E) as N. unfold oids in N. cbn [app] in N. inversion N as [|? ? _ N1]; subst.
    destruct (set_at_perm _ _ _ E2) as (rest & Q & _). apply (nodup_app_r (map i_id rest)). refine (Permutation_NoDup _ N1).
    rewrite (Permutation_map i_id Q). cbn [map app]. apply Permutation_middle.
  - exists a, f. split; [exact D|]. split; [exact PL|]. apply (memwf_wr _ _ _ x); auto.
    rewrite Nat.sub_diag. cbn [seq app]. unfold oids. cbn [o_id o_items set_items]. rewrite P, <- (Permutation_map i_id PL). cbn [map app].
    rewrite <- Permutation_middle. etransitivity; [|apply Permutation_middle]. rewrite perm_swap. constructor. apply Permutation_middle.
Qed.
Lemma live_add {A} (a : arr A) (x : A) : arr_ok a -> live (mkA (live a ++ [x]) (S (cnt a))) = live a ++ [x].
Proof.
  intros OK. unfold live at 1. cbn [slots cnt]. apply firstn_all2. rewrite app_length, live_len by exact OK. cbn. lia.
Qed.
Lemma add_ok {A} (x : A) a : arr_ok a ->
  match add x a with
  | None => (65535 <= N.of_nat (length (live a)))%N
  | Some a1 => live a1 = live a ++ [x] /\ arr_ok a1
  end.
Proof.
  intros OK. unfold add. destruct (N.leb_spec 65535 (N.of_nat (cnt a))); [now rewrite live_len|]. split; [now apply live_add|].
  unfold arr_ok. cbn [slots cnt]. rewrite app_length, live_len by exact OK. cbn. lia.
Qed.
Lemma add_small {A} (x : A) a : arr_ok a -> (N.of_nat (length (live a)) < 65535)%N -> exists a1, add x a = Some a1 /\ live a1 = live a ++ [x] /\ arr_ok a1.
Proof. intros OK L. pose proof (add_ok x a OK) as H. destruct (add x a) as [a1|]; [eauto|lia]. Qed.
Lemma add_mem k s n a1 : memwf s -> live a1 = live (sel k s) ++ [new_outer (made s) n] -> arr_ok a1 -> memwf (put k a1 (freed s) (S (made s)) s).
Proof.
  intros W L OK. apply memwf_put; auto.
  - rewrite L. apply Forall_app. split; [apply W|]. constructor; [|constructor]. unfold good_outer, arr_ok. cbn. lia.
  - rewrite L, flat_map_app. replace (S (made s) - made s) with 1 by lia. cbn. rewrite app_assoc. symmetry. apply Permutation_cons_append.
Qed.
Lemma iadd_mem k s i x n a1 : memwf s -> nth_error (live (sel k s)) i = Some x ->
  live a1 = live (o_items x) ++ [mkI (made s) n 0 None] -> arr_ok a1 -> memwf (wr_outer k s i (set_items x a1) (freed s) (S (made s))).
Proof.
  intros W E L OK. apply (memwf_wr _ _ _ x); auto.
  replace (S (made s) - made s) with 1 by lia. unfold oids. cbn [o_id o_items set_items seq app]. rewrite L, map_app. cbn [map i_id].
  rewrite app_comm_cons, app_assoc. symmetry. apply Permutation_cons_append.
Qed.
(** A change of values frees and takes no memory here (the model of a replaced value is the value). *)
Lemma val_mem k s i x y : memwf s -> nth_error (live (sel k s)) i = Some x -> oids y = oids x -> good_outer y -> memwf (wr_outer k s i y (freed s) (made s)).
Proof. intros W E O G. apply (memwf_wr _ _ _ x); auto. now rewrite Nat.sub_diag, O. Qed.
Lemma ival_mem k s i x j y z : memwf s -> nth_error (live (sel k s)) i = Some x -> nth_error (live (o_items x)) j = Some y -> i_id z = i_id y ->
  memwf (wr_inner k s i x j z).
Proof.
  intros W E E2 I. unfold wr_inner. apply (val_mem _ _ _ x); auto.
  - unfold oids. cbn [o_id o_items set_items]. f_equal. rewrite live_set_at, live_mk. revert I E2. clear. generalize (live (o_items x)) as l.
    intros l I E. unfold set_at. revert j E. induction l as [|w r IH]; intros [|j] E; cbn in *; try discriminate; [injection E as ->; now rewrite I|].
    f_equal. now apply IH.
  - pose proof (good_at _ _ _ _ W E). unfold good_outer, arr_ok in *. cbn. now rewrite len_set_at.
Qed.

Definition mem_post (r : res) : Prop := match r with ROk s1 | RFail s1 => memwf s1 | RUb s1 => memwf s1 /\ full s1 end.
Lemma with_outer_mem k p s g : memwf s ->
  (forall i x, nth_error (live (sel k s)) i = Some x -> mem_post (g i x)) -> mem_post (with_outer k p s g).
Proof.
  intros W H. unfold with_outer. destruct (outer_key k p) as [n|]; [|exact W].
  destruct (find_at o_name _ n) as [[i x]|] eqn:E; [|exact W]. apply H. exact (proj1 (find_at_some _ _ _ _ _ E)).
Qed.
Lemma with_inner_mem k p s g : memwf s ->
  (forall i x j y, nth_error (live (sel k s)) i = Some x -> nth_error (live (o_items x)) j = Some y -> mem_post (g i x j y)) ->
  mem_post (with_inner k p s g).
Proof.
  intros W H. apply with_outer_mem; [exact W|]. intros i x E. destruct (inner_key k p) as [n|]; [|exact W].
  destruct (find_at i_name _ n) as [[j y]|] eqn:E2; [|exact W]. apply H; [exact E|]. exact (proj1 (find_at_some _ _ _ _ _ E2)).
Qed.
Lemma h_all_mem k o s : memwf s -> exists s1, h_all k o s = ROk s1 /\ memwf s1.
Proof.
  intros W. destruct o; cbn [h_all]; eauto. destruct (all_mem k s W) as (a & f & -> & _ & W1). eauto.
Qed.
Lemma h_truststore_mem o s : memwf s -> exists s1, h_truststore o s = ROk s1 /\ memwf s1.
Proof.
  intros W. unfold h_truststore. destruct (h_all_mem CertBags o s W) as (s1 & -> & W1). now apply h_all_mem.
Qed.
Lemma h_outer_mem k p o s : memwf s -> mem_post (h_outer k p o s).
Proof.
  intros W. unfold h_outer. destruct (setting o).
  - destruct p as [|d p]; [exact W|]. destruct (key_of d) as [n|]; [|exact W].
    pose proof (add_ok (new_outer (made s) n) (sel k s) (proj1 (proj1 W k))) as A. destruct (add _ _) as [a|].
    + cbn. destruct A. now apply (add_mem k s n).
    + split; [exact W|]. exists k. now left.
  - apply with_outer_mem; [exact W|]. intros i x E. destruct (del_mem k s i x W E) as (a & f & -> & _ & W1). exact W1.
Qed.
Lemma h_inner_mem k p o s : memwf s -> mem_post (h_inner k p o s).
Proof.
  intros W. unfold h_inner. destruct (setting o).
  - apply with_outer_mem; [exact W|]. intros i x E. destruct p as [|d p]; [exact W|]. destruct (key_of d) as [n|]; [|exact W].
    pose proof (add_ok (mkI (made s) n 0 None) (o_items x) (good_at _ _ _ _ W E)) as A. destruct (add _ _) as [a|].
    + cbn. destruct A. now apply (iadd_mem k s i x n).
    + split; [exact W|]. exists k. right. exists x. split; [now apply nth_error_In in E|exact A].
  - apply with_inner_mem; [exact W|]. intros i x j y E E2. destruct (idel_mem k s i x j y W E E2) as (a & f & -> & _ & W1). exact W1.
Qed.

Lemma handle_ks_mem p o s : memwf s -> mem_post (handle_ks p o s).
Proof.
  intros W. unfold handle_ks. destruct p as [|d p]; [exact W|].
  repeat (match goal with |- mem_post (if beqb ?a ?b then _ else _) => destruct (beqb a b) end;
          [try (destruct (h_all_mem Keys o s W) as (s1 & -> & W1); exact W1); try (now apply h_outer_mem); try (now apply h_inner_mem)|]);
    try exact W.
  - apply with_outer_mem; [exact W|]. intros i x E. apply (val_mem Keys s i x); auto. exact (good_at _ _ _ _ W E).
  - apply with_outer_mem; [exact W|]. intros i x E. apply (val_mem Keys s i x); auto. exact (good_at _ _ _ _ W E).
  - apply with_outer_mem; [exact W|]. intros i x E. destruct (priv_type _); [|exact W]. apply (val_mem Keys s i x); auto. exact (good_at _ _ _ _ W E).
  - apply with_outer_mem; [exact W|]. intros i x E. apply (val_mem Keys s i x); auto. exact (good_at _ _ _ _ W E).
  - unfold h_cert_data. destruct (setting o); [|exact W]. apply with_inner_mem; [exact W|]. intros i x j y E E2. now apply (ival_mem Keys s i x j y).
Qed.
Lemma handle_ts_mem p o s : memwf s -> mem_post (handle_ts p o s).
Proof.
  intros W. unfold handle_ts. destruct p as [|d p]; [exact W|].
  repeat (match goal with |- mem_post (if beqb ?a ?b then _ else _) => destruct (beqb a b) end;
          [try (destruct (h_truststore_mem o s W) as (s1 & -> & W1); exact W1);
           try (match goal with |- mem_post (h_all ?k _ _) => destruct (h_all_mem k o s W) as (s1 & -> & W1); exact W1 end);
           try (now apply h_outer_mem); try (now apply h_inner_mem)|]);
    try exact W.
  - unfold h_cert_data. destruct (setting o); [|exact W]. apply with_inner_mem; [exact W|]. intros i x j y E E2. now apply (ival_mem CertBags s i x j y).
  - unfold h_bag_key. destruct (equal_parent_name _ _ _); [now apply h_inner_mem|]. apply with_inner_mem; [exact W|].
    intros i x j y E E2. now apply (ival_mem KeyBags s i x j y).
  - apply with_inner_mem; [exact W|]. intros i x j y E E2. now apply (ival_mem KeyBags s i x j y).
Qed.

Section Walk.
Variable h : list dnode -> op -> st -> res.
Lemma walk_kids anc o : forall kids s,
  (fix go (ks : list dnode) (s : st) : res :=
     match ks with [] => ROk s | k :: r => match walk h k anc o s with ROk s2 => go r s2 | x => x end end) kids s =
  fold_left (fun r k => match r with ROk s2 => walk h k anc o s2 | x => x end) kids (ROk s).
Proof.
  assert (forall kids x, (forall s, x <> ROk s) -> fold_left (fun r k => match r with ROk s2 => walk h k anc o s2 | x => x end) kids x = x) as ST.
  { induction kids as [|k r IH]; intros x N; [reflexivity|]. cbn. destruct x; [now edestruct N|apply IH, N..]. }
  induction kids as [|k r IH]; intros s; [reflexivity|]. cbn [fold_left]. destruct (walk h k anc o s); [apply IH|symmetry; apply ST; discriminate..].
Qed.
Hypothesis HM : forall p o s, memwf s -> mem_post (h p o s).
Lemma walk_mem d : forall anc parent s, memwf s -> mem_post (walk h d anc parent s).
Proof.
  induction d as [n il m st nu se kids IH] using dnode_ind2. intros anc parent s W. cbn [walk].
  set (d := DN n il m st nu se kids). destruct (cur_op d parent) as [o|]; [|exact W].
  assert (mem_post (match o with ONone => ROk s | _ => h (d :: anc) o s end)) as H by (destruct o; try apply HM; exact W).
  destruct (match o with ONone => ROk s | _ => h (d :: anc) o s end) as [s1|s1|s1]; [|exact H..].
  assert (forall q r, mem_post r -> mem_post (fold_left (fun r k => match r with ROk s2 => walk h k (d :: anc) q s2 | x => x end) kids r)) as G.
  { intros q. generalize (d :: anc). clearbody d. revert IH. clear. intros F anc. induction F as [|k ks IH F IHF]; intros r R; [exact R|].
    cbn [fold_left]. apply IHF. destruct r; [now apply IH|exact R..]. }
  destruct o; try exact H; rewrite walk_kids; now apply G.
Qed.
End Walk.

(* ------------------------------------------------------------------ *)
(** ** The stores follow the configuration *)

Definition cwf (c : conf) : Prop := forall k, NoDup (map fst (c k)) /\ Forall (fun x => NoDup (map fst (snd (snd x)))) (c k).
Lemma at_kind_same c k f : at_kind c k f k = f (c k). Proof. unfold at_kind. now destruct (kind_dec k k). Qed.
Lemma at_kind_other c k f k' : k' <> k -> at_kind c k f k' = c k'. Proof. unfold at_kind. now destruct (kind_dec k' k). Qed.
Lemma outer_nm k b a : outer_is k b a -> o_name a = fst b. Proof. now intros [H _]. Qed.
Lemma inner_nm k b a : inner_is k b a -> i_name a = fst b. Proof. now intros [H _]. Qed.

Lemma cwf_at c k f : cwf c -> (NoDup (map fst (c k)) -> NoDup (map fst (f (c k)))) ->
  (Forall (fun x => NoDup (map fst (snd (snd x)))) (c k) -> Forall (fun x => NoDup (map fst (snd (snd x)))) (f (c k))) -> cwf (at_kind c k f).
Proof.
  intros W H1 H2 k'. destruct (kind_dec k' k) as [->|N]; [rewrite at_kind_same; split; [apply H1, W|apply H2, W]|].
  rewrite at_kind_other by exact N. apply W.
Qed.
Lemma forall_at_name {B} (P : B -> Prop) n f (l : list (bytes * B)) :
  (forall x, In (n, x) l -> P x -> P (f x)) -> Forall (fun x => P (snd x)) l -> Forall (fun x => P (snd x)) (at_name n f l).
Proof.
  intros H F. unfold at_name. rewrite Forall_map, Forall_forall in *. intros [m x] I. cbn. specialize (F _ I). cbn in F.
  destruct (beqb m n) eqn:E; [|exact F]. apply beqb_spec in E as ->. now apply H.
Qed.
Lemma forall_without {B} (P : (bytes * B) -> Prop) n (l : list (bytes * B)) : Forall P l -> Forall P (without n l).
Proof. intros F. rewrite Forall_forall in *. intros x I. apply filter_In in I as [I _]. auto. Qed.
Lemma nodup_snoc {A} (l : list A) x : NoDup l -> ~ In x l -> NoDup (l ++ [x]).
Proof. intros D N. apply (Permutation_NoDup (Permutation_cons_append l x)). now constructor. Qed.
Lemma do_edit_wf c e : cwf c -> yang_ok c e -> cwf (do_edit c e).
Proof.
  intros W Y. destruct e; cbn [do_edit yang_ok] in *; auto.
  - apply cwf_at; auto; intros H.
    + rewrite map_app. now apply nodup_snoc.
    + apply Forall_app. split; [exact H|]. repeat constructor.
  - apply cwf_at; auto; [apply nodup_without|apply forall_without].
  - apply cwf_at; auto; constructor.
  - apply cwf_at; [apply cwf_at|..]; auto; constructor.
  - apply cwf_at; auto; [now rewrite names_at_name|]. apply (forall_at_name (fun x => NoDup (map fst (snd x)))). auto.
  - destruct Y as [_ Y]. apply cwf_at; auto; [now rewrite names_at_name|]. apply (forall_at_name (fun x => NoDup (map fst (snd x)))).
    intros x I D. cbn. rewrite map_app. apply nodup_snoc; [exact D|]. intros X. apply Y. exists (n, x). auto.
  - apply cwf_at; auto; [now rewrite names_at_name|]. apply (forall_at_name (fun x => NoDup (map fst (snd x)))).
    intros x I D. now apply nodup_without.
  - apply cwf_at; auto; [now rewrite names_at_name|]. apply (forall_at_name (fun x => NoDup (map fst (snd x)))).
    intros x I D. cbn. now rewrite names_at_name.
Qed.

Lemma stores_put c s k g a f m : stores_are c s -> rel (outer_is k) (g (c k)) (live a) -> stores_are (at_kind c k g) (put k a f m s).
Proof.
  intros H R k'. destruct (kind_dec k' k) as [->|N]; [now rewrite at_kind_same, sel_put|].
  rewrite at_kind_other, sel_put_other by exact N. apply H.
Qed.
Lemma stores_wr c s k i x y g f m :
  cwf c -> stores_are c s -> nth_error (live (sel k s)) i = Some x ->
  (forall b, In b (c k) -> fst b = o_name x -> outer_is k b x -> outer_is k (fst b, g (snd b)) y) ->
  stores_are (at_kind c k (at_name (o_name x) g)) (wr_outer k s i y f m).
Proof.
  intros W H E G. apply stores_put; [exact H|]. rewrite live_set_at, live_mk.
  apply (rel_upd o_name (outer_is k) (outer_nm k)); auto. apply W.
Qed.
Lemma rel_nil {A B} (R : B -> A -> Prop) : rel R [] []. Proof. exists []. split; constructor. Qed.

(** The names of the nodes above. *)
Definition shapes (p : list dnode) : Prop := forall q d r, p = q ++ d :: r -> shape (d :: r) = true.
Lemma shapes_tail d p : shapes (d :: p) -> shapes p.
Proof. intros H q e r ->. apply (H (d :: q) e r). reflexivity. Qed.
Lemma shapes_head d p : shapes (d :: p) -> shape (d :: p) = true.
Proof. intros H. now apply (H [] d p). Qed.
Lemma owner_outer k p : shapes p -> owner (olist k) p = outer_key k p.
Proof.
  induction p as [|d p IH]; intros SH; [reflexivity|]. specialize (IH (shapes_tail _ _ SH)). apply shapes_head in SH.
  unfold outer_key in *. cbn [climb]. assert (outer_node k = bs (olist k)) as ON by now destruct k. rewrite ON in *.
  destruct d as [n il m st nu se kids]. cbn [owner d_name]. destruct (beqb n (bs (olist k))) eqn:E.
  - apply beqb_spec in E as ->. assert (il = true) as ->.
    { destruct k; cbn in SH; apply andb_prop in SH; tauto. }
    unfold key_of. cbn [d_kids]. destruct kids as [|[kn ? ? ks ? ? ?] ?]; reflexivity.
  - destruct il; exact IH.
Qed.
Lemma owner_inner k p : shapes p -> owner (ilist k) p = inner_key k p.
Proof.
  induction p as [|d p IH]; intros SH; [reflexivity|]. specialize (IH (shapes_tail _ _ SH)). apply shapes_head in SH.
  unfold inner_key in *. cbn [climb]. assert (inner_node k = bs (ilist k)) as ON by now destruct k. rewrite ON in *.
  destruct d as [n il m st nu se kids]. cbn [owner d_name d_kids]. destruct (beqb n (bs (ilist k))) eqn:E.
  - apply beqb_spec in E as ->. destruct k; cbn [ilist] in *; cbn in SH.
    1, 2: apply andb_prop in SH as [-> _]; unfold key_of; cbn [d_kids andb]; destruct kids as [|[kn ? ? ks ? ? ?] ?]; reflexivity.
    destruct il; cbn [andb].
    + destruct kids as [|[kn ? ? ks ? ? ?] ?]; [discriminate|]. reflexivity.
    + destruct kids as [|? ?]; [exact IH|discriminate].
  - cbn [andb]. destruct il; exact IH.
Qed.

Definition goes (c : conf) (e : edit) (r : res) : Prop := exists s1, r = ROk s1 /\ stores_are (do_edit c e) s1.
Lemma find_outer c k p s n g : stores_are c s -> outer_key k p = Some n -> has n (c k) ->
  exists i x, nth_error (live (sel k s)) i = Some x /\ o_name x = n /\ with_outer k p s g = g i x.
Proof.
  intros H K I. destruct (rel_find o_name (outer_is k) (outer_nm k) (c k) (live (sel k s)) n (H k) I) as (i & x & F & E & N).
  exists i, x. unfold with_outer. now rewrite K, F.
Qed.
Lemma bag_unique c k b b' : cwf c -> In b (c k) -> In b' (c k) -> fst b = fst b' -> b = b'.
Proof.
  intros W. destruct (W k) as [D _]. revert D. generalize (c k). induction l as [|z r IH]; intros D I I' E; [easy|].
  inversion D as [|? ? D1 D2]; subst. destruct I as [->|I], I' as [->|I']; auto; exfalso; apply D1; [rewrite E|rewrite <- E]; now apply in_map.
Qed.
Lemma find_inner c k p s n m g : cwf c -> stores_are c s -> outer_key k p = Some n -> inner_key k p = Some m -> has_inner c k n m ->
  exists i x j y, nth_error (live (sel k s)) i = Some x /\ o_name x = n /\ nth_error (live (o_items x)) j = Some y /\ i_name y = m /\
                  with_inner k p s g = g i x j y.
Proof.
  intros W H K K2 (b & Ib & Nb & Ic). unfold with_inner. 
  destruct (rel_find o_name (outer_is k) (outer_nm k) (c k) (live (sel k s)) n (H k)) as (i & x & F & E & N).
  { rewrite <- Nb. now apply in_map. }
  destruct (rel_in (outer_is k) _ _ x (H k) (nth_error_In _ _ E)) as (b' & Ib' & O).
  assert (b' = b) as ->. { apply (bag_unique c k); auto. rewrite Nb, <- N. symmetry. apply (outer_nm _ _ _ O). }
  destruct O as (_ & _ & RI).
  destruct (rel_find i_name (inner_is k) (inner_nm k) _ _ m RI Ic) as (j & y & F2 & E2 & N2).
  exists i, x, j, y. repeat split; auto. unfold with_outer. now rewrite K, F, K2, F2.
Qed.

Lemma go_all c k s : cwf c -> stores_are c s -> memwf s -> goes c (EClear k) (h_all k ODelete s).
Proof.
  intros W H M. cbn [h_all]. destruct (all_mem k s M) as (a & f & -> & L & _). eexists. split; [reflexivity|].
  cbn [do_edit]. apply stores_put; [exact H|]. rewrite L. apply rel_nil.
Qed.
Lemma go_ts c s : cwf c -> stores_are c s -> memwf s -> goes c EClearTs (h_truststore ODelete s).
Proof.
  intros W H M. unfold h_truststore. destruct (go_all c CertBags s W H M) as (s1 & E & H1).
  destruct (h_all_mem CertBags ODelete s M) as (s1' & E' & M1). rewrite E in E'. injection E' as <-. rewrite E.
  apply (go_all (do_edit c (EClear CertBags)) KeyBags s1); auto. now apply (do_edit_wf c (EClear CertBags)).
Qed.
Lemma head_key k d anc n : d_name d = outer_node k -> outer_key k (d :: anc) = Some n -> key_of d = Some n.
Proof. intros E. unfold outer_key. cbn [climb]. now rewrite E, beqb_refl. Qed.
Lemma head_key2 k d anc n : d_name d = inner_node k -> (k = KeyBags -> d_kids d <> []) -> inner_key k (d :: anc) = Some n -> key_of d = Some n.
Proof.
  intros E K. unfold inner_key. cbn [climb]. rewrite E, beqb_refl. destruct k; cbn [andb]; auto.
  destruct (d_kids d) eqn:Q; [now specialize (K eq_refl)|auto].
Qed.
Lemma go_add c k d anc s n : cwf c -> stores_are c s -> memwf s -> key_of d = Some n -> small (c k) ->
  goes c (EAdd k n) (h_outer k (d :: anc) OCreate s).
Proof.
  intros W H M K SM. unfold h_outer. cbn [setting]. rewrite K.
  destruct (add_small (new_outer (made s) n) (sel k s) (proj1 (proj1 M k))) as (a & -> & L & _).
  { rewrite (rel_length o_name _ (outer_nm k) _ _ (H k)). exact SM. }
  eexists. split; [reflexivity|]. cbn [do_edit]. apply stores_put; [exact H|]. rewrite L. apply rel_add; [apply H|].
  repeat split. apply rel_nil.
Qed.
Lemma go_del c k p s n : cwf c -> stores_are c s -> memwf s -> outer_key k p = Some n -> has n (c k) ->
  goes c (EDel k n) (h_outer k p ODelete s).
Proof.
  intros W H M K I. unfold h_outer. cbn [setting]. edestruct (find_outer c k p s n) as (i & x & E & N & ->); eauto. cbv beta.
  destruct (del_mem k s i x M E) as (a & f & -> & P & _). eexists. split; [reflexivity|]. cbn [do_edit].
  apply stores_put; [exact H|]. rewrite <- N. apply (rel_without o_name (outer_is k) (outer_nm k) (c k) _ (live a) x (H k)); [apply W|exact P].
Qed.
Lemma go_iadd c k d anc s n m : cwf c -> stores_are c s -> memwf s -> outer_key k (d :: anc) = Some n -> key_of d = Some m -> has n (c k) ->
  (forall x, In x (c k) -> fst x = n -> small (snd (snd x))) ->
  goes c (EIAdd k n m) (h_inner k (d :: anc) OCreate s).
Proof.
  intros W H M K K2 I SM. unfold h_inner. cbn [setting]. edestruct (find_outer c k (d :: anc) s n) as (i & x & E & N & ->); eauto. cbv beta iota.
  rewrite K2. destruct (rel_in (outer_is k) _ _ x (H k) (nth_error_In _ _ E)) as (b & Ib & O).
  destruct (add_small (mkI (made s) m 0 None) (o_items x) (good_at _ _ _ _ M E)) as (a & -> & L & _).
  { rewrite (rel_length i_name _ (inner_nm k) _ _ (proj2 (proj2 O))). apply SM; [exact Ib|]. rewrite <- N. symmetry. apply (outer_nm _ _ _ O). }
  eexists. split; [reflexivity|]. cbn [do_edit]. rewrite <- N. apply stores_wr; auto.
  intros b' _ _ (O1 & O2 & O3). split; [exact O1|]. split; [exact O2|]. cbn [o_items set_items fst snd]. rewrite L. apply rel_add; [exact O3|].
  destruct k; repeat split.
Qed.
Lemma go_idel c k p s n m : cwf c -> stores_are c s -> memwf s -> outer_key k p = Some n -> inner_key k p = Some m -> has_inner c k n m ->
  goes c (EIDel k n m) (h_inner k p ODelete s).
Proof.
  intros W H M K K2 I. unfold h_inner. cbn [setting]. edestruct (find_inner c k p s n m) as (i & x & j & y & E & N & E2 & N2 & ->); eauto. cbv beta.
  destruct (idel_mem k s i x j y M E E2) as (a & f & -> & P & _). eexists. split; [reflexivity|]. cbn [do_edit]. rewrite <- N.
  apply stores_wr; auto. intros b Ib _ (O1 & O2 & O3). split; [exact O1|]. split; [exact O2|]. cbn [o_items set_items fst snd]. rewrite <- N2.
  apply (rel_without i_name (inner_is k) (inner_nm k) _ _ (live a) y O3); [|exact P]. destruct (W k) as [_ F]. rewrite Forall_forall in F. now apply F.
Qed.
(** A value of an entry of a key or bag. *)
Lemma go_ival c k p s n m l v g :
  cwf c -> stores_are c s -> memwf s -> outer_key k p = Some n -> inner_key k p = Some m -> has_inner c k n m ->
  (forall b y, inner_is k b y -> inner_is k (fst b, put_leaf l v (snd b)) (g y)) ->
  goes c (EILeaf k n m l v) (with_inner k p s (fun i x j y => ROk (wr_inner k s i x j (g y)))).
Proof.
  intros W H M K K2 I G. edestruct (find_inner c k p s n m) as (i & x & j & y & E & N & E2 & N2 & ->); eauto. cbv beta.
  eexists. split; [reflexivity|]. cbn [do_edit]. rewrite <- N. unfold wr_inner.
  apply stores_wr; auto. intros b Ib _ (O1 & O2 & O3). split; [exact O1|]. split; [exact O2|]. cbn [o_items set_items fst snd]. rewrite <- N2.
  rewrite live_set_at, live_mk. apply (rel_upd i_name (inner_is k) (inner_nm k)); auto.
  destruct (W k) as [_ F]. rewrite Forall_forall in F. now apply F.
Qed.
(** A value of a key. *)
Lemma go_val c p s n l v g :
  cwf c -> stores_are c s -> memwf s -> outer_key Keys p = Some n -> has n (c Keys) ->
  (forall b x, outer_is Keys b x -> outer_is Keys (fst b, (put_leaf l v (fst (snd b)), snd (snd b))) (g x)) ->
  goes c (ELeaf n l v) (with_outer Keys p s (fun i x => ROk (wr_outer Keys s i (g x) (freed s) (made s)))).
Proof.
  intros W H M K I G. edestruct (find_outer c Keys p s n) as (i & x & E & N & ->); eauto. cbv beta.
  eexists. split; [reflexivity|]. cbn [do_edit]. rewrite <- N. apply stores_wr; auto.
Qed.

Ltac lits := repeat match goal with
  | |- context [beqb (bs ?a) (bs ?b)] => let v := eval vm_compute in (beqb (bs a) (bs b)) in change (beqb (bs a) (bs b)) with v
  end; cbn [orb andb find].
Lemma put_leaf_same l v f : put_leaf l v f l = v. Proof. unfold put_leaf. now rewrite String.eqb_refl. Qed.

Definition known_step (h : list dnode -> op -> st -> res) (ed : list dnode -> op -> edit) : Prop := forall c s p o,
  cwf c -> stores_are c s -> memwf s -> shapes p -> o <> ONone -> yang_ok c (ed p o) -> safe c (ed p o) -> goes c (ed p o) (h p o s).

Lemma go_nothing c s : stores_are c s -> goes c ENothing (ROk s).
Proof. intros H. exists s. now split. Qed.

Lemma step_ks : known_step handle_ks edit_ks.
Proof.
  intros c s p o W H M SH NN Y SF. destruct p as [|d anc]; [now apply go_nothing|]. pose proof (shapes_head _ _ SH) as SD.
  unfold edit_ks, handle_ks, on_entry, on_bag in *. rewrite (owner_outer Keys _ SH), (owner_inner Keys _ SH) in *.
  destruct (beqb (d_name d) (bs "keystore")) eqn:E1.
  { apply beqb_spec in E1. rewrite E1 in *. revert Y SF. lits. intros Y SF. destruct o; cbn [cont] in *; try easy; [now apply go_nothing|now apply go_all]. }
  destruct (beqb (d_name d) (bs "asymmetric-keys")) eqn:E2.
  { apply beqb_spec in E2. rewrite E2 in *. revert Y SF. lits. intros Y SF. destruct o; cbn [cont] in *; try easy; [now apply go_nothing|now apply go_all]. }
  destruct (beqb (d_name d) (bs "asymmetric-key")) eqn:E3.
  { apply beqb_spec in E3. rewrite E3 in *. revert Y SF. lits. intros Y SF. destruct (d_list d); [|easy].
    destruct (outer_key Keys (d :: anc)) as [n|] eqn:K; [|easy]. destruct o; cbn [cont yang_ok safe] in *; try easy.
    - apply go_add; auto. exact (head_key Keys d anc n E3 K).
    - now apply go_del. }
  destruct (beqb (d_name d) (bs "certificate")) eqn:E4.
  { apply beqb_spec in E4. rewrite E4 in *. revert Y SF. lits. intros Y SF. destruct (d_list d); [|easy].
    destruct (outer_key Keys (d :: anc)) as [n|] eqn:K; [|easy]. destruct (inner_key Keys (d :: anc)) as [m|] eqn:K2; [|easy].
    destruct o; cbn [cont yang_ok safe] in *; try easy.
    - apply go_iadd; auto; [apply (head_key2 Keys d anc m E4); easy|apply Y].
    - now apply go_idel. }
  cbn [find orb] in *.
  destruct (beqb (d_name d) (bs "public-key-format")) eqn:E5.
  { destruct (outer_key Keys (d :: anc)) as [n|] eqn:K; [|easy]. cbn [yang_ok safe] in *. destruct SF as (_ & SF & _). specialize (SF eq_refl).
    unfold h_pub_format. apply go_val; auto. intros b x (O1 & O2 & O3). destruct (O2 eq_refl) as (P1 & P2 & P3 & P4).
    split; [exact O1|]. split; [|exact O3]. intros _. repeat split; auto. cbn [fst snd o_ptype]. rewrite put_leaf_same.
    destruct o; cbn [leaf_val pub_known pubfmt_is] in *; try exact Logic.I; unfold pub_type; destruct SF as [-> | ->]; lits; auto. }
  destruct (beqb (d_name d) (bs "public-key")) eqn:E6.
  { destruct (outer_key Keys (d :: anc)) as [n|] eqn:K; [|easy]. cbn [yang_ok safe] in *. destruct SF as (SF & _ & _). specialize (SF eq_refl).
    unfold h_pub. apply go_val; auto. intros b x (O1 & O2 & O3). destruct (O2 eq_refl) as (P1 & P2 & P3 & P4).
    split; [exact O1|]. split; [|exact O3]. intros _. repeat split; auto. cbn [fst snd o_pub]. rewrite put_leaf_same.
    destruct o; cbn [leaf_val given data_is] in *; easy. }
  destruct (beqb (d_name d) (bs "private-key-format")) eqn:E7.
  { destruct (outer_key Keys (d :: anc)) as [n|] eqn:K; [|easy]. cbn [yang_ok safe] in *. destruct SF as (_ & _ & SF). specialize (SF eq_refl).
    unfold h_priv_format.
    assert (exists t, priv_type (d_str d) = Some t /\ privfmt_is (leaf_val d o) t) as (t & -> & T).
    { assert (priv_known (d_str d)) as PK by (destruct o; exact SF).
      destruct PK as [Q|[Q|[Q|[Q|[]]]]]; unfold priv_type; rewrite <- Q; lits; eexists; (split; [reflexivity|]);
        destruct o; cbn [leaf_val privfmt_is]; try exact Logic.I; rewrite <- Q; cbn; auto. }
    apply (go_val c (d :: anc) s n "private-key-format" (leaf_val d o)
             (fun x => mkO (o_id x) (o_name x) (o_ptype x) (o_pub x) t (o_priv x) (o_items x))); auto.
    intros b x (O1 & O2 & O3). destruct (O2 eq_refl) as (P1 & P2 & P3 & P4).
    split; [exact O1|]. split; [|exact O3]. intros _. repeat split; auto. }
  destruct (beqb (d_name d) (bs "cleartext-private-key")) eqn:E8.
  { destruct (outer_key Keys (d :: anc)) as [n|] eqn:K; [|easy]. cbn [yang_ok safe] in *.
    unfold h_priv. apply go_val; auto. intros b x (O1 & O2 & O3). destruct (O2 eq_refl) as (P1 & P2 & P3 & P4).
    split; [exact O1|]. split; [|exact O3]. intros _. repeat split; auto. cbn [fst snd o_priv]. rewrite put_leaf_same.
    destruct o; cbn [leaf_val setting data_is]; easy. }
  destruct (beqb (d_name d) (bs "cert-data")) eqn:E9; [|now apply go_nothing].
  destruct (outer_key Keys (d :: anc)) as [n|] eqn:K; [|easy]. destruct (inner_key Keys (d :: anc)) as [m|] eqn:K2; [|easy].
  cbn [yang_ok] in Y. destruct Y as [Y GV]. unfold h_cert_data. destruct (setting o) eqn:SO; [|now destruct o].
  apply go_ival; auto. intros b y (O1 & O2). split; [exact O1|]. cbn [fst snd i_data]. rewrite put_leaf_same. destruct o; easy.
Qed.

Lemma step_ts : known_step handle_ts edit_ts.
Proof.
  intros c s p o W H M SH NN Y SF. destruct p as [|d anc]; [now apply go_nothing|]. pose proof (shapes_head _ _ SH) as SD.
  unfold edit_ts, handle_ts, on_entry, on_bag in *.
  rewrite (owner_outer CertBags _ SH), (owner_inner CertBags _ SH), (owner_outer KeyBags _ SH), (owner_inner KeyBags _ SH) in *.
  destruct (beqb (d_name d) (bs "truststore")) eqn:E1.
  { apply beqb_spec in E1. rewrite ?E1 in *. revert Y SF. lits. intros Y SF. destruct o; cbn [cont] in *; try easy; [now apply go_nothing|now apply go_ts]. }
  destruct (beqb (d_name d) (bs "certificate-bags")) eqn:E2.
  { apply beqb_spec in E2. rewrite ?E2 in *. revert Y SF. lits. intros Y SF. destruct o; cbn [cont] in *; try easy; [now apply go_nothing|now apply go_all]. }
  destruct (beqb (d_name d) (bs "public-key-bags")) eqn:E2b.
  { apply beqb_spec in E2b. rewrite ?E2b in *. revert Y SF. lits. intros Y SF. destruct o; cbn [cont] in *; try easy; [now apply go_nothing|now apply go_all]. }
  destruct (beqb (d_name d) (bs "certificate-bag")) eqn:E3.
  { apply beqb_spec in E3. rewrite ?E3 in *. revert Y SF. lits. intros Y SF. destruct (d_list d); [|easy].
    destruct (outer_key CertBags (d :: anc)) as [n|] eqn:K; [|easy]. destruct o; cbn [cont yang_ok safe] in *; try easy.
    - apply go_add; auto. exact (head_key CertBags d anc n E3 K).
    - now apply go_del. }
  destruct (beqb (d_name d) (bs "public-key-bag")) eqn:E3b.
  { apply beqb_spec in E3b. rewrite ?E3b in *. revert Y SF. lits. intros Y SF. destruct (d_list d); [|easy].
    destruct (outer_key KeyBags (d :: anc)) as [n|] eqn:K; [|easy]. destruct o; cbn [cont yang_ok safe] in *; try easy.
    - apply go_add; auto. exact (head_key KeyBags d anc n E3b K).
    - now apply go_del. }
  destruct (beqb (d_name d) (bs "certificate")) eqn:E4.
  { apply beqb_spec in E4. rewrite ?E4 in *. revert Y SF. lits. intros Y SF. destruct (d_list d); [|easy].
    destruct (outer_key CertBags (d :: anc)) as [n|] eqn:K; [|easy]. destruct (inner_key CertBags (d :: anc)) as [m|] eqn:K2; [|easy].
    destruct o; cbn [cont yang_ok safe] in *; try easy.
    - apply go_iadd; auto; [apply (head_key2 CertBags d anc m E4); easy|apply Y].
    - now apply go_idel. }
  destruct (beqb (d_name d) (bs "cert-data")) eqn:E9.
  { destruct (outer_key CertBags (d :: anc)) as [n|] eqn:K; [|easy]. destruct (inner_key CertBags (d :: anc)) as [m|] eqn:K2; [|easy].
    cbn [yang_ok] in Y. destruct Y as [Y GV]. unfold h_cert_data. destruct (setting o) eqn:SO; [|now destruct o].
    apply go_ival; auto. intros b y (O1 & O2). split; [exact O1|]. cbn [fst snd i_data]. rewrite put_leaf_same. destruct o; easy. }
  cbn [find] in *.
  destruct (beqb (d_name d) (bs "public-key")) eqn:E6.
  { apply beqb_spec in E6. unfold shape in SD. rewrite E6 in SD. revert SD. lits. intros SD. cbn [andb] in *. unfold h_bag_key.
    assert (equal_parent_name (d :: anc) 1 (bs "public-key-bag") = d_list d) as ->.
    { unfold equal_parent_name. cbn [nth_error]. destruct (d_list d); apply andb_prop in SD as [_ SD]; destruct anc; try discriminate; auto.
      now apply negb_true_iff in SD. }
    destruct (outer_key KeyBags (d :: anc)) as [n|] eqn:K; [|now destruct (d_list d)].
    destruct (inner_key KeyBags (d :: anc)) as [m|] eqn:K2; [|now destruct (d_list d)].
    destruct (d_list d) eqn:DL.
    - destruct o; cbn [cont yang_ok safe] in *; try easy.
      + apply go_iadd; auto; [|apply Y]. apply (head_key2 KeyBags d anc m E6); [|exact K2]. intros _ Q. now rewrite Q in SD.
      + now apply go_idel.
    - cbn [yang_ok safe] in *. destruct Y as [Y GV]. apply go_ival; auto. intros b y (O1 & O2 & O3). split; [exact O1|].
      cbn [fst snd i_data i_type]. rewrite put_leaf_same. split; [destruct o; easy|exact O3]. }
  cbn [andb] in *.
  destruct (beqb (d_name d) (bs "public-key-format")) eqn:E5; [|now apply go_nothing].
  destruct (outer_key KeyBags (d :: anc)) as [n|] eqn:K; [|easy]. destruct (inner_key KeyBags (d :: anc)) as [m|] eqn:K2; [|easy].
  cbn [yang_ok safe] in *. destruct Y as [Y GV]. specialize (SF eq_refl). unfold h_bag_format. apply go_ival; auto.
  intros b y (O1 & O2 & O3). split; [exact O1|]. cbn [fst snd i_data i_type]. rewrite put_leaf_same. split; [exact O2|].
  destruct o; cbn [leaf_val pub_known pubfmt_is given] in *; try easy; unfold pub_type; destruct SF as [-> | ->]; lits; auto.
Qed.

Lemma all_ok_app c a b : all_ok c (a ++ b) <-> all_ok c a /\ all_ok (fold_left do_edit a c) b.
Proof. revert c. induction a as [|e a IH]; intros c; cbn [app all_ok fold_left]; [tauto|]. rewrite IH. tauto. Qed.
Lemma fold_wf es : forall c, cwf c -> all_ok c es -> cwf (fold_left do_edit es c).
Proof. induction es as [|e es IH]; intros c W A; cbn [fold_left all_ok] in *; [exact W|]. apply IH; [|tauto]. apply do_edit_wf; tauto. Qed.

Lemma walk_ok h ed : known_step h ed -> (forall p o s, memwf s -> mem_post (h p o s)) ->
  forall d anc parent c s, cwf c -> stores_are c s -> memwf s -> shapes anc -> shaped d anc = true -> all_ok c (tree_edits ed d anc parent) ->
  exists s1, walk h d anc parent s = ROk s1 /\ stores_are (fold_left do_edit (tree_edits ed d anc parent) c) s1 /\ memwf s1.
Proof.
  intros ST HM. induction d as [n il m st nu se kids IH] using dnode_ind2. intros anc parent c s W H M SA SD A.
  cbn [walk tree_edits shaped] in *. rewrite own_cur. set (d := DN n il m st nu se kids) in *. apply andb_prop in SD as [SD SK].
  assert (shapes (d :: anc)) as SHP.
  { intros [|q0 q] e r E; cbn in E; injection E as -> ->; [exact SD|]. now apply (SA q e r). }
  destruct (own_op m parent) as [o|]; [|cbn in A; tauto].
  assert (KIDS : forall q c s, cwf c -> stores_are c s -> memwf s -> all_ok c (flat_map (fun k => tree_edits ed k (d :: anc) q) kids) ->
            exists s1, fold_left (fun r k => match r with ROk s2 => walk h k (d :: anc) q s2 | x => x end) kids (ROk s) = ROk s1 /\
                       stores_are (fold_left do_edit (flat_map (fun k => tree_edits ed k (d :: anc) q) kids) c) s1 /\ memwf s1).
  { clear A W H M c s SD. clearbody d. intros q. revert SK. induction IH as [|k ks IK F IHF]; intros SK c s W H M A.
    - exists s. split; [reflexivity|split; assumption].
    - cbn [forallb flat_map fold_left] in *. apply andb_prop in SK as [SK1 SK2]. apply all_ok_app in A as [A1 A2].
      destruct (IK (d :: anc) q c s W H M SHP SK1 A1) as (s1 & -> & H1 & M1). rewrite fold_left_app. apply IHF; auto. now apply fold_wf. }
  destruct o.
  - rewrite walk_kids. now apply KIDS.
  - cbn [all_ok fold_left] in A |- *. destruct A as (Y & SF & A). destruct (ST c s (d :: anc) OCreate) as (s1 & E & H1); auto; [discriminate|].
    pose proof (HM (d :: anc) OCreate s M) as M1. rewrite E in *. rewrite walk_kids. apply KIDS; auto. now apply do_edit_wf.
  - cbn [all_ok fold_left] in A |- *. destruct A as (Y & SF & A). destruct (ST c s (d :: anc) ODelete) as (s1 & E & H1); auto; [discriminate|].
    pose proof (HM (d :: anc) ODelete s M) as M1. rewrite E in *. exists s1. split; [reflexivity|split; assumption].
  - cbn [all_ok fold_left] in A |- *. destruct A as (Y & SF & A). destruct (ST c s (d :: anc) OReplace) as (s1 & E & H1); auto; [discriminate|].
    pose proof (HM (d :: anc) OReplace s M) as M1. rewrite E in *. rewrite walk_kids. apply KIDS; auto. now apply do_edit_wf.
Qed.

(* ------------------------------------------------------------------ *)
(** ** Sequences of calls *)

(** nc_server_config_setup_diff() and nc_server_config_setup_data() with trees of the keystore and of the truststore. *)
Inductive call := Diff (dk dt : option dnode) | Data (dk dt : option dnode).
Definition do_call (s : st) (x : call) : res := match x with Diff dk dt => setup_diff dk dt s | Data dk dt => setup_data dk dt s end.
Fixpoint run (s : st) (l : list call) : res := match l with [] => ROk s | x :: r => match do_call s x with ROk s1 => run s1 r | y => y end end.
(** The configuration after a call: a diff changes the one before, data replace it. *)
Definition call_edits (x : call) : list edit :=
  match x with
  | Diff dk dt => opt_edits edit_ks dk None ++ opt_edits edit_ts dt None
  | Data dk dt => opt_edits edit_ks dk (Some OCreate) ++ opt_edits edit_ts dt (Some OCreate)
  end.
Definition call_start (x : call) (c : conf) : conf := match x with Diff _ _ => c | Data _ _ => empty end.
Definition after (c : conf) (x : call) : conf := fold_left do_edit (call_edits x) (call_start x c).
Definition opt_shaped (d : option dnode) : bool := match d with Some d => shaped d [] | None => true end.
Definition call_shaped (x : call) : bool := match x with Diff dk dt | Data dk dt => opt_shaped dk && opt_shaped dt end.
Fixpoint calls_ok (c : conf) (l : list call) : Prop :=
  match l with [] => True | x :: r => call_shaped x = true /\ all_ok (call_start x c) (call_edits x) /\ calls_ok (after c x) r end.
Fixpoint calls_yang (c : conf) (l : list call) : Prop :=
  match l with [] => True | x :: r => call_shaped x = true /\ all_yang (call_start x c) (call_edits x) /\ calls_yang (after c x) r end.

Lemma shapes_nil : shapes []. Proof. intros [|? ?] ? ?; discriminate. Qed.
Lemma fill_ok dk dt q c s : cwf c -> stores_are c s -> memwf s -> opt_shaped dk && opt_shaped dt = true ->
  all_ok c (opt_edits edit_ks dk q ++ opt_edits edit_ts dt q) ->
  exists s1, fill dk dt q s = ROk s1 /\ stores_are (fold_left do_edit (opt_edits edit_ks dk q ++ opt_edits edit_ts dt q) c) s1 /\ memwf s1.
Proof.
  intros W H M SD A. apply andb_prop in SD as [S1 S2]. apply all_ok_app in A as [A1 A2]. rewrite fold_left_app. unfold fill.
  assert (exists s1, match dk with Some d => walk handle_ks d [] q s | None => ROk s end = ROk s1 /\
                     stores_are (fold_left do_edit (opt_edits edit_ks dk q) c) s1 /\ memwf s1) as (s1 & -> & H1 & M1).
  { destruct dk as [d|]; cbn [opt_edits opt_shaped] in *; [|exists s; split; [reflexivity|split; assumption]].
    apply (walk_ok _ _ step_ks handle_ks_mem); auto using shapes_nil. }
  destruct dt as [d|]; cbn [opt_edits opt_shaped] in *; [|exists s1; split; [reflexivity|split; assumption]].
  apply (walk_ok _ _ step_ts handle_ts_mem); auto using shapes_nil. now apply fold_wf.
Qed.
Lemma clear_ok s : memwf s -> exists s1 s2, h_all Keys ODelete s = ROk s1 /\ h_truststore ODelete s1 = ROk s2 /\ memwf s2 /\ in_use s2 = [] /\
  (forall k, live (sel k s2) = []) /\ Permutation (freed s2) (freed s ++ in_use s) /\ made s2 = made s.
Proof.
  intros M. unfold h_truststore, h_all.
  destruct (all_mem Keys s M) as (a1 & f1 & -> & L1 & M1).
  destruct (all_mem CertBags _ M1) as (a2 & f2 & E2 & L2 & M2).
  destruct (all_mem KeyBags _ M2) as (a3 & f3 & E3 & L3 & M3).
  eexists. eexists. split; [reflexivity|]. rewrite E2, E3. split; [reflexivity|]. split; [exact M3|]. cbn [put sel keys cbags kbags freed made] in *.
  assert (in_use (mkS a1 a2 a3 f3 (made s)) = []) as U.
  { unfold in_use. cbn [keys cbags kbags]. now rewrite L1, L2, L3. }
  split; [exact U|]. split; [intros []; assumption|]. split; [|reflexivity].
  destruct M as [_ AC], M3 as [_ AC3]. unfold accounted in *. rewrite U, app_nil_r in AC3. cbn [freed made] in AC3. now rewrite AC3, AC.
Qed.
Lemma call_ok c s x : cwf c -> stores_are c s -> memwf s -> call_shaped x = true -> all_ok (call_start x c) (call_edits x) ->
  exists s1, do_call s x = ROk s1 /\ stores_are (after c x) s1 /\ memwf s1.
Proof.
  intros W H M SD A. destruct x as [dk dt|dk dt]; cbn [do_call call_shaped call_start call_edits after] in *.
  - now apply fill_ok.
  - unfold setup_data. destruct (clear_ok s M) as (s1 & s2 & -> & -> & M2 & _ & L & _).
    apply fill_ok; auto; [intros k; split; constructor|]. intros k. rewrite L. apply rel_nil.
Qed.
Lemma after_wf c x : cwf c -> all_ok (call_start x c) (call_edits x) -> cwf (after c x).
Proof. intros W A. apply fold_wf; [|exact A]. destruct x; [exact W|]. intros k. split; constructor. Qed.
Lemma init_mem : memwf init.
Proof. split; [|exact (perm_nil _)]. intros []; split; cbn; try constructor; unfold arr_ok; cbn; lia. Qed.

(** *** C137 *)
(** After any sequence of diffs and data that keep the configuration valid (and that the server is able to follow), all
    calls succeeded and the keystore and the truststore have the keys, bags, certificates and public keys of the
    configuration, with their values, and no others. *)
Theorem c137_stores_follow_partial l : calls_ok empty l ->
  exists s, run init l = ROk s /\ stores_are (fold_left after l empty) s.
Proof.
  assert (forall c s, cwf c -> stores_are c s -> memwf s -> calls_ok c l -> exists s1, run s l = ROk s1 /\ stores_are (fold_left after l c) s1) as G.
  { induction l as [|x r IH]; intros c s W H M OK; cbn [run fold_left calls_ok] in *; [eauto|]. destruct OK as (SD & A & OK).
    destruct (call_ok c s x W H M SD A) as (s1 & -> & H1 & M1). apply IH; auto. now apply after_wf. }
  intros OK. apply G; auto; [intros k; split; constructor| |apply init_mem]. intros []; apply rel_nil.
Qed.

(** *** C138 *)
Lemma fill_mem dk dt q s : memwf s -> mem_post (fill dk dt q s).
Proof.
  intros M. unfold fill. assert (mem_post (match dk with Some d => walk handle_ks d [] q s | None => ROk s end)) as P.
  { destruct dk; [|exact M]. apply (walk_mem _ handle_ks_mem), M. }
  destruct (match dk with Some d => walk handle_ks d [] q s | None => ROk s end); [|exact P..].
  destruct dt; [|exact P]. apply (walk_mem _ handle_ts_mem), P.
Qed.
Lemma call_mem s x : memwf s -> mem_post (do_call s x).
Proof.
  intros M. destruct x; cbn [do_call]; [now apply fill_mem|]. unfold setup_data.
  destruct (clear_ok s M) as (s1 & s2 & -> & -> & M2 & _). now apply fill_mem.
Qed.
Lemma run_mem l : forall s, memwf s -> mem_post (run s l).
Proof.
  induction l as [|x r IH]; intros s M; cbn [run]; [exact M|]. pose proof (call_mem s x M) as P. destruct (do_call s x); [now apply IH|exact P..].
Qed.
(** Whatever the trees are and whether the calls succeed: every entry ever made is in use or was freed, once; and nothing is
    freed twice or used outside of the arrays unless a list has 65535 entries. *)
Theorem c138_memory l :
  match run init l with
  | ROk s | RFail s => Permutation (freed s ++ in_use s) (seq 0 (made s))
  | RUb s => exists k, (65535 <= N.of_nat (length (live (sel k s))))%N \/
                       exists x, In x (live (sel k s)) /\ (65535 <= N.of_nat (length (live (o_items x))))%N
  end.
Proof. pose proof (run_mem l init init_mem) as P. destruct (run init l); [exact (proj2 P)|exact (proj2 P)|exact (proj2 P)]. Qed.
(** Data first free all entries; with the empty trees nothing is left. *)
Theorem c138_all_freed l s : run init l = ROk s ->
  exists s1, run init (l ++ [Data None None]) = ROk s1 /\ (forall k, live (sel k s1) = []) /\ Permutation (freed s1) (seq 0 (made s)) /\ made s1 = made s.
Proof.
  intros E. pose proof (run_mem l init init_mem) as P. rewrite E in P. cbn [mem_post] in P.
  assert (forall a b s, run s (a ++ b) = match run s a with ROk s1 => run s1 b | y => y end) as RA.
  { induction a as [|x a IH]; intros b s0; [reflexivity|]. cbn [app run]. destruct (do_call s0 x); auto. }
  rewrite RA, E. cbn [run do_call]. unfold setup_data. destruct (clear_ok s P) as (s1 & s2 & -> & -> & M2 & _ & L & PF & MM).
  exists s2. split; [reflexivity|]. split; [exact L|]. split; [|exact MM]. rewrite PF. apply (proj2 P).
Qed.

(** *** C139 *)
(** What can be seen of an entry, and of the stores: names and values, in the order of the arrays. *)
Definition iview (y : inner) := (i_name y, i_type y, i_data y).
Definition oview (x : outer) := (o_name x, o_ptype x, o_pub x, o_vtype x, o_priv x, map iview (live (o_items x))).
Definition same (s t : st) : Prop := forall k, map oview (live (sel k s)) = map oview (live (sel k t)).
Definition same_res (r q : res) : Prop :=
  match r, q with ROk s, ROk t | RFail s, RFail t => same s t | RUb _, RUb _ => True | _, _ => False end.

Section View.
Context {A V : Type} (v : A -> V) (nm : A -> bytes).
Hypothesis NV : forall x y, v x = v y -> nm x = nm y.
Lemma find_same l l' n : map v l = map v l' ->
  match find_at nm l n, find_at nm l' n with
  | Some (i, x), Some (j, y) => i = j /\ v x = v y
  | None, None => True
  | _, _ => False
  end.
Proof.
  revert l'. induction l as [|x l IH]; intros [|y l'] E; try discriminate; [exact Logic.I|]. cbn [map] in E. injection E as E1 E2.
  cbn [find_at]. rewrite (NV _ _ E1). destruct (beqb (nm y) n); [now split|]. specialize (IH l' E2).
  destruct (find_at nm l n) as [[i a]|], (find_at nm l' n) as [[j b]|]; cbn; try easy. destruct IH. split; congruence.
Qed.
End View.
Definition dl {A} (l : list A) (i : nat) : list A :=
  let c := length l - 1 in
  if Nat.eqb i c then firstn c l else match nth_error l c with Some y => firstn c (set_at l i y) | None => l end.
Lemma firstn_firstn_le {A} n m (l : list A) : n <= m -> firstn n (firstn m l) = firstn n l.
Proof. intros L. rewrite firstn_firstn. now rewrite Nat.min_l. Qed.
Lemma del_at_dl {A} fr (a : arr A) i f a1 f1 : arr_ok a -> i < cnt a -> del_at fr a i f = Some (a1, f1) -> live a1 = dl (live a) i.
Proof.
  intros OK L. unfold del_at, dl. rewrite (live_len a OK). destruct (nth_error (slots a) i) as [x|] eqn:X; [|discriminate].
  destruct (fr x f); [|discriminate]. destruct (Nat.eqb_spec (cnt a - 1) 0) as [Z|Z].
  - intros [= <- _]. assert (i = cnt a - 1) as -> by lia. rewrite Nat.eqb_refl, Z. reflexivity.
  - destruct (Nat.eqb_spec i (cnt a - 1)) as [I|I].
    + intros [= <- _]. unfold live. cbn [slots cnt]. now rewrite firstn_firstn_le by lia.
    + rewrite nth_live by lia. destruct (nth_error (slots a) (cnt a - 1)) as [y|]; [|discriminate]. intros [= <- _].
      rewrite live_set_at. rewrite live_eta. revert L I. clear. unfold live, set_at. generalize (cnt a). generalize (slots a). intros l c.
      revert l i. induction c as [|c IH]; intros l i L I; [lia|]. replace (S c - 1) with c in * by lia.
      assert (forall (l : list A) c i, firstn c (upd (firstn (S c) l) i (fun _ => y)) = upd (firstn c l) i (fun _ => y)) as G.
      { clear. induction l as [|z r IH]; intros c i; [now destruct c, i|]. destruct c as [|c]; [now destruct i|]. destruct i as [|i].
        - change (firstn (S (S c)) (z :: r)) with (z :: firstn (S c) r). cbn [upd]. rewrite !firstn_cons. cbn [upd]. f_equal. apply firstn_firstn_le. lia.
        - change (firstn (S (S c)) (z :: r)) with (z :: firstn (S c) r). cbn [upd]. rewrite !firstn_cons. cbn [upd]. f_equal. apply IH. }
      symmetry. apply G.
Qed.
Lemma map_set_at {A V} (v : A -> V) l i y : map v (set_at l i y) = set_at (map v l) i (v y).
Proof. unfold set_at. revert i. induction l as [|x r IH]; intros [|i]; cbn; auto. now rewrite IH. Qed.
Lemma map_dl {A V} (v : A -> V) l i : map v (dl l i) = dl (map v l) i.
Proof.
  unfold dl. rewrite map_length. destruct (Nat.eqb i (length l - 1)); [now rewrite firstn_map|]. rewrite nth_error_map.
  destruct (nth_error l (length l - 1)); cbn [option_map]; [|reflexivity]. now rewrite <- firstn_map, map_set_at.
Qed.

Lemma same_put k a b f g m m' s t : same s t -> map oview (live a) = map oview (live b) -> same (put k a f m s) (put k b g m' t).
Proof. intros S0 E k'. destruct (kind_dec k' k) as [->|N]; [now rewrite !sel_put|]. rewrite !sel_put_other by exact N. apply S0. Qed.
Lemma same_wr k i x y f g m m' s t : same s t -> oview x = oview y -> same (wr_outer k s i x f m) (wr_outer k t i y g m').
Proof. intros S0 E. apply same_put; [exact S0|]. rewrite !live_set_at, !live_mk, !map_set_at, E. f_equal. apply S0. Qed.

Lemma with_outer_same k p s t g h : memwf s -> memwf t -> same s t ->
  (forall i x y, nth_error (live (sel k s)) i = Some x -> nth_error (live (sel k t)) i = Some y -> oview x = oview y -> same_res (g i x) (h i y)) ->
  same_res (with_outer k p s g) (with_outer k p t h).
Proof.
  intros M1 M2 S0 H. unfold with_outer. destruct (outer_key k p) as [n|]; [|exact S0].
  pose proof (find_same oview o_name (fun x y E => ltac:(unfold oview in E; congruence)) (live (sel k s)) (live (sel k t)) n (S0 k)) as F.
  destruct (find_at o_name (live (sel k s)) n) as [[i x]|] eqn:E1, (find_at o_name (live (sel k t)) n) as [[j y]|] eqn:E2; try easy.
  destruct F as [<- V]. apply H; [apply (find_at_some _ _ _ _ _ E1)|apply (find_at_some _ _ _ _ _ E2)|exact V].
Qed.
Lemma with_inner_same k p s t g h : memwf s -> memwf t -> same s t ->
  (forall i x y j u w, nth_error (live (sel k s)) i = Some x -> nth_error (live (sel k t)) i = Some y -> oview x = oview y ->
     nth_error (live (o_items x)) j = Some u -> nth_error (live (o_items y)) j = Some w -> iview u = iview w -> same_res (g i x j u) (h i y j w)) ->
  same_res (with_inner k p s g) (with_inner k p t h).
Proof.
  intros M1 M2 S0 H. apply with_outer_same; auto. intros i x y X Y V. destruct (inner_key k p) as [n|]; [|exact S0].
  assert (map iview (live (o_items x)) = map iview (live (o_items y))) as VI by (unfold oview in V; congruence).
  pose proof (find_same iview i_name (fun x y E => ltac:(unfold iview in E; congruence)) _ _ n VI) as F.
  destruct (find_at i_name (live (o_items x)) n) as [[j u]|] eqn:E1, (find_at i_name (live (o_items y)) n) as [[j' w]|] eqn:E2; try easy.
  destruct F as [<- VV]. apply H; auto; [apply (find_at_some _ _ _ _ _ E1)|apply (find_at_some _ _ _ _ _ E2)].
Qed.
Lemma all_same k o s t : memwf s -> memwf t -> same s t -> same_res (h_all k o s) (h_all k o t).
Proof.
  intros M1 M2 S0. destruct o; cbn [h_all]; try exact S0. destruct (all_mem k s M1) as (a & f & -> & L1 & _), (all_mem k t M2) as (b & g & -> & L2 & _).
  apply same_put; [exact S0|]. now rewrite L1, L2.
Qed.
Lemma ts_same o s t : memwf s -> memwf t -> same s t -> same_res (h_truststore o s) (h_truststore o t).
Proof.
  intros M1 M2 S0. unfold h_truststore. pose proof (all_same CertBags o s t M1 M2 S0) as R.
  destruct (h_all_mem CertBags o s M1) as (s1 & E1 & N1), (h_all_mem CertBags o t M2) as (t1 & E2 & N2). rewrite E1, E2 in *. now apply all_same.
Qed.
Lemma same_len k s t : same s t -> length (live (sel k s)) = length (live (sel k t)).
Proof. intros S0. rewrite <- (map_length oview), (S0 k). apply map_length. Qed.
Lemma add_same {A} (x y : A) a b : arr_ok a -> arr_ok b -> length (live a) = length (live b) ->
  match add x a, add y b with
  | Some a1, Some b1 => live a1 = live a ++ [x] /\ live b1 = live b ++ [y]
  | None, None => True
  | _, _ => False
  end.
Proof.
  intros O1 O2 E. rewrite !live_len in E by assumption. unfold add. rewrite E. destruct (N.leb _ _); [exact Logic.I|].
  split; [rewrite <- E|]; now apply live_add.
Qed.
Lemma outer_same k p o s t : memwf s -> memwf t -> same s t -> same_res (h_outer k p o s) (h_outer k p o t).
Proof.
  intros M1 M2 S0. unfold h_outer. destruct (setting o).
  - destruct p as [|d p]; [exact S0|]. destruct (key_of d) as [n|]; [|exact S0].
    pose proof (add_same (new_outer (made s) n) (new_outer (made t) n) _ _ (proj1 (proj1 M1 k)) (proj1 (proj1 M2 k)) (same_len k s t S0)) as A.
    destruct (add (new_outer (made s) n) (sel k s)), (add (new_outer (made t) n) (sel k t)); try easy.
    apply same_put; [exact S0|]. destruct A as [-> ->]. rewrite !map_app, (S0 k). reflexivity.
  - apply with_outer_same; auto. intros i x y X Y V. destruct (del_mem k s i x M1 X) as (a & f & D1 & _), (del_mem k t i y M2 Y) as (b & g & D2 & _).
    rewrite D1, D2. apply same_put; [exact S0|].
    rewrite (del_at_dl _ _ _ _ _ _ (proj1 (proj1 M1 k)) (proj2 (live_nth _ _ _ X)) D1), (del_at_dl _ _ _ _ _ _ (proj1 (proj1 M2 k)) (proj2 (live_nth _ _ _ Y)) D2).
    rewrite !map_dl. f_equal. apply S0.
Qed.
Lemma view_items x y a b : oview x = oview y -> map iview (live a) = map iview (live b) -> oview (set_items x a) = oview (set_items y b).
Proof. unfold oview, set_items. cbn. intros E ->. congruence. Qed.
Lemma inner_same k p o s t : memwf s -> memwf t -> same s t -> same_res (h_inner k p o s) (h_inner k p o t).
Proof.
  intros M1 M2 S0. unfold h_inner. destruct (setting o).
  - apply with_outer_same; auto. intros i x y X Y V. destruct p as [|d p]; [exact S0|]. destruct (key_of d) as [n|]; [|exact S0].
    assert (map iview (live (o_items x)) = map iview (live (o_items y))) as VI by (unfold oview in V; congruence).
    pose proof (add_same (mkI (made s) n 0 None) (mkI (made t) n 0 None) _ _ (good_at _ _ _ _ M1 X) (good_at _ _ _ _ M2 Y)) as A.
    rewrite <- (map_length iview), VI, map_length in A. specialize (A eq_refl).
    destruct (add (mkI (made s) n 0 None) (o_items x)), (add (mkI (made t) n 0 None) (o_items y)); try easy.
    apply same_wr; [exact S0|]. apply view_items; [exact V|]. destruct A as [-> ->]. rewrite !map_app, VI. reflexivity.
  - apply with_inner_same; auto. intros i x y j u w X Y V U Z VV.
    assert (map iview (live (o_items x)) = map iview (live (o_items y))) as VI by (unfold oview in V; congruence).
    destruct (idel_mem k s i x j u M1 X U) as (a & f & D1 & _), (idel_mem k t i y j w M2 Y Z) as (b & g & D2 & _). rewrite D1, D2.
    apply same_wr; [exact S0|]. apply view_items; [exact V|].
    rewrite (del_at_dl _ _ _ _ _ _ (good_at _ _ _ _ M1 X) (proj2 (live_nth _ _ _ U)) D1), (del_at_dl _ _ _ _ _ _ (good_at _ _ _ _ M2 Y) (proj2 (live_nth _ _ _ Z)) D2).
    rewrite !map_dl. now f_equal.
Qed.
Lemma ival_same k p s t g : memwf s -> memwf t -> same s t -> (forall u w, iview u = iview w -> iview (g u) = iview (g w)) ->
  same_res (with_inner k p s (fun i x j y => ROk (wr_inner k s i x j (g y)))) (with_inner k p t (fun i x j y => ROk (wr_inner k t i x j (g y)))).
Proof.
  intros M1 M2 S0 G. apply with_inner_same; auto. intros i x y j u w X Y V U Z VV. unfold wr_inner. apply same_wr; [exact S0|].
  apply view_items; [exact V|]. rewrite !live_set_at, !live_mk, !map_set_at, (G _ _ VV). f_equal. unfold oview in V. congruence.
Qed.
Lemma val_same p s t g : memwf s -> memwf t -> same s t -> (forall x y, oview x = oview y -> oview (g x) = oview (g y)) ->
  same_res (with_outer Keys p s (fun i x => ROk (wr_outer Keys s i (g x) (freed s) (made s))))
           (with_outer Keys p t (fun i x => ROk (wr_outer Keys t i (g x) (freed t) (made t)))).
Proof. intros M1 M2 S0 G. apply with_outer_same; auto. intros i x y X Y V. apply same_wr; auto. Qed.
Definition same_step (h : list dnode -> op -> st -> res) : Prop := forall p o s t, memwf s -> memwf t -> same s t -> same_res (h p o s) (h p o t).
Lemma ks_same : same_step handle_ks.
Proof.
  intros p o s t M1 M2 S0. unfold handle_ks. destruct p as [|d p]; [exact S0|].
  repeat (match goal with |- same_res (if beqb ?a ?b then _ else _) _ => destruct (beqb a b) end;
          [try (now apply all_same); try (now apply outer_same); try (now apply inner_same)|]); try exact S0.
  - apply val_same; auto. unfold oview. cbn. intros x y E. congruence.
  - apply val_same; auto. unfold oview. cbn. intros x y E. congruence.
  - unfold h_priv_format. destruct (priv_type (d_str d)) as [ty|].
    + apply (val_same (d :: p) s t (fun x => mkO (o_id x) (o_name x) (o_ptype x) (o_pub x) ty (o_priv x) (o_items x))); auto. unfold oview. cbn. intros x y E. congruence.
    + apply with_outer_same; auto.
  - apply val_same; auto. unfold oview. cbn. intros x y E. congruence.
  - unfold h_cert_data. destruct (setting o); [|exact S0]. apply ival_same; auto. unfold iview. cbn. intros x y E. congruence.
Qed.
Lemma ts_step_same : same_step handle_ts.
Proof.
  intros p o s t M1 M2 S0. unfold handle_ts. destruct p as [|d p]; [exact S0|].
  repeat (match goal with |- same_res (if beqb ?a ?b then _ else _) _ => destruct (beqb a b) end;
          [try (now apply ts_same); try (now apply all_same); try (now apply outer_same); try (now apply inner_same)|]); try exact S0.
  - unfold h_cert_data. destruct (setting o); [|exact S0]. apply ival_same; auto. unfold iview. cbn. intros x y E. congruence.
  - unfold h_bag_key. destruct (equal_parent_name _ _ _); [now apply inner_same|]. apply ival_same; auto. unfold iview. cbn. intros x y E. congruence.
  - apply ival_same; auto. unfold iview. cbn. intros x y E. congruence.
Qed.
Lemma walk_same h : same_step h -> (forall p o s, memwf s -> mem_post (h p o s)) ->
  forall d anc q s t, memwf s -> memwf t -> same s t -> same_res (walk h d anc q s) (walk h d anc q t).
Proof.
  intros ST HM. induction d as [n il m st nu se kids IH] using dnode_ind2. intros anc parent s t M1 M2 S0.
  cbn [walk]. set (d := DN n il m st nu se kids). destruct (cur_op d parent) as [o|]; [|exact S0].
  assert (same_res (match o with ONone => ROk s | _ => h (d :: anc) o s end) (match o with ONone => ROk t | _ => h (d :: anc) o t end)) as R
    by (destruct o; try (now apply ST); exact S0).
  assert (mem_post (match o with ONone => ROk s | _ => h (d :: anc) o s end)) as P1 by (destruct o; try apply HM; exact M1).
  assert (mem_post (match o with ONone => ROk t | _ => h (d :: anc) o t end)) as P2 by (destruct o; try apply HM; exact M2).
  destruct (match o with ONone => ROk s | _ => h (d :: anc) o s end) as [s1|s1|s1],
           (match o with ONone => ROk t | _ => h (d :: anc) o t end) as [t1|t1|t1]; try easy.
  cbn [same_res mem_post] in *.
  assert (forall q r r', same_res r r' -> mem_post r -> mem_post r' ->
            same_res (fold_left (fun r k => match r with ROk s2 => walk h k (d :: anc) q s2 | x => x end) kids r)
                     (fold_left (fun r k => match r with ROk s2 => walk h k (d :: anc) q s2 | x => x end) kids r')) as G.
  { intros q. generalize (d :: anc). clearbody d. revert IH HM. clear. intros F HM anc. induction F as [|k ks IH F IHF]; intros r r' R P P'; [exact R|].
    cbn [fold_left]. apply IHF; destruct r, r'; try easy; [now apply IH|now apply walk_mem..]. }
  destruct o; try exact R; rewrite !walk_kids; now apply G.
Qed.
(** Data replace what was there: what nc_server_config_setup_data() returns, and the stores it leaves, do not depend on the
    calls before. *)
Theorem c139_data_replace l1 l2 s t dk dt : run init l1 = ROk s -> run init l2 = ROk t ->
  same_res (do_call s (Data dk dt)) (do_call t (Data dk dt)).
Proof.
  intros E1 E2. pose proof (run_mem l1 init init_mem) as M1. pose proof (run_mem l2 init init_mem) as M2. rewrite E1 in M1. rewrite E2 in M2.
  cbn [do_call mem_post] in *. unfold setup_data.
  destruct (clear_ok s M1) as (s1 & s2 & -> & -> & N1 & _ & L1 & _), (clear_ok t M2) as (t1 & t2 & -> & -> & N2 & _ & L2 & _).
  assert (same s2 t2) as S0 by (intros k; now rewrite L1, L2). unfold fill.
  assert (same_res (match dk with Some d => walk handle_ks d [] (Some OCreate) s2 | None => ROk s2 end)
                   (match dk with Some d => walk handle_ks d [] (Some OCreate) t2 | None => ROk t2 end)) as R.
  { destruct dk; [|exact S0]. apply (walk_same _ ks_same handle_ks_mem); auto. }
  assert (mem_post (match dk with Some d => walk handle_ks d [] (Some OCreate) s2 | None => ROk s2 end)) as P1.
  { destruct dk; [|exact N1]. now apply (walk_mem _ handle_ks_mem). }
  assert (mem_post (match dk with Some d => walk handle_ks d [] (Some OCreate) t2 | None => ROk t2 end)) as P2.
  { destruct dk; [|exact N2]. now apply (walk_mem _ handle_ks_mem). }
  destruct (match dk with Some d => walk handle_ks d [] (Some OCreate) s2 | None => ROk s2 end),
           (match dk with Some d => walk handle_ks d [] (Some OCreate) t2 | None => ROk t2 end); try easy.
  destruct dt; [|exact R]. apply (walk_same _ ts_step_same handle_ts_mem); auto.
Qed.

(* ------------------------------------------------------------------ *)
(** ** Examples *)

(** Checking the conditions by computation. *)
Definition hasb {B} (n : bytes) (l : list (bytes * B)) : bool := existsb (fun x => beqb (fst x) n) l.
Lemma hasb_spec {B} n (l : list (bytes * B)) : hasb n l = true <-> has n l.
Proof.
  unfold hasb, has. rewrite existsb_exists, in_map_iff. split; intros (x & H1 & H2); exists x; [apply beqb_spec in H2|]; split; auto.
  apply beqb_spec. auto.
Qed.
Definition hasib (c : conf) (k : kind) (n m : bytes) : bool := existsb (fun x => beqb (fst x) n && hasb m (snd (snd x))) (c k).
Lemma hasib_spec c k n m : hasib c k n m = true <-> has_inner c k n m.
Proof.
  unfold hasib, has_inner. rewrite existsb_exists. split; intros (x & H); exists x.
  - destruct H as [H1 H2]. apply andb_prop in H2 as [H2 H3]. apply beqb_spec in H2. apply hasb_spec in H3. auto.
  - destruct H as (H1 & H2 & H3). split; [exact H1|]. apply andb_true_intro. split; [now apply beqb_spec|now apply hasb_spec].
Qed.
Definition givenb (v : lv) : bool := match v with Given _ => true | _ => false end.
Definition yang_okb (c : conf) (e : edit) : bool :=
  match e with
  | EAdd k n => negb (hasb n (c k))
  | EDel k n => hasb n (c k)
  | ELeaf n _ _ => hasb n (c Keys)
  | EIAdd k n m => hasb n (c k) && negb (hasib c k n m)
  | EIDel k n m => hasib c k n m
  | EILeaf k n m _ v => hasib c k n m && givenb v
  | EBad => false
  | _ => true
  end.
Lemma yang_okb_spec c e : yang_okb c e = true -> yang_ok c e.
Proof.
  destruct e; cbn [yang_okb yang_ok]; rewrite ?andb_true_iff, ?negb_true_iff, ?hasb_spec, ?hasib_spec; auto.
  - intros H X. apply hasb_spec in X. congruence.
  - intros [H1 H2]. split; [exact H1|]. intros X. apply hasib_spec in X. congruence.
  - intros [H1 H2]. split; [exact H1|]. now destruct v.
  - discriminate.
Qed.
Definition pub_knownb (v : lv) : bool :=
  match v with Given x => beqb x (bs "ssh-public-key-format") || beqb x (bs "subject-public-key-info-format") | _ => true end.
Definition priv_knownb (v : bytes) : bool :=
  existsb (beqb v) [bs "rsa-private-key-format"; bs "ec-private-key-format"; bs "private-key-info-format"; bs "openssh-private-key-format"].
Definition smallb {B} (l : list B) : bool := N.ltb (N.of_nat (length l)) 65535.
Definition safeb (c : conf) (e : edit) : bool :=
  match e with
  | EAdd k _ => smallb (c k)
  | EIAdd k n _ => forallb (fun x => smallb (snd (snd x))) (c k)
  | ELeaf _ l v =>
      (if String.eqb l "public-key" then givenb v else true) && (if String.eqb l "public-key-format" then pub_knownb v else true) &&
      (if String.eqb l "private-key-format" then match v with Given x | Removed x => priv_knownb x | Unsaid => true end else true)
  | EILeaf _ _ _ l v => if String.eqb l "public-key-format" then pub_knownb v else true
  | _ => true
  end.
Lemma pub_knownb_spec v : pub_knownb v = true -> pub_known v.
Proof. destruct v; cbn; auto. rewrite orb_true_iff. intros [H|H]; apply beqb_spec in H; auto. Qed.
Lemma priv_knownb_spec v : priv_knownb v = true -> priv_known v.
Proof. unfold priv_knownb, priv_known. rewrite existsb_exists. intros (x & I & E). apply beqb_spec in E as ->. exact I. Qed.
Lemma safeb_spec c e : safeb c e = true -> safe c e.
Proof.
  destruct e; cbn [safeb safe]; auto.
  - apply N.ltb_lt.
  - intros H. apply andb_prop in H as [H H3]. apply andb_prop in H as [H1 H2]. split; [|split]; intros ->; cbn [String.eqb] in *.
    + now destruct v.
    + now apply pub_knownb_spec.
    + destruct v; auto; now apply priv_knownb_spec.
  - rewrite forallb_forall. intros H x I _. now apply N.ltb_lt, H.
  - intros H ->. now apply pub_knownb_spec.
Qed.
Fixpoint all_okb (c : conf) (es : list edit) : bool :=
  match es with [] => true | e :: r => yang_okb c e && safeb c e && all_okb (do_edit c e) r end.
Lemma all_okb_spec es : forall c, all_okb c es = true -> all_ok c es.
Proof.
  induction es as [|e r IH]; intros c H; [exact Logic.I|]. cbn in *. apply andb_prop in H as [H H3]. apply andb_prop in H as [H1 H2].
  split; [now apply yang_okb_spec|]. split; [now apply safeb_spec|now apply IH].
Qed.
Fixpoint all_yangb (c : conf) (es : list edit) : bool := match es with [] => true | e :: r => yang_okb c e && all_yangb (do_edit c e) r end.
Lemma all_yangb_spec es : forall c, all_yangb c es = true -> all_yang c es.
Proof.
  induction es as [|e r IH]; intros c H; [exact Logic.I|]. cbn in *. apply andb_prop in H as [H1 H2]. split; [now apply yang_okb_spec|now apply IH].
Qed.

Definition leaf (n v : string) : dnode := DN (bs n) false None (bs v) 0 0 [].
Definition leafo (o n v : string) : dnode := DN (bs n) false (Some (bs o)) (bs v) 0 0 [].
Definition cnr (n : string) (ks : list dnode) : dnode := DN (bs n) false None [] 0 0 ks.
Definition lst (n key : string) (ks : list dnode) : dnode := DN (bs n) true None [] 0 0 (leaf "name" key :: ks).
Definition lsto (o n key : string) (ks : list dnode) : dnode := DN (bs n) true (Some (bs o)) [] 0 0 (leaf "name" key :: ks).
Definition key_tree (n pub priv : string) (certs : list dnode) : dnode :=
  lst "asymmetric-key" n [leaf "public-key-format" "subject-public-key-info-format"; leaf "public-key" pub;
                          leaf "private-key-format" "rsa-private-key-format"; leaf "cleartext-private-key" priv; cnr "certificates" certs].
Definition cert_tree (n d : string) : dnode := lst "certificate" n [leaf "cert-data" d].
Definition ex_ks : dnode := cnr "keystore" [cnr "asymmetric-keys" [key_tree "k1" "P1" "S1" [cert_tree "c1" "D1"; cert_tree "c2" "D2"; cert_tree "c3" "D3"]; key_tree "k2" "P2" "S2" []]].
Definition ex_ts : dnode := cnr "truststore"
  [cnr "certificate-bags" [lst "certificate-bag" "b1" [cert_tree "ca" "CA"]];
   cnr "public-key-bags" [lst "public-key-bag" "u1" [lst "public-key" "pk" [leaf "public-key-format" "ssh-public-key-format"; leaf "public-key" "AAAA"]]]].
(** A certificate, a private key and a bag are removed, a public key gets another value. *)
Definition ex_kdiff : dnode := DN (bs "keystore") false (Some (bs "none")) [] 0 0
  [cnr "asymmetric-keys" [lst "asymmetric-key" "k1" [cnr "certificates" [lsto "delete" "certificate" "c1" [leaf "cert-data" "D1"]]; leafo "replace" "public-key" "P9"];
                          lst "asymmetric-key" "k2" [leafo "delete" "private-key-format" "rsa-private-key-format"; leafo "delete" "cleartext-private-key" "S2"]]].
Definition ex_tdiff : dnode := DN (bs "truststore") false (Some (bs "none")) [] 0 0
  [cnr "certificate-bags" [lsto "delete" "certificate-bag" "b1" []]].
Definition ex_calls : list call := [Data (Some ex_ks) (Some ex_ts); Diff (Some ex_kdiff) (Some ex_tdiff)].

Example ex_calls_ok : calls_ok empty ex_calls.
Proof.
  unfold ex_calls. cbn [calls_ok]. split; [vm_compute; reflexivity|]. split; [apply all_okb_spec; vm_compute; reflexivity|].
  split; [vm_compute; reflexivity|]. split; [apply all_okb_spec; vm_compute; reflexivity|exact Logic.I].
Qed.
Example ex_calls_run : exists s, run init ex_calls = ROk s /\
  map oview (live (keys s)) =
    [(bs "k1", 2, Some (bs "P9"), 1, Some (bs "S1"), [(bs "c3", 0, Some (bs "D3")); (bs "c2", 0, Some (bs "D2"))]);
     (bs "k2", 2, Some (bs "P2"), 1, None, [])] /\
  live (cbags s) = [] /\ freed s = [6; 5; 1] /\ made s = 9 /\
  map oview (live (kbags s)) = [(bs "u1", 0, None, 0, None, [(bs "pk", 1, Some (bs "AAAA"))])].
Proof. eexists. split; [vm_compute; reflexivity|]. vm_compute. auto. Qed.

(** The full statement is false: a removed public key of a key of the keystore stays in use. *)
Definition bad_calls : list call :=
  [Data (Some ex_ks) None;
   Diff (Some (DN (bs "keystore") false (Some (bs "none")) [] 0 0
     [cnr "asymmetric-keys" [lst "asymmetric-key" "k2" [leafo "delete" "public-key-format" "subject-public-key-info-format"; leafo "delete" "public-key" "P2"]]])) None].
Definition bad_format : list call :=
  [Data (Some (cnr "keystore" [cnr "asymmetric-keys" [lst "asymmetric-key" "k" [leaf "public-key-format" "subject-public-key-info-format"; leaf "public-key" "P"]]])) None;
   Diff (Some (DN (bs "keystore") false (Some (bs "none")) [] 0 0
     [cnr "asymmetric-keys" [lst "asymmetric-key" "k" [leafo "replace" "public-key-format" "my-format"; leafo "replace" "public-key" "Q"]]])) None].
Lemma view_follow_no l s n : stores_are (fold_left after l empty) s ->
  match find (fun x => beqb (fst x) n) (fold_left after l empty Keys) with
  | Some b => exists x, In x (live (keys s)) /\ outer_is Keys b x
  | None => True
  end.
Proof.
  intros H. destruct (find _ _) as [b|] eqn:F; [|exact Logic.I]. apply find_some in F as [F _]. destruct (H Keys) as (l' & P & F2).
  assert (exists x, In x l' /\ outer_is Keys b x) as (x & X1 & X2).
  { clear P. induction F2 as [|b' a c' l' R F2 IH]; [easy|]. destruct F as [->|F]; [exists a; split; [now left|exact R]|].
    destruct (IH F) as (x & X1 & X2). exists x. split; [now right|exact X2]. }
  exists x. split; [exact (Permutation_in _ P X1)|exact X2].
Qed.
Theorem c137_public_key_refuted :
  ~ (forall l, calls_yang empty l -> forall s, run init l = ROk s -> stores_are (fold_left after l empty) s).
Proof.
  intros H. destruct (run init bad_calls) as [s| |] eqn:E; [|vm_compute in E; discriminate..].
  assert (calls_yang empty bad_calls) as Y.
  { unfold bad_calls. cbn [calls_yang]. split; [vm_compute; reflexivity|]. split; [apply all_yangb_spec; vm_compute; reflexivity|].
    split; [vm_compute; reflexivity|]. split; [apply all_yangb_spec; vm_compute; reflexivity|exact Logic.I]. }
  specialize (H _ Y s E). vm_compute in E. injection E as <-. apply (view_follow_no _ _ (bs "k2")) in H.
  vm_compute in H. destruct H as (x & [<-|[<-|[]]] & (N & V & _)); [discriminate N|]. specialize (V eq_refl) as (V & _). discriminate V.
Qed.
Theorem c137_unknown_format_refuted :
  exists l s, calls_yang empty l /\ run init l = ROk s /\ ~ stores_are (fold_left after l empty) s /\
    (** a key whose format is unknown is used as one of the format before *)
    map (fun x => (o_ptype x, o_pub x)) (live (keys s)) = [(2, Some (bs "Q"))].
Proof.
  destruct (run init bad_format) as [s| |] eqn:E; [|vm_compute in E; discriminate..]. exists bad_format, s. split; [|split; [exact E|]].
  { unfold bad_format. cbn [calls_yang]. split; [vm_compute; reflexivity|]. split; [apply all_yangb_spec; vm_compute; reflexivity|].
    split; [vm_compute; reflexivity|]. split; [apply all_yangb_spec; vm_compute; reflexivity|exact Logic.I]. }
  vm_compute in E. injection E as <-. split; [|vm_compute; reflexivity]. intros H. apply (view_follow_no _ _ (bs "k")) in H.
  vm_compute in H. destruct H as (x & [<-|[]] & (N & V & _)). specialize (V eq_refl) as (_ & _ & V & _). destruct V as [[V _]|[V _]]; discriminate V.
Qed.
(** C138, C139 on the example. *)
Example c138_ex : exists s, run init ex_calls = ROk s /\ in_use s = [0; 3; 2; 4; 7; 8] /\ freed s = [6; 5; 1].
Proof. eexists. split; [vm_compute; reflexivity|]. vm_compute. auto. Qed.
Example c139_ex : exists s t, run init ex_calls = ROk s /\ run init [] = ROk t /\
  map oview (live (keys s)) <> map oview (live (keys t)) /\ same_res (do_call s (Data (Some ex_ks) None)) (do_call t (Data (Some ex_ks) None)).
Proof.
  eexists. eexists. split; [vm_compute; reflexivity|]. split; [reflexivity|]. split; [vm_compute; discriminate|].
  apply (c139_data_replace ex_calls []); [vm_compute; reflexivity|reflexivity].
Qed.

Print Assumptions c137_stores_follow_partial.
Print Assumptions c137_public_key_refuted.
Print Assumptions c137_unknown_format_refuted.
Print Assumptions c138_memory.
Print Assumptions c138_all_freed.
Print Assumptions c139_data_replace.
