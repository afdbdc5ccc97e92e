(** C238, C239: the copies of certificates made while mbedTLS verifies a client. *)
From Coq Require Import String Arith NArith Bool List Permutation Lia.
From Verif Require Import Bytes TlsChain.
From Verif Require TlsNames Prop_TlsVerify.
Import ListNotations.

(** ** Specification *)

(** mbedTLS calls the callback once for every certificate of a chain of at least one, from the top down to the client's. *)
Definition top_down (ks : list call) : Prop :=
  ks <> [] /\ map (fun k => TlsNames.me_depth (k_ev k)) ks = map N.of_nat (rev (seq 0 (length ks))).

Definition kept (o : option nat) : list nat := match o with Some a => [a] | None => [] end.

(** Every structure ever allocated is in use or was freed, once, and those in use are those of [l]. *)
Definition accounted (h : heap) (l : list nat) : Prop :=
  map fst (h_live h) = l /\ Permutation (h_freed h ++ l) (seq 0 (h_made h)).

(** ** The chain in memory *)

(** The structure number [i] of a chain of copies of [cs] that was allocated in that order. *)
Definition nth_cell (cs : list TlsNames.cert) (i : nat) : option cell :=
  match nth_error cs i with
  | None => None
  | Some c => Some (mkCell c (if Nat.ltb (S i) (length cs) then Some (S i) else None))
  end.

Definition from (cs : list TlsNames.cert) (i : nat) : option nat := if Nat.ltb i (length cs) then Some i else None.

Definition holds (h : heap) (cs : list TlsNames.cert) : Prop :=
  (forall a, look (h_live h) a = nth_cell cs a) /\ map fst (h_live h) = rev (seq 0 (length cs)) /\
  h_made h = length cs /\ h_freed h = [].

Lemma nth_cell_some cs i c : nth_error cs i = Some c -> nth_cell cs i = Some (mkCell c (from cs (S i))).
Proof. intros H. unfold nth_cell, from. rewrite H. reflexivity. Qed.

Lemma nth_cell_none cs i : length cs <= i -> nth_cell cs i = None.
Proof. intros H. unfold nth_cell. apply nth_error_None in H. rewrite H. reflexivity. Qed.

Lemma look_update l a n b :
  look (update l a n) b = if Nat.eqb b a then match look l a with Some c => Some (mkCell (c_cert c) n) | None => None end else look l b.
Proof.
  induction l as [|[x c] l IH]; cbn [update look]; [destruct (Nat.eqb b a); reflexivity|].
  destruct (Nat.eqb_spec a x) as [E|E]; cbn [look].
  - subst x. destruct (Nat.eqb_spec b a) as [E|E]; reflexivity.
  - rewrite IH. destruct (Nat.eqb_spec b x) as [E1|E1]; [|reflexivity].
    destruct (Nat.eqb_spec b a) as [E2|E2]; [congruence|reflexivity].
Qed.

Lemma fst_update l a n : map fst (update l a n) = map fst l.
Proof. induction l as [|[x c] l IH]; cbn [update map]; [reflexivity|]. destruct (Nat.eqb a x); cbn [map fst]; [reflexivity|]. rewrite IH. reflexivity. Qed.

Lemma look_in l a c : look l a = Some c -> In a (map fst l).
Proof.
  induction l as [|[x d] l IH]; cbn [look map fst]; [discriminate|].
  destruct (Nat.eqb_spec a x) as [E|E]; [left; congruence|right; auto].
Qed.

Lemma in_look l a : In a (map fst l) -> exists c, look l a = Some c.
Proof.
  induction l as [|[x d] l IH]; cbn [look map fst]; [intros []|].
  destruct (Nat.eqb_spec a x) as [E|E]; [eauto|]. intros [H|H]; [congruence|auto].
Qed.

Lemma remove_perm l a c : look l a = Some c -> Permutation (map fst l) (a :: map fst (remove l a)).
Proof.
  induction l as [|[x d] l IH]; cbn [look map fst remove]; [discriminate|].
  destruct (Nat.eqb_spec a x) as [E|E]; [subst; reflexivity|].
  intros H. cbn [map fst]. rewrite (IH H). apply perm_swap.
Qed.

Lemma look_remove l a b : NoDup (map fst l) -> look (remove l a) b = if Nat.eqb b a then None else look l b.
Proof.
  induction l as [|[x d] l IH]; cbn [remove look map fst]; intros ND; [destruct (Nat.eqb b a); reflexivity|].
  inversion ND as [|y m NI ND1]; subst y m.
  destruct (Nat.eqb_spec a x) as [E|E].
  - subst x. destruct (Nat.eqb_spec b a) as [E|E]; [|reflexivity].
    subst b. destruct (look l a) eqn:L; [|reflexivity]. apply look_in in L. contradiction.
  - cbn [look]. rewrite (IH ND1). destruct (Nat.eqb_spec b x) as [E1|E1]; [|reflexivity].
    destruct (Nat.eqb_spec b a); [congruence|reflexivity].
Qed.

Lemma last_cert_found h cs : (forall a, look (h_live h) a = nth_cell cs a) -> forall fuel i,
  i < length cs -> length cs - i <= fuel -> last_cert fuel h i = Done (length cs - 1).
Proof.
  intros L. induction fuel as [|k IH]; intros i I F; [lia|].
  cbn [last_cert]. rewrite L. destruct (nth_error cs i) as [c|] eqn:E; [|apply nth_error_None in E; lia].
  rewrite (nth_cell_some _ _ _ E). cbn [c_next]. unfold from.
  destruct (Nat.ltb_spec (S i) (length cs)).
  - apply IH; lia.
  - replace i with (length cs - 1) by lia. reflexivity.
Qed.

Lemma skipn_nth {A} (l : list A) i x : nth_error l i = Some x -> skipn i l = x :: skipn (S i) l.
Proof. revert i. induction l as [|y l IH]; intros [|i] H; try discriminate; [injection H as ->; reflexivity|]. change (skipn i l = x :: skipn (S i) l). apply IH. exact H. Qed.

Lemma read_chain_found h cs : (forall a, look (h_live h) a = nth_cell cs a) -> forall fuel i,
  i <= length cs -> length cs - i < fuel -> read_chain fuel h (from cs i) = Done (skipn i cs).
Proof.
  intros L. induction fuel as [|k IH]; intros i I F; [lia|].
  unfold from. destruct (Nat.ltb_spec i (length cs)).
  - cbn [read_chain]. rewrite L. destruct (nth_error cs i) as [c|] eqn:E; [|apply nth_error_None in E; lia].
    rewrite (nth_cell_some _ _ _ E). cbn [c_next c_cert]. rewrite IH by lia. rewrite (skipn_nth _ _ _ E). reflexivity.
  - cbn [read_chain]. rewrite skipn_all2 by lia. reflexivity.
Qed.

Definition books (h : heap) : Prop := Permutation (h_freed h ++ map fst (h_live h)) (seq 0 (h_made h)).

Lemma books_nodup h : books h -> NoDup (map fst (h_live h)).
Proof.
  intros B. assert (N : NoDup (h_freed h ++ map fst (h_live h))).
  { eapply Permutation_NoDup; [symmetry; exact B|apply seq_NoDup]. }
  clear B. induction (h_freed h) as [|x f IH]; [exact N|]. cbn in N. inversion N; auto.
Qed.

Lemma free_books h a c : books h -> look (h_live h) a = Some c ->
  exists h1, free a h = Done h1 /\ books h1 /\ h_made h1 = h_made h /\ h_freed h1 = h_freed h ++ [a] /\
             (forall b, look (h_live h1) b = if Nat.eqb b a then None else look (h_live h) b).
Proof.
  intros B L. unfold free. rewrite L. eexists. split; [reflexivity|].
  unfold books in *. cbn [h_freed h_live h_made].
  refine (conj _ (conj eq_refl (conj eq_refl _))).
  - rewrite <- B, (remove_perm _ _ _ L), <- app_assoc. reflexivity.
  - intros b. apply look_remove. apply books_nodup. exact B.
Qed.

Lemma free_rest_found cs : forall fuel i h,
  books h -> (forall a, i <= a -> look (h_live h) a = nth_cell cs a) -> i <= length cs -> length cs - i <= fuel ->
  exists h1, free_rest fuel (from cs i) h = Done h1 /\ books h1 /\ h_made h1 = h_made h /\
             (forall b, look (h_live h1) b = if Nat.leb i b then None else look (h_live h) b).
Proof.
  induction fuel as [|k IH]; intros i h B L I F.
  - assert (i = length cs) as -> by lia. unfold from. rewrite Nat.ltb_irrefl. cbn [free_rest].
    eexists. refine (conj eq_refl (conj B (conj eq_refl _))). intros b. destruct (Nat.leb_spec (length cs) b); [|reflexivity].
    rewrite L by assumption. apply nth_cell_none. assumption.
  - unfold from. destruct (Nat.ltb_spec i (length cs)).
    + cbn [free_rest]. destruct (nth_error cs i) as [c|] eqn:E; [|apply nth_error_None in E; lia].
      assert (LI : look (h_live h) i = Some (mkCell c (from cs (S i)))) by (rewrite L by lia; apply nth_cell_some; exact E).
      rewrite LI. destruct (free_books _ _ _ B LI) as (h1 & -> & B1 & M1 & _ & L1). cbn [c_next].
      destruct (IH (S i) h1 B1) as (h2 & -> & B2 & M2 & L2); [|lia|lia|].
      * intros a A. rewrite L1. destruct (Nat.eqb_spec a i); [lia|]. apply L. lia.
      * exists h2. refine (conj eq_refl (conj B2 (conj _ _))); [congruence|].
        intros b. rewrite L2, L1. destruct (Nat.leb_spec (S i) b), (Nat.leb_spec i b), (Nat.eqb_spec b i); try lia; reflexivity.
    + assert (i = length cs) as -> by lia. cbn [free_rest].
      eexists. refine (conj eq_refl (conj B (conj eq_refl _))). intros b. destruct (Nat.leb_spec (length cs) b); [|reflexivity].
      rewrite L by assumption. apply nth_cell_none. assumption.
Qed.

Lemma live_empty l : (forall b, look l b = None) -> l = [].
Proof. destruct l as [|[a c] l]; intros H; [reflexivity|]. specialize (H a). cbn [look] in H. rewrite Nat.eqb_refl in H. discriminate. Qed.

Lemma holds_len h cs : holds h cs -> length (h_live h) = length cs.
Proof. intros (_ & F & _). rewrite <- (map_length fst), F, rev_length, seq_length. reflexivity. Qed.

Lemma holds_books h cs : holds h cs -> books h.
Proof. intros (_ & F & M & E). unfold books. rewrite E, M, F. cbn [app]. symmetry. apply Permutation_rev. Qed.

(** The chain is freed as a whole. *)
Lemma destroy_found h cs : books h -> (forall a, look (h_live h) a = nth_cell cs a) -> length cs <= length (h_live h) ->
  exists h1, cert_destroy (from cs 0) h = Done h1 /\ books h1 /\ h_live h1 = [].
Proof.
  intros B L LE. unfold from. destruct (Nat.ltb_spec 0 (length cs)) as [P|P]; cbn [cert_destroy].
  - destruct (nth_error cs 0) as [c|] eqn:E; [|apply nth_error_None in E; lia].
    rewrite L, (nth_cell_some _ _ _ E). cbn [c_next].
    destruct (free_rest_found cs (S (length (h_live h))) 1 h B) as (h1 & -> & B1 & M1 & L1); [intros; apply L|lia|lia|].
    assert (L0 : look (h_live h1) 0 = Some (mkCell c (from cs 1))) by (rewrite L1; cbn [Nat.leb]; rewrite L; apply nth_cell_some; exact E).
    destruct (free_books _ _ _ B1 L0) as (h2 & -> & B2 & _ & _ & L2).
    exists h2. refine (conj eq_refl (conj B2 _)). apply live_empty. intros b. rewrite L2, L1.
    destruct b; cbn [Nat.eqb Nat.leb]; reflexivity.
  - exists h. refine (conj eq_refl (conj B _)). apply live_empty. intros b. rewrite L. apply nth_cell_none. lia.
Qed.

Lemma nth_cell_app cs c a :
  nth_cell (cs ++ [c]) a = if Nat.eqb a (length cs) then Some (mkCell c None)
    else if Nat.eqb a (length cs - 1) then match nth_cell cs a with Some x => Some (mkCell (c_cert x) (Some (length cs))) | None => None end
    else nth_cell cs a.
Proof.
  unfold nth_cell. rewrite app_length. cbn [length].
  destruct (Nat.eqb_spec a (length cs)) as [E|E].
  - subst a. rewrite nth_error_app2, Nat.sub_diag by lia. cbn [nth_error].
    destruct (Nat.ltb_spec (S (length cs)) (length cs + 1)); [lia|reflexivity].
  - destruct (Nat.lt_ge_cases a (length cs)) as [LT|GE].
    + rewrite nth_error_app1 by lia. destruct (nth_error cs a) as [x|] eqn:EX; [|apply nth_error_None in EX; lia].
      destruct (Nat.ltb_spec (S a) (length cs + 1)); [|lia].
      destruct (Nat.eqb_spec a (length cs - 1)) as [E1|E1]; cbn [c_cert].
      * f_equal. f_equal. f_equal. lia.
      * destruct (Nat.ltb_spec (S a) (length cs)); [reflexivity|lia].
    + assert (X : nth_error (cs ++ [c]) a = None) by (apply nth_error_None; rewrite app_length; cbn; lia).
      assert (Y : nth_error cs a = None) by (apply nth_error_None; lia).
      rewrite X, Y. destruct (Nat.eqb a (length cs - 1)); reflexivity.
Qed.

Lemma dup_new h cs c : holds h cs ->
  let h1 := mkHeap ((h_made h, mkCell c None) :: h_live h) (S (h_made h)) (h_freed h) in
  (forall a, look (h_live h1) a = if Nat.eqb a (length cs) then Some (mkCell c None) else nth_cell cs a) /\
  map fst (h_live h1) = rev (seq 0 (length (cs ++ [c]))) /\ h_made h1 = length (cs ++ [c]) /\ h_freed h1 = [].
Proof.
  intros (L & F & M & E). cbn [h_live h_made h_freed]. rewrite app_length. cbn [length]. rewrite Nat.add_1_r.
  refine (conj _ (conj _ (conj _ E))).
  - intros a. cbn [look]. rewrite M, L. reflexivity.
  - cbn [map fst]. rewrite M, F, seq_S, rev_app_distr. reflexivity.
  - rewrite M. reflexivity.
Qed.

(** Appending a copy: the chain is longer by one, or all is as before but for what was freed. *)
Lemma append_found h cs c r : holds h cs ->
  (r = Copied /\ exists h1, append_cert r c (from cs 0) h = Done (h1, (true, from (cs ++ [c]) 0)) /\ holds h1 (cs ++ [c])) \/
  (r <> Copied /\ exists h1, append_cert r c (from cs 0) h = Done (h1, (false, from cs 0)) /\ books h1 /\
      (forall a, look (h_live h1) a = nth_cell cs a) /\ length (h_live h1) = length cs).
Proof.
  intros H. pose proof (dup_new h cs c H) as N. cbv zeta in N. destruct N as (NL & NF & NM & NE).
  pose proof (holds_len _ _ H) as HL. pose proof (holds_books _ _ H) as HB. destruct H as (L & F & M & E).
  unfold append_cert, cert_dup. destruct r.
  - right. split; [discriminate|]. exists h. auto.
  - right. split; [discriminate|]. unfold free. cbn [h_live look]. rewrite Nat.eqb_refl. cbn [h_live remove].
    rewrite Nat.eqb_refl. eexists. refine (conj eq_refl _). cbn [h_live h_made h_freed].
    refine (conj _ (conj L HL)). unfold books. cbn [h_live h_made h_freed].
    rewrite E, F, M. cbn [app]. rewrite seq_S. cbn [Nat.add]. rewrite (Permutation_app_comm (seq 0 (length cs))). cbn [app].
    constructor. symmetry. apply Permutation_rev.
  - left. split; [reflexivity|]. unfold from at 1. destruct (Nat.ltb_spec 0 (length cs)) as [P|P].
    + rewrite NM in NM. set (h1 := mkHeap ((h_made h, mkCell c None) :: h_live h) (S (h_made h)) (h_freed h)) in *.
      assert (LC : last_cert (S (length (h_live h1))) h1 0 = Done (length cs - 1)).
      { assert (G : forall fuel i, i < length cs -> length cs - i <= fuel -> last_cert fuel h1 i = Done (length cs - 1)).
        { induction fuel as [|k IH]; intros i I FU; [lia|]. cbn [last_cert]. rewrite NL.
          destruct (Nat.eqb_spec i (length cs)); [lia|].
          destruct (nth_error cs i) as [x|] eqn:EX; [|apply nth_error_None in EX; lia].
          rewrite (nth_cell_some _ _ _ EX). cbn [c_next]. unfold from. destruct (Nat.ltb_spec (S i) (length cs)); [apply IH; lia|].
          replace i with (length cs - 1) by lia. reflexivity. }
        apply G; [lia|]. cbn [h_live h1 length]. lia. }
      rewrite LC. eexists. split.
      * unfold from. rewrite app_length. cbn [length]. destruct (Nat.ltb_spec 0 (length cs + 1)); [|lia].
        destruct (Nat.ltb_spec 0 (length cs)); [reflexivity|lia].
      * unfold holds. cbn [h_live h_made h_freed]. refine (conj _ (conj _ (conj _ NE))).
        -- intros a. rewrite look_update, nth_cell_app. rewrite (NL a), (NL (length cs - 1)).
           destruct (Nat.eqb_spec (length cs - 1) (length cs)); [lia|].
           destruct (Nat.eqb_spec a (length cs - 1)) as [E1|E1].
           ++ subst a. destruct (Nat.eqb_spec (length cs - 1) (length cs)); [lia|]. rewrite M.
              destruct (nth_cell cs (length cs - 1)); reflexivity.
           ++ reflexivity.
        -- rewrite fst_update. exact NF.
        -- cbn [h_made h1]. rewrite M, app_length. cbn [length]. lia.
    + destruct cs as [|x cs]; [|cbn in P; lia]. eexists. split.
      * unfold from. cbn [app length Nat.ltb Nat.leb]. replace (Some (h_made h)) with (Some 0) by (f_equal; symmetry; exact M). reflexivity.
      * unfold holds. refine (conj _ (conj NF (conj NM NE))).
        intros a. rewrite NL, nth_cell_app. destruct (Nat.eqb a (length (@nil TlsNames.cert))); [reflexivity|].
        destruct (Nat.eqb a (length (@nil TlsNames.cert) - 1)); [|reflexivity].
        unfold nth_cell. destruct a; reflexivity.
Qed.

(** ** The calls *)

Section Verify.
Variable verify : list TlsNames.cert -> TlsNames.cert -> N -> bool -> option bytes -> TlsNames.vres * option bytes.

(** The state between two calls. *)
Definition between (cs : list TlsNames.cert) (s : st) : Prop := holds (s_heap s) cs /\ s_chain s = from cs 0 /\ s_client s = None.

(** The state after the last call. *)
Definition ended (ok : bool) (peer : option TlsNames.cert) (s : st) : Prop :=
  accounted (s_heap s) (kept (s_client s)) /\
  (ok = true -> exists a, s_client s = Some a) /\
  (forall a, s_client s = Some a -> exists c, peer = Some c /\ look (h_live (s_heap s)) a = Some (mkCell c None)).

(** What [TlsNames] says of the call. *)
Definition told (cs : list TlsNames.cert) (k : call) (u : option bytes) : option (bool * TlsNames.mflags * option bytes) :=
  let e := k_ev k in
  let c := TlsNames.me_cert e in
  let d := TlsNames.me_depth e in
  let ask t := verify (cs ++ [c]) c d t u in
  let '(r, u', f) :=
    match TlsNames.me_flags e with
    | TlsNames.FlOk => let '(r, u) := ask true in (r, u, TlsNames.FlOk)
    | TlsNames.FlNotTrusted =>
        if N.eqb d 0 then let '(r, u) := ask false in (r, u, match r with TlsNames.VOk => TlsNames.FlOk | _ => TlsNames.FlNotTrusted end)
        else (TlsNames.VNo, u, TlsNames.FlNotTrusted)
    | TlsNames.FlMissing => let '(r, u) := ask false in (r, u, match r with TlsNames.VOk => TlsNames.FlOk | _ => TlsNames.FlMissing end)
    | TlsNames.FlOther n => (TlsNames.VNo, u, TlsNames.FlOther n)
    end in
  match r with
  | TlsNames.VUb => None
  | TlsNames.VFatal => Some (false, f, u')
  | TlsNames.VOk => Some (true, f, u')
  | TlsNames.VNo => Some (true, if N.eqb d 0 then match f with TlsNames.FlOk => TlsNames.FlOther 0 | _ => f end else f, u')
  end.

Lemma books_none h : books h -> h_live h = [] -> accounted h [].
Proof. intros B E. unfold books in B. rewrite E in B. split; [rewrite E; reflexivity|exact B]. Qed.

Lemma cb_found cs k s : between cs s ->
  let e := k_ev k in
  let d := TlsNames.me_depth e in
  (verify_cb verify k s = Done None /\ told cs k (s_user s) = None) \/
  exists s1 ok f, verify_cb verify k s = Done (Some (s1, ok, f)) /\
    (k_dup k = Copied -> k_client k = Copied -> told cs k (s_user s) = Some (ok, f, s_user s1)) /\
    (ok = true -> k_dup k = Copied /\ told cs k (s_user s) = Some (true, f, s_user s1)) /\
    (ok = true -> d <> 0%N -> between (cs ++ [TlsNames.me_cert e]) s1) /\
    (ok = false -> ended false None s1) /\
    (ok = true -> d = 0%N -> ended (match f with TlsNames.FlOk => true | _ => false end) (Some (TlsNames.me_cert e)) s1).
Proof.
  intros (H & CH & CL). cbv zeta. unfold verify_cb. rewrite CH.
  destruct (append_found _ _ (TlsNames.me_cert (k_ev k)) (k_dup k) H) as [(RC & h1 & -> & H1)|(RN & h1 & -> & B1 & L1 & N1)].
  2:{ destruct (destroy_found h1 cs B1 L1) as (h2 & -> & B2 & E2); [lia|].
      right. eexists _, _, _. refine (conj eq_refl _). cbn [s_user s_client s_heap].
      refine (conj _ (conj _ (conj _ (conj _ _)))); try discriminate; [intros; contradiction|].
      intros _. unfold ended. cbn [s_heap s_client]. rewrite CL.
      refine (conj (books_none _ B2 E2) (conj _ _)); discriminate. }
  set (c := TlsNames.me_cert (k_ev k)) in *. set (d := TlsNames.me_depth (k_ev k)) in *.
  pose proof (holds_len _ _ H1) as LN1. pose proof (holds_books _ _ H1) as BK1.
  rewrite (read_chain_found h1 (cs ++ [c])) by (first [exact (proj1 H1)|lia]). cbn [skipn].
  unfold told. fold c. fold d.
  destruct (destroy_found h1 (cs ++ [c]) BK1 (proj1 H1)) as (h2 & DS & B2 & E2); [lia|].
  set (q := match TlsNames.me_flags (k_ev k) with
            | TlsNames.FlOk => _ | TlsNames.FlNotTrusted => _ | TlsNames.FlMissing => _ | TlsNames.FlOther n => _ end).
  destruct q as [[r u] f] eqn:Q. subst q.
  assert (E0 : forall u, ended false None (mkSt h2 (from (cs ++ [c]) 0) (s_client s) u)).
  { intros v. unfold ended. cbn [s_heap s_client]. rewrite CL. refine (conj (books_none _ B2 E2) (conj _ _)); discriminate. }
  assert (NOTOK : r = TlsNames.VNo -> (if N.eqb d 0 then match f with TlsNames.FlOk => TlsNames.FlOther 0 | _ => f end else f) = TlsNames.FlOk -> d <> 0%N).
  { intros _ X Y. rewrite Y, N.eqb_refl in X. destruct f; discriminate. }
  destruct r; cbn [orb].
  - (* VOk *)
    destruct (N.eqb_spec d 0) as [D|D].
    + rewrite DS, CL. right. unfold cert_dup. destruct (k_client k).
      * eexists _, _, _. refine (conj eq_refl _). cbn [s_user].
        refine (conj _ (conj _ (conj _ (conj _ _)))); try discriminate. intros _.
        unfold ended. cbn [s_heap s_client]. refine (conj (books_none _ B2 E2) (conj _ _)); discriminate.
      * unfold free. cbn [h_live look]. rewrite Nat.eqb_refl. cbn [remove]. rewrite Nat.eqb_refl.
        eexists _, _, _. refine (conj eq_refl _). cbn [s_user].
        refine (conj _ (conj _ (conj _ (conj _ _)))); try discriminate. intros _.
        unfold ended. cbn [s_heap s_client]. refine (conj _ (conj _ _)); try discriminate.
        unfold accounted. cbn [h_live h_freed h_made kept]. rewrite E2. split; [reflexivity|].
        unfold books in B2. rewrite E2 in B2. cbn [map] in B2. rewrite app_nil_r in *. rewrite seq_S. cbn [Nat.add].
        apply Permutation_app_tail. exact B2.
      * eexists _, _, _. refine (conj eq_refl _). cbn [s_user].
        refine (conj _ (conj _ (conj _ (conj _ _)))); try discriminate; auto; [intros; contradiction|].
        intros _ _. unfold ended. cbn [s_heap s_client kept]. refine (conj _ (conj _ _)).
        -- unfold accounted. cbn [h_live h_freed h_made]. rewrite E2. split; [reflexivity|].
           unfold books in B2. rewrite E2 in B2. cbn [map] in B2. rewrite app_nil_r in B2. rewrite seq_S. cbn [Nat.add].
           apply Permutation_app_tail. exact B2.
        -- eauto.
        -- intros a A. injection A as <-. exists c. split; [reflexivity|]. cbn [h_live look]. rewrite Nat.eqb_refl. reflexivity.
    + right. eexists _, _, _. refine (conj eq_refl _). cbn [s_user].
      refine (conj _ (conj _ (conj _ (conj _ _)))); try discriminate; auto; [|intros; contradiction].
      intros _ _. unfold between. cbn [s_heap s_chain s_client]. auto.
  - (* VNo *)
    destruct (N.eqb_spec d 0) as [D|D].
    + rewrite DS. right. eexists _, _, _. refine (conj eq_refl _). cbn [s_user].
      refine (conj _ (conj _ (conj _ (conj _ _)))); try discriminate; auto; [intros; contradiction|].
      intros _ _. destruct (E0 u) as (A & _ & C). refine (conj A (conj _ _)).
      * intros X. exfalso. destruct f; discriminate.
      * intros a X. cbn [s_client] in X. rewrite CL in X. discriminate.
    + right. eexists _, _, _. refine (conj eq_refl _). cbn [s_user].
      refine (conj _ (conj _ (conj _ (conj _ _)))); try discriminate; auto; [|intros; contradiction].
      intros _ _. unfold between. cbn [s_heap s_chain s_client]. auto.
  - (* VFatal *)
    rewrite DS. right. eexists _, _, _. refine (conj eq_refl _). cbn [s_user].
    refine (conj _ (conj _ (conj _ (conj _ _)))); try discriminate; auto.
  - left. auto.
Qed.

Definition peer_of (ks : list call) : option TlsNames.cert := option_map (fun k => TlsNames.me_cert (k_ev k)) (last (map Some ks) None).

Lemma top_down_cons k ks : top_down (k :: ks) -> TlsNames.me_depth (k_ev k) = N.of_nat (length ks) /\ (ks = [] \/ top_down ks).
Proof.
  intros (_ & H). cbn [map length] in H. rewrite seq_S, rev_app_distr in H. cbn [rev app Nat.add map] in H.
  injection H as H1 H2. split; [exact H1|]. destruct ks as [|k2 ks]; [left; reflexivity|right]. split; [discriminate|exact H2].
Qed.

Lemma ended_none s peer : ended false None s -> ended false peer s.
Proof.
  intros (A & _ & C). refine (conj A (conj _ _)); [discriminate|].
  intros a E. destruct (C a E) as (c & X & _). discriminate.
Qed.

Lemma run_found ks : forall cs s good, between cs s -> top_down ks ->
  verify_run verify ks s good = Done None \/
  exists s1 ok, verify_run verify ks s good = Done (Some (s1, ok)) /\ ended ok (peer_of ks) s1.
Proof.
  induction ks as [|k ks IH]; intros cs s good B T; [destruct T as [X _]; congruence|].
  cbn [verify_run]. destruct (cb_found cs k s B) as [[-> _]|(s1 & ok & f & -> & _ & _ & N & F & Z)]; [left; reflexivity|].
  destruct ok.
  - destruct (top_down_cons _ _ T) as [D [E|T1]].
    + subst ks. cbn [verify_run]. right. eexists _, _. split; [reflexivity|].
      destruct (Z eq_refl D) as (A & P & C). unfold peer_of. cbn [map last option_map].
      refine (conj A (conj _ C)). intros X. apply P. apply andb_true_iff in X. tauto.
    + assert (B1 : between (cs ++ [TlsNames.me_cert (k_ev k)]) s1).
      { apply N; [reflexivity|]. rewrite D. destruct ks; [destruct T1; congruence|]. cbn [length]. lia. }
      replace (peer_of (k :: ks)) with (peer_of ks); [exact (IH _ _ _ B1 T1)|].
      unfold peer_of. destruct ks; [destruct T1; congruence|reflexivity].
  - right. eexists _, _. split; [reflexivity|]. apply ended_none. auto.
Qed.

Lemma between_start : between [] start.
Proof.
  refine (conj _ (conj eq_refl eq_refl)). unfold holds. cbn. refine (conj _ (conj eq_refl (conj eq_refl eq_refl))).
  intros a. unfold nth_cell. destruct a; reflexivity.
Qed.

(** C238.  Whatever the certificates, whatever is said of them and whichever allocations fail: no memory not in use is touched
    and every loop ends; every structure made is freed once but one that the session keeps, a copy of the client's certificate.
    If the client is accepted, it is kept. *)
Theorem c238_memory ks : top_down ks ->
  verify_run verify ks start true = Done None \/
  exists s ok, verify_run verify ks start true = Done (Some (s, ok)) /\
    accounted (s_heap s) (kept (s_client s)) /\
    (ok = true -> exists a, s_client s = Some a) /\
    (forall a, s_client s = Some a -> exists c, peer_of ks = Some c /\ look (h_live (s_heap s)) a = Some (mkCell c None)).
Proof. intros T. exact (run_found ks [] start true between_start T). Qed.

(** The first alternative of C238 is only what [verify] is undefined for. *)
Theorem c238_defined ks : top_down ks -> (forall l c d t u, fst (verify l c d t u) <> TlsNames.VUb) ->
  verify_run verify ks start true <> Done None.
Proof.
  intros T V. assert (G : forall ks cs s good, between cs s -> top_down ks -> verify_run verify ks s good <> Done None).
  { clear ks T. induction ks as [|k ks IH]; intros cs s good B T; [destruct T as [X _]; congruence|].
    cbn [verify_run]. destruct (cb_found cs k s B) as [[-> TN]|(s1 & ok & f & -> & _ & _ & N & _ & _)].
    - exfalso. unfold told in TN.
      destruct (TlsNames.me_flags (k_ev k)); try discriminate.
      + destruct (verify _ _ _ _ _) as [[| | |] u] eqn:E; try discriminate. apply (f_equal fst) in E. exact (V _ _ _ _ _ E).
      + destruct (N.eqb _ 0); [|discriminate].
        destruct (verify _ _ _ _ _) as [[| | |] u] eqn:E; try discriminate. apply (f_equal fst) in E. exact (V _ _ _ _ _ E).
      + destruct (verify _ _ _ _ _) as [[| | |] u] eqn:E; try discriminate. apply (f_equal fst) in E. exact (V _ _ _ _ _ E).
    - destruct ok; [|discriminate]. destruct (top_down_cons _ _ T) as [D [E|T1]]; [subst ks; discriminate|].
      eapply IH; [apply N; [reflexivity|]|exact T1]. rewrite D. destruct ks; [destruct T1; congruence|]. cbn [length]. lia. }
  exact (G ks [] start true between_start T).
Qed.
End Verify.

(** ** The chain in memory is the chain of [TlsNames] *)

Section Names.
Variable digest : TlsNames.alg -> TlsNames.cert -> option bytes.
Variable endpts : list (bytes * TlsNames.tlsopts).
Variable truststore : list (bytes * list bytes).
Variable import : bytes -> option TlsNames.cert.
Variable user_clb : option (bytes -> bool).
Variable o : TlsNames.tlsopts.

(** nc_server_tls_verify_cert() for an endpoint. *)
Definition vc := TlsNames.verify_cert digest endpts truststore import user_clb o.
(** The verification when the chain is a list of certificates. *)
Definition mrun := TlsNames.mverify_run digest endpts truststore import user_clb o.

Lemma told_cb cs k u : told vc cs k u = TlsNames.mverify_cb digest endpts truststore import user_clb o cs (k_ev k) u.
Proof. reflexivity. Qed.

Lemma accepted_from ks : forall cs s0 good s, between cs s0 -> top_down ks ->
  verify_run vc ks s0 good = Done (Some (s, true)) -> mrun cs (map k_ev ks) (s_user s0) good = Some (true, s_user s).
Proof.
  induction ks as [|k ks IH]; intros cs s0 good s B T; [destruct T as [X _]; congruence|].
  unfold mrun in *. cbn [verify_run map TlsNames.mverify_run].
  destruct (cb_found vc cs k s0 B) as [[-> _]|(s1 & ok & f & -> & _ & TT & N & _ & _)]; [discriminate|].
  destruct ok; [|discriminate]. destruct (TT eq_refl) as [_ E]. rewrite told_cb in E. rewrite E.
  destruct (top_down_cons _ _ T) as [D [E1|T1]].
  - subst ks. cbn [verify_run map TlsNames.mverify_run]. intros H. injection H as -> ->. reflexivity.
  - apply IH; [|exact T1]. apply N; [reflexivity|]. rewrite D. destruct ks; [destruct T1; congruence|]. cbn [length]. lia.
Qed.

(** C239.  A client accepted, whichever allocations fail, is one accepted when the chain is a list of all its certificates,
    under the same name; and if no allocation fails, the result is the same for any client. *)
Theorem c239_accepted ks s : top_down ks ->
  verify_run vc ks start true = Done (Some (s, true)) -> mrun [] (map k_ev ks) None true = Some (true, s_user s).
Proof. intros T. exact (accepted_from ks [] start true s between_start T). Qed.

Lemma same_from ks : forall cs s0 good, between cs s0 -> top_down ks -> (forall k, In k ks -> k_dup k = Copied /\ k_client k = Copied) ->
  (verify_run vc ks s0 good = Done None /\ mrun cs (map k_ev ks) (s_user s0) good = None) \/
  exists s ok, verify_run vc ks s0 good = Done (Some (s, ok)) /\ mrun cs (map k_ev ks) (s_user s0) good = Some (ok, s_user s).
Proof.
  induction ks as [|k ks IH]; intros cs s0 good B T A; [destruct T as [X _]; congruence|].
  unfold mrun in *. cbn [verify_run map TlsNames.mverify_run].
  destruct (A k (or_introl eq_refl)) as [A1 A2].
  destruct (cb_found vc cs k s0 B) as [[-> E]|(s1 & ok & f & -> & TT & _ & N & _ & _)].
  { rewrite told_cb in E. rewrite E. left. auto. }
  specialize (TT A1 A2). rewrite told_cb in TT. rewrite TT.
  destruct ok; [|right; eauto].
  destruct (top_down_cons _ _ T) as [D [E1|T1]].
  - subst ks. cbn [verify_run map TlsNames.mverify_run]. right. eauto.
  - apply IH; [|exact T1|intros; apply A; right; assumption].
    apply N; [reflexivity|]. rewrite D. destruct ks; [destruct T1; congruence|]. cbn [length]. lia.
Qed.

Theorem c239_same ks : top_down ks -> (forall k, In k ks -> k_dup k = Copied /\ k_client k = Copied) ->
  (verify_run vc ks start true = Done None /\ mrun [] (map k_ev ks) None true = None) \/
  exists s ok, verify_run vc ks start true = Done (Some (s, ok)) /\ mrun [] (map k_ev ks) None true = Some (ok, s_user s).
Proof. intros T. exact (same_from ks [] start true between_start T). Qed.

(** With C38: an accepted client has a chain mbedTLS trusts or one of the certificates configured, whichever allocations fail. *)
Theorem c239_trusted ks s : top_down ks -> (forall k, In k ks -> TlsNames.me_flags (k_ev k) <> TlsNames.FlMissing) ->
  verify_run vc ks start true = Done (Some (s, true)) ->
  (forall k, In k ks -> TlsNames.me_flags (k_ev k) = TlsNames.FlOk) \/
  (exists c, peer_of ks = Some c /\ Prop_TlsVerify.equals_ee endpts truststore import o c).
Proof.
  intros T M H. pose proof (c239_accepted _ _ T H) as R.
  assert (P : exists c, peer_of ks = Some c /\ Prop_TlsVerify.mcalls_of c (map k_ev ks)).
  { clear - T. induction ks as [|k ks IH]; [destruct T as [X _]; congruence|].
    destruct (top_down_cons _ _ T) as [D [E|T1]].
    - subst ks. exists (TlsNames.me_cert (k_ev k)). split; [reflexivity|]. split.
      + intros e [<-|[]] _. reflexivity.
      + intros pre e post X _. destruct pre as [|x pre]; cbn in X; [injection X as _ X; symmetry; exact X|].
        injection X as _ X. destruct pre; discriminate.
    - destruct (IH T1) as (c & P & C1 & C2). exists c. split.
      + unfold peer_of in *. destruct ks; [destruct T1; congruence|exact P].
      + split.
        * intros e [<-|I] Z; [|exact (C1 e I Z)]. rewrite D in Z. destruct ks; [destruct T1; congruence|]. cbn [length] in Z. lia.
        * intros pre e post X Z. destruct pre as [|x pre]; cbn [app map] in X.
          -- injection X as X1 X2. rewrite <- X1, D in Z. destruct ks; [destruct T1; congruence|]. cbn [length] in Z. lia.
          -- injection X as X1 X2. exact (C2 _ _ _ X2 Z). }
  destruct P as (c & PC & C).
  destruct (Prop_TlsVerify.c38_mbedtls digest endpts truststore import user_clb o c (map k_ev ks) (s_user s) C) as [G|G].
  - intros e I. apply in_map_iff in I as (k & <- & I). exact (M k I).
  - exact R.
  - left. intros k I. apply G. apply in_map. exact I.
  - right. eauto.
Qed.
End Names.

(** ** Cases *)

Definition ex_ca := TlsNames.mkCert (bs "CA"%string) (Some []) true None.
Definition ex_peer := TlsNames.mkCert (bs "peer"%string) (Some []) true None.
Definition ex_call (d : N) (c : TlsNames.cert) (r1 r2 : dupres) := mkCall (TlsNames.mkMev TlsNames.FlOk d c) r1 r2.
Definition ex_yes : list TlsNames.cert -> TlsNames.cert -> N -> bool -> option bytes -> TlsNames.vres * option bytes :=
  fun l _ d _ _ => if N.eqb d 0 then (TlsNames.VOk, Some (TlsNames.ct_der (hd ex_peer l))) else (TlsNames.VOk, None).

(** Two certificates: both copies are freed, a third is kept; the name comes from the first of the chain. *)
Example c238_two : top_down [ex_call 1 ex_ca Copied Copied; ex_call 0 ex_peer Copied Copied] /\
  verify_run ex_yes [ex_call 1 ex_ca Copied Copied; ex_call 0 ex_peer Copied Copied] start true =
    Done (Some (mkSt (mkHeap [(2, mkCell ex_peer None)] 3 [1; 0]) (Some 0) (Some 2) (Some (bs "CA"%string)), true)).
Proof. split; [split; [discriminate|reflexivity]|reflexivity]. Qed.

(** The copy of the second cannot be parsed: all is freed and the client refused. *)
Example c238_no_parse :
  verify_run ex_yes [ex_call 1 ex_ca Copied Copied; ex_call 0 ex_peer NoParse Copied] start true =
    Done (Some (mkSt (mkHeap [] 2 [1; 0]) (Some 0) None None, false)).
Proof. reflexivity. Qed.

(** The pointer to the freed chain is not reset (519, 553): the data must not be given to a second verification. *)
Example c238_again :
  match verify_run ex_yes [ex_call 0 ex_peer Copied Copied] start true with
  | Done (Some (s, true)) => verify_run ex_yes [ex_call 0 ex_peer Copied Copied] s true = Wild
  | _ => False
  end.
Proof. reflexivity. Qed.

(** Two certificates, a mapping of the name of the CA by its fingerprint: through [TlsNames.verify_cert]. *)
Example c239_case :
  match verify_run (vc (fun _ c => Some (bs "a"%string)) [] [] (fun _ => None) None
                       (TlsNames.mkTls [TlsNames.mkCtn None TlsNames.MtSpecified (Some (bs "joe"%string))] None (TlsNames.GLocal [])))
                   [ex_call 1 ex_ca Copied Copied; ex_call 0 ex_peer Copied Copied] start true with
  | Done (Some (s, true)) => s_user s = Some (bs "joe"%string)
  | _ => False
  end.
Proof. reflexivity. Qed.

Print Assumptions c238_memory.
Print Assumptions c238_defined.
Print Assumptions c239_accepted.
Print Assumptions c239_same.
Print Assumptions c239_trusted.
