(** C55 for Refs.v: the check of endpoint references. *)
From Coq Require Import String Bool List Arith Lia.
From Verif Require Import Endpts Prop_Endpts Refs.
Import ListNotations.
Local Open Scope nat_scope.
Local Open Scope list_scope.

(* ------------------------------------------------------------------ *)
(** ** Specification *)

(** The endpoint that [e] refers to: the first with that name. *)
Definition refers (l : list rep) (e e' : rep) : Prop := exists r i, r_ref e = Some r /\ nth_error l i = Some e' /\ r_name e' = r /\ forall j x, j < i -> nth_error l j = Some x -> r_name x <> r.

(** Following the references [k] times. *)
Inductive follows (l : list rep) : nat -> rep -> rep -> Prop :=
| f_here e : follows l 0 e e
| f_next k e e' e'' : refers l e e' -> follows l k e' e'' -> follows l (S k) e e''.

(* ------------------------------------------------------------------ *)
(** ** Lemmas *)

Lemma referenced_spec n : forall l i, match referenced l n i with
  | Some (j, e) => i <= j /\ nth_error l (j - i) = Some e /\ r_name e = n /\ forall k x, k < j - i -> nth_error l k = Some x -> r_name x <> n
  | None => forall x, In x l -> r_name x <> n
  end.
Proof.
  induction l as [|e l IH]; intros i; cbn [referenced]; [intros x []|]. destruct (String.eqb_spec n (r_name e)) as [E|E].
  - rewrite Nat.sub_diag. repeat split; auto. intros k x H. lia.
  - specialize (IH (S i)). destruct (referenced l n (S i)) as [[j x]|].
    + destruct IH as (A & B & C & D). replace (j - i) with (S (j - S i)) by lia. repeat split; auto; [lia|]. intros [|k] y Hk Hy; cbn in Hy; [congruence|]. apply (D k); [lia|exact Hy].
    + intros x [<-|H]; [congruence|apply IH, H].
Qed.

Lemma referenced_refers l e r j e' : r_ref e = Some r -> referenced l r 0 = Some (j, e') -> refers l e e'.
Proof. intros H R. pose proof (referenced_spec r l 0) as S. rewrite R, Nat.sub_0_r in S. destruct S as (_ & B & C & D). exists r, j. auto. Qed.

Lemma refers_referenced l e e' : refers l e e' -> exists r j, r_ref e = Some r /\ referenced l r 0 = Some (j, e') /\ nth_error l j = Some e'.
Proof.
  intros (r & i & A & B & C & D). exists r, i. split; [exact A|]. split; [|exact B]. pose proof (referenced_spec r l 0) as S. destruct (referenced l r 0) as [[j x]|].
  - rewrite Nat.sub_0_r in S. destruct S as (_ & B' & C' & D'). destruct (Nat.lt_trichotomy i j) as [X|[X|X]]; [exfalso; exact (D' i e' X B C)|subst; congruence|exfalso; exact (D j x X B' C')].
  - exfalso. exact (S e' (nth_error_In _ _ B) C).
Qed.

Lemma refers_fun l e a b : refers l e a -> refers l e b -> a = b.
Proof. intros A B. apply refers_referenced in A, B. destruct A as (r & j & A1 & A2 & _), B as (r' & j' & B1 & B2 & _). congruence. Qed.

Lemma refers_in l e e' : refers l e e' -> In e' l.
Proof. intros (r & i & _ & B & _). exact (nth_error_In _ _ B). Qed.

(** What the recursion says. *)
Lemma cycle_false fuel l o : forall n, cycle fuel l o n = Some false -> exists k e, follows l k n e /\ r_ref e = None.
Proof.
  induction fuel as [|f IH]; intros n H; cbn [cycle] in H; [discriminate|]. destruct (r_ref n) as [r|] eqn:Er; [|exists 0, n; split; [constructor|exact Er]].
  destruct (String.eqb (r_name o) r); [discriminate|]. destruct (referenced l r 0) as [[j x]|] eqn:R; [|discriminate]. destruct (IH x H) as (k & e & A & B). exists (S k), e. split; [|exact B].
  apply (f_next l k n x e); [exact (referenced_refers _ _ _ _ _ Er R)|exact A].
Qed.

(** The pointers do not matter for the references. *)
Definition bare (e : rep) := (r_id e, r_name e, r_ti e, r_ref e).

Lemma referenced_bare n : forall l l' i, map bare l = map bare l' -> option_map (fun '(j, e) => (j, bare e)) (referenced l n i) = option_map (fun '(j, e) => (j, bare e)) (referenced l' n i).
Proof.
  induction l as [|e l IH]; intros [|e' l'] i H; cbn in H; try discriminate; [reflexivity|]. injection H as H1 H2 H3 H4 H5. cbn [referenced]. rewrite H2. destruct (String.eqb n (r_name e')).
  - cbn. unfold bare. congruence.
  - apply IH, H5.
Qed.

Lemma cycle_bare fuel l l' : map bare l = map bare l' -> forall o o' n n', bare o = bare o' -> bare n = bare n' -> cycle fuel l o n = cycle fuel l' o' n'.
Proof.
  intros L. induction fuel as [|f IH]; intros o o' n n' Ho Hn; cbn [cycle]; [reflexivity|]. replace (r_ref n') with (r_ref n) by (unfold bare in Hn; congruence). destruct (r_ref n) as [r|]; [|reflexivity].
  replace (r_name o') with (r_name o) by (unfold bare in Ho; congruence). destruct (String.eqb (r_name o) r); [reflexivity|]. pose proof (referenced_bare r l l' 0 L) as R.
  destruct (referenced l r 0) as [[j x]|], (referenced l' r 0) as [[j' x']|]; cbn in R; try discriminate; [|reflexivity]. apply IH; [exact Ho|congruence].
Qed.

Definition ok_at (fuel : nat) (l : list rep) (i : nat) (e : rep) : Prop :=
  forall r, r_ref e = Some r -> exists j e', referenced l r 0 = Some (j, e') /\ j <> i /\ r_ti e = r_ti e' /\ tls_or_ssh (r_ti e') = true /\ cycle fuel l e e' = Some false.

Lemma same_ti_spec a b : same_ti a b = true -> a = b.
Proof. destruct a, b; cbn; congruence. Qed.

Lemma upd_bare l i e e' : nth_error l i = Some e -> bare e' = bare e -> map bare (upd l i e') = map bare l.
Proof. intros H B. rewrite map_upd, B. apply upd_same. rewrite nth_error_map, H. reflexivity. Qed.

(** The pointer stored for a reference: the name of the endpoint referred to. *)
Definition ptr_right (l : list rep) (e : rep) : Prop := forall r, r_ref e = Some r -> exists j e', referenced l r 0 = Some (j, e') /\ r_ptr e = Some (r_id e').

Lemma ptr_right_bare l l' e : map bare l = map bare l' -> ptr_right l e -> ptr_right l' e.
Proof.
  intros L H r Hr. destruct (H r Hr) as (j & e' & A & B). pose proof (referenced_bare r l l' 0 L) as R. rewrite A in R. destruct (referenced l' r 0) as [[j' x]|]; [|discriminate]. cbn in R. unfold bare in R.
  exists j', x. split; [reflexivity|]. congruence.
Qed.

Lemma check_good fuel : forall k i l l', check_loop fuel k i l = Good l' -> i + k = length l -> (forall j e, j < i -> nth_error l j = Some e -> ptr_right l e) ->
  map bare l' = map bare l /\ (forall j e, i <= j -> nth_error l j = Some e -> ok_at fuel l j e) /\ (forall e, In e l' -> ptr_right l' e) /\ (forall e, In e l' -> r_ref e = None -> In e l).
Proof.
  induction k as [|k IH]; intros i l l' H Hl Hp; cbn [check_loop] in H.
  - injection H as <-. split; [reflexivity|]. split; [intros j e Hj He; assert (j < length l) by (apply nth_error_Some; congruence); lia|]. split; [|auto].
    intros e He. apply In_nth_error in He. destruct He as [j He]. apply (Hp j); [|exact He]. assert (j < length l) by (apply nth_error_Some; congruence). lia.
  - destruct (nth_error l i) as [e|] eqn:Ee. 2: { apply nth_error_None in Ee. lia. }
    destruct (r_ref e) as [r|] eqn:Er.
    + pose proof (referenced_spec r l 0) as RS. destruct (referenced l r 0) as [[j e']|] eqn:R; [|discriminate]. destruct (Nat.eqb_spec j i) as [|Nji]; [discriminate|].
      destruct (same_ti (r_ti e) (r_ti e')) eqn:T; cbn [negb] in H; [|discriminate]. destruct (tls_or_ssh (r_ti e')) eqn:T2; cbn [negb] in H; [|discriminate].
      destruct (cycle fuel l e e') as [[|]|] eqn:C; try discriminate. set (e1 := mkR _ _ _ _ _) in H.
      assert (Bl : map bare (upd l i e1) = map bare l) by (apply (upd_bare l i e); [exact Ee|unfold bare; rewrite Er; reflexivity]).
      apply IH in H.
      * destruct H as (A & B & D & F). split; [congruence|]. split; [|split; [exact D|]].
        -- intros j0 e0 Hj He. destruct (Nat.eq_dec j0 i) as [->|Hne].
           ++ rewrite Ee in He. injection He as <-. intros r0 Hr0. assert (r0 = r) by congruence. subst r0. exists j, e'. repeat split; auto. apply same_ti_spec, T.
           ++ assert (He1 : nth_error (upd l i e1) j0 = Some e0) by (rewrite nth_upd; destruct (Nat.eqb_spec i j0); [congruence|exact He]).
              intros r0 Hr0. destruct (B j0 e0 ltac:(lia) He1 r0 Hr0) as (j1 & e2 & B1 & B2 & B3 & B4 & B5). pose proof (referenced_bare r0 _ _ 0 Bl) as RB. rewrite B1 in RB.
              destruct (referenced l r0 0) as [[j3 e3]|]; [|discriminate]. cbn in RB. injection RB as X1 X2 X3 X4 X5. exists j3, e3. split; [reflexivity|]. split; [lia|]. split; [congruence|]. split; [congruence|].
              rewrite <- B5. apply cycle_bare; auto. unfold bare. congruence.
        -- intros e0 He0 Hr. specialize (F e0 He0 Hr). apply In_nth_error in F. destruct F as [j0 F]. rewrite nth_upd, Ee in F. destruct (Nat.eqb i j0); [injection F as <-; cbn in Hr; congruence|exact (nth_error_In _ _ F)].
      * rewrite upd_len. lia.
      * intros j0 e0 Hj He. rewrite nth_upd, Ee in He. destruct (Nat.eqb_spec i j0) as [->|Hne].
        -- injection He as <-. apply (ptr_right_bare l); [symmetry; exact Bl|]. intros r0 Hr0. cbn in Hr0. assert (r0 = r) by congruence. subst r0. exists j, e'. auto.
        -- apply (ptr_right_bare l); [symmetry; exact Bl|]. apply (Hp j0); [lia|exact He].
    + apply IH in H; [|lia|].
      * destruct H as (A & B & D & F). split; [exact A|]. split; [|split; [exact D|exact F]]. intros j0 e0 Hj He. destruct (Nat.eq_dec j0 i) as [->|]; [|apply B; [lia|exact He]]. intros r0 Hr0. congruence.
      * intros j0 e0 Hj He. destruct (Nat.eq_dec j0 i) as [->|]; [|apply (Hp j0); [lia|exact He]]. intros r0 Hr0. congruence.
Qed.

(* ------------------------------------------------------------------ *)
(** ** Theorems *)

Definition accepted (fuel : nat) (l : list rep) : Prop := exists l', check_loop fuel (length l) 0 l = Good l'.

Lemma accepted_at fuel l i e : accepted fuel l -> nth_error l i = Some e -> ok_at fuel l i e.
Proof. intros [l' H] He. destruct (check_good fuel (length l) 0 l l' H eq_refl ltac:(lia)) as (_ & B & _). exact (B i e ltac:(lia) He). Qed.

(** C55: in an accepted configuration every reference leads to another endpoint, which exists and has the same transport, SSH or TLS. *)
Theorem c55_references fuel l i e r : accepted fuel l -> nth_error l i = Some e -> r_ref e = Some r ->
  exists j e', refers l e e' /\ nth_error l j = Some e' /\ j <> i /\ r_name e' = r /\ r_ti e' = r_ti e /\ (r_ti e = TSsh \/ r_ti e = TTls).
Proof.
  intros A He Hr. destruct (accepted_at _ _ _ _ A He r Hr) as (j & e' & R & N & T & T2 & _). pose proof (referenced_spec r l 0) as S. rewrite R, Nat.sub_0_r in S. destruct S as (_ & B & C & _).
  exists j, e'. split; [exact (referenced_refers _ _ _ _ _ Hr R)|]. repeat split; auto. rewrite T. destruct (r_ti e'); cbn in T2; try discriminate; auto.
Qed.

(** C55: following the references from any endpoint comes to an end, so authentication, which follows them, does too. *)
Theorem c55_chain_ends fuel l e : accepted fuel l -> In e l -> exists k e', follows l k e e' /\ r_ref e' = None.
Proof.
  intros A He. apply In_nth_error in He. destruct He as [i He]. destruct (r_ref e) as [r|] eqn:Er; [|exists 0, e; split; [constructor|exact Er]].
  destruct (accepted_at _ _ _ _ A He r Er) as (j & e' & R & _ & _ & _ & C). destruct (cycle_false _ _ _ _ C) as (k & z & F & Z). exists (S k), z. split; [|exact Z]. exact (f_next _ _ _ _ _ (referenced_refers _ _ _ _ _ Er R) F).
Qed.

Lemma follows_fun l k e a b : follows l k e a -> follows l k e b -> a = b.
Proof. intros A. revert b. induction A as [e|k e e' e'' R A IH]; intros b B; inversion B; subst; [reflexivity|]. apply IH. assert (e' = e'0) by (exact (refers_fun _ _ _ _ R H0)). subst. assumption. Qed.

Lemma follows_app l k e a : follows l k e a -> forall m b, follows l m a b -> follows l (k + m) e b.
Proof. induction 1; intros m b B; [exact B|]. cbn. eapply f_next; eauto. Qed.

Lemma follows_le l k e a : follows l k e a -> forall m, m <= k -> exists b, follows l m e b.
Proof. induction 1 as [e|k e e' e'' R F IH]; intros m Hm. - exists e. replace m with 0 by lia. constructor. - destruct m as [|m]; [exists e; constructor|]. destruct (IH m ltac:(lia)) as [b B]. exists b. eapply f_next; eauto. Qed.

(** C55: no endpoint refers to itself through others. *)
Theorem c55_acyclic fuel l e k : accepted fuel l -> In e l -> ~ follows l (S k) e e.
Proof.
  intros A He F. destruct (c55_chain_ends fuel l e A He) as (m & z & Fz & Z).
  assert (G : forall t, follows l (t * S k) e e) by (induction t as [|t IH]; [constructor|cbn [Nat.mul]; exact (follows_app _ _ _ _ F _ _ IH)]).
  destruct (follows_le _ _ _ _ (G (S m)) (S m) ltac:(nia)) as [b B].
  assert (X : exists y, follows l 1 z y).
  { assert (H : forall m e b z, follows l (S m) e b -> follows l m e z -> follows l 1 z b).
    { clear. induction m as [|m IH]; intros e b z B Z; inversion Z; subst; [exact B|]. inversion B; subst. assert (e' = e'0) by (eapply refers_fun; eassumption). subst. eapply IH; eassumption. }
    exists b. eapply H; eassumption. }
  destruct X as [y Y]. inversion Y as [|? ? ? ? (r & i & R & _) _]; subst. congruence.
Qed.

(** C55, Call Home: likewise for the endpoint referred to. *)
Theorem c55_ch fuel l t r : check_ch fuel l t r = Some false ->
  exists e', In e' l /\ r_name e' = r /\ r_ti e' = t /\ (t = TSsh \/ t = TTls) /\ exists k z, follows l k e' z /\ r_ref z = None.
Proof.
  unfold check_ch. pose proof (referenced_spec r l 0) as S. destruct (referenced l r 0) as [[j e']|]; [|discriminate]. rewrite Nat.sub_0_r in S. destruct S as (_ & B & C & _).
  destruct (same_ti t (r_ti e')) eqn:T; cbn [negb]; [|discriminate]. destruct (tls_or_ssh (r_ti e')) eqn:T2; cbn [negb]; [|discriminate]. intros H. exists e'. split; [exact (nth_error_In _ _ B)|].
  apply same_ti_spec in T. split; [exact C|]. split; [congruence|]. split; [rewrite T; destruct (r_ti e'); cbn in T2; try discriminate; auto|]. exact (cycle_false _ _ _ _ H).
Qed.

(** When the recursion returns: the chain ends, leads to a missing endpoint or comes back to where it began. *)
Theorem c55_returns l o : forall n, (exists fuel b, cycle fuel l o n = Some b) <-> exists k e, follows l k n e /\ (r_ref e = None \/ exists r, r_ref e = Some r /\ (r = r_name o \/ forall x, In x l -> r_name x <> r)).
Proof.
  intros n. split.
  - intros (fuel & b & H). revert n H. induction fuel as [|f IH]; intros n H; cbn [cycle] in H; [discriminate|]. destruct (r_ref n) as [r|] eqn:Er; [|exists 0, n; split; [constructor|auto]].
    destruct (String.eqb_spec (r_name o) r); [exists 0, n; split; [constructor|right; exists r; auto]|]. pose proof (referenced_spec r l 0) as RS. destruct (referenced l r 0) as [[j x]|] eqn:R.
    + destruct (IH x H) as (k & e & A & B). exists (S k), e. split; [exact (f_next _ _ _ _ _ (referenced_refers _ _ _ _ _ Er R) A)|exact B].
    + exists 0, n. split; [constructor|]. right. exists r. auto.
  - intros (k & e & F & E). induction F as [e|k e e' e'' R F IH].
    + exists 1. cbn [cycle]. destruct E as [->|(r & -> & [->|M])]; [eauto|rewrite String.eqb_refl; eauto|]. destruct (String.eqb (r_name o) r); [eauto|]. pose proof (referenced_spec r l 0) as RS.
      destruct (referenced l r 0) as [[j x]|]; [|eauto]. destruct RS as (_ & B & C & _). exfalso. exact (M x (nth_error_In _ _ B) C).
    + destruct (IH E) as (f & b & Hf). destruct (refers_referenced _ _ _ R) as (r & j & A1 & A2 & _). exists (S f). cbn [cycle]. rewrite A1, A2. destruct (String.eqb (r_name o) r); eauto.
Qed.

(** Three endpoints, the second and third referring to each other and the first to the second: the check of the first never returns, with the configuration locked for writing. *)
Definition rho : list rep := [mkR 0 "a" TSsh (Some "b") None; mkR 1 "b" TSsh (Some "c") None; mkR 2 "c" TSsh (Some "b") None]%string.

Theorem c55_diverges_refuted : forall fuel, check_loop fuel (length rho) 0 rho = Diverges.
Proof.
  assert (H : (forall fuel, cycle fuel rho (mkR 0 "a" TSsh (Some "b") None) (mkR 1 "b" TSsh (Some "c") None) = None /\ cycle fuel rho (mkR 0 "a" TSsh (Some "b") None) (mkR 2 "c" TSsh (Some "b") None) = None)%string).
  { induction fuel as [|f [IH1 IH2]]; [split; reflexivity|]. split; cbn [cycle r_ref]; [exact IH2|exact IH1]. }
  intros fuel. cbn [rho length check_loop nth_error r_ref referenced r_name String.eqb Ascii.eqb Bool.eqb Nat.eqb r_ti same_ti tls_or_ssh negb]. rewrite (proj1 (H fuel)). reflexivity.
Qed.

(** C55, the pointers: after any changes, once a check has succeeded, what the options of an endpoint point to is the name of a present endpoint, the one it refers to. *)
Definition no_stray (l : list rep) : Prop := forall e, In e l -> r_ref e = None -> r_ptr e = None.

Lemma in_upd {A} (l : list A) i y x : In x (upd l i y) -> x = y \/ In x l.
Proof. revert i. induction l as [|z l IH]; intros [|i] H; cbn in H; auto. - destruct H as [->|H]; auto. right. right. exact H. - destruct H as [->|H]; [right; left; reflexivity|]. destruct (IH i H); auto. right. right. assumption. Qed.

Lemma check_stray fuel : forall k i l, no_stray l -> match check_loop fuel k i l with Good l' | Bad l' => no_stray l' | Diverges => True end.
Proof.
  induction k as [|k IH]; intros i l H; cbn [check_loop]; [exact H|]. destruct (nth_error l i) as [e|] eqn:Ee; [|exact H]. destruct (r_ref e) as [r|] eqn:Er; [|apply IH, H].
  destruct (referenced l r 0) as [[j e']|]; [|exact H]. destruct (Nat.eqb j i); [exact H|]. destruct (same_ti (r_ti e) (r_ti e')); cbn [negb]; [|exact H]. destruct (tls_or_ssh (r_ti e')); cbn [negb]; [|exact H].
  destruct (cycle fuel l e e') as [[|]|]; [exact H| |exact I]. apply IH. intros x Hx Hr. apply in_upd in Hx. destruct Hx as [->|Hx]; [discriminate|exact (H x Hx Hr)].
Qed.

Lemma rset_stray l n f : no_stray l -> (forall e, r_ref (f e) = None -> r_ptr (f e) = None) -> no_stray (rset l n f).
Proof. intros H F. unfold rset. destruct (referenced l n 0) as [[i e]|]; [|exact H]. intros x Hx Hr. apply in_upd in Hx. destruct Hx as [->|Hx]; [apply F, Hr|exact (H x Hx Hr)]. Qed.

Lemma rstep_stray fuel s o s' : no_stray (rs_l s) -> rstep fuel s o = Some s' -> no_stray (rs_l s').
Proof.
  intros H E. destruct o; cbn [rstep] in E.
  - injection E as <-. cbn. intros e He Hr. apply in_app_or in He. destruct He as [He|[<-|[]]]; [exact (H e He Hr)|reflexivity].
  - injection E as <-. apply rset_stray; [exact H|]. intros e X. discriminate.
  - injection E as <-. apply rset_stray; [exact H|]. intros e X. reflexivity.
  - destruct (referenced (rs_l s) n 0) as [[i e]|]; [|injection E as <-; exact H]. injection E as <-. cbn [rs_l].
    assert (U : no_stray (map (unref n) (rs_l s))).
    { intros x Hx Hr. apply in_map_iff in Hx. destruct Hx as (y & <- & Hy). unfold unref in *. destruct (r_ref y) as [r|] eqn:Ey; [|apply H; auto]. destruct (String.eqb r n); [reflexivity|congruence]. }
    intros x Hx Hr. assert (In x (match nth_error (map (unref n) (rs_l s)) (length (map (unref n) (rs_l s)) - 1) with Some z => upd (map (unref n) (rs_l s)) i z | None => map (unref n) (rs_l s) end)) as X.
    { rewrite <- (firstn_skipn (length (map (unref n) (rs_l s)) - 1)). apply in_or_app. left. exact Hx. }
    destruct (nth_error (map (unref n) (rs_l s)) (length (map (unref n) (rs_l s)) - 1)) as [z|] eqn:Z; [|exact (U x X Hr)]. apply in_upd in X. destruct X as [->|X]; [apply U; [exact (nth_error_In _ _ Z)|exact Hr]|exact (U x X Hr)].
  - pose proof (check_stray fuel (length (rs_l s)) 0 (rs_l s) H) as C. destruct (check_loop fuel (length (rs_l s)) 0 (rs_l s)); [injection E as <-|injection E as <-|discriminate]; exact C.
Qed.

Lemma rrun_stray fuel : forall os s s', no_stray (rs_l s) -> rrun fuel s os = Some s' -> no_stray (rs_l s').
Proof.
  induction os as [|o os IH]; intros s s' H E; cbn [rrun] in E; [injection E as <-; exact H|]. destruct (rstep fuel s o) as [s1|] eqn:E1; [|discriminate]. exact (IH s1 s' (rstep_stray _ _ _ _ H E1) E).
Qed.

Theorem c55_pointers_partial fuel os s l : rrun fuel (mkRs [] 0) os = Some s -> check_loop fuel (length (rs_l s)) 0 (rs_l s) = Good l ->
  forall e p, In e l -> r_ptr e = Some p -> exists e', In e' l /\ r_id e' = p /\ refers l e e'.
Proof.
  intros R C e p He Hp. assert (S : no_stray (rs_l s)) by (apply (rrun_stray fuel os (mkRs [] 0)); [intros x []|exact R]).
  destruct (check_good fuel (length (rs_l s)) 0 (rs_l s) l C eq_refl ltac:(lia)) as (_ & _ & D & F). destruct (r_ref e) as [r|] eqn:Er.
  - destruct (D e He r Er) as (j & e' & A & B). exists e'. pose proof (referenced_spec r l 0) as RS. rewrite A, Nat.sub_0_r in RS. destruct RS as (_ & X & _ & _). split; [exact (nth_error_In _ _ X)|]. split; [congruence|].
    exact (referenced_refers _ _ _ _ _ Er A).
  - exfalso. rewrite (S e (F e He Er) Er) in Hp. discriminate.
Qed.

(** … but not after a change that the check refused: "a" referred to "b"; changing that to a TLS endpoint is refused, and once "b" is removed, "a" points to a freed name, which the next
    authentication reads. *)
Theorem c55_pointers_refuted : exists s e, rrun 9 (mkRs [] 0) [RCreate "a" TSsh; RCreate "b" TSsh; RCreate "t" TTls; RSet "a" "b"; RCheck; RSet "a" "t"; RCheck; RDel "b"]%string = Some s /\
  In e (rs_l s) /\ r_name e = "a"%string /\ r_ptr e = Some 1 /\ ~ In 1 (map r_id (rs_l s)).
Proof. eexists (mkRs [_; _] _), _. split; [vm_compute; reflexivity|]. split; [left; reflexivity|]. split; [reflexivity|]. split; [reflexivity|]. cbn. lia. Qed.

(* ------------------------------------------------------------------ *)
(** ** Cases *)

Definition tree : list rep := [mkR 0 "a" TSsh (Some "b") None; mkR 1 "b" TSsh (Some "c") None; mkR 2 "c" TSsh None None; mkR 3 "d" TTls None None; mkR 4 "e" TTls (Some "d") None]%string.
Example ex_tree : check_loop 5 5 0 tree = Good [mkR 0 "a" TSsh (Some "b") (Some 1); mkR 1 "b" TSsh (Some "c") (Some 2); mkR 2 "c" TSsh None None; mkR 3 "d" TTls None None; mkR 4 "e" TTls (Some "d") (Some 3)]%string.
Proof. vm_compute. reflexivity. Qed.
Example ex_accepted : accepted 5 tree.
Proof. eexists. exact ex_tree. Qed.
(** A cycle met first at one of its own endpoints is found. *)
Example ex_cycle : check_loop 9 2 0 [mkR 1 "b" TSsh (Some "c") None; mkR 2 "c" TSsh (Some "b") None]%string = Bad [mkR 1 "b" TSsh (Some "c") None; mkR 2 "c" TSsh (Some "b") None]%string.
Proof. vm_compute. reflexivity. Qed.
Example ex_ch : check_ch 9 tree TSsh "a" = Some false /\ check_ch 9 tree TTls "a" = Some true.
Proof. split; vm_compute; reflexivity. Qed.

Print Assumptions c55_references.
Print Assumptions c55_chain_ends.
Print Assumptions c55_acyclic.
Print Assumptions c55_ch.
Print Assumptions c55_returns.
Print Assumptions c55_diverges_refuted.
Print Assumptions c55_pointers_partial.
Print Assumptions c55_pointers_refuted.
