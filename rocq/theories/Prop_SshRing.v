(** C35: the sessions of an SSH connection form one ring; the connection is released with the last. *)
From Coq Require Import NArith Bool Lia List Permutation.
From Verif Require Import SshRing.
Import ListNotations.
Local Open Scope N_scope.

(* ------------------------------------------------------------------ *)
(** ** Specification *)

(** The sessions of a connection, as a set: made and not freed.  A session that is only starting is not known
    to the application, so when no other remains, they are freed together. *)
Definition sessions := list (N * rstatus).
Definition without (s : N) (l : sessions) : sessions := filter (fun x => negb (fst x =? s)) l.
Definition only_starting (l : sessions) : Prop := forall x, In x l -> snd x = RStarting.

Inductive allowed : sessions -> op -> sessions -> Prop :=
| al_open l s a t : In (s, t) l -> (forall t', ~ In (a, t') l) -> allowed l (Open s a) ((a, RStarting) :: l)
| al_mark l s t t' : In (s, t) l -> allowed l (Mark s t') ((s, t') :: without s l)
| al_free_last l s t : In (s, t) l -> only_starting (without s l) -> allowed l (Free s) []
| al_free l s t : In (s, t) l -> ~ only_starting (without s l) -> allowed l (Free s) (without s l).

Inductive history : sessions -> list op -> sessions -> Prop :=
| hi_nil l : history l [] l
| hi_cons l o l' os l'' : allowed l o l' -> history l' os l'' -> history l (o :: os) l''.

(** One ring of exactly these sessions: one has no next; more can be put in an order in which each one's next is
    the one after it, and the last one's is the first. *)
Definition next_is (h : heap) (a : N) (n : option N) : Prop := exists x, h a = Some x /\ n_next x = n.

Definition one_ring (h : heap) (l : sessions) : Prop :=
  (forall a t, In (a, t) l <-> exists x, h a = Some x /\ n_status x = t) /\ NoDup (map fst l)
  /\ exists r, Permutation r (map fst l)
       /\ match r with
          | [] => True
          | [a] => next_is h a None
          | z :: _ => (forall i a b, nth_error r i = Some a -> nth_error r (S i) = Some b -> next_is h a (Some b))
                      /\ next_is h (last r z) (Some z)
          end.

(* ------------------------------------------------------------------ *)
(** ** Chains *)

Definition nxt (h : heap) (a : N) : option (option N) := match h a with Some x => Some (n_next x) | None => None end.
Definition stt (h : heap) (a : N) : option rstatus := match h a with Some x => Some (n_status x) | None => None end.

(** Each of [l] is followed by the next one, the last one by [z]. *)
Fixpoint chain (h : heap) (l : list N) (z : N) : Prop :=
  match l with [] => True | x :: t => nxt h x = Some (Some (hd z t)) /\ chain h t z end.

Definition linked (h : heap) (l : list N) : Prop :=
  match l with [] => True | [a] => nxt h a = Some None | a :: _ => chain h l a end.

Lemma hd_app {A} (d : A) a b : hd d (a ++ b) = hd (hd d b) a.
Proof. destruct a; reflexivity. Qed.

Lemma chain_app h a b z : chain h (a ++ b) z <-> chain h a (hd z b) /\ chain h b z.
Proof.
  induction a as [|x a IH]; cbn [app chain]; [tauto|]. rewrite hd_app. tauto.
Qed.

Lemma chain_ext h h' l z : (forall a, In a l -> nxt h' a = nxt h a) -> chain h l z -> chain h' l z.
Proof.
  induction l as [|x l IH]; cbn [chain]; [auto|]. intros E [H C]. split.
  - rewrite E; [exact H|left; reflexivity].
  - apply IH; [|exact C]. intros a I. apply E. right; exact I.
Qed.

Lemma upd_same h a v : upd h a v a = v. Proof. unfold upd. rewrite N.eqb_refl. reflexivity. Qed.
Lemma upd_other h a v b : b <> a -> upd h a v b = h b. Proof. unfold upd. intros H. apply N.eqb_neq in H. rewrite H. reflexivity. Qed.

(** The ring, starting at any member. *)
Lemma rotate h l s : linked h l -> In s l -> exists l', Permutation l (s :: l') /\ linked h (s :: l').
Proof.
  intros L I. apply in_split in I. destruct I as (l1 & l2 & ->). exists (l2 ++ l1). split.
  - etransitivity; [apply Permutation_app_comm|]. reflexivity.
  - destruct l1 as [|a l1]; [rewrite app_nil_r; exact L|].
    assert (C : chain h ((a :: l1) ++ s :: l2) a).
    { cbn [app] in *. unfold linked in L. destruct (l1 ++ s :: l2) eqn:E; [destruct l1; discriminate|exact L]. }
    apply chain_app in C. destruct C as [C1 C2]. cbn [hd] in C1.
    assert (C : chain h ((s :: l2) ++ a :: l1) s) by (apply chain_app; cbn [hd]; auto).
    unfold linked. destruct (l2 ++ a :: l1) eqn:E; [destruct l2; discriminate|]. rewrite <- E. exact C.
Qed.

(* ------------------------------------------------------------------ *)
(** ** The loops *)

Definition nonstarting (h : heap) (a : N) : bool := match h a with Some x => negb (starting (n_status x)) | None => false end.

Lemma nxt_some h a n : nxt h a = Some n -> exists x, h a = Some x /\ n_next x = n.
Proof. unfold nxt. destruct (h a) as [x|]; [|discriminate]. intros [= <-]. eauto. Qed.

Lemma scan_spec h s t : forall fuel, chain h t s -> ~ In s t -> (length t < fuel)%nat ->
  scan fuel h s (hd s t) = Some (existsb (nonstarting h) t).
Proof.
  induction t as [|x t IH]; intros fuel C N F; destruct fuel as [|f]; try (cbn in F; lia); cbn [scan hd existsb].
  - rewrite N.eqb_refl. reflexivity.
  - destruct C as [H C]. destruct (N.eqb_spec x s) as [->|Ne]; [exfalso; apply N; left; reflexivity|].
    apply nxt_some in H. destruct H as (y & Hy & Ny). unfold nonstarting at 1. rewrite Hy.
    destruct (starting (n_status y)); cbn [negb orb]; [|reflexivity]. rewrite Ny.
    apply IH; [exact C| |cbn [length] in F; lia]. intros I; apply N; right; exact I.
Qed.

Lemma prev_spec h s t : forall fuel x, chain h (x :: t) s -> ~ In s t -> (length t < fuel)%nat ->
  find_prev fuel h s x = Some (last (x :: t) x).
Proof.
  induction t as [|y t IH]; intros fuel x C N F; destruct fuel as [|f]; try (cbn in F; lia); cbn [find_prev].
  - destruct C as [H _]. apply nxt_some in H. destruct H as (z & -> & ->). cbn [hd]. rewrite N.eqb_refl. reflexivity.
  - destruct C as [H C]. apply nxt_some in H. destruct H as (z & -> & ->). cbn [hd].
    destruct (N.eqb_spec y s) as [->|Ne]; [exfalso; apply N; left; reflexivity|].
    rewrite (IH f y C); [|intros I; apply N; right; exact I|cbn [length] in F; lia].
    f_equal. change (last (x :: y :: t) x) with (last (y :: t) x). clear. revert y. induction t as [|a t IH]; intros y; [reflexivity|].
    change (last (a :: t) y = last (a :: t) x). clear. revert a; induction t as [|b t IH]; intros a; [reflexivity|]. exact (IH b).
Qed.

Lemma drop_spec s t : forall h fuel i, chain h (s :: i :: t) s -> NoDup (s :: i :: t) -> (length t < fuel)%nat ->
  exists h', drop fuel h s = Some h' /\ (forall a, In a (i :: t) -> h' a = None)
    /\ (forall a, a <> s -> ~ In a (i :: t) -> h' a = h a) /\ h' s <> None.
Proof.
  induction t as [|j t IH]; intros h fuel i C ND F; destruct fuel as [|f]; try (cbn in F; lia); cbn [drop].
  - destruct C as [H1 [H2 _]]. apply nxt_some in H1, H2. destruct H1 as (x & Hx & Nx), H2 as (y & Hy & Ny).
    rewrite Hx, Nx. cbn [hd] in *. rewrite Hy. unfold set_next. rewrite Hx, Ny, N.eqb_refl.
    inversion ND as [|? ? N1 ND1]; subst. cbn [In] in N1.
    eexists. split; [reflexivity|]. split; [intros a [<-|[]]; apply upd_same|]. split.
    + intros a A1 A2. rewrite upd_other, upd_other; auto. intros ->. apply A2. left; reflexivity.
    + rewrite upd_other, upd_same by (intros ->; apply N1; left; reflexivity). discriminate.
  - destruct C as [H1 [H2 C]]. apply nxt_some in H1, H2. destruct H1 as (x & Hx & Nx), H2 as (y & Hy & Ny).
    rewrite Hx, Nx. cbn [hd] in *. rewrite Hy. unfold set_next. rewrite Hx, Ny.
    inversion ND as [|? ? N1 ND1]; subst. inversion ND1 as [|? ? N2 ND2]; subst.
    assert (Js : j <> s) by (intros ->; apply N1; right; left; reflexivity).
    assert (Is : i <> s) by (intros ->; apply N1; left; reflexivity).
    destruct (N.eqb_spec j s) as [E|_]; [contradiction|].
    set (h2 := upd (upd h s _) i None).
    destruct (IH h2 f j) as (h' & D & R1 & R2 & R3).
    + cbn [chain hd]. split; [unfold nxt, h2; rewrite upd_other, upd_same by auto; reflexivity|].
      refine (chain_ext h h2 (j :: t) s _ C). intros a I. unfold nxt, h2. rewrite upd_other, upd_other; [reflexivity| |].
      * intros ->. apply N1. right. exact I.
      * intros ->. apply N2. exact I.
    + constructor; [|exact ND2]. intros I. apply N1. right. exact I.
    + cbn [length] in F; lia.
    + exists h'. split; [exact D|]. split; [|split; [|exact R3]].
      * intros a [<-|I]; [|apply R1; exact I]. rewrite R2; [unfold h2; apply upd_same|exact Is|exact N2].
      * intros a A1 A2. rewrite R2; [|exact A1|intros I; apply A2; right; exact I]. unfold h2.
        rewrite upd_other, upd_other; auto. intros ->. apply A2. left; reflexivity.
Qed.

(* ------------------------------------------------------------------ *)
(** ** Invariant *)

Record good (st : rst) (l : sessions) : Prop := mkGood {
  g_mem : forall a t, In (a, t) l <-> stt (r_heap st) a = Some t;
  g_nodup : NoDup (map fst l);
  g_ring : exists r, Permutation r (map fst l) /\ linked (r_heap st) r;
  g_fuel : (length l <= r_made st)%nat
}.

Lemma mem_fst (l : sessions) a : In a (map fst l) <-> exists t, In (a, t) l.
Proof.
  rewrite in_map_iff. split.
  - intros ([b t] & <- & I). eauto.
  - intros (t & I). exists (a, t). auto.
Qed.

Lemma fst_without s l : map fst (without s l) = filter (fun a => negb (a =? s)) (map fst l).
Proof.
  unfold without. induction l as [|[a t] l IH]; [reflexivity|]. cbn [filter map fst].
  destruct (a =? s); cbn [negb map fst]; rewrite IH; reflexivity.
Qed.

Lemma in_without s l a t : In (a, t) (without s l) <-> In (a, t) l /\ a <> s.
Proof.
  unfold without. rewrite filter_In. cbn [fst]. rewrite negb_true_iff, N.eqb_neq. reflexivity.
Qed.

Lemma filter_none (l : list N) s : ~ In s l -> filter (fun a => negb (a =? s)) l = l.
Proof.
  induction l as [|x l IH]; [reflexivity|]. cbn [filter In]. intros N.
  destruct (N.eqb_spec x s) as [->|Ne]; [tauto|]. cbn [negb]. rewrite IH; tauto.
Qed.

Lemma perm_filter (f : N -> bool) a b : Permutation a b -> Permutation (filter f a) (filter f b).
Proof.
  induction 1 as [|x a b P IH|x y a|a b c P IH P' IH']; cbn [filter].
  - constructor.
  - destruct (f x); auto.
  - destruct (f x), (f y); auto using Permutation_refl, perm_swap.
  - etransitivity; eauto.
Qed.

Lemma perm_without s l r : Permutation (s :: r) (map fst l) -> NoDup (map fst l) -> Permutation r (map fst (without s l)).
Proof.
  intros P ND. rewrite fst_without. pose proof (Permutation_NoDup (Permutation_sym P) ND) as ND'.
  inversion ND' as [|? ? N1 ND1]; subst. pose proof (perm_filter (fun a => negb (a =? s)) _ _ P) as P'.
  cbn [filter] in P'. rewrite N.eqb_refl in P'. cbn [negb] in P'. rewrite (filter_none _ _ N1) in P'. exact P'.
Qed.

Lemma nodup_without s l : NoDup (map fst l) -> NoDup (map fst (without s l)).
Proof. rewrite fst_without. apply NoDup_filter. Qed.

Lemma length_without s l t : In (s, t) l -> (length (without s l) < length l)%nat.
Proof.
  unfold without. induction l as [|[a t'] l IH]; [intros []|]. cbn [filter fst].
  assert (Le : (length (filter (fun x : N * rstatus => negb (fst x =? s)) l) <= length l)%nat).
  { clear. induction l as [|x l IH]; [auto|]. cbn [filter]. destruct (negb _); cbn [length]; lia. }
  intros [[= -> ->]|I]; [rewrite N.eqb_refl; cbn [negb length]; lia|].
  destruct (negb (a =? s)); cbn [length]; specialize (IH I); lia.
Qed.

Lemma good_open st l s a l' : good st l -> allowed l (Open s a) l' ->
  exists st', step st (Open s a) = Some st' /\ good st' l' /\ r_released st' = r_released st.
Proof.
  intros [Gm Gn (r & Gp & Gl) Gf] A. inversion A as [l0 s0 a0 t Is Fr| | |]; subst. cbn [step].
  assert (Ir : In s r) by (eapply Permutation_in; [apply Permutation_sym; exact Gp|apply mem_fst; eauto]).
  destruct (rotate _ _ _ Gl Ir) as (r' & P & L). set (h := r_heap st) in *.
  assert (Na : a <> s) by (intros ->; exact (Fr t Is)).
  assert (Ha : h a = None).
  { destruct (h a) as [x|] eqn:E; [|reflexivity]. exfalso. apply (Fr (n_status x)). apply Gm. unfold stt. rewrite E. reflexivity. }
  assert (Nr : ~ In a r').
  { intros I. assert (J : In a (map fst l)) by (eapply Permutation_in; [exact Gp|]; eapply Permutation_in; [apply Permutation_sym; exact P|]; right; exact I).
    apply mem_fst in J. destruct J as (t' & J). exact (Fr t' J). }
  assert (Ns : ~ In s r').
  { assert (ND : NoDup (s :: r')) by (eapply Permutation_NoDup; [|exact Gn]; etransitivity; [apply Permutation_sym; exact Gp|exact P]).
    inversion ND; assumption. }
  apply Gm in Is. unfold stt in Is. destruct (h s) as [x|] eqn:Hs; [|discriminate]. injection Is as Is.
  unfold subsystem. rewrite Hs. unfold set_next. rewrite upd_other, Hs by auto.
  eexists. split; [reflexivity|]. split; [|reflexivity]. constructor; cbn [r_heap r_made].
  - intros b t'. cbn [In]. unfold stt. destruct (N.eq_dec b s) as [->|Bs].
    + rewrite upd_same. cbn [n_status]. rewrite Is. split.
      * intros [[= E _]|I]; [contradiction|]. apply Gm in I. unfold stt in I. rewrite Hs in I. injection I as <-. rewrite <- Is. reflexivity.
      * intros [= <-]. right. apply Gm. unfold stt. rewrite Hs. rewrite <- Is. reflexivity.
    + rewrite upd_other by exact Bs. destruct (N.eq_dec b a) as [->|Ba].
      * rewrite upd_same. cbn [n_status]. split.
        -- intros [[= <-]|I]; [reflexivity|]. exfalso. exact (Fr _ I).
        -- intros [= <-]. left; reflexivity.
      * rewrite upd_other by exact Ba. rewrite <- (Gm b t'). split; [intros [[= E _]|I]; [congruence|exact I]|auto].
  - cbn [map fst]. constructor; [|exact Gn]. intros I. apply mem_fst in I. destruct I as (t' & I). exact (Fr t' I).
  - exists (s :: a :: r'). split.
    { cbn [map fst]. etransitivity; [apply perm_swap|]. apply perm_skip. etransitivity; [apply Permutation_sym; exact P|exact Gp]. }
    unfold linked. cbn [chain hd]. split; [unfold nxt; rewrite upd_same; reflexivity|].
    split.
    + unfold nxt. rewrite upd_other, upd_same by auto. cbn [n_next]. unfold linked in L. destruct r' as [|b r'].
      * unfold nxt in L. rewrite Hs in L. injection L as ->. reflexivity.
      * destruct L as [L _]. unfold nxt in L. rewrite Hs in L. injection L as ->. reflexivity.
    + assert (C : chain h r' s).
      { unfold linked in L. destruct r'; [exact I|]. exact (proj2 L). }
      refine (chain_ext h _ r' s _ C). intros b I. unfold nxt. rewrite upd_other, upd_other; [reflexivity| |]; intros ->; contradiction.
  - cbn [length]. lia.
Qed.

Lemma good_mark st l s t' l' : good st l -> allowed l (Mark s t') l' ->
  exists st', step st (Mark s t') = Some st' /\ good st' l' /\ r_released st' = r_released st.
Proof.
  intros [Gm Gn (r & Gp & Gl) Gf] A. inversion A as [|l0 s0 t t0 Is| |]; subst. cbn [step]. set (h := r_heap st) in *.
  pose proof Is as Is'. apply Gm in Is. unfold stt in Is. destruct (h s) as [x|] eqn:Hs; [|discriminate].
  eexists. split; [reflexivity|]. split; [|reflexivity].
  assert (Nx : forall b, nxt (upd h s (Some (mkNode (n_next x) t'))) b = nxt h b).
  { intros b. unfold nxt. destruct (N.eq_dec b s) as [->|Bs]; [rewrite upd_same, Hs; reflexivity|rewrite upd_other by exact Bs; reflexivity]. }
  constructor; cbn [r_heap r_made].
  - intros b t1. cbn [In]. rewrite in_without. unfold stt. destruct (N.eq_dec b s) as [->|Bs].
    + rewrite upd_same. cbn [n_status]. split; [intros [[= <-]|[_ F]]; [reflexivity|congruence]|intros [= <-]; auto].
    + rewrite upd_other by exact Bs. rewrite (Gm b t1). split; [intros [[= E _]|[I _]]; [congruence|exact I]|]. auto.
  - cbn [map fst]. constructor; [|apply nodup_without; exact Gn]. intros I. apply mem_fst in I. destruct I as (t1 & I).
    apply in_without in I. destruct I; congruence.
  - exists r. split.
    + cbn [map fst]. rewrite Gp. clear - Gn Is'.
      assert (I : In s (map fst l)) by (apply mem_fst; eauto). apply in_split in I. destruct I as (l1 & l2 & E).
      assert (P : Permutation (s :: l1 ++ l2) (map fst l)) by (rewrite E; apply Permutation_middle).
      rewrite <- P. apply perm_skip. apply perm_without; assumption.
    + unfold linked in *. destruct r as [|b r]; [exact I|]. destruct r as [|c r]; [rewrite Nx; exact Gl|].
      refine (chain_ext h _ _ _ _ Gl). intros; apply Nx.
  - cbn [length]. pose proof (length_without _ _ _ Is'). lia.
Qed.

Lemma last_split {A} (x : A) l : exists l1, x :: l = l1 ++ [last (x :: l) x].
Proof. exists (removelast (x :: l)). apply app_removelast_last. discriminate. Qed.

Lemma nodup_app_disj {A} (a b : list A) x : NoDup (a ++ b) -> In x a -> ~ In x b.
Proof.
  induction a as [|y a IH]; [intros _ []|]. cbn [app]. intros ND [-> | I]; inversion ND as [|? ? N1 ND1]; subst.
  - intros I. apply N1. apply in_or_app. right; exact I.
  - apply IH; assumption.
Qed.

Lemma good_free st l s l' : good st l -> allowed l (Free s) l' ->
  exists st', step st (Free s) = Some st' /\ good st' l'
    /\ r_released st' = r_released st + match l' with [] => 1 | _ => 0 end.
Proof.
  intros [Gm Gn (r & Gp & Gl) Gf] A. set (h := r_heap st) in *.
  assert (Is : exists t, In (s, t) l) by (inversion A; eauto). destruct Is as [t Is].
  assert (Ir : In s r) by (eapply Permutation_in; [apply Permutation_sym; exact Gp|apply mem_fst; eauto]).
  destruct (rotate _ _ _ Gl Ir) as (r' & P & L).
  assert (Pl : Permutation (s :: r') (map fst l)) by (etransitivity; [apply Permutation_sym; exact P|exact Gp]).
  assert (ND : NoDup (s :: r')) by (eapply Permutation_NoDup; [apply Permutation_sym; exact Pl|exact Gn]).
  pose proof (perm_without s l r' Pl Gn) as Pw. inversion ND as [|? ? Ns ND']; subst.
  assert (Len : length l = S (length r')).
  { pose proof (Permutation_length Pl) as E. cbn [length] in E. rewrite map_length in E. lia. }
  assert (St : forall a t', In (a, t') (without s l) -> In a r' /\ stt h a = Some t').
  { intros a t' I. split; [eapply Permutation_in; [apply Permutation_sym; exact Pw|apply mem_fst; eauto]|].
    apply in_without in I. apply Gm. tauto. }
  assert (St' : forall a, In a r' -> exists t', In (a, t') (without s l) /\ stt h a = Some t').
  { intros a I. assert (J : In a (map fst (without s l))) by (eapply Permutation_in; [exact Pw|exact I]).
    apply mem_fst in J. destruct J as (t' & J). exists t'. split; [exact J|]. apply (St _ _ J). }
  assert (Ex : existsb (nonstarting h) r' = false <-> only_starting (without s l)).
  { split.
    - intros E [a t'] I. destruct (St a t' I) as [Ia Sa]. cbn [snd]. unfold stt in Sa.
      destruct (h a) as [x|] eqn:Ha; [|discriminate]. injection Sa as <-.
      assert (F : nonstarting h a = false).
      { destruct (nonstarting h a) eqn:F; [|reflexivity]. exfalso. assert (G : existsb (nonstarting h) r' = true) by (apply existsb_exists; eauto). congruence. }
      unfold nonstarting in F. rewrite Ha in F. destruct (n_status x); [reflexivity|discriminate..].
    - intros O. apply not_true_is_false. intros E. apply existsb_exists in E. destruct E as (a & Ia & F).
      destruct (St' a Ia) as (t' & J & Sa). apply O in J. cbn [snd] in J. subst t'. unfold stt, nonstarting in *.
      destruct (h a) as [x|]; [|discriminate]. injection Sa as Sa. rewrite Sa in F. discriminate. }
  pose proof (proj1 (Gm s t) Is) as Ss. unfold stt in Ss. destruct (h s) as [x|] eqn:Hs; [|discriminate].
  cbn [step]. unfold free_session. fold h. rewrite Hs.
  destruct r' as [|n r'].
  - (* alone *)
    unfold linked, nxt in L. rewrite Hs in L. injection L as Nx. rewrite Nx.
    eexists. split; [reflexivity|]. cbn [r_released].
    assert (W : without s l = []) by (apply Permutation_nil in Pw; destruct (without s l); [reflexivity|discriminate]).
    assert (E : l' = []) by (inversion A as [| | |l0 s0 t0 I0 N0]; subst; [reflexivity|exact W]). subst l'.
    split; [|lia]. constructor; cbn [r_heap r_made map length]; [| constructor | exists []; split; [constructor|exact I] | lia].
    intros a t'. split; [intros []|]. unfold stt. destruct (N.eq_dec a s) as [->|As]; [rewrite upd_same; discriminate|].
    rewrite upd_other by exact As. intros H. exfalso. assert (J : In (a, t') (without s l)) by (apply in_without; split; [apply Gm; exact H|exact As]).
    rewrite W in J. exact J.
  - pose proof L as C. unfold linked in C. destruct C as [Hn C]. pose proof Hn as Hn'. unfold nxt in Hn'. rewrite Hs in Hn'. injection Hn' as Hn'.
    rewrite Hn'. cbn [hd].
    assert (Sc := scan_spec h s (n :: r') (S (r_made st)) C Ns ltac:(cbn [length] in *; lia)). cbn [hd] in Sc. rewrite Sc.
    destruct (existsb (nonstarting h) (n :: r')) eqn:E.
    + (* others remain *)
      assert (No : ~ only_starting (without s l)) by (rewrite <- Ex; discriminate).
      assert (El : l' = without s l) by (inversion A; subst; [contradiction|reflexivity]). subst l'.
      assert (Pv : find_prev (S (r_made st)) h s n = Some (last (n :: r') n)).
      { apply prev_spec; [exact C|intros I; apply Ns; right; exact I|cbn [length] in *; lia]. }
      rewrite Pv. set (p := last (n :: r') n) in *.
      destruct (last_split n r') as (q & Eq). fold p in Eq.
      assert (Ip : In p (n :: r')) by (rewrite Eq; apply in_or_app; right; left; reflexivity).
      assert (Nps : p <> s) by (intros ->; contradiction).
      destruct (St' p Ip) as (tp & _ & Sp). unfold stt in Sp. destruct (h p) as [xp|] eqn:Hp; [|discriminate].
      unfold set_next. rewrite Hp. eexists. split; [reflexivity|]. cbn [r_released].
      split; [|destruct (without s l) eqn:W; [exfalso; apply No; intros y []|lia]].
      constructor; cbn [r_heap r_made].
      * intros a t'. rewrite in_without. unfold stt. destruct (N.eq_dec a s) as [->|As].
        -- rewrite upd_same. split; [tauto|discriminate].
        -- rewrite upd_other by exact As. rewrite (Gm a t'). destruct (N.eq_dec a p) as [->|Ap].
           ++ rewrite upd_same. cbn [n_status]. unfold stt. rewrite Hp. split; [intros [[= <-] _]; reflexivity|intros [= <-]; auto].
           ++ rewrite upd_other by exact Ap. fold (stt h a). tauto.
      * apply nodup_without. exact Gn.
      * exists (n :: r'). split; [exact Pw|].
        destruct r' as [|m r'].
        -- unfold linked. assert (p = n) by reflexivity. subst p. unfold nxt. rewrite upd_other by exact Nps.
           change (last [n] n) with n in *. rewrite upd_same. cbn [n_next]. rewrite N.eqb_refl. reflexivity.
        -- assert (Nnp : n <> p).
           { intros F. apply NoDup_cons_iff in ND'. destruct ND' as [M1 _]. apply M1. rewrite F at 1. unfold p.
             change (last (n :: m :: r') n) with (last (m :: r') n). destruct (@exists_last N (m :: r') ltac:(discriminate)) as (k & z & ->).
             rewrite last_last. apply in_or_app. right; left; reflexivity. }
           unfold linked. rewrite Eq. rewrite Eq in C, ND', Ns. apply chain_app in C. destruct C as [C1 C2]. cbn [hd] in C1.
           apply chain_app. cbn [hd chain]. split.
           ++ refine (chain_ext h _ q p _ C1). intros b Ib. unfold nxt. rewrite upd_other, upd_other; [reflexivity| |].
              ** intros ->. apply (nodup_app_disj _ _ _ ND' Ib). left; reflexivity.
              ** intros ->. apply Ns. apply in_or_app. left; exact Ib.
           ++ split; [|exact I]. unfold nxt. rewrite upd_other by exact Nps. rewrite upd_same. cbn [n_next].
              apply N.eqb_neq in Nnp. rewrite Nnp. reflexivity.
      * pose proof (length_without _ _ _ Is). lia.
    + (* the others are only starting *)
      assert (O : only_starting (without s l)) by (apply Ex; reflexivity).
      assert (El : l' = []) by (inversion A; subst; [reflexivity|contradiction]). subst l'.
      destruct (drop_spec s r' h (S (r_made st)) n L ND ltac:(cbn [length] in *; lia)) as (h' & D & R1 & R2 & R3).
      rewrite D. eexists. split; [reflexivity|]. cbn [r_released]. split; [|lia].
      constructor; cbn [r_heap r_made map length]; [| constructor | exists []; split; [constructor|exact I] | lia].
      intros a t'. split; [intros []|]. unfold stt. destruct (N.eq_dec a s) as [->|As]; [rewrite upd_same; discriminate|].
      rewrite upd_other by exact As. destruct (in_dec N.eq_dec a (n :: r')) as [Ia|Na]; [rewrite R1 by exact Ia; discriminate|].
      rewrite R2 by assumption. intros H. exfalso. apply Na. apply (St a t'). apply in_without. split; [apply Gm; exact H|exact As].
Qed.

Lemma good_first s : good (first s) [(s, RStarting)].
Proof.
  constructor; cbn [first r_heap r_made length].
  - intros a t. cbn [In]. unfold stt. destruct (N.eq_dec a s) as [->|As].
    + rewrite upd_same. cbn [n_status]. split; [intros [[= <-]|[]]; reflexivity|intros [= <-]; auto].
    + rewrite upd_other by exact As. split; [intros [[= E _]|[]]; congruence|discriminate].
  - repeat constructor. intros [].
  - exists [s]. split; [apply Permutation_refl|]. unfold linked, nxt. rewrite upd_same. reflexivity.
  - lia.
Qed.

Lemma chain_nth h : forall r z, chain h r z ->
  (forall i a b, nth_error r i = Some a -> nth_error r (S i) = Some b -> next_is h a (Some b))
  /\ (forall d, r <> [] -> next_is h (last r d) (Some z)).
Proof.
  induction r as [|x r IH]; intros z C.
  - split; [intros [|i] a b; discriminate|intros d F; congruence].
  - destruct C as [H C]. destruct (IH z C) as [I1 I2]. split.
    + intros [|i] a b; [|apply I1]. cbn [nth_error]. intros [= <-] E. destruct r as [|y r]; [discriminate|]. injection E as <-.
      apply nxt_some in H. destruct H as (v & Hv & Nv). exists v. auto.
    + intros d _. destruct r as [|y r]; [apply nxt_some in H; destruct H as (v & Hv & Nv); exists v; auto|].
      change (last (x :: y :: r) d) with (last (y :: r) d). apply I2. discriminate.
Qed.

Lemma good_one_ring st l : good st l -> one_ring (r_heap st) l.
Proof.
  intros [Gm Gn (r & Gp & Gl) Gf]. split.
  { intros a t. rewrite (Gm a t). unfold stt. destruct (r_heap st a) as [x|]; split; try discriminate.
    - intros [= <-]. eauto.
    - intros (y & [= <-] & <-). reflexivity.
    - intros (y & F & _). discriminate. }
  split; [exact Gn|]. exists r. split; [exact Gp|]. unfold linked in Gl. destruct r as [|a [|b r]]; [exact I| |].
  - apply nxt_some in Gl. destruct Gl as (x & Hx & Nx). exists x. auto.
  - destruct (chain_nth _ _ _ Gl) as [I1 I2]. split; [exact I1|]. apply I2. discriminate.
Qed.

(* ------------------------------------------------------------------ *)
(** ** C35 *)

(** Whatever channels are opened, sessions accepted, found broken and freed, and whichever session of the ring is
    used for it: no loop fails or follows a bad pointer, the sessions in memory are exactly those made and not
    freed, they form one ring, and the connection was released once if none is left and not at all otherwise. *)
Theorem c35_ring s os l :
  history [(s, RStarting)] os l ->
  exists st, steps (first s) os = Some st /\ one_ring (r_heap st) l
    /\ r_released st = match l with [] => 1 | _ => 0 end.
Proof.
  assert (G : forall st l0, good st l0 -> l0 <> [] -> r_released st = 0 -> forall os l, history l0 os l ->
     exists st', steps st os = Some st' /\ good st' l /\ r_released st' = match l with [] => 1 | _ => 0 end).
  { intros st l0 G Ne R os' l' H. revert st G Ne R. induction H as [l0|l0 o l1 os' l2 A H IH]; intros st G Ne R; cbn [steps].
    - exists st. split; [reflexivity|]. split; [exact G|]. destruct l0; [congruence|exact R].
    - assert (S1 : exists st1, step st o = Some st1 /\ good st1 l1 /\ r_released st1 = match l1 with [] => 1 | _ => 0 end).
      { destruct o as [s0 a|s0 t|s0].
        - destruct (good_open _ _ _ _ _ G A) as (st1 & S1 & G1 & R1). exists st1. rewrite R1, R. inversion A; subst. auto.
        - destruct (good_mark _ _ _ _ _ G A) as (st1 & S1 & G1 & R1). exists st1. rewrite R1, R. inversion A; subst. auto.
        - destruct (good_free _ _ _ _ G A) as (st1 & S1 & G1 & R1). exists st1. rewrite R1, R. auto. }
      destruct S1 as (st1 & -> & G1 & R1). destruct l1 as [|y l1].
      + inversion H as [|? o' ? os0 ? A' H']; subst; [exists st1; auto|]. exfalso. inversion A'; subst; contradiction.
      + apply IH; [exact G1|discriminate|exact R1]. }
  intros H. destruct (G (first s) _ (good_first s) ltac:(discriminate) eq_refl os l H) as (st & E & Gd & R).
  exists st. split; [exact E|]. split; [apply good_one_ring; exact Gd|exact R].
Qed.

(** The histories are not restricted further: any message for, change of, or free of an existing session. *)
Theorem c35_any_history l s t : In (s, t) l ->
  (forall a, (forall t', ~ In (a, t') l) -> exists l', allowed l (Open s a) l')
  /\ (forall t', exists l', allowed l (Mark s t') l') /\ exists l', allowed l (Free s) l'.
Proof.
  intros I. split; [|split].
  - intros a F. eexists. eapply al_open; eauto.
  - intros t'. eexists. eapply al_mark; eauto.
  - destruct (forallb (fun x => starting (snd x)) (without s l)) eqn:E.
    + exists []. eapply al_free_last; eauto. intros x J. rewrite forallb_forall in E. specialize (E x J).
      destruct (snd x); [reflexivity|discriminate..].
    + exists (without s l). eapply al_free; eauto. intros O. assert (F : forallb (fun x => starting (snd x)) (without s l) = true).
      { apply forallb_forall. intros x J. rewrite (O x J). reflexivity. }
      congruence.
Qed.

(** Three sessions; the first is freed, then one that is running with one starting left. *)
Example c35_case :
  exists st, steps (first 1) [Mark 1 RRunning; Open 1 2; Mark 2 RRunning; Open 2 3; Free 1; Open 2 1; Free 2] = Some st
    /\ r_released st = 1 /\ r_heap st 1 = None /\ r_heap st 2 = None /\ r_heap st 3 = None.
Proof. eexists. split; [vm_compute; reflexivity|]. repeat split. Qed.

Example c35_case_ring :
  exists st, steps (first 1) [Mark 1 RRunning; Open 1 2; Mark 2 RRunning; Open 2 3; Mark 3 RRunning; Free 1] = Some st
    /\ r_released st = 0 /\ next_is (r_heap st) 2 (Some 3) /\ next_is (r_heap st) 3 (Some 2) /\ r_heap st 1 = None
    /\ history [(1, RStarting)] [Mark 1 RRunning; Open 1 2; Mark 2 RRunning; Open 2 3; Mark 3 RRunning; Free 1]
         [(3, RRunning); (2, RRunning)].
Proof.
  eexists. split; [vm_compute; reflexivity|]. split; [reflexivity|]. split; [eexists; split; reflexivity|].
  split; [eexists; split; reflexivity|]. split; [reflexivity|].
  eapply hi_cons; [eapply al_mark; left; reflexivity|]. cbn.
  eapply hi_cons; [eapply al_open; [left; reflexivity|intros t' [F|[]]; discriminate]|].
  eapply hi_cons; [eapply al_mark; left; reflexivity|]. cbn.
  eapply hi_cons; [eapply al_open; [left; reflexivity|intros t' [F|[F|[]]]; discriminate]|].
  eapply hi_cons; [eapply al_mark; left; reflexivity|]. cbn.
  eapply hi_cons; [eapply al_free; [right; right; left; reflexivity|]|apply hi_nil].
  intros O. specialize (O (3, RRunning) (or_introl eq_refl)). discriminate.
Qed.

(** A starting session that is just being accepted is not protected: it can be freed with the last running one
    while [nc_session_accept_ssh_channel] goes on with it. *)
Theorem c35_accept_refuted :
  exists os st, steps (first 1) os = Some st /\ (exists x, r_heap st 2 = Some x /\ n_status x = RStarting)
    /\ exists st', step st (Free 1) = Some st' /\ step st' (Mark 2 RRunning) = None.
Proof.
  exists [Mark 1 RRunning; Open 1 2]. eexists. split; [vm_compute; reflexivity|].
  split; [eexists; split; reflexivity|]. eexists. split; [vm_compute; reflexivity|]. reflexivity.
Qed.

Print Assumptions c35_ring.
Print Assumptions c35_any_history.
Print Assumptions c35_accept_refuted.
