(** C292: the memory of what is known of the modules of a server. *)
From Coq Require Import Arith Bool Lia List Permutation.
From Verif Require Import MiMem.
Import ListNotations.

(* ------------------------------------------------------------------ *)
(** ** Specification *)

(** Blocks in use are distinct and were given out before. *)
Definition sound (m : mem) : Prop := NoDup (m_live m) /\ forall b, In b (m_live m) -> b < m_next m.

(** The same blocks are in use and nothing more was freed wrongly. *)
Definition same (m m' : mem) : Prop := Permutation (m_live m') (m_live m) /\ m_bad m' = m_bad m.

(** Full statement: whatever allocations fail, building is defined and what was built can be released entirely. *)
Definition c292_full : Prop := forall al cs m, sound m ->
  match build_module_info_cpblts al cs m with
  | (m', Ret i) => same m (free_module_info (Some i) m')
  | (m', NoMem) => same m (free_module_info None m')
  | (_, NullDeref) => False
  end.

(* ------------------------------------------------------------------ *)
(** ** Blocks *)

Lemma existsb_in b l : In b l -> existsb (Nat.eqb b) l = true.
Proof. intros I. apply existsb_exists. exists b. split; [exact I|apply Nat.eqb_refl]. Qed.

Lemma filter_none b (l : list nat) : ~ In b l -> filter (fun c => negb (Nat.eqb c b)) l = l.
Proof.
  induction l as [|c l IH]; intros H; [reflexivity|]. cbn [filter]. destruct (Nat.eqb_spec c b) as [E|E].
  - exfalso. apply H. now left.
  - cbn [negb]. f_equal. apply IH. intros I. apply H. now right.
Qed.

Lemma filter_perm (f : nat -> bool) l l' : Permutation l l' -> Permutation (filter f l) (filter f l').
Proof.
  induction 1; cbn [filter].
  - constructor.
  - destruct (f x); [now constructor|assumption].
  - destruct (f x), (f y); try apply Permutation_refl. apply perm_swap.
  - eapply Permutation_trans; eassumption.
Qed.

(** The blocks in use are [l] and no other, each of them once. *)
Definition holds (l : list nat) (m : mem) : Prop := Permutation (m_live m) l /\ sound m.

Lemma free_holds b l m : holds (b :: l) m -> holds l (free (Some b) m) /\ m_bad (free (Some b) m) = m_bad m.
Proof.
  intros (P & N & W). unfold free, holds, sound. cbn [m_live m_next m_bad].
  assert (NB : NoDup (b :: l)) by (eapply Permutation_NoDup; eassumption). inversion NB as [|x y NI ND]; subst.
  split.
  - split.
    + eapply Permutation_trans; [apply filter_perm; exact P|]. cbn [filter]. rewrite Nat.eqb_refl. cbn [negb].
      rewrite filter_none by exact NI. apply Permutation_refl.
    + split; [now apply NoDup_filter|]. intros c I. apply filter_In in I. apply W, I.
  - rewrite existsb_in; [cbn; apply orb_false_r|]. eapply Permutation_in; [apply Permutation_sym; exact P|now left].
Qed.

Lemma holds_perm l l' m : Permutation l l' -> holds l m -> holds l' m.
Proof. intros P (Q & W). split; [eapply Permutation_trans; eassumption|exact W]. Qed.

Lemma malloc_holds al l m : holds l m ->
  match malloc al m with
  | (m', Some b) => holds (b :: l) m' /\ m_bad m' = m_bad m /\ al (m_next m) = true
  | (m', None) => holds l m' /\ m_bad m' = m_bad m /\ al (m_next m) = false
  end.
Proof.
  intros (P & N & W). unfold malloc. destruct (al (m_next m)) eqn:A; cbn [m_bad].
  - split; [|auto]. split; [cbn; now constructor|]. split; cbn [m_live m_next].
    + constructor; [intros I; specialize (W _ I); lia|exact N].
    + intros b [<-|I]; [lia|]. specialize (W _ I). lia.
  - split; [|auto]. split; [exact P|]. split; [exact N|]. intros b I. cbn [m_next m_live] in *. specialize (W _ I). lia.
Qed.

Definition opt (p : option nat) : list nat := match p with Some b => [b] | None => [] end.

Lemma realloc_holds al p l m : holds (opt p ++ l) m ->
  match nc_realloc al p m with
  | (m', Some c) => holds (c :: l) m' /\ m_bad m' = m_bad m
  | (m', None) => holds l m' /\ m_bad m' = m_bad m /\ exists i, al i = false
  end.
Proof.
  intros H. unfold nc_realloc. pose proof (malloc_holds al _ m H) as M. destruct (malloc al m) as [m1 [c|]].
  - destruct M as (H1 & B1 & _). destruct p as [b|]; cbn [opt app free] in *.
    + destruct (free_holds b (c :: l) m1) as [H2 B2]; [eapply holds_perm; [apply perm_swap|exact H1]|]. split; [exact H2|]. unfold free in B2. congruence.
    + auto.
  - destruct M as (H1 & B1 & A). destruct p as [b|]; cbn [opt app free] in *.
    + destruct (free_holds b l m1 H1) as [H2 B2]. split; [exact H2|]. unfold free in B2. split; [congruence|eauto].
    + split; [exact H1|]. eauto.
Qed.

(* ------------------------------------------------------------------ *)
(** ** What is owned *)

Definition feat_blocks (f : option (nat * list (option nat))) : list nat :=
  match f with Some (a, fs) => a :: concat (map opt fs) | None => [] end.
Definition entry_blocks (e : entry) : list nat := opt (e_name e) ++ opt (e_rev e) ++ feat_blocks (e_feats e).
Definition blocks (l : list entry) : list nat := concat (map entry_blocks l).

Lemma add_feats_holds al n : forall arr fs l m,
  (arr = None -> fs = []) -> holds (opt arr ++ concat (map opt fs) ++ l) m ->
  match add_feats al n arr fs m with
  | (m', Some f) => holds (feat_blocks f ++ l) m' /\ m_bad m' = m_bad m
  | (m', None) => exists i, al i = false
  end.
Proof.
  induction n as [|n IH]; intros arr fs l m C H; cbn [add_feats].
  - destruct arr as [a|]; [split; [exact H|reflexivity]|]. rewrite (C eq_refl) in H. split; [exact H|reflexivity].
  - pose proof (realloc_holds al arr _ m H) as R. destruct (nc_realloc al arr m) as [m1 [a|]].
    + destruct R as [H1 B1]. pose proof (malloc_holds al _ m1 H1) as M. destruct (malloc al m1) as [m2 f].
      specialize (IH (Some a) (fs ++ [f]) l m2). rewrite map_app, concat_app in IH. cbn [map concat] in IH. rewrite app_nil_r in IH.
      destruct f as [f|]; destruct M as (H2 & B2 & _).
      * specialize (IH ltac:(discriminate)). cbn [opt app] in IH.
        assert (Q : holds (a :: (concat (map opt fs) ++ [f]) ++ l) m2).
        { eapply holds_perm; [|exact H2]. rewrite <- app_assoc. cbn [app].
          eapply Permutation_trans; [apply perm_swap|]. constructor. apply Permutation_middle. }
        specialize (IH Q). destruct (add_feats al n (Some a) (fs ++ [Some f]) m2) as [m3 [g|]]; [|exact IH].
        split; [exact (proj1 IH)|]. rewrite (proj2 IH). congruence.
      * specialize (IH ltac:(discriminate)). cbn [opt app] in IH. rewrite app_nil_r in IH. specialize (IH H2).
        destruct (add_feats al n (Some a) (fs ++ [None]) m2) as [m3 [g|]]; [|exact IH].
        split; [exact (proj1 IH)|]. rewrite (proj2 IH). congruence.
    + destruct R as (_ & _ & i & A). eauto.
Qed.

Lemma build_one_holds al rev feats l m : holds l m ->
  match build_one al rev feats m with
  | (m', Some e) => holds (entry_blocks e ++ l) m' /\ m_bad m' = m_bad m
  | (m', None) => exists i, al i = false
  end.
Proof.
  intros H. unfold build_one. pose proof (malloc_holds al l m H) as M. destruct (malloc al m) as [m1 n].
  assert (H1 : holds (opt n ++ l) m1 /\ m_bad m1 = m_bad m) by (destruct n; split; apply M). clear M. destruct H1 as [H1 B1].
  assert (R : let (m2, r) := if rev then malloc al m1 else (m1, None) in holds (opt r ++ opt n ++ l) m2 /\ m_bad m2 = m_bad m1).
  { destruct rev; [|split; [exact H1|reflexivity]]. pose proof (malloc_holds al _ m1 H1) as M. destruct (malloc al m1) as [m2 [r|]]; split; apply M. }
  destruct (if rev then malloc al m1 else (m1, None)) as [m2 r]. destruct R as [H2 B2].
  assert (P : forall f, Permutation (f ++ opt r ++ opt n ++ l) ((opt n ++ opt r ++ f) ++ l)).
  { intros f. rewrite !app_assoc. apply Permutation_app_tail. eapply Permutation_trans; [apply Permutation_app_comm|].
    rewrite <- app_assoc. apply Permutation_app_head, Permutation_app_comm. }
  destruct feats as [k|].
  - pose proof (add_feats_holds al (S k) None [] (opt r ++ opt n ++ l) m2 ltac:(reflexivity) H2) as F.
    destruct (add_feats al (S k) None [] m2) as [m3 [f|]]; [|exact F]. destruct F as [H3 B3]. split; [|congruence].
    eapply holds_perm; [apply P|exact H3].
  - split; [|congruence]. eapply holds_perm; [exact (P [])|exact H2].
Qed.

Lemma build_all_holds al : forall cs l m, holds l m ->
  match build_all al cs m with
  | (m', Some es) => holds (blocks es ++ l) m' /\ m_bad m' = m_bad m
  | (m', None) => exists i, al i = false
  end.
Proof.
  induction cs as [|[[rev feats]|] cs IH]; intros l m H; cbn [build_all].
  - split; [exact H|reflexivity].
  - pose proof (build_one_holds al rev feats l m H) as O. destruct (build_one al rev feats m) as [m1 [e|]]; [|exact O].
    destruct O as [H1 B1]. specialize (IH _ m1 H1). destruct (build_all al cs m1) as [m2 [es|]]; [|exact IH].
    destruct IH as [H2 B2]. split; [|congruence]. unfold blocks. cbn [map concat]. eapply holds_perm; [|exact H2].
    fold (blocks es). rewrite !app_assoc. apply Permutation_app_tail, Permutation_app_comm.
  - apply IH, H.
Qed.

(* ------------------------------------------------------------------ *)
(** ** Releasing *)

(** Nothing is missing before the end: every entry has its name and all of its features. *)
Definition whole (e : entry) : Prop :=
  e_name e <> None /\ match e_feats e with Some (_, fs) => forall f, In f fs -> f <> None | None => True end.

Lemma free_feats_holds : forall fs l m, (forall f, In f fs -> f <> None) -> holds (concat (map opt fs) ++ l) m ->
  holds l (free_feats fs m) /\ m_bad (free_feats fs m) = m_bad m.
Proof.
  induction fs as [|[f|] fs IH]; intros l m A H; cbn [free_feats map concat opt app] in *.
  - auto.
  - destruct (free_holds f _ m H) as [H1 B1]. destruct (IH l _ (fun x I => A x (or_intror I)) H1) as [H2 B2]. split; [exact H2|congruence].
  - exfalso. apply (A None); [now left|reflexivity].
Qed.

Lemma free_entries_holds : forall es l m, (forall e, In e es -> whole e) -> holds (blocks es ++ l) m ->
  holds l (free_entries es m) /\ m_bad (free_entries es m) = m_bad m.
Proof.
  induction es as [|e es IH]; intros l m A H; cbn [free_entries]; [auto|].
  destruct (A e (or_introl eq_refl)) as [N F]. destruct (e_name e) as [n|] eqn:En; [|congruence].
  unfold blocks in H. cbn [map concat] in H. fold (blocks es) in H. unfold entry_blocks in H. rewrite En, <- !app_assoc in H. cbn [opt app] in H.
  destruct (free_holds n _ m H) as [H1 B1]. set (m1 := free (Some n) m) in *. cbv zeta.
  assert (R : holds (feat_blocks (e_feats e) ++ blocks es ++ l) (free (e_rev e) m1) /\ m_bad (free (e_rev e) m1) = m_bad m1).
  { destruct (e_rev e) as [r|]; cbn [opt app] in H1; [now apply free_holds|auto]. }
  destruct R as [H2 B2]. set (m2 := free (e_rev e) m1) in *.
  assert (G : let m3 := match e_feats e with Some (a, fs) => free (Some a) (free_feats fs m2) | None => m2 end in
              holds (blocks es ++ l) m3 /\ m_bad m3 = m_bad m2).
  { destruct (e_feats e) as [[a fs]|]; cbn [feat_blocks app] in H2; [|auto].
    destruct (free_feats_holds fs (a :: blocks es ++ l) m2 F) as [H3 B3].
    { eapply holds_perm; [|exact H2]. apply Permutation_middle. }
    destruct (free_holds a _ _ H3) as [H4 B4]. split; [exact H4|congruence]. }
  cbv zeta in G. destruct G as [H3 B3]. destruct (IH l _ (fun x I => A x (or_intror I)) H3) as [H4 B4]. split; [exact H4|congruence].
Qed.

(* ------------------------------------------------------------------ *)
(** ** C292 *)

(** Whichever allocations fail, if what was built misses neither a name nor a feature, releasing it returns all of the
    memory and nothing else; if nothing was built, nothing is kept. *)
Theorem c292_released_partial al cs m : sound m ->
  match build_module_info_cpblts al cs m with
  | (m', Ret i) => (forall e, In e (i_entries i) -> whole e) -> same m (free_module_info (Some i) m')
  | (m', NoMem) => same m (free_module_info None m')
  | (_, NullDeref) => exists b, al b = false
  end.
Proof.
  intros W. unfold build_module_info_cpblts. assert (H : holds (m_live m) m) by (split; [apply Permutation_refl|exact W]).
  pose proof (malloc_holds al _ m H) as M. destruct (malloc al m) as [m1 [a|]].
  - destruct M as (H1 & B1 & _). pose proof (build_all_holds al cs _ m1 H1) as A. destruct (build_all al cs m1) as [m2 [l|]]; [|exact A].
    destruct A as [H2 B2]. cbn [i_entries free_module_info i_array]. intros F.
    destruct (free_entries_holds l _ m2 F H2) as [H3 B3]. destruct (free_holds a _ _ H3) as [H4 B4]. split; [exact (proj1 H4)|congruence].
  - destruct M as (H1 & B1 & _). split; [exact (proj1 H1)|exact B1].
Qed.

Lemma add_feats_all n : forall al arr fs m, (forall b, al b = true) -> (forall f, In f fs -> f <> None) ->
  exists a l m', add_feats al (S n) arr fs m = (m', Some (Some (a, l))) /\ (forall f, In f l -> f <> None) /\ length l = (length fs + S n)%nat.
Proof.
  induction n as [|n IH]; intros al arr fs m A F; cbn [add_feats]; unfold nc_realloc, malloc; rewrite A; cbv beta iota zeta; rewrite A.
  - eexists _, _, _. split; [reflexivity|]. split; [|rewrite app_length; cbn; lia]. intros f I. apply in_app_or in I.
    destruct I as [I|[<-|[]]]; [now apply F|discriminate].
  - destruct (IH al (Some (m_next m)) (fs ++ [Some (m_next (free arr {| m_live := m_next m :: m_live m; m_next := S (m_next m); m_bad := m_bad m |}))])
      {| m_live := m_next (free arr {| m_live := m_next m :: m_live m; m_next := S (m_next m); m_bad := m_bad m |}) ::
                   m_live (free arr {| m_live := m_next m :: m_live m; m_next := S (m_next m); m_bad := m_bad m |});
         m_next := S (m_next (free arr {| m_live := m_next m :: m_live m; m_next := S (m_next m); m_bad := m_bad m |}));
         m_bad := m_bad (free arr {| m_live := m_next m :: m_live m; m_next := S (m_next m); m_bad := m_bad m |}) |} A) as (a & l & m' & E & G & L).
    { intros f I. apply in_app_or in I. destruct I as [I|[<-|[]]]; [now apply F|discriminate]. }
    exists a, l, m'. split; [exact E|]. split; [exact G|]. rewrite L, app_length. cbn. lia.
Qed.

(** What is known of the modules: as many entries as capabilities with a module, in their order, each with a revision if
    there was one and with all of its features. *)
Definition matches (c : bool * option nat) (e : entry) : Prop :=
  whole e /\ (e_rev e <> None <-> fst c = true) /\
  match snd c, e_feats e with Some k, Some (_, fs) => length fs = S k | None, None => True | _, _ => False end.

Fixpoint with_module (cs : list cap) : list (bool * option nat) :=
  match cs with [] => [] | Some c :: cs => c :: with_module cs | None :: cs => with_module cs end.

Lemma build_all_whole al : (forall b, al b = true) -> forall cs m,
  exists l m', build_all al cs m = (m', Some l) /\ Forall2 matches (with_module cs) l.
Proof.
  intros A. induction cs as [|[[rev feats]|] cs IH]; intros m; cbn [build_all with_module].
  - eexists _, _. split; [reflexivity|constructor].
  - assert (O : exists e m', build_one al rev feats m = (m', Some e) /\ matches (rev, feats) e).
    { unfold build_one. unfold malloc at 1. rewrite A.
      assert (Q : exists r m2, (if rev then malloc al {| m_live := m_next m :: m_live m; m_next := S (m_next m); m_bad := m_bad m |}
          else ({| m_live := m_next m :: m_live m; m_next := S (m_next m); m_bad := m_bad m |}, None)) = (m2, r) /\ (r <> None <-> rev = true)).
      { destruct rev; [unfold malloc; rewrite A|]; eexists _, _; (split; [reflexivity|]); split; congruence. }
      destruct Q as (r & m2 & -> & R). destruct feats as [k|].
      - destruct (add_feats_all k al None [] m2 A ltac:(intros f [])) as (a & l & m' & -> & G & L).
        eexists _, _. split; [reflexivity|]. split; [split; [discriminate|exact G]|]. split; [exact R|exact L].
      - eexists _, _. split; [reflexivity|]. split; [split; [discriminate|exact I]|]. split; [exact R|exact I]. }
    destruct O as (e & m1 & -> & M). destruct (IH m1) as (l & m2 & -> & F). eexists _, _. split; [reflexivity|]. now constructor.
  - apply IH.
Qed.

(** With memory all of this is there and is released. *)
Theorem c292_memory al cs m : sound m -> (forall b, al b = true) ->
  exists i m', build_module_info_cpblts al cs m = (m', Ret i) /\ Forall2 matches (with_module cs) (i_entries i) /\
               same m (free_module_info (Some i) m').
Proof.
  intros W A. pose proof (c292_released_partial al cs m W) as R. unfold build_module_info_cpblts in *. unfold malloc in *. rewrite A in *.
  destruct (build_all_whole al A cs {| m_live := m_next m :: m_live m; m_next := S (m_next m); m_bad := m_bad m |}) as (l & m' & E & F).
  rewrite E in R. rewrite E. eexists _, _. split; [reflexivity|]. split; [exact F|]. apply R. cbn [i_entries]. intros e I.
  clear - F I. induction F as [|c x cs1 l1 M F IH]; [destruct I|]. destruct I as [<-|I]; [exact (proj1 M)|now apply IH].
Qed.

(** A name that could not be copied hides all that follows: it is never released. *)
Theorem c292_refuted : ~ c292_full.
Proof.
  intros H. specialize (H (fun b => negb (Nat.eqb b 1)) [Some (false, None); Some (false, None)] {| m_live := []; m_next := 0; m_bad := false |}).
  destruct H as [P _]; [split; [constructor|intros b []]|]. cbn in P. apply Permutation_length in P. discriminate.
Qed.

(** An array of features that could not be enlarged is used. *)
Theorem c292_null_refuted : exists al m, sound m /\ snd (build_module_info_cpblts al [Some (false, Some 0)] m) = NullDeref.
Proof.
  exists (fun b => negb (Nat.eqb b 2)), {| m_live := []; m_next := 0; m_bad := false |}. split; [split; [constructor|intros b []]|reflexivity].
Qed.

(** Three capabilities, two of them with modules, one with a revision and three features. *)
Example c292_case : let m0 := {| m_live := [7]; m_next := 9; m_bad := false |} in
  let r := build_module_info_cpblts (fun _ => true) [None; Some (true, Some 2); Some (false, None)] m0 in
  sound m0 /\ m_live (fst r) = [18; 17; 16; 15; 13; 11; 10; 9; 7] /\
  snd r = Ret {| i_array := 9; i_entries := [{| e_name := Some 10; e_rev := Some 11; e_feats := Some (16, [Some 13; Some 15; Some 17]) |};
                                             {| e_name := Some 18; e_rev := None; e_feats := None |}] |} /\
  match r with (m, Ret i) => free_module_info (Some i) m = {| m_live := [7]; m_next := 19; m_bad := false |} | _ => False end.
Proof.
  cbv zeta. split; [split; [repeat constructor; intros []|intros b [<-|[]]; cbn; lia]|]. vm_compute. split; [reflexivity|]. split; reflexivity.
Qed.

Print Assumptions c292_released_partial.
Print Assumptions c292_memory.
Print Assumptions c292_refuted.
Print Assumptions c292_null_refuted.
