(** Property C13: the lock of a pollsession structure is a fair mutex. *)
From Coq Require Import NArith Bool Lia List Arith Sorted.
From Verif Require Import PsQueue PsQueueProofs.
Import ListNotations.
Local Open Scope N_scope.

(* ================================================================== *)
(** * Specification: read off a history of calls and their outcomes *)

(** Who is in line, in the order of queueing, each with the number of threads that queued before; and
    how many queued so far. *)
Definition leave (t : thread) (q : list (thread * N)) : list (thread * N) := filter (fun x => negb (Nat.eqb (fst x) t)) q.
Definition lstep (qn : list (thread * N) * N) (x : ev * out) : list (thread * N) * N :=
  let '(q, n) := qn in
  match x with
  | (ELock t, OGot) | (ELock t, OWait) => (q ++ [(t, n)], n + 1)
  | (ETimeout t, OGaveUp) | (EWaitErr t, OGaveUp) | (EUnlock t, OReleased) => (leave t q, n)
  | _ => (q, n)
  end.
Definition line (tr : list (ev * out)) : list (thread * N) := fst (fold_left lstep tr ([], 0)).
Definition arrivals (tr : list (ev * out)) : N := snd (fold_left lstep tr ([], 0)).
(** Who was told to own the structure and has not called unlock since. *)
Definition hstep (h : list thread) (x : ev * out) : list thread :=
  match x with
  | (ELock t, OGot) | (EWake t, OGot) | (ETimeout t, OGot) => t :: h
  | (EUnlock t, _) => filter (fun u => negb (Nat.eqb u t)) h
  | _ => h
  end.
Definition holders (tr : list (ev * out)) : list thread := fold_left hstep tr [].
(** While the first in line stays in line, at most 255 others queue. *)
Definition patient (tr : list (ev * out)) : Prop :=
  forall p r, tr = p ++ r -> match line p with [] => True | (_, n) :: _ => arrivals p <= n + 256 end.
Definition who (e : ev) : thread := match e with ELock t | EWake t | ETimeout t | EWaitErr t | EUnlock t => t end.

(* ================================================================== *)
(** * Invariant *)
Section Proofs.
Variable Q : N.
Hypothesis HQ : 0 < Q <= 255.

(** Ghost entries: thread, arrival number, unbounded id. *)
Definition ent := (thread * N * N)%type.
Definition g_t (g : ent) : thread := fst (fst g).
Definition g_n (g : ent) : N := snd (fst g).
Definition g_v (g : ent) : N := snd g.
Definition g_id (g : ent) : N := g_v g mod 256.
Definition R (g h : ent) : Prop := g_v g < g_v h /\ g_v h + g_n g <= g_n h + g_v g.

Definition thr_of (s : st) (t : thread) : tst := s_thr s t.
Definition is_holding (x : tst) : bool := match x with Holding _ => true | _ => false end.

Record Inv (s : st) (tr : list (ev * out)) (G : list ent) : Prop := {
  i_ring : ring_ok Q (s_ring s);
  i_cont : contents Q (s_ring s) = map g_id G;
  i_line : line tr = map fst G;
  i_arr : forall g, In g G -> g_n g < arrivals tr;
  i_sort : StronglySorted R G;
  i_nodup : NoDup (map g_t G);
  i_idle : forall t, ~ In t (map g_t G) -> s_thr s t = Idle;
  i_busy : forall g, In g G -> (exists w, s_thr s (g_t g) = Waiting (g_id g) w) \/ s_thr s (g_t g) = Holding (g_id g);
  i_head : forall t id, s_thr s t = Holding id -> exists g r, G = g :: r /\ g_t g = t;
  i_hold : holders tr = match G with g :: _ => if is_holding (s_thr s (g_t g)) then [g_t g] else [] | [] => [] end;
  i_woken : (forall t o, ~ In (EWaitErr t, o) tr) -> forall g r, G = g :: r -> is_holding (s_thr s (g_t g)) = false ->
            s_thr s (g_t g) = Waiting (g_id g) true
}.

Lemma line_app tr x : line (tr ++ [x]) = fst (lstep (line tr, arrivals tr) x) /\ arrivals (tr ++ [x]) = snd (lstep (line tr, arrivals tr) x).
Proof.
  unfold line, arrivals. rewrite fold_left_app. cbn [fold_left].
  destruct (fold_left lstep tr ([], 0)) as [q n]. auto.
Qed.
Lemma holders_app tr x : holders (tr ++ [x]) = hstep (holders tr) x.
Proof. unfold holders. now rewrite fold_left_app. Qed.

Lemma patient_prefix p r : patient (p ++ r) -> patient p.
Proof. intros H p' r' ->. apply (H p' (r' ++ r)). now rewrite app_assoc. Qed.

Lemma mod_diff a b : a < b -> b - a <= 255 -> a mod 256 <> b mod 256.
Proof.
  intros H1 H2 E. pose proof (N.div_mod a 256 ltac:(lia)). pose proof (N.div_mod b 256 ltac:(lia)). rewrite E in *.
  assert (a / 256 < b / 256) by nia. nia.
Qed.

Lemma ids_nodup G N0 : StronglySorted R G -> (forall g, In g G -> g_n g < N0) ->
  match G with [] => True | g :: _ => N0 <= g_n g + 256 end -> NoDup (map g_id G).
Proof.
  intros HS HA HP. destruct G as [|g0 G]; [constructor|].
  assert (K : forall g, In g (g0 :: G) -> g_v g0 <= g_v g /\ g_v g + g_n g0 <= g_n g + g_v g0).
  { intros g [<-|Hg]; [lia|]. inversion HS as [|? ? _ HF]. subst. rewrite Forall_forall in HF. destruct (HF g Hg). lia. }
  assert (M : forall g h, In g (g0 :: G) -> In h (g0 :: G) -> R g h -> g_id g <> g_id h).
  { intros g h Hg Hh [H1 H2]. apply mod_diff; [exact H1|]. pose proof (K g Hg). pose proof (K h Hh). pose proof (HA h Hh). lia. }
  assert (W : forall l, StronglySorted R l -> (forall g, In g l -> In g (g0 :: G)) -> NoDup (map g_id l)).
  { induction l as [|g l IH]; intros Hs Hi; [constructor|]. inversion Hs as [|? ? Hs' HF]. subst. cbn [map]. constructor.
    - intros Hin. apply in_map_iff in Hin. destruct Hin as (h & E & Hh). rewrite Forall_forall in HF.
      apply (M g h); [apply Hi; now left|apply Hi; now right|apply HF; exact Hh|now symmetry].
    - apply IH; [exact Hs'|]. intros h Hh. apply Hi. now right. }
  apply W; auto.
Qed.

Lemma nodup_ids s tr G : Inv s tr G -> patient tr -> NoDup (map g_id G).
Proof.
  intros I HP. apply (ids_nodup G (arrivals tr)); [apply I|apply I|].
  specialize (HP tr [] ltac:(now rewrite app_nil_r)). rewrite (i_line _ _ _ I) in HP.
  destruct G as [|[[t n] v] G]; [exact Logic.I|exact HP].
Qed.

Lemma sorted_app G g : StronglySorted R G -> (forall h, In h G -> R h g) -> StronglySorted R (G ++ [g]).
Proof.
  induction 1 as [|h G HS IH HF]; intros H; cbn [app]; [repeat constructor|].
  constructor; [apply IH; intros; apply H; now right|]. apply Forall_app. split; [exact HF|]. constructor; [apply H; now left|constructor].
Qed.
Lemma sorted_mid G1 g G2 : StronglySorted R (G1 ++ g :: G2) -> StronglySorted R (G1 ++ G2).
Proof.
  induction G1 as [|h G1 IH]; cbn [app]; intros H; inversion H as [|? ? H1 H2]; subst; [exact H1|].
  constructor; [now apply IH|]. apply Forall_app in H2. destruct H2 as [Ha Hb]. inversion Hb. subst. apply Forall_app. auto.
Qed.

Lemma leave_mid G1 t n v G2 : NoDup (map g_t (G1 ++ (t, n, v) :: G2)) -> leave t (map fst (G1 ++ (t, n, v) :: G2)) = map fst (G1 ++ G2).
Proof.
  intros H. rewrite !map_app in *. cbn [map fst] in *. unfold leave. rewrite filter_app. cbn [filter fst].
  rewrite Nat.eqb_refl. cbn [negb]. unfold g_t at 2 in H. cbn [fst] in H. apply NoDup_remove_2 in H. rewrite in_app_iff in H.
  assert (K : forall l, ~ In t (map g_t l) -> filter (fun x : thread * N => negb (Nat.eqb (fst x) t)) (map fst l) = map fst l).
  { clear. induction l as [|[[u m] w] l IH]; [reflexivity|]. cbn [map In filter fst]. unfold g_t at 1. cbn [fst]. intros H.
    destruct (Nat.eqb_spec u t); [tauto|]. cbn [negb]. f_equal. apply IH. tauto. }
  rewrite !K; tauto.
Qed.

Lemma in_split_t G t : In t (map g_t G) -> exists G1 n v G2, G = G1 ++ (t, n, v) :: G2.
Proof.
  intros H. apply in_map_iff in H. destruct H as ([[u n] v] & E & H). unfold g_t in E. cbn [fst] in E. subst u.
  apply in_split in H. destruct H as (G1 & G2 & ->). eauto.
Qed.

Lemma busy_in s tr G t : Inv s tr G -> s_thr s t <> Idle -> In t (map g_t G).
Proof. intros I H. destruct (in_dec Nat.eq_dec t (map g_t G)); [assumption|]. exfalso. apply H. now apply (i_idle _ _ _ I). Qed.

Lemma set_same f t v : set_thr f t v t = v.
Proof. unfold set_thr. now rewrite Nat.eqb_refl. Qed.
Lemma set_other f t v u : u <> t -> set_thr f t v u = f u.
Proof. unfold set_thr. intros H. destruct (Nat.eqb_spec u t); [contradiction|reflexivity]. Qed.

Lemma last_rel G g : StronglySorted R G -> In g G -> exists l y, G = l ++ [y] /\ (g = y \/ R g y).
Proof.
  intros HS Hg. destruct (rev G) as [|y l] eqn:E.
  { apply (f_equal (@rev _)) in E. rewrite rev_involutive in E. subst. destruct Hg. }
  apply (f_equal (@rev _)) in E. rewrite rev_involutive in E. cbn [rev] in E. exists (rev l), y. split; [exact E|]. subst G.
  clear - HS Hg. induction (rev l) as [|h l' IH]; cbn [app] in *.
  - destruct Hg as [<-|[]]. now left.
  - inversion HS as [|? ? H1 H2]. subst. destruct Hg as [<-|Hg]; [|now apply IH].
    right. rewrite Forall_forall in H2. apply H2. apply in_or_app. right. now left.
Qed.

(** Removal of a thread's entry. *)
Lemma inv_leave s tr G1 t n v G2 thr' e o :
  Inv s tr (G1 ++ (t, n, v) :: G2) -> NoDup (map g_id (G1 ++ (t, n, v) :: G2)) ->
  lstep (line tr, arrivals tr) (e, o) = (leave t (line tr), arrivals tr) ->
  thr' t = Idle ->
  (forall u, u <> t -> thr' u = s_thr s u \/ exists id w, s_thr s u = Waiting id w /\ thr' u = Waiting id true) ->
  holders (tr ++ [(e, o)]) = match G1 ++ G2 with g :: _ => if is_holding (s_thr s (g_t g)) then [g_t g] else [] | [] => [] end ->
  ((forall t o', ~ In (EWaitErr t, o') (tr ++ [(e, o)])) -> G1 = [] -> forall u, is_holding (thr' u) = false ->
      thr' u <> Idle -> exists id, thr' u = Waiting id true) ->
  (G1 = [] -> forall u id, u <> t -> s_thr s u <> Holding id) ->
  Inv (mkSt (remove_id Q (s_ring s) (v mod 256)) thr') (tr ++ [(e, o)]) (G1 ++ G2).
Proof.
  intros I ND HL Ht Hu Hh Hw Hh2. destruct (line_app tr (e, o)) as [L1 L2]. rewrite HL in L1, L2. cbn [fst snd] in L1, L2.
  pose proof (i_cont _ _ _ I) as Hc. rewrite map_app in Hc, ND. cbn [map] in Hc, ND. change (g_id (t, n, v)) with (v mod 256) in *.
  pose proof (NoDup_remove_2 _ _ _ ND) as Hni. rewrite in_app_iff in Hni.
  destruct (remove_contents Q HQ (s_ring s) _ _ _ (i_ring _ _ _ I) Hc) as (H1 & H2 & H3); [tauto|].
  pose proof (i_nodup _ _ _ I) as NT. pose proof NT as NT'. rewrite map_app in NT'. cbn [map] in NT'. change (g_t (t, n, v)) with t in NT'.
  assert (Hnt : ~ In t (map g_t (G1 ++ G2))) by (rewrite map_app; exact (NoDup_remove_2 _ _ _ NT')).
  assert (Hin : forall g, In g (G1 ++ G2) -> In g (G1 ++ (t, n, v) :: G2) /\ g_t g <> t).
  { intros g Hg. split; [apply in_app_iff in Hg; apply in_app_iff; cbn; tauto|]. intros E. apply Hnt. rewrite <- E. now apply in_map. }
  constructor; cbn [s_ring s_thr].
  - exact H1.
  - rewrite H2. now rewrite map_app.
  - rewrite L1, (i_line _ _ _ I). now apply leave_mid.
  - intros g Hg. rewrite L2. apply (i_arr _ _ _ I). now apply Hin.
  - eapply sorted_mid. apply I.
  - rewrite map_app. eapply NoDup_remove_1. exact NT'.
  - intros u Hu'. destruct (Nat.eq_dec u t) as [->|Hne]; [exact Ht|].
    assert (Hi : s_thr s u = Idle).
    { apply (i_idle _ _ _ I). rewrite map_app in *. cbn [map]. rewrite in_app_iff in *. cbn [In]. change (g_t (t, n, v)) with t. intuition. }
    destruct (Hu u Hne) as [->|(id & w & E & _)]; congruence.
  - intros g Hg. destruct (Hin g Hg) as [Hg' Hne]. destruct (Hu _ Hne) as [E|(id & w & E & E')].
    + rewrite E. apply (i_busy _ _ _ I _ Hg').
    + destruct (i_busy _ _ _ I _ Hg') as [[w' E2]|E2]; [|congruence]. left. exists true. rewrite E'. congruence.
  - intros u id E. assert (Hne : u <> t) by (intros ->; congruence).
    assert (E0 : s_thr s u = Holding id) by (destruct (Hu u Hne) as [E1|(? & ? & ? & ?)]; congruence).
    destruct (i_head _ _ _ I _ _ E0) as (g & r & EG & Eg). destruct G1 as [|g1 G1].
    + exfalso. exact (Hh2 eq_refl u id Hne E0).
    + cbn [app] in *. injection EG as -> _. exists g, (G1 ++ G2). auto.
  - rewrite Hh. destruct (G1 ++ G2) as [|g r] eqn:EG; [reflexivity|].
    assert (Hg : g_t g <> t) by (apply Hin; now left).
    destruct (Hu _ Hg) as [E|(id & w & E & E')]; [now rewrite E|rewrite E, E'; reflexivity].
  - intros Hnw g r EG Hnh. assert (Hg : In g (G1 ++ G2)) by (rewrite EG; now left). destruct (Hin g Hg) as [Hg' Hne].
    assert (HB : exists w, thr' (g_t g) = Waiting (g_id g) w).
    { destruct (Hu _ Hne) as [E|(id & w & E & E')].
      - destruct (i_busy _ _ _ I _ Hg') as [[w' E2]|E2]; [exists w'; congruence|]. rewrite E, E2 in Hnh. discriminate.
      - destruct (i_busy _ _ _ I _ Hg') as [[w' E2]|E2]; [|congruence]. exists true. congruence. }
    destruct HB as [w HB]. destruct G1 as [|g1 G1].
    + destruct (Hw Hnw eq_refl (g_t g) Hnh) as [id E]; [congruence|]. congruence.
    + cbn [app] in *. injection EG as -> _.
      assert (E1 : s_thr s (g_t g) = Waiting (g_id g) true).
      { eapply (i_woken _ _ _ I); [|reflexivity|].
        - intros t0 o0 Hin0. apply (Hnw t0 o0). apply in_or_app. now left.
        - destruct (Hu _ Hne) as [E|(id & w' & E & E')]; [now rewrite <- E|now rewrite E]. }
      destruct (Hu _ Hne) as [E|(id & w' & E & E')]; congruence.
Qed.

(** A thread in line is told it owns the structure, or goes on waiting. *)
Lemma inv_turn s tr G t id w e :
  Inv s tr G -> NoDup (map g_id G) -> s_thr s t = Waiting id w -> (e = EWake t \/ e = ETimeout t) ->
  head (s_ring s) = id ->
  Inv (mkSt (s_ring s) (set_thr (s_thr s) t (Holding id))) (tr ++ [(e, OGot)]) G /\ exists n v r, G = (t, n, v) :: r.
Proof.
  intros I ND Ht He Hh. assert (Hin : In t (map g_t G)) by (eapply busy_in; [exact I|congruence]).
  destruct (in_split_t _ _ Hin) as (G1 & n & v & G2 & EG).
  assert (Hg : In (t, n, v) G) by (rewrite EG; apply in_or_app; right; now left).
  assert (Eid : id = v mod 256).
  { destruct (i_busy _ _ _ I _ Hg) as [[w' E]|E]; unfold g_t in E; cbn [fst] in E; rewrite Ht in E; [now injection E|discriminate]. }
  assert (E1 : G1 = []).
  { destruct G1 as [|g G1]; [reflexivity|]. exfalso.
    destruct (head_contents Q HQ (s_ring s) (i_ring _ _ _ I)) as [l El].
    - pose proof (contents_len Q (s_ring s)) as Hl. rewrite (i_cont _ _ _ I), EG in Hl. cbn [app map length] in Hl. lia.
    - rewrite (i_cont _ _ _ I), EG in El. rewrite EG in ND. cbn [app map] in El, ND. injection El as El _.
      inversion ND as [|? ? Hni _]. subst. apply Hni. rewrite map_app. apply in_or_app. right. left. rewrite El. symmetry. exact Eid. }
  subst G1. cbn [app] in EG. split; [|eauto].
  assert (HL : lstep (line tr, arrivals tr) (e, OGot) = (line tr, arrivals tr)) by (destruct He as [-> | ->]; reflexivity).
  destruct (line_app tr (e, OGot)) as [L1 L2]. rewrite HL in L1, L2. cbn [fst snd] in L1, L2.
  pose proof (i_nodup _ _ _ I) as NT. rewrite EG in NT. cbn [map] in NT. change (g_t (t, n, v)) with t in NT. inversion NT as [|? ? Hnt _]. subst.
  constructor; cbn [s_ring s_thr].
  - apply I.
  - apply I.
  - rewrite L1. apply I.
  - rewrite L2. apply I.
  - apply I.
  - apply I.
  - intros u Hu. rewrite set_other; [now apply (i_idle _ _ _ I)|]. intros ->. apply Hu. left. reflexivity.
  - intros g Hg'. destruct (Nat.eq_dec (g_t g) t) as [E|E].
    + right. rewrite E, set_same. destruct Hg' as [<-|Hg']; [unfold g_id, g_v; cbn [snd]; congruence|].
      exfalso. apply Hnt. rewrite <- E. now apply in_map.
    + rewrite set_other by exact E. now apply (i_busy _ _ _ I).
  - intros u id' E. destruct (Nat.eq_dec u t) as [->|Hne]; [eexists _, _; split; reflexivity|].
    rewrite set_other in E by exact Hne. exact (i_head _ _ _ I _ _ E).
  - rewrite holders_app, (i_hold _ _ _ I). change (g_t (t, n, v)) with t. rewrite set_same, Ht. cbn [is_holding].
    destruct He as [-> | ->]; reflexivity.
  - intros _ g r E Hnh. injection E as <- _. change (g_t (t, n, v)) with t in *. rewrite set_same in Hnh. discriminate.
Qed.

Lemma wait_inv s tr G t id w e w' :
  Inv s tr G -> s_thr s t = Waiting id w -> head (s_ring s) <> id ->
  lstep (line tr, arrivals tr) e = (line tr, arrivals tr) -> hstep (holders tr) e = holders tr ->
  Inv (mkSt (s_ring s) (set_thr (s_thr s) t (Waiting id w'))) (tr ++ [e]) G.
Proof.
  intros I Ht Hh HL HH. destruct (line_app tr e) as [L1 L2]. rewrite HL in L1, L2. cbn [fst snd] in L1, L2.
  assert (Hin : In t (map g_t G)) by (eapply busy_in; [exact I|congruence]).
  assert (HF : forall g r, G = g :: r -> g_t g <> t).
  { intros g r -> E. apply Hh. destruct (head_contents Q HQ (s_ring s) (i_ring _ _ _ I)) as [l El].
    - pose proof (contents_len Q (s_ring s)) as Hl. rewrite (i_cont _ _ _ I) in Hl. cbn [map length] in Hl. lia.
    - rewrite (i_cont _ _ _ I) in El. cbn [map] in El. injection El as El _. rewrite <- El.
      destruct (i_busy _ _ _ I g (or_introl eq_refl)) as [[w0 E2]|E2]; rewrite E in E2; rewrite Ht in E2; congruence. }
  assert (HI : forall u, is_holding (set_thr (s_thr s) t (Waiting id w') u) = is_holding (s_thr s u)).
  { intros u. destruct (Nat.eq_dec u t) as [->|Hne]; [now rewrite set_same, Ht|now rewrite set_other]. }
  constructor; cbn [s_ring s_thr].
  - apply I.
  - apply I.
  - rewrite L1. apply I.
  - rewrite L2. apply I.
  - apply I.
  - apply I.
  - intros u Hu. rewrite set_other; [now apply (i_idle _ _ _ I)|]. intros ->. contradiction.
  - intros g Hg'. destruct (Nat.eq_dec (g_t g) t) as [E|E].
    + left. exists w'. rewrite E, set_same. destruct (i_busy _ _ _ I _ Hg') as [[w0 E2]|E2]; rewrite E, Ht in E2; congruence.
    + rewrite set_other by exact E. now apply (i_busy _ _ _ I).
  - intros u id' E. destruct (Nat.eq_dec u t) as [->|Hne]; [rewrite set_same in E; discriminate|].
    rewrite set_other in E by exact Hne. exact (i_head _ _ _ I _ _ E).
  - rewrite holders_app, HH, (i_hold _ _ _ I). destruct G as [|g r]; [reflexivity|]. now rewrite HI.
  - intros Hnw g r E Hnh. rewrite set_other by (eapply HF; exact E). rewrite HI in Hnh.
    eapply (i_woken _ _ _ I); [|exact E|exact Hnh]. intros t0 o0 H0. apply (Hnw t0 o0). apply in_or_app. now left.
Qed.

Lemma add_inv s tr G t r' id :
  Inv s tr G -> s_thr s t = Idle -> r_len (s_ring s) < Q -> add_id Q (s_ring s) = (r', id) ->
  (forall o, In o [OGot; OWait] -> patient (tr ++ [(ELock t, o)])) ->
  exists G', (head r' = id -> G = [] /\ Inv (mkSt r' (set_thr (s_thr s) t (Holding id))) (tr ++ [(ELock t, OGot)]) G')
    /\ (head r' <> id -> G <> [] /\ Inv (mkSt r' (set_thr (s_thr s) t (Waiting id false))) (tr ++ [(ELock t, OWait)]) G').
Proof.
  intros I Ht Hlen Ha HP. pose proof (add_contents Q HQ (s_ring s) (i_ring _ _ _ I) Hlen) as A. rewrite Ha in A.
  destruct A as (A1 & A2 & A3 & A4). rewrite (i_cont _ _ _ I) in A2, A4.
  assert (Hnt : ~ In t (map g_t G)).
  { intros H. apply in_map_iff in H. destruct H as (g & E & Hg). destruct (i_busy _ _ _ I g Hg) as [[w E2]|E2]; rewrite E in E2; congruence. }
  set (v := match rev G with [] => 0 | y :: _ => g_v y + 1 end).
  set (g' := (t, arrivals tr, v) : ent).
  assert (Ev : id = g_id g').
  { rewrite A4. unfold g', g_id, v. cbn [g_v snd]. rewrite <- map_rev. destruct (rev G) as [|y l]; cbn [map]; [reflexivity|].
    unfold g_id. now rewrite N.add_mod_idemp_l. }
  assert (HS : StronglySorted R (G ++ [g'])).
  { apply sorted_app; [apply I|]. intros h Hh. destruct (last_rel G h (i_sort _ _ _ I) Hh) as (l & y & EG & Hy).
    assert (Erev : rev G = y :: rev l) by (rewrite EG, rev_app_distr; reflexivity).
    assert (Vy : g_v g' = g_v y + 1) by (unfold g', v; rewrite Erev; reflexivity).
    assert (Ny : g_n y < g_n g') by (apply (i_arr _ _ _ I); rewrite EG; apply in_or_app; right; now left).
    unfold R. rewrite Vy. destruct Hy as [<-|[H1 H2]]; lia. }
  assert (HN : forall g, In g (G ++ [g']) -> g_n g < arrivals tr + 1).
  { intros g Hg. apply in_app_iff in Hg. destruct Hg as [Hg|[<-|[]]]; [apply (i_arr _ _ _ I) in Hg; lia|unfold g', g_n; cbn; lia]. }
  assert (HT : NoDup (map g_t (G ++ [g']))).
  { rewrite map_app. cbn [map].
    apply (proj2 (NoDup_Add (a := t) (l := map g_t G) (l' := map g_t G ++ [t])
             ltac:(pose proof (Add_app t (map g_t G) []) as A; rewrite app_nil_r in A; exact A))).
    split; [apply I|exact Hnt]. }
  assert (HL : forall o, In o [OGot; OWait] -> line (tr ++ [(ELock t, o)]) = map fst (G ++ [g']) /\ arrivals (tr ++ [(ELock t, o)]) = arrivals tr + 1).
  { intros o Ho. destruct (line_app tr (ELock t, o)) as [-> ->]. destruct Ho as [<-|[<-|[]]]; cbn [lstep fst snd];
      rewrite (i_line _ _ _ I), map_app; auto. }
  assert (HD : NoDup (map g_id (G ++ [g']))).
  { apply (ids_nodup (G ++ [g']) (arrivals tr + 1) HS HN).
    specialize (HP OWait (or_intror (or_introl eq_refl)) _ [] ltac:(now rewrite app_nil_r)).
    destruct (HL OWait (or_intror (or_introl eq_refl))) as [E1 E2]. rewrite E1, E2 in HP.
    destruct (G ++ [g']) as [|[[? ?] ?] ?]; [exact Logic.I|exact HP]. }
  assert (HC : contents Q r' = map g_id (G ++ [g'])).
  { rewrite A2, map_app. cbn [map]. now rewrite Ev. }
  assert (Hhead : forall g r, G ++ [g'] = g :: r -> head r' = g_id g).
  { intros g r E. destruct (head_contents Q HQ r' A1) as [l El]; [lia|]. rewrite HC, E in El. cbn [map] in El. now injection El. }
  assert (Hcase : (G = [] /\ head r' = id) \/ (G <> [] /\ head r' <> id)).
  { destruct G as [|g r].
    - left. split; [reflexivity|]. rewrite Ev. apply (Hhead g' []). reflexivity.
    - right. split; [discriminate|]. rewrite (Hhead g (r ++ [g'])) by reflexivity. rewrite Ev. cbn [app map] in HD.
      inversion HD as [|? ? Hni _]. subst. intros E. apply Hni. rewrite E, map_app. apply in_or_app. right. now left. }
  assert (HB : forall x, (x = Holding id \/ exists w, x = Waiting id w) -> forall g, In g (G ++ [g']) ->
     (exists w, set_thr (s_thr s) t x (g_t g) = Waiting (g_id g) w) \/ set_thr (s_thr s) t x (g_t g) = Holding (g_id g)).
  { intros x Hx g Hg. apply in_app_iff in Hg. destruct Hg as [Hg|[<-|[]]].
    - rewrite set_other; [now apply (i_busy _ _ _ I)|]. intros E. apply Hnt. rewrite <- E. now apply in_map.
    - change (g_t g') with t. rewrite set_same. rewrite <- Ev. destruct Hx as [-> |[w ->]]; [now right|left; now exists w]. }
  assert (HId : forall x u, ~ In u (map g_t (G ++ [g'])) -> set_thr (s_thr s) t x u = Idle).
  { intros x u Hu. rewrite map_app, in_app_iff in Hu. cbn [map In] in Hu. change (g_t g') with t in Hu.
    rewrite set_other by (intros ->; tauto). apply (i_idle _ _ _ I). tauto. }
  exists (G ++ [g']). split; intros Hh; (destruct Hcase as [[EG Hh']|[EG Hh']]; [|]; try contradiction); (split; [exact EG|]).
  - subst G. cbn [app] in *. destruct (HL OGot (or_introl eq_refl)) as [L1 L2].
    constructor; cbn [s_ring s_thr]; auto.
    + intros g Hg. rewrite L2. now apply HN.
    + intros u id' E. destruct (Nat.eq_dec u t) as [->|Hne]; [exists g', []; auto|].
      rewrite set_other in E by exact Hne. destruct (i_head _ _ _ I _ _ E) as (? & ? & ? & _). discriminate.
    + rewrite holders_app, (i_hold _ _ _ I). change (g_t g') with t. rewrite set_same. reflexivity.
    + intros _ g r E Hnh. injection E as <- _. change (g_t g') with t in Hnh. rewrite set_same in Hnh. discriminate.
  - destruct (HL OWait (or_intror (or_introl eq_refl))) as [L1 L2].
    assert (HF : forall g r, G ++ [g'] = g :: r -> exists r0, G = g :: r0 /\ g_t g <> t).
    { intros g r E. destruct G as [|g1 G1]; [congruence|]. cbn [app] in E. injection E as -> _. exists G1. split; [reflexivity|].
      intros E. apply Hnt. left. exact E. }
    constructor; cbn [s_ring s_thr]; auto.
    + intros g Hg. rewrite L2. now apply HN.
    + apply HB. right. now exists false.
    + intros u id' E. destruct (Nat.eq_dec u t) as [->|Hne]; [rewrite set_same in E; discriminate|].
      rewrite set_other in E by exact Hne. destruct (i_head _ _ _ I _ _ E) as (g & r & -> & E'). exists g, (r ++ [g']). auto.
    + rewrite holders_app, (i_hold _ _ _ I). cbn [hstep]. destruct (G ++ [g']) as [|g r] eqn:E; [destruct G; discriminate|].
      destruct (HF g r eq_refl) as (r0 & -> & Hne). now rewrite set_other.
    + intros Hnw g r E Hnh. destruct (HF g r E) as (r0 & EG' & Hne). rewrite set_other in Hnh |- * by exact Hne.
      eapply (i_woken _ _ _ I); [|exact EG'|exact Hnh]. intros t0 o0 H0. apply (Hnw t0 o0). apply in_or_app. now left.
Qed.

Lemma head_first s tr G t id :
  Inv s tr G -> NoDup (map g_id G) -> s_thr s t = Holding id -> head (s_ring s) = id /\ exists n v r, G = (t, n, v) :: r /\ id = v mod 256.
Proof.
  intros I ND Ht. destruct (i_head _ _ _ I _ _ Ht) as ([[u n] v] & r & -> & E). unfold g_t in E. cbn [fst] in E. subst u.
  assert (Eid : id = v mod 256).
  { destruct (i_busy _ _ _ I _ (or_introl eq_refl)) as [[w' E]|E]; unfold g_t in E; cbn [fst] in E; rewrite Ht in E; [discriminate|]. now injection E. }
  split; [|eauto 6]. destruct (head_contents Q HQ (s_ring s) (i_ring _ _ _ I)) as [l El].
  - pose proof (contents_len Q (s_ring s)) as Hl. rewrite (i_cont _ _ _ I) in Hl. cbn [map length] in Hl. lia.
  - rewrite (i_cont _ _ _ I) in El. cbn [map] in El. injection El as El _. rewrite <- El. now symmetry.
Qed.

Lemma waiting_entry s tr G t id w : Inv s tr G -> s_thr s t = Waiting id w -> exists G1 n v G2, G = G1 ++ (t, n, v) :: G2 /\ id = v mod 256.
Proof.
  intros I Ht. assert (Hin : In t (map g_t G)) by (eapply busy_in; [exact I|congruence]).
  destruct (in_split_t _ _ Hin) as (G1 & n & v & G2 & ->). exists G1, n, v, G2. split; [reflexivity|].
  destruct (i_busy _ _ _ I (t, n, v)) as [[w' E]|E]; [apply in_or_app; right; now left| |];
    unfold g_t in E; cbn [fst] in E; rewrite Ht in E; [now injection E|discriminate].
Qed.

Lemma not_holding_head s tr g r u id : Inv s tr (g :: r) -> u <> g_t g -> s_thr s u <> Holding id.
Proof. intros I Hne E. destruct (i_head _ _ _ I _ _ E) as (g' & r' & EG & E'). injection EG as <- _. congruence. Qed.

Lemma next_hold s tr g G : Inv s tr (g :: G) ->
  (match G with h :: _ => if is_holding (s_thr s (g_t h)) then [g_t h] else [] | [] => [] end) = [].
Proof.
  intros I. destruct G as [|h G]; [reflexivity|].
  assert (g_t h <> g_t g).
  { pose proof (i_nodup _ _ _ I) as N. cbn [map] in N. inversion N as [|? ? Hni _]. subst. intros E. apply Hni. rewrite <- E. now left. }
  destruct (s_thr s (g_t h)) eqn:E; [reflexivity|reflexivity|]. exfalso. eapply not_holding_head; eauto.
Qed.

Lemma give_up_inv s tr G t id w e :
  Inv s tr G -> NoDup (map g_id G) -> s_thr s t = Waiting id w ->
  (e = EWaitErr t \/ (e = ETimeout t /\ head (s_ring s) <> id)) ->
  exists G', Inv (mkSt (remove_id Q (s_ring s) id) (set_thr (s_thr s) t Idle)) (tr ++ [(e, OGaveUp)]) G'.
Proof.
  intros I ND Ht He. destruct (waiting_entry _ _ _ _ _ _ I Ht) as (G1 & n & v & G2 & -> & ->). exists (G1 ++ G2).
  apply (inv_leave s tr G1 t n v G2 _ e OGaveUp I ND).
  - destruct He as [-> |[-> _]]; reflexivity.
  - apply set_same.
  - intros u Hu. left. now apply set_other.
  - rewrite holders_app. replace (hstep (holders tr) (e, OGaveUp)) with (holders tr) by (destruct He as [-> |[-> _]]; reflexivity).
    rewrite (i_hold _ _ _ I). destruct G1 as [|g1 G1]; cbn [app]; [|reflexivity]. change (g_t (t, n, v)) with t. rewrite Ht. cbn [is_holding].
    symmetry. eapply next_hold. exact I.
  - intros Hnw ->. exfalso. destruct He as [-> |[_ Hh]].
    + apply (Hnw t OGaveUp). apply in_or_app. right. now left.
    + apply Hh. destruct (head_contents Q HQ (s_ring s) (i_ring _ _ _ I)) as [l El].
      * pose proof (contents_len Q (s_ring s)) as Hl. rewrite (i_cont _ _ _ I) in Hl. cbn [app map length] in Hl. lia.
      * rewrite (i_cont _ _ _ I) in El. cbn [app map] in El. injection El as El _. now rewrite <- El.
  - intros -> u id Hne. cbn [app] in I. eapply not_holding_head; [exact I|exact Hne].
Qed.

Lemma release_inv s tr G t id :
  Inv s tr G -> NoDup (map g_id G) -> s_thr s t = Holding id ->
  exists G', Inv (mkSt (remove_id Q (s_ring s) id) (wake_all (set_thr (s_thr s) t Idle))) (tr ++ [(EUnlock t, OReleased)]) G'.
Proof.
  intros I ND Ht. destruct (head_first _ _ _ _ _ I ND Ht) as (_ & n & v & r & -> & ->). exists r.
  apply (inv_leave s tr [] t n v r _ (EUnlock t) OReleased I ND).
  - reflexivity.
  - unfold wake_all. now rewrite set_same.
  - intros u Hu. unfold wake_all. rewrite set_other by exact Hu. destruct (s_thr s u) eqn:E; [left; reflexivity|right; eauto|left; reflexivity].
  - rewrite holders_app, (i_hold _ _ _ I). change (g_t (t, n, v)) with t. rewrite Ht. cbn [is_holding hstep filter].
    rewrite Nat.eqb_refl. cbn [negb app]. symmetry. eapply next_hold. exact I.
  - intros _ _ u Hnh Hni. unfold wake_all in *. destruct (set_thr (s_thr s) t Idle u); [congruence|eauto|discriminate].
  - intros _ u id Hne. eapply not_holding_head; [exact I|exact Hne].
Qed.

Theorem inv_holds s tr : runs Q s tr -> patient tr -> exists G, Inv s tr G.
Proof.
  induction 1 as [|s tr e s' o HR IH HS]; intros HP.
  - exists []. constructor; cbn; try reflexivity; try (intros; contradiction); try constructor; try (cbn; lia); try (intros; discriminate).
  - destruct (IH (patient_prefix _ _ HP)) as [G I]. pose proof (nodup_ids _ _ _ I (patient_prefix _ _ HP)) as ND.
    destruct e as [t|t|t|t|t]; cbn [step] in HS; destruct (s_thr s t) as [|id w|id] eqn:Ht; try discriminate.
    + destruct (N.eqb_spec (r_len (s_ring s)) Q) as [E|E].
      * injection HS as <- <-. exists G. destruct (line_app tr (ELock t, OFull)) as [L1 L2]. cbn [lstep fst snd] in L1, L2.
        destruct I. constructor; rewrite ?L1, ?L2, ?holders_app; auto.
        intros Hnw. apply i_woken0. intros t0 o0 H0. apply (Hnw t0 o0). apply in_or_app. now left.
      * destruct (add_id Q (s_ring s)) as [r' id] eqn:Ea.
        assert (Hlt : r_len (s_ring s) < Q) by (destruct (i_ring _ _ _ I); lia).
        assert (HP2 : forall o0, In o0 [OGot; OWait] -> patient (tr ++ [(ELock t, o0)])).
        { intros o0 Ho0 p r Epr. assert (Ho : o = OGot \/ o = OWait) by (destruct (head r' =? id); injection HS as _ <-; auto).
          destruct r as [|x r].
          - rewrite app_nil_r in Epr. subst p. specialize (HP (tr ++ [(ELock t, o)]) [] ltac:(now rewrite app_nil_r)).
            destruct (line_app tr (ELock t, o)) as [E1 E2]. rewrite E1, E2 in HP.
            destruct (line_app tr (ELock t, o0)) as [E3 E4]. rewrite E3, E4.
            destruct Ho as [-> | ->], Ho0 as [<-|[<-|[]]]; exact HP.
          - destruct (exists_last (l := x :: r)) as (r0 & y & Er); [discriminate|]. rewrite Er, app_assoc in Epr.
            apply app_inj_tail in Epr. destruct Epr as [-> _]. apply (HP p (r0 ++ [(ELock t, o)])). now rewrite app_assoc. }
        destruct (add_inv s tr G t r' id I Ht Hlt Ea HP2) as (G' & H1 & H2).
        destruct (N.eqb_spec (head r') id) as [Eh|Eh]; injection HS as <- <-; exists G'; [apply H1|apply H2]; exact Eh.
    + destruct (N.eqb_spec (head (s_ring s)) id) as [Eh|Eh]; injection HS as <- <-; exists G.
      * eapply inv_turn; eauto.
      * eapply wait_inv; eauto.
    + destruct (N.eqb_spec (head (s_ring s)) id) as [Eh|Eh]; injection HS as <- <-.
      * exists G. eapply inv_turn; eauto.
      * eapply give_up_inv; eauto.
    + injection HS as <- <-. eapply give_up_inv; eauto.
    + destruct (head_first _ _ _ _ _ I ND Ht) as [Eh _]. rewrite Eh, N.eqb_refl in HS. injection HS as <- <-.
      eapply release_inv; eauto.
Qed.

Lemma runs_app s tr a b : runs Q s tr -> tr = a ++ b -> exists s0, runs Q s0 a.
Proof.
  intros H. revert a b. induction H as [|s tr e s' o HR IH HS]; intros a b E.
  - destruct a; [exists init; constructor|discriminate].
  - destruct b as [|x b].
    + rewrite app_nil_r in E. subst a. exists s'. econstructor; eauto.
    + destruct (exists_last (l := x :: b)) as (b0 & y & Eb); [discriminate|]. rewrite Eb, app_assoc in E.
      apply app_inj_tail in E. destruct E as [-> _]. eapply IH. reflexivity.
Qed.

Lemma runs_last s tr e o : runs Q s (tr ++ [(e, o)]) -> exists s0, runs Q s0 tr /\ step Q s0 e = Some (s, o).
Proof.
  intros H. inversion H as [E0 E|s0 tr0 e0 s' o0 HR HS E0 E]; [destruct tr; discriminate|]. subst s'.
  apply app_inj_tail in E. destruct E as [-> E]. injection E as -> ->. eauto.
Qed.
End Proofs.

(* ================================================================== *)
(** * C13 *)

(** Mutual exclusion, for any number of threads and every interleaving, as long as no one stays
    first in line while 256 others queue. *)
Theorem c13_mutex_partial : forall Q s tr, 0 < Q <= 255 -> runs Q s tr -> patient tr -> (length (holders tr) <= 1)%nat.
Proof.
  intros Q s tr HQ HR HP. destruct (inv_holds Q HQ s tr HR HP) as [G I]. rewrite (i_hold _ _ _ _ I).
  destruct G as [|g r]; [cbn; lia|]. destruct (is_holding _); cbn; lia.
Qed.

(** First come, first served: who gets the structure is the first in line, so everyone who queued
    before has released it or given up. *)
Theorem c13_fifo_partial : forall Q s a e b, 0 < Q <= 255 -> runs Q s (a ++ (e, OGot) :: b) -> patient (a ++ (e, OGot) :: b) ->
  exists n rest, line (a ++ [(e, OGot)]) = (who e, n) :: rest.
Proof.
  intros Q s a e b HQ HR HP. replace (a ++ (e, OGot) :: b) with ((a ++ [(e, OGot)]) ++ b) in HR, HP by (rewrite <- app_assoc; reflexivity).
  destruct (runs_app Q _ _ _ _ HR eq_refl) as [s1 HR1]. apply patient_prefix in HP.
  destruct (inv_holds Q HQ _ _ HR1 HP) as [G I].
  destruct (runs_last Q _ _ _ _ HR1) as (s0 & _ & HS).
  assert (HH : exists id, s_thr s1 (who e) = Holding id).
  { destruct e as [t|t|t|t|t]; cbn [step] in HS; destruct (s_thr s0 t) as [|id w|id] eqn:Ht; try discriminate; cbn [who].
    - destruct (_ =? Q); [discriminate|]. destruct (add_id Q _) as [r' id]. destruct (_ =? id); [|discriminate].
      injection HS as <-. exists id. apply set_same.
    - destruct (_ =? id); [|discriminate]. injection HS as <-. exists id. apply set_same.
    - destruct (_ =? id); [|discriminate]. injection HS as <-. exists id. apply set_same.
    - destruct (_ =? id); discriminate. }
  destruct HH as [id HH]. destruct (i_head _ _ _ _ I _ _ HH) as ([[t n] v] & r & -> & E).
  rewrite (i_line _ _ _ _ I). cbn [map fst]. unfold g_t in E. cbn [fst] in E. subst t. eauto.
Qed.

(** No one is blocked by a thread that gave up or released: unless it already owns it, the first in line waits and
    gets the structure the next time its wait returns, in whatever way. *)
Theorem c13_progress_partial : forall Q s tr t n rest, 0 < Q <= 255 -> runs Q s tr -> patient tr -> line tr = (t, n) :: rest ->
  holders tr = [t] \/
  (holders tr = [] /\ exists s1 s2, step Q s (EWake t) = Some (s1, OGot) /\ step Q s (ETimeout t) = Some (s2, OGot)).
Proof.
  intros Q s tr t n rest HQ HR HP HL. destruct (inv_holds Q HQ s tr HR HP) as [G I].
  rewrite (i_line _ _ _ _ I) in HL. destruct G as [|[[u m] v] r]; [discriminate|]. cbn [map fst] in HL. injection HL as -> -> _.
  pose proof (i_hold _ _ _ _ I) as Hh. unfold g_t in Hh. cbn [fst] in Hh.
  destruct (i_busy _ _ _ _ I _ (or_introl eq_refl)) as [[w E]|E]; unfold g_t in E; cbn [fst] in E; rewrite E in Hh; cbn [is_holding] in Hh; [|now left].
  right. split; [exact Hh|].
  assert (Eh : head (s_ring s) = g_id (t, n, v)).
  { destruct (head_contents Q HQ (s_ring s) (i_ring _ _ _ _ I)) as [l El].
    - pose proof (contents_len Q (s_ring s)) as Hl. rewrite (i_cont _ _ _ _ I) in Hl. cbn [map length] in Hl. lia.
    - rewrite (i_cont _ _ _ _ I) in El. cbn [map] in El. now injection El. }
  cbn [step]. rewrite E, Eh, N.eqb_refl. eauto.
Qed.

(** No wakeup is lost: if nobody owns the structure, the first in line has been signalled (waits failing other
    than by timeout excluded). *)
Theorem c13_no_lost_wakeup_partial : forall Q s tr t n rest, 0 < Q <= 255 -> runs Q s tr -> patient tr ->
  (forall u o, ~ In (EWaitErr u, o) tr) -> line tr = (t, n) :: rest -> holders tr = [] ->
  exists id, s_thr s t = Waiting id true.
Proof.
  intros Q s tr t n rest HQ HR HP HE HL HH. destruct (inv_holds Q HQ s tr HR HP) as [G I].
  rewrite (i_line _ _ _ _ I) in HL. destruct G as [|[[u m] v] r]; [discriminate|]. cbn [map fst] in HL. injection HL as -> -> _.
  pose proof (i_hold _ _ _ _ I) as Hh. rewrite HH in Hh. eexists. apply (i_woken _ _ _ _ I HE _ _ eq_refl).
  unfold g_t in *. cbn [fst] in *. destruct (is_holding (s_thr s t)); [discriminate|reflexivity].
Qed.

(** Locking is refused only when as many threads are in line as the queue has room for, and unlocking by
    the owner always works. *)
Theorem c13_results_partial : forall Q s a e o b, 0 < Q <= 255 -> runs Q s (a ++ (e, o) :: b) -> patient (a ++ (e, o) :: b) ->
  (o = OFull -> N.of_nat (length (line a)) = Q) /\ o <> OErr.
Proof.
  intros Q s a e o b HQ HR HP. replace (a ++ (e, o) :: b) with ((a ++ [(e, o)]) ++ b) in HR, HP by (rewrite <- app_assoc; reflexivity).
  destruct (runs_app Q _ _ _ _ HR eq_refl) as [s1 HR1]. apply patient_prefix, patient_prefix in HP.
  destruct (runs_last Q _ _ _ _ HR1) as (s0 & HR0 & HS). destruct (inv_holds Q HQ _ _ HR0 HP) as [G I].
  split.
  - intros ->. destruct e as [t|t|t|t|t]; cbn [step] in HS; destruct (s_thr s0 t) as [|id w|id] eqn:Ht; try discriminate.
    + destruct (N.eqb_spec (r_len (s_ring s0)) Q) as [E|E].
      * rewrite (i_line _ _ _ _ I), map_length. pose proof (contents_len Q (s_ring s0)) as Hl.
        rewrite (i_cont _ _ _ _ I), map_length in Hl. unfold ent in *. lia.
      * destruct (add_id Q _) as [r' id]. destruct (_ =? id); discriminate.
    + destruct (_ =? id); discriminate.
    + destruct (_ =? id); discriminate.
    + destruct (_ =? id); discriminate.
  - intros ->. destruct e as [t|t|t|t|t]; cbn [step] in HS; destruct (s_thr s0 t) as [|id w|id] eqn:Ht; try discriminate.
    + destruct (_ =? Q); [discriminate|]. destruct (add_id Q _) as [r' id]. destruct (_ =? id); discriminate.
    + destruct (_ =? id); discriminate.
    + destruct (_ =? id); discriminate.
    + destruct (head_first Q HQ _ _ _ _ _ I ltac:(eapply nodup_ids; eauto) Ht) as [Eh _]. rewrite Eh, N.eqb_refl in HS. discriminate.
Qed.

(** ** The full statement is false *)
Fixpoint exec (Q : N) (s : st) (es : list ev) : option (st * list (ev * out)) :=
  match es with
  | [] => Some (s, [])
  | e :: es' => match step Q s e with
                | None => None
                | Some (s', o) => match exec Q s' es' with None => None | Some (s2, tr) => Some (s2, (e, o) :: tr) end
                end
  end.
Lemma exec_runs Q es : forall s tr s2 tr2, runs Q s tr -> exec Q s es = Some (s2, tr2) -> runs Q s2 (tr ++ tr2).
Proof.
  induction es as [|e es IH]; intros s tr s2 tr2 HR H; cbn [exec] in H.
  - injection H as <- <-. now rewrite app_nil_r.
  - destruct (step Q s e) as [[s' o]|] eqn:E; [|discriminate]. destruct (exec Q s' es) as [[s3 tr3]|] eqn:E2; [|discriminate].
    injection H as <- <-. replace (tr ++ (e, o) :: tr3) with ((tr ++ [(e, o)]) ++ tr3) by (rewrite <- app_assoc; reflexivity).
    eapply IH; [|exact E2]. econstructor; eauto.
Qed.
(** One thread owns the structure for a long time; two others queue and time out alternately. *)
Definition overtaking : list ev :=
  [ELock 0%nat; ELock 1%nat]
  ++ concat (repeat [ELock 2%nat; ETimeout 1%nat; ELock 1%nat; ETimeout 2%nat] 127) ++ [ELock 2%nat].
(** The ids are bytes: the last of them gets the id of the owner, and owns the structure, too. *)
Theorem c13_mutex_refuted : exists s tr, runs 6 s tr /\ holders tr = [2%nat; 0%nat].
Proof.
  destruct (exec 6 init overtaking) as [[s tr]|] eqn:E; [|vm_compute in E; discriminate].
  exists s, tr. split; [apply (exec_runs 6 overtaking init [] s tr); [constructor|exact E]|].
  assert (H : option_map (fun x => holders (snd x)) (exec 6 init overtaking) = Some [2%nat; 0%nat]) by (vm_compute; reflexivity).
  rewrite E in H. cbn in H. now injection H.
Qed.

Example c13_case : exists s tr, runs 2 s tr /\ map snd tr = [OGot; OWait; OFull; OGaveUp; OWait; OReleased; OGot; OReleased]
  /\ line tr = [] /\ holders tr = [].
Proof.
  set (es := [ELock 0%nat; ELock 1%nat; ELock 2%nat; ETimeout 1%nat; ELock 2%nat; EUnlock 0%nat; EWake 2%nat; EUnlock 2%nat]).
  destruct (exec 2 init es) as [[s tr]|] eqn:E; [|vm_compute in E; discriminate].
  exists s, tr. split; [apply (exec_runs 2 es init [] s tr); [constructor|exact E]|].
  assert (H : option_map (fun x => (map snd (snd x), line (snd x), holders (snd x))) (exec 2 init es)
     = Some ([OGot; OWait; OFull; OGaveUp; OWait; OReleased; OGot; OReleased], [], [])) by (vm_compute; reflexivity).
  rewrite E in H. cbn [option_map snd] in H. injection H as -> -> ->. auto.
Qed.
Example c13_case_patient : forall s tr, exec 2 init [ELock 0%nat; ELock 1%nat] = Some (s, tr) -> patient tr.
Proof.
  intros s tr H p r E. vm_compute in H. injection H as _ <-.
  destruct p as [|x [|y [|z p]]]; inversion E; subst; vm_compute; solve [exact I | discriminate].
Qed.

Print Assumptions c13_mutex_partial. Print Assumptions c13_fifo_partial. Print Assumptions c13_progress_partial.
Print Assumptions c13_no_lost_wakeup_partial. Print Assumptions c13_results_partial. Print Assumptions c13_mutex_refuted.
