(** C59, C60, C61: what holds over the whole life of a pollsession structure, from its creation, in every order of additions, removals, polls and changes by
    the application. *)
From Coq Require Import Ascii String NArith ZArith Bool Lia List Arith.
From Verif Require Import Bytes PsSess Prop_PsSess PsPoll Prop_PsFair Prop_PsTerm Prop_PsServe PsLife.
Import ListNotations.
Local Open Scope N_scope.

(* ------------------------------------------------------------------ *)
(** ** The functions on lists are those on memory (PsSess.v) *)

(** Memory [a] holds these entries. *)
Definition rep (a : ps) (es : list (sid * pstate)) (last : nat) : Prop :=
  (exists rest, p_arr a = Some (map (fun e => SEnt (fst e) (snd e)) es ++ rest) \/ (p_arr a = None /\ es = [])) /\
  p_count a = N.of_nat (length es) /\ p_count a < 65536 /\ p_last a = N.of_nat last.

Lemma sn_mid u x v y : PsSess.set_nth (u ++ x :: v) (length u) y = u ++ y :: v.
Proof. induction u as [|a u IH]; cbn; [reflexivity|]. now rewrite IH. Qed.
Lemma ne_mid (u : list slot) x v : nth_error (u ++ x :: v) (length u) = Some x.
Proof. rewrite nth_error_app2 by lia. now rewrite Nat.sub_diag. Qed.
Lemma put_mid {A} (u : list A) x v y : put (u ++ x :: v) (length u) y = u ++ y :: v.
Proof. induction u as [|a u IH]; cbn; [reflexivity|]. now rewrite IH. Qed.

Definition ent2slot (e : sid * pstate) : slot := SEnt (fst e) (snd e).

Lemma rep_add a es last s : rep a es last -> N.of_nat (S (length es)) < 65536 -> exists a', ps_add true a s AOk = Val (a', 0%Z) /\ rep a' (es ++ [(s, PsNone)]) last.
Proof.
  intros ([rest HA] & HC & HL & HQ) HN. unfold ps_add. cbn [negb].
  assert (EC : (p_count a + 1) mod 65536 = N.of_nat (S (length es))) by (rewrite HC, N.mod_small by lia; lia).
  rewrite EC. destruct (N.eqb_spec (N.of_nat (S (length es))) 0); [lia|].
  assert (HR : exists r, resize (p_arr a) (S (length es)) = map ent2slot es ++ [r]).
  { destruct HA as [-> |[-> ->]]; [|exists SGarbage; reflexivity]. rewrite <- (map_length ent2slot es). apply Prop_PsSess.resize_app. }
  destruct HR as [r HR]. rewrite Nat2N.id, HR. unfold set_at. replace (N.to_nat (N.of_nat (S (length es)) - 1)) with (length (map ent2slot es)) by (rewrite map_length; lia).
  rewrite sn_mid. eexists. split; [reflexivity|]. split; [exists []; left; cbn [p_arr]; rewrite map_app, <- app_assoc; reflexivity|]. cbn [p_count p_last]. rewrite app_length. cbn [length]. repeat split; try lia.
Qed.

Lemma rep_del_at a h es last i : rep a es last -> (i < length es)%nat -> exists a', del_at a (N.of_nat i) = Val a' /\ rep a' (q_ents (l_del_at (mkP h es last) i)) (q_last (l_del_at (mkP h es last) i)).
Proof.
  intros ([rest HA] & HC & HL & HQ) Hi. destruct HA as [HA|[_ ->]]; [|cbn in Hi; lia].
  destruct (exists_last (l := es)) as (es' & z & ->); [intros ->; cbn in Hi; lia|]. rewrite app_length in *. cbn [length] in *.
  assert (EC : (p_count a + 65535) mod 65536 = N.of_nat (length es')).
  { rewrite HC. replace (N.of_nat (length es' + 1) + 65535) with (N.of_nat (length es') + 1 * 65536) by lia. rewrite N.mod_add by lia. apply N.mod_small. lia. }
  unfold l_del_at. cbn [q_ents]. rewrite rev_unit, rev_involutive. cbn [q_ents q_last q_heap]. unfold del_at. rewrite EC, HA.
  destruct (N.leb_spec (N.of_nat i) (N.of_nat (length es'))) as [_|]; [|lia]. unfold slot_at, set_at. rewrite !Nat2N.id.
  change (fun e : sid * pstate => SEnt (fst e) (snd e)) with ent2slot. rewrite map_app, <- app_assoc. cbn [map app].
  pose proof (ne_mid (map ent2slot es') (ent2slot z) rest) as NM. rewrite map_length in NM. rewrite NM.
  destruct (Nat.eq_dec i (length es')) as [E|E].
  - subst i. rewrite NM. unfold ent2slot at 1. rewrite N.eqb_refl.
    pose proof (sn_mid (map ent2slot es') (ent2slot z) rest SGarbage) as SM. rewrite map_length in SM. rewrite SM.
    eexists. split; [reflexivity|]. assert (P : put es' (length es') z = es') by (clear; induction es' as [|x es' IH]; cbn; [reflexivity|now rewrite IH]). rewrite P.
    split; [exists (SGarbage :: rest); cbn [p_arr]; destruct (N.eqb_spec (N.of_nat (length es')) 0) as [E0|]; [right; split; [reflexivity|destruct es'; [reflexivity|cbn in E0; lia]]|left; reflexivity]|]. cbn [p_count p_last]. repeat split; lia.
  - assert (Hi' : (i < length es')%nat) by lia. destruct (nth_error es' i) as [x|] eqn:Ex; [|apply nth_error_None in Ex; lia].
    destruct (nth_error_split es' i Ex) as (u & v & -> & <-). rewrite map_app. cbn [map]. rewrite <- !app_assoc. cbn [app].
    pose proof (ne_mid (map ent2slot u) (ent2slot x) (map ent2slot v ++ ent2slot z :: rest)) as NU. rewrite map_length in NU. rewrite NU. unfold ent2slot at 1.
    destruct (N.eqb_spec (N.of_nat (length u)) (N.of_nat (length (u ++ x :: v)))) as [E0|_]; [rewrite app_length in E0; cbn in E0; lia|].
    pose proof (sn_mid (map ent2slot u) (ent2slot x) (map ent2slot v ++ ent2slot z :: rest) (ent2slot z)) as SU. rewrite map_length in SU. rewrite SU.
    eexists. split; [reflexivity|]. rewrite put_mid.
    split; [exists (ent2slot z :: rest); cbn [p_arr]; destruct (N.eqb_spec (N.of_nat (length (u ++ x :: v))) 0) as [E0|]; [rewrite app_length in E0; cbn in E0; lia|]; left; change (fun e : sid * pstate => SEnt (fst e) (snd e)) with ent2slot; rewrite map_app; cbn [map]; rewrite <- app_assoc; reflexivity|].
    cbn [p_count p_last]. rewrite !app_length in *. cbn [length] in *. repeat split; lia.
Qed.

Lemma rep_slot a es last i s st : rep a es last -> nth_error es i = Some (s, st) -> slot_at (p_arr a) (N.of_nat i) = Some (SEnt s st).
Proof.
  intros ([rest HA] & _) H. destruct HA as [HA|[_ ->]]; [|destruct i; discriminate]. rewrite HA. unfold slot_at. rewrite Nat2N.id. rewrite nth_error_app1 by (rewrite map_length; apply nth_error_Some; congruence).
  rewrite (map_nth_error _ _ _ H). reflexivity.
Qed.

Lemma rep_find a es last s : rep a es last -> forall b u, es = u ++ b -> del_find a s (N.of_nat (length u)) (length b) = Val (option_map N.of_nat (l_find b s (length u))).
Proof.
  intros R. induction b as [|[t st] b IH]; intros u E; [reflexivity|]. cbn [length del_find l_find].
  rewrite (rep_slot a es last (length u) t st R) by (rewrite E, nth_error_app2, Nat.sub_diag by lia; reflexivity).
  destruct (N.eqb t s); [reflexivity|]. specialize (IH (u ++ [(t, st)])). rewrite app_length, <- app_assoc in IH. cbn [length app] in IH. specialize (IH E). replace (N.of_nat (length u) + 1) with (N.of_nat (length u + 1)) by lia. rewrite IH. replace (length u + 1)%nat with (S (length u)) by lia. reflexivity.
Qed.

Lemma l_find_lt b s : forall n i, l_find b s n = Some i -> (n <= i < n + length b)%nat.
Proof. induction b as [|[t st] b IH]; intros n i H; [discriminate|]. cbn [l_find length] in *. destruct (N.eqb t s); [injection H as <-; lia|]. apply IH in H. lia. Qed.

Lemma rep_del a p s : rep a (q_ents p) (q_last p) -> exists a' r, ps_del true a s = Val (a', r) /\ rep a' (q_ents (l_del p s)) (q_last (l_del p s)).
Proof.
  intros R. unfold ps_del. cbn [negb]. pose proof (rep_find a _ _ s R (q_ents p) [] eq_refl) as F. cbn [length] in F. change (N.of_nat 0) with 0 in F. destruct R as (R1 & RC & RL & RQ). rewrite RC, Nat2N.id. rewrite F. unfold l_del.
  destruct (l_find (q_ents p) s 0) as [i|] eqn:E; cbn [option_map].
  - apply l_find_lt in E. destruct p as [h es last]. destruct (rep_del_at a h es last i) as (a' & Ha & Hr); [repeat split; auto|cbn in *; lia|]. rewrite Ha. eauto.
  - exists a, (-1)%Z. split; [reflexivity|]. repeat split; auto.
Qed.

Lemma del_at_len p i : length (q_ents (l_del_at p i)) = (length (q_ents p) - 1)%nat.
Proof. unfold l_del_at. destruct (rev (q_ents p)) as [|z r] eqn:E; [apply f_equal with (f := @rev _) in E; rewrite rev_involutive in E; rewrite E; reflexivity|].
  cbn [q_ents]. rewrite <- (rev_length (q_ents p)), E. cbn [length]. assert (P : forall (l : list (sid * pstate)) j x, length (put l j x) = length l) by (induction l as [|y l IH]; intros [|j] x; cbn; auto). rewrite P, rev_length. lia. Qed.

Lemma rep_clear_dead : forall n a p i, rep a (q_ents p) (q_last p) -> (length (q_ents p) - i <= n)%nat ->
  exists a', clear_dead a (fun s => status_eqb (s_status (q_heap p s)) StRunning) (N.of_nat i) n = Val a' /\ rep a' (q_ents (l_clear_dead p i n)) (q_last (l_clear_dead p i n)).
Proof.
  induction n as [|n IH]; intros a p i R L.
  - cbn [clear_dead l_clear_dead]. pose proof R as (R1 & RC & R3). rewrite RC. destruct (N.ltb_spec (N.of_nat i) (N.of_nat (length (q_ents p)))); [lia|]. exists a. split; [reflexivity|exact R].
  - cbn [clear_dead l_clear_dead]. pose proof R as (R1 & RC & R3). rewrite RC. destruct (N.ltb_spec (N.of_nat i) (N.of_nat (length (q_ents p)))) as [Lt|Ge]; cbn [negb].
    + destruct (nth_error (q_ents p) i) as [[s st]|] eqn:E; [|apply nth_error_None in E; lia]. rewrite (rep_slot a _ _ i s st R E).
      destruct (status_eqb (s_status (q_heap p s)) StRunning).
      * replace (N.of_nat i + 1) with (N.of_nat (S i)) by lia. apply IH; [exact R|lia].
      * destruct p as [h es last]. destruct (rep_del_at a h es last i) as (a' & Ha & Hr); [exact R|cbn in *; lia|]. rewrite Ha.
        assert (Hh : q_heap (l_del_at (mkP h es last) i) = h) by (unfold l_del_at; destruct (rev (q_ents (mkP h es last))); reflexivity).
        specialize (IH a' (l_del_at (mkP h es last) i) i Hr). rewrite Hh in IH. apply IH. rewrite del_at_len. cbn [q_ents] in *. lia.
    + assert (E : nth_error (q_ents p) i = None) by (apply nth_error_None; lia). rewrite E. exists a. split; [reflexivity|exact R].
Qed.

Lemma rep_clear a p all : rep a (q_ents p) (q_last p) -> exists a', ps_clear true a all (fun s => status_eqb (s_status (q_heap p s)) StRunning) = Val a' /\ rep a' (q_ents (l_clear p all)) (q_last (l_clear p all)).
Proof.
  intros R. unfold ps_clear, l_clear. cbn [negb]. pose proof R as (R1 & RC & R3). rewrite RC, Nat2N.id. destruct all.
  - assert (C : forall b u, q_ents p = u ++ b -> clear_all a (N.of_nat (length u)) (length b) = Val tt).
    { induction b as [|[s st] b IH]; intros u E; [reflexivity|]. cbn [length clear_all]. rewrite (rep_slot a _ _ (length u) s st R) by (rewrite E, nth_error_app2, Nat.sub_diag by lia; reflexivity).
      specialize (IH (u ++ [(s, st)])). rewrite app_length, <- app_assoc in IH. cbn [length app] in IH. replace (N.of_nat (length u) + 1) with (N.of_nat (length u + 1)) by lia. apply IH, E. }
    pose proof (C (q_ents p) [] eq_refl) as C0. cbn [length] in C0. change (N.of_nat 0) with 0 in C0. rewrite C0. eexists. split; [reflexivity|]. split; [exists []; right; auto|]. cbn. repeat split; lia.
  - exact (rep_clear_dead (length (q_ents p)) a p 0 R ltac:(lia)).
Qed.

(* ------------------------------------------------------------------ *)
(** ** The index of the last event is always one of the array *)

Definition in_range (p : pst) : Prop := (q_ents p = [] /\ q_last p = 0%nat) \/ (q_last p < length (q_ents p))%nat.

Lemma put_nil {A} (l : list A) i x : l = [] -> put l i x = [].
Proof. intros ->. reflexivity. Qed.

Lemma range_del_at p i : in_range p -> in_range (l_del_at p i) /\ q_heap (l_del_at p i) = q_heap p.
Proof.
  intros R. unfold l_del_at. destruct (rev (q_ents p)) as [|z r] eqn:E; [split; [exact R|reflexivity]|]. split; [|reflexivity]. unfold in_range. cbn [q_ents q_last].
  destruct (put (rev r) i z) as [|x l]; [left; auto|right; cbn; lia].
Qed.

Lemma range_clear_dead : forall n p i, in_range p -> in_range (l_clear_dead p i n) /\ q_heap (l_clear_dead p i n) = q_heap p.
Proof.
  induction n as [|n IH]; intros p i R; [split; [exact R|reflexivity]|]. cbn [l_clear_dead]. destruct (nth_error (q_ents p) i) as [[s st]|]; [|split; [exact R|reflexivity]].
  destruct (status_eqb _ _); [apply IH, R|]. destruct (range_del_at p i R) as [A B]. destruct (IH (l_del_at p i) i A) as [C D]. split; [exact C|congruence].
Qed.

Lemma empty_poll o p c : q_ents p = [] -> ps_poll o p c = Some (p, NOSESSIONS, None, []).
Proof. intros E. unfold ps_poll. rewrite E. reflexivity. Qed.

Lemma life_range o h l p : life o h l p -> in_range p.
Proof.
  induction 1 as [|l p s _ IH|l p s _ IH|l p a _ IH|l p e _ IH|l p c p' ret rs out _ IH E].
  - left. split; reflexivity.
  - right. cbn. rewrite app_length. cbn. destruct IH as [[-> ->]|]; cbn; lia.
  - unfold l_del. destruct (l_find (q_ents p) s 0); [apply range_del_at, IH|exact IH].
  - unfold l_clear. destruct a; [left; split; reflexivity|apply range_clear_dead, IH].
  - exact IH.
  - destruct IH as [[E0 L0]|L]; [rewrite (empty_poll o p c E0) in E; injection E as <- _ _ _; left; auto|]. right. exact (proj1 (proj2 (poll_shape o p c p' ret rs out L E))).
Qed.

(* ------------------------------------------------------------------ *)
(** ** C59: one answer at most, to the request that was read *)

(** Every poll of the life, in its order, with the structure it started from. *)
Lemma life_polls o h l p : life o h l p -> forall q c ret rs out, In (LPoll q c ret rs out) l -> exists l1 q', life o h l1 q /\ ps_poll o q c = Some (q', ret, rs, out).
Proof.
  induction 1 as [|l p s L IH|l p s L IH|l p a L IH|l p e L IH|l p c p' ret rs out L IH E]; intros q d ret0 rs0 out0 HI; [destruct HI|..]; apply in_app_or in HI; destruct HI as [HI|[HI|[]]]; try discriminate; eauto.
  injection HI as <- <- <- <- <-. eauto.
Qed.

Theorem c59_at_most_one o h l p q c ret rs out : life o h l p -> In (LPoll q c ret rs out) l ->
  out = [] \/
  exists m s h', out = [m] /\ rs = Some s /\ takes o q c s h' /\
    match c_rd c with
    | RdOk e op => exists body, answers_to e body m
    | RdBad (Some e) _ => exists err, answers_to e (RError err) m
    | RdBad None _ | RdMalformed => rm_attrs m = [] /\ rm_ns m = NS_BASE /\ exists err, rm_body m = RError err
    | _ => False
    end.
Proof.
  intros L I. destruct (life_polls o h l p L q c ret rs out I) as (l1 & q' & L1 & E). destruct (life_range o h l1 q L1) as [[E0 _]|Lt].
  - rewrite (empty_poll o q c E0) in E. injection E as _ _ _ <-. now left.
  - exact (c16_at_most_one o q c q' ret rs out Lt E).
Qed.

(** ... and the application is not asked unless a request with a message-id was read: nothing depends on its callback then. *)
Theorem c59_not_asked o h l p q c ret rs out : life o h l p -> In (LPoll q c ret rs out) l -> (forall e op, c_rd c = RdOk e op -> ~ named_id e) ->
  forall cb, exists q', ps_poll o q (with_cb c cb) = Some (q', ret, rs, out) /\ ps_poll o q c = Some (q', ret, rs, out).
Proof.
  intros L I N cb. destruct (life_polls o h l p L q c ret rs out I) as (l1 & q' & _ & E). exists q'. split; [|exact E]. rewrite (c20_never_processed o q c cb N). exact E.
Qed.

(* ------------------------------------------------------------------ *)
(** ** C60: no session gets a reason without its cause *)

Lemma life_term o h l p s : life o h l p -> s_term (h s) = TNone ->
  s_term (q_heap p s) = TNone \/ In (LApp (XTerm s (s_term (q_heap p s)))) l
  \/ exists q c ret rs out, In (LPoll q c ret rs out) l /\ cause o q c rs s (s_term (q_heap p s)).
Proof.
  intros L H0.
  assert (Ext : forall l x t, (t = TNone \/ In (LApp (XTerm s t)) l \/ exists q c ret rs out, In (LPoll q c ret rs out) l /\ cause o q c rs s t) ->
     t = TNone \/ In (LApp (XTerm s t)) (l ++ [x]) \/ exists q c ret rs out, In (LPoll q c ret rs out) (l ++ [x]) /\ cause o q c rs s t).
  { clear. intros l x t [H|[H|(q & c & ret & rs & out & H & C)]]; [now left| |]; right; [left; apply in_or_app; now left|]. right. exists q, c, ret, rs, out. split; [apply in_or_app; now left|exact C]. }
  induction L as [|l p s0 L IH|l p s0 L IH|l p a L IH|l p e L IH|l p c p' ret rs out L IH E].
  - now left.
  - apply Ext, IH.
  - assert (X : q_heap (l_del p s0) = q_heap p) by (unfold l_del; destruct (l_find (q_ents p) s0 0); [apply range_del_at, (life_range o h l p L)|reflexivity]). rewrite X. apply Ext, IH.
  - assert (X : q_heap (l_clear p a) = q_heap p) by (unfold l_clear; destruct a; [reflexivity|apply range_clear_dead, (life_range o h l p L)]). rewrite X. apply Ext, IH.
  - cbn [q_heap]. destruct (eff_term (q_heap p) e s) as [-> |[Ee _]]; [apply Ext, IH|]. right. left. rewrite <- Ee. apply in_or_app. right. now left.
  - destruct (life_range o h l p L) as [[E0 _]|Lt]; [rewrite (empty_poll o p c E0) in E; injection E as <- _ _ _; apply Ext, IH|].
    destruct (c18_reason o p c p' ret rs out s Lt E) as [-> |C]; [apply Ext, IH|]. right. right. exists p, c, ret, rs, out. split; [apply in_or_app; right; now left|exact C].
Qed.

(** A session that started without a reason and has one now got it from the application, or from a poll that met what the reason says. *)
Theorem c60_reason o h l p s : life o h l p -> s_term (h s) = TNone ->
  match s_term (q_heap p s) with
  | TNone => True
  | t =>
      In (LApp (XTerm s t)) l \/ exists q c ret rs out, In (LPoll q c ret rs out) l /\
        (((exists e op, c_rd c = RdOk e op) /\ In (XTerm s t) (cb_effs (c_cb c))) \/
         match t with
         | TClosed => rs = Some s /\ (exists e op, c_rd c = RdOk e op /\ op_clb op = ClbClose)
         | TDropped => seen q c s (says_closed (s_ti (q_heap q s))) \/ (rs = Some s /\ io_failed c FDropped)
         | TTimeout => inactive o q c s
         | TOther => seen q c s (says_failed (s_ti (q_heap q s))) \/ (rs = Some s /\ (io_failed c FOther \/ c_w1 c = WrBlock \/ c_w1 c = WrFail))
         | _ => False
         end)
  end.
Proof.
  intros L H0. destruct (life_term o h l p s L H0) as [-> |[HI|(q & c & ret & rs & out & HI & C)]]; [exact I| |].
  - destruct (s_term (q_heap p s)); auto.
  - unfold cause, app_set, close_asked in C. destruct (s_term (q_heap p s)); auto; right; exists q, c, ret, rs, out; (split; [exact HI|exact C]).
Qed.

(** Killed, in particular, is only ever the application's doing; with idle timeout 0 so is timeout. *)
Theorem c60_killed o h l p s : life o h l p -> s_term (h s) = TNone -> s_term (q_heap p s) = TKilled ->
  In (LApp (XTerm s TKilled)) l \/ exists q c ret rs out, In (LPoll q c ret rs out) l /\ (exists e op, c_rd c = RdOk e op) /\ In (XTerm s TKilled) (cb_effs (c_cb c)).
Proof.
  intros L H0 K. pose proof (c60_reason o h l p s L H0) as R. rewrite K in R. destruct R as [R|(q & c & ret & rs & out & HI & [[A B]|[]])]; [now left|]. right. exists q, c, ret, rs, out. auto.
Qed.

(** C61: without an idle timeout no session ends for inactivity. *)
Theorem c61_never o h l p s : o_idle o = 0 -> life o h l p -> s_term (h s) = TNone ->
  ~ In (LApp (XTerm s TTimeout)) l -> (forall q c ret rs out, In (LPoll q c ret rs out) l -> ~ In (XTerm s TTimeout) (cb_effs (c_cb c))) -> s_term (q_heap p s) <> TTimeout.
Proof.
  intros Z L H0 NA NC T. pose proof (c60_reason o h l p s L H0) as R. rewrite T in R. destruct R as [R|(q & c & ret & rs & out & HI & [[_ A]|A])]; [auto|exact (NC _ _ _ _ _ HI A)|].
  destruct A as (_ & _ & N & _). auto.
Qed.

(* ------------------------------------------------------------------ *)
(** ** Case *)

Definition plain_sess : sess := mkS StRunning TNone 0 false 0 0 TiUnix true.
Definition close_env : envelope := mkEnv None NS_BASE [mkAttr None (bs "message-id") (bs "7")].
Definition close_call : pcall :=
  mkC 0 0 0 0 (fun _ _ => 1%Z) (fun _ i => if Nat.eqb i 1 then readable else quiet) (fun _ => false) 1 (RdOk close_env (mkOp 1 ClbClose)) WrSent (mkCb None []) WrSent.
(** Three sessions, the first is removed (the third takes its place), the second closes. *)
Example ex_life : exists l p q, life (mkO 30 false) (fun _ => plain_sess) (l ++ [LPoll q close_call (N.lor RPC SESSION_TERM) (Some 200) [make_reply (Some close_env) ROk]]) p /\
  map fst (q_ents q) = [300; 200] /\ s_term (q_heap p 200) = TClosed /\ s_status (q_heap p 300) = StRunning.
Proof.
  eexists [LAdd 100; LAdd 200; LAdd 300; LDel 100], _, (l_del (l_add (l_add (l_add (l_new (fun _ => plain_sess)) 100) 200) 300) 100). split.
  - eapply life_poll; [|vm_compute; reflexivity].
    exact (life_del _ _ [LAdd 100; LAdd 200; LAdd 300] _ 100 (life_add _ _ [LAdd 100; LAdd 200] _ 300 (life_add _ _ [LAdd 100] _ 200 (life_add _ _ [] _ 100 (life_new _ _))))).
  - vm_compute. auto.
Qed.

Print Assumptions c59_at_most_one.
Print Assumptions c59_not_asked.
Print Assumptions c60_reason.
Print Assumptions c60_killed.
Print Assumptions c61_never.
