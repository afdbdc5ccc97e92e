(** C159-C163: memory of requests, replies and notifications (model: MsgMem.v).

    The specification speaks of the blocks given by the caller, of the blocks the library allocated and
    of those that were freed. *)
From Coq Require Import List Arith Bool Lia.
From Verif Require Import MsgMem.
Import ListNotations.

(** * The requests a client can ask for *)

Inductive request :=
| QAct (valid : bool) (data : arg)
| QXml (xml : arg)
| QGetConfig (valid : bool) (filter : arg)
| QEdit (valid : bool) (content : arg)
| QCopy (valid : bool) (trg src : arg)
| QDelete (valid : bool) (url : arg)
| QLock | QUnlock | QDiscard
| QKill (valid : bool) | QDeleteSub (valid : bool) | QKillSub (valid : bool) | QResync (valid : bool)
| QGet (valid : bool) (filter : arg)
| QCommit (persist persist_id : arg)
| QCancel (persist_id : arg)
| QValidate (valid : bool) (src : arg)
| QGetSchema (identifier version format : arg)
| QSubscribe (valid : bool) (stream filter start_time stop_time : arg)
| QGetData (valid : bool) (datastore filter config_filter : arg) (origin : array)
| QEditData (valid : bool) (datastore content : arg)
| QEstablishSub (valid : bool) (filter stream start_time stop_time encoding : arg)
| QModifySub (valid : bool) (filter stop_time : arg)
| QPushPeriodic (valid : bool) (datastore filter stop_time encoding anchor : arg)
| QPushOnChange (valid : bool) (datastore filter stop_time encoding : arg) (excluded : array)
| QModPeriodic (valid : bool) (datastore filter stop_time anchor : arg)
| QModOnChange (valid : bool) (datastore filter stop_time : arg).

Definition build (ok : nat -> bool) (q : request) (pt : paramtype) (m : mem) : mem * option rpc :=
  match q with
  | QAct v d => nc_rpc_act_generic ok v d pt m
  | QXml x => nc_rpc_act_generic_xml ok x pt m
  | QGetConfig v f => nc_rpc_getconfig ok v f pt m
  | QEdit v c => nc_rpc_edit ok v c pt m
  | QCopy v t s => nc_rpc_copy ok v t s pt m
  | QDelete v u => nc_rpc_delete ok v u pt m
  | QLock => nc_rpc_plain ok Lock true m
  | QUnlock => nc_rpc_plain ok Unlock true m
  | QDiscard => nc_rpc_plain ok Discard true m
  | QKill v => nc_rpc_plain ok Kill v m
  | QDeleteSub v => nc_rpc_plain ok DeleteSub v m
  | QKillSub v => nc_rpc_plain ok KillSub v m
  | QResync v => nc_rpc_plain ok ResyncSub v m
  | QGet v f => nc_rpc_get ok v f pt m
  | QCommit p i => nc_rpc_commit ok p i pt m
  | QCancel p => nc_rpc_cancel ok p pt m
  | QValidate v s => nc_rpc_validate ok v s pt m
  | QGetSchema i v f => nc_rpc_getschema ok i v f pt m
  | QSubscribe v s f a o => nc_rpc_subscribe ok v s f a o pt m
  | QGetData v d f c o => nc_rpc_getdata ok v d f c o pt m
  | QEditData v d c => nc_rpc_editdata ok v d c pt m
  | QEstablishSub v f s a o e => nc_rpc_establishsub ok v f s a o e pt m
  | QModifySub v f s => nc_rpc_modifysub ok v f s pt m
  | QPushPeriodic v d f s e a => nc_rpc_establishpush_periodic ok v d f s e a pt m
  | QPushOnChange v d f s e x => nc_rpc_establishpush_onchange ok v d f s e x pt m
  | QModPeriodic v d f s a => nc_rpc_modifypush_periodic ok v d f s a pt m
  | QModOnChange v d f s => nc_rpc_modifypush_onchange ok v d f s pt m
  end.

(** What the caller gives: single strings or trees by the parameter they are for, and an array of strings. *)
Definition params (q : request) : list (field * arg) :=
  match q with
  | QAct _ d => [(Data, d)]
  | QXml x => [(XmlStr, x)]
  | QGetConfig _ f | QGet _ f => [(Filter, f)]
  | QEdit _ c => [(EditCont, c)]
  | QCopy _ t s => [(UrlTrg, t); (UrlConfigSrc, s)]
  | QDelete _ u => [(Url, u)]
  | QLock | QUnlock | QDiscard | QKill _ | QDeleteSub _ | QKillSub _ | QResync _ => []
  | QCommit p i => [(Persist, p); (PersistId, i)]
  | QCancel p => [(PersistId, p)]
  | QValidate _ s => [(UrlConfigSrc, s)]
  | QGetSchema i v f => [(Identifier, i); (Version, v); (Format, f)]
  | QSubscribe _ s f a o => [(Stream, s); (Filter, f); (StartTime, a); (StopTime, o)]
  | QGetData _ d f c _ => [(Datastore, d); (Filter, f); (ConfigFilter, c)]
  | QEditData _ d c => [(Datastore, d); (EditCont, c)]
  | QEstablishSub _ f s a o e => [(Filter, f); (Stream, s); (StartTime, a); (StopTime, o); (Encoding, e)]
  | QModifySub _ f s => [(Filter, f); (StopTime, s)]
  | QPushPeriodic _ d f s e a => [(Datastore, d); (Filter, f); (StopTime, s); (Encoding, e); (AnchorTime, a)]
  | QPushOnChange _ d f s e _ => [(Datastore, d); (Filter, f); (StopTime, s); (Encoding, e)]
  | QModPeriodic _ d f s a => [(Datastore, d); (Filter, f); (StopTime, s); (AnchorTime, a)]
  | QModOnChange _ d f s => [(Datastore, d); (Filter, f); (StopTime, s)]
  end.

Definition array_of (q : request) : array :=
  match q with
  | QGetData _ _ _ _ o => o
  | QPushOnChange _ _ _ _ _ x => x
  | _ => None
  end.

Definition given (q : request) : list nat :=
  flat_map (fun x => match snd x with Some n => [n] | None => [] end) (params q) ++
  match array_of q with Some (n, l) => n :: l | None => [] end.

(** Nothing is freed twice, nothing is freed that was not allocated here or handed over, nothing is read
    that was never set. *)
Definition safe (m : mem) (handed : list nat) : Prop :=
  NoDup (m_freed m) /\
  (forall k, In (New k) (m_freed m) -> In k (m_made m)) /\
  (forall a, In (Arg a) (m_freed m) <-> In a handed) /\
  m_bad m = false.

Definition no_leak (m : mem) : Prop := forall k, In k (m_made m) -> In (New k) (m_freed m).

(** What is handed over: everything, with NC_PARAMTYPE_FREE, if the request was made. *)
Definition handed (q : request) (pt : paramtype) (o : option rpc) : list nat :=
  match pt, o with Free, Some _ => given q | _, _ => [] end.

(** The blocks a request refers to. *)
Definition refers (r : rpc) (b : block) : Prop :=
  b = r_self r \/ (exists f, In (f, Some b) (r_flds r)) \/
  (exists p l, r_array r = Some (p, l) /\ (p = Some b \/ In (Some b) l)).

(** * Counting *)

Lemma block_dec : forall a b : block, {a = b} + {a <> b}.
Proof. decide equality; apply Nat.eq_dec. Defined.

Definition one (b : block) (p : ptr) : nat :=
  match p with Some c => if block_dec b c then 1 else 0 | None => 0 end.
Fixpoint many (b : block) (l : list ptr) : nat :=
  match l with [] => 0 | p :: l => one b p + many b l end.
Fixpoint cnt (b : block) (l : list block) : nat :=
  match l with [] => 0 | c :: l => one b (Some c) + cnt b l end.
Fixpoint cn (k : nat) (l : list nat) : nat :=
  match l with [] => 0 | c :: l => (if Nat.eq_dec k c then 1 else 0) + cn k l end.

Lemma cnt_in b l : In b l <-> 1 <= cnt b l.
Proof.
  induction l as [|c l IH]; cbn; [lia|].
  destruct (block_dec b c); subst; [split; [lia|tauto]|].
  rewrite IH. split; intros; [destruct H; [congruence|lia]|right; lia].
Qed.

Lemma cn_in b l : In b l <-> 1 <= cn b l.
Proof.
  induction l as [|c l IH]; cbn; [lia|].
  destruct (Nat.eq_dec b c); subst; [split; [lia|tauto]|].
  rewrite IH. split; intros; [destruct H; [congruence|lia]|right; lia].
Qed.

Lemma many_in b l : In (Some b) l -> 1 <= many b l.
Proof.
  induction l as [|c l IH]; cbn; [tauto|]. intros [->|H]; [|specialize (IH H); lia].
  cbn. destruct (block_dec b b); [lia|congruence].
Qed.

Lemma cnt_nodup l : (forall b, cnt b l <= 1) -> NoDup l.
Proof.
  induction l as [|c l IH]; intros H; constructor.
  - rewrite cnt_in. specialize (H c). cbn in H. destruct (block_dec c c); [lia|congruence].
  - apply IH. intros b. specialize (H b). cbn in H. destruct (block_dec b c); lia.
Qed.

Lemma nodup_cn l : NoDup l -> forall k, cn k l <= 1.
Proof.
  induction 1 as [|c l N D IH]; intros k; cbn; [lia|]. specialize (IH k).
  destruct (Nat.eq_dec k c); [|lia]. subst. rewrite cn_in in N. lia.
Qed.

Lemma cn_app k a b : cn k (a ++ b) = cn k a + cn k b.
Proof. induction a; cbn; [reflexivity|]. rewrite IHa. lia. Qed.
Lemma many_app k a b : many k (a ++ b) = many k a + many k b.
Proof. induction a; cbn; [reflexivity|]. rewrite IHa. lia. Qed.

Lemma many_args k l : many (Arg k) (map (fun n => Some (Arg n)) l) = cn k l.
Proof.
  induction l as [|n l IH]; cbn; [reflexivity|]. rewrite IH.
  destruct (block_dec (Arg k) (Arg n)) as [E|E], (Nat.eq_dec k n) as [F|F]; try reflexivity; congruence.
Qed.
Lemma many_args_new k l : many (New k) (map (fun n => Some (Arg n)) l) = 0.
Proof.
  induction l as [|n l IH]; cbn; [reflexivity|]. rewrite IH.
  destruct (block_dec (New k) (Arg n)); [discriminate|reflexivity].
Qed.

Definition what (m : mem) (g : list nat) (b : block) : nat :=
  match b with New k => cn k (m_made m) | Arg a => cn a g end.

(** [l]: the blocks held and to be freed; [g]: the blocks handed over by the caller; [x]: blocks that are
    lost. *)
Definition acc (m : mem) (l : list ptr) (g : list nat) (x : list ptr) : Prop :=
  (forall b, cnt b (m_freed m) + many b l + many b x = what m g b) /\
  (forall k, cn k (m_made m) <= 1) /\
  (forall k, m_tries m <= k -> cn k (m_made m) = 0) /\
  m_bad m = false.

Lemma acc_start : acc start [] [] [].
Proof. repeat split; intros; cbn; try lia. destruct b; reflexivity. Qed.

Lemma acc_eq m l g x l' g' x' : acc m l g x ->
  (forall b, many b l + many b x = many b l' + many b x') -> (forall k, cn k g = cn k g') -> acc m l' g' x'.
Proof.
  intros (A & B & C & D) H G. repeat split; auto.
  intros b. specialize (A b). specialize (H b).
  assert (E : what m g b = what m g' b) by (destruct b; cbn; auto). lia.
Qed.

Section Ok.
Variable ok : nat -> bool.

Lemma alloc_acc m l g x m' p : acc m l g x -> alloc ok m = (m', p) -> acc m' (p :: l) g x.
Proof.
  intros (A & B & C & D) E. unfold alloc in E. destruct (ok (m_tries m)); injection E as <- <-.
  - split; [|split; [|split]].
    + intros b. specialize (A b). cbn -[Nat.eq_dec block_dec]. destruct b as [a|k]; cbn -[Nat.eq_dec block_dec] in *.
      * destruct (block_dec (Arg a) (New (m_tries m))); [discriminate|]. lia.
      * destruct (block_dec (New k) (New (m_tries m))) as [H|H], (Nat.eq_dec k (m_tries m)) as [K|K];
          try congruence; lia.
    + intros k. cbn -[Nat.eq_dec]. destruct (Nat.eq_dec k (m_tries m)) as [->|]; [rewrite C; lia|]. apply B.
    + intros k H. cbn -[Nat.eq_dec] in *. destruct (Nat.eq_dec k (m_tries m)); [lia|]. apply C. lia.
    + exact D.
  - split; [|split; [|split]]; cbn; auto. intros k H. apply C. cbn in H. lia.
Qed.

Lemma free_acc m l g x p : acc m (p :: l) g x -> acc (free p m) l g x.
Proof.
  intros (A & B & C & D). destruct p as [c|]; cbn [free].
  - split; [|split; [|split]]; cbn [m_freed m_made m_tries m_bad]; auto.
    intros b. specialize (A b). cbn [cnt many] in *. unfold what in *. cbn [m_made]. lia.
  - split; auto.
Qed.

Definition gives (pt : paramtype) (a : arg) : list nat :=
  match pt, a with Free, Some n => [n] | _, _ => [] end.

Lemma take_acc pt a m l g x m' p : acc m l g x -> take ok pt a m = (m', p) ->
  acc m' (if frees pt then p :: l else l) (gives pt a ++ g) x.
Proof.
  intros A E. destruct pt, a as [n|]; cbn in E; try (injection E as <- <-); cbn [frees gives app]; auto.
  - destruct A as (A & B & C & D). split; [|split; [|split]]; auto.
    intros b. specialize (A b). cbn [many one of_arg]. destruct b as [c|k]; cbn -[Nat.eq_dec block_dec] in *.
    + destruct (block_dec (Arg c) (Arg n)) as [H|H], (Nat.eq_dec c n) as [K|K]; try congruence; lia.
    + destruct (block_dec (New k) (Arg n)); [discriminate|]. lia.
  - exact (alloc_acc _ _ _ _ _ _ A E).
Qed.

Lemma free_list_acc : forall l m r g x, acc m (l ++ r) g x -> acc (fold_left (fun m q => free q m) l m) r g x.
Proof.
  induction l as [|p l IH]; intros m r g x A; [exact A|]. cbn [fold_left]. apply IH. apply free_acc. exact A.
Qed.

Definition field_ptrs (fs : list field) (r : rpc) : option (list ptr) :=
  fold_right (fun f o => match get f (r_flds r), o with Some p, Some l => Some (p :: l) | _, _ => None end)
    (Some []) fs.

Lemma free_flds_acc : forall fs r ps m l g x, field_ptrs fs r = Some ps -> acc m (ps ++ l) g x ->
  acc (free_flds fs r m) l g x.
Proof.
  unfold free_flds. induction fs as [|f fs IH]; intros r ps m l g x E A; cbn in E.
  - injection E as <-. exact A.
  - destruct (get f (r_flds r)) as [p|] eqn:G; [|discriminate].
    destruct (field_ptrs fs r) as [qs|] eqn:Q; unfold field_ptrs in Q; rewrite Q in E; [|discriminate].
    injection E as <-. cbn [fold_left]. rewrite G. eapply IH; [unfold field_ptrs; exact Q|].
    apply free_acc. exact A.
Qed.


Lemma take_const a m : take ok Const a m = (m, of_arg a).
Proof. destruct a; reflexivity. Qed.
Lemma take_free a m : take ok Free a m = (m, of_arg a).
Proof. destruct a; reflexivity. Qed.

(** What is known of a constructor: the request made holds [l], of which [x] is never freed. *)
Definition known (q : request) (pt : paramtype) (m : mem) (o : option rpc) (x : list ptr) : Prop :=
  match o with
  | None => acc m [] [] [] /\ x = []
  | Some r =>
      let g := handed q pt o in
      (exists l y, acc m l g y /\ In (Some (r_self r)) l /\
         (if frees pt then forall b, refers r b -> In (Some b) l
          else forall b, refers r b -> b = r_self r \/ exists a, b = Arg a)) /\
      acc (nc_rpc_free o m) [] g x
  end.

Lemma with_self_known (good : bool) (k : mem -> block -> mem * option rpc) (q : request) (pt : paramtype) (x : list ptr) :
  (forall m b, acc m [Some b] [] [] -> let (m', o) := k m b in known q pt m' o x) ->
  x = [] ->
  let (m', o) := with_self ok good start k in known q pt m' o x.
Proof.
  intros K X. unfold with_self. destruct good; cbn [negb].
  - destruct (alloc ok start) as [m1 [b|]] eqn:E.
    + apply K. exact (alloc_acc _ _ _ _ _ _ acc_start E).
    + cbn. split; [|exact X]. pose proof (alloc_acc _ _ _ _ _ _ acc_start E) as A.
      apply (acc_eq _ _ _ _ [] [] [] A); cbn; intros; lia.
  - cbn. split; [exact acc_start|exact X].
Qed.

End Ok.

Ltac takes A :=
  repeat match goal with
  | |- context [take ?ok ?pt ?a ?m] =>
      let m' := fresh "m" in let p := fresh "p" in let E := fresh "E" in
      destruct (take ok pt a m) as [m' p] eqn:E;
      apply (take_acc ok _ _ _ _ _ _ _ _ A) in E; clear A; rename E into A
  end.

Ltac args_const := rewrite ?take_const; cbn.

Local Arguments one : simpl never.
Local Arguments free : simpl never.
Local Arguments acc : simpl never.
Ltac counting := cbn; rewrite ?cn_app, ?many_app; cbn; rewrite ?cn_app, ?many_app; cbn; intros;
  repeat match goal with |- context [one ?b None] => change (one b None) with 0 end; lia.

Ltac same A := eapply (acc_eq _ _ _ _ _ _ _ A); [intros; counting|intros; counting].

Ltac refer :=
  let b := fresh "b" in let f := fresh "f" in let H := fresh "H" in let p := fresh "p" in let l := fresh "l" in
  let K := fresh "K" in
  intros b [->|[[f H]|(p & l & H & K)]];
  [cbn; tauto
  |cbn in H; repeat (destruct H as [H|H]; [injection H as ? H; rewrite ?H; cbn; tauto|]); destruct H
  |cbn in H; try discriminate].

Ltac refer_const :=
  let b := fresh "b" in let f := fresh "f" in let H := fresh "H" in let p := fresh "p" in let l := fresh "l" in
  let K := fresh "K" in
  intros b [->|[[f H]|(p & l & H & K)]];
  [left; reflexivity
  |right; cbn in H;
   repeat (destruct H as [H|H];
           [injection H as ? H; unfold of_arg in H;
            repeat match type of H with match ?a with _ => _ end = _ => destruct a; [|discriminate H] end;
            first [injection H as <-; eauto|subst; eauto]|]); destruct H
  |cbn in H; try discriminate].

(** The constructors without arrays. *)
Ltac simple :=
  apply with_self_known; [|reflexivity];
  let m := fresh "m" in let b := fresh "b" in let A := fresh "A" in
  intros m b A;
  match goal with pt : paramtype |- _ => destruct pt end;
  [ rewrite ?take_const; cbn; split;
    [eexists [Some b], []; split; [same A|split; [cbn; tauto|refer_const]]
    |apply free_acc; same A]
  | takes A; cbn [frees gives] in A; unfold known; split;
    [match type of A with acc _ ?l _ _ => exists l, [] end; split; [same A|split; [cbn; tauto|cbn [frees]; refer]]
    |cbn; repeat apply free_acc; same A]
  | takes A; cbn [frees gives] in A; unfold known; split;
    [match type of A with acc _ ?l _ _ => exists l, [] end; split; [same A|split; [cbn; tauto|cbn [frees]; refer]]
    |cbn; repeat apply free_acc; same A]].

Section Ok2.
Variable ok : nat -> bool.

Definition ordinary (q : request) : bool :=
  match q with QAct _ _ | QGetData _ _ _ _ _ | QPushOnChange _ _ _ _ _ _ => false | _ => true end.

Lemma known_simple q pt : ordinary q = true ->
  let (m, o) := build ok q pt start in known q pt m o [].
Proof.
  intros N. destruct q; cbn [build]; try discriminate N; clear N;
    unfold nc_rpc_act_generic_xml, nc_rpc_getconfig, nc_rpc_edit, nc_rpc_copy, nc_rpc_delete, nc_rpc_plain, nc_rpc_get,
      nc_rpc_commit, nc_rpc_cancel, nc_rpc_validate, nc_rpc_getschema, nc_rpc_subscribe, nc_rpc_editdata,
      nc_rpc_establishsub, nc_rpc_modifysub, nc_rpc_establishpush_periodic, nc_rpc_modifypush_periodic,
      nc_rpc_modifypush_onchange; simple.
Qed.

Lemma known_act v d pt : let (m, o) := build ok (QAct v d) pt start in known (QAct v d) pt m o [].
Proof.
  cbn [build]. unfold nc_rpc_act_generic.
  destruct d as [d|]; [|cbn; split; [exact acc_start|reflexivity]].
  apply with_self_known; [|reflexivity].
  intros m b A. destruct pt.
  - rewrite take_const. cbn. split.
    + exists [Some b], []. split; [same A|split; [cbn; tauto|refer_const]].
    + apply free_acc. same A.
  - destruct (take ok Free (Some d) m) as [m' p] eqn:E. pose proof (take_acc ok _ _ _ _ _ _ _ _ A E) as A'.
    rewrite take_free in E. injection E as <- <-. cbn [of_arg]. split.
    + match type of A' with acc _ ?l _ _ => exists l, [] end. split; [same A'|split; [cbn; tauto|cbn [frees]; refer]].
    + cbn. repeat apply free_acc. same A'.
  - destruct (take ok DupAndFree (Some d) m) as [m' p] eqn:E. pose proof (take_acc ok _ _ _ _ _ _ _ _ A E) as A'.
    destruct p as [p|]; unfold known.
    + split.
      * match type of A' with acc _ ?l _ _ => exists l, [] end.
        split; [same A'|split; [cbn; tauto|cbn [frees]; refer]].
      * cbn. repeat apply free_acc. same A'.
    + split; [|reflexivity]. apply free_acc. same A'.
Qed.

Lemma dup_strings_acc : forall l m l0 g x m' r good, acc m l0 g x -> dup_strings ok l m = (m', r, good) ->
  acc m' (r ++ l0) g x.
Proof.
  induction l as [|n l IH]; intros m l0 g x m' r good A E; cbn [dup_strings] in E.
  - injection E as <- <- <-. exact A.
  - destruct (alloc ok m) as [m1 [b|]] eqn:F.
    + destruct (dup_strings ok l m1) as [[m2 r2] good2] eqn:G. injection E as <- <- <-.
      pose proof (alloc_acc ok _ _ _ _ _ _ A F) as A1.
      pose proof (IH _ _ _ _ _ _ _ A1 G) as A2. same A2.
    + injection E as <- <- <-. pose proof (alloc_acc ok _ _ _ _ _ _ A F) as A1. same A1.
Qed.

Ltac in_array := cbn; rewrite ?in_app_iff; cbn; tauto.

Ltac refer_array :=
  let b := fresh "b" in let f := fresh "f" in let H := fresh "H" in let p := fresh "p" in let l := fresh "l" in
  let K := fresh "K" in
  intros b [->|[[f H]|(p & l & H & K)]];
  [in_array
  |cbn in H; repeat (destruct H as [H|H]; [injection H as ? H; rewrite ?H; in_array|]); destruct H
  |cbn in H; injection H as <- <-; destruct K as [K|K];
   [first [discriminate K|rewrite ?K; in_array]|first [destruct K; fail|in_array]]].

Ltac refer_const_array :=
  let b := fresh "b" in let f := fresh "f" in let H := fresh "H" in let p := fresh "p" in let l := fresh "l" in
  let K := fresh "K" in
  intros b [->|[[f H]|(p & l & H & K)]];
  [left; reflexivity
  |right; cbn in H;
   repeat (destruct H as [H|H];
           [injection H as ? H; unfold of_arg in H;
            repeat match type of H with match ?a with _ => _ end = _ => destruct a; [|discriminate H] end;
            injection H as <-; eauto|]); destruct H
  |right; cbn in H; injection H as <- <-; destruct K as [K|K];
   [first [discriminate K|injection K as <-; eauto]
   |first [destruct K; fail|apply in_map_iff in K; destruct K as (? & K & _); injection K as <-; eauto]]].

(** The blocks of an array handed over. *)
Lemma acc_handed m l g x n a : acc m l g x -> acc m (Some (Arg n) :: map (fun k => Some (Arg k)) a ++ l) (n :: a ++ g) x.
Proof.
  intros (A & B & C & D). split; [|split; [|split]]; auto. intros b. specialize (A b). cbn [many].
  rewrite many_app. destruct b as [k|k]; cbn [what cn].
  - rewrite many_args, cn_app. cbn [what] in A. unfold one.
    destruct (block_dec (Arg k) (Arg n)) as [H|H], (Nat.eq_dec k n) as [K|K]; try congruence; lia.
  - rewrite many_args_new. cbn [what] in A. unfold one. destruct (block_dec (New k) (Arg n)); [discriminate|lia].
Qed.

Lemma free_array_acc r p l m rest g x : r_array r = Some (p, l) -> acc m (p :: l ++ rest) g x ->
  acc (free_array r m) rest g x.
Proof.
  intros E A. unfold free_array. rewrite E. apply free_acc. apply free_list_acc. same A.
Qed.

Lemma known_getdata v d f c o pt : let (m, r) := build ok (QGetData v d f c o) pt start in
  known (QGetData v d f c o) pt m r [].
Proof.
  cbn [build]. unfold nc_rpc_getdata. apply with_self_known; [|reflexivity].
  intros m b A. destruct pt.
  - rewrite !take_const. destruct o as [[n l]|]; cbn; split.
    + exists [Some b], []. split; [same A|split; [cbn; tauto|refer_const_array]].
    + apply free_acc. same A.
    + exists [Some b], []. split; [same A|split; [cbn; tauto|refer_const_array]].
    + apply free_acc. same A.
  - takes A. cbn [frees gives] in A. destruct o as [[n l]|]; unfold known.
    + apply (acc_handed _ _ _ _ n l) in A. split.
      * match type of A with acc _ ?l _ _ => exists l, [] end.
        split; [same A|split; [in_array|cbn [frees]; refer_array]].
      * cbn [nc_rpc_free with_array mk r_type r_free frees]. apply free_acc.
        eapply free_array_acc; [reflexivity|]. eapply free_flds_acc; [reflexivity|]. same A.
    + split.
      * match type of A with acc _ ?l _ _ => exists l, [] end.
        split; [same A|split; [in_array|cbn [frees]; refer_array]].
      * cbn. repeat apply free_acc. same A.
  - takes A. cbn [frees gives] in A. destruct o as [[n l]|].
    + destruct (alloc ok m2) as [m3 [a|]] eqn:E; pose proof (alloc_acc ok _ _ _ _ _ _ A E) as A1.
      * destruct (dup_strings ok l m3) as [[m4 l'] good] eqn:D.
        pose proof (dup_strings_acc _ _ _ _ _ _ _ _ A1 D) as A2.
        destruct good; unfold known.
        -- split.
           ++ match type of A2 with acc _ ?l _ _ => exists l, [] end.
              split; [same A2|split; [in_array|cbn [frees]; refer_array]].
           ++ cbn [nc_rpc_free with_array mk r_type r_free frees]. apply free_acc.
              eapply free_array_acc; [reflexivity|]. eapply free_flds_acc; [reflexivity|]. same A2.
        -- split; [|reflexivity]. cbn [nc_rpc_free with_array mk r_type r_free frees]. apply free_acc.
           eapply free_array_acc; [reflexivity|]. eapply free_flds_acc; [reflexivity|]. same A2.
      * unfold known. split; [|reflexivity]. cbn [nc_rpc_free with_array mk r_type r_free frees]. apply free_acc.
        eapply free_array_acc; [reflexivity|]. eapply free_flds_acc; [reflexivity|]. same A1.
    + unfold known. split.
      * match type of A with acc _ ?l _ _ => exists l, [] end.
        split; [same A|split; [in_array|cbn [frees]; refer_array]].
      * cbn. repeat apply free_acc. same A.
Qed.

Fixpoint after_null (l : list ptr) : list ptr :=
  match l with
  | Some _ :: l => after_null l
  | _ => l
  end.

Lemma up_to_after b l : many b (up_to_null l) + many b (after_null l) = many b l.
Proof. induction l as [|[c|] l IH]; cbn [up_to_null after_null many]; try lia. Qed.

Lemma dup_changes_acc : forall l arr done m l0 g x m' a,
  acc m (arr :: done ++ l0) g x -> (arr = None -> done = []) -> dup_changes ok l arr done m = (m', a) ->
  (fst a = None -> snd a = []) /\
  exists y, acc m' (fst a :: snd a ++ l0) g (y ++ x) /\
  ((forall n, ok n = true) -> (forall p, In p done -> p <> None) ->
   y = [] /\ (forall p, In p (snd a) -> p <> None) /\ length (snd a) = length done + length l).
Proof.
  induction l as [|n l IH]; intros arr done m l0 g x m' a A I E; cbn [dup_changes] in E.
  - injection E as <- <-. cbn. split; [exact I|]. exists []. cbn. split; [exact A|]. intros _ H. split; [reflexivity|]. split; [exact H|lia].
  - destruct (alloc ok m) as [m1 [b|]] eqn:F; pose proof (alloc_acc ok _ _ _ _ _ _ A F) as A1.
    + destruct (alloc ok (free arr m1)) as [m2 s] eqn:G.
      assert (A2 : acc (free arr m1) (Some b :: done ++ l0) g x) by (apply free_acc; same A1).
      pose proof (alloc_acc ok _ _ _ _ _ _ A2 G) as A3.
      assert (A4 : acc m2 (Some b :: (done ++ [s]) ++ l0) g x) by same A3.
      destruct (IH _ _ _ _ _ _ _ _ A4 ltac:(discriminate) E) as (J & y & A5 & K).
      split; [exact J|]. exists y. split; [exact A5|]. intros O H.
      assert (Hs : s <> None).
      { unfold alloc in G. rewrite O in G. injection G as _ <-. discriminate. }
      assert (HH : forall p, In p (done ++ [s]) -> p <> None).
      { intros p P. apply in_app_or in P as [P|[<-|[]]]; auto. }
      destruct (K O HH) as (Y & Q & L). split; [exact Y|]. split; [exact Q|]. rewrite L, app_length. cbn. lia.
    + injection E as <- <-. cbn. split; [reflexivity|]. exists done. split.
      * apply (free_acc _ _ _ _ arr). same A1.
      * intros O. unfold alloc in F. rewrite O in F. discriminate.
Qed.

Lemma free_changes_acc r p l m rest g x : r_array r = Some (p, l) -> (p = None -> l = []) ->
  acc m (p :: l ++ rest) g x -> acc (free_changes r m) rest g (after_null l ++ x).
Proof.
  intros E I A. unfold free_changes. rewrite E. destruct p as [b|].
  - apply free_acc. apply free_list_acc. apply (acc_eq _ _ _ _ _ _ _ A); [|reflexivity].
    intros c. pose proof (up_to_after c l). cbn. rewrite !many_app. cbn. lia.
  - rewrite (I eq_refl) in *. cbn. same A.
Qed.

Lemma after_null_none l : (forall p, In p l -> p <> None) -> after_null l = [].
Proof.
  induction l as [|[c|] l IH]; intros H; cbn; [reflexivity| |].
  - apply IH. intros p P. apply H. right. exact P.
  - destruct (H None); [left|]; reflexivity.
Qed.

Lemma after_null_args l : after_null (map (fun k => Some (Arg k)) l) = [].
Proof. induction l; cbn; auto. Qed.

Lemma with_self_lost (good : bool) (k : mem -> block -> mem * option rpc) (q : request) (pt : paramtype) (all : Prop) :
  (forall m b, acc m [Some b] [] [] -> let (m', o) := k m b in exists x, known q pt m' o x /\ (all -> x = [])) ->
  let (m', o) := with_self ok good start k in exists x, known q pt m' o x /\ (all -> x = []).
Proof.
  intros K. unfold with_self. destruct good; cbn [negb].
  - destruct (alloc ok start) as [m1 [b|]] eqn:E.
    + apply K. exact (alloc_acc ok _ _ _ _ _ _ acc_start E).
    + exists []. cbn. split; [|reflexivity]. split; [|reflexivity]. pose proof (alloc_acc ok _ _ _ _ _ _ acc_start E) as A.
      apply (acc_eq _ _ _ _ [] [] [] A); cbn; intros; try lia. unfold one. lia.
  - exists []. cbn. split; [|reflexivity]. split; [exact acc_start|reflexivity].
Qed.

Lemma known_onchange v d f s e a pt : let (m, r) := build ok (QPushOnChange v d f s e a) pt start in
  exists x, known (QPushOnChange v d f s e a) pt m r x /\
    ((forall n, ok n = true) \/ pt <> DupAndFree \/ a = None -> x = []).
Proof.
  cbn [build]. unfold nc_rpc_establishpush_onchange. apply with_self_lost.
  intros m b A. destruct pt.
  - rewrite !take_const. destruct a as [[n l]|]; (exists []; split; [|reflexivity]); cbn; split.
    + exists [Some b], []. split; [same A|split; [cbn; tauto|refer_const_array]].
    + apply free_acc. same A.
    + exists [Some b], []. split; [same A|split; [cbn; tauto|refer_const_array]].
    + apply free_acc. same A.
  - takes A. cbn [frees gives] in A. destruct a as [[n l]|]; (exists []; split; [|reflexivity]); unfold known.
    + apply (acc_handed _ _ _ _ n l) in A. split.
      * match type of A with acc _ ?l _ _ => exists l, [] end.
        split; [same A|split; [in_array|cbn [frees]; refer_array]].
      * cbn [nc_rpc_free with_array mk r_type r_free r_periodic frees]. apply free_acc.
        match goal with |- acc ?m ?h ?g [] =>
          cut (acc m h g (after_null (map (fun k => Some (Arg k)) l) ++ [])); [rewrite after_null_args; exact (fun x => x)|]
        end.
        eapply free_changes_acc; [reflexivity|discriminate|]. eapply free_flds_acc; [reflexivity|]. same A.
    + split.
      * match type of A with acc _ ?l _ _ => exists l, [] end.
        split; [same A|split; [in_array|cbn [frees]; refer_array]].
      * cbn. repeat apply free_acc. same A.
  - takes A. cbn [frees gives] in A. destruct a as [[n l]|].
    + destruct (dup_changes ok l None [] m3) as [m4 a] eqn:E.
      assert (A1 : acc m3 (None :: [] ++ [p2; p1; p0; p; Some b]) [] []) by same A.
      destruct (dup_changes_acc _ _ _ _ _ _ _ _ _ A1 ltac:(reflexivity) E) as (I & y & A2 & K).
      exists (after_null (snd a) ++ y). split.
      * unfold known. split.
        -- exists (fst a :: snd a ++ [p2; p1; p0; p; Some b]), y. rewrite app_nil_r in A2.
           split; [exact A2|]. split; [in_array|]. cbn [frees]. destruct a as [a1 a2]. cbn [fst snd]. refer_array.
        -- cbn [nc_rpc_free with_array mk r_type r_free r_periodic frees]. apply free_acc.
           eapply (free_changes_acc _ (fst a) (snd a)); [destruct a; reflexivity|exact I|].
           eapply free_flds_acc; [reflexivity|]. rewrite app_nil_r in A2. same A2.
      * intros [O|[O|O]]; [|congruence|discriminate].
        destruct (K O) as (-> & Q & _); [intros ? []|]. rewrite after_null_none; auto.
    + exists []. split; [|reflexivity]. unfold known. split.
      * match type of A with acc _ ?l _ _ => exists l, [] end.
        split; [same A|split; [in_array|cbn [frees]; refer_array]].
      * cbn. repeat apply free_acc. same A.
Qed.

(** All requests. *)
Lemma known_all q pt : let (m, r) := build ok q pt start in
  exists x, known q pt m r x /\
    ((forall n, ok n = true) \/ pt <> DupAndFree \/ (forall v d f s e a, q <> QPushOnChange v d f s e (Some a)) ->
     x = []).
Proof.
  destruct (ordinary q) eqn:O.
  - pose proof (known_simple q pt O) as K. destruct (build ok q pt start). exists []. auto.
  - destruct q; try discriminate O.
    + pose proof (known_act valid data pt) as K. destruct (build ok _ pt start). exists []. auto.
    + pose proof (known_getdata valid datastore filter config_filter origin pt) as K.
      destruct (build ok _ pt start). exists []. auto.
    + pose proof (known_onchange valid datastore filter stop_time encoding excluded pt) as K.
      destruct (build ok _ pt start). destruct K as (x & K & X). exists x. split; [exact K|]. intros H. apply X.
      destruct H as [H|[H|H]]; auto. right. right. destruct excluded as [a|]; [|reflexivity].
      exfalso. eapply H. reflexivity.
Qed.

End Ok2.

(** * C159: requests are freed safely *)

Lemma acc_safe m l g x : acc m l g x -> NoDup g ->
  NoDup (m_freed m) /\ (forall k, In (New k) (m_freed m) -> In k (m_made m)) /\
  (forall a, In (Arg a) (m_freed m) -> In a g) /\ m_bad m = false.
Proof.
  intros (A & B & C & D) N. pose proof (nodup_cn _ N) as G. repeat split; auto.
  - apply cnt_nodup. intros b. specialize (A b). destruct b as [a|k]; cbn in A; [specialize (G a)|specialize (B k)]; lia.
  - intros k H. rewrite cnt_in in H. specialize (A (New k)). cbn in A. apply cn_in. lia.
  - intros k H. rewrite cnt_in in H. specialize (A (Arg k)). cbn in A. apply cn_in. lia.
Qed.

Lemma acc_live m l g x b : acc m l g x -> NoDup g -> In (Some b) l -> ~ In b (m_freed m).
Proof.
  intros (A & B & C & D) N H K. apply many_in in H. rewrite cnt_in in K. pose proof (nodup_cn _ N) as G.
  specialize (A b). destruct b as [a|k]; cbn in A; [specialize (G a)|specialize (B k)]; lia.
Qed.

Lemma handed_nodup q pt o : (pt = Free -> NoDup (given q)) -> NoDup (handed q pt o).
Proof. intros H. destruct pt, o; cbn; auto; constructor. Qed.

Theorem c159_requests_freed_safely : forall ok q pt m o,
  build ok q pt start = (m, o) -> (pt = Free -> NoDup (given q)) ->
  (forall r, o = Some r -> forall b, refers r b -> ~ In b (m_freed m)) /\
  safe (nc_rpc_free o m) (handed q pt o).
Proof.
  intros ok q pt m o E N. pose proof (known_all ok q pt) as K. rewrite E in K. destruct K as (x & K & X).
  pose proof (handed_nodup q pt o N) as ND.
  destruct o as [r|]; cbn [known] in K.
  - destruct K as ((l & y & A & SELF & R) & F). split.
    + intros r' [= <-] b H. destruct (frees pt) eqn:FR.
      * exact (acc_live _ _ _ _ _ A ND (R b H)).
      * destruct (R b H) as [->|[a ->]]; [exact (acc_live _ _ _ _ _ A ND SELF)|].
        destruct pt; try discriminate FR. intros I. destruct (acc_safe _ _ _ _ A ND) as (_ & _ & G & _).
        destruct (G a I).
    + destruct (acc_safe _ _ _ _ F ND) as (S1 & S2 & S3 & S4). split; [exact S1|]. split; [exact S2|]. split; [|exact S4].
      intros a. split; [apply S3|]. intros H. apply cn_in in H. apply cnt_in.
      destruct F as (F & _). specialize (F (Arg a)). cbn [what many] in F.
      destruct pt; cbn [handed cn] in F, H; try lia. rewrite X in F; [cbn [many] in F; lia|]. right. left. discriminate.
  - destruct K as (A & ->). split; [discriminate|]. cbn.
    destruct (acc_safe _ _ _ _ A ltac:(constructor)) as (S1 & S2 & S3 & S4).
    assert (HN : handed q pt None = []) by (destruct pt; reflexivity). rewrite HN.
    repeat split; auto. intros [].
Qed.

(** * C160: nothing allocated for a request is lost *)

Definition c160_full : Prop := forall ok q pt m o, build ok q pt start = (m, o) -> no_leak (nc_rpc_free o m).

Lemma acc_no_leak m g : acc m [] g [] -> no_leak m.
Proof.
  intros (A & _) k H. apply cn_in in H. apply cnt_in. specialize (A (New k)). cbn in A. lia.
Qed.

(** It holds for all requests but nc_rpc_establishpush_onchange() copying a list of excluded changes, and for
    that one if no allocation fails. *)
Theorem c160_nothing_lost_partial : forall ok q pt m o,
  build ok q pt start = (m, o) ->
  (forall n, ok n = true) \/ pt <> DupAndFree \/ (forall v d f s e a, q <> QPushOnChange v d f s e (Some a)) ->
  no_leak (nc_rpc_free o m).
Proof.
  intros ok q pt m o E C. pose proof (known_all ok q pt) as K. rewrite E in K. destruct K as (x & K & X).
  rewrite (X C) in K. destruct o as [r|]; cbn [known] in K.
  - exact (acc_no_leak _ _ (proj2 K)).
  - exact (acc_no_leak _ _ (proj1 K)).
Qed.

(** The array cannot be enlarged for the second string: the first is lost. *)
Theorem c160_excluded_change_refuted : ~ c160_full.
Proof.
  intros H.
  set (q := QPushOnChange true (Some 0) None None None (Some (1, [2; 3]))).
  set (ok := fun n => negb (Nat.eqb n 4)).
  destruct (build ok q DupAndFree start) as [m o] eqn:E.
  specialize (H ok q DupAndFree m o E 3). vm_compute in E. injection E as <- <-. vm_compute in H. intuition discriminate.
Qed.

(** * C161: a request that was made has the parameters it was given *)

Definition stands_for (pt : paramtype) (a : arg) (p : ptr) : Prop :=
  match a, pt with
  | None, _ => p = None
  | Some _, DupAndFree => exists k, p = Some (New k)
  | Some n, _ => p = Some (Arg n)
  end.

Definition has_params (q : request) (pt : paramtype) (r : rpc) : Prop :=
  (forall f a, In (f, a) (params q) -> exists p, get f (r_flds r) = Some p /\ stands_for pt a p) /\
  match array_of q with
  | None => forall p l, r_array r = Some (p, l) -> p = None /\ l = []
  | Some (n, l) =>
      exists p l', r_array r = Some (p, l') /\ (l <> [] -> stands_for pt (Some n) p) /\
        Forall2 (stands_for pt) (map Some l) l'
  end.

Definition c161_full : Prop := forall ok q pt m r, build ok q pt start = (m, Some r) -> has_params q pt r.

(** What must be given, and the checks of the values. *)
Definition mandatory (q : request) : list field :=
  match q with
  | QAct _ _ => [Data] | QXml _ => [XmlStr] | QEdit _ _ => [EditCont] | QGetSchema _ _ _ => [Identifier]
  | QEstablishSub _ _ _ _ _ _ => [Stream] | QEditData _ _ _ => [Datastore; EditCont]
  | QGetData _ _ _ _ _ | QPushPeriodic _ _ _ _ _ _ | QPushOnChange _ _ _ _ _ _ | QModPeriodic _ _ _ _ _
  | QModOnChange _ _ _ _ => [Datastore]
  | _ => []
  end.

Definition values_good (q : request) : bool :=
  match q with
  | QXml _ | QLock | QUnlock | QDiscard | QCommit _ _ | QCancel _ | QGetSchema _ _ _ => true
  | QAct v _ | QGetConfig v _ | QEdit v _ | QCopy v _ _ | QDelete v _ | QKill v | QDeleteSub v | QKillSub v | QResync v
  | QGet v _ | QValidate v _ | QSubscribe v _ _ _ _ | QGetData v _ _ _ _ | QEditData v _ _
  | QEstablishSub v _ _ _ _ _ | QModifySub v _ _ | QPushPeriodic v _ _ _ _ _ | QPushOnChange v _ _ _ _ _
  | QModPeriodic v _ _ _ _ | QModOnChange v _ _ _ => v
  end.

Definition acceptable (q : request) : Prop :=
  values_good q = true /\ forall f, In f (mandatory q) -> ~ In (f, None) (params q).

Section Params.
Variable ok : nat -> bool.

Definition sound (pt : paramtype) : Prop := (forall n, ok n = true) \/ pt <> DupAndFree.

Lemma take_stands pt a m m' p : sound pt -> take ok pt a m = (m', p) -> stands_for pt a p.
Proof.
  intros S E. destruct a as [n|], pt; cbn in E; try (injection E as <- <-); cbn; auto.
  destruct S as [S|S]; [|congruence]. unfold alloc in E. rewrite S in E. injection E as <- <-. eauto.
Qed.

Lemma dup_strings_good : forall l m m' r good, dup_strings ok l m = (m', r, good) ->
  (good = true -> Forall2 (stands_for DupAndFree) (map Some l) r) /\ ((forall n, ok n = true) -> good = true).
Proof.
  induction l as [|n l IH]; intros m m' r good E; cbn [dup_strings] in E.
  - injection E as <- <- <-. cbn. split; [constructor|reflexivity].
  - unfold alloc in E. destruct (ok (m_tries m)) eqn:O.
    + match type of E with context [dup_strings ok l ?mm] => destruct (dup_strings ok l mm) as [[m2 r2] g2] eqn:G end.
      injection E as <- <- <-. destruct (IH _ _ _ _ G) as [I J]. split; [|exact J].
      intros H. cbn. constructor; [cbn; eauto|auto].
    + injection E as <- <- <-. split; [discriminate|]. intros H. rewrite H in O. discriminate.
Qed.

Lemma dup_changes_good : (forall n, ok n = true) -> forall l arr done m,
  exists m' arr' r, dup_changes ok l arr done m = (m', (arr', done ++ r)) /\
    Forall2 (stands_for DupAndFree) (map Some l) r /\ (l <> [] -> exists k, arr' = Some (New k)) /\ (l = [] -> arr' = arr).
Proof.
  intros O. induction l as [|n l IH]; intros arr done m; cbn [dup_changes].
  - exists m, arr, []. rewrite app_nil_r. cbn. split; [reflexivity|]. split; [constructor|]. split; [congruence|reflexivity].
  - unfold alloc. rewrite O. cbn [m_tries]. rewrite O.
    match goal with |- context [dup_changes ok l ?b ?d ?mm] => destruct (IH b d mm) as (m' & arr' & r & E & F & G & H) end.
    rewrite E. eexists _, _, (_ :: r). rewrite <- app_assoc. split; [reflexivity|]. split.
    + cbn. constructor; [cbn; eauto|exact F].
    + split; [|discriminate]. intros _. destruct l as [|n' l]; [rewrite (H eq_refl); eauto|apply G; discriminate].
Qed.


Ltac began E :=
  unfold with_self in E;
  match type of E with (if ?c then _ else _) = _ => destruct c; [discriminate E|] end;
  let m := fresh "m" in let b := fresh "b" in
  destruct (alloc ok start) as [m [b|]]; [|discriminate E].

Ltac taken E S :=
  repeat match type of E with
  | context [take ok ?pt ?a ?m] =>
      let m' := fresh "m" in let p := fresh "p" in let T := fresh "T" in
      destruct (take ok pt a m) as [m' p] eqn:T; apply take_stands in T; [|exact S]
  end.

Ltac fields :=
  let H := fresh "H" in
  intros ? ? H; cbn in H;
  repeat (destruct H as [H|H]; [injection H as <- <-; eexists; split; [reflexivity|assumption]|]); destruct H.

Lemma stands_given pt l : pt <> DupAndFree ->
  Forall2 (stands_for pt) (map Some l) (map (fun k => Some (Arg k)) l).
Proof. intros H. induction l; cbn; constructor; auto. destruct pt; cbn; congruence. Qed.

Lemma has_params_if_sound q pt m r : sound pt -> build ok q pt start = (m, Some r) -> has_params q pt r.
Proof.
  intros S E. destruct q; cbn [build] in E;
    unfold nc_rpc_act_generic, nc_rpc_act_generic_xml, nc_rpc_getconfig, nc_rpc_edit, nc_rpc_copy, nc_rpc_delete,
      nc_rpc_plain, nc_rpc_get,
      nc_rpc_commit, nc_rpc_cancel, nc_rpc_validate, nc_rpc_getschema, nc_rpc_subscribe, nc_rpc_getdata, nc_rpc_editdata,
      nc_rpc_establishsub, nc_rpc_modifysub, nc_rpc_establishpush_periodic, nc_rpc_establishpush_onchange,
      nc_rpc_modifypush_periodic,
      nc_rpc_modifypush_onchange in E; began E; taken E S;
    try (injection E as <- <-; split; [fields|cbn; discriminate]).
  - destruct p as [p|]; [|discriminate]. injection E as <- <-. split; [fields|cbn; discriminate].
  - destruct origin as [[n l]|].
    + destruct pt.
      * injection E as <- <-. split; [fields|]. cbn. eexists _, _. split; [reflexivity|].
        split; [reflexivity|]. apply stands_given. discriminate.
      * injection E as <- <-. split; [fields|]. cbn. eexists _, _. split; [reflexivity|].
        split; [reflexivity|]. apply stands_given. discriminate.
      * destruct (alloc ok m3) as [m4 [a|]] eqn:A; [|discriminate].
        destruct (dup_strings ok l m4) as [[m5 l'] good] eqn:D. destruct good; [|discriminate].
        injection E as <- <-. split; [fields|]. cbn. eexists _, _. split; [reflexivity|].
        apply dup_strings_good in D as [D _]. split; [|apply D; reflexivity]. intros _.
        unfold alloc in A. destruct (ok (m_tries m3)); [|discriminate]. injection A as _ <-. eauto.
    + assert (E' : (m3, Some (with_array (mk b GetData (frees pt) [(Datastore, p); (Filter, p0); (ConfigFilter, p1)])
                     (None, []))) = (m, Some r)) by (destruct pt; exact E).
      injection E' as <- <-. split; [fields|]. cbn. intros ? ? [= <- <-]. auto.
  - destruct excluded as [[n l]|].
    + destruct pt.
      * injection E as <- <-. split; [fields|]. cbn. eexists _, _. split; [reflexivity|].
        split; [reflexivity|]. apply stands_given. discriminate.
      * injection E as <- <-. split; [fields|]. cbn. eexists _, _. split; [reflexivity|].
        split; [reflexivity|]. apply stands_given. discriminate.
      * destruct S as [S|S]; [|congruence].
        destruct (dup_changes_good S l None [] m4) as (m' & arr' & l' & D & F & G & _). rewrite D in E.
        injection E as <- <-. split; [fields|]. cbn. eexists _, _. split; [reflexivity|]. split; [|exact F].
        exact G.
    + assert (E' : (m4, Some (with_array (mk b EstablishPush (frees pt)
                     [(Datastore, p); (Filter, p0); (StopTime, p1); (Encoding, p2)])
                     (None, []))) = (m, Some r)) by (destruct pt; exact E).
      injection E' as <- <-. split; [fields|]. cbn. intros ? ? [= <- <-]. auto.
Qed.

End Params.

Lemma acceptable_spec q : 
  acceptable q <->
  match q with
  | QAct v a | QEdit v a | QGetData v a _ _ _ | QPushPeriodic v a _ _ _ _ | QPushOnChange v a _ _ _ _
  | QModPeriodic v a _ _ _ | QModOnChange v a _ _ | QEstablishSub v _ a _ _ _ => negb (is_null a) && v
  | QXml a | QGetSchema a _ _ => negb (is_null a)
  | QEditData v a b => negb (is_null a) && negb (is_null b) && v
  | _ => values_good q
  end = true.
Proof.
  unfold acceptable. destruct q; cbn [mandatory values_good params];
    repeat match goal with a : arg |- _ => destruct a as [?|] end;
    repeat match goal with v : bool |- _ => destruct v end; cbn [is_null negb andb];
    (split;
     [intros [A B]; try discriminate A; try reflexivity; exfalso;
      first [apply (B Data); cbn; tauto|apply (B XmlStr); cbn; tauto|apply (B EditCont); cbn; tauto
            |apply (B Identifier); cbn; tauto|apply (B Stream); cbn; tauto|apply (B Datastore); cbn; tauto]
     |intros H; try discriminate H;
      (split; [reflexivity|intros f F K; cbn in F, K; intuition congruence])]).
Qed.


Theorem c161_request_has_its_parameters_partial : forall ok q pt m r,
  (forall n, ok n = true) \/ pt <> DupAndFree ->
  build ok q pt start = (m, Some r) -> has_params q pt r.
Proof. intros ok q pt m r S E. exact (has_params_if_sound ok q pt m r S E). Qed.

(** The strings of get-data's origin filters are never lost, whatever fails. *)
Theorem c161_origin_filters : forall ok v d f c n l pt m r,
  build ok (QGetData v d f c (Some (n, l))) pt start = (m, Some r) ->
  exists p l', r_array r = Some (p, l') /\ stands_for pt (Some n) p /\ Forall2 (stands_for pt) (map Some l) l'.
Proof.
  intros ok v d f c n l pt m r E. cbn [build] in E. unfold nc_rpc_getdata, with_self in E.
  destruct (negb (negb (is_null d) && v)); [discriminate|].
  destruct (alloc ok start) as [m1 [b|]]; [|discriminate].
  destruct (take ok pt d m1) as [m2 p2], (take ok pt f m2) as [m3 p3], (take ok pt c m3) as [m4 p4].
  destruct pt.
  - injection E as <- <-. eexists _, _. split; [reflexivity|]. split; [reflexivity|apply stands_given; discriminate].
  - injection E as <- <-. eexists _, _. split; [reflexivity|]. split; [reflexivity|apply stands_given; discriminate].
  - destruct (alloc ok m4) as [m5 [a|]] eqn:A; [|discriminate].
    destruct (dup_strings ok l m5) as [[m6 l'] good] eqn:D. destruct good; [|discriminate].
    injection E as <- <-. eexists _, _. split; [reflexivity|].
    apply dup_strings_good in D as [D _]. split; [|apply D; reflexivity].
    unfold alloc in A. destruct (ok (m_tries m4)); [|discriminate]. injection A as _ <-. cbn. eauto.
Qed.

(** A failed strdup() is not noticed: the request asks for everything. *)
Theorem c161_lost_filter_refuted : ~ c161_full.
Proof.
  intros H. set (ok := fun n => Nat.eqb n 0).
  destruct (build ok (QGetConfig true (Some 7)) DupAndFree start) as [m [r|]] eqn:E; [|vm_compute in E; discriminate].
  specialize (H _ _ _ _ _ E). destruct H as [H _].
  specialize (H Filter (Some 7) (or_introl eq_refl)) as (p & G & k & P).
  vm_compute in E. injection E as <- <-. vm_compute in G. congruence.
Qed.

Lemma with_self_some ok good k m r : with_self ok good start k = (m, Some r) -> good = true.
Proof. unfold with_self. destruct good; [reflexivity|discriminate]. Qed.

Lemma with_self_made ok good k : (forall n, ok n = true) -> good = true ->
  (forall m b, snd (k m b) <> None) -> snd (with_self ok good start k) <> None.
Proof. intros O -> K. unfold with_self, alloc. cbn [negb]. rewrite O. apply K. Qed.

Lemma take_all_ok ok pt n m : (forall n, ok n = true) -> snd (take ok pt (Some n) m) <> None.
Proof. intros O. destruct pt; cbn; try discriminate. unfold alloc. rewrite O. discriminate. Qed.

(** A request is made only of acceptable parameters, and of all of those if memory suffices. *)
Theorem c161_made_iff_acceptable : forall ok q pt,
  (snd (build ok q pt start) <> None -> acceptable q) /\
  ((forall n, ok n = true) -> acceptable q -> snd (build ok q pt start) <> None).
Proof.
  intros ok q pt. rewrite acceptable_spec. split.
  - destruct (build ok q pt start) as [m [r|]] eqn:E; [intros _|cbn; congruence].
    destruct q; cbn [build] in E; try reflexivity; apply with_self_some in E; try exact E.
  - intros O A. destruct q; cbn [build]; apply with_self_made; auto; intros m b;
      repeat match goal with |- context [let (_, _) := take ?o ?p ?a ?mm in _] => destruct (take o p a mm) eqn:? end;
      try (cbn; discriminate).
    + destruct data as [d|]; [|discriminate A]. pose proof (take_all_ok ok pt d m O) as X.
      match goal with T : take ok pt (Some d) m = (_, ?p) |- _ => rewrite T in X; destruct p; cbn in *; congruence end.
    + destruct origin as [[n l]|], pt; try (cbn; discriminate). unfold alloc. rewrite O.
      match goal with |- context [dup_strings ok l ?mm] => destruct (dup_strings ok l mm) as [[m3 l'] good] eqn:D end.
      apply dup_strings_good in D as [_ D]. rewrite (D O). cbn. discriminate.
    + destruct excluded as [[n l]|], pt; try (cbn; discriminate).
      match goal with |- context [dup_changes ok l ?a ?b ?mm] => destruct (dup_changes ok l a b mm) end.
      cbn. discriminate.
Qed.

(** * C162: replies *)

Inductive reply_call := KOk | KData (valid : bool) (data : arg) (pt : paramtype) | KErr (err : arg).

Definition build_reply (ok : nat -> bool) (c : reply_call) (m : mem) : mem * option reply :=
  match c with
  | KOk => nc_server_reply_ok ok m
  | KData v d pt => nc_server_reply_data ok v d pt m
  | KErr e => nc_server_reply_err ok e m
  end.

Fixpoint add_errs (r : reply) (l : list arg) : reply * list bool :=
  match l with
  | [] => (r, [])
  | e :: l => let (r1, b) := nc_server_reply_add_err r e in let (r2, bs) := add_errs r1 l in (r2, b :: bs)
  end.

Definition is_error (c : reply_call) : bool := match c with KErr _ => true | _ => false end.

(** The errors given, NULLs left out. *)
Definition errors (c : reply_call) (l : list arg) : list nat :=
  match c with
  | KErr e => flat_map (fun a => match a with Some n => [n] | None => [] end) (e :: l)
  | _ => []
  end.

Definition reply_handed (c : reply_call) (l : list arg) : list nat :=
  match c with
  | KData _ (Some d) Free => [d]
  | _ => errors c l
  end.

Lemma add_errs_error b : forall l es,
  add_errs (RError b es) l =
  (RError b (es ++ map Arg (flat_map (fun a => match a with Some n => [n] | None => [] end) l)),
   map (fun a => negb (is_null a)) l).
Proof.
  induction l as [|[n|] l IH]; intros es; cbn.
  - rewrite app_nil_r. reflexivity.
  - rewrite IH. rewrite <- app_assoc. reflexivity.
  - rewrite IH. reflexivity.
Qed.

Lemma add_errs_other r : (forall b es, r <> RError b es) -> forall l, add_errs r l = (r, map (fun _ => false) l).
Proof.
  intros H. induction l as [|e l IH]; cbn; [reflexivity|].
  replace (nc_server_reply_add_err r e) with (r, false).
  - rewrite IH. reflexivity.
  - destruct r; try reflexivity. exfalso. eapply H. reflexivity.
Qed.

Lemma free_errs l : forall m, fold_left (fun m e => free (Some e) m) (map Arg l) m =
  fold_left (fun m q => free q m) (map (fun k => Some (Arg k)) l) m.
Proof. induction l as [|n l IH]; intros m; cbn; [reflexivity|apply IH]. Qed.

Lemma acc_clean m g : acc m [] g [] -> NoDup g -> safe m g /\ no_leak m.
Proof.
  intros A N. split; [|exact (acc_no_leak _ _ A)].
  destruct (acc_safe _ _ _ _ A N) as (S1 & S2 & S3 & S4). repeat split; auto.
  intros H. apply cn_in in H. apply cnt_in. destruct A as (A & _). specialize (A (Arg a)). cbn [what many] in A. lia.
Qed.

(** However a reply is made, whatever errors are added: errors are taken by error replies only;
    nc_server_reply_free() frees the reply, the errors taken and the data handed over or copied, once
    each, and nothing else; the last error is the one given last. *)
Theorem c162_replies_freed_once : forall ok c l m r r' taken,
  build_reply ok c start = (m, Some r) -> add_errs r l = (r', taken) -> NoDup (reply_handed c l) ->
  safe (nc_server_reply_free (Some r') m) (reply_handed c l) /\
  no_leak (nc_server_reply_free (Some r') m) /\
  taken = map (fun e => is_error c && negb (is_null e)) l /\
  (forall k es, errors c l = es ++ [k] -> nc_server_reply_get_last_err r' = Some (Arg k)).
Proof.
  intros ok c l m r r' tk B AD N. match goal with |- ?A /\ ?B /\ ?C => cut ((A /\ B) /\ C); [intros [[X Y] Z]; exact (conj X (conj Y Z))|] end.
  split; [apply acc_clean; [|exact N]|].
  - destruct c as [|v d pt|e]; cbn [build_reply] in B.
    + unfold nc_server_reply_ok in B. destruct (alloc ok start) as [m1 [b|]] eqn:E; [|discriminate].
      injection B as <- <-. rewrite add_errs_other in AD by discriminate. injection AD as <- <-.
      cbn. apply free_acc. exact (alloc_acc ok _ _ _ _ _ _ acc_start E).
    + unfold nc_server_reply_data in B. destruct d as [d|]; [|discriminate]. cbn [is_null orb] in B.
      destruct (negb v); [discriminate|].
      destruct (alloc ok start) as [m1 [b|]] eqn:E; [|discriminate].
      pose proof (alloc_acc ok _ _ _ _ _ _ acc_start E) as A.
      destruct (take ok pt (Some d) m1) as [m2 [p|]] eqn:T; [|discriminate].
      pose proof (take_acc ok _ _ _ _ _ _ _ _ A T) as A'.
      injection B as <- <-. rewrite add_errs_other in AD by discriminate. injection AD as <- <-.
      cbn. apply free_acc. destruct pt; cbn in *; [exact A'| |]; apply free_acc; exact A'.
    + unfold nc_server_reply_err in B. destruct e as [e|]; [|discriminate].
      destruct (alloc ok start) as [m1 [b|]] eqn:E; [|discriminate].
      pose proof (alloc_acc ok _ _ _ _ _ _ acc_start E) as A.
      injection B as <- <-. rewrite add_errs_error in AD. injection AD as <- <-.
      cbn [nc_server_reply_free reply_handed errors]. apply free_acc.
      match goal with |- context [fold_left _ ?z m1] =>
        change z with (map Arg (e :: flat_map (fun a : arg => match a with Some n => [n] | None => [] end) l)) end.
      rewrite free_errs. apply free_list_acc.
      pose proof (acc_handed _ _ _ _ e (flat_map (fun a => match a with Some n => [n] | None => [] end) l) A) as H.
      rewrite app_nil_r in H. exact H.
  - destruct c as [|v d pt|e]; cbn [build_reply] in B.
    + unfold nc_server_reply_ok in B. destruct (alloc ok start) as [m1 [b|]]; [|discriminate].
      injection B as <- <-. rewrite add_errs_other in AD by discriminate. injection AD as <- <-.
      split; [reflexivity|]. cbn. intros k [|? ?] H; discriminate.
    + unfold nc_server_reply_data in B. destruct (is_null d || negb v); [discriminate|].
      destruct (alloc ok start) as [m1 [b|]]; [|discriminate].
      destruct (take ok pt d m1) as [m2 [p|]]; [|discriminate].
      injection B as <- <-. rewrite add_errs_other in AD by discriminate. injection AD as <- <-.
      split; [reflexivity|]. cbn. intros k [|? ?] H; discriminate.
    + unfold nc_server_reply_err in B. destruct e as [e|]; [|discriminate].
      destruct (alloc ok start) as [m1 [b|]]; [|discriminate].
      injection B as <- <-. rewrite add_errs_error in AD. injection AD as <- <-.
      split; [reflexivity|]. intros k es H.
      cbn [nc_server_reply_get_last_err].
      match goal with |- context [rev ?z] => change z with (map Arg (errors (KErr (Some e)) l)) end.
      rewrite H, map_app, rev_app_distr. reflexivity.
Qed.

(** If no reply is made, nothing is kept and nothing of the caller is freed. *)
Theorem c162_no_reply : forall ok c m, build_reply ok c start = (m, None) -> safe m [] /\ no_leak m.
Proof.
  intros ok c m B. apply acc_clean; [|constructor].
  destruct c as [|v d pt|e]; cbn [build_reply] in B.
  - unfold nc_server_reply_ok in B. destruct (alloc ok start) as [m1 [b|]] eqn:E; [discriminate|].
    injection B as <-. pose proof (alloc_acc ok _ _ _ _ _ _ acc_start E) as A. same A.
  - unfold nc_server_reply_data in B. destruct d as [d|]; cbn [is_null orb] in B; [|injection B as <-; exact acc_start].
    destruct v; cbn [negb] in B; [|injection B as <-; exact acc_start].
    destruct (alloc ok start) as [m1 [b|]] eqn:E; pose proof (alloc_acc ok _ _ _ _ _ _ acc_start E) as A.
    + destruct (take ok pt (Some d) m1) as [m2 [p|]] eqn:T; [discriminate|]. injection B as <-. apply free_acc.
      pose proof (take_acc ok _ _ _ _ _ _ _ _ A T) as A'. destruct pt; try (cbn in T; discriminate). same A'.
    + injection B as <-. same A.
  - unfold nc_server_reply_err in B. destruct e as [e|]; [|injection B as <-; exact acc_start].
    destruct (alloc ok start) as [m1 [b|]] eqn:E; [discriminate|].
    injection B as <-. pose proof (alloc_acc ok _ _ _ _ _ _ acc_start E) as A. same A.
Qed.

(** * C163: notifications *)

Definition notif_handed (event eventtime : arg) (pt : paramtype) (o : option notif) : list nat :=
  match event, eventtime, pt, o with Some e, Some t, Free, Some _ => [e; t] | _, _, _, _ => [] end.

Definition c163_full : Prop := forall ok v event eventtime pt m o,
  nc_server_notif_new ok v event eventtime pt start = (m, o) -> (pt = Free -> event <> eventtime) ->
  safe (nc_server_notif_free o m) (notif_handed event eventtime pt o) /\ no_leak (nc_server_notif_free o m).

(** It holds if the notification was made or nothing was to be copied; otherwise it is at least safe. *)
Theorem c163_notifications_freed_once_partial : forall ok v event eventtime pt m o,
  nc_server_notif_new ok v event eventtime pt start = (m, o) -> (pt = Free -> event <> eventtime) ->
  safe (nc_server_notif_free o m) (notif_handed event eventtime pt o) /\
  (o <> None \/ pt <> DupAndFree \/ (forall n, ok n = true) -> no_leak (nc_server_notif_free o m)).
Proof.
  intros ok v event eventtime pt m o E N. unfold nc_server_notif_new in E.
  assert (SS : safe start [] /\ no_leak start) by (apply acc_clean; [exact acc_start|constructor]).
  destruct event as [e|]; [|injection E as <- <-; cbn; tauto].
  destruct eventtime as [t|]; [|injection E as <- <-; cbn; tauto].
  destruct v; cbn [is_null orb negb] in E; [|injection E as <- <-; destruct pt; cbn; tauto].
  destruct (alloc ok start) as [m1 [b|]] eqn:A0; pose proof (alloc_acc ok _ _ _ _ _ _ acc_start A0) as A.
  - destruct pt.
    + cbn in E. injection E as <- <-. cbn [nc_server_notif_free n_self n_free n_time n_event notif_handed frees].
      assert (C : acc (free (Some b) m1) [] [] []) by (apply free_acc; exact A).
      apply acc_clean in C; [tauto|constructor].
    + destruct (take ok Free (Some t) m1) as [m2 p2] eqn:T1. pose proof (take_acc ok _ _ _ _ _ _ _ _ A T1) as A1.
      destruct (take ok Free (Some e) m2) as [m3 p3] eqn:T2. pose proof (take_acc ok _ _ _ _ _ _ _ _ A1 T2) as A2.
      destruct p3 as [p3|]; [|cbn in T2; discriminate]. injection E as <- <-.
      cbn [nc_server_notif_free n_self n_free n_time n_event notif_handed frees].
      assert (C : acc (free (Some b) (free p2 (free (Some p3) m3))) [] [e; t] []).
      { repeat apply free_acc. same A2. }
      apply acc_clean in C; [tauto|]. constructor; [|repeat constructor; intros []].
      intros [->|[]]. apply N; reflexivity.
    + destruct (take ok DupAndFree (Some t) m1) as [m2 p2] eqn:T1. pose proof (take_acc ok _ _ _ _ _ _ _ _ A T1) as A1.
      destruct (take ok DupAndFree (Some e) m2) as [m3 p3] eqn:T2. pose proof (take_acc ok _ _ _ _ _ _ _ _ A1 T2) as A2.
      destruct p3 as [p3|]; injection E as <- <-;
        cbn [nc_server_notif_free n_self n_free n_time n_event notif_handed frees].
      * assert (C : acc (free (Some b) (free p2 (free (Some p3) m3))) [] [] []).
        { repeat apply free_acc. same A2. }
        apply acc_clean in C; [tauto|constructor].
      * assert (C : acc (free (Some b) m3) [] [] [p2]) by (apply free_acc; same A2).
        split.
        -- destruct (acc_safe _ _ _ _ C ltac:(constructor)) as (S1 & S2 & S3 & S4). repeat split; auto. intros [].
        -- intros [H|[H|H]]; [congruence|congruence|].
           cbn in T2. unfold alloc in T2. rewrite H in T2. discriminate.
  - injection E as <- <-. cbn. assert (C : acc m1 [] [] []) by same A. apply acc_clean in C; [|constructor].
    destruct pt; cbn; tauto.
Qed.

(** The tree cannot be copied: the copy of the time is lost. *)
Theorem c163_eventtime_refuted : ~ c163_full.
Proof.
  intros H. set (ok := fun n => negb (Nat.eqb n 2)).
  destruct (nc_server_notif_new ok true (Some 0) (Some 1) DupAndFree start) as [m o] eqn:E.
  destruct (H _ _ _ _ _ _ _ E ltac:(discriminate)) as [_ L]. specialize (L 1).
  vm_compute in E. injection E as <- <-. vm_compute in L. intuition discriminate.
Qed.

(** * Examples *)

Definition plenty (n : nat) : bool := true.

Example ex_handed_over :
  let q := QSubscribe true (Some 3) (Some 4) None (Some 5) in
  let (m, o) := build plenty q Free start in
  m_freed m = [] /\ m_freed (nc_rpc_free o m) = [New 0; Arg 5; Arg 4; Arg 3] /\ given q = [3; 4; 5].
Proof. vm_compute. auto. Qed.

Example ex_constant :
  let (m, o) := build plenty (QSubscribe true (Some 3) (Some 4) None (Some 5)) Const start in
  m_freed (nc_rpc_free o m) = [New 0].
Proof. vm_compute. reflexivity. Qed.

Example ex_origin_filters_fail :
  let (m, o) := build (fun n => negb (Nat.eqb n 5)) (QGetData true (Some 0) (Some 1) None (Some (2, [3; 4; 5]))) DupAndFree start in
  o = None /\ m_made m = [4; 3; 2; 1; 0] /\ m_freed m = [New 0; New 3; New 4; New 2; New 1].
Proof. vm_compute. auto. Qed.

Example ex_excluded_changes :
  let (m, o) := build plenty (QPushOnChange true (Some 0) None None None (Some (1, [2; 3]))) DupAndFree start in
  m_freed m = [New 2] /\ m_freed (nc_rpc_free o m) = [New 0; New 4; New 5; New 3; New 1; New 2].
Proof. vm_compute. auto. Qed.

Example ex_unacceptable : snd (build plenty (QEdit true None) DupAndFree start) = None /\ ~ acceptable (QEdit true None).
Proof. split; [reflexivity|]. intros [_ H]. apply (H EditCont); cbn; tauto. Qed.

Example ex_errors :
  exists m b, build_reply plenty (KErr (Some 1)) start = (m, Some (RError b [Arg 1])) /\
    add_errs (RError b [Arg 1]) [Some 2; None; Some 3] = (RError b [Arg 1; Arg 2; Arg 3], [true; false; true]) /\
    m_freed (nc_server_reply_free (Some (RError b [Arg 1; Arg 2; Arg 3])) m) = [New 0; Arg 3; Arg 2; Arg 1].
Proof. eexists _, _. split; [vm_compute; reflexivity|]. vm_compute. auto. Qed.

Example ex_notif :
  let (m, o) := nc_server_notif_new plenty true (Some 0) (Some 1) DupAndFree start in
  m_freed (nc_server_notif_free o m) = [New 0; New 1; New 2].
Proof. vm_compute. reflexivity. Qed.

Print Assumptions c159_requests_freed_safely.
Print Assumptions c160_nothing_lost_partial.
Print Assumptions c160_excluded_change_refuted.
Print Assumptions c161_request_has_its_parameters_partial.
Print Assumptions c161_origin_filters.
Print Assumptions c161_lost_filter_refuted.
Print Assumptions c161_made_iff_acceptable.
Print Assumptions c162_replies_freed_once.
Print Assumptions c162_no_reply.
Print Assumptions c163_notifications_freed_once_partial.
Print Assumptions c163_eventtime_refuted.
