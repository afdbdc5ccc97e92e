(** C256, C257: where imported modules and included submodules are looked for; the model is CtxFill with ModInfo. *)
From Coq Require Import Ascii String Arith NArith Bool Lia List.
From Verif Require Import Bytes CStr ClientMsgs ModInfo CtxFill Prop_CtxFill Prop_SubRev.
Import ListNotations.

(* ------------------------------------------------------------------ *)
(** ** Specification *)

Inductive source := Local | Server | Callback.
(** The event of asking a source for a module or submodule of a revision, and whether it had the data. *)
Definition asks (n : bytes) (r : option bytes) (x : source) (got : bool) : ev :=
  match x with Local => ELocal n r got | Server => EGet n r got | Callback => EUser n r got end.
(** The sources are asked in their order until one has the data. *)
Inductive asked (n : bytes) (r : option bytes) : list source -> list ev -> Prop :=
| as_none : asked n r [] []
| as_got x l : asked n r (x :: l) [asks n r x true]
| as_next x l es : asked n r l es -> asked n r (x :: l) (asks n r x false :: es).
(** The revision is known if it is given, or if the server listed a module of that name. *)
Definition known (ms : list minfo) (name : bytes) (rev : option bytes) : Prop :=
  (exists c t, rev = Some (c :: t)) \/ exists m, In m ms /\ mi_name m = name.
Definition some (b : bool) (x : source) : list source := if b then [x] else [].
Definition order_known (p : params) : list source := Local :: some (gs p) Server ++ some (ucb p) Callback.
Definition order_unknown (p : params) : list source := some (gs p) Server ++ Local :: some (ucb p) Callback.

(* ------------------------------------------------------------------ *)

Lemma newest_pos name ms : forall u k rev, match newest name ms u k rev with
  | Ret (j, _) => (k <> 0 -> j <> 0) /\ (j = 0 -> forall m, In m ms -> mi_name m <> name) /\ (k = 0 -> (forall m, In m ms -> mi_name m <> name) -> j = 0)
  | Crash => True end.
Proof.
  induction ms as [|m ms IH]; intros u k rev; cbn [newest].
  - repeat split; auto.
  - destruct (streq name (mi_name m)) eqn:E; cbn [negb].
    + apply streq_iff in E. assert (G : forall r, match newest name ms (S u) (S u) r with
        | Ret (j, _) => (k <> 0 -> j <> 0) /\ (j = 0 -> forall m', In m' (m :: ms) -> mi_name m' <> name) /\ (k = 0 -> (forall m', In m' (m :: ms) -> mi_name m' <> name) -> j = 0)
        | Crash => True end).
      { intros r. specialize (IH (S u) (S u) r). destruct (newest _ _ _ _ r) as [[j v]|]; [|exact Logic.I]. destruct IH as (A & _). assert (j <> 0) by (apply A; lia).
        split; [auto|]. split; [intros Z; contradiction|]. intros _ N. destruct (N m (or_introl eq_refl)). auto. }
      destruct k; [apply G|]. destruct rev as [a|]; [|exact Logic.I]. destruct (mi_rev m) as [b|]; [|exact Logic.I]. apply G.
    + assert (N : mi_name m <> name) by (intros X; rewrite X in E; rewrite (proj2 (streq_iff name name) eq_refl) in E; discriminate E).
      specialize (IH (S u) k rev). destruct (newest _ _ _ _ rev) as [[j v]|]; [|exact Logic.I]. destruct IH as (A & B & C). repeat split; auto.
      * intros Z x [X|X]; [subst x; exact N|]. now apply B.
      * intros Z H. apply C; auto. intros x X. apply H. now right.
Qed.

Lemma want_known ms mn mr sub n r b : retrieve_imp ms mn mr sub = Ret (Want n r b) -> if b then known ms mn mr else ~ known ms mn mr.
Proof.
  unfold retrieve_imp. intros H.
  assert (G : exists j v, (match mr with Some (c :: t) => Ret (1, mr) | _ => newest mn ms 0 0 mr end) = Ret (j, v) /\ b = match j with 0 => false | S _ => true end).
  { destruct (match mr with Some (c :: t) => Ret (1, mr) | _ => newest mn ms 0 0 mr end) as [[j v]|]; [|discriminate]. exists j, v. split; [reflexivity|].
    destruct sub as [[sn [sr|]]|]; [injection H as _ _ <-; reflexivity| |injection H as _ _ <-; reflexivity].
    destruct j; [injection H as _ _ <-; reflexivity|]. destruct (match nth_error ms j with Some m => mi_subs m | None => None end) as [l|]; [|injection H as _ _ <-; reflexivity].
    destruct (sub_rev_of sn l); [injection H as _ _ <-; reflexivity|discriminate]. }
  destruct G as (j & v & E & ->). destruct mr as [[|c t]|].
  1,3: pose proof (newest_pos mn ms 0 0) as P; match type of E with newest _ _ _ _ ?x = _ => specialize (P x) end; rewrite E in P; destruct P as (_ & B & C);
    (destruct j; [intros [(c & t & X)|(m & I & M)]; [discriminate X|exact (B eq_refl m I M)]|]); right;
    destruct (existsb (fun m => streq mn (mi_name m)) ms) eqn:X;
    [apply existsb_exists in X; destruct X as (m & I & M); apply streq_iff in M; exists m; auto|];
    exfalso; assert (Z : S j = 0) by (apply C; auto; intros m I M; rewrite <- not_true_iff_false, existsb_exists in X; apply X; exists m; split; auto; apply streq_iff; auto); discriminate Z.
  injection E as <- <-. left. exists c, t. reflexivity.
Qed.

Definition step1 (n : bytes) (r : option bytes) (x : source) (f : ses -> ses * option bytes) : Prop :=
  forall s, log (fst (f s)) = asks n r x (isSome (snd (f s))) :: log s.
Lemma local_step w n r : step1 n r Local (fun s => localfile w s n r).
Proof. intros s. reflexivity. Qed.
Lemma get_step w n r : step1 n r Server (fun s => getschema w s n r).
Proof. intros s. unfold getschema. destruct (running s); [|reflexivity]. destruct (w_get w (log s) n r) as [d a]. reflexivity. Qed.
Lemma user_step w n r : step1 n r Callback (fun s => usercb w true s n r).
Proof. intros s. reflexivity. Qed.

(** What asking a list of sources adds to the log. *)
Definition adds (n : bytes) (r : option bytes) (l : list source) (f : ses -> ses * option bytes) : Prop :=
  forall s, exists es, log (fst (f s)) = rev es ++ log s /\ asked n r l es /\ (snd (f s) = None -> forall l2 es2, asked n r l2 es2 -> asked n r (l ++ l2) (es ++ es2))
    /\ (snd (f s) <> None -> forall l2, asked n r (l ++ l2) es).
Lemma one n r x f : step1 n r x f -> adds n r [x] f.
Proof.
  intros H s. specialize (H s). destruct (f s) as [s' d]. cbn [fst snd] in *. destruct d as [d|]; cbn [isSome] in H.
  - exists [asks n r x true]. split; [exact H|]. split; [constructor|]. split; [discriminate|]. intros _ l2. constructor.
  - exists [asks n r x false]. split; [exact H|]. split; [repeat constructor|]. split; [|congruence]. intros _ l2 es2 A. cbn [app]. now constructor.
Qed.
Lemma no_source n r : adds n r [] (fun s => (s, None)).
Proof. intros s. exists []. split; [reflexivity|]. split; [constructor|]. split; [auto|]. intros N. destruct N. reflexivity. Qed.
Lemma both n r a b f g : adds n r a f -> adds n r b g -> adds n r (a ++ b) (fun s => orelse (f s) g).
Proof.
  intros F G s. destruct (F s) as (e1 & L1 & A1 & N1 & S1). destruct (f s) as [s1 [d|]]; cbn [fst snd orelse] in *.
  - exists e1. split; [exact L1|]. split; [now apply S1|]. split; [discriminate|]. intros _ l2. rewrite <- app_assoc. now apply S1.
  - destruct (G s1) as (e2 & L2 & A2 & N2 & S2). exists (e1 ++ e2). split; [rewrite rev_app_distr, <- app_assoc, <- L1; exact L2|]. split; [now apply N1|]. split.
    + intros N l2 e3 A. rewrite <- !app_assoc. apply N1; auto.
    + intros N l2. rewrite <- app_assoc. apply N1; auto.
Qed.
Lemma server_adds w p n r : adds n r (some (gs p) Server) (fun s => server w p s n r).
Proof. unfold server. destruct (gs p); [apply one, get_step|apply no_source]. Qed.
Lemma user_adds w p n r : adds n r (some (ucb p) Callback) (fun s => usercb w (ucb p) s n r).
Proof. destruct (ucb p); [apply one, user_step|apply no_source]. Qed.

(** An import is looked for in the order the knowledge about its revision calls for, or not at all if it is a submodule without a revision. *)
Theorem c256_order w p ms s mn mr sub s' : retrieve_import w p ms s (mn, mr, sub) = Ret s' ->
  exists es, log s' = rev es ++ EImport mn mr sub :: log s /\
  ((exists n r, known ms mn mr /\ asked n r (order_known p) es /\ n = match sub with Some (x, _) => x | None => mn end)
   \/ (exists n r, ~ known ms mn mr /\ asked n r (order_unknown p) es /\ n = match sub with Some (x, _) => x | None => mn end)
   \/ (es = [] /\ exists x, sub = Some (x, None))).
Proof.
  unfold retrieve_import. intros H. destruct (retrieve_imp ms mn mr sub) as [[n r b|]|] eqn:E; [| |discriminate].
  - assert (N : n = match sub with Some (x, _) => x | None => mn end).
    { clear H. unfold retrieve_imp in E. destruct (match mr with Some (c :: t) => _ | _ => _ end) as [[j v]|]; [|discriminate]. destruct sub as [[sn [sr|]]|]; [congruence| |congruence].
      destruct j; [congruence|]. destruct (match nth_error ms j with Some m => mi_subs m | None => None end) as [l|]; [|congruence]. destruct (sub_rev_of sn l); [congruence|discriminate]. }
    pose proof (want_known _ _ _ _ _ _ _ E) as K. destruct b; injection H as <-.
    + destruct (both n r _ _ _ _ (both n r _ _ _ _ (one n r _ _ (local_step w n r)) (server_adds w p n r)) (user_adds w p n r) (put (EImport mn mr sub) s)) as (es & L & A & _).
      exists es. split; [exact L|]. left. exists n, r. split; [exact K|]. split; [|exact N]. rewrite <- app_assoc in A. exact A.
    + destruct (both n r _ _ _ _ (both n r _ _ _ _ (server_adds w p n r) (one n r _ _ (local_step w n r))) (user_adds w p n r) (put (EImport mn mr sub) s)) as (es & L & A & _).
      exists es. split; [exact L|]. right. left. exists n, r. split; [exact K|]. split; [|exact N]. rewrite <- app_assoc in A. exact A.
  - injection H as <-. exists []. split; [reflexivity|]. right. right. split; [reflexivity|]. unfold retrieve_imp in E.
    destruct (match mr with Some (c :: t) => _ | _ => _ end) as [[j v]|]; [|discriminate]. destruct sub as [[sn [sr|]]|]; [discriminate| |discriminate]. exists sn. reflexivity.
Qed.

(** A submodule that the server lists without a revision is looked for nowhere. *)
Theorem c257_nowhere w p ms s mn m sub l s' : NoDup (map mi_name ms) -> In m ms -> mi_name m = mn -> mi_subs m = Some l ->
  In (sub, None) l -> NoDup (map fst l) -> retrieve_import w p ms s (mn, None, Some (sub, None)) = Ret s' -> log s' = EImport mn None (Some (sub, None)) :: log s.
Proof.
  intros D I M L J K. destruct (in_split _ _ I) as (pre & post & ->). rewrite map_app in D. cbn [map] in D. apply NoDup_remove_2 in D. rewrite M in D.
  unfold retrieve_import, retrieve_imp. rewrite newest_one; [|exact M| |].
  - cbn [Nat.add]. rewrite nth_error_app2 by lia. rewrite Nat.sub_diag. cbn [nth_error]. rewrite L. unfold sub_rev_of. rewrite (sub_found sub None l None K J). intros [= <-]. reflexivity.
  - intros x X Y. apply D. apply in_or_app. left. rewrite <- Y. now apply in_map.
  - intros x X Y. apply D. apply in_or_app. right. rewrite <- Y. now apply in_map.
Qed.

(** A module the server did not list is asked of the server first, a listed one is looked for locally first; a submodule without a revision nowhere. *)
Definition mq : minfo := mkMI (bs "q") (Some (bs "2020-01-01")) (Some [(bs "qs", None)]) None true.
Definition ps : params := {| gs := true; ucb := false |}.
Example c256_case :
  known [mq] (bs "q") None /\ ~ known [mq] (bs "x") None /\
  match retrieve_import W_good ps [mq] fresh (bs "x", None, None), retrieve_import W_good ps [mq] fresh (bs "q", None, None) with
  | Ret a, Ret b => log a = [EGet (bs "x") None true; EImport (bs "x") None None] /\
      log b = [EGet (bs "q") (Some (bs "2020-01-01")) false; ELocal (bs "q") (Some (bs "2020-01-01")) false; EImport (bs "q") None None]
  | _, _ => False
  end.
Proof.
  split; [right; exists mq; split; [now left|reflexivity]|]. split; [|vm_compute; split; reflexivity].
  intros [(c & t & X)|(m & [<-|[]] & X)]; discriminate X.
Qed.
Example c257_case : exists s', retrieve_import W_yl ps [mq] fresh (bs "q", None, Some (bs "qs", None)) = Ret s' /\ log s' = [EImport (bs "q") None (Some (bs "qs", None))].
Proof.
  eexists. split; [reflexivity|]. refine (c257_nowhere W_yl ps [mq] fresh (bs "q") mq (bs "qs") [(bs "qs", None)] _ _ _ _ _ _ _ _); try reflexivity.
  - repeat constructor; intros [].
  - now left.
  - now left.
  - repeat constructor; intros [].
Qed.

Print Assumptions c256_order.
Print Assumptions c257_nowhere.
