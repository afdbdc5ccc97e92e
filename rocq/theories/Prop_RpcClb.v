(** C272-C274: which callback handles a request; the model is RpcClb. *)
From Coq Require Import Bool Arith Lia List.
From Verif Require Import RpcClb.
Import ListNotations.

(** ** Specification *)

(** What the application asked for last: the function for a node, the global function. *)
Definition own (h : list ev) (n : node) (f : option nat) : Prop :=
  (exists h1 h2, h = h1 ++ SetClb n f :: h2 /\ forall g, ~ In (SetClb n g) h2) \/ (f = None /\ forall g, ~ In (SetClb n g) h).
Definition global (h : list ev) (f : option nat) : Prop :=
  (exists h1 h2, h = h1 ++ SetGlobal f :: h2 /\ forall g, ~ In (SetGlobal g) h2) \/ (f = None /\ forall g, ~ In (SetGlobal g) h).

(** The rule of the documentation (session_server.h 98-105, 434-437): the function set for the operation; else the global function; else the
    defaults for get-schema and close-session; else the request is not supported. *)
Inductive handled (L : lib) (c n : nat) : option nat -> option nat -> call -> Prop :=
| h_own f g : handled L c n (Some f) g (Calls (App f))
| h_global g : handled L c n None (Some g) (CallsGlobal g)
| h_schema : l_schema L c = Some n -> handled L c n None None (Calls DefSchema)
| h_close : l_schema L c <> Some n -> l_close L c = Some n -> handled L c n None None (Calls DefClose)
| h_none : l_schema L c <> Some n -> l_close L c <> Some n -> handled L c n None None NotSupported.

(** A request for an operation: the RPC itself, or data with exactly one action somewhere in it. *)
Inductive inside : tree -> tree -> Prop :=
| in_here t : inside t t
| in_kid n kids k t : In k kids -> inside t k -> inside t (Node n kids).
Definition asks (L : lib) (c : nat) (t : tree) (n : nat) : Prop :=
  (l_kind L (c, root t) = KRpc /\ n = root t) \/
  (l_kind L (c, root t) <> KRpc /\ l_kind L (c, n) = KAction /\ (exists u, inside u t /\ root u = n) /\
   forall u, inside u t -> l_kind L (c, root u) = KAction -> root u = n).

Definition c272_full : Prop := forall L h c t n f g, In (Accept c) h -> asks L c t n -> own h (c, n) f -> global h g ->
  exists d, dispatch L (run L h) c t = [d] /\ handled L c n f g d.

(** The defaults were settled before: no session was accepted before the last change of the global function, nor before the removal of the
    function of the operation. *)
Definition settled (h : list ev) (n : node) : Prop :=
  forall h1 v h2, h = h1 ++ v :: h2 -> (exists g, v = SetGlobal g) \/ v = SetClb n None -> forall c, ~ In (Accept c) h1.

(** ** Bridges *)
Lemma node_eqb_spec a b : node_eqb a b = true <-> a = b.
Proof. unfold node_eqb. destruct a, b. cbn. rewrite andb_true_iff, !Nat.eqb_eq. split; [intros [-> ->]; reflexivity|now intros [= -> ->]]. Qed.
Lemma node_eqb_refl a : node_eqb a a = true.
Proof. now apply node_eqb_spec. Qed.
Lemma run_app L h v : run L (h ++ [v]) = step L (run L h) v.
Proof. unfold run. now rewrite fold_left_app. Qed.

Fixpoint tree_ind2 (P : tree -> Prop) (H : forall n kids, (forall k, In k kids -> P k) -> P (Node n kids)) (t : tree) : P t :=
  match t with
  | Node n kids => H n kids ((fix go (l : list tree) : forall k, In k l -> P k :=
      match l with
      | [] => fun k E => match E with end
      | a :: r => fun k E => match E with or_introl E1 => eq_ind a P (tree_ind2 P H a) k E1 | or_intror E2 => go r k E2 end
      end) kids)
  end.
Lemma first_action_kids L c n kids : l_kind L (c, n) <> KAction ->
  first_action L c (Node n kids) = (fix go (l : list tree) : option nat :=
                match l with [] => None | k :: r => match first_action L c k with Some a => Some a | None => go r end end) kids.
Proof. intros N1. cbn [first_action]. destruct (l_kind L (c, n)); congruence. Qed.
Lemma first_action_some L c t : forall a, first_action L c t = Some a -> l_kind L (c, a) = KAction /\ exists u, inside u t /\ root u = a.
Proof.
  induction t as [n kids IH] using tree_ind2. intros a. destruct (l_kind L (c, n)) eqn:K.
  2: { cbn [first_action]. rewrite K. intros [= <-]. split; [exact K|]. exists (Node n kids). split; [constructor|reflexivity]. }
  all: rewrite first_action_kids by congruence.
  all: assert (Q : forall l, (forall k, In k l -> In k kids) -> (fix go (l : list tree) : option nat :=
                match l with [] => None | k :: r => match first_action L c k with Some b => Some b | None => go r end end) l = Some a ->
         l_kind L (c, a) = KAction /\ exists u, inside u (Node n kids) /\ root u = a);
    [|apply Q; auto].
  all: induction l as [|k r IH2]; intros I; [discriminate|]; destruct (first_action L c k) as [b|] eqn:E;
    [intros [= <-]; destruct (IH k (I k (or_introl eq_refl)) b E) as (A & u & B & C); split; [exact A|]; exists u; split; [|exact C];
       apply (in_kid n kids k u (I k (or_introl eq_refl)) B)
    |apply IH2; intros k0 I0; apply I; now right].
Qed.
Lemma first_action_none L c t : first_action L c t = None -> forall u, inside u t -> l_kind L (c, root u) <> KAction.
Proof.
  induction t as [n kids IH] using tree_ind2. intros E u I. assert (K : l_kind L (c, n) <> KAction) by (intros K; cbn [first_action] in E; rewrite K in E; discriminate).
  rewrite first_action_kids in E by exact K. inversion I as [t' E1 E2|n' kids' k t' Ik It E1 E2]; subst; [exact K|]. clear I.
  revert E. assert (Q : forall l, In k l -> (fix go (l : list tree) : option nat :=
                match l with [] => None | k :: r => match first_action L c k with Some a => Some a | None => go r end end) l = None -> first_action L c k = None).
  { induction l as [|a r IH2]; intros J; [destruct J|]. destruct (first_action L c a) eqn:E; [discriminate|]. destruct J as [->|J]; [intros _; exact E|apply IH2, J]. }
  intros E. exact (IH k Ik (Q kids Ik E) u It).
Qed.
Lemma asks_operation L c t n : asks L c t n -> operation L c t = Some n.
Proof.
  unfold operation. intros [[K ->]|(K & KA & (u & I & R) & U)].
  - now rewrite K.
  - assert (E : first_action L c t = Some n).
    { destruct (first_action L c t) as [a|] eqn:E.
      - destruct (first_action_some L c t a E) as (KB & w & J & R2). rewrite <- (U w J) by (rewrite R2; exact KB). now rewrite R2.
      - exfalso. apply (first_action_none L c t E u I). now rewrite R. }
    destruct (l_kind L (c, root t)); auto. congruence.
Qed.

(** The last event of some kind. *)
Lemma last_of (P : option nat -> ev) (q : ev -> option (option nat)) : (forall v g, q v = Some g <-> v = P g) -> forall h v f,
  ((exists h1 h2, h ++ [v] = h1 ++ P f :: h2 /\ forall g, ~ In (P g) h2) \/ (f = None /\ forall g, ~ In (P g) (h ++ [v]))) ->
  match q v with Some g => f = g | None => (exists h1 h2, h = h1 ++ P f :: h2 /\ forall g, ~ In (P g) h2) \/ (f = None /\ forall g, ~ In (P g) h) end.
Proof.
  intros Q h v f. assert (I : forall g, P g = P f -> g = f) by (intros g E; assert (q (P f) = Some g) by (apply Q; auto); assert (q (P f) = Some f) by (now apply Q); congruence).
  intros [(h1 & h2 & E & N1)|[-> N1]].
  - destruct h2 as [|z h2 _] using rev_ind.
    + apply app_inj_tail in E. destruct E as [-> ->]. assert (q (P f) = Some f) as -> by now apply Q. reflexivity.
    + rewrite app_comm_cons, app_assoc in E. apply app_inj_tail in E. destruct E as [-> ->].
      destruct (q z) as [g|] eqn:E; [apply Q in E; subst; elim (N1 g); rewrite in_app_iff; cbn; auto|]. left. exists h1, h2. split; [reflexivity|].
      intros g J. apply (N1 g). rewrite in_app_iff. auto.
  - destruct (q v) as [g|] eqn:E; [apply Q in E; subst; elim (N1 g); rewrite in_app_iff; cbn; auto|]. right. split; [reflexivity|]. intros g J. apply (N1 g). rewrite in_app_iff. auto.
Qed.
Lemma own_last h v n f : own (h ++ [v]) n f -> match v with SetClb m g => if node_eqb m n then f = g else own h n f | _ => own h n f end.
Proof.
  intros H. pose proof (last_of (SetClb n) (fun v => match v with SetClb m g => if node_eqb m n then Some g else None | _ => None end)) as L.
  specialize (L ltac:(intros w g; destruct w as [m k|k|k]; try (split; discriminate); destruct (node_eqb m n) eqn:E;
    [apply node_eqb_spec in E; subst; split; congruence|split; [discriminate|intros [= -> ->]; rewrite node_eqb_refl in E; discriminate]]) h v f H).
  cbv beta in L. destruct v as [m g|g|c]; auto. destruct (node_eqb m n); exact L.
Qed.
Lemma global_last h v f : global (h ++ [v]) f -> match v with SetGlobal g => f = g | _ => global h f end.
Proof.
  intros H. pose proof (last_of SetGlobal (fun v => match v with SetGlobal g => Some g | _ => None end)) as L.
  specialize (L ltac:(intros w g; destruct w; split; congruence) h v f H). cbv beta in L. destruct v; exact L.
Qed.
Lemma default_glob x c k d : glob (default x c k d) = glob x.
Proof. destruct k as [k|]; cbn [default]; [|reflexivity]. destruct (priv x (c, k)); reflexivity. Qed.
Lemma init_glob L x c : glob (init_cb_ctx L x c) = glob x.
Proof. unfold init_cb_ctx. destruct (glob x) eqn:G; [exact G|]. now rewrite !default_glob. Qed.
Lemma global_is L h : forall f, global h f -> glob (run L h) = f.
Proof.
  induction h as [|v h IH] using rev_ind; intros f H.
  - destruct H as [(h1 & h2 & E & _)|[-> _]]; [destruct h1; discriminate|reflexivity].
  - rewrite run_app. apply global_last in H. destruct v as [m g|g|c]; cbn [step set_priv glob]; auto.
    rewrite init_glob. auto.
Qed.

(** What nc_server_init_cb_ctx() does to the pointer of a node. *)
Definition dflt (L : lib) (c n : nat) : option clb :=
  if match l_schema L c with Some k => Nat.eqb k n | None => false end then Some DefSchema
  else if match l_close L c with Some k => Nat.eqb k n | None => false end then Some DefClose else None.
Lemma default_priv x c k d c' n : priv (default x c k d) (c', n) =
  match priv x (c', n) with Some v => Some v | None => if Nat.eqb c' c && match k with Some k => Nat.eqb k n | None => false end then Some d else None end.
Proof.
  destruct k as [k|]; cbn [default]; [|rewrite andb_false_r; destruct (priv x (c', n)); reflexivity].
  destruct (Nat.eqb_spec c' c) as [->|N1], (Nat.eqb_spec k n) as [->|N2]; cbn [andb].
  - destruct (priv x (c, n)) eqn:E; [now rewrite E|]. cbn [set_priv priv]. now rewrite node_eqb_refl.
  - assert (Q : node_eqb (c, n) (c, k) = false) by (apply not_true_iff_false; rewrite node_eqb_spec; congruence).
    destruct (priv x (c, k)); cbn [set_priv priv]; rewrite ?Q; destruct (priv x (c, n)); reflexivity.
  - assert (Q : node_eqb (c', n) (c, n) = false) by (apply not_true_iff_false; rewrite node_eqb_spec; congruence).
    destruct (priv x (c, n)); cbn [set_priv priv]; rewrite ?Q; destruct (priv x (c', n)); reflexivity.
  - assert (Q : node_eqb (c', n) (c, k) = false) by (apply not_true_iff_false; rewrite node_eqb_spec; congruence).
    destruct (priv x (c, k)); cbn [set_priv priv]; rewrite ?Q; destruct (priv x (c', n)); reflexivity.
Qed.
Lemma init_priv L x c c' n : priv (init_cb_ctx L x c) (c', n) =
  match priv x (c', n) with Some v => Some v | None => if Nat.eqb c' c then match glob x with None => dflt L c n | Some _ => None end else None end.
Proof.
  unfold init_cb_ctx. destruct (glob x).
  - destruct (priv x (c', n)); [reflexivity|]. now destruct (Nat.eqb c' c).
  - rewrite !default_priv. unfold dflt. destruct (priv x (c', n)); [reflexivity|]. destruct (Nat.eqb c' c); cbn [andb]; [|reflexivity].
    destruct (match l_schema L c with Some k => Nat.eqb k n | None => false end); reflexivity.
Qed.

(** What is known of the pointer of a node, whatever was done. *)
Lemma priv_is L c n h : forall f, own h (c, n) f ->
  match f with Some f => priv (run L h) (c, n) = Some (App f) | None => priv (run L h) (c, n) = None \/ (priv (run L h) (c, n) = dflt L c n /\ In (Accept c) h) end.
Proof.
  induction h as [|v h IH] using rev_ind; intros f H.
  - destruct H as [(h1 & h2 & E & _)|[-> _]]; [destruct h1; discriminate|left; reflexivity].
  - rewrite run_app. apply own_last in H. destruct v as [m g|g|c']; cbn [step].
    + cbn [set_priv priv]. destruct (node_eqb m (c, n)) eqn:E.
      * apply node_eqb_spec in E. subst m f. rewrite node_eqb_refl. destruct g; cbn; auto.
      * assert (Q : node_eqb (c, n) m = false) by (apply not_true_iff_false; rewrite node_eqb_spec; intros <-; rewrite node_eqb_refl in E; discriminate).
        rewrite Q. specialize (IH f H). destruct f; [exact IH|]. rewrite in_app_iff. tauto.
    + specialize (IH f H). destruct f; [exact IH|]. cbn [priv]. rewrite in_app_iff. tauto.
    + specialize (IH f H). rewrite init_priv. destruct f as [f|]; [now rewrite IH|]. rewrite in_app_iff. cbn [In].
      destruct IH as [IH|[IH I]].
      * rewrite IH. destruct (Nat.eqb_spec c c') as [->|N1]; [|auto]. destruct (glob (run L h)); auto.
      * rewrite IH. destruct (dflt L c n) eqn:D; [right; auto|]. destruct (Nat.eqb_spec c c') as [->|N1]; [|auto]. destruct (glob (run L h)); auto.
Qed.
Lemma dflt_other L c n : l_schema L c <> Some n -> l_close L c <> Some n -> dflt L c n = None.
Proof.
  unfold dflt. intros A B. destruct (l_schema L c) as [k|]; [destruct (Nat.eqb_spec k n); [congruence|]|]; (destruct (l_close L c) as [k'|]; [destruct (Nat.eqb_spec k' n); [congruence|]|]); reflexivity.
Qed.
Lemma dflt_handled L c n : handled L c n None None (match dflt L c n with Some d => Calls d | None => NotSupported end).
Proof.
  unfold dflt. destruct (l_schema L c) as [k|] eqn:A; [destruct (Nat.eqb_spec k n) as [->|N1]; [now constructor|]|];
  (destruct (l_close L c) as [k'|] eqn:B; [destruct (Nat.eqb_spec k' n) as [->|N2]|]); constructor; congruence.
Qed.

(** ** C273: other operations than get-schema and close-session *)
Theorem c273_others L h c t n f g : l_schema L c <> Some n -> l_close L c <> Some n -> asks L c t n -> own h (c, n) f -> global h g ->
  exists d, dispatch L (run L h) c t = [d] /\ handled L c n f g d.
Proof.
  intros A B K O G. unfold dispatch. rewrite (asks_operation _ _ _ _ K). pose proof (priv_is L c n h f O) as P. rewrite (global_is L h g G).
  rewrite (dflt_other L c n A B) in P. destruct f as [f|].
  - rewrite P. eexists. split; [reflexivity|constructor].
  - assert (E : priv (run L h) (c, n) = None) by (destruct P as [P|[P _]]; exact P). rewrite E. destruct g; eexists; (split; [reflexivity|constructor; assumption]).
Qed.

(** ** C272: all operations *)
Lemma settled_init h v n : settled (h ++ [v]) n -> settled h n.
Proof. intros H h1 w h2 -> E. apply (H h1 w (h2 ++ [v])); [now rewrite <- app_assoc|exact E]. Qed.
Lemma settled_priv L c n h : settled h (c, n) -> own h (c, n) None -> forall g, global h g ->
  priv (run L h) (c, n) = None \/ (g = None /\ priv (run L h) (c, n) = dflt L c n).
Proof.
  intros H O g G. destruct (priv_is L c n h None O) as [P|[P I]]; [auto|]. destruct g as [g|]; [|auto]. left.
  revert P I H O G. induction h as [|v h IH] using rev_ind; intros P I H O G; [destruct I|].
  rewrite run_app in *. apply own_last in O. apply global_last in G. pose proof (settled_init _ _ _ H) as H0.
  destruct v as [m k|k|c']; cbn [step] in *.
  - destruct (node_eqb m (c, n)) eqn:E; [apply node_eqb_spec in E; subst; cbn; now rewrite node_eqb_refl|].
    assert (Q : node_eqb (c, n) m = false) by (apply not_true_iff_false; rewrite node_eqb_spec; intros <-; rewrite node_eqb_refl in E; discriminate).
    cbn [set_priv priv] in *. rewrite Q in *. rewrite in_app_iff in I. destruct I as [I|[I|[]]]; [|discriminate]. auto.
  - exfalso. rewrite in_app_iff in I. destruct I as [I|[I|[]]]; [|discriminate]. apply (H h (SetGlobal k) [] eq_refl (or_introl (ex_intro _ k eq_refl)) c I).
  - rewrite init_priv in *. rewrite (global_is L h _ G) in *. destruct (priv_is L c n h None O) as [P0|[P0 I0]].
    + rewrite P0. now destruct (Nat.eqb c c').
    + rewrite (IH P0 I0 H0 O G). now destruct (Nat.eqb c c').
Qed.
Lemma settled_default L c n h : settled h (c, n) -> own h (c, n) None -> global h None -> In (Accept c) h -> priv (run L h) (c, n) = dflt L c n.
Proof.
  induction h as [|v h IH] using rev_ind; intros H O G I; [destruct I|]. rewrite run_app. apply own_last in O. apply global_last in G. pose proof (settled_init _ _ _ H) as H0.
  rewrite in_app_iff in I. destruct v as [m k|k|c']; cbn [step].
  - destruct I as [I|[I|[]]]; [|discriminate]. destruct (node_eqb m (c, n)) eqn:E.
    + apply node_eqb_spec in E. subst. elim (H h (SetClb (c, n) None) [] eq_refl (or_intror eq_refl) c I).
    + assert (Q : node_eqb (c, n) m = false) by (apply not_true_iff_false; rewrite node_eqb_spec; intros <-; rewrite node_eqb_refl in E; discriminate).
      cbn [set_priv priv]. rewrite Q. auto.
  - destruct I as [I|[I|[]]]; [|discriminate]. elim (H h (SetGlobal k) [] eq_refl (or_introl (ex_intro _ k eq_refl)) c I).
  - rewrite init_priv, (global_is L h _ G). destruct (in_dec (fun a b : ev => ltac:(decide equality; repeat (decide equality))) (Accept c) h) as [J|J].
    + rewrite (IH H0 O G J). destruct (dflt L c n) eqn:D; [reflexivity|]. destruct (Nat.eqb_spec c c') as [->|]; [exact D|reflexivity].
    + destruct I as [I|[[= ->]|[]]]; [contradiction|]. destruct (priv_is L c n h None O) as [P|[P I]]; [|contradiction]. rewrite P, Nat.eqb_refl. reflexivity.
Qed.
Theorem c272_partial L h c t n f g : In (Accept c) h -> asks L c t n -> own h (c, n) f -> global h g -> settled h (c, n) ->
  exists d, dispatch L (run L h) c t = [d] /\ handled L c n f g d.
Proof.
  intros A K O G H. unfold dispatch. rewrite (asks_operation _ _ _ _ K), (global_is L h g G). destruct f as [f|].
  - rewrite (priv_is L c n h (Some f) O). eexists. split; [reflexivity|constructor].
  - destruct g as [g|].
    + destruct (settled_priv L c n h H O _ G) as [P|[P _]]; [|discriminate]. rewrite P. eexists. split; [reflexivity|constructor].
    + rewrite (settled_default L c n h H O G A). pose proof (dflt_handled L c n) as D. destruct (dflt L c n); eauto.
Qed.
(** Data with neither is handed to nobody. *)
Theorem c273_nothing L h c t : l_kind L (c, root t) <> KRpc -> (forall u, inside u t -> l_kind L (c, root u) <> KAction) -> dispatch L (run L h) c t = [Internal].
Proof.
  intros K N1. unfold dispatch, operation. assert (E : first_action L c t = None).
  { destruct (first_action L c t) as [a|] eqn:E; [|reflexivity]. destruct (first_action_some L c t a E) as (KB & w & J & R2). elim (N1 w J). now rewrite R2. }
  destruct (l_kind L (c, root t)); [congruence|rewrite E; reflexivity..].
Qed.

(** ** Where the documentation is wrong *)
Definition lib1 : lib := mkLib (fun n => match snd n with 1 | 2 | 3 => KRpc | 9 => KAction | _ => KOther end) (fun _ => Some 1) (fun _ => Some 2).
Lemma asks_rpc n : l_kind lib1 (0, n) = KRpc -> asks lib1 0 (Node n []) n.
Proof. left. auto. Qed.
(** The global function is set after the first session was accepted: close-session goes on being handled by the default. *)
Theorem c272_full_refuted : ~ c272_full.
Proof.
  intros H. destruct (H lib1 [Accept 0; SetGlobal (Some 7)] 0 (Node 2 []) 2 None (Some 7)) as (d & E & D).
  - now left.
  - now apply asks_rpc.
  - right. split; [reflexivity|]. intros g [X|[X|[]]]; discriminate X.
  - left. exists [Accept 0], []. split; [reflexivity|]. intros g [].
  - vm_compute in E. injection E as <-. inversion D.
Qed.
(** The global function is taken away after sessions were accepted: close-session is not supported. *)
Theorem c272_close_lost : ~ (forall L h c t n f g, In (Accept c) h -> asks L c t n -> own h (c, n) f -> global h g -> l_close L c = Some n ->
  dispatch L (run L h) c t <> [NotSupported]).
Proof.
  intros H. apply (H lib1 [SetGlobal (Some 7); Accept 0; SetGlobal None] 0 (Node 2 []) 2 None None).
  - cbn. auto.
  - now apply asks_rpc.
  - right. split; [reflexivity|]. intros g [X|[X|[X|[]]]]; discriminate X.
  - left. exists [SetGlobal (Some 7); Accept 0], []. split; [reflexivity|]. intros g [].
  - reflexivity.
  - reflexivity.
Qed.

(** ** Cases *)
(** A function for the RPC 3, none for close-session, no global one, two sessions accepted; an action inside data with a function. *)
Definition h1 : list ev := [SetClb (0, 3) (Some 5); Accept 0; SetClb (0, 9) (Some 6); Accept 0].
Example case_c272 : In (Accept 0) h1 /\ own h1 (0, 2) None /\ global h1 None /\ settled h1 (0, 2) /\ dispatch lib1 (run lib1 h1) 0 (Node 2 []) = [Calls DefClose].
Proof.
  split; [cbn; auto|]. split; [right; split; [reflexivity|]; intros g X; cbn in X; intuition discriminate|].
  split; [right; split; [reflexivity|]; intros g X; cbn in X; intuition discriminate|]. split; [|reflexivity].
  intros a v b E V c I. assert (J : In v h1) by (rewrite E, in_app_iff; cbn; auto).
  destruct V as [[g V]|V]; subst v; cbn in J; intuition discriminate.
Qed.
Definition deep : tree := Node 20 [Node 21 []; Node 22 [Node 23 []; Node 9 [Node 24 []]]; Node 25 []].
Example case_c273 : asks lib1 0 deep 9 /\ own h1 (0, 9) (Some 6) /\ global h1 None /\ dispatch lib1 (run lib1 h1) 0 deep = [Calls (App 6)].
Proof.
  split; [|split; [|split; [|reflexivity]]].
  - right. split; [discriminate|]. split; [reflexivity|]. split.
    + exists (Node 9 [Node 24 []]). split; [|reflexivity]. apply in_kid with (k := Node 22 [Node 23 []; Node 9 [Node 24 []]]); [cbn; auto|].
      apply in_kid with (k := Node 9 [Node 24 []]); [cbn; auto|constructor].
    + intros u I. unfold deep in I. repeat (match goal with
      | I : inside _ (Node _ _) |- _ => inversion I; clear I; subst
      | J : In _ (_ :: _) |- _ => destruct J as [J|J]; [subst|]
      | J : In _ [] |- _ => destruct J
      end; try (cbn; intros X; first [discriminate X|reflexivity])).
  - left. exists [SetClb (0, 3) (Some 5); Accept 0], [Accept 0]. split; [reflexivity|]. intros g [X|[]]. discriminate X.
  - right. split; [reflexivity|]. intros g X; cbn in X; intuition discriminate.
Qed.

Print Assumptions c272_partial.
Print Assumptions c272_full_refuted.
Print Assumptions c272_close_lost.
Print Assumptions c273_others.
Print Assumptions c273_nothing.
