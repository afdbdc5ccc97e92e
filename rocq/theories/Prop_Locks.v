(** C259-C263: threads of the server never block each other for ever, locks are given back, and where shared data are used by two at once. *)
From Coq Require Import List Bool Arith Lia.
Import ListNotations.
From Verif Require Import Locks.

(** ** Vocabulary of the statements *)

(** All created threads are at their ends. *)
Definition finished (n : nat) (s : state) : Prop := forall i, i < n -> born s i = true -> rest s i = [].

(** Some created thread is not at its end, and none can go on, ever. *)
Definition deadlock (n : nat) (rf : bool) (s : state) : Prop :=
  ~ finished n s /\ forall i, step n rf s i = None.

(** At the start the threads of the application run, no lock is taken, and each thread has some way through its text ahead. *)
Definition start (role_of : nat -> role) (est : nat -> bool) (calls : kind -> api -> bool) (n : nat) (s : state) : Prop :=
  (forall i, born s i = match role_of i with App => true | _ => false end) /\
  (forall i, held s i = []) /\
  (forall i, i < n -> path (thread role_of est calls (role_of i)) (rest s i)).

(** Which functions may be called from which callback: not those that wait for the thread itself or for a lock it has, nor those
    for which somebody who waits for it may have the lock. *)
Definition may (k : kind) (a : api) : bool :=
  match k, a with
  | Main, _ => true
  | _, (APs _ | ANtf _ | ACertStart _ | ACertStop false _) => true
  | NewSess, (AIsClient | AIsEndpt _ | ADispatch _ _) => true
  | Ctx, _ => false
  | Auth, (AIsClient | AIsEndpt _ | ADispatch _ _ | AFree _ | APsClear _) => true
  | Clb, (ACertStop true _ | ADestroy) => false
  | Clb, _ => true
  | _, _ => false
  end.

(** Two threads are about to use the same data, one of them to write. *)
Definition race (n : nat) (s : state) (x : loc) : Prop :=
  exists i j w w' k k', i < n /\ j < n /\ i <> j /\ born s i = true /\ born s j = true /\
    rest s i = Use x w :: k /\ rest s j = Use x w' :: k' /\ (w = true \/ w' = true).

(** ** Order of locks *)
Section Order.
Variable role_of : nat -> role.
Variable est : nat -> bool.
Variable calls : kind -> api -> bool.
Hypothesis calls_may : forall k a, calls k a = true -> may k a = true.
Variables E L : Prop.
Hypothesis no_endpt : E -> forall k c, calls k (AIsEndpt c) = false.
Hypothesis no_destroy : L -> forall k, calls k ADestroy = false.

Definition rank (l : lock) : nat :=
  match l with Config => 2 | Sess s => if est s then 4 else 7 | Clients => 5 | Client _ => 6 | _ => 7 end.
Definition floor (r : role) : nat := match r with App => 0 | CertT => 1 | Ch _ => 3 end.

Definition hs := list (lock * bool).
Definition above (H : hs) (m : nat) : Prop := Forall (fun e => rank (fst e) < m) H.

Definition okuse (r : role) (H : hs) (x : loc) (w : bool) : Prop :=
  match x with
  | VClients => if w then In (Clients, true) H else exists b, In (Clients, b) H
  | VClient c => E -> In (Client c, true) H
  | VListen => L -> (forall c, r <> Ch c) -> if w then In (Config, true) H else exists b, In (Config, b) H
  | VIntv => True
  end.

Fixpoint fits (r : role) (H : hs) (l : list act) : Prop :=
  match l with
  | [] => H = []
  | Rd m :: k => above H (rank m) /\ floor r < rank m /\ fits r ((m, false) :: H) k
  | Wr m :: k => above H (rank m) /\ floor r < rank m /\ fits r ((m, true) :: H) k
  | Rel m :: k => exists H', give m H = Some H' /\ fits r H' k
  | Spawn t :: k => fits r H k
  | Join t :: k => above H (floor (role_of t)) /\ floor r < floor (role_of t) /\ fits r H k
  | Use x w :: k => okuse r H x w /\ fits r H k
  end.

(** [p] takes the locks [H] to [H'] on every way. *)
Definition triple (r : role) (H : hs) (p : prog) (H' : hs) : Prop :=
  forall l k, path p l -> fits r H' k -> fits r H (l ++ k).

Lemma t_nop r H : triple r H Nop H.
Proof. intros l k P F. cbn in P. subst. exact F. Qed.
Lemma t_seq r H H1 H2 p q : triple r H p H1 -> triple r H1 q H2 -> triple r H (p ;; q) H2.
Proof.
  intros A B l k (l1 & l2 & P & Q & ->) F. rewrite <- app_assoc. apply A; [exact P|]. apply B; assumption.
Qed.
Lemma t_keep r H H2 p q : triple r H p H -> triple r H q H2 -> triple r H (p ;; q) H2.
Proof. apply t_seq. Qed.
Lemma t_alt r H H' p q : triple r H p H' -> triple r H q H' -> triple r H (Alt p q) H'.
Proof. intros A B l k [P|P] F; [apply A | apply B]; assumption. Qed.
Lemma t_loop r H p : triple r H p H -> triple r H (Loop p) H.
Proof.
  intros A l k (ls & P & ->) F. induction P as [|x ls Px Pl IH]; cbn; [exact F|].
  rewrite <- app_assoc. apply A; assumption.
Qed.
Lemma t_anyn r H H' f : (forall x, triple r H (f x) H') -> triple r H (AnyN f) H'.
Proof. intros A l k (x & P) F. exact (A x l k P F). Qed.
Lemma t_anya r H H' f : (forall x, triple r H (f x) H') -> triple r H (AnyA f) H'.
Proof. intros A l k (x & P) F. exact (A x l k P F). Qed.
Lemma t_only r H b p : (b = true -> triple r H p H) -> triple r H (only b p) H.
Proof. intros A. destruct b; cbn; [apply A; reflexivity | apply t_nop]. Qed.

Lemma lock_eqb_refl l : lock_eqb l l = true.
Proof. destruct l; cbn; auto using Nat.eqb_refl. Qed.
Lemma lock_eqb_eq a b : lock_eqb a b = true -> a = b.
Proof. destruct a, b; cbn; intros A; try discriminate; auto; apply Nat.eqb_eq in A; congruence. Qed.

Lemma t_rd r H m : above H (rank m) -> floor r < rank m -> triple r H (Do (Rd m)) ((m, false) :: H).
Proof. intros A B l k P F. cbn in P. subst l. cbn. auto. Qed.
Lemma t_wr r H m : above H (rank m) -> floor r < rank m -> triple r H (Do (Wr m)) ((m, true) :: H).
Proof. intros A B l k P F. cbn in P. subst l. cbn. auto. Qed.
Lemma t_rel r H b m : triple r ((m, b) :: H) (Do (Rel m)) H.
Proof. intros l k P F. cbn in P. subst l. cbn. exists H. rewrite lock_eqb_refl. auto. Qed.
Lemma t_spawn r H t : triple r H (Do (Spawn t)) H.
Proof. intros l k P F. cbn in P. subst l. cbn. auto. Qed.
Lemma t_join r H t : above H (floor (role_of t)) -> floor r < floor (role_of t) -> triple r H (Do (Join t)) H.
Proof. intros A B l k P F. cbn in P. subst l. cbn. auto. Qed.
Lemma t_use r H x w : okuse r H x w -> triple r H (Do (Use x w)) H.
Proof. intros A l k P F. cbn in P. subst l. cbn. auto. Qed.

Lemma t_under r H m p :
  above H (rank m) -> floor r < rank m -> triple r ((m, true) :: H) p ((m, true) :: H) -> triple r H (under m p) H.
Proof.
  intros A B C. unfold under. eapply t_seq; [apply t_wr; assumption|]. eapply t_seq; [exact C | apply t_rel].
Qed.

Lemma above_mono H a b : above H a -> a <= b -> above H b.
Proof. intros A B. unfold above in *. eapply Forall_impl; [|exact A]. cbn. intros; lia. Qed.
Lemma above_cons l b H m : rank l < m -> above H m -> above ((l, b) :: H) m.
Proof. intros A B. constructor; cbn; assumption. Qed.
Lemma above_nil m : above [] m.
Proof. constructor. Qed.

Ltac ab := repeat first [apply above_nil | apply above_cons; [cbn; try lia|] | (eapply above_mono; [eassumption|cbn; lia])].
Ltac us := cbn [okuse]; intros; first [exact Logic.I | (eexists; cbn; tauto) | (cbn; tauto)].
Ltac t1 p :=
  lazymatch p with
  | Nop => apply t_nop
  | Do (Rel _) => apply t_rel
  | Do (Spawn _) => apply t_spawn
  | Do (Rd _) => apply t_rd
  | Do (Wr _) => apply t_wr
  | Do (Use _ _) => apply t_use
  | under _ _ => apply t_under
  | Loop _ => apply t_loop
  | Alt _ _ => apply t_alt
  | AnyN _ => apply t_anyn; intros
  | AnyA _ => apply t_anya; intros
  | only _ _ => apply t_only; intros
  | Seq _ _ => eapply t_seq
  end.
Ltac fin := try (ab; fail); try (cbn; lia); try (us; fail).
Ltac tr := repeat lazymatch goal with |- triple _ _ ?p _ => t1 p end; fin.

Lemma t_ch_lock r H c p :
  above H 5 -> floor r < 5 -> triple r ((Client c, true) :: (Clients, false) :: H) p H -> triple r H (ch_client_lock c p) H.
Proof. intros A B C. unfold ch_client_lock. tr. Qed.

Lemma t_ch_unlock r H c : triple r ((Client c, true) :: (Clients, false) :: H) (ch_client_unlock c) H.
Proof. unfold ch_client_unlock. tr. Qed.

Ltac t2 p :=
  lazymatch p with
  | ch_client_lock _ _ => apply t_ch_lock
  | ch_client_unlock _ => apply t_ch_unlock
  | _ => t1 p
  end.
Ltac tr2 := repeat lazymatch goal with |- triple _ _ ?p _ => t2 p end; fin.

Lemma t_dispatch r H c t : above H 5 -> floor r < 5 -> triple r H (dispatch role_of c t) H.
Proof.
  intros A B. unfold dispatch. apply t_ch_lock; auto.
  assert (K : forall q, q = match role_of t with Ch d => only (c =? d) (Alt Nop (Do (Spawn t))) | _ => Nop end ->
    triple r ((Client c, true) :: (Clients, false) :: H) q ((Client c, true) :: (Clients, false) :: H)).
  { intros q ->. destruct (role_of t); tr2. }
  apply t_keep; [apply K; reflexivity | tr2].
Qed.

Lemma t_destroy_client r H : above H 3 -> floor r < 3 -> triple r H (destroy_ch_client role_of) H.
Proof.
  intros A B. unfold destroy_ch_client. apply t_anyn. intros t. destruct (role_of t) eqn:R; tr2.
  apply t_join; rewrite R; cbn; auto.
Qed.

Ltac t3 p :=
  lazymatch p with
  | destroy_ch_client _ => apply t_destroy_client
  | dispatch _ _ _ => apply t_dispatch
  | _ => t2 p
  end.
Ltac tr3 := repeat lazymatch goal with |- triple _ _ ?p _ => t3 p end; fin.

Lemma t_del_client r H : above H 3 -> floor r < 3 -> triple r H (ch_del_client role_of) H.
Proof. intros A B. unfold ch_del_client. tr3. Qed.

Lemma t_config_ch r H : above H 3 -> floor r < 3 -> triple r H (config_ch role_of) H.
Proof. intros A B. unfold config_ch. tr3. Qed.

Lemma t_all_clients r H : above H 5 -> floor r < 5 -> triple r H all_clients H.
Proof. intros A B. unfold all_clients. tr3. Qed.

Ltac t4 p :=
  lazymatch p with
  | ch_del_client _ => apply t_del_client
  | config_ch _ => apply t_config_ch
  | all_clients => apply t_all_clients
  | _ => t3 p
  end.
Ltac tr4 := repeat lazymatch goal with |- triple _ _ ?p _ => t4 p end; fin.

Lemma t_setup r : floor r < 2 -> triple r [] (setup role_of) [].
Proof.
  intros B. unfold setup, listen_nodes, ch_nodes, create_client, intervals. tr4.
Qed.

Lemma t_session_free r H x :
  above H (rank (Sess x)) -> floor r < rank (Sess x) -> triple r H (session_free x) H.
Proof. intros A B. unfold session_free. tr4; assumption. Qed.

Lemma rank_est x : est x = true -> rank (Sess x) = 4.
Proof. cbn. intros ->. reflexivity. Qed.
Lemma rank_est' x : negb (est x) = true -> rank (Sess x) = 7.
Proof. cbn. destruct (est x); [discriminate | reflexivity]. Qed.

Lemma t_ps_op r H q p : above H 7 -> floor r < 7 -> triple r H q H -> triple r H (ps_op p q) H.
Proof. intros A B C. unfold ps_op. tr4. Qed.

Lemma t_ps_free r H : above H 4 -> floor r < 4 -> triple r H (ps_free est) H.
Proof. intros A B. unfold ps_free. tr4. apply t_session_free; rewrite rank_est; auto. Qed.

Lemma t_is_client r H : above H 5 -> floor r < 5 -> triple r H is_client H.
Proof. intros A B. unfold is_client. tr4. Qed.

Lemma t_cert_start r H t : above H 7 -> floor r < 7 -> triple r H (cert_start role_of t) H.
Proof. intros A B. unfold cert_start. apply t_under; auto. destruct (role_of t); tr4. Qed.

Lemma t_cert_stop r H t w :
  above H 7 -> floor r < 7 -> (w = true -> H = [] /\ floor r = 0) -> triple r H (cert_stop role_of w t) H.
Proof.
  intros A B C. unfold cert_stop. apply t_keep; [tr4|]. destruct (role_of t) eqn:R; tr4. destruct (C H0) as [-> D].
  apply t_join; rewrite R; cbn; [ab|lia].
Qed.

Lemma floor_7 r : floor r < 4.
Proof. destruct r; cbn; lia. Qed.

(** the calls of an application where nothing is locked *)
Lemma t_free_api r k q a :
  floor r < 2 -> (forall t, a = ACertStop true t -> floor r = 0) -> (a = ADestroy -> floor r = 0) ->
  (a = AAccept -> triple r [(Config, false)] q [(Config, false)]) ->
  calls k a = true -> triple r [] (api_prog role_of est q a) [].
Proof.
  intros B C D Q K. destruct a; cbn [api_prog].
  - apply t_setup; auto.
  - specialize (Q eq_refl). unfold accept. tr4.
  - unfold config_set. tr4.
  - apply t_is_client; [ab|lia].
  - unfold is_endpt. tr4. intros e. rewrite (no_endpt e) in K. discriminate.
  - apply t_dispatch; [ab|lia].
  - tr4. apply t_session_free; [rewrite rank_est by assumption; ab | rewrite rank_est by assumption; cbn; lia].
  - apply t_ps_op; [ab|lia|apply t_nop].
  - apply t_ps_op; [ab|lia|]. apply t_ps_free; [ab|lia].
  - unfold ntf_op. tr4.
  - apply t_cert_start; [ab|lia].
  - apply t_cert_stop; [ab|lia|]. intros ->. split; [reflexivity|]. exact (C t eq_refl).
  - unfold destroy, intervals. specialize (D eq_refl).
    apply t_keep. { apply t_anyn. intros t. apply t_cert_stop; [ab|lia|auto]. }
    tr4; intros l _; rewrite (no_destroy l) in K; discriminate.
Qed.

(** callbacks under locks *)
Lemma t_new_sess c x : est x = true -> triple (Ch c) [(Sess x, true)] (callback role_of est calls NewSess) [(Sess x, true)].
Proof.
  intros X. assert (R : rank (Sess x) = 4) by (apply rank_est; exact X).
  assert (A5 : above [(Sess x, true)] 5) by (constructor; [unfold fst; rewrite R; lia|constructor]).
  assert (A7 : above [(Sess x, true)] 7) by (eapply above_mono; [exact A5|lia]).
  unfold callback. tr4. rename x0 into a. rename H into K. pose proof (calls_may _ _ K) as M.
  destruct a; cbn [api_prog]; try discriminate M.
  - apply t_is_client; [exact A5|cbn; lia].
  - unfold is_endpt. tr4. intros e. rewrite (no_endpt e) in K. discriminate.
  - apply t_dispatch; [exact A5|cbn; lia].
  - apply t_ps_op; [exact A7|cbn; lia|apply t_nop].
  - unfold ntf_op. tr4.
  - apply t_cert_start; [exact A7|cbn; lia].
  - destruct wait; [discriminate|]. apply t_cert_stop; [exact A7|cbn; lia|discriminate].
Qed.

Lemma t_ctx c : triple (Ch c) [(Client c, true); (Clients, false)] (callback role_of est calls Ctx) [(Client c, true); (Clients, false)].
Proof.
  unfold callback. tr4. rename x into a. rename H into K. pose proof (calls_may _ _ K) as M.
  destruct a; cbn [api_prog]; try discriminate M.
  - apply t_ps_op; [ab|cbn; lia|apply t_nop].
  - unfold ntf_op. tr4.
  - apply t_cert_start; [ab|cbn; lia].
  - destruct wait; [discriminate|]. apply t_cert_stop; [ab|cbn; lia|discriminate].
Qed.

Lemma t_auth : triple App [(Config, false)] (callback role_of est calls Auth) [(Config, false)].
Proof.
  unfold callback. tr4. rename x into a. rename H into K. pose proof (calls_may _ _ K) as M.
  destruct a; cbn [api_prog]; try discriminate M.
  - apply t_is_client; [ab|cbn; lia].
  - unfold is_endpt. tr4. intros e. rewrite (no_endpt e) in K. discriminate.
  - apply t_dispatch; [ab|cbn; lia].
  - tr4. apply t_session_free; [rewrite rank_est by assumption; ab | rewrite rank_est by assumption; cbn; lia].
  - apply t_ps_op; [ab|cbn; lia|apply t_nop].
  - apply t_ps_op; [ab|cbn; lia|]. apply t_ps_free; [ab|cbn; lia].
  - unfold ntf_op. tr4.
  - apply t_cert_start; [ab|cbn; lia].
  - destruct wait; [discriminate|]. apply t_cert_stop; [ab|cbn; lia|discriminate].
Qed.

Lemma t_clb : triple CertT [] (callback role_of est calls Clb) [].
Proof.
  unfold callback. tr4. pose proof (calls_may _ _ H) as M.
  apply t_free_api with (k := Clb); auto.
  - intros t ->. discriminate M.
  - intros ->. discriminate M.
  - intros _. apply t_nop.
Qed.

Lemma t_app : triple App [] (app_thread role_of est calls) [].
Proof.
  unfold app_thread. tr4. apply t_free_api with (k := Main); auto. intros _. apply t_auth.
Qed.

Lemma t_cert : triple CertT [] (cert_thread role_of est calls) [].
Proof.
  unfold cert_thread, intervals_get, dates_get.
  tr4.
  all: apply t_clb.
Qed.

Lemma t_connect c :
  triple (Ch c) [(Client c, true); (Clients, false)] (connect_endpt role_of est calls c) [(Client c, true); (Clients, false)].
Proof.
  unfold connect_endpt. pose proof (t_ctx c) as X. tr4; try exact X.
  - intros l Q. exfalso. exact (Q c eq_refl).
  - apply t_session_free; rewrite rank_est' by assumption; [ab|cbn; lia].
Qed.

Lemma t_cond_wait c x : est x = true -> triple (Ch c) [] (session_cond_wait role_of est calls c x) [].
Proof.
  intros X. assert (R : rank (Sess x) = 4) by (apply rank_est; exact X).
  assert (A5 : above [(Sess x, true)] 5) by (constructor; [unfold fst; rewrite R; lia|constructor]).
  pose proof (t_new_sess c x X) as N. unfold session_cond_wait. tr4; try (rewrite R; cbn; lia); try exact A5; try exact N.
  apply t_session_free; rewrite R; [ab|cbn; lia].
Qed.

Lemma t_tries c : triple (Ch c) [] (endpt_tries c) [].
Proof. unfold endpt_tries. tr4. Qed.

Lemma t_found c : triple (Ch c) [] (lock_found c) [(Client c, true); (Clients, false)].
Proof. unfold lock_found. apply t_keep; [apply t_tries|]. tr4. Qed.

Lemma t_running c H : above H 7 -> triple (Ch c) H (is_running c) H.
Proof. intros A. unfold is_running. tr4. Qed.
Lemma t_running_wait c : triple (Ch c) [] (is_running_wait c) [].
Proof. unfold is_running_wait. tr4. Qed.

Ltac t5 p :=
  lazymatch p with
  | connect_endpt _ _ _ _ => apply t_connect
  | session_cond_wait _ _ _ _ _ => apply t_cond_wait; assumption
  | endpt_tries _ => apply t_tries
  | lock_found _ => apply t_found
  | is_running _ => apply t_running
  | is_running_wait _ => apply t_running_wait
  | is_client => apply t_is_client
  | _ => t4 p
  end.
Ltac tr5 := repeat lazymatch goal with |- triple _ _ ?p _ => t5 p end; fin.

Lemma t_ch c : triple (Ch c) [] (ch_thread role_of est calls c) [].
Proof. unfold ch_thread, round, last, after_connect, period_wait. tr5. Qed.

Lemma thread_fits r l : path (thread role_of est calls r) l -> fits r [] l.
Proof.
  intros P. rewrite <- (app_nil_r l). destruct r; cbn [thread] in P;
    [refine (t_app l [] P _) | refine (t_ch c l [] P _) | refine (t_cert l [] P _)]; reflexivity.
Qed.

(** ** States *)
Definition inv (n : nat) (s : state) : Prop :=
  (forall i, i < n -> fits (role_of i) (held s i) (rest s i)) /\
  (forall i, born s i = false -> held s i = []) /\
  (forall i j l b b', i < n -> j < n -> i <> j -> In (l, b) (held s i) -> In (l, b') (held s j) -> b = false /\ b' = false).

Lemma start_inv n s : start role_of est calls n s -> inv n s.
Proof.
  intros (B & Hd & P). split; [|split].
  - intros i I. rewrite Hd. apply thread_fits. apply P. exact I.
  - intros i _. apply Hd.
  - intros i j l b b' _ _ _ A. rewrite Hd in A. destruct A.
Qed.

Lemma upd_same {A} f i (x : A) : upd f i x i = x.
Proof. unfold upd. rewrite Nat.eqb_refl. reflexivity. Qed.
Lemma upd_other {A} f i j (x : A) : j <> i -> upd f i x j = f j.
Proof. unfold upd. intros D. apply Nat.eqb_neq in D. rewrite D. reflexivity. Qed.

Lemma give_sub l h h' : give l h = Some h' -> forall e, In e h' -> In e h.
Proof.
  revert h'. induction h as [|[m w] r IH]; cbn; [discriminate|]. intros h' G e I.
  destruct (lock_eqb l m); [injection G as <-; auto|].
  destruct (give l r) as [r'|]; [|discriminate]. injection G as <-. destruct I as [<-|I]; eauto.
Qed.

Lemma taken_false n s l : taken n s l = false -> forall i b, i < n -> ~ In (l, b) (held s i).
Proof.
  intros T i b I A. apply Bool.not_true_iff_false in T. apply T. apply existsb_exists. exists i.
  split; [apply in_seq; lia|]. apply existsb_exists. exists (l, b). split; [exact A|]. apply lock_eqb_refl.
Qed.
Lemma taken_true n s l : taken n s l = true -> exists i b, i < n /\ In (l, b) (held s i).
Proof.
  intros T. apply existsb_exists in T as (i & I & T). apply existsb_exists in T as ([m b] & A & Q). cbn in Q.
  apply lock_eqb_eq in Q. subst m. exists i, b. apply in_seq in I. split; [lia|exact A].
Qed.
Lemma taken_wr_false n s l : taken_wr n s l = false -> forall i, i < n -> ~ In (l, true) (held s i).
Proof.
  intros T i I A. apply Bool.not_true_iff_false in T. apply T. apply existsb_exists. exists i.
  split; [apply in_seq; lia|]. apply existsb_exists. exists (l, true). split; [exact A|]. cbn. rewrite lock_eqb_refl. reflexivity.
Qed.
Lemma taken_wr_true n s l : taken_wr n s l = true -> exists i, i < n /\ In (l, true) (held s i).
Proof.
  intros T. apply existsb_exists in T as (i & I & T). apply existsb_exists in T as ([m b] & A & Q). cbn in Q.
  apply andb_prop in Q as [Q W]. apply lock_eqb_eq in Q. subst m b. exists i. apply in_seq in I. split; [lia|exact A].
Qed.
Lemma awaited_true n s l :
  awaited n s l = true -> exists i k, i < n /\ born s i = true /\ rest s i = Wr l :: k.
Proof.
  intros T. apply existsb_exists in T as (i & I & T). apply andb_prop in T as [B T]. apply in_seq in I.
  destruct (rest s i) as [|[] k] eqn:R; try discriminate T. apply lock_eqb_eq in T. subst. exists i, k. split; [lia|]. split; [exact B|exact R].
Qed.

(** after an action of [i] that leaves it with the locks [h] *)
Lemma inv_upd n s i k h bn :
  inv n s -> i < n -> fits (role_of i) h k ->
  (forall j, bn j = false -> j <> i -> born s j = false) -> bn i = true ->
  (forall j l b b', j < n -> j <> i -> In (l, b) h -> In (l, b') (held s j) -> b = false /\ b' = false) ->
  inv n (mk (upd (rest s) i k) (upd (held s) i h) bn).
Proof.
  intros (F & B & X) I Fi Bn Bi Xi. split; [|split]; cbn [rest held born].
  - intros j J. destruct (Nat.eq_dec j i) as [->|D]; [rewrite !upd_same; exact Fi | rewrite !upd_other by exact D; auto].
  - intros j J. destruct (Nat.eq_dec j i) as [->|D]; [congruence | rewrite upd_other by exact D; auto].
  - intros a b l x y La Lb D Ia Ib. destruct (Nat.eq_dec a i) as [->|Da].
    + rewrite upd_same in Ia. rewrite upd_other in Ib by auto. exact (Xi b l x y Lb (not_eq_sym D) Ia Ib).
    + rewrite upd_other in Ia by exact Da. destruct (Nat.eq_dec b i) as [->|Db].
      * rewrite upd_same in Ib. destruct (Xi a l y x La Da Ib Ia). auto.
      * rewrite upd_other in Ib by exact Db. exact (X a b l x y La Lb D Ia Ib).
Qed.

Lemma held_same (s : state) i : forall j, upd (held s) i (held s i) j = held s j.
Proof. intros j. unfold upd. destruct (Nat.eqb_spec j i); subst; reflexivity. Qed.

Lemma inv_ext n s s' :
  (forall i, rest s i = rest s' i) -> (forall i, held s i = held s' i) -> (forall i, born s i = born s' i) -> inv n s -> inv n s'.
Proof.
  intros A B C (F & D & X). split; [|split].
  - intros i I. rewrite <- A, <- B. auto.
  - intros i I. rewrite <- B. apply D. rewrite C. exact I.
  - intros i j l b b' I J Q U V. rewrite <- B in U, V. eauto.
Qed.

Lemma step_inv n rf s i s' : inv n s -> step n rf s i = Some s' -> inv n s'.
Proof.
  intros I St. unfold step in St. destruct (negb (Nat.ltb i n && born s i)) eqn:G; [discriminate|].
  apply Bool.negb_false_iff, andb_prop in G as [G1 G2]. apply Nat.ltb_lt in G1.
  destruct (rest s i) as [|a k] eqn:R; [discriminate|].
  assert (IV := I). destruct I as (F & B & X). pose proof (F i G1) as Fi. rewrite R in Fi.
  assert (own : forall j l b b', j < n -> j <> i -> In (l, b) (held s i) -> In (l, b') (held s j) -> b = false /\ b' = false)
    by (intros; eapply X; [exact G1| | | |]; eauto).
  destruct a; cbn [fits] in Fi; cbv zeta in St; cbn [rest held born] in St.
  - destruct (taken_wr n s l || negb rf && awaited n s l) eqn:T; [discriminate|]. injection St as <-.
    apply Bool.orb_false_elim in T as [T _].
    apply inv_upd; [exact IV|exact G1|apply Fi|auto|exact G2|].
    intros j m b b' J D [Q|Q] Ij; [|eapply own; eauto]. injection Q as <- <-. split; [reflexivity|].
    destruct b'; [|reflexivity]. exfalso. exact (taken_wr_false _ _ _ T j J Ij).
  - destruct (taken n s l) eqn:T; [discriminate|]. injection St as <-.
    apply inv_upd; [exact IV|exact G1|apply Fi|auto|exact G2|].
    intros j m b b' J D [Q|Q] Ij; [|eapply own; eauto]. injection Q as <- <-. exfalso. exact (taken_false _ _ _ T j b' J Ij).
  - destruct Fi as (h & Gi & Fi). rewrite Gi in St. injection St as <-.
    apply inv_upd; [exact IV|exact G1|exact Fi|auto|exact G2|]. intros j m b b' J D Q Ij. refine (own j m b b' J D _ Ij). eapply give_sub; eauto.
  - injection St as <-.
    eapply inv_ext; [| | |apply (inv_upd n s i k (held s i) (upd (born s) t true) IV G1 Fi)]; cbn [rest held born]; auto using held_same.
    + intros j Bj D. unfold upd in Bj. destruct (Nat.eqb j t); [discriminate|exact Bj].
    + unfold upd. destruct (Nat.eqb i t); auto.
  - destruct (Nat.ltb t n && born s t && match rest s t with [] => false | _ => true end); [discriminate|].
    injection St as <-.
    eapply inv_ext; [| | |apply (inv_upd n s i k (held s i) (born s) IV G1)]; cbn [rest held born]; auto using held_same; tauto.
  - injection St as <-.
    eapply inv_ext; [| | |apply (inv_upd n s i k (held s i) (born s) IV G1)]; cbn [rest held born]; auto using held_same; tauto.
Qed.

Lemma run_inv n rf sched s s' : inv n s -> run n rf s sched = Some s' -> inv n s'.
Proof.
  revert s. induction sched as [|i r IH]; cbn; intros s I R; [injection R as <-; exact I|].
  destruct (step n rf s i) as [s1|] eqn:St; [|discriminate]. eapply IH; [|exact R]. eapply step_inv; eauto.
Qed.

(** What a waiting thread waits for. *)
Definition waits (s : state) (i : nat) : nat :=
  match rest s i with
  | Rd l :: _ | Wr l :: _ => rank l
  | Join t :: _ => floor (role_of t)
  | _ => 0
  end.
Definition stuck (n : nat) (rf : bool) (s : state) (i : nat) : Prop :=
  i < n /\ born s i = true /\ rest s i <> [] /\ step n rf s i = None.

Lemma fits_holds r H l m b : fits r H l -> In (m, b) H -> l <> [].
Proof. destruct l; [|discriminate]. cbn. intros -> []. Qed.

Lemma in_above H m l b : above H m -> In (l, b) H -> rank l < m.
Proof. intros A I. unfold above in A. rewrite Forall_forall in A. exact (A _ I). Qed.

(** somebody who has a lock and waits waits for something later in the order *)
Lemma holder_waits n rf s j l b :
  inv n s -> stuck n rf s j -> In (l, b) (held s j) -> rank l < waits s j.
Proof.
  intros (F & _ & _) (J & Bj & Rj & St) Ij. unfold step in St.
  rewrite Bj, (proj2 (Nat.ltb_lt j n) J) in St. cbn [andb negb] in St. pose proof (F j J) as Fj. unfold waits.
  destruct (rest s j) as [|a k]; [congruence|]. destruct a; cbn [fits] in Fj; cbv zeta in St; try discriminate St.
  - eapply in_above; [apply Fj|exact Ij].
  - eapply in_above; [apply Fj|exact Ij].
  - destruct Fj as (h & Gi & _). rewrite Gi in St. discriminate.
  - eapply in_above; [apply Fj|exact Ij].
Qed.

Lemma stuck_floor n rf s j : inv n s -> stuck n rf s j -> floor (role_of j) < waits s j.
Proof.
  intros (F & _ & _) (J & Bj & Rj & St). unfold step in St.
  rewrite Bj, (proj2 (Nat.ltb_lt j n) J) in St. cbn [andb negb] in St. pose proof (F j J) as Fj. unfold waits.
  destruct (rest s j) as [|a k]; [congruence|]. destruct a; cbn [fits] in Fj; cbv zeta in St; try discriminate St; try tauto.
  destruct Fj as (h & Gi & _). rewrite Gi in St. discriminate.
Qed.

Lemma chase n rf s :
  inv n s -> (forall j, step n rf s j = None) -> forall i, stuck n rf s i -> exists j, stuck n rf s j /\ waits s i < waits s j.
Proof.
  intros I None_ i Si. assert (IV := I). destruct I as (F & B & X).
  assert (hold : forall j l b, j < n -> In (l, b) (held s j) -> stuck n rf s j).
  { intros j l b J Ij. split; [exact J|]. split.
    - destruct (born s j) eqn:Bj; [reflexivity|]. rewrite (B j Bj) in Ij. destruct Ij.
    - split; [|apply None_]. eapply fits_holds; [apply F; exact J|exact Ij]. }
  assert (wr : forall l, taken n s l = true -> exists j, stuck n rf s j /\ rank l < waits s j).
  { intros l T. apply taken_true in T as (j & b & J & Ij). exists j. split; [eapply hold; eauto|].
    eapply holder_waits; eauto. }
  destruct Si as (In_ & Bi & Ri & St). unfold step in St.
  rewrite Bi, (proj2 (Nat.ltb_lt i n) In_) in St. cbn [andb negb] in St. unfold waits at 1. pose proof (F i In_) as Fi.
  destruct (rest s i) as [|a k] eqn:R; [congruence|]. destruct a; cbn [fits] in Fi; cbv zeta in St; try discriminate St.
  - destruct (taken_wr n s l) eqn:T.
    + apply taken_wr_true in T as (j & J & Ij). exists j. split; [eapply hold; eauto|]. eapply holder_waits; eauto.
    + cbn [orb] in St. destruct (negb rf && awaited n s l) eqn:A; [|discriminate].
      apply andb_prop in A as [_ A]. apply awaited_true in A as (j & k' & J & Bj & Rj).
      specialize (None_ j). unfold step in None_. rewrite Bj, (proj2 (Nat.ltb_lt j n) J), Rj in None_. cbn [andb negb] in None_.
      destruct (taken n s l) eqn:T2; [|discriminate]. apply wr. exact T2.
  - destruct (taken n s l) eqn:T; [|discriminate]. apply wr. exact T.
  - destruct Fi as (h & Gi & _). rewrite Gi in St. discriminate.
  - destruct (Nat.ltb t n && born s t && match rest s t with [] => false | _ => true end) eqn:T; [|discriminate].
    apply andb_prop in T as [T Rt]. apply andb_prop in T as [Tn Bt]. apply Nat.ltb_lt in Tn.
    assert (Q : stuck n rf s t) by (split; [exact Tn|]; split; [exact Bt|]; split; [destruct (rest s t); congruence|apply None_]).
    exists t. split; [exact Q|]. eapply stuck_floor; eauto.
Qed.

Lemma waits_8 s i : waits s i < 8.
Proof.
  unfold waits. destruct (rest s i) as [|[] ?]; try lia; try (destruct l; cbn; try destruct (est _); lia).
  destruct (role_of t); cbn; lia.
Qed.

Lemma no_stuck n rf s i : inv n s -> (forall j, step n rf s j = None) -> ~ stuck n rf s i.
Proof.
  intros I A Si.
  assert (Q : forall m i, stuck n rf s i -> 8 - waits s i <= m -> False).
  { induction m as [|m IH]; intros j Sj W; [pose proof (waits_8 s j); lia|].
    destruct (chase n rf s I A j Sj) as (j' & Sj' & W'). pose proof (waits_8 s j'). apply (IH j' Sj'). lia. }
  exact (Q _ i Si (le_n _)).
Qed.
End Order.

(** ** C259: no deadlock *)

Lemma not_finished_dec n s : {i | i < n /\ born s i = true /\ rest s i <> []} + {finished n s}.
Proof.
  induction n as [|n [(i & I & B & R)|IH]].
  - right. intros i I. lia.
  - left. exists i. split; [lia|]. auto.
  - destruct (born s n) eqn:B; [destruct (rest s n) eqn:R|].
    + right. intros i I Bi. destruct (Nat.eq_dec i n) as [->|D]; [exact R|]. apply IH; [lia|exact Bi].
    + left. exists n. split; [lia|]. split; [exact B|]. congruence.
    + right. intros i I Bi. destruct (Nat.eq_dec i n) as [->|D]; [congruence|]. apply IH; [lia|exact Bi].
Qed.

Lemma step_dec n rf s : {i | step n rf s i <> None} + {forall i, step n rf s i = None}.
Proof.
  assert (Q : forall m, {i | step n rf s i <> None} + {forall i, i < m -> step n rf s i = None}).
  { induction m as [|m [X|IH]]; [right; intros; lia | left; exact X |].
    destruct (step n rf s m) eqn:St; [left; exists m; congruence|].
    right. intros i I. destruct (Nat.eq_dec i m) as [->|D]; [exact St|]. apply IH. lia. }
  destruct (Q n) as [X|A]; [left; exact X|]. right. intros i. destruct (Nat.lt_ge_cases i n) as [I|I]; [apply A; exact I|].
  unfold step. apply Nat.ltb_ge in I. rewrite I. reflexivity.
Qed.

Fixpoint total (f : nat -> list act) (n : nat) : nat := match n with O => 0 | Datatypes.S m => length (f m) + total f m end.

Lemma total_upd f i k n a : i < n -> f i = a :: k -> total f n = Datatypes.S (total (upd f i k) n).
Proof.
  intros I F. assert (Q : forall m, m <= i -> total (upd f i k) m = total f m).
  { induction m as [|m IH]; intros M; [reflexivity|]. cbn. rewrite IH by lia. rewrite upd_other by lia. reflexivity. }
  induction n as [|n IH]; [lia|]. cbn [total]. destruct (Nat.eq_dec i n) as [->|D].
  - rewrite upd_same, Q by lia. rewrite F. cbn. lia.
  - rewrite upd_other by lia. rewrite IH by lia. lia.
Qed.

Lemma step_total n rf s i s' : step n rf s i = Some s' -> total (rest s) n = Datatypes.S (total (rest s') n).
Proof.
  unfold step. destruct (negb (Nat.ltb i n && born s i)) eqn:G; [discriminate|].
  apply Bool.negb_false_iff, andb_prop in G as [G _]. apply Nat.ltb_lt in G.
  destruct (rest s i) as [|a k] eqn:R; [discriminate|]. intros St.
  assert (Q : rest s' = upd (rest s) i k).
  { destruct a; cbv zeta in St; cbn [rest held born] in St;
      repeat match type of St with
      | (if ?b then _ else _) = _ => destruct b
      | match ?b with _ => _ end = _ => destruct b
      end; try discriminate; injection St as <-; reflexivity. }
  rewrite Q. apply total_upd with (a := a); assumption.
Qed.

Section Safe.
Variables (role_of : nat -> role) (est : nat -> bool) (calls : kind -> api -> bool) (n : nat) (rf : bool) (s0 s : state) (sched : list nat).
Hypothesis allowed : forall k a, calls k a = true -> may k a = true.
Hypothesis started : start role_of est calls n s0.
Hypothesis ran : run n rf s0 sched = Some s.

Lemma reach_inv (E L : Prop) :
  (E -> forall k c, calls k (AIsEndpt c) = false) -> (L -> forall k, calls k ADestroy = false) -> inv role_of est E L n s.
Proof.
  intros A B. eapply run_inv; [|exact ran]. eapply start_inv; [exact allowed|exact A|exact B|exact started].
Qed.

Lemma inv_no_deadlock E L s1 : inv role_of est E L n s1 -> ~ deadlock n rf s1.
Proof.
  intros I [NF A]. apply NF. destruct (not_finished_dec n s1) as [(i & In_ & B & R)|F]; [|exact F]. exfalso.
  eapply (no_stuck role_of est E L n rf s1 i I A). split; [exact In_|]. split; [exact B|]. split; [exact R|apply A].
Qed.

Lemma reach0 : inv role_of est False False n s.
Proof. apply reach_inv; intros []. Qed.

(** Whatever the threads do and in whatever order, at no time do all that are not at their ends wait for each other. *)
Theorem c259_no_deadlock : ~ deadlock n rf s.
Proof. eapply inv_no_deadlock. exact reach0. Qed.

(** From any point all threads can be brought to their ends; *)
Theorem c259_completes : exists sched' s', run n rf s sched' = Some s' /\ finished n s'.
Proof.
  assert (Q : forall m s1, total (rest s1) n <= m -> inv role_of est False False n s1 ->
    exists sched' s', run n rf s1 sched' = Some s' /\ finished n s').
  { induction m as [|m IH]; intros s1 M I.
    - exists [], s1. split; [reflexivity|]. intros i In_ _. destruct (rest s1 i) as [|a k] eqn:R; [reflexivity|].
      rewrite (total_upd (rest s1) i k n a In_ R) in M. lia.
    - destruct (step_dec n rf s1) as [(i & St)|A].
      + destruct (step n rf s1 i) as [s2|] eqn:Si; [|congruence].
        destruct (IH s2) as (r & s' & R & F); [apply step_total in Si; lia | eapply step_inv; eauto |].
        exists (i :: r), s'. cbn. rewrite Si. auto.
      + exists [], s1. split; [reflexivity|]. destruct (not_finished_dec n s1) as [X|F]; [|exact F].
        destruct (inv_no_deadlock _ _ s1 I). split; [|exact A]. destruct X as (i & In_ & B & R). intros F. apply R, F; assumption. }
  exact (Q _ s (le_n _) reach0).
Qed.

(** and they get there whatever the order: as long as somebody acts, no more actions are done than the threads have ahead. *)
Theorem c259_bounded : length sched + total (rest s) n = total (rest s0) n.
Proof.
  clear started. revert s0 ran. induction sched as [|i r IH]; cbn; intros s1 R; [injection R as <-; reflexivity|].
  destruct (step n rf s1 i) as [s2|] eqn:St; [|discriminate]. apply step_total in St. rewrite St, <- (IH s2 R). reflexivity.
Qed.

(** ** C260: locks are given back *)

(** A thread at its end has no lock; a thread that gives back a lock has it. *)
Theorem c260_returned : forall i, i < n -> rest s i = [] -> held s i = [].
Proof. intros i I R. destruct reach0 as (F & _ & _). specialize (F i I). rewrite R in F. exact F. Qed.

Theorem c260_owned : forall i l k, i < n -> rest s i = Rel l :: k -> exists b, In (l, b) (held s i).
Proof.
  intros i l k I R. destruct reach0 as (F & _ & _). specialize (F i I). rewrite R in F. cbn in F. destruct F as (h & G & _).
  clear - G. revert h G. induction (held s i) as [|[m b] r IH]; cbn; [discriminate|]. intros h G.
  destruct (lock_eqb l m) eqn:Q; [apply lock_eqb_eq in Q; subst m; exists b; auto|].
  destruct (give l r) as [r'|]; [|discriminate]. destruct (IH r' eq_refl) as (b' & I'). exists b'. auto.
Qed.

(** ** C262-C264: shared data *)
Lemma excl E L i j l b b' :
  inv role_of est E L n s -> i < n -> j < n -> i <> j -> In (l, b) (held s i) -> In (l, b') (held s j) -> b = false /\ b' = false.
Proof. intros (_ & _ & X). apply X. Qed.

(** The array of Call Home clients is never used by two threads of which one writes. *)
Theorem c262_clients : ~ race n s VClients.
Proof.
  intros (i & j & w & w' & k & k' & I & J & D & _ & _ & Ri & Rj & W). pose proof reach0 as V. destruct V as (F & B & X).
  pose proof (F i I) as Fi. pose proof (F j J) as Fj. rewrite Ri in Fi. rewrite Rj in Fj. destruct Fi as [Ui _], Fj as [Uj _].
  cbn in Ui, Uj.
  assert (Pi : exists b, (w = true -> b = true) /\ In (Clients, b) (held s i))
    by (destruct w; [exists true; auto | destruct Ui as (b & Ui); exists b; split; [discriminate|exact Ui]]).
  assert (Pj : exists b, (w' = true -> b = true) /\ In (Clients, b) (held s j))
    by (destruct w'; [exists true; auto | destruct Uj as (b & Uj); exists b; split; [discriminate|exact Uj]]).
  destruct Pi as (b & Wb & Pi), Pj as (b' & Wb' & Pj). destruct (X i j Clients b b' I J D Pi Pj). destruct W; [rewrite Wb in * | rewrite Wb' in *]; congruence.
Qed.

(** The data of a Call Home client are not either, if nc_server_ch_client_is_endpt is never called. *)
Theorem c263_partial : (forall k c, calls k (AIsEndpt c) = false) -> forall c, ~ race n s (VClient c).
Proof.
  intros N c (i & j & w & w' & k & k' & I & J & D & _ & _ & Ri & Rj & W).
  assert (V : inv role_of est True False n s) by (apply reach_inv; [intros _; exact N | intros []]). destruct V as (F & B & X).
  pose proof (F i I) as Fi. pose proof (F j J) as Fj. rewrite Ri in Fi. rewrite Rj in Fj. destruct Fi as [Ui _], Fj as [Uj _].
  cbn in Ui, Uj. destruct (X i j (Client c) true true I J D (Ui Logic.I) (Uj Logic.I)). discriminate.
Qed.

(** Nor are the endpoints, the keystore and the truststore, if there is no Call Home and nc_server_destroy is not called. *)
Theorem c264_partial :
  (forall k, calls k ADestroy = false) -> (forall i c, role_of i <> Ch c) -> ~ race n s VListen.
Proof.
  intros N R (i & j & w & w' & k & k' & I & J & D & _ & _ & Ri & Rj & W).
  assert (V : inv role_of est False True n s) by (apply reach_inv; [intros [] | intros _; exact N]). destruct V as (F & B & X).
  pose proof (F i I) as Fi. pose proof (F j J) as Fj. rewrite Ri in Fi. rewrite Rj in Fj. destruct Fi as [Ui _], Fj as [Uj _].
  cbn in Ui, Uj. specialize (Ui Logic.I (R i)). specialize (Uj Logic.I (R j)).
  assert (Pi : exists b, (w = true -> b = true) /\ In (Config, b) (held s i))
    by (destruct w; [exists true; auto | destruct Ui as (b & Ui); exists b; split; [discriminate|exact Ui]]).
  assert (Pj : exists b, (w' = true -> b = true) /\ In (Config, b) (held s j))
    by (destruct w'; [exists true; auto | destruct Uj as (b & Uj); exists b; split; [discriminate|exact Uj]]).
  destruct Pi as (b & Wb & Pi), Pj as (b' & Wb' & Pj). destruct (X i j Config b b' I J D Pi Pj). destruct W; [rewrite Wb in * | rewrite Wb' in *]; congruence.
Qed.
End Safe.

(** ** Cases: ways through texts given by the choices made *)
Inductive choice := L | R | V (n : nat) | F (a : api) | Z | M.

Definition many : nat := 5.
Fixpoint pick (p : prog) (cs : list choice) : option (list act * list choice) :=
  match p with
  | Nop => Some ([], cs)
  | Do a => Some ([a], cs)
  | Seq p q =>
      match pick p cs with
      | Some (l1, c1) => match pick q c1 with Some (l2, c2) => Some (l1 ++ l2, c2) | None => None end
      | None => None
      end
  | Alt p q => match cs with L :: r => pick p r | R :: r => pick q r | _ => None end
  | Loop p =>
      (fix go (f : nat) (cs : list choice) : option (list act * list choice) :=
         match f, cs with
         | _, Z :: r => Some ([], r)
         | Datatypes.S f', M :: r =>
             match pick p r with
             | Some (l1, c1) => match go f' c1 with Some (l2, c2) => Some (l1 ++ l2, c2) | None => None end
             | None => None
             end
         | _, _ => None
         end) many cs
  | AnyN f => match cs with V n :: r => pick (f n) r | _ => None end
  | AnyA f => match cs with F a :: r => pick (f a) r | _ => None end
  end.

Lemma pick_path p : forall cs l r, pick p cs = Some (l, r) -> path p l.
Proof.
  induction p as [|a|p IHp q IHq|p IHp q IHq|p IHp|f IHf|f IHf]; intros cs l r P.
  - cbn in *. congruence.
  - cbn in *. congruence.
  - cbn in P. destruct (pick p cs) as [[l1 c1]|] eqn:P1; [|discriminate]. destruct (pick q c1) as [[l2 c2]|] eqn:P2; [|discriminate].
    injection P as <- <-. cbn. exists l1, l2. split; [eapply IHp; eauto|]. split; [eapply IHq; eauto|reflexivity].
  - cbn in P. destruct cs as [|[] cs]; try discriminate; [left; eapply IHp; eauto | right; eapply IHq; eauto].
  - cbn [pick] in P. cbn [path]. revert P. generalize many. intros fu. revert cs l r. induction fu as [|fu IH]; intros cs l r P.
    + destruct cs as [|[] cs]; cbn in P; try discriminate P. injection P as <- <-. exists []. split; [constructor|reflexivity].
    + destruct cs as [|[] cs]; try discriminate P; [injection P as <- <-; exists []; split; [constructor|reflexivity]|].
      destruct (pick p cs) as [[l1 c1]|] eqn:P1; [|discriminate].
      match type of P with match ?g with _ => _ end = _ => destruct g as [[l2 c2]|] eqn:P2; [|discriminate] end.
      injection P as <- <-. destruct (IH _ _ _ P2) as (ls & Fl & ->). exists (l1 :: ls). split; [|reflexivity].
      constructor; [eapply IHp; eauto | exact Fl].
  - cbn in P. destruct cs as [|[] cs]; try discriminate. cbn. exists n. eapply IHf; eauto.
  - cbn in P. destruct cs as [|[] cs]; try discriminate. cbn. exists a. eapply IHf; eauto.
Qed.

Definition way (p : prog) (cs : list choice) : list act := match pick p cs with Some (l, _) => l | None => [] end.
Definition picks (p : prog) (cs : list choice) : bool := match pick p cs with Some _ => true | None => false end.

Section Cases.
Variables (role_of : nat -> role) (est : nat -> bool) (calls : kind -> api -> bool) (ways : list (list choice)) (rf : bool).
Let n := length ways.
Definition beginning : state :=
  mk (fun i => way (thread role_of est calls (role_of i)) (nth i ways []))
     (fun _ => []) (fun i => match role_of i with App => true | _ => false end).
Definition possible : bool :=
  forallb (fun i => picks (thread role_of est calls (role_of i)) (nth i ways [])) (seq 0 n).

Lemma beginning_start : possible = true -> start role_of est calls n beginning.
Proof.
  intros P. split; [|split]; cbn; auto. intros i I. unfold possible in P. rewrite forallb_forall in P.
  specialize (P i ltac:(apply in_seq; lia)). unfold picks, way in *.
  destruct (pick (thread role_of est calls (role_of i)) (nth i ways [])) as [[l r]|] eqn:Q; [|discriminate].
  eapply pick_path; eauto.
Qed.

(** Thread after thread goes on, at most so many times. *)
Fixpoint go (s : state) (i k : nat) : list nat * state :=
  match k with
  | O => ([], s)
  | Datatypes.S k' => match step n rf s i with Some s' => let (l, s2) := go s' i k' in (i :: l, s2) | None => ([], s) end
  end.
Fixpoint play (s : state) (l : list (nat * nat)) : list nat * state :=
  match l with
  | [] => ([], s)
  | (i, k) :: r => let (a, s1) := go s i k in let (b, s2) := play s1 r in (a ++ b, s2)
  end.

Lemma run_app s a b : run n rf s (a ++ b) = match run n rf s a with Some s' => run n rf s' b | None => None end.
Proof. revert s. induction a as [|i a IH]; intros s; cbn; [reflexivity|]. destruct (step n rf s i); auto. Qed.
Lemma go_run s i k : run n rf s (fst (go s i k)) = Some (snd (go s i k)).
Proof.
  revert s. induction k as [|k IH]; intros s; cbn; [reflexivity|]. destruct (step n rf s i) as [s'|] eqn:St; [|reflexivity].
  specialize (IH s'). destruct (go s' i k) as [l s2]. cbn in *. rewrite St. exact IH.
Qed.
Lemma play_run s l : run n rf s (fst (play s l)) = Some (snd (play s l)).
Proof.
  revert s. induction l as [|[i k] r IH]; intros s; cbn; [reflexivity|]. pose proof (go_run s i k) as G.
  destruct (go s i k) as [a s1]. specialize (IH s1). destruct (play s1 r) as [b s2]. cbn in *. rewrite run_app, G. exact IH.
Qed.

Definition blocked (s : state) : bool :=
  existsb (fun i => born s i && match rest s i with [] => false | _ => true end) (seq 0 n) &&
  forallb (fun i => match step n rf s i with None => true | Some _ => false end) (seq 0 n).

Lemma blocked_deadlock s : blocked s = true -> deadlock n rf s.
Proof.
  intros B. apply andb_prop in B as [A B]. split.
  - intros Fi. apply existsb_exists in A as (i & I & A). apply in_seq in I. apply andb_prop in A as [Bi A].
    rewrite (Fi i) in A by (try lia; exact Bi). discriminate.
  - intros i. destruct (Nat.lt_ge_cases i n) as [I|I].
    + rewrite forallb_forall in B. specialize (B i ltac:(apply in_seq; lia)). destruct (step n rf s i); [discriminate|reflexivity].
    + unfold step. apply Nat.ltb_ge in I. rewrite I. reflexivity.
Qed.
End Cases.

(** ** C261: what callbacks may not call *)

(** calls of the same function *)
Definition like (a b : api) : bool :=
  match a, b with
  | ASetup, ASetup | AAccept, AAccept | AConfig, AConfig | AIsClient, AIsClient | AIsEndpt _, AIsEndpt _
  | ADispatch _ _, ADispatch _ _ | AFree _, AFree _ | APs _, APs _ | APsClear _, APsClear _ | ANtf _, ANtf _
  | ACertStart _, ACertStart _ | ADestroy, ADestroy => true
  | ACertStop v _, ACertStop w _ => Bool.eqb v w
  | _, _ => false
  end.

Definition api_eqb (a b : api) : bool :=
  like a b &&
  match a, b with
  | AIsEndpt x, AIsEndpt y | AFree x, AFree y | APs x, APs y | APsClear x, APsClear y | ANtf x, ANtf y
  | ACertStart x, ACertStart y | ACertStop _ x, ACertStop _ y => Nat.eqb x y
  | ADispatch x y, ADispatch x' y' => Nat.eqb x x' && Nat.eqb y y'
  | _, _ => true
  end.
Lemma api_eqb_eq a b : api_eqb a b = true -> a = b.
Proof.
  destruct a, b; cbn; intros A; try discriminate; try reflexivity; try (apply Nat.eqb_eq in A; congruence).
  - apply andb_prop in A as [A B]. apply Nat.eqb_eq in A, B. congruence.
  - apply andb_prop in A as [A B]. apply Bool.eqb_prop in A. apply Nat.eqb_eq in B. congruence.
Qed.

Definition kind_eqb (a b : kind) : bool :=
  match a, b with Main, Main | NewSess, NewSess | Ctx, Ctx | Auth, Auth | Clb, Clb => true | _, _ => false end.

(** the threads of the application call anything, the callback [k] calls [b] *)
Definition just (k : kind) (b : api) : kind -> api -> bool :=
  fun k' a => match k' with Main => true | _ => kind_eqb k' k && api_eqb a b end.

Definition roles (i : nat) : role := match i with 1 | 3 => Ch 0 | 2 => CertT | _ => App end.
Definition roles' (i : nat) : role := match i with 2 => CertT | _ => App end.

(** choices within one call *)
Definition within (a : api) : list choice :=
  match a with
  | ASetup => [Z; L] | AAccept => [L] | AIsEndpt _ => [L] | ADispatch _ _ => [R; L] | AFree _ => [Z]
  | APsClear _ => [Z; M; V 0; Z; Z] | ACertStop _ _ => [R]
  | _ => []
  end.
(** nc_server_config_setup_diff that removes a client and waits for thread 1 *)
Definition removal : list choice := [M; F ASetup; M; R; R; R; R; L; R; V 1; R; Z; L].
Definition begin_cert : list choice := [M; F (ACertStart 2); R].
Definition begin_ch (t : nat) : list choice := [M; F (ADispatch 0 t); R; R].
Definition in_new_sess (w : list choice) : list choice := [R; Z; Z; R; R; L; R; Z; Z; L; V 0] ++ w ++ [L; Z].
Definition in_ctx (w : list choice) : list choice := [R; Z; Z; R; L; R] ++ w ++ [Z; L].
Definition waiting : list choice := [R; Z; Z; R; R; L; R; Z; Z; L; V 0; Z; R; M; R; Z].
Definition cert_idle : list choice := [L; L; Z].

Definition instance (a : api) : api :=
  match a with
  | AIsEndpt _ => AIsEndpt 0 | ADispatch _ _ => ADispatch 0 1 | AFree _ => AFree 0 | APs _ => APs 0 | APsClear _ => APsClear 0
  | ANtf _ => ANtf 0 | ACertStart _ => ACertStart 2 | ACertStop w _ => ACertStop w 2
  | _ => a
  end.
Lemma like_instance a : like a (instance a) = true.
Proof. destruct a; cbn; auto using Bool.eqb_reflx. Qed.

Definition destroyed (k : kind) : list choice :=
  match k with
  | NewSess => [V 0; L; M; V 1; R; Z]
  | Ctx => [V 0; L; Z]
  | _ => [V 2; R; L; Z]
  end.
Definition calling (k : kind) (a : api) : list choice :=
  [M; F a] ++ (match a with ADestroy => destroyed k | _ => within a end) ++ [Z].

Definition scene (k : kind) (a : api) : (nat -> role) * list (list choice) * list (nat * nat) :=
  match k with
  | NewSess => (roles, [begin_cert ++ begin_ch 1 ++ removal ++ [Z]; in_new_sess (calling k a); cert_idle],
                [(0, 10); (1, 13); (0, 20); (2, 20); (1, 20)])
  | Ctx => (roles, [begin_cert ++ begin_ch 1 ++ begin_ch 3 ++ removal ++ [Z]; in_ctx (calling k a); cert_idle; waiting],
            [(0, 17); (3, 15); (1, 7); (0, 20); (2, 20); (3, 20); (1, 20)])
  | Auth => (roles', [begin_cert ++ [M; F AAccept; R] ++ calling k a ++ [Z]; [M; F AIsClient; M; F AConfig; Z]; cert_idle], [(0, 8); (1, 20); (2, 20); (0, 20)])
  | _ => (roles', [begin_cert ++ [Z]; [Z]; [L; L; M; R; R] ++ calling k a ++ [Z]], [(0, 20); (2, 30)])
  end.

Definition bad (rf : bool) (k : kind) (a : api) : bool :=
  match scene k a with
  | (ro, ws, pl) =>
      possible ro (fun _ => true) (just k a) ws &&
      blocked ws rf (snd (play ws rf (beginning ro (fun _ => true) (just k a) ws) pl))
  end.

Lemma bad_all k a : may k a = false -> bad false k (instance a) = true.
Proof.
  destruct k; [discriminate| | | |]; destruct a; try destruct wait; cbn [may instance]; intros Q; try discriminate Q; vm_compute; reflexivity.
Qed.

(** Where only readers that wait for a writer who waits are in the way. *)
Definition needs_fair (k : kind) (a : api) : bool :=
  match k, a with
  | Ctx, (AIsClient | AIsEndpt _) | Auth, (AAccept | ACertStop true _ | ADestroy) => true
  | _, _ => false
  end.

Lemma bad_most k a : may k a = false -> needs_fair k a = false -> bad true k (instance a) = true.
Proof.
  destruct k; [discriminate| | | |]; destruct a; try destruct wait; cbn [may instance needs_fair]; intros Q W;
    try discriminate Q; try discriminate W; vm_compute; reflexivity.
Qed.

Definition deadlocks (rf : bool) (k : kind) (a : api) : Prop :=
  exists b role_of est calls n s0 sched s,
    like a b = true /\
    (forall k' a', calls k' a' = true -> k' = Main \/ (k' = k /\ a' = b)) /\
    start role_of est calls n s0 /\ run n rf s0 sched = Some s /\ deadlock n rf s.

Lemma bad_deadlocks rf k a : bad rf k (instance a) = true -> deadlocks rf k a.
Proof.
  intros B. unfold bad in B. destruct (scene k (instance a)) as [[ro ws] pl].
  apply andb_prop in B as [P B].
  exists (instance a), ro, (fun _ => true), (just k (instance a)), (length ws), (beginning ro (fun _ => true) (just k (instance a)) ws).
  exists (fst (play ws rf (beginning ro (fun _ => true) (just k (instance a)) ws) pl)).
  exists (snd (play ws rf (beginning ro (fun _ => true) (just k (instance a)) ws) pl)).
  split; [apply like_instance|]. split.
  { intros k' a' J. unfold just in J. destruct k'; [left; reflexivity|..]; right;
      apply andb_prop in J as [J1 J2]; apply api_eqb_eq in J2; (split; [|exact J2]); destruct k; try discriminate J1; reflexivity. }
  split; [apply beginning_start; exact P|]. split; [apply play_run|]. apply blocked_deadlock. exact B.
Qed.

(** For every callback and every function that [may] refuses there is an application whose callbacks call nothing but that function, and whose threads
    block each other, if readers wait for those who wait to write; *)
Theorem c261_refused : forall k a, may k a = false -> deadlocks false k a.
Proof. intros k a Q. apply bad_deadlocks, bad_all, Q. Qed.

(** and, but for five cases, also if they do not wait. *)
Theorem c261_readers_first : forall k a, may k a = false -> needs_fair k a = false -> deadlocks true k a.
Proof. intros k a Q W. apply bad_deadlocks, bad_most; assumption. Qed.

(** What is full of C259: callbacks may call anything. *)
Definition c259_full : Prop :=
  forall role_of est calls n rf s0 sched s, start role_of est calls n s0 -> run n rf s0 sched = Some s -> ~ deadlock n rf s.
Theorem c259_full_refuted : ~ c259_full.
Proof.
  intros A. destruct (c261_readers_first NewSess ASetup eq_refl eq_refl) as (b & ro & es & ca & n & s0 & sc & s & _ & _ & St & Ru & D).
  exact (A ro es ca n true s0 sc s St Ru D).
Qed.

(** ** Data used by two threads at once *)
Definition heads (ws : list (list choice)) (ro : nat -> role) (pl : list (nat * nat)) (i j : nat) (x : loc) (w w' : bool) : Prop :=
  let s := snd (play ws true (beginning ro (fun _ => true) (fun k _ => kind_eqb k Main) ws) pl) in
  (i < length ws /\ j < length ws /\ i <> j) /\ born s i = true /\ born s j = true /\
  hd_error (rest s i) = Some (Use x w) /\ hd_error (rest s j) = Some (Use x w').

Definition racy (x : loc) : Prop :=
  exists role_of est calls n s0 sched s,
    (forall k a, calls k a = true -> k = Main) /\
    start role_of est calls n s0 /\ run n true s0 sched = Some s /\ race n s x.

Lemma heads_racy ws ro pl i j x w w' :
  possible ro (fun _ => true) (fun k _ => kind_eqb k Main) ws = true ->
  heads ws ro pl i j x w w' -> w = true \/ w' = true -> racy x.
Proof.
  intros P ((I & J & D) & Bi & Bj & Hi & Hj) W.
  exists ro, (fun _ => true), (fun k _ => kind_eqb k Main), (length ws), (beginning ro (fun _ => true) (fun k _ => kind_eqb k Main) ws).
  exists (fst (play ws true (beginning ro (fun _ => true) (fun k _ => kind_eqb k Main) ws) pl)).
  eexists. split; [intros [] ?; cbn; congruence|]. split; [apply beginning_start; exact P|]. split; [apply play_run|].
  set (s := snd (play ws true (beginning ro (fun _ => true) (fun k _ => kind_eqb k Main) ws) pl)) in *.
  exists i, j, w, w'. destruct (rest s i) as [|a k] eqn:Ri; [discriminate|]. destruct (rest s j) as [|a' k'] eqn:Rj; [discriminate|].
  exists k, k'. injection Hi as ->. injection Hj as ->. tauto.
Qed.

(** A client can be changed while nc_server_ch_client_is_endpt reads its endpoints; *)
Definition c263_full : Prop := forall c, ~ racy (VClient c).
Theorem c263_full_refuted : ~ c263_full.
Proof.
  intros A. apply (A 0).
  apply heads_racy with (ws := [[M; F ASetup; M; R; L; V 0; R; Z; L; Z]; [M; F (AIsEndpt 0); R; Z]]) (ro := roles') (pl := [(0, 4); (1, 2)])
    (i := 0) (j := 1) (w := true) (w' := false); [reflexivity | split; [cbn; lia | vm_compute; auto] | auto].
Qed.

(** the endpoints, keystore and truststore while a Call Home client connects; *)
Definition c264_full : Prop := ~ racy VListen.
Theorem c264_full_refuted : ~ c264_full.
Proof.
  intros A. apply A.
  apply heads_racy with (ws := [begin_ch 1 ++ [M; F ASetup; M; L; L; Z; L; Z]; in_ctx [Z]]) (ro := roles) (pl := [(0, 8); (1, 7)])
    (i := 0) (j := 1) (w := true) (w' := false); [reflexivity | split; [cbn; lia | vm_compute; auto] | auto].
Qed.

(** the intervals while the thread that notifies about certificates computes the next time. *)
Theorem c264_intervals_refuted : racy VIntv.
Proof.
  apply heads_racy with (ws := [begin_cert ++ [M; F ASetup; M; R; R; R; R; R; R; R; Z; L; Z]; [Z]; [L; L; M; R; R; Z; Z]]) (ro := roles')
    (pl := [(0, 3); (2, 13); (0, 2)]) (i := 0) (j := 2) (w := true) (w' := false); [reflexivity | split; [cbn; lia | vm_compute; auto] | auto].
Qed.

(** ** Cases of the hypotheses: three threads with callbacks that call what they may, on the way through a removal *)
Definition polite (k : kind) (a : api) : bool :=
  match k, a with
  | Main, (ASetup | ADispatch _ _ | ACertStart _ | AAccept | AConfig | AIsClient | APs _) => true
  | NewSess, (APs _ | AIsClient) | Auth, AIsClient | Clb, ASetup => true
  | _, _ => false
  end.
Example polite_allowed k a : polite k a = true -> may k a = true.
Proof. destruct k, a; cbn; congruence. Qed.
Example polite_endpt k c : polite k (AIsEndpt c) = false.
Proof. destruct k; reflexivity. Qed.
Example polite_destroy k : polite k ADestroy = false.
Proof. destruct k; reflexivity. Qed.

Definition case_ways : list (list choice) :=
  [begin_cert ++ begin_ch 1 ++ removal ++ [Z]; in_new_sess [M; F (APs 0); Z; Z]; [L; L; M; R; R; M; F ASetup; Z; L; Z; Z]].
Definition case_start : state := beginning roles (fun _ => true) polite case_ways.
Example case_started : start roles (fun _ => true) polite 3 case_start.
Proof. apply (beginning_start roles (fun _ => true) polite case_ways). reflexivity. Qed.

(** here the application waits for the Call Home thread, which has a session locked and is about to lock a poll session, the third thread waits to read the configuration *)
Definition case_state : state := snd (play case_ways true case_start [(0, 10); (1, 13); (0, 30); (2, 30)]).
Example case_run : run 3 true case_start (fst (play case_ways true case_start [(0, 10); (1, 13); (0, 30); (2, 30)])) = Some case_state.
Proof. apply (play_run case_ways true). Qed.
Example case_waits :
  map (fun i => (hd_error (rest case_state i), held case_state i)) [0; 1; 2] =
  [(Some (Join 1), [(Config, true)]); (Some (Wr (Poll 0)), [(Sess 0, true)]); (Some (Rd Config), [])].
Proof. vm_compute. reflexivity. Qed.
Example case_ends :
  map (fun i => match rest (snd (play case_ways true case_state [(1, 30); (0, 30); (2, 30)])) i with [] => true | _ => false end) [0; 1; 2]
  = [true; true; true].
Proof. vm_compute. reflexivity. Qed.

Print Assumptions c259_no_deadlock.
Print Assumptions c259_completes.
Print Assumptions c259_bounded.
Print Assumptions c259_full_refuted.
Print Assumptions c260_returned.
Print Assumptions c260_owned.
Print Assumptions c261_refused.
Print Assumptions c261_readers_first.
Print Assumptions c262_clients.
Print Assumptions c263_partial.
Print Assumptions c263_full_refuted.
Print Assumptions c264_partial.
Print Assumptions c264_full_refuted.
Print Assumptions c264_intervals_refuted.
