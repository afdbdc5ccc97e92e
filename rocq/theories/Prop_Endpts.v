(** C43: endpoints and their sockets; C54: removal of all configured endpoints. *)
From Coq Require Import String Bool Lia List Arith ZArith Permutation.
From Verif Require Import Endpts.
Import ListNotations.
Local Open Scope string_scope.
Local Open Scope list_scope.

(* ------------------------------------------------------------------ *)
(** ** Lists *)

Lemma upd_len {A} (l : list A) x : forall i, length (upd l i x) = length l.
Proof. induction l as [|y l IH]; intros [|i]; cbn; auto. Qed.

Lemma nth_upd {A} (l : list A) x : forall i j, nth_error (upd l i x) j = if Nat.eqb i j then match nth_error l i with Some _ => Some x | None => None end else nth_error l j.
Proof.
  induction l as [|y l IH]; intros [|i] [|j]; cbn [upd nth_error Nat.eqb]; try reflexivity.
  - destruct (Nat.eqb i j); reflexivity.
  - apply IH.
Qed.

Lemma map_upd {A B} (f : A -> B) (l : list A) x : forall i, map f (upd l i x) = upd (map f l) i (f x).
Proof. induction l as [|y l IH]; intros [|i]; cbn; auto. f_equal. apply IH. Qed.

Lemma upd_same {A} (l : list A) x : forall i, nth_error l i = Some x -> upd l i x = l.
Proof. induction l as [|y l IH]; intros [|i] E; cbn in *; try discriminate; auto. - congruence. - f_equal. auto. Qed.

Lemma firstn_upd {A} (l : list A) x : forall i n, firstn n (upd l i x) = upd (firstn n l) i x.
Proof. induction l as [|y l IH]; intros [|i] [|n]; cbn; auto. f_equal. auto. Qed.

Lemma nth_firstn {A} (l : list A) : forall n i, i < n -> nth_error (firstn n l) i = nth_error l i.
Proof. induction l as [|y l IH]; intros [|n] [|i] H; cbn; try lia; auto. apply IH. lia. Qed.

Lemma firstn_snoc {A} (l : list A) y : forall n, nth_error l n = Some y -> firstn (S n) l = firstn n l ++ [y].
Proof. induction l as [|z l IH]; intros [|n] E; cbn in *; try discriminate. - congruence. - f_equal. apply IH, E. Qed.

Lemma upd_perm {A} (l : list A) x y : forall i, nth_error l i = Some x -> Permutation (x :: upd l i y) (y :: l).
Proof.
  induction l as [|z l IH]; intros [|i] E; cbn in *; try discriminate.
  - injection E as ->. constructor.
  - rewrite perm_swap. rewrite (IH i E). apply perm_swap.
Qed.

(** Removal by moving the last entry into the gap removes exactly the entry. *)
Lemma swap_remove {A} (l : list A) c i x y : i < S c -> S c <= length l -> nth_error l i = Some x -> nth_error l c = Some y ->
  Permutation (firstn (S c) l) (x :: firstn c (if Nat.eqb i c then l else upd l i y)).
Proof.
  intros Hi Hc Ex Ey. rewrite (firstn_snoc l y c Ey). destruct (Nat.eqb_spec i c) as [->|Hn].
  - assert (x = y) by congruence. subst. rewrite Permutation_app_comm. reflexivity.
  - rewrite firstn_upd. rewrite (upd_perm (firstn c l) x y i) by (rewrite nth_firstn by lia; exact Ex).
    rewrite Permutation_app_comm. reflexivity.
Qed.

(* ------------------------------------------------------------------ *)
(** ** Sockets and endpoints at the same positions *)

(** Every entry of the arrays, also beyond the count: the socket was opened for the endpoint there. *)
Definition aligned (s : st) : Prop :=
  length (s_endpts s) = length (s_binds s) /\ s_count s <= length (s_endpts s) /\
  forall i b fd o, nth_error (s_binds s) i = Some b -> b_sock b = Some (fd, o) -> nth_error (map e_id (s_endpts s)) i = Some o.

Lemma free_same s n s' : free s n = Some s' -> s_endpts s' = s_endpts s /\ s_binds s' = s_binds s /\ s_count s' = s_count s /\ s_closed s' = s_closed s /\ s_next s' = s_next s.
Proof. unfold free. destruct (is_freed s n); [discriminate|]. intros H. injection H as <-. cbn. auto. Qed.

Lemma free_ref_same s e s' : free_ref s e = Some s' -> s_endpts s' = s_endpts s /\ s_binds s' = s_binds s /\ s_count s' = s_count s /\ s_closed s' = s_closed s /\ s_next s' = s_next s.
Proof. unfold free_ref. destruct (e_ref e) as [[rid rn]|]; [apply free_same|]. intros H. injection H as <-. auto. Qed.

Lemma close_same s b : s_endpts (close s b) = s_endpts s /\ s_binds (close s b) = s_binds s /\ s_count (close s b) = s_count s /\ s_freed (close s b) = s_freed s /\ s_next (close s b) = s_next s.
Proof. unfold close. destruct (b_sock b) as [[fd o]|]; cbn; auto. Qed.

Lemma del_refs_same n : forall k i s s', del_refs k i s n = Some s' ->
  map e_id (s_endpts s') = map e_id (s_endpts s) /\ map e_name (s_endpts s') = map e_name (s_endpts s) /\ s_binds s' = s_binds s /\ s_count s' = s_count s /\
  s_closed s' = s_closed s /\ s_next s' = s_next s.
Proof.
  induction k as [|k IH]; intros i s s' H; cbn [del_refs] in H; [injection H as <-; repeat split; reflexivity|].
  destruct (nth_error (s_endpts s) i) as [e|] eqn:Ee; [|discriminate].
  destruct (e_ref e) as [[rid rn]|] eqn:Er; [|exact (IH _ _ _ H)].
  destruct (String.eqb rn n); [|exact (IH _ _ _ H)].
  destruct (free s rid) as [s1|] eqn:Ef; [|discriminate]. destruct (free_same _ _ _ Ef) as (A & B & C & D & E).
  destruct (IH _ _ _ H) as (I1 & I2 & I3 & I4 & I5 & I6). cbn [set_endpt s_endpts s_binds s_count s_closed s_next] in *.
  rewrite map_upd in I1. rewrite map_upd in I2. cbn [e_id e_name] in I1, I2. rewrite A in I1, I2.
  rewrite upd_same in I1 by (rewrite nth_error_map, Ee; reflexivity). rewrite upd_same in I2 by (rewrite nth_error_map, Ee; reflexivity).
  repeat split; congruence.
Qed.

Lemma aligned_ext s s' : aligned s -> map e_id (s_endpts s') = map e_id (s_endpts s) -> s_binds s' = s_binds s -> s_count s' = s_count s -> aligned s'.
Proof.
  intros (A & B & C) E1 E2 E3. assert (L : length (s_endpts s') = length (s_endpts s)) by (rewrite <- (map_length e_id (s_endpts s')), E1, map_length; reflexivity).
  unfold aligned. rewrite E1, E2, E3, L. auto.
Qed.

Lemma aligned_bind s i b' : aligned s -> (forall fd o, b_sock b' = Some (fd, o) -> nth_error (map e_id (s_endpts s)) i = Some o) -> aligned (set_bind s i b').
Proof.
  intros (A & B & C) H. split; [|split]; cbn [set_bind s_endpts s_binds s_count].
  - rewrite upd_len. exact A.
  - exact B.
  - intros j b fd o Hj Hs. rewrite nth_upd in Hj. destruct (Nat.eqb_spec i j) as [->|].
    + destruct (nth_error (s_binds s) j); [|discriminate]. injection Hj as <-. exact (H fd o Hs).
    + exact (C j b fd o Hj Hs).
Qed.

Lemma aligned_endpt s i e e' : aligned s -> nth_error (s_endpts s) i = Some e -> e_id e' = e_id e -> aligned (set_endpt s i e').
Proof.
  intros Ha He Hi. apply (aligned_ext s); auto. cbn [set_endpt s_endpts]. rewrite map_upd, Hi. apply upd_same. rewrite nth_error_map, He. reflexivity.
Qed.

Lemma aligned_append s n t a : aligned s -> aligned (append s n t a).
Proof.
  intros (A & B & C). unfold append. split; [|split]; cbn [s_endpts s_binds s_count].
  - rewrite !app_length, !firstn_length, A. cbn. lia.
  - rewrite app_length, firstn_length. cbn. lia.
  - intros i b fd o Hi Hs. destruct (lt_dec i (s_count s)) as [L|L].
    + rewrite nth_error_app1 in Hi by (rewrite firstn_length; lia). rewrite nth_firstn in Hi by exact L.
      rewrite map_app, nth_error_app1 by (rewrite map_length, firstn_length; lia). rewrite <- firstn_map, nth_firstn by exact L. exact (C i b fd o Hi Hs).
    + rewrite nth_error_app2 in Hi by (rewrite firstn_length; lia). destruct (i - length (firstn (s_count s) (s_binds s))) as [|k]; cbn in Hi.
      * injection Hi as <-. discriminate.
      * destruct k; discriminate.
Qed.

Lemma aligned_sap s i a p l s' r : aligned s -> set_address_port s i a p l = Ok s' r -> aligned s'.
Proof.
  intros Ha H. unfold set_address_port in H. destruct (nth_error (s_endpts s) i) as [e|] eqn:Ee; [|discriminate]. destruct (nth_error (s_binds s) i) as [b|] eqn:Eb; [|discriminate].
  destruct (negb _); [discriminate|]. destruct ((_ && _) || _); [|injection H as <- <-; exact Ha]. destruct l; [|injection H as <- <-; exact Ha].
  injection H as <- <-. destruct (close_same s b) as (C1 & C2 & C3 & C4 & C5).
  apply (aligned_ext (set_bind (close s b) i (mkB (b_addr b) (b_port b) (Some (s_next (close s b), e_id e)) (b_pollin b)))); auto.
  apply aligned_bind.
  - apply (aligned_ext s); auto. congruence.
  - intros fd o E. cbn in E. injection E as <- <-. rewrite C1, nth_error_map, Ee. reflexivity.
Qed.

Lemma aligned_del s i refs s' r : aligned s -> del_at s i refs = Ok s' r -> aligned s'.
Proof.
  intros Ha H. unfold del_at in H. destruct (nth_error (s_endpts s) i) as [e0|] eqn:E0; [|discriminate].
  destruct (if refs then _ else _) as [s1|] eqn:E1; [|discriminate].
  assert (A1 : aligned s1).
  { destruct refs; [|injection E1 as <-; exact Ha]. destruct (del_refs_same _ _ _ _ _ E1) as (I1 & _ & I3 & I4 & _). apply (aligned_ext s); auto. }
  destruct (nth_error (s_endpts s1) i) as [e|] eqn:Ee; [|discriminate]. destruct (nth_error (s_binds s1) i) as [b|] eqn:Eb; [|discriminate].
  destruct (free s1 (e_id e)) as [s2|] eqn:E2; [|discriminate].
  assert (A2 : aligned s2). { destruct (free_same _ _ _ E2) as (F1 & F2 & F3 & _). apply (aligned_ext s1); auto. congruence. }
  destruct (if refs then free_ref s2 e else _) as [s3|] eqn:E3; [|discriminate].
  assert (A3 : aligned s3). { destruct refs; [|injection E3 as <-; exact A2]. destruct (free_ref_same _ _ _ E3) as (F1 & F2 & F3 & _). apply (aligned_ext s2); auto. congruence. }
  assert (A4 : aligned (close s3 b)). { destruct (close_same s3 b) as (F1 & F2 & F3 & _). apply (aligned_ext s3); auto. congruence. }
  cbv zeta in H. revert A4 H. generalize (close s3 b). clear. intros s (A & B & C) H.
  destruct (Nat.eqb (s_count s - 1) 0); [injection H as <- <-; split; [reflexivity|]; split; [cbn; lia|]; intros [|j] b fd o Hj; discriminate|].
  destruct (Nat.eqb i (s_count s - 1)). { injection H as <- <-. split; [exact A|]. split; [cbn; lia|exact C]. }
  destruct (nth_error (s_endpts s) (s_count s - 1)) as [el|] eqn:El; [|discriminate]. destruct (nth_error (s_binds s) (s_count s - 1)) as [bl|] eqn:Bl; [|discriminate].
  injection H as <- <-. split; [|split]; cbn [s_endpts s_binds s_count].
  - rewrite !upd_len. exact A.
  - rewrite upd_len. lia.
  - intros j b fd o Hj Hs. rewrite map_upd, nth_upd. rewrite nth_upd in Hj. destruct (Nat.eqb_spec i j) as [->|].
    + destruct (nth_error (s_binds s) j) eqn:Bj; [|discriminate]. injection Hj as <-. pose proof (C _ _ _ _ Bl Hs) as Co. rewrite nth_error_map, El in Co. cbn in Co.
      rewrite nth_error_map. destruct (nth_error (s_endpts s) j) eqn:Ej; [exact Co|]. exfalso.
      apply nth_error_None in Ej. assert (nth_error (s_binds s) j = None) by (apply nth_error_None; lia). congruence.
    + exact (C j b fd o Hj Hs).
Qed.

Lemma aligned_del_listen : forall k i s s' r, aligned s -> del_listen_loop k i s = Ok s' r -> aligned s'.
Proof.
  induction k as [|k IH]; intros i s s' r Ha H; cbn [del_listen_loop] in H; [injection H as <- <-; exact Ha|].
  destruct (nth_error (s_endpts s) i) as [e|]; [|discriminate]. destruct (e_ti e).
  - injection H as <- <-. exact Ha.
  - destruct (del_at s i true) as [s1 r1| | |] eqn:E1; try discriminate. exact (IH _ _ _ _ (aligned_del _ _ _ _ _ Ha E1) H).
  - destruct (del_at s i true) as [s1 r1| | |] eqn:E1; try discriminate. exact (IH _ _ _ _ (aligned_del _ _ _ _ _ Ha E1) H).
  - exact (IH _ _ _ _ Ha H).
Qed.

Lemma find_name_spec n : forall l k i, find_name l n k = Some i -> exists e, k <= i /\ nth_error l (i - k) = Some e /\ e_name e = n.
Proof.
  induction l as [|e l IH]; intros k i H; cbn [find_name] in H; [discriminate|]. destruct (String.eqb_spec (e_name e) n) as [E|E].
  - injection H as <-. exists e. rewrite Nat.sub_diag. auto.
  - destruct (IH (S k) i H) as (e' & A & B & C). exists e'. split; [lia|]. replace (i - k) with (S (i - S k)) by lia. auto.
Qed.
Lemma find_name_none n : forall l k, find_name l n k = None -> ~ In n (map e_name l).
Proof.
  induction l as [|e l IH]; intros k H; cbn [find_name] in H; [intros []|]. destruct (String.eqb_spec (e_name e) n) as [E|E]; [discriminate|].
  intros [X|X]; [congruence|]. exact (IH (S k) H X).
Qed.
Lemma get_endpt_spec s n i : get_endpt s n = Some i -> exists e, i < s_count s /\ nth_error (s_endpts s) i = Some e /\ e_name e = n.
Proof.
  intros H. destruct (find_name_spec _ _ _ _ H) as (e & _ & B & C). rewrite Nat.sub_0_r in B. exists e.
  assert (L : i < s_count s). { assert (i < length (firstn (s_count s) (s_endpts s))) by (apply nth_error_Some; congruence). rewrite firstn_length in H0. lia. }
  rewrite nth_firstn in B by exact L. auto.
Qed.

Lemma on_spec s n f s' r : on s n f = Ok s' r -> (s' = s /\ r = 1) \/ exists i e b, get_endpt s n = Some i /\ nth_error (s_endpts s) i = Some e /\ nth_error (s_binds s) i = Some b /\ f i e b = Ok s' r.
Proof.
  unfold on. destruct (get_endpt s n) as [i|] eqn:G; [|intros H; injection H as <- <-; auto].
  destruct (nth_error (s_endpts s) i) as [e|] eqn:E; [|discriminate]. destruct (nth_error (s_binds s) i) as [b|] eqn:B; [|discriminate]. intros H. right. exists i, e, b. auto.
Qed.

Lemma aligned_step s o s' r : aligned s -> step s o = Ok s' r -> aligned s'.
Proof.
  intros Ha H. destruct o; cbn [step] in H.
  - unfold add_unix in H. destruct (get_endpt s n); [injection H as <- <-; exact Ha|]. exact (aligned_sap _ _ _ _ _ _ _ (aligned_append _ _ _ _ Ha) H).
  - unfold del_unix in H. destruct (get_endpt s n); [|injection H as <- <-; exact Ha]. destruct (nth_error (s_endpts s) n0); [|discriminate].
    destruct (e_ti e); try (injection H as <- <-; exact Ha). exact (aligned_del _ _ _ _ _ Ha H).
  - injection H as <- <-. apply aligned_append, Ha.
  - apply on_spec in H. destruct H as [[-> _]|(i & e & b & _ & E & _ & H)]; [exact Ha|]. injection H as <- <-. apply (aligned_endpt s i e); auto.
  - apply on_spec in H. destruct H as [[-> _]|(i & e & b & _ & E & _ & H)]; [exact Ha|]. destruct (free_ref s e) as [s1|] eqn:F; [|discriminate]. injection H as <- <-.
    destruct (free_ref_same _ _ _ F) as (F1 & F2 & F3 & _). apply (aligned_ext (set_endpt s1 i (mkEp (e_id e) (e_name e) (e_ti e) (Some (s_next s, r0))))); auto.
    apply (aligned_endpt s1 i e); auto; [|congruence]. apply (aligned_ext s); auto. congruence.
  - apply on_spec in H. destruct H as [[-> _]|(i & e & b & _ & E & _ & H)]; [exact Ha|]. destruct (free_ref s e) as [s1|] eqn:F; [|discriminate]. injection H as <- <-.
    destruct (free_ref_same _ _ _ F) as (F1 & F2 & F3 & _). apply (aligned_endpt s1 i e); auto; [|congruence]. apply (aligned_ext s); auto. congruence.
  - apply on_spec in H. destruct H as [[-> _]|(i & e & b & _ & _ & B & H)]; [exact Ha|]. refine (aligned_sap _ _ _ _ _ _ _ _ H).
    apply aligned_bind; [exact Ha|]. cbn. intros fd o. exact (proj2 (proj2 Ha) i b fd o B).
  - apply on_spec in H. destruct H as [[-> _]|(i & e & b & _ & _ & B & H)]; [exact Ha|]. refine (aligned_sap _ _ _ _ _ _ _ _ H).
    apply aligned_bind; [exact Ha|]. cbn. intros fd o. exact (proj2 (proj2 Ha) i b fd o B).
  - unfold del_endpt in H. destruct (get_endpt s n); [|injection H as <- <-; exact Ha]. destruct (nth_error (s_endpts s) n0); [|discriminate].
    destruct (e_ti e); try (injection H as <- <-; exact Ha); exact (aligned_del _ _ _ _ _ Ha H).
  - exact (aligned_del_listen _ _ _ _ _ Ha H).
Qed.

Lemma aligned_run : forall os s s' r, aligned s -> run s os = Ok s' r -> aligned s'.
Proof.
  induction os as [|o os IH]; intros s s' r Ha H; cbn [run] in H; [injection H as <- <-; exact Ha|].
  destruct (step s o) as [s1 r1| | |] eqn:E; try discriminate. exact (IH _ _ _ (aligned_step _ _ _ _ Ha E) H).
Qed.

(** After any sequence of operations each position has an endpoint and a bind, and the socket there was opened for that endpoint. *)
Theorem c43_positions os s r : run st0 os = Ok s r ->
  forall i, i < s_count s -> exists e b, nth_error (s_endpts s) i = Some e /\ nth_error (s_binds s) i = Some b /\
    forall fd o, b_sock b = Some (fd, o) -> o = e_id e.
Proof.
  intros H i Hi. assert (A : aligned s). { apply (aligned_run os st0 s r); [|exact H]. split; [reflexivity|]. split; [cbn; lia|]. intros [|j] b fd o Hj; discriminate. }
  destruct A as (A & B & C). destruct (nth_error (s_endpts s) i) as [e|] eqn:E. 2: { apply nth_error_None in E. lia. }
  destruct (nth_error (s_binds s) i) as [b|] eqn:F. 2: { apply nth_error_None in F. lia. }
  exists e, b. split; [reflexivity|]. split; [reflexivity|]. intros fd o Hs. pose proof (C i b fd o F Hs) as G. rewrite nth_error_map, E in G. cbn in G. congruence.
Qed.

(* ------------------------------------------------------------------ *)
(** ** Memory and sockets *)

Definition blocks (e : endpt) : list nat := e_id e :: match e_ref e with Some (r, _) => [r] | None => [] end.
Definition sock_of (b : bind) : list nat := match b_sock b with Some (fd, _) => [fd] | None => [] end.

(** What the present endpoints own. *)
Definition live (s : st) : list nat := flat_map blocks (firstn (s_count s) (s_endpts s)).
Definition socks (s : st) : list nat := flat_map sock_of (firstn (s_count s) (s_binds s)).
Definition names (s : st) : list string := map e_name (firstn (s_count s) (s_endpts s)).

Definition uniq (n : nat) (l : list nat) : Prop := NoDup l /\ Forall (fun x => x < n) l.

(** Nothing is owned twice, nothing owned is freed, nothing is freed twice; the same for sockets. *)
Definition safe (s : st) : Prop :=
  length (s_endpts s) = length (s_binds s) /\ s_count s <= length (s_endpts s) /\
  uniq (s_next s) (live s ++ s_freed s) /\ uniq (s_next s) (socks s ++ s_closed s).

Lemma uniq_perm n l l' : Permutation l l' -> uniq n l -> uniq n l'.
Proof. intros P [A B]. split; [exact (Permutation_NoDup P A)|]. rewrite Forall_forall in *. intros x Hx. apply B. apply (Permutation_in x (Permutation_sym P) Hx). Qed.
Lemma uniq_drop n x l : uniq n (x :: l) -> uniq n l.
Proof. intros [A B]. inversion A. inversion B. subst. split; assumption. Qed.
Lemma uniq_new n l : uniq n l -> uniq (S n) (n :: l).
Proof.
  intros [A B]. rewrite Forall_forall in B. split.
  - constructor; [|exact A]. intros H. specialize (B n H). lia.
  - constructor; [lia|]. rewrite Forall_forall. intros x Hx. specialize (B x Hx). lia.
Qed.
Lemma uniq_weak n l : uniq n l -> uniq (S n) l.
Proof. intros H. apply (uniq_drop (S n) n), uniq_new, H. Qed.

Lemma flat_map_perm {A B} (f : A -> list B) l l' : Permutation l l' -> Permutation (flat_map f l) (flat_map f l').
Proof.
  induction 1; cbn [flat_map].
  - constructor.
  - apply Permutation_app_head, IHPermutation.
  - rewrite !app_assoc. apply Permutation_app_tail, Permutation_app_comm.
  - etransitivity; eassumption.
Qed.

Lemma upd_flat {A B} (f : A -> list B) l i x y : nth_error l i = Some x -> Permutation (f x ++ flat_map f (upd l i y)) (f y ++ flat_map f l).
Proof. intros H. exact (flat_map_perm f _ _ (upd_perm l x y i H)). Qed.

Lemma live_upd s i e e' : i < s_count s -> nth_error (s_endpts s) i = Some e ->
  Permutation (blocks e ++ live (set_endpt s i e')) (blocks e' ++ live s).
Proof. intros Hi He. unfold live. cbn [set_endpt s_endpts s_count]. rewrite firstn_upd. apply upd_flat. rewrite nth_firstn by exact Hi. exact He. Qed.

Lemma socks_upd s i b b' : i < s_count s -> nth_error (s_binds s) i = Some b ->
  Permutation (sock_of b ++ socks (set_bind s i b')) (sock_of b' ++ socks s).
Proof. intros Hi Hb. unfold socks. cbn [set_bind s_binds s_count]. rewrite firstn_upd. apply upd_flat. rewrite nth_firstn by exact Hi. exact Hb. Qed.

Lemma in_live s i e n : i < s_count s -> nth_error (s_endpts s) i = Some e -> In n (blocks e) -> In n (live s).
Proof. intros Hi He Hn. unfold live. apply in_flat_map. exists e. split; [|exact Hn]. apply (nth_error_In _ i). rewrite nth_firstn by exact Hi. exact He. Qed.

Lemma free_ok s n : ~ In n (s_freed s) -> free s n = Some (mkS (s_endpts s) (s_binds s) (s_count s) (n :: s_freed s) (s_closed s) (s_next s)).
Proof.
  intros H. unfold free, is_freed. destruct (existsb (Nat.eqb n) (s_freed s)) eqn:E; [|reflexivity].
  exfalso. apply existsb_exists in E. destruct E as (x & Hx & Ex). apply Nat.eqb_eq in Ex. congruence.
Qed.

Lemma uniq_not_freed n l f x : uniq n (l ++ f) -> In x l -> ~ In x f.
Proof.
  intros [A _] Hl Hf. apply in_split in Hl. destruct Hl as (l1 & l2 & ->). rewrite <- app_assoc in A. cbn in A. apply NoDup_remove_2 in A. apply A.
  rewrite !in_app_iff. auto.
Qed.

(** Removal of the references succeeds and moves their names from the owned to the freed blocks. *)
Lemma del_refs_safe n : forall k i s, safe s -> i + k <= s_count s ->
  exists s', del_refs k i s n = Some s' /\ safe s' /\ Permutation (live s' ++ s_freed s') (live s ++ s_freed s).
Proof.
  induction k as [|k IH]; intros i s Hs Hi; cbn [del_refs]; [exists s; auto|].
  pose proof Hs as (L1 & L2 & U1 & U2).
  destruct (nth_error (s_endpts s) i) as [e|] eqn:Ee. 2: { apply nth_error_None in Ee. lia. }
  destruct (e_ref e) as [[rid rn]|] eqn:Er; [|apply IH; [exact Hs|lia]].
  destruct (String.eqb rn n); [|apply IH; [exact Hs|lia]].
  assert (Hin : In rid (live s)). { apply (in_live s i e rid ltac:(lia) Ee). unfold blocks. rewrite Er. cbn. auto. }
  rewrite (free_ok s rid (uniq_not_freed _ _ _ _ U1 Hin)).
  set (s1 := mkS _ _ _ _ _ _). set (e' := mkEp _ _ _ _).
  assert (P : Permutation (live (set_endpt s1 i e') ++ s_freed (set_endpt s1 i e')) (live s ++ s_freed s)).
  { pose proof (live_upd s i e e' ltac:(lia) Ee) as Q. unfold blocks in Q at 1 2. rewrite Er in Q. cbn [e' e_id e_ref] in Q.
    change (live (set_endpt s i e')) with (live (set_endpt s1 i e')) in Q. cbn [app] in Q. apply Permutation_cons_inv in Q.
    cbn [set_endpt s_freed s1]. rewrite <- Permutation_middle. rewrite app_comm_cons. apply Permutation_app_tail. exact Q. }
  assert (Hs1 : safe (set_endpt s1 i e')).
  { split; [cbn [set_endpt s_endpts s_binds s1]; rewrite upd_len; exact L1|]. split; [cbn [set_endpt s_endpts s_count s1]; rewrite upd_len; exact L2|].
    split; [|exact U2]. apply (uniq_perm _ _ _ (Permutation_sym P)). exact U1. }
  destruct (IH (S i) (set_endpt s1 i e') Hs1 ltac:(cbn [set_endpt s_count s1]; lia)) as (s' & E' & S' & P'). exists s'. split; [exact E'|]. split; [exact S'|]. rewrite P'. exact P.
Qed.

Lemma swap_flat {A B} (f : A -> list B) l c i x y : i < S c -> S c <= length l -> nth_error l i = Some x -> nth_error l c = Some y ->
  Permutation (flat_map f (firstn (S c) l)) (f x ++ flat_map f (firstn c (if Nat.eqb i c then l else upd l i y))).
Proof. intros. rewrite (flat_map_perm f _ _ (swap_remove l c i x y H H0 H1 H2)). reflexivity. Qed.

(** Removal of a present endpoint succeeds, frees what it owned and nothing else, and closes its socket. *)
Lemma del_at_safe s i refs : safe s -> i < s_count s -> exists s', del_at s i refs = Ok s' 0 /\ safe s' /\
  (forall e, nth_error (s_endpts s) i = Some e -> Permutation (names s) (e_name e :: names s')) /\ s_count s = S (s_count s') /\
  (refs = true -> Permutation (live s' ++ s_freed s') (live s ++ s_freed s)) /\ Permutation (socks s' ++ s_closed s') (socks s ++ s_closed s).
Proof.
  intros Hs Hi. pose proof Hs as (L1 & L2 & _). unfold del_at.
  destruct (nth_error (s_endpts s) i) as [e0|] eqn:E0. 2: { apply nth_error_None in E0. lia. }
  assert (X : exists s1, (if refs then del_refs (s_count s) 0 s (e_name e0) else Some s) = Some s1 /\ safe s1 /\ Permutation (live s1 ++ s_freed s1) (live s ++ s_freed s) /\
              map e_name (s_endpts s1) = map e_name (s_endpts s) /\ s_count s1 = s_count s /\ s_binds s1 = s_binds s /\ s_closed s1 = s_closed s).
  { destruct refs.
    - destruct (del_refs_safe (e_name e0) (s_count s) 0 s Hs ltac:(lia)) as (s1 & A & B & C). exists s1.
      destruct (del_refs_same _ _ _ _ _ A) as (_ & I2 & I3 & I4 & I5 & _). repeat split; assumption || (destruct B as (?&?&?&?); assumption) || idtac. all: apply B.
    - exists s. repeat split; try reflexivity; apply Hs. }
  destruct X as (s1 & E1 & Hs1 & P1 & N1 & C1 & B1 & K1). rewrite E1.
  pose proof Hs1 as (M1 & M2 & U1 & U2).
  destruct (nth_error (s_endpts s1) i) as [e|] eqn:Ee. 2: { apply nth_error_None in Ee. lia. }
  destruct (nth_error (s_binds s1) i) as [b|] eqn:Eb. 2: { apply nth_error_None in Eb. lia. }
  assert (Hlt : i < s_count s1) by lia.
  destruct (s_count s1) as [|c] eqn:Ec; [lia|].
  destruct (nth_error (s_endpts s1) c) as [el|] eqn:El. 2: { apply nth_error_None in El. lia. }
  destruct (nth_error (s_binds s1) c) as [bl|] eqn:Bl. 2: { apply nth_error_None in Bl. lia. }
  pose proof (swap_flat blocks (s_endpts s1) c i e el Hlt M2 Ee El) as PL.
  pose proof (swap_flat sock_of (s_binds s1) c i b bl Hlt ltac:(lia) Eb Bl) as PS.
  pose proof (swap_remove (s_endpts s1) c i e el Hlt M2 Ee El) as PN.
  assert (Live1 : live s1 = flat_map blocks (firstn (S c) (s_endpts s1))) by (unfold live; rewrite Ec; reflexivity).
  assert (Socks1 : socks s1 = flat_map sock_of (firstn (S c) (s_binds s1))) by (unfold socks; rewrite Ec; reflexivity).
  rewrite <- Live1 in PL. rewrite <- Socks1 in PS.
  assert (Nm : e_name e = e_name e0).
  { assert (nth_error (map e_name (s_endpts s1)) i = nth_error (map e_name (s_endpts s)) i) as Q by (rewrite N1; reflexivity). rewrite !nth_error_map, Ee, E0 in Q. cbn in Q. congruence. }
  (* the frees *)
  assert (UL : uniq (s_next s1) (blocks e ++ flat_map blocks (firstn c (if Nat.eqb i c then s_endpts s1 else upd (s_endpts s1) i el)) ++ s_freed s1)).
  { rewrite app_assoc. apply (uniq_perm _ _ _ (Permutation_app_tail (s_freed s1) PL)). exact U1. }
  assert (F1 : ~ In (e_id e) (s_freed s1)). { rewrite app_assoc in UL. apply (uniq_not_freed _ _ _ _ UL). apply in_or_app. left. left. reflexivity. }
  rewrite (free_ok s1 (e_id e) F1). set (s2 := mkS _ _ _ _ _ _).
  assert (F2 : exists s3, (if refs then free_ref s2 e else Some s2) = Some s3 /\ s_endpts s3 = s_endpts s1 /\ s_binds s3 = s_binds s1 /\ s_count s3 = S c /\ s_closed s3 = s_closed s1 /\ s_next s3 = s_next s1 /\
              (refs = true -> Permutation (s_freed s3) (blocks e ++ s_freed s1)) /\ exists d, Permutation (d ++ s_freed s3) (blocks e ++ s_freed s1)).
  { destruct refs.
    - unfold free_ref. destruct (e_ref e) as [[rid rn]|] eqn:Er.
      + rewrite free_ok.
        * eexists. split; [reflexivity|]. repeat split; try reflexivity; try exact Ec.
          -- intros _. cbn [s_freed s2]. unfold blocks. rewrite Er. cbn. apply perm_swap.
          -- exists []. cbn [s_freed s2 app]. unfold blocks. rewrite Er. cbn. apply perm_swap.
        * cbn [s_freed s2]. destruct UL as [UL _]. unfold blocks in UL at 1. rewrite Er in UL. cbn [app] in UL. inversion UL as [|? ? N2 UL2]; subst. inversion UL2 as [|? ? N3 _]; subst.
          intros [Q|Q]; [apply N2; left; congruence|]. apply N3. apply in_or_app. right. exact Q.
      + exists s2. split; [reflexivity|]. repeat split; try reflexivity; try exact Ec.
        -- intros _. unfold blocks. rewrite Er. reflexivity.
        -- exists []. unfold blocks. rewrite Er. reflexivity.
    - exists s2. split; [reflexivity|]. repeat split; try reflexivity; try exact Ec; [discriminate|].
      exists (match e_ref e with Some (r, _) => [r] | None => [] end). cbn [s_freed s2]. unfold blocks. rewrite <- Permutation_middle. reflexivity. }
  destruct F2 as (s3 & E3 & G1 & G2 & G3 & G4 & G5 & G6 & G7). rewrite E3.
  destruct (close_same s3 b) as (K2 & K3 & K4 & K5 & K6).
  assert (Kc : s_closed (close s3 b) = sock_of b ++ s_closed s1) by (unfold close, sock_of; destruct (b_sock b) as [[fd o]|]; cbn; rewrite ?G4; reflexivity).
  cbv zeta. rewrite K2, K3, K4, K5, K6, Kc, G1, G2, G3, G5. replace (S c - 1) with c by lia. rewrite El, Bl.
  set (s' := mkS (if Nat.eqb i c then s_endpts s1 else upd (s_endpts s1) i el) (if Nat.eqb i c then s_binds s1 else upd (s_binds s1) i bl) c (s_freed s3) (sock_of b ++ s_closed s1) (s_next s1)).
  assert (Ps : Permutation (socks s' ++ s_closed s') (socks s ++ s_closed s)).
  { unfold socks at 2. rewrite <- C1, <- B1, <- K1, <- Socks1. rewrite PS. cbn [s_closed s']. unfold socks. cbn [s_count s_binds s']. rewrite !app_assoc. apply Permutation_app_tail. apply Permutation_app_comm. }
  assert (Pl : refs = true -> Permutation (live s' ++ s_freed s') (live s ++ s_freed s)).
  { intros R. rewrite <- P1, PL. cbn [s_freed s']. rewrite (G6 R). unfold live. cbn [s_count s_endpts s']. rewrite !app_assoc. apply Permutation_app_tail. apply Permutation_app_comm. }
  assert (Ss : safe s').
  { split; [cbn [s_endpts s_binds s']; destruct (Nat.eqb i c); rewrite ?upd_len; exact M1|].
    split; [cbn [s_endpts s_count s']; destruct (Nat.eqb i c); rewrite ?upd_len; lia|]. split.
    - destruct G7 as [d G7]. assert (Q : uniq (s_next s1) (d ++ live s' ++ s_freed s')).
      { apply (uniq_perm _ _ _ (Permutation_sym (Permutation_app_swap_app _ _ _))). cbn [s_freed s']. apply (uniq_perm _ (live s' ++ blocks e ++ s_freed s1)).
        - apply Permutation_app_head. symmetry. exact G7.
        - apply (uniq_perm _ _ _ (Permutation_app_swap_app _ _ _)). exact UL. }
      clear - Q. cbn [s_next s']. induction d as [|x d IH]; [exact Q|]. apply IH. exact (uniq_drop _ _ _ Q).
    - cbn [s_next s']. apply (uniq_perm _ _ _ (Permutation_sym Ps)). rewrite <- K1. unfold socks. rewrite <- C1, <- B1, <- Socks1. exact U2. }
  assert (Nn : Permutation (names s) (e_name e0 :: names s')).
  { unfold names. rewrite <- C1, <- firstn_map, <- N1, firstn_map. rewrite PN. cbn [map]. rewrite Nm. reflexivity. }
  destruct (Nat.eqb_spec c 0) as [->|Hc0].
  - exists (mkS [] [] 0 (s_freed s3) (sock_of b ++ s_closed s1) (s_next s1)). split; [reflexivity|].
    destruct Ss as (_ & _ & Ss3 & Ss4). split; [split; [reflexivity|]; split; [cbn; lia|]; split; assumption|].
    split; [intros e2 X2; injection X2 as <-; exact Nn|]. split; [cbn; lia|]. split; [exact Pl|exact Ps].
  - exists s'. split; [unfold s'; destruct (Nat.eqb i c); reflexivity|]. split; [exact Ss|]. split; [intros e2 X2; injection X2 as <-; exact Nn|].
    split; [cbn; lia|]. split; [exact Pl|exact Ps].
Qed.

Lemma firstn_all_app {A} (l : list A) c x : c <= length l -> firstn (S c) (firstn c l ++ [x]) = firstn c l ++ [x].
Proof. intros H. apply firstn_all2. rewrite app_length, firstn_length. cbn. lia. Qed.

Lemma append_views s n t a : safe s ->
  live (append s n t a) = live s ++ [s_next s] /\ socks (append s n t a) = socks s /\ names (append s n t a) = names s ++ [n].
Proof.
  intros (L1 & L2 & _). unfold live, socks, names, append. cbn [s_count s_endpts s_binds]. rewrite !firstn_all_app by lia. rewrite !flat_map_app, map_app. cbn. rewrite !app_nil_r. auto.
Qed.

Lemma safe_append s n t a : safe s -> safe (append s n t a).
Proof.
  intros Hs. destruct (append_views s n t a Hs) as (A & B & _). destruct Hs as (L1 & L2 & U1 & U2). unfold safe. rewrite A, B. cbn [append s_endpts s_binds s_count s_freed s_closed s_next].
  rewrite !app_length, !firstn_length. cbn [length]. split; [lia|]. split; [lia|]. split; [|apply uniq_weak; exact U2].
  rewrite <- app_assoc. cbn [app]. apply (uniq_perm _ _ _ (Permutation_middle _ _ _)). apply uniq_new. exact U1.
Qed.

Lemma safe_bind s i b b' : safe s -> i < s_count s -> nth_error (s_binds s) i = Some b -> b_sock b' = b_sock b -> safe (set_bind s i b').
Proof.
  intros (L1 & L2 & U1 & U2) Hi Hb E. unfold safe. cbn [set_bind s_endpts s_binds s_count s_freed s_closed s_next]. rewrite upd_len. split; [exact L1|]. split; [exact L2|]. split; [exact U1|].
  pose proof (socks_upd s i b b' Hi Hb) as P. replace (sock_of b') with (sock_of b) in P by (unfold sock_of; rewrite E; reflexivity). apply Permutation_app_inv_l in P.
  apply (uniq_perm _ (socks s ++ s_closed s)); [|exact U2]. apply Permutation_app_tail. symmetry. exact P.
Qed.

Lemma names_endpt s i e e' : nth_error (s_endpts s) i = Some e -> e_name e' = e_name e -> names (set_endpt s i e') = names s.
Proof. intros He En. unfold names. cbn [set_endpt s_endpts s_count]. rewrite <- !firstn_map, map_upd, En, upd_same; [reflexivity|]. rewrite nth_error_map, He. reflexivity. Qed.

Lemma safe_sap s i a p l : safe s -> i < s_count s -> (exists s' r, set_address_port s i a p l = Ok s' r /\ safe s' /\ names s' = names s) \/ set_address_port s i a p l = Abort.
Proof.
  intros Hs Hi. pose proof Hs as (L1 & L2 & U1 & U2). unfold set_address_port.
  destruct (nth_error (s_endpts s) i) as [e|] eqn:Ee. 2: { apply nth_error_None in Ee. lia. }
  destruct (nth_error (s_binds s) i) as [b|] eqn:Eb. 2: { apply nth_error_None in Eb. lia. }
  destruct (negb _); [auto|]. left. cbv zeta.
  destruct ((_ && _) || _); [|exists s, 0; auto]. destruct l; [|exists s, 1; auto].
  destruct (close_same s b) as (K2 & K3 & K4 & K5 & K6).
  assert (Kc : s_closed (close s b) = sock_of b ++ s_closed s) by (unfold close, sock_of; destruct (b_sock b) as [[fd o]|]; reflexivity).
  eexists _, _. split; [reflexivity|]. set (b' := mkB _ _ _ _). set (s' := set_next _ _).
  assert (Hn : names s' = names s) by (unfold names, s'; cbn [set_next set_bind s_endpts s_count]; rewrite K2, K4; reflexivity). split; [|exact Hn].
  unfold safe, s'. cbn [set_next set_bind s_endpts s_binds s_count s_freed s_closed s_next]. rewrite K2, K3, K4, K5, K6, Kc, upd_len. split; [exact L1|]. split; [exact L2|]. split.
  - unfold live. cbn [set_next set_bind s_endpts s_count]. rewrite K2, K4. apply uniq_weak. exact U1.
  - apply (uniq_perm _ (s_next s :: socks s ++ s_closed s)); [|apply uniq_new; exact U2].
    pose proof (socks_upd s i b b' Hi Eb) as P. assert (Sb : sock_of b' = [s_next s]) by (cbn; rewrite K6; reflexivity). rewrite Sb in P.
    replace (socks (set_next (set_bind (close s b) i b') (S (s_next s)))) with (socks (set_bind s i b')) by (unfold socks; cbn [set_next set_bind s_binds s_count]; rewrite K3, K4; reflexivity).
    rewrite app_assoc. change (s_next s :: socks s ++ s_closed s) with (([s_next s] ++ socks s) ++ s_closed s). apply Permutation_app_tail. rewrite <- P. apply Permutation_app_comm.
Qed.

(** A present endpoint's reference is freed once; then a new one may be stored. *)
Lemma safe_ref s i e : safe s -> i < s_count s -> nth_error (s_endpts s) i = Some e ->
  exists s1, free_ref s e = Some s1 /\ safe (set_endpt s1 i (mkEp (e_id e) (e_name e) (e_ti e) None)) /\ s_endpts s1 = s_endpts s /\ s_binds s1 = s_binds s /\ s_count s1 = s_count s /\ s_next s1 = s_next s.
Proof.
  intros Hs Hi He. pose proof Hs as (L1 & L2 & U1 & U2). set (e' := mkEp _ _ _ _). pose proof (live_upd s i e e' Hi He) as P. unfold free_ref.
  destruct (e_ref e) as [[rid rn]|] eqn:Er; unfold blocks in P at 1 2; rewrite Er in P; cbn [e' e_id e_ref app] in P; apply Permutation_cons_inv in P.
  - assert (Hin : In rid (live s)). { apply (in_live s i e rid Hi He). unfold blocks. rewrite Er. cbn. auto. }
    rewrite (free_ok s rid (uniq_not_freed _ _ _ _ U1 Hin)). eexists. split; [reflexivity|]. split; [|cbn; auto].
    unfold safe. cbn [set_endpt s_endpts s_binds s_count s_freed s_closed s_next]. rewrite upd_len. split; [exact L1|]. split; [exact L2|]. split; [|exact U2].
    apply (uniq_perm _ (live s ++ s_freed s)); [|exact U1]. change (live (set_endpt (mkS _ _ _ _ _ _) i e')) with (live (set_endpt s i e')).
    rewrite <- Permutation_middle, app_comm_cons. apply Permutation_app_tail. symmetry. exact P.
  - exists s. split; [reflexivity|]. split; [|auto]. unfold safe. cbn [set_endpt s_endpts s_binds s_count s_freed s_closed s_next]. rewrite upd_len. split; [exact L1|]. split; [exact L2|]. split; [|exact U2].
    apply (uniq_perm _ (live s ++ s_freed s)); [|exact U1]. apply Permutation_app_tail. symmetry. exact P.
Qed.

(** What an operation may do to the names. *)
Definition names_ok (o : op) (a b : list string) : Prop :=
  b = a \/ (exists n, b = a ++ [n] /\ ((exists p l, o = AddUnix n p l) /\ ~ In n a \/ o = Create n)) \/ (exists n, Permutation a (n :: b)).

Lemma step_safe s o : safe s -> o <> DelListen -> (exists s' r, step s o = Ok s' r /\ safe s' /\ names_ok o (names s) (names s')) \/ step s o = Abort.
Proof.
  intros Hs Ho. destruct o; cbn [step]; try congruence.
  - unfold add_unix. destruct (get_endpt s n) eqn:G; [left; exists s, 1; unfold names_ok; auto|]. cbv zeta.
    destruct (safe_sap (append s n TUnix (Some path)) (s_count s) None 0 listens (safe_append _ _ _ _ Hs) ltac:(cbn; lia)) as [(s' & r & A & B & C)|A]; [left|right; exact A].
    exists s', r. split; [exact A|]. split; [exact B|]. destruct (append_views s n TUnix (Some path) Hs) as (_ & _ & E). rewrite C, E. right. left. exists n. split; [reflexivity|]. left. split; [eauto|]. exact (find_name_none _ _ _ G).
  - left. unfold del_unix. destruct (get_endpt s n) as [i|] eqn:G; [|exists s, 0; unfold names_ok; auto]. destruct (get_endpt_spec _ _ _ G) as (e & Hi & He & _). rewrite He.
    destruct (e_ti e); try (exists s, 0; unfold names_ok; auto; fail).
    destruct (del_at_safe s i false Hs Hi) as (s' & A & B & C & _). exists s', 0. split; [exact A|]. split; [exact B|]. right. right. exists (e_name e). exact (C e He).
  - left. eexists _, _. split; [reflexivity|]. split; [apply safe_append; exact Hs|]. destruct (append_views s n TNone None Hs) as (_ & _ & E). rewrite E. right. left. exists n. auto.
  - left. unfold on. destruct (get_endpt s n) as [i|] eqn:G; [|exists s, 1; unfold names_ok; auto]. destruct (get_endpt_spec _ _ _ G) as (e & Hi & He & _). rewrite He.
    destruct (nth_error (s_binds s) i) eqn:Eb. 2: { apply nth_error_None in Eb. destruct Hs as (L1 & L2 & _). lia. }
    eexists _, _. split; [reflexivity|]. split; [|left; apply (names_endpt s i e); auto].
    destruct Hs as (L1 & L2 & U1 & U2). unfold safe. cbn [set_endpt s_endpts s_binds s_count s_freed s_closed s_next]. rewrite upd_len. split; [exact L1|]. split; [exact L2|]. split; [|exact U2].
    apply (uniq_perm _ (live s ++ s_freed s)); [|exact U1]. apply Permutation_app_tail. set (e' := mkEp _ _ _ _). pose proof (live_upd s i e e' Hi He) as P. replace (blocks e') with (blocks e) in P by reflexivity. apply Permutation_app_inv_l in P. symmetry. exact P.
  - left. unfold on. destruct (get_endpt s n) as [i|] eqn:G; [|exists s, 1; unfold names_ok; auto]. destruct (get_endpt_spec _ _ _ G) as (e & Hi & He & _). rewrite He.
    destruct (nth_error (s_binds s) i) eqn:Eb. 2: { apply nth_error_None in Eb. destruct Hs as (L1 & L2 & _). lia. }
    destruct (safe_ref s i e Hs Hi He) as (s1 & A & B & C1 & C2 & C3 & C4). rewrite A. eexists _, _. split; [reflexivity|]. set (e' := mkEp _ _ _ (Some _)). set (e0 := mkEp _ _ _ None) in B.
    split. 2: { left. change (names (set_next ?x ?y)) with (names x). rewrite (names_endpt s1 i e); auto; [unfold names; rewrite C1, C3; reflexivity|congruence]. }
    destruct B as (L1 & L2 & U1 & U2). cbn [set_endpt s_endpts s_binds s_count s_freed s_closed s_next] in L1, L2, U1, U2. rewrite upd_len in L1, L2.
    unfold safe. cbn [set_next set_endpt s_endpts s_binds s_count s_freed s_closed s_next]. rewrite upd_len. split; [exact L1|]. split; [exact L2|]. rewrite <- C4. split; [|apply uniq_weak; exact U2].
    assert (He1 : nth_error (s_endpts (set_endpt s1 i e0)) i = Some e0). { cbn [set_endpt s_endpts]. rewrite nth_upd, Nat.eqb_refl, C1, He. reflexivity. }
    pose proof (live_upd (set_endpt s1 i e0) i e0 e' ltac:(cbn [set_endpt s_count]; lia) He1) as P.
    assert (X : live (set_endpt (set_endpt s1 i e0) i e') = live (set_endpt s1 i e')).
    { unfold live. cbn [set_endpt s_endpts s_count]. f_equal. f_equal. clear. generalize (s_endpts s1). intros l. revert i. induction l as [|x l IH]; intros [|i]; cbn; auto. f_equal. apply IH. }
    rewrite X in P. unfold blocks in P at 1 2. cbn [e0 e' e_id e_ref app] in P. apply Permutation_cons_inv in P.
    apply (uniq_perm _ (s_next s1 :: live (set_endpt s1 i e0) ++ s_freed s1)); [|apply uniq_new; exact U1].
    rewrite app_comm_cons. apply Permutation_app_tail. rewrite C4. symmetry. exact P.
  - left. unfold on. destruct (get_endpt s n) as [i|] eqn:G; [|exists s, 1; unfold names_ok; auto]. destruct (get_endpt_spec _ _ _ G) as (e & Hi & He & _). rewrite He.
    destruct (nth_error (s_binds s) i) eqn:Eb. 2: { apply nth_error_None in Eb. destruct Hs as (L1 & L2 & _). lia. }
    destruct (safe_ref s i e Hs Hi He) as (s1 & A & B & C1 & C2 & C3 & C4). rewrite A. eexists _, _. split; [reflexivity|]. split; [exact B|].
    left. rewrite (names_endpt s1 i e); auto; [unfold names; rewrite C1, C3; reflexivity|congruence].
  - unfold on. destruct (get_endpt s n) as [i|] eqn:G; [|left; exists s, 1; unfold names_ok; auto]. destruct (get_endpt_spec _ _ _ G) as (e & Hi & He & _). rewrite He.
    destruct (nth_error (s_binds s) i) as [b|] eqn:Eb. 2: { apply nth_error_None in Eb. destruct Hs as (L1 & L2 & _). lia. }
    set (b' := mkB _ _ _ _). destruct (safe_sap (set_bind s i b') i (Some a) 0 listens (safe_bind s i b b' Hs Hi Eb eq_refl) Hi) as [(s' & r & A & B & C)|A]; [left|right; exact A].
    exists s', r. split; [exact A|]. split; [exact B|]. left. exact C.
  - unfold on. destruct (get_endpt s n) as [i|] eqn:G; [|left; exists s, 1; unfold names_ok; auto]. destruct (get_endpt_spec _ _ _ G) as (e & Hi & He & _). rewrite He.
    destruct (nth_error (s_binds s) i) as [b|] eqn:Eb. 2: { apply nth_error_None in Eb. destruct Hs as (L1 & L2 & _). lia. }
    set (b' := mkB _ _ _ _). destruct (safe_sap (set_bind s i b') i None p listens (safe_bind s i b b' Hs Hi Eb eq_refl) Hi) as [(s' & r & A & B & C)|A]; [left|right; exact A].
    exists s', r. split; [exact A|]. split; [exact B|]. left. exact C.
  - left. unfold del_endpt. destruct (get_endpt s n) as [i|] eqn:G; [|exists s, 1; unfold names_ok; auto]. destruct (get_endpt_spec _ _ _ G) as (e & Hi & He & _). rewrite He.
    destruct (del_at_safe s i true Hs Hi) as (s' & A & B & C & _).
    destruct (e_ti e); [exists s, 1|exists s', 0|exists s', 0|exists s, 0]; try (unfold names_ok; auto; fail).
    all: split; [exact A|]; split; [exact B|]; right; right; exists (e_name e); exact (C e He).
Qed.

Lemma safe0 : safe st0.
Proof. unfold safe, uniq. cbn. repeat split; try lia; constructor. Qed.

Lemma run_safe : forall os s, safe s -> ~ In DelListen os -> (exists s' r, run s os = Ok s' r /\ safe s') \/ run s os = Abort.
Proof.
  induction os as [|o os IH]; intros s Hs Hn; cbn [run]; [left; exists s, 0; auto|].
  destruct (step_safe s o Hs ltac:(intros ->; apply Hn; left; reflexivity)) as [(s1 & r & A & B & _)|A]; rewrite A; [|auto]. apply IH; [exact B|]. intros X. apply Hn. right. exact X.
Qed.

(** C43, memory: without the removal of the whole [listen] container (C54), no operation frees a block twice or leaves the arrays; afterwards the present endpoints
    own their blocks and sockets alone, none of them is freed or closed, and nothing was freed or closed twice. *)
Theorem c43_memory_partial os : ~ In DelListen os ->
  run st0 os = Abort \/
  exists s r, run st0 os = Ok s r /\ NoDup (live s) /\ (forall n, In n (live s) -> ~ In n (s_freed s)) /\ NoDup (s_freed s) /\
              NoDup (socks s) /\ (forall n, In n (socks s) -> ~ In n (s_closed s)) /\ NoDup (s_closed s).
Proof.
  intros H. destruct (run_safe os st0 safe0 H) as [(s & r & A & (_ & _ & U1 & U2))|A]; [right|left; exact A]. exists s, r. split; [exact A|].
  assert (D : forall l f : list nat, NoDup (l ++ f) -> NoDup l /\ NoDup f).
  { clear. induction l as [|x l IH]; intros f X; [split; [constructor|exact X]|]. inversion X as [|? ? N Y]; subst. destruct (IH f Y). split; [constructor; [|assumption]|assumption]. intros Q. apply N, in_or_app. auto. }
  destruct (D _ _ (proj1 U1)), (D _ _ (proj1 U2)).
  split; [assumption|]. split; [intros n Hn; exact (uniq_not_freed _ _ _ _ U1 Hn)|]. split; [assumption|]. split; [assumption|]. split; [intros n Hn; exact (uniq_not_freed _ _ _ _ U2 Hn)|assumption].
Qed.

(** An abort (assert) happens only in setting a port to 0 with no address given. *)
Lemma sap_abort s i a p l : set_address_port s i a p l = Abort -> (a = None /\ p = 0%N) \/ (a <> None /\ p <> 0%N).
Proof.
  unfold set_address_port. destruct (nth_error (s_endpts s) i) as [e|]; [|discriminate]. destruct (nth_error (s_binds s) i) as [b|]; [|discriminate].
  destruct a; cbn [negb andb orb]; destruct (N.eqb_spec p 0); cbn [negb andb orb]; intros H; try (left; auto; fail); try (right; split; [discriminate|assumption]).
  all: exfalso; destruct (e_ti e); cbn in H; destruct l; repeat match goal with H : (if ?c then _ else _) = _ |- _ => destruct c end; discriminate.
Qed.

Lemma run_abort : forall os s, run s os = Abort -> safe s -> ~ In DelListen os -> exists n l, In (SetPort n 0 l) os.
Proof.
  induction os as [|o os IH]; intros s H Hs Hn; cbn [run] in H; [discriminate|].
  destruct (step_safe s o Hs ltac:(intros ->; apply Hn; left; reflexivity)) as [(s1 & r & A & B & _)|A]; rewrite A in H.
  - destruct (IH s1 H B ltac:(intros X; apply Hn; right; exact X)) as (n & l & X). exists n, l. right. exact X.
  - destruct o; cbn [step] in A; try discriminate.
    + unfold add_unix in A. destruct (get_endpt s n); [discriminate|]. cbv zeta in A. exfalso. revert A. unfold set_address_port, append. cbn [s_endpts s_binds].
      rewrite !nth_error_app2 by (rewrite firstn_length; lia). destruct Hs as (L1 & L2 & _). rewrite !firstn_length, <- L1, Nat.min_l, Nat.sub_diag by exact L2. cbn. destruct listens; discriminate.
    + exfalso. unfold del_unix in A. destruct (get_endpt s n) as [i|] eqn:G; [|discriminate]. destruct (get_endpt_spec _ _ _ G) as (e & Hi & He & _). rewrite He in A.
      destruct (e_ti e); try discriminate. destruct (del_at_safe s i false Hs Hi) as (s' & A' & _). congruence.
    + exfalso. unfold on in A. destruct (get_endpt s n) as [i|]; [|discriminate]. destruct (nth_error (s_endpts s) i); [|discriminate]. destruct (nth_error (s_binds s) i); discriminate.
    + exfalso. unfold on in A. destruct (get_endpt s n) as [i|]; [|discriminate]. destruct (nth_error (s_endpts s) i); [|discriminate]. destruct (nth_error (s_binds s) i); [|discriminate]. destruct (free_ref s e); discriminate.
    + exfalso. unfold on in A. destruct (get_endpt s n) as [i|]; [|discriminate]. destruct (nth_error (s_endpts s) i); [|discriminate]. destruct (nth_error (s_binds s) i); [|discriminate]. destruct (free_ref s e); discriminate.
    + exfalso. unfold on in A. destruct (get_endpt s n) as [i|]; [|discriminate]. destruct (nth_error (s_endpts s) i); [|discriminate]. destruct (nth_error (s_binds s) i); [|discriminate].
      destruct (sap_abort _ _ _ _ _ A) as [[X _]|[_ X]]; congruence.
    + unfold on in A. destruct (get_endpt s n) as [i|]; [|discriminate]. destruct (nth_error (s_endpts s) i); [|discriminate]. destruct (nth_error (s_binds s) i); [|discriminate].
      destruct (sap_abort _ _ _ _ _ A) as [[_ ->]|[X _]]; [|congruence]. exists n, listens. left. reflexivity.
    + exfalso. unfold del_endpt in A. destruct (get_endpt s n) as [i|] eqn:G; [|discriminate]. destruct (get_endpt_spec _ _ _ G) as (e & Hi & He & _). rewrite He in A.
      destruct (del_at_safe s i true Hs Hi) as (s' & A' & _). destruct (e_ti e); congruence.
    + exfalso. apply Hn. left. reflexivity.
Qed.

(** C43: the process is aborted only by a configured port 0. *)
Theorem c43_abort os : ~ In DelListen os -> run st0 os = Abort -> exists n l, In (SetPort n 0 l) os.
Proof. intros H A. exact (run_abort os st0 A safe0 H). Qed.

(** … and port 0, which the data model admits (inet:port-number starts at 0), does that. *)
Theorem c43_port_zero_refuted : run st0 [Create "a"; SetTi "a" TSsh; SetAddr "a" "::" true; SetPort "a" 0 true]%string = Abort.
Proof. vm_compute. reflexivity. Qed.

(* ------------------------------------------------------------------ *)
(** ** Names *)

(** The configuration creates an endpoint only under a name no endpoint has. *)
Fixpoint fresh_creates (s : st) (os : list op) : Prop :=
  match os with
  | [] => True
  | o :: os' => (match o with Create n => ~ In n (names s) | _ => True end) /\ match step s o with Ok s' _ => fresh_creates s' os' | _ => True end
  end.

(** C43, names *)
Theorem c43_names_partial os s r : ~ In DelListen os -> fresh_creates st0 os -> run st0 os = Ok s r -> NoDup (names s).
Proof.
  assert (G : forall os s0, safe s0 -> NoDup (names s0) -> ~ In DelListen os -> fresh_creates s0 os -> run s0 os = Ok s r -> NoDup (names s)).
  { clear os. induction os as [|o os IH]; intros s0 Hs Hd Hn Hf H; cbn [run fresh_creates] in *; [injection H as <- _; exact Hd|].
    destruct (step_safe s0 o Hs ltac:(intros ->; apply Hn; left; reflexivity)) as [(s1 & r1 & A & B & C)|A]; rewrite A in *; [|discriminate]. destruct Hf as [F1 F2].
    apply (IH s1 B); auto; [|intros X; apply Hn; right; exact X]. destruct C as [->|[(n & -> & D)|(n & D)]]; [exact Hd| |].
    - apply (Permutation_NoDup (Permutation_cons_append _ _)). constructor; [|exact Hd]. destruct D as [[_ D]| ->]; assumption.
    - apply (Permutation_NoDup D) in Hd. inversion Hd. assumption. }
  intros H1 H2 H3. apply (G os st0); auto; [exact safe0|constructor].
Qed.

(** … which is not so if the application has added a UNIX socket endpoint under that name: two endpoints "a"; the configuration of the transport and the port then
    goes to the UNIX socket endpoint, whose type it overwrites, and the new one remains without any. *)
Theorem c43_names_refuted : exists s, run st0 [AddUnix "a" "/run/n.sock" true; Create "a"; SetTi "a" TSsh]%string = Ok s 0 /\
  names s = ["a"; "a"]%string /\ map e_ti (s_endpts s) = [TSsh; TNone].
Proof. eexists (mkS _ _ _ _ _ _). vm_compute. repeat split. Qed.

(** C43, a successful addition: the endpoint is the last, is a UNIX socket endpoint with the given address and listens on its own socket; the others are as before. *)
Theorem c43_add_ok s n path l s' : safe s -> add_unix s n path l = Ok s' 0 ->
  ~ In n (names s) /\ l = true /\ names s' = names s ++ [n] /\ s_count s' = S (s_count s) /\
  (exists e b fd, nth_error (s_endpts s') (s_count s) = Some e /\ nth_error (s_binds s') (s_count s) = Some b /\ e_name e = n /\ e_ti e = TUnix /\ b_addr b = Some path /\
                  b_sock b = Some (fd, e_id e) /\ ~ In fd (socks s) /\ ~ In fd (s_closed s')) /\
  (forall i, i < s_count s -> nth_error (s_endpts s') i = nth_error (s_endpts s) i /\ nth_error (s_binds s') i = nth_error (s_binds s) i).
Proof.
  intros Hs. unfold add_unix. destruct (get_endpt s n) eqn:G; [discriminate|]. cbv zeta. pose proof (find_name_none _ _ _ G) as Hn. change (~ In n (names s)) in Hn.
  destruct (append_views s n TUnix (Some path) Hs) as (A & B & C). pose proof Hs as (L1 & L2 & U1 & U2).
  unfold set_address_port. assert (Ee : nth_error (s_endpts (append s n TUnix (Some path))) (s_count s) = Some (mkEp (s_next s) n TUnix None)).
  { unfold append. cbn [s_endpts]. rewrite nth_error_app2 by (rewrite firstn_length; lia). rewrite firstn_length, Nat.min_l, Nat.sub_diag by lia. reflexivity. }
  assert (Eb : nth_error (s_binds (append s n TUnix (Some path))) (s_count s) = Some (mkB (Some path) 0 None false)).
  { unfold append. cbn [s_binds]. rewrite nth_error_app2 by (rewrite firstn_length; lia). rewrite firstn_length, Nat.min_l, Nat.sub_diag by lia. reflexivity. }
  rewrite Ee, Eb. cbn [e_ti negb andb orb N.eqb b_addr b_port b_pollin b_sock e_id]. destruct l; [|discriminate]. cbn [close b_sock]. intros H. injection H as <-.
  split; [exact Hn|]. split; [reflexivity|]. split; [exact C|]. split; [reflexivity|]. split.
  - eexists _, _, _. split; [exact Ee|]. split; [cbn [set_next set_bind s_binds]; rewrite nth_upd, Nat.eqb_refl, Eb; reflexivity|]. cbn. repeat split.
    + intros X. destruct U2 as [_ U2]. rewrite Forall_forall in U2. specialize (U2 (S (s_next s)) ltac:(apply in_or_app; auto)). lia.
    + intros X. destruct U2 as [_ U2]. rewrite Forall_forall in U2. specialize (U2 (S (s_next s)) ltac:(apply in_or_app; auto)). lia.
  - intros i Hi. cbn [set_next set_bind s_binds s_endpts]. rewrite nth_upd. destruct (Nat.eqb_spec (s_count s) i); [lia|]. unfold append. cbn [s_endpts s_binds].
    rewrite !nth_error_app1 by (rewrite firstn_length; lia). rewrite !nth_firstn by exact Hi. auto.
Qed.

(** An addition under a name in use changes nothing. *)
Theorem c43_add_exists s n path l : In n (names s) -> add_unix s n path l = Ok s 1.
Proof.
  intros H. unfold add_unix. destruct (get_endpt s n) eqn:G; [reflexivity|]. exfalso. exact (find_name_none _ _ _ G H).
Qed.

(** An addition that fails because the socket cannot be opened leaves the endpoint there, without a socket; repeating it fails for ever. *)
Theorem c43_failed_add_refuted : exists s, run st0 [AddUnix "a" "/run/n.sock" false]%string = Ok s 0 /\ add_unix st0 "a" "/run/n.sock" false = Ok s 1 /\
  names s = ["a"]%string /\ socks s = [] /\ forall path l, add_unix s "a" path l = Ok s 1.
Proof. eexists (mkS _ _ _ _ _ _). split; [vm_compute; reflexivity|]. split; [vm_compute; reflexivity|]. repeat split. Qed.

(** C43, removal by name: that endpoint goes, the others stay. *)
Theorem c43_del s n i e : safe s -> get_endpt s n = Some i -> nth_error (s_endpts s) i = Some e -> e_ti e = TUnix \/ e_ti e = TSsh \/ e_ti e = TTls ->
  exists s', (if match e_ti e with TUnix => true | _ => false end then del_unix s n else del_endpt s n) = Ok s' 0 /\ safe s' /\ Permutation (names s) (n :: names s').
Proof.
  intros Hs G He T. destruct (get_endpt_spec _ _ _ G) as (e1 & Hi & He1 & Hn). assert (e1 = e) by congruence. subst e1.
  destruct (del_at_safe s i true Hs Hi) as (s1 & A1 & B1 & C1 & _). destruct (del_at_safe s i false Hs Hi) as (s2 & A2 & B2 & C2 & _).
  unfold del_unix, del_endpt. rewrite G, He. rewrite <- Hn. destruct T as [T|[T|T]]; rewrite T; eauto.
Qed.

(* ------------------------------------------------------------------ *)
(** ** C54: removal of all the endpoints *)

Definition plain (e : endpt) : Prop := (e_ti e = TSsh \/ e_ti e = TTls) /\ e_ref e = None.

Lemma del_refs_none n : forall k i s, i + k <= length (s_endpts s) -> (forall j e, i <= j < i + k -> nth_error (s_endpts s) j = Some e -> e_ref e = None) -> del_refs k i s n = Some s.
Proof.
  induction k as [|k IH]; intros i s L H; cbn [del_refs]; [reflexivity|]. destruct (nth_error (s_endpts s) i) as [e|] eqn:E.
  - rewrite (H i e ltac:(lia) E). apply IH; [lia|]. intros j e' Hj. apply H. lia.
  - apply nth_error_None in E. lia.
Qed.

Lemma skipn_nth {A} (l : list A) : forall i x, nth_error l i = Some x -> skipn i l = x :: skipn (S i) l.
Proof. induction l as [|y l IH]; intros [|i] x H; cbn in *; try discriminate; [congruence|]. rewrite (IH i x H). reflexivity. Qed.

Lemma skipn_upd {A} (l : list A) x : forall i, skipn (S i) (upd l i x) = skipn (S i) l.
Proof. induction l as [|y l IH]; intros [|i]; try reflexivity. change (skipn (S (S i)) (upd (y :: l) (S i) x)) with (skipn (S i) (upd l i x)). rewrite IH. reflexivity. Qed.

Lemma firstn_S {A} (l : list A) x k : firstn (S k) (x :: l) = x :: firstn k l.
Proof. reflexivity. Qed.

(** From position [i] on, [k] entries to go, which is also the count; the entries from [i] are still as at the start. *)
Lemma del_listen_ok : forall k i s, s_count s = k -> length (s_endpts s) = length (s_binds s) -> i + k <= length (s_endpts s) -> Forall plain (firstn (i + k) (s_endpts s)) ->
  NoDup (map e_id (firstn k (skipn i (s_endpts s))) ++ s_freed s) ->
  exists s', del_listen_loop k i s = Ok s' 0 /\ s_count s' = 0 /\ (k <> 0 -> s_endpts s' = [] /\ s_binds s' = []) /\
    s_freed s' = rev (map e_id (firstn k (skipn i (s_endpts s)))) ++ s_freed s /\
    s_closed s' = flat_map sock_of (rev (firstn k (skipn i (s_binds s)))) ++ s_closed s.
Proof.
  induction k as [|k IH]; intros i s Hc Lb Le Hp Hn; cbn [del_listen_loop]; [exists s; rewrite Hc; repeat split; congruence|].
  destruct (nth_error (s_endpts s) i) as [e|] eqn:Ee. 2: { apply nth_error_None in Ee. lia. }
  destruct (nth_error (s_binds s) i) as [b|] eqn:Eb. 2: { apply nth_error_None in Eb. lia. }
  assert (Hpl : forall j x, j < i + S k -> nth_error (s_endpts s) j = Some x -> plain x).
  { intros j x Hj Hx. rewrite Forall_forall in Hp. apply Hp. apply (nth_error_In _ j). rewrite nth_firstn by lia. exact Hx. }
  assert (Pe : plain e) by (apply (Hpl i); [lia|exact Ee]). destruct Pe as [Pt Pr].
  rewrite (skipn_nth _ _ _ Ee) in Hn. rewrite firstn_S in Hn. cbn [map app] in Hn. inversion Hn as [|? ? N1 N2]; subst.
  assert (D : exists s', del_at s i true = Ok s' 0 /\ s_count s' = k /\ s_freed s' = e_id e :: s_freed s /\ s_closed s' = sock_of b ++ s_closed s /\
             (k = 0 -> s_endpts s' = [] /\ s_binds s' = []) /\
             (k <> 0 -> length (s_endpts s') = length (s_endpts s) /\ length (s_binds s') = length (s_binds s) /\ skipn (S i) (s_endpts s') = skipn (S i) (s_endpts s) /\ skipn (S i) (s_binds s') = skipn (S i) (s_binds s) /\
                        Forall plain (firstn (S i + k) (s_endpts s')))).
  { unfold del_at. rewrite Ee. rewrite (del_refs_none _ (s_count s) 0 s) by (try lia; intros j x Hj Hx; apply (Hpl j x ltac:(lia) Hx)).
    rewrite Ee, Eb. rewrite free_ok by (intros X; apply N1, in_or_app; right; exact X). unfold free_ref. rewrite Pr. set (s2 := mkS _ _ _ _ _ _).
    destruct (close_same s2 b) as (K2 & K3 & K4 & K5 & K6).
    assert (Kc : s_closed (close s2 b) = sock_of b ++ s_closed s) by (unfold close, sock_of; destruct (b_sock b) as [[fd o]|]; reflexivity).
    cbv zeta. rewrite K2, K3, K4, K5, K6, Kc. cbn [s2 s_endpts s_binds s_count s_freed s_next]. rewrite Hc. replace (S k - 1) with k by lia.
    destruct (Nat.eqb_spec k 0) as [->|Hk]; [eexists; split; [reflexivity|]; cbn; repeat split; congruence|].
    destruct (nth_error (s_endpts s) k) as [el|] eqn:El. 2: { apply nth_error_None in El. lia. }
    destruct (nth_error (s_binds s) k) as [bl|] eqn:Bl. 2: { apply nth_error_None in Bl. lia. }
    replace (S i + k) with (i + S k) by lia.
    destruct (Nat.eqb_spec i k) as [->|Hik]; eexists; (split; [reflexivity|]); cbn [s_endpts s_binds s_count s_freed s_closed]; (split; [reflexivity|]); (split; [reflexivity|]); (split; [reflexivity|]); (split; [congruence|]); intros _.
    - repeat split. exact Hp.
    - rewrite !upd_len, !skipn_upd. repeat split. rewrite firstn_upd. rewrite Forall_forall. intros x Hx. apply In_nth_error in Hx. destruct Hx as [j Hx]. rewrite nth_upd in Hx.
      assert (Pel : plain el) by (apply (Hpl k); [lia|exact El]).
      destruct (Nat.eqb i j); [destruct (nth_error (firstn _ _) i); [injection Hx as <-; exact Pel|discriminate]|]. rewrite Forall_forall in Hp. apply Hp. exact (nth_error_In _ _ Hx). }
  destruct D as (s' & D1 & D2 & D3 & D4 & D5 & D6). rewrite (skipn_nth _ _ _ Ee), (skipn_nth _ _ _ Eb), !firstn_S. cbn [map rev]. rewrite flat_map_app. cbn [flat_map]. rewrite app_nil_r, <- !app_assoc.
  destruct (Nat.eq_dec k 0) as [->|Hk].
  - exists s'. destruct Pt as [Pt|Pt]; rewrite Pt, D1; cbn [del_listen_loop firstn map rev flat_map app]; (split; [reflexivity|]); (split; [exact D2|]); (split; [intros _; exact (D5 eq_refl)|]); rewrite D3, D4; auto.
  - destruct (D6 Hk) as (E1 & E2 & E3 & E4 & E5).
    destruct (IH (S i) s' D2) as (s2 & F1 & F2 & F3 & F4 & F5).
    + rewrite E1, E2. exact Lb.
    + rewrite E1. lia.
    + exact E5.
    + rewrite E3, D3. apply (Permutation_NoDup (Permutation_middle _ _ _)). constructor; assumption.
    + exists s2. rewrite E3, D3 in F4. rewrite E4, D4 in F5. destruct Pt as [Pt|Pt]; rewrite Pt, D1; (split; [exact F1|]); (split; [exact F2|]); (split; [intros _; exact (F3 Hk)|]); rewrite F4, F5; auto.
Qed.

(** C54: with SSH and TLS endpoints only and no references among them, removing [listen] removes every endpoint, frees each once and closes each socket once. *)
Theorem c54_partial s : safe s -> Forall plain (firstn (s_count s) (s_endpts s)) ->
  exists s', step s DelListen = Ok s' 0 /\ s_count s' = 0 /\ Permutation (s_freed s') (live s ++ s_freed s) /\ Permutation (s_closed s') (socks s ++ s_closed s) /\ NoDup (s_freed s') /\ NoDup (s_closed s').
Proof.
  intros (L1 & L2 & U1 & U2) Hp. assert (Hl : live s = map e_id (firstn (s_count s) (s_endpts s))).
  { unfold live. revert Hp. induction (firstn (s_count s) (s_endpts s)) as [|e l IH]; intros Hp; [reflexivity|]. inversion Hp as [|? ? P1 P2]; subst. cbn [flat_map map]. rewrite (IH P2). unfold blocks. destruct P1 as [_ ->]. reflexivity. }
  destruct (del_listen_ok (s_count s) 0 s eq_refl L1 L2 Hp) as (s' & A & B & _ & C & D).
  - cbn [skipn]. rewrite <- Hl. exact (proj1 U1).
  - exists s'. split; [exact A|]. split; [exact B|]. cbn [skipn] in C, D. rewrite <- Hl in C.
    assert (PC : Permutation (s_freed s') (live s ++ s_freed s)) by (rewrite C; apply Permutation_app_tail; symmetry; apply Permutation_rev).
    assert (PD : Permutation (s_closed s') (socks s ++ s_closed s)) by (rewrite D; apply Permutation_app_tail; unfold socks; apply flat_map_perm; symmetry; apply Permutation_rev).
    split; [exact PC|]. split; [exact PD|]. split; [exact (Permutation_NoDup (Permutation_sym PC) (proj1 U1))|exact (Permutation_NoDup (Permutation_sym PD) (proj1 U2))].
Qed.

(** With a reference: the entries are taken out while the index runs on, so an entry moved to an earlier place is visited again through its old copy, whose reference
    has been freed meanwhile.  Three endpoints, the third referring to the second. *)
Theorem c54_reference_refuted :
  run st0 [Create "a"; SetTi "a" TSsh; Create "b"; SetTi "b" TSsh; Create "c"; SetTi "c" TSsh; SetRef "c" "b"; DelListen]%string = DoubleFree.
Proof. vm_compute. reflexivity. Qed.

(** With a UNIX socket endpoint of the application between two SSH endpoints: it is lost, and in its place there stays an endpoint whose memory is freed and whose socket is closed. *)
Theorem c54_unix_refuted : exists s id fd,
  run st0 [Create "a"; SetTi "a" TSsh; AddUnix "u" "/run/n.sock" true; Create "b"; SetTi "b" TSsh; SetAddr "b" "::" false; SetPort "b" 830 true; DelListen]%string = Ok s 0 /\
  names s = ["b"]%string /\ live s = [id] /\ In id (s_freed s) /\ socks s = [fd] /\ In fd (s_closed s).
Proof. eexists (mkS _ _ _ _ _ _), _, _. split; [vm_compute; reflexivity|]. vm_compute. auto 10. Qed.

(* ------------------------------------------------------------------ *)
(** ** Cases *)

Example ex_ops : list op := [Create "a"; SetTi "a" TSsh; SetAddr "a" "::" false; SetPort "a" 830 true; AddUnix "u" "/run/n.sock" true; Create "b"; SetTi "b" TTls; SetRef "b" "a"; DelEndpt "a"; DelUnix "u"]%string.
Example ex_run : exists s, run st0 ex_ops = Ok s 0 /\ names s = ["b"]%string /\ fresh_creates st0 ex_ops /\ ~ In DelListen ex_ops.
Proof. eexists (mkS _ _ _ _ _ _). split; [vm_compute; reflexivity|]. split; [reflexivity|]. split; [vm_compute; intuition congruence|]. cbn. intuition congruence. Qed.
(** The last entry has moved to the place of the removed one, with its socket. *)
Example ex_move : exists s, run st0 [AddUnix "a" "/a" true; AddUnix "b" "/b" true; AddUnix "c" "/c" true; DelUnix "a"]%string = Ok s 0 /\
  map e_name (firstn 2 (s_endpts s)) = ["c"; "b"]%string /\ map b_addr (firstn 2 (s_binds s)) = [Some "/c"; Some "/b"]%string /\ map b_sock (firstn 2 (s_binds s)) = [Some (5, 4); Some (3, 2)] /\ s_closed s = [1].
Proof. eexists (mkS _ _ _ _ _ _). split; [vm_compute; reflexivity|]. vm_compute. auto. Qed.
Example ex_plain : exists s, run st0 [Create "a"; SetTi "a" TSsh; Create "b"; SetTi "b" TTls; Create "c"; SetTi "c" TSsh; DelListen]%string = Ok s 0 /\ s_freed s = [2; 1; 0] /\ s_endpts s = [].
Proof. eexists (mkS _ _ _ _ _ _). split; [vm_compute; reflexivity|]. auto. Qed.

(** Setting the address or the port of an endpoint of TCP opens a socket exactly when both are then known; otherwise nothing
    changes and the call succeeds. *)
Theorem c43_listens s i address port l e b s' r :
  nth_error (s_endpts s) i = Some e -> nth_error (s_binds s) i = Some b -> e_ti e <> TUnix ->
  set_address_port s i address port l = Ok s' r ->
  let known := (match address with Some _ => True | None => b_addr b <> None end) /\
               (match address with Some _ => b_port b <> 0%N | None => port <> 0%N end) in
  (known -> l = true -> exists fd b', nth_error (s_binds s') i = Some b' /\ b_sock b' = Some (fd, e_id e)) /\
  (known -> l = false -> s' = s /\ r = 1) /\
  (~ known -> s' = s /\ r = 0).
Proof.
  intros He Hb Hu H. cbv zeta. unfold set_address_port in H. rewrite He, Hb in H.
  replace (match e_ti e with TUnix => true | _ => false end) with false in H by (destruct (e_ti e); congruence).
  destruct address as [a|]; cbn [andb orb negb] in H; rewrite ?orb_false_r, ?andb_true_r, ?andb_true_l in H; cbn [orb] in H;
  destruct (N.eqb_spec port 0) as [P|P]; cbn [andb orb negb] in H; try discriminate.
  - destruct (N.eqb_spec (b_port b) 0) as [Q|Q]; cbn [negb] in H.
    + injection H as <- <-. repeat split; intros; tauto.
    + destruct l; injection H as <- <-.
      * split; [|split; [discriminate|intros N; exfalso; apply N; auto]]. intros _ _.
        eexists; eexists; split; [cbn; rewrite nth_upd, Nat.eqb_refl|].
        { unfold close. destruct (b_sock b) as [[? ?]|]; cbn; rewrite ?Hb; reflexivity. }
        reflexivity.
      * repeat split; intros; try discriminate; tauto.
  - destruct (b_addr b) as [a|]; cbn [andb] in H.
    + destruct l; injection H as <- <-.
      * split; [|split; [discriminate|intros N; exfalso; apply N; split; [discriminate|auto]]]. intros _ _.
        eexists; eexists; split; [cbn; rewrite nth_upd, Nat.eqb_refl|].
        { unfold close. destruct (b_sock b) as [[? ?]|]; cbn; rewrite ?Hb; reflexivity. }
        reflexivity.
      * repeat split; intros; try discriminate; exfalso; match goal with N : ~ _ |- _ => apply N; split; [discriminate|auto] end.
    + injection H as <- <-. repeat split; intros; tauto.
Qed.

Print Assumptions c43_positions.
Print Assumptions c43_memory_partial.
Print Assumptions c43_abort.
Print Assumptions c43_port_zero_refuted.
Print Assumptions c43_names_partial.
Print Assumptions c43_names_refuted.
Print Assumptions c43_add_ok.
Print Assumptions c43_add_exists.
Print Assumptions c43_failed_add_refuted.
Print Assumptions c43_del.
Print Assumptions c54_partial.
Print Assumptions c54_reference_refuted.
Print Assumptions c54_unix_refuted.
Print Assumptions c43_listens.
