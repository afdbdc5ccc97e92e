(** C43 (the endpoint a connection is attributed to) and C56 (no endpoint is starved, calls do not block), for Accept.v. *)
From Coq Require Import String Bool List Arith Lia.
From Verif Require Import Endpts Prop_Endpts Accept.
Import ListNotations.
Local Open Scope nat_scope.
Local Open Scope list_scope.

(* ------------------------------------------------------------------ *)
(** ** Lemmas *)

Definition ready (w : world) (fd : nat) : bool := negb (Nat.eqb (length (w_queue w fd)) 0).


Lemma pollfds_in l fd : In fd (pollfds l) <-> exists b, In b l /\ k_sock b = Some fd.
Proof.
  induction l as [|b l IH]; cbn [pollfds]; [split; [intros []|intros (b & [] & _)]|].
  destruct (k_sock b) as [f|] eqn:E; cbn [In]; rewrite IH; split.
  - intros [->|(b' & H1 & H2)]; [exists b; auto|exists b'; auto].
  - intros (b' & [->|H1] & H2); [left; congruence|right; exists b'; auto].
  - intros (b' & H1 & H2). exists b'. auto.
  - intros (b' & [->|H1] & H2); [congruence|exists b'; auto].
Qed.

(** Positions with a remembered event. *)
Definition rem (b : bnd) : bool := match k_sock b with Some _ => k_pollin b | None => false end.
Definition nrem (l : list bnd) : nat := length (filter rem l).

Lemma leftover_spec : forall l i, match leftover l i with
  | Some (j, fd, m) => exists p s, l = p ++ mkK (Some fd) true :: s /\ m = p ++ mkK (Some fd) false :: s /\ j = i + length p /\ nrem p = 0
  | None => nrem l = 0
  end.
Proof.
  induction l as [|b l IH]; intros i; cbn [leftover]; [reflexivity|]. unfold nrem. cbn [filter]. destruct b as [[fd|] pl]; cbn [k_sock k_pollin rem] in *.
  - destruct pl.
    + exists [], l. cbn. repeat split. lia.
    + specialize (IH (S i)). destruct (leftover l (S i)) as [[[j f] m]|]; cbn [option_map]; [|exact IH].
      destruct IH as (p & s & -> & -> & -> & Hn). exists (mkK (Some fd) false :: p), s. cbn [app length]. repeat split; [lia|]. unfold nrem in *. cbn. exact Hn.
  - specialize (IH (S i)). destruct (leftover l (S i)) as [[[j f] m]|]; cbn [option_map]; [|exact IH].
    destruct IH as (p & s & -> & -> & -> & Hn). exists (mkK None pl :: p), s. cbn [app length]. repeat split; [lia|]. unfold nrem in *. cbn. exact Hn.
Qed.

Definition inev (ev : events) (b : bnd) : bool := match k_sock b with Some fd => fst (ev fd) | None => false end.
Definition mark (ev : events) (b : bnd) : bnd := if inev ev b then mkK (k_sock b) true else b.

Lemma pick_spec ev : forall l i ret, (forall fd, In fd (pollfds l) -> snd (ev fd) = false) -> nready ev (pollfds l) = ret ->
  match pick l i (pollfds l) ev ret with
  | None => False
  | Some (m, None) => ret = 0
  | Some (m, Some (j, fd)) => exists p b s, l = p ++ b :: s /\ k_sock b = Some fd /\ j = i + length p /\ m = map (mark ev) p ++ b :: s /\ inev ev b = true /\ existsb (inev ev) s = false
  end.
Proof.
  assert (D : forall l i pfd ev ret, pick l i pfd ev ret = match pfd with [] => Some (l, None) | fd :: pfd' => match l with [] => None | b :: l' =>
          if match k_sock b with Some f => Nat.eqb f fd | None => false end then
            if fst (ev fd) then
              if Nat.eqb (ret - 1) 0 then Some (b :: l', Some (i, fd))
              else option_map (fun '(m, r) => (mkK (k_sock b) true :: m, r)) (pick l' (S i) pfd' ev (ret - 1))
            else option_map (fun '(m, r) => (b :: m, r)) (pick l' (S i) pfd' ev ret)
          else option_map (fun '(m, r) => (b :: m, r)) (pick l' (S i) pfd ev ret) end end) by (intros l; destruct l, pfd; reflexivity).
  induction l as [|b l IH]; intros i ret He Hr.
  - cbn in *. auto.
  - rewrite D. cbn [pollfds] in *. destruct (k_sock b) as [fd|] eqn:Eb.
    + rewrite Nat.eqb_refl. unfold nready in Hr. cbn [filter] in Hr. rewrite (He fd) in Hr by (left; reflexivity). rewrite orb_false_r in Hr. destruct (fst (ev fd)) eqn:Ev.
      * cbn [length] in Hr. subst ret. replace (S (length (filter (fun fd => fst (ev fd) || snd (ev fd)) (pollfds l))) - 1) with (nready ev (pollfds l)) by (unfold nready; lia).
        destruct (Nat.eqb_spec (nready ev (pollfds l)) 0) as [Z|NZ].
        -- exists [], b, l. cbn. repeat split; auto.
           ++ unfold inev. rewrite Eb. exact Ev.
           ++ destruct (existsb (inev ev) l) eqn:X; [|reflexivity]. exfalso. apply existsb_exists in X. destruct X as (b' & Hb & Hv). unfold inev in Hv. destruct (k_sock b') as [f|] eqn:Ef; [|discriminate].
              unfold nready in Z. apply length_zero_iff_nil in Z. assert (In f (filter (fun fd => fst (ev fd) || snd (ev fd)) (pollfds l))) as Q; [|rewrite Z in Q; destruct Q].
              apply filter_In. split; [apply pollfds_in; eauto|]. rewrite Hv. reflexivity.
        -- specialize (IH (S i) _ (fun f Hf => He f (or_intror Hf)) eq_refl). destruct (pick l (S i) (pollfds l) ev (nready ev (pollfds l))) as [[m [[j f]|]]|]; cbn [option_map]; [|lia|exact IH].
           destruct IH as (p & b' & s & -> & A & -> & -> & B & C). exists (b :: p), b', s. cbn [app length map]. repeat split; auto; [lia|].
           f_equal. unfold mark, inev. rewrite Eb, Ev. reflexivity.
      * specialize (IH (S i) ret (fun f Hf => He f (or_intror Hf)) Hr). destruct (pick l (S i) (pollfds l) ev ret) as [[m [[j f]|]]|]; cbn [option_map]; [|exact IH|exact IH].
        destruct IH as (p & b' & s & -> & A & -> & -> & B & C). exists (b :: p), b', s. cbn [app length map]. repeat split; auto; [lia|]. f_equal. unfold mark, inev. rewrite Eb, Ev. reflexivity.
    + specialize (IH (S i) ret He Hr).
      destruct (pollfds l) as [|g pf] eqn:Ep.
      * subst ret. cbn. reflexivity.
      * destruct (pick l (S i) (g :: pf) ev ret) as [[m [[j f]|]]|]; cbn [option_map]; [|exact IH|exact IH].
        destruct IH as (p & b' & s & -> & A & -> & -> & B & C). exists (b :: p), b', s. cbn [app length map]. repeat split; auto; [lia|]. f_equal. unfold mark, inev. rewrite Eb. reflexivity.
Qed.

(* ------------------------------------------------------------------ *)
(** ** The index *)

Lemma pick_index ev : forall l i pfd ret m j fd, pick l i pfd ev ret = Some (m, Some (j, fd)) -> exists b, nth_error l (j - i) = Some b /\ i <= j /\ k_sock b = Some fd.
Proof.
  induction l as [|b l IH]; intros i pfd ret m j fd H; destruct pfd as [|f pfd]; cbn [pick] in H; try discriminate.
  assert (Next : forall X (g : list bnd * option (nat * nat) -> list bnd * option (nat * nat)), option_map g X = Some (m, Some (j, fd)) -> (forall q : list bnd * option (nat * nat), snd (g q) = snd q) -> (forall m', X = Some (m', Some (j, fd)) -> exists b0, nth_error l (j - S i) = Some b0 /\ S i <= j /\ k_sock b0 = Some fd) ->
     exists b0, nth_error (b :: l) (j - i) = Some b0 /\ i <= j /\ k_sock b0 = Some fd).
  { intros X g Hg Hs HX. destruct X as [[m' r]|]; [|discriminate]. cbn in Hg. injection Hg as Hg. specialize (Hs (m', r)). rewrite Hg in Hs. cbn in Hs. subst r.
    destruct (HX m' eq_refl) as (b0 & A & B & C). exists b0. replace (j - i) with (S (j - S i)) by lia. cbn. repeat split; auto; lia. }
  destruct (match k_sock b with Some _ => _ | None => _ end) eqn:E.
  - destruct (fst (ev f)).
    + destruct (Nat.eqb (ret - 1) 0).
      * injection H as _ <- <-. exists b. rewrite Nat.sub_diag. destruct (k_sock b) as [g|] eqn:Eg; [|discriminate]. apply Nat.eqb_eq in E. subst. cbn. auto.
      * eapply Next; [exact H|intros [? ?]; reflexivity|]. intros m' Hm. exact (IH _ _ _ _ _ _ Hm).
    + eapply Next; [exact H|intros [? ?]; reflexivity|]. intros m' Hm. exact (IH _ _ _ _ _ _ Hm).
  - eapply Next; [exact H|intros [? ?]; reflexivity|]. intros m' Hm. exact (IH _ _ _ _ _ _ Hm).
Qed.

(** The index returned is that of the binding of the socket the connection was waiting at. *)
Lemma call_index w w' i fd c : call w = (w', Accepted i fd c) -> exists b, nth_error (w_binds w) i = Some b /\ k_sock b = Some fd /\ exists q, w_queue w fd = c :: q.
Proof.
  assert (A : forall binds i0 fd0, accept w binds i0 fd0 = (w', Accepted i fd c) -> i0 = i /\ fd0 = fd /\ exists q, w_queue w fd = c :: q).
  { intros binds i0 fd0 H. unfold accept in H. destruct (w_broken w fd0); [discriminate|]. destruct (w_queue w fd0) as [|c0 q] eqn:Q; [discriminate|]. injection H as _ <- <- <-. eauto. }
  unfold call. intros H. pose proof (leftover_spec (w_binds w) 0) as L. destruct (leftover (w_binds w) 0) as [[[j f] m]|].
  - apply A in H. destruct H as (-> & -> & Q). destruct L as (p & s & -> & _ & -> & _). exists (mkK (Some fd) true). split; [|auto]. cbn [Nat.add]. rewrite nth_error_app2, Nat.sub_diag by lia. reflexivity.
  - cbv zeta in H. destruct (Nat.eqb _ 0); [discriminate|]. destruct (pick _ _ _ _ _) as [[m [[j f]|]]|] eqn:P; try discriminate. apply A in H. destruct H as (-> & -> & Q).
    destruct (pick_index _ _ _ _ _ _ _ _ P) as (b & B & _ & C). exists b. rewrite Nat.sub_0_r in B. auto.
Qed.

(** The bindings of the present endpoints, as nc_accept() hands them over (2515). *)
Definition binds_of (s : st) : list bnd := map (fun b => mkK (option_map fst (b_sock b)) (b_pollin b)) (firstn (s_count s) (s_binds s)).

(** C43: whatever endpoints were added and removed, a connection accepted from a listening socket is given the options of the endpoint (index [i]: 2525, 2549-2590) that this
    socket was opened for. *)
Theorem c43_accept os s r q br w' i fd c : run st0 os = Endpts.Ok s r -> call (mkW (binds_of s) q br) = (w', Accepted i fd c) ->
  exists e b o, i < s_count s /\ nth_error (s_endpts s) i = Some e /\ nth_error (s_binds s) i = Some b /\ b_sock b = Some (fd, o) /\ e_id e = o.
Proof.
  intros Hr Hc. destruct (call_index _ _ _ _ _ Hc) as (k & Hk & Hf & _). cbn [w_binds] in Hk. unfold binds_of in Hk. rewrite nth_error_map in Hk.
  destruct (nth_error (firstn (s_count s) (s_binds s)) i) as [b|] eqn:Eb; [|discriminate]. injection Hk as <-. cbn [k_sock] in Hf.
  assert (Hi : i < s_count s). { assert (i < length (firstn (s_count s) (s_binds s))) by (apply nth_error_Some; congruence). rewrite firstn_length in H. lia. }
  destruct (c43_positions os s r Hr i Hi) as (e & b0 & E1 & E2 & E3). rewrite nth_firstn in Eb by exact Hi. assert (b0 = b) by congruence. subst b0.
  destruct (b_sock b) as [[f o]|] eqn:Es; [|discriminate]. cbn in Hf. injection Hf as ->. exists e, b, o. repeat split; auto. symmetry. exact (E3 _ _ eq_refl).
Qed.

(* ------------------------------------------------------------------ *)
(** ** C56: no starvation, no blocking *)

(** Every listening socket is its own and works, and an event is remembered only of one where a connection waits. *)
Definition good (w : world) : Prop :=
  NoDup (pollfds (w_binds w)) /\ (forall fd, w_broken w fd = false) /\ (forall b fd, In b (w_binds w) -> k_sock b = Some fd -> k_pollin b = true -> w_queue w fd <> []).

Lemma pollfds_app a b : pollfds (a ++ b) = pollfds a ++ pollfds b.
Proof. induction a as [|x a IH]; cbn; [reflexivity|]. destruct (k_sock x); rewrite IH; reflexivity. Qed.
Lemma pollfds_map f l : (forall b, k_sock (f b) = k_sock b) -> pollfds (map f l) = pollfds l.
Proof. intros H. induction l as [|x l IH]; cbn; [reflexivity|]. rewrite H, IH. reflexivity. Qed.
Lemma mark_sock ev b : k_sock (mark ev b) = k_sock b.
Proof. unfold mark. destruct (inev ev b); reflexivity. Qed.

Lemma now_ok w : good w -> forall fd, now w fd = (ready w fd, false).
Proof. intros (_ & B & _) fd. unfold now. rewrite B. reflexivity. Qed.

Lemma ready_true w fd : ready w fd = true <-> w_queue w fd <> [].
Proof. unfold ready. destruct (w_queue w fd); cbn; split; congruence. Qed.

(** A call in a good state. *)
Lemma call_spec w : good w ->
  (call w = (w, TimedOut) /\ (forall b fd, In b (w_binds w) -> k_sock b = Some fd -> w_queue w fd = [])) \/
  exists p b fd c q s, w_binds w = p ++ b :: s /\ k_sock b = Some fd /\ w_queue w fd = c :: q /\
    ((rem b = true /\ nrem p = 0 /\ call w = (mkW (p ++ mkK (Some fd) false :: s) (setq (w_queue w) fd q) (w_broken w), Accepted (length p) fd c)) \/
     (nrem (w_binds w) = 0 /\ existsb (inev (now w)) s = false /\ call w = (mkW (map (mark (now w)) p ++ b :: s) (setq (w_queue w) fd q) (w_broken w), Accepted (length p) fd c))).
Proof.
  intros G. pose proof (now_ok w G) as N. destruct G as (G1 & G2 & G3). unfold call. pose proof (leftover_spec (w_binds w) 0) as L. destruct (leftover (w_binds w) 0) as [[[j fd] m]|].
  - right. destruct L as (p & s & E & -> & -> & Hn). cbn [Nat.add]. unfold accept. rewrite G2.
    assert (Q : w_queue w fd <> []) by (apply (G3 (mkK (Some fd) true)); [rewrite E; apply in_or_app; right; left; reflexivity|reflexivity|reflexivity]).
    destruct (w_queue w fd) as [|c q] eqn:Eq; [congruence|]. exists p, (mkK (Some fd) true), fd, c, q, s. repeat split; auto.
  - cbv zeta. pose proof (pick_spec (now w) (w_binds w) 0 (nready (now w) (pollfds (w_binds w))) (fun f _ => eq_trans (f_equal snd (N f)) eq_refl) eq_refl) as P.
    destruct (Nat.eqb_spec (nready (now w) (pollfds (w_binds w))) 0) as [Z|NZ].
    + left. split; [reflexivity|]. intros b fd Hb Hf. destruct (w_queue w fd) eqn:Q; [reflexivity|]. exfalso. unfold nready in Z. apply length_zero_iff_nil in Z.
      assert (In fd (filter (fun fd => fst (now w fd) || snd (now w fd)) (pollfds (w_binds w)))) as X; [|rewrite Z in X; destruct X].
      apply filter_In. split; [apply pollfds_in; eauto|]. rewrite N. unfold ready. rewrite Q. reflexivity.
    + destruct (pick (w_binds w) 0 (pollfds (w_binds w)) (now w) (nready (now w) (pollfds (w_binds w)))) as [[m [[j fd]|]]|]; [|congruence|destruct P].
      right. destruct P as (p & b & s & E & Hs & -> & -> & Hi & He). cbn [Nat.add]. unfold accept. rewrite G2.
      unfold inev in Hi. rewrite Hs, N in Hi. cbn in Hi. apply ready_true in Hi. destruct (w_queue w fd) as [|c q] eqn:Eq; [congruence|]. exists p, b, fd, c, q, s. repeat split; auto.
Qed.

Lemma nodup_app {A} (l m : list A) : NoDup (l ++ m) -> forall x, In x l -> ~ In x m.
Proof. induction l as [|y l IH]; intros H x Hx; [destruct Hx|]. inversion H as [|? ? N D]; subst. destruct Hx as [->|Hx]; [|exact (IH D x Hx)]. intros X. apply N, in_or_app. auto. Qed.

Lemma good_call w w' o : good w -> call w = (w', o) -> good w'.
Proof.
  intros G H. pose proof (now_ok w G) as N. destruct (call_spec w G) as [[A _]|(p & b & fd & c & q & s & E & Hs & Hq & [(R & Hn & A)|(Hn & He & A)])]; rewrite A in H; injection H as <- <-; [exact G| |]; destruct G as (G1 & G2 & G3).
  - rewrite E, pollfds_app in G1. cbn [pollfds] in G1. rewrite Hs in G1.
    assert (D : forall b', In b' p \/ In b' s -> k_sock b' <> Some fd).
    { intros b' Hb Hf. apply NoDup_remove_2 in G1. apply G1, in_or_app. destruct Hb; [left|right]; apply pollfds_in; eauto. }
    split; [|split; [exact G2|]]; cbn [w_binds w_queue w_broken].
    + rewrite pollfds_app. cbn [pollfds k_sock]. exact G1.
    + intros b' f Hb Hf Hp. unfold setq. destruct (Nat.eqb_spec f fd) as [->|Hne].
      * exfalso. apply in_app_or in Hb. destruct Hb as [Hb|[<-|Hb]]; [apply (D b'); auto|discriminate|apply (D b'); auto].
      * apply (G3 b' f); auto. rewrite E. apply in_or_app. apply in_app_or in Hb. destruct Hb as [Hb|[<-|Hb]]; auto; [cbn in Hf; congruence|right; right; exact Hb].
  - rewrite E, pollfds_app in G1. cbn [pollfds] in G1. rewrite Hs in G1.
    assert (D : forall b', In b' p \/ In b' s -> k_sock b' <> Some fd).
    { intros b' Hb Hf. apply NoDup_remove_2 in G1. apply G1, in_or_app. destruct Hb; [left|right]; apply pollfds_in; eauto. }
    assert (Z : forall b', In b' (w_binds w) -> k_sock b' <> None -> k_pollin b' = false).
    { intros b' Hb Hf. unfold nrem in Hn. apply length_zero_iff_nil in Hn. destruct (k_pollin b') eqn:K; [|reflexivity]. assert (In b' (filter rem (w_binds w))) as X; [|rewrite Hn in X; destruct X].
      apply filter_In. split; [exact Hb|]. unfold rem. destruct (k_sock b'); congruence. }
    split; [|split; [exact G2|]]; cbn [w_binds w_queue w_broken].
    + rewrite pollfds_app, pollfds_map by apply mark_sock. cbn [pollfds]. rewrite Hs. exact G1.
    + intros b' f Hb Hf Hp. apply in_app_or in Hb. destruct Hb as [Hb|Hb].
      * apply in_map_iff in Hb. destruct Hb as (b0 & <- & Hb0). rewrite mark_sock in Hf. unfold setq. destruct (Nat.eqb_spec f fd) as [->|Hne]; [exfalso; apply (D b0); auto|].
        unfold mark in Hp. destruct (inev (now w) b0) eqn:I.
        -- unfold inev in I. rewrite Hf, N in I. cbn in I. apply ready_true. exact I.
        -- rewrite Z in Hp; [discriminate|rewrite E; apply in_or_app; auto|congruence].
      * rewrite Z in Hp; [discriminate|rewrite E; apply in_or_app; auto|congruence].
Qed.

Lemma good_arrive w fd c : good w -> good (mkW (w_binds w) (setq (w_queue w) fd (w_queue w fd ++ [c])) (w_broken w)).
Proof.
  intros (G1 & G2 & G3). split; [exact G1|]. split; [exact G2|]. cbn. intros b f Hb Hf Hp. unfold setq. destruct (Nat.eqb_spec f fd); [intros X; apply app_eq_nil in X; destruct X; discriminate|]. apply (G3 b f); auto.
Qed.

Definition plain_event (e : event) : Prop := match e with Call | Arrive _ _ => True | _ => False end.

Lemma good_step w e : good w -> plain_event e -> good (fst (estep w e)).
Proof. intros G P. destruct e; cbn in P; try contradiction; cbn [estep]. - destruct (call w) as [w' o] eqn:C. exact (good_call w w' o G C). - apply good_arrive, G. Qed.

(** C56: while the sockets stay as they are and connections only arrive, no call fails or blocks: it accepts a connection, or times out with none waiting. *)
Theorem c56_no_block_partial : forall es w, good w -> Forall plain_event es -> Forall (fun o => o = TimedOut \/ exists i fd c, o = Accepted i fd c) (trace w es).
Proof.
  induction es as [|e es IH]; intros w G P; cbn [trace]; [constructor|]. inversion P as [|? ? P1 P2]; subst. pose proof (good_step w e G P1) as G'. destruct (estep w e) as [w' o] eqn:E. cbn [fst] in G'. specialize (IH w' G' P2).
  destruct o as [o|]; [|exact IH]. constructor; [|exact IH]. destruct e; cbn in E; try discriminate. destruct (call w) as [w1 o1] eqn:C. injection E as <- <-.
  destruct (call_spec w G) as [[A _]|(p & b & fd & c & q & s & _ & _ & _ & [(_ & _ & A)|(_ & _ & A)])]; rewrite A in C; injection C as _ <-; eauto.
Qed.

(** A call times out only if no connection waits at any of the sockets. *)
Theorem c56_timeout w w' : good w -> call w = (w', TimedOut) -> w' = w /\ forall b fd, In b (w_binds w) -> k_sock b = Some fd -> w_queue w fd = [].
Proof. intros G H. destruct (call_spec w G) as [[A B]|(p & b & fd & c & q & s & _ & _ & _ & [(_ & _ & A)|(_ & _ & A)])]; rewrite A in H; try discriminate. injection H as <-. auto. Qed.

(** How many calls may pass before one serves position [x]. *)
Definition mu (w : world) (x : nat) : nat :=
  match nth_error (w_binds w) x with
  | Some b => if rem b then nrem (firstn x (w_binds w)) else nrem (w_binds w) + (length (w_binds w) - 1)
  | None => 0
  end.

Lemma nrem_app a b : nrem (a ++ b) = nrem a + nrem b.
Proof. unfold nrem. rewrite filter_app, app_length. reflexivity. Qed.
Lemma nrem_cons a b : nrem (a :: b) = (if rem a then 1 else 0) + nrem b.
Proof. unfold nrem. cbn. destruct (rem a); reflexivity. Qed.
Lemma nrem_le l : nrem l <= length l.
Proof. unfold nrem. induction l as [|x l IH]; cbn; [lia|]. destruct (rem x); cbn; lia. Qed.

Definition waits (w : world) (x : nat) : Prop := exists b fd, nth_error (w_binds w) x = Some b /\ k_sock b = Some fd /\ w_queue w fd <> [].

Lemma call_progress w w' o x : good w -> waits w x -> call w = (w', o) ->
  (exists fd c, o = Accepted x fd c) \/ (waits w' x /\ mu w' x < mu w x /\ length (w_binds w') = length (w_binds w)).
Proof.
  intros G (bx & fx & Hx & Hfx & Hqx) C. destruct (call_spec w G) as [[A B]|(p & b & fd & c & q & s & E & Hs & Hq & D)].
  - exfalso. apply Hqx, (B bx); [exact (nth_error_In _ _ Hx)|exact Hfx].
  - destruct (Nat.eq_dec x (length p)) as [->|Hne].
    { left. destruct D as [(_ & _ & A)|(_ & _ & A)]; rewrite A in C; injection C as _ <-; eauto. }
    right. assert (Hfd : fx <> fd).
    { destruct G as (G1 & _). rewrite E, pollfds_app in G1. cbn [pollfds] in G1. rewrite Hs in G1. intros ->. apply NoDup_remove_2 in G1. apply G1, in_or_app. rewrite E in Hx.
      destruct (Nat.lt_ge_cases x (length p)); [rewrite nth_error_app1 in Hx by assumption; left; apply pollfds_in; exists bx; split; [exact (nth_error_In _ _ Hx)|exact Hfx]|].
      rewrite nth_error_app2 in Hx by assumption. destruct (x - length p) as [|k] eqn:K; [lia|]. cbn in Hx. right. apply pollfds_in. exists bx. split; [exact (nth_error_In _ _ Hx)|exact Hfx]. }
    assert (Q' : setq (w_queue w) fd q fx <> []) by (unfold setq; destruct (Nat.eqb_spec fx fd); [congruence|exact Hqx]).
    destruct D as [(R & Hn & A)|(Hn & He & A)]; rewrite A in C; injection C as <- <-.
    + assert (Hx' : nth_error (p ++ mkK (Some fd) false :: s) x = Some bx).
      { rewrite E in Hx. destruct (Nat.lt_ge_cases x (length p)); [rewrite nth_error_app1 in * by assumption; exact Hx|]. rewrite nth_error_app2 in * by assumption. destruct (x - length p) as [|k] eqn:K; [lia|exact Hx]. }
      split; [exists bx, fx; auto|]. split; [|cbn; rewrite E, !app_length; reflexivity]. unfold mu. cbn [w_binds]. rewrite Hx, Hx', E. rewrite !app_length, !nrem_app, !nrem_cons, R. cbn [rem k_sock k_pollin length].
      destruct (rem bx) eqn:Rx; [|lia]. destruct (Nat.lt_ge_cases x (length p)) as [Hl|Hl].
      * exfalso. rewrite E, nth_error_app1 in Hx by assumption. unfold nrem in Hn. apply length_zero_iff_nil in Hn. assert (In bx (filter rem p)) as X; [|rewrite Hn in X; destruct X]. apply filter_In. split; [exact (nth_error_In _ _ Hx)|exact Rx].
      * rewrite !firstn_app, !nrem_app. destruct (x - length p) as [|k] eqn:K; [lia|]. cbn [firstn]. rewrite !nrem_cons, R. cbn [rem k_sock k_pollin]. lia.
    + pose proof (now_ok w G) as N. assert (Ix : inev (now w) bx = true) by (unfold inev; rewrite Hfx, N; cbn; apply ready_true; exact Hqx).
      destruct (Nat.lt_ge_cases x (length p)) as [Hl|Hl].
      * assert (Hx' : nth_error (map (mark (now w)) p ++ b :: s) x = Some (mark (now w) bx)).
        { rewrite nth_error_app1 by (rewrite map_length; exact Hl). rewrite nth_error_map. rewrite E, nth_error_app1 in Hx by assumption. rewrite Hx. reflexivity. }
        split; [exists (mark (now w) bx), fx; cbn [w_binds w_queue]; rewrite mark_sock; auto|]. split; [|cbn; rewrite E, !app_length, map_length; reflexivity].
        unfold mu. cbn [w_binds]. rewrite Hx, Hx', Hn. replace (rem (mark (now w) bx)) with true by (unfold mark; rewrite Ix; unfold rem; cbn; rewrite Hfx; reflexivity).
        replace (rem bx) with false.
        -- rewrite E, app_length. cbn [length]. pose proof (nrem_le (firstn x (map (mark (now w)) p ++ b :: s))) as L. rewrite firstn_length in L. lia.
        -- symmetry. destruct (rem bx) eqn:Rx; [|reflexivity]. unfold nrem in Hn. apply length_zero_iff_nil in Hn. assert (In bx (filter rem (w_binds w))) as X; [|rewrite Hn in X; destruct X]. apply filter_In. split; [exact (nth_error_In _ _ Hx)|exact Rx].
      * exfalso. rewrite E, nth_error_app2 in Hx by assumption. destruct (x - length p) as [|k] eqn:K; [lia|]. cbn in Hx. rewrite <- not_true_iff_false in He. apply He. apply existsb_exists. exists bx. split; [exact (nth_error_In _ _ Hx)|exact Ix].
Qed.

Fixpoint calls (es : list event) : nat := match es with [] => 0 | Call :: es' => S (calls es') | _ :: es' => calls es' end.

Lemma mu_bound w x : waits w x -> mu w x <= 2 * length (w_binds w) - 2.
Proof.
  intros (b & fd & Hb & Hf & _). unfold mu. rewrite Hb. assert (Hl : x < length (w_binds w)) by (apply nth_error_Some; congruence). destruct (rem b) eqn:R.
  - pose proof (nrem_le (firstn x (w_binds w))) as L. rewrite firstn_length in L. lia.
  - assert (nrem (w_binds w) <= length (w_binds w) - 1); [|lia]. apply nth_error_split in Hb. destruct Hb as (l1 & l2 & -> & _). rewrite nrem_app, nrem_cons, R, app_length. cbn [length].
    pose proof (nrem_le l1). pose proof (nrem_le l2). lia.
Qed.

(** C56: with [n] endpoints, one of any 2n-1 calls accepts a connection from an endpoint where one is waiting, however many arrive at the others meanwhile. *)
Theorem c56_served_partial es w x : good w -> Forall plain_event es -> waits w x -> 2 * length (w_binds w) - 1 <= calls es -> exists fd c, In (Accepted x fd c) (trace w es).
Proof.
  intros G P W L. assert (Hn : 1 <= length (w_binds w)) by (destruct W as (b & _ & Hb & _); destruct (w_binds w); [destruct x; discriminate|cbn; lia]).
  assert (M : mu w x < calls es) by (pose proof (mu_bound w x W); lia). clear L Hn. revert w G W M. induction es as [|e es IH]; intros w G W M; [cbn in M; lia|].
  inversion P as [|? ? P1 P2]; subst. pose proof (good_step w e G P1) as G'. cbn [trace]. destruct e; cbn in P1; try contradiction; cbn [estep] in *.
  - destruct (call w) as [w' o] eqn:C. cbn [fst] in G'. cbn [calls] in M. destruct (call_progress w w' o x G W C) as [(fd & c & ->)|(W' & M' & _)].
    + exists fd, c. left. reflexivity.
    + destruct (IH P2 w' G' W' ltac:(lia)) as (fd & c & X). exists fd, c. right. exact X.
  - cbn [fst] in G'. cbn [calls] in M. apply (IH P2 _ G').
    + destruct W as (b & f & Hb & Hf & Hq). exists b, f. cbn [w_binds w_queue]. repeat split; auto. unfold setq. destruct (Nat.eqb_spec f fd) as [->|]; [|exact Hq]. intros X. apply app_eq_nil in X. destruct X; discriminate.
    + exact M.
Qed.

(** Connections at one socket are taken in the order they came. *)
Theorem c56_order w w' i fd c : call w = (w', Accepted i fd c) -> w_queue w fd = c :: w_queue w' fd.
Proof.
  assert (A : forall binds i0 fd0, accept w binds i0 fd0 = (w', Accepted i fd c) -> w_queue w fd = c :: w_queue w' fd).
  { intros binds i0 fd0 H. unfold accept in H. destruct (w_broken w fd0); [discriminate|]. destruct (w_queue w fd0) as [|c0 q] eqn:Q; [discriminate|]. injection H as <- _ <- <-. cbn. unfold setq. rewrite Nat.eqb_refl. exact Q. }
  unfold call. intros H. destruct (leftover (w_binds w) 0) as [[[j f] m]|]; [exact (A _ _ _ H)|].
  cbv zeta in H. destruct (Nat.eqb _ 0); [discriminate|]. destruct (pick _ _ _ _ _) as [[m [[j f]|]]|]; try discriminate. exact (A _ _ _ H).
Qed.

(** After any additions and removals (without C54) the sockets are in that state if no event is remembered yet. *)
Theorem c56_start os s r q : ~ In DelListen os -> run st0 os = Endpts.Ok s r -> (forall b, In b (s_binds s) -> b_pollin b = false) -> good (mkW (binds_of s) q (fun _ => false)).
Proof.
  intros Hn Hr Hp. destruct (c43_memory_partial os Hn) as [X|(s1 & r1 & X & _ & _ & _ & N & _)]; rewrite Hr in X; [discriminate|]. injection X as <- <-.
  assert (E : pollfds (binds_of s) = socks s).
  { unfold binds_of, socks. generalize (firstn (s_count s) (s_binds s)). intros l. induction l as [|b l IH]; [reflexivity|]. cbn. rewrite IH. unfold sock_of. destruct (b_sock b) as [[f o]|]; reflexivity. }
  split; [cbn; rewrite E; exact N|]. split; [reflexivity|]. cbn. intros b fd Hb Hf Hpl. exfalso. unfold binds_of in Hb. apply in_map_iff in Hb. destruct Hb as (b0 & <- & Hb0). cbn in Hpl.
  rewrite (Hp b0) in Hpl; [discriminate|]. rewrite <- (firstn_skipn (s_count s)). apply in_or_app. left. exact Hb0.
Qed.

(* ------------------------------------------------------------------ *)
(** ** What goes wrong otherwise *)

Definition two : world := mkW [mkK (Some 3) false; mkK (Some 4) false] (fun fd => match fd with 3 => [10] | 4 => [11] | _ => [] end) (fun _ => false).

Lemma good_two : good two.
Proof. split; [cbn; repeat constructor; cbn; lia|]. split; [reflexivity|]. cbn. intros b fd [<-|[<-|[]]]; cbn; discriminate. Qed.

(** Both sockets have a connection; the first is remembered, and then gets another socket because its address is changed.  The next call waits in accept(), whatever its timeout,
    with the bindings and the configuration locked. *)
Theorem c56_rebind_refuted : trace two [Call; Rebind 0 5; Call] = [Accepted 1 4 11; Blocks 5].
Proof. vm_compute. reflexivity. Qed.

(** The same if the system drops the remembered connection. *)
Theorem c56_vanish_refuted : trace two [Call; Vanish 3; Call] = [Accepted 1 4 11; Blocks 3].
Proof. vm_compute. reflexivity. Qed.

(** A closed socket left among the bindings: the call fails although a connection waits at the other endpoint; with none waiting it fails at once instead of timing out, for ever. *)
Theorem c56_broken_refuted : trace two [Break 3; Call; Call; Call; Call] = [Failed; Accepted 1 4 11; Failed; Failed].
Proof. vm_compute. reflexivity. Qed.

(* ------------------------------------------------------------------ *)
(** ** Cases *)

Example ex_round : trace two [Call; Arrive 4 12; Call; Call; Call] = [Accepted 1 4 11; Accepted 0 3 10; Accepted 1 4 12; TimedOut].
Proof. vm_compute. reflexivity. Qed.
Example ex_served : waits two 0 /\ calls [Call; Arrive 4 12; Call; Arrive 4 13; Call] = 3.
Proof. split; [exists (mkK (Some 3) false), 3; cbn; repeat split; congruence|reflexivity]. Qed.
(** An endpoint without a socket between two others does not shift the index. *)
Example ex_gap : trace (mkW [mkK (Some 3) false; mkK None false; mkK (Some 4) false] (fun fd => if Nat.eqb fd 4 then [9] else []) (fun _ => false)) [Call; Call] = [Accepted 2 4 9; TimedOut].
Proof. vm_compute. reflexivity. Qed.
Example ex_accept : exists s, run st0 [AddUnix "a" "/a" true; AddUnix "b" "/b" true; AddUnix "c" "/c" true; DelUnix "a"]%string = Endpts.Ok s 0 /\
  trace (mkW (binds_of s) (fun fd => if Nat.eqb fd 5 then [9] else []) (fun _ => false)) [Call] = [Accepted 0 5 9] /\ option_map e_name (nth_error (s_endpts s) 0) = Some "c"%string.
Proof. eexists (mkS _ _ _ _ _ _). split; [vm_compute; reflexivity|]. split; vm_compute; reflexivity. Qed.

Print Assumptions c43_accept.
Print Assumptions c56_no_block_partial.
Print Assumptions c56_timeout.
Print Assumptions c56_served_partial.
Print Assumptions c56_order.
Print Assumptions c56_start.
Print Assumptions c56_rebind_refuted.
Print Assumptions c56_vanish_refuted.
Print Assumptions c56_broken_refuted.
