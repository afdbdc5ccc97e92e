(** Properties of outgoing connections: C130-C135. *)
From Coq Require Import List Arith Lia Bool.
From Verif Require Import SockConn.
Import ListNotations.

(* ------------------------------------------------------------------ *)
(** ** Specification *)

(** Reading what happened from the start: the sockets that are open, or nothing if an open number is reused or
    a socket is touched that is not open. *)
Fixpoint scan (live : list nat) (t : list act) : option (list nat) :=
  match t with
  | [] => Some live
  | Open i _ :: r => if in_dec Nat.eq_dec i live then None else scan (i :: live) r
  | Close i :: r => if in_dec Nat.eq_dec i live then scan (remove Nat.eq_dec i live) r else None
  | Ka i :: r | NoDelay i :: r | Give i :: r => if in_dec Nat.eq_dec i live then scan live r else None
  end.

Definition opt (o : option nat) : list nat := match o with Some i => [i] | None => [] end.

Lemma scan_app t1 : forall l t2, scan l (t1 ++ t2) = match scan l t1 with Some l1 => scan l1 t2 | None => None end.
Proof.
  induction t1 as [|a r IH]; intros l t2; [reflexivity|].
  destruct a; cbn [app scan]; destruct (in_dec Nat.eq_dec _ _); auto.
Qed.

Lemma rm_head i l : ~ In i l -> remove Nat.eq_dec i (i :: l) = l.
Proof. intros N. cbn. destruct (Nat.eq_dec i i) as [_|E]; [|congruence]. now apply notin_remove. Qed.

(** Sockets that are open are below the next number, and different. *)
Definition fresh (l : list nat) (n : nat) : Prop := NoDup l /\ forall i, In i l -> i < n.

Lemma fresh_open l n : fresh l n -> fresh (n :: l) (S n).
Proof.
  intros [D L]. split.
  - constructor; [intros I; apply L in I; lia|exact D].
  - intros i [<-|I]; [lia|apply L in I; lia].
Qed.
Lemma fresh_cons i l n : fresh (i :: l) n -> fresh l n.
Proof. intros [D L]. inversion D. split; [assumption|]. intros j I. apply L. now right. Qed.
Lemma fresh_S l n : fresh l n -> fresh l (S n).
Proof. intros [D L]. split; [exact D|]. intros i I. apply L in I. lia. Qed.

Ltac indec := repeat match goal with
  | |- context [in_dec Nat.eq_dec ?i ?l] => destruct (in_dec Nat.eq_dec i l) as [?I|?I]
  end.

(** One attempt. *)
Lemma sc_scan pend a o n rest :
  fresh (opt (flat pend) ++ rest) n ->
  match sock_connect pend a o n with
  | (x, p1, t, n1) => scan (opt (flat pend) ++ rest) t = Some (opt x ++ opt (flat p1) ++ rest) /\
                      fresh (opt x ++ opt (flat p1) ++ rest) n1 /\ (x <> None -> flat p1 = None)
  end.
Proof.
  intros F.
  destruct pend as [[i|]|].
  - cbn [opt flat app] in *. assert (~ In i rest) as NI by (destruct F as [D _]; now inversion D).
    assert (In i (i :: rest)) as II by now left.
    destruct o; cbn [sock_connect opt flat app scan];
      try (destruct (in_dec Nat.eq_dec i (i :: rest)) as [_|N]; [|contradiction]);
      rewrite ?rm_head by exact NI;
      (split; [reflexivity|split; [first [exact F|exact (fresh_cons _ _ _ F)]|congruence]]).
  - cbn [opt flat app] in *. assert (~ In n rest) as NI by (destruct F as [_ L]; intros I; apply L in I; lia).
    pose proof (fresh_open _ _ F) as F1. pose proof (fresh_S _ _ F) as F2.
    destruct o; cbn [sock_connect opt flat app scan];
      repeat (destruct (in_dec Nat.eq_dec n rest) as [|_]; [contradiction|]);
      try (destruct (in_dec Nat.eq_dec n (n :: rest)) as [_|N]; [|exfalso; apply N; now left]);
      rewrite ?rm_head by exact NI; (split; [reflexivity|split; [first [exact F|exact F1|exact F2]|congruence]]).
  - cbn [opt flat app] in *. assert (~ In n rest) as NI by (destruct F as [_ L]; intros I; apply L in I; lia).
    pose proof (fresh_open _ _ F) as F1. pose proof (fresh_S _ _ F) as F2.
    destruct o; cbn [sock_connect opt flat app scan];
      repeat (destruct (in_dec Nat.eq_dec n rest) as [|_]; [contradiction|]);
      try (destruct (in_dec Nat.eq_dec n (n :: rest)) as [_|N]; [|exfalso; apply N; now left]);
      rewrite ?rm_head by exact NI; (split; [reflexivity|split; [first [exact F|exact F1|exact F2]|congruence]]).
Qed.

Lemma try_scan l : forall pend nd str n rest,
  flat pend = None -> fresh rest n ->
  match try_all pend l nd str n with
  | (x, e, h, p1, t, n1) => scan rest t = Some (opt x ++ opt (flat p1) ++ rest) /\
                            fresh (opt x ++ opt (flat p1) ++ rest) n1 /\ (x <> None -> flat p1 = None) /\
                            (e = true -> flat p1 = None)
  end.
Proof.
  induction l as [|[a o] r IH]; intros pend nd str n rest P F; cbn [try_all].
  - rewrite P. repeat split; try apply F; congruence.
  - pose proof (sc_scan pend a o n rest) as Q. rewrite P in Q. specialize (Q F).
    destruct (sock_connect pend a o n) as [[[[i|] p1] t] n1]; destruct Q as (Q1 & Q2 & Q3); cbn [opt app] in *.
    + specialize (Q3 ltac:(discriminate)). rewrite Q3 in *. cbn [opt app] in *.
      assert (scan rest (t ++ [NoDelay i]) = Some (i :: rest)) as E.
      { rewrite scan_app, Q1. cbn [scan]. destruct (in_dec Nat.eq_dec i (i :: rest)) as [_|N]; [reflexivity|exfalso; apply N; now left]. }
      destruct nd; [destruct str|]; rewrite Q3; cbn [opt app]; auto.
    + destruct p1 as [[j|]|]; cbn [flat opt app] in *.
      * repeat split; auto; try apply Q2; congruence.
      * specialize (IH (Some None) nd str n1 rest eq_refl Q2).
        destruct (try_all (Some None) r nd str n1) as [[[[[x e] h] p2] t2] n2].
        rewrite scan_app, Q1. exact IH.
      * specialize (IH None nd str n1 rest eq_refl Q2).
        destruct (try_all None r nd str n1) as [[[[[x e] h] p2] t2] n2].
        rewrite scan_app, Q1. exact IH.
Qed.

Lemma nsc_scan pend gai o nd str fd0 peer n rest :
  fresh (opt (flat pend) ++ rest) n ->
  match nc_sock_connect pend gai o nd str fd0 peer n with
  | (x, h, p1, t, n1) => scan (opt (flat pend) ++ rest) t = Some (opt x ++ opt (flat p1) ++ rest) /\
                         fresh (opt x ++ opt (flat p1) ++ rest) n1 /\ (x <> None -> flat p1 = None)
  end.
Proof.
  intros F.
  assert (forall i l n, fresh (i :: l) n -> scan (i :: l) [Close i] = Some l) as RC.
  { intros i l m G. cbn [scan]. assert (~ In i l) by (destruct G as [D _]; now inversion D).
    destruct (in_dec Nat.eq_dec i (i :: l)) as [_|N]; [now rewrite rm_head|exfalso; apply N; now left]. }
  destruct pend as [[i|]|].
  - pose proof (sc_scan (Some (Some i)) 0 o n rest F) as Q. unfold nc_sock_connect.
    destruct (sock_connect (Some (Some i)) 0 o n) as [[[[j|] p1] t] n1]; [|exact Q].
    destruct fd0; [exact Q|]. destruct peer; [exact Q|].
    destruct Q as (Q1 & Q2 & Q3). specialize (Q3 ltac:(discriminate)). rewrite Q3 in *. cbn [opt app flat] in *.
    rewrite scan_app, Q1. split; [exact (RC _ _ _ Q2)|]. split; [exact (fresh_cons _ _ _ Q2)|congruence].
  - unfold nc_sock_connect. destruct gai as [l|]; [|cbn; auto using fresh_S; repeat split; try apply F; congruence].
    pose proof (try_scan l (Some None) nd str n rest eq_refl F) as Q.
    destruct (try_all (Some None) l nd str n) as [[[[[[j|] [|]] h] p2] t2] n2]; destruct Q as (Q1 & Q2 & Q3 & Q4);
      cbn [opt app flat] in *; try (split; [exact Q1|split; [exact Q2|exact Q3]]).
    + specialize (Q3 ltac:(discriminate)). rewrite Q3 in *. cbn [opt app] in *. rewrite scan_app, Q1.
      split; [exact (RC _ _ _ Q2)|]. split; [exact (fresh_cons _ _ _ Q2)|congruence].
    + specialize (Q4 eq_refl). rewrite Q4 in *. auto.
  - unfold nc_sock_connect. destruct gai as [l|]; [|cbn; auto using fresh_S; repeat split; try apply F; congruence].
    pose proof (try_scan l None nd str n rest eq_refl F) as Q.
    destruct (try_all None l nd str n) as [[[[[[j|] [|]] h] p2] t2] n2]; destruct Q as (Q1 & Q2 & Q3 & Q4);
      cbn [opt app flat] in *; try (split; [exact Q1|split; [exact Q2|exact Q3]]).
    + specialize (Q3 ltac:(discriminate)). rewrite Q3 in *. cbn [opt app] in *. rewrite scan_app, Q1.
      split; [exact (RC _ _ _ Q2)|]. split; [exact (fresh_cons _ _ _ Q2)|congruence].
    + specialize (Q4 eq_refl). rewrite Q4 in *. auto.
Qed.

Section P.
Variable resolve : nat -> list addr.
Notation step := (step resolve).
Notation run := (run resolve).

Definition owned (s : st) : list nat := opt (pending s) ++ map fst (sess s).
Definition sane (s : st) : Prop := scan [] (acts s) = Some (owned s) /\ fresh (owned s) (next s).

Lemma rm_sess i (l : list (nat * (option addr * nat))) :
  map fst (filter (fun x => negb (Nat.eqb (fst x) i)) l) = remove Nat.eq_dec i (map fst l).
Proof.
  induction l as [|[j x] r IH]; [reflexivity|]. cbn [filter map fst remove].
  destruct (Nat.eq_dec i j) as [->|N]; [now rewrite Nat.eqb_refl|].
  destruct (Nat.eqb_spec j i) as [E|_]; [congruence|]. cbn. now rewrite IH.
Qed.
Lemma fresh_rm i l n : fresh l n -> fresh (remove Nat.eq_dec i l) n.
Proof.
  intros [D L]. split.
  - induction D as [|x l N D IH]; [constructor|]. cbn. destruct (Nat.eq_dec i x); [apply IH; intros; apply L; now right|].
    constructor; [intros I; apply N; now apply in_remove in I|apply IH; intros; apply L; now right].
  - intros j I. apply L. now apply in_remove in I.
Qed.

Lemma step_sane s e : sane s -> sane (step s e).
Proof.
  intros [S F]. unfold owned in *. destruct e as [outs gok o nd str fd0 peer f| |a| |i]; cbn [SockConn.step].
  - pose proof (nsc_scan (Some (pending s)) (if gok then Some (combine (resolve (dst s)) outs) else None) o nd str fd0
       (if peer then match pending s with Some i => addr_of (acts s) i | None => None end else None) (next s) (map fst (sess s)) F) as Q.
    destruct (nc_sock_connect _ _ _ _ _ _ _ _) as [[[[[i|] h] p1] t] n1]; destruct Q as (Q1 & Q2 & Q3); cbn [flat opt app] in *.
    + specialize (Q3 ltac:(discriminate)). rewrite Q3 in *. cbn [opt app] in *.
      assert (~ In i (map fst (sess s))) as NI by (destruct Q2 as [D _]; now inversion D).
      assert (In i (i :: map fst (sess s))) as II by now left.
      destruct f; split; unfold owned; cbn [acts pending sess next flat opt app map fst];
        rewrite ?scan_app, ?S; cbn beta iota; rewrite ?scan_app, ?Q1, ?Q3; cbn [scan opt app]; try (exact (fresh_cons _ _ _ Q2)); try exact Q2;
        (destruct (in_dec Nat.eq_dec i _); [|contradiction]); rewrite ?rm_head by exact NI; reflexivity.
    + split; unfold owned; cbn [acts pending sess next]; [|exact Q2]. now rewrite scan_app, S, Q1.
  - destruct (pending s) as [i|] eqn:P; cbn [opt app closing] in *.
    + assert (~ In i (map fst (sess s))) as NI by (destruct F as [D _]; now inversion D).
      split; unfold owned; cbn [acts pending sess next opt app]; [|exact (fresh_cons _ _ _ F)].
      rewrite scan_app, S. cbn [scan]. destruct (in_dec Nat.eq_dec i _) as [_|N]; [now rewrite rm_head|exfalso; apply N; now left].
    + split; unfold owned; cbn [acts pending sess next opt app]; [|exact F]. now rewrite app_nil_r.
  - split; assumption.
  - destruct (pending s) as [i|] eqn:P; cbn [opt app closing] in *.
    + assert (~ In i (map fst (sess s))) as NI by (destruct F as [D _]; now inversion D).
      split; unfold owned; cbn [acts pending sess next opt app]; [|exact (fresh_cons _ _ _ F)].
      rewrite scan_app, S. cbn [scan]. destruct (in_dec Nat.eq_dec i _) as [_|N]; [now rewrite rm_head|exfalso; apply N; now left].
    + split; unfold owned; cbn [acts pending sess next opt app]; [|exact F]. now rewrite app_nil_r.
  - destruct (existsb _ _) eqn:E; [|split; assumption].
    assert (In i (map fst (sess s))) as II.
    { apply existsb_exists in E as (x & I & E). apply Nat.eqb_eq in E as <-. now apply in_map. }
    assert (opt (pending s) ++ remove Nat.eq_dec i (map fst (sess s)) = remove Nat.eq_dec i (opt (pending s) ++ map fst (sess s))) as R.
    { destruct (pending s) as [j|]; [|reflexivity]. cbn [opt app remove].
      destruct (Nat.eq_dec i j) as [<-|]; [|reflexivity]. exfalso. destruct F as [D _]. now inversion D. }
    split; unfold owned; cbn [acts pending sess next]; rewrite rm_sess, R; [|exact (fresh_rm _ _ _ F)].
    rewrite scan_app, S. cbn [scan]. destruct (in_dec Nat.eq_dec i _) as [_|N]; [reflexivity|].
    exfalso. apply N. apply in_or_app. now right.
Qed.

Lemma run_ind (P : st -> Prop) a es : P (start a) -> (forall s e, P s -> P (step s e)) -> P (run a es).
Proof.
  intros P0 PS. unfold SockConn.run. revert P0. generalize (start a). induction es as [|e r IH]; intros s H; [exact H|].
  cbn. apply IH, PS, H.
Qed.

(** C130: whatever happens to an endpoint, no socket is touched after it was closed or closed twice, and the
    sockets that are open are exactly the pending one and those of the sessions. *)
Theorem c130_sockets_owned a es :
  scan [] (acts (run a es)) = Some (opt (pending (run a es)) ++ map fst (sess (run a es))).
Proof.
  apply (run_ind sane); [|apply step_sane].
  split; [reflexivity|]. split; [constructor|intros i []].
Qed.

(** And in particular nothing is left open when the endpoint is removed and no session is left. *)
Theorem c130_nothing_left a es :
  sess (run a es) = [] -> scan [] (acts (run a (es ++ [Remove]))) = Some [].
Proof.
  intros N. rewrite c130_sockets_owned. unfold SockConn.run in *. rewrite fold_left_app. cbn. now rewrite N.
Qed.

End P.

(** For a client, which has no pending sockets: what is open afterwards is what was returned. *)
Theorem c130_client gai o nd str fd0 peer n :
  match nc_sock_connect None gai o nd str fd0 peer n with
  | (x, _, p, t, _) => scan [] t = Some (opt x) /\ p = None
  end.
Proof.
  pose proof (nsc_scan None gai o nd str fd0 peer n []) as Q.
  assert (fresh (opt (flat None) ++ []) n) as F by (split; [constructor|intros i []]).
  specialize (Q F). cbn [flat opt app] in Q.
  assert (match nc_sock_connect None gai o nd str fd0 peer n with (x, _, p, t, _) => p = None end) as PN.
  { unfold nc_sock_connect. destruct gai as [l|]; [|reflexivity].
    assert (match try_all None l nd str n with (_, _, _, p, _, _) => p = None end) as T.
    { revert n F Q. clear. intros n _ _. revert n. induction l as [|[a q] r IH]; intros n; [reflexivity|]. cbn [try_all].
      destruct q; cbn [sock_connect];
        try (specialize (IH (S n)); destruct (try_all None r nd str (S n)) as [[[[[? ?] ?] ?] ?] ?]; exact IH);
        try (specialize (IH n); destruct (try_all None r nd str n) as [[[[[? ?] ?] ?] ?] ?]; exact IH).
      destruct nd; [destruct str|]; reflexivity. }
    destruct (try_all None l nd str n) as [[[[[[i|] [|]] h] p] t] n1]; auto. }
  destruct (nc_sock_connect None gai o nd str fd0 peer n) as [[[[x h] p] t] n1].
  subst p. cbn [flat opt app] in Q. rewrite app_nil_r in Q. split; [apply Q|reflexivity].
Qed.

Definition two : nat -> list addr := fun x => [10 * x; 10 * x + 1].
Example c130_ex :
  let s := run two 3 [Attempt [FError; FTimeout] true OK true true false true Established;
                      Attempt [] true OK true true false true Established;
                      Attempt [OK] true OK true true false true NoHello;
                      Attempt [FTimeout] true OK true true false true NoCtx] in
  acts s = [Open 0 30; Close 0; Open 1 31; Ka 1; Give 1; Open 2 30; Ka 2; NoDelay 2; Close 2; Open 3 30] /\
  pending s = Some 3 /\ map fst (sess s) = [1].
Proof. vm_compute. repeat split. Qed.

(* ------------------------------------------------------------------ *)
(** ** Whom a session is connected to *)

Lemma addr_of_app t1 t2 i : addr_of (t1 ++ t2) i = match addr_of t1 i with Some a => Some a | None => addr_of t2 i end.
Proof. induction t1 as [|[j a|j|j|j|j] r IH]; cbn; auto. now destruct (Nat.eqb j i). Qed.

(** The sockets created by one call are new and for the addresses of the host. *)
Definition created (l : list addr) (t : list act) (n n1 : nat) : Prop :=
  n <= n1 /\ forall i a, addr_of t i = Some a -> n <= i < n1 /\ In a l.

Lemma created_nil l n : created l [] n n.
Proof. split; [lia|]. discriminate. Qed.
Lemma created_app l t1 t2 n n1 n2 : created l t1 n n1 -> created l t2 n1 n2 -> created l (t1 ++ t2) n n2.
Proof.
  intros [L1 C1] [L2 C2]. split; [lia|]. intros i a. rewrite addr_of_app. destruct (addr_of t1 i) as [b|] eqn:E.
  - intros [= <-]. specialize (C1 i b E). split; [lia|apply C1].
  - intros Q. specialize (C2 i a Q). split; [lia|apply C2].
Qed.
Lemma created_incl l l' t n n1 : created l t n n1 -> incl l l' -> created l' t n n1.
Proof. intros [L C] I. split; [exact L|]. intros i a Q. specialize (C i a Q). split; [apply C|apply I, C]. Qed.

Ltac cr := split; [lia|]; intros ? ? Q; cbn in Q; try discriminate;
  match type of Q with context [Nat.eqb ?n ?i] => destruct (Nat.eqb_spec n i) end; inversion Q; subst; split; [lia|now left].

Lemma sc_created pend a o n : match sock_connect pend a o n with (x, p, t, n1) => created [a] t n n1 end.
Proof.
  destruct pend as [[i|]|]; destruct o; cbn [sock_connect]; try apply created_nil; try (split; [lia|]; discriminate); cr.
Qed.
Lemma sc_new pend a o n : flat pend = None ->
  match sock_connect pend a o n with
  | (x, p, t, n1) => forall i, x = Some i \/ flat p = Some i -> addr_of t i = Some a
  end.
Proof.
  destruct pend as [[i|]|]; [discriminate| |]; intros _; destruct o; cbn [sock_connect flat]; intros i [E|E]; inversion E;
    cbn; now rewrite Nat.eqb_refl.
Qed.

Lemma try_created l : forall pend nd str n, flat pend = None ->
  match try_all pend l nd str n with
  | (x, e, h, p, t, n1) =>
      created (map fst l) t n n1 /\
      (forall i, x = Some i \/ flat p = Some i -> exists a, addr_of t i = Some a) /\
      (forall i, x = Some i -> e = false -> h = addr_of t i)
  end.
Proof.
  induction l as [|[a o] r IH]; intros pend nd str n P; cbn [try_all].
  - split; [apply created_nil|]. split; [intros i [E|E]; congruence|discriminate].
  - pose proof (sc_created pend a o n) as C. pose proof (sc_new pend a o n P) as W.
    assert (incl [a] (map fst ((a, o) :: r))) as I1 by (intros x [<-|[]]; now left).
    destruct (sock_connect pend a o n) as [[[[i|] p1] t] n1].
    + assert (addr_of t i = Some a) as A by (apply W; now left).
      assert (created (map fst ((a, o) :: r)) (t ++ [NoDelay i]) n n1) as C1.
      { apply created_app with n1; [exact (created_incl _ _ _ _ _ C I1)|]. split; [lia|discriminate]. }
      assert (forall j, Some i = Some j \/ flat p1 = Some j -> addr_of t j = Some a) as W' by exact W.
      destruct nd; [destruct str|].
      * split; [exact C1|]. split; [intros j E; exists a; now rewrite addr_of_app, (W' j E)|].
        intros j [= <-] _. now rewrite addr_of_app, A.
      * split; [exact C1|]. split; [intros j E; exists a; now rewrite addr_of_app, (W' j E)|discriminate].
      * split; [exact (created_incl _ _ _ _ _ C I1)|]. split; [intros j E; exists a; now rewrite (W' j E)|discriminate].
    + destruct (flat p1) as [j|] eqn:FP.
      * destruct p1 as [[k|]|]; try discriminate.
        split; [exact (created_incl _ _ _ _ _ C I1)|]. split; [|discriminate].
        intros m [E|E]; [discriminate|]. exists a. apply W. right. rewrite FP in E. injection FP as ->. injection E as ->. reflexivity.
      * specialize (IH p1 nd str n1 FP).
        assert (match try_all p1 r nd str n1 with (x, e, h, p2, t2, n2) =>
          created (map fst ((a, o) :: r)) (t ++ t2) n n2 /\
          (forall i, x = Some i \/ flat p2 = Some i -> exists a, addr_of (t ++ t2) i = Some a) /\
          (forall i, x = Some i -> e = false -> h = addr_of (t ++ t2) i) end) as G.
        { destruct (try_all p1 r nd str n1) as [[[[[x e] h] p2] t2] n2]. destruct IH as (IC & IW & IH).
          assert (forall i b, addr_of t2 i = Some b -> addr_of (t ++ t2) i = Some b) as K.
          { intros i b E. rewrite addr_of_app. destruct (addr_of t i) as [c|] eqn:T; [|exact E].
            apply C in T. apply IC in E. lia. }
          split; [|split].
          - apply created_app with n1; [exact (created_incl _ _ _ _ _ C I1)|]. apply (created_incl _ _ _ _ _ IC). intros y Y. now right.
          - intros i E. destruct (IW i E) as [b B]. exists b. now apply K.
          - intros i E F. rewrite (IH i E F). destruct (IW i (or_introl E)) as [b B]. rewrite B. symmetry. now apply K. }
        destruct p1 as [[k|]|]; [discriminate| |];
          destruct (try_all _ r nd str n1) as [[[[[x e] h] p2] t2] n2]; exact G.
Qed.

Lemma nsc_new pend gai o nd str fd0 peer n : flat pend = None ->
  match nc_sock_connect pend gai o nd str fd0 peer n with
  | (x, h, p, t, n1) =>
      created (match gai with Some l => map fst l | None => [] end) t n n1 /\
      (forall i, x = Some i \/ flat p = Some i -> exists a, addr_of t i = Some a) /\
      (forall i, x = Some i -> h = addr_of t i)
  end.
Proof.
  intros P. unfold nc_sock_connect. destruct gai as [l|].
  - pose proof (try_created l pend nd str n P) as T.
    destruct pend as [[i|]|]; [discriminate| |];
      (destruct (try_all _ l nd str n) as [[[[[[x|] [|]] h] p] t] n1]; destruct T as (T1 & T2 & T3));
      try (split; [exact T1|split; [exact T2|intros i E; exact (T3 i E eq_refl)]]);
      (split; [first [exact T1|apply created_app with n1; [exact T1|split; [lia|discriminate]]]|split; [intros i [E|E]; discriminate|discriminate]]).
  - destruct pend as [[i|]|]; [discriminate| |];
      (split; [apply created_nil|split; [intros i [E|E]; discriminate|discriminate]]).
Qed.
Lemma nsc_pend i gai o nd str fd0 peer n :
  match nc_sock_connect (Some (Some i)) gai o nd str fd0 peer n with
  | (x, h, p, t, n1) =>
      n1 = n /\ (forall j, addr_of t j = None) /\ (forall j, x = Some j \/ flat p = Some j -> j = i) /\
      (forall j, x = Some j -> h = if fd0 then None else peer)
  end.
Proof.
  assert (forall t, (forall j, addr_of t j = None) -> forall p, (forall j, flat p = Some j -> j = i) ->
    n = n /\ (forall j, addr_of t j = None) /\ (forall j, @None nat = Some j \/ flat p = Some j -> j = i) /\
      (forall j, @None nat = Some j -> @None addr = if fd0 then None else peer)) as G.
  { intros t T p P. repeat split; auto; try discriminate. intros j [E|E]; [discriminate|auto]. }
  unfold nc_sock_connect. destruct o; cbn [sock_connect]; try (apply G; [reflexivity|intros j E; now inversion E]).
  destruct fd0; [|destruct peer; [|apply G; [reflexivity|discriminate]]];
    (split; [reflexivity|]; split; [reflexivity|]; split; [intros j [E|E]; now inversion E|reflexivity]).
Qed.

Section P2.
Variable resolve : nat -> list addr.
Notation step := (step resolve).
Notation run := (run resolve).

(** The events under which a session has the address it was configured with: the address is not changed while
    a socket is pending. *)
Fixpoint calm (s : st) (es : list ev) : Prop :=
  match es with
  | [] => True
  | e :: r => match e with SetAddr _ => pending s = None | _ => True end /\ calm (step s e) r
  end.
(** No pending socket is the descriptor 0. *)
Definition nonzero (e : ev) : Prop := match e with Attempt _ _ _ _ _ fd0 _ _ => fd0 = false | _ => True end.

(** What is known of sessions and of the pending socket; [c], [z]: the conditions above were met. *)
Definition known (c z : Prop) (s : st) : Prop :=
  (forall i a, addr_of (acts s) i = Some a -> i < next s) /\
  (forall i, pending s = Some i -> exists a, addr_of (acts s) i = Some a /\ (c -> In a (resolve (dst s)))) /\
  (forall i h d, In (i, (h, d)) (sess s) ->
     exists a, addr_of (acts s) i = Some a /\ (c -> In a (resolve d)) /\ (h = Some a \/ h = None) /\ (z -> h = Some a)).

Lemma attempt_known (c z : Prop) s outs gok o nd str fd0 peer f :
  (z -> fd0 = false) -> known c z s -> known c z (step s (Attempt outs gok o nd str fd0 peer f)).
Proof.
  intros Z (K1 & K2 & K3). cbn [SockConn.step]. set (gai := if gok then _ else _).
  set (pr := if peer then _ else _).
  assert (forall a, In a (match gai with Some l => map fst l | None => [] end) -> In a (resolve (dst s))) as GI.
  { intros a. unfold gai. destruct gok; [|intros []]. intros I.
    apply in_map_iff in I as ([x y] & <- & I). now apply in_combine_l in I. }
  assert (match nc_sock_connect (Some (pending s)) gai o nd str fd0 pr (next s) with
    | (x, h, p, t, n1) =>
        (forall i a, addr_of (acts s ++ t) i = Some a -> i < n1) /\
        (forall i, x = Some i \/ flat p = Some i -> exists a, addr_of (acts s ++ t) i = Some a /\ (c -> In a (resolve (dst s)))) /\
        (forall i, x = Some i -> (h = addr_of (acts s ++ t) i \/ h = None) /\ (z -> h <> None -> h = addr_of (acts s ++ t) i) /\ (z -> x = Some i -> h <> None))
    end) as M.
  { destruct (pending s) as [p0|] eqn:P.
    - pose proof (nsc_pend p0 gai o nd str fd0 pr (next s)) as Q.
      assert (pr = None \/ pr = addr_of (acts s) p0) as PR by (unfold pr; destruct peer; auto).
      destruct (K2 p0 eq_refl) as (a & A & CA).
      assert (match nc_sock_connect (Some (Some p0)) gai o nd str fd0 pr (next s) with
              | (x, h, p, t, n1) => forall i, x = Some i -> fd0 = false -> pr <> None end) as NN.
      { unfold nc_sock_connect. destruct o; cbn [sock_connect]; try discriminate. destruct fd0; [intros; discriminate|].
        destruct pr; [intros; discriminate|intros; discriminate]. }
      destruct (nc_sock_connect _ gai o nd str fd0 pr (next s)) as [[[[x h] p] t] n1]. destruct Q as (-> & Q1 & Q2 & Q3).
      assert (forall i, addr_of (acts s ++ t) i = addr_of (acts s) i) as AE.
      { intros i. rewrite addr_of_app, Q1. now destruct (addr_of (acts s) i). }
      split; [|split].
      + intros i b. rewrite AE. apply K1.
      + intros i E. apply Q2 in E as ->. exists a. now rewrite AE.
      + intros i E. rewrite AE. assert (i = p0) as -> by (apply Q2; now left). rewrite (Q3 _ E).
        split; [|split].
        * destruct fd0; [now right|]. destruct PR as [PR|PR]; rewrite PR; [now right|now left].
        * intros _ N. destruct fd0; [congruence|]. destruct PR as [PR|PR]; [congruence|exact PR].
        * intros z0 _. rewrite (Z z0). apply (NN _ E (Z z0)).
    - pose proof (nsc_new (Some None) gai o nd str fd0 pr (next s) eq_refl) as Q.
      destruct (nc_sock_connect _ gai o nd str fd0 pr (next s)) as [[[[x h] p] t] n1]. destruct Q as (Q1 & Q2 & Q3).
      assert (forall i a, addr_of t i = Some a -> addr_of (acts s ++ t) i = Some a) as AE.
      { intros i a E. rewrite addr_of_app. destruct (addr_of (acts s) i) as [b|] eqn:B; [|exact E].
        apply K1 in B. apply Q1 in E. lia. }
      split; [|split].
      + intros i a. rewrite addr_of_app. destruct (addr_of (acts s) i) as [b|] eqn:B.
        * intros _. apply K1 in B. destruct Q1 as [Q1 _]. lia.
        * intros E. apply Q1 in E. lia.
      + intros i E. destruct (Q2 i E) as [a A]. exists a. split; [now apply AE|]. intros _.
        apply Q1 in A as [_ A]. now apply GI in A.
      + intros i E. destruct (Q2 i (or_introl E)) as [a A]. rewrite (Q3 i E), A, (AE i a A). repeat split; auto; discriminate. }
  destruct (nc_sock_connect _ gai o nd str fd0 pr (next s)) as [[[[x h] p] t] n1]. destruct M as (M1 & M2 & M3).
  assert (forall u, (forall j, addr_of u j = None) -> forall i, addr_of (acts s ++ t ++ u) i = addr_of (acts s ++ t) i) as U.
  { intros u N i. rewrite app_assoc, addr_of_app, N. now destruct (addr_of (acts s ++ t) i). }
  assert (forall i a, addr_of (acts s) i = Some a -> addr_of (acts s ++ t) i = Some a) as AO.
  { intros i a E. now rewrite addr_of_app, E. }
  assert (forall i h d, In (i, (h, d)) (sess s) ->
     exists a, addr_of (acts s ++ t) i = Some a /\ (c -> In a (resolve d)) /\ (h = Some a \/ h = None) /\ (z -> h = Some a)) as OLD.
  { intros i h0 d I. destruct (K3 i h0 d I) as (a & A & R). exists a. split; [now apply AO|exact R]. }
  destruct x as [i|].
  - assert (forall u, (forall j, addr_of u j = None) ->
      known c z {| pending := flat p; dst := dst s; sess := sess s; acts := acts s ++ t ++ u; next := n1 |}) as N.
    { intros u NU. split; [|split]; cbn [pending dst sess acts next].
      - intros j a. rewrite (U u NU). apply M1.
      - intros j E. rewrite (U u NU). apply M2. now right.
      - intros j h0 d I. rewrite (U u NU). now apply OLD. }
    destruct f; try (apply N; reflexivity).
    split; [|split]; cbn [pending dst sess acts next].
    + intros j a. rewrite (U [Give i]) by reflexivity. apply M1.
    + intros j E. rewrite (U [Give i]) by reflexivity. apply M2. now right.
    + intros j h0 d [E|I]; [|rewrite (U [Give i]) by reflexivity; now apply OLD].
      injection E as <- <- <-. destruct (M2 i (or_introl eq_refl)) as (a & A & CA). exists a.
      rewrite (U [Give i]) by reflexivity. rewrite A. destruct (M3 i eq_refl) as (H1 & H2 & H3). rewrite A in *.
      split; [reflexivity|]. split; [exact CA|]. split; [exact H1|]. intros z0. apply H2; auto.
  - split; [|split]; cbn [pending dst sess acts next].
    + exact M1.
    + intros j E. apply M2. now right.
    + exact OLD.
Qed.

Lemma step_known (c z : Prop) s e :
  (c -> match e with SetAddr _ => pending s = None | _ => True end) -> (z -> nonzero e) ->
  known c z s -> known c z (step s e).
Proof.
  intros C Z K. destruct e as [outs gok o nd str fd0 peer f| |a| |i].
  1: { now apply attempt_known. }
  all: destruct K as (K1 & K2 & K3).
  1,3: assert (forall i, addr_of (acts s ++ closing (pending s)) i = addr_of (acts s) i) as U
         by (intros i; rewrite addr_of_app; destruct (pending s); cbn; now destruct (addr_of (acts s) i));
       (split; [|split]); cbn [SockConn.step pending dst sess acts next];
       [intros i a; rewrite U; apply K1|discriminate|intros i h d I; rewrite U; now apply K3].
  - split; [|split]; cbn [SockConn.step pending dst sess acts next]; [exact K1| |exact K3].
    intros i E. destruct (K2 i E) as (b & B & _). exists b. split; [exact B|]. intros c0. specialize (C c0). cbn in C. congruence.
  - cbn [SockConn.step]. destruct (existsb _ _); [|repeat split; assumption].
    assert (forall j, addr_of (acts s ++ [Close i]) j = addr_of (acts s) j) as U
         by (intros j; rewrite addr_of_app; cbn; now destruct (addr_of (acts s) j)).
    split; [|split]; cbn [pending dst sess acts next].
    + intros j a. rewrite U. apply K1.
    + intros j E. rewrite U. now apply K2.
    + intros j h d I. rewrite U. apply filter_In in I as [I _]. now apply K3.
Qed.

Lemma run_known (c z : Prop) es : forall s, (c -> calm s es) -> (z -> Forall nonzero es) -> known c z s ->
  known c z (fold_left step es s).
Proof.
  induction es as [|e r IH]; intros s C Z K; [exact K|]. cbn [fold_left]. apply IH.
  - intros c0. now apply C in c0 as [_ ?].
  - intros z0. specialize (Z z0). now inversion Z.
  - apply step_known; [intros c0; now apply C in c0 as [? _]|intros z0; specialize (Z z0); now inversion Z|exact K].
Qed.
Lemma start_known c z a : known c z (start a).
Proof. split; [discriminate|]. split; [discriminate|]. intros i h d []. Qed.

(** C131: the host a Call Home session tells, if any, is the address its socket was created for. *)
Theorem c131_host_true a es i h d :
  In (i, (Some h, d)) (sess (run a es)) -> addr_of (acts (run a es)) i = Some h.
Proof.
  intros I. destruct (run_known False False es (start a)) as (_ & _ & K); try tauto; [apply start_known|].
  destruct (K _ _ _ I) as (b & B & _ & [E|E] & _); [now injection E as ->|discriminate].
Qed.
(** It has one, if no pending socket had the descriptor 0. *)
Theorem c131_host_partial a es i h d :
  Forall nonzero es ->
  In (i, (h, d)) (sess (run a es)) -> exists b, addr_of (acts (run a es)) i = Some b /\ h = Some b.
Proof.
  intros NZ I. destruct (run_known False True es (start a)) as (_ & _ & K); try tauto; [apply start_known|].
  destruct (K _ _ _ I) as (b & B & _ & _ & E). exists b. split; [exact B|now apply E].
Qed.

(** C132: a Call Home session is connected to an address of the host that was configured when it was
    established, if the address of the endpoint was never changed with a socket pending. *)
Theorem c132_configured_address_partial a es i h d :
  calm (start a) es ->
  In (i, (h, d)) (sess (run a es)) -> exists b, addr_of (acts (run a es)) i = Some b /\ In b (resolve d).
Proof.
  intros C I. destruct (run_known True False es (start a)) as (_ & _ & K); try tauto; [apply start_known|].
  destruct (K _ _ _ I) as (b & B & CB & _). exists b. split; [exact B|now apply CB].
Qed.
End P2.

(** With descriptor 0 the session has no host. *)
Theorem c131_host_refuted :
  exists a es i d, In (i, (None, d)) (sess (run two a es)).
Proof.
  exists 3, [Attempt [FTimeout] true OK true true false true Established; Attempt [] true OK true true true true Established], 0, 3.
  vm_compute. now left.
Qed.
(** An endpoint whose address is changed while a socket is pending is connected to the old address. *)
Theorem c132_configured_address_refuted :
  exists a es i h d b, In (i, (h, d)) (sess (run two a es)) /\ addr_of (acts (run two a es)) i = Some b /\ ~ In b (two d).
Proof.
  exists 3, [Attempt [FTimeout] true OK true true false true Established; SetAddr 5; Attempt [] true OK true true false true Established], 0, (Some 30), 5, 30.
  vm_compute. repeat split; [now left|]. intros [?|[?|[]]]; discriminate.
Qed.
Example c132_ex :
  let es := [Attempt [FTimeout] true OK true true false true Established; GiveUp; SetAddr 5;
             Attempt [FError; FTimeout] true OK true true false true Established; Attempt [] true OK true true false true Established] in
  calm two (start 3) es /\ Forall nonzero es /\ sess (run two 3 es) = [(2, (Some 51, 5))].
Proof. vm_compute. repeat split; repeat constructor. Qed.

(* ------------------------------------------------------------------ *)
(** ** Which address is used *)

(** What the caller sees: the host it is connected to. *)
Definition host_of (r : option nat * option addr * option (option nat) * list act * nat) : option addr :=
  match r with (Some _, h, _, _, _) => h | _ => None end.
(** The first address that can be connected. *)
Fixpoint first_ok (l : list (addr * out)) : option addr :=
  match l with [] => None | (a, OK) :: _ => Some a | _ :: r => first_ok r end.

Lemma try_first l : forall n,
  match try_all None l true true n with
  | (Some i, e, h, _, _, _) => e = false /\ h = first_ok l /\ h <> None
  | (None, e, _, _, _, _) => e = false /\ first_ok l = None
  end.
Proof.
  induction l as [|[a o] r IH]; intros n; cbn [try_all]; [now split|].
  destruct o; cbn [sock_connect first_ok];
    try (specialize (IH (S n)); destruct (try_all None r true true (S n)) as [[[[[[x|] e] h] p] t] n1]; exact IH);
    try (specialize (IH n); destruct (try_all None r true true n) as [[[[[[x|] e] h] p] t] n1]; exact IH).
  split; [reflexivity|]. split; [reflexivity|discriminate].
Qed.

(** C133: a client is connected to the first of the addresses of the server that can be connected, and gets
    no connection only if there is none. *)
Theorem c133_client_first_address l o fd0 peer n :
  host_of (nc_sock_connect None (Some l) o true true fd0 peer n) = first_ok l /\
  (match nc_sock_connect None (Some l) o true true fd0 peer n with (x, _, _, _, _) => x end = None <-> first_ok l = None).
Proof.
  unfold nc_sock_connect. pose proof (try_first l n) as T.
  destruct (try_all None l true true n) as [[[[[[x|] e] h] p] t] n1].
  - destruct T as (-> & -> & N). cbn [host_of]. split; [reflexivity|]. split; [discriminate|congruence].
  - destruct T as (-> & N). cbn [host_of]. split; [now rewrite N|]. tauto.
Qed.
Example c133_ex :
  host_of (nc_sock_connect None (Some [(1, FTimeout); (2, FSetup); (3, OK); (4, OK)]) OK true true false None 7) = Some 3.
Proof. reflexivity. Qed.

Section P3.
Variable resolve : nat -> list addr.
Notation step := (step resolve).
Notation run := (run resolve).

(** C134: an endpoint without a pending socket is connected to the first of its addresses that can be
    connected, if no address before it times out. *)
Lemma try_first_ch pre : forall a post n,
  Forall (fun x => snd x <> OK /\ snd x <> FTimeout) pre ->
  match try_all (Some None) (pre ++ (a, OK) :: post) true true n with
  | (x, e, h, p, _, _) => e = false /\ x <> None /\ h = Some a /\ p = Some None
  end.
Proof.
  induction pre as [|[b o] r IH]; intros a post n F; cbn [app try_all].
  - cbn [sock_connect]. repeat split; discriminate.
  - inversion F as [|? ? [N1 N2] F']; subst. cbn [snd] in *. destruct o; try congruence; cbn [sock_connect].
    all: try (specialize (IH a post (S n) F'); destruct (try_all _ _ true true (S n)) as [[[[[x e] h] p] t] n1]; exact IH).
    all: specialize (IH a post n F'); destruct (try_all _ _ true true n) as [[[[[x e] h] p] t] n1]; exact IH.
Qed.
Theorem c134_reachable_connects_partial s outs pre a post o fd0 peer :
  pending s = None ->
  combine (resolve (dst s)) outs = pre ++ (a, OK) :: post ->
  Forall (fun x => snd x <> OK /\ snd x <> FTimeout) pre ->
  exists i, sess (step s (Attempt outs true o true true fd0 peer Established)) = (i, (Some a, dst s)) :: sess s.
Proof.
  intros P C F. cbn [SockConn.step]. rewrite P, C. unfold nc_sock_connect.
  pose proof (try_first_ch pre a post (next s) F) as T.
  destruct (try_all _ _ true true (next s)) as [[[[[x e] h] p] t] n1]. destruct T as (-> & N & -> & ->).
  destruct x as [i|]; [|congruence]. exists i. reflexivity.
Qed.

(** Keepalives: C135.  The socket of every session had them set. *)
Lemma sc_ka pend a o n : match sock_connect pend a o n with (Some i, _, t, _) => In (Ka i) t | _ => True end.
Proof. destruct pend as [[i|]|]; destruct o; cbn; auto. Qed.
Lemma try_ka l : forall pend nd str n, match try_all pend l nd str n with
  | (Some i, e, _, _, t, _) => In (Ka i) t /\ (e = false -> In (NoDelay i) t) | _ => True end.
Proof.
  induction l as [|[a o] r IH]; intros pend nd str n; cbn [try_all]; [exact Logic.I|].
  pose proof (sc_ka pend a o n) as K. destruct (sock_connect pend a o n) as [[[[i|] p1] t] n1].
  - destruct nd; [destruct str|]; (split; [try (apply in_or_app; left); exact K|]); intros; try discriminate.
    apply in_or_app. right. now left.
  - destruct p1 as [[j|]|]; [exact Logic.I| |]; 
      match goal with |- context [try_all ?p r nd str n1] => pose proof (IH p nd str n1) as Q; destruct (try_all p r nd str n1) as [[[[[[x|] e] h] p2] t2] n2] end;
      auto; destruct Q as [Q1 Q2]; (split; [|intros E]; apply in_or_app; right; auto).
Qed.
Lemma nsc_ka pend gai o nd str fd0 peer n : match nc_sock_connect pend gai o nd str fd0 peer n with
  | (Some i, _, _, t, _) => In (Ka i) t /\ (flat pend = None -> In (NoDelay i) t) | _ => True end.
Proof.
  unfold nc_sock_connect. destruct pend as [[i|]|].
  - destruct o; cbn [sock_connect]; auto. destruct fd0; [split; [now left|discriminate]|]. destruct peer; [split; [now left|discriminate]|exact Logic.I].
  - destruct gai as [l|]; [|exact Logic.I]. pose proof (try_ka l (Some None) nd str n) as Q.
    destruct (try_all _ l nd str n) as [[[[[[x|] [|]] h] p2] t2] n2]; auto. split; [apply Q|intros _; now apply Q].
  - destruct gai as [l|]; [|exact Logic.I]. pose proof (try_ka l None nd str n) as Q.
    destruct (try_all _ l nd str n) as [[[[[[x|] [|]] h] p2] t2] n2]; auto. split; [apply Q|intros _; now apply Q].
Qed.

Lemma acts_grow s e : exists t, acts (step s e) = acts s ++ t.
Proof.
  destruct e as [outs gok o nd str fd0 peer f| |a| |i]; cbn [SockConn.step].
  - destruct (nc_sock_connect _ _ _ _ _ _ _ _) as [[[[[i|] h] p] t] n1]; [destruct f|]; eexists; reflexivity.
  - eexists; reflexivity.
  - exists []. now rewrite app_nil_r.
  - eexists; reflexivity.
  - destruct (existsb _ _); [eexists; reflexivity|exists []; now rewrite app_nil_r].
Qed.

(** A session that is new after an event is from an attempt that succeeded. *)
Lemma new_session s e i x : In (i, x) (sess (step s e)) -> ~ In (i, x) (sess s) ->
  exists outs gok o nd str fd0 peer, e = Attempt outs gok o nd str fd0 peer Established /\
    In (Ka i) (acts (step s e)) /\ (pending s = None -> In (NoDelay i) (acts (step s e))).
Proof.
  intros I N. destruct e as [outs gok o nd str fd0 peer f| |a| |j]; try (now contradiction N).
  - exists outs, gok, o, nd, str, fd0, peer. cbn [SockConn.step] in *.
    pose proof (nsc_ka (Some (pending s)) (if gok then Some (combine (resolve (dst s)) outs) else None) o nd str fd0
      (if peer then match pending s with Some i => addr_of (acts s) i | None => None end else None) (next s)) as Q.
    destruct (nc_sock_connect _ _ _ _ _ _ _ _) as [[[[[k|] h] p] t] n1]; [|now contradiction N].
    destruct f; try (now contradiction N). cbn [sess] in I. destruct I as [E|I]; [|contradiction].
    injection E as -> _. split; [reflexivity|]. cbn [acts]. destruct Q as [Q1 Q2]. split.
    + apply in_or_app. right. apply in_or_app. now left.
    + intros P. apply in_or_app. right. apply in_or_app. left. apply Q2. exact P.
  - cbn [SockConn.step] in I. destruct (existsb _ _); [|contradiction]. cbn [sess] in I. apply filter_In in I as [I _]. contradiction.
Qed.

Theorem c135_keepalives a es i x :
  In (i, x) (sess (run a es)) -> In (Ka i) (acts (run a es)).
Proof.
  revert i x. apply (run_ind resolve (fun s => forall i x, In (i, x) (sess s) -> In (Ka i) (acts s))).
  - intros i x [].
  - intros s e IH i x I.
    assert ({In (i, x) (sess s)} + {~ In (i, x) (sess s)}) as [J|J].
    { apply in_dec. repeat decide equality. }
    + destruct (acts_grow s e) as [t ->]. apply in_or_app. left. now apply (IH i x).
    + destruct (new_session s e i x I J) as (? & ? & ? & ? & ? & ? & ? & _ & K & _). exact K.
Qed.

(** C136: TCP_NODELAY is set on the socket of every session, if no socket was left pending before. *)
Fixpoint no_pending (s : st) (es : list ev) : Prop :=
  match es with
  | [] => True
  | e :: r => match e with Attempt _ _ _ _ _ _ _ _ => pending s = None | _ => True end /\ no_pending (step s e) r
  end.
Theorem c136_nodelay_partial a es i x :
  no_pending (start a) es -> In (i, x) (sess (run a es)) -> In (NoDelay i) (acts (run a es)).
Proof.
  unfold SockConn.run. assert (forall i x, In (i, x) (sess (start a)) -> In (NoDelay i) (acts (start a))) as H by (intros ? ? []).
  revert H. generalize (start a). induction es as [|e r IH]; intros s H NP I; [now apply (H i x)|].
  cbn [fold_left] in *. destruct NP as [N1 N2]. apply (IH (step s e)); auto. clear IH I i x.
  intros i x I. assert ({In (i, x) (sess s)} + {~ In (i, x) (sess s)}) as [J|J].
  { apply in_dec. repeat decide equality. }
  - destruct (acts_grow s e) as [t ->]. apply in_or_app. left. now apply (H i x).
  - destruct (new_session s e i x I J) as (? & ? & ? & ? & ? & ? & ? & -> & _ & K). now apply K.
Qed.
End P3.

(** An endpoint with a host whose first address never answers is never connected to the second one, which
    would answer, however many attempts are made and however often the socket is given up. *)
Theorem c134_reachable_connects_refuted : forall k m,
  let es := concat (repeat (repeat (Attempt [FTimeout; OK] true FTimeout true true false true Established) (S k) ++ [GiveUp]) m) in
  sess (run two 3 es) = [] /\ forall i a, In (Open i a) (acts (run two 3 es)) -> a = 30.
Proof.
  intros k m. cbn zeta. set (e := Attempt _ _ _ _ _ _ _ _).
  assert (forall s, dst s = 3 -> sess s = [] -> (forall i a, In (Open i a) (acts s) -> a = 30) ->
    (dst (step two s e) = 3 /\ sess (step two s e) = [] /\ forall i a, In (Open i a) (acts (step two s e)) -> a = 30)) as A.
  { intros s D N O. unfold e. cbn [step]. rewrite D. destruct (pending s) as [p|]; cbn [nc_sock_connect sock_connect].
    - cbn [dst sess acts]. rewrite app_nil_r. auto.
    - change (combine (two 3) [FTimeout; OK]) with [(30, FTimeout); (31, OK)]. cbn [try_all sock_connect dst sess acts].
      repeat split; auto. intros i a I. apply in_app_or in I as [I|[I|[]]]; [now apply (O i)|congruence]. }
  assert (forall j s, dst s = 3 -> sess s = [] -> (forall i a, In (Open i a) (acts s) -> a = 30) ->
    (dst (fold_left (step two) (repeat e j) s) = 3 /\ sess (fold_left (step two) (repeat e j) s) = [] /\
     forall i a, In (Open i a) (acts (fold_left (step two) (repeat e j) s)) -> a = 30)) as B.
  { induction j as [|j IH]; intros s D N O; [repeat split; auto|]. cbn [repeat fold_left].
    destruct (A s D N O) as (D' & N' & O'). now apply IH. }
  unfold run. assert (forall s, dst s = 3 -> sess s = [] -> (forall i a, In (Open i a) (acts s) -> a = 30) ->
    sess (fold_left (step two) (concat (repeat (repeat e (S k) ++ [GiveUp]) m)) s) = [] /\
    forall i a, In (Open i a) (acts (fold_left (step two) (concat (repeat (repeat e (S k) ++ [GiveUp]) m)) s)) -> a = 30) as C.
  { induction m as [|m IH]; intros s D N O; [split; auto|]. cbn [repeat concat]. rewrite !fold_left_app.
    destruct (B (S k) s D N O) as (D' & N' & O'). apply IH; cbn [fold_left step dst sess acts]; auto.
    intros i a I. apply in_app_or in I as [I|I]; [now apply (O' i)|].
    destruct (pending _); cbn in I; [destruct I as [I|[]]; discriminate|destruct I]. }
  apply C; auto. intros i a [].
Qed.
(** A socket that was pending is given to its session without TCP_NODELAY. *)
Theorem c136_nodelay_refuted :
  exists a es i x, In (i, x) (sess (run two a es)) /\ ~ In (NoDelay i) (acts (run two a es)).
Proof.
  exists 3, [Attempt [FTimeout] true OK true true false true Established; Attempt [] true OK true true false true Established], 0, (Some 30, 3).
  vm_compute. split; [now left|]. intros [H|[H|[H|[]]]]; discriminate.
Qed.
Example c134_ex :
  sess (step two (start 3) (Attempt [FError; OK] true OK true true false true Established)) = [(1, (Some 31, 3))].
Proof. reflexivity. Qed.
Example c136_ex :
  no_pending two (start 3) [Attempt [FError; OK] true OK true true false true Established; Attempt [OK] true OK true true false true Established] /\
  map fst (sess (run two 3 [Attempt [FError; OK] true OK true true false true Established; Attempt [OK] true OK true true false true Established])) = [2; 1].
Proof. vm_compute. repeat split. Qed.

Print Assumptions c130_sockets_owned.
Print Assumptions c130_nothing_left.
Print Assumptions c130_client.
Print Assumptions c131_host_true.
Print Assumptions c131_host_partial.
Print Assumptions c131_host_refuted.
Print Assumptions c132_configured_address_partial.
Print Assumptions c132_configured_address_refuted.
Print Assumptions c133_client_first_address.
Print Assumptions c134_reachable_connects_partial.
Print Assumptions c134_reachable_connects_refuted.
Print Assumptions c135_keepalives.
Print Assumptions c136_nodelay_partial.
Print Assumptions c136_nodelay_refuted.
