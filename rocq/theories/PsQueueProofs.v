(** The ring buffer of the pollsession lock refines a list, and the lock a FIFO queue of threads. *)
From Coq Require Import NArith Bool Lia List Arith Sorted.
From Verif Require Import PsQueue.
Import ListNotations.
Local Open Scope N_scope.

Section Queue.
Variable Q : N.
Hypothesis HQ : 0 < Q <= 255.

Lemma mod256 x : (x mod Q) mod 256 = x mod Q.
Proof. apply N.mod_small. pose proof (N.mod_lt x Q). lia. Qed.

Definition off (a : N -> N) (b : N) (j : nat) : N := a ((b + N.of_nat j) mod Q).
Definition contents (r : ring) : list N := map (off (r_arr r) (r_begin r)) (seq 0 (N.to_nat (r_len r))).
Definition ring_ok (r : ring) : Prop := r_begin r < Q /\ r_len r <= Q.

Lemma add_mod_inj b i j : i < Q -> j < Q -> (b + i) mod Q = (b + j) mod Q -> i = j.
Proof.
  intros Hi Hj E. assert (Hq : Q <> 0) by lia.
  pose proof (N.div_mod (b + i) Q Hq). pose proof (N.div_mod (b + j) Q Hq). rewrite E in *.
  assert (Hd : (b + i) / Q = (b + j) / Q \/ (b + i) / Q < (b + j) / Q \/ (b + j) / Q < (b + i) / Q) by lia.
  destruct Hd as [Hd|[Hd|Hd]]; [rewrite Hd in *; lia| |]; exfalso; nia.
Qed.

Lemma off_upd a b i j v : (i < N.to_nat Q)%nat -> (j < N.to_nat Q)%nat ->
  off (upd a ((b + N.of_nat i) mod Q) v) b j = if Nat.eqb j i then v else off a b j.
Proof.
  intros Hi Hj. unfold off, upd. destruct (Nat.eqb_spec j i) as [->|Hne]; [now rewrite N.eqb_refl|].
  destruct (N.eqb_spec ((b + N.of_nat j) mod Q) ((b + N.of_nat i) mod Q)) as [E|_]; [|reflexivity].
  apply add_mod_inj in E; lia.
Qed.

Lemma prev_index b i : b < Q -> (0 < i)%nat ->
  (let q := (b + N.of_nat i) mod Q in if q =? 0 then Q - 1 else q - 1) = (b + N.of_nat (i - 1)) mod Q.
Proof.
  intros Hb Hi. cbv zeta. set (y := b + N.of_nat (i - 1)). assert (Ey : b + N.of_nat i = y + 1) by (unfold y; lia). rewrite Ey.
  assert (Hq : Q <> 0) by lia. pose proof (N.mod_lt y Q Hq) as Hm. pose proof (N.div_mod y Q Hq) as Hd.
  destruct (N.eq_dec (y mod Q) (Q - 1)) as [E|E].
  - assert (Hz : (y + 1) mod Q = 0).
    { symmetry. apply (N.mod_unique _ _ (y / Q + 1)); [lia|]. nia. }
    rewrite Hz. cbn. lia.
  - assert (Hz : (y + 1) mod Q = y mod Q + 1).
    { symmetry. apply (N.mod_unique _ _ (y / Q)); [lia|]. lia. }
    rewrite Hz. clear. generalize (y mod Q) as z. intros z. destruct (N.eqb_spec (z + 1) 0); lia.
Qed.

Lemma phase1 b id m : forall n i a, (forall j, (i <= j < i + m)%nat -> off a b j <> id) ->
  remove_loop Q b id (m + n) (N.of_nat i) 0 a = remove_loop Q b id n (N.of_nat (i + m)) 0 a.
Proof.
  induction m as [|m IH]; intros n i a H; [now rewrite Nat.add_0_r|].
  cbn [Nat.add remove_loop]. rewrite mod256. fold (off a b i).
  destruct (N.eqb_spec (off a b i) id) as [E|_]; [exfalso; apply (H i); [lia|exact E]|].
  cbn [negb N.eqb]. replace (N.of_nat i + 1) with (N.of_nat (S i)) by lia.
  rewrite IH by (intros j Hj; apply H; lia). f_equal. lia.
Qed.

Lemma phase_found1 b id n : forall i a, remove_loop Q b id n i 1 a = (1, a).
Proof. induction n as [|n IH]; intros i a; [reflexivity|]. cbn [remove_loop]. cbn [negb N.eqb Pos.eqb]. apply IH. Qed.

Lemma phase2 b id n : b < Q -> forall i a, (0 < i)%nat -> (i + n <= N.to_nat Q)%nat ->
  exists a', remove_loop Q b id n (N.of_nat i) 2 a = (2, a') /\
  forall j, (j < N.to_nat Q)%nat -> off a' b j = if (i - 1 <=? j)%nat && (j <? i - 1 + n)%nat then off a b (j + 1) else off a b j.
Proof.
  intros Hb. induction n as [|n IH]; intros i a Hi Hn.
  - exists a. split; [reflexivity|]. intros j Hj.
    destruct (Nat.leb_spec (i - 1) j), (Nat.ltb_spec j (i - 1 + 0)); cbn [andb]; try lia; reflexivity.
  - cbn [remove_loop]. cbn [negb N.eqb Pos.eqb]. rewrite mod256.
    pose proof (prev_index b i Hb Hi) as Hp. cbv zeta in Hp. rewrite Hp. fold (off a b i).
    replace (N.of_nat i + 1) with (N.of_nat (S i)) by lia.
    destruct (IH (S i) (upd a ((b + N.of_nat (i - 1)) mod Q) (off a b i))) as (a' & E & H); [lia|lia|].
    exists a'. split; [exact E|]. intros j Hj. rewrite H by exact Hj.
    destruct (Nat.leb_spec (S i - 1) j), (Nat.ltb_spec j (S i - 1 + n)), (Nat.leb_spec (i - 1) j), (Nat.ltb_spec j (i - 1 + S n));
      cbn [andb]; try lia; rewrite off_upd by lia;
      match goal with |- context [Nat.eqb ?x ?y] => destruct (Nat.eqb_spec x y) end; try lia; try reflexivity.
    replace i with (j + 1)%nat by lia. reflexivity.
Qed.

Lemma contents_len r : length (contents r) = N.to_nat (r_len r).
Proof. unfold contents. now rewrite map_length, seq_length. Qed.

Lemma nth_map_seq (f : nat -> N) n j d : (j < n)%nat -> nth j (map f (seq 0 n)) d = f j.
Proof.
  intros H. rewrite nth_indep with (d' := f 0%nat) by (rewrite map_length, seq_length; exact H).
  rewrite map_nth, seq_nth by exact H. reflexivity.
Qed.

Lemma contents_nth r j : (j < N.to_nat (r_len r))%nat -> off (r_arr r) (r_begin r) j = nth j (contents r) 0.
Proof. intros H. unfold contents. now rewrite nth_map_seq. Qed.

Lemma head_contents r : ring_ok r -> 0 < r_len r -> exists l, contents r = head r :: l.
Proof.
  intros [Hb Hl] H0. unfold contents. destruct (N.to_nat (r_len r)) as [|n] eqn:E; [lia|].
  cbn [seq map]. eexists. f_equal. unfold off, head. rewrite N.add_0_r, N.mod_small by exact Hb. reflexivity.
Qed.

Lemma add_contents r : ring_ok r -> r_len r < Q ->
  let '(r', id) := add_id Q r in
  ring_ok r' /\ contents r' = contents r ++ [id] /\ r_len r' = r_len r + 1 /\
  id = match rev (contents r) with [] => 0 | x :: _ => (x + 1) mod 256 end.
Proof.
  intros [Hb Hl] Hlt. unfold add_id. set (id := if r_len r =? 0 then 0 else _).
  assert (E1 : (r_len r + 1) mod 256 = r_len r + 1) by (apply N.mod_small; lia). rewrite E1, mod256.
  assert (Ei : r_begin r + (r_len r + 1) - 1 = r_begin r + N.of_nat (N.to_nat (r_len r))) by lia. rewrite Ei.
  split; [split; cbn; lia|]. split; [|split; [reflexivity|]].
  - unfold contents. cbn [r_arr r_begin r_len]. replace (N.to_nat (r_len r + 1)) with (N.to_nat (r_len r) + 1)%nat by lia.
    rewrite seq_app, map_app. cbn [seq map Nat.add]. f_equal.
    + apply map_ext_in. intros j Hj. apply in_seq in Hj. rewrite off_upd by lia.
      destruct (Nat.eqb_spec j (N.to_nat (r_len r))); [lia|reflexivity].
    + rewrite off_upd by lia. now rewrite Nat.eqb_refl.
  - unfold id. destruct (N.eqb_spec (r_len r) 0) as [E|E].
    + unfold contents. rewrite E. reflexivity.
    + rewrite mod256. unfold contents. destruct (N.to_nat (r_len r)) as [|n] eqn:En; [lia|].
      replace (S n) with (n + 1)%nat by lia. rewrite seq_app, map_app, rev_app_distr. cbn [seq map rev app Nat.add].
      f_equal. f_equal. unfold off. f_equal. f_equal. lia.
Qed.

Lemma remove_contents r id l1 l2 : ring_ok r -> contents r = l1 ++ id :: l2 -> ~ In id l1 ->
  ring_ok (remove_id Q r id) /\ contents (remove_id Q r id) = l1 ++ l2 /\ r_len (remove_id Q r id) = r_len r - 1.
Proof.
  intros [Hb Hl] Hc Hn. pose proof (contents_len r) as Hlen. rewrite Hc, app_length in Hlen. cbn [length] in Hlen.
  unfold remove_id. destruct (remove_loop _ _ _ _ _ _ _) as [found fa] eqn:EL.
  assert (Ek : N.to_nat (r_len r) = (length l1 + S (length l2))%nat) by lia. rewrite Ek in EL.
  change 0 with (N.of_nat 0) in EL at 1. rewrite phase1 in EL.
  2:{ intros j Hj E. rewrite contents_nth in E by lia. rewrite Hc, app_nth1 in E by lia. apply Hn. rewrite <- E. apply nth_In. lia. }
  cbn [remove_loop negb N.eqb] in EL. rewrite mod256 in EL. fold (off (r_arr r) (r_begin r) (0 + length l1)%nat) in EL.
  assert (Eid : off (r_arr r) (r_begin r) (0 + length l1)%nat = id).
  { rewrite contents_nth by lia. rewrite Hc, app_nth2 by lia. replace (0 + length l1 - length l1)%nat with 0%nat by lia. reflexivity. }
  rewrite Eid, N.eqb_refl in EL. destruct l1 as [|x l1].
  - cbn [length Nat.add] in EL. change (N.of_nat 0) with 0 in EL. rewrite N.eqb_refl, phase_found1 in EL. injection EL as <- <-.
    cbn [N.eqb Pos.eqb]. rewrite mod256. split; [split; cbn [r_begin r_len]; [apply N.mod_lt; lia|lia]|]. split; [|reflexivity].
    cbn [app]. unfold contents in Hc |- *. cbn [r_arr r_begin r_len]. rewrite Ek in Hc. cbn [length Nat.add seq map app] in Hc.
    injection Hc as _ Hc. rewrite <- Hc. replace (N.to_nat (r_len r - 1)) with (length l2) by (cbn [length] in *; lia).
    rewrite <- seq_shift, map_map. apply map_ext. intros j. unfold off. f_equal.
    rewrite N.add_mod_idemp_l by lia. f_equal. lia.
  - set (k := length (x :: l1)) in *. assert (Hk : (0 < k)%nat) by (unfold k; cbn; lia).
    destruct (N.eqb_spec (N.of_nat (0 + k)) 0); [lia|].
    replace (N.of_nat (0 + k) + 1) with (N.of_nat (S k)) in EL by lia.
    destruct (phase2 (r_begin r) id (length l2) Hb (S k) (r_arr r)) as (a' & E & H); [lia|lia|]. rewrite E in EL. injection EL as <- <-.
    cbn [N.eqb Pos.eqb]. split; [split; cbn [r_begin r_len]; lia|]. split; [|reflexivity].
    apply nth_ext with (d := 0) (d' := 0).
    { rewrite contents_len. cbn [r_len]. rewrite app_length. fold k. lia. }
    intros j Hj. rewrite contents_len in Hj. cbn [r_len] in Hj. unfold contents. cbn [r_arr r_begin r_len].
    rewrite nth_map_seq by exact Hj. rewrite H by lia.
    destruct (Nat.leb_spec (S k - 1) j), (Nat.ltb_spec j (S k - 1 + length l2)); cbn [andb]; try lia.
    + rewrite contents_nth by lia. rewrite Hc, !app_nth2 by (fold k; lia). fold k. replace (j + 1 - k)%nat with (S (j - k)) by lia. reflexivity.
    + rewrite contents_nth by lia. rewrite Hc, !app_nth1 by (fold k; lia). reflexivity.
Qed.
End Queue.
