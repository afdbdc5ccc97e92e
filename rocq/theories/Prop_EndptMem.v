(** C297: adding a UNIX socket endpoint when memory is short. *)
From Coq Require Import Ascii String Arith ZArith Bool Lia List Permutation.
From Verif Require Import Bytes CStr EndptMem.
Import ListNotations.

(* ------------------------------------------------------------------ *)
(** ** Specification *)

Definition init : st := {| s_eps := []; s_endpts := Null; s_binds := Null; s_live := 0 |}.

(** Full statement: whatever memory does, no call accesses freed memory or NULL, and an addition that fails changes nothing. *)
Definition c297_full : Prop := forall l x,
  exists c s, run l init = Ret c s /\
  exists c' s', exec x s = Ret c' s' /\ (c' <> 0%Z -> s_eps s' = s_eps s).

(** All allocations succeed; listening may fail. *)
Definition enough (m : mem) : Prop :=
  m_endpts m = true /\ m_binds m = true /\ m_name m = true /\ m_bind m = true /\ m_opts m = true /\ m_addr m = true.
Definition enough_for (x : call) : Prop := match x with Add m _ _ => enough m | Del _ => True end.

(** An endpoint that is complete has four blocks: its name, the address of the bind, the options, their address. *)
Definition complete (e : ep) : Prop :=
  exists n p, e_name e = Some n /\ e_unix e = true /\ e_bind e = Some p /\ e_opts e = Some (Some p).

(** Complete endpoints with different names, arrays that are there if they are needed, and no other block. *)
Definition good (s : st) : Prop :=
  Forall complete (s_eps s) /\ NoDup (map e_name (s_eps s)) /\
  match s_eps s with
  | [] => s_endpts s = Null /\ s_binds s = Null /\ s_live s = 0%Z
  | _ => s_endpts s = Block /\ s_binds s = Block /\ s_live s = (4 * Z.of_nat (length (s_eps s)) + 2)%Z
  end.

(* ------------------------------------------------------------------ *)
(** ** Lemmas *)

Lemma streq_iff a b : streq a b = true <-> a = b.
Proof. apply beqb_spec. Qed.

Lemma find_good n : forall l i, Forall complete l ->
  (~ In (Some n) (map e_name l) /\ find i n l = Some None) \/
  exists k e, nth_error l k = Some e /\ e_name e = Some n /\ find i n l = Some (Some (i + k)).
Proof.
  induction l as [|e l IH]; intros i F; [left; split; [intros []|reflexivity]|].
  inversion F as [|? ? C F']; subst. destruct C as (m & p & N & _). cbn [find map]. rewrite N.
  destruct (streq n m) eqn:Q.
  - right. exists 0, e. rewrite Nat.add_0_r. split; [reflexivity|]. split; [|reflexivity]. apply streq_iff in Q. now subst.
  - destruct (IH (S i) F') as [[A B]|(k & e' & A & B & D)].
    + left. split; [|exact B]. intros [E|E]; [|contradiction]. injection E as ->. rewrite (proj2 (streq_iff n n) eq_refl) in Q. discriminate.
    + right. exists (S k), e'. split; [exact A|]. split; [exact B|]. rewrite D. f_equal. f_equal. lia.
Qed.

Lemma search_good n s : good s ->
  (~ In (Some n) (map e_name (s_eps s)) /\ search n s = Some None) \/
  exists k e, nth_error (s_eps s) k = Some e /\ e_name e = Some n /\ search n s = Some (Some k).
Proof.
  intros (F & _ & A). unfold search. pose proof (find_good n (s_eps s) 0 F) as G. destruct (s_eps s) as [|e l]; [left; split; [intros []|reflexivity]|].
  destruct A as (-> & _). exact G.
Qed.

Lemma removed {A} (l : list A) (z e d : A) i : nth_error (l ++ [z]) i = Some e ->
  Permutation (l ++ [z]) (e :: (if Nat.eqb i (length l) then l else firstn i l ++ [z] ++ skipn (S i) l)).
Proof.
  intros N. destruct (Nat.eqb_spec i (length l)) as [->|D].
  - rewrite nth_error_app2, Nat.sub_diag in N by lia. injection N as ->. symmetry. apply Permutation_cons_append.
  - assert (L : i < length l).
    { assert (nth_error (l ++ [z]) i <> None) by congruence. apply nth_error_Some in H. rewrite app_length in H. cbn in H. lia. }
    rewrite nth_error_app1 in N by exact L. apply nth_error_split in N. destruct N as (a & b & -> & <-).
    rewrite firstn_app, Nat.sub_diag, firstn_all. cbn [firstn]. rewrite app_nil_r.
    replace (skipn (S (length a)) (a ++ e :: b)) with b.
    2: { rewrite skipn_app. rewrite skipn_all2 by lia. replace (S (length a) - length a) with 1 by lia. reflexivity. }
    rewrite <- app_assoc. cbn [app]. symmetry. etransitivity; [apply (Permutation_middle a)|].
    apply Permutation_app_head. apply perm_skip. apply Permutation_cons_append.
Qed.

Lemma del_good i e s : good s -> nth_error (s_eps s) i = Some e ->
  exists s', del_at i s = Ret 0 s' /\ good s' /\ Permutation (s_eps s) (e :: s_eps s').
Proof.
  intros (F & N & A) H. pose proof (proj1 (Forall_forall _ _) F e (nth_error_In _ _ H)) as (n & p & E1 & E2 & E3 & E4).
  unfold del_at. rewrite H, E4, E1, E3. cbn [b2z].
  destruct (s_eps s) as [|a0 r] eqn:R; [destruct i; discriminate|]. destruct A as (-> & -> & L).
  rewrite <- R in *. assert (X : s_eps s <> []) by congruence. pose proof (app_removelast_last e X) as P. set (l := removelast (s_eps s)) in *. set (z := last (s_eps s) e) in *.
  rewrite P in H. pose proof (removed l z e e i H) as Q. rewrite <- P in Q.
  set (new := if i =? length l then l else firstn i l ++ [z] ++ skipn (S i) l) in *.
  assert (G : Forall complete new /\ NoDup (map e_name new) /\ length (s_eps s) = S (length new)).
  { split; [|split].
    - apply (Permutation_Forall Q) in F. now inversion F.
    - apply (Permutation_map e_name) in Q. apply (Permutation_NoDup Q) in N. now inversion N.
    - now apply Permutation_length in Q. }
  destruct G as (G1 & G2 & G3). destruct l as [|l0 l1] eqn:El.
  - eexists. split; [reflexivity|]. cbn in P. rewrite P in *. destruct i as [|i]; [|destruct i; discriminate]. cbn in H. injection H as H.
    split; [|cbn [s_eps]; rewrite H; reflexivity]. split; [constructor|]. split; [constructor|]. cbn [s_eps s_endpts s_binds s_live]. repeat split. rewrite L. cbn. reflexivity.
  - eexists. split; [reflexivity|]. cbn [s_eps]. fold new. split; [|exact Q]. split; [exact G1|]. split; [exact G2|]. cbn [s_eps s_endpts s_binds s_live]. fold new.
    assert (Y : length new <> 0).
    { intros Z. rewrite P, app_length in G3. cbn in G3. lia. }
    destruct new as [|n0 n1] eqn:En; [now contradiction Y|]. rewrite <- En in *. repeat split. rewrite L, G3. lia.
Qed.

Lemma add_good m n p s : good s -> enough m ->
  (In (Some n) (map e_name (s_eps s)) /\ add m n p s = Ret 1 s) \/
  (~ In (Some n) (map e_name (s_eps s)) /\
   exists s', add m n p s = Ret (if m_listen m then 0 else 1) s' /\ good s' /\
   s_eps s' = s_eps s ++ [{| e_name := Some n; e_unix := true; e_bind := Some p; e_opts := Some (Some p); e_sock := m_listen m |}]).
Proof.
  intros G (M1 & M2 & M3 & M4 & M5 & M6). unfold add. destruct (search_good n s G) as [[N ->]|(k & e & H & E & ->)].
  - right. split; [exact N|]. destruct G as (F & D & A). rewrite M1, M2, M3, M4, M5, M6. cbn [negb].
    assert (F' : Forall complete (s_eps s ++ [{| e_name := Some n; e_unix := true; e_bind := Some p; e_opts := Some (Some p); e_sock := m_listen m |}])).
    { apply Forall_app. split; [exact F|]. constructor; [|constructor]. exists n, p. repeat split. }
    assert (D' : NoDup (map e_name (s_eps s ++ [{| e_name := Some n; e_unix := true; e_bind := Some p; e_opts := Some (Some p); e_sock := m_listen m |}]))).
    { rewrite map_app. cbn [map e_name]. apply (Permutation_NoDup (Permutation_cons_append _ _)). now constructor. }
    destruct (s_eps s) as [|a l] eqn:R; destruct A as (-> & -> & L); cbn [grow]; eexists; (split; [reflexivity|]); (split; [|reflexivity]);
      (split; [exact F'|]); (split; [exact D'|]); cbn [s_eps s_endpts s_binds s_live app]; repeat split; rewrite L; [reflexivity|].
    cbn [length]. rewrite app_length. cbn [length]. lia.
  - left. split; [|reflexivity]. rewrite <- E. apply in_map. now apply nth_error_In in H.
Qed.

Lemma exec_good x s : good s -> enough_for x -> exists c s', exec x s = Ret c s' /\ good s'.
Proof.
  intros G M. destruct x as [m n p|n]; cbn [exec].
  - destruct (add_good m n p s G M) as [[_ ->]|(_ & s' & -> & G' & _)]; eauto.
  - unfold del. destruct (search_good n s G) as [[_ ->]|(k & e & H & E & ->)]; [eauto|]. rewrite H.
    destruct (e_unix e); [|eauto]. destruct (del_good k e s G H) as (s' & -> & G' & _). eauto.
Qed.

(* ------------------------------------------------------------------ *)
(** ** C297 *)

(** If memory suffices: no crash, complete endpoints with different names, and no blocks but theirs. *)
Theorem c297_partial l : Forall enough_for l -> exists c s, run l init = Ret c s /\ good s.
Proof.
  assert (I : good init) by (repeat split; constructor). revert I. generalize init.
  induction l as [|x l IH]; intros s I F; cbn [run]; [eauto|]. inversion F as [|? ? M F']; subst.
  destruct (exec_good x s I M) as (c & s' & -> & G). now apply IH.
Qed.

(** What was added can be deleted, after which the others are there. *)
Theorem c297_deleted n s : good s ->
  exists s', del n s = Ret 0 s' /\ good s' /\ ~ In (Some n) (map e_name (s_eps s')) /\
  forall e, e_name e <> Some n -> (In e (s_eps s') <-> In e (s_eps s)).
Proof.
  intros G. unfold del. destruct (search_good n s G) as [[N ->]|(k & e & H & E & ->)].
  - exists s. split; [reflexivity|]. split; [exact G|]. split; [exact N|]. reflexivity.
  - rewrite H. pose proof (proj1 (Forall_forall _ _) (proj1 G) e (nth_error_In _ _ H)) as (n' & p & _ & -> & _).
    destruct (del_good k e s G H) as (s' & -> & G' & Q). exists s'. split; [reflexivity|]. split; [exact G'|]. split.
    + pose proof (Permutation_map e_name Q) as Q'. destruct G as (_ & D & _). apply (Permutation_NoDup Q') in D. cbn [map] in D. rewrite E in D. now inversion D.
    + intros e' N. split; intros I.
      * apply (Permutation_in _ (Permutation_sym Q)). now right.
      * apply (Permutation_in _ Q) in I. destruct I as [->|I]; [contradiction|exact I].
Qed.

(** What was added is there, once, and listens if it could. *)
Theorem c297_added m n p s : good s -> enough m -> ~ In (Some n) (map e_name (s_eps s)) ->
  exists s', add m n p s = Ret (if m_listen m then 0 else 1) s' /\ good s' /\
  s_eps s' = s_eps s ++ [{| e_name := Some n; e_unix := true; e_bind := Some p; e_opts := Some (Some p); e_sock := m_listen m |}].
Proof. intros G M N. destruct (add_good m n p s G M) as [[I _]|(_ & R)]; [contradiction|exact R]. Qed.

(** The array of endpoints could not be enlarged: it is freed, and every further call reads it. *)
Theorem c297_endpts m n p s : good s -> s_eps s <> [] -> ~ In (Some n) (map e_name (s_eps s)) -> m_endpts m = false ->
  exists s', add m n p s = Ret 1 s' /\ forall x, exec x s' = Crash.
Proof.
  intros G E N M. unfold add. destruct (search_good n s G) as [[_ ->]|(k & e & H & Q & _)].
  2: { contradiction N. rewrite <- Q. apply in_map. now apply nth_error_In in H. }
  destruct G as (_ & _ & A). rewrite M. destruct (s_eps s) as [|a l] eqn:R; [congruence|]. destruct A as (-> & _). cbn [grow].
  eexists. split; [reflexivity|]. intros [m' n' p'|n']; reflexivity.
Qed.

(** The array of binds could not: endpoints can neither be added nor deleted any more. *)
Theorem c297_binds m n p s : good s -> s_eps s <> [] -> ~ In (Some n) (map e_name (s_eps s)) -> m_endpts m = true -> m_binds m = false ->
  exists s', add m n p s = Ret 1 s' /\ (forall m' n' p', m_endpts m' = true -> ~ In (Some n') (map e_name (s_eps s)) -> add m' n' p' s' = Crash) /\
             forall n', In (Some n') (map e_name (s_eps s)) -> del n' s' = Crash.
Proof.
  intros G E N M1 M2. unfold add at 1. destruct (search_good n s G) as [[_ ->]|(k & e & H & Q & _)].
  2: { contradiction N. rewrite <- Q. apply in_map. now apply nth_error_In in H. }
  pose proof G as (F & _ & A). rewrite M1, M2. destruct (s_eps s) as [|a l] eqn:R; [congruence|]. destruct A as (A1 & A2 & _). rewrite A1, A2. cbn [grow].
  eexists. split; [reflexivity|]. split.
  - intros m' n' p' M N'. unfold add, search. cbn [s_eps s_endpts s_binds]. destruct (find_good n' (a :: l) 0 F) as [[_ ->]|(k & e & H & Q & _)].
    + now rewrite M.
    + contradiction N'. rewrite <- Q. apply in_map. now apply nth_error_In in H.
  - intros n' I. unfold del, search. cbn [s_eps s_endpts]. destruct (find_good n' (a :: l) 0 F) as [[N' _]|(k & e & H & Q & ->)]; [contradiction|].
    cbn [Nat.add]. rewrite H. pose proof (proj1 (Forall_forall _ _) F e (nth_error_In _ _ H)) as (n0 & p0 & _ & -> & _).
    unfold del_at. cbn [s_eps s_binds]. rewrite H. reflexivity.
Qed.

Lemma find_none n : forall l i e, Forall complete l -> ~ In (Some n) (map e_name l) -> e_name e = None -> find i n (l ++ [e]) = None.
Proof.
  induction l as [|a l IH]; intros i e F N E; cbn [app find]; [now rewrite E|]. inversion F as [|? ? C F']; subst. destruct C as (m & q & A & _). rewrite A.
  destruct (streq n m) eqn:Q; [apply streq_iff in Q; subst; contradiction N; left; exact A|]. apply IH; [exact F'| |exact E]. intros I. apply N. now right.
Qed.

Lemma find_last n e : forall l i, Forall complete l -> ~ In (Some n) (map e_name l) -> e_name e = Some n -> find i n (l ++ [e]) = Some (Some (i + length l)).
Proof.
  induction l as [|a l IH]; intros i F N E; cbn [app find length].
  - rewrite E, (proj2 (streq_iff n n) eq_refl), Nat.add_0_r. reflexivity.
  - inversion F as [|? ? C F']; subst. destruct C as (m & q & A & _). rewrite A.
    destruct (streq n m) eqn:Q; [apply streq_iff in Q; subst; contradiction N; left; exact A|]. rewrite IH; [f_equal; f_equal; lia|exact F'| |exact E]. intros I. apply N. now right.
Qed.

(** The name could not be allocated: an endpoint without name stays, and the next search for a new name compares with NULL. *)
Theorem c297_name m n p s : good s -> ~ In (Some n) (map e_name (s_eps s)) -> m_endpts m = true -> m_binds m = true -> m_name m = false ->
  exists s', add m n p s = Ret 1 s' /\ forall n', ~ In (Some n') (map e_name (s_eps s)) -> del n' s' = Crash /\ forall m' p', add m' n' p' s' = Crash.
Proof.
  intros G N M1 M2 M3. unfold add at 1. destruct (search_good n s G) as [[_ ->]|(k & e & H & Q & _)].
  2: { contradiction N. rewrite <- Q. apply in_map. now apply nth_error_In in H. }
  pose proof G as (F & _ & A). rewrite M1, M2, M3. cbn [negb].
  set (e := {| e_name := None; e_unix := false; e_bind := None; e_opts := None; e_sock := false |}).
  assert (B : exists d d', grow true (s_endpts s) = Some (Block, true, d) /\ grow true (s_binds s) = Some (Block, true, d')).
  { destruct (s_eps s); destruct A as (-> & -> & _); cbn; eauto. }
  destruct B as (d & d' & -> & ->). eexists. split; [reflexivity|]. intros n' N'.
  assert (S0 : forall v, search n' {| s_eps := s_eps s ++ [e]; s_endpts := Block; s_binds := Block; s_live := v |} = None).
  { intros v. unfold search. cbn [s_eps s_endpts]. pose proof (find_none n' (s_eps s) 0 e F N' eq_refl) as Z. destruct (s_eps s ++ [e]) eqn:Y; [destruct (s_eps s); discriminate|exact Z]. }
  split; [unfold del|intros m' p'; unfold add]; now rewrite S0.
Qed.

(** The address of the bind or the options could not: the endpoint stays, and its deletion reads through NULL. *)
Theorem c297_opts m n p s : good s -> ~ In (Some n) (map e_name (s_eps s)) -> m_endpts m = true -> m_binds m = true -> m_name m = true ->
  m_bind m && m_opts m = false -> exists s', add m n p s = Ret 1 s' /\ del n s' = Crash.
Proof.
  intros G N M1 M2 M3 M4. unfold add. destruct (search_good n s G) as [[_ ->]|(k & e & H & Q & _)].
  2: { contradiction N. rewrite <- Q. apply in_map. now apply nth_error_In in H. }
  pose proof G as (F & _ & A). rewrite M1, M2, M3. cbn [negb].
  assert (B : exists d d', grow true (s_endpts s) = Some (Block, true, d) /\ grow true (s_binds s) = Some (Block, true, d')).
  { destruct (s_eps s); destruct A as (-> & -> & _); cbn; eauto. }
  destruct B as (d & d' & -> & ->).
  assert (C : forall e v, e_name e = Some n -> e_unix e = true -> e_opts e = None -> del n {| s_eps := s_eps s ++ [e]; s_endpts := Block; s_binds := Block; s_live := v |} = Crash).
  { intros e v E1 E2 E3. unfold del, search. cbn [s_eps s_endpts]. pose proof (find_last n e (s_eps s) 0 F N E1) as Z.
    assert (T : nth_error (s_eps s ++ [e]) (length (s_eps s)) = Some e) by (rewrite nth_error_app2, Nat.sub_diag by lia; reflexivity).
    destruct (s_eps s ++ [e]) eqn:Y; [destruct (s_eps s); discriminate|]. rewrite <- Y in *. rewrite Z. cbn [Nat.add]. rewrite T, E2. unfold del_at. cbn [s_eps s_binds]. rewrite T, E3. reflexivity. }
  destruct (m_bind m); cbn [andb negb] in *; [rewrite M4; cbn [negb]|]; (eexists; split; [reflexivity|apply C; reflexivity]).
Qed.

(** Only the address of the options: the endpoint stays as well, but can be deleted, after which all is as before. *)
Theorem c297_addr m n p s : good s -> ~ In (Some n) (map e_name (s_eps s)) -> m_endpts m = true -> m_binds m = true -> m_name m = true ->
  m_bind m = true -> m_opts m = true -> m_addr m = false ->
  exists s', add m n p s = Ret 1 s' /\ In (Some n) (map e_name (s_eps s')) /\ del n s' = Ret 0 s.
Proof.
  intros G N M1 M2 M3 M4 M5 M6. unfold add. destruct (search_good n s G) as [[_ ->]|(k & e & H & Q & _)].
  2: { contradiction N. rewrite <- Q. apply in_map. now apply nth_error_In in H. }
  pose proof G as (F & _ & A). rewrite M1, M2, M3, M4, M5, M6. cbn [negb].
  set (e := {| e_name := Some n; e_unix := true; e_bind := Some p; e_opts := Some None; e_sock := false |}).
  assert (C : forall v, del n {| s_eps := s_eps s ++ [e]; s_endpts := Block; s_binds := Block; s_live := v |} =
    match s_eps s with [] => Ret 0 {| s_eps := []; s_endpts := Null; s_binds := Null; s_live := v - 5 |}
    | _ => Ret 0 {| s_eps := s_eps s; s_endpts := Block; s_binds := Block; s_live := v - 3 |} end).
  { intros v. unfold del, search. cbn [s_eps s_endpts]. pose proof (find_last n e (s_eps s) 0 F N eq_refl) as Z.
    assert (T : nth_error (s_eps s ++ [e]) (length (s_eps s)) = Some e) by (rewrite nth_error_app2, Nat.sub_diag by lia; reflexivity).
    destruct (s_eps s ++ [e]) eqn:Y; [destruct (s_eps s); discriminate|]. rewrite <- Y in *. rewrite Z. cbn [Nat.add]. rewrite T. cbn [e_unix e].
    unfold del_at. cbn [s_eps s_binds]. rewrite T. cbn [e_opts e e_name e_bind b2z s_live s_endpts]. rewrite Y, <- Y, removelast_last. rewrite Nat.eqb_refl.
    destruct (s_eps s); f_equal; f_equal; lia. }
  destruct s as [l ea ba lv]. cbn [s_eps s_endpts s_binds s_live] in *.
  destruct l as [|a l]; destruct A as (-> & -> & L); cbn [grow]; (eexists; split; [reflexivity|]); (split; [cbn [s_eps]; rewrite map_app; apply in_or_app; right; left; reflexivity|]);
    rewrite C; f_equal; f_equal; lia.
Qed.

(** A name that could not be allocated. *)
Theorem c297_refuted : ~ c297_full.
Proof.
  intros F. destruct (F [Add {| m_endpts := true; m_binds := true; m_name := false; m_bind := true; m_opts := true; m_addr := true; m_listen := true |} (bs "a") (bs "/a")] (Del (bs "b")))
    as (c & s & R & c' & s' & X & _). injection R as <- <-. discriminate.
Qed.

(** Two endpoints, one removed, and a third of which the socket is not there. *)
Definition fine (b : bool) : mem := {| m_endpts := true; m_binds := true; m_name := true; m_bind := true; m_opts := true; m_addr := true; m_listen := b |}.
Example c297_case :
  let l := [Add (fine true) (bs "a") (bs "/a"); Add (fine true) (bs "b") (bs "/b"); Del (bs "a"); Add (fine false) (bs "c") (bs "/c"); Add (fine true) (bs "b") (bs "/d")] in
  Forall enough_for l /\ exists s, run l init = Ret 0 s /\ map e_name (s_eps s) = [Some (bs "b"); Some (bs "c")] /\ s_live s = 10%Z.
Proof.
  cbv zeta. split; [repeat constructor|]. eexists. vm_compute. split; [reflexivity|]. split; reflexivity.
Qed.

Print Assumptions c297_partial.
Print Assumptions c297_deleted.
Print Assumptions c297_added.
Print Assumptions c297_endpts.
Print Assumptions c297_binds.
Print Assumptions c297_name.
Print Assumptions c297_opts.
Print Assumptions c297_addr.
Print Assumptions c297_refuted.
