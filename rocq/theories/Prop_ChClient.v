(** Call Home of a client: C234-C237. *)
From Coq Require Import Ascii String ZArith NArith Bool List Arith Lia Permutation.
From Verif Require Import Bytes ChClient.
From Verif Require Accept Prop_Accept.
Import ListNotations.
Local Open Scope list_scope.

(* ------------------------------------------------------------------ *)
(** ** Specification *)

Definition obj_dec (a b : obj) : {a = b} + {a <> b}.
Proof. decide equality; apply Nat.eq_dec. Defined.
(** What is there after what happened (the last first). *)
Fixpoint remove1 (o : obj) (l : list obj) : list obj := match l with [] => [] | x :: l => if obj_dec o x then l else x :: remove1 o l end.
Fixpoint live (l : list ev) : list obj := match l with [] => [] | New o :: l => o :: live l | Free o :: l => remove1 o (live l) end.
(** Nothing is released that is not there. *)
Fixpoint sane (l : list ev) : Prop := match l with [] => True | New _ :: l => sane l | Free o :: l => In o (live l) /\ sane l end.

(** What the application asked for at listening socket [fd]: the transport and the host name of the last call that was given it by the system. *)
Fixpoint asked_for (l : list event) (fd : nat) : option (N * option bytes) :=
  match l with
  | [] => None
  | Add (Some _) p h t (Some fd') true true :: l => if (p =? 0)%N then asked_for l fd else if Nat.eqb fd fd' then Some (t, h) else asked_for l fd
  | _ :: l => asked_for l fd
  end.

(** The histories, the last event first.  A socket the system gives is none that is open; [mem]: what is assumed of the memory. *)
Definition from_system (s : st) (e : event) : Prop := match e with Add _ _ _ _ (Some fd) _ _ => ~ In (Sock fd) (live (log s)) | _ => True end.
Definition memory (e : event) : Prop := match e with Add _ _ _ _ _ m1 m2 => m1 = true /\ m2 = true | _ => True end.
Inductive reach (mem : event -> Prop) : list event -> list handed -> st -> Prop :=
| RStart : reach mem [] [] st0
| RStep l hs s e s' h : reach mem l hs s -> from_system s e -> mem e -> step s e = Ok (s', h) ->
    reach mem (e :: l) (match h with Some x => x :: hs | None => hs end) s'.

(** What the client options own. *)
Definition pairs := list (cbind * caux).
Definition host_obj (x : caux) : list obj := match x_host x with Some (id, _) => [Host id] | None => [] end.
Definition entry_objs (z : cbind * caux) : list obj := Sock (b_sock (fst z)) :: Addr (b_addr (fst z)) :: host_obj (snd z).
Definition owned (zs : pairs) : list obj := match zs with [] => [] | _ => [ArrBinds; ArrAux] end ++ flat_map entry_objs zs.
Definition entries (s : st) (zs : pairs) : Prop :=
  count s = length zs /\ (zs = [] -> binds s = None /\ aux s = None)
  /\ (zs <> [] -> exists jb jx, binds s = Some (map (fun z => Some (fst z)) zs ++ jb) /\ aux s = Some (map (fun z => Some (snd z)) zs ++ jx)).

(* ------------------------------------------------------------------ *)
(** ** Lemmas: what is there *)

Lemma remove1_perm o l r : Permutation l (o :: r) -> Permutation (remove1 o l) r.
Proof.
  revert r. induction l as [|x l IH]; intros r H; [apply Permutation_nil in H; discriminate|]. cbn. destruct (obj_dec o x) as [->|Hne].
  - now apply Permutation_cons_inv in H.
  - assert (Hin : In x r). { assert (In x (o :: r)) as [E|E] by (apply (Permutation_in _ H); now left); [congruence|exact E]. }
    apply in_split in Hin as (a & b & ->). rewrite <- Permutation_middle. constructor. apply IH.
    apply Permutation_cons_inv with (a := x). rewrite H, <- Permutation_middle. now rewrite perm_swap.
Qed.

Definition has (lg : list ev) (objs : list obj) : Prop := Permutation (live lg) objs /\ sane lg.
Lemma has_new lg o objs : has lg objs -> has (New o :: lg) (o :: objs).
Proof. intros [H1 H2]. split; [cbn; now constructor|exact H2]. Qed.
Lemma has_free lg o objs : has lg (o :: objs) -> has (Free o :: lg) objs.
Proof. intros [H1 H2]. split; [now apply remove1_perm|]. split; [apply (Permutation_in _ (Permutation_sym H1)); now left|exact H2]. Qed.
Lemma has_perm lg a b : Permutation a b -> has lg a -> has lg b.
Proof. intros H [H1 H2]. split; [now rewrite H1|exact H2]. Qed.

(* ------------------------------------------------------------------ *)
(** ** Lemmas: the arrays *)

Lemma at_entries s zs i z : entries s zs -> nth_error zs i = Some z -> at_ (binds s) i = Ok (fst z) /\ at_ (aux s) i = Ok (snd z).
Proof.
  intros (Hc & H0 & H1) Hz. assert (Hne : zs <> []) by (intros ->; now destruct i). destruct (H1 Hne) as (jb & jx & Eb & Ex). rewrite Eb, Ex. unfold at_.
  assert (Hi : i < length zs) by (apply nth_error_Some; congruence).
  rewrite !nth_error_app1 by now rewrite map_length. rewrite !nth_error_map, Hz. auto.
Qed.

Lemma put_app1 {A} (a b : list A) i x : i < length a -> put (a ++ b) i x = put a i x ++ b.
Proof. revert i. induction a as [|y a IH]; intros [|i] H; cbn in *; try lia; [reflexivity|]. now rewrite IH by lia. Qed.
Lemma put_mid {A} (a b : list A) x y : put (a ++ y :: b) (length a) x = a ++ x :: b.
Proof. induction a as [|z a IH]; cbn; [reflexivity|]. now rewrite IH. Qed.

Lemma snoc_cases {A} (l : list A) : l = [] \/ exists a x, l = a ++ [x].
Proof. destruct l as [|y l]; [now left|right]. destruct (@exists_last _ (y :: l)) as (a & x & E); [discriminate|eauto]. Qed.

(** Entries once the last is copied over that at [length p]. *)
Lemma entries_moved s p z mid w n q lg : entries s (p ++ z :: mid ++ [w]) ->
  entries {| binds := option_map (fun l => put l (length p) (Some (fst w))) (binds s); aux := option_map (fun l => put l (length p) (Some (snd w))) (aux s);
             count := length (p ++ w :: mid); next := n; log := lg; queue := q |} (p ++ w :: mid).
Proof.
  intros (Hc & H0 & H1). destruct (H1 ltac:(destruct p; discriminate)) as (jb & jx & Eb & Ex). rewrite Eb, Ex. cbn [option_map].
  split; [reflexivity|]. split; [intros E; destruct p; discriminate|]. intros _. cbn [binds aux].
  exists (Some (fst w) :: jb), (Some (snd w) :: jx).
  split; f_equal; repeat (rewrite map_app || cbn [map]); repeat rewrite <- app_assoc; cbn [app]; repeat rewrite <- app_assoc; cbn [app];
  match goal with |- put (?a ++ _) _ _ = _ => replace (length p) with (length a) by apply map_length end; apply put_mid.
Qed.
Lemma entries_last s p z n q lg : p <> [] -> entries s (p ++ [z]) ->
  entries {| binds := binds s; aux := aux s; count := length p; next := n; log := lg; queue := q |} p.
Proof.
  intros Hp (Hc & H0 & H1). destruct (H1 ltac:(destruct p; discriminate)) as (jb & jx & Eb & Ex).
  split; [reflexivity|]. split; [congruence|]. intros _. cbn [binds aux]. rewrite Eb, Ex. exists (Some (fst z) :: jb), (Some (snd z) :: jx).
  split; f_equal; rewrite map_app, <- app_assoc; reflexivity.
Qed.
Lemma entries_ext s s' zs : binds s = binds s' -> aux s = aux s' -> count s = count s' -> entries s zs -> entries s' zs.
Proof. unfold entries. intros <- <- <-. auto. Qed.

(** The removal. *)
Ltac pc := apply (proj2 (Permutation_count_occ obj_dec _ _)); let o := fresh "o" in intros o;
  repeat (rewrite count_occ_app || cbn [count_occ app map flat_map]); repeat match goal with |- context [if ?d then _ else _] => destruct d end; lia.
Definition no_host (z : cbind * caux) : Prop := x_host (snd z) = None.
Lemma owned_cons z zs : zs <> [] -> Permutation (owned (z :: zs)) (entry_objs z ++ owned zs).
Proof. intros H. unfold owned. destruct zs; [congruence|]. cbn [flat_map]. pc. Qed.
Lemma owned_perm a b : Permutation a b -> Permutation (owned a) (owned b).
Proof.
  intros H. unfold owned. apply Permutation_app; [|now apply Permutation_flat_map].
  destruct a; destruct b; auto; [apply Permutation_nil_cons in H as []|symmetry in H; apply Permutation_nil_cons in H as []].
Qed.

Lemma del_loop_inv m cs : forall fuel p r ret s lost, entries s (p ++ r) -> has (log s) (owned (p ++ r) ++ map Host lost ++ cs) -> length r <= fuel ->
  exists ret' s' zs' gone lost', del_loop fuel (length p) m ret s = Ok (ret', s') /\ entries s' zs' /\ has (log s') (owned zs' ++ map Host lost' ++ cs)
    /\ Permutation (p ++ r) (zs' ++ gone) /\ (Forall no_host (p ++ r) -> lost' = lost) /\ next s' = next s /\ queue s' = queue s.
Proof.
  induction fuel as [|fuel IH]; intros p r ret s lost He Hh Hf.
  { destruct r; [|cbn in Hf; lia]. exists ret, s, p, [], lost. rewrite app_nil_r in *. auto 10. }
  cbn [del_loop]. pose proof (proj1 He) as Hc. rewrite app_length in Hc. destruct r as [|z r].
  { replace (count s <=? length p) with true by (symmetry; apply Nat.leb_le; cbn in Hc; lia).
    exists ret, s, p, [], lost. rewrite app_nil_r in *. auto 10. }
  replace (count s <=? length p) with false by (symmetry; apply Nat.leb_gt; cbn in Hc; lia).
  assert (Hz : nth_error (p ++ z :: r) (length p) = Some z) by (rewrite nth_error_app2, Nat.sub_diag by lia; reflexivity).
  destruct (at_entries s _ _ _ He Hz) as [-> ->]. cbv zeta. destruct (m (fst z) (snd z)).
  - cbn [length] in Hc, Hf.
    (* what is freed *)
    assert (Fr : forall rest, rest <> [] -> Permutation (p ++ z :: r) (z :: rest) ->
      has (Free (Addr (b_addr (fst z))) :: Free (Sock (b_sock (fst z))) :: log s)
          (owned rest ++ map Host (match x_host (snd z) with Some (id, _) => id :: lost | None => lost end) ++ cs)).
    { intros rest Hne Hp. apply has_free, has_free. refine (has_perm _ _ _ _ Hh). rewrite (owned_perm _ _ Hp), (owned_cons z rest Hne).
      unfold entry_objs, host_obj. destruct (x_host (snd z)) as [[id h]|]; cbn [app map]; [|reflexivity].
      do 2 constructor. rewrite Permutation_middle. reflexivity. }
    assert (Nl : Forall no_host (p ++ z :: r) -> match x_host (snd z) with Some (id, _) => id :: lost | None => lost end = lost).
    { intros Hn. apply Forall_app in Hn as [_ Hn]. apply Forall_cons_iff in Hn as [Hn _]. now rewrite Hn. }
    destruct (snoc_cases r) as [->|(mid & w & ->)].
    + destruct p as [|y p].
      * cbn in Hc. rewrite Hc. cbn [Nat.sub Nat.eqb].
        eexists _, _, [], [z], (match x_host (snd z) with Some (id, _) => id :: lost | None => lost end).
        split; [reflexivity|]. split; [split; [reflexivity|split; [auto|congruence]]|]. split; [|auto 10].
        cbn [log owned flat_map app]. apply has_free, has_free, has_free, has_free. refine (has_perm _ _ _ _ Hh).
        unfold owned, entry_objs, host_obj. cbn [flat_map app]. rewrite app_nil_r.
        destruct (x_host (snd z)) as [[id h]|]; pc.
      * replace (count s - 1) with (length (y :: p)) by (cbn [length] in *; lia). replace (length (y :: p) =? 0) with false by reflexivity. rewrite Nat.ltb_irrefl.
        destruct (IH (y :: p) [] 0%Z {| binds := binds s; aux := aux s; count := length (y :: p); next := next s;
           log := Free (Addr (b_addr (fst z))) :: Free (Sock (b_sock (fst z))) :: log s; queue := queue s |}
           (match x_host (snd z) with Some (id, _) => id :: lost | None => lost end)) as (ret' & s' & zs' & gone & lost' & E & H1 & H2 & H3 & H4 & H5 & H6).
        { rewrite app_nil_r. apply entries_last with (z := z); [discriminate|exact He]. }
        { rewrite app_nil_r. apply Fr; [discriminate|]. symmetry. apply Permutation_cons_append. }
        { cbn. lia. }
        exists ret', s', zs', (z :: gone), lost'. split; [|split; [exact H1|split; [exact H2|split; [|split; [|auto]]]]].
        { destruct fuel; [cbn [del_loop] in *; exact E|]. cbn [del_loop] in *. cbn [count] in *.
          replace (length (y :: p) <=? length (y :: p)) with true in E by (symmetry; apply Nat.leb_refl).
          replace (length (y :: p) <=? S (length (y :: p))) with true by (symmetry; apply Nat.leb_le; lia). exact E. }
        { rewrite app_nil_r in H3. rewrite H3. rewrite <- app_assoc. apply Permutation_app_head. symmetry. apply Permutation_cons_append. }
        { intros Hn. rewrite <- (Nl Hn). apply H4. rewrite app_nil_r. now apply Forall_app in Hn as [Hn _]. }
    + assert (En : count s - 1 = length (p ++ w :: mid)) by (rewrite !app_length in *; cbn [length] in *; rewrite ?app_length in *; cbn [length] in *; lia).
      rewrite En. replace (length (p ++ w :: mid) =? 0) with false by (symmetry; apply Nat.eqb_neq; rewrite app_length; cbn; lia).
      replace (length p <? length (p ++ w :: mid)) with true by (symmetry; apply Nat.ltb_lt; rewrite app_length; cbn; lia).
      assert (Hw : nth_error (p ++ z :: mid ++ [w]) (length (p ++ w :: mid)) = Some w).
      { rewrite nth_error_app2 by (rewrite app_length; lia). rewrite app_length. cbn [length]. replace (length p + S (length mid) - length p) with (S (length mid)) by lia.
        cbn [nth_error]. rewrite nth_error_app2, Nat.sub_diag by lia. reflexivity. }
      destruct (at_entries s _ _ _ He Hw) as [-> ->].
      pose proof (entries_moved s p z mid w (next s) (queue s) (Free (Addr (b_addr (fst z))) :: Free (Sock (b_sock (fst z))) :: log s) He) as Hm.
      assert (Hp : Permutation (p ++ z :: mid ++ [w]) (z :: p ++ w :: mid)).
      { rewrite <- Permutation_middle. constructor. apply Permutation_app_head. symmetry. apply Permutation_cons_append. }
      destruct (IH (p ++ [w]) mid 0%Z _ (match x_host (snd z) with Some (id, _) => id :: lost | None => lost end)
        ltac:(rewrite <- app_assoc; exact Hm)) as (ret' & s' & zs' & gone & lost' & E & H1 & H2 & H3 & H4 & H5 & H6).
      { rewrite <- app_assoc. cbn [log]. apply Fr; [destruct p; discriminate|exact Hp]. }
      { rewrite app_length in Hf. cbn in Hf. lia. }
      rewrite app_length, Nat.add_1_r in E. rewrite <- app_assoc in H3. cbn [app] in H3.
      exists ret', s', zs', (z :: gone), lost'. split; [exact E|]. split; [exact H1|]. split; [exact H2|]. split; [|split; [|auto]].
      { rewrite Hp, H3. apply Permutation_middle. }
      { intros Hn. rewrite <- (Nl Hn). apply H4. rewrite <- app_assoc. cbn [app]. apply (Permutation_Forall Hp) in Hn. now apply Forall_cons_iff in Hn as [_ Hn]. }
  - destruct (IH (p ++ [z]) r ret s lost) as (ret' & s' & zs' & gone & lost' & E & H1 & H2 & H3 & H4 & H5 & H6).
    + now rewrite <- app_assoc.
    + now rewrite <- app_assoc.
    + cbn in Hf. lia.
    + rewrite app_length, Nat.add_1_r in E. rewrite <- app_assoc in H3, H4. exists ret', s', zs', gone, lost'. auto 10.
Qed.

Lemma free_all_has s rest : forall r p lg, entries s (p ++ r) -> has lg (flat_map entry_objs r ++ rest) ->
  exists l, free_all (length r) (length p) s = Ok l /\ has (l ++ lg) rest.
Proof.
  induction r as [|z r IH]; intros p lg He Hh; cbn [length free_all]; [exists []; auto|].
  assert (Hz : nth_error (p ++ z :: r) (length p) = Some z) by (rewrite nth_error_app2, Nat.sub_diag by lia; reflexivity).
  destruct (at_entries s _ _ _ He Hz) as [-> ->].
  assert (Hg : has (free_host (snd z) ++ [Free (Addr (b_addr (fst z))); Free (Sock (b_sock (fst z)))] ++ lg) (flat_map entry_objs r ++ rest)).
  { cbn [flat_map] in Hh. unfold entry_objs at 1 in Hh. unfold host_obj, free_host in *. destruct (x_host (snd z)) as [[id h]|]; cbn [app] in *; repeat apply has_free; exact Hh. }
  destruct (IH (p ++ [z]) _ ltac:(rewrite <- app_assoc; exact He) Hg) as (l & E & Hl). rewrite app_length, Nat.add_1_r in E. rewrite E.
  eexists. split; [reflexivity|]. repeat rewrite <- app_assoc. exact Hl.
Qed.

Lemma del_inv a port ti s zs lost cs : entries s zs -> has (log s) (owned zs ++ map Host lost ++ cs) ->
  exists ret s' zs' gone lost', del a port ti s = Ok (ret, s') /\ entries s' zs' /\ has (log s') (owned zs' ++ map Host lost' ++ cs)
    /\ Permutation zs (zs' ++ gone) /\ (Forall no_host zs \/ a = None /\ port = 0%N /\ ti = 0%N -> lost' = lost) /\ next s' = next s /\ queue s' = queue s.
Proof.
  intros He Hh. unfold del.
  assert (L : exists ret s' zs' gone lost', del_loop (count s) 0 (asked a port ti) (-1)%Z s = Ok (ret, s') /\ entries s' zs'
    /\ has (log s') (owned zs' ++ map Host lost' ++ cs) /\ Permutation zs (zs' ++ gone) /\ (Forall no_host zs -> lost' = lost) /\ next s' = next s /\ queue s' = queue s).
  { apply (del_loop_inv (asked a port ti) cs (count s) [] zs (-1)%Z s lost He Hh). rewrite (proj1 He). lia. }
  destruct a as [a|].
  { destruct L as (ret & s' & zs' & gone & lost' & E & H1 & H2 & H3 & H4 & H5). exists ret, s', zs', gone, lost'. refine (conj E (conj H1 (conj H2 (conj H3 (conj _ H5))))).
    intros [H|(H & _)]; [auto|discriminate]. }
  destruct ((port =? 0)%N && (ti =? 0)%N) eqn:Ea.
  2:{ destruct L as (ret & s' & zs' & gone & lost' & E & H1 & H2 & H3 & H4 & H5). exists ret, s', zs', gone, lost'. refine (conj E (conj H1 (conj H2 (conj H3 (conj _ H5))))).
      intros [H|(_ & -> & ->)]; [auto|discriminate]. }
  clear L. assert (Hf : has (log s) (flat_map entry_objs zs ++ (match zs with [] => [] | _ => [ArrBinds; ArrAux] end ++ map Host lost ++ cs))).
  { refine (has_perm _ _ _ _ Hh). unfold owned. destruct zs; pc. }
  destruct (free_all_has s _ zs [] (log s) He Hf) as (l & E & Hl). rewrite (proj1 He). cbn [length] in E. rewrite E.
  eexists _, _, [], zs, lost. split; [reflexivity|]. split; [split; [reflexivity|split; [auto|congruence]]|]. cbn [log next queue app owned].
  split; [|auto]. destruct He as (Hc & H0 & H1). destruct zs as [|z zs].
  - destruct (H0 eq_refl) as [-> ->]. exact Hl.
  - destruct (H1 ltac:(discriminate)) as (jb & jx & -> & ->). cbn [free_arr app]. apply has_free, has_free. refine (has_perm _ _ _ _ Hl). pc.
Qed.

Lemma resize_put {A} (a j : list (option A)) x : put (resize (S (length a)) (Some (a ++ j))) (length a) x = a ++ [x].
Proof.
  unfold resize. rewrite firstn_app, firstn_all2 by lia. replace (S (length a) - length a) with 1 by lia. rewrite app_length. destruct j as [|y j].
  - replace (S (length a) - (length a + length (@nil (option A)))) with 1 by (cbn [length]; lia). rewrite app_nil_r. cbn [firstn repeat]. rewrite ?app_nil_r. apply put_mid.
  - replace (S (length a) - (length a + length (y :: j))) with 0 by (cbn [length]; lia). cbn [firstn repeat]. rewrite app_nil_r. apply put_mid.
Qed.

(** A successful call. *)
Lemma add_inv a p h t fd s zs rest : (p =? 0)%N = false -> entries s zs -> has (log s) (owned zs ++ rest) ->
  exists s' z, add (Some a) p h t (Some fd) true true s = (0%Z, s') /\ entries s' (zs ++ [z]) /\ has (log s') (owned (zs ++ [z]) ++ rest)
    /\ b_sock (fst z) = fd /\ b_pollin (fst z) = false /\ x_ti (snd z) = t /\ option_map snd (x_host (snd z)) = h /\ queue s' = Accept.setq (queue s) fd [].
Proof.
  intros Hp He Hh. unfold add. rewrite Hp. cbn [negb]. cbv zeta.
  set (b := mkB (next s) a p fd false). set (x := mkX t _). eexists _, (b, x). split; [reflexivity|].
  destruct He as (Hc & H0 & H1). split; [|split].
  - split; [cbn; rewrite app_length; cbn; lia|]. split; [intros E; destruct zs; discriminate|]. intros _. cbn [binds aux]. exists [], []. rewrite !app_nil_r, !map_app. cbn [map fst snd].
    destruct zs as [|z zs].
    + destruct (H0 eq_refl) as [-> ->]. rewrite Hc. auto.
    + destruct (H1 ltac:(discriminate)) as (jb & jx & -> & ->). rewrite Hc. split; f_equal.
      * rewrite <- (map_length (fun z => Some (fst z)) (z :: zs)). apply resize_put.
      * rewrite <- (map_length (fun z => Some (snd z)) (z :: zs)). apply resize_put.
  - cbn [log]. 
    assert (Hr : has (realloc_ev ArrAux true (aux s) ++ realloc_ev ArrBinds true (binds s) ++ New (Sock fd) :: log s) (Sock fd :: [ArrBinds; ArrAux] ++ flat_map entry_objs zs ++ rest)).
    { destruct zs as [|z zs].
      - destruct (H0 eq_refl) as [-> ->]. cbn [realloc_ev app]. refine (has_perm _ _ _ _ (has_new _ ArrAux _ (has_new _ ArrBinds _ (has_new _ (Sock fd) _ Hh)))). unfold owned. pc.
      - destruct (H1 ltac:(discriminate)) as (jb & jx & -> & ->). cbn [realloc_ev app]. exact (has_new _ (Sock fd) _ Hh). }
    assert (Ho : Permutation (owned (zs ++ [(b, x)])) ([ArrBinds; ArrAux] ++ flat_map entry_objs zs ++ Sock fd :: Addr (next s) :: host_obj x)).
    { unfold owned. rewrite flat_map_app. cbn [flat_map]. rewrite app_nil_r. destruct zs; reflexivity. }
    unfold host_obj in Ho. subst x. destruct h as [h|]; cbn [x_host] in Ho.
    + refine (has_perm _ _ _ _ (has_new _ (Addr (next s)) _ (has_new _ (Host (S (next s))) _ Hr))). rewrite Ho. pc.
    + refine (has_perm _ _ _ _ (has_new _ (Addr (next s)) _ Hr)). rewrite Ho. pc.
  - cbn. repeat split. now destruct h.
Qed.

(** The arrays as nc_sock_accept_binds() sees them. *)
Lemma slots_map {A} (l : list A) j : slots (length l) (map Some l ++ j) = Some l.
Proof. induction l as [|x l IH]; cbn [length map app slots]; [reflexivity|]. now rewrite IH. Qed.

Definition same (b b' : cbind) : Prop := b_addr b' = b_addr b /\ b_text b' = b_text b /\ b_port b' = b_port b /\ b_sock b' = b_sock b.
Lemma set_pollin_spec : forall bl jb k, map Accept.k_sock k = map (fun b => Some (b_sock b)) bl ->
  exists bl', set_pollin (map Some bl ++ jb) k = map Some bl' ++ jb /\ Forall2 same bl bl' /\ map listen_of bl' = k.
Proof.
  induction bl as [|b bl IH]; intros jb k Hk; destruct k as [|w k]; try discriminate.
  - exists []. cbn [map app]. split; [destruct jb as [|[j|] jb]; reflexivity|]. split; [constructor|reflexivity].
  - cbn [map] in Hk. injection Hk as Hw Hk. destruct (IH jb k Hk) as (bl' & E & H1 & H2). cbn [map app set_pollin]. rewrite E.
    eexists (_ :: bl'). split; [reflexivity|]. split; [constructor; [repeat split|exact H1]|]. cbn [map]. rewrite H2. f_equal. destruct w as [ws wp]. cbn in *. unfold listen_of. cbn. now rewrite Hw.
Qed.

Lemma call_socks w w' o : Prop_Accept.good w -> Accept.call w = (w', o) -> map Accept.k_sock (Accept.w_binds w') = map Accept.k_sock (Accept.w_binds w).
Proof.
  intros G H. destruct (Prop_Accept.call_spec w G) as [[A _]|(p & b & fd & c & q & s & E & Hs & Hq & [(R & Hn & A)|(Hn & He & A)])]; rewrite A in H; injection H as <- <-; [reflexivity|..];
  cbn [Accept.w_binds]; rewrite E, !map_app; cbn [map].
  - now rewrite Hs.
  - f_equal. rewrite map_map. apply map_ext. intros x. apply Prop_Accept.mark_sock.
Qed.
Lemma call_queue w w' o f c : Prop_Accept.good w -> Accept.call w = (w', o) -> In c (Accept.w_queue w' f) -> In c (Accept.w_queue w f).
Proof.
  intros G H. destruct (Prop_Accept.call_spec w G) as [[A _]|(p & b & fd & c0 & q & s & E & Hs & Hq & [(R & Hn & A)|(Hn & He & A)])]; rewrite A in H; injection H as <- <-; [auto|..];
  cbn [Accept.w_queue]; unfold Accept.setq; (destruct (Nat.eqb_spec f fd) as [->|]; [rewrite Hq; now right|auto]).
Qed.

(* ------------------------------------------------------------------ *)
(** ** The invariant *)

(** No host name was given, or binds are only removed all at once. *)
Definition no_hosts (l : list event) : Prop := forall a p h t k m1 m2, In (Add a p (Some h) t k m1 m2) l -> False.
Definition only_all (l : list event) : Prop := forall a p t, In (Del a p t) l -> a = None /\ p = 0%N /\ t = 0%N.

Definition inv (l : list event) (hs : list handed) (s : st) (zs : pairs) (lost : list nat) : Prop :=
  entries s zs /\ has (log s) (owned zs ++ map Host lost ++ map (fun h => Conn (h_conn h)) hs)
  /\ NoDup (map (fun z => b_sock (fst z)) zs)
  /\ (forall z, In z zs -> asked_for l (b_sock (fst z)) = Some (x_ti (snd z), option_map snd (x_host (snd z))))
  /\ (forall z, In z zs -> b_pollin (fst z) = true -> queue s (b_sock (fst z)) <> [])
  /\ (forall fd c, In c (queue s fd) -> In (Arrive fd c) l)
  /\ (no_hosts l -> Forall no_host zs) /\ (no_hosts l \/ only_all l -> lost = []).

Lemma nodup_app_l {A} (a b : list A) : NoDup (a ++ b) -> NoDup a.
Proof. induction a as [|x a IH]; intros H; [constructor|]. inversion H as [|? ? H1 H2]; subst. constructor; [|auto]. intros Hx. apply H1, in_or_app. now left. Qed.
Lemma nodup_snoc {A} (a : list A) x : NoDup a -> ~ In x a -> NoDup (a ++ [x]).
Proof. intros H1 H2. apply (Permutation_NoDup (l := x :: a)); [apply Permutation_cons_append|]. now constructor. Qed.

Lemma in_owned z zs : In z zs -> In (Sock (b_sock (fst z))) (owned zs).
Proof. intros H. unfold owned. apply in_or_app. right. apply in_flat_map. exists z. split; [exact H|now left]. Qed.

Lemma world_good l hs s zs lost : inv l hs s zs lost ->
  Prop_Accept.good (Accept.mkW (map listen_of (map fst zs)) (queue s) (fun _ => false)).
Proof.
  intros (He & Hh & Hn & Ha & Hp & Hq & _). split; [|split; [reflexivity|]].
  - cbn [Accept.w_binds]. assert (E : Accept.pollfds (map listen_of (map fst zs)) = map (fun z => b_sock (fst z)) zs).
    { clear. induction zs as [|z zs IH]; cbn; [reflexivity|]. now rewrite IH. }
    now rewrite E.
  - cbn. intros b fd Hb Hs Hpl. rewrite map_map in Hb. apply in_map_iff in Hb as (z & <- & Hz). cbn in Hs, Hpl. injection Hs as <-. now apply Hp.
Qed.

(** What one accepted connection does. *)
Lemma accept_inv l hs s zs lost ka sess : inv l hs s zs lost ->
  exists ret set h s' zs', accept_callhome ka sess s = Ok (ret, set, h, s')
    /\ inv (AcceptCall ka sess :: l) (match h with Some x => x :: hs | None => hs end) s' zs' lost
    /\ (ret = 1%Z <-> set = true) /\ (set = true -> sess = true /\ h <> None) /\ (h <> None -> set = sess)
    /\ (forall x, h = Some x -> In (Sock (h_fd x)) (live (log s)) /\ In (Arrive (h_fd x) (h_conn x)) l
          /\ exists name, asked_for l (h_fd x) = Some (h_ti x, name) /\ ((h_ti x = NC_TI_SSH /\ h_name x = None) \/ (h_ti x = NC_TI_TLS /\ h_name x = name))).
Proof.
  intros I. pose proof (world_good _ _ _ _ _ I) as G. destruct I as (He & Hh & Hn & Ha & Hp & Hq & Hl1 & Hl2).
  assert (Asame : forall fd, asked_for (AcceptCall ka sess :: l) fd = asked_for l fd) by reflexivity.
  assert (Nh : no_hosts (AcceptCall ka sess :: l) -> no_hosts l) by (intros H a p h t k m1 m2 Hi; apply (H a p h t k m1 m2); now right).
  assert (Oa : only_all (AcceptCall ka sess :: l) -> only_all l) by (intros H a p t Hi; apply (H a p t); now right).
  assert (Keep : inv (AcceptCall ka sess :: l) hs s zs lost).
  { refine (conj He (conj Hh (conj Hn (conj Ha (conj Hp (conj _ (conj _ _))))))); [intros fd c Hc; right; auto|auto|intros [H|H]; auto]. }
  unfold accept_callhome. destruct zs as [|z0 zs0].
  { destruct (proj1 (proj2 He) eq_refl) as [-> _]. exists (-1)%Z, false, None, s, []. split; [reflexivity|]. split; [exact Keep|].
    split; [split; discriminate|]. split; [discriminate|]. split; [congruence|discriminate]. }
  remember (z0 :: zs0) as zs eqn:Ez. assert (Hne : zs <> []) by (subst; discriminate). clear Ez.
  destruct (proj2 (proj2 He) Hne) as (jb & jx & Eb & Ex). rewrite Eb. rewrite <- (map_map fst Some).
  rewrite (proj1 He). rewrite <- (map_length fst zs), slots_map.
  destruct (Accept.call _) as [w o] eqn:C. pose proof (call_socks _ _ _ G C) as Hsocks. cbn [Accept.w_binds] in Hsocks.
  pose proof (Prop_Accept.good_call _ _ _ G C) as G'.
  destruct (Prop_Accept.call_spec _ G) as [[A _]|(p & b & fd & c & q & s0 & E & Hs & Hqq & D)].
  { rewrite A in C. injection C as <- <-. exists 0%Z, false, None, s, zs. split; [reflexivity|]. split; [exact Keep|].
    split; [split; discriminate|]. split; [discriminate|]. split; [congruence|discriminate]. }
  cbn [Accept.w_binds Accept.w_queue] in E, Hqq.
  assert (Ho : o = Accept.Accepted (length p) fd c) by (destruct D as [(_ & _ & A)|(_ & _ & A)]; rewrite A in C; now injection C).
  subst o.
  (* the entry *)
  assert (exists z, nth_error zs (length p) = Some z /\ b_sock (fst z) = fd) as (z & Hz & Hfd).
  { assert (Hn1 : nth_error (map listen_of (map fst zs)) (length p) = Some b) by (rewrite E, nth_error_app2, Nat.sub_diag by lia; reflexivity).
    rewrite map_map, nth_error_map in Hn1. destruct (nth_error zs (length p)) as [z|]; [|discriminate]. injection Hn1 as <-. cbn in Hs. injection Hs as Hs. eauto. }
  destruct (set_pollin_spec (map fst zs) jb (Accept.w_binds w)) as (bl' & Es & Hsame & Hk).
  { rewrite Hsocks, !map_map. reflexivity. }
  set (zs' := combine bl' (map snd zs)).
  assert (Hlen : length bl' = length zs).
  { transitivity (length (map fst zs)); [|apply map_length]. clear -Hsame. induction Hsame; cbn; congruence. }
  assert (Hf : map fst zs' = bl').
  { unfold zs'. clear -Hlen. revert bl' Hlen. induction zs as [|z zs IH]; intros [|b bl'] H; cbn in *; try lia; [reflexivity|]. now rewrite IH by lia. }
  assert (Hsn : map snd zs' = map snd zs).
  { unfold zs'. clear -Hlen. revert bl' Hlen. induction zs as [|z zs IH]; intros [|b bl'] H; cbn in *; try lia; [reflexivity|]. now rewrite IH by lia. }
  assert (Hlen' : length zs' = length zs) by (rewrite <- (map_length snd zs'), Hsn; apply map_length).
  assert (HF : Forall2 (fun z z' => same (fst z) (fst z') /\ snd z' = snd z) zs zs').
  { rewrite <- Hf in Hsame. clearbody zs'. clear -Hsame Hsn. revert zs' Hsame Hsn. induction zs as [|z zs IH]; intros [|z' zs'] H1 H2; cbn [map] in *; try discriminate; [constructor|].
    injection H2 as H2 H3. inversion H1 as [|? ? ? ? H4 H5]; subst. constructor; [split; assumption|]. now apply IH. }
  assert (Hin' : forall z', In z' zs' -> exists z, In z zs /\ b_sock (fst z') = b_sock (fst z) /\ snd z' = snd z).
  { clear -HF. induction HF as [|z z' zs zs' [(_ & _ & _ & Hs) H2] HF IH]; intros y Hy; [destruct Hy|]. destruct Hy as [<-|Hy]; [exists z; cbn; auto|].
    destruct (IH y Hy) as (x & H & H'). exists x. cbn; auto. }
  assert (Hso : map (fun z => b_sock (fst z)) zs' = map (fun z => b_sock (fst z)) zs).
  { clear -HF. induction HF as [|z z' zs zs' [(_ & _ & _ & Hs) H2] HF IH]; cbn; [reflexivity|]. now rewrite Hs, IH. }
  assert (Hown : owned zs' = owned zs).
  { unfold owned. f_equal; [destruct HF; reflexivity|]. clear -HF. induction HF as [|z z' zs zs' [(Hs1 & _ & _ & Hs) H2] HF IH]; cbn [flat_map]; [reflexivity|].
    rewrite IH. unfold entry_objs. now rewrite Hs1, Hs, H2. }
  assert (Hne' : zs' <> []) by (intros X; rewrite X in Hlen'; destruct zs; [congruence|discriminate]).
  assert (New_inv : forall n lg hs', has lg (owned zs ++ map Host lost ++ map (fun h => Conn (h_conn h)) hs') ->
     inv (AcceptCall ka sess :: l) hs' {| binds := Some (set_pollin (map Some (map fst zs) ++ jb) (Accept.w_binds w)); aux := aux s; count := length (map fst zs); next := n; log := lg; queue := Accept.w_queue w |} zs' lost).
  { intros n lg hs' Hlg. refine (conj _ (conj _ (conj _ (conj _ (conj _ (conj _ (conj _ _))))))).
    - split; [cbn; rewrite map_length; auto|]. split; [congruence|]. intros _. cbn [binds aux]. rewrite Es, Ex. exists jb, jx.
      rewrite <- Hf, map_map. split; [reflexivity|]. rewrite <- (map_map snd Some zs), <- Hsn, map_map. reflexivity.
    - cbn [log]. now rewrite Hown.
    - now rewrite Hso.
    - intros z' Hz'. destruct (Hin' z' Hz') as (y & Hy & Ey1 & Ey2). rewrite Ey1, Ey2. now apply Ha.
    - intros z' Hz' Hpl. cbn [queue]. destruct G' as (_ & _ & G3). apply (G3 (listen_of (fst z'))); [|reflexivity|exact Hpl].
      rewrite <- Hk, <- Hf, map_map. now apply (in_map (fun z => listen_of (fst z))).
    - cbn [queue]. intros f c' Hc'. right. apply Hq. apply (call_queue _ _ _ f c' G C) in Hc'. exact Hc'.
    - intros H. specialize (Hl1 (Nh H)). rewrite Forall_forall in *. intros z' Hz'. destruct (Hin' z' Hz') as (y & Hy & _ & Ey2). unfold no_host. rewrite Ey2. now apply Hl1.
    - intros [H|H]; auto. }
  assert (Hlive : In (Sock fd) (live (log s))).
  { apply (Permutation_in _ (Permutation_sym (proj1 Hh))). apply in_or_app. left. rewrite <- Hfd. apply in_owned. eapply nth_error_In; eauto. }
  assert (Harr : In (Arrive fd c) l) by (apply Hq; rewrite Hqq; now left).
  pose proof (Ha z (nth_error_In _ _ Hz)) as Hask. rewrite Hfd in Hask.
  set (lg := New (Peer (next s)) :: New (Conn c) :: log s).
  assert (Hlg : has lg (Peer (next s) :: Conn c :: owned zs ++ map Host lost ++ map (fun h => Conn (h_conn h)) hs)) by (apply has_new, has_new, Hh).
  assert (Hlg1 : has (Free (Conn c) :: Free (Peer (next s)) :: lg) (owned zs ++ map Host lost ++ map (fun h => Conn (h_conn h)) hs)).
  { apply has_free, has_free. exact Hlg. }
  assert (Hlg2 : has (Free (Peer (next s)) :: Free (Conn c) :: lg) (owned zs ++ map Host lost ++ map (fun h => Conn (h_conn h)) hs)).
  { apply has_free, has_free. refine (has_perm _ _ _ _ Hlg). apply perm_swap. }
  assert (Hlg3 : forall h, h_conn h = c -> has (Free (Peer (next s)) :: lg) (owned zs ++ map Host lost ++ map (fun h => Conn (h_conn h)) (h :: hs))).
  { intros h <-. apply has_free. refine (has_perm _ _ _ _ Hlg). cbn [map]. constructor. pc. }
  destruct ka; cbn [negb].
  2:{ eexists _, _, None, _, zs'. split; [reflexivity|]. split; [now apply New_inv|]. split; [split; discriminate|]. split; [discriminate|]. split; [congruence|discriminate]. }
  destruct (at_entries s zs _ _ He Hz) as [_ ->].
  destruct (N.eqb_spec (x_ti (snd z)) NC_TI_SSH) as [Et|Et].
  { eexists _, _, (Some _), _, zs'. split; [reflexivity|]. split; [apply New_inv, Hlg3; reflexivity|]. split; [destruct sess; split; congruence|]. split; [intros ->; split; congruence|].
    split; [auto|]. intros x [= <-]. cbn [h_fd h_conn h_ti h_name]. split; [exact Hlive|]. split; [exact Harr|]. eexists. rewrite <- Et at 1. split; [exact Hask|]. left. auto. }
  destruct (N.eqb_spec (x_ti (snd z)) NC_TI_TLS) as [Et2|Et2].
  { eexists _, _, (Some _), _, zs'. split; [reflexivity|]. split; [apply New_inv, Hlg3; reflexivity|]. split; [destruct sess; split; congruence|]. split; [intros ->; split; congruence|].
    split; [auto|]. intros x [= <-]. cbn [h_fd h_conn h_ti h_name]. split; [exact Hlive|]. split; [exact Harr|]. eexists. rewrite <- Et2 at 1. split; [exact Hask|]. right. auto. }
  eexists _, _, None, _, zs'. split; [reflexivity|]. split; [now apply New_inv|]. split; [split; discriminate|]. split; [discriminate|]. split; [congruence|discriminate].
Qed.

Lemma no_hosts_tl e l : no_hosts (e :: l) -> no_hosts l.
Proof. intros H a p h t k m1 m2 Hi. apply (H a p h t k m1 m2). now right. Qed.
Lemma only_all_tl e l : only_all (e :: l) -> only_all l.
Proof. intros H a p t Hi. apply (H a p t). now right. Qed.

Lemma step_inv l hs s zs lost e : inv l hs s zs lost -> from_system s e -> memory e ->
  exists s' h zs' lost', step s e = Ok (s', h) /\ inv (e :: l) (match h with Some x => x :: hs | None => hs end) s' zs' lost'.
Proof.
  intros I Hs Hm. destruct e as [a p h t k m1 m2|a p t|fd c|ka sess].
  - (* nc_client_ch_add_bind_listen *) destruct Hm as [-> ->]. destruct I as (He & Hh & Hn & Ha & Hp & Hq & Hl1 & Hl2).
    assert (Skip : (match a with None => True | Some _ => (p =? 0)%N = true \/ k = None end) ->
      exists s' h' zs' lost', step s (Add a p h t k true true) = Ok (s', h') /\ inv (Add a p h t k true true :: l) (match h' with Some x => x :: hs | None => hs end) s' zs' lost').
    { intros Hskip. exists s, None, zs, lost. split; [cbn [step]; unfold add; destruct a; [|reflexivity]; destruct (p =? 0)%N; [reflexivity|]; destruct Hskip as [X|X]; [discriminate|now subst]|].
      refine (conj He (conj Hh (conj Hn (conj _ (conj Hp (conj _ (conj _ _))))))).
      - intros z Hz. rewrite <- (Ha z Hz). cbn [asked_for]. destruct a; [|reflexivity]. destruct k; [|reflexivity]. destruct Hskip as [X|X]; [now rewrite X|discriminate].
      - intros fd c Hc. right. auto.
      - intros H. apply Hl1. now apply no_hosts_tl in H.
      - intros [H|H]; [apply no_hosts_tl in H|apply only_all_tl in H]; auto. }
    destruct a as [a|]; [|apply Skip; exact Logic.I]. destruct (p =? 0)%N eqn:Ep; [apply Skip; now left|]. destruct k as [fd|]; [|apply Skip; now right]. clear Skip.
    destruct (add_inv a p h t fd s zs _ Ep He Hh) as (s' & z & E & H1 & H2 & H3 & H4 & H5 & H6 & H7).
    exists s', None, (zs ++ [z]), lost. cbn [step]. rewrite E. split; [reflexivity|].
    assert (Hold : forall y, In y zs -> b_sock (fst y) <> fd).
    { intros y Hy X. apply Hs. apply (Permutation_in _ (Permutation_sym (proj1 Hh))). apply in_or_app. left. rewrite <- X. now apply in_owned. }
    refine (conj H1 (conj H2 (conj _ (conj _ (conj _ (conj _ (conj _ _))))))).
    + rewrite map_app. cbn [map]. apply nodup_snoc; [exact Hn|]. rewrite H3. intros X. apply in_map_iff in X as (y & Ey & Hy). now apply (Hold y Hy).
    + intros y Hy. cbn [asked_for]. rewrite Ep. apply in_app_or in Hy as [Hy|[<-|[]]].
      * replace (Nat.eqb (b_sock (fst y)) fd) with false by (symmetry; apply Nat.eqb_neq, Hold, Hy). now apply Ha.
      * rewrite H3, Nat.eqb_refl. now rewrite H5, H6.
    + intros y Hy Hpl. rewrite H7. unfold Accept.setq. apply in_app_or in Hy as [Hy|[<-|[]]]; [|congruence].
      replace (Nat.eqb (b_sock (fst y)) fd) with false by (symmetry; apply Nat.eqb_neq, Hold, Hy). now apply Hp.
    + rewrite H7. unfold Accept.setq. intros f c Hc. right. destruct (Nat.eqb f fd); [destruct Hc|auto].
    + intros H. apply Forall_app. split; [apply Hl1; now apply no_hosts_tl in H|]. constructor; [|constructor]. unfold no_host.
      destruct h as [h|]; [exfalso; apply (H (Some a) p h t (Some fd) true true); now left|]. now destruct (x_host (snd z)).
    + intros [H|H]; [apply no_hosts_tl in H|apply only_all_tl in H]; auto.
  - (* nc_client_ch_del_bind *) destruct I as (He & Hh & Hn & Ha & Hp & Hq & Hl1 & Hl2).
    destruct (del_inv a p t s zs lost _ He Hh) as (ret & s' & zs' & gone & lost' & E & H1 & H2 & H3 & H4 & H5 & H6).
    exists s', None, zs', lost'. cbn [step]. rewrite E. split; [reflexivity|].
    assert (Hin : forall z, In z zs' -> In z zs) by (intros z Hz; apply (Permutation_in _ (Permutation_sym H3)), in_or_app; now left).
    refine (conj H1 (conj H2 (conj _ (conj _ (conj _ (conj _ (conj _ _))))))).
    + apply (Permutation_map (fun z => b_sock (fst z))) in H3. apply (Permutation_NoDup H3) in Hn. rewrite map_app in Hn. now apply nodup_app_l in Hn.
    + intros z Hz. cbn [asked_for]. apply Ha. auto.
    + intros z Hz Hpl. rewrite H6. apply Hp; auto.
    + rewrite H6. intros fd c Hc. right. auto.
    + intros H. apply no_hosts_tl in H. specialize (Hl1 H). rewrite Forall_forall in *. auto.
    + intros H. assert (lost = []) as ->. { apply Hl2. destruct H as [H|H]; [left; now apply no_hosts_tl in H|right; now apply only_all_tl in H]. }
      apply H4. destruct H as [H|H]; [left; apply Hl1; now apply no_hosts_tl in H|right; apply (H a p t); now left].
  - destruct I as (He & Hh & Hn & Ha & Hp & Hq & Hl1 & Hl2). eexists _, None, zs, lost. split; [reflexivity|].
    refine (conj _ (conj Hh (conj Hn (conj Ha (conj _ (conj _ (conj _ _))))))).
    + apply (entries_ext s); auto.
    + intros z Hz Hpl. cbn [queue]. unfold Accept.setq. destruct (Nat.eqb_spec (b_sock (fst z)) fd); [intros X; apply app_eq_nil in X as [_ X]; discriminate|now apply Hp].
    + cbn [queue]. unfold Accept.setq. intros f c' Hc. destruct (Nat.eqb_spec f fd) as [->|]; [|right; auto]. apply in_app_or in Hc as [Hc|[->|[]]]; [right; auto|now left].
    + intros H. apply Hl1. now apply no_hosts_tl in H.
    + intros [H|H]; [apply no_hosts_tl in H|apply only_all_tl in H]; auto.
  - destruct (accept_inv l hs s zs lost ka sess I) as (ret & set & h & s' & zs' & E & I' & _). exists s', h, zs', lost. cbn [step]. rewrite E. auto.
Qed.

Lemma inv0 : inv [] [] st0 [] [].
Proof.
  refine (conj (conj eq_refl (conj (fun _ => conj eq_refl eq_refl) _)) (conj (conj (Permutation_refl _) Logic.I) (conj (NoDup_nil _) (conj _ (conj _ (conj _ (conj _ _))))))).
  - congruence.
  - intros z [].
  - intros z [].
  - intros fd c [].
  - constructor.
  - reflexivity.
Qed.

Lemma reach_inv l hs s : reach memory l hs s -> exists zs lost, inv l hs s zs lost.
Proof.
  induction 1 as [|l hs s e s' h R (zs & lost & I) Hs Hm E]; [exists [], []; exact inv0|].
  destruct (step_inv l hs s zs lost e I Hs Hm) as (s1 & h1 & zs' & lost' & E1 & I1). rewrite E in E1. injection E1 as -> ->. eauto.
Qed.

(* ------------------------------------------------------------------ *)
(** ** C234: a connection is handled as asked for at its address *)

(** After any history, a connection that is handed to a client arrived at a socket that is still open, and goes to the client of the transport that was
    asked for at that socket, with the host name given there if it is TLS. *)
Theorem c234_transport : forall l hs s ka sess s' x, reach memory l hs s -> step s (AcceptCall ka sess) = Ok (s', Some x) ->
  In (Sock (h_fd x)) (live (log s)) /\ In (Arrive (h_fd x) (h_conn x)) l
  /\ exists name, asked_for l (h_fd x) = Some (h_ti x, name) /\ ((h_ti x = 3%N /\ h_name x = None) \/ (h_ti x = 4%N /\ h_name x = name)).
Proof.
  intros l hs s ka sess s' x R E. destruct (reach_inv l hs s R) as (zs & lost & I).
  destruct (accept_inv l hs s zs lost ka sess I) as (ret & set & h & s1 & zs' & E1 & _ & _ & _ & _ & H). cbn [step] in E. rewrite E1 in E. injection E as -> ->. now apply H.
Qed.

(** 1 is returned exactly if there is a session, which is when the client it was handed to made one. *)
Theorem c234_result : forall l hs s ka sess, reach memory l hs s ->
  exists ret set h s', accept_callhome ka sess s = Ok (ret, set, h, s') /\ (ret = 1%Z <-> set = true) /\ (set = true -> sess = true /\ h <> None) /\ (h <> None -> set = sess).
Proof.
  intros l hs s ka sess R. destruct (reach_inv l hs s R) as (zs & lost & I).
  destruct (accept_inv l hs s zs lost ka sess I) as (ret & set & h & s' & zs' & E & _ & H1 & H2 & H3 & _). eauto 10.
Qed.

(** ** C235: nothing undefined happens *)

Definition c235_full : Prop := forall l hs s e, reach (fun _ => True) l hs s -> from_system s e -> step s e <> Undef.

Theorem c235_partial : forall l hs s e, reach memory l hs s -> from_system s e -> memory e -> step s e <> Undef.
Proof.
  intros l hs s e R Hs Hm. destruct (reach_inv l hs s R) as (zs & lost & I). destruct (step_inv l hs s zs lost e I Hs Hm) as (s' & h & zs' & lost' & E & _). congruence.
Qed.

(** A call that had no memory counts all the same: the removal of all binds then reads the array that is gone. *)
Definition full_add (m1 : bool) : event := Add (Some (bs "::"%string)) 4334 None 3 (Some 5) m1 true.
Theorem c235_full_refuted : ~ c235_full.
Proof.
  intros H. apply (H [full_add false] [] (snd (add (Some (bs "::"%string)) 4334 None 3 (Some 5) false true st0)) (Del None 0 0)); [|exact Logic.I|reflexivity].
  apply (RStep (fun _ => True) [] [] st0 (full_add false) _ None); [constructor|intros []|exact Logic.I|reflexivity].
Qed.

(** ** C236: what was made is released *)

(** The full claim: whatever was added and removed, what is there is what the options own and the connections handed over. *)
Definition c236_full : Prop := forall l hs s, reach memory l hs s ->
  exists zs, entries s zs /\ sane (log s) /\ Permutation (live (log s)) (owned zs ++ map (fun h => Conn (h_conn h)) hs).

(** True but for host names; of them as well if binds are only removed all at once. *)
Theorem c236_partial : forall l hs s, reach memory l hs s ->
  exists zs lost, entries s zs /\ sane (log s) /\ Permutation (live (log s)) (owned zs ++ map Host lost ++ map (fun h => Conn (h_conn h)) hs)
    /\ (no_hosts l \/ only_all l -> lost = []).
Proof. intros l hs s R. destruct (reach_inv l hs s R) as (zs & lost & He & [Hh1 Hh2] & _ & _ & _ & _ & _ & Hl). exists zs, lost. auto. Qed.

(** So removing all leaves nothing but the connections handed over. *)
Theorem c236_all_removed : forall l hs s s', reach memory l hs s -> no_hosts l \/ only_all l -> step s (Del None 0 0) = Ok (s', None) ->
  Permutation (live (log s')) (map (fun h => Conn (h_conn h)) hs) /\ binds s' = None /\ aux s' = None.
Proof.
  intros l hs s s' R H E. assert (R' : reach memory (Del None 0 0 :: l) hs s') by exact (RStep memory l hs s (Del None 0 0) s' None R Logic.I Logic.I E).
  destruct (reach_inv _ _ _ R') as (zs & lost & He & [Hh _] & _ & _ & _ & _ & _ & Hl).
  assert (Hc : binds s' = None /\ aux s' = None /\ count s' = 0).
  { cbn [step] in E. unfold del in E. cbn [N.eqb andb] in E. destruct (free_all _ _ _); [|discriminate]. injection E as <-. auto. }
  destruct Hc as (Hb & Hx & Hc). destruct He as (He & _). rewrite Hc in He. destruct zs; [|discriminate].
  assert (lost = []) as ->. { apply Hl. destruct H as [H|H]; [left|right].
    - intros a p h t k m1 m2 [X|X]; [discriminate|exact (H _ _ _ _ _ _ _ X)].
    - intros a p t [[= <- <- <-]|X]; [auto|exact (H _ _ _ X)]. }
  auto.
Qed.

(** A bind that is removed by its address loses its host name. *)
Definition tls_add : event := Add (Some (bs "::"%string)) 4335 (Some (bs "ncs"%string)) 4 (Some 5) true true.
Definition lost_st : st := match step (match step st0 tls_add with Ok (s, _) => s | Undef => st0 end) (Del (Some (bs "::"%string)) 0 0) with Ok (s, _) => s | Undef => st0 end.
Lemma lost_reach : reach memory [Del (Some (bs "::"%string)) 0 0; tls_add] [] lost_st.
Proof.
  refine (RStep memory [tls_add] [] _ _ _ None (RStep memory [] [] st0 tls_add (match step st0 tls_add with Ok (s, _) => s | Undef => st0 end) None (RStart memory) _ _ _) _ _ _); try exact Logic.I; try reflexivity.
  - intros [].
  - now split.
Qed.
Theorem c236_full_refuted : ~ c236_full.
Proof.
  intros H. destruct (H _ _ _ lost_reach) as (zs & He & _ & Hp). destruct He as (Hc & _). change (count lost_st) with 0 in Hc. destruct zs; [|discriminate].
  change (Permutation [Host 1] []) in Hp. symmetry in Hp. now apply Permutation_nil_cons in Hp.
Qed.

(** ** C237: a connection is handed over or closed; a socket that is removed is closed *)

(** Each connection is handed to one client, or closed; of the listening sockets exactly those of the binds are open. *)
Theorem c237_connections : forall l hs s c, reach memory l hs s -> count_occ obj_dec (live (log s)) (Conn c) = count_occ Nat.eq_dec (map h_conn hs) c.
Proof.
  intros l hs s c R. destruct (c236_partial l hs s R) as (zs & lost & _ & _ & Hp & _).
  rewrite (proj1 (Permutation_count_occ obj_dec _ _) Hp). rewrite !count_occ_app.
  assert (E1 : count_occ obj_dec (owned zs) (Conn c) = 0).
  { apply count_occ_not_In. unfold owned. intros Hi. apply in_app_or in Hi as [Hi|Hi]; [destruct zs; [destruct Hi|destruct Hi as [X|[X|[]]]; discriminate]|].
    apply in_flat_map in Hi as (z & _ & [X|[X|X]]); try discriminate. unfold host_obj in X. destruct (x_host (snd z)) as [[id h]|]; [destruct X as [X|[]]; discriminate|destruct X]. }
  assert (E2 : count_occ obj_dec (map Host lost) (Conn c) = 0).
  { apply count_occ_not_In. intros Hi. apply in_map_iff in Hi as (x & X & _). discriminate. }
  rewrite E1, E2. cbn [Nat.add]. induction hs as [|h hs IH]; [reflexivity|].
  clear. induction (h :: hs) as [|y ys IHy]; [reflexivity|]. cbn [map count_occ]. rewrite IHy.
  destruct (obj_dec (Conn (h_conn y)) (Conn c)) as [X|X]; destruct (Nat.eq_dec (h_conn y) c) as [Y|Y]; congruence.
Qed.

Theorem c237_sockets : forall l hs s fd, reach memory l hs s ->
  (In (Sock fd) (live (log s)) <-> exists bl i b, binds s = Some bl /\ i < count s /\ nth_error bl i = Some (Some b) /\ b_sock b = fd).
Proof.
  intros l hs s fd R. destruct (c236_partial l hs s R) as (zs & lost & He & _ & Hp & _). split.
  - intros Hi. apply (Permutation_in _ Hp) in Hi. apply in_app_or in Hi as [Hi|Hi].
    + unfold owned in Hi. apply in_app_or in Hi as [Hi|Hi]; [destruct zs; [destruct Hi|destruct Hi as [X|[X|[]]]; discriminate]|].
      apply in_flat_map in Hi as (z & Hz & [X|[X|X]]); [|discriminate|unfold host_obj in X; destruct (x_host (snd z)) as [[id h]|]; [destruct X as [X|[]]; discriminate|destruct X]].
      injection X as X. apply In_nth_error in Hz as (i & Hz). destruct (at_entries s zs i z He Hz) as [Hb _]. unfold at_ in Hb. destruct (binds s) as [bl|]; [|discriminate].
      exists bl, i, (fst z). split; [reflexivity|]. split; [rewrite (proj1 He); apply nth_error_Some; congruence|]. split; [|exact X].
      destruct (nth_error bl i) as [[b|]|]; [|discriminate..]. now injection Hb as ->.
    + apply in_app_or in Hi as [Hi|Hi]; apply in_map_iff in Hi as (x & X & _); discriminate.
  - intros (bl & i & b & Eb & Hi & Hn & <-). rewrite (proj1 He) in Hi. apply nth_error_Some in Hi. destruct (nth_error zs i) as [z|] eqn:Hz; [|congruence].
    destruct (at_entries s zs i z He Hz) as [Hb _]. unfold at_ in Hb. rewrite Eb, Hn in Hb. injection Hb as ->.
    apply (Permutation_in _ (Permutation_sym Hp)), in_or_app. left. apply in_owned. eapply nth_error_In; eauto.
Qed.

(* ------------------------------------------------------------------ *)
(** ** Examples *)

(** SSH on socket 5, TLS on socket 6; the first is removed, a connection arrives at the other. *)
Definition ex_hist : list event := [Arrive 6 9; Del None 4334 0; Add (Some (bs "::"%string)) 4335 (Some (bs "ncs"%string)) 4 (Some 6) true true; full_add true].
Fixpoint play (l : list event) : st := match l with [] => st0 | e :: l => match step (play l) e with Ok (s, _) => s | Undef => st0 end end.
Example ex_reach : reach memory ex_hist [] (play ex_hist).
Proof.
  unfold ex_hist.
  assert (R1 : reach memory [full_add true] [] (play [full_add true])).
  { apply (RStep memory [] [] st0 (full_add true) _ None); [constructor|intros []|now split|reflexivity]. }
  pose (e2 := Add (Some (bs "::"%string)) 4335 (Some (bs "ncs"%string)) 4 (Some 6) true true).
  assert (R2 : reach memory [e2; full_add true] [] (play [e2; full_add true])).
  { apply (RStep memory _ [] _ e2 _ None R1); [|now split|reflexivity]. cbn. intros X. repeat (destruct X as [X|X]; [discriminate|]). exact X. }
  assert (R3 : reach memory [Del None 4334 0; e2; full_add true] [] (play [Del None 4334 0; e2; full_add true])).
  { apply (RStep memory _ [] _ (Del None 4334 0) _ None R2); [exact Logic.I|exact Logic.I|reflexivity]. }
  apply (RStep memory _ [] _ (Arrive 6 9) _ None R3); [exact Logic.I|exact Logic.I|reflexivity].
Qed.
Example ex_handed : match step (play ex_hist) (AcceptCall true true) with Ok (_, h) => h = Some (mkH 6 9 4 (Some (bs "ncs"%string))) | Undef => False end.
Proof. reflexivity. Qed.

Print Assumptions c234_transport.
Print Assumptions c234_result.
Print Assumptions c235_partial.
Print Assumptions c235_full_refuted.
Print Assumptions c236_partial.
Print Assumptions c236_all_removed.
Print Assumptions c236_full_refuted.
Print Assumptions c237_connections.
Print Assumptions c237_sockets.
