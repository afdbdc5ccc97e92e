(** Properties of the sources of keys and certificates (Stores.v). *)
From Coq Require Import String NArith Bool Lia Arith List Permutation.
From Verif Require Import Endpts Prop_Endpts Stores.
Import ListNotations.
Local Open Scope string_scope.
Local Open Scope list_scope.

(* ------------------------------------------------------------------ *)
(** ** Specification: what is configured *)

(** The configured entries with their data, the reference to a bag, and whether the keys of the system are used. *)
Record cfg := mkCfg { c_in : list (string * option string); c_ref : option string; c_sys : bool }.
Definition cfg0 := mkCfg [] None false.

Definition has (l : list (string * option string)) (n : string) : bool := existsb (fun p => String.eqb (fst p) n) l.

(** The configuration after one change; [None]: there is no such change of this configuration. *)
Definition change (c : cfg) (o : cop) : option cfg :=
  match o with
  | KCreate n => if has (c_in c) n then None else Some (mkCfg (c_in c ++ [(n, None)]) (c_ref c) (c_sys c))
  | KData n d => if has (c_in c) n then Some (mkCfg (map (fun p => if String.eqb (fst p) n then (n, d) else p) (c_in c)) (c_ref c) (c_sys c)) else None
  | KDel n => if has (c_in c) n then Some (mkCfg (filter (fun p => negb (String.eqb (fst p) n)) (c_in c)) (c_ref c) (c_sys c)) else None
  | RSet r => Some (mkCfg (c_in c) (Some r) (c_sys c))
  | RDel => match c_ref c with Some _ => Some (mkCfg (c_in c) None (c_sys c)) | None => None end
  | SysSet => if c_sys c then None else Some (mkCfg (c_in c) (c_ref c) true)
  | SysDel => if c_sys c then Some (mkCfg (c_in c) (c_ref c) false) else None
  | Clear => Some cfg0
  end.

Fixpoint changes (c : cfg) (l : list cop) : option cfg :=
  match l with [] => Some c | o :: r => match change c o with Some c' => changes c' r | None => None end end.

(** The choice of the YANG modules: at most one of the three. *)
Definition valid (c : cfg) : Prop :=
  match c_in c, c_ref c, c_sys c with
  | [], None, _ => True
  | [], Some _, false => True
  | _ :: _, None, false => True
  | _, _, _ => False
  end /\ (N.of_nat (length (c_in c)) <= 65535)%N.

(** Every configuration on the way is valid: what goes away goes before what comes. *)
Fixpoint clean (c : cfg) (l : list cop) : Prop :=
  match l with [] => True | o :: r => match change c o with Some c' => valid c' /\ clean c' r | None => False end end.

(** What has to be used to authenticate with a valid configuration. *)
Definition meets (c : cfg) (u : use) : Prop :=
  match c_ref c, c_sys c, c_in c with
  | Some r, _, _ => u = URef r
  | None, true, _ => u = USys
  | None, false, [] => u = UOff
  | None, false, _ => exists l, u = UKeys l /\ Permutation l (c_in c)
  end.

(* ------------------------------------------------------------------ *)
(** ** Arrays *)

Definition nd (e : ent) : string * option string := (n_name e, n_data e).

Definition owned (s : gst) (es : list ent) : Prop := Permutation (map n_id es ++ g_freed s) (seq 0 (g_next s)).
Definition allfree (h : list blk) : Prop := forall b x, nth_error h b = Some x -> x = BFree.
Definition onlyblk (h : list blk) (b : nat) : Prop := forall b' x, b' <> b -> nth_error h b' = Some x -> x = BFree.

Definition arr (s : gst) (es : list ent) : Prop :=
  exists b l, g_ptr (g_grp s) = PBlk b /\ nth_error (g_heap s) b = Some (BArr l) /\ firstn (g_cnt (g_grp s)) l = map SEnt es /\
    length es = g_cnt (g_grp s) /\ onlyblk (g_heap s) b.

Lemma owned_nodup s es : owned s es -> NoDup (map n_id es ++ g_freed s).
Proof. intros H. apply (Permutation_NoDup (Permutation_sym H)). apply seq_NoDup. Qed.

Lemma nodup_app_disj {A} (l r : list A) x : NoDup (l ++ r) -> In x l -> ~ In x r.
Proof.
  induction l as [|y l IH]; intros H I J. { destruct I. }
  inversion H; subst. destruct I as [->|I]. - apply H2. apply in_or_app. auto. - exact (IH H3 I J).
Qed.

Lemma nodup_app_r {A} (l r : list A) : NoDup (l ++ r) -> NoDup r.
Proof. induction l as [|x l IH]; cbn; intros H; [exact H|]. inversion H; auto. Qed.

Lemma not_freed s es e : owned s es -> In e es -> existsb (Nat.eqb (n_id e)) (g_freed s) = false.
Proof.
  intros H I. destruct (existsb _ _) eqn:E; [|reflexivity]. exfalso. apply existsb_exists in E. destruct E as (x & Hx & Ex). apply Nat.eqb_eq in Ex. subst x.
  exact (nodup_app_disj _ _ _ (owned_nodup _ _ H) (in_map n_id _ _ I) Hx).
Qed.

Lemma arr_slot l es c i e : firstn c l = map SEnt es -> length es = c -> nth_error es i = Some e -> nth_error l i = Some (SEnt e) /\ i < length l.
Proof.
  intros H L E. assert (i < length es) by (apply nth_error_Some; congruence).
  assert (nth_error l i = Some (SEnt e)) as Q. { rewrite <- (nth_firstn l c i) by lia. rewrite H. rewrite nth_error_map, E. reflexivity. }
  split; [exact Q|]. apply nth_error_Some. congruence.
Qed.

Lemma read_arr s es i e : arr s es -> owned s es -> nth_error es i = Some e -> read_ent s i = Some e.
Proof.
  intros (b & l & Hp & Hb & Hf & Hl & Ho) Hw E. unfold read_ent. rewrite Hp, Hb.
  destruct (arr_slot _ _ _ _ _ Hf Hl E) as [-> _]. rewrite (not_freed s es e Hw (nth_error_In _ _ E)). reflexivity.
Qed.

Lemma skipn_nth {A} (l : list A) x : forall i, nth_error l i = Some x -> skipn i l = x :: skipn (S i) l.
Proof. induction l as [|y l IH]; intros [|i] E; cbn in *; try discriminate. - congruence. - rewrite (IH i E). destruct l; reflexivity. Qed.

(** The first entry with the name, or none. *)
Lemma find_arr s es name : arr s es -> owned s es -> forall n i, i + n = length es ->
  match find_from s name i n with
  | FAt j e => nth_error es j = Some e /\ n_name e = name
  | FNot => forall e, In e (skipn i es) -> n_name e <> name
  | FUB => False
  end.
Proof.
  intros Ha Hw. induction n as [|n IH]; intros i Hi; cbn [find_from].
  - intros e He. rewrite skipn_all2 in He by lia. destruct He.
  - destruct (nth_error es i) as [e|] eqn:E. 2: { apply nth_error_None in E. lia. }
    rewrite (read_arr _ _ _ _ Ha Hw E). destruct (String.eqb_spec (n_name e) name) as [Q|Q]. { auto. }
    specialize (IH (S i) ltac:(lia)). destruct (find_from s name (S i) n); auto.
    intros e' He'. rewrite (skipn_nth _ _ _ E) in He'. destruct He' as [<-|He']; auto.
Qed.

Lemma get_arr s es name : arr s es -> owned s es -> has (map nd es) name = true -> exists i e, get_ent s name = FAt i e /\ nth_error es i = Some e /\ n_name e = name.
Proof.
  intros Ha Hw Hh. pose proof Ha as (b & l & _ & _ & _ & Hl & _). unfold get_ent. rewrite <- Hl.
  pose proof (find_arr s es name Ha Hw (length es) 0 eq_refl) as F. destruct (find_from s name 0 (length es)) as [i e| |].
  - exists i, e. tauto.
  - exfalso. cbn [skipn] in F. unfold has in Hh. apply existsb_exists in Hh. destruct Hh as (p & Hp & Ep). apply in_map_iff in Hp. destruct Hp as (e & <- & He).
    apply String.eqb_eq in Ep. exact (F e He Ep).
  - destruct F.
Qed.

Lemma onlyblk_upd h b x : onlyblk h b -> onlyblk (upd h b x) b.
Proof. intros H b' y Hn E. rewrite nth_upd in E. destruct (Nat.eqb_spec b b'); [congruence|]. exact (H b' y Hn E). Qed.

Lemma allfree_upd h b : onlyblk h b -> allfree (upd h b BFree).
Proof.
  intros H b' y E. rewrite nth_upd in E. destruct (Nat.eqb_spec b b') as [->|Hn].
  - destruct (nth_error h b'); congruence.
  - exact (H b' y ltac:(congruence) E).
Qed.

Lemma onlyblk_new h x : allfree h -> onlyblk (h ++ [x]) (length h).
Proof.
  intros H b' y Hn E. destruct (lt_dec b' (length h)) as [L|L].
  - rewrite nth_error_app1 in E by exact L. exact (H b' y E).
  - assert (b' < length (h ++ [x])) by (apply nth_error_Some; congruence). rewrite app_length in H0. cbn in H0. lia.
Qed.

Lemma nth_new {A} (h : list A) x : nth_error (h ++ [x]) (length h) = Some x.
Proof. rewrite nth_error_app2 by lia. rewrite Nat.sub_diag. reflexivity. Qed.

Lemma map_ent_inv l : forall es, map SEnt es = l -> forall l', Permutation l l' -> exists es', l' = map SEnt es' /\ Permutation es es'.
Proof.
  intros es <- l' H. apply Permutation_sym, Permutation_map_inv in H. destruct H as (es' & -> & P). exists es'. auto.
Qed.

Lemma upd_nth_other {A} (l : list A) i x y : nth_error l i = Some y -> nth_error (upd l i x) i = Some x.
Proof. intros H. rewrite nth_upd, Nat.eqb_refl, H. reflexivity. Qed.

(** Deletion of one entry. *)
Lemma del_arr s es i e : arr s es -> owned s es -> nth_error es i = Some e -> exists s', del_at s i = Some s' /\ g_store (g_grp s') = g_store (g_grp s) /\
  ((es = [e] /\ g_ptr (g_grp s') = PNull /\ g_cnt (g_grp s') = 0 /\ allfree (g_heap s') /\ owned s' []) \/
   (exists es', es' <> [] /\ arr s' es' /\ Permutation es (e :: es') /\ owned s' es')).
Proof.
  intros Ha Hw E. pose proof (read_arr _ _ _ _ Ha Hw E) as R. destruct Ha as (b & l & Hp & Hb & Hf & Hl & Ho).
  destruct (arr_slot _ _ _ _ _ Hf Hl E) as [Ei Li]. unfold del_at. rewrite R.
  assert (Hi : i < length es) by (apply nth_error_Some; congruence).
  destruct (Nat.eqb_spec (g_cnt (g_grp s) - 1) 0) as [C|C].
  - rewrite Hp. cbn [free_blk]. rewrite Hb. eexists. split; [reflexivity|]. split; [reflexivity|]. left. cbn.
    assert (length es = 1) as L1 by lia. destruct es as [|e0 [|e1 es]]; cbn in L1; try lia. destruct i; cbn in E; [|destruct i; discriminate]. injection E as ->.
    split; [reflexivity|]. split; [reflexivity|]. split; [reflexivity|]. split; [apply allfree_upd; exact Ho|].
    unfold owned in *. cbn in *. exact Hw.
  - destruct (nth_error es (g_cnt (g_grp s) - 1)) as [z|] eqn:Ez. 2: { apply nth_error_None in Ez. lia. }
    destruct (arr_slot _ _ _ _ _ Hf Hl Ez) as [Ec Lc].
    set (c := g_cnt (g_grp s) - 1) in *. assert (Sc : g_cnt (g_grp s) = S c) by lia.
    pose proof (swap_remove l c i (SEnt e) (SEnt z) ltac:(lia) ltac:(lia) Ei Ec) as P. rewrite <- Sc, Hf in P.
    assert (exists es', firstn c (if Nat.eqb i c then l else upd l i (SEnt z)) = map SEnt es' /\ Permutation es (e :: es')) as (es' & He' & Pe).
    { destruct (map_ent_inv _ es eq_refl _ P) as (es2 & Q & P2). destruct es2 as [|e2 es']; [discriminate Q|]. cbn [map] in Q. injection Q as <- Q. exists es'. auto. }
    assert (Le : length es' = c) by (apply Permutation_length in Pe; cbn in Pe; lia).
    assert (W : Permutation (map n_id es' ++ n_id e :: g_freed s) (seq 0 (g_next s))).
    { rewrite <- Permutation_middle. rewrite <- Hw. change (n_id e :: map n_id es' ++ g_freed s) with (map n_id (e :: es') ++ g_freed s).
      apply Permutation_app_tail. apply Permutation_map. symmetry. exact Pe. }
    destruct (Nat.eqb_spec i c) as [Q|Q].
    + eexists. split; [reflexivity|]. split; [reflexivity|]. right. exists es'. split. { intros ->. cbn in Le. lia. }
      split. { exists b, l. cbn. auto 6. } split; [exact Pe|exact W].
    + rewrite Hp, Hb, Ec. unfold write_slot. cbn [g_ptr g_grp g_heap]. rewrite Hb. apply Nat.ltb_lt in Li. rewrite Li.
      eexists. split; [reflexivity|]. split; [reflexivity|]. right. exists es'. split. { intros ->. cbn in Le. lia. }
      split. { exists b, (upd l i (SEnt z)). cbn. split; [reflexivity|]. split; [exact (upd_nth_other _ _ _ _ Hb)|]. split; [exact He'|]. split; [exact Le|]. apply onlyblk_upd. exact Ho. }
      split; [exact Pe|exact W].
Qed.

(** The loop of nc_server_config_del_auth_client_pubkeys: the array gets shorter while it is read, and still every entry is freed
    once, and the array after the last one. *)
Lemma del_keys_arr : forall es s b l i, es <> [] -> g_ptr (g_grp s) = PBlk b -> nth_error (g_heap s) b = Some (BArr l) -> onlyblk (g_heap s) b ->
  g_cnt (g_grp s) = length es -> (forall j e, nth_error es j = Some e -> nth_error l (i + j) = Some (SEnt e)) -> owned s es ->
  exists s', del_keys_from s i (length es) = Some s' /\ g_ptr (g_grp s') = PNull /\ g_cnt (g_grp s') = 0 /\ allfree (g_heap s') /\ owned s' [] /\ g_store (g_grp s') = g_store (g_grp s).
Proof.
  induction es as [|e es IH]; intros s b l i Hne Hp Hb Ho Hc Hs Hw; [congruence|]. cbn [length del_keys_from].
  assert (El : nth_error l i = Some (SEnt e)). { specialize (Hs 0 e eq_refl). rewrite Nat.add_0_r in Hs. exact Hs. }
  assert (R : read_ent s i = Some e). { unfold read_ent. rewrite Hp, Hb, El. rewrite (not_freed s (e :: es) e Hw (or_introl eq_refl)). reflexivity. }
  assert (W : Permutation (map n_id es ++ n_id e :: g_freed s) (seq 0 (g_next s))). { rewrite <- Permutation_middle. exact Hw. }
  unfold del_at. rewrite R, Hc. cbn [length]. rewrite Nat.sub_succ, Nat.sub_0_r. destruct (Nat.eqb_spec (length es) 0) as [Z|Z].
  - rewrite Hp. cbn [free_blk]. rewrite Hb. destruct es; [|discriminate]. cbn [length del_keys_from]. eexists. split; [reflexivity|]. cbn.
    split; [reflexivity|]. split; [reflexivity|]. split; [apply allfree_upd; exact Ho|]. split; [exact W|reflexivity].
  - assert (Hes : es <> []) by (intros ->; cbn in Z; lia).
    assert (Hs1 : forall j e', nth_error es j = Some e' -> nth_error l (S i + j) = Some (SEnt e')).
    { intros j e' E'. replace (S i + j) with (i + S j) by lia. apply Hs. exact E'. }
    destruct (Nat.eqb_spec i (length es)) as [Q|Q].
    + destruct (IH (mkGst (mkG (g_store (g_grp s)) (g_ptr (g_grp s)) (length es)) (g_heap s) (g_next s) (n_id e :: g_freed s)) b l (S i)) as (s' & H1 & H2); cbn [g_ptr g_grp g_heap g_cnt]; auto.
      exists s'. split; [exact H1|exact H2].
    + rewrite Hp, Hb.
      assert (exists x, nth_error l (length es) = Some x) as [x Ex].
      { destruct (nth_error l (length es)) eqn:N; eauto. apply nth_error_None in N.
        destruct (nth_error es (length es - 1)) as [y|] eqn:Ny. 2: { apply nth_error_None in Ny. lia. }
        specialize (Hs1 _ _ Ny). assert (S i + (length es - 1) < length l) by (apply nth_error_Some; congruence). lia. }
      rewrite Ex. unfold write_slot. cbn [g_ptr g_grp g_heap]. rewrite Hb.
      assert (Li : i < length l) by (apply nth_error_Some; congruence). apply Nat.ltb_lt in Li. rewrite Li.
      destruct (IH (mkGst (mkG (g_store (g_grp s)) (PBlk b) (length es)) (upd (g_heap s) b (BArr (upd l i x))) (g_next s) (n_id e :: g_freed s)) b (upd l i x) (S i)) as (s' & H1 & H2);
        cbn [g_ptr g_grp g_heap g_cnt]; auto.
      * exact (upd_nth_other _ _ _ _ Hb).
      * apply onlyblk_upd. exact Ho.
      * intros j e' E'. rewrite nth_upd. destruct (Nat.eqb_spec i (S i + j)); [lia|]. exact (Hs1 j e' E').
      * exists s'. split; [exact H1|exact H2].
Qed.

Lemma free_ents_arr : forall es s b l i, g_ptr (g_grp s) = PBlk b -> nth_error (g_heap s) b = Some (BArr l) ->
  (forall j e, nth_error es j = Some e -> nth_error l (i + j) = Some (SEnt e)) -> owned s es ->
  exists fr, free_ents s i (length es) = Some (mkGst (g_grp s) (g_heap s) (g_next s) fr) /\ Permutation fr (seq 0 (g_next s)).
Proof.
  induction es as [|e es IH]; intros s b l i Hp Hb Hs Hw; cbn [length free_ents].
  - exists (g_freed s). split; [destruct s; reflexivity|exact Hw].
  - assert (El : nth_error l i = Some (SEnt e)). { specialize (Hs 0 e eq_refl). rewrite Nat.add_0_r in Hs. exact Hs. }
    assert (R : read_ent s i = Some e). { unfold read_ent. rewrite Hp, Hb, El. rewrite (not_freed s (e :: es) e Hw (or_introl eq_refl)). reflexivity. }
    rewrite R. destruct (IH (mkGst (g_grp s) (g_heap s) (g_next s) (n_id e :: g_freed s)) b l (S i)) as (fr & Q & P); auto.
    + intros j e' E'. replace (S i + j) with (i + S j) by lia. apply Hs. exact E'.
    + unfold owned. cbn. rewrite <- Permutation_middle. exact Hw.
    + exists fr. auto.
Qed.

Lemma firstn_resize l n m : n <= m -> n <= length l -> firstn n (resize l m) = firstn n l.
Proof.
  intros H L. unfold resize. rewrite firstn_app, firstn_firstn. rewrite Nat.min_l by exact H. rewrite firstn_length, Nat.min_comm.
  replace (n - Nat.min (length l) m) with 0 by lia. cbn. apply app_nil_r.
Qed.
Lemma resize_length l m : length (resize l m) = m.
Proof. unfold resize. rewrite app_length, firstn_length, repeat_length. lia. Qed.

Lemma upd_last {A} (l : list A) x : forall n, n < length l -> firstn (S n) (upd l n x) = firstn n l ++ [x].
Proof. induction l as [|y l IH]; intros [|n] H; cbn [length] in H; try lia. - reflexivity. - cbn [upd]. rewrite !firstn_cons. cbn [app]. f_equal. apply IH. lia. Qed.

Lemma owned_new s es n h g : owned s es -> owned (mkGst g h (S (g_next s)) (g_freed s)) (es ++ [mkEnt (g_next s) n None]).
Proof.
  unfold owned. cbn [g_freed g_next]. intros H. rewrite map_app. cbn [map n_id]. rewrite <- app_assoc. cbn [app]. rewrite seq_S. cbn.
  rewrite <- Permutation_middle. rewrite H. apply Permutation_cons_append.
Qed.

(* ------------------------------------------------------------------ *)
(** ** The memory holds the configuration *)

(** [user]: the public keys of a user; otherwise a group of certificates. *)
Inductive rep (user : bool) (s : gst) : cfg -> Prop :=
| rep_none : g_ptr (g_grp s) = PNull -> g_cnt (g_grp s) = 0 -> allfree (g_heap s) -> owned s [] -> (user = false -> g_store (g_grp s) = SLocal) -> rep user s cfg0
| rep_in l es : es <> [] -> arr s es -> owned s es -> g_store (g_grp s) = SLocal -> Permutation (map nd es) l -> NoDup (map fst l) -> rep user s (mkCfg l None false)
| rep_ref r b : g_ptr (g_grp s) = PBlk b -> nth_error (g_heap s) b = Some (BStr r) -> onlyblk (g_heap s) b -> g_cnt (g_grp s) = 0 -> owned s [] ->
    g_store (g_grp s) = STruststore -> rep user s (mkCfg [] (Some r) false)
| rep_sys : user = true -> g_ptr (g_grp s) = PNull -> g_cnt (g_grp s) = 0 -> allfree (g_heap s) -> owned s [] -> g_store (g_grp s) = SSystem -> rep user s (mkCfg [] None true).

Lemma rep0 user : rep user gst0 cfg0.
Proof. apply rep_none; try reflexivity. - intros b x H. destruct b; discriminate. - apply Permutation_refl. Qed.

Lemma has_false l n : has l n = false -> ~ In n (map fst l).
Proof.
  intros H I. apply in_map_iff in I. destruct I as (p & E & I). assert (has l n = true); [|congruence]. apply existsb_exists. exists p. split; [exact I|].
  rewrite E. apply String.eqb_refl.
Qed.
Lemma has_perm l l' n : Permutation l l' -> has l n = has l' n.
Proof.
  intros P. apply eq_true_iff_eq. unfold has. rewrite !existsb_exists.
  split; intros (x & I & E); exists x; (split; [|exact E]).
  - exact (Permutation_in _ P I). - exact (Permutation_in _ (Permutation_sym P) I).
Qed.
Lemma perm_filter {A} (f : A -> bool) l l' : Permutation l l' -> Permutation (filter f l) (filter f l').
Proof.
  induction 1; cbn; try reflexivity.
  - destruct (f x); [constructor|]; assumption.
  - destruct (f x), (f y); try reflexivity. apply perm_swap.
  - etransitivity; eassumption.
Qed.
Lemma filter_all {A} (f : A -> bool) l : (forall x, In x l -> f x = true) -> filter f l = l.
Proof. induction l as [|x l IH]; intros H; cbn; [reflexivity|]. rewrite (H x (or_introl eq_refl)). f_equal. apply IH. intros y Hy. apply H. right. exact Hy. Qed.
Lemma map_same {A} (f : A -> A) l : (forall x, In x l -> f x = x) -> map f l = l.
Proof. induction l as [|x l IH]; intros H; cbn; [reflexivity|]. rewrite (H x (or_introl eq_refl)). f_equal. apply IH. intros y Hy. apply H. right. exact Hy. Qed.
Lemma nodup_filter {A B} (g : A -> B) (f : A -> bool) l : NoDup (map g l) -> NoDup (map g (filter f l)).
Proof.
  induction l as [|x l IH]; cbn; intros H; [constructor|]. inversion H; subst. destruct (f x); cbn; auto. constructor; auto.
  intros I. apply H2. apply in_map_iff in I. destruct I as (y & E & I). apply filter_In in I. rewrite <- E. apply in_map. tauto.
Qed.

Definition setd (n : string) (d : option string) (p : string * option string) := if String.eqb (fst p) n then (n, d) else p.

Lemma setd_fst n d l : map fst (map (setd n d) l) = map fst l.
Proof. rewrite map_map. apply map_ext. intros p. unfold setd. destruct (String.eqb_spec (fst p) n); cbn; congruence. Qed.

Lemma setd_upd n d l : forall i x, NoDup (map fst l) -> nth_error l i = Some x -> fst x = n -> map (setd n d) l = upd l i (n, d).
Proof.
  induction l as [|y l IH]; intros [|i] x H E F; cbn in E; try discriminate; cbn [map upd]; inversion H; subst.
  - injection E as ->. unfold setd at 1. rewrite String.eqb_refl. f_equal. apply map_same. intros z Hz. unfold setd.
    destruct (String.eqb_spec (fst z) (fst x)) as [Q|Q]; [|reflexivity]. exfalso. apply H2. rewrite <- Q. apply in_map. exact Hz.
  - rewrite (IH i x H3 E eq_refl). f_equal. unfold setd. destruct (String.eqb_spec (fst y) (fst x)) as [Q|Q]; [|reflexivity].
    exfalso. apply H2. rewrite Q. apply in_map. exact (nth_error_In _ _ E).
Qed.

(** A new entry. *)
Lemma add_rep s l n : (l = [] /\ g_ptr (g_grp s) = PNull /\ g_cnt (g_grp s) = 0 /\ allfree (g_heap s) /\ owned s [] \/
     exists es, es <> [] /\ arr s es /\ owned s es /\ Permutation (map nd es) l) ->
  g_store (g_grp s) = SLocal -> NoDup (map fst l) -> has l n = false -> (N.of_nat (length (l ++ [(n, None)])) <= 65535)%N -> forall user,
  exists s', add_ent s n = Done s' /\ rep user s' (mkCfg (l ++ [(n, None)]) None false).
Proof.
  intros H Hst Hnd Hh Hlen user. rewrite app_length in Hlen. cbn in Hlen.
  assert (Hnd' : NoDup (map fst (l ++ [(n, @None string)]))).
  { rewrite map_app. cbn. apply (Permutation_NoDup (Permutation_cons_append _ _)). constructor; [exact (has_false _ _ Hh)|exact Hnd]. }
  unfold add_ent. destruct H as [(-> & Hp & Hc & Hf & Hw)|(es & Hne & Ha & Hw & P)].
  - rewrite Hc. cbn [N.of_nat]. change (65535 <=? 0)%N with false. cbn iota. rewrite Hp. cbn [realloc repeat upd]. eexists. split; [reflexivity|].
    apply (rep_in user _ _ [mkEnt (g_next s) n None]); auto.
    + discriminate.
    + exists (length (g_heap s)), [SEnt (mkEnt (g_next s) n None)]. cbn. split; [reflexivity|]. split; [apply nth_new|]. split; [reflexivity|]. split; [reflexivity|]. apply onlyblk_new. exact Hf.
    + apply (owned_new s [] n). exact Hw.
  - destruct Ha as (b & a & Hp & Hb & Hfi & Hl & Ho).
    assert (Ll : length l = g_cnt (g_grp s)) by (rewrite <- (Permutation_length P), map_length; exact Hl).
    destruct (N.leb_spec 65535 (N.of_nat (g_cnt (g_grp s)))) as [Q|Q]; [lia|].
    rewrite Hp. cbn [realloc]. rewrite Hb. eexists. split; [reflexivity|].
    assert (La : g_cnt (g_grp s) <= length a). { assert (length (firstn (g_cnt (g_grp s)) a) = g_cnt (g_grp s)) as Q2 by (rewrite Hfi, map_length; exact Hl). rewrite firstn_length in Q2. lia. }
    set (a' := resize a (S (g_cnt (g_grp s)))).
    apply (rep_in user _ _ (es ++ [mkEnt (g_next s) n None])); auto.
    + destruct es; discriminate.
    + eexists _, _. cbn [g_ptr g_grp g_heap g_cnt]. split; [reflexivity|]. split; [apply nth_new|]. split; [|split].
      * rewrite upd_last by (unfold a'; rewrite resize_length; lia). unfold a'. rewrite firstn_resize by lia. rewrite Hfi, map_app. reflexivity.
      * rewrite app_length. cbn. lia.
      * apply onlyblk_new. apply allfree_upd. exact Ho.
    + apply (owned_new s es n). exact Hw.
    + rewrite map_app. apply Permutation_app_tail. exact P.
Qed.

(** The data of an entry. *)
Lemma data_rep user s l es n d : es <> [] -> arr s es -> owned s es -> g_store (g_grp s) = SLocal -> Permutation (map nd es) l -> NoDup (map fst l) -> has l n = true ->
  exists s', set_data s n d = Done s' /\ rep user s' (mkCfg (map (setd n d) l) None false).
Proof.
  intros Hne Ha Hw Hst P Hnd Hh. rewrite <- (has_perm _ _ n P) in Hh. destruct (get_arr s es n Ha Hw Hh) as (i & e & Hg & He & Hn).
  unfold set_data. rewrite Hg. destruct Ha as (b & a & Hp & Hb & Hfi & Hl & Ho). destruct (arr_slot _ _ _ _ _ Hfi Hl He) as [Ei Li].
  unfold write_slot. rewrite Hp, Hb. apply Nat.ltb_lt in Li. rewrite Li. eexists. split; [reflexivity|].
  set (e' := mkEnt (n_id e) (n_name e) d).
  apply (rep_in user _ _ (upd es i e')); auto.
  - intros Q. apply Hne. apply length_zero_iff_nil. rewrite <- (upd_len es e' i), Q. reflexivity.
  - exists b, (upd a i (SEnt e')). cbn. split; [exact Hp|]. split; [exact (upd_nth_other _ _ _ _ Hb)|]. split; [|split].
    + rewrite firstn_upd, Hfi. symmetry. apply (map_upd SEnt). + rewrite upd_len. exact Hl. + apply onlyblk_upd. exact Ho.
  - unfold owned. cbn [g_freed g_next]. rewrite map_upd. rewrite upd_same. { exact Hw. } rewrite nth_error_map, He. reflexivity.
  - rewrite map_upd. change (nd e') with (n_name e, d). rewrite Hn. rewrite <- (setd_upd n d (map nd es) i (nd e)).
    + apply Permutation_map. exact P.
    + exact (Permutation_NoDup (Permutation_map fst (Permutation_sym P)) Hnd).
    + rewrite nth_error_map, He. reflexivity.
    + exact Hn.
  - rewrite setd_fst. exact Hnd.
Qed.

(** The deletion of an entry. *)
Lemma del_rep user s l es n : es <> [] -> arr s es -> owned s es -> g_store (g_grp s) = SLocal -> Permutation (map nd es) l -> NoDup (map fst l) -> has l n = true ->
  exists s', del_ent s n = Done s' /\ rep user s' (mkCfg (filter (fun p => negb (String.eqb (fst p) n)) l) None false).
Proof.
  intros Hne Ha Hw Hst P Hnd Hh. rewrite <- (has_perm _ _ n P) in Hh. destruct (get_arr s es n Ha Hw Hh) as (i & e & Hg & He & Hn).
  unfold del_ent. rewrite Hg. destruct (del_arr s es i e Ha Hw He) as (s' & -> & Hs' & Hor). exists s'. split; [reflexivity|].
  set (f := fun p : string * option string => negb (String.eqb (fst p) n)).
  destruct Hor as [(-> & Hp & Hc & Hf & Ho)|(es' & Hne' & Ha' & Pe & Ho)].
  - pose proof (perm_filter f _ _ P) as Q. cbn [map filter] in Q. assert (Fe : f (nd e) = false). { unfold f, nd. cbn. rewrite Hn, String.eqb_refl. reflexivity. }
    rewrite Fe in Q. apply Permutation_nil in Q. rewrite Q. apply rep_none; auto. intros _. congruence.
  - apply (rep_in user _ _ es'); auto.
    + congruence.
    + rewrite <- (perm_filter f _ _ P). rewrite (perm_filter f _ _ (Permutation_map nd Pe)). cbn [map filter].
      assert (Fe : f (nd e) = false). { unfold f, nd. cbn. rewrite Hn, String.eqb_refl. reflexivity. }
      rewrite Fe. rewrite filter_all; [reflexivity|]. intros x Hx. unfold f. destruct (String.eqb_spec (fst x) n) as [Q|Q]; [|reflexivity].
      exfalso. assert (NoDup (map fst (map nd (e :: es')))) as U.
      { apply (Permutation_NoDup (l := map fst l)); [|exact Hnd]. apply Permutation_map. rewrite <- P. apply Permutation_map. exact Pe. }
      cbn in U. inversion U; subst. apply H1. rewrite <- Q. apply in_map. exact Hx.
    + apply nodup_filter. exact Hnd.
Qed.

Lemma free_none s : g_ptr (g_grp s) = PNull -> free_blk (g_heap s) (g_ptr (g_grp s)) = Some (g_heap s).
Proof. intros ->. reflexivity. Qed.

Lemma arr_offs s es b a : g_ptr (g_grp s) = PBlk b -> firstn (g_cnt (g_grp s)) a = map SEnt es -> length es = g_cnt (g_grp s) ->
  forall j e, nth_error es j = Some e -> nth_error a (0 + j) = Some (SEnt e).
Proof. intros Hp Hf Hl j e E. exact (proj1 (arr_slot _ _ _ _ _ Hf Hl E)). Qed.

(** Each change of a user, when the configurations before and after are valid. *)
Lemma user_step s c o c' : rep true s c -> change c o = Some c' -> valid c' -> exists s', user_op s o = Done s' /\ rep true s' c'.
Proof.
  intros R C V. destruct o as [n|n d|n|r| | | |]; cbn [user_op].
  - (* create *)
    unfold change in C. destruct (has (c_in c) n) eqn:Hh; [discriminate|]. injection C as <-.
    inversion R as [Hp Hc Hf Hw Hst E|l es Hne Ha Hw Hst P Hnd E|r b Hp Hb Ho Hc Hw Hst E|_ Hp Hc Hf Hw Hst E]; subst c; cbn [c_in c_ref c_sys cfg0] in *.
    + apply (add_rep _ []); try reflexivity. * left. cbn. auto. * constructor. * exact (proj2 V).
    + apply (add_rep _ l); auto. * right. exists es. auto. * exact (proj2 V).
    + destruct V as [[] _].
    + destruct V as [[] _].
  - (* data *)
    unfold change in C. destruct (has (c_in c) n) eqn:Hh; [|discriminate]. injection C as <-.
    inversion R as [Hp Hc Hf Hw Hst E|l es Hne Ha Hw Hst P Hnd E|r b Hp Hb Ho Hc Hw Hst E|_ Hp Hc Hf Hw Hst E]; subst c; cbn [c_in c_ref c_sys cfg0] in *; try discriminate Hh.
    exact (data_rep true s l es n d Hne Ha Hw Hst P Hnd Hh).
  - (* delete *)
    unfold change in C. destruct (has (c_in c) n) eqn:Hh; [|discriminate]. injection C as <-.
    inversion R as [Hp Hc Hf Hw Hst E|l es Hne Ha Hw Hst P Hnd E|r b Hp Hb Ho Hc Hw Hst E|_ Hp Hc Hf Hw Hst E]; subst c; cbn [c_in c_ref c_sys cfg0] in *; try discriminate Hh.
    exact (del_rep true s l es n Hne Ha Hw Hst P Hnd Hh).
  - (* reference *)
    injection C as <-. unfold ref_set.
    inversion R as [Hp Hc Hf Hw Hst E|l es Hne Ha Hw Hst P Hnd E|r0 b Hp Hb Ho Hc Hw Hst E|_ Hp Hc Hf Hw Hst E]; subst c; cbn [c_in c_ref c_sys cfg0] in *.
    + rewrite Hp. cbn [free_blk]. eexists. split; [reflexivity|]. apply (rep_ref true _ r (length (g_heap s))); cbn; auto. * apply nth_new. * apply onlyblk_new. exact Hf.
    + exfalso. destruct l. * apply Permutation_sym, Permutation_nil in P. destruct es; [congruence|discriminate]. * destruct V as [[] _].
    + rewrite Hp. cbn [free_blk]. rewrite Hb. eexists. split; [reflexivity|]. apply (rep_ref true _ r (length (upd (g_heap s) b BFree))); cbn; auto. * apply nth_new. * apply onlyblk_new. apply allfree_upd. exact Ho.
    + destruct V as [[] _].
  - (* no reference *)
    unfold change in C. unfold ref_del.
    inversion R as [Hp Hc Hf Hw Hst E|l es Hne Ha Hw Hst P Hnd E|r0 b Hp Hb Ho Hc Hw Hst E|_ Hp Hc Hf Hw Hst E]; subst c; cbn [c_in c_ref c_sys cfg0] in *; try discriminate C.
    injection C as <-. rewrite Hp. cbn [free_blk]. rewrite Hb. eexists. split; [reflexivity|]. apply rep_none; cbn; auto. * apply allfree_upd. exact Ho. * discriminate.
  - (* system *)
    unfold change in C.
    inversion R as [Hp Hc Hf Hw Hst E|l es Hne Ha Hw Hst P Hnd E|r0 b Hp Hb Ho Hc Hw Hst E|_ Hp Hc Hf Hw Hst E]; subst c; cbn [c_in c_ref c_sys cfg0] in *; try discriminate C; injection C as <-.
    + eexists. split; [reflexivity|]. apply rep_sys; cbn; auto.
    + exfalso. destruct l. * apply Permutation_sym, Permutation_nil in P. destruct es; [congruence|discriminate]. * destruct V as [[] _].
    + destruct V as [[] _].
  - (* no system *)
    unfold change in C.
    inversion R as [Hp Hc Hf Hw Hst E|l es Hne Ha Hw Hst P Hnd E|r0 b Hp Hb Ho Hc Hw Hst E|_ Hp Hc Hf Hw Hst E]; subst c; cbn [c_in c_ref c_sys cfg0] in *; try discriminate C; injection C as <-.
    eexists. split; [reflexivity|]. apply rep_none; auto. discriminate.
  - (* container *)
    injection C as <-. unfold user_clear.
    inversion R as [Hp Hc Hf Hw Hst E|l es Hne Ha Hw Hst P Hnd E|r0 b Hp Hb Ho Hc Hw Hst E|_ Hp Hc Hf Hw Hst E]; subst c; cbn [c_in c_ref c_sys cfg0] in *.
    + destruct (g_store (g_grp s)) eqn:St.
      * rewrite Hc. cbn [del_keys_from]. eexists. split; [reflexivity|]. apply rep_none; auto.
      * eexists. split; [reflexivity|]. apply rep_none; auto. discriminate.
      * unfold ref_del. rewrite Hp. cbn [free_blk]. eexists. split; [reflexivity|]. apply rep_none; cbn; auto. discriminate.
      * eexists. split; [reflexivity|]. apply rep_none; auto. discriminate.
    + rewrite Hst. destruct Ha as (b & a & Hp & Hb & Hfi & Hl & Ho).
      destruct (del_keys_arr es s b a 0 Hne Hp Hb Ho (eq_sym Hl) (arr_offs s es b a Hp Hfi Hl) Hw) as (s' & Hd & H1 & H2 & H3 & H4 & _). rewrite <- Hl, Hd. exists s'. split; [reflexivity|].
      apply rep_none; auto. discriminate.
    + rewrite Hst. unfold ref_del. rewrite Hp. cbn [free_blk]. rewrite Hb. eexists. split; [reflexivity|]. apply rep_none; cbn; auto. * apply allfree_upd. exact Ho. * discriminate.
    + rewrite Hst. eexists. split; [reflexivity|]. apply rep_none; auto. discriminate.
Qed.

(** The same for certificates, where a reference goes away only with its container. *)
Definition no_rdel (o : cop) : Prop := match o with RDel | SysSet | SysDel => False | _ => True end.

Lemma cert_step s c o c' : rep false s c -> change c o = Some c' -> valid c' -> no_rdel o -> exists s', cert_op s o = Done s' /\ rep false s' c'.
Proof.
  intros R C V NR. destruct o as [n|n d|n|r| | | |]; cbn [cert_op]; try contradiction.
  - unfold change in C. destruct (has (c_in c) n) eqn:Hh; [discriminate|]. injection C as <-.
    inversion R as [Hp Hc Hf Hw Hst E|l es Hne Ha Hw Hst P Hnd E|r b Hp Hb Ho Hc Hw Hst E|X Hp Hc Hf Hw Hst E]; subst c; cbn [c_in c_ref c_sys cfg0] in *; try discriminate X.
    + apply (add_rep _ []); try reflexivity. * left. auto. * apply Hst. reflexivity. * constructor. * exact (proj2 V).
    + apply (add_rep _ l); auto. * right. exists es. auto. * exact (proj2 V).
    + destruct V as [[] _].
  - unfold change in C. destruct (has (c_in c) n) eqn:Hh; [|discriminate]. injection C as <-.
    inversion R as [Hp Hc Hf Hw Hst E|l es Hne Ha Hw Hst P Hnd E|r b Hp Hb Ho Hc Hw Hst E|X Hp Hc Hf Hw Hst E]; subst c; cbn [c_in c_ref c_sys cfg0] in *; try discriminate Hh.
    exact (data_rep false s l es n d Hne Ha Hw Hst P Hnd Hh).
  - unfold change in C. destruct (has (c_in c) n) eqn:Hh; [|discriminate]. injection C as <-.
    inversion R as [Hp Hc Hf Hw Hst E|l es Hne Ha Hw Hst P Hnd E|r b Hp Hb Ho Hc Hw Hst E|X Hp Hc Hf Hw Hst E]; subst c; cbn [c_in c_ref c_sys cfg0] in *; try discriminate Hh.
    exact (del_rep false s l es n Hne Ha Hw Hst P Hnd Hh).
  - injection C as <-. unfold ref_set.
    inversion R as [Hp Hc Hf Hw Hst E|l es Hne Ha Hw Hst P Hnd E|r0 b Hp Hb Ho Hc Hw Hst E|X Hp Hc Hf Hw Hst E]; subst c; cbn [c_in c_ref c_sys cfg0] in *; try discriminate X.
    + rewrite Hp. cbn [free_blk]. eexists. split; [reflexivity|]. apply (rep_ref false _ r (length (g_heap s))); cbn; auto. * apply nth_new. * apply onlyblk_new. exact Hf.
    + exfalso. destruct l. * apply Permutation_sym, Permutation_nil in P. destruct es; [congruence|discriminate]. * destruct V as [[] _].
    + rewrite Hp. cbn [free_blk]. rewrite Hb. eexists. split; [reflexivity|]. apply (rep_ref false _ r (length (upd (g_heap s) b BFree))); cbn; auto. * apply nth_new. * apply onlyblk_new. apply allfree_upd. exact Ho.
  - injection C as <-. unfold cert_clear.
    inversion R as [Hp Hc Hf Hw Hst E|l es Hne Ha Hw Hst P Hnd E|r0 b Hp Hb Ho Hc Hw Hst E|X Hp Hc Hf Hw Hst E]; subst c; cbn [c_in c_ref c_sys cfg0] in *; try discriminate X.
    + rewrite (Hst eq_refl), Hc. cbn [free_ents]. rewrite Hp. cbn [free_blk]. eexists. split; [reflexivity|]. apply rep_none; cbn; auto.
    + rewrite Hst. destruct Ha as (b & a & Hp & Hb & Hfi & Hl & Ho).
      destruct (free_ents_arr es s b a 0 Hp Hb (arr_offs s es b a Hp Hfi Hl) Hw) as (fr & Hd & P'). rewrite <- Hl, Hd. cbn [g_heap]. rewrite Hp. cbn [free_blk]. rewrite Hb. eexists. split; [reflexivity|].
      apply rep_none; cbn; auto. apply allfree_upd. exact Ho.
    + rewrite Hst. rewrite Hp. cbn [free_blk]. rewrite Hb. eexists. split; [reflexivity|]. apply rep_none; cbn; auto. apply allfree_upd. exact Ho.
Qed.

Lemma user_run l : forall s c c', rep true s c -> clean c l -> changes c l = Some c' -> exists s', run user_op s l = Done s' /\ rep true s' c'.
Proof.
  induction l as [|o l IH]; intros s c c' R K C; cbn [run changes clean] in *.
  - injection C as <-. eauto.
  - destruct (change c o) as [c1|] eqn:E; [|contradiction]. destruct K as [V K]. destruct (user_step s c o c1 R E V) as (s1 & -> & R1). exact (IH s1 c1 c' R1 K C).
Qed.
Lemma cert_run l : forall s c c', rep false s c -> clean c l -> Forall no_rdel l -> changes c l = Some c' -> exists s', run cert_op s l = Done s' /\ rep false s' c'.
Proof.
  induction l as [|o l IH]; intros s c c' R K F C; cbn [run changes clean] in *.
  - injection C as <-. eauto.
  - destruct (change c o) as [c1|] eqn:E; [|contradiction]. destruct K as [V K]. inversion F; subst. destruct (cert_step s c o c1 R E V H1) as (s1 & -> & R1). exact (IH s1 c1 c' R1 K H2 C).
Qed.

Lemma read_all_arr s es : arr s es -> owned s es -> forall n i, i + n = length es -> read_all s i n = Some (map nd (skipn i es)).
Proof.
  intros Ha Hw. induction n as [|n IH]; intros i Hi; cbn [read_all].
  - rewrite skipn_all2 by lia. reflexivity.
  - destruct (nth_error es i) as [e|] eqn:E. 2: { apply nth_error_None in E. lia. }
    rewrite (read_arr _ _ _ _ Ha Hw E), (IH (S i)) by lia. rewrite (skipn_nth _ _ _ E). reflexivity.
Qed.

Lemma local_use s es : es <> [] -> arr s es -> owned s es -> use_local s = UKeys (map nd es).
Proof.
  intros Hne Ha Hw. pose proof Ha as (b & a & _ & _ & _ & Hl & _). unfold use_local. rewrite <- Hl.
  rewrite (read_all_arr s es Ha Hw (length es) 0 eq_refl). destruct es; [congruence|reflexivity].
Qed.

Lemma rep_use user s c bags : rep user s c -> c <> cfg0 \/ g_store (g_grp s) = SLocal -> meets c (if user then user_use s bags else cert_use s bags).
Proof.
  intros R H. inversion R as [Hp Hc Hf Hw Hst E|l es Hne Ha Hw Hst P Hnd E|r0 b Hp Hb Ho Hc Hw Hst E|X Hp Hc Hf Hw Hst E]; subst c.
  - destruct H as [H|H]; [congruence|]. unfold meets. cbn [c_in c_ref c_sys cfg0]. unfold user_use, cert_use, use_local. rewrite H, Hc. destruct user; reflexivity.
  - unfold meets. cbn [c_in c_ref c_sys]. assert (Q : (if user then user_use s bags else cert_use s bags) = UKeys (map nd es)).
    { unfold user_use, cert_use. rewrite Hst. rewrite (local_use s es Hne Ha Hw). destruct user; reflexivity. }
    rewrite Q. destruct l. + apply Permutation_sym, Permutation_nil in P. destruct es; [congruence|discriminate]. + eauto.
  - unfold meets. cbn [c_in c_ref c_sys]. unfold user_use, cert_use, use_ref. rewrite Hst, Hp, Hb. destruct user; reflexivity.
  - unfold meets. cbn [c_in c_ref c_sys]. subst user. unfold user_use. rewrite Hst. reflexivity.
Qed.

(* ------------------------------------------------------------------ *)
(** ** Strings *)

Definition blks (ws : list word) : list nat := flat_map (fun w => match w with WBlk b => [b] | _ => [] end) ws.
Definition isp (w : word) : Prop := match w with W0 | WBlk _ => True | _ => False end.

(** The words are NULL or pointers to different strings. *)
Definition ok (h : sheap) (ws : list word) : Prop :=
  Forall isp ws /\ NoDup (blks ws) /\ forall b, In b (blks ws) -> exists s, nth_error h b = Some (Some s).

Lemma ok_perm h ws ws' : Permutation ws ws' -> ok h ws -> ok h ws'.
Proof.
  intros P (H1 & H2 & H3). assert (Q : Permutation (blks ws) (blks ws')) by (apply flat_map_perm; exact P).
  split; [|split].
  - rewrite Forall_forall in *. intros x Hx. apply H1. exact (Permutation_in _ (Permutation_sym P) Hx).
  - exact (Permutation_NoDup Q H2).
  - intros b Hb. apply H3. exact (Permutation_in _ (Permutation_sym Q) Hb).
Qed.

Lemma wfree_ok h w ws : ok h (w :: ws) -> exists h', wfree h w = Some h' /\ ok h' ws /\ (forall x, In x ws -> wread h' x = wread h x) /\ length h' = length h.
Proof.
  intros (H1 & H2 & H3). inversion H1; subst. destruct w as [|b| |]; cbn in H4; try contradiction.
  - exists h. cbn. split; [reflexivity|]. split; [|auto]. split; [exact H5|]. auto.
  - cbn in H2, H3. inversion H2; subst. destruct (H3 b (or_introl eq_refl)) as (s & Hs). cbn [wfree]. rewrite Hs. exists (upd h b None). split; [reflexivity|]. split; [|split].
    + split; [exact H5|]. split; [exact H7|]. intros b' Hb'. destruct (H3 b' (or_intror Hb')) as (s' & Hs'). exists s'. rewrite nth_upd.
      destruct (Nat.eqb_spec b b') as [Q|Q]; [exfalso; subst b'; exact (H6 Hb')|exact Hs'].
    + intros x Hx. destruct x as [|b'| |]; cbn; try reflexivity. rewrite nth_upd. destruct (Nat.eqb_spec b b') as [->|]; [|reflexivity].
      exfalso. apply H6. apply in_flat_map. exists (WBlk b'). cbn. auto.
    + apply upd_len.
Qed.

Lemma wset_ok h w ws v : ok h (w :: ws) -> exists h' w', wset h w v = Some (h', w') /\ ok h' (w' :: ws) /\ wread h' w' = v /\ (forall x, In x ws -> wread h' x = wread h x) /\
  (v = None <-> w' = W0).
Proof.
  intros H. destruct (wfree_ok h w ws H) as (h1 & E & (K1 & K2 & K3) & R & L). unfold wset. rewrite E. destruct v as [s|].
  - exists (h1 ++ [Some s]), (WBlk (length h1)). split; [reflexivity|]. split; [|split; [|split]].
    + split; [constructor; [exact I|exact K1]|]. split.
      * cbn. constructor; [|exact K2]. intros J. destruct (K3 _ J) as (s' & Q). assert (length h1 < length h1) by (apply nth_error_Some; congruence). lia.
      * cbn. intros b [<-|J]. { exists s. apply nth_new. } destruct (K3 b J) as (s' & Q). exists s'. rewrite nth_error_app1; [exact Q|]. apply nth_error_Some. congruence.
    + cbn. rewrite nth_new. reflexivity.
    + intros x Hx. rewrite <- (R x Hx). destruct x as [|b| |]; cbn; try reflexivity.
      assert (In b (blks ws)) as J by (apply in_flat_map; exists (WBlk b); cbn; auto). destruct (K3 b J) as (s' & Q). rewrite nth_error_app1; [reflexivity|]. apply nth_error_Some. congruence.
    + split; discriminate.
  - exists h1, W0. split; [reflexivity|]. split; [|split; [|split]]; auto.
    + split; [constructor; [exact I|exact K1]|]. auto.
    + split; reflexivity.
Qed.

(** ** Host keys *)

Definition hok (k : hk) := ok (k_heap k) [k_ref k; k_pub k; k_priv k].

(** What a host key holds, as texts. *)
Record hview := mkV { v_local : bool; v_ref : option string; v_pub : option string; v_priv : option string }.
Definition view (k : hk) : hview :=
  mkV (match k_store k with SLocal => true | _ => false end) (wread (k_heap k) (k_ref k)) (wread (k_heap k) (k_pub k)) (wread (k_heap k) (k_priv k)).
Definition vop (v : hview) (o : hop) : hview :=
  match o with
  | HPub None => v
  | HPub (Some s) => mkV true (v_ref v) (Some s) (v_priv v)
  | HPriv x => mkV (v_local v) (v_ref v) (v_pub v) x
  | HRef x => mkV (match x with Some _ => false | None => v_local v end) x (v_pub v) (v_priv v)
  end.

Lemma hk_step k o : hok k -> exists k', hk_op k o = Some k' /\ hok k' /\ view k' = vop (view k) o.
Proof.
  intros H. unfold hok in H. destruct o as [[s|]|v|v]; cbn [hk_op].
  - assert (H' : ok (k_heap k) [k_pub k; k_ref k; k_priv k]) by (revert H; apply ok_perm; apply perm_swap).
    destruct (wset_ok _ _ _ (Some s) H') as (h & w & -> & K & R & O & _). eexists. split; [reflexivity|]. split.
    + unfold hok. cbn. revert K. apply ok_perm. apply perm_swap.
    + unfold view. cbn. rewrite R, !O by (cbn; auto). reflexivity.
  - exists k. auto.
  - assert (P : Permutation [k_ref k; k_pub k; k_priv k] [k_priv k; k_ref k; k_pub k]) by (apply (Permutation_sym (Permutation_cons_append [k_ref k; k_pub k] (k_priv k)))).
    destruct (wset_ok _ _ _ v (ok_perm _ _ _ P H)) as (h & w & -> & K & R & O & _). eexists. split; [reflexivity|]. split.
    + unfold hok. cbn. revert K. apply ok_perm. apply (Permutation_cons_append [k_ref k; k_pub k] w).
    + unfold view. cbn. rewrite R, !O by (cbn; auto). reflexivity.
  - destruct (wset_ok _ _ _ v H) as (h & w & -> & K & R & O & _). eexists. split; [reflexivity|]. split.
    + exact K.
    + unfold view. cbn. rewrite R, !O by (cbn; auto). destruct v; reflexivity.
Qed.

Lemma hk_steps l : forall k, hok k -> exists k', hk_run k l = Some k' /\ hok k' /\ view k' = fold_left vop l (view k).
Proof.
  induction l as [|o l IH]; intros k H; cbn [hk_run fold_left]. - eauto.
  - destruct (hk_step k o H) as (k1 & -> & H1 & V1). destruct (IH k1 H1) as (k' & E & H' & V'). exists k'. rewrite <- V1. auto.
Qed.

(** The configurations of a host key, and the changes from one to the other, in any order of the nodes; nodes which do not change
    are not there, and nodes below a deleted container may not be there. *)
Inductive hcfg := HNone | HIn (pub priv : string) | HTo (r : string).

Definition may (o : hop) (l : list hop) : Prop := l = [] \/ l = [o].
Inductive hdiff : hcfg -> list hop -> hcfg -> Prop :=
| hd_new_in l p k : Permutation l [HPub (Some p); HPriv (Some k)] -> hdiff HNone l (HIn p k)
| hd_new_ref r : hdiff HNone [HRef (Some r)] (HTo r)
| hd_in l a b p k p' k' : Permutation l (a ++ b) -> (a = [HPub (Some p')] \/ a = [] /\ p' = p) -> (b = [HPriv (Some k')] \/ b = [] /\ k' = k) -> hdiff (HIn p k) l (HIn p' k')
| hd_ref r r' : hdiff (HTo r) [HRef (Some r')] (HTo r')
| hd_to_ref l a b p k r : Permutation l (HRef (Some r) :: a ++ b) -> may (HPub None) a -> may (HPriv None) b -> hdiff (HIn p k) l (HTo r)
| hd_to_in l r p k : Permutation l [HRef None; HPub (Some p); HPriv (Some k)] -> hdiff (HTo r) l (HIn p k).

Inductive hhist : list hop -> hcfg -> Prop :=
| hh0 : hhist [] HNone
| hhs l c d c' : hhist l c -> hdiff c d c' -> hhist (l ++ d) c'.

Definition hmeets (c : hcfg) (u : huse) : Prop := match c with HNone => True | HIn _ k => u = HKey k | HTo r => u = HName r end.

Definition vrep (c : hcfg) (v : hview) : Prop :=
  match c with
  | HNone => True
  | HIn p k => v_local v = true /\ v_priv v = Some k /\ v_pub v = Some p
  | HTo r => v_local v = false /\ v_ref v = Some r
  end.

Lemma perm3 {A} (l : list A) a b c : Permutation l [a; b; c] -> In l [[a; b; c]; [a; c; b]; [b; a; c]; [b; c; a]; [c; a; b]; [c; b; a]].
Proof.
  intros P. pose proof (Permutation_length P) as L. destruct l as [|x [|y [|z [|]]]]; cbn in L; try lia. clear L.
  assert (In x [a; b; c]) as I by (apply (Permutation_in _ P); left; reflexivity). cbn in I.
  destruct I as [->|[->|[->|[]]]].
  - apply Permutation_cons_inv in P. apply Permutation_length_2_inv in P. cbn. destruct P as [Q|Q]; injection Q as -> ->; auto 10.
  - assert (Permutation [x; y; z] [x; a; c]) as P' by (rewrite P; apply perm_swap). apply Permutation_cons_inv in P'. apply Permutation_length_2_inv in P'. cbn. destruct P' as [Q|Q]; injection Q as -> ->; auto 10.
  - assert (Permutation [x; y; z] [x; a; b]) as P' by (rewrite P; apply (Permutation_sym (Permutation_cons_append [a; b] x))). apply Permutation_cons_inv in P'. apply Permutation_length_2_inv in P'. cbn.
    destruct P' as [Q|Q]; injection Q as -> ->; auto 10.
Qed.

Lemma perm2 {A} (l : list A) a b : Permutation l [a; b] -> l = [a; b] \/ l = [b; a].
Proof. intros P. apply Permutation_sym in P. exact (Permutation_length_2_inv P). Qed.
Lemma perm1 {A} (l : list A) a : Permutation l [a] -> l = [a].
Proof. intros P. apply Permutation_sym in P. exact (Permutation_length_1_inv P). Qed.

Lemma hdiff_view c d c' v : hdiff c d c' -> vrep c v -> vrep c' (fold_left vop d v).
Proof.
  intros D R. destruct D as [l p k P|r|l a b p k p' k' P Ha Hb|r r'|l a b p k r P Ha Hb|l r p k P]; cbn [vrep] in *.
  - apply perm2 in P. destruct P as [-> | ->]; cbn; auto.
  - cbn. auto.
  - destruct R as (R1 & R2 & R3). destruct Ha as [-> | [-> ->]], Hb as [-> | [-> ->]]; cbn [app] in P.
    + apply perm2 in P. destruct P as [-> | ->]; cbn; auto.
    + apply perm1 in P. subst l. cbn. auto.
    + apply perm1 in P. subst l. cbn. auto.
    + apply Permutation_sym, Permutation_nil in P. subst l. cbn. auto.
  - cbn. auto.
  - destruct Ha as [-> | ->], Hb as [-> | ->]; cbn [app] in P.
    + apply perm1 in P. subst l. cbn. auto.
    + apply perm2 in P. destruct P as [-> | ->]; cbn; auto.
    + apply perm2 in P. destruct P as [-> | ->]; cbn; auto.
    + apply perm3 in P. cbn [In] in P. destruct P as [<-|[<-|[<-|[<-|[<-|[<-|[]]]]]]]; cbn; auto.
  - apply perm3 in P. cbn [In] in P. destruct P as [<-|[<-|[<-|[<-|[<-|[<-|[]]]]]]]; cbn; auto.
Qed.

Lemma hok0 : hok hk0.
Proof. split; [repeat constructor|]. split; [constructor|]. intros b []. Qed.

Lemma vrep_use c k : hok k -> vrep c (view k) -> hmeets c (hk_use k).
Proof.
  intros _ R. unfold view, vrep, hmeets, hk_use in *. destruct c as [|p s|r]; cbn [v_local v_priv v_pub v_ref] in R; auto.
  - destruct R as (R1 & R2 & _). destruct (k_store k); try discriminate. rewrite R2. reflexivity.
  - destruct R as (R1 & R2). rewrite R2. destruct (k_store k); try discriminate; reflexivity.
Qed.

Lemma fold_app_view l d v : fold_left vop (l ++ d) v = fold_left vop d (fold_left vop l v).
Proof. apply fold_left_app. Qed.

Lemma hhist_view l c : hhist l c -> vrep c (fold_left vop l (view hk0)).
Proof. induction 1 as [|l c d c' H IH D]; [exact I|]. rewrite fold_app_view. exact (hdiff_view c d c' _ D IH). Qed.

Lemma hk_del_ok k : hok k -> exists h, hk_del k = Some h.
Proof.
  intros H. unfold hk_del, hok in *. destruct (k_store k).
  2-4: destruct (wfree_ok _ _ _ H) as (h & E & _); eauto.
  assert (H' : ok (k_heap k) [k_pub k; k_priv k; k_ref k]) by (revert H; apply ok_perm; apply (Permutation_cons_append [k_pub k; k_priv k] (k_ref k))).
  destruct (wfree_ok _ _ _ H') as (h & -> & K & _). destruct (wfree_ok _ _ _ K) as (h' & -> & _). eauto.
Qed.

(** ** The identity of a TLS server *)

(** The last value given to something; [x] before. *)
Definition lastv {A} (f : top -> option A) (l : list top) (x : A) : A := fold_left (fun a o => match f o with Some v => v | None => a end) l x.
Definition krefs (o : top) : option (option string) := match o with TKRef v => Some v | _ => None end.
Definition crefs (o : top) : option (option string) := match o with TCRef v => Some v | _ => None end.
Definition privs (o : top) : option (option string) := match o with TPriv v => Some v | _ => None end.
(** Deleting only a certificate is not possible: it is mandatory. *)
Definition certs (o : top) : option (option string) := match o with TCert (Some v) => Some (Some v) | _ => None end.
Definition types (o : top) : option bool := match o with TType (Some b) => Some b | _ => None end.

Definition is_ref (o : top) : Prop := match o with TKRef _ | TCRef _ => True | _ => False end.
Definition is_inl (o : top) : Prop := match o with TKRef _ | TCRef _ => False | _ => True end.

(** References only. *)
Definition rok (t : tid) := ok (t_heap t) [t_w0 t; t_w1 t] /\ t_priv t = W0 /\ t_cert t = W0.

Lemma ref_step t o : is_ref o -> rok t -> exists t', tid_op t o = Some t' /\ rok t' /\
  wread (t_heap t') (t_w0 t') = lastv krefs [o] (wread (t_heap t) (t_w0 t)) /\ wread (t_heap t') (t_w1 t') = lastv crefs [o] (wread (t_heap t) (t_w1 t)) /\
  ((exists v, o = TKRef (Some v) \/ o = TCRef (Some v)) -> t_store t' = SKeystore) /\ (t_store t = SKeystore -> t_store t' = SKeystore).
Proof.
  intros Ho (H & Hp & Hc). destruct o as [v|v|v|v|v|v]; try contradiction; cbn [tid_op lastv fold_left krefs crefs].
  - destruct (wset_ok _ _ _ v H) as (h & w & -> & K & R & O & _). eexists. split; [reflexivity|]. split; [split; [exact K|auto]|]. cbn. rewrite R, O by (cbn; auto).
    split; [reflexivity|]. split; [reflexivity|]. split. + intros (x & [E|E]); [injection E as ->; reflexivity|discriminate]. + intros E. destruct v; auto.
  - assert (H' : ok (t_heap t) [t_w1 t; t_w0 t]) by (revert H; apply ok_perm; apply perm_swap).
    destruct (wset_ok _ _ _ v H') as (h & w & -> & K & R & O & _). eexists. split; [reflexivity|]. split; [split; [revert K; apply ok_perm; apply perm_swap|auto]|]. cbn. rewrite R, O by (cbn; auto).
    split; [reflexivity|]. split; [reflexivity|]. split. + intros (x & [E|E]); [discriminate|injection E as ->; reflexivity]. + intros E. destruct v; auto.
Qed.

Lemma ref_steps l : forall t, Forall is_ref l -> rok t -> exists t', tid_run t l = Some t' /\ rok t' /\
  wread (t_heap t') (t_w0 t') = lastv krefs l (wread (t_heap t) (t_w0 t)) /\ wread (t_heap t') (t_w1 t') = lastv crefs l (wread (t_heap t) (t_w1 t)) /\
  (t_store t = SKeystore \/ (exists o v, In o l /\ (o = TKRef (Some v) \/ o = TCRef (Some v))) -> t_store t' = SKeystore).
Proof.
  induction l as [|o l IH]; intros t F H; cbn [tid_run].
  - exists t. split; [reflexivity|]. split; [exact H|]. split; [reflexivity|]. split; [reflexivity|]. intros [E|(o & v & [] & _)]. exact E.
  - inversion F; subst. destruct (ref_step t o H2 H) as (t1 & -> & R1 & V1 & V2 & S1 & S2). destruct (IH t1 H3 R1) as (t' & E & R' & V1' & V2' & S').
    exists t'. split; [exact E|]. split; [exact R'|]. rewrite V1', V2', V1, V2. split; [reflexivity|]. split; [reflexivity|].
    intros [Q|(o' & v & [<-|I] & Q)]; apply S'.
    + left. auto. + left. apply S1. exists v. exact Q. + right. exists o', v. auto.
Qed.

(** Inline definitions only. *)
Definition iok (t : tid) := ok (t_heap t) [t_w1 t; t_priv t; t_cert t] /\ (t_w0 t = W0 \/ t_w0 t = WInt).

Definition isw0 (w : word) := match w with W0 => true | _ => false end.

Lemma in_step t o : is_inl o -> iok t -> exists t', tid_op t o = Some t' /\ iok t' /\
  wread (t_heap t') (t_priv t') = lastv privs [o] (wread (t_heap t) (t_priv t)) /\ wread (t_heap t') (t_cert t') = lastv certs [o] (wread (t_heap t) (t_cert t)) /\
  t_w0 t' = (if lastv types [o] (negb (isw0 (t_w0 t))) then WInt else W0) /\
  ((exists v, o = TPub (Some v)) \/ t_store t = SLocal -> t_store t' = SLocal).
Proof.
  intros Ho (H & Hw). assert (W : t_w0 t = if negb (isw0 (t_w0 t)) then WInt else W0) by (destruct Hw as [-> | ->]; reflexivity).
  destruct o as [[b|]|[v|]|v|[v|]|v|v]; try contradiction; cbn [tid_op lastv fold_left privs certs types].
  - eexists. split; [reflexivity|]. cbn. split; [split; [exact H|]|].
    { cbn. destruct Hw as [-> | ->]; cbn; destruct b; auto. }
    split; [reflexivity|]. split; [reflexivity|]. split. + destruct Hw as [-> | ->]; reflexivity. + intros [(v & E)|E]; [discriminate|exact E].
  - exists t. split; [reflexivity|]. split; [split; auto|]. split; [reflexivity|]. split; [reflexivity|]. split; [exact W|]. intros [(v & E)|E]; [discriminate|exact E].
  - destruct (wset_ok _ _ _ (Some v) H) as (h & w & -> & K & R & O & _). eexists. split; [reflexivity|]. split; [split; [exact K|exact Hw]|]. cbn. rewrite !O by (cbn; auto). auto 6.
  - exists t. split; [reflexivity|]. split; [split; auto|]. split; [reflexivity|]. split; [reflexivity|]. split; [exact W|]. intros [(v & E)|E]; [discriminate|exact E].
  - assert (H' : ok (t_heap t) [t_priv t; t_w1 t; t_cert t]) by (revert H; apply ok_perm; apply perm_swap).
    destruct (wset_ok _ _ _ v H') as (h & w & -> & K & R & O & _). eexists. split; [reflexivity|]. split; [split; [revert K; apply ok_perm; apply perm_swap|exact Hw]|]. cbn. rewrite R, !O by (cbn; auto).
    split; [reflexivity|]. split; [reflexivity|]. split; [exact W|]. intros [(x & E)|E]; [discriminate|exact E].
  - assert (P : Permutation [t_w1 t; t_priv t; t_cert t] [t_cert t; t_w1 t; t_priv t]) by (apply (Permutation_sym (Permutation_cons_append [t_w1 t; t_priv t] (t_cert t)))).
    destruct (wset_ok _ _ _ (Some v) (ok_perm _ _ _ P H)) as (h & w & -> & K & R & O & _). eexists. split; [reflexivity|].
    split; [split; [revert K; apply ok_perm; apply (Permutation_cons_append [t_w1 t; t_priv t] w)|exact Hw]|]. cbn. rewrite R, !O by (cbn; auto).
    split; [reflexivity|]. split; [reflexivity|]. split; [exact W|]. intros [(x & E)|E]; [discriminate|exact E].
  - exists t. split; [reflexivity|]. split; [split; auto|]. split; [reflexivity|]. split; [reflexivity|]. split; [exact W|]. intros [(v & E)|E]; [discriminate|exact E].
Qed.

Lemma in_steps l : forall t, Forall is_inl l -> iok t -> exists t', tid_run t l = Some t' /\ iok t' /\
  wread (t_heap t') (t_priv t') = lastv privs l (wread (t_heap t) (t_priv t)) /\ wread (t_heap t') (t_cert t') = lastv certs l (wread (t_heap t) (t_cert t)) /\
  t_w0 t' = (if lastv types l (negb (isw0 (t_w0 t))) then WInt else W0) /\
  (t_store t = SLocal \/ (exists v, In (TPub (Some v)) l) -> t_store t' = SLocal).
Proof.
  induction l as [|o l IH]; intros t F H; cbn [tid_run].
  - exists t. split; [reflexivity|]. split; [exact H|]. split; [reflexivity|]. split; [reflexivity|]. split. { destruct H as (_ & [-> | ->]); reflexivity. } intros [E|(v & [])]. exact E.
  - inversion F; subst. destruct (in_step t o H2 H) as (t1 & -> & R1 & V1 & V2 & V3 & S1). destruct (IH t1 H3 R1) as (t' & E & R' & V1' & V2' & V3' & S').
    exists t'. split; [exact E|]. split; [exact R'|]. rewrite V1', V2', V3', V1, V2, V3. split; [reflexivity|]. split; [reflexivity|]. split.
    { cbn [lastv fold_left]. destruct (match types o with Some v => v | None => _ end); reflexivity. }
    intros [Q|(v & [Q|I])]; apply S'.
    + left. auto. + left. apply S1. left. subst o. exists v. reflexivity. + right. exists v. auto.
Qed.

Lemma tid_run_app a b t : tid_run t (a ++ b) = match tid_run t a with Some t' => tid_run t' b | None => None end.
Proof. revert t. induction a as [|o a IH]; intros t; cbn; [reflexivity|]. destruct (tid_op t o); auto. Qed.

Lemma read_w0 h ws w : ok h ws -> In w ws -> wread h w = None -> w = W0.
Proof.
  intros (H1 & _ & H3) I R. rewrite Forall_forall in H1. specialize (H1 w I). destruct w as [|b| |]; cbn in *; auto; try contradiction.
  destruct (H3 b) as (s & E). { apply in_flat_map. exists (WBlk b). cbn. auto. } rewrite E in R. discriminate.
Qed.
Lemma read_some h w s : wread h w = Some s -> w <> W0.
Proof. intros H ->. discriminate. Qed.

(* ------------------------------------------------------------------ *)
(** ** C66: the keys of a user are those configured *)

(** When every configuration on the way is valid and some keys are configured at the end, then exactly these are used. *)
Theorem c66_keys_partial l c : clean cfg0 l -> changes cfg0 l = Some c -> c <> cfg0 ->
  exists s, run user_op gst0 l = Done s /\ forall bags, meets c (user_use s bags).
Proof.
  intros K C N. destruct (user_run l gst0 cfg0 c (rep0 true) K C) as (s & E & R). exists s. split; [exact E|]. intros bags.
  exact (rep_use true s c bags R (or_introl N)).
Qed.

(** Changes of keys in the configuration itself only. *)
Definition is_key (o : cop) : Prop := match o with RSet _ | RDel | SysSet | SysDel => False | _ => True end.

Lemma write_store s i x s' : write_slot s i x = Some s' -> g_store (g_grp s') = g_store (g_grp s).
Proof.
  unfold write_slot. destruct (g_ptr (g_grp s)); [discriminate|]. destruct (nth_error _ b) as [[| |a]|]; try discriminate.
  destruct (Nat.ltb i _); [|discriminate]. intros E. injection E as <-. reflexivity.
Qed.
Lemma del_store s i s' : del_at s i = Some s' -> g_store (g_grp s') = g_store (g_grp s).
Proof.
  unfold del_at. destruct (read_ent s i); [|discriminate]. destruct (Nat.eqb (g_cnt (g_grp s) - 1) 0).
  - destruct (free_blk _ _); [|discriminate]. intros E. injection E as <-. reflexivity.
  - destruct (Nat.eqb i _). { intros E. injection E as <-. reflexivity. }
    destruct (g_ptr (g_grp s)); [discriminate|]. destruct (nth_error _ b) as [[| |a]|]; try discriminate. destruct (nth_error a _); [|discriminate].
    intros E. apply write_store in E. exact E.
Qed.
Lemma dels_store n : forall s i s', del_keys_from s i n = Some s' -> g_store (g_grp s') = g_store (g_grp s).
Proof.
  induction n as [|n IH]; cbn; intros s i s' E. - injection E as <-. reflexivity.
  - destruct (del_at s i) eqn:D; [|discriminate]. rewrite (IH _ _ _ E). exact (del_store _ _ _ D).
Qed.
Lemma key_store s o s' : is_key o -> g_store (g_grp s) = SLocal -> user_op s o = Done s' -> g_store (g_grp s') = SLocal.
Proof.
  intros K H. destruct o as [n|n d|n|r| | | |]; try contradiction; cbn [user_op].
  - unfold add_ent. cbn. destruct (N.leb _ _); [discriminate|]. destruct (realloc _ _ _) as [[h a]|]; [|discriminate]. intros E. injection E as <-. reflexivity.
  - unfold set_data. destruct (get_ent s n); try discriminate. destruct (write_slot _ _ _) eqn:W; [|discriminate]. intros E. injection E as <-. rewrite (write_store _ _ _ _ W). exact H.
  - unfold del_ent. destruct (get_ent s n); try discriminate. destruct (del_at s i) eqn:D; [|discriminate]. intros E. injection E as <-. rewrite (del_store _ _ _ D). exact H.
  - unfold user_clear. rewrite H. destruct (del_keys_from _ _ _) eqn:D; [|discriminate]. intros E. injection E as <-. rewrite (dels_store _ _ _ _ D). exact H.
Qed.
Lemma key_stores l : forall s s', Forall is_key l -> g_store (g_grp s) = SLocal -> run user_op s l = Done s' -> g_store (g_grp s') = SLocal.
Proof.
  induction l as [|o l IH]; cbn; intros s s' F H E. - injection E as <-. exact H.
  - inversion F; subst. destruct (user_op s o) eqn:O; try discriminate. exact (IH _ _ H3 (key_store _ _ _ H2 H O) E).
Qed.

(** Any sequence of changes which concern only keys in the configuration, at most 65535 at a time, also when there are none at the end. *)
Theorem c71_inline l c : Forall is_key l -> clean cfg0 l -> changes cfg0 l = Some c -> exists s, run user_op gst0 l = Done s /\ forall bags, meets c (user_use s bags).
Proof.
  intros F K C. destruct (user_run l gst0 cfg0 c (rep0 true) K C) as (s & E & R). exists s. split; [exact E|]. intros bags. apply (rep_use true s c bags R).
  right. exact (key_stores l gst0 s F eq_refl E).
Qed.

(** Such a sequence has only valid configurations on the way when the number of keys is small enough. *)
Lemma change_keys c o c' : is_key o -> change c o = Some c' -> c_ref c = None -> c_sys c = false -> c_ref c' = None /\ c_sys c' = false.
Proof.
  intros K C R S. destruct o as [n|n d|n|r| | | |]; try contradiction; cbn [change] in C.
  - destruct (has _ n); [discriminate|]. injection C as <-. auto.
  - destruct (has _ n); [|discriminate]. injection C as <-. auto.
  - destruct (has _ n); [|discriminate]. injection C as <-. auto.
  - injection C as <-. auto.
Qed.
Lemma c71_clean l : forall c, Forall is_key l -> c_ref c = None -> c_sys c = false -> changes c l <> None ->
  (forall a b c', l = a ++ b -> changes c a = Some c' -> (N.of_nat (length (c_in c')) <= 65535)%N) -> clean c l.
Proof.
  induction l as [|o l IH]; cbn [clean changes]; intros c F R S C L; [exact I|]. inversion F; subst. destruct (change c o) as [c1|] eqn:E; [|congruence].
  destruct (change_keys _ _ _ H1 E R S) as (R1 & S1). split.
  - unfold valid. rewrite R1, S1. split; [destruct (c_in c1); exact I|]. apply (L [o] l c1 eq_refl). cbn. rewrite E. reflexivity.
  - apply IH; auto. intros a b c' Q C'. apply (L (o :: a) b c'). { cbn. congruence. } cbn. rewrite E. exact C'.
Qed.

(** use-system-keys goes away, alone or with its container, and the keys of the system go on being accepted. *)
Theorem c66_system_refuted l : l = [SysSet; SysDel] \/ l = [SysSet; Clear] ->
  clean cfg0 l /\ changes cfg0 l = Some cfg0 /\ exists s, run user_op gst0 l = Done s /\ (forall bags, user_use s bags = USys) /\ forall bags, ~ meets cfg0 (user_use s bags).
Proof.
  intros [-> | ->]; (split; [vm_compute; repeat split; discriminate|]; split; [reflexivity|]; eexists; split; [reflexivity|]; split; [reflexivity|intros bags; discriminate]).
Qed.

(** The reference to a bag goes away, and an attempt to authenticate with any public key then compares NULL with the names of the bags. *)
Theorem c66_reference_refuted l r : l = [RSet r; RDel] \/ l = [RSet r; Clear] ->
  clean cfg0 l /\ changes cfg0 l = Some cfg0 /\ exists s, run user_op gst0 l = Done s /\ user_use s true = UUndef.
Proof.
  intros [-> | ->]; (split; [cbn; repeat split; vm_compute; discriminate|]; split; [reflexivity|]; eexists; split; reflexivity).
Qed.

(** A bag is replaced by a key in the configuration, and the new node is visited before the deleted one. *)
Theorem c66_order_refuted r n d : changes cfg0 [RSet r; KCreate n; KData n d; RDel] = Some (mkCfg [(n, d)] None false) /\ valid (mkCfg [(n, d)] None false) /\
  exists s, run user_op gst0 [RSet r; KCreate n; KData n d; RDel] = Done s /\ forall bags, user_use s bags = UUndef.
Proof.
  split; [|split].
  - cbn. rewrite !String.eqb_refl. reflexivity.
  - split; [exact I|vm_compute; discriminate].
  - cbn. unfold set_data, get_ent. cbn. rewrite String.eqb_refl. cbn. eexists. split; [reflexivity|]. reflexivity.
Qed.

(* ------------------------------------------------------------------ *)
(** ** C67: every block is freed once *)

(** No double free, no use of freed memory, no NULL dereference; and with nothing configured nothing is left. *)
Theorem c67_user_partial l c : clean cfg0 l -> changes cfg0 l = Some c -> exists s, run user_op gst0 l = Done s /\ NoDup (g_freed s) /\
  (c = cfg0 -> allfree (g_heap s) /\ Permutation (g_freed s) (seq 0 (g_next s))).
Proof.
  intros K C. destruct (user_run l gst0 cfg0 c (rep0 true) K C) as (s & E & R). exists s. split; [exact E|]. split.
  - assert (exists es, owned s es) as (es & W). { inversion R; eauto. } apply owned_nodup in W. exact (nodup_app_r _ _ W).
  - intros ->. inversion R as [Hp Hc Hf Hw Hst E1|l0 es Hne Ha Hw Hst P Hnd E1|r0 b Hp Hb Ho Hc Hw Hst E1|X Hp Hc Hf Hw Hst E1].
    + split; [exact Hf|exact Hw].
    + exfalso. subst l0. apply Permutation_sym, Permutation_nil in P. destruct es; [congruence|discriminate].
Qed.

Theorem c67_cert_partial l c : clean cfg0 l -> Forall no_rdel l -> changes cfg0 l = Some c -> exists s, run cert_op gst0 l = Done s /\ NoDup (g_freed s) /\
  (c = cfg0 -> allfree (g_heap s) /\ Permutation (g_freed s) (seq 0 (g_next s))).
Proof.
  intros K F C. destruct (cert_run l gst0 cfg0 c (rep0 false) K F C) as (s & E & R). exists s. split; [exact E|]. split.
  - assert (exists es, owned s es) as (es & W). { inversion R; eauto. } apply owned_nodup in W. exact (nodup_app_r _ _ W).
  - intros ->. inversion R as [Hp Hc Hf Hw Hst E1|l0 es Hne Ha Hw Hst P Hnd E1|r0 b Hp Hb Ho Hc Hw Hst E1|X Hp Hc Hf Hw Hst E1].
    + split; [exact Hf|exact Hw].
    + exfalso. subst l0. apply Permutation_sym, Permutation_nil in P. destruct es; [congruence|discriminate].
Qed.

(** The change to a key in the configuration, visited in the other order, and the later removal of that key: NULL is read as an
    array.  The change to a bag: the bag's name is read as an array. *)
Theorem c67_refuted r n : run user_op gst0 [RSet r; KCreate n; RDel; KDel n] = UB /\ run user_op gst0 [KCreate n; RSet r; KDel n] = UB /\
  changes cfg0 [RSet r; KCreate n; RDel; KDel n] = Some cfg0 /\ changes cfg0 [KCreate n; RSet r; KDel n] = Some (mkCfg [] (Some r) false).
Proof. repeat split; cbn; rewrite ?String.eqb_refl; cbn; rewrite ?String.eqb_refl; reflexivity. Qed.

(** A host key with its text in the configuration is changed to a reference and removed: the texts are never freed. *)
Theorem c67_hostkey_refuted p k r : exists s h, hk_run hk0 [HPub (Some p); HPriv (Some k); HRef (Some r)] = Some s /\ hk_del s = Some h /\ In (Some k) h.
Proof. eexists _, _. split; [reflexivity|]. split; [reflexivity|]. cbn. auto. Qed.

(* ------------------------------------------------------------------ *)
(** ** C68: the certificates trusted are those configured *)

Theorem c68_certs_partial l c : clean cfg0 l -> Forall no_rdel l -> changes cfg0 l = Some c -> exists s, run cert_op gst0 l = Done s /\ forall bags, meets c (cert_use s bags).
Proof.
  intros K F C. destruct (cert_run l gst0 cfg0 c (rep0 false) K F C) as (s & E & R). exists s. split; [exact E|]. intros bags. apply (rep_use false s c bags R).
  inversion R as [Hp Hc Hf Hw Hst E1|l0 es Hne Ha Hw Hst P Hnd E1|r0 b Hp Hb Ho Hc Hw Hst E1|X Hp Hc Hf Hw Hst E1].
  - right. apply Hst. reflexivity.
  - right. exact Hst.
  - left. discriminate.
  - discriminate X.
Qed.

(** A bag is replaced by certificates in the configuration, and their array is used as the name of a bag. *)
Theorem c68_refuted r n d : clean cfg0 [RSet r; RDel; KCreate n; KData n d] /\ changes cfg0 [RSet r; RDel; KCreate n; KData n d] = Some (mkCfg [(n, d)] None false) /\
  exists s, run cert_op gst0 [RSet r; RDel; KCreate n; KData n d] = Done s /\ forall bags, cert_use s bags = UFail.
Proof.
  split; [|split].
  - cbn. rewrite !String.eqb_refl. cbn. repeat split; vm_compute; discriminate.
  - cbn. rewrite !String.eqb_refl. reflexivity.
  - cbn. unfold set_data, get_ent. cbn. rewrite String.eqb_refl. cbn. eexists. split; [reflexivity|]. reflexivity.
Qed.

(* ------------------------------------------------------------------ *)
(** ** C69: host keys *)

(** Any changes of a host key at all, in any order, and its removal after them, are free of memory errors. *)
Theorem c69_safe l : exists k h, hk_run hk0 l = Some k /\ hk_del k = Some h.
Proof. destruct (hk_steps l hk0 hok0) as (k & E & H & _). destruct (hk_del_ok k H) as (h & D). eauto. Qed.

(** After any history of configurations the key used is the one configured. *)
Theorem c69_used l c : hhist l c -> exists k, hk_run hk0 l = Some k /\ hmeets c (hk_use k).
Proof.
  intros H. destruct (hk_steps l hk0 hok0) as (k & E & K & V). exists k. split; [exact E|]. apply vrep_use; [exact K|]. rewrite V. exact (hhist_view l c H).
Qed.

(* ------------------------------------------------------------------ *)
(** ** C70: the identity of a TLS server *)

Lemma iok0 : iok tid0.
Proof. split; [split; [repeat constructor|]; split; [constructor|]; intros b []|left; reflexivity]. Qed.
Lemma rok0 : rok tid0.
Proof. split; [split; [repeat constructor|]; split; [constructor|]; intros b []|split; reflexivity]. Qed.

(** References for some time, then both removed, then definitions in the configuration: the last private key and certificate. *)
Theorem c70_inline_partial refs ins k c p : Forall is_ref refs -> Forall is_inl ins -> lastv krefs refs None = None -> lastv crefs refs None = None ->
  In (TPub (Some p)) ins -> lastv privs ins None = Some k -> lastv certs ins None = Some c ->
  exists t h, tid_run tid0 (refs ++ ins) = Some t /\ tid_use t = TLocal k c /\ tid_del t = Some h.
Proof.
  intros F1 F2 K0 C0 P K C. destruct (ref_steps refs tid0 F1 rok0) as (t1 & E1 & (O1 & P1 & Q1) & V1 & V2 & _). cbn in V1, V2. rewrite K0 in V1. rewrite C0 in V2.
  assert (W0' : t_w0 t1 = W0) by (apply (read_w0 _ _ _ O1); cbn; auto). assert (W1' : t_w1 t1 = W0) by (apply (read_w0 _ _ _ O1); cbn; auto).
  assert (I1 : iok t1). { split; [|left; exact W0']. rewrite W1', P1, Q1. split; [repeat constructor|]. split; [constructor|]. intros b []. }
  destruct (in_steps ins t1 F2 I1) as (t & E & (O & _) & V3 & V4 & _ & S). rewrite P1 in V3. rewrite Q1 in V4. cbn [wread] in V3, V4. rewrite K in V3. rewrite C in V4.
  assert (St : t_store t = SLocal) by (apply S; right; exists p; exact P).
  assert (exists h, tid_del t = Some h) as (h & D).
  { unfold tid_del. rewrite St. destruct (wfree_ok _ _ _ O) as (h1 & -> & O2 & _). destruct (wfree_ok _ _ _ O2) as (h2 & -> & O3 & _). destruct (wfree_ok _ _ _ O3) as (h3 & -> & _). eauto. }
  exists t, h. split; [rewrite tid_run_app, E1; exact E|]. split; [|exact D].
  unfold tid_use. rewrite St. destruct (t_priv t) eqn:Ep, (t_cert t) eqn:Ec; cbn [wread] in V3, V4; try discriminate. cbn [wread]. rewrite V3, V4. reflexivity.
Qed.

(** References only: the last ones. *)
Theorem c70_references_partial refs k c : Forall is_ref refs -> lastv krefs refs None = Some k -> lastv crefs refs None = Some c ->
  exists t h, tid_run tid0 refs = Some t /\ tid_use t = TNames k c /\ tid_del t = Some h.
Proof.
  intros F K C. destruct (ref_steps refs tid0 F rok0) as (t & E & (O & _ & _) & V1 & V2 & S). cbn in V1, V2. rewrite K in V1. rewrite C in V2.
  assert (St : t_store t = SKeystore).
  { apply S. right.
    assert (G : forall l y, lastv krefs l y = Some k -> y = Some k \/ exists o v, In o l /\ (o = TKRef (Some v) \/ o = TCRef (Some v))).
    { induction l as [|o l IH]; cbn; intros y H; [auto|]. destruct (IH _ H) as [Q|(o' & v & J & Q)].
      - destruct o; cbn in Q; auto. right. exists (TKRef v), k. subst v. auto.
      - right. exists o', v. auto. }
    destruct (G refs None K) as [Q|Q]; [discriminate|exact Q]. }
  assert (exists h, tid_del t = Some h) as (h & D).
  { unfold tid_del. rewrite St. destruct (wfree_ok _ _ _ O) as (h1 & -> & O2 & _). destruct (wfree_ok _ _ _ O2) as (h2 & -> & _). eauto. }
  exists t, h. split; [exact E|]. split; [|exact D]. unfold tid_use. rewrite St, V1, V2. reflexivity.
Qed.

(** After definitions in the configuration with the X.509 format (the only one allowed), a reference to the keystore makes free()
    take the number of the format for a pointer, in whatever order the nodes are visited. *)
Theorem c70_switch_refuted ins r rest : Forall is_inl ins -> lastv types ins false = true -> tid_run tid0 (ins ++ TKRef (Some r) :: rest) = None.
Proof.
  intros F T. destruct (in_steps ins tid0 F iok0) as (t & E & _ & _ & _ & W & _). cbn [tid0 t_w0 isw0 negb] in W. rewrite T in W.
  rewrite tid_run_app, E. cbn [tid_run tid_op]. unfold wset. rewrite W. reflexivity.
Qed.

(** From a reference to definitions in the configuration: the format written before the reference is removed changes the pointer
    that is then given to free(). *)
Theorem c70_order_refuted refs k b ins : Forall is_ref refs -> lastv krefs refs None = Some k -> Forall is_inl ins ->
  tid_run tid0 (refs ++ TType (Some b) :: ins ++ [TKRef None]) = None.
Proof.
  intros F K FI. destruct (ref_steps refs tid0 F rok0) as (t & E & (O & P & Q) & V1 & V2 & _). cbn in V1. rewrite K in V1.
  rewrite tid_run_app, E. cbn [tid_run tid_op]. destruct (t_w0 t) eqn:W; try discriminate V1. cbn [wtype].
  assert (G : forall l x, Forall is_inl l -> t_w0 x = WMix -> match tid_run x l with Some x' => t_w0 x' = WMix | None => True end).
  { induction l as [|o l IH]; cbn; intros x Fl Hx; [exact Hx|]. inversion Fl; subst. destruct (tid_op x o) as [x1|] eqn:O1; [|exact I]. apply IH; [assumption|].
    destruct o as [[v|]|[v|]|v|[v|]|v|v]; try contradiction; cbn [tid_op] in O1.
    - injection O1 as <-. cbn. rewrite Hx. reflexivity.
    - injection O1 as <-. exact Hx.
    - destruct (wset _ _ _) as [[h w]|]; [|discriminate]. injection O1 as <-. exact Hx.
    - injection O1 as <-. exact Hx.
    - destruct (wset _ _ _) as [[h w]|]; [|discriminate]. injection O1 as <-. exact Hx.
    - destruct (wset _ _ _) as [[h w]|]; [|discriminate]. injection O1 as <-. exact Hx.
    - injection O1 as <-. exact Hx. }
  rewrite tid_run_app. specialize (G ins (mkT (t_store t) WMix (t_w1 t) (t_priv t) (t_cert t) (t_heap t)) FI eq_refl).
  destruct (tid_run _ ins) as [x|]; [|reflexivity]. cbn [tid_run tid_op]. unfold wset. rewrite G. reflexivity.
Qed.

(* ------------------------------------------------------------------ *)
(** ** Examples: the hypotheses hold of these, and the model computes *)

Definition ex_ops := [KCreate "a"; KData "a" (Some "AAAA"); KCreate "b"; KData "b" (Some "BBBB"); KCreate "c"; KDel "a"; KData "c" (Some "CCCC")].
Example ex_c71 : Forall is_key ex_ops /\ clean cfg0 ex_ops /\ changes cfg0 ex_ops = Some (mkCfg [("b", Some "BBBB"); ("c", Some "CCCC")] None false) /\
  match run user_op gst0 ex_ops with Done s => user_use s true | _ => UUndef end = UKeys [("c", Some "CCCC"); ("b", Some "BBBB")].
Proof. split; [repeat constructor|]. split; [cbn; repeat split; vm_compute; discriminate|]. split; vm_compute; reflexivity. Qed.

Example ex_c66 : let l := [KCreate "a"; Clear; RSet "bag"; RSet "bag2"; RDel; SysSet; SysDel; KCreate "x"; KData "x" (Some "X")] in
  clean cfg0 l /\ changes cfg0 l = Some (mkCfg [("x", Some "X")] None false) /\
  match run user_op gst0 l with Done s => user_use s true | _ => UUndef end = UKeys [("x", Some "X")].
Proof. cbn zeta. split; [cbn; repeat split; vm_compute; discriminate|]. split; vm_compute; reflexivity. Qed.

Example ex_c67 : let l := [KCreate "a"; KCreate "b"; KCreate "c"; KCreate "d"; Clear] in
  clean cfg0 l /\ changes cfg0 l = Some cfg0 /\ match run user_op gst0 l with Done s => (g_freed s, g_next s) | _ => ([], 0) end = ([3; 2; 1; 0], 4).
Proof. cbn zeta. split; [cbn; repeat split; vm_compute; discriminate|]. split; vm_compute; reflexivity. Qed.

Example ex_c68 : let l := [RSet "bag"; Clear; KCreate "ca"; KData "ca" (Some "MII")] in
  clean cfg0 l /\ Forall no_rdel l /\ changes cfg0 l = Some (mkCfg [("ca", Some "MII")] None false) /\
  match run cert_op gst0 l with Done s => cert_use s true | _ => UUndef end = UKeys [("ca", Some "MII")].
Proof. cbn zeta. split; [cbn; repeat split; vm_compute; discriminate|]. split; [repeat constructor|]. split; vm_compute; reflexivity. Qed.

Example ex_c69 : hhist ([HPriv (Some "k"); HPub (Some "p")] ++ [HPriv None; HRef (Some "ks")] ++ [HPub (Some "q"); HRef None; HPriv (Some "l")]) (HIn "q" "l").
Proof.
  rewrite app_assoc. apply (hhs _ (HTo "ks")).
  - apply (hhs _ (HIn "p" "k")). + apply (hhs [] HNone); [constructor|]. apply hd_new_in. apply perm_swap.
    + apply (hd_to_ref _ [] [HPriv None]); [apply perm_swap|left; reflexivity|right; reflexivity].
  - apply hd_to_in. apply perm_swap.
Qed.

Example ex_c70 : let refs := [TKRef (Some "k"); TCRef (Some "c"); TKRef None; TCRef None] in let ins := [TType (Some true); TPub (Some "p"); TPriv (Some "k"); TCert (Some "c")] in
  Forall is_ref refs /\ Forall is_inl ins /\ lastv krefs refs None = None /\ lastv crefs refs None = None /\ lastv types ins false = true /\
  match tid_run tid0 (refs ++ ins) with Some t => tid_use t | None => TUndef end = TLocal "k" "c" /\
  match tid_run tid0 [TKRef (Some "k"); TCRef (Some "c"); TKRef (Some "k2")] with Some t => tid_use t | None => TUndef end = TNames "k2" "c".
Proof. cbn zeta. split; [repeat constructor|]. split; [repeat constructor|]. repeat split. Qed.

Print Assumptions c66_keys_partial.
Print Assumptions c66_system_refuted.
Print Assumptions c66_reference_refuted.
Print Assumptions c66_order_refuted.
Print Assumptions c67_user_partial.
Print Assumptions c67_cert_partial.
Print Assumptions c67_refuted.
Print Assumptions c67_hostkey_refuted.
Print Assumptions c68_certs_partial.
Print Assumptions c68_refuted.
Print Assumptions c69_safe.
Print Assumptions c69_used.
Print Assumptions c70_inline_partial.
Print Assumptions c70_references_partial.
Print Assumptions c70_switch_refuted.
Print Assumptions c70_order_refuted.
Print Assumptions c71_inline.
Print Assumptions c71_clean.
