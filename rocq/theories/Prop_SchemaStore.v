(** C184-C188: files and memory when the client retrieves modules. *)
From Coq Require Import Ascii String NArith Bool Lia List.
From Verif Require Import Bytes CStr SchemaStore.
From Verif Require ModInfo.
Import ListNotations.
Local Open Scope list_scope.

(* ------------------------------------------------------------------ *)
(** ** What is said *)

(** A file in a directory itself. *)
Definition directly_in (dir : bytes) (q : list bytes) : Prop := exists b, q = resolve dir ++ [b].
(** Names and revisions as YANG has them are without slashes. *)
Definition no_slash (s : bytes) : Prop := ~ In SLASH s.
Definition file_name (name : bytes) (rev : option bytes) : bytes :=
  name ++ match rev with Some r => bs "@" ++ r | None => [] end ++ bs ".yang".

(* ------------------------------------------------------------------ *)
(** ** Paths *)

Lemma split_plain b : forall cur, no_slash b -> split cur b = [rev cur ++ b].
Proof.
  induction b as [|c b IH]; intros cur H; cbn [split]; [now rewrite app_nil_r|].
  destruct (Ascii.eqb_spec c SLASH) as [E|E]; [destruct H; now left|].
  rewrite IH by (intros K; apply H; now right). cbn [rev]. now rewrite <- app_assoc.
Qed.
Lemma split_app d b : forall cur, split cur (d ++ SLASH :: b) = split cur d ++ split [] b.
Proof.
  induction d as [|c d IH]; intros cur; cbn [app split]; [reflexivity|].
  destruct (Ascii.eqb c SLASH); [cbn [app]; f_equal; apply IH|apply IH].
Qed.
Lemma resolve_file d b : no_slash b -> b <> [] -> b <> bs "." -> b <> bs ".." -> resolve (d ++ SLASH :: b) = resolve d ++ [b].
Proof.
  intros H N1 N2 N3. unfold resolve. rewrite split_app, fold_left_app, split_plain by exact H. cbn [rev app fold_left]. unfold follow.
  rewrite (proj2 (beqb_false b []) N1), (proj2 (beqb_false b (bs ".")) N2), (proj2 (beqb_false b (bs "..")) N3). reflexivity.
Qed.
Lemma base_file d b : no_slash b -> base (d ++ SLASH :: b) = b.
Proof. intros H. unfold base. rewrite split_app, (split_plain b) by exact H. cbn [rev app]. apply last_last. Qed.

Lemma place_eqb_spec a : forall b, place_eqb a b = true <-> a = b.
Proof.
  induction a as [|x a IH]; intros [|y b]; cbn [place_eqb]; try (split; (reflexivity || discriminate)).
  rewrite andb_true_iff, beqb_spec, IH. split; [now intros [-> ->]|now intros [= -> ->]].
Qed.
Lemma put_same q t fs : put q t fs q = Some t.
Proof. unfold put. now rewrite (proj2 (place_eqb_spec q q) eq_refl). Qed.
Lemma put_other q t fs q' : q <> q' -> put q t fs q' = fs q'.
Proof. intros H. unfold put. destruct (place_eqb q q') eqn:E; [|reflexivity]. apply place_eqb_spec in E. contradiction. Qed.

Lemma file_name_ok name rev : no_slash name -> (forall r, rev = Some r -> no_slash r) ->
  no_slash (file_name name rev) /\ file_name name rev <> [] /\ file_name name rev <> bs "." /\ file_name name rev <> bs "..".
Proof.
  intros N R. unfold file_name, no_slash. split; [|assert (L : (5 <= length (name ++ match rev with Some r => bs "@" ++ r | None => [] end ++ bs ".yang"))%nat)
    by (rewrite !app_length; cbn [length bs list_ascii_of_string]; lia)].
  - rewrite !in_app_iff. intros [H|[H|H]]; [now apply N| |].
    + destruct rev as [r|]; [|destruct H]. apply in_app_iff in H. destruct H as [H|H]; [destruct H as [H|[]]; discriminate|].
      now apply (R r eq_refl).
    + repeat (destruct H as [H|H]; [discriminate H|]). exact H.
  - repeat split; intros E; rewrite E in L; cbn in L; lia.
Qed.
Lemma store_path_file d name rev : store_path d name rev = d ++ SLASH :: file_name name rev.
Proof. reflexivity. Qed.
Lemma stored_at d name rev : no_slash name -> (forall r, rev = Some r -> no_slash r) ->
  resolve (store_path d name rev) = resolve d ++ [file_name name rev].
Proof. intros N R. rewrite store_path_file. destruct (file_name_ok name rev N R) as (A & B & C & D). now apply resolve_file. Qed.

(** What can change. *)
Lemma get_changes e dir fs name rev answer fs' t q : get_schema e dir fs name rev answer = (fs', t) -> fs' q <> fs q ->
  exists d, dir = Some d /\ q = resolve (store_path d name rev) /\ e_search e false fs name rev = None.
Proof.
  unfold get_schema. intros H D.
  destruct answer as [[|c a]|]; try (injection H as <- <-; congruence).
  destruct (e_search e false fs name rev) eqn:S; [injection H as <- <-; congruence|].
  destruct dir as [d|]; [|injection H as <- <-; congruence].
  destruct (e_alloc e && e_create e (store_path d name rev)); injection H as <- <-; [|congruence].
  exists d. repeat split. destruct (place_eqb (resolve (store_path d name rev)) q) eqn:E; [apply place_eqb_spec in E; congruence|].
  unfold put in D. rewrite E in D. congruence.
Qed.

(* ------------------------------------------------------------------ *)
(** ** C184: modules are stored in the directory for them *)

(** The module comes from the capabilities of a server. *)
Definition c184_full : Prop := forall e d fs cpb i answer fs' t q, ModInfo.module_of_cpblt cpb = Some i ->
  get_schema e (Some d) fs (ModInfo.mi_name i) (ModInfo.mi_rev i) answer = (fs', t) -> fs' q <> fs q -> directly_in d q.

(** Missing: names and revisions with slashes. *)
Theorem c184_inside_partial e dir fs name rev answer fs' t q : no_slash name -> (forall r, rev = Some r -> no_slash r) ->
  get_schema e dir fs name rev answer = (fs', t) -> fs' q <> fs q ->
  exists d, dir = Some d /\ q = resolve d ++ [file_name name rev].
Proof.
  intros N R H D. destruct (get_changes _ _ _ _ _ _ _ _ _ H D) as (d & E1 & E2 & _). exists d. split; [exact E1|].
  rewrite E2. now apply stored_at.
Qed.

(** libyang's search in one directory, for the exact name of the file. *)
Definition search_in (d : bytes) (_ : bool) (fs : files) (name : bytes) (rev : option bytes) : option bytes :=
  match fs (resolve d ++ [file_name name rev]) with Some _ => Some (store_path d name rev) | None => None end.
Definition e_ok (d : bytes) : env :=
  {| e_search := search_in d; e_read := fun _ => true; e_alloc := true; e_create := fun _ => true; e_written := fun _ => 1000 |}.
Definition d0 : bytes := bs "/home/u/yang".
Definition bad_cap : bytes := bs "urn:x?module=../../../etc/x&revision=2020-01-01".
Definition bad_info : ModInfo.minfo := ModInfo.mkMI (bs "../../../etc/x") (Some (bs "2020-01-01")) None None true.
Theorem c184_outside_refuted : ~ c184_full.
Proof.
  intros F. assert (M : ModInfo.module_of_cpblt bad_cap = Some bad_info) by (vm_compute; reflexivity).
  specialize (F (e_ok d0) d0 (fun _ => None) bad_cap bad_info (Some (bs "text")) _ _ [bs "etc"; bs "x@2020-01-01.yang"] M eq_refl).
  destruct F as [b E]; [vm_compute; discriminate|]. vm_compute in E. discriminate.
Qed.

(* ------------------------------------------------------------------ *)
(** ** C185: files that exist are not changed *)

Definition c185_full : Prop := forall d cpb i fs answer fs' t q c, ModInfo.module_of_cpblt cpb = Some i ->
  get_schema (e_ok d) (Some d) fs (ModInfo.mi_name i) (ModInfo.mi_rev i) answer = (fs', t) -> fs q = Some c -> fs' q = Some c.

(** Missing: names and revisions with slashes.  [finds]: libyang finds a module whose file is in the directory. *)
Definition finds (e : env) (d : bytes) : Prop := forall fs name rev,
  fs (resolve d ++ [file_name name rev]) <> None -> e_search e false fs name rev <> None.
Theorem c185_kept_partial e d fs name rev answer fs' t q c : no_slash name -> (forall r, rev = Some r -> no_slash r) -> finds e d ->
  get_schema e (Some d) fs name rev answer = (fs', t) -> fs q = Some c -> fs' q = Some c.
Proof.
  intros N R F H C. destruct (place_eqb (resolve (store_path d name rev)) q) eqn:E.
  - apply place_eqb_spec in E. subst q. unfold get_schema in H.
    assert (S : e_search e false fs name rev <> None) by (apply F; rewrite <- stored_at by assumption; rewrite C; discriminate).
    destruct answer as [[|x a]|]; try (now injection H as <- <-).
    destruct (e_search e false fs name rev); [|congruence]. now injection H as <- <-.
  - assert (D : ~ (fs' q <> fs q)).
    { intros D. destruct (get_changes _ _ _ _ _ _ _ _ _ H D) as (d' & [= <-] & E2 & _).
      rewrite (proj2 (place_eqb_spec _ _) (eq_sym E2)) in E. discriminate. }
    destruct (fs' q) as [x|] eqn:E1.
    + rewrite C in D. destruct (beqb x c) eqn:B; [apply beqb_spec in B; now subst|].
      destruct D. intros [= ->]. now rewrite beqb_refl in B.
    + rewrite C in D. destruct D. discriminate.
Qed.

Definition bad_cap2 : bytes := bs "urn:x?module=../x".
Definition bad_info2 : ModInfo.minfo := ModInfo.mkMI (bs "../x") None None None true.
Definition x_place : list bytes := [bs "home"; bs "u"; bs "x.yang"].
Theorem c185_overwritten_refuted : ~ c185_full.
Proof.
  intros F. assert (M : ModInfo.module_of_cpblt bad_cap2 = Some bad_info2) by (vm_compute; reflexivity).
  specialize (F d0 bad_cap2 bad_info2 (put x_place (bs "old") (fun _ => None)) (Some (bs "new")) _ _ x_place (bs "old") M eq_refl (put_same _ _ _)).
  vm_compute in F. discriminate.
Qed.

(* ------------------------------------------------------------------ *)
(** ** C186: a stored module is the one the server sent *)

Definition c186_full : Prop := forall e d fs name rev t fs', no_slash name -> (forall r, rev = Some r -> no_slash r) ->
  get_schema e (Some d) fs name rev (Some t) = (fs', Some t) -> fs' (resolve d ++ [file_name name rev]) <> fs (resolve d ++ [file_name name rev]) ->
  e_search e true fs' name rev = Some (store_path d name rev) -> e_read e (store_path d name rev) = true ->
  fst (read_local e fs' name rev) = Some t.

(** Missing: modules that were written in part. *)
Theorem c186_same_partial e d fs name rev t fs' : no_slash name -> (forall r, rev = Some r -> no_slash r) ->
  get_schema e (Some d) fs name rev (Some t) = (fs', Some t) -> fs' (resolve d ++ [file_name name rev]) <> fs (resolve d ++ [file_name name rev]) ->
  e_search e true fs' name rev = Some (store_path d name rev) -> e_read e (store_path d name rev) = true ->
  (length t <= e_written e (store_path d name rev))%nat ->
  fst (read_local e fs' name rev) = Some t.
Proof.
  intros N R H D S RD W. unfold read_local. rewrite S.
  assert (A : isSome rev && negb (has_at (base (store_path d name rev))) = false).
  { destruct rev as [r|]; [|reflexivity]. cbn [isSome andb]. apply negb_false_iff. rewrite store_path_file, base_file by (now apply file_name_ok).
    unfold has_at. apply existsb_exists. exists AT. split; [|apply Ascii.eqb_refl]. unfold file_name. rewrite !in_app_iff. right. left. left. now left. }
  rewrite A, stored_at by assumption. rewrite RD. unfold get_schema in H.
  destruct t as [|x a]; [discriminate|].
  destruct (e_search e false fs name rev); [injection H as <-; congruence|].
  destruct (e_alloc e && e_create e (store_path d name rev)); [|injection H as <-; congruence].
  injection H as <-. rewrite stored_at by assumption. rewrite put_same, firstn_all2 by exact W. reflexivity.
Qed.

(** The disk is full: what was written remains, and is read ever after. *)
Definition e_full : env :=
  {| e_search := search_in d0; e_read := fun _ => true; e_alloc := true; e_create := fun _ => true; e_written := fun _ => 3 |}.
Theorem c186_cut_refuted : ~ c186_full.
Proof.
  intros F. specialize (F e_full d0 (fun _ => None) (bs "a") (Some (bs "2020-01-01")) (bs "module a {}")).
  assert (E : fst (read_local e_full (fst (get_schema e_full (Some d0) (fun _ => None) (bs "a") (Some (bs "2020-01-01")) (Some (bs "module a {}"))))
               (bs "a") (Some (bs "2020-01-01"))) = Some (bs "module a {}")).
  { apply F.
    - intros H. repeat (destruct H as [H|H]; [discriminate H|]). exact H.
    - intros r [= <-] H. repeat (destruct H as [H|H]; [discriminate H|]). exact H.
    - reflexivity.
    - vm_compute. discriminate.
    - vm_compute. reflexivity.
    - reflexivity. }
  vm_compute in E. discriminate.
Qed.

(* ------------------------------------------------------------------ *)
(** ** C187: reading a file loses no memory *)

Definition c187_full : Prop := forall e fs name rev, snd (read_local e fs name rev) = 0%nat.

(** Missing: a file without revision when one is asked for. *)
Theorem c187_released_partial e fs name rev :
  (forall r p, rev = Some r -> e_search e true fs name rev = Some p -> In AT (base p)) -> snd (read_local e fs name rev) = 0%nat.
Proof.
  intros H. unfold read_local. destruct (e_search e true fs name rev) as [p|]; [|reflexivity].
  assert (A : isSome rev && negb (has_at (base p)) = false).
  { destruct rev as [r|]; [|reflexivity]. cbn [isSome andb]. apply negb_false_iff. unfold has_at. apply existsb_exists. exists AT.
    split; [now apply (H r p)|apply Ascii.eqb_refl]. }
  rewrite A. destruct (fs (resolve p)); [|reflexivity]. now destruct (e_read e p).
Qed.

Definition e_norev : env :=
  {| e_search := fun _ _ _ _ => Some (bs "/home/u/yang/a.yang"); e_read := fun _ => true; e_alloc := true; e_create := fun _ => true;
     e_written := fun _ => 1000 |}.
Theorem c187_norev_refuted : ~ c187_full.
Proof. intros F. specialize (F e_norev (fun _ => None) (bs "a") (Some (bs "2020-01-01"))). vm_compute in F. discriminate. Qed.

(** What is read is the file found, and one with a revision if one is asked for. *)
Theorem c187_read e fs name rev t : fst (read_local e fs name rev) = Some t ->
  exists p, e_search e true fs name rev = Some p /\ fs (resolve p) = Some t /\ (rev <> None -> In AT (base p)).
Proof.
  unfold read_local. destruct (e_search e true fs name rev) as [p|]; [|discriminate]. intros H. exists p. split; [reflexivity|].
  destruct (isSome rev && negb (has_at (base p))) eqn:A; [discriminate|].
  destruct (fs (resolve p)) as [c|]; [|discriminate]. destruct (e_read e p); [|discriminate]. cbn in H. split; [exact H|].
  intros N. destruct rev; [|congruence]. cbn [isSome andb] in A. apply negb_false_iff in A. apply existsb_exists in A.
  destruct A as (c' & I & E). apply Ascii.eqb_eq in E. now subst.
Qed.

(* ------------------------------------------------------------------ *)
(** ** C188: texts are released as their source says *)

(** What a user's callback may give: memory of malloc() to be freed, memory never released, memory for a function of the user. *)
Definition gift (u : memory * release) : Prop := In u [(Malloc, ByFree); (Static, ByNone); (Own, ByUser)].
Definition as_told (u : memory * release) : option end_ :=
  match snd u with ByFree => Some Freed | ByNone => Some Kept | ByUser => Some Returned end.
Definition c188_full : Prop := forall u, gift u -> text_end false false u = as_told u.

(** Missing: texts of the user that are not of malloc(). *)
Theorem c188_free_partial local server u : gift u -> local = true \/ server = true \/ u = (Malloc, ByFree) ->
  text_end local server u = Some Freed.
Proof.
  intros _ H. unfold text_end, release_of. destruct (local || server) eqn:E; [reflexivity|].
  apply orb_false_iff in E. destruct E as [-> ->]. destruct H as [H|[H|H]]; [discriminate|discriminate|]. now subst.
Qed.
(** A constant text is given to free(), and the function of the user is not called. *)
Theorem c188_static_refuted : ~ c188_full.
Proof. intros F. specialize (F (Static, ByNone) (or_intror (or_introl eq_refl))). discriminate. Qed.
Theorem c188_undefined : text_end false false (Static, ByNone) = None /\ text_end false false (Own, ByUser) = None.
Proof. split; reflexivity. Qed.

(* ------------------------------------------------------------------ *)
(** ** Examples *)

Example ex_stored : fst (get_schema (e_ok d0) (Some d0) (fun _ => None) (bs "a") (Some (bs "2020-01-01")) (Some (bs "module a {}")))
  [bs "home"; bs "u"; bs "yang"; bs "a@2020-01-01.yang"] = Some (bs "module a {}").
Proof. vm_compute. reflexivity. Qed.
Lemma finds_ok d : finds (e_ok d) d.
Proof. intros fs name rev H. cbn. unfold search_in. destruct (fs (resolve d ++ [file_name name rev])); [discriminate|congruence]. Qed.
Example ex_kept : let fs := put [bs "home"; bs "u"; bs "yang"; bs "a.yang"] (bs "old") (fun _ => None) in
  fst (get_schema (e_ok d0) (Some d0) fs (bs "a") None (Some (bs "new"))) [bs "home"; bs "u"; bs "yang"; bs "a.yang"] = Some (bs "old").
Proof.
  intros fs. destruct (get_schema (e_ok d0) (Some d0) fs (bs "a") None (Some (bs "new"))) as [fs' t] eqn:E.
  apply (c185_kept_partial (e_ok d0) d0 fs (bs "a") None (Some (bs "new")) fs' t _ _) with (4 := E).
  - intros [H|[]]. discriminate.
  - discriminate.
  - apply finds_ok.
  - vm_compute. reflexivity.
Qed.
Example ex_again : let fs' := fst (get_schema (e_ok d0) (Some d0) (fun _ => None) (bs "a") (Some (bs "2020-01-01")) (Some (bs "module a {}"))) in
  read_local (e_ok d0) fs' (bs "a") (Some (bs "2020-01-01")) = (Some (bs "module a {}"), 0).
Proof. vm_compute. reflexivity. Qed.

(** Exactly one block (the path of the file) is lost, exactly when a revision is asked for and the name of the file
    found has none. *)
Theorem c187_lost e fs name rev :
  snd (read_local e fs name rev) = 0%nat \/ snd (read_local e fs name rev) = 1%nat /\ fst (read_local e fs name rev) = None /\
  rev <> None /\ exists p, e_search e true fs name rev = Some p /\ ~ In AT (base p).
Proof.
  unfold read_local. destruct (e_search e true fs name rev) as [p|]; [|left; reflexivity].
  destruct (isSome rev && negb (has_at (base p))) eqn:E.
  - right. apply andb_prop in E as [E1 E2]. repeat split; [now destruct rev|]. exists p. split; [reflexivity|].
    intros I. apply negb_true_iff in E2. unfold has_at in E2.
    assert (existsb (fun c => Ascii.eqb c AT) (base p) = true); [|congruence].
    apply existsb_exists. exists AT. split; [exact I|apply Ascii.eqb_refl].
  - left. destruct (fs (resolve p)); [|reflexivity]. now destruct (e_read e p).
Qed.

Print Assumptions c184_inside_partial.
Print Assumptions c184_outside_refuted.
Print Assumptions c185_kept_partial.
Print Assumptions c185_overwritten_refuted.
Print Assumptions c186_same_partial.
Print Assumptions c186_cut_refuted.
Print Assumptions c187_released_partial.
Print Assumptions c187_norev_refuted.
Print Assumptions c187_read.
Print Assumptions c188_free_partial.
Print Assumptions c188_static_refuted.
Print Assumptions c188_undefined.
Print Assumptions c187_lost.
