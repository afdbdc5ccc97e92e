(** C252: submodules a client asks for while it fills the context of a session; the model is ModInfo. *)
From Coq Require Import Ascii String NArith ZArith Bool Lia List.
From Verif Require Import Bytes CStr Caps ClientMsgs ModInfo Prop_ClientRecv Prop_ModInfo.
Import ListNotations.
Local Open Scope N_scope.

(* ------------------------------------------------------------------ *)
(** ** Specification *)

(** The only entry of the server's modules for that name (and revision, if one is given) is [m]. *)
Definition entry (ms : list minfo) (name : bytes) (rev : option bytes) (m : minfo) : Prop :=
  In m ms /\ mi_name m = name /\ (forall r, rev = Some r -> mi_rev m = Some r) /\
  (forall m', In m' ms -> mi_name m' = name -> (forall r, rev = Some r -> mi_rev m' = Some r) -> m' = m).
(** The entry lists the submodule once, with that revision. *)
Definition lists (m : minfo) (sub r : bytes) : Prop :=
  exists l, mi_subs m = Some l /\ In (sub, Some r) l /\ NoDup (map fst l).
(** What is asked for when the module [name] of revision [rev] includes [sub] without a revision. *)
Definition c252_full : Prop := forall ms name rev m sub r, rev <> Some [] -> NoDup (map mi_name ms) -> entry ms name rev m -> lists m sub r ->
  retrieve_imp ms name rev (Some (sub, None)) = Ret (Want sub (Some r) true).

(* ------------------------------------------------------------------ *)

Lemma streq_iff a b : streq a b = true <-> a = b.
Proof. apply beqb_spec. Qed.

Lemma sub_skip (sub : bytes) (l : list (bytes * option bytes)) : forall a, ~ In sub (map fst l) -> fold_left (fun a s => if streq sub (fst s) then snd s else a) l a = a.
Proof.
  induction l as [|[n v] l IH]; intros a N; [reflexivity|]. cbn [fold_left fst snd]. destruct (streq sub n) eqn:E.
  - apply streq_iff in E. subst n. destruct N. now left.
  - apply IH. intros H. apply N. now right.
Qed.
Lemma sub_found (sub : bytes) r (l : list (bytes * option bytes)) : forall a, NoDup (map fst l) -> In (sub, r) l -> fold_left (fun a s => if streq sub (fst s) then snd s else a) l a = r.
Proof.
  induction l as [|[n v] l IH]; intros a D I; [destruct I|]. cbn [map fst] in D. inversion D as [|? ? D1 D2]; subst. cbn [fold_left fst snd]. destruct I as [I|I].
  - injection I as -> ->. rewrite (proj2 (streq_iff sub sub) eq_refl). now apply sub_skip.
  - destruct (streq sub n) eqn:E; [|now apply IH]. apply streq_iff in E. subst n. destruct D1. apply (in_map fst) in I. exact I.
Qed.

Lemma newest_skip name ms : forall u k rev, (forall m, In m ms -> mi_name m <> name) -> newest name ms u k rev = Ret (k, rev).
Proof.
  induction ms as [|m ms IH]; intros u k rev N; [reflexivity|]. cbn [newest]. destruct (streq name (mi_name m)) eqn:E.
  - apply streq_iff in E. destruct (N m (or_introl eq_refl)). now symmetry.
  - cbn [negb]. apply IH. intros x Hx. apply N. now right.
Qed.
Lemma newest_one name m post : forall pre u, mi_name m = name -> (forall x, In x pre -> mi_name x <> name) -> (forall x, In x post -> mi_name x <> name) ->
  newest name (pre ++ m :: post) u 0 None = Ret (S (u + length pre), mi_rev m).
Proof.
  induction pre as [|y pre IH]; intros u M A B; cbn [app newest length].
  - rewrite (proj2 (streq_iff name (mi_name m)) (eq_sym M)). cbn [negb]. rewrite newest_skip by exact B. now rewrite Nat.add_0_r.
  - destruct (streq name (mi_name y)) eqn:E; [apply streq_iff in E; destruct (A y (or_introl eq_refl)); now symmetry|]. cbn [negb].
    rewrite IH; auto; [|intros x Hx; apply A; now right]. f_equal. f_equal. lia.
Qed.

(** If the module has no revision given: the revision listed with the only entry of that name. *)
Theorem c252_norev_partial ms name m sub r : NoDup (map mi_name ms) -> In m ms -> mi_name m = name -> lists m sub r ->
  retrieve_imp ms name None (Some (sub, None)) = Ret (Want sub (Some r) true).
Proof.
  intros D I M (l & L & J & K). destruct (in_split _ _ I) as (pre & post & ->).
  rewrite map_app in D. cbn [map] in D. apply NoDup_remove_2 in D. rewrite M in D.
  unfold retrieve_imp. rewrite newest_one; [|exact M| |].
  - cbn [Nat.add]. rewrite nth_error_app2 by lia. rewrite Nat.sub_diag. cbn [nth_error]. rewrite L. unfold sub_rev_of. now rewrite (sub_found sub (Some r) l None K J).
  - intros x Hx E. apply D. apply in_or_app. left. rewrite <- E. now apply in_map.
  - intros x Hx E. apply D. apply in_or_app. right. rewrite <- E. now apply in_map.
Qed.
(** If the module has a revision given: only if it is the first of the list of modules. *)
Theorem c252_first_partial m ms name c t sub r : mi_name m = name -> mi_rev m = Some (c :: t) -> lists m sub r ->
  retrieve_imp (m :: ms) name (Some (c :: t)) (Some (sub, None)) = Ret (Want sub (Some r) true).
Proof. intros _ _ (l & L & J & K). unfold retrieve_imp. cbn [nth_error]. rewrite L. unfold sub_rev_of. now rewrite (sub_found sub (Some r) l None K J). Qed.
(** A revision given for the submodule is the one asked for. *)
Theorem c252_given ms name rev sub r : (exists n v b, retrieve_imp ms name rev (Some (sub, Some r)) = Ret (Want n v b)) -> exists b, retrieve_imp ms name rev (Some (sub, Some r)) = Ret (Want sub (Some r) b).
Proof.
  intros (n & v & b & H). revert H. unfold retrieve_imp. destruct (match rev with Some (_ :: _) => _ | _ => _ end) as [[k x]|]; [|discriminate]. intros _. eauto.
Qed.

(** Module b is second in the list: its submodule is not found, or that of module a of the same name is asked for. *)
Definition ma (l : option (list (bytes * option bytes))) : minfo := mkMI (bs "a") (Some (bs "2020-01-01")) l None true.
Definition mb : minfo := mkMI (bs "b") (Some (bs "2021-01-01")) (Some [(bs "bs", Some (bs "2019-05-05"))]) None true.
Lemma second l : NoDup (map mi_name [ma l; mb]) /\ entry [ma l; mb] (bs "b") (Some (bs "2021-01-01")) mb /\ lists mb (bs "bs") (bs "2019-05-05").
Proof.
  split; [repeat constructor; cbn; intuition discriminate|]. split.
  - split; [right; now left|]. split; [reflexivity|]. split; [intros r E; injection E as <-; reflexivity|].
    intros m' [E|[E|[]]] N _; [subst m'; discriminate N|now symmetry].
  - exists [(bs "bs", Some (bs "2019-05-05"))]. split; [reflexivity|]. split; [now left|]. repeat constructor; cbn; intuition.
Qed.
Theorem c252_full_refuted : ~ c252_full /\
  retrieve_imp [ma (Some [(bs "as", Some (bs "2018-01-01"))]); mb] (bs "b") (Some (bs "2021-01-01")) (Some (bs "bs", None)) = Ret NotFound /\
  retrieve_imp [ma (Some [(bs "bs", Some (bs "2018-01-01"))]); mb] (bs "b") (Some (bs "2021-01-01")) (Some (bs "bs", None)) = Ret (Want (bs "bs") (Some (bs "2018-01-01")) true) /\
  retrieve_imp [ma None; mb] (bs "b") (Some (bs "2021-01-01")) (Some (bs "bs", None)) = Ret (Want (bs "bs") None true).
Proof.
  split; [|repeat split; reflexivity]. intros F. destruct (second None) as (D & E & L).
  assert (N : Some (bs "2021-01-01") <> Some []) by discriminate. specialize (F _ _ _ _ _ _ N D E L). discriminate F.
Qed.
Example c252_case : retrieve_imp [ma None; mb] (bs "b") None (Some (bs "bs", None)) = Ret (Want (bs "bs") (Some (bs "2019-05-05")) true).
Proof. apply c252_norev_partial with mb; [apply (second None)|right; now left|reflexivity|apply (second None)]. Qed.

Print Assumptions c252_norev_partial.
Print Assumptions c252_first_partial.
Print Assumptions c252_given.
Print Assumptions c252_full_refuted.
