(** C246: the entry made of a module of the yang-library; the model is ModInfo. *)
From Coq Require Import Ascii String NArith Bool Lia List.
From Verif Require Import Bytes CStr ModInfo.
Import ListNotations.
Local Open Scope list_scope.

(** The last of the values that [f] picks from the children. *)
Definition lastv {A B} (f : A -> option B) (cs : list A) (o : option B) : Prop :=
  match o with
  | Some v => exists pre c post, cs = pre ++ c :: post /\ f c = Some v /\ Forall (fun x => f x = None) post
  | None => Forall (fun x => f x = None) cs
  end.

Definition name_of c := match c with YName v => Some v | _ => None end.
Definition rev_of c := match c with YRevision v => Some v | _ => None end.
Definition conf_of c := match c with YConf v => Some v | _ => None end.
Fixpoint features (cs : list ychild) : list bytes :=
  match cs with [] => [] | YFeature v :: r => v :: features r | _ :: r => features r end.

Definition agrees (cs : list ychild) (m : minfo) : Prop :=
  (exists n, lastv name_of cs n /\ mi_name m = match n with Some v => v | None => [] end) /\
  lastv rev_of cs (mi_rev m) /\
  mi_feats m = match features cs with [] => None | l => Some l end /\
  (mi_impl m = true <-> lastv conf_of cs (Some (bs "implement"))).

Lemma last_snoc {A B} (f : A -> option B) cs c : forall o, lastv f cs o -> lastv f (cs ++ [c]) (match f c with Some v => Some v | None => o end).
Proof.
  intros o H. destruct (f c) as [v|] eqn:E; [exists cs, c, []; auto|]. destruct o as [v|]; cbn [lastv] in *.
  - destruct H as (p & x & q & -> & F & Q). exists p, x, (q ++ [c]). rewrite <- app_assoc. split; [reflexivity|]. split; [exact F|]. apply Forall_app. auto.
  - apply Forall_app. auto.
Qed.
Lemma last_one {A B} (f : A -> option B) cs : forall o o', lastv f cs o -> lastv f cs o' -> o = o'.
Proof.
  induction cs as [|c cs IH] using rev_ind; intros o o' H H'.
  - destruct o as [v|]; [destruct H as (p & x & q & E & _); destruct p; discriminate E|]. destruct o' as [v|]; [destruct H' as (p & x & q & E & _); destruct p; discriminate E|reflexivity].
  - assert (G : forall o, lastv f (cs ++ [c]) o -> (f c = None /\ lastv f cs o) \/ (o = f c /\ f c <> None)).
    { clear. intros [v|] H; cbn [lastv] in H.
      - destruct H as (p & x & q & E & F & Q). destruct q as [|y q] using rev_ind.
        + apply app_inj_tail in E. destruct E as [_ ->]. right. split; [congruence|congruence].
        + left. change (p ++ x :: q ++ [y]) with (p ++ (x :: q) ++ [y]) in E. rewrite app_assoc in E. apply app_inj_tail in E. destruct E as [-> ->]. apply Forall_app in Q. destruct Q as [Q1 Q2]. inversion Q2; subst.
          split; [assumption|]. exists p, x, q. auto.
      - apply Forall_app in H. destruct H as [H1 H2]. inversion H2; subst. left. split; assumption. }
    destruct (G o H) as [[N L]|[E N]], (G o' H') as [[N' L']|[E' N']]; try congruence. exact (IH _ _ L L').
Qed.
Lemma streq_iff a b : streq a b = true <-> a = b.
Proof. apply beqb_spec. Qed.
Lemma features_app a b : features (a ++ b) = features a ++ features b.
Proof. induction a as [|c a IH]; [reflexivity|]. destruct c; cbn [app features]; rewrite ?IH; reflexivity. Qed.

Lemma fold_agrees cs : agrees cs (fold_left yl_child cs (mkMI [] None None None false)).
Proof.
  induction cs as [|c cs IH] using rev_ind.
  - split; [exists None; split; [constructor|reflexivity]|]. split; [constructor|]. split; [reflexivity|]. split; [discriminate|]. intros (p & x & q & E & _). destruct p; discriminate E.
  - rewrite fold_left_app. cbn [fold_left]. set (m := fold_left yl_child cs _) in *. destruct IH as ((n & N1 & N2) & R & F & C).
    assert (Cn : conf_of c = None -> (lastv conf_of (cs ++ [c]) (Some (bs "implement")) <-> lastv conf_of cs (Some (bs "implement")))).
    { intros X. split; intros H.
      - destruct H as (p & x & q & E & Fx & Q). destruct q as [|y q] using rev_ind; [apply app_inj_tail in E; destruct E as [_ ->]; congruence|]. clear IHq.
        change (p ++ x :: q ++ [y]) with (p ++ (x :: q) ++ [y]) in E. rewrite app_assoc in E. apply app_inj_tail in E. destruct E as [-> _]. apply Forall_app in Q. exists p, x, q. intuition.
      - pose proof (last_snoc conf_of cs c _ H) as L. rewrite X in L. exact L. }
    split; [exists (match name_of c with Some v => Some v | None => n end); split; [apply last_snoc, N1|destruct c; cbn; auto]|].
    split; [pose proof (last_snoc rev_of cs c _ R) as L; destruct c; exact L|].
    split.
    + rewrite features_app. destruct c; cbn [yl_child mi_feats features]; rewrite ?app_nil_r; auto. rewrite F. destruct (features cs); reflexivity.
    + destruct c; try (rewrite (Cn eq_refl); exact C). cbn [yl_child mi_impl]. rewrite streq_iff.
      pose proof (fun o (H : lastv conf_of cs o) => last_snoc conf_of cs (YConf v) o H) as L. cbn [conf_of] in L. split.
      * intros ->. exists cs, (YConf (bs "implement")), []. auto.
      * intros (p & x & q & E & Fx & Q). destruct q as [|y q] using rev_ind; [apply app_inj_tail in E; destruct E as [_ <-]; cbn [conf_of] in Fx; congruence|]. clear IHq.
        change (p ++ x :: q ++ [y]) with (p ++ (x :: q) ++ [y]) in E. rewrite app_assoc in E. apply app_inj_tail in E. destruct E as [_ <-]. apply Forall_app in Q. destruct Q as [_ Q]. inversion Q; subst. discriminate.
Qed.

(** C246: name, revision, features and whether the module is implemented are those of the yang-library. *)
Theorem c246_module counted cs : agrees cs (yl_module counted cs).
Proof. exact (fold_agrees cs). Qed.

(** The name and the revision are fixed by this. *)
Theorem c246_unique counted cs n r : lastv name_of cs (Some n) -> lastv rev_of cs r -> mi_name (yl_module counted cs) = n /\ mi_rev (yl_module counted cs) = r.
Proof.
  intros N R. destruct (c246_module counted cs) as ((n' & N1 & N2) & R1 & _). rewrite N2, (last_one _ _ _ _ N1 N). split; [reflexivity|]. exact (last_one _ _ _ _ R1 R).
Qed.

(** Submodules are lists, which have no value, and are not counted: none is ever recorded. *)
Theorem c246_no_submodules cs : mi_subs (yl_module false cs) = None.
Proof. reflexivity. Qed.

Example c246_case : let m := yl_module false [YName (bs "a"); YRevision (bs "2020-01-01"); YFeature (bs "f"); YConf (bs "import"); YOther; YFeature (bs "g")] in
  mi_name m = bs "a" /\ mi_rev m = Some (bs "2020-01-01") /\ mi_feats m = Some [bs "f"; bs "g"] /\ mi_impl m = false /\
  mi_impl (yl_module false [YName (bs "a"); YConf (bs "implement")]) = true /\ mi_impl (yl_module false [YName (bs "a")]) = false.
Proof. repeat split. Qed.

Print Assumptions c246_module.
Print Assumptions c246_unique.
Print Assumptions c246_no_submodules.
