(** C253: what nc_err_get_tag() and nc_err_get_type() read from any error; the model is Err. *)
From Coq Require Import String ZArith Bool Lia List.
From Verif Require Import Bytes Err Prop_Err.
Import ListNotations.
Local Open Scope string_scope.
Local Open Scope Z_scope.
Local Open Scope list_scope.

(* ------------------------------------------------------------------ *)
(** ** Specification: the names of RFC 6241, appendix A, are in [appendix_a] *)

(** The first element of that name has the value [v]. *)
Definition first_is (l : list elem) (n v : string) : Prop := exists pre e post, l = pre ++ e :: post /\ n_name e = n /\ n_val e = v /\ forall x, In x pre -> n_name x <> n.
Definition tag_name (t : Z) (v : string) : Prop := exists types inf, In (t, (v, types, inf)) appendix_a.
Definition type_names : list (Z * string) := [(1, "transport"); (2, "rpc"); (3, "protocol"); (4, "application")].

(* ------------------------------------------------------------------ *)

Lemma find_first l n : match find l n with Some e => first_is l n (n_val e) | None => forall x, In x l -> n_name x <> n end.
Proof.
  induction l as [|y l IH]; cbn [find]; [intros x []|]. destruct (String.eqb_spec (n_name y) n) as [E|E].
  - exists [], y, l. repeat split; auto.
  - destruct (find l n) as [e|].
    + destruct IH as (pre & e' & post & -> & A & B & C). exists (y :: pre), e', post. repeat split; auto. intros x [<-|H]; auto.
    + intros x [<-|H]; auto.
Qed.
Lemma first_find l n v : first_is l n v -> exists e, find l n = Some e /\ n_val e = v.
Proof.
  intros (pre & e & post & -> & A & B & C). exists e. split; [|exact B]. induction pre as [|y pre IH]; cbn [find app].
  - now rewrite A, String.eqb_refl.
  - destruct (String.eqb_spec (n_name y) n) as [E|E]; [destruct (C y (or_introl eq_refl) E)|]. apply IH. intros x H. apply C. now right.
Qed.
Lemma first_fun l n v w : first_is l n v -> first_is l n w -> v = w.
Proof. intros A B. apply first_find in A, B. destruct A as (e & A & <-), B as (f & B & <-). congruence. Qed.

Lemma tag_of v t : t <> 0 -> (str2tag v = t <-> tag_name t v).
Proof.
  intros N. split.
  - unfold str2tag. repeat match goal with |- context [String.eqb v ?c] => destruct (String.eqb_spec v c) as [E|E]; [subst v; intros <-; eexists; eexists; unfold appendix_a; cbn [In]; eauto 25|clear E] end. intros E. now destruct N.
  - intros (types & inf & H). rows H; reflexivity.
Qed.
Lemma type_of v t : t <> 0 -> (str2type v = t <-> In (t, v) type_names).
Proof.
  intros N. split.
  - unfold str2type. repeat match goal with |- context [String.eqb v ?c] => destruct (String.eqb_spec v c) as [E|E]; [subst v; intros <-; cbn; tauto|clear E] end. intros E. now destruct N.
  - cbn. intros H. repeat (destruct H as [H|H]; [injection H as <- <-; reflexivity|]). destruct H.
Qed.

(** The tag read is the one the first error-tag names, and otherwise the unknown one (0). *)
Theorem c253_tag l t : t <> 0 -> (get_tag l = t <-> exists v, first_is l "error-tag" v /\ tag_name t v).
Proof.
  intros N. unfold get_tag. pose proof (find_first l "error-tag") as F. destruct (find l "error-tag") as [e|] eqn:E.
  - rewrite (tag_of _ _ N). split; [eauto|]. intros (v & A & B). rewrite (first_fun _ _ _ _ F A). exact B.
  - split; [intros H; now destruct N|]. intros (v & A & _). apply first_find in A. destruct A as (e & A & _). congruence.
Qed.
Theorem c253_type l t : t <> 0 -> (get_type l = t <-> exists v, first_is l "error-type" v /\ In (t, v) type_names).
Proof.
  intros N. unfold get_type. pose proof (find_first l "error-type") as F. destruct (find l "error-type") as [e|] eqn:E.
  - rewrite (type_of _ _ N). split; [eauto|]. intros (v & A & B). rewrite (first_fun _ _ _ _ F A). exact B.
  - split; [intros H; now destruct N|]. intros (v & A & _). apply first_find in A. destruct A as (e & A & _). congruence.
Qed.
(** So the unknown tag is read exactly if the error has no error-tag or one RFC 6241 does not have. *)
Theorem c253_unknown l : get_tag l = 0 <-> ~ exists v t, first_is l "error-tag" v /\ tag_name t v.
Proof.
  assert (Z0 : forall t v, tag_name t v -> t <> 0) by (intros t v (ty & inf & H); rows H; discriminate). split.
  - intros H (v & t & A & B). pose proof (Z0 t v B) as N. assert (G : get_tag l = t) by (apply (c253_tag l t N); eauto). congruence.
  - intros H. destruct (Z.eq_dec (get_tag l) 0) as [E|E]; [exact E|]. destruct H. destruct (proj1 (c253_tag l _ E) eq_refl) as (v & A & B). eauto.
Qed.

Example c253_case :
  get_tag [mkE "error-type" "rpc" None []; mkE "error-tag" "lock-denied" None []; mkE "error-tag" "too-big" None []] = 12
  /\ tag_name 12 "lock-denied" /\ get_tag [mkE "error-tag" "In-Use" None []] = 0 /\ get_tag [] = 0 /\ get_type [mkE "error-type" "rpc" None []] = 2.
Proof. split; [reflexivity|]. split; [|repeat split; reflexivity]. eexists. eexists. unfold appendix_a. cbn [In]. eauto 25. Qed.

Print Assumptions c253_tag.
Print Assumptions c253_type.
Print Assumptions c253_unknown.
