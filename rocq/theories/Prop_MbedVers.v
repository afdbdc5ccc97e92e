(** C305: the TLS versions of a server with mbedTLS. *)
From Coq Require Import Arith NArith Bool Lia List.
From Verif Require Import Bytes Algs MbedVers Prop_Algs.
Import ListNotations.

(* ------------------------------------------------------------------ *)
(** ** Specification *)

(** mbedTLS has TLS 1.2 and 1.3; the defaults allow one or both of them. *)
Definition supported (v : tlsv) : bool := match v with V12 | V13 => true | _ => false end.
Definition default (r : range) : Prop := supported (r_min r) = true /\ supported (r_max r) = true /\ rank (r_min r) <= rank (r_max r).
(** A session can use a version that mbedTLS has, between the minimum and the maximum. *)
Definition usable (r : range) (v : tlsv) : Prop := supported v = true /\ rank (r_min r) <= rank v <= rank (r_max r).

(** Full statement: if versions are configured, sessions use only those; and all of them that mbedTLS has. *)
Definition c305_full : Prop := forall (l : list (op * tlsv)) r v, default r -> (exists w, configured false l w = true) ->
  (usable (session_range (bits_after l 0) r) v <-> configured false l v = true /\ supported v = true).

(* ------------------------------------------------------------------ *)
(** ** C305 *)

Lemma has_configured : forall (l : list (op * tlsv)) b v, has (bits_after l b) v = configured (has b v) l v.
Proof. induction l as [|[o w] l IH]; intros b v; [reflexivity|]. cbn [configured]. unfold bits_after in *. cbn [fold_left fst snd]. rewrite IH. now rewrite has_step. Qed.
Lemma has0 v : has 0 v = false.
Proof. destruct v; reflexivity. Qed.

(** With TLS 1.2 or 1.3 among them. *)
Theorem c305_partial (l : list (op * tlsv)) r v : (exists w, configured false l w = true /\ supported w = true) ->
  (usable (session_range (bits_after l 0) r) v <-> configured false l v = true /\ supported v = true).
Proof.
  intros (w & C & S1). assert (H : forall u, has (bits_after l 0) u = configured false l u) by (intros u; now rewrite has_configured, has0).
  unfold session_range. destruct (N.eqb_spec (bits_after l 0) 0) as [Z|Z]; [rewrite <- H, Z, has0 in C; discriminate|].
  unfold set_versions, usable. cbn [r_min r_max]. rewrite !H.
  destruct (configured false l V12) eqn:C2, (configured false l V13) eqn:C3; destruct v; cbn [supported rank]; rewrite ?C2, ?C3;
    try (split; [intros [Q _]; discriminate Q|intros [_ Q]; discriminate Q]); try (split; [intros _; split; reflexivity|intros _; split; [reflexivity|lia]]);
    try (split; [intros [_ Q]; lia|intros [Q _]; discriminate Q]); destruct w; cbn in S1; try discriminate; congruence.
Qed.

(** Without them the sessions use the defaults, which were not configured. *)
Theorem c305_defaults (l : list (op * tlsv)) r : configured false l V12 = false -> configured false l V13 = false -> session_range (bits_after l 0) r = r.
Proof.
  intros C2 C3. unfold session_range, set_versions. rewrite !has_configured, !has0, C2, C3. destruct r; destruct (_ =? _)%N; reflexivity.
Qed.
Theorem c305_never (l : list (op * tlsv)) r : default r -> configured false l V12 = false -> configured false l V13 = false ->
  exists v, usable (session_range (bits_after l 0) r) v /\ configured false l v = false.
Proof.
  intros (D1 & D2 & D3) C2 C3. rewrite c305_defaults by assumption. exists (r_min r). split; [split; [exact D1|lia]|]. destruct (r_min r); try discriminate; assumption.
Qed.

Theorem c305_refuted : ~ c305_full.
Proof.
  intros F. assert (D : default {| r_min := V12; r_max := V13 |}) by (repeat split; cbn; lia).
  destruct (proj1 (F [(Create, V10)] {| r_min := V12; r_max := V13 |} V12 D (ex_intro _ V10 eq_refl))) as [Q _]; [|discriminate Q]. split; [reflexivity|]. cbn. lia.
Qed.

(** 1.1, 1.2 and 1.3 are configured, then 1.2 removed. *)
Example c305_case : let l := [(Create, V11); (Create, V12); (Create, V13); (Delete, V12)] in
  (exists w, configured false l w = true /\ supported w = true) /\ session_range (bits_after l 0) {| r_min := V12; r_max := V13 |} = {| r_min := V13; r_max := V13 |}.
Proof. split; [exists V13; split; reflexivity|vm_compute; reflexivity]. Qed.

Print Assumptions c305_partial.
Print Assumptions c305_defaults.
Print Assumptions c305_never.
Print Assumptions c305_refuted.
