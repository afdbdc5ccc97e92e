(** C296: public keys of the configuration have the format their use asks for. *)
From Coq Require Import Ascii String ZArith Bool Lia List.
From Verif Require Import Bytes CStr KeyFmt.
Import ListNotations.

(* ------------------------------------------------------------------ *)
(** ** Specification *)

(** A text that can be decoded and is, or is not, a SubjectPublicKeyInfo for the library. *)
Definition x509 (decode : bytes -> option bytes) (der : bytes -> Z) (t : bytes) : Prop := exists b, decode t = Some b /\ der b = 1%Z.
Definition not_x509 (decode : bytes -> option bytes) (der : bytes -> Z) (t : bytes) : Prop := exists b, decode t = Some b /\ der b = 0%Z.

Definition right (decode : bytes -> option bytes) (der : bytes -> Z) (u : use) (t : bytes) : Prop :=
  match u with HostKey | UserKey => not_x509 decode der t | TlsId => x509 decode der t end.

(** Nothing is configured. *)
Definition empty : conf := {| c_key := fun _ => {| p_type := None; p_data := None |}; c_local := fun _ => false |}.

Definition sets (o : op) : bool := match o with Create | Replace => true | _ => false end.

(** Full statement: whatever was configured, each key that is kept is of the right format. *)
Definition c296_full : Prop := forall decode der l s t,
  p_data (c_key (snd (apply_all decode der l empty)) s) = Some t -> right decode der (fst s) t.

(** The library decides and the text can be decoded. *)
Definition decides (decode : bytes -> option bytes) (der : bytes -> Z) (l : list change) : Prop :=
  forall dup s o t, In (Key dup s o t) l -> exists b, decode t = Some b /\ (der b = 0 \/ der b = 1)%Z.

(* ------------------------------------------------------------------ *)
(** ** Lemmas *)

Lemma use_eqb_iff a b : use_eqb a b = true <-> a = b.
Proof. destruct a, b; cbn; split; congruence. Qed.

Lemma slot_eqb_iff a b : slot_eqb a b = true <-> a = b.
Proof.
  destruct a as [u i], b as [v j]. unfold slot_eqb. cbn [fst snd]. rewrite andb_true_iff, use_eqb_iff, Nat.eqb_eq.
  split; [intros [-> ->]; reflexivity|intros E; injection E; auto].
Qed.

Lemma upd_same {A} (f : slot -> A) s v : upd f s v s = v.
Proof. unfold upd. now rewrite (proj2 (slot_eqb_iff s s) eq_refl). Qed.

Lemma upd_other {A} (f : slot -> A) s v t : t <> s -> upd f s v t = f t.
Proof. intros N. unfold upd. destruct (slot_eqb t s) eqn:E; [apply slot_eqb_iff in E; contradiction|reflexivity]. Qed.

Lemma spki_zero decode der t : is_spki decode der t = 0%Z -> not_x509 decode der t.
Proof.
  unfold is_spki, not_x509. destruct (decode t) as [b|]; [|discriminate]. destruct (Z.eqb_spec (der b) 0) as [E|E]; [eauto|discriminate].
Qed.

(** What is known of kept keys without any premise: those of SSH are of the right format; those of TLS could not be shown to be wrong. *)
Definition kept (decode : bytes -> option bytes) (der : bytes -> Z) (c : conf) : Prop :=
  forall s t, p_data (c_key c s) = Some t ->
  match fst s with HostKey | UserKey => not_x509 decode der t | TlsId => ~ not_x509 decode der t end.

Lemma apply_kept decode der x c : kept decode der c -> kept decode der (snd (apply decode der x c)).
Proof.
  intros K. destruct x as [dup s o t|s o n]; cbn [apply].
  - unfold public_key. set (k := c_key c s). destruct (Z.eqb_spec (is_spki decode der t) 0) as [Z|Z]; cbn [negb]; destruct (fst s) eqn:U; cbn [snd]; try exact K;
      destruct o; cbn [snd]; try exact K; intros s' t'; cbn [c_key];
      (destruct (slot_eqb s' s) eqn:E; [apply slot_eqb_iff in E; subst s'; rewrite upd_same; cbn [p_data]|
        rewrite upd_other by (intros E'; apply slot_eqb_iff in E'; congruence); apply K]).
    all: try discriminate.
    all: destruct dup; intros H; try discriminate; injection H as <-; rewrite U.
    1-4: now apply spki_zero.
    all: intros (b & D & Q); apply Z; unfold is_spki; rewrite D, Q; reflexivity.
  - unfold public_key_format. destruct (if streq n _ then _ else _) as [f|]; [|exact K]. destruct o; cbn [snd]; try exact K;
      intros s' t'; cbn [c_key]; (destruct (slot_eqb s' s) eqn:E; [apply slot_eqb_iff in E; subst s'; rewrite upd_same; cbn [p_data]; apply K|
        rewrite upd_other by (intros E'; apply slot_eqb_iff in E'; congruence); apply K]).
Qed.

Lemma all_kept decode der : forall l c, kept decode der c -> kept decode der (snd (apply_all decode der l c)).
Proof.
  induction l as [|x l IH]; intros c K; cbn [apply_all]; [exact K|]. pose proof (apply_kept decode der x c K) as A.
  destruct (apply decode der x c) as [[] c1]; cbn [snd] in A; [now apply IH|exact A].
Qed.

Lemma apply_from decode der x c s t : p_data (c_key (snd (apply decode der x c)) s) = Some t ->
  p_data (c_key c s) = Some t \/ exists dup o, x = Key dup s o t.
Proof.
  destruct x as [dup s' o t'|s' o n]; cbn [apply].
  - unfold public_key. destruct (Z.eqb_spec (is_spki decode der t') 0); cbn [negb]; destruct (fst s'); cbn [snd]; auto; destruct o; cbn [snd c_key]; auto;
      (destruct (slot_eqb s s') eqn:E; [apply slot_eqb_iff in E; subst s'; rewrite upd_same; cbn [p_data]|
        rewrite upd_other by (intros E'; apply slot_eqb_iff in E'; congruence); auto]); try discriminate;
      destruct dup; intros H; try discriminate; injection H as ->; right; eauto.
  - unfold public_key_format. destruct (if streq n _ then _ else _) as [f|]; [|auto]. destruct o; cbn [snd c_key]; auto;
      (destruct (slot_eqb s s') eqn:E; [apply slot_eqb_iff in E; subst s'; rewrite upd_same; cbn [p_data]; auto|
        rewrite upd_other by (intros E'; apply slot_eqb_iff in E'; congruence); auto]).
Qed.

Lemma all_from decode der s t : forall l c, p_data (c_key (snd (apply_all decode der l c)) s) = Some t ->
  p_data (c_key c s) = Some t \/ exists dup o, In (Key dup s o t) l.
Proof.
  induction l as [|x l IH]; intros c H; cbn [apply_all] in H; [auto|].
  pose proof (apply_from decode der x c s t) as A. destruct (apply decode der x c) as [[] c1]; cbn [snd] in *.
  - destruct (IH c1 H) as [B|(dup & o & B)].
    + destruct (A B) as [C|(dup & o & ->)]; [auto|]. right. exists dup, o. now left.
    + right. exists dup, o. now right.
  - destruct (A H) as [C|(dup & o & ->)]; [auto|]. right. exists dup, o. now left.
Qed.

(* ------------------------------------------------------------------ *)
(** ** C296 *)

(** Keys of SSH are always right; those of TLS are if each text can be decoded and the library decides what it is. *)
Theorem c296_ssh decode der l s t : fst s <> TlsId ->
  p_data (c_key (snd (apply_all decode der l empty)) s) = Some t -> right decode der (fst s) t.
Proof.
  intros N H. assert (K : kept decode der empty) by (intros s' t'; discriminate). specialize (all_kept decode der l empty K s t H) as A.
  destruct (fst s); [exact A|exact A|congruence].
Qed.

Theorem c296_partial decode der l s t : decides decode der l ->
  p_data (c_key (snd (apply_all decode der l empty)) s) = Some t -> right decode der (fst s) t.
Proof.
  intros D H. assert (K : kept decode der empty) by (intros s' t'; discriminate). specialize (all_kept decode der l empty K s t H) as A.
  destruct (all_from decode der s t l empty H) as [B|(dup & o & I)]; [discriminate|]. destruct (D _ _ _ _ I) as (b & E & Q).
  destruct (fst s); [exact A|exact A|]. cbn. exists b. split; [exact E|]. destruct Q as [Q|Q]; [|exact Q]. exfalso. apply A. exists b. auto.
Qed.

(** A text that cannot be decoded becomes the public key of a server of TLS. *)
Theorem c296_refuted : ~ c296_full.
Proof.
  intros F. specialize (F (fun _ => None) (fun _ => 0%Z) [Key true (TlsId, 0) Create (bs "?")] (TlsId, 0) (bs "?") eq_refl).
  destruct F as (b & E & _). discriminate.
Qed.

(** A key of the wrong kind is refused, leaves everything as it was, and is what is kept if it is right. *)
Theorem c296_refused decode der dup s o t c : 
  (match fst s with TlsId => not_x509 decode der t | _ => ~ not_x509 decode der t end) -> public_key decode der dup s o t c = (false, c).
Proof.
  intros H. unfold public_key. assert (Z : (fst s = TlsId -> is_spki decode der t = 0%Z) /\ (fst s <> TlsId -> is_spki decode der t <> 0%Z)).
  { split; intros U.
    - rewrite U in H. destruct H as (b & D & Q). unfold is_spki. now rewrite D, Q.
    - intros Z. apply spki_zero in Z. destruct (fst s); [contradiction|contradiction|congruence]. }
  destruct Z as [Z1 Z2]. destruct (fst s).
  - specialize (Z2 ltac:(discriminate)). apply Z.eqb_neq in Z2. now rewrite Z2.
  - specialize (Z2 ltac:(discriminate)). apply Z.eqb_neq in Z2. now rewrite Z2.
  - rewrite (Z1 eq_refl). reflexivity.
Qed.

Theorem c296_kept decode der s o t c : sets o = true -> right decode der (fst s) t ->
  exists c', public_key decode der true s o t c = (true, c') /\ p_data (c_key c' s) = Some t /\ p_type (c_key c' s) = p_type (c_key c s) /\
             (fst s <> UserKey -> c_local c' s = true) /\ forall s', s' <> s -> c_key c' s' = c_key c s'.
Proof.
  intros S R. unfold public_key. destruct (fst s) eqn:U; cbn [right] in R; destruct R as (b & D & Q); unfold is_spki; rewrite D, Q; cbn [Z.eqb negb];
    destruct o; try discriminate; (eexists; split; [reflexivity|]); cbn [c_key c_local]; rewrite !upd_same; cbn [p_data p_type];
    repeat split; try reflexivity; try congruence; intros s' N; now rewrite upd_other.
Qed.

(** Deleting a key of a user removes it. *)
Theorem c296_deleted decode der dup i t c : not_x509 decode der t ->
  exists c', public_key decode der dup (UserKey, i) Delete t c = (true, c') /\ p_data (c_key c' (UserKey, i)) = None /\
             forall s', s' <> (UserKey, i) -> c_key c' s' = c_key c s'.
Proof.
  intros (b & D & Q). unfold public_key. cbn [fst]. unfold is_spki. rewrite D, Q. cbn [Z.eqb negb]. eexists. split; [reflexivity|]. cbn [c_key].
  rewrite upd_same. split; [reflexivity|]. intros s' N. now rewrite upd_other.
Qed.

(** What is said of the format need not be true: it is not compared with the key. *)
Theorem c296_format_refuted : exists decode der l c, apply_all decode der l empty = (true, c) /\ decides decode der l /\
  p_type (c_key c (HostKey, 0)) = Some FX509 /\ exists t, p_data (c_key c (HostKey, 0)) = Some t /\ not_x509 decode der t.
Proof.
  exists (fun t => Some t), (fun _ => 0%Z), [Format (HostKey, 0) Create (bs "subject-public-key-info-format"); Key true (HostKey, 0) Create (bs "AAAA")].
  eexists. split; [reflexivity|]. split; [|split; [reflexivity|]].
  - intros dup s o t [E|[E|[]]]; [discriminate|]. injection E as _ _ _ <-. eauto.
  - exists (bs "AAAA"). split; [reflexivity|]. exists (bs "AAAA"). auto.
Qed.

(** A host key and a key of TLS, and one after the other in the wrong place. *)
Definition der0 (b : bytes) : Z := if prefixb (bs "MF") b then 1%Z else 0%Z.
Example c296_case :
  let l := [Key true (HostKey, 0) Create (bs "AAAAB3"); Key true (TlsId, 0) Create (bs "MFkw"); Key true (UserKey, 3) Create (bs "MFkw"); Key true (HostKey, 0) Replace (bs "AAAAC3")] in
  let r := apply_all (fun t => Some t) der0 l empty in
  decides (fun t => Some t) der0 l /\ fst r = false /\ p_data (c_key (snd r) (HostKey, 0)) = Some (bs "AAAAB3") /\ p_data (c_key (snd r) (TlsId, 0)) = Some (bs "MFkw") /\
  p_data (c_key (snd r) (UserKey, 3)) = None.
Proof.
  cbv zeta. split.
  - intros dup s o t I. exists t. split; [reflexivity|]. unfold der0. destruct (prefixb (bs "MF") t); auto.
  - vm_compute. repeat split; reflexivity.
Qed.

Print Assumptions c296_ssh.
Print Assumptions c296_partial.
Print Assumptions c296_refuted.
Print Assumptions c296_refused.
Print Assumptions c296_kept.
Print Assumptions c296_deleted.
Print Assumptions c296_format_refuted.
