(** C293: the host keys of a session are those of the configuration. *)
From Coq Require Import Ascii String Arith NArith Bool Lia List.
From Verif Require Import Bytes CStr KeyFiles HostKeys Prop_KeyFiles.
Import ListNotations.

(* ------------------------------------------------------------------ *)
(** ** Specification *)

(** What a host key of the configuration stands for: itself, or the first key of that name in the keystore, whose public key must
    be one of SSH. *)
Definition means (spki : bytes -> bool) (ks : list askey) (h : hostkey) (k : askey) : Prop :=
  match h with
  | HLocal k' => k = k'
  | HRef r => exists before after, ks = before ++ k :: after /\ k_name k = r /\ (forall x, In x before -> k_name x <> r) /\
                                   (forall p, k_pub k = Some p -> spki p = false)
  end.

Definition label (f : pkfmt) : bytes := match f with FmtRsa => bs " RSA " | FmtEc => bs " EC " | FmtX509 => bs " " | FmtOpenssh => bs " OPENSSH " end.

(** The text of a private key. *)
Definition text (f : pkfmt) (data : bytes) : bytes :=
  bs "-----BEGIN" ++ label f ++ bs "PRIVATE KEY-----" ++ [NL] ++ data ++ [NL] ++ bs "-----END" ++ label f ++ bs "PRIVATE KEY-----".

(** What libssh finds in the file: all of it unless it could not be written at the end. *)
Definition in_file (w : tmpenv) (t c : bytes) : Prop := c = takeN (t_flushed w) t.

(** The file is made and libssh takes the key. *)
Definition taken (w : tmpenv) (t : bytes) : Prop :=
  t_mkstemp w = true /\ t_fdopen w = true /\ sumN (t_written w) = lenN t /\ t_strdup w = true /\ forall c, in_file w t c -> t_accept w c = true.

Definition fits (spki : bytes -> bool) (ks : list askey) (w : tmpenv) (h : hostkey) : Prop :=
  exists k data, means spki ks h k /\ k_priv k = Some data /\ taken w (text (k_type k) data).

(* ------------------------------------------------------------------ *)
(** ** Lemmas *)

Lemma beqb_iff a : forall b, beqb a b = true <-> a = b.
Proof.
  induction a as [|x a IH]; intros [|y b]; cbn [beqb]; try (split; [discriminate|discriminate]); [tauto|].
  rewrite andb_true_iff, Ascii.eqb_eq, IH. split; [intros [-> ->]; reflexivity|intros E; injection E as -> ->; auto].
Qed.

Lemma lookup_some ref ks k : lookup ref ks = Some k <->
  exists before after, ks = before ++ k :: after /\ k_name k = ref /\ forall x, In x before -> k_name x <> ref.
Proof.
  induction ks as [|x ks IH]; cbn [lookup].
  - split; [discriminate|]. intros ([|y b] & a & E & _); discriminate.
  - unfold streq in *. destruct (beqb ref (k_name x)) eqn:Q.
    + apply beqb_iff in Q. split.
      * intros E. injection E as <-. exists [], ks. repeat split; auto.
      * intros ([|y b] & a & E & N & F); injection E as <- ->; [reflexivity|]. exfalso. apply (F x); [now left|now symmetry].
    + assert (D : k_name x <> ref) by (intros E; rewrite <- E in Q; rewrite (proj2 (beqb_iff _ _) eq_refl) in Q; discriminate).
      rewrite IH. split.
      * intros (b & a & -> & N & F). exists (x :: b), a. repeat split; auto. intros y [<-|I]; auto.
      * intros ([|y b] & a & E & N & F); injection E as <- ->; [contradiction|]. exists b, a. repeat split; auto. intros z I. apply F. now right.
Qed.

Lemma get_key spki ks r k : ks_ref_get_key spki ks r = Some k <-> means spki ks (HRef r) k.
Proof.
  unfold ks_ref_get_key, means. split.
  - destruct (lookup r ks) as [x|] eqn:L; [|discriminate]. apply lookup_some in L. destruct L as (b & a & E & N & F).
    destruct (k_pub x) as [p|] eqn:P; [destruct (spki p) eqn:S; [discriminate|]|]; intros H; injection H as <-; exists b, a; (split; [exact E|]);
      (split; [exact N|]); (split; [exact F|]); congruence.
  - intros (b & a & E & N & F & P). assert (L : lookup r ks = Some k) by (apply lookup_some; eauto). rewrite L.
    destruct (k_pub k) as [p|]; [rewrite (P p eq_refl)|]; reflexivity.
Qed.

Definition key_of (spki : bytes -> bool) (ks : list askey) (h : hostkey) : option askey :=
  match h with HLocal k => Some k | HRef r => ks_ref_get_key spki ks r end.

Lemma key_of_means spki ks h k : key_of spki ks h = Some k <-> means spki ks h k.
Proof. destruct h as [x|r]; cbn [key_of]; [cbn; split; [intros E; injection E as <-; reflexivity|intros ->; reflexivity]|apply get_key]. Qed.

Lemma parts_text f data : concat (tmp_parts data f) = text f data.
Proof. unfold tmp_parts, text, format_to_str, label. cbn [concat]. rewrite app_nil_r. destruct f; rewrite <- ?app_assoc; reflexivity. Qed.

Lemma one_ok w data f : r_ok (add_hostkey w data f) = true <-> taken w (text f data).
Proof.
  unfold add_hostkey, to_tmp_file, taken, in_file. cbv zeta. rewrite parts_text. destruct (t_mkstemp w); cbn [negb r_ok]; [|intuition discriminate].
  destruct (t_fdopen w); cbn [negb r_ok]; [|intuition discriminate].
  destruct (N.eqb_spec (sumN (t_written w)) (lenN (text f data))) as [E|E]; cbn [negb r_ok]; [|intuition discriminate].
  destruct (t_strdup w); cbn [r_ok]; [|intuition discriminate]. split; [intros A; repeat split; auto; intros c ->; exact A|].
  intros (_ & _ & _ & _ & A). now apply A.
Qed.

Lemma one_seen w data f : r_ok (add_hostkey w data f) = true -> exists c, r_seen (add_hostkey w data f) = Some c /\ in_file w (text f data) c.
Proof.
  unfold add_hostkey, to_tmp_file, in_file. cbv zeta. rewrite parts_text.
  destruct (t_mkstemp w), (t_fdopen w); cbn [negb r_ok]; try discriminate.
  destruct (sumN (t_written w) =? lenN (text f data))%N; cbn [negb r_ok]; try discriminate. destruct (t_strdup w); cbn [r_ok r_seen]; [|discriminate].
  eauto.
Qed.

Lemma add_step spki ks w i h hs d : add_hostkeys spki ks w i (h :: hs) d =
  match key_of spki ks h with
  | None => (false, d)
  | Some k =>
      match k_priv k with
      | None => (false, d)
      | Some data =>
          let r := add_hostkey (w i) data (k_type k) in
          let d' := {| d_set := d_set d ++ (if r_ok r then opt (r_seen r) else []); d_left := d_left d ++ opt (r_left r) |} in
          if r_ok r then add_hostkeys spki ks w (S i) hs d' else (false, d')
      end
  end.
Proof. destruct h; reflexivity. Qed.

(* ------------------------------------------------------------------ *)
(** ** C293 *)

(** The call succeeds exactly if every host key stands for a key with data whose file libssh takes. *)
Theorem c293_succeeds spki ks w hs : forall i d,
  fst (add_hostkeys spki ks w i hs d) = true <-> forall j h, nth_error hs j = Some h -> fits spki ks (w (i + j)) h.
Proof.
  induction hs as [|h hs IH]; intros i d.
  - cbn. split; [intros _ [|j] h; discriminate|reflexivity].
  - rewrite add_step. cbv zeta. split.
    + intros H [|j] x X; cbn [nth_error] in X.
      * injection X as <-. rewrite Nat.add_0_r. destruct (key_of spki ks h) as [k|] eqn:K; [|discriminate]. apply key_of_means in K.
        destruct (k_priv k) as [data|] eqn:P; [|discriminate]. destruct (r_ok (add_hostkey (w i) data (k_type k))) eqn:R; [|discriminate].
        exists k, data. split; [exact K|]. split; [exact P|]. now apply one_ok.
      * destruct (key_of spki ks h) as [k|]; [|discriminate]. destruct (k_priv k) as [data|]; [|discriminate].
        destruct (r_ok (add_hostkey (w i) data (k_type k))) eqn:R; [|discriminate]. rewrite <- Nat.add_succ_comm. eapply IH; eassumption.
    + intros H. pose proof (H 0 h eq_refl) as (k & data & M & P & T). rewrite Nat.add_0_r in T. apply key_of_means in M. rewrite M, P.
      apply one_ok in T. rewrite T. apply IH. intros j x X. specialize (H (S j) x X). rewrite <- Nat.add_succ_comm in H. exact H.
Qed.

(** Then libssh was given exactly these keys, in the order of the configuration. *)
Theorem c293_keys spki ks w hs : forall i d d', add_hostkeys spki ks w i hs d = (true, d') ->
  exists new, d_set d' = d_set d ++ new /\ length new = length hs /\
    forall j h, nth_error hs j = Some h -> exists k data c, means spki ks h k /\ k_priv k = Some data /\ nth_error new j = Some c /\
      in_file (w (i + j)) (text (k_type k) data) c.
Proof.
  induction hs as [|h hs IH]; intros i d d' H.
  - cbn in H. injection H as <-. exists []. split; [now rewrite app_nil_r|]. split; [reflexivity|]. intros [|j] h; discriminate.
  - rewrite add_step in H. cbv zeta in H. destruct (key_of spki ks h) as [k|] eqn:K; [|discriminate]. apply key_of_means in K.
    destruct (k_priv k) as [data|] eqn:P; [|discriminate]. destruct (r_ok (add_hostkey (w i) data (k_type k))) eqn:R; [|discriminate].
    destruct (one_seen _ _ _ R) as (c & S & F). rewrite S in H. cbn [opt] in H. apply IH in H. destruct H as (new & E & L & A). cbn [d_set] in E.
    exists (c :: new). rewrite E, <- app_assoc. split; [reflexivity|]. split; [cbn; congruence|]. intros [|j] x X; cbn [nth_error] in X |- *.
    + injection X as <-. rewrite Nat.add_0_r. exists k, data, c. auto.
    + rewrite <- Nat.add_succ_comm. exact (A j x X).
Qed.

Lemma take_all {A} (l : list A) : forall n, (lenN l <= n)%N -> takeN n l = l.
Proof.
  induction l as [|x l IH]; intros n H; cbn [takeN]; [reflexivity|]. unfold lenN in *. cbn [length] in H.
  destruct (N.eqb_spec n 0) as [E|E]; [lia|]. f_equal. apply IH. lia.
Qed.

(** With files that were written to their end, these are the whole keys. *)
Theorem c293_whole w t c : (lenN t <= t_flushed w)%N -> in_file w t c -> c = t.
Proof. intros H ->. now apply take_all. Qed.

(** No file with a key stays behind if fdopen(), strdup() and unlink() work, whether the call succeeds or not. *)
Theorem c293_left spki ks w hs : (forall i, t_fdopen (w i) = true /\ t_strdup (w i) = true /\ t_unlink (w i) = true) ->
  forall i d, d_left (snd (add_hostkeys spki ks w i hs d)) = d_left d.
Proof.
  intros W. induction hs as [|h hs IH]; intros i d; [reflexivity|]. rewrite add_step. cbv zeta.
  destruct (key_of spki ks h) as [k|]; [|reflexivity]. destruct (k_priv k) as [data|]; [|reflexivity].
  destruct (W i) as (A & B & C). pose proof (proj1 (c115_partial (w i) data (k_type k)) A B C) as L. rewrite L. cbn [opt].
  destruct (r_ok _); [rewrite IH|]; cbn; apply app_nil_r.
Qed.

(** A key of its own and one of the keystore, of which there are two of that name; a reference to a key whose public part is not of SSH. *)
Definition k1 : askey := {| k_name := bs "a"; k_type := FmtEc; k_priv := Some (bs "MHcC"); k_pub := None |}.
Definition k2 : askey := {| k_name := bs "b"; k_type := FmtRsa; k_priv := Some (bs "MIIE"); k_pub := Some (bs "AAAA") |}.
Definition k3 : askey := {| k_name := bs "b"; k_type := FmtX509; k_priv := Some (bs "none"); k_pub := None |}.
Definition k4 : askey := {| k_name := bs "c"; k_type := FmtX509; k_priv := Some (bs "MIIB"); k_pub := Some (bs "MFkw") |}.
Definition w0 (i : nat) : tmpenv :=
  mkTmp true true (match i with O => [10; 4; 17; 4; 9; 4; 16] | _ => [10; 5; 17; 4; 9; 5; 16] end)%N 1000 true (fun _ => true) true.
Definition spki0 (p : bytes) : bool := beqb p (bs "MFkw").

Example c293_case :
  add_hostkeys spki0 [k2; k3; k4] w0 0 [HLocal k1; HRef (bs "b")] {| d_set := []; d_left := [] |} =
    (true, {| d_set := [text FmtEc (bs "MHcC"); text FmtRsa (bs "MIIE")]; d_left := [] |}) /\
  add_hostkeys spki0 [k2; k3; k4] w0 0 [HLocal k1; HRef (bs "c")] {| d_set := []; d_left := [] |} =
    (false, {| d_set := [text FmtEc (bs "MHcC")]; d_left := [] |}) /\
  add_hostkeys spki0 [k2; k3; k4] w0 0 [HRef (bs "d")] {| d_set := []; d_left := [] |} = (false, {| d_set := []; d_left := [] |}).
Proof. vm_compute. repeat split; reflexivity. Qed.

Print Assumptions c293_succeeds.
Print Assumptions c293_keys.
Print Assumptions c293_whole.
Print Assumptions c293_left.
