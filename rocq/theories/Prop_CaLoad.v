(** C309: a client with mbedTLS trusts the CA certificates that were set. *)
From Coq Require Import ZArith Bool List Lia.
From Verif Require Import CaLoad.
Import ListNotations.

(* ---------------- specification ---------------- *)
(** The files that the paths name, and that they can be found. *)
Definition files {cert} (fp : option (option (@file cert))) (dp : option (option (list (@file cert)))) : list (@file cert) :=
  match fp with Some (Some f) => [f] | _ => [] end ++ match dp with Some (Some l) => l | _ => [] end.
(** [c] is among them. *)
Definition set_for {cert} fp dp (c : cert) : Prop := exists f, In f (files fp dp) /\ In (Some c) f.
(** All of them can be read. *)
Definition all_read {cert} fp dp : Prop := forall f : @file cert, In f (files fp dp) -> ~ In None f.

(* ---------------- lemmas ---------------- *)
Section L.
Context {cert : Type}.
Implicit Types (f : @file cert) (c : cert) (s : list cert).

Lemma readable_in f c : In c (readable f) <-> In (Some c) f.
Proof.
  unfold readable. rewrite in_flat_map. split.
  - intros ([x|] & I & J); [destruct J as [<-|[]]; exact I|destruct J].
  - intros I. exists (Some c). split; [exact I|now left].
Qed.
Lemma bad_nonneg f : (0 <= bad f)%Z. Proof. unfold bad. lia. Qed.

Lemma file_spec f s : snd (parse_file (Some f) s) = s ++ readable f /\ ((fst (parse_file (Some f) s) < 0)%Z <-> readable f = []).
Proof.
  cbn [parse_file]. pose proof (bad_nonneg f). destruct (readable f) eqn:E; cbn [fst snd].
  - rewrite app_nil_r. split; [reflexivity|]. split; [reflexivity|lia].
  - split; [reflexivity|]. split; [lia|discriminate].
Qed.

(** The number is that of the certificates that cannot be read. *)
Lemma bad_count f : (bad (None :: f) = bad f + 1 /\ (forall c : cert, bad (Some c :: f) = bad f) /\ bad (@nil (option cert)) = 0)%Z.
Proof. unfold bad. cbn [filter List.length]. split; [lia|]. split; [reflexivity|reflexivity]. Qed.

Lemma files_spec : forall l n s, (0 <= n)%Z -> snd (parse_files l n s) = s ++ flat_map readable l /\ (0 <= fst (parse_files l n s))%Z.
Proof.
  induction l as [|f l IH]; intros n s N; cbn [parse_files flat_map]; [now rewrite app_nil_r|].
  destruct (file_spec f s) as [A _]. destruct (parse_file (Some f) s) as [r t]. cbn [snd] in A. subst t.
  assert (M : (0 <= if (r <? 0)%Z then n + 1 else n + r)%Z) by (destruct (Z.ltb_spec r 0); lia).
  destruct (IH _ (s ++ readable f) M) as [B C]. split; [now rewrite B, <- app_assoc|exact C].
Qed.

Lemma load_spec s fp dp : load_trusted_certs s fp dp =
  match fp with Some None => (false, s) | Some (Some f) => match readable f with [] => (false, s) | _ =>
      match dp with Some None => (false, s ++ readable f) | _ => (true, s ++ flat_map readable (files fp dp)) end end
  | None => match dp with Some None => (false, s) | _ => (true, s ++ flat_map readable (files fp dp)) end end.
Proof.
  assert (D : forall t, (let '(rc, store) := match dp with Some d => parse_path d t | None => (0%Z, t) end in
      if (rc <? 0)%Z then (false, store) else (true, store)) =
    match dp with Some None => (false, t) | Some (Some l) => (true, t ++ flat_map readable l) | None => (true, t) end).
  { intros t. destruct dp as [[l|]|]; [|reflexivity|reflexivity]. cbn [parse_path]. destruct (files_spec l 0%Z t ltac:(lia)) as [A B].
    destruct (parse_files l 0 t) as [r u]. cbn [fst snd] in *. subst u. destruct (Z.ltb_spec r 0); [lia|reflexivity]. }
  unfold load_trusted_certs. destruct fp as [[f|]|].
  - destruct (file_spec f s) as [A B]. destruct (parse_file (Some f) s) as [r t]. cbn [fst snd] in *. subst t.
    destruct (Z.ltb_spec r 0) as [L|L].
    + apply B in L. rewrite L, app_nil_r. reflexivity.
    + rewrite D. destruct (readable f) as [|c0 r0] eqn:E; [exfalso; destruct B as [_ B]; specialize (B eq_refl); lia|]. rewrite <- E.
      unfold files. destruct dp as [[l|]|]; cbn [app flat_map]; rewrite ?app_assoc, ?app_nil_r; reflexivity.
  - reflexivity.
  - cbn [Z.ltb Z.compare]. rewrite D. unfold files. destruct dp as [[l|]|]; cbn [app flat_map]; rewrite ?app_nil_r; reflexivity.
Qed.

(* ---------------- theorems ---------------- *)
(** After success the client trusts whom it did and whose certificates in the files can be read, and nobody else. *)
Theorem c309_trusts : forall s fp dp s', load_trusted_certs s fp dp = (true, s') -> forall c, In c s' <-> In c s \/ set_for fp dp c.
Proof.
  intros s fp dp s' H c. rewrite load_spec in H.
  assert (E : s' = s ++ flat_map readable (files fp dp)).
  { destruct fp as [[f|]|]; [destruct (readable f) as [|c0 r0]; [discriminate|]|discriminate|]; destruct dp as [[l|]|]; congruence. }
  subst s'. rewrite in_app_iff, in_flat_map. unfold set_for.
  split; (intros [?|(f & I & J)]; [now left|right; exists f; split; [exact I|]]); now apply readable_in.
Qed.

(** It fails exactly if the file is missing or has no certificate that can be read, or the directory cannot be opened. *)
Theorem c309_fails : forall s fp dp, fst (load_trusted_certs s fp dp) = false <->
  fp = Some None \/ (exists f, fp = Some (Some f) /\ forall c, ~ In (Some c) f) \/ dp = Some None.
Proof.
  intros s fp dp. rewrite load_spec.
  assert (R : forall f, readable f = [] <-> forall c, ~ In (Some c) f).
  { intros f. split; [intros E c I; apply readable_in in I; rewrite E in I; destruct I|].
    intros H. destruct (readable f) as [|c r] eqn:E; [reflexivity|]. exfalso. apply (H c), readable_in. rewrite E. now left. }
  destruct fp as [[f|]|].
  - destruct (readable f) as [|c r] eqn:E.
    + cbn. split; [|reflexivity]. intros _. right. left. exists f. split; [reflexivity|]. now apply R.
    + assert (X : ~ forall c, ~ In (Some c) f) by (rewrite <- R, E; discriminate).
      destruct dp as [[l|]|]; cbn [fst]; split; try discriminate; try reflexivity; auto;
        intros [?|[(g & [= <-] & Y)|?]]; try discriminate; contradiction.
  - cbn. split; auto.
  - destruct dp as [[l|]|]; cbn [fst]; split; try discriminate; try reflexivity; auto; intros [?|[(g & ? & _)|?]]; discriminate.
Qed.
End L.

(** The full claim: after success, every certificate of the files could be read. *)
Definition c309_full : Prop := forall (cert : Type) (s : list cert) fp dp s', load_trusted_certs s fp dp = (true, s') -> all_read fp dp.

(** What holds of it: with a file, at least one of its certificates could be read. *)
Theorem c309_partial : forall (cert : Type) (s : list cert) f dp s', load_trusted_certs s (Some (Some f)) dp = (true, s') -> exists c, In (Some c) f /\ In c s'.
Proof.
  intros cert s f dp s' H. pose proof (c309_trusts s _ dp s' H) as T. pose proof (load_spec s (Some (Some f)) dp) as L. rewrite H in L.
  destruct (readable f) as [|c r] eqn:E; [discriminate|]. assert (I : In (Some c) f) by (apply readable_in; rewrite E; now left).
  exists c. split; [exact I|]. apply T. right. exists f. split; [now left|exact I].
Qed.

(** A certificate that cannot be read beside one that can, or any number of them in a directory: nothing fails. *)
Theorem c309_skipped : forall (cert : Type) (s : list cert) c l, load_trusted_certs s (Some (Some [None; Some c])) None = (true, s ++ [c]) /\
  (Forall (fun f => readable f = []) l -> load_trusted_certs s None (Some (Some l)) = (true, s)).
Proof.
  intros cert s c l. split; [reflexivity|]. intros F. rewrite load_spec. unfold files. cbn [app].
  replace (flat_map readable l) with (@nil cert); [now rewrite app_nil_r|]. induction F as [|f l E _ IH]; [reflexivity|]. cbn [flat_map]. now rewrite E, <- IH.
Qed.

Theorem c309_refuted : ~ c309_full.
Proof. intros H. apply (H nat [] (Some (Some [None; Some 7])) None [7] eq_refl [None; Some 7]); now left. Qed.

(* ---------------- cases ---------------- *)
Example c309_case : load_trusted_certs [1] (Some (Some [Some 2; Some 3])) (Some (Some [[Some 4]; [None]; [None; Some 5]])) = (true, [1; 2; 3; 4; 5]) /\
  load_trusted_certs [1] (Some (Some [Some 2])) (Some None) = (false, [1; 2]) /\ load_trusted_certs [1] (Some (Some [None])) None = (false, [1]) /\
  load_trusted_certs [1] None None = (true, [1]).
Proof. repeat split; reflexivity. Qed.

Print Assumptions c309_trusts.
Print Assumptions c309_fails.
Print Assumptions c309_partial.
Print Assumptions c309_skipped.
Print Assumptions c309_refuted.
