(** C164-C169: asking the user at the terminal, and host keys in DNS (model: Prompt.v). *)
From Coq Require Import String Ascii NArith ZArith Bool List Lia.
From Verif Require Import Bytes CStr ClientSsh Prompt Prop_ClientSsh.
Import ListNotations.
Local Open Scope list_scope.

(** The three ways to ask. *)
Inductive way := Password | Passphrase | Interact (name instruction ech : bool).

Definition run (e : env) (x : way) (w : world) : result :=
  match x with
  | Password => sshauth_password e w
  | Passphrase => sshauth_privkey_passphrase e w
  | Interact n i ech => sshauth_interactive e n i ech w
  end.

(** Whether what is typed may be seen. *)
Definition visible (x : way) : bool := match x with Interact _ _ ech => ech | _ => false end.

(** Files are numbered as they are opened. *)
Definition tidy (w : world) : Prop := forall n, In n (w_open w) -> n < w_made w.

(** * C164: the terminal is left as it was found *)

Lemma remove_fresh n l : (forall k, In k l -> k < n) -> remove Nat.eq_dec n l = l.
Proof.
  intros H. apply notin_remove. intros I. specialize (H n I). lia.
Qed.

Lemma remove_top n l : (forall k, In k l -> k < n) -> remove Nat.eq_dec n (n :: l) = l.
Proof. intros H. rewrite remove_cons. apply remove_fresh. exact H. Qed.

(** [w] was reached from [w0] with [fs] open beyond what was open before, the newest first. *)
Definition reached (w0 w : world) (fs : list file) : Prop :=
  w_open w = map f_no fs ++ w_open w0 /\ w_wild w = w_wild w0 /\ w_made w0 <= w_made w /\
  (forall n, In n (w_open w) -> n < w_made w) /\ NoDup (map f_no fs) /\ (forall f, In f fs -> w_made w0 <= f_no f).

Lemma reached_refl w : tidy w -> reached w w [].
Proof. intros T. repeat split; cbn; auto; try constructor; intros ? []. Qed.

Lemma reached_fopen w0 w fs t w' f : reached w0 w fs -> fopen t w = (w', f) ->
  w_set w' = w_set w /\ w_bufs w' = w_bufs w /\
  match f with
  | None => w' = w /\ t = None
  | Some f => reached w0 w' (f :: fs) /\ t = Some (f_term f)
  end.
Proof.
  intros (A & B & C & D & E & F) H. destruct t as [t|]; cbn in H; injection H as <- <-; [|auto].
  cbn. split; [reflexivity|]. split; [reflexivity|]. split; [|reflexivity].
  split; [cbn; rewrite A; reflexivity|]. split; [exact B|]. split; [cbn; lia|]. split; [|split].
  - cbn. intros n [<-|I]; [lia|]. specialize (D n I). lia.
  - cbn. constructor; [|exact E]. intros I. assert (I' : In (w_made w) (w_open w)) by (rewrite A; apply in_or_app; auto).
    specialize (D _ I'). lia.
  - intros g [<-|I]; [cbn; lia|auto].
Qed.

Lemma reached_fclose w0 w f fs : reached w0 w (f :: fs) -> tidy w0 -> reached w0 (fclose f w) fs.
Proof.
  intros (A & B & C & D & E & F) T. cbn in A. inversion E as [|? ? N E']; subst.
  split; [|split; [exact B|split; [exact C|split; [|split; [exact E'|]]]]].
  - cbn. rewrite A. cbn. destruct (Nat.eq_dec (f_no f) (f_no f)); [|congruence].
    apply notin_remove. intros I. apply in_app_or in I as [I|I]; [contradiction|].
    specialize (T _ I). specialize (F f (or_introl eq_refl)). lia.
  - cbn. intros n I. apply in_remove in I as [I _]. auto.
  - intros g I. apply F. right. exact I.
Qed.

Lemma reached_other w0 w w' fs : reached w0 w fs -> w_open w' = w_open w -> w_wild w' = w_wild w -> w_made w' = w_made w ->
  reached w0 w' fs.
Proof. intros (A & B & C & D & E & F) H1 H2 H3. repeat split; try congruence; rewrite ?H1, ?H3; auto; lia. Qed.

(** The settings differ from [s] at most by the echo of terminal [t], whose settings are remembered in [old]. *)
Definition hidden (s : nat -> settings) (w : world) (t : nat) (old : option settings) : Prop :=
  old = Some (s t) /\ echo (w_set w t) = false /\ forall n, n <> t -> w_set w n = s n.

Lemma open_noecho e t old w0 w fs w' old' f :
  reached w0 w fs -> tidy w0 -> nc_open_tty_noecho e t old w = (w', old', f) ->
  w_bufs w' = w_bufs w /\
  match f with
  | None => reached w0 w' fs /\ w_set w' = w_set w
  | Some f => reached w0 w' (f :: fs) /\ hidden (w_set w) w' (f_term f) old'
  end.
Proof.
  intros R T H. unfold nc_open_tty_noecho in H. destruct (fopen t w) as [w1 [g|]] eqn:O;
    destruct (reached_fopen _ _ _ _ _ _ R O) as (S1 & B1 & R1).
  - destruct R1 as [R1 _]. destruct (e_get e (f_term g)); cbn [negb] in H.
    + destruct (e_off e (f_term g)); cbn [negb] in H; injection H as <- <- <-; cbn.
      * split; [exact B1|]. split; [apply (reached_other _ _ _ _ R1); reflexivity|].
        unfold hidden. cbn. unfold upd. rewrite Nat.eqb_refl, S1. repeat split.
        intros n N. apply Nat.eqb_neq in N. rewrite N. reflexivity.
      * split; [exact B1|]. split; [exact (reached_fclose _ _ _ _ R1 T)|exact S1].
    + injection H as <- <- <-. cbn. split; [exact B1|]. split; [exact (reached_fclose _ _ _ _ R1 T)|exact S1].
  - destruct R1 as [-> _]. injection H as <- <- <-. auto.
Qed.

Lemma open_in e ech w0 w fs w' old f : reached w0 w fs -> tidy w0 -> nc_open_in e ech None w = (w', old, f) ->
  w_bufs w' = w_bufs w /\
  match f with
  | None => reached w0 w' fs /\ w_set w' = w_set w
  | Some f => reached w0 w' (f :: fs) /\ (if ech then w_set w' = w_set w else hidden (w_set w) w' (f_term f) old)
  end.
Proof.
  intros R T H. unfold nc_open_in in H. destruct ech; cbn [negb] in H.
  - destruct (fopen (e_in e) w) as [w1 [g|]] eqn:O; destruct (reached_fopen _ _ _ _ _ _ R O) as (S1 & B1 & R1).
    + injection H as <- <- <-. split; [exact B1|]. split; [exact (proj1 R1)|exact S1].
    + destruct R1 as [-> _]. destruct (e_stdin_name e); cbn [negb] in H; [|injection H as <- <- <-; auto].
      destruct (fopen (e_stdin e) w) as [w2 [g|]] eqn:O2; destruct (reached_fopen _ _ _ _ _ _ R O2) as (S2 & B2 & R2);
        injection H as <- <- <-; (split; [exact B2|]).
      * split; [exact (proj1 R2)|exact S2].
      * destruct R2 as [-> _]. auto.
  - destruct (nc_open_tty_noecho e (e_in e) None w) as [[w1 old1] [g|]] eqn:O;
      destruct (open_noecho _ _ _ _ _ _ _ _ _ R T O) as (B1 & R1 & S1).
    + injection H as <- <- <-. auto.
    + destruct (e_stdin_name e); cbn [negb] in H; [|injection H as <- <- <-; auto].
      destruct (open_noecho _ _ _ _ _ _ _ _ _ R1 T H) as (B2 & C). rewrite S1 in C. split; [congruence|exact C].
Qed.

Lemma open_out e w0 w fs w' f : reached w0 w fs -> nc_open_out e w = (w', f) ->
  w_set w' = w_set w /\ w_bufs w' = w_bufs w /\
  match f with None => reached w0 w' fs | Some f => reached w0 w' (f :: fs) end.
Proof.
  intros R H. unfold nc_open_out in H.
  destruct (fopen (e_out e) w) as [w1 [g|]] eqn:O; destruct (reached_fopen _ _ _ _ _ _ R O) as (S1 & B1 & R1).
  - injection H as <- <-. split; [exact S1|]. split; [exact B1|exact (proj1 R1)].
  - destruct R1 as [-> _]. destruct (e_stdout_name e); cbn [negb] in H; [|injection H as <- <-; auto].
    destruct (reached_fopen _ _ _ _ _ _ R H) as (S2 & B2 & R2). split; [exact S2|]. split; [exact B2|].
    destruct f; [exact (proj1 R2)|]. destruct R2 as [-> _]. exact R.
Qed.

(** The settings are those of [s], or the terminal could not be restored. *)
Definition restored (e : env) (s : nat -> settings) (w : world) : Prop :=
  forall t, w_set w t = s t \/ e_on e t = false.

Lemma close_in e i (ech : bool) old s w0 w fs : reached w0 w (i :: fs) -> tidy w0 ->
  (if ech then w_set w = s else hidden s w (f_term i) old) ->
  reached w0 (nc_close_inout e (Some i) ech old w) fs /\ restored e s (nc_close_inout e (Some i) ech old w) /\
  w_bufs (nc_close_inout e (Some i) ech old w) = w_bufs w /\
  (ech = true -> w_set (nc_close_inout e (Some i) ech old w) = s).
Proof.
  intros R T H. unfold nc_close_inout. destruct ech; cbn [negb].
  - split; [exact (reached_fclose _ _ _ _ R T)|]. split; [intros t; left; cbn; congruence|]. split; [reflexivity|].
    intros _. exact H.
  - destruct H as (-> & E & N). destruct (e_on e (f_term i)) eqn:O.
    + split; [apply reached_fclose; [|exact T]; apply (reached_other _ _ _ _ R); reflexivity|].
      split; [|split; [reflexivity|discriminate]]. intros t. left. cbn. unfold upd.
      destruct (Nat.eqb t (f_term i)) eqn:Q; [apply Nat.eqb_eq in Q; congruence|]. apply N. apply Nat.eqb_neq. exact Q.
    + split; [exact (reached_fclose _ _ _ _ R T)|]. split; [|split; [reflexivity|discriminate]].
      intros t. destruct (Nat.eq_dec t (f_term i)) as [->|Q]; [right; exact O|left; cbn; auto].
Qed.

Lemma reached_second w0 w a b fs : reached w0 w (a :: b :: fs) -> tidy w0 -> reached w0 (fclose b w) (a :: fs).
Proof.
  intros (A & B & C & D & E & F) T. cbn in A, E. inversion E as [|? ? N E']; subst. inversion E' as [|? ? N' E'']; subst.
  split; [|split; [exact B|split; [exact C|split; [|split]]]].
  - cbn. rewrite A. cbn. destruct (Nat.eq_dec (f_no b) (f_no a)) as [Q|Q]; [exfalso; apply N; left; exact Q|].
    destruct (Nat.eq_dec (f_no b) (f_no b)); [|congruence]. f_equal.
    apply notin_remove. intros I. apply in_app_or in I as [I|I]; [contradiction|].
    specialize (T _ I). specialize (F b (or_intror (or_introl eq_refl))). lia.
  - cbn. intros n I. apply in_remove in I as [I _]. auto.
  - cbn. constructor; [|exact E'']. intros I. apply N. right. exact I.
  - intros g [<-|I]; apply F; cbn; auto.
Qed.

Lemma close_in2 e i o (ech : bool) old s w0 w fs : reached w0 w (o :: i :: fs) -> tidy w0 ->
  (if ech then w_set w = s else hidden s w (f_term i) old) ->
  let w' := nc_close_inout e (Some i) ech old w in
  reached w0 w' (o :: fs) /\ restored e s w' /\ w_bufs w' = w_bufs w /\ (ech = true -> w_set w' = s).
Proof.
  intros R T H w'. subst w'. unfold nc_close_inout. destruct ech; cbn [negb].
  - split; [exact (reached_second _ _ _ _ _ R T)|]. split; [intros t; left; cbn; congruence|]. split; [reflexivity|].
    intros _. exact H.
  - destruct H as (-> & E & N). destruct (e_on e (f_term i)) eqn:O.
    + split; [apply reached_second; [|exact T]; apply (reached_other _ _ _ _ R); reflexivity|].
      split; [|split; [reflexivity|discriminate]]. intros t. left. cbn. unfold upd.
      destruct (Nat.eqb t (f_term i)) eqn:Q; [apply Nat.eqb_eq in Q; congruence|]. apply N. apply Nat.eqb_neq. exact Q.
    + split; [exact (reached_second _ _ _ _ _ R T)|]. split; [|split; [reflexivity|discriminate]].
      intros t. destruct (Nat.eq_dec t (f_term i)) as [->|Q]; [right; exact O|left; cbn; auto].
Qed.

(** What a call leaves behind. *)
Definition left_as_found (e : env) (vis : bool) (w : world) (r : result) : Prop :=
  w_open (r_world r) = w_open w /\ w_wild (r_world r) = w_wild w /\
  (forall t, w_set (r_world r) t = w_set w t \/ (vis = false /\ e_on e t = false)) /\
  w_bufs (r_world r) = (w_bufs w + match r_answer r with ALine _ => 1 | _ => 0 end)%Z.

Lemma ask_user_left e ech prints b lim w : tidy w -> r_answer (ask_user e ech prints b lim w) <> AUndefined ->
  left_as_found e ech w (ask_user e ech prints b lim w).
Proof.
  intros T. unfold ask_user. destruct (e_malloc e); cbn [negb].
  2:{ intros _. repeat split; cbn; auto. lia. }
  set (w0 := bufs 1 w). assert (T0 : tidy w0) by exact T.
  assert (BW : w_bufs w0 = (w_bufs w + 1)%Z) by reflexivity.
  assert (SW : w_set w0 = w_set w) by reflexivity.
  assert (OW : w_open w0 = w_open w) by reflexivity. assert (XW : w_wild w0 = w_wild w) by reflexivity.
  clearbody w0.
  destruct (nc_open_in e ech None w0) as [[w1 old] [i|]] eqn:OI;
    destruct (open_in _ _ _ _ _ _ _ _ (reached_refl _ T0) T0 OI) as (B1 & R1 & S1).
  2:{ intros _. destruct R1 as (A & B & _). unfold left_as_found; cbn.
      split; [rewrite A; cbn; congruence|]. split; [congruence|]. split; [intros t; left; congruence|lia]. }
  destruct (nc_open_out e w1) as [w2 [o|]] eqn:OO; destruct (open_out _ _ _ _ _ _ R1 OO) as (S2 & B2 & R2).
  - assert (H : if ech then w_set w2 = w_set w0 else hidden (w_set w0) w2 (f_term i) old).
    { destruct ech; [congruence|]. destruct S1 as (P & Q & N). split; [exact P|]. rewrite S2. auto. }
    destruct (close_in2 e i o ech old (w_set w0) w0 w2 [] R2 T0 H) as (R3 & S3 & B3 & V3).
    set (w3 := nc_close_inout e (Some i) ech old w2) in *. clearbody w3.
    assert (R4 : reached w0 (nc_close_inout e (Some o) true None w3) []) by exact (reached_fclose _ _ _ _ R3 T0).
    assert (S4 : forall t, w_set (nc_close_inout e (Some o) true None w3) t = w_set w t \/ ech = false /\ e_on e t = false).
    { intros t. cbn. destruct ech; [left; rewrite V3 by reflexivity; congruence|].
      destruct (S3 t) as [Q|Q]; [left; congruence|right; auto]. }
    assert (B4 : w_bufs (nc_close_inout e (Some o) true None w3) = w_bufs w0) by (cbn; congruence).
    destruct R4 as (A4 & X4 & _). cbn [map app] in A4.
    destruct (forallb (e_print e) (seq 0 prints)); cbn [negb].
    + destruct (fill e lim (e_typed e) [] b 0); cbn [r_answer r_world]; intros U; [| |congruence];
        unfold left_as_found; cbn [r_world r_answer].
      * repeat split; try congruence; auto; try (rewrite B4; lia).
      * cbn [bufs w_open w_wild w_set w_bufs]. repeat split; try congruence; auto; try (rewrite B4; lia).
    + intros _. unfold left_as_found. cbn [r_world r_answer bufs w_open w_wild w_set w_bufs].
      repeat split; try congruence; auto; try (rewrite B4; lia).
  - assert (H : if ech then w_set w2 = w_set w0 else hidden (w_set w0) w2 (f_term i) old).
    { destruct ech; [congruence|]. destruct S1 as (P & Q & N). split; [exact P|]. rewrite S2. auto. }
    destruct (close_in e i ech old (w_set w0) w0 w2 [] R2 T0 H) as (R3 & S3 & B3 & V3).
    set (w3 := nc_close_inout e (Some i) ech old w2) in *. clearbody w3. intros _. unfold left_as_found. cbn.
    destruct R3 as (A3 & X3 & _). cbn [map app] in A3.
    split; [congruence|]. split; [congruence|]. split; [|lia].
    intros t. destruct ech; [left; rewrite V3 by reflexivity; congruence|].
    destruct (S3 t) as [Q|Q]; [left; congruence|right; auto].
Qed.

(** Whatever happens (unless undefined, see C165): all files opened are closed, the buffer is the caller's or
    freed, no settings are written that were not read, and every terminal has the settings it had, unless
    the system refuses to restore them. *)
Theorem c164_left_as_found : forall e x w, tidy w -> r_answer (run e x w) <> AUndefined ->
  w_open (r_world (run e x w)) = w_open w /\ w_wild (r_world (run e x w)) = w_wild w /\
  (forall t, e_on e t = true \/ visible x = true -> w_set (r_world (run e x w)) t = w_set w t) /\
  w_bufs (r_world (run e x w)) = (w_bufs w + match r_answer (run e x w) with ALine _ => 1 | _ => 0 end)%Z.
Proof.
  intros e x w T U.
  assert (L : left_as_found e (visible x) w (run e x w)) by (destruct x; apply ask_user_left; assumption).
  destruct L as (A & B & C & D). repeat split; auto. intros t H. destruct (C t) as [Q|[Q1 Q2]]; [exact Q|].
  destruct H; congruence.
Qed.

(** A password, a passphrase or an answer to be hidden is never shown while it is typed. *)
Theorem c164_not_shown : forall e x w s, tidy w -> visible x = false -> r_shown (run e x w) = Some s -> s = false.
Proof.
  intros e x w s T V H.
  assert (G : forall prints b lim, r_shown (ask_user e false prints b lim w) = Some s -> s = false).
  { clear x V H. intros prints b lim H. unfold ask_user in H. destruct (e_malloc e); [|discriminate].
    cbn [negb] in H. destruct (nc_open_in e false None (bufs 1 w)) as [[w1 old] [i|]] eqn:OI; [|discriminate].
    assert (T0 : tidy (bufs 1 w)) by exact T.
    destruct (open_in _ _ _ _ _ _ _ _ (reached_refl _ T0) T0 OI) as (B1 & R1 & S1).
    destruct (nc_open_out e w1) as [w2 [o|]] eqn:OO; [|discriminate].
    destruct (open_out _ _ _ _ _ _ R1 OO) as (S2 & B2 & R2).
    destruct (forallb (e_print e) (seq 0 prints)); [|discriminate]. cbn [negb] in H.
    destruct S1 as (_ & E & _). rewrite <- S2 in E.
    destruct (fill e lim (e_typed e) [] b 0); cbn in H; congruence. }
  destruct x; cbn in V, H; subst; eapply G; exact H.
Qed.

(** * C165: what is typed is returned *)

Definition nl : ascii := "010"%char.

(** [l] is the first line of what was typed, or all of it if there is no end of line. *)
Definition first_line (typed l : bytes) : Prop :=
  ~ In nl l /\ (typed = l \/ exists rest, typed = l ++ nl :: rest).

(** More than any terminal gives: 2^30 - 1 characters (2^31 - 1 for interactive answers). *)
Definition fits (x : way) (l : bytes) : Prop :=
  (Z.of_nat (length l) < match x with Interact _ _ _ => 2 ^ 31 | _ => 2 ^ 30 end)%Z.

(** The system does all it is asked for. *)
Definition willing (e : env) : Prop :=
  e_malloc e = true /\ (forall n, e_realloc e n = true) /\ (forall n, e_print e n = true) /\
  (exists t, e_in e = Some t /\ e_get e t = true /\ e_off e t = true) /\ (exists t, e_out e = Some t).

Fixpoint line (typed : bytes) : bytes :=
  match typed with
  | [] => []
  | c :: r => if Ascii.eqb c nl then [] else c :: line r
  end.

Lemma line_first typed : first_line typed (line typed).
Proof.
  induction typed as [|c r [A B]]; cbn; [split; [intros []|left; reflexivity]|].
  destruct (Ascii.eqb c nl) eqn:E.
  - apply Ascii.eqb_eq in E. subst. split; [intros []|]. right. exists r. reflexivity.
  - apply Ascii.eqb_neq in E. split; [intros [H|H]; auto|]. destruct B as [B|[rest B]]; [left|right; exists rest]; cbn; congruence.
Qed.

Lemma first_line_unique typed l : first_line typed l -> l = line typed.
Proof.
  intros [A [->|[rest ->]]].
  - induction l as [|c l IH]; cbn; [reflexivity|]. destruct (Ascii.eqb c nl) eqn:E.
    + apply Ascii.eqb_eq in E. subst. exfalso. apply A. left. reflexivity.
    + f_equal. apply IH. intros H. apply A. right. exact H.
  - induction l as [|c l IH]; cbn; [reflexivity|]. destruct (Ascii.eqb c nl) eqn:E.
    + apply Ascii.eqb_eq in E. subst. exfalso. apply A. left. reflexivity.
    + f_equal. apply IH. intros H. apply A. right. exact H.
Qed.

(** The buffer has room, and doubling it [j] times reaches the limit. *)
Definition room (lim : Z) (buf : bytes) (buflen : Z) (j : nat) : Prop :=
  (2 <= buflen /\ Z.of_nat (length buf) <= buflen - 1 /\ buflen * 2 ^ Z.of_nat j = lim /\ 1 <= Z.of_nat j)%Z.

Lemma room_last lim buf b j : room lim buf b j -> (b * 2 >=? lim)%Z = true -> j = 1.
Proof.
  intros (A & B & C & D) H. apply Z.geb_le in H. destruct j as [|[|j]]; [lia|reflexivity|].
  replace (Z.of_nat (S (S j))) with (Z.of_nat j + 2)%Z in C by lia. rewrite Z.pow_add_r in C by lia.
  assert (0 < 2 ^ Z.of_nat j)%Z by (apply Z.pow_pos_nonneg; lia). nia.
Qed.

Lemma room_more lim buf b j c : room lim buf b j -> (b * 2 >=? lim)%Z = false ->
  exists j', room lim (buf ++ [c]) (b * 2) j'.
Proof.
  intros (A & B & C & D) H. rewrite Z.geb_leb in H. apply Z.leb_gt in H. destruct j as [|[|j]]; [lia| |].
  - cbn in C. lia.
  - exists (S j). unfold room. rewrite app_length. cbn [length].
    replace (Z.of_nat (S (S j))) with (Z.of_nat (S j) + 1)%Z in C by lia.
    rewrite Z.pow_add_r in C by lia. lia.
Qed.

Lemma room_half lim buf b j : room lim buf b j -> (2 * b <= lim)%Z.
Proof.
  intros (A & B & C & D). replace (Z.of_nat j) with (Z.of_nat (pred j) + 1)%Z in C by lia.
  rewrite Z.pow_add_r in C by lia. assert (0 < 2 ^ Z.of_nat (pred j))%Z by (apply Z.pow_pos_nonneg; lia). nia.
Qed.

(** Enough room: the line, or no memory. *)
Lemma fill_fits e lim : forall typed buf b j n, room lim buf b j ->
  (2 * (Z.of_nat (length buf) + Z.of_nat (length (line typed))) < lim)%Z ->
  (fill e lim typed buf b n = FLine (buf ++ line typed) \/
   fill e lim typed buf b n = FNoMem /\ exists k, e_realloc e k = false).
Proof.
  induction typed as [|c typed IH]; intros buf b j n R L; cbn [fill line].
  - destruct R as (A & B & _). rewrite (proj2 (Z.ltb_lt _ _)) by lia. rewrite app_nil_r. auto.
  - cbn [line] in L. change "010"%char with nl. destruct (Ascii.eqb c nl) eqn:E.
    + destruct R as (A & B & _). rewrite (proj2 (Z.ltb_lt _ _)) by lia. rewrite app_nil_r. auto.
    + cbn [length] in L. pose proof R as (A & B & _).
      destruct (Z.of_nat (length buf) >=? b - 1)%Z eqn:G.
      * apply Z.geb_le in G. destruct (b * 2 >=? lim)%Z eqn:H.
        -- exfalso. pose proof (room_last _ _ _ _ R H). subst j. destruct R as (_ & _ & C & _).
           change (2 ^ Z.of_nat 1)%Z with 2%Z in C. lia.
        -- destruct (e_realloc e n) eqn:M; cbn [negb]; [|right; split; [reflexivity|exists n; exact M]].
           rewrite (proj2 (Z.ltb_lt _ _)) by lia.
           destruct (room_more _ _ _ _ c R H) as [j' R'].
           destruct (IH _ _ _ (S n) R') as [Q|[Q W]].
           ++ rewrite app_length. cbn [length]. lia.
           ++ left. rewrite Q, <- app_assoc. reflexivity.
           ++ right. auto.
      * rewrite Z.geb_leb in G. apply Z.leb_gt in G. rewrite (proj2 (Z.ltb_lt _ _)) by lia.
        assert (R' : room lim (buf ++ [c]) b j).
        { destruct R as (_ & _ & C & D). unfold room. rewrite app_length. cbn [length]. lia. }
        destruct (IH _ _ _ n R') as [Q|[Q W]].
        -- rewrite app_length. cbn [length]. lia.
        -- left. rewrite Q, <- app_assoc. reflexivity.
        -- right. auto.
Qed.

(** Only a line that fits is returned. *)
Lemma fill_line e lim : forall typed buf b n l, fill e lim typed buf b n = FLine l -> l = buf ++ line typed.
Proof.
  induction typed as [|c typed IH]; intros buf b n l H; cbn [fill line] in *.
  - destruct (_ <? _)%Z in H; [|discriminate]. injection H as <-. rewrite app_nil_r. reflexivity.
  - change "010"%char with nl in H. destruct (Ascii.eqb c nl).
    + destruct (_ <? _)%Z in H; [|discriminate]. injection H as <-. rewrite app_nil_r. reflexivity.
    + replace (buf ++ c :: line typed) with ((buf ++ [c]) ++ line typed) by (rewrite <- app_assoc; reflexivity).
      destruct (_ >=? _)%Z in H.
      * destruct (_ >=? _)%Z in H; [discriminate|]. destruct (negb _) in H; [discriminate|].
        destruct (_ <? _)%Z in H; [|discriminate]. exact (IH _ _ _ _ H).
      * destruct (_ <? _)%Z in H; [|discriminate]. exact (IH _ _ _ _ H).
Qed.

Lemma fill_too_long e lim : (forall n, e_realloc e n = true) -> forall typed buf b j n, room lim buf b j ->
  (lim <= 2 * (Z.of_nat (length buf) + Z.of_nat (length (line typed))))%Z ->
  fill e lim typed buf b n = FUndefined.
Proof.
  intros M. induction typed as [|c typed IH]; intros buf b j n R L; cbn [fill line] in *.
  - exfalso. pose proof (room_half _ _ _ _ R). destruct R as (A & B & _). cbn [length] in L. lia.
  - change "010"%char with nl. destruct (Ascii.eqb c nl) eqn:E.
    + exfalso. pose proof (room_half _ _ _ _ R). destruct R as (A & B & _). cbn [length] in L. lia.
    + cbn [length] in L. pose proof R as (A & B & _).
      destruct (Z.of_nat (length buf) >=? b - 1)%Z eqn:G.
      * destruct (b * 2 >=? lim)%Z eqn:H; [reflexivity|]. rewrite M. cbn [negb].
        rewrite (proj2 (Z.ltb_lt _ _)) by lia.
        destruct (room_more _ _ _ _ c R H) as [j' R']. apply (IH _ _ _ _ R'). rewrite app_length. cbn [length]. lia.
      * rewrite Z.geb_leb in G. apply Z.leb_gt in G. rewrite (proj2 (Z.ltb_lt _ _)) by lia.
        assert (R' : room lim (buf ++ [c]) b j).
        { destruct R as (_ & _ & C & D). unfold room. rewrite app_length. cbn [length]. lia. }
        apply (IH _ _ _ _ R'). rewrite app_length. cbn [length]. lia.
Qed.

Definition start_len (x : way) : Z := match x with Interact _ _ _ => 64 | _ => 1024 end.
Definition limit_of (x : way) : Z := match x with Interact _ _ _ => 2 ^ 32 | _ => 2 ^ 31 end.
Definition prints_of (x : way) : nat := match x with Interact n i _ => Nat.b2n n + Nat.b2n i + 1 | _ => 1 end.

Lemma run_ask e x w : run e x w = ask_user e (visible x) (prints_of x) (start_len x) (limit_of x) w.
Proof. destruct x; reflexivity. Qed.

Lemma room_start x : exists j, room (limit_of x) [] (start_len x) j.
Proof. destruct x; [exists 21|exists 21|exists 26]; unfold room; cbn; lia. Qed.

Lemma ask_line e ech prints b lim w l : r_answer (ask_user e ech prints b lim w) = ALine l ->
  fill e lim (e_typed e) [] b 0 = FLine l.
Proof.
  unfold ask_user. destruct (e_malloc e); cbn [negb]; [|discriminate].
  destruct (nc_open_in e ech None (bufs 1 w)) as [[w1 old] [i|]]; [|discriminate].
  destruct (nc_open_out e w1) as [w2 [o|]]; [|discriminate].
  destruct (forallb (e_print e) (seq 0 prints)); [|discriminate]. cbn [negb].
  destruct (fill e lim (e_typed e) [] b 0); cbn; congruence.
Qed.

Lemma ask_undefined e ech prints b lim w : r_answer (ask_user e ech prints b lim w) = AUndefined ->
  fill e lim (e_typed e) [] b 0 = FUndefined.
Proof.
  unfold ask_user. destruct (e_malloc e); cbn [negb]; [|discriminate].
  destruct (nc_open_in e ech None (bufs 1 w)) as [[w1 old] [i|]]; [|discriminate].
  destruct (nc_open_out e w1) as [w2 [o|]]; [|discriminate].
  destruct (forallb (e_print e) (seq 0 prints)); [|discriminate]. cbn [negb].
  destruct (fill e lim (e_typed e) [] b 0); cbn; congruence.
Qed.

Lemma ask_willing e ech prints b lim w : willing e ->
  r_answer (ask_user e ech prints b lim w) =
  match fill e lim (e_typed e) [] b 0 with FLine l => ALine l | FNoMem => ANull | FUndefined => AUndefined end.
Proof.
  intros (A & B & C & (t & I & G & O) & (u & P)). unfold ask_user. rewrite A. cbn [negb].
  assert (F : forallb (e_print e) (seq 0 prints) = true) by (apply forallb_forall; auto).
  unfold nc_open_in, nc_open_tty_noecho, fopen. rewrite I.
  destruct ech; cbn [negb f_term].
  - unfold nc_open_out, fopen. rewrite P. rewrite F. cbn [negb].
    destruct (fill e lim (e_typed e) [] b 0); reflexivity.
  - rewrite G, O. cbn [negb]. unfold nc_open_out, fopen. rewrite P. rewrite F. cbn [negb].
    destruct (fill e lim (e_typed e) [] b 0); reflexivity.
Qed.

Definition c165_full : Prop := forall e x w, r_answer (run e x w) <> AUndefined /\
  (forall l, r_answer (run e x w) = ALine l -> first_line (e_typed e) l) /\
  (willing e -> exists l, r_answer (run e x w) = ALine l).

(** Nothing but the first line is ever returned. *)
Theorem c165_only_the_line : forall e x w l, r_answer (run e x w) = ALine l -> first_line (e_typed e) l.
Proof.
  intros e x w l H. rewrite run_ask in H. apply ask_line in H. apply fill_line in H. cbn in H. subst. apply line_first.
Qed.

(** A line of less than 2^30 (2^31) characters is returned, and nothing is written outside of the buffer. *)
Theorem c165_line_returned_partial : forall e x w l, first_line (e_typed e) l -> fits x l ->
  r_answer (run e x w) <> AUndefined /\ (willing e -> r_answer (run e x w) = ALine l).
Proof.
  intros e x w l FL FI. apply first_line_unique in FL. subst l.
  assert (FILL : fill e (limit_of x) (e_typed e) [] (start_len x) 0 = FLine (line (e_typed e)) \/
                 fill e (limit_of x) (e_typed e) [] (start_len x) 0 = FNoMem /\ exists k, e_realloc e k = false).
  { destruct (room_start x) as [j R].
    apply (fill_fits e (limit_of x) (e_typed e) [] (start_len x) j 0 R). cbn [length].
    unfold fits in FI. destruct x; cbn [limit_of] in *; lia. }
  rewrite run_ask. split.
  - intros H. apply ask_undefined in H. destruct FILL as [Q|[Q _]]; congruence.
  - intros W. rewrite (ask_willing _ _ _ _ _ _ W). destruct FILL as [->|[Q [k K]]]; [reflexivity|].
    destruct W as (_ & M & _). rewrite M in K. discriminate.
Qed.

(** A longer one makes the length of the buffer overflow. *)
Theorem c165_too_long_refuted : ~ c165_full.
Proof.
  intros H.
  set (typed := repeat "a"%char (Z.to_nat (2 ^ 30))).
  set (e := {| e_in := Some 0; e_stdin_name := false; e_stdin := None; e_out := Some 0; e_stdout_name := false;
               e_stdout := None; e_get := fun _ => true; e_off := fun _ => true; e_on := fun _ => true;
               e_print := fun _ => true; e_malloc := true; e_realloc := fun _ => true; e_typed := typed |}).
  set (w := {| w_set := fun _ => {| echo := true; others := 0 |}; w_made := 0; w_open := []; w_bufs := 0; w_wild := false |}).
  destruct (H e Password w) as [U _]. apply U.
  assert (W : willing e).
  { split; [reflexivity|]. split; [reflexivity|]. split; [reflexivity|].
    split; [exists 0; split; [reflexivity|split; reflexivity]|exists 0; reflexivity]. }
  rewrite run_ask. rewrite (ask_willing _ _ _ _ _ _ W).
  assert (L : line typed = typed).
  { symmetry. apply first_line_unique. split; [|left; reflexivity]. intros I. apply repeat_spec in I. discriminate. }
  assert (N : Z.of_nat (length typed) = (2 ^ 30)%Z).
  { unfold typed. rewrite repeat_length. apply Z2Nat.id. apply Z.pow_nonneg. lia. }
  destruct (room_start Password) as [j R].
  rewrite (fill_too_long e (limit_of Password) (fun _ => eq_refl) (e_typed e) [] (start_len Password) j 0 R); [reflexivity|].
  change (e_typed e) with typed. rewrite L, N. cbn [length limit_of]. lia.
Qed.

(** * C166: a host key vouched for by DNS *)

Definition algorithm (k : keytype) : option Z :=
  match k with KRsa => Some 1%Z | KDss => Some 2%Z | KEcdsa => Some 3%Z | _ => None end.

(** RFC 4255: the record has the algorithm of the key, the type of fingerprint 1 (SHA-1) and the fingerprint. *)
Definition fingerprint_record (k : keytype) (hash : list Z) (r : rr) : Prop :=
  rr_type r = 44%Z /\ exists a, algorithm k = Some a /\ exists rest, rr_data r = a :: 1%Z :: hash ++ rest.

(** The resolver trusts the answer, which is one to the question for the SSHFP records of the host. *)
Definition answers (d : dns) (hostname : bytes) : Prop :=
  d_trusted d = true /\ d_parse d = true /\ d_rcode d = 0%Z /\
  exists n, d_question d = Some (n, 44%Z, 1%Z) /\ streq hostname n = true.

Definition vouched (d : dns) (k : keytype) (hostname : bytes) (hash : list Z) : Prop :=
  answers d hostname /\ d_ad d = true /\ exists r, In r (d_records d) /\ fingerprint_record k hash r.

Lemma same20_true : forall n rdata hash, length hash = n -> same20 n rdata hash = Some true ->
  exists rest, rdata = hash ++ rest.
Proof.
  induction n as [|n IH]; intros rdata hash L H; cbn in H.
  - destruct hash; [|discriminate]. exists rdata. reflexivity.
  - destruct rdata as [|a rdata], hash as [|b hash]; try discriminate. destruct (Z.eqb a b) eqn:E; [|discriminate].
    apply Z.eqb_eq in E. subst. destruct (IH rdata hash) as [rest ->]; [cbn in L; congruence|exact H|]. exists rest. reflexivity.
Qed.

Lemma same20_app : forall n hash rest, length hash = n -> same20 n (hash ++ rest) hash = Some true.
Proof.
  induction n as [|n IH]; intros hash rest L; cbn; [reflexivity|].
  destruct hash as [|b hash]; [discriminate|]. cbn. rewrite Z.eqb_refl. apply IH. cbn in L. congruence.
Qed.

Lemma search_found f t a hash l n : length hash = 20 -> f <> 2 -> search f t a hash l = CRet n -> n <> 2 ->
  n = f /\ exists r, In r l /\ rr_type r = 44%Z /\ exists rest, rr_data r = t :: a :: hash ++ rest.
Proof.
  intros L F. induction l as [|r l IH]; cbn [search]; intros H N; [congruence|].
  assert (SKIP : search f t a hash l = CRet n -> n = f /\ exists r0, In r0 (r :: l) /\ rr_type r0 = 44%Z /\
                 exists rest, rr_data r0 = t :: a :: hash ++ rest).
  { intros S. destruct (IH S N) as (A & r0 & I & Q). split; [exact A|]. exists r0. split; [right; exact I|exact Q]. }
  destruct (Z.eqb (rr_type r) 44) eqn:T; cbn [negb] in H; [|auto].
  destruct (rr_data r) as [|t' d] eqn:D; [discriminate|].
  destruct (Z.eqb t' t) eqn:T1; cbn [negb] in H; [|auto].
  destruct d as [|a' d]; [discriminate|].
  destruct (Z.eqb a' a) eqn:T2; cbn [negb] in H; [|auto].
  destruct (same20 20 d hash) as [[|]|] eqn:S; [|congruence|discriminate].
  injection H as <-. split; [reflexivity|]. exists r. split; [left; reflexivity|].
  apply Z.eqb_eq in T, T1, T2. split; [exact T|]. apply same20_true in S as [rest ->]; [|exact L].
  exists rest. congruence.
Qed.

Lemma check_sound d hostname hash t a n : length hash = 20 ->
  sshauth_hostkey_hash_dnssec_check d hostname hash t a = CRet n -> n <> 2 ->
  answers d hostname /\ n = (if d_ad d then 0 else 1) /\
  exists r, In r (d_records d) /\ rr_type r = 44%Z /\ exists rest, rr_data r = t :: a :: hash ++ rest.
Proof.
  intros L H N. unfold sshauth_hostkey_hash_dnssec_check in H.
  destruct (d_trusted d) eqn:T; cbn [negb] in H; [|congruence].
  destruct (d_parse d) eqn:P; cbn [negb] in H; [|congruence].
  destruct (Z.eqb (d_rcode d) 0) eqn:R; cbn [negb] in H; [|congruence].
  destruct (d_question d) as [[[q qt] qc]|] eqn:Q; [|congruence].
  destruct (streq hostname q && Z.eqb qt 44 && Z.eqb qc 1) eqn:M; cbn [negb] in H; [|congruence].
  apply andb_prop in M as [M M3]. apply andb_prop in M as [M1 M2]. apply Z.eqb_eq in R, M2, M3. subst.
  apply search_found in H as [A B]; [|exact L|destruct (d_ad d); discriminate|exact N].
  split; [|split; [exact A|exact B]]. unfold answers. rewrite T, P, R. repeat split. exists q. auto.
Qed.

(** Vouched for by DNS only if there is such a record in an answer that is secured. *)
Theorem c166_vouched : forall d k hostname hash, length hash = 20 ->
  nc_client_ssh_do_dnssec_sshfp_check d k hostname hash = CRet 0 -> vouched d k hostname hash.
Proof.
  intros d k hostname hash L H. unfold nc_client_ssh_do_dnssec_sshfp_check in H.
  destruct k; try discriminate H;
    (apply check_sound in H as (A & B & r & I & T & D); [|exact L|discriminate];
     split; [exact A|]; split; [destruct (d_ad d); [reflexivity|discriminate]|];
     exists r; split; [exact I|]; split; [exact T|]; eexists; split; [reflexivity|exact D]).
Qed.

(** With DNSSEC a key is accepted by the rules of the mode, or if it is unknown and vouched for; and an entry is
    added to the known hosts only for an unknown key that was accepted. *)
Theorem c166_accepted : forall m h d k hostname hash a s t, length hash = 20 ->
  hostkey_check_dnssec m h d k hostname hash = Some (a, s, t) ->
  (a = true -> accepts m h \/ m <> Skip /\ h_key h = true /\ unknown (h_known h) /\ vouched d k hostname hash) /\
  (s = true -> a = true /\ unknown (h_known h)).
Proof.
  intros m h d k hostname hash a s t L H.
  assert (PLAIN : hostkey_check m h = (a, s) ->
            (a = true -> accepts m h) /\ (s = true -> a = true /\ unknown (h_known h))).
  { intros E. split.
    - intros ->. apply c85_accepted. rewrite E. reflexivity.
    - intros ->. assert (S : snd (hostkey_check m h) = true) by (rewrite E; reflexivity).
      apply c85_stored in S as (A & U & _). split; [|exact U]. apply c85_accepted in A. rewrite E in A. exact A. }
  assert (P2 : forall tt, Some (hostkey_check m h, tt) = Some (a, s, t) ->
            (a = true -> accepts m h \/ m <> Skip /\ h_key h = true /\ unknown (h_known h) /\ vouched d k hostname hash) /\
            (s = true -> a = true /\ unknown (h_known h))).
  { intros tt E. injection E as E _. destruct (PLAIN E) as [A B]. split; auto. }
  unfold hostkey_check_dnssec in H.
  destruct (match m with Skip => true | _ => false end) eqn:SK.
  - destruct m; try discriminate SK. exact (P2 _ H).
  - assert (H' : (if negb (h_key h) then Some (hostkey_check m h, None)
              else match h_known h with
                   | KnownOther | KnownNotFound | KnownUnknown =>
                       match nc_client_ssh_do_dnssec_sshfp_check d k hostname hash with
                       | COver => None
                       | CRet 0 => Some ((true, h_update h), None)
                       | CRet n =>
                           match m with
                           | Ask => if h_tty h
                                    then Some (hostkey_check m h, match n with 2 => Some TNoMatch | 1 => Some TMatch | _ => None end)
                                    else Some (hostkey_check m h, None)
                           | _ => Some (hostkey_check m h, None)
                           end
                       end
                   | _ => Some (hostkey_check m h, None)
                   end) = Some (a, s, t)) by (destruct m; try discriminate SK; exact H).
    clear H. destruct (h_key h) eqn:K; cbn [negb] in H'; [|exact (P2 _ H')].
    assert (UN : unknown (h_known h) ->
             match nc_client_ssh_do_dnssec_sshfp_check d k hostname hash with
                       | COver => None
                       | CRet 0 => Some ((true, h_update h), None)
                       | CRet n =>
                           match m with
                           | Ask => if h_tty h
                                    then Some (hostkey_check m h, match n with 2 => Some TNoMatch | 1 => Some TMatch | _ => None end)
                                    else Some (hostkey_check m h, None)
                           | _ => Some (hostkey_check m h, None)
                           end
                       end = Some (a, s, t) ->
             (a = true -> accepts m h \/ m <> Skip /\ true = true /\ unknown (h_known h) /\ vouched d k hostname hash) /\
             (s = true -> a = true /\ unknown (h_known h))).
    { intros U E. destruct (nc_client_ssh_do_dnssec_sshfp_check d k hostname hash) as [[|n]|] eqn:C; [| |discriminate].
      - injection E as <- <- <-. split; [|auto]. intros _. right. split; [destruct m; discriminate|]. split; [reflexivity|].
        split; [exact U|]. apply c166_vouched; assumption.
      - destruct m; try exact (P2 _ E). destruct (h_tty h); exact (P2 _ E). }
    destruct (h_known h) eqn:KN; try exact (P2 _ H');
      (apply UN; [unfold unknown; auto|exact H']).
Qed.

(** * C167: a record that vouches for the key is found *)

Definition c167_full : Prop := forall d k hostname hash, length hash = 20 -> vouched d k hostname hash ->
  nc_client_ssh_do_dnssec_sshfp_check d k hostname hash = CRet 0.

(** Records with room for a fingerprint. *)
Definition long_enough (d : dns) : Prop := forall r, In r (d_records d) -> rr_type r = 44%Z -> 22 <= length (rr_data r).

(** No other record with the algorithm and SHA-1 (another key of the host). *)
Definition only_one (d : dns) (k : keytype) (hash : list Z) : Prop :=
  forall r a rest, In r (d_records d) -> rr_type r = 44%Z -> algorithm k = Some a -> rr_data r = a :: 1%Z :: rest ->
  fingerprint_record k hash r.

Lemma search_complete f t hash : length hash = 20 -> forall l,
  (forall r, In r l -> rr_type r = 44%Z -> 2 <= length (rr_data r)) ->
  (forall r rest, In r l -> rr_type r = 44%Z -> rr_data r = t :: 1%Z :: rest -> exists x, rest = hash ++ x) ->
  (exists r, In r l /\ rr_type r = 44%Z /\ exists x, rr_data r = t :: 1%Z :: hash ++ x) ->
  search f t 1 hash l = CRet f.
Proof.
  intros L. induction l as [|r l IH]; intros LO ON (r0 & I & T & x & D); [destruct I|]. cbn [search].
  assert (SKIP : r0 <> r -> search f t 1 hash l = CRet f).
  { intros N. destruct I as [I|I]; [congruence|]. apply IH.
    - intros q Q. apply LO. right. exact Q.
    - intros q rest Q. apply ON. right. exact Q.
    - exists r0. eauto. }
  destruct (Z.eqb (rr_type r) 44) eqn:E; cbn [negb].
  - apply Z.eqb_eq in E. specialize (LO r (or_introl eq_refl) E).
    destruct (rr_data r) as [|t' d] eqn:DR; [cbn in LO; lia|]. destruct d as [|a' d]; [cbn in LO; lia|].
    destruct (Z.eqb t' t) eqn:E1; cbn [negb].
    + destruct (Z.eqb a' 1) eqn:E2; cbn [negb].
      * apply Z.eqb_eq in E1, E2. subst. destruct (ON r d (or_introl eq_refl) E DR) as [y ->].
        rewrite same20_app by exact L. reflexivity.
      * apply SKIP. intros ->. rewrite DR in D. injection D as -> -> _. rewrite Z.eqb_refl in E2. discriminate.
    + apply SKIP. intros ->. rewrite DR in D. injection D as -> _ _. rewrite Z.eqb_refl in E1. discriminate.
  - apply SKIP. intros ->. rewrite T in E. discriminate.
Qed.

Theorem c167_found_partial : forall d k hostname hash, length hash = 20 -> long_enough d -> only_one d k hash ->
  vouched d k hostname hash -> nc_client_ssh_do_dnssec_sshfp_check d k hostname hash = CRet 0.
Proof.
  intros d k hostname hash L LO ON ((T & P & R & q & Q & M) & AD & r & I & T44 & a & A & x & D).
  assert (G : sshauth_hostkey_hash_dnssec_check d hostname hash a 1 = CRet 0).
  { unfold sshauth_hostkey_hash_dnssec_check. rewrite T, P, R, Q, M, AD. cbn [negb andb Z.eqb Pos.eqb].
    apply search_complete; [exact L| | |].
    - intros r' I' T'. specialize (LO r' I' T'). lia.
    - intros r' rest I' T' D'. destruct (ON r' a rest I' T' A D') as (_ & a' & A' & y & Y). exists y.
      rewrite D' in Y. injection Y as _ Y. exact Y.
    - exists r. eauto. }
  destruct k; try discriminate A; injection A as <-; exact G.
Qed.

Definition hash0 : list Z := [1;2;3;4;5;6;7;8;9;10;11;12;13;14;15;16;17;18;19;20]%Z.
Definition hash1 : list Z := [9;2;3;4;5;6;7;8;9;10;11;12;13;14;15;16;17;18;19;20]%Z.
Definition dns_of (records : list rr) : dns :=
  {| d_trusted := true; d_parse := true; d_rcode := 0; d_ad := true; d_question := Some (bs "host", 44%Z, 1%Z);
     d_records := records |}.

(** The host has two RSA keys, the other one first. *)
Theorem c167_two_keys_refuted : ~ c167_full.
Proof.
  intros H.
  assert (V : vouched (dns_of [{| rr_type := 44; rr_data := [1; 1]%Z ++ hash1 |}; {| rr_type := 44; rr_data := [1; 1]%Z ++ hash0 |}])
                KRsa (bs "host") hash0).
  { split; [repeat split; exists (bs "host"); split; reflexivity|]. split; [reflexivity|].
    eexists. split; [right; left; reflexivity|]. split; [reflexivity|]. exists 1%Z. split; [reflexivity|]. exists []. reflexivity. }
  specialize (H _ _ _ hash0 eq_refl V). vm_compute in H. discriminate.
Qed.

(** * C168: what the user is told *)

(** That a matching fingerprint was found in DNS, or that there is none. *)
Definition matching (d : dns) (k : keytype) (hostname : bytes) (hash : list Z) : Prop :=
  answers d hostname /\ exists r, In r (d_records d) /\ fingerprint_record k hash r.

Definition c168_full : Prop := forall m h d k hostname hash a s t, length hash = 20 ->
  hostkey_check_dnssec m h d k hostname hash = Some (a, s, Some t) -> t = TMatch -> matching d k hostname hash.

Lemma told_check m h d k hostname hash a s t :
  hostkey_check_dnssec m h d k hostname hash = Some (a, s, Some t) ->
  nc_client_ssh_do_dnssec_sshfp_check d k hostname hash = CRet (match t with TMatch => 1 | TNoMatch => 2 end).
Proof.
  unfold hostkey_check_dnssec. intros H.
  destruct m; try discriminate H; destruct (h_key h); cbn [negb] in H; try discriminate H;
    destruct (h_known h); try discriminate H;
    destruct (nc_client_ssh_do_dnssec_sshfp_check d k hostname hash) as [[|[|[|n]]]|]; try discriminate H;
    destruct (h_tty h); try discriminate H; injection H as _ <-; reflexivity.
Qed.

Theorem c168_told_partial : forall m h d k hostname hash a s t, length hash = 20 -> algorithm k <> None ->
  hostkey_check_dnssec m h d k hostname hash = Some (a, s, Some t) -> t = TMatch -> matching d k hostname hash.
Proof.
  intros m h d k hostname hash a s t L K H ->. apply told_check in H.
  unfold nc_client_ssh_do_dnssec_sshfp_check in H.
  destruct k; try (exfalso; apply K; reflexivity);
    (apply check_sound in H as (A & B & r & I & T & D); [|exact L|discriminate];
     split; [exact A|]; exists r; split; [exact I|]; split; [exact T|]; eexists; split; [reflexivity|exact D]).
Qed.

Definition asking : host :=
  {| h_key := true; h_known := KnownUnknown; h_update := true; h_tty := true; h_input := bs "no" |}.

(** For a key of another type (Ed25519) nothing is looked up, but the user is told that it matches. *)
Theorem c168_other_types_refuted : ~ c168_full.
Proof.
  intros H.
  specialize (H Ask asking (dns_of []) KOther (bs "host") hash0 false false TMatch eq_refl eq_refl eq_refl).
  destruct H as (_ & r & [] & _).
Qed.

(** * C169: nothing behind a record is read *)

Definition c169_full : Prop := forall d k hostname hash, length hash = 20 ->
  nc_client_ssh_do_dnssec_sshfp_check d k hostname hash <> COver.

Lemma same20_long : forall n rdata hash, n <= length rdata -> length hash = n -> same20 n rdata hash <> None.
Proof.
  induction n as [|n IH]; intros rdata hash L H; cbn; [discriminate|].
  destruct rdata as [|a rdata]; [cbn in L; lia|]. destruct hash as [|b hash]; [discriminate|].
  destruct (Z.eqb a b); [|discriminate]. apply IH; cbn in *; lia.
Qed.

Lemma search_long f t a hash : length hash = 20 -> forall l,
  (forall r, In r l -> rr_type r = 44%Z -> 22 <= length (rr_data r)) -> search f t a hash l <> COver.
Proof.
  intros L. induction l as [|r l IH]; intros H; cbn [search]; [discriminate|].
  assert (I : search f t a hash l <> COver) by (apply IH; intros q Q; apply H; right; exact Q).
  destruct (Z.eqb (rr_type r) 44) eqn:E; cbn [negb]; [|exact I]. apply Z.eqb_eq in E.
  specialize (H r (or_introl eq_refl) E).
  destruct (rr_data r) as [|t' [|a' d]]; [cbn in H; lia|cbn in H; lia|].
  destruct (Z.eqb t' t); cbn [negb]; [|exact I]. destruct (Z.eqb a' a); cbn [negb]; [|exact I].
  pose proof (same20_long 20 d hash ltac:(cbn in H; lia) L) as S.
  destruct (same20 20 d hash) as [[|]|]; [discriminate|discriminate|congruence].
Qed.

Theorem c169_within_records_partial : forall d k hostname hash, length hash = 20 -> long_enough d ->
  nc_client_ssh_do_dnssec_sshfp_check d k hostname hash <> COver.
Proof.
  intros d k hostname hash L LO.
  assert (G : forall t, sshauth_hostkey_hash_dnssec_check d hostname hash t 1 <> COver).
  { intros t. unfold sshauth_hostkey_hash_dnssec_check.
    destruct (negb (d_trusted d)); [discriminate|]. destruct (negb (d_parse d)); [discriminate|].
    destruct (negb (Z.eqb (d_rcode d) 0)); [discriminate|]. destruct (d_question d) as [[[q qt] qc]|]; [|discriminate].
    destruct (negb _); [discriminate|]. apply search_long; assumption. }
  destruct k; cbn; try discriminate; apply G.
Qed.

(** The length of a record is never looked at: one whose data end after the octets that say what it is. *)
Theorem c169_short_record_refuted : ~ c169_full.
Proof.
  intros H. apply (H (dns_of [{| rr_type := 44; rr_data := [1; 1]%Z |}]) KRsa (bs "host") hash0 eq_refl).
  vm_compute. reflexivity.
Qed.

(** * Examples *)

Definition env0 (typed : bytes) (off out : bool) : env :=
  {| e_in := Some 0; e_stdin_name := true; e_stdin := Some 1; e_out := if out then Some 0 else None; e_stdout_name := false;
     e_stdout := None; e_get := fun _ => true; e_off := fun t => Nat.eqb t 1 || off; e_on := fun _ => true;
     e_print := fun _ => true; e_malloc := true; e_realloc := fun _ => true; e_typed := typed |}.
Definition world0 : world :=
  {| w_set := fun t => {| echo := true; others := t |}; w_made := 3; w_open := [0; 1; 2]; w_bufs := 5; w_wild := false |}.

Example ex_password :
  let r := run (env0 (bs "secret" ++ [nl] ++ bs "ls") true true) Password world0 in
  r_answer r = ALine (bs "secret") /\ r_shown r = Some false /\ w_open (r_world r) = [0; 1; 2] /\
  w_set (r_world r) 0 = {| echo := true; others := 0 |} /\ w_bufs (r_world r) = 6%Z.
Proof. vm_compute. auto. Qed.

(** The settings of the first terminal cannot be changed: the second is used. *)
Example ex_second_terminal :
  let r := run (env0 (bs "secret") false true) Passphrase world0 in
  r_answer r = ALine (bs "secret") /\ r_shown r = Some false /\
  w_set (r_world r) 1 = {| echo := true; others := 1 |}.
Proof. vm_compute. auto. Qed.

Example ex_no_output :
  let r := run (env0 (bs "secret") true false) (Interact true false false) world0 in
  r_answer r = ANull /\ w_open (r_world r) = [0; 1; 2] /\ w_set (r_world r) 0 = {| echo := true; others := 0 |} /\
  w_bufs (r_world r) = 5%Z.
Proof. vm_compute. auto. Qed.

Example ex_shown : r_shown (run (env0 (bs "name") true true) (Interact true true true) world0) = Some true.
Proof. vm_compute. reflexivity. Qed.

Example ex_long : exists l, r_answer (run (env0 (repeat "x"%char 200) true true) (Interact true true true) world0) = ALine l /\ length l = 200.
Proof. eexists. split; [vm_compute; reflexivity|reflexivity]. Qed.

Example ex_vouched :
  nc_client_ssh_do_dnssec_sshfp_check (dns_of [{| rr_type := 46; rr_data := [] |}; {| rr_type := 44; rr_data := [4; 2; 7]%Z |};
    {| rr_type := 44; rr_data := [1; 1]%Z ++ hash0 |}]) KRsa (bs "host") hash0 = CRet 0.
Proof. vm_compute. reflexivity. Qed.

Example ex_accepted :
  hostkey_check_dnssec Strict asking (dns_of [{| rr_type := 44; rr_data := [3; 1]%Z ++ hash0 |}]) KEcdsa (bs "host") hash0
  = Some (true, true, None).
Proof. vm_compute. reflexivity. Qed.

Print Assumptions c164_left_as_found.
Print Assumptions c164_not_shown.
Print Assumptions c165_only_the_line.
Print Assumptions c165_line_returned_partial.
Print Assumptions c165_too_long_refuted.
Print Assumptions c166_vouched.
Print Assumptions c166_accepted.
Print Assumptions c167_found_partial.
Print Assumptions c167_two_keys_refuted.
Print Assumptions c168_told_partial.
Print Assumptions c168_other_types_refuted.
Print Assumptions c169_within_records_partial.
Print Assumptions c169_short_record_refuted.
