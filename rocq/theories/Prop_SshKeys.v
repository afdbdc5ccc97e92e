(** C48 (authorized keys file), C32 (password comparison), C33 (public key comparison). *)
From Coq Require Import Ascii String NArith ZArith Bool Lia List.
From Verif Require Import Bytes CStr SshKeys.
Import ListNotations.
Local Open Scope N_scope.

(* ------------------------------------------------------------------ *)
(** ** C48: specification *)

Definition blank (c : ascii) : Prop := c = " "%char \/ c = "009"%char.
(** A word: at least one character, no white space, no NUL. *)
Definition is_word (w : bytes) : Prop := w <> [] /\ forall c, In c w -> is_space c = false /\ c <> NUL.
Definition text (l : bytes) : Prop := ~ In NL l /\ ~ In NUL l.

(** A line with a key: type, blanks, data, and possibly more after another blank. *)
Definition key_line (supported : bytes -> bool) (l d : bytes) : Prop :=
  exists a t b tail, l = a ++ t ++ b ++ d ++ tail
    /\ Forall blank a /\ Forall blank b /\ b <> [] /\ is_word t /\ is_word d
    /\ (tail = [] \/ exists c r, tail = c :: r /\ blank c)
    /\ supported t = true /\ hd_error (t) <> Some HASH.

(** The same with nothing before the type and a single blank after it. *)
Definition tidy_key_line (supported : bytes -> bool) (l d : bytes) : Prop :=
  exists t c tail, l = t ++ c :: d ++ tail
    /\ blank c /\ is_word t /\ is_word d
    /\ (tail = [] \/ exists c r, tail = c :: r /\ blank c)
    /\ supported t = true /\ hd_error t <> Some HASH.

Lemma tidy_is_key_line supported l d : tidy_key_line supported l d -> key_line supported l d.
Proof.
  intros (t & c & tail & E & C & T & D & Tl & S & H). exists [], t, [c], tail.
  split; [rewrite E; reflexivity|]. split; [constructor|]. split; [constructor; [exact C|constructor]|].
  split; [discriminate|]. auto.
Qed.

(** A line without a key: comment, empty, blanks only, or of a type not supported. *)
Inductive no_key_line (supported : bytes -> bool) : bytes -> Prop :=
| nk_comment r : no_key_line supported (HASH :: r)
| nk_empty : no_key_line supported []
| nk_blanks c r : Forall blank (c :: r) -> no_key_line supported (c :: r)
| nk_type t c r : is_word t -> blank c -> supported t = false -> no_key_line supported (t ++ c :: r).

(** What a line contributes. *)
Definition line_means (supported : bytes -> bool) (l : bytes) (o : option bytes) : Prop :=
  text l /\ match o with Some d => tidy_key_line supported l d | None => no_key_line supported l end.

Definition keys_of (os : list (option bytes)) : list bytes :=
  flat_map (fun o => match o with Some d => [d] | None => [] end) os.

(** A file made of lines; [last] is what follows the last newline. *)
Definition file_of (ls : list bytes) (last : bytes) : bytes :=
  concat (map (fun l => l ++ [NL]) ls) ++ last.

(* ------------------------------------------------------------------ *)
(** ** C48: proofs *)

Lemma getlines_line cur l f : ~ In NL l -> getlines cur (l ++ NL :: f) = (cur ++ l ++ [NL]) :: getlines [] f.
Proof.
  revert cur; induction l as [|c l IH]; intros cur N; cbn [app getlines].
  - rewrite Ascii.eqb_refl. reflexivity.
  - destruct (Ascii.eqb_spec c NL) as [->|C]; [exfalso; apply N; left; reflexivity|].
    rewrite IH; [|intros H; apply N; right; exact H]. rewrite <- app_assoc. reflexivity.
Qed.

Lemma getlines_last cur l : ~ In NL l -> getlines cur l = match cur ++ l with [] => [] | x => [x] end.
Proof.
  revert cur; induction l as [|c l IH]; intros cur N; cbn [getlines].
  - rewrite app_nil_r. destruct cur; reflexivity.
  - destruct (Ascii.eqb_spec c NL) as [->|C]; [exfalso; apply N; left; reflexivity|].
    rewrite IH; [|intros H; apply N; right; exact H]. rewrite <- app_assoc. reflexivity.
Qed.

Lemma getlines_file ls last : Forall (fun l => ~ In NL l) ls -> ~ In NL last ->
  getlines [] (file_of ls last) = map (fun l => l ++ [NL]) ls ++ match last with [] => [] | _ => [last] end.
Proof.
  intros F N. unfold file_of. induction F as [|l ls H F IH]; cbn [map concat app].
  - rewrite getlines_last by exact N. cbn [app]. destruct last; reflexivity.
  - rewrite <- !app_assoc. cbn [app]. rewrite getlines_line by exact H. cbn [app]. f_equal. exact IH.
Qed.

Lemma word_stop w c r : (forall x, In x w -> is_space x = false /\ x <> NUL) -> is_space c = true \/ c = NUL ->
  word (w ++ c :: r) = (w, c :: r).
Proof.
  intros W C. induction w as [|x w IH]; cbn [app word].
  - replace (Ascii.eqb c NUL || is_space c) with true; [reflexivity|].
    symmetry. destruct C as [-> | ->]; [apply orb_true_r|]. rewrite Ascii.eqb_refl. reflexivity.
  - destruct (W x (or_introl eq_refl)) as [S N]. apply Ascii.eqb_neq in N. rewrite S, N. cbn [orb].
    rewrite IH; [reflexivity|]. intros y Hy. apply W. right. exact Hy.
Qed.

Lemma word_end w : (forall x, In x w -> is_space x = false /\ x <> NUL) -> word w = (w, []).
Proof.
  intros W. induction w as [|x w IH]; cbn [word]; [reflexivity|].
  destruct (W x (or_introl eq_refl)) as [S N]. apply Ascii.eqb_neq in N. rewrite S, N. cbn [orb].
  rewrite IH; [reflexivity|]. intros y Hy. apply W. right. exact Hy.
Qed.

Lemma blank_space c : blank c -> is_space c = true /\ c <> NUL /\ c <> NL /\ c <> HASH.
Proof. intros [-> | ->]; repeat split; discriminate. Qed.

Lemma hd_word t : is_word t -> exists c r, t = c :: r /\ c <> NL /\ is_space c = false.
Proof.
  intros [E W]. destruct t as [|c r]; [congruence|]. exists c, r. split; [reflexivity|].
  destruct (W c (or_introl eq_refl)) as [S _]. split; [|exact S]. intros ->. discriminate.
Qed.

(** [e]: the newline, or nothing on the last line. *)
Lemma line_correct supported l o e :
  supported [] = false -> line_means supported l o -> e = [NL] \/ (e = [] /\ l <> []) ->
  auth_line supported (l ++ e) = match o with Some d => LKey d | None => LSkip end.
Proof.
  intros S0 [T M] E. destruct o as [d|].
  - destruct M as (t & c & tail & -> & C & Wt & Wd & Tl & S & H).
    destruct (hd_word t Wt) as (x & t' & -> & X1 & X2). cbn [hd_error] in H.
    unfold auth_line. cbn [app]. rewrite <- app_assoc. cbn [app].
    replace (Ascii.eqb x HASH || Ascii.eqb x NL) with false.
    2:{ symmetry. apply orb_false_iff. split; apply Ascii.eqb_neq; [congruence|exact X1]. }
    change (x :: t' ++ c :: (d ++ tail) ++ e) with ((x :: t') ++ c :: (d ++ tail) ++ e).
    destruct (blank_space c C) as (Bs & Bn & _ & _).
    rewrite word_stop; [|apply Wt|left; exact Bs]. apply Ascii.eqb_neq in Bn. rewrite Bn, S. f_equal.
    rewrite <- app_assoc.
    assert (D : forall r, (exists y r', r = y :: r' /\ is_space y = true) \/ r = [] -> fst (word (d ++ r)) = d).
    { intros r [(y & r' & -> & Y)| ->].
      - rewrite word_stop; [reflexivity|apply Wd|left; exact Y].
      - rewrite app_nil_r, word_end; [reflexivity|apply Wd]. }
    apply D. destruct Tl as [-> | (y & r' & -> & Y)].
    + destruct E as [-> | [-> _]]; [left; exists NL, []; split; reflexivity|right; reflexivity].
    + left. exists y, (r' ++ e). split; [reflexivity|]. apply blank_space. exact Y.
  - destruct M as [r| |c r B|t c r Wt C S].
    + cbn [app auth_line]. rewrite Ascii.eqb_refl. reflexivity.
    + destruct E as [-> | [_ E]]; [reflexivity|congruence].
    + inversion B as [|? ? Bc Br]; subst. destruct (blank_space c Bc) as (Bs & Bn & Bl & Bh).
      cbn [app auth_line]. apply Ascii.eqb_neq in Bl, Bh, Bn. rewrite Bl, Bh. cbn [orb].
      cbn [word]. rewrite Bn, Bs. cbn [orb]. rewrite ?Bn, S0. reflexivity.
    + destruct (hd_word t Wt) as (x & t' & -> & X1 & X2). unfold auth_line. cbn [app].
      destruct (Ascii.eqb x HASH || Ascii.eqb x NL); [reflexivity|].
      rewrite <- app_assoc. cbn [app].
      change (x :: t' ++ c :: r ++ e) with ((x :: t') ++ c :: r ++ e).
      destruct (blank_space c C) as (Bs & Bn & _ & _).
      rewrite word_stop; [|apply Wt|left; exact Bs]. apply Ascii.eqb_neq in Bn. rewrite Bn, S. reflexivity.
Qed.

Lemma auth_lines_fold supported ls rs ks :
  Forall2 (fun l o => auth_line supported l = match o with Some d => LKey d | None => LSkip end) ls rs ->
  auth_lines supported ls ks = Some (fold_left add_key (keys_of rs) ks).
Proof.
  intros F. revert ks. induction F as [|l o ls rs H F IH]; intros ks; [reflexivity|].
  cbn [auth_lines keys_of flat_map]. rewrite H. destruct o as [d|]; cbn [app fold_left]; apply IH.
Qed.

Lemma fold_keys keys :
  let '(ks, n) := fold_left add_key keys ([], 0) in
  n = lenN keys mod 65536 /\ firstn (N.to_nat n) ks = skipn (N.to_nat (lenN keys / 65536 * 65536)) keys.
Proof.
  induction keys as [|d keys IH] using rev_ind; [split; reflexivity|].
  rewrite fold_left_app. destruct (fold_left add_key keys ([], 0)) as [ks n]. destruct IH as [Hn Hk].
  cbn [fold_left]. unfold add_key. cbn [fst snd].
  assert (L : lenN (keys ++ [d]) = lenN keys + 1) by (unfold lenN; rewrite app_length; cbn [length]; lia).
  rewrite L. pose proof (N.div_mod (lenN keys) 65536 ltac:(lia)) as DM. rewrite <- Hn in DM.
  pose proof (N.mod_upper_bound (lenN keys) 65536 ltac:(lia)) as UB. rewrite <- Hn in UB.
  set (q := lenN keys / 65536) in *.
  assert (Hlen : length (firstn (N.to_nat n) ks) = N.to_nat n).
  { rewrite Hk, skipn_length. unfold lenN in DM. lia. }
  destruct (N.eq_dec n 65535) as [->|Nn].
  - change ((65535 + 1) mod 65536) with 0.
    assert (A : lenN keys + 1 = (q + 1) * 65536) by lia. rewrite A.
    rewrite N.mod_mul by lia. split; [reflexivity|]. rewrite N.div_mul by lia.
    rewrite skipn_all2; [reflexivity|]. rewrite app_length. cbn [length]. unfold lenN in A. lia.
  - assert (M : (n + 1) mod 65536 = n + 1) by (apply N.mod_small; lia).
    assert (A : lenN keys + 1 = (n + 1) + q * 65536) by lia.
    rewrite M. split.
    + rewrite A, N.mod_add by lia. symmetry. exact M.
    + rewrite A. replace ((n + 1 + q * 65536) / 65536) with q.
      2:{ rewrite N.div_add by lia. rewrite N.div_small by lia. reflexivity. }
      rewrite Hk in Hlen |- *. rewrite skipn_app.
      replace (N.to_nat (q * 65536) - length keys)%nat with 0%nat by (unfold lenN in DM; lia).
      cbn [skipn]. apply firstn_all2. rewrite app_length, Hlen. cbn [length]. lia.
Qed.

(** The keys read from a file of tidy lines, whatever their number: the counter has 16 bits and every time it
    wraps all keys so far are forgotten. *)
Theorem c48_keys_general supported ls os last olast :
  supported [] = false ->
  Forall2 (line_means supported) ls os ->
  (last = [] /\ olast = None) \/ (last <> [] /\ line_means supported last olast) ->
  let keys := keys_of (os ++ [olast]) in
  read_authorized_keys supported (Some (file_of ls last))
  = Some (skipn (N.to_nat (lenN keys / 65536 * 65536)) keys).
Proof.
  intros S0 F L keys. unfold read_authorized_keys.
  assert (NLs : Forall (fun l => ~ In NL l) ls).
  { clear - F. induction F as [|l o ls os [[H _] _] F IH]; constructor; auto. }
  assert (NLl : ~ In NL last).
  { destruct L as [[-> _] | [_ [[H _] _]]]; [intros []|exact H]. }
  rewrite getlines_file by assumption.
  rewrite (auth_lines_fold _ _ (os ++ match last with [] => [] | _ => [olast] end)).
  - replace (keys_of (os ++ match last with [] => [] | _ => [olast] end)) with keys.
    + pose proof (fold_keys keys) as K. destruct (fold_left add_key keys ([], 0)) as [ks n].
      destruct K as [_ ->]. reflexivity.
    + unfold keys, keys_of. rewrite !flat_map_app. f_equal. destruct last; [|reflexivity].
      destruct L as [[_ ->] | [H _]]; [reflexivity|congruence].
  - apply Forall2_app.
    + clear - F S0. induction F as [|l o ls os H F IH]; cbn [map]; constructor; [|exact IH].
      apply line_correct; auto.
    + destruct last as [|c last]; [constructor|]. constructor; [|constructor].
      destruct L as [[H _] | [_ H]]; [discriminate|].
      rewrite <- (app_nil_r (c :: last)). apply line_correct; [exact S0|exact H|right; split; [reflexivity|discriminate]].
Qed.

(** Fewer than 65536 keys: they are read in order, whatever the other lines are. *)
Theorem c48_keys_partial supported ls os last olast :
  supported [] = false ->
  Forall2 (line_means supported) ls os ->
  (last = [] /\ olast = None) \/ (last <> [] /\ line_means supported last olast) ->
  lenN (keys_of (os ++ [olast])) < 65536 ->
  read_authorized_keys supported (Some (file_of ls last)) = Some (keys_of (os ++ [olast])).
Proof.
  intros S0 F L C. rewrite (c48_keys_general supported ls os last olast S0 F L).
  rewrite N.div_small by exact C. reflexivity.
Qed.

(** 65536 keys are none. *)
Theorem c48_count_refuted supported t d :
  supported [] = false -> supported t = true -> is_word t -> hd_error t <> Some HASH -> is_word d ->
  exists file, file = file_of (repeat (t ++ " "%char :: d) (N.to_nat 65536)) []
            /\ key_line supported (t ++ " "%char :: d) d
            /\ read_authorized_keys supported (Some file) = Some [].
Proof.
  intros S0 S Wt Ht Wd.
  assert (K : tidy_key_line supported (t ++ " "%char :: d) d).
  { exists t, " "%char, []. rewrite app_nil_r. split; [reflexivity|].
    split; [left; reflexivity|]. repeat (split; [assumption || (left; reflexivity)|]). assumption. }
  eexists. split; [reflexivity|]. split; [apply tidy_is_key_line; exact K|].
  rewrite (c48_keys_general supported _ (repeat (Some d) (N.to_nat 65536)) [] None S0).
  - assert (E : forall n, keys_of (repeat (Some d) n ++ [None]) = repeat d n).
    { intros n. unfold keys_of. rewrite flat_map_app. cbn [flat_map app]. rewrite app_nil_r.
      induction n as [|n IH]; cbn [repeat flat_map app]; [reflexivity|]. now rewrite IH. }
    rewrite E. unfold lenN. rewrite repeat_length, N2Nat.id. apply (f_equal Some). apply skipn_all2. rewrite repeat_length. apply le_n.
  - induction (N.to_nat 65536) as [|n IH]; cbn [repeat]; constructor; [|exact IH].
    split; [|exact K]. destruct Wt as [_ Wt], Wd as [_ Wd].
    split; intros I; apply in_app_or in I; destruct I as [I|[I|I]]; try discriminate.
    + destruct (Wt _ I). discriminate.
    + destruct (Wd _ I). discriminate.
    + apply (proj2 (Wt _ I)). reflexivity.
    + apply (proj2 (Wd _ I)). reflexivity.
  - left. split; reflexivity.
Qed.

Definition rsa_only (t : bytes) : bool := beqb t (bs "ssh-rsa").

Lemma plain_word w : forallb (fun c => negb (is_space c) && negb (Ascii.eqb c NUL)) w = true -> w <> [] -> is_word w.
Proof.
  intros H E. split; [exact E|]. intros c I. rewrite forallb_forall in H. specialize (H c I).
  apply andb_true_iff in H. destruct H as [H1 H2]. apply negb_true_iff in H1, H2. apply Ascii.eqb_neq in H2. auto.
Qed.

(** With two blanks after the type an empty key is read, with a blank before the type none, and the same
    after options, which sshd allows before the type. *)
Theorem c48_blanks_refuted :
  exists l d, key_line rsa_only l d
    /\ read_authorized_keys rsa_only (Some (file_of [l] [])) = Some [[]].
Proof.
  exists (bs "ssh-rsa  AAAAB3"), (bs "AAAAB3"). split; [|vm_compute; reflexivity].
  exists [], (bs "ssh-rsa"), (bs "  "), []. split; [reflexivity|].
  split; [repeat (constructor; [left; reflexivity|]); constructor|].
  split; [repeat (constructor; [left; reflexivity|]); constructor|]. split; [discriminate|].
  split; [apply plain_word; [reflexivity|discriminate]|]. split; [apply plain_word; [reflexivity|discriminate]|].
  split; [left; reflexivity|]. split; [reflexivity|discriminate].
Qed.

Theorem c48_leading_blank_refuted :
  exists l d, key_line rsa_only l d
    /\ read_authorized_keys rsa_only (Some (file_of [l] [])) = Some [].
Proof.
  exists (bs " ssh-rsa AAAAB3"), (bs "AAAAB3"). split; [|vm_compute; reflexivity].
  exists (bs " "), (bs "ssh-rsa"), (bs " "), []. split; [reflexivity|].
  split; [repeat (constructor; [left; reflexivity|]); constructor|].
  split; [repeat (constructor; [left; reflexivity|]); constructor|]. split; [discriminate|].
  split; [apply plain_word; [reflexivity|discriminate]|]. split; [apply plain_word; [reflexivity|discriminate]|].
  split; [left; reflexivity|]. split; [reflexivity|discriminate].
Qed.

(** One word at the end of the file without a newline makes all keys be refused. *)
Theorem c48_last_line_refuted supported ls w :
  is_word w -> hd_error w <> Some HASH -> Forall text ls ->
  Forall (fun l => exists o, line_means supported l o) ls -> supported [] = false ->
  read_authorized_keys supported (Some (file_of ls w)) = None.
Proof.
  intros W H T M S0. unfold read_authorized_keys. rewrite getlines_file.
  - assert (B : auth_line supported w = LBad).
    { destruct (hd_word w W) as (x & w' & E & X1 & _). unfold auth_line. rewrite E. rewrite E in H. cbn [hd_error] in H.
      replace (Ascii.eqb x HASH || Ascii.eqb x NL) with false.
      2:{ symmetry. apply orb_false_iff. split; apply Ascii.eqb_neq; [congruence|exact X1]. }
      rewrite <- E, word_end by apply W. reflexivity. }
    assert (G : forall ks, auth_lines supported (map (fun l => l ++ [NL]) ls ++ match w with [] => [] | _ => [w] end) ks = None).
    { clear T. induction M as [|l ls [o Ho] M IH]; intros ks.
      - destruct w as [|x w]; [destruct W; congruence|]. cbn [map app auth_lines]. rewrite B. reflexivity.
      - cbn [map app auth_lines]. rewrite (line_correct _ _ _ _ S0 Ho (or_introl eq_refl)).
        destruct o; apply IH. }
    rewrite G. reflexivity.
  - clear - T. induction T as [|l ls [H _] T IH]; constructor; auto.
  - intros I. destruct W as [_ W]. destruct (W _ I). discriminate.
Qed.

Example c48_case :
  read_authorized_keys rsa_only (Some (bs "# my keys
ssh-rsa AAAAB3 joe@host

ssh-dss BBBB
ssh-rsa CCCC")) = Some [bs "AAAAB3"; bs "CCCC"].
Proof. vm_compute. reflexivity. Qed.
Example c48_case_lost : read_authorized_keys rsa_only (Some (bs "ssh-rsa AAAAB3
oops")) = None.
Proof. vm_compute. reflexivity. Qed.

(* ------------------------------------------------------------------ *)
(** ** C32 *)

(** When a received password matches a stored value. *)
Inductive matches (crypt : bytes -> bytes -> option bytes) : bytes -> bytes -> Prop :=
| m_empty : matches crypt [] []
| m_clear p : matches crypt (bs "$0$" ++ p) p
| m_hash h p : h <> [] -> ~ (exists t, h = bs "$0$" ++ t) -> crypt p h = Some h -> matches crypt h p.

Lemma clear_prefix s : strncmp0 s (bs "$0$") 3 = true <-> exists t, s = bs "$0$" ++ t.
Proof. change 3%nat with (length (bs "$0$")). rewrite strncmp0_prefix_r. apply prefixb_spec. Qed.

Lemma matches_inv crypt s p : matches crypt s p ->
  (s = [] /\ p = []) \/ s = bs "$0$" ++ p \/ (s <> [] /\ ~ (exists t, s = bs "$0$" ++ t) /\ crypt p s = Some s).
Proof. intros []; auto. Qed.

Theorem c32_password crypt stored received :
  compare_password crypt stored received = true <-> exists p, received = Some p /\ matches crypt stored p.
Proof.
  destruct received as [p|]; [|split; [discriminate|intros (p & E & _); discriminate]].
  unfold compare_password. destruct stored as [|x s].
  - split.
    + destruct p; [|discriminate]. intros _. exists []. split; [reflexivity|constructor].
    + intros (p' & [= <-] & M). apply matches_inv in M. destruct M as [[_ ->] | [M | (M & _)]]; [reflexivity|discriminate M|congruence].
  - destruct (strncmp0 (x :: s) (bs "$0$") 3) eqn:C.
    + apply clear_prefix in C. destruct C as [t C]. rewrite C.
      replace (skipn 3 (bs "$0$" ++ t)) with t by reflexivity. unfold streq. rewrite beqb_spec. split.
      * intros ->. exists p. split; [reflexivity|constructor].
      * intros (p' & [= <-] & M). apply matches_inv in M. destruct M as [[M _] | [M | (_ & M & _)]]; [discriminate M| |].
        { apply app_inv_head in M. congruence. }
        exfalso. apply M. eauto.
    + assert (NC : ~ exists t, x :: s = bs "$0$" ++ t) by (rewrite <- clear_prefix, C; discriminate).
      split.
      * destruct (crypt p (x :: s)) as [h|] eqn:K; [|discriminate]. unfold streq. rewrite beqb_spec. intros ->.
        exists p. split; [reflexivity|]. apply m_hash; [discriminate|exact NC|exact K].
      * intros (p' & [= <-] & M). apply matches_inv in M. destruct M as [[M _] | [M | (_ & _ & M)]]; [discriminate M| |].
        { exfalso. apply NC. eauto. }
        rewrite M. apply beqb_refl.
Qed.

(** Passwords of system users: accounts that are locked, expired or without an entry accept nothing; the
    others accept what matches the entry. *)
Definition usable (today : Z) (pw : option passwd) (h : bytes) : Prop :=
  exists p, pw = Some p
    /\ ((pw_passwd p <> bs "x" /\ h = pw_passwd p)
        \/ (pw_passwd p = bs "x" /\ exists s, pw_shadow p = Some s /\ sh_pwdp s = Some h
                               /\ (sh_expire s < 0 \/ today < sh_expire s)%Z))
    /\ h <> bs "*" /\ h <> bs "!" /\ h <> bs "*NP*".

Theorem c32_system_password today pw h : get_pwd_hash today pw = Some h <-> usable today pw h.
Proof.
  unfold get_pwd_hash, usable. destruct pw as [p|]; [|split; [discriminate|intros (p & E & _); discriminate]].
  split.
  - intros E. exists p. split; [reflexivity|].
    assert (F : forall g, (if streq g (bs "*") || streq g (bs "!") then None
                           else if streq g (bs "*NP*") then None else Some g) = Some h ->
                g = h /\ h <> bs "*" /\ h <> bs "!" /\ h <> bs "*NP*").
    { intros g. unfold streq. destruct (beqb g (bs "*")) eqn:E1; [discriminate|].
      destruct (beqb g (bs "!")) eqn:E2; [discriminate|]. destruct (beqb g (bs "*NP*")) eqn:E3; [discriminate|].
      cbn [orb]. intros [= ->]. split; [reflexivity|].
      repeat split; intros ->; rewrite beqb_refl in *; discriminate. }
    destruct (streq (pw_passwd p) (bs "x")) eqn:X; unfold streq in X.
    + apply beqb_spec in X. destruct (pw_shadow p) as [s|]; [|discriminate].
      destruct ((-1 <? sh_expire s) && (sh_expire s <=? today))%Z eqn:T; [discriminate|].
      destruct (sh_pwdp s) as [g|] eqn:G; [|discriminate]. apply F in E. destruct E as (-> & E).
      split; [|exact E]. right. split; [exact X|]. exists s. repeat split; auto.
      apply andb_false_iff in T. destruct T as [T|T]; [apply Z.ltb_ge in T|apply Z.leb_gt in T]; lia.
    + apply F in E. destruct E as (<- & E). split; [|exact E]. left. split; [|reflexivity].
      intros Y. rewrite Y in X. discriminate.
  - intros (p' & [= <-] & H & N1 & N2 & N3).
    assert (F : (if streq h (bs "*") || streq h (bs "!") then None
                 else if streq h (bs "*NP*") then None else Some h) = Some h).
    { unfold streq. destruct (beqb h (bs "*")) eqn:E1; [apply beqb_spec in E1; congruence|].
      destruct (beqb h (bs "!")) eqn:E2; [apply beqb_spec in E2; congruence|].
      destruct (beqb h (bs "*NP*")) eqn:E3; [apply beqb_spec in E3; congruence|]. reflexivity. }
    destruct H as [[X ->] | [X (s & S & G & T)]].
    + destruct (streq (pw_passwd p) (bs "x")) eqn:Y; unfold streq in Y; [apply beqb_spec in Y; congruence|]. exact F.
    + rewrite X, S. change (streq (bs "x") (bs "x")) with true. cbv beta iota.
      replace ((-1 <? sh_expire s) && (sh_expire s <=? today))%Z with false.
      2:{ symmetry. apply andb_false_iff. destruct T; [left; apply Z.ltb_ge; lia|right; apply Z.leb_gt; lia]. }
      rewrite G. exact F.
Qed.

Example c32_case_clear : compare_password (fun _ _ => None) (bs "$0$secret") (Some (bs "secret")) = true.
Proof. reflexivity. Qed.
Example c32_case_hash :
  compare_password (fun p s => if beqb p (bs "pw") then Some (bs "$6$ab$xyz") else Some (bs "$6$ab$qqq"))
                   (bs "$6$ab$xyz") (Some (bs "pw")) = true
  /\ compare_password (fun p s => if beqb p (bs "pw") then Some (bs "$6$ab$xyz") else Some (bs "$6$ab$qqq"))
                   (bs "$6$ab$xyz") (Some (bs "pv")) = false.
Proof. split; reflexivity. Qed.
Example c32_case_locked : get_pwd_hash 20000 (Some (mkPw (bs "x") (Some (mkSh (Some (bs "!")) (-1))))) = None.
Proof. reflexivity. Qed.

(* ------------------------------------------------------------------ *)
(** ** C33: comparing keys *)

(** Length field of the SSH wire format. *)
Definition len4 (n : N) : bytes :=
  map ascii_of_N [n / 16777216 mod 256; n / 65536 mod 256; n / 256 mod 256; n mod 256].

Definition key_names : list (bytes * keytype) :=
  [(bs "ssh-rsa", KRsa); (bs "ecdsa-sha2-nistp256", KP256); (bs "ecdsa-sha2-nistp384", KP384);
   (bs "ecdsa-sha2-nistp521", KP521); (bs "ssh-ed25519", KEd25519)].

Section C33.
Variable key : Type.
Variable decode : bytes -> option bytes.
Variable import : bytes -> keytype -> option key.

(** The configured text [b64] is the public key [k]. *)
Definition denotes (b64 : bytes) (k : key) : Prop :=
  exists name t rest, decode b64 = Some (len4 (lenN name) ++ name ++ rest)
    /\ In (name, t) key_names /\ import b64 t = Some k.

(** Either not base64 at all, or data starting with a type name; the name is not a shortened form of one of
    the known names (an empty name would be one). *)
Definition well_formed (b64 : bytes) : Prop :=
  decode b64 = None
  \/ exists name rest, decode b64 = Some (len4 (lenN name) ++ name ++ rest)
       /\ lenN name < 4294967296 /\ ~ In NUL name
       /\ forall full, In full (bs "ssh-dss" :: map fst key_names) -> prefix name full -> name = full.

Lemma be32_len4 n r : n < 4294967296 -> be32 (len4 n ++ r) = n.
Proof.
  intros H. unfold be32, len4. cbn [map app firstn fold_left].
  rewrite !N_ascii_embedding by (apply N.mod_upper_bound; lia).
  pose proof (N.div_mod n 256 ltac:(lia)). pose proof (N.div_mod (n / 256) 256 ltac:(lia)).
  pose proof (N.div_mod (n / 65536) 256 ltac:(lia)).
  assert (n / 256 / 256 = n / 65536) by (rewrite N.div_div by lia; reflexivity).
  assert (n / 65536 / 256 = n / 16777216) by (rewrite N.div_div by lia; reflexivity).
  assert (n / 16777216 < 256) by (apply N.div_lt_upper_bound; lia).
  rewrite (N.mod_small (n / 16777216)) by assumption. lia.
Qed.

Lemma strncmp_name name rest lit : ~ In NUL name -> (length lit <= 19)%nat ->
  strncmp_buf (name ++ rest) lit (Nat.min 20 (length name)) = Some (prefixb name lit).
Proof.
  intros Z. assert (G : forall n lit, (length lit < n)%nat ->
     strncmp_buf (name ++ rest) lit (Nat.min n (length name)) = Some (prefixb name lit)).
  { clear lit. revert Z. induction name as [|x name IH]; intros Z n lit L.
    - rewrite Nat.min_0_r. reflexivity.
    - destruct n as [|n]; [lia|]. cbn [length Nat.min app strncmp_buf prefixb]. destruct lit as [|y lit].
      + destruct (Ascii.eqb_spec x NUL) as [->|]; [exfalso; apply Z; left; reflexivity|reflexivity].
      + cbn [length] in L. destruct (Ascii.eqb x y); [|reflexivity]. cbn [andb].
        apply IH; [intros H; apply Z; right; exact H|lia]. }
  intros L. apply G. lia.
Qed.

Lemma to_nat_min (name : bytes) : N.to_nat (N.min 20 (lenN name)) = Nat.min 20 (length name).
Proof. unfold lenN. rewrite N2Nat.inj_min. rewrite Nat2N.id. reflexivity. Qed.

(** The type found is the one with that very name. *)
Lemma find_type_exact name rest l :
  ~ In NUL name -> Forall (fun p => (length (fst p) <= 19)%nat) l ->
  (forall full, In full (map fst l) -> prefix name full -> name = full) ->
  find_type (name ++ rest) (Nat.min 20 (length name)) l
  = Some (match find (fun p => beqb name (fst p)) l with Some (_, t) => t | None => None end).
Proof.
  intros Z F P. induction F as [|[n t] l Hn F IH]; [reflexivity|].
  cbn [find_type find fst]. cbn [fst] in Hn. rewrite strncmp_name by assumption.
  destruct (prefixb name n) eqn:Q.
  - apply prefixb_spec in Q. rewrite (P n (or_introl eq_refl) Q), beqb_refl. reflexivity.
  - destruct (beqb name n) eqn:B.
    + apply beqb_spec in B. subst. assert (prefixb n n = true) by (apply prefixb_spec; exists []; now rewrite app_nil_r).
      congruence.
    + apply IH. intros full I. apply P. right. exact I.
Qed.

Lemma lens : Forall (fun p : bytes * option keytype => (length (fst p) <= 19)%nat) known_types.
Proof. repeat constructor. Qed.

Lemma create_spec b64 : well_formed b64 ->
  create_ssh_pubkey key decode import b64 <> PUb
  /\ forall k, create_ssh_pubkey key decode import b64 = POk k <-> denotes b64 k.
Proof.
  intros W. unfold create_ssh_pubkey, denotes. destruct W as [W | (name & rest & W & L & Z & P)].
  - rewrite W. split; [discriminate|]. intros k. split; [discriminate|].
    intros (? & ? & ? & E & _). discriminate.
  - rewrite W.
    destruct (N.ltb_spec (lenN (len4 (lenN name) ++ name ++ rest)) 4) as [C|_].
    { exfalso. revert C. unfold lenN at 1. rewrite app_length. cbn [length len4 map]. lia. }
    rewrite be32_len4 by exact L.
    change (skipn 4 (len4 (lenN name) ++ name ++ rest)) with (name ++ rest).
    rewrite to_nat_min, find_type_exact; [|exact Z|exact lens|].
    2:{ intros full I. apply P. cbn [known_types map fst In] in I. cbn [key_names map fst In]. tauto. }
    split.
    { destruct (find _ _) as [[? [t|]]|]; [|discriminate|discriminate]. destruct (import b64 t); discriminate. }
    intros k. split.
    + destruct (find (fun p => beqb name (fst p)) known_types) as [[n [t|]]|] eqn:F; [|discriminate|discriminate].
      destruct (import b64 t) as [k'|] eqn:I; [|discriminate]. intros [= <-].
      apply find_some in F. destruct F as [F E]. cbn [fst] in E. apply beqb_spec in E. subst n.
      exists name, t, rest. split; [reflexivity|]. split; [|exact I].
      cbn [known_types In] in F. cbn [key_names In].
      repeat (destruct F as [F|F]; [first [discriminate F | injection F as <- <-; tauto]|]). destruct F.
    + intros (n & t & r & E & I & K).
      assert (Ln : lenN n < 4294967296).
      { cbn [key_names In] in I. repeat (destruct I as [I|I]; [injection I as <- <-; reflexivity|]). destruct I. }
      apply (f_equal (fun o => match o with Some x => x | None => [] end)) in E. cbv beta iota in E.
      assert (EL : lenN name = lenN n).
      { rewrite <- (be32_len4 (lenN name) (name ++ rest) L), <- (be32_len4 (lenN n) (n ++ r) Ln), E. reflexivity. }
      rewrite EL in E. apply app_inv_head in E.
      assert (EN : name = n).
      { unfold lenN in EL. apply Nat2N.inj in EL. clear - E EL. revert n E EL. induction name as [|x name IH]; intros [|y n] E EL;
          try discriminate; [reflexivity|]. cbn [app] in E. injection E as -> E. cbn [length] in EL. f_equal. apply IH; [exact E|lia]. }
      subst n. cbn [key_names In] in I.
      repeat (destruct I as [I|I]; [injection I as <- <-; cbn; rewrite K; reflexivity|]). destruct I.
Qed.

(** A key is accepted exactly if it is one of those configured; unparsable ones are passed over. *)
Theorem c33_key_partial (keycmp : key -> key -> bool) k keys :
  (forall a b, keycmp a b = true <-> a = b) ->
  Forall well_formed keys ->
  compare_key key decode import keycmp k keys = POk true <-> exists b, In b keys /\ denotes b k.
Proof.
  intros KC W. induction W as [|b keys Hb W IH]; cbn [compare_key].
  - split; [discriminate|intros (b & [] & _)].
  - destruct (create_spec b Hb) as [NU D]. destruct (create_ssh_pubkey key decode import b) as [k'| |] eqn:C; [| |congruence].
    + destruct (keycmp k k') eqn:Q.
      * apply KC in Q. subst k'. split; [|reflexivity]. intros _. exists b. split; [left; reflexivity|]. apply D. reflexivity.
      * rewrite IH. split.
        { intros (b' & I & X). exists b'. split; [right; exact I|exact X]. }
        intros (b' & [-> | I] & X); [|exists b'; auto]. apply D in X. injection X as ->.
        assert (keycmp k k = true) by (apply KC; reflexivity). congruence.
    + rewrite IH. split.
      * intros (b' & I & X). exists b'. split; [right; exact I|exact X].
      * intros (b' & [-> | I] & X); [|exists b'; auto]. apply D in X. discriminate.
Qed.

Theorem c33_key_defined (keycmp : key -> key -> bool) k keys :
  Forall well_formed keys -> compare_key key decode import keycmp k keys <> PUb.
Proof.
  intros W. induction W as [|b keys Hb W IH]; cbn [compare_key]; [discriminate|].
  destruct (create_spec b Hb) as [NU _]. destruct (create_ssh_pubkey key decode import b); [|exact IH|congruence].
  destruct (keycmp _ _); [discriminate|exact IH].
Qed.

(** Configured data of fewer than four bytes (such as the empty text, which c48_blanks_refuted produces) is
    read past its end. *)
Theorem c33_short_refuted (keycmp : key -> key -> bool) k b64 bin keys :
  decode b64 = Some bin -> lenN bin < 4 ->
  compare_key key decode import keycmp k (b64 :: keys) = PUb.
Proof.
  intros D L. cbn [compare_key]. unfold create_ssh_pubkey. rewrite D.
  apply N.ltb_lt in L. rewrite L. reflexivity.
Qed.

(** Data announcing a longer name than it has, so far matching a known one, as well. *)
Theorem c33_cut_refuted (keycmp : key -> key -> bool) k b64 keys :
  decode b64 = Some (len4 7 ++ bs "ssh") ->
  compare_key key decode import keycmp k (b64 :: keys) = PUb.
Proof. intros D. cbn [compare_key]. unfold create_ssh_pubkey. rewrite D. reflexivity. Qed.

(** A shortened type name is taken for the whole one. *)
Theorem c33_short_name_refuted (keycmp : key -> key -> bool) k b64 rest keys :
  (forall a, keycmp a a = true) ->
  decode b64 = Some (len4 5 ++ bs "ssh-r" ++ rest) -> import b64 KRsa = Some k ->
  compare_key key decode import keycmp k (b64 :: keys) = POk true /\ ~ denotes b64 k.
Proof.
  intros KC D I. split.
  - cbn [compare_key]. unfold create_ssh_pubkey. rewrite D.
    replace (lenN (len4 5 ++ bs "ssh-r" ++ rest) <? 4) with false.
    2:{ symmetry. apply N.ltb_ge. unfold lenN. rewrite app_length. cbn [length len4 map]. lia. }
    rewrite be32_len4 by reflexivity. 
    replace (find_type _ _ _) with (Some (Some KRsa)) by reflexivity. rewrite I, KC. reflexivity.
  - intros (name & t & r & E & In_ & _). rewrite D in E. cbn [key_names In] in In_.
    repeat (destruct In_ as [In_|In_]; [injection In_ as <- <-; discriminate E|]). destruct In_.
Qed.
End C33.

(** One RSA key, one text that is no base64, one of an unknown type; the key is found. *)
Definition ex_decode (b : bytes) : option bytes :=
  if beqb b (bs "A") then Some (len4 7 ++ bs "ssh-rsa" ++ bs "xyz")
  else if beqb b (bs "B") then Some (len4 4 ++ bs "what" ++ bs "xyz") else None.
Example c33_case : compare_key N ex_decode (fun b _ => if beqb b (bs "A") then Some 5 else None) N.eqb 5
    [bs "?"; bs "B"; bs "A"] = POk true
  /\ Forall (well_formed ex_decode) [bs "?"; bs "B"; bs "A"].
Proof.
  split; [vm_compute; reflexivity|]. constructor; [left; reflexivity|]. constructor; [right|].
  - exists (bs "what"), (bs "xyz"). split; [reflexivity|]. split; [reflexivity|].
    split; [intros H; cbn [In bs list_ascii_of_string] in H; intuition discriminate|].
    intros full I P. cbn [key_names map fst In] in I.
    repeat (destruct I as [I|I]; [subst; destruct P as [r P]; discriminate P|]). destruct I.
  - constructor; [right|constructor]. exists (bs "ssh-rsa"), (bs "xyz"). split; [reflexivity|]. split; [reflexivity|].
    split; [intros H; cbn [In bs list_ascii_of_string] in H; intuition discriminate|].
    intros full I P. cbn [key_names map fst In] in I.
    repeat (destruct I as [I|I]; [subst; destruct P as [r P]; first [reflexivity|discriminate P]|]). destruct I.
Qed.

Print Assumptions c48_keys_general.
Print Assumptions c48_keys_partial.
Print Assumptions c48_count_refuted.
Print Assumptions c48_blanks_refuted.
Print Assumptions c48_leading_blank_refuted.
Print Assumptions c48_last_line_refuted.
Print Assumptions c32_password.
Print Assumptions c32_system_password.
Print Assumptions c33_key_partial.
Print Assumptions c33_key_defined.
Print Assumptions c33_short_refuted.
Print Assumptions c33_cut_refuted.
Print Assumptions c33_short_name_refuted.
