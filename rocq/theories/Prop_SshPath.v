(** C34: expansion of the path of the authorized keys file. *)
From Coq Require Import Ascii String NArith ZArith Bool Lia List.
From Verif Require Import Bytes CStr ClientMsgs SshKeys.
Import ListNotations.
Local Open Scope N_scope.

(* ------------------------------------------------------------------ *)
(** ** Specification *)

(** What the format means for a user with the given home, name and uid (in decimal). *)
Inductive expands (home user uid : bytes) : bytes -> bytes -> Prop :=
| ex_nil : expands home user uid [] []
| ex_char c f p : c <> "%"%char -> expands home user uid f p -> expands home user uid (c :: f) (c :: p)
| ex_home f p : expands home user uid f p -> expands home user uid (bs "%h" ++ f) (home ++ p)
| ex_user f p : expands home user uid f p -> expands home user uid (bs "%u" ++ f) (user ++ p)
| ex_uid f p : expands home user uid f p -> expands home user uid (bs "%U" ++ f) (uid ++ p)
| ex_pct f p : expands home user uid f p -> expands home user uid (bs "%%" ++ f) ("%"%char :: p).

(** A decimal number, without leading zeros: the text of a uid. *)
Definition decimal_of (n : N) (s : bytes) : Prop := s = dec n.

Definition enough_memory (alloc : N -> bool) : Prop := forall n, alloc n = true.

(* ------------------------------------------------------------------ *)
(** ** Appending *)

Lemma grow_spec fuel need size : (N.to_nat need < fuel + N.to_nat size)%nat -> need <= INT_MAX - 16 ->
  size <= need + 16 ->
  exists s, grow fuel need size = Some s /\ need < s /\ size <= s /\ s <= need + 16.
Proof.
  revert size; induction fuel as [|f IH]; intros size F L S; cbn [grow].
  - destruct (N.ltb_spec need size); [|lia]. exists size. split; [reflexivity|lia].
  - destruct (N.ltb_spec need size); [exists size; split; [reflexivity|lia]|].
    destruct (N.ltb_spec INT_MAX (size + 16)); [unfold INT_MAX in *; lia|].
    destruct (IH (size + 16)) as (s & E & H1 & H2 & H3); [lia|assumption|lia|].
    exists s. repeat split; try assumption; lia.
Qed.

Lemma grow_above fuel need size s : grow fuel need size = Some s -> need < s.
Proof.
  revert size; induction fuel as [|f IH]; intros size; cbn [grow]; destruct (N.ltb_spec need size).
  - intros [= <-]. assumption.
  - discriminate.
  - intros [= <-]. assumption.
  - destruct (INT_MAX <? size + 16); [discriminate|]. apply IH.
Qed.

(** The size never exceeds the text by more than 16. *)
Definition tight (b : pbuf) : Prop := pb_size b <= lenN (pb_str b) + 16.

Lemma lenN_app {A} (a b : list A) : lenN (a ++ b) = lenN a + lenN b.
Proof. unfold lenN. rewrite app_length. lia. Qed.

Lemma append_ok alloc s b : enough_memory alloc -> tight b -> lenN (pb_str b) + lenN s <= INT_MAX - 16 ->
  exists size, str_append alloc s b = POk (mkPb size (pb_str b ++ s)) /\ tight (mkPb size (pb_str b ++ s)).
Proof.
  intros M T L. unfold str_append, tight in *.
  destruct (N.ltb_spec INT_MAX (lenN s + lenN (pb_str b))); [unfold INT_MAX in *; lia|].
  destruct (grow_spec (S (N.to_nat (lenN s + lenN (pb_str b)))) (lenN s + lenN (pb_str b)) (pb_size b))
    as (sz & -> & H1 & H2 & H3); [lia|lia|lia|].
  rewrite M, andb_false_r. destruct (N.ltb_spec sz (lenN (pb_str b) + lenN s + 1)); [lia|].
  exists sz. split; [reflexivity|]. cbn [pb_size pb_str]. rewrite lenN_app. lia.
Qed.

(* ------------------------------------------------------------------ *)
(** ** The loop *)

Lemma loop_expands alloc home user uid f p b : enough_memory alloc -> expands home user uid f p -> tight b ->
  lenN (pb_str b) + lenN p <= INT_MAX - 16 ->
  exists size, path_loop alloc home user uid f false b = POk (mkPb size (pb_str b ++ p)).
Proof.
  intros M X; revert b; induction X as [|c f p C X IH|f p X IH|f p X IH|f p X IH|f p X IH]; intros b T L.
  - exists (pb_size b). rewrite app_nil_r. destruct b; reflexivity.
  - cbn [path_loop]. apply Ascii.eqb_neq in C. unfold PCT. rewrite C.
    replace (lenN (c :: p)) with (1 + lenN p) in L by (unfold lenN; cbn [length]; lia).
    destruct (append_ok alloc [c] b M T) as (z & -> & T'); [unfold lenN in *; cbn [length]; lia|].
    destruct (IH (mkPb z (pb_str b ++ [c])) T') as (z' & ->);
      [cbn [pb_str]; rewrite lenN_app; unfold lenN in *; cbn [length]; lia|].
    exists z'. cbn [pb_str]. rewrite <- app_assoc. reflexivity.
  - cbn [bs list_ascii_of_string app path_loop]. unfold PCT. cbn [Ascii.eqb Bool.eqb andb].
    rewrite lenN_app in L.
    destruct (append_ok alloc home b M T) as (z & -> & T'); [lia|].
    destruct (IH (mkPb z (pb_str b ++ home)) T') as (z' & ->); [cbn [pb_str]; rewrite lenN_app; lia|].
    exists z'. cbn [pb_str]. rewrite <- app_assoc. reflexivity.
  - cbn [bs list_ascii_of_string app path_loop]. unfold PCT. cbn [Ascii.eqb Bool.eqb andb].
    rewrite lenN_app in L.
    destruct (append_ok alloc user b M T) as (z & -> & T'); [lia|].
    destruct (IH (mkPb z (pb_str b ++ user)) T') as (z' & ->); [cbn [pb_str]; rewrite lenN_app; lia|].
    exists z'. cbn [pb_str]. rewrite <- app_assoc. reflexivity.
  - cbn [bs list_ascii_of_string app path_loop]. unfold PCT. cbn [Ascii.eqb Bool.eqb andb].
    rewrite lenN_app in L.
    destruct (append_ok alloc uid b M T) as (z & -> & T'); [lia|].
    destruct (IH (mkPb z (pb_str b ++ uid)) T') as (z' & ->); [cbn [pb_str]; rewrite lenN_app; lia|].
    exists z'. cbn [pb_str]. rewrite <- app_assoc. reflexivity.
  - cbn [bs list_ascii_of_string app path_loop]. unfold PCT. cbn [Ascii.eqb Bool.eqb andb].
    replace (lenN ("%"%char :: p)) with (1 + lenN p) in L by (unfold lenN; cbn [length]; lia).
    destruct (append_ok alloc ["%"%char] b M T) as (z & -> & T'); [unfold lenN in *; cbn [length]; lia|].
    destruct (IH (mkPb z (pb_str b ++ ["%"%char])) T') as (z' & ->);
      [cbn [pb_str]; rewrite lenN_app; unfold lenN in *; cbn [length]; lia|].
    exists z'. cbn [pb_str]. rewrite <- app_assoc. reflexivity.
Qed.

Lemma append_content alloc s b b' : str_append alloc s b = POk b' ->
  pb_str b' = pb_str b ++ s /\ lenN (pb_str b') < pb_size b'.
Proof.
  unfold str_append. destruct (_ <? _); [discriminate|]. destruct (grow _ _ _) as [z|] eqn:E; [|discriminate].
  destruct (_ && _); [discriminate|]. destruct (_ <? _); [discriminate|]. intros [= <-]. cbn [pb_str pb_size].
  apply grow_above in E. rewrite lenN_app. split; [reflexivity|lia].
Qed.

(** A result comes from a format that means it, except that a last lone percent sign is dropped. *)
Lemma loop_sound alloc home user uid n : forall f b b', (length f <= n)%nat ->
  path_loop alloc home user uid f false b = POk b' ->
  exists g p, expands home user uid g p /\ (f = g \/ f = g ++ [PCT]) /\ pb_str b' = pb_str b ++ p.
Proof.
  induction n as [|n IH]; intros f b b' L.
  - destruct f; [|cbn in L; lia]. intros [= <-]. exists [], []. split; [constructor|].
    split; [left; reflexivity|]. now rewrite app_nil_r.
  - destruct f as [|c f].
    { intros [= <-]. exists [], []. split; [constructor|]. split; [left; reflexivity|]. now rewrite app_nil_r. }
    cbn [path_loop]. destruct (Ascii.eqb_spec c PCT) as [->|C].
    + destruct f as [|d f].
      { cbn [path_loop]. intros [= <-]. exists [], []. split; [constructor|]. split; [right; reflexivity|].
        now rewrite app_nil_r. }
      cbn [path_loop]. cbn [length] in L.
      destruct (Ascii.eqb_spec d PCT) as [->|D1].
      { destruct (str_append alloc [PCT] b) as [b1| |] eqn:A; [|discriminate|discriminate]. intros R.
        apply IH in R; [|lia]. destruct R as (g & p & X & F & P). apply append_content in A. destruct A as [A _].
        exists (bs "%%" ++ g), (PCT :: p). split; [apply ex_pct; exact X|]. split.
        - destruct F as [-> | ->]; [left|right]; reflexivity.
        - rewrite P, A, <- app_assoc. reflexivity. }
      destruct (Ascii.eqb_spec d "h") as [->|D2].
      { destruct (str_append alloc home b) as [b1| |] eqn:A; [|discriminate|discriminate]. intros R.
        apply IH in R; [|lia]. destruct R as (g & p & X & F & P). apply append_content in A. destruct A as [A _].
        exists (bs "%h" ++ g), (home ++ p). split; [apply ex_home; exact X|]. split.
        - destruct F as [-> | ->]; [left|right]; reflexivity.
        - rewrite P, A, <- app_assoc. reflexivity. }
      destruct (Ascii.eqb_spec d "u") as [->|D3].
      { destruct (str_append alloc user b) as [b1| |] eqn:A; [|discriminate|discriminate]. intros R.
        apply IH in R; [|lia]. destruct R as (g & p & X & F & P). apply append_content in A. destruct A as [A _].
        exists (bs "%u" ++ g), (user ++ p). split; [apply ex_user; exact X|]. split.
        - destruct F as [-> | ->]; [left|right]; reflexivity.
        - rewrite P, A, <- app_assoc. reflexivity. }
      destruct (Ascii.eqb_spec d "U") as [->|D4]; [|discriminate].
      destruct (str_append alloc uid b) as [b1| |] eqn:A; [|discriminate|discriminate]. intros R.
      apply IH in R; [|lia]. destruct R as (g & p & X & F & P). apply append_content in A. destruct A as [A _].
      exists (bs "%U" ++ g), (uid ++ p). split; [apply ex_uid; exact X|]. split.
      * destruct F as [-> | ->]; [left|right]; reflexivity.
      * rewrite P, A, <- app_assoc. reflexivity.
    + destruct (str_append alloc [c] b) as [b1| |] eqn:A; [|discriminate|discriminate]. intros R.
      cbn [length] in L.
      apply IH in R; [|lia]. destruct R as (g & p & X & F & P). apply append_content in A. destruct A as [A _].
      exists (c :: g), (c :: p). split; [apply ex_char; assumption|]. split.
      * destruct F as [-> | ->]; [left|right]; reflexivity.
      * rewrite P, A, <- app_assoc. reflexivity.
Qed.

(* ------------------------------------------------------------------ *)
(** ** The test for tokens *)

Lemma has_here pat s r : s = bs pat ++ r -> has pat s = true.
Proof.
  intros ->. unfold has. assert (P : prefixb (bs pat) (bs pat ++ r) = true) by (apply prefixb_spec; now exists r).
  destruct (bs pat ++ r) as [|x l] eqn:E; cbn [strstr]; rewrite P; reflexivity.
Qed.

Lemma has_later pat c s : has pat s = true -> has pat (c :: s) = true.
Proof.
  unfold has. cbn [strstr]. destruct (prefixb _ _); [reflexivity|]. auto.
Qed.

Lemma has_in pat s : has pat s = true -> exists a r, s = a ++ bs pat ++ r.
Proof.
  unfold has. induction s as [|c s IH]; cbn [strstr].
  - destruct (prefixb (bs pat) []) eqn:P; [|discriminate]. intros _. apply prefixb_spec in P.
    destruct P as [r P]. exists [], r. exact P.
  - destruct (prefixb (bs pat) (c :: s)) eqn:P.
    + intros _. apply prefixb_spec in P. destruct P as [r P]. exists [], r. exact P.
    + intros H. destruct (IH H) as (a & r & ->). exists (c :: a), r. reflexivity.
Qed.

Definition tokens (f : bytes) : bool := has "%h" f || has "%U" f || has "%u" f || has "%%" f.

Lemma expands_tokens home user uid f p : expands home user uid f p ->
  tokens f = true \/ (f = p /\ ~ In "%"%char f).
Proof.
  unfold tokens.
  intros X; induction X as [|c f p C X IH|f p X IH|f p X IH|f p X IH|f p X IH].
  - right. split; [reflexivity|intros []].
  - destruct IH as [IH|[-> N]].
    + left. rewrite !orb_true_iff in *. intuition auto using has_later.
    + right. split; [reflexivity|]. intros [E|E]; [congruence|auto].
  - left. rewrite (has_here "%h" _ f eq_refl). reflexivity.
  - left. rewrite (has_here "%u" _ f eq_refl), !orb_true_r. reflexivity.
  - left. rewrite (has_here "%U" _ f eq_refl), !orb_true_r. reflexivity.
  - left. rewrite (has_here "%%" _ f eq_refl), !orb_true_r. reflexivity.
Qed.

(* ------------------------------------------------------------------ *)
(** ** Theorems *)

(** Every meaningful format is expanded as specified, if the user is known (which matters only if there is
    something to replace) and the path is shorter than two gigabytes. *)
Theorem c34_expansion_partial alloc home uid fmt user p :
  enough_memory alloc ->
  lenN p <= INT_MAX - 16 ->
  (forall uids, decimal_of uid uids -> expands home user uids fmt p) ->
  system_keys_path alloc (Some (home, uid)) (Some fmt) user = POk p.
Proof.
  intros M L X. specialize (X (dec uid) eq_refl). unfold system_keys_path.
  destruct (expands_tokens _ _ _ _ _ X) as [T|[-> N]].
  - unfold tokens in T. rewrite T.
    destruct (loop_expands alloc _ _ _ _ _ (mkPb 0 []) M X) as (z & ->).
    + unfold tight. cbn. lia.
    + cbn [pb_str]. change (lenN []) with 0. lia.
    + reflexivity.
  - replace (has "%h" p || has "%U" p || has "%u" p || has "%%" p) with false; [reflexivity|].
    symmetry. apply not_true_is_false. intros T. apply N.
    rewrite !orb_true_iff in T.
    destruct T as [[[T|T]|T]|T]; apply has_in in T; destruct T as (a & r & ->);
      apply in_or_app; right; left; reflexivity.
Qed.

(** Conversely, whatever path is returned is the meaning of the format, or the format has no token at all
    and is taken as it is, or it ends with a lone percent sign that is dropped; in every state of memory.  In
    particular a bad token anywhere in a format that has a good one is refused. *)
Theorem c34_rejection_partial alloc home uid fmt user p :
  system_keys_path alloc (Some (home, uid)) (Some fmt) user = POk p ->
  expands home user (dec uid) fmt p
  \/ (exists g, fmt = g ++ bs "%" /\ expands home user (dec uid) g p)
  \/ (p = fmt /\ forall t, In t ["%h"; "%u"; "%U"; "%%"]%string -> ~ exists a r, fmt = a ++ bs t ++ r).
Proof.
  unfold system_keys_path.
  destruct (has "%h" fmt || has "%U" fmt || has "%u" fmt || has "%%" fmt) eqn:T.
  - destruct (path_loop _ _ _ _ _ _ _) as [b| |] eqn:R; [|discriminate|discriminate]. intros [= <-].
    apply (loop_sound _ _ _ _ (length fmt)) in R; [|lia]. destruct R as (g & q & X & F & ->).
    cbn [pb_str app] in *. destruct F as [-> | ->]; [left; exact X|right; left].
    exists g. split; [reflexivity|exact X].
  - intros [= <-]. right; right. split; [reflexivity|]. intros t I (a & r & E).
    assert (H : has t fmt = true).
    { rewrite E. clear. induction a as [|c a IH]; [apply (has_here t _ r eq_refl)|cbn [app]; now apply has_later]. }
    rewrite !orb_false_iff in T. cbn [In] in I. intuition (subst; congruence).
Qed.

Lemma append_no_ub alloc s b :
  lenN s + lenN (pb_str b) <= INT_MAX - 16 ->
  str_append alloc s b <> PUb.
Proof.
  intros L. unfold str_append.
  destruct (N.ltb_spec INT_MAX (lenN s + lenN (pb_str b))); [unfold INT_MAX in *; lia|].
  assert (G : forall fuel need size, (N.to_nat need < fuel + N.to_nat size)%nat -> need <= INT_MAX - 16 ->
              exists z, grow fuel need size = Some z).
  { clear. induction fuel as [|f IH]; intros need size F L; cbn [grow];
      (destruct (N.ltb_spec need size); [eexists; reflexivity|]); [lia|].
    destruct (N.ltb_spec INT_MAX (size + 16)); [unfold INT_MAX in *; lia|]. apply IH; [lia|assumption]. }
  destruct (G (S (N.to_nat (lenN s + lenN (pb_str b)))) (lenN s + lenN (pb_str b)) (pb_size b)) as (z & E); [lia|lia|].
  rewrite E. apply grow_above in E. destruct (_ && _); [discriminate|].
  destruct (N.ltb_spec z (lenN (pb_str b) + lenN s + 1)); [lia|]. discriminate.
Qed.


Lemma loop_no_ub alloc home user uid f : forall hp b,
  lenN (pb_str b) + lenN f * (lenN home + lenN user + lenN uid + 1) <= INT_MAX - 16 ->
  path_loop alloc home user uid f hp b <> PUb.
Proof.
  induction f as [|c f IH]; intros hp b L; [discriminate|].
  replace (lenN (c :: f)) with (1 + lenN f) in L by (unfold lenN; cbn [length]; lia).
  set (K := lenN home + lenN user + lenN uid + 1) in *.
  assert (A : forall s, lenN s <= K -> match str_append alloc s b with
            | POk b' => path_loop alloc home user uid f false b' | PErr => PErr | PUb => PUb end <> PUb).
  { intros s Ls. destruct (str_append alloc s b) as [b'| |] eqn:E; [|discriminate|].
    - apply append_content in E. destruct E as [E _]. apply IH. rewrite E, lenN_app. lia.
    - exfalso. revert E. apply append_no_ub. lia. }
  cbn [path_loop]. destruct hp.
  - destruct (Ascii.eqb c PCT); [apply A; unfold K, lenN; cbn [length]; lia|].
    destruct (Ascii.eqb c "h"); [apply A; lia|].
    destruct (Ascii.eqb c "u"); [apply A; lia|].
    destruct (Ascii.eqb c "U"); [apply A; lia|discriminate].
  - destruct (Ascii.eqb c PCT); [apply IH; lia|]. apply A. unfold K, lenN; cbn [length]; lia.
Qed.

(** The writes stay within the buffer, for every format (meaningful or not) and in every state of memory;
    the only way to go wrong is two gigabytes of text. *)
Theorem c34_no_overflow alloc pw fmt user :
  (forall home uid f, pw = Some (home, uid) -> fmt = Some f ->
     lenN f * (lenN home + lenN user + lenN (dec uid) + 1) <= INT_MAX - 16) ->
  system_keys_path alloc pw fmt user <> PUb.
Proof.
  intros L. unfold system_keys_path. destruct fmt as [f|]; [|discriminate].
  destruct (_ || _); [|discriminate]. destruct pw as [[home uid]|]; [|discriminate].
  specialize (L home uid f eq_refl eq_refl).
  pose proof (loop_no_ub alloc home user (dec uid) f false (mkPb 0 [])) as H. cbn [pb_str] in H.
  change (lenN []) with 0 in H. specialize (H L). destruct (path_loop _ _ _ _ _ _ _); congruence.
Qed.

(** "A format with any other token is rejected" is false: with no other token in it such a format is the
    path. *)
Theorem c34_bad_token_refuted :
  exists fmt, ~ (exists home user uid p, expands home user uid fmt p)
              /\ forall alloc pw user, system_keys_path alloc pw (Some fmt) user = POk fmt.
Proof.
  exists (bs "/keys/%x"). split.
  - intros (home & user & uid & p & X).
    repeat match goal with H : expands _ _ _ (bs _) _ |- _ => cbn [bs list_ascii_of_string] in H
           | H : expands _ _ _ (_ :: _) _ |- _ => inversion H; clear H; subst end.
    congruence.
  - intros. reflexivity.
Qed.

(** A percent sign at the end disappears. *)
Theorem c34_lone_percent_refuted :
  exists fmt p home user uid, ~ (exists q, expands home user (dec uid) fmt q)
     /\ system_keys_path (fun _ => true) (Some (home, uid)) (Some fmt) user = POk p.
Proof.
  exists (bs "%h%"), (bs "/root"), (bs "/root"), (bs "root"), 0. split; [|vm_compute; reflexivity].
  intros (q & X). cbn [bs list_ascii_of_string] in X.
  inversion X as [|c f p C X'|f p X'|f p X'|f p X'|f p X']; subst; [congruence|].
  inversion X' as [|c f0 p0 C X''|f0 p0 X''|f0 p0 X''|f0 p0 X''|f0 p0 X'']; subst. congruence.
Qed.

Example c34_case : system_keys_path (fun _ => true) (Some (bs "/home/joe", 1000)) (Some (bs "%h/keys/%u-%U/100%%")) (bs "joe")
  = POk (bs "/home/joe/keys/joe-1000/100%").
Proof. vm_compute. reflexivity. Qed.
Example c34_case_refused : system_keys_path (fun _ => true) (Some (bs "/home/joe", 1000)) (Some (bs "%h/%x")) (bs "joe") = PErr.
Proof. vm_compute. reflexivity. Qed.
Example c34_case_meaning : expands (bs "/h") (bs "u") (bs "7") (bs "a%h%U%%") (bs "a/h7%").
Proof. apply ex_char; [discriminate|]. apply (ex_home (bs "/h") (bs "u") (bs "7") (bs "%U%%") (bs "7%")).
  apply (ex_uid (bs "/h") (bs "u") (bs "7") (bs "%%") (bs "%")). apply (ex_pct (bs "/h") (bs "u") (bs "7") [] []). constructor. Qed.

Print Assumptions c34_expansion_partial.
Print Assumptions c34_rejection_partial.
Print Assumptions c34_no_overflow.
Print Assumptions c34_bad_token_refuted.
Print Assumptions c34_lone_percent_refuted.
