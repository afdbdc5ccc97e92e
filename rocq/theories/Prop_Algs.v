(** C75-C78: lists of SSH algorithms, cipher suites, TLS versions and cert-to-name entries follow the configuration. *)
From Coq Require Import String Ascii NArith Arith Bool List Lia Sorted.
From Verif Require Import Bytes CStr Algs.
Import ListNotations.
Local Open Scope list_scope.

(* ------------------------------------------------------------------ *)
(** ** Specification *)

(** Names separated by a character. *)
Fixpoint joined (d : ascii) (l : list bytes) : bytes :=
  match l with [] => [] | [x] => x | x :: r => x ++ d :: joined d r end.
(** What is handed to the library for a configured list: nothing if nothing is configured, then the library uses its default. *)
Definition text (d : ascii) (l : list bytes) : option bytes := match l with [] => None | _ => Some (joined d l) end.
Definition contains (x e : bytes) : Prop := exists a b, e = a ++ x ++ b.
Definition name_ok (x : bytes) : Prop := x <> [] /\ ~ In ","%char x.

(* ------------------------------------------------------------------ *)
(** ** Lemmas *)

Lemma joined_cons d x l : l <> [] -> joined d (x :: l) = x ++ d :: joined d l.
Proof. destruct l; [congruence | reflexivity]. Qed.
Lemma joined_snoc d l x : l <> [] -> joined d (l ++ [x]) = joined d l ++ d :: x.
Proof.
  induction l as [|y l IH]; [congruence|]. intros _. destruct l as [|z l].
  - reflexivity.
  - cbn [app]. rewrite joined_cons by discriminate. rewrite (joined_cons d y (z :: l)) by discriminate.
    change (z :: l ++ [x]) with ((z :: l) ++ [x]). rewrite IH by discriminate. rewrite <- app_assoc. reflexivity.
Qed.
Lemma text_snoc d l x : append (text d l) x d = text d (l ++ [x]).
Proof.
  destruct l as [|y l]; [reflexivity|]. unfold text at 1. cbn [append]. change ((y :: l) ++ [x]) with (y :: l ++ [x]) at 1.
  unfold text. cbn [app]. change (y :: l ++ [x]) with ((y :: l) ++ [x]). rewrite joined_snoc by discriminate. reflexivity.
Qed.
Lemma prefixb_self x s : prefixb x (x ++ s) = true.
Proof. apply prefixb_spec. exists s. reflexivity. Qed.
(** A text without the separator that starts before it ends before it. *)
Lemma prefix_before d x : forall e r, ~ In d x -> prefix x (e ++ d :: r) -> prefix x e.
Proof.
  induction x as [|c x IH]; intros e r N [t H]; [exists e; reflexivity|].
  destruct e as [|y e]; cbn in H; injection H as -> H.
  - exfalso. apply N. left; reflexivity.
  - destruct (IH e r) as [u ->]; [intros X; apply N; right; exact X | exists t; exact H |]. exists u. reflexivity.
Qed.
Lemma occ_skip d x e r : x <> [] -> ~ In d x -> ~ contains x e ->
  occ (e ++ d :: r) x = match occ r x with Some i => Some (S (length e) + i) | None => None end.
Proof.
  intros N0 Nd. induction e as [|y e IH]; intros Nc.
  - cbn [app occ]. destruct (prefixb x (d :: r)) eqn:P.
    + apply prefixb_spec in P. destruct P as [t P]. destruct x as [|c x]; [congruence|]. injection P as <- P. exfalso. apply Nd. left; reflexivity.
    + destruct (occ r x); reflexivity.
  - cbn [app occ]. destruct (prefixb x (y :: e ++ d :: r)) eqn:P.
    + exfalso. apply Nc. apply prefixb_spec in P. change (y :: e ++ d :: r) with ((y :: e) ++ d :: r) in P.
      apply prefix_before in P; [|exact Nd]. destruct P as [t ->]. exists [], t. reflexivity.
    + rewrite IH by (intros (a & b & ->); apply Nc; exists (y :: a), b; reflexivity). destruct (occ r x); reflexivity.
Qed.
Lemma occ_last d x l : l <> [] -> x <> [] -> ~ In d x -> (forall e, In e l -> ~ contains x e) ->
  occ (joined d l ++ d :: x) x = Some (S (length (joined d l))).
Proof.
  intros Nl N0 Nd. induction l as [|e l IH]; [congruence|]. intros Nc. destruct l as [|f l].
  - cbn [joined]. rewrite occ_skip by (auto; apply Nc; left; reflexivity).
    assert (occ x x = Some 0) as ->. { pose proof (prefixb_self x []) as P. rewrite app_nil_r in P. destruct x; cbn [occ]; rewrite P; reflexivity. }
    rewrite Nat.add_0_r. reflexivity.
  - rewrite joined_cons by discriminate. rewrite <- app_assoc. cbn [app]. rewrite occ_skip by (auto; apply Nc; left; reflexivity).
    rewrite IH by (try discriminate; intros g G; apply Nc; right; exact G). f_equal. rewrite app_length. cbn [length]. lia.
Qed.
Lemma nth_mid (a : bytes) c b : nth_error (a ++ c :: b) (length a) = Some c.
Proof. rewrite nth_error_app2 by lia. rewrite Nat.sub_diag. reflexivity. Qed.
Lemma firstn_all_app (a b : bytes) : firstn (length a) (a ++ b) = a.
Proof. rewrite firstn_app, Nat.sub_diag, firstn_all. cbn. apply app_nil_r. Qed.

(** Deletion of the last of several names. *)
Lemma del_last d x l : l <> [] -> x <> [] -> ~ In d x -> (forall e, In e l -> ~ contains x e) ->
  delete_substring (joined d (l ++ [x])) x d = Deleted (joined d l).
Proof.
  intros Nl N0 Nd Nc. rewrite joined_snoc by exact Nl. unfold delete_substring. cbn [del_from skipn].
  rewrite occ_last by assumption. cbn [Nat.add]. set (p := joined d l).
  assert (is_at (p ++ d :: x) (S (length p) + length x) d = false) as E1.
  { unfold is_at. assert (nth_error (p ++ d :: x) (S (length p) + length x) = None) as ->; [|reflexivity].
    apply nth_error_None. rewrite app_length. cbn [length]. lia. }
  cbn [Nat.add] in E1. rewrite E1. rewrite !andb_false_r. cbn [orb Nat.eqb]. rewrite Nat.sub_0_r || idtac.
  replace (S (length p) - 1) with (length p) by lia.
  assert (is_at (p ++ d :: x) (length p) d = true) as ->. { unfold is_at. rewrite nth_mid. apply Ascii.eqb_refl. }
  assert (ends_at (p ++ d :: x) (S (length p + length x)) = true) as ->.
  { unfold ends_at. assert (nth_error (p ++ d :: x) (S (length p + length x)) = None) as ->; [|reflexivity].
    apply nth_error_None. rewrite app_length. cbn [length]. lia. }
  cbn [andb]. rewrite firstn_all_app. reflexivity.
Qed.

(** What a deletion makes of a text. *)
Lemma occ_spec s x : forall i, occ s x = Some i -> i <= length s /\ prefix x (skipn i s).
Proof.
  induction s as [|c s IH]; intros i; cbn [occ].
  - destruct (prefixb x []) eqn:P; [|discriminate]. intros [= <-]. split; [cbn; lia | apply prefixb_spec, P].
  - destruct (prefixb x (c :: s)) eqn:P.
    + intros [= <-]. split; [cbn; lia | apply prefixb_spec, P].
    + destruct (occ s x) as [j|]; [|discriminate]. intros [= <-]. destruct (IH j eq_refl) as [L Q]. split; [cbn; lia | exact Q].
Qed.
Lemma skipn_skipn' (s : bytes) : forall a b, skipn a (skipn b s) = skipn (b + a) s.
Proof.
  induction s as [|c s IH]; intros a b; [rewrite !skipn_nil; reflexivity|]. destruct b; [reflexivity|]. cbn [skipn Nat.add]. apply IH.
Qed.
Lemma del_shape d x : forall fuel s pos t, del_from fuel s x d pos = Deleted t -> length t = length s \/ s = t ++ d :: x.
Proof.
  induction fuel as [|fuel IH]; intros s pos t; cbn [del_from]; [discriminate|].
  destruct (occ (skipn pos s) x) as [k|] eqn:O; [|discriminate]. apply occ_spec in O. destruct O as [L P].
  set (i := pos + k). rewrite skipn_skipn' in P. fold i in P.
  assert (A : forall c, is_at s (i + length x) c = true -> i + length x < length s).
  { intros c. unfold is_at. destruct (nth_error s (i + length x)) eqn:E; [|discriminate]. intros _. apply nth_error_Some. congruence. }
  destruct (_ || _) eqn:B.
  - intros [= <-]. left. assert (is_at s (i + length x) d = true) as C by (apply orb_prop in B; destruct B as [B|B]; apply andb_prop in B; tauto).
    apply A in C. unfold move. rewrite !app_length, firstn_length, !skipn_length. lia.
  - destruct (Nat.eqb i 0) eqn:Z; [discriminate|]. apply Nat.eqb_neq in Z.
    destruct (is_at s (i - 1) d && ends_at s (i + length x)) eqn:E; [|apply IH].
    intros [= <-]. right. apply andb_prop in E. destruct E as [E1 E2].
    unfold is_at in E1. destruct (nth_error s (i - 1)) as [c|] eqn:N1; [|discriminate]. apply Ascii.eqb_eq in E1. subst c.
    unfold ends_at in E2. destruct (nth_error s (i + length x)) eqn:N2; [discriminate|]. apply nth_error_None in N2.
    assert (I : i <= length s) by (assert (i - 1 < length s) by (apply nth_error_Some; congruence); lia).
    destruct P as [r P].
    assert (r = []) as -> by (assert (length (skipn i s) = length x + length r) as Y by (rewrite P, app_length; reflexivity);
                              rewrite skipn_length in Y; destruct r; [reflexivity | cbn in Y; lia]).
    rewrite app_nil_r in P.
    rewrite <- (firstn_skipn (i - 1) s) at 1. f_equal.
    apply nth_error_split in N1. destruct N1 as (a & b & -> & Ha). rewrite <- Ha in *. rewrite skipn_app, Nat.sub_diag, skipn_all. cbn [app skipn].
    f_equal. rewrite <- P. replace i with (length a + 1) by lia. rewrite skipn_app, skipn_all2 by lia.
    replace (length a + 1 - length a) with 1 by lia. reflexivity.
Qed.

(** The last name. *)
Lemma last_name d (x y : bytes) : forall p q, ~ In d x -> ~ In d y -> p ++ d :: x = q ++ d :: y -> x = y.
Proof.
  induction p as [|c p IH]; intros q Nx Ny H.
  - destruct q as [|e q]; cbn in H; injection H; [congruence|]. intros H1 _. exfalso. apply Nx. rewrite H1. apply in_or_app. right; left; reflexivity.
  - destruct q as [|e q]; cbn in H; injection H.
    + intros H1 _. exfalso. apply Ny. rewrite <- H1. apply in_or_app. right; left; reflexivity.
    + intros H1 _. exact (IH q Nx Ny H1).
Qed.
Lemma joined_app_len d l1 x l2 : l1 ++ l2 <> [] -> length (joined d (l1 ++ x :: l2)) = length (joined d (l1 ++ l2)) + length x + 1.
Proof.
  induction l1 as [|y l1 IH]; intros N.
  - cbn [app] in *. rewrite joined_cons by exact N. rewrite app_length. cbn [length]. lia.
  - destruct (l1 ++ l2) as [|z m] eqn:E.
    + apply app_eq_nil in E. destruct E as [-> ->]. cbn [app joined]. rewrite app_length. cbn [length]. lia.
    + cbn [app]. rewrite E. rewrite joined_cons by (destruct l1; discriminate). rewrite (joined_cons d y (z :: m)) by discriminate.
      rewrite !app_length. cbn [length]. rewrite IH by discriminate. lia.
Qed.

(* ------------------------------------------------------------------ *)
(** ** C75: SSH algorithms *)

(** A new configuration: any list of algorithms, in the order of preference. *)
Theorem c75_created : forall l, alg_changes (map (fun a => (Create, a)) l) None = Ok (text ","%char (map libssh_name l)).
Proof.
  intros l. enough (forall l0, alg_changes (map (fun a => (Create, a)) l) (text ","%char (map libssh_name l0)) = Ok (text ","%char (map libssh_name (l0 ++ l)))) as H.
  { exact (H []). }
  induction l as [|a l IH]; intros l0; cbn [map alg_changes transport_params].
  - rewrite app_nil_r. reflexivity.
  - rewrite text_snoc. change [libssh_name a] with (map libssh_name [a]). rewrite <- map_app, IH, <- app_assoc. reflexivity.
Qed.

(** Configurations of which each is the one before with a name added at the end or the last of several removed, when no other name
    contains it. *)
Inductive history : list bytes -> list (op * bytes) -> list bytes -> Prop :=
| h_end l : history l [] l
| h_add l a r l' : history (l ++ [a]) r l' -> history l ((Create, a) :: r) l'
| h_del l a r l' : l <> [] -> name_ok a -> (forall e, In e l -> ~ contains (libssh_name a) (libssh_name e)) -> history l r l' ->
                   history (l ++ [a]) ((Delete, a) :: r) l'.
Lemma libssh_ok a : name_ok a -> name_ok (libssh_name a).
Proof.
  intros [N0 Nc]. unfold libssh_name.
  assert (S : forall n, ~ In ","%char (skipn n a)). { intros n X. apply Nc. rewrite <- (firstn_skipn n a). apply in_or_app. right; exact X. }
  destruct (prefixb (bs "openssh-") a); [|destruct (prefixb (bs "libssh-") a)]; [| |split; assumption].
  - split; [intros X; apply app_eq_nil in X; destruct X; discriminate|]. rewrite in_app_iff. intros [X|X]; [exact (S _ X)|]. cbn in X. intuition discriminate.
  - split; [intros X; apply app_eq_nil in X; destruct X; discriminate|]. rewrite in_app_iff. intros [X|X]; [exact (S _ X)|]. cbn in X. intuition discriminate.
Qed.
Theorem c75_history_partial : forall l r l', history l r l' ->
  alg_changes r (text ","%char (map libssh_name l)) = Ok (text ","%char (map libssh_name l')).
Proof.
  induction 1 as [l | l a r l' H IH | l a r l' Nl Na Nc H IH]; cbn [alg_changes transport_params].
  - reflexivity.
  - rewrite text_snoc. change [libssh_name a] with (map libssh_name [a]). rewrite <- map_app. exact IH.
  - rewrite map_app. cbn [map]. assert (map libssh_name l <> []) as Nm by (destruct l; [congruence | discriminate]).
    assert (text ","%char (map libssh_name l ++ [libssh_name a]) = Some (joined ","%char (map libssh_name l ++ [libssh_name a]))) as ->.
    { destruct (map libssh_name l); [congruence | reflexivity]. }
    cbn [remove]. apply libssh_ok in Na. destruct Na as [N0 Nd]. rewrite del_last; [| exact Nm | exact N0 | exact Nd |].
    + rewrite <- IH. destruct l; [congruence | reflexivity].
    + intros e E. apply in_map_iff in E. destruct E as (f & <- & F). apply Nc, F.
Qed.

(** A name that is not the last is never removed rightly: the text is as long as before. *)
Theorem c75_never : forall l1 x l2, l2 <> [] -> (forall e, In e (x :: l2) -> ~ In ","%char e) -> ~ In x l2 ->
  delete_substring (joined ","%char (l1 ++ x :: l2)) x ","%char <> Deleted (joined ","%char (l1 ++ l2)).
Proof.
  intros l1 x l2 N2 Nc Nx H. apply del_shape in H. destruct H as [H|H].
  - rewrite joined_app_len in H by (intros E; apply app_eq_nil in E; destruct E; contradiction).
    assert (forall n m, n = n + m + 1 -> False) as K by (intros; lia). exact (K _ _ H).
  - destruct (exists_last N2) as (m & y & ->). change (x :: m ++ [y]) with ((x :: m) ++ [y]) in H. rewrite app_assoc in H.
    rewrite (joined_snoc _ (l1 ++ x :: m)) in H by (destruct l1; discriminate).
    assert (y = x) as ->. { eapply last_name; [| |exact H]; apply Nc; [right; apply in_or_app; right; left; reflexivity | left; reflexivity]. }
    apply Nx. apply in_or_app. right; left; reflexivity.
Qed.
(** The only name is never removed: the byte before the block is read. *)
Theorem c75_only : forall x, x <> [] -> alg_changes [(Delete, x)] (text ","%char [libssh_name x]) = Undef.
Proof.
  intros x N. cbn [alg_changes transport_params text joined remove]. set (y := libssh_name x). unfold delete_substring. cbn [del_from skipn].
  assert (occ y y = Some 0) as ->. { pose proof (prefixb_self y []) as P. rewrite app_nil_r in P. destruct y; cbn [occ]; rewrite P; reflexivity. }
  cbn [Nat.add Nat.eqb negb andb]. unfold is_at. assert (nth_error y (length y) = None) as -> by (apply nth_error_None; lia). reflexivity.
Qed.

(** A removed algorithm is still accepted, and nothing fails: hmac-sha1-96 is removed, the text is the same. *)
Definition macs := [bs "hmac-sha1-96"; bs "hmac-sha1"].
Theorem c75_kept_refuted :
  alg_changes [(Delete, bs "hmac-sha1-96")] (text ","%char (map libssh_name macs)) = Ok (text ","%char (map libssh_name macs)).
Proof. vm_compute. reflexivity. Qed.
(** The algorithms that stay are lost, what is left are names nobody knows. *)
Theorem c75_lost_refuted :
  alg_changes [(Delete, bs "aes256-cbc")] (text ","%char (map libssh_name [bs "aes256-cbc"; bs "openssh-aes256-gcm"]))
  = Ok (Some (bs "aes256-gcm@openssh.comopenssh.com")).
Proof. vm_compute. reflexivity. Qed.
(** A moved or inserted algorithm does not get its place. *)
Theorem c75_order_refuted :
  alg_changes [(Replace, bs "aes256-ctr")] (text ","%char [bs "aes128-ctr"; bs "aes256-ctr"]) = Ok (Some (bs "aes128-ctr,aes256-ctr,aes256-ctr")).
Proof. vm_compute. reflexivity. Qed.
(** A longer name before it: the byte before the block is read. *)
Theorem c75_before_refuted :
  alg_changes [(Delete, bs "hmac-sha2-256")] (text ","%char (map libssh_name [bs "openssh-hmac-sha2-256-etm"; bs "hmac-sha2-256"])) = Undef.
Proof. vm_compute. reflexivity. Qed.
(** The lists are set for what the server sends; what it receives may use anything libssh has. *)
Theorem c75_direction_refuted : exists o, encryption_algs o = Some (bs "aes256-ctr") /\ mac_algs o = Some (bs "hmac-sha2-512")
  /\ b_cipher (bind_algs o) ToServer = None /\ b_mac (bind_algs o) ToServer = None.
Proof.
  exists {| hostkey_algs := None; encryption_algs := Some (bs "aes256-ctr"); kex_algs := None; mac_algs := Some (bs "hmac-sha2-512") |}.
  repeat split.
Qed.
(** What the server sends, its key exchange and its host keys do follow the texts. *)
Theorem c75_to_client : forall o, b_hostkey (bind_algs o) = hostkey_algs o /\ b_kex (bind_algs o) = kex_algs o
  /\ b_cipher (bind_algs o) ToClient = encryption_algs o /\ b_mac (bind_algs o) ToClient = mac_algs o.
Proof. intros o. repeat split. Qed.

Example c75_case : history [] [(Create, bs "aes256-ctr"); (Create, bs "openssh-aes256-gcm"); (Delete, bs "openssh-aes256-gcm"); (Create, bs "aes128-ctr")]
  [bs "aes256-ctr"; bs "aes128-ctr"].
Proof.
  apply h_add, h_add. apply (h_del [bs "aes256-ctr"]); [discriminate | | |].
  - split; [discriminate|]. vm_compute. intuition discriminate.
  - intros e [<-|[]] (a & b & E). apply (f_equal (@length ascii)) in E. rewrite !app_length in E.
    change (length (libssh_name (bs "aes256-ctr"))) with 10 in E. change (length (libssh_name (bs "openssh-aes256-gcm"))) with 22 in E. lia.
  - apply h_add. apply h_end.
Qed.

(* ------------------------------------------------------------------ *)
(** ** C76: cipher suites *)

Theorem c76_created : forall l, cipher_changes (map (fun a => (Create, a)) l) None = Ok (text ":"%char (map (map upper) l)).
Proof.
  intros l. enough (forall l0, cipher_changes (map (fun a => (Create, a)) l) (text ":"%char (map (map upper) l0)) = Ok (text ":"%char (map (map upper) (l0 ++ l)))) as H.
  { exact (H []). }
  induction l as [|a l IH]; intros l0; cbn [map cipher_changes cipher_suite].
  - rewrite app_nil_r. reflexivity.
  - rewrite text_snoc. change [map upper a] with (map (map upper) [a]). rewrite <- map_app, IH, <- app_assoc. reflexivity.
Qed.
Lemma occ_absent x c : In c x -> forall s, ~ In c s -> occ s x = None.
Proof.
  intros X. induction s as [|d s IH]; intros N; cbn [occ].
  - destruct (prefixb x []) eqn:P; [|reflexivity]. apply prefixb_spec in P. destruct P as [r P]. destruct x; [destruct X | discriminate].
  - destruct (prefixb x (d :: s)) eqn:P.
    + apply prefixb_spec in P. destruct P as [r P]. exfalso. apply N. rewrite P. apply in_or_app. left; exact X.
    + rewrite IH by (intros Y; apply N; right; exact Y). reflexivity.
Qed.
Lemma in_joined d c l : In c (joined d l) -> c = d \/ exists e, In e l /\ In c e.
Proof.
  induction l as [|x l IH]; [intros []|]. destruct l as [|y l].
  - cbn [joined]. intros H. right. exists x. split; [left; reflexivity | exact H].
  - rewrite joined_cons by discriminate. rewrite in_app_iff. intros [H|[H|H]].
    + right. exists x. split; [left; reflexivity | exact H].
    + left; congruence.
    + destruct (IH H) as [E|(e & E & F)]; [left; exact E | right; exists e; split; [right; exact E | exact F]].
Qed.
Lemma upper_dash c : upper c <> "-"%char.
Proof. destruct c as [[|] [|] [|] [|] [|] [|] [|] [|]]; vm_compute; discriminate. Qed.
(** No cipher suite can be removed: the names of all of them have a dash ("tls-..."), and the stored ones have none. *)
Theorem c76_never : forall l a, l <> [] -> In "-"%char a ->
  cipher_changes [(Delete, a)] (text ":"%char (map (map upper) l)) = Fail (text ":"%char (map (map upper) l)).
Proof.
  intros l a N D. cbn [cipher_changes cipher_suite].
  destruct (map (map upper) l) as [|x m] eqn:E; [destruct l; [congruence | discriminate]|]. cbn [text remove].
  unfold delete_substring. cbn [del_from skipn]. rewrite (occ_absent a "-"%char D); [reflexivity|].
  intros H. apply in_joined in H. destruct H as [H|(e & H1 & H2)]; [discriminate|].
  rewrite <- E in H1. apply in_map_iff in H1. destruct H1 as (f & <- & _). apply in_map_iff in H2. destruct H2 as (c & H2 & _). exact (upper_dash c H2).
Qed.
(** Valid changes: names not there are created, those there are deleted. *)
Inductive suites : list bytes -> list (op * bytes) -> list bytes -> Prop :=
| su_end l : suites l [] l
| su_add l a c l' : ~ In a l -> suites (l ++ [a]) c l' -> suites l ((Create, a) :: c) l'
| su_del l1 l2 a c l' : suites (l1 ++ l2) c l' -> suites (l1 ++ a :: l2) ((Delete, a) :: c) l'.
Definition c76_full : Prop := forall c l, suites [] c l -> cipher_changes c None = Ok (text ":"%char (map (map upper) l)).
Theorem c76_full_refuted : ~ c76_full.
Proof.
  intros F. specialize (F [(Create, bs "tls-aes-256-gcm-sha384"); (Delete, bs "tls-aes-256-gcm-sha384")] []).
  assert (X : suites [] [(Create, bs "tls-aes-256-gcm-sha384"); (Delete, bs "tls-aes-256-gcm-sha384")] []).
  { apply su_add; [intros []|]. apply (su_del [] []). apply su_end. }
  specialize (F X). vm_compute in F. discriminate F.
Qed.
Example c76_case : cipher_changes [(Create, bs "tls-aes-256-gcm-sha384"); (Create, bs "tls-aes-128-gcm-sha256"); (Delete, bs "tls-aes-256-gcm-sha384")] None
  = Fail (Some (bs "TLS_AES_256_GCM_SHA384:TLS_AES_128_GCM_SHA256")).
Proof. vm_compute. reflexivity. Qed.

(* ------------------------------------------------------------------ *)
(** ** C77: TLS versions *)

Definition tlsv_eqb (a b : tlsv) : bool := match a, b with V10, V10 | V11, V11 | V12, V12 | V13, V13 => true | _, _ => false end.
(** A version is configured after changes if it was created and not deleted since. *)
Fixpoint configured (before : bool) (l : list (op * tlsv)) (v : tlsv) : bool :=
  match l with
  | [] => before
  | (o, w) :: r => configured (if tlsv_eqb v w then match o with Create => true | Delete => false | Replace => before end else before) r v
  end.
Definition bits_after (l : list (op * tlsv)) (b : N) : N := fold_left (fun s p => tls_version s (snd p) (fst p)) l b.
Definition rank (v : tlsv) : nat := match v with V10 => 0 | V11 => 1 | V12 => 2 | V13 => 3 end.
(** A session may use a version between the minimum and the maximum. *)
Definition accepted (lo hi : option tlsv) (v : tlsv) : bool :=
  match lo, hi with Some a, Some b => Nat.leb (rank a) (rank v) && Nat.leb (rank v) (rank b) | _, _ => true end.

Definition idx (v : tlsv) : N := N.of_nat (rank v).
Lemma has_testbit b v : has b v = N.testbit b (idx v).
Proof.
  unfold has. assert (bit v = 2 ^ idx v)%N as -> by (destruct v; reflexivity).
  destruct (N.testbit b (idx v)) eqn:T.
  - destruct (N.eqb_spec (N.land b (2 ^ idx v)) 0) as [E|E]; [|reflexivity].
    assert (N.testbit (N.land b (2 ^ idx v)) (idx v) = true) as C by (rewrite N.land_spec, T, N.pow2_bits_true; reflexivity).
    rewrite E, N.bits_0 in C. discriminate.
  - assert (N.land b (2 ^ idx v) = 0)%N as ->; [|reflexivity].
    apply N.bits_inj_0. intros n. rewrite N.land_spec. destruct (N.eq_dec (idx v) n) as [<-|Nn]; [rewrite T; reflexivity|].
    rewrite N.pow2_bits_false by exact Nn. apply andb_false_r.
Qed.
Lemma bit_pow v : bit v = (2 ^ idx v)%N.
Proof. destruct v; reflexivity. Qed.
Lemma idx_eqb v w : N.eqb (idx v) (idx w) = tlsv_eqb v w.
Proof. destruct v, w; reflexivity. Qed.
Lemma has_step b w o v : has (tls_version b w o) v = if tlsv_eqb v w then match o with Create => true | Delete => false | Replace => has b v end else has b v.
Proof.
  destruct o; cbn [tls_version].
  - rewrite !has_testbit, N.lor_spec, bit_pow. rewrite <- idx_eqb. rewrite N.pow2_bits_eqb. rewrite N.eqb_sym. destruct (N.eqb (idx v) (idx w)); [apply orb_true_r | apply orb_false_r].
  - destruct (tlsv_eqb v w); reflexivity.
  - change (N.eqb (N.land b (bit w)) 0) with (N.eqb (N.land b (bit w)) 0). destruct (N.eqb (N.land b (bit w)) 0) eqn:E.
    + destruct (tlsv_eqb v w) eqn:F; [|reflexivity]. assert (v = w) as -> by (destruct v, w; try discriminate; reflexivity). unfold has. rewrite E. reflexivity.
    + rewrite !has_testbit, N.ldiff_spec, bit_pow, N.pow2_bits_eqb. rewrite <- idx_eqb. rewrite N.eqb_sym.
      destruct (N.eqb (idx v) (idx w)); cbn [negb]; [apply andb_false_r | apply andb_true_r].
Qed.
Theorem c77_bits : forall l v, has (bits_after l 0) v = configured false l v.
Proof.
  intros l v. enough (forall b, has (bits_after l b) v = configured (has b v) l v) as H. { rewrite H. destruct v; reflexivity. }
  induction l as [|[o w] l IH]; intros b; [reflexivity|]. cbn [configured]. unfold bits_after in *. cbn [fold_left fst snd]. rewrite IH, has_step. reflexivity.
Qed.
(** With OpenSSL exactly the configured versions are accepted if they have no gap; with nothing configured the default is used. *)
Theorem c77_openssl_partial : forall l v,
  (forall a c u, configured false l a = true -> configured false l c = true -> rank a <= rank u <= rank c -> configured false l u = true) ->
  (exists a, configured false l a = true) ->
  accepted (openssl_min (bits_after l 0)) (openssl_max (bits_after l 0)) v = configured false l v.
Proof.
  intros l v G [a A]. unfold openssl_min, openssl_max. rewrite !c77_bits.
  set (f := configured false l) in *. destruct (f V10) eqn:E0, (f V11) eqn:E1, (f V12) eqn:E2, (f V13) eqn:E3;
    try (exfalso;
         first [ assert (f V11 = true) by (apply (G V10 V12); cbn; auto; lia); congruence
               | assert (f V11 = true) by (apply (G V10 V13); cbn; auto; lia); congruence
               | assert (f V12 = true) by (apply (G V10 V13); cbn; auto; lia); congruence
               | assert (f V12 = true) by (apply (G V11 V13); cbn; auto; lia); congruence
               | destruct a; congruence ]; fail);
    destruct v; cbn; congruence.
Qed.
(** TLS 1.0 and 1.2 configured: TLS 1.1 is accepted too. *)
Theorem c77_gap_refuted : exists l, configured false l V11 = false /\ accepted (openssl_min (bits_after l 0)) (openssl_max (bits_after l 0)) V11 = true
  /\ configured false l V12 = true.
Proof. exists [(Create, V10); (Create, V12)]. vm_compute. auto. Qed.
(** With mbedTLS and only TLS 1.1 configured, whatever the library accepts is accepted. *)
Theorem c77_mbedtls_refuted : exists l, configured false l V11 = true /\ configured false l V13 = false
  /\ accepted (mbedtls_min (bits_after l 0)) (mbedtls_max (bits_after l 0)) V13 = true.
Proof. exists [(Create, V11)]. vm_compute. auto. Qed.
(** With mbedTLS versions 1.2 and 1.3 are accepted as configured if at least one of them is. *)
Theorem c77_mbedtls_partial : forall l v, v = V12 \/ v = V13 -> configured false l V12 = true \/ configured false l V13 = true ->
  accepted (mbedtls_min (bits_after l 0)) (mbedtls_max (bits_after l 0)) v = configured false l v.
Proof.
  intros l v Hv H. unfold mbedtls_min, mbedtls_max. rewrite !c77_bits.
  destruct (configured false l V12) eqn:E2, (configured false l V13) eqn:E3; try (destruct H; congruence); destruct Hv as [-> | ->]; cbn; congruence.
Qed.

(* ------------------------------------------------------------------ *)
(** ** C78: cert-to-name entries *)

(** The configured entries by id: map type, name and fingerprint. *)
Record entry := { e_map : string; e_name : option string; e_fp : option string }.
Definition conf := N -> option entry.
Definition set (c : conf) (id : N) (e : option entry) : conf := fun i => if N.eqb i id then e else c i.
Definition edit (c : conf) (o : ctn_op) : conf :=
  match o with
  | CtnCreate id m name fp => set c id (Some {| e_map := m; e_name := name; e_fp := fp |})
  | CtnDelete id => set c id None
  | CtnFp id fp => set c id (match c id with Some e => Some {| e_map := e_map e; e_name := e_name e; e_fp := fp |} | None => None end)
  | CtnMap id m name => set c id (match c id with Some e => Some {| e_map := m; e_name := name; e_fp := e_fp e |} | None => None end)
  end.
(** What ietf-x509-cert-to-name allows: a known map type, a name if and only if it is "specified"; only what is there is changed. *)
Definition legal_entry (m : string) (name : option string) : Prop :=
  In m ["specified"; "san-rfc822-name"; "san-dns-name"; "san-ip-address"; "san-any"; "common-name"]%string
  /\ (m = "specified"%string <-> name <> None).
Definition legal (c : conf) (o : ctn_op) : Prop :=
  match o with
  | CtnCreate id m name _ => c id = None /\ legal_entry m name
  | CtnDelete id | CtnFp id _ => c id <> None
  | CtnMap id m name => c id <> None /\ legal_entry m name
  end.
Fixpoint legal_all (c : conf) (l : list ctn_op) : Prop :=
  match l with [] => True | o :: r => legal c o /\ legal_all (edit c o) r end.
Definition entry_of (x : ctn) : entry := {| e_map := c_map x; e_name := c_name x; e_fp := c_fp x |}.
(** The entries of the server: ordered by id, which is the order in which they are considered, and each as configured. *)
Definition matches (st : list ctn) (c : conf) : Prop :=
  StronglySorted (fun a b => (c_id a < c_id b)%N) st /\ forall id e, c id = Some e <-> exists x, In x st /\ c_id x = id /\ entry_of x = e.

Definition lt_id (a b : ctn) : Prop := (c_id a < c_id b)%N.
Lemma none_absent st c id : matches st c -> c id = None -> forall x, In x st -> c_id x <> id.
Proof.
  intros [_ M] N x X E. assert (c id = Some (entry_of x)) as C by (apply M; exists x; auto). congruence.
Qed.
Lemma after_perm iter l new : forall x, c_id new <> c_id iter -> (forall y, In y l -> c_id new <> c_id y) ->
  In x (ctn_after iter l new) <-> x = new \/ x = iter \/ In x l.
Proof.
  revert iter. induction l as [|n l IH]; intros iter x Ni Nl; cbn [ctn_after].
  - destruct (N.eqb_spec (c_id iter) (c_id new)); [congruence|]. cbn [In]. intuition congruence.
  - destruct (c_id n <=? c_id new)%N.
    + cbn [In]. rewrite IH by (try (apply Nl; left; reflexivity); intros y Y; apply Nl; right; exact Y). intuition congruence.
    + destruct (N.eqb_spec (c_id iter) (c_id new)); [congruence|]. cbn [In]. intuition congruence.
Qed.
Lemma after_sorted iter l new : StronglySorted lt_id (iter :: l) -> (c_id iter <= c_id new)%N -> c_id new <> c_id iter ->
  (forall y, In y l -> c_id new <> c_id y) -> StronglySorted lt_id (ctn_after iter l new).
Proof.
  revert iter. induction l as [|n l IH]; intros iter S Le Ni Nl; cbn [ctn_after].
  - destruct (N.eqb_spec (c_id iter) (c_id new)); [congruence|]. repeat constructor. unfold lt_id. lia.
  - inversion S as [|? ? S1 F1]; subst. destruct (N.leb_spec (c_id n) (c_id new)) as [L|L].
    + constructor.
      * apply IH; [exact S1 | exact L | apply Nl; left; reflexivity | intros y Y; apply Nl; right; exact Y].
      * apply Forall_forall. intros y Y. apply after_perm in Y; [| apply Nl; left; reflexivity | intros z Z; apply Nl; right; exact Z].
        rewrite Forall_forall in F1. destruct Y as [->|[->|Y]]; [unfold lt_id; lia | apply F1; left; reflexivity | apply F1; right; exact Y].
    + destruct (N.eqb_spec (c_id iter) (c_id new)); [congruence|].
      constructor; [constructor; [exact S1|] |].
      * apply Forall_forall. intros y [<-|Y]; [exact L|]. inversion S1 as [|? ? _ F2]; subst. rewrite Forall_forall in F2. specialize (F2 y Y). unfold lt_id in *. lia.
      * apply Forall_forall. intros y [<-|Y]; [unfold lt_id; lia|]. rewrite Forall_forall in F1. apply F1. exact Y.
Qed.

Lemma legal_checks m name : legal_entry m name -> known_map m = true /\ (String.eqb m "specified" && match name with None => true | _ => false end = false)
  /\ (if String.eqb m "specified" then name else None) = name.
Proof.
  intros [I [S1 S2]]. repeat split.
  - unfold known_map. apply existsb_exists. exists m. split; [exact I | apply String.eqb_refl].
  - destruct (String.eqb_spec m "specified"); [|reflexivity]. destruct name; [reflexivity|]. exfalso. apply (S1 e). reflexivity.
  - destruct (String.eqb_spec m "specified"); [reflexivity|]. destruct name; [|reflexivity]. exfalso. apply n, S2. discriminate.
Qed.
Lemma create_matches st c id m name : matches st c -> c id = None -> legal_entry m name ->
  exists st', ctn_create st id m name = Ok st' /\ matches st' (set c id (Some {| e_map := m; e_name := name; e_fp := None |})).
Proof.
  intros M N L. pose proof (none_absent _ _ _ M N) as A. destruct M as [S M]. destruct (legal_checks _ _ L) as (K1 & K2 & K3).
  unfold ctn_create. rewrite K1, K2, K3. cbn [negb]. set (new := {| c_id := id; c_name := name; c_map := m; c_fp := None |}).
  assert (B : forall st', StronglySorted lt_id st' -> (forall x, In x st' <-> x = new \/ In x st) ->
             matches st' (set c id (Some {| e_map := m; e_name := name; e_fp := None |}))).
  { intros st' S' P. split; [exact S'|]. intros i e. unfold set. destruct (N.eqb_spec i id) as [->|Ne].
    - split.
      + intros [= <-]. exists new. split; [apply P; left; reflexivity | split; reflexivity].
      + intros (x & X & Xi & Xe). apply P in X. destruct X as [->|X]; [rewrite <- Xe; reflexivity | exfalso; exact (A x X Xi)].
    - rewrite M. split; intros (x & X & Xi & Xe); exists x; (split; [|split; assumption]); [apply P; right; exact X|].
      apply P in X. destruct X as [->|X]; [cbn in Xi; congruence | exact X]. }
  destruct st as [|h r].
  - eexists. split; [reflexivity|]. apply B; [repeat constructor|]. intros x. cbn. intuition congruence.
  - destruct (N.ltb_spec id (c_id h)) as [Lt|Ge].
    + eexists. split; [reflexivity|]. apply B; [|intros x; cbn [In]; intuition congruence].
      constructor; [exact S|]. apply Forall_forall. intros y [<-|Y]; [exact Lt|]. inversion S as [|? ? _ F]; subst. rewrite Forall_forall in F.
      specialize (F y Y). unfold lt_id in *. cbn [c_id new]. lia.
    + eexists. split; [reflexivity|].
      assert (N1 : c_id new <> c_id h) by (intros E; apply (A h (or_introl eq_refl)); cbn in E; congruence).
      assert (N2 : forall y, In y r -> c_id new <> c_id y) by (intros y Y E; apply (A y (or_intror Y)); cbn in E; congruence).
      apply B; [apply after_sorted; [exact S | exact Ge | exact N1 | exact N2]|].
      intros x. rewrite after_perm by assumption. cbn [In]. intuition congruence.
Qed.
Lemma fp_in st id fp : StronglySorted lt_id st -> (exists x, In x st /\ c_id x = id) ->
  exists st', ctn_fp st id fp = Some st' /\ StronglySorted lt_id st'
    /\ (forall x, In x st' <-> (In x st /\ c_id x <> id) \/ exists y, In y st /\ c_id y = id /\ x = {| c_id := c_id y; c_name := c_name y; c_map := c_map y; c_fp := fp |}).
Proof.
  induction st as [|h r IH]; intros S (x & X & Xi); [destruct X|]. inversion S as [|? ? S1 F]; subst. rewrite Forall_forall in F. cbn [ctn_fp].
  destruct (N.eqb_spec (c_id h) (c_id x)) as [E|E].
  - eexists. split; [reflexivity|]. split.
    + constructor; [exact S1|]. apply Forall_forall. intros y Y. specialize (F y Y). unfold lt_id in *. cbn. exact F.
    + intros z. cbn [In]. split.
      * intros [<-|Z]; [right; exists h; auto|]. left. split; [right; exact Z|]. specialize (F z Z). unfold lt_id in F. lia.
      * intros [[[<-|Z] Zi]|(y & [<-|Y] & Yi & ->)]; [congruence | right; exact Z | left; reflexivity |].
        specialize (F y Y). unfold lt_id in F. lia.
  - destruct X as [<-|X]; [congruence|]. destruct (IH S1 (ex_intro _ x (conj X eq_refl))) as (r' & -> & S' & P).
    eexists. split; [reflexivity|]. split.
    + constructor; [exact S'|]. apply Forall_forall. intros y Y. apply P in Y. destruct Y as [[Y _]|(z & Z & _ & ->)]; [apply F, Y|]. specialize (F z Z). exact F.
    + intros z. cbn [In]. rewrite P. split.
      * intros [<-|[[Z Zi]|(y & Y & Yi & ->)]]; [left; auto | left; auto | right; exists y; auto].
      * intros [[[<-|Z] Zi]|(y & [<-|Y] & Yi & ->)]; [left; reflexivity | right; left; auto | congruence | right; right; exists y; auto].
Qed.
Lemma fp_matches st c id fp : matches st c -> c id <> None -> exists st', ctn_fp st id fp = Some st' /\ matches st' (edit c (CtnFp id fp)).
Proof.
  intros [S M] N. destruct (c id) as [e|] eqn:E; [|congruence]. pose proof (proj1 (M id e) E) as (x & X & Xi & Xe).
  destruct (fp_in st id fp S (ex_intro _ x (conj X Xi))) as (st' & -> & S' & P). eexists. split; [reflexivity|]. split; [exact S'|].
  intros i f. cbn [edit]. rewrite E. unfold set. destruct (N.eqb_spec i id) as [->|Ni].
  - split.
    + intros [= <-]. exists {| c_id := c_id x; c_name := c_name x; c_map := c_map x; c_fp := fp |}. split; [apply P; right; exists x; auto|].
      split; [exact Xi|]. rewrite <- Xe. reflexivity.
    + intros (y & Y & Yi & Ye). apply P in Y. destruct Y as [[_ Y]|(z & Z & Zi & ->)]; [congruence|].
      assert (c id = Some (entry_of z)) as C by (apply M; exists z; auto). rewrite <- Ye. rewrite E in C. injection C as ->. reflexivity.
  - rewrite M. split; intros (y & Y & Yi & Ye); exists y; (split; [|split; assumption]).
    + apply P. left. split; congruence.
    + apply P in Y. destruct Y as [[Y _]|(z & Z & Zi & ->)]; [exact Y | cbn in Yi; congruence].
Qed.
Lemma del_in st id : StronglySorted lt_id st -> (exists x, In x st /\ c_id x = id) ->
  exists st', ctn_del st id = Some st' /\ StronglySorted lt_id st' /\ (forall x, In x st' <-> In x st /\ c_id x <> id).
Proof.
  induction st as [|h r IH]; intros S (x & X & Xi); [destruct X|]. inversion S as [|? ? S1 F]; subst. rewrite Forall_forall in F. cbn [ctn_del].
  destruct (N.eqb_spec (c_id h) (c_id x)) as [E|E].
  - eexists. split; [reflexivity|]. split; [exact S1|]. intros z. cbn [In]. split.
    + intros Z. split; [right; exact Z|]. specialize (F z Z). unfold lt_id in F. lia.
    + intros [[<-|Z] Zi]; [congruence | exact Z].
  - destruct X as [<-|X]; [congruence|]. destruct (IH S1 (ex_intro _ x (conj X eq_refl))) as (r' & -> & S' & P).
    eexists. split; [reflexivity|]. split.
    + constructor; [exact S'|]. apply Forall_forall. intros y Y. apply P in Y. apply F, Y.
    + intros z. cbn [In]. rewrite P. split.
      * intros [<-|[Z Zi]]; auto.
      * intros [[<-|Z] Zi]; auto.
Qed.
Lemma del_matches st c id : matches st c -> c id <> None -> exists st', ctn_del st id = Some st' /\ matches st' (set c id None).
Proof.
  intros [S M] N. destruct (c id) as [e|] eqn:E; [|congruence]. pose proof (proj1 (M id e) E) as (x & X & Xi & Xe).
  destruct (del_in st id S (ex_intro _ x (conj X Xi))) as (st' & -> & S' & P). eexists. split; [reflexivity|]. split; [exact S'|].
  intros i f. unfold set. destruct (N.eqb_spec i id) as [->|Ni].
  - split; [discriminate|]. intros (y & Y & Yi & Ye). apply P in Y. destruct Y; congruence.
  - rewrite M. split; intros (y & Y & Yi & Ye); exists y; (split; [|split; assumption]).
    + apply P. split; congruence.
    + apply P in Y. apply Y.
Qed.
Lemma matches_ext st c c' : (forall i, c i = c' i) -> matches st c -> matches st c'.
Proof. intros H [S M]. split; [exact S|]. intros i e. rewrite <- H. apply M. Qed.

(** Every sequence of changes of valid configurations in which no map type or name of an entry that stays is changed. *)
Theorem c78_entries_partial : forall l st c, matches st c -> legal_all c l -> (forall id m name, ~ In (CtnMap id m name) l) ->
  exists st', ctn_changes l st = Ok st' /\ matches st' (fold_left edit l c).
Proof.
  induction l as [|o l IH]; intros st c M L NM; cbn [ctn_changes fold_left].
  - exists st. auto.
  - destruct L as [L1 L2].
    assert (exists s, ctn_change st o = Ok s /\ matches s (edit c o)) as (s & -> & M').
    { destruct o as [id m name fp|id|id fp|id m name]; cbn [ctn_change].
      - destruct L1 as [N L1]. destruct (create_matches st c id m name M N L1) as (s & -> & Ms). destruct fp as [f|].
        + destruct (fp_matches s _ id (Some f) Ms) as (s' & -> & Ms'); [unfold set; rewrite N.eqb_refl; discriminate|].
          exists s'. split; [reflexivity|]. eapply matches_ext; [|exact Ms']. intros i. cbn [edit]. unfold set. rewrite N.eqb_refl. destruct (N.eqb i id); reflexivity.
        + exists s. split; [reflexivity | exact Ms].
      - destruct (del_matches st c id M L1) as (s & -> & Ms). exists s. auto.
      - destruct (fp_matches st c id fp M L1) as (s & -> & Ms). exists s. auto.
      - exfalso. apply (NM id m name). left; reflexivity. }
    apply IH; [exact M' | exact L2 |]. intros id m name X. apply (NM id m name). right; exact X.
Qed.
Lemma matches_nil : matches [] (fun _ => None).
Proof. split; [constructor|]. intros id e. split; [discriminate | intros (x & [] & _)]. Qed.

(** From a server without entries: entries added, removed and given other fingerprints are those of the configuration, in order of their ids. *)
Theorem c80_entries : forall l, legal_all (fun _ => None) l -> (forall id m name, ~ In (CtnMap id m name) l) ->
  exists st, ctn_changes l [] = Ok st /\ matches st (fold_left edit l (fun _ => None)).
Proof. intros l L M. exact (c78_entries_partial l [] _ matches_nil L M). Qed.

(** An entry that is changed to another map type is used as before: its certificate still gives the name "root". *)
Theorem c78_map_refuted : exists l c st, c = fold_left edit l (fun _ => None) /\ legal_all (fun _ => None) l /\ ctn_changes l [] = Ok st
  /\ c 1%N = Some {| e_map := "common-name"; e_name := None; e_fp := Some "04:01"%string |}
  /\ st = [{| c_id := 1; c_name := Some "root"%string; c_map := "specified"; c_fp := Some "04:01"%string |}].
Proof.
  exists [CtnCreate 1 "specified" (Some "root"%string) (Some "04:01"%string); CtnMap 1 "common-name" None]. eexists. eexists.
  split; [reflexivity|]. split; [|split; [reflexivity|split; reflexivity]].
  cbn [legal_all legal]. unfold legal_entry. cbn. repeat split; auto; try discriminate; try tauto; try (intros X; exfalso; apply X; reflexivity).
Qed.
(** So is an entry whose name is changed. *)
Theorem c78_name_refuted : exists l st, legal_all (fun _ => None) l /\ ctn_changes l [] = Ok st
  /\ fold_left edit l (fun _ => None) 1%N = Some {| e_map := "specified"; e_name := Some "guest"%string; e_fp := Some "04:01"%string |}
  /\ st = [{| c_id := 1; c_name := Some "admin"%string; c_map := "specified"; c_fp := Some "04:01"%string |}].
Proof.
  exists [CtnCreate 1 "specified" (Some "admin"%string) (Some "04:01"%string); CtnMap 1 "specified" (Some "guest"%string)]. eexists.
  split; [|split; [reflexivity|split; reflexivity]].
  cbn [legal_all legal]. unfold legal_entry. cbn. repeat split; auto; try discriminate; try tauto.
Qed.

Example c78_case : exists st, ctn_changes [CtnCreate 5 "san-any" None (Some "04:05"%string); CtnCreate 1 "specified" (Some "a"%string) None;
    CtnCreate 3 "common-name" None (Some "04:03"%string); CtnFp 1 (Some "04:01"%string); CtnDelete 5] [] = Ok st
  /\ map c_id st = [1; 3]%N /\ map c_fp st = [Some "04:01"; Some "04:03"]%string.
Proof. eexists. split; [reflexivity|]. split; reflexivity. Qed.

(* ------------------------------------------------------------------ *)
(** ** C79: a new configuration *)

(** The name libssh has for an algorithm of the YANG modules. *)
Inductive called : bytes -> bytes -> Prop :=
| CalledOpenssh x : called (bs "openssh-" ++ x) (x ++ bs "@openssh.com")
| CalledLibssh x : called (bs "libssh-" ++ x) (x ++ bs "@libssh.org")
| CalledSame a : (forall x, a <> bs "openssh-" ++ x) -> (forall x, a <> bs "libssh-" ++ x) -> called a a.
(** The name OpenSSL has for a cipher suite: each small letter is the capital one, each dash an underscore. *)
Definition small := bs "abcdefghijklmnopqrstuvwxyz".
Definition capital := bs "ABCDEFGHIJKLMNOPQRSTUVWXYZ".
Inductive spelt : ascii -> ascii -> Prop :=
| SpeltDash : spelt "-"%char "_"%char
| SpeltLetter i c d : nth_error small i = Some c -> nth_error capital i = Some d -> spelt c d
| SpeltSame c : c <> "-"%char -> ~ In c small -> spelt c c.

Lemma called_libssh a n : called a n -> n = libssh_name a.
Proof.
  intros [x|x|x N1 N2]; unfold libssh_name.
  - reflexivity.
  - reflexivity.
  - destruct (prefixb (bs "openssh-") x) eqn:E; [apply prefixb_spec in E; destruct E as [y ->]; exfalso; exact (N1 y eq_refl)|].
    destruct (prefixb (bs "libssh-") x) eqn:F; [apply prefixb_spec in F; destruct F as [y ->]; exfalso; exact (N2 y eq_refl)|]. reflexivity.
Qed.
Lemma spelt_upper c d : spelt c d -> d = upper c.
Proof.
  intros [|i x y H1 H2|x N1 N2].
  - reflexivity.
  - do 26 (destruct i as [|i]; [injection H1 as <-; injection H2 as <-; reflexivity|]). exfalso. destruct i; discriminate H1.
  - destruct x as [b0 b1 b2 b3 b4 b5 b6 b7].
    destruct b0, b1, b2, b3, b4, b5, b6, b7; try reflexivity; exfalso; (apply N1; reflexivity) || (apply N2; cbn; tauto).
Qed.
Theorem c79_algorithms : forall l ns, Forall2 called l ns -> alg_changes (map (fun a => (Create, a)) l) None = Ok (text ","%char ns).
Proof.
  intros l ns F. rewrite c75_created. do 2 f_equal. induction F as [|a n l ns H _ IH]; [reflexivity|]. cbn [map]. rewrite IH, (called_libssh _ _ H). reflexivity.
Qed.
Theorem c79_suites : forall l ns, Forall2 (Forall2 spelt) l ns -> cipher_changes (map (fun a => (Create, a)) l) None = Ok (text ":"%char ns).
Proof.
  intros l ns F. rewrite c76_created. do 2 f_equal. induction F as [|a n l ns H _ IH]; [reflexivity|]. cbn [map]. rewrite IH. f_equal.
  induction H as [|c d a n H _ IH2]; [reflexivity|]. cbn [map]. rewrite IH2, (spelt_upper _ _ H). reflexivity.
Qed.
Example c79_case : Forall2 called [bs "openssh-aes256-gcm"; bs "aes128-ctr"] [bs "aes256-gcm@openssh.com"; bs "aes128-ctr"]
  /\ Forall2 spelt (bs "tls-aes") (bs "TLS_AES").
Proof.
  split.
  - constructor; [exact (CalledOpenssh (bs "aes256-gcm"))|]. constructor; [|constructor].
    constructor; intros x X; discriminate X.
  - repeat constructor; [apply (SpeltLetter 19) | apply (SpeltLetter 11) | apply (SpeltLetter 18) | apply (SpeltLetter 0) | apply (SpeltLetter 4) | apply (SpeltLetter 18)]; reflexivity.
Qed.

Print Assumptions c75_created.
Print Assumptions c75_history_partial.
Print Assumptions c75_never.
Print Assumptions c75_only.
Print Assumptions c75_kept_refuted.
Print Assumptions c75_lost_refuted.
Print Assumptions c75_order_refuted.
Print Assumptions c75_before_refuted.
Print Assumptions c75_direction_refuted.
Print Assumptions c76_created.
Print Assumptions c76_never.
Print Assumptions c76_full_refuted.
Print Assumptions c77_bits.
Print Assumptions c77_openssl_partial.
Print Assumptions c77_gap_refuted.
Print Assumptions c77_mbedtls_partial.
Print Assumptions c77_mbedtls_refuted.
Print Assumptions c78_entries_partial.
Print Assumptions c78_map_refuted.
Print Assumptions c78_name_refuted.
Print Assumptions c80_entries.
Print Assumptions c75_to_client.
Print Assumptions c79_algorithms.
Print Assumptions c79_suites.
