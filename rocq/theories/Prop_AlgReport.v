(** The lists of supported SSH algorithms the server reports: C231-C233. *)
From Coq Require Import String Ascii Bool List Lia.
From Verif Require Import Bytes AlgReport.
From Verif Require Algs Prop_Algs.
Import ListNotations.
Local Open Scope string_scope.
Local Open Scope list_scope.

(* ------------------------------------------------------------------ *)
(** ** Specification *)

(** The text and the tree owned, [(false, false)] at first; [None]: released when not owned, or lost. *)
Definition own (o : option (bool * bool)) (e : ev) : option (bool * bool) :=
  match o, e with
  | Some (false, t), PathNew => Some (true, t)
  | Some (true, t), PathFree => Some (false, t)
  | Some (p, false), TreeNew => Some (p, true)
  | Some (p, true), TreeFree => Some (p, false)
  | _, _ => None
  end.
Definition owned (tr : list ev) : option (bool * bool) := fold_left own tr (Some (false, false)).

(** The four calls, each with the module it reports and the two lists. *)
Inductive kind := Hostkey | Kex | Encryption | Mac.
Definition call (k : kind) (e : env) : nat * option (list string) * list ev :=
  match k with Hostkey => get_hostkey_algs e | Kex => get_kex_algs e | Encryption => get_encryption_algs e | Mac => get_mac_algs e end.
Definition module_of (k : kind) : string :=
  match k with Hostkey => "iana-ssh-public-key-algs" | Kex => "iana-ssh-key-exchange-algs" | Encryption => "iana-ssh-encryption-algs"
             | Mac => "iana-ssh-mac-algs" end.

(** The identities the leaf-list [supported-algorithm] of a module can hold: those derived from the base identity of the module, of the module
    itself and of libnetconf2-netconf-server.  A value is written [module:identity]. *)
Definition of_module (k : kind) : list string := match k with Hostkey => pka_ids | Kex => kex_ids | Encryption => enc_ids | Mac => macs_ids end.
Inductive value_of (k : kind) : string -> string -> Prop :=
| VModule n : In n (of_module k) -> value_of k (module_of k ++ ":" ++ n)%string n
| VLn2 n : In (n, module_of k) ln2_ids -> value_of k ("libnetconf2-netconf-server:" ++ n)%string n.

(** The names of the algorithms in the protocol: RFC 4253, 4344, 4419, 5656, 6668, 8268, 8308 (rsa-sha2), 8709, 8731 and, with an "@", those of OpenSSH
    and libssh. *)
Definition protocol : list (string * string) :=
  [("ssh-ed25519", "ssh-ed25519"); ("ecdsa-sha2-nistp521", "ecdsa-sha2-nistp521"); ("ecdsa-sha2-nistp384", "ecdsa-sha2-nistp384");
   ("ecdsa-sha2-nistp256", "ecdsa-sha2-nistp256"); ("rsa-sha2-512", "rsa-sha2-512"); ("rsa-sha2-256", "rsa-sha2-256"); ("ssh-rsa", "ssh-rsa");
   ("ssh-dss", "ssh-dss");
   ("openssh-ssh-ed25519-cert-v01", "ssh-ed25519-cert-v01@openssh.com");
   ("openssh-ecdsa-sha2-nistp521-cert-v01", "ecdsa-sha2-nistp521-cert-v01@openssh.com");
   ("openssh-ecdsa-sha2-nistp384-cert-v01", "ecdsa-sha2-nistp384-cert-v01@openssh.com");
   ("openssh-ecdsa-sha2-nistp256-cert-v01", "ecdsa-sha2-nistp256-cert-v01@openssh.com");
   ("openssh-rsa-sha2-512-cert-v01", "rsa-sha2-512-cert-v01@openssh.com"); ("openssh-rsa-sha2-256-cert-v01", "rsa-sha2-256-cert-v01@openssh.com");
   ("openssh-ssh-rsa-cert-v01", "ssh-rsa-cert-v01@openssh.com"); ("openssh-ssh-dss-cert-v01", "ssh-dss-cert-v01@openssh.com");
   ("diffie-hellman-group-exchange-sha1", "diffie-hellman-group-exchange-sha1"); ("curve25519-sha256", "curve25519-sha256");
   ("ecdh-sha2-nistp256", "ecdh-sha2-nistp256"); ("ecdh-sha2-nistp384", "ecdh-sha2-nistp384"); ("ecdh-sha2-nistp521", "ecdh-sha2-nistp521");
   ("diffie-hellman-group18-sha512", "diffie-hellman-group18-sha512"); ("diffie-hellman-group16-sha512", "diffie-hellman-group16-sha512");
   ("diffie-hellman-group-exchange-sha256", "diffie-hellman-group-exchange-sha256");
   ("diffie-hellman-group14-sha256", "diffie-hellman-group14-sha256"); ("libssh-curve25519-sha256", "curve25519-sha256@libssh.org");
   ("aes256-ctr", "aes256-ctr"); ("aes192-ctr", "aes192-ctr"); ("aes128-ctr", "aes128-ctr"); ("aes256-cbc", "aes256-cbc");
   ("aes192-cbc", "aes192-cbc"); ("aes128-cbc", "aes128-cbc"); ("blowfish-cbc", "blowfish-cbc"); ("triple-des-cbc", "3des-cbc"); ("none", "none");
   ("openssh-chacha20-poly1305", "chacha20-poly1305@openssh.com"); ("openssh-aes256-gcm", "aes256-gcm@openssh.com");
   ("openssh-aes128-gcm", "aes128-gcm@openssh.com");
   ("hmac-sha2-256", "hmac-sha2-256"); ("hmac-sha2-512", "hmac-sha2-512"); ("hmac-sha1", "hmac-sha1");
   ("openssh-hmac-sha2-256-etm", "hmac-sha2-256-etm@openssh.com"); ("openssh-hmac-sha2-512-etm", "hmac-sha2-512-etm@openssh.com");
   ("openssh-hmac-sha1-etm", "hmac-sha1-etm@openssh.com")].

(* ------------------------------------------------------------------ *)
(** ** Lemmas *)

Definition qualified (p : string) (l : list string) : list string := map (fun n => (p ++ ":" ++ n)%string) l.

Lemma add_spec e p : forall names k vals tr, owned tr = Some (false, true) ->
  match add e k p names vals tr with
  | (ok, _, vals', tr') => owned tr' = Some (false, true) /\ (ok = true -> vals' = vals ++ qualified p names)
  end.
Proof.
  induction names as [|n names IH]; intros k vals tr H; cbn [add].
  - split; [exact H|]. intros _. cbn. now rewrite app_nil_r.
  - destruct (mem e k); cbn [negb]; [|split; [exact H|discriminate]].
    assert (H1 : owned ((tr ++ [PathNew]) ++ [PathFree]) = Some (false, true)).
    { unfold owned in *. rewrite !fold_left_app, H. reflexivity. }
    destruct (ly e k _); cbn [negb]; [|split; [exact H1|discriminate]].
    specialize (IH (S k) (vals ++ [(p ++ ":" ++ n)%string]) _ H1). destruct (add _ _ _ _ _ _) as [[[ok k'] vals'] tr'].
    destruct IH as [IH1 IH2]. split; [exact IH1|]. intros Hok. rewrite (IH2 Hok), <- app_assoc. reflexivity.
Qed.

Lemma get_spec e m ln2 names : match oper_get_algs e m ln2 names with
  | (ret, out, tr) => (ret = 0 /\ out = Some (qualified "libnetconf2-netconf-server" ln2 ++ qualified m names) /\ owned tr = Some (false, true))
                   \/ (ret = 1 /\ out = None /\ owned tr = Some (false, false))
  end.
Proof.
  unfold oper_get_algs. destruct (mem e 0); cbn [negb]; [|right; auto].
  destruct (ly e 0 _); cbn [negb]; [|right; auto].
  assert (H0 : owned ([PathNew] ++ [TreeNew; PathFree]) = Some (false, true)) by reflexivity.
  pose proof (add_spec e "libnetconf2-netconf-server" ln2 1 [] _ H0) as H1.
  destruct (add e 1 _ _ _ _) as [[[ok1 k1] v1] t1]. destruct H1 as [H1 H1v].
  destruct ok1; [|right; repeat split; auto; unfold owned in *; now rewrite fold_left_app, H1].
  pose proof (add_spec e m names k1 v1 t1 H1) as H2.
  destruct (add e k1 _ _ _ _) as [[[ok2 k2] v2] t2]. destruct H2 as [H2 H2v].
  destruct ok2; [|right; repeat split; auto; unfold owned in *; now rewrite fold_left_app, H2].
  left. rewrite (H2v eq_refl), (H1v eq_refl). auto.
Qed.

Lemma add_works e p : (forall k, mem e k = true) -> forall names k vals tr, (forall j n, In n names -> ly e j (p ++ ":" ++ n)%string = true) ->
  exists k' v t, add e k p names vals tr = (true, k', v, t).
Proof.
  intros Hm. induction names as [|n names IH]; intros k vals tr Hl; cbn [add]; [eauto|].
  rewrite Hm, (Hl k n (or_introl eq_refl)). cbn [negb]. apply IH. intros j n' Hn. apply Hl. now right.
Qed.

Lemma get_works e m ln2 names : (forall k, mem e k = true) -> (forall k, ly e k ("/" ++ m ++ ":supported-algorithms")%string = true) ->
  (forall j n, In n ln2 -> ly e j ("libnetconf2-netconf-server" ++ ":" ++ n)%string = true) ->
  (forall j n, In n names -> ly e j (m ++ ":" ++ n)%string = true) ->
  exists out tr, oper_get_algs e m ln2 names = (0, out, tr).
Proof.
  intros Hm Hp H1 H2. unfold oper_get_algs. rewrite Hm, Hp. cbn [negb].
  destruct (add_works e "libnetconf2-netconf-server" Hm ln2 1 [] ([PathNew] ++ [TreeNew; PathFree]) H1) as (k1 & v1 & t1 & E1). rewrite E1.
  destruct (add_works e m Hm names k1 v1 t1 H2) as (k2 & v2 & t2 & E2). rewrite E2. eauto.
Qed.

Definition ln2_of (k : kind) := match k with Hostkey => hostkey_ln2 | Kex => kex_ln2 | Encryption => encryption_ln2 | Mac => mac_ln2 end.
Definition iana_of (k : kind) := match k with Hostkey => hostkey_iana | Kex => kex_iana | Encryption => encryption_iana | Mac => mac_iana end.
Lemma call_get k e : call k e = oper_get_algs e (module_of k) (ln2_of k) (iana_of k).
Proof. now destruct k. Qed.

Lemma inb_In x l : existsb (String.eqb x) l = true -> In x l.
Proof. intros H. apply existsb_exists in H as (y & Hy & E). apply String.eqb_eq in E. now subst. Qed.
Lemma iana_known k : forall n, In n (iana_of k) -> In n (of_module k).
Proof.
  assert (H : forallb (fun n => existsb (String.eqb n) (of_module k)) (iana_of k) = true) by (destruct k; reflexivity).
  intros n Hn. apply inb_In. rewrite forallb_forall in H. auto.
Qed.
Lemma ln2_known k : forall n, In n (ln2_of k) -> In (n, module_of k) ln2_ids.
Proof.
  assert (H : forallb (fun n => existsb (fun p => String.eqb n (fst p) && String.eqb (module_of k) (snd p)) ln2_ids) (ln2_of k) = true) by (destruct k; reflexivity).
  intros n Hn. rewrite forallb_forall in H. specialize (H n Hn). apply existsb_exists in H as ([a b] & Hin & E).
  apply andb_true_iff in E as [E1 E2]. apply String.eqb_eq in E1, E2. cbn in E1, E2. now subst.
Qed.

(** The identity of a value is what follows the first colon; no module name has one. *)
Definition reported (k : kind) : list string := qualified "libnetconf2-netconf-server" (ln2_of k) ++ qualified (module_of k) (iana_of k).

Fixpoint nodupb (l : list string) : bool := match l with [] => true | x :: l => negb (existsb (String.eqb x) l) && nodupb l end.
Lemma nodupb_ok l : nodupb l = true -> NoDup l.
Proof.
  induction l as [|x l IH]; cbn; [constructor|]. intros H. apply andb_true_iff in H as [H1 H2]. constructor; [|auto].
  intros Hin. apply negb_true_iff in H1. assert (existsb (String.eqb x) l = true); [|congruence].
  apply existsb_exists. exists x. split; [exact Hin|apply String.eqb_refl].
Qed.
Lemma reported_nodup k : NoDup (reported k).
Proof. apply nodupb_ok. destruct k; reflexivity. Qed.

(* ------------------------------------------------------------------ *)
(** ** C231: all the algorithms or none, and the memory *)

(** What the memory and libyang do, is the call successful: then the tree has all the values, those of libnetconf2 first, and is the
    caller's; or it fails: then there is no tree, and all that was made is released. *)
Theorem c231_all : forall k e ret out tr, call k e = (ret, out, tr) ->
  (ret = 0 /\ out = Some (map (fun n => ("libnetconf2-netconf-server:" ++ n)%string) (ln2_of k) ++ map (fun n => (module_of k ++ ":" ++ n)%string) (iana_of k))
     /\ owned tr = Some (false, true))
  \/ (ret = 1 /\ out = None /\ owned tr = Some (false, false)).
Proof. intros k e ret out tr E. rewrite call_get in E. pose proof (get_spec e (module_of k) (ln2_of k) (iana_of k)) as H. rewrite E in H. exact H. Qed.

(** Any lists. *)
Theorem c231_any : forall e m ln2 names ret out tr, oper_get_algs e m ln2 names = (ret, out, tr) ->
  (ret = 0 /\ out = Some (map (fun n => ("libnetconf2-netconf-server:" ++ n)%string) ln2 ++ map (fun n => (m ++ ":" ++ n)%string) names)
     /\ owned tr = Some (false, true))
  \/ (ret = 1 /\ out = None /\ owned tr = Some (false, false)).
Proof. intros e m ln2 names ret out tr E. pose proof (get_spec e m ln2 names) as H. rewrite E in H. exact H. Qed.

(* ------------------------------------------------------------------ *)
(** ** C232: what is reported are identities of the YANG modules *)

Theorem c232_identities : forall k e out tr, call k e = (0, Some out, tr) -> NoDup out /\ forall v, In v out -> exists n, value_of k v n.
Proof.
  intros k e out tr E. destruct (c231_all k e _ _ _ E) as [(_ & Ho & _)|(H & _)]; [|discriminate]. injection Ho as ->.
  split; [exact (reported_nodup k)|]. intros v Hv. apply in_app_or in Hv as [Hv|Hv]; apply in_map_iff in Hv as (n & <- & Hn); exists n.
  - apply VLn2. now apply ln2_known.
  - apply VModule. now apply iana_known.
Qed.

(** So with memory, and a libyang that takes the identities of the modules for the leaf-list, each call succeeds. *)
Theorem c232_succeeds : forall k e, (forall j, mem e j = true) ->
  (forall j, ly e j ("/" ++ module_of k ++ ":supported-algorithms")%string = true) -> (forall j v n, value_of k v n -> ly e j v = true) ->
  exists out tr, call k e = (0, Some out, tr) /\ out <> [].
Proof.
  intros k e Hm Hp Hv. rewrite call_get. destruct (get_works e (module_of k) (ln2_of k) (iana_of k) Hm Hp) as (out & tr & E).
  - intros j n Hn. apply (Hv j _ n). apply VLn2. now apply ln2_known.
  - intros j n Hn. apply (Hv j _ n). apply VModule. now apply iana_known.
  - rewrite <- call_get in E. destruct (c231_all k e _ _ _ E) as [(_ & -> & _)|(H & _)]; [|discriminate].
    rewrite <- call_get. eexists _, tr. split; [exact E|]. destruct k; discriminate.
Qed.

(** And none of the algorithms of libssh that have an identity is left out: each is in one of the reports. *)
Definition kind_of (n : string) : option kind :=
  find (fun k => existsb (String.eqb n) (ln2_of k ++ iana_of k)) [Hostkey; Kex; Encryption; Mac].
Theorem c232_complete : forall n w, In (n, w) protocol ->
  exists k, forall e out tr, call k e = (0, Some out, tr) -> exists v, In v out /\ value_of k v n.
Proof.
  assert (H : forallb (fun p => match kind_of (fst p) with Some _ => true | None => false end) protocol = true) by reflexivity.
  rewrite forallb_forall in H. intros n w Hin. specialize (H _ Hin). cbn [fst] in H. destruct (kind_of n) as [k|] eqn:Ek; [|discriminate].
  exists k. intros e out tr E. destruct (c231_all k e _ _ _ E) as [(_ & Ho & _)|(H' & _)]; [|discriminate]. injection Ho as ->.
  apply find_some in Ek as [_ Ek]. apply inb_In, in_app_or in Ek as [Hn|Hn].
  - exists ("libnetconf2-netconf-server:" ++ n)%string. split; [apply in_or_app; left; now apply (in_map (fun n => ("libnetconf2-netconf-server:" ++ n)%string))|].
    apply VLn2. now apply ln2_known.
  - exists (module_of k ++ ":" ++ n)%string. split; [apply in_or_app; right; now apply (in_map (fun n => (module_of k ++ ":" ++ n)%string))|].
    apply VModule. now apply iana_known.
Qed.

(* ------------------------------------------------------------------ *)
(** ** C233: an algorithm that is reported can be configured *)

(** The names given to libssh once the identities [l] are configured, as those of their list: separated by commas.  [names_of l ns]: [ns] are the
    names of the protocol. *)
Definition names_of (l ns : list string) : Prop := Forall2 (fun n w => In (n, w) protocol) l ns.
Definition configured (l : list string) : Algs.res (option bytes) := Algs.alg_changes (map (fun n => (Algs.Create, bs n)) l) None.

Definition c233_full : Prop := forall k e out tr l, call k e = (0, Some out, tr) -> (forall n, In n l -> exists v, In v out /\ value_of k v n) ->
  exists ns, names_of l ns /\ configured l = Algs.Ok (Prop_Algs.text ","%char (map bs ns)).

Lemma split_module k v n : value_of k v n -> In v (reported k) -> In n (ln2_of k ++ iana_of k).
Proof.
  intros Hv Hin. apply in_app_or in Hin. apply in_or_app.
  assert (D : forall a b, ("libnetconf2-netconf-server:" ++ a)%string <> (module_of k ++ ":" ++ b)%string) by (intros a b; destruct k; discriminate).
  assert (I1 : forall a b, ("libnetconf2-netconf-server:" ++ a)%string = ("libnetconf2-netconf-server:" ++ b)%string -> a = b) by (intros a b [=]; auto).
  assert (I2 : forall a b, (module_of k ++ ":" ++ a)%string = (module_of k ++ ":" ++ b)%string -> a = b) by (intros a b; destruct k; intros [=]; auto).
  destruct Hv as [n Hn|n Hn]; destruct Hin as [H|H]; apply in_map_iff in H as (x & E & Hx).
  - exfalso. now apply D in E.
  - apply I2 in E as ->. now right.
  - apply I1 in E as ->. now left.
  - exfalso. symmetry in E. now apply D in E.
Qed.

Lemma wire_of k : forall n, In n (ln2_of k ++ iana_of k) -> n <> "triple-des-cbc" -> exists w, In (n, w) protocol /\ Algs.libssh_name (bs n) = bs w.
Proof.
  assert (H : forallb (fun n => String.eqb n "triple-des-cbc" || existsb (fun p => String.eqb n (fst p)
            && String.eqb (string_of_list_ascii (Algs.libssh_name (bs n))) (snd p)) protocol) (ln2_of k ++ iana_of k) = true) by (destruct k; reflexivity).
  intros n Hn Ht. rewrite forallb_forall in H. specialize (H n Hn). apply orb_true_iff in H as [H|H]; [now apply String.eqb_eq in H|].
  apply existsb_exists in H as ([a w] & Hin & E). apply andb_true_iff in E as [E1 E2]. apply String.eqb_eq in E1, E2. cbn in E1, E2. subst a.
  exists w. split; [exact Hin|]. rewrite <- E2. unfold bs. now rewrite list_ascii_of_string_of_list_ascii.
Qed.

(** True of all but [triple-des-cbc]. *)
Theorem c233_partial : forall k e out tr l, call k e = (0, Some out, tr) -> (forall n, In n l -> exists v, In v out /\ value_of k v n) ->
  ~ In "triple-des-cbc" l ->
  exists ns, names_of l ns /\ configured l = Algs.Ok (Prop_Algs.text ","%char (map bs ns)).
Proof.
  intros k e out tr l E Hl Ht. destruct (c231_all k e _ _ _ E) as [(_ & Ho & _)|(H & _)]; [|discriminate]. injection Ho as ->.
  assert (exists ns, names_of l ns /\ map bs ns = map Algs.libssh_name (map bs l)) as (ns & Hn & Em).
  { clear E. induction l as [|n l IH]; [exists []; split; [constructor|reflexivity]|].
    destruct IH as (ns & Hn & Em); [intros m Hm; apply Hl; now right|intros H; apply Ht; now right|].
    destruct (Hl n (or_introl eq_refl)) as (v & Hv & Hvn).
    destruct (wire_of k n (split_module k v n Hvn Hv)) as (w & Hw & Ew); [intros ->; apply Ht; now left|].
    exists (w :: ns). split; [now constructor|]. cbn [map]. now rewrite Em, Ew. }
  exists ns. split; [exact Hn|]. unfold configured. rewrite <- (map_map bs (fun a => (Algs.Create, a))). rewrite Prop_Algs.c75_created. now rewrite Em.
Qed.

(** [triple-des-cbc] is reported, and configured it is given to libssh as it is, a name that no protocol has. *)
Definition works : env := {| mem := fun _ => true; ly := fun _ _ => true |}.
Theorem c233_full_refuted : ~ c233_full.
Proof.
  intros H. destruct (call Encryption works) as [[ret out] tr] eqn:E.
  destruct (c231_all Encryption works _ _ _ E) as [(-> & -> & _)|(-> & _)]; [|vm_compute in E; discriminate].
  destruct (H Encryption works _ _ ["triple-des-cbc"] E) as (ns & Hn & Hc).
  - intros n [<-|[]]. exists "iana-ssh-encryption-algs:triple-des-cbc". split.
    + apply inb_In. reflexivity.
    + apply (VModule Encryption). apply inb_In. reflexivity.
  - inversion Hn as [|a w l ns' Hw Hr]; subst. inversion Hr; subst. cbn in Hc. injection Hc as Hc.
    assert (Hb : w = "triple-des-cbc").
    { rewrite <- (string_of_list_ascii_of_string w). unfold bs in Hc. rewrite <- Hc. reflexivity. }
    subst w. assert (Hf : forallb (fun p => negb (String.eqb (snd p) "triple-des-cbc")) protocol = true) by reflexivity.
    rewrite forallb_forall in Hf. specialize (Hf _ Hw). discriminate.
Qed.

(* ------------------------------------------------------------------ *)
(** ** Examples *)

Example ex_macs : fst (call Mac works) = (0, Some ["libnetconf2-netconf-server:openssh-hmac-sha2-256-etm"; "libnetconf2-netconf-server:openssh-hmac-sha2-512-etm";
  "libnetconf2-netconf-server:openssh-hmac-sha1-etm"; "iana-ssh-mac-algs:hmac-sha2-256"; "iana-ssh-mac-algs:hmac-sha2-512"; "iana-ssh-mac-algs:hmac-sha1"]).
Proof. reflexivity. Qed.
Example ex_failed : call Mac {| mem := fun k => Nat.ltb k 2; ly := fun _ _ => true |}
  = (1, None, [PathNew; TreeNew; PathFree; PathNew; PathFree; TreeFree]).
Proof. reflexivity. Qed.
Example ex_configured : configured ["openssh-hmac-sha1-etm"; "hmac-sha1"] = Algs.Ok (Some (bs "hmac-sha1-etm@openssh.com,hmac-sha1")).
Proof. reflexivity. Qed.

Print Assumptions c231_all.
Print Assumptions c231_any.
Print Assumptions c232_identities.
Print Assumptions c232_succeeds.
Print Assumptions c232_complete.
Print Assumptions c233_partial.
Print Assumptions c233_full_refuted.
