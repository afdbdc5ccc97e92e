(** C265, C266: the public key that a configuration has beside a private key. *)
From Coq Require Import Ascii String NArith ZArith Bool Lia List.
From Verif Require Import Bytes CStr SshAuth SshKeys Prop_SshKeys KeyFiles Prop_KeyFiles.
Import ListNotations.
Local Open Scope N_scope.
Local Open Scope list_scope.

(** ** Specification *)

(** The TLS library writes public keys as PEM (RFC 7468 section 13). *)
Definition writes_public (L : keylibs) : Prop :=
  forall k s, kl_pub_export L k = Some s -> exists text, is_pem (bs "PUBLIC KEY") text s.

(** The text of a public key in one of the formats: base64 of the encoding of SSH, or what is between the lines of the PEM text. *)
Definition public_text (L : keylibs) (ssh : bool) (k : pkey) (s : bytes) : Prop :=
  if ssh then exists b, is_base64 s b /\ ssh_blob k b
  else exists pem, kl_pub_export L k = Some pem /\ is_pem (bs "PUBLIC KEY") s pem.

(** Keys the SSH text is right for; the others are C111. *)
Definition sshable (k : pkey) : Prop := exists e n, k = Rsa e n /\ real_rsa e n.

(** The key of a public key file in the PEM format. *)
Definition pem_public_file (f : bytes) : Prop := exists rest, f = bs "-----BEGIN PUBLIC KEY-----" ++ [NL] ++ rest.

(** A pair as it is stored: both texts are of one and the same key. *)
Definition pair_of (L : keylibs) (ssh : bool) (f : bytes) (t : bytes) (p : option bytes) : Prop :=
  exists k pem label s, key_in L f k pem /\ is_pem label t pem /\ p = Some s /\ public_text L ssh k s.

(** The full claim: every pair that is stored is a pair. *)
Definition c265_full : Prop := forall lib L priv pub ssh t fm p, writes_pem L -> writes_public L ->
  get_asym_key_pair lib L priv pub ssh = POk (t, fm, p) -> exists f, priv = Some f /\
  ((ssh = true -> forall k pem, key_in L f k pem -> sshable k) -> pair_of L ssh f t p).

(** ** Proofs *)

Lemma spki_text L k s : writes_public L -> pkey_to_spki_pubkey (kl_pub_export L) k = POk s -> public_text L false k s.
Proof.
  intros W. unfold pkey_to_spki_pubkey. destruct (kl_pub_export L k) as [pem|] eqn:E; [|discriminate]. intros [= <-].
  destruct (W _ _ E) as [text P]. exists pem. split; [exact E|]. destruct P as (A & B & C).
  assert (X : pem = header PUBLIC ++ text ++ footer PUBLIC).
  { rewrite C. unfold header, footer, PUBLIC. rewrite <- !app_assoc. reflexivity. }
  rewrite X. rewrite X in B. rewrite strip_app by exact B. rewrite <- X. split; [exact A|]. split; [rewrite X; exact B|exact C].
Qed.

Lemma ssh_text lib L k s : sshable k -> pkey_to_ssh_pubkey lib k = POk s -> public_text L true k s.
Proof.
  intros (e & n & -> & R) E. destruct (c112_encoding lib e n R) as (s' & b & E' & B & S1). rewrite E in E'. injection E' as <-.
  exists b. auto.
Qed.

Lemma private_key L priv fm t k : writes_pem L -> get_privkey L priv = Some (fm, t, k) ->
  exists f pem label, priv = Some f /\ key_in L f k pem /\ is_pem label t pem.
Proof.
  intros W G.
  unfold get_privkey in G. destruct priv as [f|]; [|discriminate]. destruct (getlines [] f); [discriminate|].
  destruct (get_privkey_format (cstr b)) as [g|]; [|discriminate]. destruct W as [W1 W2].
  assert (Y : exists s, key_in L f k s /\ (exists label text, is_pem label text s) /\ get_privkey_format s = Some fm /\ pem_strip s = Some t).
  { unfold key_in. destruct g; [destruct (kl_tls_import L f) as [k1|] eqn:I; [|discriminate]; destruct (kl_tls_export L k1) as [s|] eqn:X; [|discriminate] ..|
      destruct (kl_ssh_export L f) as [s|] eqn:I; [|discriminate]; destruct (kl_tls_parse L s) as [k1|] eqn:X; [|discriminate]];
    (destruct (get_privkey_format s) as [g'|] eqn:F; [|discriminate]; destruct (pem_strip s) as [t'|] eqn:T; [|discriminate]; injection G as -> -> ->);
    exists s; (split; [auto|split; [eauto|split; assumption || reflexivity]]). }
  destruct Y as (s & K & (label & text & P) & F & T). destruct (format_strip _ _ _ _ _ P F T) as [-> ->].
  exists f, s, (label_of fm). auto.
Qed.

(** Without a file of a public key the stored key is the one of the private key, in the format asked for. *)
Theorem c265_generated_partial lib L priv ssh t fm p : writes_pem L -> writes_public L ->
  get_asym_key_pair lib L priv None ssh = POk (t, fm, p) ->
  exists f, priv = Some f /\ ((ssh = true -> forall k pem, key_in L f k pem -> sshable k) -> pair_of L ssh f t p).
Proof.
  intros W WP. unfold get_asym_key_pair. destruct (get_privkey L priv) as [[[fm0 t0] k]|] eqn:G; [|discriminate].
  destruct (private_key _ _ _ _ _ W G) as (f & pem & label & -> & K & P). cbv zeta. intros E. exists f. split; [reflexivity|].
  intros S1. destruct ssh.
  - destruct (pkey_to_ssh_pubkey lib k) as [s| |] eqn:X; [|discriminate..]. injection E as <- <- <-.
    exists k, pem, label, s. split; [exact K|]. split; [exact P|]. split; [reflexivity|].
    exact (ssh_text lib L k s (S1 eq_refl k pem K) X).
  - destruct (pkey_to_spki_pubkey (kl_pub_export L) k) as [s| |] eqn:X; [|discriminate..]. injection E as <- <- <-.
    exists k, pem, label, s. split; [exact K|]. split; [exact P|]. split; [reflexivity|]. exact (spki_text L k s WP X).
Qed.

(** The same from the other side: if the libraries read and write the key, the pair is made. *)
Theorem c265_made lib L priv fm t k : writes_public L -> get_privkey L priv = Some (fm, t, k) ->
  (sshable k -> exists p, get_asym_key_pair lib L priv None true = POk (t, fm, Some p)) /\
  ((exists pem, kl_pub_export L k = Some pem) -> exists p, get_asym_key_pair lib L priv None false = POk (t, fm, Some p)).
Proof.
  intros W G. unfold get_asym_key_pair. rewrite G. cbv zeta. split.
  - intros (e & n & -> & R). destruct (c112_encoding lib e n R) as (s & b & E & _). rewrite E. exists s. reflexivity.
  - intros [pem E]. unfold pkey_to_spki_pubkey. rewrite E. eexists. reflexivity.
Qed.

(** With a file the stored key is the one of the file, in the format asked for; files of SSH2 are C113 and those of OpenSSH are read by libssh. *)
Theorem c266_file lib L priv pf ssh t fm p : writes_pem L -> writes_public L ->
  get_asym_key_pair lib L priv (Some pf) ssh = POk (t, fm, p) ->
  exists fp, pf = Some fp /\
    (ssh = false \/ pem_public_file fp -> exists k s, kl_pub_import L fp = Some k /\
       ((ssh = true -> sshable k) -> p = Some s /\ public_text L ssh k s)).
Proof.
  intros W WP. unfold get_asym_key_pair. destruct (get_privkey L priv) as [[[fm0 t0] k]|] eqn:G; [|discriminate]. cbv zeta.
  destruct ssh.
  - unfold get_ssh_pubkey_file. destruct pf as [fp|]; [|discriminate]. intros E. exists fp. split; [reflexivity|].
    intros [D|[rest ->]]; [discriminate|].
    change (([NL] ++ rest)%list) with (NL :: rest) in E.
    rewrite getlines_line in E by (intros X; vm_compute in X; repeat (destruct X as [X|X]; [discriminate|]); exact X).
    change (starts (cstr (bs "-----BEGIN PUBLIC KEY-----" ++ [NL])) (header PUBLIC)) with true in E. cbv beta iota in E.
    destruct (kl_pub_import L _) as [k1|] eqn:I; [|discriminate]. destruct (pkey_to_ssh_pubkey lib k1) as [s| |] eqn:X; [|discriminate..].
    injection E as _ _ <-. exists k1, s. split; [reflexivity|]. intros S1. split; [reflexivity|]. exact (ssh_text lib L k1 s (S1 eq_refl) X).
  - unfold get_spki_pubkey_file. destruct pf as [fp|]; [|discriminate]. intros E. exists fp. split; [reflexivity|]. intros _.
    destruct (kl_pub_import L fp) as [k1|] eqn:I; [|discriminate]. destruct (pkey_to_spki_pubkey _ k1) as [s| |] eqn:X; [|discriminate..].
    injection E as _ _ <-. exists k1, s. split; [reflexivity|]. intros _. split; [reflexivity|]. exact (spki_text L k1 s WP X).
Qed.

(** A public key that is not of the private key is stored with it. *)
Definition pub_pem (x : bytes) : bytes := bs "-----BEGIN PUBLIC KEY-----" ++ [NL] ++ x ++ [NL] ++ bs "-----END PUBLIC KEY-----" ++ [NL].
Definition two_libs : keylibs := mkLibs (fun f => if beqb f demo_pem then Some (Rsa 65537 3233) else None) (fun _ => Some demo_pem)
  (fun _ => None) (fun _ => None) (fun f => if beqb f (pub_pem (bs "MDww")) then Some (Rsa 17 2773) else None)
  (fun k => match k with Rsa 65537 _ => Some (pub_pem (bs "MCww")) | Rsa _ _ => Some (pub_pem (bs "MDww")) | _ => None end) (fun _ => None).

Lemma pub_is_pem x : lenN x < 1000 -> is_pem (bs "PUBLIC KEY") x (pub_pem x).
Proof.
  intros H. split; [intros X; vm_compute in X; repeat (destruct X as [X|X]; [discriminate|]); exact X|].
  split; [|reflexivity]. unfold pub_pem. rewrite !lenN_app'. change (lenN (bs "-----BEGIN PUBLIC KEY-----")) with 26.
  change (lenN (bs "-----END PUBLIC KEY-----")) with 24. change (lenN [NL]) with 1. lia.
Qed.
Lemma two_public : writes_public two_libs.
Proof.
  intros k s. cbn [kl_pub_export two_libs]. intros H.
  assert (s = pub_pem (bs "MCww") \/ s = pub_pem (bs "MDww")) as [->|E].
  { destruct k as [e n| |]; [|discriminate H..].
    repeat (match type of H with context [match ?x with _ => _ end] => destruct x; try discriminate H end); injection H as <-; auto. }
  - exists (bs "MCww"). apply pub_is_pem. vm_compute. reflexivity.
  - subst s. exists (bs "MDww"). apply pub_is_pem. vm_compute. reflexivity.
Qed.
Lemma two_private : writes_pem two_libs.
Proof.
  split; [|discriminate]. intros k s [= <-]. exists (bs "EC PRIVATE KEY"), (bs "MHcCAQEE" ++ [NL] ++ bs "IOhm").
  split; [intros X; vm_compute in X; repeat (destruct X as [X|X]; [discriminate|]); exact X|]. split; [vm_compute; reflexivity|reflexivity].
Qed.

Example c265_case : get_asym_key_pair OpenSSL two_libs (Some demo_pem) None false = POk (bs "MHcCAQEE" ++ [NL] ++ bs "IOhm", FmtEc, Some (bs "MCww"))
  /\ sshable (Rsa 65537 3233).
Proof. split; [vm_compute; reflexivity|]. exists 65537, 3233. split; [reflexivity|]. repeat split; vm_compute; discriminate. Qed.
Example c266_case : get_asym_key_pair OpenSSL two_libs (Some demo_pem) (Some (Some (pub_pem (bs "MDww")))) false
  = POk (bs "MHcCAQEE" ++ [NL] ++ bs "IOhm", FmtEc, Some (bs "MDww")) /\ pem_public_file (pub_pem (bs "MDww")) /\
  get_asym_key_pair OpenSSL two_libs (Some demo_pem) (Some (Some (pub_pem (bs "MDww")))) true
  = POk (bs "MHcCAQEE" ++ [NL] ++ bs "IOhm", FmtEc, Some (bs "AAAAB3NzaC1yc2EAAAABEQAAAAIK1Q==")).
Proof. split; [vm_compute; reflexivity|]. split; [eexists; reflexivity|vm_compute; reflexivity]. Qed.

Theorem c265_full_refuted : ~ c265_full.
Proof.
  intros F. destruct c266_case as [E _]. destruct (F _ _ _ _ _ _ _ _ two_private two_public E) as (f & [= <-] & H).
  destruct H as (k & pem & label & s & K & _ & [= <-] & P); [discriminate|].
  destruct P as (q & Q & R). destruct K as [[K _]|[K _]]; [|discriminate K].
  assert (k = Rsa 65537 3233) as ->.
  { revert K. cbn [kl_tls_import two_libs]. destruct (beqb demo_pem demo_pem); [intros [= <-]; reflexivity|discriminate]. }
  injection Q as <-. destruct R as (_ & _ & R). vm_compute in R. discriminate R.
Qed.

Print Assumptions c265_generated_partial.
Print Assumptions c265_made.
Print Assumptions c265_full_refuted.
Print Assumptions c266_file.
