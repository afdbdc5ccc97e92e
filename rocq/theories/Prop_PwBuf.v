(** C304: the entries of the system's users are read from a buffer that is there. *)
From Coq Require Import Ascii String Arith NArith ZArith Bool Lia List.
From Verif Require Import Bytes CStr SshKeys PwBuf.
Import ListNotations.

(* ------------------------------------------------------------------ *)
(** ** Specification *)

(** The entries, for the model without buffers; those too large for the memory are not found. *)
Definition user (pw : entry bytes) (sp : entry (option bytes * Z)) : option passwd :=
  match pw with
  | Missing => None
  | Entry _ p => Some (mkPw p (match sp with Missing => None | Entry _ (h, e) => Some (mkSh h e) end))
  end.

(** Full statement: whatever the memory and the entries, memory is used rightly, the search ends, and the buffer is freed. *)
Definition c304_full : Prop := forall mem dup today pw sp, exists s r, pwd_hash mem 64 dup today pw sp = Ok s r /\ b_live s = false.

(** No system has blocks of 2^62 bytes. *)
Definition real (mem : N -> bool) : Prop := forall n, (2 ^ 62 <= n)%N -> mem n = false.

Definition need {V} (e : entry V) : N := match e with Missing => 0%N | Entry n _ => n end.

(* ------------------------------------------------------------------ *)
(** ** Lemmas *)

(** The size is 256 times a power of four below 2^62. *)
Definition sized (s : st) (i : nat) : Prop := b_size s = (4 ^ (4 + N.of_nat i))%N /\ i <= 26.

Lemma next_size i : i <= 26 -> (4 ^ (4 + N.of_nat i) * 4 mod 2 ^ 64)%N = (4 ^ (4 + N.of_nat (S i)))%N.
Proof.
  intros L. rewrite N.mul_comm, <- N.pow_succ_r'. replace (N.succ (4 + N.of_nat i)) with (4 + N.of_nat (S i))%N by lia. apply N.mod_small.
  change 4%N with (2 ^ 2)%N at 1. rewrite <- N.pow_mul_r. apply N.pow_lt_mono_r; lia.
Qed.
Lemma pow_pos i : (4 ^ (4 + N.of_nat i) <> 0)%N.
Proof. apply N.pow_nonzero. discriminate. Qed.

Lemma get_ok {V} mem (keep : V -> content) (e : entry V) : real mem -> forall fuel s i, sized s i -> b_live s = true -> 27 - i < fuel ->
  exists s' r, get mem keep fuel s e = Ok s' r /\ b_live s' = true /\
    match r with
    | Some (v, at_) => e = Entry (need e) v /\ at_ = b_id s' /\ b_content s' = keep v /\ exists j, sized s' j
    | None => e = Missing \/ exists n, mem n = false /\ (b_size s < n)%N /\ (n <= need e * 4)%N
    end.
Proof.
  intros R. induction fuel as [|fuel IH]; intros s i [Z Li] L F; [lia|]. cbn [get]. rewrite L. cbn [negb]. destruct e as [|n v].
  - eexists _, None. repeat split. now left.
  - destruct (N.leb_spec n (b_size s)) as [Le|Gt].
    + eexists _, (Some (v, b_id s)). repeat split. exists i. split; [exact Z|exact Li].
    + rewrite Z, (next_size i Li). unfold enlarge. destruct (N.eqb_spec (4 ^ (4 + N.of_nat (S i))) 0) as [Q|_]; [now apply pow_pos in Q|].
      assert (E4 : (4 ^ (4 + N.of_nat (S i)) = b_size s * 4)%N).
      { rewrite Z, N.mul_comm, <- N.pow_succ_r'. f_equal. lia. }
      assert (P : (0 < b_size s)%N) by (rewrite Z; pose proof (pow_pos i); lia).
      destruct (mem (4 ^ (4 + N.of_nat (S i)))%N) eqn:M.
      * assert (Li' : S i <= 26).
        { destruct (Nat.eq_dec i 26) as [->|]; [|lia]. rewrite R in M; [discriminate|]. apply N.leb_le. reflexivity. }
        destruct (IH {| b_id := b_made s; b_live := true; b_size := (4 ^ (4 + N.of_nat (S i)))%N; b_content := Garbage; b_made := S (b_made s) |} (S i)) as (s' & r & E & Lv & Q);
          [split; [reflexivity|exact Li']|reflexivity|lia|].
        exists s', r. cbn [b_made b_content]. rewrite E. split; [reflexivity|]. split; [exact Lv|]. destruct r as [[v' a]|]; [exact Q|].
        destruct Q as [Q|(k & K1 & K2 & K3)]; [now left|]. right. exists k. cbn [b_size] in K2. repeat split; [exact K1|lia|exact K3].
      * eexists _, None. split; [reflexivity|]. split; [reflexivity|]. right. eexists. split; [exact M|]. cbn [need]. split; lia.
Qed.

(* ------------------------------------------------------------------ *)
(** ** C304 *)

Lemma ends_ok s r : b_live s = true -> exists s', ends s r = Ok s' r /\ b_live s' = false.
Proof. intros L. unfold ends. rewrite L. eexists. split; reflexivity. Qed.

Definition filter (h : option bytes) : option bytes :=
  match h with Some h => if streq h (bs "*") || streq h (bs "!") then None else if streq h (bs "*NP*") then None else Some h | None => None end.
Lemma checks_ok s c (dup : bool) h : b_live s = true -> match h with Some _ => b_content s = c /\ c <> Garbage | None => True end ->
  exists s' r, checks s (b_id s) c dup h = Ok s' r /\ b_live s' = false /\ r = if dup then filter h else None.
Proof.
  intros L C. destruct h as [h|]; cbn [checks filter].
  - destruct C as [C G]. unfold reads. rewrite L, Nat.eqb_refl, C. cbn [negb orb].
    assert (K : exists s' r, (if streq h (bs "*") || streq h (bs "!") then ends s None else if streq h (bs "*NP*") then ends s None else ends s (if dup then Some h else None)) = Ok s' r /\
      b_live s' = false /\ r = if dup then (if streq h (bs "*") || streq h (bs "!") then None else if streq h (bs "*NP*") then None else Some h) else None).
    { assert (En : forall r, exists s' r', ends s r = Ok s' r' /\ b_live s' = false /\ r' = r) by (intros r; destruct (ends_ok s r L) as (s' & E & D); eauto).
      destruct (_ || _); [destruct (En None) as (s' & r & E & D & ->); exists s', None; destruct dup; auto|].
      destruct (streq h (bs "*NP*")); [destruct (En None) as (s' & r & E & D & ->); exists s', None; destruct dup; auto|].
      destruct (En (if dup then Some h else None)) as (s' & r & E & D & ->); exists s', (if dup then Some h else None); auto. }
    destruct c; [congruence|exact K|exact K].
  - destruct (ends_ok s None L) as (s' & E & D). exists s', None. destruct dup; auto.
Qed.

(** In every real system memory is used rightly, the search ends and the buffer is freed; what is found is the hash of the model without buffers, unless
    there was no memory for the entries. *)
Theorem c304_partial mem dup today pw sp : real mem ->
  exists s r, pwd_hash mem 64 dup today pw sp = Ok s r /\ b_live s = false /\
    (r = (if dup then get_pwd_hash today (user pw sp) else None) \/ (r = None /\ exists n, mem n = false /\ (n <= 256 \/ n <= need pw * 4 \/ n <= need sp * 4)%N)).
Proof.
  intros R. unfold pwd_hash. destruct (mem 256%N) eqn:M; cbn [negb].
  2: { eexists _, None. repeat split. right. split; [reflexivity|]. exists 256%N. split; [exact M|]. left. lia. }
  assert (NN : forall (b : bool), (if b then None else None) = (None : option bytes)) by now intros [].
  destruct (get_ok mem HasPw pw R 64 {| b_id := 0; b_live := true; b_size := 256; b_content := Garbage; b_made := 1 |} 0) as (s & r & E & L & Q);
    [split; [reflexivity|lia]|reflexivity|lia|]. rewrite E. destruct r as [[p a]|].
  - destruct Q as (Ep & -> & C & (j & Sj)). unfold reads at 1. rewrite L, Nat.eqb_refl, C. cbn [negb orb]. rewrite Ep. cbn [user get_pwd_hash pw_passwd pw_shadow].
    destruct (streq p (bs "x")) eqn:X.
    + destruct (get_ok mem (fun v => HasSp (fst v)) sp R 64 s j Sj L) as (s' & r' & E' & L' & Q'); [destruct Sj; lia|]. rewrite E'. destruct r' as [[[h ex] a']|].
      * destruct Q' as (Es & -> & C' & _). rewrite Es. cbn [sh_expire sh_pwdp].
        destruct ((-1 <? ex) && (ex <=? today))%Z.
        -- destruct (ends_ok s' None L') as (s2 & E2 & D2). exists s2, None. rewrite E2, NN. auto.
        -- destruct (checks_ok s' (HasSp h) dup h L') as (s2 & r2 & E2 & D2 & ->); [destruct h; [split; [exact C'|discriminate]|exact I]|].
           eexists s2, _. rewrite E2. split; [reflexivity|]. split; [exact D2|]. left. destruct h; reflexivity.
      * destruct (ends_ok s' None L') as (s2 & E2 & D2). exists s2, None. rewrite E2. split; [reflexivity|]. split; [exact D2|].
        destruct Q' as [->|(n & N1 & N2 & N3)]; [left; now rewrite NN|]. right. split; [reflexivity|]. exists n. auto.
    + destruct (checks_ok s (HasPw p) dup (Some p) L) as (s2 & r2 & E2 & D2 & ->); [split; [exact C|discriminate]|].
      eexists s2, _. rewrite E2. split; [reflexivity|]. split; [exact D2|]. left. reflexivity.
  - destruct (ends_ok s None L) as (s2 & E2 & D2). exists s2, None. rewrite E2. split; [reflexivity|]. split; [exact D2|].
    destruct Q as [->|(n & N1 & N2 & N3)]; [left; cbn; now rewrite NN|]. right. split; [reflexivity|]. exists n. auto.
Qed.

(** With memory for the entries the hash is found. *)
Theorem c304_found mem today pw sp : real mem -> (forall n, (n <= 256 \/ n <= need pw * 4 \/ n <= need sp * 4)%N -> mem n = true) ->
  exists s, pwd_hash mem 64 true today pw sp = Ok s (get_pwd_hash today (user pw sp)).
Proof.
  intros R M. destruct (c304_partial mem true today pw sp R) as (s & r & E & _ & [->|(_ & n & N1 & N2)]); [eauto|]. rewrite (M n N2) in N1. discriminate.
Qed.

(** If there were memory without end, the size would become zero and the buffer be freed twice. *)
Theorem c304_refuted : ~ c304_full.
Proof. intros F. destruct (F (fun _ => true) true 0%Z (Entry (2 ^ 64) []) Missing) as (s & r & E & _). vm_compute in E. discriminate. Qed.

(** Entries of 300 and 2000 bytes. *)
Example c304_case : real (fun n => (n <? 2 ^ 40)%N) /\
  match pwd_hash (fun n => (n <? 2 ^ 40)%N) 64 true 20000 (Entry 300 (bs "x")) (Entry 2000 (Some (bs "$6$a$b"), (-1)%Z)) with
  | Ok s r => r = Some (bs "$6$a$b") /\ b_size s = 4096%N /\ b_made s = 3 /\ b_live s = false
  | _ => False
  end.
Proof. split; [intros n H; apply N.ltb_ge; etransitivity; [|exact H]; apply N.leb_le; reflexivity|]. vm_compute. repeat split; reflexivity. Qed.

(** A block that was freed or is not that of the entry is never read. *)
Lemma stale {V} s a c (k : out V) : b_live s = false \/ a <> b_id s -> reads s a c k = Freed.
Proof. unfold reads. intros [-> | N]; [reflexivity|]. destruct (Nat.eqb_spec a (b_id s)); [contradiction|]. now rewrite orb_true_r. Qed.

Print Assumptions c304_partial.
Print Assumptions c304_found.
Print Assumptions c304_refuted.
