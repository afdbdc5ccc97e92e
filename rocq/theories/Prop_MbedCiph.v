(** C294-C295: cipher suites with MbedTLS. *)
From Coq Require Import Ascii String Arith NArith Bool Lia List.
From Verif Require Import Bytes CStr Algs MbedCiph.
Import ListNotations.
Local Open Scope N_scope.

(* ------------------------------------------------------------------ *)
(** ** Specification *)

Definition none : opts := {| o_ciphers := None; o_count := 0 |}.

(** A byte of the alphabet in upper case. *)
Definition up (c : ascii) : ascii :=
  match index 0 (String c "") "abcdefghijklmnopqrstuvwxyz" with
  | Some i => match get i "ABCDEFGHIJKLMNOPQRSTUVWXYZ" with Some d => d | None => c end
  | None => c
  end.

(** Suites of TLS 1.3. *)
Definition tls13 : list bytes :=
  map bs ["tls-aes-256-gcm-sha384"; "tls-aes-128-gcm-sha256"; "tls-chacha20-poly1305-sha256"; "tls-aes-128-ccm-sha256"; "tls-aes-128-ccm-8-sha256"]%string.

(** The name MbedTLS has for a suite of the YANG module. *)
Definition mbedtls_name (c : bytes) (name : bytes) : Prop :=
  (In c tls13 -> name = bs "TLS1-3-" ++ map up (skipn 4 c)) /\ (~ In c tls13 -> name = map up c).

(** A text without zero bytes. *)
Definition plain (c : bytes) : Prop := ~ In NUL c.

(** What MbedTLS is given: the numbers of the suites in their order and a zero. *)
Definition given (o : opts) (ids : list N) : Prop :=
  match o_ciphers o with Some b => b_ints b = ids ++ [0] | None => ids = [] end.

(** The numbers of suites that MbedTLS knows by the name [f c]. *)
Definition ids (lib : bytes -> N) (f : bytes -> bytes) (l : list bytes) : list N := map (fun c => lib (f c)) l.

(** Full statement of C294: whichever suites are created that MbedTLS knows, they are what it is given; blocks have as many bytes as were asked for. *)
Definition c294_full : Prop := forall lib l, (forall c, In c l -> plain c /\ ~ In c tls13 /\ lib (map up c) <> 0) ->
  exists o, create_all lib (fun n => n) none l = Done o /\ given o (ids lib (map up) l).

(** Full statement of C295: MbedTLS is asked for each suite by its name. *)
Definition c295_full : Prop := forall c, plain c -> exists name, process c = Some name /\ mbedtls_name c name.

(* ------------------------------------------------------------------ *)
(** ** Names *)

Lemma toupper_up c : toupper c = up c.
Proof. destruct c as [[|] [|] [|] [|] [|] [|] [|] [|]]; vm_compute; reflexivity. Qed.

Lemma toupper_nul c : c <> NUL -> toupper c <> NUL.
Proof. destruct c as [[|] [|] [|] [|] [|] [|] [|] [|]]; vm_compute; congruence. Qed.

Lemma map_up l : map toupper l = map up l.
Proof. apply map_ext, toupper_up. Qed.

Lemma cstr_plain a b : plain a -> cstr (a ++ NUL :: b) = a.
Proof.
  induction a as [|c a IH]; intros P; cbn [app cstr]; [reflexivity|]. destruct (Ascii.eqb_spec c NUL) as [E|E].
  - exfalso. apply P. now left.
  - f_equal. apply IH. intros I. apply P. now right.
Qed.

Lemma plain_up a : plain a -> plain (map toupper a).
Proof. intros P I. apply in_map_iff in I. destruct I as (c & E & I). apply (toupper_nul c); [intros ->; contradiction|exact E]. Qed.

Lemma beqb_iff a : forall b, beqb a b = true <-> a = b.
Proof.
  induction a as [|x a IH]; intros [|y b]; cbn [beqb]; try (split; [discriminate|discriminate]); [tauto|].
  rewrite andb_true_iff, Ascii.eqb_eq, IH. split; [intros [-> ->]; reflexivity|intros E; injection E as -> ->; auto].
Qed.

Lemma is_tls13_in c : is_tls13 c = true <-> In c tls13.
Proof.
  unfold is_tls13. rewrite existsb_exists. unfold streq. split.
  - intros (x & I & E). apply beqb_iff in E. subst. exact I.
  - intros I. exists c. split; [exact I|now apply beqb_iff].
Qed.

Lemma put_ok cap new buf : lenN new <= cap -> put cap new buf = Some (new ++ skipn (length new) buf).
Proof. intros H. unfold put. destruct (N.ltb_spec cap (lenN new)); [lia|reflexivity]. Qed.

(** Suites before TLS 1.3 are asked for in upper case. *)
Lemma process_old c : plain c -> ~ In c tls13 -> process c = Some (map up c).
Proof.
  intros P N. unfold process. destruct (is_tls13 c) eqn:T; [apply is_tls13_in in T; contradiction|].
  rewrite put_ok; [|unfold lenN; rewrite app_length, map_length; cbn; lia]. rewrite <- app_assoc. cbn [app]. rewrite cstr_plain by now apply plain_up.
  now rewrite map_up.
Qed.

(** C295: the prefix of those of TLS 1.3 is overwritten: they are asked for by names that are not theirs. *)
Theorem c295_names_partial c : plain c ->
  (~ In c tls13 -> exists name, process c = Some name /\ mbedtls_name c name) /\
  (In c tls13 -> process c = Some (map up (skipn 4 c)) /\ ~ mbedtls_name c (map up (skipn 4 c))).
Proof.
  intros P. split.
  - intros N. exists (map up c). split; [now apply process_old|]. split; [contradiction|reflexivity].
  - intros I. split.
    + unfold tls13 in I. cbn [map In] in I. repeat destruct I as [<-|I]; try (vm_compute; reflexivity). destruct I.
    + intros [H _]. specialize (H I). apply (f_equal (@length ascii)) in H. rewrite app_length in H. cbn [length bs list_ascii_of_string] in H. lia.
Qed.

Theorem c295_refuted : ~ c295_full.
Proof.
  intros F. assert (P : plain (bs "tls-aes-256-gcm-sha384")) by (vm_compute; intuition discriminate).
  destruct (F _ P) as (name & E & M). destruct (proj2 (c295_names_partial _ P)) as [G N]; [now left|]. rewrite G in E. injection E as <-. contradiction.
Qed.

(** Thus no suite of TLS 1.3 can be configured if MbedTLS only knows names that begin with "TLS". *)
Theorem c295_refused lib us o c : (forall n, firstn 3 n <> bs "TLS" -> lib n = 0) -> In c tls13 -> create lib us o c = Refused o.
Proof.
  intros L I. assert (P : plain c) by (unfold tls13 in I; cbn [map In] in I; repeat destruct I as [<-|I]; [..|destruct I]; vm_compute; intuition discriminate).
  unfold create. rewrite (proj1 (proj2 (c295_names_partial c P) I)). unfold append_suite. rewrite L; [reflexivity|].
  unfold tls13 in I. cbn [map In] in I. repeat destruct I as [<-|I]; try (vm_compute; discriminate). destruct I.
Qed.

(* ------------------------------------------------------------------ *)
(** ** The array *)

Lemma set_end b i v l : b_ints b = l ++ [0] -> N.to_nat i = length l -> 4 * i + 4 <= b_bytes b ->
  set b i v = Some {| b_bytes := b_bytes b; b_ints := l ++ [v] |}.
Proof.
  intros E I S. unfold set. destruct (N.ltb_spec (b_bytes b) (4 * i + 4)); [lia|]. rewrite E, I. rewrite firstn_app, Nat.sub_diag, firstn_all. cbn [firstn].
  rewrite app_nil_r, skipn_all2 by (rewrite app_length; cbn; lia). reflexivity.
Qed.

Lemma set_after b i v l : b_ints b = l -> N.to_nat i = length l -> 4 * i + 4 <= b_bytes b ->
  set b i v = Some {| b_bytes := b_bytes b; b_ints := l ++ [v] |}.
Proof.
  intros E I S. unfold set. destruct (N.ltb_spec (b_bytes b) (4 * i + 4)); [lia|]. rewrite E, I, firstn_all, skipn_all2 by lia. reflexivity.
Qed.

Lemma set_beyond b i v : b_bytes b < 4 * i + 4 -> set b i v = None.
Proof. intros H. unfold set. destruct (N.ltb_spec (b_bytes b) (4 * i + 4)); [reflexivity|lia]. Qed.

Definition state (o : opts) (l : list N) : Prop := given o l /\ o_count o = lenN l /\ (o_ciphers o = None <-> l = []).

(** One more suite: whether there is room for it and the zero. *)
Lemma append_one lib us o l name : state o l -> lenN l + 1 < 65536 -> lib name <> 0 ->
  if 4 * (lenN l + 2) <=? us (lenN l + 2) then exists o', append_suite lib us o name = Done o' /\ state o' (l ++ [lib name])
  else append_suite lib us o name = Overflow.
Proof.
  intros (G & C & Z) B K. unfold append_suite. apply N.eqb_neq in K. rewrite K. unfold given in G.
  destruct (o_ciphers o) as [b|].
  - rewrite C, N.mod_small by lia. rewrite N.mul_1_r. assert (LN : N.to_nat (lenN l) = length l) by (unfold lenN; lia).
    set (x := us (lenN l + 2)). destruct (N.leb_spec (4 * (lenN l + 2)) x) as [H|H].
    + rewrite (set_end {| b_bytes := x; b_ints := b_ints b |} (lenN l) (lib name) l); [|exact G|exact LN|cbn [b_bytes]; lia]. cbn [b_bytes].
      rewrite (set_after {| b_bytes := x; b_ints := l ++ [lib name] |} (lenN l + 1) 0 (l ++ [lib name])); [|reflexivity|rewrite app_length; cbn [length]; unfold lenN; lia|cbn [b_bytes]; lia].
      eexists. split; [reflexivity|]. split; [reflexivity|]. cbn [o_count o_ciphers]. split; [unfold lenN; rewrite app_length; cbn [length]; lia|].
      split; [discriminate|]. destruct l; discriminate.
    + destruct (N.leb_spec (4 * lenN l + 4) x) as [H2|H2].
      * rewrite (set_end {| b_bytes := x; b_ints := b_ints b |} (lenN l) (lib name) l); [|exact G|exact LN|cbn [b_bytes]; lia].
        rewrite set_beyond; [reflexivity|cbn [b_bytes]; lia].
      * rewrite set_beyond; [reflexivity|cbn [b_bytes]; lia].
  - subst l. change (lenN []) with 0. change (0 + 2) with 2. change (2 * 1) with 2. change (4 * 2) with 8. destruct (N.leb_spec 8 (us 2)) as [H|H].
    + rewrite (set_after {| b_bytes := us 2; b_ints := [] |} 0 (lib name) []); [|reflexivity|reflexivity|cbn [b_bytes]; lia]. cbn [b_bytes app].
      rewrite (set_after {| b_bytes := us 2; b_ints := [lib name] |} 1 0 [lib name]); [|reflexivity|reflexivity|cbn [b_bytes]; lia].
      eexists. split; [reflexivity|]. split; [reflexivity|]. split; [reflexivity|]. split; discriminate.
    + destruct (N.leb_spec 4 (us 2)) as [H2|H2].
      * rewrite (set_after {| b_bytes := us 2; b_ints := [] |} 0 (lib name) []); [|reflexivity|reflexivity|cbn [b_bytes]; lia].
        rewrite set_beyond; [reflexivity|cbn [b_bytes]; lia].
      * rewrite set_beyond; [reflexivity|cbn [b_bytes]; lia].
Qed.

Definition known (lib : bytes -> N) (c : bytes) : Prop := plain c /\ ~ In c tls13 /\ lib (map up c) <> 0.

Lemma create_known lib us o c : known lib c -> create lib us o c = append_suite lib us o (map up c).
Proof. intros (P & N & _). unfold create. now rewrite process_old. Qed.

Lemma create_more lib us : forall l o l0, state o l0 -> (forall c, In c l -> known lib c) -> lenN l0 + lenN l < 65536 ->
  (forall k, lenN l0 <= k < lenN l0 + lenN l -> 4 * (k + 2) <= us (k + 2)) ->
  exists o', create_all lib us o l = Done o' /\ state o' (l0 ++ ids lib (map up) l).
Proof.
  induction l as [|c l IH]; intros o l0 S K B U; cbn [create_all].
  - exists o. split; [reflexivity|]. cbn. now rewrite app_nil_r.
  - assert (LC : lenN (c :: l) = lenN l + 1) by (unfold lenN; cbn [length]; lia). rewrite LC in *.
    rewrite create_known by (apply K; now left). pose proof (append_one lib us o l0 (map up c) S ltac:(lia)) as A.
    specialize (A (proj2 (proj2 (K c (or_introl eq_refl))))). pose proof (U (lenN l0) ltac:(lia)) as U0. apply N.leb_le in U0. rewrite U0 in A.
    destruct A as (o1 & -> & S1). destruct (IH o1 _ S1) as (o2 & E & S2).
    + intros x I. apply K. now right.
    + unfold lenN in *. rewrite app_length. cbn [length]. lia.
    + intros k H. apply U. unfold lenN in *. rewrite app_length in H. cbn [length] in H. lia.
    + exists o2. split; [exact E|]. cbn [ids map]. rewrite <- app_assoc in S2. exact S2.
Qed.

(** C294: if the blocks happen to be large enough, the suites created are what MbedTLS is given. *)
Theorem c294_array_partial lib us l : (forall c, In c l -> plain c /\ ~ In c tls13 /\ lib (map up c) <> 0) -> lenN l < 65536 ->
  (forall k, k < lenN l -> 4 * (k + 2) <= us (k + 2)) ->
  exists o, create_all lib us none l = Done o /\ given o (ids lib (map up) l) /\ o_count o = lenN l.
Proof.
  intros K B U. destruct (create_more lib us l none [] ltac:(split; [reflexivity|split; [reflexivity|split; reflexivity]]) K) as (o & E & G & C & _).
  - exact B.
  - intros k H. apply U. change (lenN []) with 0 in H. lia.
  - exists o. split; [exact E|]. split; [exact G|]. rewrite C. unfold ids, lenN. cbn [app]. now rewrite map_length.
Qed.

(** They need not be: the first suite is already written beyond the two bytes that are asked for. *)
Theorem c294_overflow lib c : plain c -> ~ In c tls13 -> lib (map up c) <> 0 -> create lib (fun n => n) none c = Overflow.
Proof.
  intros P N K. rewrite create_known by (split; auto).
  pose proof (append_one lib (fun n => n) none [] (map up c) ltac:(split; [reflexivity|split; [reflexivity|split; reflexivity]]) ltac:(reflexivity) K) as A.
  exact A.
Qed.

Theorem c294_refuted : ~ c294_full.
Proof.
  intros F. destruct (F (fun _ => 1) [bs "tls-rsa-with-aes-128-cbc-sha"]) as (o & E & _).
  - intros c [<-|[]]. split; [vm_compute; intuition discriminate|]. split; [|discriminate].
    intros I. apply is_tls13_in in I. vm_compute in I. discriminate.
  - vm_compute in E. discriminate.
Qed.

(** malloc() of the C library of GNU: blocks of 24, 40, 56, ... bytes. *)
Definition glibc (n : N) : N := if n <=? 24 then 24 else (n + 23) / 16 * 16 - 8.

(** With it there is room for five suites; whoever configures more destroys the heap. *)
Theorem c294_glibc lib l : (forall c, In c l -> plain c /\ ~ In c tls13 /\ lib (map up c) <> 0) ->
  (lenN l <= 5 -> exists o, create_all lib glibc none l = Done o /\ given o (ids lib (map up) l)) /\
  (5 < lenN l -> create_all lib glibc none l = Overflow).
Proof.
  intros K. split; intros B.
  - destruct (c294_array_partial lib glibc l K ltac:(lia)) as (o & E & G & _); [|eauto].
    intros k H. unfold glibc. destruct (N.leb_spec (k + 2) 24); lia.
  - destruct l as [|a [|b [|c [|d [|e [|f l]]]]]]; try (vm_compute in B; discriminate).
    destruct (create_more lib glibc [a; b; c; d; e] none [] ltac:(split; [reflexivity|split; [reflexivity|split; reflexivity]])) as (o & E & S).
    + intros x I. apply K. cbn [In] in *. tauto.
    + reflexivity.
    + intros k H. unfold glibc. change (lenN [a; b; c; d; e]) with 5 in H. change (lenN []) with 0 in H. destruct (N.leb_spec (k + 2) 24); lia.
    + assert (Q : forall l1 o1 l2, create_all lib glibc o1 (l1 ++ l2) = match create_all lib glibc o1 l1 with Done o => create_all lib glibc o l2 | r => r end).
      { induction l1 as [|x l1 IH]; intros o1 l2; cbn [app create_all]; [reflexivity|]. destruct (create lib glibc o1 x); auto. }
      change (a :: b :: c :: d :: e :: f :: l) with ([a; b; c; d; e] ++ f :: l). rewrite Q, E. cbn [create_all].
      assert (Kf : known lib f) by (apply K; cbn; tauto). rewrite create_known by exact Kf.
      pose proof (append_one lib glibc o _ (map up f) S ltac:(reflexivity) (proj2 (proj2 Kf))) as A.
      change (lenN ([] ++ ids lib (map up) [a; b; c; d; e])) with 5 in A. change (4 * (5 + 2) <=? glibc (5 + 2)) with false in A.
      cbv iota in A. now rewrite A.
Qed.

(** A suite is never removed again: the numbers are searched for its name. *)
Lemma occ_long needle : forall s, (length s < length needle)%nat -> occ s needle = None.
Proof.
  assert (P : forall a b, prefixb a b = true -> (length a <= length b)%nat).
  { induction a as [|x a IH]; intros [|y b]; cbn [prefixb length]; intros H; try lia; try discriminate. apply andb_true_iff in H. destruct H as [_ H]. specialize (IH b H). lia. }
  induction s as [|c s IH]; intros H; cbn [occ].
  - destruct (prefixb needle []) eqn:E; [apply P in E; cbn in *; lia|reflexivity].
  - destruct (prefixb needle (c :: s)) eqn:E; [apply P in E; lia|]. rewrite IH; [reflexivity|cbn in H; lia].
Qed.

Theorem c294_never_removed o l c : given o l -> l <> [] -> (forall i, In i l -> i < 65536) -> (2 < length c)%nat ->
  exists t, delete o c = Fail t.
Proof.
  intros G N B C. unfold delete, given in *. destruct (o_ciphers o) as [b|]; [|contradiction]. rewrite G.
  destruct l as [|i l]; [contradiction|]. cbn [app map concat int_bytes]. specialize (B i (or_introl eq_refl)).
  assert (Z : i / 65536 mod 256 = 0) by (rewrite N.div_small by exact B; reflexivity). rewrite Z.
  set (t := cstr _). assert (L : (length t <= 2)%nat).
  { subst t. cbn [app cstr]. destruct (Ascii.eqb _ NUL); [cbn; lia|]. destruct (Ascii.eqb _ NUL); [cbn; lia|]. cbn. lia. }
  exists t. cbn [remove]. unfold delete_substring. cbn [del_from skipn]. rewrite occ_long by lia. reflexivity.
Qed.

(** Without suites, NULL is searched. *)
Theorem c294_null_refuted c : delete none c = Undef.
Proof. reflexivity. Qed.

(* ------------------------------------------------------------------ *)
(** ** Examples *)

(** The bytes of a number in memory give the number back, with the least first. *)
Theorem c294_int_bytes n : (n < 4294967296)%N ->
  exists a b c d, int_bytes n = [a; b; c; d] /\ (N_of_ascii a + 256 * (N_of_ascii b + 256 * (N_of_ascii c + 256 * N_of_ascii d)) = n)%N.
Proof.
  intros H. unfold int_bytes. do 4 eexists. split; [reflexivity|].
  rewrite !N_ascii_embedding by (apply N.mod_lt; discriminate).
  change 65536%N with (256 * 256)%N. change 16777216%N with (256 * 256 * 256)%N. rewrite <- !N.div_div by discriminate.
  rewrite (N.mod_small (n / 256 / 256 / 256)%N 256%N).
  2: { rewrite !N.div_div by discriminate. apply N.div_lt_upper_bound; [discriminate|exact H]. }
  rewrite (N.add_comm ((n / 256 / 256) mod 256)%N), <- N.div_mod by discriminate.
  rewrite (N.add_comm ((n / 256) mod 256)%N), <- N.div_mod by discriminate.
  rewrite (N.add_comm (n mod 256)%N), <- N.div_mod by discriminate. reflexivity.
Qed.

Definition lib0 (n : bytes) : N := if beqb n (bs "TLS-RSA-WITH-AES-128-CBC-SHA") then 47 else if beqb n (bs "TLS-RSA-WITH-AES-256-CBC-SHA") then 53 else 0.
Example c294_case : create_all lib0 glibc none [bs "tls-rsa-with-aes-256-cbc-sha"; bs "tls-rsa-with-aes-128-cbc-sha"] =
  Done {| o_ciphers := Some {| b_bytes := 24; b_ints := [53; 47; 0] |}; o_count := 2 |}.
Proof. vm_compute. reflexivity. Qed.
Example c295_case : process (bs "tls-aes-256-gcm-sha384") = Some (bs "AES-256-GCM-SHA384") /\ create lib0 glibc none (bs "tls-aes-256-gcm-sha384") = Refused none.
Proof. split; vm_compute; reflexivity. Qed.

Print Assumptions c294_array_partial.
Print Assumptions c294_overflow.
Print Assumptions c294_refuted.
Print Assumptions c294_glibc.
Print Assumptions c294_never_removed.
Print Assumptions c294_null_refuted.
Print Assumptions c295_names_partial.
Print Assumptions c295_refuted.
Print Assumptions c295_refused.
Print Assumptions c294_int_bytes.
