(** C287: the host and port reported of an accepted connection.  C288: a connection that cannot be accepted is closed. *)
From Coq Require Import String Ascii List NArith Bool Lia.
From Verif Require Import Bytes AcceptHost.
Import ListNotations.
Local Open Scope list_scope.
Local Open Scope N_scope.

(** ** C287 *)

(** A port in network byte order is its high byte followed by its low byte. *)
Definition port_bytes (n : N) : N * N := (n / 256, n mod 256).

(** A client: where it is and its port. *)
Inductive client := CUnix (path : bytes) | CInet (a port : N) | CInet6 (a scope port : N).
Definition valid (c : client) : Prop :=
  match c with CUnix _ => True | CInet _ p | CInet6 _ _ p => p < 65536 end.
(** What accept() stores for it. *)
Definition as_peer (c : client) : peer :=
  match c with
  | CUnix _ => PUnix
  | CInet a p => let (hi, lo) := port_bytes p in PInet a hi lo
  | CInet6 a s p => let (hi, lo) := port_bytes p in PInet6 a s hi lo
  end.
(** inet_ntop() renders every address, and different ones differently, those of the two families too. *)
Definition renders (e : env) : Prop :=
  (forall a, exists t, ntop4 e a = Some t) /\ (forall a, exists t, ntop6 e a = Some t) /\
  (forall a b, ntop4 e a = ntop4 e b -> a = b) /\ (forall a b, ntop6 e a = ntop6 e b -> a = b) /\
  (forall a b, ntop4 e a <> ntop6 e b).

(** The English claim: from the host and the port one knows the client. *)
Definition c287_full : Prop := forall e c d, renders e -> valid c -> valid d ->
  forall h p, accepted e true true (as_peer c) = mkR true true true true (Some h) (Some p) 1 ->
    accepted e true true (as_peer d) = mkR true true true true (Some h) (Some p) 1 -> c = d.

Lemma ntohs_port n : n < 65536 -> ntohs (load16 (fst (port_bytes n)) (snd (port_bytes n))) = n.
Proof.
  intros H. unfold ntohs, load16, port_bytes. cbn [fst snd].
  assert (A : n / 256 < 256) by (apply N.div_lt_upper_bound; lia).
  assert (B : n mod 256 < 256) by (apply N.mod_lt; lia).
  rewrite (N.mul_comm 256 (n mod 256)), N.mod_add, N.div_add, (N.mod_small (n / 256)), (N.div_small (n / 256)) by lia.
  pose proof (N.div_mod n 256). lia.
Qed.

(** Of a client on IP: the port is its port, the host the rendering of its address. *)
Theorem c287_exact e c h p : valid c ->
  accepted e true true (as_peer c) = mkR true true true true (Some h) (Some p) 1 ->
  match c with
  | CUnix _ => sockname e = Some h /\ p = 0
  | CInet a q => ntop4 e a = Some h /\ p = q
  | CInet6 a _ q => ntop6 e a = Some h /\ p = q
  end.
Proof.
  intros V. unfold accepted. destruct (fcntl e); [|discriminate].
  destruct c as [path|a q|a s q]; cbn [as_peer valid] in *.
  - unfold learn, sock_host_unix. destruct (sockname e); [|discriminate]. destruct (alloc e); [|discriminate].
    intros H. injection H as <- <-. auto.
  - pose proof (ntohs_port q V) as N. unfold port_bytes in *. cbn [fst snd learn] in *. unfold sock_host_ip.
    destruct (alloc e); [|discriminate]. destruct (ntop4 e a); [|discriminate]. intros H. injection H as <- <-. auto.
  - pose proof (ntohs_port q V) as N. unfold port_bytes in *. cbn [fst snd learn] in *. unfold sock_host_ip.
    destruct (alloc e); [|discriminate]. destruct (ntop6 e a); [|discriminate]. intros H. injection H as <- <-. auto.
Qed.

(** And it is accepted if the system and the memory allow. *)
Theorem c287_accepts e c wh wp : renders e -> fcntl e = true -> alloc e = true -> sockname e <> None ->
  r_ret (accepted e wh wp (as_peer c)) = true.
Proof.
  intros (R4 & R6 & _) F A S. unfold accepted. rewrite F.
  destruct c as [path|a q|a s q]; cbn [as_peer]; unfold port_bytes, learn, sock_host_unix, sock_host_ip; rewrite A.
  - destruct (sockname e); [reflexivity|congruence].
  - destruct (R4 a) as [t ->]. reflexivity.
  - destruct (R6 a) as [t ->]. reflexivity.
Qed.

(** Proved of clients on IP that are not told apart by the scope only. *)
Definition no_scope (c : client) : Prop := match c with CUnix _ => False | CInet _ _ => True | CInet6 _ s _ => s = 0 end.
Theorem c287_partial : forall e c d, renders e -> valid c -> valid d -> no_scope c -> no_scope d ->
  forall h p, accepted e true true (as_peer c) = mkR true true true true (Some h) (Some p) 1 ->
    accepted e true true (as_peer d) = mkR true true true true (Some h) (Some p) 1 -> c = d.
Proof.
  intros e c d (_ & _ & I4 & I6 & D) Vc Vd Nc Nd h p Hc Hd.
  apply (c287_exact e c h p Vc) in Hc. apply (c287_exact e d h p Vd) in Hd.
  destruct c as [|a q|a s q], d as [|b r|b t r]; cbn in Nc, Nd; try contradiction; destruct Hc as [Hc ->], Hd as [Hd E]; subst.
  - f_equal. apply I4. congruence.
  - exfalso. apply (D a b). congruence.
  - exfalso. apply (D b a). congruence.
  - f_equal. apply I6. congruence.
Qed.

(** The rendering of IPv4 addresses, four numbers with dots, satisfies what is assumed of inet_ntop(). *)
Definition DOT : ascii := "."%char.
Definition quad (a : N) : bytes :=
  dec (a / 16777216) ++ DOT :: dec (a / 65536 mod 256) ++ DOT :: dec (a / 256 mod 256) ++ DOT :: dec (a mod 256).

Lemma cut : forall x y u v : bytes, ~ In DOT x -> ~ In DOT y -> x ++ DOT :: u = y ++ DOT :: v -> x = y /\ u = v.
Proof.
  induction x as [|c x IH]; intros [|d y] u v Hx Hy E; cbn in E.
  - injection E as ->. auto.
  - injection E as E1 E2. exfalso. apply Hy. now left.
  - injection E as E1 E2. exfalso. apply Hx. now left.
  - injection E as -> E2. destruct (IH y u v) as [-> ->]; auto; intros F; [apply Hx|apply Hy]; now right.
Qed.

Lemma dec_no_dot n : ~ In DOT (dec n).
Proof. intros H. apply dec_digits in H. discriminate H. Qed.

Lemma dec_inj a b : dec a = dec b -> a = b.
Proof. intros H. rewrite <- (dec_val a), <- (dec_val b). now rewrite H. Qed.

Theorem quad_inj a b : quad a = quad b -> a = b.
Proof.
  unfold quad. intros E. apply cut in E as [E1 E]; try apply dec_no_dot. apply cut in E as [E2 E]; try apply dec_no_dot.
  apply cut in E as [E3 E4]; try apply dec_no_dot. apply dec_inj in E1, E2, E3, E4.
  assert (A : a / 16777216 = a / 256 / 256 / 256) by (rewrite !N.div_div by lia; reflexivity).
  assert (B : b / 16777216 = b / 256 / 256 / 256) by (rewrite !N.div_div by lia; reflexivity).
  assert (A' : a / 65536 = a / 256 / 256) by (rewrite N.div_div by lia; reflexivity).
  assert (B' : b / 65536 = b / 256 / 256) by (rewrite N.div_div by lia; reflexivity).
  rewrite A, B in E1. rewrite A', B' in E2.
  pose proof (N.div_mod a 256). pose proof (N.div_mod b 256).
  pose proof (N.div_mod (a / 256) 256). pose proof (N.div_mod (b / 256) 256).
  pose proof (N.div_mod (a / 256 / 256) 256). pose proof (N.div_mod (b / 256 / 256) 256). lia.
Qed.

(** A system: the IPv6 rendering here is the number after a colon (any injective one with a colon does). *)
Definition sys : env := mkE (fun a => Some (quad a)) (fun a => Some (":"%char :: dec a)) (Some (bs "/run/nc.sock")) true true.
Lemma sys_renders : renders sys.
Proof.
  repeat split; try (intros a; eexists; reflexivity).
  - intros a b E. injection E as E. now apply quad_inj.
  - intros a b E. injection E as E. now apply dec_inj.
  - intros a b E. unfold sys in E. cbn [ntop4 ntop6] in E. injection E as E. unfold quad in E.
    pose proof (dec_nonempty (a / 16777216)) as N. pose proof (dec_digits (a / 16777216)) as D.
    destruct (dec (a / 16777216)) as [|c r]; [congruence|]. cbn [app] in E. injection E as -> _.
    specialize (D _ (or_introl eq_refl)). discriminate D.
Qed.

(** False in full: every client on a UNIX socket has the path of the server's own socket for its host, and the
    interface of a link-local address is not told. *)
Theorem c287_full_refuted : ~ c287_full.
Proof.
  intros F. specialize (F sys (CUnix (bs "/tmp/a")) (CUnix (bs "/tmp/b")) sys_renders Logic.I Logic.I (bs "/run/nc.sock") 0 eq_refl eq_refl).
  discriminate F.
Qed.
Theorem c287_scope_refuted :
  accepted sys true true (as_peer (CInet6 5 1 830)) = accepted sys true true (as_peer (CInet6 5 2 830)) /\
  r_ret (accepted sys true true (as_peer (CInet6 5 1 830))) = true.
Proof. split; reflexivity. Qed.

Example c287_example :
  accepted sys true true (as_peer (CInet 3232235777 50000)) = mkR true true true true (Some (bs "192.168.1.1")) (Some 50000) 1 /\
  valid (CInet 3232235777 50000) /\ no_scope (CInet 3232235777 50000).
Proof. split; [vm_compute; reflexivity|]. split; reflexivity. Qed.

(** ** C288 *)

(** Either the connection is handed to the caller, open and non-blocking, and exactly the memory of the host it asked for
    is allocated; or it is closed, nothing is stored and nothing allocated. *)
Theorem c288_all_or_nothing : forall e wh wp p, let r := accepted e wh wp p in
  (r_ret r = true /\ r_sock r = true /\ r_open r = true /\ r_nonblock r = true /\
   (r_host r <> None <-> wh = true) /\ (r_port r <> None <-> wp = true) /\ r_blocks r = (if wh then 1 else 0)%nat) \/
  (r_ret r = false /\ r_sock r = false /\ r_open r = false /\ r_host r = None /\ r_port r = None /\ r_blocks r = 0%nat).
Proof.
  intros e wh wp p. cbv zeta. unfold accepted. destruct (fcntl e); [|right; repeat split].
  assert (K : (exists h q, learn e p = (Some (h, q), 1%nat)) \/ learn e p = (None, 0%nat)).
  { destruct p as [|a hi lo|a s hi lo|]; cbn [learn]; unfold sock_host_unix, sock_host_ip.
    - destruct (sockname e); auto. destruct (alloc e); eauto.
    - destruct (alloc e); auto. destruct (ntop4 e a); eauto.
    - destruct (alloc e); auto. destruct (ntop6 e a); eauto.
    - auto. }
  destruct K as [(h & q & ->)| ->]; [left|right; repeat split].
  destruct wh, wp; cbn; repeat split; congruence.
Qed.

(** A connection of another family is refused. *)
Theorem c288_other e wh wp : r_ret (accepted e wh wp POther) = false.
Proof. unfold accepted. destruct (fcntl e); reflexivity. Qed.

Example c288_example :
  accepted sys false false (as_peer (CInet 1 7)) = mkR true true true true None None 0 /\
  accepted (mkE (fun _ => None) (fun _ => None) None true true) true true (as_peer (CInet 1 7)) = mkR false false false true None None 0.
Proof. split; reflexivity. Qed.

Print Assumptions c287_exact.
Print Assumptions c287_accepts.
Print Assumptions c287_partial.
Print Assumptions quad_inj.
Print Assumptions c287_full_refuted.
Print Assumptions c287_scope_refuted.
Print Assumptions c288_all_or_nothing.
Print Assumptions c288_other.
