(** C174-C179: UNIX sockets are where they were asked for, with the permissions configured before anyone can connect; nothing
    is left behind; clients reach the socket they name; sessions belong to the user that connected. *)
From Coq Require Import Ascii String ZArith Bool Lia List.
From Verif Require Import Bytes UnixSock.
Import ListNotations.
Local Open Scope Z_scope.

(* ------------------------------------------------------------------ *)
(** ** Specification *)

(** The socket got from the system is a new one. *)
Definition new (fd : nat) (w : world) : Prop :=
  w_open w fd = false /\ w_listen w fd = false /\ forall p m u g, w_fs w p <> Some (Sock fd m u g).
Definition fair (e : env) (w : world) : Prop := forall fd, e_socket e = Some fd -> new fd w.

(** [s] listens at [p]. *)
Definition listens_at (w : world) (fd : nat) (p : bytes) : Prop :=
  w_listen w fd = true /\ exists m u g, w_fs w p = Some (Sock fd m u g).

(** C174, in full: after success the socket listens at the address; other files stay as they are, whatever happens. *)
Definition c174_full : Prop := forall e o w r h, fair e w -> listen_unix e o w = (r, h) ->
  (forall fd, r = Some fd -> listens_at (last_world w h) fd (o_address o)) /\
  (forall w' p, In w' h -> p <> o_address o -> w_fs w' p = w_fs w p).

(** The permissions of a file are those configured, as far as they are. *)
Definition as_configured (o : unix_opts) (f : file) : Prop :=
  match f with
  | Sock _ m u g => (forall x, o_mode o = Some x -> m = x) /\ (forall x, o_uid o = Some x -> u = x) /\ (forall x, o_gid o = Some x -> g = x)
  | Other => True
  end.

(** C176, in full: after a failure no file of the socket is left; after removal neither. *)
Definition no_socket (w : world) (fd : nat) : Prop :=
  w_open w fd = false /\ w_listen w fd = false /\ forall p m u g, w_fs w p <> Some (Sock fd m u g).
Definition c176_full : Prop := forall e o w h fd, fair e w -> e_socket e = Some fd -> e_unlink e = true ->
  (listen_unix e o w = (None, h) -> no_socket (last_world w h) fd) /\
  (listen_unix e o w = (Some fd, h) -> no_socket (del_unix e (Some fd) o (last_world w h)) fd).

(** C177, in full: a client gets to the socket that listens at the address, and to no other. *)
Definition c177_full : Prop :=
  (forall address w fd, client_connect address w = Some fd -> listens_at w fd address) /\
  (forall e o w fd h, fair e w -> listen_unix e o w = (Some fd, h) -> client_connect (o_address o) (last_world w h) = Some fd).

(** The entry of a user needs a buffer of a certain size. *)
Definition has_entry (u : users) (name : bytes) (need : Z) : Prop :=
  forall size, u_getpw u size = if size <? need then PRange else PFound name.
Definition enough_memory (u : users) : Prop := (forall size, u_realloc u size = true) /\ u_strdup u = true.
(** sysconf() gives no size, or one that is greater than 0. *)
Definition sane (u : users) : Prop := forall s, u_sysconf u = Some s -> s > 0.

(** C179, in full: unless the session got it, the socket is closed once, and no memory is lost. *)
Definition c179_full : Prop := forall fuel uid us a, accept_unix fuel uid us = Some a ->
  a_closed a = match a_name a with Some _ => 0%nat | None => 1%nat end /\ a_lost a = false.

(* ------------------------------------------------------------------ *)
(** ** Proofs *)

Lemma fs_same p f w : w_fs (set_fs p f w) p = f.
Proof. cbn. now rewrite (proj2 (beqb_spec p p) eq_refl). Qed.
Lemma fs_other p f w q : q <> p -> w_fs (set_fs p f w) q = w_fs w q.
Proof. intros N. cbn. destruct (beqb q p) eqn:E; [apply beqb_spec in E; contradiction|reflexivity]. Qed.

(** What the calls may change: one path. *)
Definition only (p : bytes) (w w' : world) : Prop := forall q, q <> p -> w_fs w' q = w_fs w q.

Lemma only_unlink e p w : only p w (sys_unlink e p w).
Proof. intros q N. unfold sys_unlink. destruct (e_unlink e); [now apply fs_other|reflexivity]. Qed.
Lemma only_bind e fd p w w' : sys_bind e fd p w = Some w' -> only p w w'.
Proof. unfold sys_bind. destruct (w_fs w p); [discriminate|]. destruct (e_bind e); [|discriminate]. intros [= <-] q N. now apply fs_other. Qed.
Lemma only_chmod e p m w w' : sys_chmod e p m w = Some w' -> only p w w'.
Proof.
  unfold sys_chmod. destruct (w_fs w p) as [[fd m0 u g|]|]; [| |discriminate]; (destruct (e_chmod e); [|discriminate]); intros [= <-] q N;
  [now apply fs_other|reflexivity].
Qed.
Lemma only_chown e p u g w w' : sys_chown e p u g w = Some w' -> only p w w'.
Proof.
  unfold sys_chown. destruct (w_fs w p) as [[fd m0 u0 g0|]|]; [| |discriminate]; (destruct (e_chown e); [|discriminate]); intros [= <-] q N;
  [now apply fs_other|reflexivity].
Qed.
Lemma only_trans p a b c : only p a b -> only p b c -> only p a c.
Proof. intros X Y q N. now rewrite (Y q N), (X q N). Qed.

(** A listening run in steps: what holds in each world.  [I1]: before bind(); [I2]: the socket is there. *)
Section Run.
Variables (e : env) (o : unix_opts) (w : world) (fd : nat).
Hypothesis socket : e_socket e = Some fd.
Hypothesis fresh : new fd w.
Let path := snprintf (sun_path_size - 1) (o_address o).

Definition before (w' : world) : Prop := only path w w' /\ w_listen w' fd = false /\ (forall p m u g, w_fs w' p <> Some (Sock fd m u g)).
Definition bound (w' : world) : Prop :=
  only path w w' /\ w_listen w' fd = false /\ w_open w' fd = true /\ exists m u g, w_fs w' path = Some (Sock fd m u g).
Definition mode_set (w' : world) : Prop := bound w' /\ forall m u g, w_fs w' path = Some (Sock fd m u g) -> forall x, o_mode o = Some x -> m = x.
Definition owner_set (w' : world) : Prop := mode_set w' /\ forall f, w_fs w' path = Some f -> as_configured o f.
Definition done (w' : world) : Prop :=
  only path w w' /\ w_listen w' fd = true /\ w_open w' fd = true /\ (exists m u g, w_fs w' path = Some (Sock fd m u g)) /\
  forall f, w_fs w' path = Some f -> as_configured o f.
Definition failed (w' : world) : Prop := only path w w' /\ w_listen w' fd = false /\ w_open w' fd = false.

Lemma close_failed w' : only path w w' -> failed (set_open fd false w').
Proof. intros O. split; [exact O|]. cbn. now rewrite PeanoNat.Nat.eqb_refl. Qed.

Lemma run_ok r h : listen_unix e o w = (r, h) ->
  match r with
  | Some x => x = fd /\ exists w' h', h = w' :: h' /\ done w' /\ Forall (fun v => only path w v /\ w_listen v fd = false) h'
  | None => h = [w] \/ exists w' h', h = w' :: h' /\ failed w' /\ Forall (fun v => only path w v /\ w_listen v fd = false) h'
  end.
Proof.
  unfold listen_unix. destruct (Nat.ltb _ _) eqn:L; [intros [= <- <-]; now left|]. rewrite socket. fold path.
  set (w1 := set_open fd true w). set (w2 := sys_unlink e path w1).
  assert (B0 : only path w w /\ w_listen w fd = false). { split; [intros q N; reflexivity|apply fresh]. }
  assert (B1 : only path w w1 /\ w_listen w1 fd = false). { split; [intros q N; reflexivity|]. cbn. now rewrite PeanoNat.Nat.eqb_refl. }
  assert (O2 : only path w w2). { apply (only_trans _ _ w1); [apply B1|apply only_unlink]. }
  assert (L2 : w_listen w2 fd = false). { unfold w2, sys_unlink. destruct (e_unlink e); apply B1. }
  assert (P2 : w_open w2 fd = true). { unfold w2, sys_unlink. destruct (e_unlink e); cbn; now rewrite PeanoNat.Nat.eqb_refl. }
  assert (H2 : Forall (fun v => only path w v /\ w_listen v fd = false) [w2; w1; w]) by (repeat constructor; tauto).
  destruct (sys_bind e fd path w2) as [w3|] eqn:E3.
  2:{ intros [= <- <-]. right. eexists _, _. split; [reflexivity|]. split; [now apply close_failed|exact H2]. }
  assert (O3 : only path w w3) by (apply (only_trans _ _ w2); [exact O2|now apply only_bind in E3]).
  unfold sys_bind in E3. destruct (w_fs w2 path); [discriminate|]. destruct (e_bind e); [|discriminate]. injection E3 as E3.
  assert (F3 : w_fs w3 path = Some (Sock fd (e_mode e) (e_uid e) (e_gid e))) by (rewrite <- E3; apply fs_same).
  assert (L3 : w_listen w3 fd = false) by (rewrite <- E3; exact L2). assert (P3 : w_open w3 fd = true) by (rewrite <- E3; exact P2).
  clearbody w1 w2. clear E3. set (chm := match o_mode o with None => Some w3 | Some m => sys_chmod e path m w3 end).
  assert (H3 : Forall (fun v => only path w v /\ w_listen v fd = false) [w3; w2; w1; w]) by (constructor; tauto).
  destruct chm as [w4|] eqn:E4.
  2:{ intros [= <- <-]. right. eexists _, _. split; [reflexivity|]. split; [now apply close_failed|exact H3]. }
  assert (S4 : only path w w4 /\ w_listen w4 fd = false /\ w_open w4 fd = true /\
    exists m, w_fs w4 path = Some (Sock fd m (e_uid e) (e_gid e)) /\ forall x, o_mode o = Some x -> m = x).
  { unfold chm in E4. destruct (o_mode o) as [m|].
    - pose proof (only_chmod _ _ _ _ _ E4) as O4. unfold sys_chmod in E4. rewrite F3 in E4. destruct (e_chmod e); [|discriminate]. injection E4 as <-.
      split; [exact (only_trans _ _ _ _ O3 O4)|]. split; [exact L3|]. split; [exact P3|]. exists m. split; [apply fs_same|congruence].
    - injection E4 as <-. split; [exact O3|]. split; [exact L3|]. split; [exact P3|]. exists (e_mode e). split; [exact F3|discriminate]. }
  destruct S4 as (O4 & L4 & P4 & m & F4 & M4). clearbody chm. set (cho := match o_uid o, o_gid o with None, None => Some w4 | u, g => sys_chown e path u g w4 end).
  assert (H4 : Forall (fun v => only path w v /\ w_listen v fd = false) [w4; w3; w2; w1; w]) by (constructor; tauto).
  assert (G : cho = match o_uid o, o_gid o with None, None => Some w4 | _, _ => sys_chown e path (o_uid o) (o_gid o) w4 end).
  { unfold cho. destruct (o_uid o), (o_gid o); reflexivity. }
  destruct cho as [w5|] eqn:E5.
  2:{ intros [= <- <-]. right. eexists _, _. split; [reflexivity|]. split; [now apply close_failed|exact H4]. }
  assert (S5 : only path w w5 /\ w_listen w5 fd = false /\ w_open w5 fd = true /\
    exists u g, w_fs w5 path = Some (Sock fd m u g) /\ (forall x, o_uid o = Some x -> u = x) /\ (forall x, o_gid o = Some x -> g = x)).
  { assert (C : w5 = w4 /\ o_uid o = None /\ o_gid o = None \/ sys_chown e path (o_uid o) (o_gid o) w4 = Some w5).
    { destruct (o_uid o), (o_gid o); try (right; congruence). left. split; [congruence|auto]. }
    destruct C as [(-> & U & Gi)|C].
    - split; [exact O4|]. split; [exact L4|]. split; [exact P4|]. exists (e_uid e), (e_gid e). rewrite U, Gi. split; [exact F4|split; discriminate].
    - pose proof (only_chown _ _ _ _ _ _ C) as O5. unfold sys_chown in C. rewrite F4 in C. destruct (e_chown e); [|discriminate]. injection C as <-.
      split; [exact (only_trans _ _ _ _ O4 O5)|]. split; [exact L4|]. split; [exact P4|]. eexists _, _. split; [apply fs_same|].
      split; intros x ->; reflexivity. }
  destruct S5 as (O5 & L5 & P5 & u & g & F5 & U5 & G5). clear G. clearbody cho.
  assert (H5 : Forall (fun v => only path w v /\ w_listen v fd = false) [w5; w4; w3; w2; w1; w]) by (constructor; tauto).
  unfold sys_listen. destruct (e_listen e).
  - intros [= <- <-]. split; [reflexivity|]. eexists _, _. split; [reflexivity|]. split; [|exact H5].
    split; [exact O5|]. split; [cbn; now rewrite PeanoNat.Nat.eqb_refl|]. split; [exact P5|]. split; [exists m, u, g; exact F5|].
    intros f. change (w_fs (set_listen fd w5) path) with (w_fs w5 path). rewrite F5. intros [= <-]. cbn. auto.
  - intros [= <- <-]. right. eexists _, _. split; [reflexivity|]. split; [now apply close_failed|exact H5].
Qed.
End Run.

Lemma no_socket_run e o w : e_socket e = None -> listen_unix e o w = (None, [w]).
Proof. intros E. unfold listen_unix. destruct (Nat.ltb _ _); [reflexivity|]. now rewrite E. Qed.

Lemma short_path o : (length (o_address o) <= 106)%nat -> snprintf (sun_path_size - 1) (o_address o) = o_address o.
Proof. intros L. unfold snprintf. apply firstn_all2. cbn. lia. Qed.

(** C174, partial: for addresses of at most 106 characters, and those too long. *)
Theorem c174_there_partial e o w r h : length (o_address o) <> 107%nat -> fair e w -> listen_unix e o w = (r, h) ->
  (forall fd, r = Some fd -> listens_at (last_world w h) fd (o_address o)) /\
  (forall w' p, In w' h -> p <> o_address o -> w_fs w' p = w_fs w p).
Proof.
  intros L F E. destruct (Nat.ltb 107 (length (o_address o))) eqn:T.
  { unfold listen_unix in E. change (sun_path_size - 1)%nat with 107%nat in E. rewrite T in E. injection E as <- <-.
    split; [discriminate|]. intros w' p [<-|[]] _. reflexivity. }
  apply PeanoNat.Nat.ltb_ge in T. assert (P := short_path o ltac:(lia)).
  destruct (e_socket e) as [fd|] eqn:S.
  2:{ rewrite (no_socket_run _ _ _ S) in E. injection E as <- <-. split; [discriminate|]. intros w' p [<-|[]] _. reflexivity. }
  pose proof (run_ok e o w fd S (F fd S) r h E) as R. destruct r as [x|].
  - destruct R as (-> & w' & h' & -> & (O & Li & _ & X & _) & H). rewrite P in *. split.
    + intros fd' [= <-]. split; assumption.
    + intros v p [<-|I] N; [apply O, N|]. rewrite Forall_forall in H. apply (proj1 (H v I)), N.
  - split; [discriminate|]. intros v p I N. destruct R as [->|(w' & h' & -> & (O & _) & H)].
    + destruct I as [<-|[]]. reflexivity.
    + rewrite P in *. destruct I as [<-|I]; [apply O, N|]. rewrite Forall_forall in H. apply (proj1 (H v I)), N.
Qed.

(** C175: whenever anyone can connect to the socket, all its files have the permissions configured. *)
Theorem c175_permissions_first e o w r h fd : fair e w -> e_socket e = Some fd -> listen_unix e o w = (r, h) ->
  forall w' p m u g, In w' h -> w_listen w' fd = true -> w_fs w' p = Some (Sock fd m u g) -> as_configured o (Sock fd m u g).
Proof.
  intros F S E v p m u g I Li X. pose proof (run_ok e o w fd S (F fd S) r h E) as R.
  assert (G : forall h', Forall (fun v => only (snprintf (sun_path_size - 1) (o_address o)) w v /\ w_listen v fd = false) h' -> ~ In v h').
  { intros h' H J. rewrite Forall_forall in H. destruct (H v J). congruence. }
  destruct r as [x|].
  - destruct R as (-> & w' & h' & -> & (O & _ & _ & _ & C) & H). destruct I as [->|I]; [|exfalso; exact (G h' H I)].
    destruct (list_eq_dec ascii_dec p (snprintf (sun_path_size - 1) (o_address o))) as [->|N].
    + apply C, X.
    + rewrite (O p N) in X. exfalso. exact (proj2 (proj2 (F fd S)) p m u g X).
  - destruct R as [->|(w' & h' & -> & (_ & Lf & _) & H)].
    + destruct I as [<-|[]]. destruct (F fd S) as (_ & Q & _). congruence.
    + destruct I as [->|I]; [congruence|exfalso; exact (G h' H I)].
Qed.

(** C175: and it listens when this is all done. *)
Theorem c175_success e o w fd h : fair e w -> listen_unix e o w = (Some fd, h) ->
  w_open (last_world w h) fd = true /\ w_listen (last_world w h) fd = true.
Proof.
  intros F E. destruct (e_socket e) as [x|] eqn:S; [|rewrite (no_socket_run _ _ _ S) in E; discriminate].
  pose proof (run_ok e o w x S (F x S) _ h E) as (-> & w' & h' & -> & (_ & L & P & _) & _). split; assumption.
Qed.

(** C176, partial: after a failure the socket is closed and no one can connect (its file may be left); after removal nothing
    is left, if the address has at most 106 characters. *)
Theorem c176_closed_partial e o w h fd : fair e w -> e_socket e = Some fd -> listen_unix e o w = (None, h) ->
  w_open (last_world w h) fd = false /\ w_listen (last_world w h) fd = false.
Proof.
  intros F S E. pose proof (run_ok e o w fd S (F fd S) _ h E) as [->|(w' & h' & -> & (_ & L & P) & _)].
  - destruct (F fd S) as (A & B & _). split; assumption.
  - split; assumption.
Qed.
Theorem c176_removed_partial e o w h fd : (length (o_address o) <= 106)%nat -> fair e w -> e_socket e = Some fd -> e_unlink e = true ->
  listen_unix e o w = (Some fd, h) -> no_socket (del_unix e (Some fd) o (last_world w h)) fd.
Proof.
  intros L F S U E. pose proof (run_ok e o w fd S (F fd S) _ h E) as (_ & w' & h' & -> & (O & _) & _).
  rewrite (short_path o L) in O. unfold no_socket, del_unix, last_world, sys_unlink. rewrite U. cbn [hd].
  split; [cbn; now rewrite PeanoNat.Nat.eqb_refl|]. split; [cbn; now rewrite PeanoNat.Nat.eqb_refl|].
  intros p m u g. destruct (list_eq_dec ascii_dec p (o_address o)) as [->|N]; [rewrite fs_same; discriminate|].
  rewrite fs_other by exact N. cbn [set_open w_fs]. rewrite (O p N). apply (F fd S).
Qed.

(** C177, partial. *)
Theorem c177_reached_partial address w fd : (length address <= 107)%nat -> client_connect address w = Some fd -> listens_at w fd address.
Proof.
  intros L. unfold client_connect. replace (snprintf sun_path_size address) with address by (symmetry; apply firstn_all2; cbn; lia).
  destruct (w_fs w address) as [[x m u g|]|] eqn:E; try discriminate. destruct (w_listen w x) eqn:X; [|discriminate].
  intros [= <-]. split; [exact X|eauto].
Qed.
Theorem c177_server_partial e o w fd h : (length (o_address o) <= 106)%nat -> fair e w -> listen_unix e o w = (Some fd, h) ->
  client_connect (o_address o) (last_world w h) = Some fd.
Proof.
  intros L F E. destruct (proj1 (c174_there_partial e o w _ h ltac:(lia) F E) fd eq_refl) as [Li (m & u & g & X)].
  unfold client_connect. replace (snprintf sun_path_size (o_address o)) with (o_address o) by (symmetry; apply firstn_all2; cbn; lia).
  now rewrite X, Li.
Qed.

(* ------------------------------------------------------------------ *)
(** ** What is false *)

Definition e0 : env := {| e_socket := Some 3%nat; e_unlink := true; e_bind := true; e_chmod := true; e_chown := true; e_listen := true;
  e_mode := 493; e_uid := 0; e_gid := 0 |}.
Definition opts (p : bytes) : unix_opts := {| o_address := p; o_mode := Some 384; o_uid := None; o_gid := Some 100 |}.
Definition w0 : world := {| w_fs := fun _ => None; w_listen := fun _ => false; w_open := fun _ => false |}.
Definition long (n : nat) : bytes := repeat "x"%char n.

Lemma fair0 e fs : e_socket e = Some 3%nat -> (forall p m u g, fs p <> Some (Sock 3 m u g)) ->
  fair e {| w_fs := fs; w_listen := fun _ => false; w_open := fun _ => false |}.
Proof. intros S H fd E. assert (fd = 3%nat) by congruence. subst fd. repeat split. exact H. Qed.

(** An address of 107 characters loses its last one: another file is removed, and the socket is made in its place. *)
Theorem c174_cut_refuted : ~ c174_full /\
  exists h, listen_unix e0 (opts (long 107)) {| w_fs := fun p => if beqb p (long 106) then Some Other else None;
    w_listen := fun _ => false; w_open := fun _ => false |} = (Some 3%nat, h) /\
  w_fs (last_world w0 h) (long 106) = Some (Sock 3 384 0 100) /\ w_fs (last_world w0 h) (long 107) = None.
Proof.
  set (w := {| w_fs := fun p => if beqb p (long 106) then Some Other else None; w_listen := fun _ => false; w_open := fun _ => false |}).
  assert (E : exists h, listen_unix e0 (opts (long 107)) w = (Some 3%nat, h) /\
    w_fs (last_world w0 h) (long 106) = Some (Sock 3 384 0 100) /\ w_fs (last_world w0 h) (long 107) = None).
  { eexists. split; [reflexivity|]. split; vm_compute; reflexivity. }
  split; [|exact E]. intros F. destruct E as (h & E & _ & X).
  assert (Fa : fair e0 w).
  { apply fair0; [reflexivity|]. intros p m u g H. destruct (beqb p (long 106)); discriminate H. }
  destruct (proj1 (F e0 (opts (long 107)) w _ h Fa E) 3%nat eq_refl) as [_ (m & u & g & Y)].
  cbn [o_address opts] in Y. destruct h as [|v h]; cbn [last_world hd] in *; [vm_compute in Y; discriminate|congruence].
Qed.

(** A failed chmod() leaves the file; so does the removal of an address of 107 characters. *)
Theorem c176_left_refuted : ~ c176_full /\
  exists h, listen_unix e0 (opts (long 107)) w0 = (Some 3%nat, h) /\ ~ no_socket (del_unix e0 (Some 3%nat) (opts (long 107)) (last_world w0 h)) 3.
Proof.
  split.
  - intros F. set (e := {| e_socket := Some 3%nat; e_unlink := true; e_bind := true; e_chmod := false; e_chown := true; e_listen := true;
      e_mode := 493; e_uid := 0; e_gid := 0 |}).
    assert (Fa : fair e w0) by (apply fair0; [reflexivity|intros p m u g H; discriminate H]).
    pose proof (fun h => proj1 (F e (opts (bs "/run/x")) w0 h 3%nat Fa eq_refl eq_refl)) as G.
    specialize (G _ eq_refl). destruct G as (_ & _ & H). apply (H (bs "/run/x") 493 0 0). vm_compute. reflexivity.
  - eexists. split; [reflexivity|]. intros (_ & _ & H). apply (H (long 106) 384 0 100). vm_compute. reflexivity.
Qed.

(** A client with an address of 108 characters gets to the socket at the first 107; one of 107 does not find its server. *)
Theorem c177_cut_refuted : ~ c177_full /\
  (exists w, client_connect (long 108) w = Some 3%nat /\ w_fs w (long 108) = None) /\
  exists h, listen_unix e0 (opts (long 107)) w0 = (Some 3%nat, h) /\ client_connect (long 107) (last_world w0 h) = None.
Proof.
  set (w := {| w_fs := fun p => if beqb p (long 107) then Some (Sock 3 0 0 0) else None; w_listen := fun _ => true; w_open := fun _ => true |}).
  assert (A : client_connect (long 108) w = Some 3%nat /\ w_fs w (long 108) = None) by (split; vm_compute; reflexivity).
  split; [|split].
  - intros [F _]. destruct A as [A B]. destruct (F _ _ _ A) as [_ (m & u & g & X)]. congruence.
  - exists w. exact A.
  - eexists. split; [reflexivity|]. vm_compute. reflexivity.
Qed.

(* ------------------------------------------------------------------ *)
(** ** Users *)

Lemma getpw_name fuel u size n b : getpw fuel u size = Some (Some n, b) -> exists s, u_getpw u s = PFound n.
Proof.
  revert size; induction fuel as [|fuel IH]; intros size; [discriminate|]. cbn [getpw]. cbv zeta.
  set (s := if size =? 0 then _ else _). destruct (u_realloc u s); cbn [negb]; [|discriminate].
  destruct (u_getpw u s) eqn:E; try discriminate; [apply IH|]. intros [= -> _]. eauto.
Qed.

(** C178: a session has the name the system has for the user that connected. *)
Theorem c178_name fuel uid us a n : accept_unix fuel uid us = Some a -> a_name a = Some n ->
  exists id size, uid = Some id /\ u_getpw (us id) size = PFound n.
Proof.
  unfold accept_unix. destruct uid as [id|]; [|intros [= <-]; discriminate].
  destruct (getpw fuel (us id) 0) as [[[m|] b]|] eqn:E; [|intros [= <-]; discriminate|discriminate].
  destruct (u_strdup (us id)); cbn [negb]; intros [= <-]; [|discriminate]. cbn. intros [= <-].
  apply getpw_name in E. destruct E as [s E]. exists id, s. auto.
Qed.

Lemma getpw_found u n need : has_entry u n need -> (forall s, u_realloc u s = true) -> forall k size, size > 0 ->
  need <= size + 2048 * (Z.of_nat k + 1) -> getpw (S k) u size = Some (Some n, true).
Proof.
  intros H M. induction k as [|k IH]; intros size P N.
  - cbn [getpw]. destruct (Z.eqb_spec size 0); [lia|]. rewrite M, H. cbn [negb]. destruct (Z.ltb_spec (size + 2048) need); [lia|reflexivity].
  - cbn [getpw]. destruct (Z.eqb_spec size 0); [lia|]. rewrite M, H. cbn [negb]. destruct (Z.ltb_spec (size + 2048) need); [|reflexivity].
    apply (IH (size + 2048)); lia.
Qed.

(** C178: every user the system knows is accepted, however large the entry is. *)
Theorem c178_known id us n need : has_entry (us id) n need -> enough_memory (us id) -> sane (us id) ->
  exists fuel, accept_unix fuel (Some id) us = Some {| a_name := Some n; a_closed := 0; a_lost := false |}.
Proof.
  intros H [M D] Sa. exists (S (S (Z.to_nat need))). unfold accept_unix.
  assert (G : getpw (S (S (Z.to_nat need))) (us id) 0 = Some (Some n, true)).
  { remember (S (Z.to_nat need)) as k eqn:K. cbn [getpw]. rewrite Z.eqb_refl. set (s := match u_sysconf (us id) with None => _ | Some s => s end).
    assert (P : s > 0). { unfold s. destruct (u_sysconf (us id)) eqn:E; [exact (Sa _ E)|lia]. }
    rewrite M. cbn [negb]. rewrite H. destruct (Z.ltb_spec s need); [|reflexivity]. subst k.
    apply (getpw_found _ _ need H M (Z.to_nat need)); lia. }
  now rewrite G, D.
Qed.

(** C179, partial: unless the user has no entry or it cannot be read. *)
Theorem c179_released_partial fuel uid us a : accept_unix fuel uid us = Some a ->
  a_closed a = match a_name a with Some _ => 0%nat | None => 1%nat end /\
  (a_lost a = true -> exists id size, uid = Some id /\ (u_getpw (us id) size = PNone \/ u_getpw (us id) size = PError)).
Proof.
  unfold accept_unix. destruct uid as [id|]; [|intros [= <-]; cbn; split; [reflexivity|discriminate]].
  destruct (getpw fuel (us id) 0) as [[[m|] b]|] eqn:E; [| |discriminate].
  - destruct (u_strdup (us id)); cbn [negb]; intros [= <-]; cbn; split; (reflexivity || discriminate).
  - intros [= <-]. cbn. split; [reflexivity|]. intros ->. exists id.
    enough (G : exists s, u_getpw (us id) s = PNone \/ u_getpw (us id) s = PError) by (destruct G as [s G]; exists s; auto).
    revert E. generalize 0. induction fuel as [|fuel IH]; intros size; [discriminate|]. cbn [getpw]. cbv zeta.
    set (s := if size =? 0 then _ else _). destruct (u_realloc (us id) s); cbn [negb]; [|discriminate].
    destruct (u_getpw (us id) s) eqn:X; [apply IH|eauto..|discriminate].
Qed.

(** Each connection of a user without an entry loses the buffer. *)
Theorem c179_unknown_user_refuted : ~ c179_full.
Proof.
  intros F. destruct (F 1%nat (Some 1000) (fun _ => {| u_sysconf := Some 1024; u_realloc := fun _ => true; u_getpw := fun _ => PNone; u_strdup := true |}) _ eq_refl) as [_ X].
  cbn in X. discriminate.
Qed.

(* ------------------------------------------------------------------ *)
(** ** Cases *)

Example c174_case : fair e0 w0 /\ exists h, listen_unix e0 (opts (bs "/run/netconf.sock")) w0 = (Some 3%nat, h) /\ length h = 7%nat /\
  w_fs (last_world w0 h) (bs "/run/netconf.sock") = Some (Sock 3 384 0 100) /\
  client_connect (bs "/run/netconf.sock") (last_world w0 h) = Some 3%nat.
Proof.
  split; [apply fair0; [reflexivity|discriminate]|]. eexists. split; [reflexivity|]. split; [reflexivity|]. split; vm_compute; reflexivity.
Qed.
(** An entry that needs three attempts. *)
Example c178_case : let u := {| u_sysconf := Some 1024; u_realloc := fun _ => true; u_getpw := fun s => if s <? 5000 then PRange else PFound (bs "alice"); u_strdup := true |} in
  has_entry u (bs "alice") 5000 /\ enough_memory u /\ sane u /\
  accept_unix 3 (Some 1000) (fun _ => u) = Some {| a_name := Some (bs "alice"); a_closed := 0; a_lost := false |}.
Proof.
  cbv zeta. split; [intros s; reflexivity|]. split; [split; [intros s|]; reflexivity|]. split; [intros s [= <-]; lia|]. vm_compute. reflexivity.
Qed.

Print Assumptions c174_there_partial.
Print Assumptions c174_cut_refuted.
Print Assumptions c175_permissions_first.
Print Assumptions c175_success.
Print Assumptions c176_closed_partial.
Print Assumptions c176_removed_partial.
Print Assumptions c176_left_refuted.
Print Assumptions c177_reached_partial.
Print Assumptions c177_server_partial.
Print Assumptions c177_cut_refuted.
Print Assumptions c178_name.
Print Assumptions c178_known.
Print Assumptions c179_released_partial.
Print Assumptions c179_unknown_user_refuted.
