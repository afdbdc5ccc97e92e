(** Properties of setting up SSH sessions of a client (C205-C212). *)
From Coq Require Import Ascii String ZArith List Bool Lia.
From Verif Require Import Bytes SshConn.
Import ListNotations.
Local Open Scope list_scope.

(* ------------------------------------------------------------------ *)
(** ** Specification *)

Definition res_dec (a b : res) : {a = b} + {a <> b}.
Proof. decide equality. decide equality. Defined.
(** What exists after a trace, starting with [l]; [None]: something was ended that did not exist, or made that did. *)
Fixpoint exist_after (t : list act) (l : list res) : option (list res) :=
  match t with
  | [] => Some l
  | New r :: t => if in_dec res_dec r l then None else exist_after t (r :: l)
  | Free r :: t => if in_dec res_dec r l then exist_after t (remove res_dec r l) else None
  | _ :: t => exist_after t l
  end.
(** What nc_connect_libssh() is given: the SSH session, which has a host exactly if it has a socket (line 1656), and a host if it is connected. *)
Definition given (e : env) : list res := Ssh :: (if e_opthost e then [Sock] else []).
Definition usable (e : env) : Prop := e_up e = true -> e_opthost e = true.
(** [b] happens only after something like [a]. *)
Definition only_after (a : act -> Prop) (b : act) (t : list act) : Prop := forall x y, t = x ++ b :: y -> exists c, In c x /\ a c.

(* ------------------------------------------------------------------ *)
(** ** Helpers *)

Lemma open_cases e : open_channel e = None \/
  (exists rc u, open_channel e = Some (rc, u, false) /\ Z.eqb rc 1 = false /\ (u = [] \/ u = [New Chan; Free Chan])) \/
  open_channel e = Some (1%Z, [New Chan; Opened], true).
Proof.
  unfold open_channel. destruct (e_alive e); cbn [negb]; [|right; left; do 2 eexists; split; [reflexivity|]; auto].
  destruct (e_chan e); cbn [app].
  2: { right; left. do 2 eexists. split; [reflexivity|]. auto. }
  destruct (wait (e_open e)) as [rc|]; [|auto]. destruct (Z.eqb rc SSH_AGAIN); [right; left; do 2 eexists; split; [reflexivity|]; auto|].
  destruct (Z.eqb rc SSH_ERROR); [right; left; do 2 eexists; split; [reflexivity|]; auto|].
  destruct (wait (e_sub e)) as [r|]; [|auto]. destruct (Z.eqb r SSH_AGAIN); [right; left; do 2 eexists; split; [reflexivity|]; auto|].
  destruct (Z.eqb r SSH_ERROR); [right; left; do 2 eexists; split; [reflexivity|]; auto|]. auto.
Qed.

Ltac flow :=
  repeat match goal with
  | H : context [if negb ?b then _ else _] |- _ => destruct b eqn:?; cbn [negb andb] in H
  | H : context [match e_set ?e with _ => _ end] |- _ => destruct (e_set e) eqn:?
  | H : context [match e_pw ?e ?n with _ => _ end] |- _ => destruct (e_pw e n) eqn:?
  | H : context [pw_buf (e_pw ?e ?n)] |- _ => destruct (e_pw e n) eqn:?
  | H : context [if ?b then _ else _] |- _ => destruct b eqn:?
  end.

(** All runs of the common part, for any fields. *)
Lemma establish_cases e f t fin fail r u : establish e f t fin fail = Some (r, u) ->
  (r = None /\ exists v c x, u = t ++ v ++ fail ++ session_free (mkF (host f) (user f) (ssh f) c x (fd f)) /\
     ((v = [] /\ c = false /\ x = ctx f) \/ (v = [New Chan; Free Chan] /\ c = false /\ x = ctx f) \/ (v = [New Chan; Opened] /\ c = true /\ x = ctx f /\ e_own e = true) \/
      (v = [New Chan; Opened; Hello] /\ c = true /\ x = false /\ e_own e = false) \/ (v = [New Chan; Opened; New Ctx; Hello] /\ c = true /\ x = true /\ e_own e = true))) \/
  (exists f', fin (mkF (host f) (user f) (ssh f) true (e_own e) (fd f)) = f' /\ r = Some (fst f') /\
     u = t ++ ([New Chan; Opened] ++ map New (opt (e_own e) Ctx) ++ [Hello]) ++ snd f').
Proof.
  unfold establish. destruct (open_cases e) as [E|[(rc & v & E & R & V)|E]]; rewrite E.
  - discriminate.
  - rewrite R. cbn [negb]. intros H. injection H as <- <-. left. split; [reflexivity|]. exists v, false, (ctx f).
    split; [now rewrite <- !app_assoc|]. destruct V; auto.
  - rewrite Z.eqb_refl. cbn [negb chan]. destruct (e_own e) eqn:O; cbn [andb opt map host user ssh fd chan].
    + destruct (e_ctx e); cbn [negb andb]; [|intros H; injection H as <- <-; left; split; [reflexivity|]; exists [New Chan; Opened], true, (ctx f);
        split; [now rewrite <- !app_assoc|tauto]].
      assert (G : (t ++ [New Chan; Opened]) ++ [New Ctx] ++ [Hello] = t ++ [New Chan; Opened; New Ctx; Hello]) by (now rewrite <- app_assoc).
      rewrite G. destruct (e_hello e); cbn [negb].
      * destruct (e_fill e); cbn [negb].
        -- destruct (fin _) as [f' w] eqn:F. intros H. injection H as <- <-. right. exists (f', w). cbn [fst snd]. repeat split. now rewrite <- app_assoc.
        -- intros H; injection H as <- <-. left. split; [reflexivity|]. exists [New Chan; Opened; New Ctx; Hello], true, true. split; [now rewrite <- !app_assoc|]. tauto.
      * intros H; injection H as <- <-. left. split; [reflexivity|]. exists [New Chan; Opened; New Ctx; Hello], true, true. split; [now rewrite <- !app_assoc|]. tauto.
    + assert (G : (t ++ [New Chan; Opened]) ++ [] ++ [Hello] = t ++ [New Chan; Opened; Hello]) by (now rewrite <- app_assoc).
      rewrite G. destruct (e_hello e); cbn [negb].
      * destruct (e_fill e); cbn [negb].
        -- destruct (fin _) as [f' w] eqn:F. intros H. injection H as <- <-. right. exists (f', w). cbn [fst snd]. repeat split. now rewrite <- app_assoc.
        -- intros H; injection H as <- <-. left. split; [reflexivity|]. exists [New Chan; Opened; Hello], true, false. split; [now rewrite <- !app_assoc|]. tauto.
      * intros H; injection H as <- <-. left. split; [reflexivity|]. exists [New Chan; Opened; Hello], true, false. split; [now rewrite <- !app_assoc|]. tauto.
Qed.
Ltac est H :=
  apply establish_cases in H; cbn [host user ssh chan ctx fd] in H;
  let v := fresh "v" in let c := fresh "c" in let x := fresh "x" in let Q := fresh "Q" in let f := fresh "f" in let F := fresh "F" in let R := fresh "R" in
  destruct H as [(R & v & c & x & H & [Q|[Q|[Q|[Q|Q]]]])|(f & F & R & H)];
  [destruct Q as (Q & -> & ->); subst v|destruct Q as (Q & -> & ->); subst v|destruct Q as (Q & -> & -> & ?); subst v|destruct Q as (Q & -> & -> & ?); subst v|destruct Q as (Q & -> & -> & ?); subst v|subst f; cbn [fst snd] in *].

(* ------------------------------------------------------------------ *)
(** ** C205: a failed connection leaves nothing *)

Definition c205_full : Prop :=
  (forall e t, connect_ssh e = Some (None, t) -> exist_after t [] = Some []) /\
  (forall e t, usable e -> libssh e = Some (None, t) -> exist_after t (given e) = Some []) /\
  (forall e t, callhome e = Some (None, t) -> exist_after t [Sock] = Some []).

(** nc_connect_ssh() leaves nothing, whatever fails. *)
Theorem c205_connect : forall e t, connect_ssh e = Some (None, t) -> exist_after t [] = Some [].
Proof.
  intros e t H. unfold connect_ssh in H.
  flow; cbn [pw_buf] in *; try discriminate; try (injection H as <-; vm_compute; reflexivity); est H; try discriminate; subst t; vm_compute; reflexivity.
Qed.
(** nc_connect_libssh() leaves nothing if it was to authenticate and had a user name. *)
Theorem c205_libssh_partial : forall e t, e_session e = true -> e_up e = false -> (e_optuser e <> None \/ libssh_user e <> None /\ e_user e = true) ->
  libssh e = Some (None, t) -> exist_after t (given e) = Some [].
Proof.
  intros e t S U N H. unfold libssh, get_host, get_user in H. unfold libssh_user in N. unfold given. rewrite S, U in H. cbn [negb] in H.
  destruct (e_opthost e).
  all: destruct (e_optuser e); cbn [ostr map app] in H.
  all: try (destruct N as [N|[N N']]; [congruence|]; rewrite ?N' in H).
  all: flow; try discriminate; try congruence; try (injection H as <-; vm_compute; reflexivity).
  all: est H; try discriminate; subst t; vm_compute; reflexivity.
Qed.
(** The same for Call Home. *)
Theorem c205_callhome_partial : forall e t, e_hostset e = true -> connect_user e <> None -> e_session e = true ->
  callhome e = Some (None, t) -> exist_after t [Sock] = Some [].
Proof.
  intros e t HS N S H. unfold callhome, connect_user, libssh, get_host, get_user in *. cbn [e_session e_opthost e_optuser e_up e_auth] in H. rewrite HS, S in H. cbn [negb] in H.
  flow; try discriminate; try congruence; cbn [negb] in *; try discriminate; cbn [ostr map app] in H.
  all: flow; try discriminate; try (injection H as <-; vm_compute; reflexivity).
  all: match type of H with context [establish ?a ?b ?c ?d ?f] => destruct (establish a b c d f) as [[r u]|] eqn:EE; [|discriminate] end.
  all: injection H as -> <-; est EE; try discriminate; subst u; vm_compute; reflexivity.
Qed.

(** An authenticated SSH session was given: whatever fails later, the host is lost. *)
Theorem c205_connected_refuted : forall e t, usable e -> e_session e = true -> e_up e = true -> libssh e = Some (None, t) ->
  exists l, exist_after t (given e) = Some l /\ In (Str OptHost) l.
Proof.
  intros e t US S U H. unfold libssh, get_host in H. unfold given. rewrite S, U, (US U) in *. cbn [negb] in H. destruct (e_optuser e); cbn [ostr map app] in H.
  all: est H; try discriminate; subst t; eexists; (split; [vm_compute; reflexivity|]); cbn; tauto.
Qed.
(** No user can be found: the host, the buffer and the socket are lost. *)
Theorem c205_user_refuted : forall e, e_session e = true -> e_up e = false -> e_opthost e = true -> e_optuser e = None -> e_set e = None -> e_pw e (e_uid e) = PwNone ->
  exists t, libssh e = Some (None, t) /\ exist_after t (given e) = Some [Buf; Str OptHost; Sock].
Proof.
  intros e A B C D E F. unfold libssh, get_host, get_user, given. rewrite A, B, C, D, E, F. cbn [negb]. eexists. split; [reflexivity|]. vm_compute. reflexivity.
Qed.
(** The same on a connection of Call Home: the socket stays open; and when the host cannot be set. *)
Theorem c205_callhome_refuted : forall e, e_ssh e = true -> e_hostset e = false \/ e_set e = None /\ e_pw e (e_uid e) = PwNone ->
  exists t l, callhome e = Some (None, t) /\ exist_after t [Sock] = Some l /\ In Sock l.
Proof.
  intros e A H. unfold callhome. rewrite A. cbn [negb]. destruct (e_hostset e) eqn:HS; cbn [negb].
  - destruct H as [H|[-> ->]]; [discriminate|]. do 2 eexists. split; [reflexivity|]. split; [vm_compute; reflexivity|]. cbn. tauto.
  - do 2 eexists. split; [reflexivity|]. split; [vm_compute; reflexivity|]. cbn. tauto.
Qed.
(** No memory for the session: the SSH session and the socket of Call Home are lost ("sess is freed", line 1989). *)
Theorem c205_memory_refuted : forall e, e_ssh e = true -> e_hostset e = true -> e_set e <> None -> e_session e = false ->
  exists t, callhome e = Some (None, t) /\ exist_after t [Sock] = Some [Ssh; Sock].
Proof.
  intros e A B C D. unfold callhome, libssh. cbn [e_session]. rewrite A, B, D. cbn [negb]. destruct (e_set e); [|congruence]. cbn [negb]. eexists. split; [reflexivity|]. vm_compute. reflexivity.
Qed.

(** Everything works, as far as needed. *)
Definition fine : env := {| e_session := true; e_ssh := true; e_hostset := true; e_sock := true; e_local := true; e_user := true; e_name := true;
  e_opthost := true; e_optuser := None; e_up := false; e_set := Some (bs "admin"); e_uid := 1000; e_euid := 1000; e_pw := fun u => if Nat.eqb u 0 then PwOk (bs "root") else PwOk (bs "joe"); e_auth := 1;
  e_alive := true; e_chan := true; e_open := [((-2)%Z, false); (0%Z, false)]; e_sub := [(0%Z, false)]; e_own := true; e_ctx := true; e_hello := true; e_fill := true |}.
Definition with_hello (b : bool) (e : env) : env := {| e_session := e_session e; e_ssh := e_ssh e; e_hostset := e_hostset e; e_sock := e_sock e; e_local := e_local e; e_user := e_user e; e_name := e_name e;
  e_opthost := e_opthost e; e_optuser := e_optuser e; e_up := e_up e; e_set := e_set e; e_uid := e_uid e; e_euid := e_euid e; e_pw := e_pw e; e_auth := e_auth e;
  e_alive := e_alive e; e_chan := e_chan e; e_open := e_open e; e_sub := e_sub e; e_own := e_own e; e_ctx := e_ctx e; e_hello := b; e_fill := e_fill e |}.
(** The SSH session given is connected. *)
Definition connected (e : env) : env := {| e_session := e_session e; e_ssh := e_ssh e; e_hostset := e_hostset e; e_sock := e_sock e; e_local := e_local e; e_user := e_user e; e_name := e_name e;
  e_opthost := true; e_optuser := e_optuser e; e_up := true; e_set := e_set e; e_uid := e_uid e; e_euid := e_euid e; e_pw := e_pw e; e_auth := e_auth e;
  e_alive := e_alive e; e_chan := e_chan e; e_open := e_open e; e_sub := e_sub e; e_own := e_own e; e_ctx := e_ctx e; e_hello := e_hello e; e_fill := e_fill e |}.
(** The server refuses the subsystem. *)
Definition refused (e : env) : env := {| e_session := e_session e; e_ssh := e_ssh e; e_hostset := e_hostset e; e_sock := e_sock e; e_local := e_local e; e_user := e_user e; e_name := e_name e;
  e_opthost := e_opthost e; e_optuser := e_optuser e; e_up := e_up e; e_set := e_set e; e_uid := e_uid e; e_euid := e_euid e; e_pw := e_pw e; e_auth := e_auth e;
  e_alive := e_alive e; e_chan := e_chan e; e_open := e_open e; e_sub := [((-1)%Z, false)]; e_own := e_own e; e_ctx := e_ctx e; e_hello := e_hello e; e_fill := e_fill e |}.
(** A setuid program, no user set anywhere. *)
Definition setuid (e : env) : env := {| e_session := e_session e; e_ssh := e_ssh e; e_hostset := e_hostset e; e_sock := e_sock e; e_local := e_local e; e_user := e_user e; e_name := e_name e;
  e_opthost := e_opthost e; e_optuser := None; e_up := e_up e; e_set := None; e_uid := 1000; e_euid := 0; e_pw := e_pw e; e_auth := e_auth e;
  e_alive := e_alive e; e_chan := e_chan e; e_open := e_open e; e_sub := e_sub e; e_own := e_own e; e_ctx := e_ctx e; e_hello := e_hello e; e_fill := e_fill e |}.
Theorem c205_full_refuted : ~ c205_full.
Proof.
  intros (_ & H & _). set (e := with_hello false (connected fine)). assert (U : usable e) by (intros _; reflexivity).
  assert (exists t, libssh e = Some (None, t)) as [t E] by (eexists; vm_compute; reflexivity).
  destruct (c205_connected_refuted e t U eq_refl eq_refl E) as (l & A & B). rewrite (H e t U E) in A. injection A as <-. exact B.
Qed.
Example c205_example : (exists t, connect_ssh (with_hello false fine) = Some (None, t) /\ In Hello t) /\ (exists t, libssh (with_hello false fine) = Some (None, t) /\ In Hello t) /\
  (exists t, callhome (refused fine) = Some (None, t) /\ In (New Chan) t).
Proof. repeat split; eexists; (split; [vm_compute; reflexivity|]); cbn; tauto. Qed.

(* ------------------------------------------------------------------ *)
(** ** C206: nothing is ended twice *)

Theorem c206_connect : forall e r t, connect_ssh e = Some (r, t) -> exist_after t [] <> None.
Proof.
  intros e r t H. unfold connect_ssh in H.
  flow; cbn [pw_buf] in *; try discriminate; try (injection H as <- <-; vm_compute; discriminate);
    est H; subst t; try (vm_compute; discriminate); destruct (e_own e), (e_user e), (e_name e); try discriminate; vm_compute; discriminate.
Qed.
Theorem c206_libssh : forall e r t, usable e -> libssh e = Some (r, t) -> exist_after t (given e) <> None.
Proof.
  intros e r t US H. unfold libssh, get_host, get_user in H. unfold given, usable in *.
  destruct (e_opthost e); [clear US|assert (e_up e = false) as U by (destruct (e_up e); [now specialize (US eq_refl)|reflexivity]); rewrite U in H].
  all: destruct (e_session e); cbn [negb] in H; [|injection H as <- <-; vm_compute; discriminate].
  all: destruct (e_optuser e); cbn [ostr map app] in H.
  all: flow; try discriminate; try (injection H as <- <-; vm_compute; discriminate).
  all: est H; subst t; try (vm_compute; discriminate); destruct (e_own e); vm_compute; discriminate.
Qed.
Theorem c206_callhome : forall e r t, callhome e = Some (r, t) -> exist_after t [Sock] <> None.
Proof.
  intros e r t H. unfold callhome, connect_user, libssh, get_host, get_user in *. cbn [e_session e_opthost e_optuser e_up e_auth] in H.
  flow; try discriminate; try congruence; cbn [negb] in *; try discriminate; cbn [ostr map app] in H.
  all: flow; try discriminate; try (injection H as <- <-; vm_compute; discriminate).
  all: match type of H with context [establish ?a ?b ?c ?d ?f] => destruct (establish a b c d f) as [[r' u]|] eqn:EE; [|discriminate] end.
  all: injection H as -> <-; est EE; subst u; try (vm_compute; discriminate); cbn [e_own] in *; destruct (e_own e); vm_compute; discriminate.
Qed.
Example c206_example : exists f t, callhome fine = Some (Some f, t) /\ In (New Ctx) t.
Proof. do 2 eexists. split; [vm_compute; reflexivity|]. cbn. tauto. Qed.

(* ------------------------------------------------------------------ *)
(** ** C207: a session has everything that was made for it *)

(** What a session that is connected refers to; the socket by way of the SSH session. *)
Definition refers (e : env) (f : fields) (r : res) : Prop :=
  match r with
  | Session | Ssh | Sock | Chan => True
  | Ctx => e_own e = true
  | Buf => False
  | Str n => host f = Some n \/ user f = Some n
  end.
Definition exactly (l : list res) (P : res -> Prop) : Prop := NoDup l /\ forall r, In r l <-> P r.
(** Checked by computing. *)
Definition all_res : list res := [Session; Ssh; Sock; Chan; Ctx; Buf; Str OptHost; Str OptUser; Str Local; Str Ip; Str User; Str Name].
Definition is_str (o : option strname) (n : strname) : bool := match o with None => false | Some m => if res_dec (Str m) (Str n) then true else false end.
Definition refers_b (own : bool) (f : fields) (r : res) : bool :=
  match r with Session | Ssh | Sock | Chan => true | Ctx => own | Buf => false | Str n => is_str (host f) n || is_str (user f) n end.
Fixpoint distinct (l : list res) : bool := match l with [] => true | r :: l => (if in_dec res_dec r l then false else true) && distinct l end.
Definition exactly_b (own : bool) (f : fields) (o : option (list res)) : bool :=
  match o with None => false | Some l => distinct l && forallb (fun r => Bool.eqb (if in_dec res_dec r l then true else false) (refers_b own f r)) all_res end.
Lemma is_str_spec o n : is_str o n = true <-> o = Some n.
Proof. unfold is_str. destruct o as [m|]; [|split; discriminate]. destruct (res_dec (Str m) (Str n)) as [E|E]; split; intros H; congruence. Qed.
Lemma exactly_sound e f o : exactly_b (e_own e) f o = true -> exists l, o = Some l /\ exactly l (refers e f).
Proof.
  destruct o as [l|]; [|discriminate]. cbn [exactly_b]. intros H. apply andb_prop in H as [D F]. exists l. split; [reflexivity|]. split.
  - clear F. induction l as [|r l IH]; [constructor|]. cbn [distinct] in D. apply andb_prop in D as [A B]. constructor; [|now apply IH]. now destruct (in_dec res_dec r l).
  - intros r. rewrite forallb_forall in F. assert (I : In r all_res) by (destruct r as [| | | | | |[]]; cbn; tauto). specialize (F r I). apply Bool.eqb_prop in F.
    assert (G : refers_b (e_own e) f r = true <-> refers e f r).
    { destruct r as [| | | | | |n]; cbn [refers_b refers]; try tauto; try (split; [discriminate|contradiction]). rewrite orb_true_iff, !is_str_spec. tauto. }
    rewrite <- G, <- F. destruct (in_dec res_dec r l); split; intros; try congruence; auto.
Qed.
Ltac exact_list := apply exactly_sound.
Theorem c207_connect : forall e f t, connect_ssh e = Some (Some f, t) ->
  (exists l, exist_after t [] = Some l /\ exactly l (refers e f)) /\ host f = Some Ip /\ chan f = true /\ ssh f = true /\ fd f = true /\ ctx f = e_own e /\ (e_user e = true -> user f = Some User).
Proof.
  intros e f t H. unfold connect_ssh in H.
  flow; cbn [pw_buf] in *; try discriminate; est H; try discriminate; injection R as ->; subst t.
  all: split; [|cbn; repeat split; intros; try reflexivity; congruence].
  all: exact_list; destruct (e_own e); vm_compute; reflexivity.
Qed.
Theorem c207_libssh : forall e f t, usable e -> libssh e = Some (Some f, t) ->
  (exists l, exist_after t (given e) = Some l /\ exactly l (refers e f)) /\ host f <> None /\ chan f = true /\ ssh f = true /\ fd f = true /\ ctx f = e_own e /\ (e_up e = false \/ e_optuser e <> None -> user f <> None).
Proof.
  intros e f t US H. unfold libssh, get_host, get_user in H. unfold given, usable in *.
  destruct (e_opthost e); [clear US|assert (e_up e = false) as U by (destruct (e_up e); [now specialize (US eq_refl)|reflexivity]); rewrite U in H].
  all: destruct (e_session e); cbn [negb] in H; [|discriminate].
  all: destruct (e_optuser e) eqn:OU; cbn [ostr map app] in H.
  all: flow; try discriminate.
  all: est H; try discriminate; injection R as ->; subst t.
  all: (split; [|cbn; repeat split; intros; try reflexivity; try discriminate; intuition congruence]).
  all: exact_list; destruct (e_own e); vm_compute; reflexivity.
Qed.
Theorem c207_callhome : forall e f t, callhome e = Some (Some f, t) ->
  (exists l, exist_after t [Sock] = Some l /\ exactly l (refers e f)) /\ host f <> None /\ user f <> None /\ chan f = true /\ ssh f = true /\ fd f = true.
Proof.
  intros e f t H. unfold callhome, connect_user, libssh, get_host, get_user in *. cbn [e_session e_opthost e_optuser e_up e_auth] in H.
  flow; try discriminate; try congruence; cbn [negb] in *; try discriminate; cbn [ostr map app] in H.
  all: flow; try discriminate.
  all: match type of H with context [establish ?a ?b ?c ?d ?f] => destruct (establish a b c d f) as [[r' u]|] eqn:EE; [|discriminate] end.
  all: injection H as -> <-; est EE; try discriminate; injection R as ->; subst u.
  all: (split; [|cbn; repeat split; intros; try reflexivity; discriminate]).
  all: exact_list; cbn [e_own]; destruct (e_own e); vm_compute; reflexivity.
Qed.
Example c207_example : exists f t, connect_ssh fine = Some (Some f, t) /\ exist_after t [] = Some [Ctx; Chan; Str User; Str Ip; Sock; Ssh; Session].
Proof. do 2 eexists. split; vm_compute; reflexivity. Qed.

(* ------------------------------------------------------------------ *)
(** ** C208: a channel that could not be opened does no harm to the sessions there are *)

(** A state of the API: the lock is free, the sessions are different, the one given is connected. *)
Definition sane (w : world) (new : nat) : Prop :=
  locked w = false /\ NoDup (map p_id (ring w)) /\ ~ In new (map p_id (ring w)) /\ exists s rest, ring w = s :: rest /\ p_starting s = false.
Definition c208_full : Prop := forall e lock copy new w w', sane w new -> ssh_channel e lock copy new w = CRet None w' -> w' = w.
Lemma filter_other new l : ~ In new (map p_id l) -> filter (fun p => negb (Nat.eqb (p_id p) new)) l = l.
Proof.
  induction l as [|p l IH]; [reflexivity|]. cbn [map In filter]. intros H. destruct (Nat.eqb (p_id p) new) eqn:E.
  - apply PeanoNat.Nat.eqb_eq in E. tauto.
  - cbn [negb]. f_equal. tauto.
Qed.
(** The ring is as before, and so is the lock unless opening the channel was what failed. *)
Theorem c208_unharmed_partial : forall e lock copy new w w', sane w new -> ssh_channel e lock copy new w = CRet None w' ->
  ring w' = ring w /\ ((exists u, open_channel e = Some (1%Z, u, true)) \/ lock = false \/ e_session e = false -> w' = w).
Proof.
  intros e lock copy new [rg lk] w' (L & ND & NI & s & rest & R & ST) H. cbn [ring locked] in *. subst rg lk. unfold ssh_channel in H. cbn [ring locked] in H.
  assert (F : filter (fun p => negb (Nat.eqb (p_id p) new)) (s :: mkP new true None None :: rest) = s :: rest).
  { pose proof (filter_other new (s :: rest) NI) as G. cbn [filter p_id] in *. rewrite PeanoNat.Nat.eqb_refl. cbn [negb]. destruct (negb (Nat.eqb (p_id s) new)); exact G. }
  destruct (e_session e) eqn:S; cbn [negb] in H; [|injection H as <-; auto]. destruct lock; cbn [negb] in H.
  2: { injection H as <-. unfold ring_free. cbn [ring locked]. rewrite F. auto. }
  destruct (open_cases e) as [E|[(rc & u & E & Q & _)|E]]; rewrite E in H |- *.
  - discriminate.
  - rewrite Q in H. cbn [negb] in H. injection H as <-. unfold ring_free. cbn [ring locked]. rewrite F. split; [reflexivity|].
    intros [[v V]|[V|V]]; discriminate.
  - rewrite Z.eqb_refl in H. cbn [negb ring locked] in H. unfold ring_free in H. cbn [ring locked] in H. rewrite F in H.
    destruct (e_own e && negb (e_ctx e)); [injection H as <-; auto|].
    destruct (e_hello e); cbn [negb] in H; [|injection H as <-; auto].
    destruct (e_fill e); cbn [negb] in H; [|injection H as <-; auto].
    destruct (p_host s), (p_user s); discriminate.
Qed.
(** If the server does not open the channel, no session of the ring can be used again. *)
Theorem c208_locked_refuted : forall e copy new w rc u c, sane w new -> e_session e = true -> open_channel e = Some (rc, u, c) -> rc <> 1%Z ->
  exists w', ssh_channel e true copy new w = CRet None w' /\ io_lock (-1) w' = None /\ forall t, (0 <= t)%Z -> io_lock t w' = Some 0%Z.
Proof.
  intros e copy new [rg lk] rc u c (L & ND & NI & s & rest & R & ST) S O N. cbn [ring locked] in *. subst rg lk. unfold ssh_channel. cbn [ring locked]. rewrite S, O. cbn [negb].
  replace (Z.eqb rc 1) with false by (symmetry; now apply Z.eqb_neq). cbn [negb]. eexists. split; [reflexivity|]. split; [reflexivity|].
  intros t T. unfold io_lock, ring_free. cbn [locked]. now replace (Z.ltb t 0) with false by (symmetry; apply Z.ltb_ge; lia).
Qed.
Definition one : world := mkR [mkP 1 false (Some (bs "::1")) (Some (bs "admin"))] false.
Lemma one_sane : sane one 2.
Proof. split; [reflexivity|]. split; [repeat constructor; cbn; tauto|]. split; [cbn; intuition discriminate|]. do 2 eexists. split; reflexivity. Qed.
Theorem c208_full_refuted : ~ c208_full.
Proof.
  intros H. destruct (c208_locked_refuted (refused fine) true 2 one (-1)%Z [New Chan; Free Chan] false one_sane eq_refl) as (w' & A & B & _); [vm_compute; reflexivity|discriminate|].
  rewrite (H _ _ _ _ _ _ one_sane A) in B. vm_compute in B. discriminate.
Qed.
Example c208_example : ssh_channel (with_hello false fine) true true 2 one = CRet None one.
Proof. vm_compute. reflexivity. Qed.

(* ------------------------------------------------------------------ *)
(** ** C209: a new channel gives a session like the first *)

Definition c209_full : Prop := forall e lock new w, sane w new ->
  ssh_channel e lock true new w <> CUndef /\
  forall p w', ssh_channel e lock true new w = CRet (Some p) w' ->
    sane w' (S (list_sum (map p_id (ring w')))) /\ exists s rest, ring w = s :: rest /\ ring w' = s :: p :: rest /\ p_id p = new /\ p_starting p = false /\ p_host p = p_host s /\ p_user p = p_user s.
Lemma above l : ~ In (S (list_sum l)) l.
Proof. intros H. enough (G : forall x, In x l -> x <= list_sum l) by (apply G in H; lia). clear H. intros x. induction l as [|y l IH]; [contradiction|]. change (list_sum (y :: l)) with (y + list_sum l). intros [->|H]; [lia|apply IH in H; lia]. Qed.
(** If host and user of the session are known. *)
Theorem c209_joined_partial : forall e lock new w, sane w new -> (forall s, hd_error (ring w) = Some s -> p_host s <> None /\ p_user s <> None) ->
  ssh_channel e lock true new w <> CUndef /\
  forall p w', ssh_channel e lock true new w = CRet (Some p) w' ->
    sane w' (S (list_sum (map p_id (ring w')))) /\ exists s rest, ring w = s :: rest /\ ring w' = s :: p :: rest /\ p_id p = new /\ p_starting p = false /\ p_host p = p_host s /\ p_user p = p_user s.
Proof.
  intros e lock new [rg lk] (L & ND & NI & s & rest & R & ST) K. cbn [ring locked] in *. subst rg lk. specialize (K s eq_refl). destruct K as [K1 K2].
  unfold ssh_channel. cbn [ring locked]. destruct (p_host s) as [h|] eqn:PH; [|congruence]. destruct (p_user s) as [u|] eqn:PU; [|congruence]. split.
  - destruct (negb (e_session e)); [discriminate|]. destruct (negb lock); [discriminate|]. destruct (open_channel e) as [[[rc v] c]|]; [|discriminate].
    destruct (negb (Z.eqb rc 1)); [discriminate|]. destruct (e_own e && negb (e_ctx e)); [discriminate|]. destruct (negb (e_hello e)); [discriminate|]. destruct (negb (e_fill e)); discriminate.
  - intros p w'. destruct (negb (e_session e)); [discriminate|]. destruct (negb lock); [discriminate|]. destruct (open_channel e) as [[[rc v] c]|]; [|discriminate].
    destruct (negb (Z.eqb rc 1)); [discriminate|]. destruct (e_own e && negb (e_ctx e)); [discriminate|]. destruct (negb (e_hello e)); [discriminate|]. destruct (negb (e_fill e)); [discriminate|].
    intros H. injection H as <- <-. cbn [ring locked]. split.
    + split; [reflexivity|]. split; [|split; [apply above|do 2 eexists; split; [reflexivity|exact ST]]].
      cbn [ring map p_id] in *. inversion ND as [|? ? A B]; subst. constructor; [cbn; intros [C|C]; [apply NI; left; congruence|contradiction]|].
      constructor; [intros C; apply NI; now right|exact B].
    + exists s, rest. repeat split; cbn; congruence.
Qed.
(** An authenticated SSH session without a user name gives a session without one; the next channel on it is undefined behaviour. *)
Theorem c209_user_refuted :
  (exists f t, libssh (connected fine) = Some (Some f, t) /\ user f = None) /\
  forall e new s rest, e_session e = true -> (exists u, open_channel e = Some (1%Z, u, true)) -> (e_own e = true -> e_ctx e = true) -> e_hello e = true -> e_fill e = true -> p_user s = None ->
  forall copy, ssh_channel e true copy new (mkR (s :: rest) false) = CUndef.
Proof.
  split; [do 2 eexists; split; [vm_compute; reflexivity|reflexivity]|]. intros e new s rest A [u B] C D E F copy. unfold ssh_channel. cbn [ring locked]. rewrite A, B, D, E, F. cbn [negb].
  rewrite Z.eqb_refl. cbn [negb ring locked]. replace (e_own e && negb (e_ctx e)) with false; [now destruct (p_host s)|]. destruct (e_own e); [rewrite C; reflexivity|reflexivity].
Qed.
Theorem c209_full_refuted : ~ c209_full.
Proof.
  intros H. destruct c209_user_refuted as [_ U]. set (s := mkP 1 false (Some (bs "::1")) None).
  destruct (H fine true 2 (mkR [s] false)) as [A _].
  - split; [reflexivity|]. split; [repeat constructor; cbn; tauto|]. split; [cbn; intuition discriminate|]. do 2 eexists. split; reflexivity.
  - apply A. apply U; try reflexivity. eexists. vm_compute. reflexivity.
Qed.
Example c209_example : exists p w, ssh_channel fine true true 2 one = CRet (Some p) w /\ map p_id (ring w) = [1; 2] /\ locked w = false.
Proof. do 2 eexists. split; [vm_compute; reflexivity|]. split; reflexivity. Qed.

(* ------------------------------------------------------------------ *)
(** ** C210: no NETCONF before authentication *)

Definition is_auth (a : act) : Prop := match a with Auth _ => True | _ => False end.
Definition is_opened (a : act) : Prop := a = Opened.
(** Checked by computing on a trace. *)
Fixpoint first_ok (p : act -> bool) (t : list act) (seen : bool) : bool :=
  match t with [] => true | Hello :: t => seen && first_ok p t seen | a :: t => first_ok p t (seen || p a) end.
Lemma first_ok_sound p (P : act -> Prop) t : (forall a, p a = true -> P a) -> first_ok p t false = true -> only_after P Hello t.
Proof.
  intros SO. enough (G : forall t seen pre, (seen = true -> exists c, In c pre /\ P c) -> first_ok p t seen = true -> forall x y, t = x ++ Hello :: y -> exists c, In c (pre ++ x) /\ P c).
  { intros H x y E. exact (G t false [] ltac:(discriminate) H x y E). }
  clear t. induction t as [|a t IH]; intros seen pre K H x y E; [now destruct x|]. destruct x as [|b x].
  - cbn in E. injection E as -> _. cbn in H. apply andb_prop in H as [H _]. destruct (K H) as (c & C & D). exists c. split; [rewrite app_nil_r; exact C|exact D].
  - cbn in E. injection E as <- E. assert (exists seen', (seen' = true -> exists c, In c (pre ++ [a]) /\ P c) /\ first_ok p t seen' = true) as (seen' & K' & H').
    { assert (Z : seen = true -> exists c, In c (pre ++ [a]) /\ P c) by (intros Q; destruct (K Q) as (c & C & D); exists c; split; [apply in_or_app; now left|exact D]).
      assert (Z' : seen || p a = true -> exists c, In c (pre ++ [a]) /\ P c).
      { intros Q. apply orb_prop in Q as [Q|Q]; [now apply Z|]. exists a. split; [apply in_or_app; right; now left|now apply SO]. }
      destruct a; cbn [first_ok] in H; try (exists (seen || p (New r)); now split); try (exists (seen || p (Free r)); now split); try (exists (seen || p (Auth u)); now split); try (exists (seen || p Opened); now split).
      apply andb_prop in H as [H1 H2]. exists seen. now split. }
    destruct (IH seen' (pre ++ [a]) K' H' x y E) as (c & C & D). exists c. split; [rewrite <- app_assoc in C; exact C|exact D].
Qed.
Definition auth_b (a : act) : bool := match a with Auth _ => true | _ => false end.
Definition opened_b (a : act) : bool := match a with Opened => true | _ => false end.
Lemma auth_sound a : auth_b a = true -> is_auth a. Proof. now destruct a. Qed.
Lemma opened_sound a : opened_b a = true -> is_opened a. Proof. now destruct a. Qed.
Theorem c210_connect : forall e r t, connect_ssh e = Some (r, t) -> only_after is_auth Hello t /\ only_after is_opened Hello t.
Proof.
  intros e r t H. enough (G : first_ok auth_b t false = true /\ first_ok opened_b t false = true)
    by (split; [apply (first_ok_sound auth_b _ _ auth_sound)|apply (first_ok_sound opened_b _ _ opened_sound)]; apply G).
  unfold connect_ssh in H.
  flow; cbn [pw_buf] in *; try discriminate; try (injection H as <- <-; vm_compute; split; reflexivity);
    est H; subst t; try (vm_compute; split; reflexivity); destruct (e_own e); vm_compute; split; reflexivity.
Qed.
(** Over the SSH session of the caller: authenticated by the library unless it was connected. *)
Theorem c210_libssh : forall e r t, libssh e = Some (r, t) -> (e_up e = false -> only_after is_auth Hello t) /\ only_after is_opened Hello t.
Proof.
  intros e r t H. enough (G : (e_up e = false -> first_ok auth_b t false = true) /\ first_ok opened_b t false = true).
  { split; [intros U; apply (first_ok_sound auth_b _ _ auth_sound), G, U|apply (first_ok_sound opened_b _ _ opened_sound), G]. }
  unfold libssh, get_host, get_user in H.
  destruct (e_session e); cbn [negb] in H; [|injection H as <- <-; split; [intros _|]; reflexivity].
  destruct (e_opthost e).
  all: destruct (e_optuser e); cbn [ostr map app] in H.
  all: flow; try discriminate; try (injection H as <- <-; destruct (e_up e); (split; [intros _|]; vm_compute; reflexivity)).
  all: est H; subst t; try (split; [try discriminate; try reflexivity|vm_compute; reflexivity]); destruct (e_own e); (split; [try discriminate; try reflexivity|vm_compute; reflexivity]).
Qed.
Theorem c210_callhome : forall e r t, callhome e = Some (r, t) -> only_after is_auth Hello t /\ only_after is_opened Hello t.
Proof.
  intros e r t H. enough (G : first_ok auth_b t false = true /\ first_ok opened_b t false = true)
    by (split; [apply (first_ok_sound auth_b _ _ auth_sound)|apply (first_ok_sound opened_b _ _ opened_sound)]; apply G).
  unfold callhome, connect_user, libssh, get_host, get_user in *. cbn [e_session e_opthost e_optuser e_up e_auth] in H.
  flow; try discriminate; try congruence; cbn [negb] in *; try discriminate; cbn [ostr map app] in H.
  all: flow; try discriminate; try (injection H as <- <-; vm_compute; split; reflexivity).
  all: match type of H with context [establish ?a ?b ?c ?d ?f] => destruct (establish a b c d f) as [[r' u]|] eqn:EE; [|discriminate] end.
  all: injection H as -> <-; est EE; subst u; try (vm_compute; split; reflexivity); cbn [e_own] in *; destruct (e_own e); vm_compute; split; reflexivity.
Qed.
Example c210_example : exists f x y, libssh fine = Some (Some f, x ++ Hello :: y) /\ In (Auth (Some (bs "admin"))) x.
Proof. eexists. exists [New Session; New (Str OptHost); New (Str User); Auth (Some (bs "admin")); New Chan; Opened; New Ctx], []. split; [vm_compute; reflexivity|cbn; tauto]. Qed.

(* ------------------------------------------------------------------ *)
(** ** C211: the user who logs in *)

(** session_client.h 377-380: the user set in the SSH session, else in the options, else that of the effective user. *)
Definition documented (e : env) (from_session : bool) : option bytes :=
  match (if from_session then e_optuser e else None), e_set e with
  | Some u, _ => Some u
  | None, Some u => Some u
  | None, None => match e_pw e (e_euid e) with PwOk u => Some u | _ => None end
  end.
Definition c211_full : Prop := forall e r t u,
  (connect_ssh e = Some (r, t) -> In (Auth u) t -> u = documented e false /\ u <> None) /\
  (libssh e = Some (r, t) -> In (Auth u) t -> u = documented e true /\ u <> None).
Lemma in_auth u t : In (Auth u) t -> In u (flat_map (fun a => match a with Auth v => [v] | _ => [] end) t).
Proof. intros H. apply in_flat_map. exists (Auth u). split; [exact H|now left]. Qed.
Theorem c211_user_partial : forall e r t u, e_uid e = e_euid e ->
  (connect_ssh e = Some (r, t) -> In (Auth u) t -> u = documented e false /\ u <> None) /\
  (libssh e = Some (r, t) -> In (Auth u) t -> u = documented e true /\ u <> None).
Proof.
  intros e r t u E. split; intros H I; apply in_auth in I.
  - unfold connect_ssh, connect_user in H. unfold documented. rewrite <- E.
    flow; cbn [pw_buf] in *; try discriminate; try (injection H as <- <-; cbn in I; contradiction).
    all: est H; subst t; try (destruct (e_own e)); cbn in I; destruct I as [<-|[]]; split; congruence.
  - unfold libssh, get_host, get_user, libssh_user in H. unfold documented. rewrite <- E.
    destruct (e_session e); cbn [negb] in H; [|injection H as <- <-; contradiction].
    destruct (e_opthost e).
    all: destruct (e_optuser e); cbn [ostr map app] in H.
    all: flow; try discriminate; try (injection H as <- <-; destruct (e_up e); cbn in I; contradiction).
    all: est H; subst t; try (destruct (e_own e)); cbn in I; try contradiction; destruct I as [<-|[]]; split; congruence.
Qed.
(** In a setuid program it is the real user. *)
Theorem c211_real_user_refuted : ~ c211_full.
Proof.
  intros H. assert (exists r t, libssh (setuid fine) = Some (r, t) /\ In (Auth (Some (bs "joe"))) t) as (r & t & A & B) by (do 2 eexists; split; [vm_compute; reflexivity|cbn; tauto]).
  destruct (H (setuid fine) r t (Some (bs "joe"))) as [_ G]. destruct (G A B) as [C _]. vm_compute in C. discriminate.
Qed.
Example c211_example : exists r t, connect_ssh fine = Some (r, t) /\ In (Auth (Some (bs "admin"))) t.
Proof. do 2 eexists. split; [vm_compute; reflexivity|cbn; tauto]. Qed.

(* ------------------------------------------------------------------ *)
(** ** C212: opening a channel ends in time *)

(** The answer to a request within its time: [l] is a run of "again" within the time, then [rc] (the answer, or "again" once more when the time is over). *)
Definition answered (l : list (Z * bool)) (rc : Z) : Prop :=
  exists n x more, l = repeat ((-2)%Z, false) n ++ (rc, x) :: more /\ (rc = (-2)%Z -> x = true).
Lemma wait_answered l rc : wait l = Some rc <-> answered l rc.
Proof.
  split.
  - induction l as [|[r x] l IH]; [discriminate|]. cbn [wait]. destruct (Z.eqb r SSH_AGAIN) eqn:E.
    + apply Z.eqb_eq in E. subst r. destruct x.
      * intros H. injection H as <-. exists 0, true, l. split; reflexivity.
      * intros H. destruct (IH H) as (n & x & more & -> & X). exists (S n), x, more. split; [reflexivity|exact X].
    + intros H. injection H as <-. exists 0, x, l. split; [reflexivity|]. intros ->. discriminate E.
  - intros (n & x & more & -> & X). induction n as [|n IH]; [|exact IH]. cbn [repeat app wait]. destruct (Z.eqb rc SSH_AGAIN) eqn:E; [|reflexivity].
    apply Z.eqb_eq in E. now rewrite (X E).
Qed.
Lemma wait_ends l rc : In (rc, true) l -> wait l <> None.
Proof.
  induction l as [|[r x] l IH]; [contradiction|]. cbn [wait]. destruct (Z.eqb r SSH_AGAIN); [|discriminate]. destruct x; [discriminate|].
  intros [H|H]; [discriminate|now apply IH].
Qed.
(** It ends if the time does. *)
Theorem c212_ends : forall e a b, In (a, true) (e_open e) -> In (b, true) (e_sub e) -> open_channel e <> None.
Proof.
  intros e a b A B. apply wait_ends in A, B. unfold open_channel. destruct (e_alive e); cbn [negb]; [|discriminate].
  destruct (e_chan e).
  - destruct (wait (e_open e)) as [rc|]; [|congruence]. destruct (Z.eqb rc SSH_AGAIN); [discriminate|]. destruct (Z.eqb rc SSH_ERROR); [discriminate|].
    destruct (wait (e_sub e)) as [r|]; [|congruence]. destruct (Z.eqb r SSH_AGAIN); [discriminate|]. destruct (Z.eqb r SSH_ERROR); discriminate.
  - discriminate.
Qed.
(** It succeeds exactly if both requests were answered in time and not refused; the value 0 tells that the time was over for one of them. *)
Theorem c212_success : forall e, (exists u c, open_channel e = Some (1%Z, u, c)) <->
  e_alive e = true /\ e_chan e = true /\ exists a b, answered (e_open e) a /\ answered (e_sub e) b /\ a <> (-2)%Z /\ a <> (-1)%Z /\ b <> (-2)%Z /\ b <> (-1)%Z.
Proof.
  intros e. unfold open_channel. split.
  - intros (u & c & H). destruct (e_alive e); cbn [negb] in H; [|discriminate]. destruct (e_chan e); [|discriminate].
    destruct (wait (e_open e)) as [a|] eqn:A; [|discriminate]. destruct (Z.eqb_spec a SSH_AGAIN); [discriminate|]. destruct (Z.eqb_spec a SSH_ERROR); [discriminate|].
    destruct (wait (e_sub e)) as [b|] eqn:B; [|discriminate]. destruct (Z.eqb_spec b SSH_AGAIN); [discriminate|]. destruct (Z.eqb_spec b SSH_ERROR); [discriminate|].
    repeat split. exists a, b. rewrite <- !wait_answered. auto 10.
  - intros (-> & -> & a & b & A & B & N1 & N2 & N3 & N4). apply wait_answered in A, B. cbn [negb]. rewrite A, B.
    apply Z.eqb_neq in N1, N2, N3, N4. unfold SSH_AGAIN, SSH_ERROR. rewrite N1, N2, N3, N4. do 2 eexists. reflexivity.
Qed.
Theorem c212_timeout : forall e, (exists u c, open_channel e = Some (0%Z, u, c)) <->
  e_alive e = true /\ e_chan e = true /\ (answered (e_open e) (-2) \/ exists a, answered (e_open e) a /\ a <> (-2)%Z /\ a <> (-1)%Z /\ answered (e_sub e) (-2)).
Proof.
  intros e. unfold open_channel. split.
  - intros (u & c & H). destruct (e_alive e); cbn [negb] in H; [|discriminate]. destruct (e_chan e); [|discriminate].
    destruct (wait (e_open e)) as [a|] eqn:A; [|discriminate]. destruct (Z.eqb_spec a SSH_AGAIN) as [->|N1]; [apply wait_answered in A; auto|]. destruct (Z.eqb_spec a SSH_ERROR) as [->|N2]; [discriminate|].
    destruct (wait (e_sub e)) as [b|] eqn:B; [|discriminate]. destruct (Z.eqb_spec b SSH_AGAIN) as [->|N3]; [|destruct (Z.eqb_spec b SSH_ERROR); discriminate].
    repeat split. right. exists a. rewrite <- !wait_answered. auto 10.
  - intros (-> & -> & [A|(a & A & N1 & N2 & B)]); cbn [negb].
    + apply wait_answered in A. rewrite A. do 2 eexists. reflexivity.
    + apply wait_answered in A, B. rewrite A, B. apply Z.eqb_neq in N1, N2. unfold SSH_AGAIN, SSH_ERROR. rewrite N1, N2. do 2 eexists. reflexivity.
Qed.
Example c212_example : answered (e_open fine) 0 /\ answered [((-2)%Z, false); ((-2)%Z, true)] (-2) /\ open_channel fine = Some (1%Z, [New Chan; Opened], true).
Proof. split; [exists 1, false, []; split; [reflexivity|discriminate]|]. split; [exists 1, true, []; split; reflexivity|vm_compute; reflexivity]. Qed.

Print Assumptions c205_connect.
Print Assumptions c205_libssh_partial.
Print Assumptions c205_callhome_partial.
Print Assumptions c205_connected_refuted.
Print Assumptions c205_user_refuted.
Print Assumptions c205_callhome_refuted.
Print Assumptions c205_memory_refuted.
Print Assumptions c205_full_refuted.
Print Assumptions c206_connect.
Print Assumptions c206_libssh.
Print Assumptions c206_callhome.
Print Assumptions c207_connect.
Print Assumptions c207_libssh.
Print Assumptions c207_callhome.
Print Assumptions c208_unharmed_partial.
Print Assumptions c208_locked_refuted.
Print Assumptions c208_full_refuted.
Print Assumptions c209_joined_partial.
Print Assumptions c209_user_refuted.
Print Assumptions c209_full_refuted.
Print Assumptions c210_connect.
Print Assumptions c210_libssh.
Print Assumptions c210_callhome.
Print Assumptions c211_user_partial.
Print Assumptions c211_real_user_refuted.
Print Assumptions c212_ends.
Print Assumptions c212_success.
Print Assumptions c212_timeout.
