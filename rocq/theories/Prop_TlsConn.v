(** C90-C93: TLS connections. *)
From Coq Require Import String Ascii NArith Bool List Lia.
From Verif Require Import Bytes TlsConn.
Import ListNotations.
Local Open Scope list_scope.

(* ------------------------------------------------------------------ *)
(** ** C90: certificate revocation lists *)

(** The CRLs that could be downloaded, as they were served. *)
Definition served (l : list fetch) : list bytes := map d_data (filter d_ok l).
(** The last distribution point could be reached. *)
Definition last_ok (l : list fetch) : bool := last (map d_ok l) true.

Section C90.
Variables der pem : bytes -> bool.

Lemma crl_loop_spec b l store ret :
  (forall f, In f l -> d_ok f = false -> d_data f = []) ->
  (forall f, In f l -> d_ok f = true -> der (d_data f) = true \/ b = OpenSSL /\ pem (d_data f) = true) ->
  crl_loop der pem b l [] store ret = CrlRet (match l with [] => ret | _ => negb (last_ok l) end) (Some (store ++ served l)) [].
Proof.
  revert store ret; induction l as [|f l IH]; intros store ret E C; [cbn; now rewrite app_nil_r|].
  cbn [crl_loop app].
  assert (E' : forall g, In g l -> d_ok g = false -> d_data g = []) by (intros; apply E; [now right|assumption]).
  assert (C' : forall g, In g l -> d_ok g = true -> der (d_data g) = true \/ b = OpenSSL /\ pem (d_data g) = true) by (intros; apply C; [now right|assumption]).
  assert (L : last_ok (f :: l) = match l with [] => d_ok f | _ => last_ok l end) by (unfold last_ok; destruct l; reflexivity).
  rewrite L; unfold served; cbn [filter]. destruct (d_ok f) eqn:O; cbn [negb].
  - assert (A : add_crl der pem b (d_data f) = Added).
    { unfold add_crl. destruct (C f (or_introl eq_refl) O) as [-> |(-> & ->)]; [reflexivity|]. now destruct (der _). }
    rewrite A, (IH _ _ E' C'). cbn [map]. rewrite <- app_assoc. destruct l; reflexivity.
  - rewrite (E f (or_introl eq_refl) O), (IH _ _ E' C'). destruct l; reflexivity.
Qed.

(** All CRLs that can be downloaded are used, exactly as served, whatever other distribution points do.
    PARTIAL: a download that fails brings no data, the last one succeeds, with mbedTLS no CRL is in PEM, and there is memory. *)
Theorem c90_used_partial : forall b l, l <> [] ->
  (forall f, In f l -> d_ok f = false -> d_data f = []) ->
  (forall f, In f l -> d_ok f = true -> der (d_data f) = true \/ b = OpenSSL /\ pem (d_data f) = true) ->
  last_ok l = true ->
  crl_fetch der pem b true true true l = CrlRet false (Some (served l)) [].
Proof.
  intros b l N E C L. unfold crl_fetch; cbn [negb]. destruct l as [|f l]; [congruence|]. rewrite (crl_loop_spec b (f :: l) [] false E C). cbn [app]. now rewrite L.
Qed.
(** Without distribution points there are no CRLs to be checked. *)
Theorem c90_none : forall b, crl_fetch der pem b true true true [] = CrlRet false None [].
Proof. reflexivity. Qed.
(** Whatever is used was served: by one distribution point, or by several of which all but the last failed. *)
Theorem c90_from : forall b mem curl uris l fail store left d, crl_fetch der pem b mem curl uris l = CrlRet fail (Some store) left -> In d store ->
  exists pre fs f post, l = pre ++ fs ++ f :: post /\ d_ok f = true /\ (forall g, In g fs -> d_ok g = false) /\ d = concat (map d_data fs) ++ d_data f.
Proof.
  intros b mem curl uris l fail store left d. unfold crl_fetch.
  destruct mem, curl, uris; cbn [negb]; try discriminate. destruct l as [|f0 l0]; [discriminate|].
  assert (K : forall l pre fs st ret, (forall g, In g fs -> d_ok g = false) ->
    (forall d, In d st -> exists p g f q, pre = p ++ g ++ f :: q /\ d_ok f = true /\ (forall x, In x g -> d_ok x = false) /\ d = concat (map d_data g) ++ d_data f) ->
    crl_loop der pem b l (concat (map d_data fs)) st ret = CrlRet fail (Some store) left -> In d store ->
    exists p g f q, pre ++ fs ++ l = p ++ g ++ f :: q /\ d_ok f = true /\ (forall x, In x g -> d_ok x = false) /\ d = concat (map d_data g) ++ d_data f).
  { induction l as [|f l IH]; intros pre fs st ret F S1 E D; cbn [crl_loop] in E.
    - injection E as <- <- <-. destruct (S1 d D) as (p & g & f & q & -> & A & B & Q). exists p, g, f, (q ++ fs).
      split; [rewrite app_nil_r, <- !app_assoc; reflexivity|tauto].
    - destruct (d_ok f) eqn:O; cbn [negb] in E.
      + destruct (add_crl der pem b _); [|discriminate..].
        destruct (IH (pre ++ fs ++ [f]) [] (st ++ [concat (map d_data fs) ++ d_data f]) false) as (p & g & f' & q & Q); [intros g []| |exact E|exact D|].
        * intros x X. apply in_app_iff in X as [X|[<-|[]]].
          -- destruct (S1 x X) as (p & g & f' & q & -> & A & B & Q). exists p, g, f', (q ++ fs ++ [f]). split; [rewrite <- !app_assoc; reflexivity|tauto].
          -- exists pre, fs, f, []. tauto.
        * exists p, g, f', q. destruct Q as (Q & R). split; [|exact R]. rewrite <- Q, <- !app_assoc. reflexivity.
      + destruct (IH pre (fs ++ [f]) st true) as (p & g & f' & q & Q); [|exact S1| |exact D|].
        * intros g G; apply in_app_iff in G as [G|[<-|[]]]; auto.
        * rewrite map_app, concat_app; cbn. rewrite app_nil_r. exact E.
        * exists p, g, f', q. destruct Q as (Q & R). split; [|exact R]. rewrite <- Q, <- !app_assoc. reflexivity. }
  intros E D. destruct (K (f0 :: l0) [] [] [] false (fun _ H => match H with end) (fun _ H => match H with end) E D) as (p & g & f & q & Q). exists p, g, f, q. exact Q.
Qed.
End C90.

(** Whether a distribution point that cannot be reached stops the connection depends on its place: "try the next entry" is meant. *)
Theorem c90_last_refuted : exists der pem a b,
  d_ok a = false /\ d_data a = [] /\ d_ok b = true /\ der (d_data b) = true /\
  crl_fetch der pem OpenSSL true true true [a; b] = CrlRet false (Some [d_data b]) [] /\
  crl_fetch der pem OpenSSL true true true [b; a] = CrlRet true (Some [d_data b]) [].
Proof.
  exists (fun d => beqb d (bs "crl")), (fun _ => false), {| d_data := []; d_ok := false |}, {| d_data := bs "crl"; d_ok := true |}.
  vm_compute; repeat split.
Qed.
(** A download that breaks off spoils the next one, and at the end its data are not freed. *)
Theorem c90_rest_refuted : exists der pem a b,
  d_ok a = false /\ d_ok b = true /\ der (d_data b) = true /\
  crl_fetch der pem OpenSSL true true true [a; b] = CrlRet true None [] /\
  crl_fetch der pem OpenSSL true true true [b; a] = CrlRet true (Some [d_data b]) (d_data a) /\ d_data a <> [].
Proof.
  exists (fun d => beqb d (bs "crl")), (fun _ => false), {| d_data := bs "cr"; d_ok := false |}, {| d_data := bs "crl"; d_ok := true |}.
  repeat split; vm_compute; try reflexivity. discriminate.
Qed.
(** With mbedTLS a CRL that is not in DER is read beyond its end. *)
Theorem c90_pem_refuted : forall der pem l d, d_ok d = true -> der (d_data d) = false -> crl_fetch der pem MbedTLS true true true (d :: l) = CrlUndef.
Proof. intros der pem l d O D. cbn. rewrite O; cbn. unfold add_crl. now rewrite D. Qed.
(** Without memory for the store of CRLs the connection goes on without them. *)
Theorem c90_memory_refuted : forall der pem b curl uris l, crl_fetch der pem b false curl uris l = CrlRet false None [].
Proof. reflexivity. Qed.

Example c90_example :
  let der := fun d => beqb d (bs "one") in let pem := fun d => beqb d (bs "two") in
  crl_fetch der pem OpenSSL true true true [{| d_data := bs "one"; d_ok := true |}; {| d_data := []; d_ok := false |}; {| d_data := bs "two"; d_ok := true |}]
  = CrlRet false (Some [bs "one"; bs "two"]) [].
Proof. vm_compute; reflexivity. Qed.

(* ------------------------------------------------------------------ *)
(** ** C91: an attempt to connect releases all it took *)

(** Runs a trace on the set of objects that are alive: [None] if an object is freed that is not alive or made when it is. *)
Fixpoint alive (t : list act) (l : list res) : option (list res) :=
  match t with
  | [] => Some l
  | New r :: t => if existsb (res_eqb r) l then None else alive t (r :: l)
  | Free r :: t => if existsb (res_eqb r) l then alive t (filter (fun x => negb (res_eqb r x)) l) else None
  | _ :: t => alive t l
  end.
Fixpoint closes (t : list act) : nat := match t with [] => 0 | Close :: t => S (closes t) | _ :: t => closes t end.

Lemma alive_app a b l : alive (a ++ b) l = match alive a l with Some m => alive b m | None => None end.
Proof. revert l; induction a as [|[] a IH]; intros l; cbn; try apply IH; [reflexivity| |]; destruct (existsb _ l); (apply IH || reflexivity). Qed.
Lemma closes_app a b : closes (a ++ b) = (closes a + closes b)%nat.
Proof. induction a as [|[] a IH]; cbn; congruence. Qed.
Lemma shake_alive l m : alive (snd (handshake l)) m = Some m.
Proof. induction l as [|[] l IH]; cbn; [reflexivity| |reflexivity..]. destruct (handshake l); exact IH. Qed.
Lemma shake_closes l : closes (snd (handshake l)) = 0%nat.
Proof. induction l as [|[] l IH]; cbn; [reflexivity| |reflexivity..]. destruct (handshake l); exact IH. Qed.

(** All paths through the functions. *)
Ltac paths f :=
  cbn [negb andb orb fst snd app map];
  repeat (match goal with
         | |- context [f_cfg f] => destruct (f_cfg f) eqn:?
         | |- context [f_store f] => destruct (f_store f) eqn:?
         | |- context [f_load f] => destruct (f_load f) eqn:?
         | |- context [f_trust f] => destruct (f_trust f) eqn:?
         | |- context [f_other f] => destruct (f_other f) eqn:?
         | |- context [f_crls f] => destruct (f_crls f) eqn:?
         | |- context [f_crl f] => destruct (f_crl f) eqn:?
         | |- context [f_rng f] => destruct (f_rng f) eqn:?
         | |- context [f_box f] => destruct (f_box f) eqn:?
         | |- context [f_defaults f] => destruct (f_defaults f) eqn:?
         | |- context [f_cert f] => destruct (f_cert f) eqn:?
         | |- context [f_key f] => destruct (f_key f) eqn:?
         | |- context [f_move f] => destruct (f_move f) eqn:?
         | |- context [f_sess f] => destruct (f_sess f) eqn:?
         | |- context [f_host f] => destruct (f_host f) eqn:?
         | |- context [f_versions f] => destruct (f_versions f) eqn:?
         | |- context [f_suites f] => destruct (f_suites f) eqn:?
         | |- context [handshake (f_shake f)] => destruct (handshake (f_shake f)) as [[] ?h] eqn:?
         | |- context [f_ctx f] => destruct (f_ctx f) eqn:?
         | |- context [f_hello f] => destruct (f_hello f) eqn:?
         | |- context [f_fill f] => destruct (f_fill f) eqn:?
         end; cbn [negb andb orb fst snd app map]).

(** The client, with OpenSSL: the own key fits to the own certificate and CRLs can be copied. *)
Definition fits (b : backend) (f : faults) : Prop := b = OpenSSL -> f_cert f = true /\ f_key f = true /\ f_move f = true.

Ltac start f := cbv [client_connect client_new server_accept free_session init_ctx setup crls ctx_after setup_acts free_cfg ctx_destroy].
Ltac finish :=
  intros; repeat match goal with H : fits ?b ?f |- _ => unfold fits in H end;
  repeat match goal with
  | H : OpenSSL = OpenSSL -> _ |- _ => specialize (H eq_refl)
  | H : handshake ?l = (_, ?h) |- _ =>
      let A := fresh "A" in let C := fresh "C" in
      assert (A : forall m, alive h m = Some m) by (intros m; pose proof (shake_alive l m) as Q; rewrite H in Q; exact Q);
      assert (C : closes h = 0%nat) by (pose proof (shake_closes l) as Q; rewrite H in Q; exact Q); clear H
  end;
  repeat (cbn [alive existsb res_eqb filter negb orb andb app closes map plus] in *; rewrite ?alive_app, ?closes_app;
    repeat match goal with A : forall m, alive ?h m = Some m |- _ => rewrite A | C : closes ?h = 0%nat |- _ => rewrite C end).

(** A client whose attempt fails frees each object exactly once.  PARTIAL: with OpenSSL, if its key fits to its certificate. *)
Theorem c91_client_partial : forall b f host, fst (client_connect b f host) = false -> fits b f -> alive (snd (client_connect b f host)) [] = Some [].
Proof.
  intros b f host; destruct b; start f; paths f. all: try (intros; discriminate).
  all: finish. all: try reflexivity. all: intuition congruence.
Qed.
(** No object is ever freed twice, whatever happens, and the socket is not closed twice. *)
Theorem c91_client_once : forall b f host, alive (snd (client_connect b f host)) [] <> None /\ (closes (snd (client_connect b f host)) <= 1)%nat.
Proof.
  intros b f host; destruct b; start f; paths f; finish; (split; [discriminate|lia]).
Qed.
(** It closes the socket.  PARTIAL: if the attempt fails before the handshake is begun, or after it was completed. *)
Theorem c91_client_socket_partial : forall b f host, fst (client_connect b f host) = false -> f_host f = true ->
  (~ In Shake (snd (client_connect b f host)) /\ f_shake f <> [] \/ exists n r, f_shake f = repeat Again n ++ Done :: r) ->
  closes (snd (client_connect b f host)) = 1%nat.
Proof.
  intros b f host E Hh H.
  assert (K : fst (handshake (f_shake f)) = true \/ In Shake (snd (handshake (f_shake f))) \/ f_shake f = []).
  { destruct (f_shake f) as [|[] l]; cbn; [tauto| |tauto..]. right; left. destruct (handshake l); now left. }
  assert (D : (exists n r, f_shake f = repeat Again n ++ Done :: r) -> fst (handshake (f_shake f)) = true).
  { intros (n & r & ->). induction n as [|n IH]; [reflexivity|]. cbn. destruct (handshake (repeat Again n ++ Done :: r)); exact IH. }
  revert E H. destruct b; start f; paths f; try (intros; discriminate); try congruence; intros _ H.
  all: try match goal with Q : handshake ?l = (false, ?h) |- _ =>
      exfalso; destruct K as [K|K]; [discriminate K|]; destruct H as [(H & Z)|H]; [|specialize (D H); discriminate D];
      destruct K as [K|K]; [|contradiction]; apply H; repeat (rewrite in_app_iff || cbn [In]); tauto end.
  all: finish; reflexivity.
Qed.
(** A session that came about holds what was made, and freeing it releases everything. *)
Theorem c91_client_session : forall b f host, fst (client_connect b f host) = true ->
  let t := snd (client_connect b f host) ++ free_session b f in
  closes (snd (client_connect b f host)) = 0%nat /\ alive t [] = Some [] /\ closes t = 1%nat.
Proof.
  intros b f host; cbn zeta; destruct b; start f; paths f. all: try (intros; discriminate).
  all: finish; repeat split.
Qed.

(** The server: each object is freed exactly once if the attempt fails, and the socket closed exactly once.
    PARTIAL: its configuration can be set up (with OpenSSL: its key fits to its certificate), and there is memory for a TLS session and a generator. *)
Theorem c91_server_partial : forall b f, fst (server_accept b f) = false -> fits b f -> (b = MbedTLS -> f_rng f = true /\ f_box f = true /\ f_defaults f = true) ->
  alive (snd (server_accept b f)) [] = Some [].
Proof.
  intros b f; destruct b; start f; paths f. all: try (intros; discriminate).
  all: finish. all: try reflexivity. all: intuition congruence.
Qed.
Theorem c91_server_socket_partial : forall b f, fst (server_accept b f) = false -> (b = MbedTLS -> f_sess f = true) -> closes (snd (server_accept b f)) = 1%nat.
Proof.
  intros b f; destruct b; start f; paths f. all: try (intros; discriminate).
  all: finish. all: try reflexivity. all: intuition congruence.
Qed.
Theorem c91_server_session : forall b f, fst (server_accept b f) = true ->
  let t := snd (server_accept b f) ++ free_session b f in
  closes (snd (server_accept b f)) = 0%nat /\ alive t [] = Some [] /\ closes t = 1%nat.
Proof.
  intros b f; cbn zeta; destruct b; start f; paths f. all: try (intros; discriminate).
  all: finish; repeat split.
Qed.

Definition fine : faults :=
  {| f_cfg := true; f_store := true; f_load := true; f_trust := true; f_other := true; f_crl := true; f_crls := true; f_rng := true; f_box := true;
     f_cert := true; f_key := true; f_move := true; f_defaults := true; f_sess := true; f_host := true; f_shake := [Again; Done]; f_ctx := true;
     f_hello := true; f_fill := true; f_versions := true; f_suites := true |}.
(** A handshake that fails, for instance because the certificate of the server is not trusted, leaves the socket of the client open. *)
Theorem c91_client_socket_refuted : forall b f host, fst (client_connect b f host) = false -> In Shake (snd (client_connect b f host)) ->
  (forall n r, f_shake f <> repeat Again n ++ Done :: r) -> closes (snd (client_connect b f host)) = 0%nat.
Proof.
  intros b f host E H N.
  assert (D : fst (handshake (f_shake f)) = false).
  { destruct (fst (handshake (f_shake f))) eqn:Q; [|reflexivity]. exfalso.
    assert (X : forall l, fst (handshake l) = true -> exists n r, l = repeat Again n ++ Done :: r).
    { induction l as [|[] l IH]; cbn; try discriminate.
      - destruct (handshake l) as [o t]; cbn in *; intros ->. destruct (IH eq_refl) as (n & r & ->). now exists (S n), r.
      - intros _; now exists 0%nat, l. }
    destruct (X _ Q) as (n & r & Y). exact (N n r Y). }
  revert E H. destruct b; start f; paths f; try (intros; discriminate); try discriminate D; intros _ H.
  all: try (exfalso; clear - H; repeat (rewrite in_app_iff in H || cbn [In] in H); intuition discriminate).
  all: finish; reflexivity.
Qed.
Definition set_key (f : faults) : faults :=
  {| f_cfg := f_cfg f; f_store := f_store f; f_load := f_load f; f_trust := f_trust f; f_other := f_other f; f_crl := f_crl f; f_crls := f_crls f; f_rng := f_rng f; f_box := f_box f;
     f_cert := f_cert f; f_key := false; f_move := f_move f; f_defaults := f_defaults f; f_sess := f_sess f; f_host := f_host f; f_shake := f_shake f; f_ctx := f_ctx f;
     f_hello := f_hello f; f_fill := f_fill f; f_versions := f_versions f; f_suites := f_suites f |}.
Definition no_sess (f : faults) : faults :=
  {| f_cfg := f_cfg f; f_store := f_store f; f_load := f_load f; f_trust := f_trust f; f_other := f_other f; f_crl := f_crl f; f_crls := f_crls f; f_rng := f_rng f; f_box := f_box f;
     f_cert := f_cert f; f_key := f_key f; f_move := f_move f; f_defaults := f_defaults f; f_sess := false; f_host := f_host f; f_shake := f_shake f; f_ctx := f_ctx f;
     f_hello := f_hello f; f_fill := f_fill f; f_versions := f_versions f; f_suites := f_suites f |}.
(** With OpenSSL each attempt with a key that does not fit to the certificate leaves the certificate, the key and both stores allocated, also on a server. *)
Theorem c91_key_refuted :
  alive (snd (client_connect OpenSSL (set_key fine) None)) [] = Some [Crl; Key; Cert; Store] /\
  alive (snd (server_accept OpenSSL (set_key fine))) [] = Some [Crl; Key; Cert; Store].
Proof. vm_compute; split; reflexivity. Qed.
(** With mbedTLS a server without memory for a TLS session closes the socket twice. *)
Theorem c91_double_refuted : closes (snd (server_accept MbedTLS (no_sess fine))) = 2%nat.
Proof. vm_compute; reflexivity. Qed.

Example c91_example : fst (client_connect OpenSSL (no_sess fine) None) = false /\ fst (client_connect MbedTLS fine None) = true
  /\ fst (server_accept OpenSSL (no_sess fine)) = false /\ fst (server_accept MbedTLS fine) = true.
Proof. vm_compute; repeat split. Qed.

(* ------------------------------------------------------------------ *)
(** ** C92: a TLS client verifies whom it talks to *)

(** What is in force. *)
Record state := { s_trust : bool; s_verify : bool; s_host : option (option bytes); s_versions : bool; s_suites' : bool }.
Definition init : state := {| s_trust := false; s_verify := false; s_host := None; s_versions := false; s_suites' := false |}.
Definition act_on (a : act) (s : state) : state :=
  match a with
  | Trust => {| s_trust := true; s_verify := s_verify s; s_host := s_host s; s_versions := s_versions s; s_suites' := s_suites' s |}
  | Verify => {| s_trust := s_trust s; s_verify := true; s_host := s_host s; s_versions := s_versions s; s_suites' := s_suites' s |}
  | Host h => {| s_trust := s_trust s; s_verify := s_verify s; s_host := Some h; s_versions := s_versions s; s_suites' := s_suites' s |}
  | Versions => {| s_trust := s_trust s; s_verify := s_verify s; s_host := s_host s; s_versions := true; s_suites' := s_suites' s |}
  | Suites => {| s_trust := s_trust s; s_verify := s_verify s; s_host := s_host s; s_versions := s_versions s; s_suites' := true |}
  | Defaults => {| s_trust := s_trust s; s_verify := s_verify s; s_host := s_host s; s_versions := false; s_suites' := false |}
  | New _ | Free _ | Close | Shake => s
  end.
(** The states in which steps of a handshake are made. *)
Fixpoint at_shakes (t : list act) (s : state) : list state :=
  match t with [] => [] | a :: t => (match a with Shake => [s] | _ => [] end) ++ at_shakes t (act_on a s) end.
Lemma at_app a b s : at_shakes (a ++ b) s = at_shakes a s ++ at_shakes b (fold_left (fun s a => act_on a s) a s).
Proof. revert s; induction a as [|x a IH]; intros s; cbn; [reflexivity|]. now rewrite IH, app_assoc. Qed.
Lemma at_handshake l s : fold_left (fun s a => act_on a s) (snd (handshake l)) s = s /\ forall x, In x (at_shakes (snd (handshake l)) s) -> x = s.
Proof.
  induction l as [|[] l IH]; cbn; [now split| | |]; try (split; [reflexivity|intros x [<-|[]]; reflexivity]).
  destruct (handshake l) as [o t]; cbn in *. destruct IH as (A & B). split; [exact A|]. intros x [<-|X]; [reflexivity|now apply B].
Qed.
Ltac shakes :=
  intros x; repeat match goal with
  | H : handshake ?l = (_, ?h) |- _ =>
      let Q := fresh "Q" in assert (Q : forall s, fold_left (fun s a => act_on a s) h s = s /\ forall x, In x (at_shakes h s) -> x = s)
        by (intros s; pose proof (at_handshake l s) as Q; rewrite H in Q; exact Q); clear H
  end;
  repeat (cbn [app at_shakes act_on fold_left s_trust s_verify s_host s_versions s_suites' init In map] in *;
          rewrite ?in_app_iff, ?at_app, ?fold_left_app;
          repeat match goal with Q : forall s, fold_left _ ?h s = s /\ _ |- context [fold_left _ ?h ?s] => rewrite (proj1 (Q s)) end);
  intuition idtac;
  try match goal with Q : forall s, fold_left _ ?h s = s /\ _, X : In _ (at_shakes ?h ?s) |- _ => apply (proj2 (Q s)) in X; subst end; cbn; auto.

(** Every step of a handshake of a client is made with the trusted certificates loaded, the verification on and the name given by the caller. *)
Theorem c92_verified : forall b f host s, In s (at_shakes (snd (client_connect b f host)) init) ->
  s_trust s = true /\ s_verify s = true /\ s_host s = Some host.
Proof.
  intros b f host. destruct b; start f; paths f; shakes.
Qed.
(** nc_connect_tls() always has a name verified: the one it was given, or localhost. *)
Definition expected (host : option bytes) (n : bytes) : Prop :=
  (host = Some n /\ n <> []) \/ ((host = None \/ host = Some []) /\ n = bs "localhost").
Theorem c92_name : forall b f host s, In s (at_shakes (snd (client_connect b f (connect_host host))) init) ->
  exists n, s_host s = Some (Some n) /\ expected host n.
Proof.
  intros b f host s H. apply c92_verified in H as (_ & _ & H). rewrite H. unfold connect_host, expected.
  destruct host as [[|c n]|]; eexists; (split; [reflexivity|]); [right; auto|left; split; [reflexivity|discriminate]|right; auto].
Qed.
(** There is a session only if the handshake was completed. *)
Theorem c92_completed : forall b f host, fst (client_connect b f host) = true ->
  (exists n r, f_shake f = repeat Again n ++ Done :: r) /\ In Shake (snd (client_connect b f host)).
Proof.
  intros b f host E.
  assert (X : forall l, fst (handshake l) = true -> (exists n r, l = repeat Again n ++ Done :: r) /\ In Shake (snd (handshake l))).
  { induction l as [|[] l IH]; cbn; try discriminate.
    - destruct (handshake l) as [o t]; cbn in *; intros ->. destruct (IH eq_refl) as ((n & r & ->) & _). split; [now exists (S n), r|now left].
    - intros _; split; [now exists 0%nat, l|now left]. }
  specialize (X (f_shake f)). revert E. destruct b; start f; paths f; try discriminate; intros _; destruct (X eq_refl) as (A & B); (split; [exact A|]);
    repeat (rewrite in_app_iff || cbn [In]); tauto.
Qed.
Example c92_example : at_shakes (snd (client_connect OpenSSL fine (connect_host (Some (bs "example.org"))))) init <> [].
Proof. vm_compute; discriminate. Qed.

(* ------------------------------------------------------------------ *)
(** ** C93: the configured versions and cipher suites are in force *)

(** PARTIAL: with OpenSSL. *)
Theorem c93_force_partial : forall f s, In s (at_shakes (snd (server_accept OpenSSL f)) init) ->
  (f_versions f = true -> s_versions s = true) /\ (f_suites f = true -> s_suites' s = true).
Proof. intros f. start f; paths f; shakes. Qed.
(** With mbedTLS they never are, as the defaults are set after them. *)
Theorem c93_force_refuted : forall f s, In s (at_shakes (snd (server_accept MbedTLS f)) init) -> s_versions s = false /\ s_suites' s = false.
Proof. intros f. start f; paths f; shakes. Qed.
(** The verification of the certificate of a client is on. *)
Theorem c93_verified : forall b f s, In s (at_shakes (snd (server_accept b f)) init) -> s_trust s = true /\ s_verify s = true.
Proof. intros b f. destruct b; start f; paths f; shakes. Qed.

(** With mbedTLS every configured cipher suite is written beyond the memory that was allocated for it. *)
Theorem c93_memory_refuted : forall id st name, id name <> 0%N -> mbed_append id st name = Overrun.
Proof.
  intros id st name N. unfold mbed_append. destruct (N.eqb_spec (id name) 0) as [E|_]; [contradiction|].
  match goal with |- context [(?a <=? ?b)%N] => destruct (N.leb_spec a b) end; [lia|reflexivity].
Qed.
(** The names of mbedTLS for suites of TLS 1.3 start with TLS1-3, those made here do not. *)
Theorem c93_name_refuted : forall n, In n tls13 -> forall r, mbed_suite n <> bs "TLS1-3" ++ r.
Proof. intros n H r. repeat (destruct H as [<-|H]; [vm_compute; discriminate|]). destruct H. Qed.
Example c93_example : mbed_suite (bs "tls-rsa-with-aes-128-ccm") = bs "TLS-RSA-WITH-AES-128-CCM"
  /\ at_shakes (snd (server_accept MbedTLS fine)) init <> [] /\ at_shakes (snd (server_accept OpenSSL fine)) init <> [].
Proof. vm_compute; repeat split; discriminate. Qed.

Print Assumptions c90_used_partial.
Print Assumptions c90_from.
Print Assumptions c91_client_partial.
Print Assumptions c91_client_socket_refuted.
Print Assumptions c91_server_partial.
Print Assumptions c91_server_session.
Print Assumptions c92_verified.
Print Assumptions c92_completed.
Print Assumptions c93_force_partial.
