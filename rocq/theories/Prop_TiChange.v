(** C250, C251: the memory and sockets of a listening endpoint over changes of its configuration, and a change of its transport; the model is TiChange. *)
From Coq Require Import NArith Arith Bool Lia List.
From Verif Require Import TiChange.
Import ListNotations.

(* ------------------------------------------------------------------ *)
(** ** Specification *)

(** Nothing is allocated and no socket open. *)
Definition clean (s : st) : Prop := (forall i, live s i = None) /\ (forall i, open s i = false).
(** The port is never removed (the removal is an assertion that fails, see C54's model). *)
Definition port_stays (l : list leaf) : Prop := forall p b, In (LPort p b) l -> p <> 0%N.
(** The mandatory local address is among the children. *)
Definition complete (l : list leaf) : Prop := exists b, In (LAddr b) l.
Definition proper (c : chg) : Prop := match c with Edit l => port_stays l | Switch _ l => port_stays l /\ complete l end.
(** Whatever the changes were and wherever they stopped, the options are those of the transport and removing the endpoint releases all of its memory and its socket once. *)
Definition released (r : res) : Prop := exists s s', state r = Some s /\ (exists t, ti s = Some t /\ live s (opts s) = Some (BOpts t)) /\ destroy s = Ok s' /\ clean s'.
Definition c250_full : Prop := forall t l cs, port_stays l -> complete l -> Forall proper cs -> released (andthen (start t l) (changes cs)).
Definition keeps (c : chg) : Prop := match c with Edit _ => True | Switch _ _ => False end.

(* ------------------------------------------------------------------ *)

Record inv (t : tk) (s : st) : Prop := {
  i_ti : ti s = Some t;
  i_opts : opts s < nxt s;
  i_addr : forall a, addr s = Some a -> a < nxt s /\ a <> opts s;
  i_sock : forall k, sock s = Some k -> k < nxt s;
  i_live : forall j, live s j = if Nat.eqb j (opts s) then Some (BOpts t) else match addr s with Some a => if Nat.eqb j a then Some BStr else None | None => None end;
  i_open : forall j, open s j = match sock s with Some k => Nat.eqb j k | None => false end }.

Lemma upd_same {A} (f : nat -> A) i v : upd f i v i = v.
Proof. unfold upd. now rewrite Nat.eqb_refl. Qed.
Lemma upd_other {A} (f : nat -> A) i v j : j <> i -> upd f i v j = f j.
Proof. unfold upd. intros H. destruct (Nat.eqb_spec j i); [contradiction|reflexivity]. Qed.

Lemma sap_inv t b p l s : inv t s -> (b = true <-> p = 0%N) -> exists s', (set_address_port b p l s = Ok s' \/ set_address_port b p l s = Fail s') /\ inv t s'.
Proof.
  intros I E. unfold set_address_port. replace (Bool.eqb b (N.eqb p 0)) with true.
  2:{ destruct b, (N.eqb_spec p 0); cbn; auto; [destruct n; tauto|]. destruct E as [_ E]. specialize (E e). discriminate. }
  destruct (_ && _); [|exists s; auto]. destruct l; [|exists s; auto].
  pose proof (i_open _ _ I) as O. pose proof (i_sock _ _ I) as K. unfold close. destruct (sock s) as [k|] eqn:S.
  - rewrite O, Nat.eqb_refl. cbn [andthen]. eexists. split; [left; reflexivity|]. destruct I as [A B C D F G]. specialize (K k eq_refl). constructor; cbn; auto.
    + intros a Ha. specialize (C a Ha). lia.
    + intros q Hq. injection Hq as <-. lia.
    + intros j. destruct (Nat.eqb_spec j (nxt s)) as [->|N]; [now rewrite upd_same|]. rewrite upd_other by exact N.
      destruct (Nat.eqb_spec j k) as [->|M]; [now rewrite upd_same|]. rewrite upd_other by exact M. rewrite O. now destruct (Nat.eqb_spec j k).
  - cbn [andthen]. eexists. split; [left; reflexivity|]. destruct I as [A B C D F G]. constructor; cbn; auto.
    + intros a Ha. specialize (C a Ha). lia.
    + intros q Hq. injection Hq as <-. lia.
    + intros j. destruct (Nat.eqb_spec j (nxt s)) as [->|N]; [now rewrite upd_same|]. rewrite upd_other by exact N. apply O.
Qed.

Lemma leaf_inv t x s : inv t s -> port_stays [x] -> exists s', (h_leaf t x s = Ok s' \/ h_leaf t x s = Fail s') /\ inv t s'.
Proof.
  intros I P. destruct x as [l|p l|]; cbn [h_leaf].
  - unfold h_addr, free. assert (G : forall s1, (forall j, live s1 j = if Nat.eqb j (opts s) then Some (BOpts t) else None) -> ti s1 = Some t -> opts s1 = opts s -> nxt s1 = nxt s -> sock s1 = sock s -> open s1 = open s ->
      inv t (mkSt (ti s1) (opts s1) (Some (nxt s1)) (port s1) (sock s1) (upd (live s1) (nxt s1) (Some BStr)) (open s1) (S (nxt s1)))).
    { intros s1 L T O N K Q. destruct I as [A B C D F G0]. constructor; cbn; rewrite ?T, ?O, ?N, ?K, ?Q; auto.
      - intros a E. injection E as <-. lia.
      - intros k E. specialize (D k E). lia.
      - intros j. destruct (Nat.eqb_spec j (nxt s)) as [->|M]; [rewrite upd_same; destruct (Nat.eqb_spec (nxt s) (opts s)); [lia|reflexivity]|].
        rewrite upd_other by exact M. apply L. }
    pose proof (i_live _ _ I) as L. destruct (addr s) as [a|] eqn:E.
    + destruct (i_addr _ _ I a E) as [A1 A2]. rewrite L. destruct (Nat.eqb_spec a (opts s)); [contradiction|]. rewrite Nat.eqb_refl. cbn [andthen].
      apply sap_inv; [|tauto]. apply (G (with_live s (upd (live s) a None))); try reflexivity; [|exact (i_ti _ _ I)].
      intros j. cbn. destruct (Nat.eqb_spec j a) as [->|M]; [rewrite upd_same; destruct (Nat.eqb_spec a (opts s)); [contradiction|reflexivity]|].
      rewrite upd_other by exact M. rewrite L. destruct (Nat.eqb_spec j a); [contradiction|reflexivity].
    + cbn [andthen]. apply sap_inv; [|tauto]. apply G; try reflexivity; [|exact (i_ti _ _ I)]. intros j. rewrite L. destruct (Nat.eqb j (opts s)); reflexivity.
  - unfold h_port. apply sap_inv.
    + destruct I as [A B C D F G]. constructor; cbn; auto.
    + specialize (P p l (or_introl eq_refl)). split; [discriminate|contradiction].
  - unfold h_opt. rewrite (i_live _ _ I), Nat.eqb_refl. exists s. destruct t; auto.
Qed.
Lemma leafs_inv t l : forall s, inv t s -> port_stays l -> exists s', (h_leafs t l s = Ok s' \/ h_leafs t l s = Fail s') /\ inv t s'.
Proof.
  induction l as [|x l IH]; intros s I P; [exists s; cbn; auto|]. cbn [h_leafs].
  destruct (leaf_inv t x s I) as (s1 & [E|E] & I1); [intros p b [H|[]]; apply (P p b); now left| |]; rewrite E; cbn [andthen].
  - apply IH; [exact I1|]. intros p b H. apply (P p b). now right.
  - exists s1. auto.
Qed.
Lemma changes_inv t cs : forall s, inv t s -> Forall proper cs -> Forall keeps cs -> exists s', (changes cs s = Ok s' \/ changes cs s = Fail s') /\ inv t s'.
Proof.
  induction cs as [|c cs IH]; intros s I P K; [exists s; cbn; auto|]. inversion P as [|? ? P1 P2]; subst. inversion K as [|? ? K1 K2]; subst. cbn [changes].
  destruct c as [l|first l]; [|destruct K1]. unfold change. rewrite (i_ti _ _ I). destruct (leafs_inv t l s I P1) as (s1 & [E|E] & I1); rewrite E; cbn [andthen].
  - exact (IH s1 I1 P2 K2).
  - exists s1. auto.
Qed.
Lemma start_inv t l : port_stays l -> exists s, (start t l = Ok s \/ start t l = Fail s) /\ inv t s.
Proof.
  intros P. unfold start, create. cbn [andthen]. apply leafs_inv; [|exact P]. constructor; cbn; auto; try discriminate.
Qed.
Lemma destroy_inv t s : inv t s -> exists s', destroy s = Ok s' /\ clean s'.
Proof.
  intros [A B C D F G]. unfold destroy, del_opts, free. rewrite A. destruct (addr s) as [a|] eqn:E.
  - destruct (C a eq_refl) as [C1 C2]. rewrite F. destruct (Nat.eqb_spec a (opts s)); [contradiction|]. rewrite Nat.eqb_refl. cbn [andthen with_live sock].
    assert (L : forall s1, live s1 = upd (live s) a None -> opts s1 = opts s -> (forall j, open s1 j = false) ->
      exists s', match live s1 (opts s1) with None => Bad UseAfterFree | Some (BOpts u) => if tk_eqb u t then match live s1 (opts s1) with None => Bad DoubleFree | Some _ => Ok (with_live s1 (upd (live s1) (opts s1) None)) end else Bad WrongType | Some BStr => Bad UseAfterFree end = Ok s' /\ clean s').
    { intros s1 L O W. rewrite L, O, upd_other by congruence. rewrite F, Nat.eqb_refl. replace (tk_eqb t t) with true by (destruct t; reflexivity).
      eexists. split; [reflexivity|]. split; [|exact W]. intros j. cbn. destruct (Nat.eqb_spec j (opts s)) as [->|N]; [now rewrite upd_same|]. rewrite upd_other by exact N.
      destruct (Nat.eqb_spec j a) as [->|M]; [now rewrite upd_same|]. rewrite upd_other by exact M. rewrite F.
      destruct (Nat.eqb_spec j (opts s)); [contradiction|]. destruct (Nat.eqb_spec j a); [contradiction|reflexivity]. }
    unfold close. cbn [open with_live]. destruct (sock s) as [k|]; [rewrite G, Nat.eqb_refl; cbn [andthen]|cbn [andthen]]; apply L; auto.
    intros j. cbn. destruct (Nat.eqb_spec j k) as [->|M]; [now rewrite upd_same|]. rewrite upd_other by exact M. rewrite G. destruct (Nat.eqb_spec j k); [contradiction|reflexivity].
  - cbn [andthen].
    assert (L : forall s1, live s1 = live s -> opts s1 = opts s -> (forall j, open s1 j = false) ->
      exists s', match live s1 (opts s1) with None => Bad UseAfterFree | Some (BOpts u) => if tk_eqb u t then match live s1 (opts s1) with None => Bad DoubleFree | Some _ => Ok (with_live s1 (upd (live s1) (opts s1) None)) end else Bad WrongType | Some BStr => Bad UseAfterFree end = Ok s' /\ clean s').
    { intros s1 L O W. rewrite L, O. rewrite F, Nat.eqb_refl. replace (tk_eqb t t) with true by (destruct t; reflexivity).
      eexists. split; [reflexivity|]. split; [|exact W]. intros j. cbn. destruct (Nat.eqb_spec j (opts s)) as [->|N]; [now rewrite upd_same|]. rewrite upd_other by exact N.
      rewrite F. destruct (Nat.eqb_spec j (opts s)); [contradiction|reflexivity]. }
    unfold close. destruct (sock s) as [k|]; [rewrite G, Nat.eqb_refl; cbn [andthen]|cbn [andthen]]; apply L; auto.
    intros j. cbn. destruct (Nat.eqb_spec j k) as [->|M]; [now rewrite upd_same|]. rewrite upd_other by exact M. rewrite G. destruct (Nat.eqb_spec j k); [contradiction|reflexivity].
Qed.

(** C250, as far as it is true: changes that keep the transport. *)
Theorem c250_partial t l cs : port_stays l -> Forall proper cs -> Forall keeps cs -> released (andthen (start t l) (changes cs)).
Proof.
  intros P Q K. destruct (start_inv t l P) as (s & E & I).
  assert (R : exists s1, state (andthen (start t l) (changes cs)) = Some s1 /\ inv t s1).
  { destruct E as [E|E]; rewrite E; cbn [andthen]; [|exists s; auto]. destruct (changes_inv t cs s I Q K) as (s1 & [F|F] & I1); rewrite F; exists s1; auto. }
  destruct R as (s1 & E1 & I1). destruct (destroy_inv t s1 I1) as (s2 & E2 & C). exists s1, s2. split; [exact E1|]. split; [|auto].
  exists t. rewrite (i_live _ _ I1), Nat.eqb_refl, (i_ti _ _ I1). auto.
Qed.

(* ------------------------------------------------------------------ *)
(** ** C251: a change of the transport never succeeds *)

Definition dead_addr (s : st) : Prop := exists a, addr s = Some a /\ live s a = None.
Lemma dead_leafs t l : forall s s', dead_addr s -> complete l -> h_leafs t l s = Ok s' -> False.
Proof.
  induction l as [|x l IH]; intros s s' (a & A & L) (b & I) H; [destruct I|]. cbn [h_leafs] in H. destruct x as [l0|p l0|]; cbn [h_leaf] in H.
  - unfold h_addr, free in H. rewrite A, L in H. discriminate H.
  - destruct I as [I|I]; [discriminate I|]. destruct (h_port p l0 s) as [s1| |] eqn:E; try discriminate H. cbn [andthen] in H. apply (IH s1 s'); [|exists b; exact I|exact H].
    unfold h_port, set_address_port in E. destruct (Bool.eqb _ _); [|discriminate E]. cbn [addr] in E. rewrite A in E. destruct (_ && _); [destruct l0; [|discriminate E]|injection E as <-; exists a; auto].
    unfold close in E. cbn [sock open] in E. destruct (sock s) as [k|]; [destruct (open s k); [|discriminate E]|]; cbn in E; injection E as <-; exists a; auto.
  - destruct I as [I|I]; [discriminate I|]. unfold h_opt in H. destruct (live s (opts s)) as [[u|]|]; try discriminate H. destruct (tk_eqb u t); [|discriminate H].
    cbn [andthen] in H. apply (IH s s'); [exists a; auto|exists b; exact I|exact H].
Qed.

Record fresh (t : tk) (s : st) : Prop := { f_opts : opts s < nxt s; f_addr : forall a, addr s = Some a -> a <> opts s; f_live : live s (opts s) = Some (BOpts t) }.
Lemma sap_fresh t b p l s s' : fresh t s -> set_address_port b p l s = Ok s' -> fresh t s'.
Proof.
  intros [A B C] H. unfold set_address_port in H. destruct (Bool.eqb _ _); [|discriminate]. destruct (_ && _); [|injection H as <-; constructor; auto].
  destruct l; [|discriminate]. unfold close in H. destruct (sock s) as [k|]; [destruct (open s k); [|discriminate]|]; cbn in H; injection H as <-; constructor; cbn; auto.
Qed.
Lemma leafs_fresh t u l : forall s s', fresh t s -> h_leafs u l s = Ok s' -> fresh t s'.
Proof.
  induction l as [|x l IH]; intros s s' F H; cbn [h_leafs] in H; [injection H as <-; exact F|].
  destruct (h_leaf u x s) as [s1| |] eqn:E; try discriminate H. cbn [andthen] in H. apply (IH s1 s'); [|exact H]. destruct F as [A B C]. destruct x as [l0|p l0|]; cbn [h_leaf] in E.
  - unfold h_addr in E. destruct (free (addr s) s) as [s2| |] eqn:G; try discriminate E. cbn [andthen] in E.
    assert (K : opts s2 = opts s /\ nxt s2 = nxt s /\ live s2 (opts s) = Some (BOpts t)).
    { unfold free in G. destruct (addr s) as [a|] eqn:Ea; [|injection G as <-; auto]. destruct (live s a); [|discriminate]. injection G as <-. cbn. repeat split.
      rewrite upd_other; [exact C|]. intros X. apply (B a eq_refl). auto. }
    destruct K as (K1 & K2 & K3). refine (sap_fresh _ _ _ _ _ _ _ E). constructor; cbn; rewrite ?K1, ?K2.
    + lia.
    + intros a X. injection X as <-. lia.
    + rewrite upd_other by lia. exact K3.
  - unfold h_port in E. refine (sap_fresh _ _ _ _ _ _ _ E). constructor; cbn; auto.
  - unfold h_opt in E. rewrite C in E. destruct (tk_eqb t u); [|discriminate E]. injection E as <-. constructor; auto.
Qed.

(** Whatever an endpoint with an address went through: no change of its transport ends well. *)
Theorem c251_never t l cs s first l' s' : port_stays l -> Forall proper cs -> Forall keeps cs -> andthen (start t l) (changes cs) = Ok s ->
  addr s <> None -> complete l' -> change (Switch first l') s <> Ok s'.
Proof.
  intros P Q K R A M H. assert (I : inv t s).
  { destruct (start_inv t l P) as (s1 & E & I). destruct E as [E|E]; rewrite E in R; cbn [andthen] in R; [|discriminate]. destruct (changes_inv t cs s1 I Q K) as (s2 & [F|F] & I1); congruence. }
  clear R. unfold change in H. rewrite (i_ti _ _ I) in H. destruct (addr s) as [a|] eqn:Ea; [clear A|now apply A]. destruct (i_addr _ _ I a Ea) as [A1 A2]. destruct first.
  - destruct (andthen (create (other t) s) _) as [s2| |] eqn:E in H; cbn [andthen] in H; try discriminate H. unfold create in E. cbn [andthen] in E. assert (F : fresh (other t) s2).
    { refine (leafs_fresh _ _ _ _ _ _ E). constructor; cbn; [lia| |apply upd_same]. intros x X. rewrite Ea in X. injection X as <-. lia. }
    destruct F as [F1 F2 F3]. unfold del_opts in H. destruct (free (addr s2) s2) as [s3| |] eqn:G; try discriminate H. cbn [andthen] in H.
    assert (V : opts s3 = opts s2 /\ live s3 (opts s2) = Some (BOpts (other t))).
    { unfold free in G. destruct (addr s2) as [b|]; [|injection G as <-; auto]. destruct (live s2 b); [|discriminate]. injection G as <-. cbn. split; [reflexivity|]. rewrite upd_other; [exact F3|].
      intros X. apply (F2 b eq_refl). auto. }
    destruct V as [V1 V2]. destruct (close (sock s3) s3) as [s4| |] eqn:W; try discriminate H. cbn [andthen] in H.
    assert (X : opts s4 = opts s3 /\ live s4 = live s3) by (unfold close in W; destruct (sock s3) as [k|]; [destruct (open s3 k); [|discriminate]|]; injection W as <-; auto).
    destruct X as [X1 X2]. rewrite X1, X2, V1, V2 in H. destruct t; discriminate H.
  - destruct (del_opts t s) as [s2| |] eqn:E; try discriminate H. cbn [andthen create] in H. refine (dead_leafs _ _ _ _ _ M H).
    exists a. unfold del_opts, free in E. rewrite Ea, (i_live _ _ I), Ea in E. destruct (Nat.eqb_spec a (opts s)); [contradiction|]. rewrite Nat.eqb_refl in E. cbn [andthen] in E.
    destruct (close _ _) as [s3| |] eqn:W; try discriminate E. cbn [andthen] in E.
    assert (X : opts s3 = opts s /\ addr s3 = Some a /\ nxt s3 = nxt s /\ live s3 = upd (live s) a None) by (unfold close in W; cbn [with_live sock open] in W; destruct (sock s) as [k|]; [destruct (open s k); [|discriminate]|]; injection W as <-; cbn; auto).
    destruct X as (X1 & X2 & X3 & X4). rewrite X1, X4, upd_other in E by congruence. rewrite (i_live _ _ I), Nat.eqb_refl in E. destruct (tk_eqb t t); [|discriminate E]. injection E as <-. cbn.
    split; [exact X2|]. rewrite ?X4, ?X3, ?X1. rewrite upd_other by lia. rewrite upd_other by exact A2. apply upd_same.
Qed.

(** An SSH endpoint that listens on port 830 and is to become a TLS one. *)
Definition ssh830 : list leaf := [LAddr true; LPort 830 true; LOpt].
Definition tls6513 : list leaf := [LAddr true; LPort 6513 true; LOpt].
Lemma ssh830_ok : port_stays ssh830 /\ complete ssh830 /\ port_stays tls6513 /\ complete tls6513.
Proof. repeat split; try (exists true; now left); intros p b [H|[H|[H|[]]]]; try discriminate H; injection H as <- <-; discriminate. Qed.
Theorem c250_full_refuted : ~ c250_full /\
  andthen (start Ssh ssh830) (changes [Switch false tls6513]) = Bad DoubleFree /\ andthen (start Ssh ssh830) (changes [Switch true tls6513]) = Bad WrongType /\
  andthen (start Tls tls6513) (changes [Switch false ssh830]) = Bad DoubleFree /\ andthen (start Tls tls6513) (changes [Switch true ssh830]) = Bad WrongType.
Proof.
  split; [|repeat split; reflexivity]. intros F. destruct ssh830_ok as (A & B & C & D). destruct (F Ssh ssh830 [Switch false tls6513] A B) as (s & s' & E & _).
  - apply Forall_cons; [split; assumption|apply Forall_nil].
  - vm_compute in E. discriminate E.
Qed.

(** The address changes, but listening on it fails. *)
Definition moved : list chg := [Edit [LPort 831 true]; Edit [LAddr false]].
Example c250_case : released (andthen (start Ssh ssh830) (changes moved)) /\ (match andthen (start Ssh ssh830) (changes moved) with Fail _ => true | _ => false end) = true
  /\ Forall keeps moved /\ Forall proper moved.
Proof.
  assert (P : Forall proper moved) by (apply Forall_cons; [|apply Forall_cons; [|apply Forall_nil]]; intros p b [H|[]]; try discriminate H; injection H as <- <-; discriminate).
  assert (K : Forall keeps moved) by (apply Forall_cons; [exact I|apply Forall_cons; [exact I|apply Forall_nil]]).
  refine (conj (c250_partial Ssh ssh830 moved (proj1 ssh830_ok) P K) (conj _ (conj K P))). vm_compute. reflexivity.
Qed.
Example c251_case : (match andthen (start Ssh ssh830) (changes [Edit [LPort 831 true]]) with Ok s => match addr s with Some _ => true | None => false end | _ => false end) = true /\ complete tls6513.
Proof. split; [vm_compute; reflexivity|]. exists true. now left. Qed.

(** A change of the address or of the port of an endpoint that then has both is successful only if the endpoint
    listens, on a socket that is open; without both nothing is changed. *)
Theorem c250_listens isset p l s s' : set_address_port isset p l s = Ok s' ->
  let pt := if isset then port s else p in
  ((isset = true \/ addr s <> None) -> pt <> 0%N -> l = true /\ exists i, sock s' = Some i /\ open s' i = true) /\
  (pt = 0%N \/ (isset = false /\ addr s = None) -> s' = s).
Proof.
  cbv zeta. unfold set_address_port. destruct (Bool.eqb isset (N.eqb p 0)); [|discriminate].
  set (pt := if isset then port s else p).
  destruct (N.eqb_spec pt 0) as [E|E]; cbn [negb]; [rewrite andb_false_r|rewrite andb_true_r].
  - intros H; injection H as <-. split; [congruence|reflexivity].
  - destruct isset; [|destruct (addr s) eqn:A]; try (intros H; injection H as <-; split; [intros [?|?]; congruence|reflexivity]);
    (destruct l; [|discriminate]; destruct (close (sock s) s) as [s1| |]; cbn [andthen]; try discriminate; intros H; injection H as <-;
     split; [intros _ _; split; [reflexivity|]; eexists; split; [reflexivity|]; cbn; unfold upd; now rewrite Nat.eqb_refl|]).
    + intros [?|[? _]]; congruence.
    + intros [?|[_ ?]]; congruence.
Qed.

Print Assumptions c250_partial.
Print Assumptions c250_full_refuted.
Print Assumptions c251_never.
Print Assumptions c250_listens.
