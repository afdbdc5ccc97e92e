(** C170-C173: the intervals of the notifications about expiring certificates are those configured; the XPath of a
    notification denotes the certificate; all certificates are watched; nothing is lost. *)
From Coq Require Import Ascii String ZArith Bool Lia List Permutation.
From Verif Require Import Bytes CStr CertExp CertCfg.
From Verif Require Prop_CertExp.
Import ListNotations.
Local Open Scope Z_scope.

(* ------------------------------------------------------------------ *)
(** ** C170: specification *)

(** A time of the type time-period: so many months, weeks, days or hours (libnetconf2-netconf-server.yang 247-250:
    (1[0-2]|[1-9])m|[1-4]w|[1-7]d|(2[0-4]|1[0-9]|[1-9])h), how it is written and what it means. *)
Inductive unit_of := Months | Weeks | Days | Hours.
Definition largest (u : unit_of) : Z := match u with Months => 12 | Weeks => 4 | Days => 7 | Hours => 24 end.
Definition letter (u : unit_of) : ascii := match u with Months => "m" | Weeks => "w" | Days => "d" | Hours => "h" end%char.
Definition time : Type := Z * unit_of.
Definition is_time (t : time) : Prop := 1 <= fst t <= largest (snd t).
Definition digit (n : Z) : ascii := ascii_of_nat (48 + Z.to_nat n).
Definition written (t : time) : bytes :=
  (if fst t <? 10 then [digit (fst t)] else [digit (fst t / 10); digit (fst t mod 10)]) ++ [letter (snd t)].
Definition means (t : time) : ptime :=
  match snd t with
  | Months => mkP (fst t) 0 0 0
  | Weeks => mkP 0 (fst t) 0 0
  | Days => mkP 0 0 (fst t) 0
  | Hours => mkP 0 0 0 (fst t)
  end.

(** Intervals are given by anchor and period.  A change of the configuration adds one that was not there (and memory
    may be short, then it stays out), removes one that was, or removes all. *)
Definition key : Type := time * time.
Definition is_key (k : key) : Prop := is_time (fst k) /\ is_time (snd k).
Inductive change := Add (memory : bool) (k : key) | Remove (k : key) | RemoveAll.
Inductive changes : list change -> list key -> Prop :=
| ch_none : changes [] []
| ch_add h conf k : changes h conf -> is_key k -> ~ In k conf -> changes (h ++ [Add true k]) (k :: conf)
| ch_short h conf k : changes h conf -> is_key k -> ~ In k conf -> changes (h ++ [Add false k]) conf
| ch_remove h c1 c2 k : changes h (c1 ++ k :: c2) -> changes (h ++ [Remove k]) (c1 ++ c2)
| ch_all h conf : changes h conf -> changes (h ++ [RemoveAll]) [].

(** What is called for a change. *)
Definition call (c : change) : op :=
  match c with
  | Add memory k => Create memory (written (fst k)) (written (snd k))
  | Remove k => Delete (written (fst k)) (written (snd k))
  | RemoveAll => Clear
  end.
(** All calls, whatever they return. *)
Fixpoint calls (l : list change) (s : notif) : out notif :=
  match l with
  | [] => Ret s
  | c :: l => match apply_op (call c) s with Ret (_, s) => calls l s | Wild => Wild end
  end.

(** The intervals used are those configured, the default ones if there are none. *)
(** The documented default (libnetconf2-netconf-server.yang, certificate-expiration-notif-intervals): monthly from 3 months before, weekly from
    2 weeks before, daily in the last week. *)
Definition documented : list interval :=
  [mkI (mkP 3 0 0 0) (mkP 1 0 0 0); mkI (mkP 0 2 0 0) (mkP 0 1 0 0); mkI (mkP 0 0 7 0) (mkP 0 0 1 0)].
Definition uses (s : notif) (conf : list key) : Prop :=
  exists l, intervals_get s = Ret l /\
  match conf with
  | [] => l = documented
  | _ => Permutation l (map (fun k => mkI (means (fst k)) (means (snd k))) conf)
  end.

Definition c170_full : Prop := forall h conf, changes h conf -> exists s, calls h notif0 = Ret s /\ uses s conf.

(* ------------------------------------------------------------------ *)
(** ** C170: proofs *)

Lemma value_written t : is_time t -> value2cert_exp_time (written t) = Ret (Some (means t)).
Proof.
  destruct t as [n u]. intros [A B]. cbn [fst snd] in A, B.
  assert (C : n <= 24) by (destruct u; cbn [largest] in B; lia).
  assert (D : n = 1 \/ n = 2 \/ n = 3 \/ n = 4 \/ n = 5 \/ n = 6 \/ n = 7 \/ n = 8 \/ n = 9 \/ n = 10 \/ n = 11 \/ n = 12 \/
    n = 13 \/ n = 14 \/ n = 15 \/ n = 16 \/ n = 17 \/ n = 18 \/ n = 19 \/ n = 20 \/ n = 21 \/ n = 22 \/ n = 23 \/ n = 24) by lia.
  clear A B C. repeat destruct D as [D|D]; subst n; destruct u; vm_compute; reflexivity.
Qed.

Lemma means_inj a b : is_time a -> is_time b -> means a = means b -> a = b.
Proof. destruct a as [n []], b as [m []]; unfold is_time, means; cbn [fst snd]; intros A B [= H]; subst; try reflexivity; lia. Qed.

Lemma ptime_eqb_eq a b : ptime_eqb a b = true <-> a = b.
Proof.
  unfold ptime_eqb. rewrite !andb_true_iff, !Z.eqb_eq. destruct a, b; cbn. split.
  - intros [[[-> ->] ->] ->]. reflexivity.
  - intros [= -> -> -> ->]. auto.
Qed.

Definition cell (k : key) : option ptime * option ptime := (Some (means (fst k)), Some (means (snd k))).
Definition iv (k : key) : interval := mkI (means (fst k)) (means (snd k)).

(** What the memory holds: the keys in some order. *)
Definition holds (s : notif) (conf : list key) : Prop :=
  Forall is_key conf /\ NoDup conf /\
  match conf with
  | [] => s = notif0
  | _ => exists l rest, n_cells s = Some (map cell l ++ rest) /\ n_count s = length l /\ Permutation l conf
  end.

Lemma initialised_cells l rest : initialised (length l) (map cell l ++ rest) = Ret (map iv l).
Proof. induction l as [|k l IH]; [reflexivity|]. cbn [length map app initialised cell]. rewrite IH. reflexivity. Qed.

Lemma holds_uses s conf : holds s conf -> uses s conf.
Proof.
  intros (_ & _ & H). unfold uses, intervals_get. destruct conf as [|k conf].
  - subst s. exists default_intervals. split; reflexivity.
  - destruct H as (l & rest & E & C & P). rewrite E, C, initialised_cells. exists (map iv l). split; [reflexivity|].
    exact (Permutation_map iv P).
Qed.

Lemma set_nth_app {A} (l1 : list A) a x r : set_nth (length l1) a (l1 ++ x :: r) = l1 ++ a :: r.
Proof. induction l1 as [|y l1 IH]; [reflexivity|]. cbn [length app set_nth]. now rewrite IH. Qed.

Lemma firstn_app_exact {A} (l r : list A) n : firstn (length l + n) (l ++ r) = l ++ firstn n r.
Proof. induction l as [|x l IH]; [reflexivity|]. cbn [length app Nat.add firstn]. now rewrite IH. Qed.

Lemma resize_cells l rest : exists c, resize (S (length l)) (Some (map cell l ++ rest)) = map cell l ++ [c].
Proof.
  unfold resize. set (n := repeat _ (S (length l))). assert (N : exists m, n = (None, None) :: m) by (eexists; reflexivity).
  destruct N as [m N]. rewrite N. rewrite <- app_assoc.
  replace (S (length l)) with (length (map cell l) + 1)%nat by (rewrite map_length; lia). rewrite firstn_app_exact.
  destruct rest as [|c rest]; [exists (None, None)|exists c]; reflexivity.
Qed.

Lemma find_key k l1 l2 rest : is_key k -> Forall is_key l1 -> ~ In k l1 ->
  find_cell (means (fst k)) (means (snd k)) (length (l1 ++ k :: l2)) (map cell (l1 ++ k :: l2) ++ rest) = Ret (length l1).
Proof.
  intros K. induction l1 as [|x l1 IH]; intros F N; cbn [length app map find_cell cell].
  - rewrite (proj2 (ptime_eqb_eq _ _) eq_refl), (proj2 (ptime_eqb_eq _ _) eq_refl). reflexivity.
  - apply Forall_cons_iff in F. destruct F as [X F].
    destruct (ptime_eqb (means (fst x)) (means (fst k)) && ptime_eqb (means (snd x)) (means (snd k))) eqn:E.
    + exfalso. apply N. left. apply andb_true_iff in E. rewrite !ptime_eqb_eq in E.
      destruct x, k. cbn [fst snd] in *. destruct X, K. f_equal; apply means_inj; tauto.
    + rewrite IH; [reflexivity|exact F|]. intros I. apply N. right. exact I.
Qed.

Lemma step_add s conf k : holds s conf -> is_key k -> ~ In k conf ->
  exists s', apply_op (call (Add true k)) s = Ret (0%nat, s') /\ holds s' (k :: conf).
Proof.
  intros (F & D & H) [K1 K2] N. cbn [call apply_op]. unfold create_interval.
  rewrite (value_written _ K1), (value_written _ K2). cbn [negb].
  assert (G : exists l rest, n_count s = length l /\ resize (S (n_count s)) (n_cells s) = map cell l ++ [rest] /\ Permutation l conf).
  { destruct conf as [|k0 conf].
    - subst s. exists [], (None, None). split; [reflexivity|]. split; [reflexivity|constructor].
    - destruct H as (l & rest & E & C & P). destruct (resize_cells l rest) as [c R]. exists l, c. rewrite C, E. auto. }
  destruct G as (l & c & C & R & P). rewrite R, C.
  eexists. split; [reflexivity|]. split; [|split].
  - constructor; [split; assumption|exact F].
  - constructor; assumption.
  - exists (l ++ [k]), []. cbn [n_cells n_count]. split; [|split].
    + rewrite <- (map_length cell l), set_nth_app, map_app, app_nil_r. reflexivity.
    + rewrite app_length. cbn. lia.
    + rewrite P. apply Permutation_sym, Permutation_cons_append.
Qed.

Lemma step_remove s c1 k c2 : holds s (c1 ++ k :: c2) ->
  exists s', apply_op (call (Remove k)) s = Ret (0%nat, s') /\ holds s' (c1 ++ c2).
Proof.
  intros (F & D & H).
  assert (H' : exists l rest, n_cells s = Some (map cell l ++ rest) /\ n_count s = length l /\ Permutation l (c1 ++ k :: c2)).
  { destruct (c1 ++ k :: c2) eqn:E; [destruct c1; discriminate|exact H]. }
  clear H. destruct H' as (l & rest & E & C & P).
  assert (K : is_key k). { rewrite Forall_forall in F. apply F. apply in_or_app. right. left. reflexivity. }
  assert (I : In k l). { apply (Permutation_in k (Permutation_sym P)). apply in_or_app. right. left. reflexivity. }
  apply in_split in I. destruct I as (l1 & l2 & ->).
  assert (F1 : Forall is_key (l1 ++ k :: l2)). { rewrite Forall_forall in F |- *. intros x X. apply F. exact (Permutation_in x P X). }
  assert (D1 : NoDup (l1 ++ k :: l2)) by exact (Permutation_NoDup (Permutation_sym P) D).
  assert (P' : Permutation (l1 ++ l2) (c1 ++ c2)).
  { apply Permutation_app_inv with (a := k). exact P. }
  assert (N1 : ~ In k l1). { intros I. apply (NoDup_remove_2 _ _ _ D1). apply in_or_app. auto. }
  cbn [call apply_op]. unfold del_interval. rewrite (value_written _ (proj1 K)), (value_written _ (proj2 K)), E, C.
  rewrite find_key by (try assumption; apply Forall_app in F1; tauto).
  assert (L : length (l1 ++ k :: l2) = S (length l1 + length l2)) by (rewrite app_length; cbn; lia).
  rewrite L. replace (Nat.eqb (length l1) (S (length l1 + length l2))) with false by (symmetry; apply PeanoNat.Nat.eqb_neq; lia).
  assert (Fin : Forall is_key (c1 ++ c2) /\ NoDup (c1 ++ c2)).
  { split; [|exact (NoDup_remove_1 _ _ _ D)]. apply Forall_app in F. destruct F as [Fa Fb]. apply Forall_cons_iff in Fb.
    apply Forall_app. tauto. }
  replace (S (length l1 + length l2) - 1)%nat with (length l1 + length l2)%nat by lia.
  destruct (Nat.eqb (length l1 + length l2) 0) eqn:Z.
  - apply PeanoNat.Nat.eqb_eq in Z. assert (l1 = [] /\ l2 = []) as [-> ->] by (destruct l1, l2; cbn in Z; try lia; auto).
    eexists. split; [reflexivity|]. split; [tauto|]. split; [tauto|]. cbn [app] in P'. apply Permutation_nil in P'. rewrite P'. reflexivity.
  - apply PeanoNat.Nat.eqb_neq in Z.
    assert (NE : c1 ++ c2 <> []). { intros X. rewrite X in P'. apply Permutation_sym, Permutation_nil in P'. destruct l1, l2; cbn in *; try discriminate; lia. }
    destruct (Nat.eqb (length l1) (length l1 + length l2)) eqn:Q; cbn [negb].
    + apply PeanoNat.Nat.eqb_eq in Q. assert (l2 = []) as -> by (destruct l2; cbn in Q; [reflexivity|lia]).
      eexists. split; [reflexivity|]. split; [tauto|]. split; [tauto|].
      destruct (c1 ++ c2) eqn:X; [congruence|]. exists l1, (cell k :: rest). cbn [n_cells n_count]. split; [|split].
      * f_equal. rewrite map_app, <- app_assoc. reflexivity.
      * cbn. lia.
      * rewrite app_nil_r in P'. exact P'.
    + destruct (exists_last (l := l2)) as (l2' & y & ->). { intros ->. cbn in Q. rewrite PeanoNat.Nat.add_0_r, PeanoNat.Nat.eqb_refl in Q. discriminate. }
      assert (M : map cell (l1 ++ k :: l2' ++ [y]) ++ rest = map cell (l1 ++ k :: l2') ++ cell y :: rest).
      { rewrite !map_app. cbn [map]. rewrite map_app. rewrite <- !app_assoc. cbn [app]. rewrite <- app_assoc. reflexivity. }
      rewrite M. rewrite nth_error_app2 by (rewrite map_length, !app_length; cbn; lia).
      replace (length l1 + length (l2' ++ [y]) - length (map cell (l1 ++ k :: l2')))%nat with 0%nat
        by (rewrite map_length, !app_length; cbn; lia).
      cbn [nth_error]. eexists. split; [reflexivity|]. split; [tauto|]. split; [tauto|].
      destruct (c1 ++ c2) eqn:X; [congruence|]. exists (l1 ++ y :: l2'), (cell y :: rest). cbn [n_cells n_count]. split; [|split].
      * f_equal. rewrite !map_app. cbn [map]. rewrite <- !app_assoc. rewrite <- (map_length cell l1). cbn [app]. now rewrite set_nth_app.
      * rewrite !app_length. cbn. lia.
      * rewrite <- P'. apply Permutation_app_head. apply Permutation_cons_append.
Qed.

Lemma calls_app a b s : calls (a ++ b) s = match calls a s with Ret s => calls b s | Wild => Wild end.
Proof.
  revert s; induction a as [|c a IH]; intros s; [reflexivity|]. cbn [app calls].
  destruct (apply_op (call c) s) as [[n s']|]; [apply IH|reflexivity].
Qed.

(** No change met a shortage of memory. *)
Definition enough (h : list change) : Prop := forall k, ~ In (Add false k) h.

(** C170, partial: the intervals used are those configured, unless memory was short. *)
Theorem c170_intervals_partial h conf : changes h conf -> enough h -> exists s, calls h notif0 = Ret s /\ uses s conf.
Proof.
  intros C E. enough (G : exists s, calls h notif0 = Ret s /\ holds s conf).
  { destruct G as (s & A & B). exists s. split; [exact A|apply holds_uses, B]. }
  assert (R : forall a b, enough (a ++ b) -> enough a). { intros a b X k I. apply (X k). apply in_or_app. auto. }
  induction C as [|h conf k C IH K N|h conf k C IH K N|h c1 c2 k C IH|h conf C IH].
  - exists notif0. split; [reflexivity|]. repeat split; constructor.
  - destruct (IH (R _ _ E)) as (s & A & B). destruct (step_add _ _ _ B K N) as (s' & S & H). exists s'. split; [|exact H].
    rewrite calls_app, A. cbn [calls]. rewrite S. reflexivity.
  - exfalso. apply (E k). apply in_or_app. right. left. reflexivity.
  - destruct (IH (R _ _ E)) as (s & A & B). destruct (step_remove _ _ _ _ B) as (s' & S & H). exists s'. split; [|exact H].
    rewrite calls_app, A. cbn [calls]. rewrite S. reflexivity.
  - destruct (IH (R _ _ E)) as (s & A & B). exists notif0. split; [rewrite calls_app, A; reflexivity|]. repeat split; constructor.
Qed.

(** If memory is short for the second of two intervals, the first is gone, and the next change is undefined. *)
Theorem c170_memory_refuted : ~ c170_full.
Proof.
  intros F. set (k1 := ((3, Months), (1, Months)) : key). set (k2 := ((2, Weeks), (1, Days)) : key).
  assert (C : changes [Add true k1; Add false k2; Remove k1] []).
  { apply (ch_remove [Add true k1; Add false k2] [] [] k1). apply (ch_short [Add true k1] [k1] k2).
    - apply (ch_add [] [] k1); [constructor| |intros []]. unfold is_key, is_time; cbn; lia.
    - unfold is_key, is_time; cbn; lia.
    - intros [H|[]]. discriminate. }
  destruct (F _ _ C) as (s & A & _). vm_compute in A. discriminate.
Qed.

(** A case: of three intervals the first is removed. *)
Example c170_case :
  let k1 := ((3, Months), (1, Months)) : key in let k2 := ((2, Weeks), (1, Days)) : key in let k3 := ((24, Hours), (12, Hours)) : key in
  changes [Add true k1; Add true k2; Add true k3; Remove k1] [k3; k2] /\
  exists s, calls [Add true k1; Add true k2; Add true k3; Remove k1] notif0 = Ret s /\
    intervals_get s = Ret [mkI (mkP 0 0 0 24) (mkP 0 0 0 12); mkI (mkP 0 2 0 0) (mkP 0 0 1 0)].
Proof.
  intros k1 k2 k3. split.
  - apply (ch_remove [Add true k1; Add true k2; Add true k3] [k3; k2] [] k1).
    apply (ch_add [Add true k1; Add true k2] [k2; k1] k3); [apply (ch_add [Add true k1] [k1] k2); [apply (ch_add [] [] k1); [constructor| |intros []]| |]| |];
      unfold is_key, is_time; cbn; try lia; intuition discriminate.
  - eexists. split; vm_compute; reflexivity.
Qed.

(* ------------------------------------------------------------------ *)
(** ** C171, C172: specification *)

(** Where a certificate is in the configuration: the server certificate of an endpoint (of a Call Home client), a certificate
    of an authority or a client for an endpoint, one of a key in the keystore, one of a bag in the truststore. *)
Inductive place :=
| PServer (client : option bytes) (endpoint : bytes)
| PCa (client : option bytes) (endpoint name : bytes)
| PEe (client : option bytes) (endpoint name : bytes)
| PKey (k name : bytes)
| PBag (bag name : bytes).

(** The nodes from the root of the data to the node; with the value of the key "name" for the entry of a list. *)
Definition node : Type := bytes * option bytes.
Definition plain (s : string) : node := (bs s, None).
Definition item (s : string) (k : bytes) : node := (bs s, Some k).
Definition endpoint_nodes (client : option bytes) (endpoint : bytes) : list node :=
  plain "ietf-netconf-server:netconf-server" ::
  match client with
  | None => [plain "listen"]
  | Some c => [plain "call-home"; item "netconf-client" c]
  end ++
  [plain "endpoints"; item "endpoint" endpoint; plain "tls"; plain "tls-server-parameters"].
Definition location (p : place) : list node :=
  match p with
  | PServer c e => endpoint_nodes c e ++ [plain "server-identity"; plain "certificate"; plain "inline-definition"]
  | PCa c e n => endpoint_nodes c e ++ [plain "client-authentication"; plain "ca-certs"; plain "inline-definition"; item "certificate" n]
  | PEe c e n => endpoint_nodes c e ++ [plain "client-authentication"; plain "ee-certs"; plain "inline-definition"; item "certificate" n]
  | PKey k n => [plain "ietf-keystore:keystore"; plain "asymmetric-keys"; item "asymmetric-key" k; plain "certificates"; item "certificate" n]
  | PBag b n => [plain "ietf-truststore:truststore"; plain "certificate-bags"; item "certificate-bag" b; item "certificate" n]
  end.
(** What is notified: the expiration date. *)
Definition expiration (p : place) : list node := location p ++ [plain "certificate-expiration"; plain "expiration-date"].

(** How an XPath is read: steps after slashes, a name up to the next slash or bracket, and perhaps the predicate that
    the key is the literal up to the next apostrophe (there is no way to write one inside). *)
Fixpoint upto (stop : ascii -> bool) (s : bytes) : bytes * bytes :=
  match s with
  | [] => ([], [])
  | c :: r => if stop c then ([], s) else let (a, b) := upto stop r in (c :: a, b)
  end.
Fixpoint strip (p s : bytes) : option bytes :=
  match p, s with
  | [], _ => Some s
  | x :: p, y :: s => if Ascii.eqb x y then strip p s else None
  | _, [] => None
  end.
Fixpoint read (fuel : nat) (s : bytes) : option (list node) :=
  match fuel with
  | O => None
  | S fuel =>
      match s with
      | [] => Some []
      | "/"%char :: s =>
          let (name, s) := upto (fun c => Ascii.eqb c "/" || Ascii.eqb c "[") s in
          match strip (bs "[name='") s with
          | None => match read fuel s with Some l => Some ((name, None) :: l) | None => None end
          | Some s =>
              let (k, s) := upto (fun c => Ascii.eqb c "'") s in
              match strip (bs "']") s with
              | None => None
              | Some s => match read fuel s with Some l => Some ((name, Some k) :: l) | None => None end
              end
          end
      | _ => None
      end
  end.
Definition denotes (x : bytes) (l : list node) : Prop := read (S (length x)) x = Some l.

(** All certificates that are in the configuration, with their data. *)
Definition endpoint_certs (client : option bytes) (e : endpt) : list (place * option bytes) :=
  match snd e with
  | None => []
  | Some o =>
      match t_server o with Some d => [(PServer client (fst e), d)] | None => [] end ++
      map (fun c => (PCa client (fst e) (fst c), snd c)) (match t_ca o with Some l => l | None => [] end) ++
      map (fun c => (PEe client (fst e) (fst c), snd c)) (match t_ee o with Some l => l | None => [] end)
  end.
Definition certificates (c : config) : list (place * option bytes) :=
  flat_map (endpoint_certs None) (c_endpts c) ++
  flat_map (fun x => flat_map (endpoint_certs (Some (fst x))) (snd x)) (c_ch c) ++
  flat_map (fun k => map (fun x => (PKey (fst k) (fst x), snd x)) (snd k)) (c_keystore c) ++
  flat_map (fun b => map (fun x => (PBag (fst b) (fst x), snd x)) (snd b)) (c_truststore c).

(** C171, in full: every notification is about the certificate it is sent for. *)
Definition c171_full : Prop := forall v c d, dates_get v c = (true, d) ->
  Forall2 (fun x e => denotes (e_xpath e) (expiration (fst x))) (certificates c) (d_entries d).

(** The entry [e], number [i], is for the certificate with these data. *)
Definition watches (v : env) (data : option bytes) (i : nat) (e : entry) : Prop :=
  exists b, data = Some b /\ v_decode v b = Some (e_exp e) /\ v_starts v (e_exp e) = Some (e_starts e) /\
  v_first v i (e_starts e) (e_exp e) = Some (e_cur e, e_notif e).

(** The certificates and the entries, one by one. *)
Definition one_by_one (v : env) (c : config) (d : dates) : Prop :=
  length (d_entries d) = length (certificates c) /\
  forall i x e, nth_error (certificates c) i = Some x -> nth_error (d_entries d) i = Some e -> watches v (snd x) i e.

(** Nothing but certificates fails. *)
Definition system_works (v : env) : Prop :=
  (forall n, v_realloc v n = true) /\ (forall n, v_malloc v n = true) /\ (forall n, v_asprintf v n = (true, true)) /\
  (forall exp, exists s, v_starts v exp = Some s) /\ (forall n s exp, exists r, v_first v n s exp = Some r).

(** C172, in full: every certificate that can be read is watched. *)
Definition c172_full : Prop := forall v c p b exp, system_works v ->
  In (p, Some b) (certificates c) -> v_decode v b = Some exp ->
  exists d i e, dates_get v c = (true, d) /\ nth_error (d_entries d) i = Some e /\ watches v (Some b) i e.

(** C173, in full: after everything is released nothing is left. *)
Definition c173_full : Prop := forall v c, dates_destroy (snd (dates_get v c)) = Ret 0%nat.

(* ------------------------------------------------------------------ *)
(** ** Proofs: paths *)

Definition render_node (n : node) : bytes :=
  "/"%char :: fst n ++ match snd n with Some k => bs "[name='" ++ k ++ bs "']" | None => [] end.
Definition render (l : list node) : bytes := flat_map render_node l.

Definition no (c : ascii) (s : bytes) : Prop := ~ In c s.
Definition node_ok (n : node) : Prop :=
  no "/" (fst n) /\ no "[" (fst n) /\ match snd n with Some k => no "'" k | None => True end.

Lemma upto_stops stop a c b : (forall x, In x a -> stop x = false) -> stop c = true -> upto stop (a ++ c :: b) = (a, c :: b).
Proof.
  intros A C. induction a as [|x a IH]; cbn [app upto]; [now rewrite C|].
  rewrite (A x (or_introl eq_refl)), IH; [reflexivity|]. intros y Y. apply A. now right.
Qed.
Lemma upto_end stop a : (forall x, In x a -> stop x = false) -> upto stop a = (a, []).
Proof.
  intros A. induction a as [|x a IH]; cbn [upto]; [reflexivity|].
  rewrite (A x (or_introl eq_refl)), IH; [reflexivity|]. intros y Y. apply A. now right.
Qed.
Lemma strip_app p s : strip p (p ++ s) = Some s.
Proof. induction p as [|x p IH]; [reflexivity|]. cbn. rewrite Ascii.eqb_refl. exact IH. Qed.

Lemma read_render l : Forall node_ok l -> forall fuel, (length l < fuel)%nat -> read fuel (render l) = Some l.
Proof.
  induction l as [|[n k] l IH]; intros F fuel L; (destruct fuel as [|fuel]; [cbn in L; lia|]); [reflexivity|].
  apply Forall_cons_iff in F. destruct F as [(N1 & N2 & K) F]. cbn [fst snd] in *.
  assert (IH' : read fuel (render l) = Some l) by (apply IH; [exact F|cbn in L; lia]).
  assert (St : forall x, In x n -> (fun c => Ascii.eqb c "/" || Ascii.eqb c "[") x = false).
  { intros x X. cbn. apply orb_false_iff. split; apply Ascii.eqb_neq; intros ->; contradiction. }
  unfold render. cbn [flat_map]. fold (render l). unfold render_node. cbn [fst snd app read].
  destruct k as [k|].
  - rewrite <- !app_assoc. change (bs "[name='" ++ k ++ bs "']" ++ render l) with ("["%char :: bs "name='" ++ k ++ bs "']" ++ render l).
    rewrite (upto_stops _ n "["%char _ St eq_refl). change ("["%char :: bs "name='" ++ k ++ bs "']" ++ render l) with (bs "[name='" ++ (k ++ bs "']" ++ render l)).
    rewrite strip_app. change (bs "']" ++ render l) with ("'"%char :: bs "]" ++ render l).
    rewrite (upto_stops _ k "'"%char); [| |reflexivity].
    2:{ intros x X. apply Ascii.eqb_neq. intros ->. contradiction. }
    change ("'"%char :: bs "]" ++ render l) with (bs "']" ++ render l). rewrite strip_app, IH'. reflexivity.
  - rewrite app_nil_r. destruct l as [|m l].
    + cbn [render flat_map]. rewrite app_nil_r, (upto_end _ n St). cbn [strip bs]. change (render []) with (@nil ascii) in IH'. rewrite IH'. reflexivity.
    + assert (R : exists r, render (m :: l) = "/"%char :: r) by (eexists; reflexivity). destruct R as [r R].
      rewrite R in *. rewrite (upto_stops _ n "/"%char _ St eq_refl).
      replace (strip (bs "[name='") ("/"%char :: r)) with (@None bytes) by reflexivity. rewrite IH'. reflexivity.
Qed.

Lemma render_length l : (length l <= length (render l))%nat.
Proof.
  induction l as [|n l IH]; [reflexivity|]. unfold render in *. cbn [flat_map]. rewrite app_length. unfold render_node at 1. cbn [length]. lia.
Qed.

(** The paths of the code. *)
Definition cp_of (p : place) : cert_path :=
  match p with
  | PServer c e => mkC c (Some e) None None None None None None
  | PCa c e n => mkC c (Some e) (Some n) None None None None None
  | PEe c e n => mkC c (Some e) None (Some n) None None None None
  | PKey k n => mkC None None None None (Some k) (Some n) None None
  | PBag b n => mkC None None None None None None (Some b) (Some n)
  end.

Lemma xpath_render mem p x : xpath_get mem (cp_of p) = Some x -> x = render (expiration p).
Proof.
  destruct p as [[c|] e|[c|] e n|[c|] e n|k n|b n], mem as [[|] [|]]; cbn [cp_of xpath_get ks_cert_name ts_cert_name ch_client_name endpt_name
    ee_cert_name ca_cert_name ks_askey_name ts_cbag_name fst snd negb]; intros E; try discriminate; injection E as <-;
  unfold expiration, location, endpoint_nodes, render, render_node, plain, item, pf; cbn [flat_map app fst snd];
  repeat rewrite <- app_assoc; cbn [bs list_ascii_of_string app]; repeat rewrite <- app_assoc; cbn [app]; reflexivity.
Qed.

Lemma ok_plain s : no "/" (bs s) -> no "[" (bs s) -> node_ok (plain s).
Proof. intros A B. repeat split; assumption. Qed.
Lemma ok_item s k : no "/" (bs s) -> no "[" (bs s) -> no "'" k -> node_ok (item s k).
Proof. intros A B K. repeat split; assumption. Qed.

(** The names of a place have no apostrophes. *)
Definition simple (p : place) : Prop :=
  match p with
  | PServer c e => match c with Some c => no "'" c | None => True end /\ no "'" e
  | PCa c e n | PEe c e n => match c with Some c => no "'" c | None => True end /\ no "'" e /\ no "'" n
  | PKey k n => no "'" k /\ no "'" n
  | PBag b n => no "'" b /\ no "'" n
  end.

Lemma expiration_ok p : simple p -> Forall node_ok (expiration p).
Proof.
  destruct p as [[c|] e|[c|] e n|[c|] e n|k n|b n]; cbn [simple]; intros S;
  unfold expiration, location, endpoint_nodes; cbn [app];
  repeat constructor; cbn [plain item fst snd]; try tauto; try (unfold no; cbn; intuition discriminate).
Qed.

Lemma denotes_render p : simple p -> denotes (render (expiration p)) (expiration p).
Proof.
  intros S. unfold denotes. apply read_render; [apply expiration_ok, S|]. pose proof (render_length (expiration p)). lia.
Qed.

(* ------------------------------------------------------------------ *)
(** ** Proofs: certificates *)

Definition entry_for (v : env) (x : place * option bytes) (e : nat * entry) : Prop :=
  watches v (snd x) (fst e) (snd e) /\ e_xpath (snd e) = render (expiration (fst x)).

Definition numbered (k : nat) (es : list entry) : list (nat * entry) := combine (seq k (length es)) es.
Lemma numbered_app k a b : numbered k (a ++ b) = numbered k a ++ numbered (k + length a) b.
Proof.
  revert k; induction a as [|x a IH]; intros k; [cbn [app length]; now rewrite PeanoNat.Nat.add_0_r|].
  unfold numbered in *. cbn [app length seq combine]. rewrite IH. cbn [app]. replace (S k + length a)%nat with (k + S (length a))%nat by lia. reflexivity.
Qed.

Definition adds (v : env) (l : list (place * option bytes)) (f : dates -> bool * dates) : Prop :=
  forall d d', f d = (true, d') ->
  exists es, d_entries d' = d_entries d ++ es /\ Forall2 (entry_for v) l (numbered (length (d_entries d)) es).

Lemma adds_append v p data : adds v [(p, data)] (date_append v data (cp_of p)).
Proof.
  intros d d'. unfold date_append. destruct data as [b|]; [|discriminate].
  destruct (v_decode v b) as [exp|] eqn:D; [|discriminate].
  destruct (v_realloc v _); cbn [negb]; [|discriminate]. destruct (v_malloc v _); cbn [negb]; [|discriminate].
  destruct (v_starts v exp) as [starts|] eqn:S; [|discriminate].
  destruct (v_first v (length (d_entries d)) starts exp) as [[cur t]|] eqn:F; [|discriminate].
  destruct (xpath_get _ (cp_of p)) as [x|] eqn:X; [|discriminate]. intros [= <-]. cbn [d_entries].
  eexists. split; [reflexivity|]. constructor; [|constructor]. split; [|exact (xpath_render _ _ _ X)].
  exists b. cbn. auto.
Qed.

Lemma adds_none v : adds v [] (fun d => (true, d)).
Proof. intros d d' [= <-]. exists []. split; [now rewrite app_nil_r|constructor]. Qed.

Lemma adds_then v l1 l2 f g : adds v l1 f -> adds v l2 g ->
  adds v (l1 ++ l2) (fun d => match f d with (false, d) => (false, d) | (true, d) => g d end).
Proof.
  intros F G d d' E. destruct (f d) as [[|] d1] eqn:E1; [|discriminate].
  destruct (F _ _ E1) as (e1 & A1 & B1), (G _ _ E) as (e2 & A2 & B2). exists (e1 ++ e2). split.
  - rewrite A2, A1, app_assoc. reflexivity.
  - rewrite numbered_app. apply Forall2_app; [exact B1|]. rewrite A1, app_length in B2. exact B2.
Qed.

Lemma adds_each {A} v (g : A -> list (place * option bytes)) f l :
  (forall a, adds v (g a) (f a)) -> adds v (flat_map g l) (each f l).
Proof.
  intros F. induction l as [|a l IH]; cbn [flat_map each]; [apply adds_none|].
  intros d d' E. destruct (f a d) as [[|] d1] eqn:E1; [|discriminate].
  destruct (F a _ _ E1) as (e1 & A1 & B1), (IH _ _ E) as (e2 & A2 & B2). exists (e1 ++ e2). split.
  - rewrite A2, A1, app_assoc. reflexivity.
  - rewrite numbered_app. apply Forall2_app; [exact B1|]. rewrite A1, app_length in B2. exact B2.
Qed.

Lemma map_flat {A B} (f : A -> B) l : map f l = flat_map (fun a => [f a]) l.
Proof. induction l as [|a l IH]; [reflexivity|]. cbn. now rewrite IH. Qed.

Lemma adds_endpoint v client e : adds v (endpoint_certs client e)
  (fun d => match snd e with Some o => dates_endpt_get v client (fst e) o d | None => (true, d) end).
Proof.
  unfold endpoint_certs. destruct (snd e) as [o|]; [|apply adds_none]. unfold dates_endpt_get.
  apply (adds_then v _ _ (fun d => match t_server o with
    | Some data => date_append v data (mkC client (Some (fst e)) None None None None None None) d | None => (true, d) end)).
  - destruct (t_server o) as [data|]; [exact (adds_append v (PServer client (fst e)) data)|apply adds_none].
  - apply (adds_then v _ _ (fun d => match t_ca o with
      | Some l => each (fun c => date_append v (snd c) (mkC client (Some (fst e)) (Some (fst c)) None None None None None)) l d
      | None => (true, d) end)).
    + destruct (t_ca o) as [l|]; [|apply adds_none]. rewrite map_flat. apply adds_each. intros c.
      exact (adds_append v (PCa client (fst e) (fst c)) (snd c)).
    + destruct (t_ee o) as [l|]; [|apply adds_none]. rewrite map_flat. apply adds_each. intros c.
      exact (adds_append v (PEe client (fst e) (fst c)) (snd c)).
Qed.

Lemma adds_all v c d : dates_get v c = (true, d) -> Forall2 (entry_for v) (certificates c) (numbered 0 (d_entries d)).
Proof.
  intros E. enough (G : adds v (certificates c) (fun d => match dates_endpts v None (c_endpts c) d with
    | (false, d) => (false, d)
    | (true, d) =>
    match each (fun x => dates_endpts v (Some (fst x)) (snd x)) (c_ch c) d with
    | (false, d) => (false, d)
    | (true, d) =>
    match each (fun k => each (fun x => date_append v (snd x) (mkC None None None None (Some (fst k)) (Some (fst x)) None None)) (snd k))
               (c_keystore c) d with
    | (false, d) => (false, d)
    | (true, d) =>
        each (fun b => each (fun x => date_append v (snd x) (mkC None None None None None None (Some (fst b)) (Some (fst x)))) (snd b))
             (c_truststore c) d
    end
    end
    end)).
  { destruct (G _ _ E) as (es & A & B). cbn [d_entries app] in A. rewrite A. exact B. }
  unfold certificates. apply (adds_then v _ _ (dates_endpts v None (c_endpts c))).
  { apply adds_each. intros e. apply adds_endpoint. }
  apply (adds_then v _ _ (each (fun x => dates_endpts v (Some (fst x)) (snd x)) (c_ch c))).
  { apply adds_each. intros x. apply adds_each. intros e. apply adds_endpoint. }
  apply (adds_then v _ _ (each (fun k => each (fun x => date_append v (snd x) (mkC None None None None (Some (fst k)) (Some (fst x)) None None)) (snd k))
               (c_keystore c))).
  { apply adds_each. intros k. rewrite map_flat. apply adds_each. intros x. exact (adds_append v (PKey (fst k) (fst x)) (snd x)). }
  apply adds_each. intros b. rewrite map_flat. apply adds_each. intros x. exact (adds_append v (PBag (fst b) (fst x)) (snd x)).
Qed.

Lemma numbered_nth k es i : nth_error (numbered k es) i = match nth_error es i with Some e => Some ((k + i)%nat, e) | None => None end.
Proof.
  revert k i; induction es as [|e es IH]; intros k [|i]; [reflexivity..|cbn; now rewrite PeanoNat.Nat.add_0_r|].
  unfold numbered in *. cbn [length seq combine nth_error]. rewrite IH. destruct (nth_error es i); [|reflexivity]. do 2 f_equal. lia.
Qed.
Lemma numbered_length k es : length (numbered k es) = length es.
Proof. unfold numbered. rewrite combine_length, seq_length. lia. Qed.

Lemma Forall2_nth {A B} (R : A -> B -> Prop) l m i a b : Forall2 R l m -> nth_error l i = Some a -> nth_error m i = Some b -> R a b.
Proof.
  intros F. revert i; induction F as [|x y l m H F IH]; intros [|i] X Y; try discriminate.
  - injection X as <-. injection Y as <-. exact H.
  - exact (IH i X Y).
Qed.
Lemma Forall2_len {A B} (R : A -> B -> Prop) l m : Forall2 R l m -> length l = length m.
Proof. intros F. induction F; cbn; congruence. Qed.
Lemma nth_Forall2 {A B} (R : A -> B -> Prop) l m : length l = length m ->
  (forall i a b, nth_error l i = Some a -> nth_error m i = Some b -> R a b) -> Forall2 R l m.
Proof.
  revert m; induction l as [|x l IH]; intros [|y m] L H; try discriminate; constructor.
  - exact (H 0%nat x y eq_refl eq_refl).
  - apply IH; [cbn in L; congruence|]. intros i a b X Y. exact (H (S i) a b X Y).
Qed.

Lemma all_entries v c d : dates_get v c = (true, d) -> length (d_entries d) = length (certificates c) /\
  forall i x e, nth_error (certificates c) i = Some x -> nth_error (d_entries d) i = Some e -> entry_for v x (i, e).
Proof.
  intros E. apply adds_all in E. split; [rewrite (Forall2_len _ _ _ E), numbered_length; reflexivity|].
  intros i x e X Y. apply (Forall2_nth _ _ _ i _ _ E X). rewrite numbered_nth, Y. reflexivity.
Qed.

(** C171, partial: every notification is about its certificate, if the names have no apostrophes. *)
Theorem c171_about_it_partial v c d : dates_get v c = (true, d) -> (forall x, In x (certificates c) -> simple (fst x)) ->
  Forall2 (fun x e => denotes (e_xpath e) (expiration (fst x))) (certificates c) (d_entries d).
Proof.
  intros E S. apply all_entries in E. destruct E as [L E]. apply nth_Forall2; [congruence|]. intros i x e X Y.
  destruct (E i x e X Y) as [_ H]. cbn [snd] in H. rewrite H. apply denotes_render, S. exact (nth_error_In _ _ X).
Qed.

Lemma expiration_inj p q : expiration p = expiration q -> p = q.
Proof.
  intros G. destruct p as [[c|] e|[c|] e n|[c|] e n|k n|b n], q as [[c'|] e'|[c'|] e' n'|[c'|] e' n'|k' n'|b' n'];
  unfold expiration, location, endpoint_nodes in G; cbn [app] in G; try discriminate G;
  injection G; intros; subst; reflexivity.
Qed.

(** And then two notifications with one XPath are about one place. *)
Theorem c171_distinct_partial v c d : dates_get v c = (true, d) -> (forall x, In x (certificates c) -> simple (fst x)) ->
  forall i j x y e f, nth_error (certificates c) i = Some x -> nth_error (certificates c) j = Some y ->
  nth_error (d_entries d) i = Some e -> nth_error (d_entries d) j = Some f -> e_xpath e = e_xpath f -> fst x = fst y.
Proof.
  intros E S i j x y e f X Y Ei Ej H. pose proof (c171_about_it_partial v c d E S) as F.
  pose proof (Forall2_nth _ _ _ _ _ _ F X Ei) as A. pose proof (Forall2_nth _ _ _ _ _ _ F Y Ej) as B. cbn in A, B.
  unfold denotes in A, B. rewrite H in A. apply expiration_inj. congruence.
Qed.

Definition works (decode : bytes -> option Z) : env := {|
  v_decode := decode; v_realloc := fun _ => true; v_malloc := fun _ => true; v_asprintf := fun _ => (true, true);
  v_starts := fun exp => Some [exp - 604800]; v_first := fun _ s exp => Some (0%nat, exp - 604800) |}.
Definition keystore (l : list (bytes * list cert)) : config :=
  {| c_endpts := []; c_ch := []; c_keystore := l; c_truststore := [] |}.

(** A certificate named  a' or 'x'='x  is notified with a predicate that is true of every certificate (no path of the kind
    read here). *)
Theorem c171_apostrophe_refuted : ~ c171_full.
Proof.
  intros F. specialize (F (works (fun _ => Some 1000000)) (keystore [(bs "k", [(bs "a' or 'x'='x", Some (bs "MII"))])]) _ eq_refl).
  cbn in F. inversion F as [|x e l m H _ E1 E2]; subst. vm_compute in H. discriminate.
Qed.

(** With apostrophes two certificates may even have one XPath. *)
Theorem c171_same_path_refuted : exists v c d e f, dates_get v c = (true, d) /\ NoDup (map fst (certificates c)) /\
  d_entries d = [e; f] /\ e_xpath e = e_xpath f.
Proof.
  exists (works (fun _ => Some 1000000)), (keystore [(bs "a", [(bs "b']/certificates/certificate[name='c", Some (bs "MII"))]);
    (bs "a']/certificates/certificate[name='b", [(bs "c", Some (bs "MIJ"))])]).
  eexists _, _, _. split; [vm_compute; reflexivity|]. split; [|split; [reflexivity|reflexivity]].
  cbn. repeat constructor; cbn; intuition discriminate.
Qed.

(** C172: if the certificates were read, all of them are watched, in order; nothing else is. *)
Theorem c172_all v c d : dates_get v c = (true, d) -> one_by_one v c d.
Proof. intros E. apply all_entries in E. destruct E as [L E]. split; [exact L|]. intros i x e X Y. exact (proj1 (E i x e X Y)). Qed.

(** C172: when they are read. *)
Definition goes (v : env) (l : list (place * option bytes)) (f : dates -> bool * dates) : Prop :=
  (forall x, In x l -> exists b exp, snd x = Some b /\ v_decode v b = Some exp) -> forall d, exists d', f d = (true, d').

Lemma goes_append v p data : system_works v -> goes v [(p, data)] (date_append v data (cp_of p)).
Proof.
  intros (W1 & W2 & W3 & W4 & W5) H d. destruct (H _ (or_introl eq_refl)) as (b & exp & E & D). cbn [snd] in E. subst data.
  unfold date_append. rewrite D, W1, W2, W3. cbn [negb]. destruct (W4 exp) as [s ->]. destruct (W5 (length (d_entries d)) s exp) as [[cur t] ->].
  assert (X : exists x, xpath_get (true, true) (cp_of p) = Some x).
  { destruct p as [[c|] e|[c|] e n|[c|] e n|k n|b' n]; cbn; eauto. }
  destruct X as [x ->]. eauto.
Qed.
Lemma goes_none v : goes v [] (fun d => (true, d)).
Proof. intros _ d. eauto. Qed.
Lemma goes_then v l1 l2 f g : goes v l1 f -> goes v l2 g ->
  goes v (l1 ++ l2) (fun d => match f d with (false, d) => (false, d) | (true, d) => g d end).
Proof.
  intros F G H d. destruct (F (fun x I => H x (in_or_app _ _ _ (or_introl I))) d) as [d1 ->].
  apply (G (fun x I => H x (in_or_app _ _ _ (or_intror I)))).
Qed.
Lemma goes_each {A} v (g : A -> list (place * option bytes)) f l :
  (forall a, goes v (g a) (f a)) -> goes v (flat_map g l) (each f l).
Proof.
  intros F. induction l as [|a l IH]; cbn [flat_map each]; [apply goes_none|].
  intros H d. destruct (F a (fun x I => H x (in_or_app _ _ _ (or_introl I))) d) as [d1 ->].
  apply (IH (fun x I => H x (in_or_app _ _ _ (or_intror I)))).
Qed.
Lemma goes_endpoint v client e : system_works v -> goes v (endpoint_certs client e)
  (fun d => match snd e with Some o => dates_endpt_get v client (fst e) o d | None => (true, d) end).
Proof.
  intros W. unfold endpoint_certs. destruct (snd e) as [o|]; [|apply goes_none]. unfold dates_endpt_get.
  apply (goes_then v _ _ (fun d => match t_server o with
    | Some data => date_append v data (mkC client (Some (fst e)) None None None None None None) d | None => (true, d) end)).
  - destruct (t_server o) as [data|]; [exact (goes_append v (PServer client (fst e)) data W)|apply goes_none].
  - apply (goes_then v _ _ (fun d => match t_ca o with
      | Some l => each (fun c => date_append v (snd c) (mkC client (Some (fst e)) (Some (fst c)) None None None None None)) l d
      | None => (true, d) end)).
    + destruct (t_ca o) as [l|]; [|apply goes_none]. rewrite map_flat. apply goes_each. intros c.
      exact (goes_append v (PCa client (fst e) (fst c)) (snd c) W).
    + destruct (t_ee o) as [l|]; [|apply goes_none]. rewrite map_flat. apply goes_each. intros c.
      exact (goes_append v (PEe client (fst e) (fst c)) (snd c) W).
Qed.

(** C172, partial: if all certificates can be read, all are watched. *)
Theorem c172_watched_partial v c : system_works v ->
  (forall x, In x (certificates c) -> exists b exp, snd x = Some b /\ v_decode v b = Some exp) ->
  exists d, dates_get v c = (true, d) /\ one_by_one v c d.
Proof.
  intros W H. enough (G : goes v (certificates c) (fun d => match dates_endpts v None (c_endpts c) d with
    | (false, d) => (false, d)
    | (true, d) =>
    match each (fun x => dates_endpts v (Some (fst x)) (snd x)) (c_ch c) d with
    | (false, d) => (false, d)
    | (true, d) =>
    match each (fun k => each (fun x => date_append v (snd x) (mkC None None None None (Some (fst k)) (Some (fst x)) None None)) (snd k))
               (c_keystore c) d with
    | (false, d) => (false, d)
    | (true, d) =>
        each (fun b => each (fun x => date_append v (snd x) (mkC None None None None None None (Some (fst b)) (Some (fst x)))) (snd b))
             (c_truststore c) d
    end
    end
    end)).
  { destruct (G H {| d_entries := []; d_array := false; d_lost := 0 |}) as (d & E). exists d. split; [exact E|]. apply c172_all. exact E. }
  unfold certificates. apply (goes_then v _ _ (dates_endpts v None (c_endpts c))).
  { apply goes_each. intros e. apply goes_endpoint, W. }
  apply (goes_then v _ _ (each (fun x => dates_endpts v (Some (fst x)) (snd x)) (c_ch c))).
  { apply goes_each. intros x. apply goes_each. intros e. apply goes_endpoint, W. }
  apply (goes_then v _ _ (each (fun k => each (fun x => date_append v (snd x) (mkC None None None None (Some (fst k)) (Some (fst x)) None None)) (snd k))
               (c_keystore c))).
  { apply goes_each. intros k. rewrite map_flat. apply goes_each. intros x. exact (goes_append v (PKey (fst k) (fst x)) (snd x) W). }
  apply goes_each. intros b. rewrite map_flat. apply goes_each. intros x. exact (goes_append v (PBag (fst b) (fst x)) (snd x) W).
Qed.

(** One certificate that cannot be read, and none is watched. *)
Theorem c172_broken_refuted : ~ c172_full.
Proof.
  intros F. set (v := works (fun b => if beqb b (bs "MII") then Some 1000000 else None)).
  set (c := keystore [(bs "k", [(bs "good", Some (bs "MII")); (bs "bad", Some (bs "?"))])]).
  destruct (F v c (PKey (bs "k") (bs "good")) (bs "MII") 1000000) as (d & i & e & E & _).
  - unfold v, system_works, works. cbn. repeat split; eauto.
  - left. reflexivity.
  - reflexivity.
  - vm_compute in E. discriminate.
Qed.

(** C172 with the calendar of CertExp.v: each certificate is first notified at the first scheduled time from now on. *)
Definition with_calendar (ivs : list interval) (now : nat -> Z) (v : env) : env := {|
  v_decode := v_decode v; v_realloc := v_realloc v; v_malloc := v_malloc v; v_asprintf := v_asprintf v;
  v_starts := init_starts utc_sub ivs;
  v_first := fun n starts exp =>
    match first_notif utc_add (match starts with s :: _ => S (Z.to_nat (now n - s)) | [] => O end) ivs starts exp (now n) with
    | Ok r => Some r | _ => None end |}.

Theorem c172_first_partial v ivs now c d : ivs <> [] -> Prop_CertExp.valid_periods ivs ->
  dates_get (with_calendar ivs now v) c = (true, d) ->
  forall i e, nth_error (d_entries d) i = Some e -> Prop_CertExp.ascending (e_starts e) -> now i <= e_exp e ->
  Prop_CertExp.first_at utc_add ivs (e_starts e) (now i) (e_notif e).
Proof.
  intros Hne Hv E i e Y A N. apply c172_all in E. destruct E as [L E].
  destruct (nth_error (certificates c) i) as [x|] eqn:X.
  2:{ apply nth_error_None in X. assert (i < length (d_entries d))%nat by (apply nth_error_Some; congruence). lia. }
  destruct (E i x e X Y) as (b & _ & _ & S & Fi). cbn [with_calendar v_starts v_first] in S, Fi.
  destruct (Prop_CertExp.init_starts_len ivs (e_exp e)) as (l0 & E0 & Hlen). assert (l0 = e_starts e) by congruence. subst l0.
  destruct (first_notif utc_add _ ivs (e_starts e) (e_exp e) (now i)) as [r| |] eqn:R; [|discriminate|discriminate].
  injection Fi as ->.
  exact (proj2 (Prop_CertExp.first_spec utc_add ivs (e_starts e) Hlen A (Prop_CertExp.utc_forward ivs Hv) _ _ _ _ _ R (or_introl N))).
Qed.

(** ... and with the default intervals without any condition. *)
Theorem c172_default_first v now c d : dates_get (with_calendar default_intervals now v) c = (true, d) ->
  forall i e, nth_error (d_entries d) i = Some e -> now i <= e_exp e ->
  Prop_CertExp.first_at utc_add default_intervals (e_starts e) (now i) (e_notif e).
Proof.
  intros E i e Y N. destruct (Prop_CertExp.c42_default (e_exp e)) as (s & S & A & V).
  apply (c172_first_partial v default_intervals now c d); try assumption; [discriminate|].
  pose proof (c172_all _ _ _ E) as [L W].
  destruct (nth_error (certificates c) i) as [x|] eqn:X.
  2:{ apply nth_error_None in X. assert (i < length (d_entries d))%nat by (apply nth_error_Some; congruence). lia. }
  destruct (W i x e X Y) as (b & _ & _ & S' & _). cbn [with_calendar v_starts] in S'. rewrite S in S'. injection S' as S'. rewrite <- S'. exact A.
Qed.

(* ------------------------------------------------------------------ *)
(** ** C173 *)

Definition sound (d : dates) : Prop := d_lost d = 0%nat /\ (d_array d = true \/ d_entries d = []).
Definition keeps (f : dates -> bool * dates) : Prop := forall d, sound d -> sound (snd (f d)).

Lemma keeps_append v data cp : system_works v -> keeps (date_append v data cp).
Proof.
  intros (W1 & W2 & W3 & W4 & W5) d [L A]. unfold date_append.
  destruct data as [b|]; [|split; assumption]. destruct (v_decode v b) as [exp|]; [|split; assumption].
  rewrite W1, W2, W3. cbn [negb]. destruct (W4 exp) as [s ->]. destruct (W5 (length (d_entries d)) s exp) as [[cur t] ->].
  assert (X : exists x, xpath_get (true, true) cp = Some x).
  { destruct cp as [[c|] e [a|] [n|] k [x|] l [y|]]; cbn; eauto. }
  destruct X as [x ->]. cbn. split; [exact L|now left].
Qed.
Lemma keeps_then f g : keeps f -> keeps g -> keeps (fun d => match f d with (false, d) => (false, d) | (true, d) => g d end).
Proof. intros F G d S. specialize (F d S). destruct (f d) as [[|] d1]; cbn [snd] in F; [apply G, F|exact F]. Qed.
Lemma keeps_each {A} (f : A -> dates -> bool * dates) l : (forall a, keeps (f a)) -> keeps (each f l).
Proof.
  intros F. induction l as [|a l IH]; intros d S; cbn [each]; [exact S|].
  pose proof (F a d S) as H. destruct (f a d) as [[|] d1]; cbn [snd] in *; [apply IH, H|exact H].
Qed.
Lemma keeps_none : keeps (fun d => (true, d)).
Proof. intros d S. exact S. Qed.

Lemma keeps_endpts v client l : system_works v -> keeps (dates_endpts v client l).
Proof.
  intros W. apply keeps_each. intros [n [o|]]; cbn [snd fst]; [|apply keeps_none]. unfold dates_endpt_get.
  apply (keeps_then (fun d => match t_server o with
    | Some data => date_append v data (mkC client (Some n) None None None None None None) d | None => (true, d) end)).
  - destruct (t_server o); [apply keeps_append, W|apply keeps_none].
  - apply (keeps_then (fun d => match t_ca o with
      | Some l => each (fun c => date_append v (snd c) (mkC client (Some n) (Some (fst c)) None None None None None)) l d
      | None => (true, d) end)).
    + destruct (t_ca o); [apply keeps_each; intros; apply keeps_append, W|apply keeps_none].
    + destruct (t_ee o); [apply keeps_each; intros; apply keeps_append, W|apply keeps_none].
Qed.

(** C173, partial: nothing is left whatever the certificates are, if memory and the calendar suffice. *)
Theorem c173_released_partial v c : system_works v -> dates_destroy (snd (dates_get v c)) = Ret 0%nat.
Proof.
  intros W. enough (G : sound (snd (dates_get v c))).
  { destruct G as [L A]. unfold dates_destroy. rewrite L. destruct A as [A|A]; rewrite A; [reflexivity|]. cbn. now rewrite andb_false_r. }
  unfold dates_get. assert (S0 : sound {| d_entries := []; d_array := false; d_lost := 0 |}) by (split; auto).
  pose proof (keeps_endpts v None (c_endpts c) W _ S0) as S1. destruct (dates_endpts v None _ _) as [[|] d1]; cbn [snd] in S1; [|exact S1].
  pose proof (keeps_each (fun x => dates_endpts v (Some (fst x)) (snd x)) (c_ch c) (fun x => keeps_endpts v _ _ W) _ S1) as S2.
  destruct (each _ (c_ch c) d1) as [[|] d2]; cbn [snd] in S2; [|exact S2].
  match goal with |- context [@each ?A ?f (c_keystore c) d2] => assert (S3 : sound (snd (@each A f (c_keystore c) d2))) end.
  { apply keeps_each; [|exact S2]. intros k. apply keeps_each. intros x. apply keeps_append, W. }
  match type of S3 with sound (snd ?t) => destruct t as [[|] d3] end; cbn [snd] in S3; [|exact S3].
  apply keeps_each; [|exact S3]. intros b. apply keeps_each. intros x. apply keeps_append, W.
Qed.

(** If the XPath cannot be made, the times of the certificate are lost; if the array cannot grow, it is read at NULL. *)
Theorem c173_memory_refuted : ~ c173_full /\ exists v c, dates_destroy (snd (dates_get v c)) = Wild.
Proof.
  set (c := keystore [(bs "k", [(bs "a", Some (bs "MII")); (bs "b", Some (bs "MII"))])]). split.
  - intros F. specialize (F {| v_decode := fun _ => Some 1000000; v_realloc := fun _ => true; v_malloc := fun _ => true;
      v_asprintf := fun n => (Nat.eqb n 0, true); v_starts := fun exp => Some [exp]; v_first := fun _ s exp => Some (0%nat, exp) |} c).
    vm_compute in F. discriminate.
  - exists {| v_decode := fun _ => Some 1000000; v_realloc := fun n => Nat.eqb n 0; v_malloc := fun _ => true;
      v_asprintf := fun n => (true, true); v_starts := fun exp => Some [exp]; v_first := fun _ s exp => Some (0%nat, exp) |}, c.
    vm_compute. reflexivity.
Qed.

(* ------------------------------------------------------------------ *)
(** ** A case *)

(** A listening endpoint with three certificates, one of Call Home, a key and a bag. *)
Definition ex_config : config := {|
  c_endpts := [(bs "ssh", None); (bs "tls", Some {| t_server := Some (Some (bs "A")); t_ca := Some [(bs "ca", Some (bs "B"))]; t_ee := Some [(bs "ee", Some (bs "C"))] |})];
  c_ch := [(bs "client", [(bs "e", Some {| t_server := Some (Some (bs "D")); t_ca := None; t_ee := None |})])];
  c_keystore := [(bs "key", [(bs "x", Some (bs "E"))])];
  c_truststore := [(bs "bag", [(bs "y", Some (bs "F"))])] |}.

Example c171_case : exists d, dates_get (with_calendar default_intervals (fun _ => 1799971200) (works (fun _ => Some 1803859200))) ex_config = (true, d) /\
  length (d_entries d) = 6%nat /\ (forall x, In x (certificates ex_config) -> simple (fst x)) /\
  map e_notif (d_entries d) = repeat 1801440000 6.
Proof.
  eexists. split; [vm_compute; reflexivity|]. split; [reflexivity|]. split; [|vm_compute; reflexivity].
  intros x I. cbn in I. repeat destruct I as [<-|I]; try destruct I; cbn; unfold no; cbn; intuition discriminate.
Qed.

Example c172_case : system_works (works (fun _ => Some 1000000)).
Proof. unfold system_works, works. cbn. repeat split; eauto. Qed.

Print Assumptions c170_intervals_partial.
Print Assumptions c170_memory_refuted.
Print Assumptions c171_about_it_partial.
Print Assumptions c171_distinct_partial.
Print Assumptions c171_apostrophe_refuted.
Print Assumptions c171_same_path_refuted.
Print Assumptions c172_all.
Print Assumptions c172_watched_partial.
Print Assumptions c172_broken_refuted.
Print Assumptions c172_first_partial.
Print Assumptions c172_default_first.
Print Assumptions c173_released_partial.
Print Assumptions c173_memory_refuted.
