(** C225-C228: the certificates a TLS server presents and trusts. *)
From Coq Require Import String NArith Bool List Permutation Lia Arith.
From Verif Require Import TlsLoad.
Import ListNotations.
Local Open Scope string_scope.
Local Open Scope list_scope.

Section Spec.
Context {cert key : Type}.
Variable lib_cert : string -> option cert.
Variable lib_key : string -> nat -> option key.
Variable lib_add : cert -> bool.
Notation setup := (setup lib_cert lib_key lib_add).

(* ------------------------------------------------------------------ *)
(** ** Specification *)

(** What the identity of an endpoint names. *)
Inductive names_own (f : conf) : ident -> string -> nat -> string -> Prop :=
| own_local c p fmt : names_own f (ILocal (Some c) (Some p) fmt) p fmt c
| own_ref e c p d : In e (f_ks f) -> In c (k_certs e) -> k_priv e = Some p -> c_data c = Some d ->
    names_own f (IKeystore (Some (k_name e)) (Some (c_name c))) p (k_fmt e) d.

(** The certificates a grouping stands for. *)
Inductive lists (f : conf) : grp -> list centry -> Prop :=
| l_local cs : lists f (GLocal cs) cs
| l_ref b : In b (f_ts f) -> lists f (GTrust (Some (b_name b))) (b_certs b).

(** The endpoints whose client certificates count: itself and the one it references. *)
Inductive counts (f : conf) (o : opts) : opts -> Prop :=
| c_self : counts f o o
| c_ref n e o' : o_ref o = Some n -> In e (f_eps f) -> e_name e = n -> e_tls e = Some o' -> counts f o o'.

(** Names are keys of lists. *)
Definition keyed (f : conf) : Prop :=
  NoDup (map k_name (f_ks f)) /\ NoDup (map b_name (f_ts f)) /\ NoDup (map e_name (f_eps f)) /\
  forall e, In e (f_ks f) -> NoDup (map c_name (k_certs e)).

(** Objects made and freed. *)
Definition made (l : list (ev cert key)) : list (obj cert key) := flat_map (fun e => match e with New o => [o] | _ => [] end) l.
Definition freed (l : list (ev cert key)) : list (obj cert key) := flat_map (fun e => match e with Free o => [o] | _ => [] end) l.

Definition reads (c : centry) (x : cert) : Prop := exists d, c_data c = Some d /\ lib_cert d = Some x.

(* ------------------------------------------------------------------ *)
(** ** Lemmas *)

Lemma look_ok {A} (name : A -> string) r l x : look name r l = Ok x -> In x l /\ r = Some (name x).
Proof.
  induction l as [|y l IH]; cbn [look]; [discriminate|]. destruct r as [n|]; [|discriminate].
  destruct (String.eqb_spec n (name y)) as [E|N]; [intro H; inversion H; subst; auto with datatypes|].
  intro H. destruct (IH H). auto with datatypes.
Qed.
Lemma look_in {A} (name : A -> string) l x : NoDup (map name l) -> In x l -> look name (Some (name x)) l = Ok x.
Proof.
  induction l as [|y l IH]; intros N I; [destruct I|]. cbn [look]. cbn [map] in N. inversion N as [|? ? N1 N2]; subst.
  destruct (String.eqb_spec (name x) (name y)) as [E|E].
  - destruct I as [->|I]; [reflexivity|]. exfalso. apply N1. rewrite <- E. apply in_map. exact I.
  - destruct I as [->|I]; [congruence|]. apply IH; assumption.
Qed.
Lemma look_wild {A} (name : A -> string) n l : look name (Some n) l <> Wild.
Proof. induction l as [|y l IH]; cbn [look]; [discriminate|]. destruct (String.eqb n (name y)); [discriminate|exact IH]. Qed.

Lemma load_server_spec f i r l : load_server lib_cert lib_key (f_ks f) i = (r, l) ->
  match r with
  | Ok (x, k) => (exists p fmt d, names_own f i p fmt d /\ lib_cert d = Some x /\ lib_key p fmt = Some k) /\ l = [New (OCert x); New (OKey k)]
  | Err => Permutation (made l) (freed l)
  | Wild => match i with IKeystore (Some _) (Some _) | ILocal _ _ _ => False | _ => True end
  end.
Proof.
  intro H. unfold load_server in H.
  assert (G : forall p fmt c, (match c, p with
     | Some c, Some p =>
       match lib_cert c with
       | None => (Err, [])
       | Some x => match lib_key p fmt with None => (Err, [New (OCert x); Free (OCert x)]) | Some k => (Ok (x, k), [New (OCert x); New (OKey k)]) end
       end
     | _, _ => (Err, []) end) = (r, l) ->
     (forall p0 d0, p = Some p0 -> c = Some d0 -> names_own f i p0 fmt d0) ->
     match r with
     | Ok (x, k) => (exists p fmt d, names_own f i p fmt d /\ lib_cert d = Some x /\ lib_key p fmt = Some k) /\ l = [New (OCert x); New (OKey k)]
     | Err => Permutation (made l) (freed l) | Wild => False end).
  { clear H. intros p fmt c H N. destruct c as [c|]; [|inversion H; subst; constructor]. destruct p as [p|]; [|inversion H; subst; constructor].
    destruct (lib_cert c) as [x|] eqn:Ec; [|inversion H; subst; constructor].
    destruct (lib_key p fmt) as [k|] eqn:Ek; inversion H; subst; [|apply Permutation_refl].
    split; [|reflexivity]. exists p, fmt, c. auto. }
  destruct i as [c p fmt|kr cr].
  - specialize (G p fmt c H). destruct r as [[x k]| |]; apply G; intros ? ? -> ->; constructor.
  - unfold ks_ref in H. destruct (look k_name kr (f_ks f)) as [e| |] eqn:E1.
    + destruct (look_ok _ _ _ _ E1) as [I1 ->]. destruct (look c_name cr (k_certs e)) as [c| |] eqn:E2.
      * destruct (look_ok _ _ _ _ E2) as [I2 ->]. specialize (G _ _ _ H).
        assert (X : forall p0 d0, k_priv e = Some p0 -> c_data c = Some d0 -> names_own f (IKeystore (Some (k_name e)) (Some (c_name c))) p0 (k_fmt e) d0) by (intros; constructor; assumption).
        specialize (G X). destruct r as [[x k]| |]; assumption.
      * inversion H; subst. constructor.
      * inversion H; subst. destruct cr as [n|]; [exact (look_wild _ _ _ E2)|exact Logic.I].
    + inversion H; subst. constructor.
    + inversion H; subst. destruct kr as [n|]; [|exact Logic.I]. exfalso. exact (look_wild _ _ _ E1).
Qed.

Lemma add_all_spec cs : forall s ok s' l, add_all lib_cert lib_add cs s = (ok, s', l) ->
  exists x, s' = s ++ x /\ Permutation (made l) (map OCert x ++ freed l) /\ (ok = true -> Forall2 reads cs x /\ freed l = []).
Proof.
  induction cs as [|c cs IH]; intros s ok s' l H; cbn [add_all] in H.
  - inversion H; subst. exists []. rewrite app_nil_r. split; [reflexivity|]. split; [constructor|]. intros _. split; [constructor|reflexivity].
  - destruct (c_data c) as [d|] eqn:Ed; [|inversion H; subst; exists []; rewrite app_nil_r; repeat split; [constructor|discriminate..]].
    destruct (lib_cert d) as [x|] eqn:Ex; [|inversion H; subst; exists []; rewrite app_nil_r; repeat split; [constructor|discriminate..]].
    destruct (lib_add x).
    + destruct (add_all lib_cert lib_add cs (s ++ [x])) as [[ok1 s1] l1] eqn:E. inversion H; subst; clear H.
      destruct (IH _ _ _ _ E) as [y [-> [P Q]]]. exists (x :: y). split; [rewrite <- app_assoc; reflexivity|].
      split; [cbn; constructor; exact P|]. intro K. destruct (Q K) as [Q1 Q2]. split; [constructor; [exists d; auto|exact Q1]|exact Q2].
    + inversion H; subst. exists []. rewrite app_nil_r. split; [reflexivity|]. split; [apply Permutation_refl|discriminate].
Qed.

Lemma load_trusted_spec f g s r s' l : load_trusted lib_cert lib_add (f_ts f) g s = (r, s', l) ->
  match r with
  | Ok _ => exists cs x, lists f g cs /\ Forall2 reads cs x /\ s' = s ++ x /\ Permutation (made l) (map OCert x) /\ freed l = []
  | Err => exists x, s' = s ++ x /\ Permutation (made l) (map OCert x ++ freed l)
  | Wild => g = GTrust None
  end.
Proof.
  assert (A : forall cs, lists f g cs -> (let '(ok, s0, l0) := add_all lib_cert lib_add cs s in (if ok then Ok tt else Err, s0, l0)) = (r, s', l) ->
     match r with
     | Ok _ => exists cs x, lists f g cs /\ Forall2 reads cs x /\ s' = s ++ x /\ Permutation (made l) (map OCert x) /\ freed l = []
     | Err => exists x, s' = s ++ x /\ Permutation (made l) (map OCert x ++ freed l)
     | Wild => g = GTrust None end).
  { intros cs L H. destruct (add_all lib_cert lib_add cs s) as [[ok s0] l0] eqn:E. destruct (add_all_spec _ _ _ _ _ E) as [x [-> [P Q]]].
    destruct ok; inversion H; subst; [|eauto]. destruct (Q eq_refl) as [Q1 Q2]. rewrite Q2, app_nil_r in P. exists cs, x. auto 10. }
  intro H. destruct g as [cs|n]; cbn [load_trusted] in H; [apply (A cs); [constructor|exact H]|].
  unfold ts_ref in H. destruct (look b_name n (f_ts f)) as [b| |] eqn:E.
  - destruct (look_ok _ _ _ _ E) as [I ->]. apply (A (b_certs b)); [constructor; exact I|exact H].
  - inversion H; subst. exists []. rewrite app_nil_r. split; [reflexivity|constructor].
  - inversion H; subst. destruct n as [n|]; [|reflexivity]. exfalso. exact (look_wild _ _ _ E).
Qed.

Lemma made_app l1 l2 : made (l1 ++ l2) = made l1 ++ made l2.
Proof. apply flat_map_app. Qed.
Lemma freed_app l1 l2 : freed (l1 ++ l2) = freed l1 ++ freed l2.
Proof. apply flat_map_app. Qed.

Lemma cleanup_made own s : made (cleanup own s) = [].
Proof.
  unfold cleanup. change (made (Free OCfg :: ?x)) with (made x). rewrite !made_app.
  destruct own as [[x k]|]; cbn [made flat_map app]; (rewrite app_nil_r || idtac); induction s; cbn; auto.
Qed.
Lemma cleanup_freed own s : freed (cleanup own s) =
  OCfg :: match own with Some (x, k) => [OCert x; OKey k] | None => [] end ++ map OCert s ++ [OStore].
Proof.
  unfold cleanup. change (freed (Free OCfg :: ?x)) with (OCfg :: freed x). rewrite !freed_app. f_equal.
  assert (E : freed (map (fun c => Free (OCert c)) s) = map OCert s) by (induction s; cbn; [reflexivity|f_equal; assumption]).
  rewrite E. destruct own as [[x k]|]; reflexivity.
Qed.

(** All about a set-up at once. *)
Definition held (x : cert) (k : key) (s : list cert) : list (obj cert key) := OCfg :: OStore :: OCert x :: OKey k :: map OCert s.

Lemma referenced_ok f n o' : referenced f n = Ok o' -> exists e, In e (f_eps f) /\ e_name e = n /\ e_tls e = Some o'.
Proof.
  unfold referenced. destruct (look e_name (Some n) (f_eps f)) as [e| |] eqn:E; try discriminate. destruct (look_ok _ _ _ _ E) as [I X].
  inversion X. destruct (e_tls e) as [o1|] eqn:T; [|discriminate]. intro H; inversion H; subst. eauto.
Qed.

Lemma sum_err ts gs : sum ts gs <> Err.
Proof.
  induction gs as [|g gs IH]; cbn [sum]; [discriminate|]. destruct (num_certs ts g) eqn:E; [|destruct g as [|r]; cbn in E; [discriminate|destruct (ts_ref ts r); discriminate]|discriminate].
  destruct (sum ts gs); congruence.
Qed.
Lemma sum_wild ts gs : sum ts gs = Wild -> In (GTrust None) gs.
Proof.
  induction gs as [|g gs IH]; cbn [sum]; [discriminate|]. intro H.
  assert (K : num_certs ts g = Wild \/ sum ts gs = Wild).
  { destruct (num_certs ts g) eqn:E; auto. destruct (sum ts gs) eqn:E2; auto; discriminate. destruct (sum ts gs); auto; discriminate. }
  destruct K as [K|K]; [left|right; auto]. destruct g as [cs|[n|]]; cbn [num_certs] in K; [discriminate| |reflexivity].
  unfold ts_ref in K. destruct (look b_name (Some n) ts) eqn:E; try discriminate. exfalso. exact (look_wild _ _ _ E).
Qed.

(** A configuration which names everything it refers to. *)
Definition complete (f : conf) (o : opts) : Prop :=
  match o_id o with IKeystore (Some _) (Some _) | ILocal _ _ _ => True | _ => False end /\
  (forall o', counts f o o' -> o_ca o' <> GTrust None /\ o_ee o' <> GTrust None) /\
  (forall n e, o_ref o = Some n -> In e (f_eps f) -> e_name e = n -> e_tls e <> None).

Lemma setup_spec f o r l : setup f o = (r, l) ->
  match r with
  | Ok (x, k, s) =>
      (exists p fmt d, names_own f (o_id o) p fmt d /\ lib_cert d = Some x /\ lib_key p fmt = Some k) /\
      (exists cs xs, lists f (o_ca o) cs /\ Forall2 reads cs xs /\
         ((o_ref o = None /\ s = xs /\ sum (f_ts f) [o_ca o; o_ee o] <> Ok 0%N) \/
          (exists n o' cs' xs', o_ref o = Some n /\ referenced f n = Ok o' /\ lists f (o_ca o') cs' /\ Forall2 reads cs' xs' /\ s = xs ++ xs' /\
             sum (f_ts f) [o_ca o; o_ee o; o_ca o'; o_ee o'] <> Ok 0%N))) /\
      Permutation (made l) (held x k s) /\ freed l = []
  | Err => Permutation (made l) (freed l)
  | Wild => ~ complete f o
  end.
Proof.
  intro H. unfold TlsLoad.setup in H.
  destruct (load_server lib_cert lib_key (f_ks f) (o_id o)) as [[[x k]| |] l1] eqn:E1; pose proof (load_server_spec _ _ _ _ E1) as S1; cbv beta iota in S1.
  2:{ apply pair_equal_spec in H as [<- <-]. rewrite !made_app, !freed_app, cleanup_made, cleanup_freed. cbn [made freed flat_map app].
      rewrite app_nil_r. rewrite (Permutation_app_comm (freed l1)). cbn [app]. rewrite S1. apply Permutation_refl. }
  2:{ apply pair_equal_spec in H as [<- <-]. intros [C _]. destruct (o_id o) as [|[|] [|]]; tauto. }
  destruct S1 as [S1 ->].
  destruct (load_trusted lib_cert lib_add (f_ts f) (o_ca o) []) as [[[u| |] s1] l2] eqn:E2; pose proof (load_trusted_spec _ _ _ _ _ _ E2) as S2; cbn [app] in S2.
  2:{ destruct S2 as [y [-> P]]. apply pair_equal_spec in H as [<- <-]. rewrite !made_app, !freed_app, cleanup_made, cleanup_freed. cbn [made freed flat_map app].
      rewrite app_nil_r. fold (freed l2). fold (made l2). rewrite P. 
      change (Permutation (OCfg :: OStore :: OCert x :: OKey k :: map OCert y ++ freed l2) (freed l2 ++ OCfg :: OCert x :: OKey k :: map OCert y ++ [OStore])).
      rewrite (Permutation_app_comm (freed l2)). cbn [app]. constructor. rewrite <- app_assoc. rewrite perm_swap. constructor. rewrite perm_swap. constructor.
      cbn [app]. apply Permutation_middle. }
  2:{ apply pair_equal_spec in H as [<- <-]. intros [_ [C _]]. destruct (C o (c_self _ _)). congruence. }
  destruct S2 as [cs [xs [L1 [F1 [-> [P1 Q1]]]]]].
  assert (Fin : forall s l3 X (B : Prop), Permutation (made l3) (map OCert s) -> freed l3 = [] -> (X <> Ok 0%N -> B) -> X <> Err ->
            (match X with
             | Ok n => if N.eqb n 0 then (Err, ((([New OCfg; New OStore] ++ [New (OCert x); New (OKey k)]) ++ l3)) ++ cleanup (Some (x, k)) s)
                       else (Ok (x, k, s), (([New OCfg; New OStore] ++ [New (OCert x); New (OKey k)]) ++ l3))
             | Err => (Err, ((([New OCfg; New OStore] ++ [New (OCert x); New (OKey k)]) ++ l3)) ++ cleanup (Some (x, k)) s)
             | Wild => (Wild, (([New OCfg; New OStore] ++ [New (OCert x); New (OKey k)]) ++ l3)) end) = (r, l) ->
            match r with
            | Ok (x', k', s') => B /\ x' = x /\ k' = k /\ s' = s /\ Permutation (made l) (held x k s) /\ freed l = []
            | Err => Permutation (made l) (freed l)
            | Wild => X = Wild end).
  { clear. intros s l3 X B P Q HB Hn H. destruct X as [n| |]; [|contradiction Hn; reflexivity|inversion H; reflexivity].
    destruct (N.eqb_spec n 0) as [Z|Z].
    - apply pair_equal_spec in H as [<- <-]. rewrite !made_app, !freed_app, cleanup_made, cleanup_freed, Q, P. cbn [made freed flat_map app]. rewrite app_nil_r.
      rewrite app_comm_cons. constructor. rewrite perm_swap. constructor. rewrite perm_swap. constructor. apply Permutation_cons_append.
    - apply pair_equal_spec in H as [<- <-]. split; [apply HB; congruence|]. repeat split; [rewrite !made_app, P; cbn; apply Permutation_refl|rewrite !freed_app, Q; reflexivity]. }
  destruct (o_ref o) as [n|] eqn:Er.
  - destruct (referenced f n) as [o'| |] eqn:E3.
    + destruct (load_trusted lib_cert lib_add (f_ts f) (o_ca o') xs) as [[[u2| |] s2] l3] eqn:E4; pose proof (load_trusted_spec _ _ _ _ _ _ E4) as S4; cbv beta iota in S4.
      * destruct S4 as [cs' [xs' [L2 [F2 [-> [P2 Q2]]]]]].
        rewrite <- (app_assoc _ l2 l3) in H.
        pose proof (Fin (xs ++ xs') (l2 ++ l3) (sum (f_ts f) [o_ca o; o_ee o; o_ca o'; o_ee o'])
           (exists n o' cs' xs'', o_ref o = Some n /\ referenced f n = Ok o' /\ lists f (o_ca o') cs' /\ Forall2 reads cs' xs'' /\ xs ++ xs' = xs ++ xs'' /\
             sum (f_ts f) [o_ca o; o_ee o; o_ca o'; o_ee o'] <> Ok 0%N)) as G.
        specialize (G ltac:(rewrite made_app, map_app, P1, P2; apply Permutation_refl) ltac:(rewrite freed_app, Q1, Q2; reflexivity)).
        specialize (G ltac:(intro K; exists n, o', cs', xs'; auto 10) (sum_err _ _) H).
        destruct r as [[[x' k'] s']| |].
        -- destruct G as [B [-> [-> [-> [PM QM]]]]]. split; [exact S1|]. split; [|auto]. exists cs, xs. split; [exact L1|]. split; [exact F1|]. right.
           destruct B as [n1 [o1 [cs1 [xs1 [B1 [B2 [B3 [B4 [B5 B6]]]]]]]]]. exists n1, o1, cs1, xs1. rewrite <- Er. auto 10.
        -- exact G.
        -- intros [_ [C _]]. apply sum_wild in G. destruct (referenced_ok _ _ _ E3) as [e [I1 [I2 I3]]].
           destruct (C o (c_self _ _)) as [C1 C2]. destruct (C o' (c_ref _ _ _ _ _ Er I1 I2 I3)) as [C3 C4]. cbn in G. intuition congruence.
      * destruct S4 as [y [-> P4]]. apply pair_equal_spec in H as [<- <-]. rewrite !made_app, !freed_app, cleanup_made, cleanup_freed, Q1, P1, P4. cbn [made freed flat_map app].
        rewrite app_nil_r. rewrite map_app.
        rewrite (Permutation_app_comm (freed l3)). cbn [app]. constructor. rewrite <- !app_assoc. rewrite perm_swap. constructor. rewrite perm_swap. constructor.

        cbn [app]. rewrite !app_assoc. apply Permutation_middle.
      * apply pair_equal_spec in H as [<- <-]. destruct (referenced_ok _ _ _ E3) as [e [I1 [I2 I3]]]. intros [_ [C _]].
        destruct (C o' (c_ref _ _ _ _ _ Er I1 I2 I3)). congruence.
    + apply pair_equal_spec in H as [<- <-]. rewrite !made_app, !freed_app, cleanup_made, cleanup_freed, Q1, P1. cbn [made freed flat_map app]. rewrite app_nil_r.
      constructor. rewrite perm_swap. constructor. rewrite perm_swap. constructor. apply Permutation_cons_append.
    + apply pair_equal_spec in H as [<- <-]. unfold referenced in E3. destruct (look e_name (Some n) (f_eps f)) as [e| |] eqn:E5; [|discriminate|exfalso; exact (look_wild _ _ _ E5)].
      destruct (look_ok _ _ _ _ E5) as [I X]. assert (X1 : n = e_name e) by congruence. destruct (e_tls e) eqn:T; [discriminate|]. intros [_ [_ C]]. exact (C n e Er I (eq_sym X1) T).
  - pose proof (Fin xs l2 (sum (f_ts f) [o_ca o; o_ee o]) (sum (f_ts f) [o_ca o; o_ee o] <> Ok 0%N) P1 Q1 (fun K => K) (sum_err _ _) H) as G.
    destruct r as [[[x' k'] s']| |].
    + destruct G as [B [-> [-> [-> [PM QM]]]]]. split; [exact S1|]. split; [|auto]. exists cs, xs. auto 10.
    + exact G.
    + intros [_ [C _]]. apply sum_wild in G. destruct (C o (c_self _ _)). cbn in G. intuition congruence.
Qed.

(* ------------------------------------------------------------------ *)
(** ** C225 *)

(** The certificate and the key a server presents are those the endpoint names: both written there, or both of the same
    entry of the keystore, the certificate under the name given. *)
Theorem c225_own : forall f o x k s l, setup f o = (Ok (x, k, s), l) ->
  exists p fmt d, names_own f (o_id o) p fmt d /\ lib_cert d = Some x /\ lib_key p fmt = Some k.
Proof. intros f o x k s l H. exact (proj1 (setup_spec _ _ _ _ H)). Qed.

(** With names as keys there is only one pair. *)
Theorem c225_one : forall f i p fmt d p' fmt' d', keyed f -> names_own f i p fmt d -> names_own f i p' fmt' d' -> p = p' /\ fmt = fmt' /\ d = d'.
Proof.
  intros f i p fmt d p' fmt' d' [K1 [_ [_ K2]]] H1 H2. inversion H1; subst; inversion H2; subst; auto.
  assert (e0 = e) by (pose proof (look_in k_name _ e K1 H); pose proof (look_in k_name _ e0 K1 H7); congruence). subst e0.
  assert (c0 = c) by (pose proof (look_in c_name _ c (K2 _ H) H0); pose proof (look_in c_name _ c0 (K2 _ H) H8); congruence). subst c0.
  repeat split; congruence.
Qed.

(** And what is configured works: a certificate and a key that can be read, authorities that can be, and something to check
    clients with. *)
Theorem c225_works : forall f o p fmt d x k cs xs es,
  keyed f -> names_own f (o_id o) p fmt d -> lib_cert d = Some x -> lib_key p fmt = Some k ->
  lists f (o_ca o) cs -> Forall2 reads cs xs -> Forall (fun c => lib_add c = true) xs -> lists f (o_ee o) es -> cs ++ es <> [] -> o_ref o = None ->
  exists l, setup f o = (Ok (x, k, xs), l).
Proof.
  intros f o p fmt d x k cs xs es K N Hc Hk L R A L2 Ne Er. unfold TlsLoad.setup.
  assert (S : exists l, load_server lib_cert lib_key (f_ks f) (o_id o) = (Ok (x, k), l)).
  { destruct N as [c p fmt|e c p d I1 I2 Hp Hd].
    - cbn [load_server]. rewrite Hc, Hk. eauto.
    - cbn [load_server]. unfold ks_ref. destruct K as [K1 [_ [_ K2]]]. rewrite (look_in k_name _ e K1 I1), (look_in c_name _ c (K2 e I1) I2), Hp, Hd, Hc, Hk. eauto. }
  destruct S as [l1 ->].
  assert (T : forall s, exists l : list (ev cert key), add_all lib_cert lib_add cs s = (true, s ++ xs, l)).
  { clear -R A. revert A. induction R as [|c y cs xs [d [H1 H2]] R IH]; intros A s; cbn [add_all].
    - exists []. rewrite app_nil_r. reflexivity.
    - inversion A; subst. rewrite H1, H2, H3. destruct (IH H4 (s ++ [y])) as [l E]. rewrite E, <- app_assoc. eauto. }
  destruct (T []) as [l2 E2]. cbn [app] in E2.
  assert (T2 : exists l : list (ev cert key), load_trusted lib_cert lib_add (f_ts f) (o_ca o) [] = (Ok tt, xs, l)).
  { destruct L as [cs|b I]; cbn [load_trusted]; [rewrite E2; eauto|]. unfold ts_ref. rewrite (look_in b_name _ b (proj1 (proj2 K)) I), E2. eauto. }
  destruct T2 as [l3 ->]. rewrite Er.
  assert (Nn : forall g c, lists f g c -> num_certs (f_ts f) g = Ok (N.of_nat (length c))).
  { intros g c Lg. destruct Lg as [c|b I]; cbn [num_certs]; [reflexivity|]. unfold ts_ref. rewrite (look_in b_name _ b (proj1 (proj2 K)) I). reflexivity. }
  cbn [sum]. rewrite (Nn _ _ L), (Nn _ _ L2). destruct (N.eqb_spec (N.of_nat (length cs) + (N.of_nat (length es) + 0)) 0) as [Z|Z]; [|eauto].
  exfalso. apply Ne. destruct cs; [destruct es; [reflexivity|cbn [length] in Z; lia]|cbn [length] in Z; lia].
Qed.

(* ------------------------------------------------------------------ *)
(** ** C226 *)

(** The authorities of clients are exactly those of the endpoint and then of the one it references, every one of them. *)
Theorem c226_trusted : forall f o x k s l, keyed f -> setup f o = (Ok (x, k, s), l) ->
  exists cs, lists f (o_ca o) cs /\
  match o_ref o with
  | None => Forall2 reads cs s
  | Some n => exists e o' cs', In e (f_eps f) /\ e_name e = n /\ e_tls e = Some o' /\ lists f (o_ca o') cs' /\ Forall2 reads (cs ++ cs') s
  end.
Proof.
  intros f o x k s l K H. destruct (setup_spec _ _ _ _ H) as [_ [[cs [xs [L [F D]]]] _]]. exists cs. split; [exact L|].
  destruct D as [[-> [-> _]]|[n [o' [cs' [xs' [-> [R [L' [F' [-> _]]]]]]]]]]; [exact F|].
  destruct (referenced_ok _ _ _ R) as [e [I1 [I2 I3]]]. exists e, o', cs'. repeat split; auto. apply Forall2_app; assumption.
Qed.

(* ------------------------------------------------------------------ *)
(** ** C227 *)

Definition no_certs (f : conf) (o : opts) : Prop := forall o' cs, counts f o o' -> lists f (o_ca o') cs \/ lists f (o_ee o') cs -> cs = [].

(** A server without certificates to check clients with sets up no connection; the full statement. *)
Definition c227_full : Prop := forall f o x, keyed f -> no_certs f o -> fst (setup f o) <> Ok x.

Definition resolves (f : conf) (g : grp) : Prop := exists cs, lists f g cs.
Lemma num_zero f g : keyed f -> resolves f g -> (forall cs, lists f g cs -> cs = []) -> num_certs (f_ts f) g = Ok 0%N.
Proof.
  intros K [cs R] Z. pose proof (Z cs R) as E. destruct R as [cs|b I]; cbn [num_certs]; [rewrite E; reflexivity|]. unfold ts_ref.
  destruct K as [_ [K _]]. rewrite (look_in b_name _ _ K I), E. reflexivity.
Qed.
Theorem c227_partial : forall f o x, keyed f -> no_certs f o ->
  (forall o', counts f o o' -> resolves f (o_ee o')) -> fst (setup f o) <> Ok x.
Proof.
  intros f o [[x k] s] K Z R H. destruct (setup f o) as [r l] eqn:E. cbn [fst] in H. subst r.
  destruct (setup_spec _ _ _ _ E) as [_ [[cs [xs [L [F D]]]] _]].
  assert (A : forall o', counts f o o' -> resolves f (o_ca o') -> num_certs (f_ts f) (o_ca o') = Ok 0%N /\ num_certs (f_ts f) (o_ee o') = Ok 0%N).
  { intros o' C C'. split; apply num_zero; auto; intros c Hc; apply (Z o' c C); auto. }
  destruct (A o (c_self _ _) (ex_intro _ _ L)) as [A1 A2].
  destruct D as [[_ [_ S]]|[n [o' [cs' [xs' [Er [Rf [L' [F' [_ S]]]]]]]]]].
  - apply S. cbn [sum]. rewrite A1, A2. reflexivity.
  - destruct (referenced_ok _ _ _ Rf) as [e [I1 [I2 I3]]]. destruct (A o' (c_ref _ _ _ _ _ Er I1 I2 I3) (ex_intro _ _ L')) as [A3 A4].
    apply S. cbn [sum]. rewrite A1, A2, A3, A4. reflexivity.
Qed.

(* ------------------------------------------------------------------ *)
(** ** C228 *)

(** Whatever fails, everything that was made is freed; if nothing fails, nothing is and the connection has it. *)
Theorem c228_memory : forall f o r l, setup f o = (r, l) ->
  match r with
  | Ok (x, k, s) => Permutation (made l) (held x k s) /\ freed l = []
  | Err => Permutation (made l) (freed l)
  | Wild => True
  end.
Proof. intros f o r l H. pose proof (setup_spec _ _ _ _ H) as S. destruct r as [[[x k] s]| |]; [tauto|exact S|exact Logic.I]. Qed.
(** Nothing undefined happens with a configuration that names everything it refers to. *)
Theorem c228_defined : forall f o l, complete f o -> setup f o <> (Wild, l).
Proof. intros f o l C H. exact (setup_spec _ _ _ _ H C). Qed.
End Spec.

(* ------------------------------------------------------------------ *)
(** ** Examples *)

Definition xcert (d : string) : option string := if String.eqb d "" then None else Some d.
Definition xkey (d : string) (n : nat) : option (string * nat) := if String.eqb d "" then None else Some (d, n).
Definition xconf : conf :=
  mkConf [mkK "k1" (Some "P1") 1 [mkC "a" (Some "C1a"); mkC "b" (Some "C1b")]; mkK "k2" (Some "P2") 2 [mkC "a" (Some "C2a")]]
         [mkB "cas" [mkC "x" (Some "X"); mkC "y" (Some "Y")]]
         [mkE "e1" (Some (mkO (ILocal None None 0) (GLocal [mkC "z" (Some "Z")]) (GLocal []) None)); mkE "e2" None].
Definition xopts : opts := mkO (IKeystore (Some "k2") (Some "a")) (GTrust (Some "cas")) (GLocal []) (Some "e1").
Example c225_ex : fst (setup xcert xkey (fun _ => true) xconf xopts) = Ok ("C2a", ("P2", 2), ["X"; "Y"; "Z"]) /\ keyed xconf /\ complete xconf xopts.
Proof.
  split; [reflexivity|]. split.
  - repeat split; cbn; try (repeat constructor; cbn; intuition discriminate). intros e [<-|[<-|[]]]; cbn; repeat constructor; cbn; intuition discriminate.
  - split; [exact Logic.I|]. split.
    + intros o' H. inversion H; subst; [split; discriminate|]. inversion H0; subst. cbn in H1. destruct H1 as [<-|[<-|[]]]; [|discriminate]. inversion H3; subst. split; discriminate.
    + intros n e H I E. inversion H; subst. cbn in I. destruct I as [<-|[<-|[]]]; discriminate.
Qed.

(** A reference to a bag that is not there counts as 65535 certificates. *)
Definition dopts : opts := mkO (ILocal (Some "C") (Some "P") 1) (GLocal []) (GTrust (Some "gone")) None.
Theorem c227_full_refuted : ~ c227_full xcert xkey (fun _ => true).
Proof.
  intro F. apply (F xconf dopts ("C", ("P", 1), [])); [exact (proj1 (proj2 c225_ex))| |reflexivity].
  intros o' cs C L. inversion C; subst; [|discriminate]. destruct L as [L|L]; inversion L; subst; [reflexivity|].
  cbn in H0. destruct H0 as [<-|[]]. discriminate.
Qed.
Definition eopts : opts := mkO (ILocal (Some "C") (Some "P") 1) (GLocal []) (GLocal []) None.
Example c227_ex : no_certs xconf eopts /\ resolves xconf (o_ee eopts) /\ fst (setup xcert xkey (fun _ => true) xconf eopts) = Err.
Proof.
  split; [|split; [exists []; constructor|reflexivity]]. intros o' cs C L. inversion C; subst; [|discriminate]. destruct L as [L|L]; inversion L; reflexivity.
Qed.
(** An incomplete configuration: a key is named but no certificate of it. *)
Example c228_wild : fst (setup xcert xkey (fun _ => true) xconf (mkO (IKeystore (Some "k1") None) (GLocal []) (GLocal []) None)) = Wild.
Proof. reflexivity. Qed.
Example c228_ex : let r := setup xcert xkey (fun c => negb (String.eqb c "Z")) xconf xopts in fst r = Err /\ length (made (snd r)) = 7.
Proof. split; reflexivity. Qed.

Print Assumptions c225_own.
Print Assumptions c225_one.
Print Assumptions c225_works.
Print Assumptions c226_trusted.
Print Assumptions c227_partial.
Print Assumptions c227_full_refuted.
Print Assumptions c228_memory.
Print Assumptions c228_defined.
