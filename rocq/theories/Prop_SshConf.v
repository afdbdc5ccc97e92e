(** Properties of the configuration of SSH users: C152-C154. *)
From Coq Require Import String List Arith Bool NArith ZArith Lia Permutation.
From Verif Require Import Bytes ChConf KsTs Prop_ChConf Prop_KsTs SshConf.
Import ListNotations.
Local Open Scope list_scope.

(* ------------------------------------------------------------------ *)
(** ** Specification *)

(** The configuration: endpoints, each with its SSH options if it has them: users, names of host keys, auth-timeout ([None]: it was not
    said yet, [Some None]: it was removed). *)
Record ucfg := mkUc { uc_pw : option bytes; uc_kb : bool; uc_none : bool }.
Record scfg := mkSc { sc_users : list (bytes * ucfg); sc_keys : list (bytes * unit); sc_time : option (option N) }.
Definition sconf := list (bytes * option scfg).

Inductive uset := Pw (v : option bytes) | Kb (b : bool) | No (b : bool).
Inductive sedit :=
| EEp (n : bytes) | EEpDel (n : bytes) | EAll | ESsh (n : bytes) | ESshDel (n : bytes)
| EUser (n u : bytes) | EUserDel (n u : bytes) | ESet (n u : bytes) (x : uset) | EKbd (n u : bytes)
| EKey (n k : bytes) | EKeyDel (n k : bytes) | EMove (n k : bytes) | ETime (n : bytes) (v : option N)
| SNothing | SBad.

Definition on_ssh (n : bytes) (g : scfg -> scfg) (c : sconf) : sconf := at_name n (option_map g) c.
Definition on_users (g : list (bytes * ucfg) -> list (bytes * ucfg)) (x : scfg) : scfg := mkSc (g (sc_users x)) (sc_keys x) (sc_time x).
Definition uput (x : uset) (u : ucfg) : ucfg :=
  match x with Pw v => mkUc v (uc_kb u) (uc_none u) | Kb b => mkUc (uc_pw u) b (uc_none u) | No b => mkUc (uc_pw u) (uc_kb u) b end.
Definition do_sedit (c : sconf) (e : sedit) : sconf :=
  match e with
  | EEp n => c ++ [(n, None)]
  | EEpDel n => without n c
  | EAll => []
  | ESsh n => at_name n (fun _ => Some (mkSc [] [] None)) c
  | ESshDel n => at_name n (fun _ => None) c
  | EUser n u => on_ssh n (on_users (fun l => l ++ [(u, mkUc None false false)])) c
  | EUserDel n u => on_ssh n (on_users (without u)) c
  | ESet n u x => on_ssh n (on_users (at_name u (uput x))) c
  | EKbd n u => on_ssh n (on_users (at_name u (uput (Kb false)))) c
  | EKey n k => on_ssh n (fun x => mkSc (sc_users x) (sc_keys x ++ [(k, tt)]) (sc_time x)) c
  | EKeyDel n k => on_ssh n (fun x => mkSc (sc_users x) (without k (sc_keys x)) (sc_time x)) c
  | ETime n v => on_ssh n (fun x => mkSc (sc_users x) (sc_keys x) (Some v)) c
  | EMove _ _ | SNothing | SBad => c                      (* the order of host keys is not in [sconf] *)
  end.

(** Edits that keep the data valid. *)
Definition syang_ok (c : sconf) (e : sedit) : Prop :=
  match e with
  | EEp n => ~ has n c
  | EEpDel n | ESshDel n | ETime n _ => exists x, In (n, Some x) c
  | EAll => forall b, In b c -> snd b <> None
  | ESsh n => In (n, None) c
  | EUser n u => exists x, In (n, Some x) c /\ ~ has u (sc_users x)
  | EUserDel n u | ESet n u _ | EKbd n u => exists x, In (n, Some x) c /\ has u (sc_users x)
  | EKey n k => exists x, In (n, Some x) c /\ ~ has k (sc_keys x)
  | EKeyDel n k | EMove n k => exists x, In (n, Some x) c /\ has k (sc_keys x)
  | SNothing => True
  | SBad => False
  end.
(** What the server is able to follow: the transport does not change, auth-timeout is not removed, the container keyboard-interactive
    is not removed from a user that stays, and there are not more than 65535 entries in a list.  The second and third are about values
    only: they are asked for if [v]. *)
Definition ssafe (v : bool) (c : sconf) (e : sedit) : Prop :=
  match e with
  | EEp _ => small c
  | EUser n _ => forall x, In (n, Some x) c -> small (sc_users x)
  | EKey n _ => forall x, In (n, Some x) c -> small (sc_keys x)
  | ESshDel _ => False
  | ETime _ None | EKbd _ _ => v = false
  | _ => True
  end.
Fixpoint sall (P : sconf -> sedit -> Prop) (c : sconf) (es : list sedit) : Prop :=
  match es with [] => True | e :: r => P c e /\ sall P (do_sedit c e) r end.

(** *** Reading a diff *)
Definition on_ep (p : list dnode) (f : bytes -> sedit) : sedit := match owner "endpoint" p with Some n => f n | None => SBad end.
Definition on_user (p : list dnode) (f : bytes -> bytes -> sedit) : sedit :=
  on_ep p (fun n => match owner "user" p with Some u => f n u | None => SBad end).
Definition scont (o : op) (new del : sedit) : sedit := match o with OCreate => new | ODelete => del | _ => SBad end.
Definition in_identity (anc : list dnode) : bool := match anc with a :: _ => beqb (d_name a) (bs "server-identity") | [] => false end.
Definition sedit_of (p : list dnode) (o : op) : sedit :=
  match p with
  | [] => SNothing
  | d :: anc =>
    let is n := beqb (d_name d) (bs n) in
    if is "listen" then scont o SNothing EAll
    else if is "endpoint" then (if d_list d then on_ep p (fun n => scont o (EEp n) (EEpDel n)) else SBad)
    else if is "ssh" then on_ep p (fun n => scont o (ESsh n) (ESshDel n))
    else if is "auth-timeout" then on_ep p (fun n => ETime n (match o with ODelete => None | _ => Some (d_num d) end))
    else if is "user" then (if d_list d then on_user p (fun n u => scont o (EUser n u) (EUserDel n u)) else SBad)
    else if is "password" then on_user p (fun n u => ESet n u (Pw (match o with ODelete => None | _ => Some (d_str d) end)))
    else if is "none" then on_user p (fun n u => scont o (ESet n u (No true)) (ESet n u (No false)))
    else if is "keyboard-interactive" then on_user p (fun n u => scont o SNothing (EKbd n u))
    else if is "use-system-auth" then on_user p (fun n u => scont o (ESet n u (Kb true)) (ESet n u (Kb false)))
    else if is "host-key" then
      (if in_identity anc then
         (if d_list d then match owner "host-key" p with
                           | Some k => on_ep p (fun n => match o with OCreate => EKey n k | ODelete => EKeyDel n k | _ => EMove n k end)
                           | None => SBad
                           end
          else SBad)
       else SNothing)
    else SNothing
  end%string.
(** The edits of a tree, in order. *)
Fixpoint sedits (d : dnode) (anc : list dnode) (parent : option op) : list sedit :=
  match d with
  | DN _ _ m _ _ _ kids =>
      match own_op m parent with
      | None => [SBad]
      | Some ONone => flat_map (fun k => sedits k (d :: anc) (Some ONone)) kids
      | Some ODelete => [sedit_of (d :: anc) ODelete]
      | Some o => sedit_of (d :: anc) o :: flat_map (fun k => sedits k (d :: anc) (Some o)) kids
      end
  end.

(** *** The server has a configuration: the entries and, if [v], the values. *)
Section Is.
Variable v : bool.
Definition user_is (b : bytes * ucfg) (y : user) : Prop :=
  u_name y = fst b /\ (v = true -> u_pw y = uc_pw (snd b) /\ u_kb y = uc_kb (snd b) /\ u_none y = uc_none (snd b)).
Definition key_is (b : bytes * unit) (y : hostkey) : Prop := h_name y = fst b.
Definition opts_is (x : scfg) (o : opts) : Prop :=
  rel user_is (sc_users x) (live (p_users o)) /\ rel key_is (sc_keys x) (live (p_keys o)) /\
  (v = true -> match sc_time x with Some (Some t) => p_timeout o = t | _ => True end).
Definition ep_is (b : bytes * option scfg) (y : endpt) : Prop :=
  e_name y = fst b /\ match snd b with None => e_opts y = ONull | Some x => exists o, e_opts y = OAt o /\ opts_is x o end.
Definition conf_is (c : sconf) (s : sst) : Prop := rel ep_is c (live (eps s)).
End Is.

(** Memory: every entry made is in use or was freed, once. *)
Definition pids (o : opts) : list nat := map u_id (live (p_users o)) ++ map h_id (live (p_keys o)).
Definition eids (x : endpt) : list nat := e_id x :: match e_opts x with OAt o => pids o | _ => [] end.
Definition saccounted (s : sst) : Prop := Permutation (s_freed s ++ flat_map eids (live (eps s))) (seq 0 (s_made s)).

(* ------------------------------------------------------------------ *)
(** ** Memory *)

Definition good_opts (o : opts) : Prop := arr_ok (p_users o) /\ arr_ok (p_keys o).
Definition good_ep (x : endpt) : Prop := match e_opts x with OAt o => good_opts o | ONull => True | ODangling => False end.
Definition smem (s : sst) : Prop := arr_ok (eps s) /\ Forall good_ep (live (eps s)) /\ saccounted s.

Lemma free_user_ok x f : True -> NoDup ([u_id x] ++ f) -> exists f1, free_user x f = Some f1 /\ Permutation f1 ([u_id x] ++ f).
Proof. intros _ D. inversion D; subst. exists (u_id x :: f). split; [now apply free_id_ok|reflexivity]. Qed.
Lemma free_hk_ok x f : True -> NoDup ([h_id x] ++ f) -> exists f1, free_hostkey x f = Some f1 /\ Permutation f1 ([h_id x] ++ f).
Proof. intros _ D. inversion D; subst. exists (h_id x :: f). split; [now apply free_id_ok|reflexivity]. Qed.
Lemma del_opts_ok o f : good_opts o -> NoDup (pids o ++ f) -> exists f1, del_opts o f = Some f1 /\ Permutation f1 (pids o ++ f).
Proof.
  intros [G1 G2] D. unfold del_opts, pids in *.
  assert (NoDup (map h_id (live (p_keys o)) ++ f)) as D1 by (rewrite <- app_assoc in D; now apply nodup_app_r in D).
  destruct (del_all_ok free_hostkey (fun y => [h_id y]) (fun _ => True) free_hk_ok (p_keys o) f G2) as (a1 & f1 & -> & P1 & _).
  { apply Forall_forall. auto. } { now rewrite flat_single. }
  rewrite flat_single in P1.
  destruct (del_all_ok free_user (fun y => [u_id y]) (fun _ => True) free_user_ok (p_users o) f1 G1) as (a2 & f2 & -> & P2 & _).
  { apply Forall_forall. auto. }
  { rewrite flat_single. apply (Permutation_NoDup (l := (map u_id (live (p_users o)) ++ map h_id (live (p_keys o))) ++ f)); [|exact D].
    rewrite <- app_assoc. now rewrite P1. }
  exists f2. split; [reflexivity|]. now rewrite P2, flat_single, P1, app_assoc.
Qed.
Definition ssh_ep (x : endpt) : Prop := good_ep x /\ exists o, e_opts x = OAt o.
Lemma free_endpt_ok x f : ssh_ep x -> NoDup (eids x ++ f) -> exists f1, free_endpt x f = Some f1 /\ Permutation f1 (eids x ++ f).
Proof.
  intros [G (o & E)] D. unfold free_endpt, eids, good_ep in *. rewrite E in *. cbn [app] in D. inversion D as [|? ? N D1]; subst.
  rewrite free_id_ok by (intros I; apply N, in_or_app; now right).
  destruct (del_opts_ok o (e_id x :: f) G) as (f1 & -> & P).
  - apply (Permutation_NoDup (l := e_id x :: pids o ++ f)); [apply Permutation_middle|exact D].
  - exists f1. split; [reflexivity|]. rewrite P. cbn [app]. symmetry. apply Permutation_middle.
Qed.

Lemma smem_put s a f m : smem s -> arr_ok a -> Forall good_ep (live a) -> s_made s <= m ->
  Permutation (f ++ flat_map eids (live a)) (seq (s_made s) (m - s_made s) ++ s_freed s ++ flat_map eids (live (eps s))) -> smem (mkSt a f m).
Proof.
  intros (_ & _ & AC) OK G L P. split; [exact OK|]. split; [exact G|]. unfold saccounted in *. cbn [s_freed eps s_made]. rewrite P, AC.
  rewrite Permutation_app_comm, <- seq_app. now replace (s_made s + (m - s_made s)) with m by lia.
Qed.
Lemma smem_wr s i x y f m : smem s -> nth_error (live (eps s)) i = Some x -> good_ep y -> s_made s <= m ->
  Permutation (f ++ eids y) (seq (s_made s) (m - s_made s) ++ s_freed s ++ eids x) -> smem (wr_endpt s i y f m).
Proof.
  intros M E G L P. pose proof M as (OK & GG & _). unfold wr_endpt. apply (smem_put s); auto.
  - unfold arr_ok in *. cbn. now rewrite len_set_at.
  - rewrite live_set_at, live_mk. now apply forall_set_at.
  - rewrite live_set_at, live_mk. destruct (set_at_perm _ _ _ E) as (rest & P1 & P2).
    rewrite (Permutation_flat_map eids (P2 y)), (Permutation_flat_map eids P1). cbn [flat_map].
    rewrite !app_assoc. apply Permutation_app_tail. rewrite P. now rewrite app_assoc.
Qed.
Lemma snodup s : smem s -> NoDup (s_freed s ++ flat_map eids (live (eps s))).
Proof. intros (_ & _ & AC). apply (Permutation_NoDup (l := seq 0 (s_made s))); [now symmetry|apply seq_NoDup]. Qed.
Lemma snodup_one s i x : smem s -> nth_error (live (eps s)) i = Some x -> NoDup (eids x ++ s_freed s).
Proof.
  intros M E. pose proof (snodup s M) as D. destruct (set_at_perm _ _ _ E) as (rest & P & _).
  apply (Permutation_NoDup (l' := s_freed s ++ eids x ++ flat_map eids rest)) in D; [|apply Permutation_app_head; apply (Permutation_flat_map eids P)].
  rewrite app_assoc in D. apply nodup_app_l in D. apply (Permutation_NoDup (l := s_freed s ++ eids x)); [apply Permutation_app_comm|exact D].
Qed.
Lemma good_at_ep s i x : smem s -> nth_error (live (eps s)) i = Some x -> good_ep x.
Proof. intros (_ & G & _) E. rewrite Forall_forall in G. apply G. eapply nth_error_In; eauto. Qed.

(* ------------------------------------------------------------------ *)
(** ** The options follow the configuration *)

Definition sub_ok (x : option scfg) : Prop := match x with Some z => NoDup (map fst (sc_users z)) /\ NoDup (map fst (sc_keys z)) | None => True end.
Definition swf (c : sconf) : Prop := NoDup (map fst c) /\ Forall (fun b => sub_ok (snd b)) c.
Lemma at_unique {B} (c : list (bytes * B)) n x y : NoDup (map fst c) -> In (n, x) c -> In (n, y) c -> x = y.
Proof.
  induction c as [|z r IH]; intros D I J; [easy|]. inversion D as [|? ? D1 D2]; subst.
  destruct I as [->|I], J as [E|J]; auto; try congruence; exfalso; apply D1; [|subst z]; cbn [fst].
  - now apply (in_map fst) in J.
  - now apply (in_map fst) in I.
Qed.
Lemma swf_at c n f : swf c -> (forall x, In (n, x) c -> sub_ok x -> sub_ok (f x)) -> swf (at_name n f c).
Proof. intros [D F] H. split; [now rewrite names_at_name|]. now apply forall_at_name. Qed.
Lemma do_sedit_wf c e : swf c -> syang_ok c e -> swf (do_sedit c e).
Proof.
  intros W Y. pose proof W as [D F]. destruct e; cbn [do_sedit syang_ok] in *; auto; unfold on_ssh; try (apply swf_at; [exact W|]).
  - split; [rewrite map_app; now apply nodup_snoc|]. apply Forall_app. split; [exact F|]. repeat constructor.
  - split; [now apply nodup_without|now apply forall_without].
  - split; constructor.
  - intros x _ _. split; constructor.
  - easy.
  - intros [x|] I S0; [|easy]. destruct Y as (z & J & N). assert (Some x = Some z) as [= ->] by (eapply at_unique; eauto).
    split; [|apply S0]. cbn. rewrite map_app. apply nodup_snoc; [apply S0|exact N].
  - intros [x|] _ S0; [|easy]. split; [|apply S0]. apply nodup_without, S0.
  - intros [v|] _ S0; [|easy]. split; [|apply S0]. cbn. rewrite names_at_name. apply S0.
  - intros [v|] _ S0; [|easy]. split; [|apply S0]. cbn. rewrite names_at_name. apply S0.
  - intros [x|] I S0; [|easy]. destruct Y as (z & J & N). assert (Some x = Some z) as [= ->] by (eapply at_unique; eauto).
    split; [apply S0|]. cbn. rewrite map_app. apply nodup_snoc; [apply S0|exact N].
  - intros [x|] _ S0; [|easy]. split; [apply S0|]. apply nodup_without, S0.
  - intros [x|] _ S0; [|easy]. exact S0.
Qed.

Section Follow.
Variable v : bool.
Local Notation user_is := (user_is v).
Local Notation opts_is := (opts_is v).
Local Notation ep_is := (ep_is v).
Local Notation conf_is := (conf_is v).
Local Notation ssafe := (ssafe v).

Lemma ep_nm b y : ep_is b y -> e_name y = fst b. Proof. now intros []. Qed.
Lemma user_nm b y : user_is b y -> u_name y = fst b. Proof. now intros []. Qed.
Lemma key_nm b y : key_is b y -> h_name y = fst b. Proof. auto. Qed.

Definition sgoes (c : sconf) (e : sedit) (r : sres) : Prop := exists s1, r = SOk s1 /\ conf_is (do_sedit c e) s1 /\ smem s1.

Lemma find_ep c p s n x g : swf c -> conf_is c s -> owner "endpoint" p = Some n -> In (n, x) c ->
  exists i y, nth_error (live (eps s)) i = Some y /\ e_name y = n /\ ep_is (n, x) y /\ with_endpt p s g = g i y.
Proof.
  intros [D _] H K I. assert (has n c) as HN by (now apply (in_map fst) in I).
  destruct (rel_find e_name ep_is ep_nm c (live (eps s)) n H HN) as (i & y & F & E & N).
  destruct (rel_in ep_is _ _ y H (nth_error_In _ _ E)) as ([m z] & J & O). pose proof (ep_nm _ _ O) as Q. cbn in Q.
  assert (m = n) as -> by congruence. assert (z = x) as -> by (eapply at_unique; eauto).
  exists i, y. unfold with_endpt. rewrite owner_key, K, F. auto.
Qed.
Lemma find_opts c p s n x g : swf c -> conf_is c s -> owner "endpoint" p = Some n -> In (n, Some x) c ->
  exists i y o, nth_error (live (eps s)) i = Some y /\ e_name y = n /\ e_opts y = OAt o /\ opts_is x o /\ with_opts p s g = g i y o.
Proof.
  intros W H K I. unfold with_opts.
  destruct (find_ep c p s n (Some x) (fun i x => match e_opts x with OAt o => g i x o | _ => SUb s end) W H K I) as (i & y & E & N & (_ & o & Q & O) & ->).
  exists i, y, o. now rewrite Q.
Qed.
Lemma find_user c p s n u x g : swf c -> conf_is c s -> owner "endpoint" p = Some n -> owner "user" p = Some u -> In (n, Some x) c -> has u (sc_users x) ->
  exists i y o j z, nth_error (live (eps s)) i = Some y /\ e_name y = n /\ e_opts y = OAt o /\ opts_is x o /\
                    nth_error (live (p_users o)) j = Some z /\ u_name z = u /\ with_user p s g = g i y o j z.
Proof.
  intros W H K K2 I HU. unfold with_user. rewrite owner_key, K2.
  edestruct (find_opts c p s n x) as (i & y & o & E & N & Q & O & ->); eauto. cbv beta.
  destruct (rel_find u_name user_is user_nm _ _ u (proj1 O) HU) as (j & z & -> & EZ & NZ). exists i, y, o, j, z. auto 10.
Qed.

(** Writing the options of an endpoint. *)
Lemma put_opts c s i y o n x o' f m g :
  swf c -> conf_is c s -> smem s -> nth_error (live (eps s)) i = Some y -> e_name y = n -> e_opts y = OAt o -> In (n, Some x) c ->
  opts_is (g x) o' -> good_opts o' -> s_made s <= m -> Permutation (f ++ pids o') (seq (s_made s) (m - s_made s) ++ s_freed s ++ pids o) ->
  conf_is (on_ssh n g c) (wr_endpt s i (set_opts y o') f m) /\ smem (wr_endpt s i (set_opts y o') f m).
Proof.
  intros [D _] H M E N Q I O G L P. split.
  - unfold conf_is, wr_endpt, on_ssh. cbn [eps]. rewrite live_set_at, live_mk. rewrite <- N. apply (rel_upd e_name ep_is ep_nm); auto.
    intros [b z] J Eb (_ & Z). cbn in Eb. subst b. rewrite N in J. assert (z = Some x) as -> by (eapply at_unique; eauto).
    split; [reflexivity|]. cbn. eauto.
  - apply (smem_wr s i y); auto. unfold eids. cbn [e_id e_opts set_opts]. rewrite Q. rewrite <- !Permutation_middle. now rewrite P.
Qed.
Lemma good_at_opts s i y o : smem s -> nth_error (live (eps s)) i = Some y -> e_opts y = OAt o -> good_opts o.
Proof. intros M E Q. pose proof (good_at_ep s i y M E) as G. unfold good_ep in G. now rewrite Q in G. Qed.
Lemma nodup_opts s i y o : smem s -> nth_error (live (eps s)) i = Some y -> e_opts y = OAt o -> NoDup (pids o ++ s_freed s).
Proof. intros M E Q. pose proof (snodup_one s i y M E) as D. unfold eids in D. rewrite Q in D. cbn [app] in D. now inversion D. Qed.
Lemma made_same (l : list nat) m : seq m (m - m) ++ l = l. Proof. now rewrite Nat.sub_diag. Qed.
Lemma made_next (l : list nat) m : seq m (S m - m) ++ l = m :: l. Proof. now replace (S m - m) with 1 by lia. Qed.

Lemma own_owner nm d anc n : beqb (d_name d) (bs nm) = true -> d_list d = true -> owner nm (d :: anc) = Some n -> own_key (d :: anc) = n.
Proof.
  destruct d as [dn il m st nu se kids]. cbn [d_name d_list owner own_key d_kids]. intros E ->. rewrite E.
  destruct kids as [|[kn ? ? ks ? ? ?] ?]; [easy|]. destruct (beqb kn (bs "name")); [|easy]. now intros [= ->].
Qed.

Lemma sgo_nothing c s : conf_is c s -> smem s -> sgoes c SNothing (SOk s). Proof. intros H M. exists s. auto. Qed.

Lemma sgo_all c s : swf c -> conf_is c s -> smem s -> syang_ok c EAll -> sgoes c EAll (h_listen ODelete s).
Proof.
  intros W H M Y. pose proof M as (OK & G & AC). cbn [h_listen syang_ok] in *.
  assert (Forall ssh_ep (live (eps s))) as GS.
  { rewrite Forall_forall in *. intros y I. split; [now apply G|]. destruct (rel_in ep_is _ _ y H I) as ([b [x|]] & J & _ & O); [|now apply Y in J].
    destruct O as (o & O & _). eauto. }
  assert (existsb (fun x => match e_opts x with ONull => true | _ => false end) (live (eps s)) = false) as ->.
  { apply not_true_is_false. intros X. apply existsb_exists in X as (y & I & X). rewrite Forall_forall in GS. destruct (GS y I) as [_ (o & O)]. now rewrite O in X. }
  destruct (del_all_ok free_endpt eids ssh_ep free_endpt_ok (eps s) (s_freed s) OK GS) as (a1 & f1 & -> & P & L & OK1).
  { apply (Permutation_NoDup (Permutation_app_comm _ _)), (snodup s M). }
  eexists. split; [reflexivity|]. split.
  - unfold conf_is. cbn [eps do_sedit]. rewrite L. apply rel_nil.
  - apply (smem_put s); auto; [rewrite L; constructor|]. rewrite L, made_same, P. cbn [flat_map]. rewrite app_nil_r. apply Permutation_app_comm.
Qed.

Lemma sgo_ep c d anc s n : swf c -> conf_is c s -> smem s -> own_key (d :: anc) = n -> small c -> sgoes c (EEp n) (h_endpoint (d :: anc) OCreate s).
Proof.
  intros W H M K SM. cbn [h_endpoint]. rewrite K. pose proof M as (OK & G & AC).
  destruct (add_small (mkEp (s_made s) n ONull) (eps s) OK) as (a & -> & L & OK1).
  { rewrite (rel_length e_name _ ep_nm _ _ H). exact SM. }
  eexists. split; [reflexivity|]. split.
  - unfold conf_is. cbn [eps do_sedit]. rewrite L. apply rel_add; [exact H|]. now split.
  - apply (smem_put s); auto.
    + rewrite L. apply Forall_app. split; [exact G|]. repeat constructor.
    + rewrite L, made_next, flat_map_app. cbn [flat_map eids e_id e_opts app]. rewrite app_assoc. symmetry. apply Permutation_cons_append.
Qed.
Lemma sgo_epdel c p s n : swf c -> conf_is c s -> smem s -> owner "endpoint" p = Some n -> syang_ok c (EEpDel n) -> sgoes c (EEpDel n) (h_endpoint p ODelete s).
Proof.
  intros W H M K (x & I). cbn [h_endpoint]. edestruct (find_ep c p s n (Some x)) as (i & y & E & N & (_ & o & Q & O) & ->); eauto. cbv beta. rewrite Q.
  pose proof M as (OK & G & AC). assert (ssh_ep y) as GS by (split; [now apply (good_at_ep s i)|eauto]).
  destruct (del_at_ok free_endpt eids ssh_ep free_endpt_ok (eps s) i y (s_freed s) OK E GS (snodup_one s i y M E)) as (a & f & -> & P & PL & OK1).
  eexists. split; [reflexivity|]. split.
  - unfold conf_is. cbn [eps do_sedit]. rewrite <- N. apply (rel_without e_name ep_is ep_nm c _ (live a) y H); [apply W|exact PL].
  - apply (smem_put s); auto.
    + rewrite <- PL in G. now inversion G.
    + rewrite made_same, P, <- (Permutation_flat_map eids PL). cbn [flat_map]. rewrite !app_assoc. apply Permutation_app_tail, Permutation_app_comm.
Qed.
Lemma sgo_ssh c p s n : swf c -> conf_is c s -> smem s -> owner "endpoint" p = Some n -> syang_ok c (ESsh n) -> sgoes c (ESsh n) (h_ssh p OCreate s).
Proof.
  intros W H M K I. unfold h_ssh. edestruct (find_ep c p s n None) as (i & y & E & N & (_ & Q) & ->); eauto. cbv beta iota. cbn [snd] in Q.
  eexists. split; [reflexivity|]. split.
  - unfold conf_is, wr_endpt. cbn [eps do_sedit]. rewrite live_set_at, live_mk. rewrite <- N. apply (rel_upd e_name ep_is ep_nm); auto; [apply W|].
    intros b _ Eb _. split; [now rewrite Eb|]. cbn. eexists. split; [reflexivity|]. repeat split; apply rel_nil.
  - apply (smem_wr s i y); auto.
    + split; unfold arr_ok; cbn; lia.
    + rewrite made_same. unfold eids. rewrite Q. reflexivity.
Qed.

(** Users. *)
Lemma put_users c s i y o n x u' f m g :
  swf c -> conf_is c s -> smem s -> nth_error (live (eps s)) i = Some y -> e_name y = n -> e_opts y = OAt o -> In (n, Some x) c -> opts_is x o ->
  rel user_is (g (sc_users x)) (live u') -> arr_ok u' -> s_made s <= m ->
  Permutation (f ++ map u_id (live u')) (seq (s_made s) (m - s_made s) ++ s_freed s ++ map u_id (live (p_users o))) ->
  conf_is (on_ssh n (on_users g) c) (wr_endpt s i (set_opts y (mkP u' (p_keys o) (p_timeout o))) f m) /\
  smem (wr_endpt s i (set_opts y (mkP u' (p_keys o) (p_timeout o))) f m).
Proof.
  intros W H M E N Q I O R A L P. apply (put_opts c s i y o n x); auto.
  - destruct O as (_ & O). now split.
  - split; [exact A|apply (good_at_opts s i y o M E Q)].
  - unfold pids. cbn [p_users p_keys]. rewrite !app_assoc. apply Permutation_app_tail. now rewrite P, app_assoc.
Qed.
Lemma swf_users c n x : swf c -> In (n, Some x) c -> NoDup (map fst (sc_users x)).
Proof. intros [_ F] I. rewrite Forall_forall in F. now apply F in I as [I _]. Qed.
Lemma swf_keys c n x : swf c -> In (n, Some x) c -> NoDup (map fst (sc_keys x)).
Proof. intros [_ F] I. rewrite Forall_forall in F. now apply F in I as [_ I]. Qed.

Lemma sgo_user c d anc s n u : swf c -> conf_is c s -> smem s -> owner "endpoint" (d :: anc) = Some n -> own_key (d :: anc) = u ->
  syang_ok c (EUser n u) -> ssafe c (EUser n u) -> sgoes c (EUser n u) (h_user (d :: anc) OCreate s).
Proof.
  intros W H M K K2 (x & I & _) SM. unfold h_user. edestruct (find_opts c (d :: anc) s n x) as (i & y & o & E & N & Q & O & ->); eauto. cbv beta iota.
  rewrite K2. destruct (add_small (mkU (s_made s) u None false false) (p_users o) (proj1 (good_at_opts s i y o M E Q))) as (a & -> & L & OK1).
  { rewrite (rel_length u_name _ user_nm _ _ (proj1 O)). now apply SM. }
  eexists. split; [reflexivity|]. cbn [do_sedit]. apply (put_users c s i y o n x); auto.
  - rewrite L. apply rel_add; [apply O|]. repeat split.
  - rewrite L, made_next, map_app. cbn [map u_id]. rewrite app_assoc. symmetry. apply Permutation_cons_append.
Qed.
Lemma sgo_userdel c p s n u : swf c -> conf_is c s -> smem s -> owner "endpoint" p = Some n -> owner "user" p = Some u ->
  syang_ok c (EUserDel n u) -> sgoes c (EUserDel n u) (h_user p ODelete s).
Proof.
  intros W H M K K2 (x & I & HU). unfold h_user. edestruct (find_opts c p s n x) as (i0 & y0 & o0 & _ & _ & _ & _ & ->); eauto. cbv beta iota.
  edestruct (find_user c p s n u x) as (i & y & o & j & z & E & N & Q & O & EZ & NZ & ->); eauto. cbv beta.
  pose proof (good_at_opts s i y o M E Q) as [G1 G2]. pose proof (nodup_opts s i y o M E Q) as D.
  destruct (set_at_perm _ _ _ EZ) as (rest & P0 & _).
  destruct (del_at_ok free_user (fun q => [u_id q]) (fun _ => True) free_user_ok (p_users o) j z (s_freed s) G1 EZ Logic.I) as (a & f & -> & P & PL & OK1).
  { unfold pids in D. rewrite (Permutation_map u_id P0) in D. cbn [map app] in *. inversion D as [|? ? D1 D2]; subst. constructor.
    - intros X. apply D1. apply in_or_app. now right.
    - now apply nodup_app_r in D2. }
  eexists. split; [reflexivity|]. cbn [do_sedit]. apply (put_users c s i y o n x); auto.
  - rewrite <- NZ. apply (rel_without u_name user_is user_nm _ _ (live a) z (proj1 O)); [exact (swf_users c n x W I)|exact PL].
  - rewrite made_same, P, <- (Permutation_map u_id PL). cbn [map app]. apply Permutation_middle.
Qed.
(** A value of a user. *)
Lemma sgo_set c p s n u x0 g : swf c -> conf_is c s -> smem s -> owner "endpoint" p = Some n -> owner "user" p = Some u -> syang_ok c (ESet n u x0) ->
  (forall z, u_id (g z) = u_id z) -> (forall b z, user_is b z -> user_is (fst b, uput x0 (snd b)) (g z)) ->
  sgoes c (ESet n u x0) (with_user p s (fun i x q j z => SOk (wr_user s i x q j (g z)))).
Proof.
  intros W H M K K2 (x & I & HU) GI GV. edestruct (find_user c p s n u x) as (i & y & o & j & z & E & N & Q & O & EZ & NZ & ->); eauto. cbv beta.
  pose proof (good_at_opts s i y o M E Q) as [G1 G2]. eexists. split; [reflexivity|]. cbn [do_sedit]. unfold wr_user.
  apply (put_users c s i y o n x); auto.
  - rewrite live_set_at, live_mk. rewrite <- NZ. apply (rel_upd u_name user_is user_nm); auto; [apply O|exact (swf_users c n x W I)].
  - unfold arr_ok in *. cbn [slots cnt]. now rewrite len_set_at.
  - rewrite made_same, live_set_at, live_mk. destruct (set_at_perm _ _ _ EZ) as (rest & P0 & P1).
    rewrite (Permutation_map u_id (P1 (g z))), (Permutation_map u_id P0). cbn [map]. now rewrite GI.
Qed.

(** Host keys. *)
Lemma put_keys c s i y o n x k' f m g :
  swf c -> conf_is c s -> smem s -> nth_error (live (eps s)) i = Some y -> e_name y = n -> e_opts y = OAt o -> In (n, Some x) c -> opts_is x o ->
  rel key_is (g (sc_keys x)) (live k') -> arr_ok k' -> s_made s <= m ->
  Permutation (f ++ map h_id (live k')) (seq (s_made s) (m - s_made s) ++ s_freed s ++ map h_id (live (p_keys o))) ->
  conf_is (on_ssh n (fun x => mkSc (sc_users x) (g (sc_keys x)) (sc_time x)) c) (wr_endpt s i (set_opts y (mkP (p_users o) k' (p_timeout o))) f m) /\
  smem (wr_endpt s i (set_opts y (mkP (p_users o) k' (p_timeout o))) f m).
Proof.
  intros W H M E N Q I O R A L P. apply (put_opts c s i y o n x); auto.
  - destruct O as (O1 & _ & O3). now split.
  - split; [apply (good_at_opts s i y o M E Q)|exact A].
  - unfold pids. cbn [p_users p_keys]. rewrite (Permutation_app_comm (map u_id _)), (Permutation_app_comm (map u_id _)).
    rewrite !app_assoc. apply Permutation_app_tail. now rewrite P, app_assoc.
Qed.
Lemma in_identity_eq d anc : equal_parent_name (d :: anc) 1 (bs "server-identity") = in_identity anc.
Proof. unfold equal_parent_name. cbn [nth_error]. now destruct anc. Qed.
Lemma sgo_key c d anc s n k : swf c -> conf_is c s -> smem s -> in_identity anc = true -> owner "endpoint" (d :: anc) = Some n -> own_key (d :: anc) = k ->
  syang_ok c (EKey n k) -> ssafe c (EKey n k) -> sgoes c (EKey n k) (h_hostkey (d :: anc) OCreate s).
Proof.
  intros W H M ID K K2 (x & I & _) SM. unfold h_hostkey. rewrite in_identity_eq, ID.
  edestruct (find_opts c (d :: anc) s n x) as (i & y & o & E & N & Q & O & ->); eauto. cbv beta iota.
  rewrite K2. destruct (add_small (mkH (s_made s) k) (p_keys o) (proj2 (good_at_opts s i y o M E Q))) as (a & -> & L & OK1).
  { rewrite (rel_length h_name _ key_nm _ _ (proj1 (proj2 O))). now apply SM. }
  eexists. split; [reflexivity|]. cbn [do_sedit]. apply (put_keys c s i y o n x _ _ _ (fun l => l ++ [(k, tt)])); auto.
  - rewrite L. apply rel_add; [apply O|]. reflexivity.
  - rewrite L, made_next, map_app. cbn [map h_id]. rewrite app_assoc. symmetry. apply Permutation_cons_append.
Qed.
Lemma sgo_keydel c d anc s n k : swf c -> conf_is c s -> smem s -> in_identity anc = true -> owner "endpoint" (d :: anc) = Some n ->
  owner "host-key" (d :: anc) = Some k -> syang_ok c (EKeyDel n k) -> sgoes c (EKeyDel n k) (h_hostkey (d :: anc) ODelete s).
Proof.
  intros W H M ID K K2 (x & I & HK). unfold h_hostkey. rewrite in_identity_eq, ID.
  edestruct (find_opts c (d :: anc) s n x) as (i & y & o & E & N & Q & O & ->); eauto. cbv beta iota. rewrite owner_key, K2.
  destruct (rel_find h_name key_is key_nm _ _ k (proj1 (proj2 O)) HK) as (j & z & -> & EZ & NZ).
  pose proof (good_at_opts s i y o M E Q) as [G1 G2]. pose proof (nodup_opts s i y o M E Q) as D.
  destruct (set_at_perm _ _ _ EZ) as (rest & P0 & _).
  destruct (del_at_ok free_hostkey (fun q => [h_id q]) (fun _ => True) free_hk_ok (p_keys o) j z (s_freed s) G2 EZ Logic.I) as (a & f & -> & P & PL & OK1).
  { unfold pids in D. rewrite <- app_assoc in D. apply nodup_app_r in D. rewrite (Permutation_map h_id P0) in D. cbn [map app] in *.
    inversion D as [|? ? D1 D2]; subst. constructor.
    - intros X. apply D1. apply in_or_app. now right.
    - now apply nodup_app_r in D2. }
  eexists. split; [reflexivity|]. cbn [do_sedit]. apply (put_keys c s i y o n x _ _ _ (without k)); auto.
  - rewrite <- NZ. apply (rel_without h_name key_is key_nm _ _ (live a) z (proj1 (proj2 O))); [exact (swf_keys c n x W I)|exact PL].
  - rewrite made_same, P, <- (Permutation_map h_id PL). cbn [map app]. apply Permutation_middle.
Qed.
Lemma sgo_time c d anc s n o : swf c -> conf_is c s -> smem s -> owner "endpoint" (d :: anc) = Some n -> setting o = true ->
  syang_ok c (ETime n (Some (d_num d))) -> sgoes c (ETime n (Some (d_num d))) (h_timeout (d :: anc) o s).
Proof.
  intros W H M K SO (x & I). unfold h_timeout. edestruct (find_opts c (d :: anc) s n x) as (i & y & q & E & N & Q & O & ->); eauto. cbv beta.
  rewrite SO. eexists. split; [reflexivity|]. cbn [do_sedit]. apply (put_opts c s i y q n x); auto.
  - destruct O as (O1 & O2 & _). now repeat split.
  - apply (good_at_opts s i y q M E Q).
  - now rewrite made_same.
Qed.

(** Changes of values only. *)
Lemma rel_at {A B} (R : bytes * B -> A -> Prop) n f c l : (forall b y, R b y -> R (fst b, f (snd b)) y) -> rel R c l -> rel R (at_name n f c) l.
Proof.
  intros G (l' & P & F). exists l'. split; [exact P|]. clear P. unfold at_name. induction F as [|b y c l' H F IH]; cbn; constructor; auto.
  destruct (beqb (fst b) n); auto.
Qed.
Lemma sgo_kbd c s n u : conf_is c s -> smem s -> v = false -> sgoes c (EKbd n u) (SOk s).
Proof.
  intros H M V. exists s. split; [reflexivity|]. split; [|exact M]. cbn [do_sedit]. apply rel_at; [|exact H].
  intros b y (O1 & O2). split; [exact O1|]. cbn [fst snd]. destruct (snd b) as [x|]; [|exact O2]. destruct O2 as (o & Q & O2 & O3 & O4).
  exists o. split; [exact Q|]. split; [|now split]. apply rel_at; [|exact O2]. intros b' z (U & _). split; [exact U|]. rewrite V. discriminate.
Qed.
Lemma sgo_untime c d anc s n : swf c -> conf_is c s -> smem s -> owner "endpoint" (d :: anc) = Some n -> syang_ok c (ETime n None) -> v = false ->
  sgoes c (ETime n None) (h_timeout (d :: anc) ODelete s).
Proof.
  intros W H M K (x & I) V. unfold h_timeout. edestruct (find_opts c (d :: anc) s n x) as (i & y & q & E & N & Q & O & ->); eauto. cbn [setting].
  exists s. split; [reflexivity|]. split; [|exact M]. cbn [do_sedit]. apply rel_at; [|exact H].
  intros b z (O1 & O2). split; [exact O1|]. cbn [fst snd]. destruct (snd b) as [x1|]; [|exact O2]. destruct O2 as (o & Q2 & O2 & O3 & O4).
  exists o. split; [exact Q2|]. now split.
Qed.

Ltac named E := apply beqb_spec in E; rewrite E in *.
Lemma sstep c s p o : swf c -> conf_is c s -> smem s -> o <> ONone -> syang_ok c (sedit_of p o) -> ssafe c (sedit_of p o) ->
  sgoes c (sedit_of p o) (s_handle p o s).
Proof.
  intros W H M NN Y SF. destruct p as [|d anc]; [now apply sgo_nothing|]. unfold sedit_of, s_handle, on_user, on_ep in *.
  destruct (beqb (d_name d) (bs "listen")) eqn:E1.
  { named E1. revert Y SF. lits. intros Y SF. destruct o; cbn [scont] in *; try easy; [now apply sgo_nothing|now apply sgo_all]. }
  destruct (beqb (d_name d) (bs "endpoint")) eqn:E2.
  { pose proof E2 as E. named E. revert Y SF. lits. intros Y SF. destruct (d_list d) eqn:DL; [|easy].
    destruct (owner "endpoint" (d :: anc)) as [n|] eqn:K; [|easy]. destruct o; cbn [scont] in *; try easy.
    - apply sgo_ep; auto. eapply own_owner; eauto. now rewrite E.
    - now apply sgo_epdel. }
  destruct (beqb (d_name d) (bs "ssh")) eqn:E3.
  { destruct (owner "endpoint" (d :: anc)) as [n|] eqn:K; [|easy]. destruct o; cbn [scont] in *; try easy. now apply sgo_ssh. }
  destruct (beqb (d_name d) (bs "auth-timeout")) eqn:E4.
  { destruct (owner "endpoint" (d :: anc)) as [n|] eqn:K; [|easy]. destruct o; cbn [Prop_SshConf.ssafe] in *; try easy; [now apply sgo_time|now apply sgo_untime|now apply sgo_time]. }
  destruct (beqb (d_name d) (bs "user")) eqn:E5.
  { pose proof E5 as E. named E. revert Y SF. lits. intros Y SF. destruct (d_list d) eqn:DL; [|easy].
    destruct (owner "endpoint" (d :: anc)) as [n|] eqn:K; [|easy]. destruct (owner "user" (d :: anc)) as [u|] eqn:K2; [|easy].
    destruct o; cbn [scont] in *; try easy.
    - apply sgo_user; auto. eapply own_owner; eauto. now rewrite E.
    - now apply sgo_userdel. }
  destruct (beqb (d_name d) (bs "password")) eqn:E6.
  { pose proof E6 as E. named E. revert Y SF. lits. intros Y SF.
    destruct (owner "endpoint" (d :: anc)) as [n|] eqn:K; [|easy]. destruct (owner "user" (d :: anc)) as [u|] eqn:K2; [|easy].
    unfold h_password. apply sgo_set; auto. intros b z (U1 & U2). split; [exact U1|]. intros V. destruct (U2 V) as (U3 & U4 & U5). destruct o; easy. }
  destruct (beqb (d_name d) (bs "none")) eqn:E7.
  { pose proof E7 as E. named E. revert Y SF. lits. intros Y SF.
    destruct (owner "endpoint" (d :: anc)) as [n|] eqn:K; [|easy]. destruct (owner "user" (d :: anc)) as [u|] eqn:K2; [|easy].
    unfold h_none. destruct o; cbn [scont] in *; try easy; apply sgo_set; auto; intros b z (U1 & U2); (split; [exact U1|]); intros V; destruct (U2 V) as (U3 & U4 & U5); easy. }
  destruct (beqb (d_name d) (bs "keyboard-interactive")) eqn:E8.
  { pose proof E8 as E. named E. revert Y SF. lits. intros Y SF.
    destruct (owner "endpoint" (d :: anc)) as [n|] eqn:K; [|easy]. destruct (owner "user" (d :: anc)) as [u|] eqn:K2; [|easy].
    destruct o; cbn [scont Prop_SshConf.ssafe] in *; try easy; [now apply sgo_nothing|now apply sgo_kbd]. }
  destruct (beqb (d_name d) (bs "use-system-auth")) eqn:E9.
  { pose proof E9 as E. named E. revert Y SF. lits. intros Y SF.
    destruct (owner "endpoint" (d :: anc)) as [n|] eqn:K; [|easy]. destruct (owner "user" (d :: anc)) as [u|] eqn:K2; [|easy].
    unfold h_sysauth. destruct o; cbn [scont] in *; try easy; apply sgo_set; auto; intros b z (U1 & U2); (split; [exact U1|]); intros V; destruct (U2 V) as (U3 & U4 & U5); easy. }
  destruct (beqb (d_name d) (bs "host-key")) eqn:E10; [|now apply sgo_nothing].
  destruct (in_identity anc) eqn:ID.
  2:{ unfold h_hostkey. rewrite in_identity_eq, ID. now apply sgo_nothing. }
  destruct (d_list d) eqn:DL; [|easy].
  destruct (owner "host-key" (d :: anc)) as [k|] eqn:K2; [|easy]. destruct (owner "endpoint" (d :: anc)) as [n|] eqn:K; [|easy].
  destruct o; try easy.
  - apply sgo_key; auto. eapply own_owner; eauto.
  - now apply sgo_keydel.
  - destruct Y as (x & I & _). unfold h_hostkey. rewrite in_identity_eq, ID.
    edestruct (find_opts c (d :: anc) s n x) as (i & y & q & _ & _ & _ & _ & ->); eauto. exists s. auto.
Qed.

Definition sok (c : sconf) (e : sedit) : Prop := syang_ok c e /\ ssafe c e.
Lemma sall_app P c a b : sall P c (a ++ b) <-> sall P c a /\ sall P (fold_left do_sedit a c) b.
Proof. revert c. induction a as [|e a IH]; intros c; cbn [app sall fold_left]; [tauto|]. rewrite IH. tauto. Qed.
Lemma sfold_wf es : forall c, swf c -> sall sok c es -> swf (fold_left do_sedit es c).
Proof. induction es as [|e es IH]; intros c W A; cbn [fold_left sall] in *; [exact W|]. destruct A as [[Y _] A]. apply IH; [|exact A]. now apply do_sedit_wf. Qed.
Lemma swalk_kids anc o : forall kids s,
  (fix go (ks : list dnode) (s : sst) : sres :=
     match ks with [] => SOk s | k :: r => match s_walk k anc o s with SOk s2 => go r s2 | x => x end end) kids s =
  fold_left (fun r k => match r with SOk s2 => s_walk k anc o s2 | x => x end) kids (SOk s).
Proof.
  assert (forall kids x, (forall s, x <> SOk s) -> fold_left (fun r k => match r with SOk s2 => s_walk k anc o s2 | x => x end) kids x = x) as ST.
  { induction kids as [|k r IH]; intros x N; [reflexivity|]. cbn. destruct x; [now edestruct N|apply IH, N..]. }
  induction kids as [|k r IH]; intros s; [reflexivity|]. cbn [fold_left]. destruct (s_walk k anc o s); [apply IH|symmetry; apply ST; discriminate..].
Qed.
Lemma swalk_ok : forall d anc parent c s, swf c -> conf_is c s -> smem s -> sall sok c (sedits d anc parent) ->
  exists s1, s_walk d anc parent s = SOk s1 /\ conf_is (fold_left do_sedit (sedits d anc parent) c) s1 /\ smem s1.
Proof.
  induction d as [n il m st nu se kids IH] using dnode_ind2. intros anc parent c s W H M A.
  cbn [s_walk sedits] in *. rewrite own_cur. set (d := DN n il m st nu se kids) in *.
  destruct (own_op m parent) as [o|]; [|cbn in A; unfold sok in A; cbn in A; tauto].
  assert (KIDS : forall q c s, swf c -> conf_is c s -> smem s -> sall sok c (flat_map (fun k => sedits k (d :: anc) q) kids) ->
            exists s1, fold_left (fun r k => match r with SOk s2 => s_walk k (d :: anc) q s2 | x => x end) kids (SOk s) = SOk s1 /\
                       conf_is (fold_left do_sedit (flat_map (fun k => sedits k (d :: anc) q) kids) c) s1 /\ smem s1).
  { clear A W H M c s. clearbody d. intros q. induction IH as [|k ks IK F IHF]; intros c s W H M A.
    - exists s. auto.
    - cbn [flat_map fold_left] in *. apply sall_app in A as [A1 A2].
      destruct (IK (d :: anc) q c s W H M A1) as (s1 & -> & H1 & M1). rewrite fold_left_app. apply IHF; auto. now apply sfold_wf. }
  destruct o.
  - rewrite swalk_kids. now apply KIDS.
  - cbn [sall fold_left] in A |- *. destruct A as ((Y & SF) & A). destruct (sstep c s (d :: anc) OCreate) as (s1 & E & H1 & M1); auto; [discriminate|].
    rewrite E. rewrite swalk_kids. apply KIDS; auto. now apply do_sedit_wf.
  - cbn [sall fold_left] in A |- *. destruct A as ((Y & SF) & A). destruct (sstep c s (d :: anc) ODelete) as (s1 & E & H1 & M1); auto; [discriminate|].
    rewrite E. exists s1. auto.
  - cbn [sall fold_left] in A |- *. destruct A as ((Y & SF) & A). destruct (sstep c s (d :: anc) OReplace) as (s1 & E & H1 & M1); auto; [discriminate|].
    rewrite E. rewrite swalk_kids. apply KIDS; auto. now apply do_sedit_wf.
Qed.

(* ------------------------------------------------------------------ *)
(** ** Sequences of calls *)

(** nc_server_config_setup_diff() and nc_server_config_setup_data() with trees of the container "listen". *)
Inductive scall := SDiff (d : dnode) | SData (d : dnode).
Definition do_scall (s : sst) (x : scall) : sres := match x with SDiff d => s_diff d s | SData d => s_data d s end.
Fixpoint srun (s : sst) (l : list scall) : sres := match l with [] => SOk s | x :: r => match do_scall s x with SOk s1 => srun s1 r | y => y end end.
(** A diff changes the configuration before, data replace it. *)
Definition scall_edits (x : scall) : list sedit := match x with SDiff d => sedits d [] None | SData d => EAll :: sedits d [] (Some OCreate) end.
Definition sedits_of (l : list scall) : list sedit := flat_map scall_edits l.

Lemma scall_ok x c s : swf c -> conf_is c s -> smem s -> sall sok c (scall_edits x) ->
  exists s1, do_scall s x = SOk s1 /\ conf_is (fold_left do_sedit (scall_edits x) c) s1 /\ smem s1.
Proof.
  intros W H M A. destruct x as [d|d]; cbn [do_scall scall_edits] in *.
  - now apply swalk_ok.
  - cbn [sall fold_left] in *. destruct A as [[Y _] A]. unfold s_data. destruct (sgo_all c s W H M Y) as (s1 & -> & H1 & M1).
    apply swalk_ok; auto. now apply (do_sedit_wf c EAll).
Qed.
Lemma srun_ok l : forall c s, swf c -> conf_is c s -> smem s -> sall sok c (sedits_of l) ->
  exists s1, srun s l = SOk s1 /\ conf_is (fold_left do_sedit (sedits_of l) c) s1 /\ smem s1.
Proof.
  induction l as [|x l IH]; intros c s W H M A; cbn [srun sedits_of flat_map] in *; [exists s; auto|].
  apply sall_app in A as [A1 A2]. destruct (scall_ok x c s W H M A1) as (s1 & -> & H1 & M1). rewrite fold_left_app.
  apply IH; auto. now apply sfold_wf.
Qed.
End Follow.
Lemma init_ok v : swf [] /\ conf_is v [] sinit /\ smem sinit.
Proof.
  split; [split; constructor|]. split; [apply rel_nil|]. split; [unfold arr_ok; cbn; lia|]. split; [constructor|]. unfold saccounted. cbn. reflexivity.
Qed.

(* ------------------------------------------------------------------ *)
(** ** Theorems *)

(** The configuration after the calls [l], made from no configuration. *)
Definition after_calls (l : list scall) : sconf := fold_left do_sedit (sedits_of l) [].

(** C152.  The users with their methods, the host keys and auth-timeout in use are those configured. *)
Theorem c152_follows_partial l : sall (sok true) [] (sedits_of l) ->
  exists s, srun sinit l = SOk s /\ conf_is true (after_calls l) s.
Proof.
  intros A. destruct (init_ok true) as (W & H & M). destruct (srun_ok true l [] sinit W H M A) as (s & R & H1 & _). eauto.
Qed.

(** C153.  Every entry made is in use or was freed, and none twice; with nothing configured all of them are freed. *)
Theorem c153_memory_partial l : sall (sok false) [] (sedits_of l) ->
  exists s, srun sinit l = SOk s /\ saccounted s /\ (after_calls l = [] -> Permutation (s_freed s) (seq 0 (s_made s))).
Proof.
  intros A. destruct (init_ok false) as (W & H & M). destruct (srun_ok false l [] sinit W H M A) as (s & R & H1 & (_ & _ & AC)).
  exists s. split; [exact R|]. split; [exact AC|]. intros E. unfold after_calls in E. rewrite E in H1.
  apply (rel_length e_name _ (ep_nm false)) in H1. destruct (live (eps s)) eqn:L; [|discriminate]. unfold saccounted in AC. rewrite L in AC. cbn in AC.
  now rewrite app_nil_r in AC.
Qed.

(** *** Who is authenticated *)
From Verif Require CStr SshKeys Prop_SshKeys SshAuth Prop_SshAuth.
(** The options of an endpoint as they are used by authentication; the public keys of users are not said. *)
Definition auth_user (y : user) (c : SshAuth.client) : Prop :=
  SshAuth.cl_name c = u_name y /\ SshAuth.cl_password c = u_pw y /\ SshAuth.cl_kbdint c = u_kb y /\ SshAuth.cl_none c = u_none y.
Definition used_by (s : sst) (n : bytes) (o : SshAuth.sshopts) : Prop :=
  exists us, the_users s n = Some us /\ Forall2 auth_user us (SshAuth.so_clients o) /\ SshAuth.so_ref o = None.

(** What a successful request of a configured user says. *)
Definition allowed (e : SshAuth.env) (c : ucfg) (m : SshAuth.method) : Prop :=
  match m with
  | SshAuth.MNone => uc_none c = true
  | SshAuth.MPassword p => exists stored pw, p = Some pw /\ uc_pw c = Some stored /\ Prop_SshKeys.matches (SshAuth.e_crypt e) stored pw
  | SshAuth.MKbdint rc => uc_kb c = true /\ rc = 0%Z
  | SshAuth.MPubkey _ s => s <> SshAuth.SigNone
  | SshAuth.MUnsupported => False
  end.

Lemma forall2_in_r {A B} (R : A -> B -> Prop) l m y : Forall2 R l m -> In y m -> exists x, In x l /\ R x y.
Proof. induction 1 as [|a b l m H F IH]; intros I; [easy|]. destruct I as [->|I]; [exists a; auto with datatypes|]. destruct (IH I) as (x & J & R0). exists x. auto with datatypes. Qed.
Lemma known_user c s n x o e u cl : swf c -> conf_is true c s -> In (n, Some x) c -> used_by s n o -> Prop_SshAuth.configured_user e o u cl ->
  exists uc, In (u, uc) (sc_users x) /\ SshAuth.cl_password cl = uc_pw uc /\ SshAuth.cl_kbdint cl = uc_kb uc /\ SshAuth.cl_none cl = uc_none uc.
Proof.
  intros W H I (us & TU & F & NR) (o' & R & IC & NU).
  assert (o' = o) as -> by (inversion R; [reflexivity|congruence]).
  destruct (forall2_in_r _ _ _ _ F IC) as (y & IY & A1 & A2 & A3 & A4).
  unfold the_users in TU. destruct (rel_find e_name (ep_is true) (ep_nm true) c (live (eps s)) n H) as (i & z & FZ & E & N).
  { now apply (in_map fst) in I. }
  rewrite FZ in TU. destruct (rel_in (ep_is true) _ _ z H (nth_error_In _ _ E)) as ([m w] & J & O1 & O2). cbn [fst snd] in *.
  assert (m = n) as -> by congruence. assert (w = Some x) as -> by (eapply at_unique; [apply W| |]; eauto).
  destruct O2 as (q & Q & O2 & _). rewrite Q in TU. injection TU as <-.
  destruct (rel_in (user_is true) _ _ y O2 IY) as ([u' uc] & K & U1 & U2). destruct (U2 eq_refl) as (U3 & U4 & U5). cbn [fst snd] in *.
  assert (u' = u) as -> by congruence. exists uc. repeat split; congruence.
Qed.

(** C154.  At an endpoint only configured users are authenticated, by what is configured for them. *)
Theorem c154_authenticated_partial l s n x o e ms st tr :
  sall (sok true) [] (sedits_of l) -> srun sinit l = SOk s -> In (n, Some x) (after_calls l) -> used_by s n o ->
  SshAuth.e_local e = Some true -> SshAuth.run e o ms SshAuth.fresh = Some (st, tr) -> Prop_SshAuth.authenticated tr ->
  exists u c, In (u, c) (sc_users x) /\ Prop_SshAuth.successes tr <> [] /\
              forall w m, In (w, m) (Prop_SshAuth.successes tr) -> w = u /\ allowed e c m.
Proof.
  intros A R I U L RN AU. destruct (init_ok true) as (W & H & M). destruct (srun_ok true l [] sinit W H M A) as (s' & R' & H1 & _).
  rewrite R in R'. injection R' as <-. pose proof (sfold_wf true _ [] W A) as W1.
  destruct (Prop_SshAuth.c29_identity e o ms st tr RN AU) as (u & c & _ & NE & EV & CL). destruct (CL L) as (c' & -> & CU).
  destruct (known_user _ s n x o e u c' W1 H1 I U CU) as (uc & IU & P1 & P2 & P3). exists u, uc. split; [exact IU|]. split; [exact NE|].
  intros w m J. destruct (EV w m J) as [-> E]. split; [reflexivity|]. destruct m; cbn [Prop_SshAuth.evidence allowed] in *.
  - destruct E as (c0 & [= <-] & E). congruence.
  - destruct E as (stored & pw & -> & MT & E). exists stored, pw. repeat split; congruence.
  - apply E.
  - destruct E as [-> E]. split; [congruence|reflexivity].
  - exact E.
Qed.
(** No request of a user that is not configured succeeds. *)
Theorem c154_others_partial l s n x o e ms st tr u m :
  sall (sok true) [] (sedits_of l) -> srun sinit l = SOk s -> In (n, Some x) (after_calls l) -> used_by s n o ->
  SshAuth.e_local e = Some true -> SshAuth.run e o ms SshAuth.fresh = Some (st, tr) -> ~ has u (sc_users x) ->
  ~ In (u, m) (Prop_SshAuth.successes tr).
Proof.
  intros A R I U L RN NH. destruct (init_ok true) as (W & H & M). destruct (srun_ok true l [] sinit W H M A) as (s' & R' & H1 & _).
  rewrite R in R'. injection R' as <-. pose proof (sfold_wf true _ [] W A) as W1.
  apply (Prop_SshAuth.c29_unconfigured e o ms st tr u m L); [|exact RN]. intros c CU.
  destruct (known_user _ s n x o e u c W1 H1 I U CU) as (uc & IU & _). apply NH. now apply (in_map fst) in IU.
Qed.

(* ------------------------------------------------------------------ *)
(** ** Cases and refutations *)
Definition getn {B} (n : bytes) (l : list (bytes * B)) : option B := option_map snd (find (fun x => beqb (fst x) n) l).
Lemma getn_in {B} n (l : list (bytes * B)) x : getn n l = Some x -> In (n, x) l.
Proof.
  unfold getn. destruct (find _ l) as [[m y]|] eqn:F; [|discriminate]. apply find_some in F as [I E]. cbn in *. apply beqb_spec in E as ->. now intros [= ->].
Qed.
Lemma getn_has {B} n (l : list (bytes * B)) x : getn n l = Some x -> has n l. Proof. intros E. apply getn_in in E. now apply (in_map fst) in E. Qed.
Lemma getn_not {B} n (l : list (bytes * B)) : getn n l = None -> ~ has n l.
Proof.
  unfold getn. destruct (find _ l) as [|] eqn:F; [discriminate|]. intros _ I. apply in_map_iff in I as ([m y] & E & I). cbn in E. subst m.
  apply (find_none _ _ F) in I. cbn in I. now rewrite Prop_ChConf.beqb_refl in I.
Qed.
Definition hasb {B} (n : bytes) (l : list (bytes * B)) : bool := match getn n l with Some _ => true | None => false end.
Definition at_ssh (n : bytes) (c : sconf) (f : scfg -> bool) : bool := match getn n c with Some (Some x) => f x | _ => false end.
Definition syangb (c : sconf) (e : sedit) : bool :=
  match e with
  | EEp n => negb (hasb n c)
  | EEpDel n | ESshDel n | ETime n _ => at_ssh n c (fun _ => true)
  | EAll => forallb (fun b => match snd b with Some _ => true | None => false end) c
  | ESsh n => match getn n c with Some None => true | _ => false end
  | EUser n u => at_ssh n c (fun x => negb (hasb u (sc_users x)))
  | EUserDel n u | ESet n u _ | EKbd n u => at_ssh n c (fun x => hasb u (sc_users x))
  | EKey n k => at_ssh n c (fun x => negb (hasb k (sc_keys x)))
  | EKeyDel n k | EMove n k => at_ssh n c (fun x => hasb k (sc_keys x))
  | SNothing => true
  | SBad => false
  end.
Lemma hasb_spec {B} n (l : list (bytes * B)) : if hasb n l then has n l else ~ has n l.
Proof. unfold hasb. destruct (getn n l) eqn:E; [now apply (getn_has _ _ _ E)|now apply getn_not]. Qed.
Lemma at_ssh_spec n c f : at_ssh n c f = true -> exists x, In (n, Some x) c /\ f x = true.
Proof. unfold at_ssh. destruct (getn n c) as [[x|]|] eqn:E; try discriminate. apply getn_in in E. eauto. Qed.
Lemma syangb_spec c e : syangb c e = true -> syang_ok c e.
Proof.
  destruct e; cbn [syangb syang_ok]; intros H; try discriminate; auto;
    try (apply at_ssh_spec in H as (z & I & H); exists z; try (split; [exact I|]);
         try match goal with H : context [hasb ?k ?l] |- _ => pose proof (hasb_spec k l) as HS; revert H HS; destruct (hasb k l); intros H HS end; easy).
  - pose proof (hasb_spec n c) as HS. now destruct (hasb n c).
  - rewrite forallb_forall in H. intros b I E. specialize (H b I). now rewrite E in H.
  - destruct (getn n c) as [[|]|] eqn:E; try discriminate. now apply getn_in in E.
Qed.
Definition ssafeb (c : sconf) (e : sedit) : bool :=
  match e with
  | EEp _ => smallb c
  | EUser _ _ => forallb (fun b => match snd b with Some x => smallb (sc_users x) | None => true end) c
  | EKey _ _ => forallb (fun b => match snd b with Some x => smallb (sc_keys x) | None => true end) c
  | ESshDel _ | ETime _ None | EKbd _ _ => false
  | _ => true
  end.
Lemma ssafeb_spec v c e : ssafeb c e = true -> ssafe v c e.
Proof.
  destruct e; cbn [ssafeb ssafe]; intros H; try discriminate; auto.
  - now apply N.ltb_lt.
  - rewrite forallb_forall in H. intros x I. specialize (H _ I). cbn in H. now apply N.ltb_lt.
  - rewrite forallb_forall in H. intros x I. specialize (H _ I). cbn in H. now apply N.ltb_lt.
  - destruct v0; easy.
Qed.
Fixpoint sallb (f : sconf -> sedit -> bool) (c : sconf) (es : list sedit) : bool := match es with [] => true | e :: r => f c e && sallb f (do_sedit c e) r end.
Lemma sallb_spec f (P : sconf -> sedit -> Prop) es : (forall c e, f c e = true -> P c e) -> forall c, sallb f c es = true -> sall P c es.
Proof. intros G. induction es as [|e r IH]; intros c H; [exact Logic.I|]. cbn in *. apply andb_prop in H as [H1 H2]. split; auto. Qed.
Definition sokb (c : sconf) (e : sedit) : bool := syangb c e && ssafeb c e.
Lemma sokb_spec v c e : sokb c e = true -> sok v c e.
Proof. intros H. apply andb_prop in H as [H1 H2]. split; [now apply syangb_spec|now apply ssafeb_spec]. Qed.

Definition num_leaf (n : string) (v : N) : dnode := DN (bs n) false None [] v 0 [].
Definition none_op (n : string) (ks : list dnode) : dnode := DN (bs n) false (Some (bs "none")) [] 0 0 ks.
Definition t_listen (ssh : list dnode) : list dnode := [cnr "endpoints" [lst "endpoint" "e1" [cnr "ssh" [cnr "ssh-server-parameters" ssh]]]].
Definition t_keys (ks : list dnode) : dnode := cnr "server-identity" ks.
Definition t_users (us : list dnode) : dnode := cnr "client-authentication" [cnr "users" us].
Definition t_data : dnode := cnr "listen" (t_listen
  [t_keys [lst "host-key" "k1" []; lst "host-key" "k2" []; lst "host-key" "k3" []];
   t_users [lst "user" "joe" [leaf "password" "$0$secret"]; lst "user" "ann" [cnr "keyboard-interactive" [leaf "use-system-auth" ""]]; lst "user" "eve" [leaf "none" ""]];
   num_leaf "auth-timeout" 10]).
Definition t_diff (ssh : list dnode) : dnode := none_op "listen" (t_listen ssh).
(** A user is removed, one gets another password, one a password in place of "none"; auth-timeout changes. *)
Definition t_calls : list scall :=
  [SData t_data;
   SDiff (t_diff [t_users [lsto "delete" "user" "ann" []; lst "user" "joe" [leafo "replace" "password" "$0$new"];
                           lst "user" "eve" [leafo "delete" "none" ""; leafo "create" "password" "$0$e"]];
                  DN (bs "auth-timeout") false (Some (bs "replace")) [] 20 0 []])].
Example t_calls_ok v : sall (sok v) [] (sedits_of t_calls).
Proof. apply (sallb_spec sokb); [apply sokb_spec|]. vm_compute. reflexivity. Qed.
Example t_calls_conf : after_calls t_calls =
  [(bs "e1", Some (mkSc [(bs "joe", mkUc (Some (bs "$0$new")) false false); (bs "eve", mkUc (Some (bs "$0$e")) false false)]
                        [(bs "k1", tt); (bs "k2", tt); (bs "k3", tt)] (Some (Some 20%N))))].
Proof. vm_compute. reflexivity. Qed.
Definition uview (y : user) := (u_name y, u_pw y, u_kb y, u_none y).
Example t_calls_run : exists s, srun sinit t_calls = SOk s /\ s_freed s = [5] /\ s_made s = 7 /\
  option_map (map uview) (the_users s (bs "e1")) = Some [(bs "joe", Some (bs "$0$new"), false, false); (bs "eve", Some (bs "$0$e"), false, false)].
Proof. eexists. split; [vm_compute; reflexivity|]. vm_compute. auto. Qed.
(** Removing all. *)
Example t_all_run : exists s, srun sinit (t_calls ++ [SDiff (DN (bs "listen") false (Some (bs "delete")) [] 0 0 [])]) = SOk s /\
  sall (sok true) [] (sedits_of (t_calls ++ [SDiff (DN (bs "listen") false (Some (bs "delete")) [] 0 0 [])])) /\
  after_calls (t_calls ++ [SDiff (DN (bs "listen") false (Some (bs "delete")) [] 0 0 [])]) = [] /\ length (s_freed s) = 7.
Proof.
  eexists. split; [vm_compute; reflexivity|]. split; [apply (sallb_spec sokb); [apply sokb_spec|vm_compute; reflexivity]|]. vm_compute. auto.
Qed.

(** With [t_calls], joe is authenticated by the new password and by that only. *)
Definition t_env : SshAuth.env := SshAuth.mkEnv (Some true) [] (fun _ _ => None) 20000%Z (fun _ => None) (fun _ => SshKeys.PErr) [] (fun _ => false) (fun _ => None) (fun _ _ => None).
Definition t_client (y : user) : SshAuth.client := SshAuth.mkCl (u_name y) (SshAuth.SLocal []) (u_pw y) (u_kb y) (u_none y).
Definition t_opts (s : sst) (n : bytes) : SshAuth.sshopts := SshAuth.mkOpts (match the_users s n with Some us => map t_client us | None => [] end) None.
Lemma t_used s n : the_users s n <> None -> used_by s n (t_opts s n).
Proof.
  unfold used_by, t_opts. destruct (the_users s n) as [us|]; [|easy]. intros _. exists us. split; [reflexivity|]. split; [|reflexivity].
  cbn. induction us; constructor; auto. repeat split.
Qed.
Definition t_login (m : SshAuth.method) (u : string) : list (bool * SshAuth.smsg) := [(true, SshAuth.AuthReq (bs u) m)].
Example c154_case : exists s st tr, srun sinit t_calls = SOk s /\ used_by s (bs "e1") (t_opts s (bs "e1")) /\
  SshAuth.run t_env (t_opts s (bs "e1")) (t_login (SshAuth.MPassword (Some (bs "secret"))) "joe" ++ t_login (SshAuth.MPassword (Some (bs "new"))) "joe") SshAuth.fresh = Some (st, tr) /\
  Prop_SshAuth.authenticated tr /\ Prop_SshAuth.successes tr = [(bs "joe", SshAuth.MPassword (Some (bs "new")))].
Proof.
  eexists. eexists. eexists. split; [vm_compute; reflexivity|]. split; [apply t_used; vm_compute; discriminate|].
  split; [vm_compute; reflexivity|]. split; [|vm_compute; reflexivity]. eexists. eexists. split; [right; left; reflexivity|left; reflexivity].
Qed.

(** The full statements are false.  Keyboard-interactive of a user that has a password too is removed, and the user is still
    authenticated by it. *)
Definition kbd_calls : list scall :=
  [SData (cnr "listen" (t_listen [t_users [lst "user" "ann" [leaf "password" "$0$a"; cnr "keyboard-interactive" [leaf "use-system-auth" ""]]]]));
   SDiff (t_diff [t_users [lst "user" "ann" [DN (bs "keyboard-interactive") false (Some (bs "delete")) [] 0 0 [leaf "use-system-auth" ""]]]])].
Theorem c154_keyboard_refuted : exists l s n x u uc o e ms st tr,
  sall syang_ok [] (sedits_of l) /\ srun sinit l = SOk s /\ In (n, Some x) (after_calls l) /\ In (u, uc) (sc_users x) /\ uc_kb uc = false /\
  used_by s n o /\ SshAuth.e_local e = Some true /\ SshAuth.run e o ms SshAuth.fresh = Some (st, tr) /\
  In (u, SshAuth.MKbdint 0) (Prop_SshAuth.successes tr).
Proof.
  exists kbd_calls. eexists. exists (bs "e1"). eexists. exists (bs "ann"). eexists. eexists. exists t_env, (t_login (SshAuth.MKbdint 0) "ann"). eexists. eexists.
  split; [apply (sallb_spec syangb); [apply syangb_spec|vm_compute; reflexivity]|]. split; [vm_compute; reflexivity|].
  split; [left; vm_compute; reflexivity|]. split; [left; reflexivity|]. split; [reflexivity|].
  split; [apply (t_used _ (bs "e1")); vm_compute; discriminate|]. split; [reflexivity|]. split; [vm_compute; reflexivity|]. left. reflexivity.
Qed.
(** auth-timeout (default 30) is removed, and the value removed is still in use. *)
Definition time_calls : list scall :=
  [SData t_data; SDiff (t_diff [DN (bs "auth-timeout") false (Some (bs "delete")) [] 10 0 []])].
Theorem c152_timeout_refuted : exists l s n x i y o,
  sall syang_ok [] (sedits_of l) /\ srun sinit l = SOk s /\ In (n, Some x) (after_calls l) /\ sc_time x = Some None /\
  find_at e_name (live (eps s)) n = Some (i, y) /\ e_opts y = OAt o /\ p_timeout o = 10%N.
Proof.
  assert (exists s i y o, srun sinit time_calls = SOk s /\ find_at e_name (live (eps s)) (bs "e1") = Some (i, y) /\ e_opts y = OAt o /\ p_timeout o = 10%N)
    as (s & i & y & o & R & F & E & T) by (do 4 eexists; split; [vm_compute; reflexivity|]; split; [vm_compute; reflexivity|]; split; reflexivity).
  assert (exists x, after_calls time_calls = [(bs "e1", Some x)] /\ sc_time x = Some None) as (x & A & ST) by (eexists; split; [vm_compute; reflexivity|reflexivity]).
  exists time_calls, s, (bs "e1"), x, i, y, o. split; [apply (sallb_spec syangb); [apply syangb_spec|vm_compute; reflexivity]|].
  rewrite A. split; [exact R|]. split; [now left|]. auto.
Qed.
(** The order of host keys is not the one configured after a host key is removed. *)
Definition order_calls : list scall :=
  [SData t_data; SDiff (t_diff [t_keys [lsto "delete" "host-key" "k1" []]])].
Theorem c152_order_refuted : exists l s n x i y o,
  sall (sok true) [] (sedits_of l) /\ srun sinit l = SOk s /\ In (n, Some x) (after_calls l) /\
  find_at e_name (live (eps s)) n = Some (i, y) /\ e_opts y = OAt o /\
  map fst (sc_keys x) = [bs "k2"; bs "k3"] /\ map h_name (live (p_keys o)) = [bs "k3"; bs "k2"].
Proof.
  assert (exists s i y o, srun sinit order_calls = SOk s /\ find_at e_name (live (eps s)) (bs "e1") = Some (i, y) /\ e_opts y = OAt o /\
            map h_name (live (p_keys o)) = [bs "k3"; bs "k2"])
    as (s & i & y & o & R & F & E & T) by (do 4 eexists; split; [vm_compute; reflexivity|]; split; [vm_compute; reflexivity|]; split; [reflexivity|vm_compute; reflexivity]).
  assert (exists x, after_calls order_calls = [(bs "e1", Some x)] /\ map fst (sc_keys x) = [bs "k2"; bs "k3"]) as (x & A & ST)
    by (eexists; split; [vm_compute; reflexivity|vm_compute; reflexivity]).
  exists order_calls, s, (bs "e1"), x, i, y, o. split; [apply (sallb_spec sokb); [apply sokb_spec|vm_compute; reflexivity]|].
  rewrite A. split; [exact R|]. split; [now left|]. auto.
Qed.
Print Assumptions c152_follows_partial.
Print Assumptions c153_memory_partial.
Print Assumptions c154_authenticated_partial.
Print Assumptions c154_others_partial.
Print Assumptions c154_keyboard_refuted.
Print Assumptions c152_timeout_refuted.
Print Assumptions c152_order_refuted.
